(** Property C106: what a distance is worth. *)
From Coq Require Import ZArith Reals Lra Lia Psatz.
From Flocq Require Import Core IEEE754.BinarySingleNaN.
From Verif Require Import Prelude F64 Common Spatial Bits_proofs Float_proofs Real_proofs Formula_proofs Spec_formula.
Local Open Scope R_scope.

Lemma amounts_close a x d : close a x d -> amounts_to a x d.
Proof.
  intros [Hx (r & Hr & R1 & R2)]. exists r. split; [exact Hr|]. apply Rabs_le. split; lra.
Qed.
Lemma lit_real m e : valid_binary 53 1024 (S754_finite false m e) = true -> is_real (S754_finite false m e) (IZR (Zpos m) * bpow radix2 e).
Proof.
  intros E. exists (SF2B _ E). split; [apply B2SF_SF2B|]. split; [reflexivity|]. rewrite B2R_SF2B. reflexivity.
Qed.
Lemma lit_down a m k : a = S754_finite false m (- Zpos k) -> valid_binary 53 1024 a = true ->
  is_real a (IZR (Zpos m) / IZR (Z.pow_pos 2 k)).
Proof. intros -> E. exact (lit_real _ _ E). Qed.

(** ** The tables *)
Lemma e_entry a n m k lo hi : a = S754_finite false m (- Zpos k) -> valid_binary 53 1024 a = true ->
  e_low ^ n = lo -> e_high ^ n = hi ->
  hi * (1 - 2 / 10000000000000000) <= IZR (Zpos m) / IZR (Z.pow_pos 2 k) <= lo * (1 + 2 / 10000000000000000) ->
  close a (exp (IZR (Z.of_nat n))) (2 / 10000000000000000).
Proof.
  intros E V <- <- [H1 H2]. split; [apply exp_pos|]. exists (IZR (Zpos m) / IZR (Z.pow_pos 2 k)).
  split; [by apply lit_down|]. rewrite <- INR_IZR_INZ. pose proof (exp_nat_bounds n) as [B1 B2].
  split; [eapply Rle_trans; [|exact H1]|eapply Rle_trans; [exact H2|]]; apply Rmult_le_compat_r; lra.
Qed.
Ltac entry m k :=
  eapply (e_entry _ _ m k); [vm_compute; reflexivity|vm_compute; reflexivity|reflexivity|reflexivity|];
  let d := eval vm_compute in (Z.pow_pos 2 k) in change (Z.pow_pos 2 k) with d; unfold e_low, e_high; cbn [Rpow_def.pow]; lra.
Lemma e_pow_close i : (i <= 7)%N -> close (e_pow i) (exp (IZR (Z.of_N i))) (2 / 10000000000000000).
Proof.
  intros Hi. destruct (N.leb_spec i 3) as [H3|H3].
  - assert (i = 0 \/ i = 1 \/ i = 2 \/ i = 3)%N as [-> |[-> |[-> | ->]]] by lia.
    + change (IZR (Z.of_N 0)) with (IZR (Z.of_nat 0)). entry 4503599627370496%positive 52%positive.
    + change (IZR (Z.of_N 1)) with (IZR (Z.of_nat 1)). entry 6121026514868073%positive 51%positive.
    + change (IZR (Z.of_N 2)) with (IZR (Z.of_nat 2)). entry 8319337573440942%positive 50%positive.
    + change (IZR (Z.of_N 3)) with (IZR (Z.of_nat 3)). entry 5653576037675270%positive 48%positive.
  - assert (i = 4 \/ i = 5 \/ i = 6 \/ i = 7)%N as [-> |[-> |[-> | ->]]] by lia.
    + change (IZR (Z.of_N 4)) with (IZR (Z.of_nat 4)). entry 7684006504512088%positive 47%positive.
    + change (IZR (Z.of_N 5)) with (IZR (Z.of_nat 5)). entry 5221823812744079%positive 45%positive.
    + change (IZR (Z.of_N 6)) with (IZR (Z.of_nat 6)). entry 7097194390798479%positive 44%positive.
    + change (IZR (Z.of_N 7)) with (IZR (Z.of_nat 7)). entry 4823043636387242%positive 42%positive.
Qed.
(** ** C106 The tables and what they are used for *)
(** E_POW holds the powers of e. *)
Theorem C106_e_pow : forall i, (i <= 7)%N -> amounts_to (e_pow i) (exp (IZR (Z.of_N i))) (2 / 10000000000000000).
Proof. intros i Hi. by apply amounts_close, e_pow_close. Qed.
Print Assumptions C106_e_pow.

(** The tiles in a mile, as a fraction; the value of a literal, as a fraction. *)
Definition up (k : Z) : Z := Z.max k 0.
Definition tiles_num (k : Z) : Z := (32 * 3 ^ up k * 2 ^ up (- k))%Z.
Definition tiles_den (k : Z) : Z := (40 * 2 ^ up k * 3 ^ up (- k))%Z.
Lemma pow_up b k : (0 < b)%Z -> 0 < IZR (b ^ up k).
Proof. intros H. apply IZR_lt. apply Z.pow_pos_nonneg; unfold up; lia. Qed.
Lemma tiles_frac z : tiles z = IZR (tiles_num (Z.of_N z - 14)) / IZR (tiles_den (Z.of_N z - 14)).
Proof.
  unfold tiles. set (k := (Z.of_N z - 14)%Z). clearbody k. unfold tiles_num, tiles_den. rewrite !mult_IZR.
  pose proof (pow_up 2 k ltac:(lia)). pose proof (pow_up 3 k ltac:(lia)).
  pose proof (pow_up 2 (- k) ltac:(lia)). pose proof (pow_up 3 (- k) ltac:(lia)).
  assert (E : powerRZ (3 / 2) k = IZR (3 ^ up k) * IZR (2 ^ up (- k)) / (IZR (2 ^ up k) * IZR (3 ^ up (- k)))).
  2: { rewrite E. field. repeat split; lra. }
  assert (P : forall b p, IZR b ^ Pos.to_nat p = IZR (b ^ Zpos p)).
  { intros b p. rewrite pow_IZR, positive_nat_Z. reflexivity. }
  destruct k as [|q|q]; cbn [powerRZ].
  - change (- 0)%Z with 0%Z. change (up 0) with 0%Z. rewrite !Z.pow_0_r. field.
  - change (up (Zpos q)) with (Zpos q) in *. change (up (- Zpos q)) with 0%Z. rewrite !Z.pow_0_r. rewrite <- !P in *.
    unfold Rdiv. rewrite Rpow_mult_distr, pow_inv. field. lra.
  - change (up (Zneg q)) with 0%Z in *. change (up (- Zneg q)) with (Zpos q) in *. rewrite !Z.pow_0_r. rewrite <- !P in *.
    unfold Rdiv. rewrite Rpow_mult_distr, pow_inv. field. lra.
Qed.
Definition tile_ok (z : N) : bool :=
  let k := (Z.of_N z - 14)%Z in let tn := tiles_num k in let td := tiles_den k in
  match tiles_per_mile z with
  | S754_finite false m e =>
      let vn := (Zpos m * 2 ^ up e)%Z in let vd := (2 ^ up (- e))%Z in
      valid_binary 53 1024 (S754_finite false m e) &&
      (Z.abs (vn * td - tn * vd) * 1000000000000000 <=? tn * vd)%Z && (tn <=? td * 2 ^ 60)%Z && (td <=? tn * 2 ^ 10)%Z
  | _ => false
  end.
Lemma bpow_frac e : bpow radix2 e = IZR (2 ^ up e) / IZR (2 ^ up (- e)).
Proof.
  destruct e as [|q|q].
  - change (- 0)%Z with 0%Z. change (up 0) with 0%Z. rewrite !Z.pow_0_r. cbn [bpow]. field.
  - change (up (Zpos q)) with (Zpos q). change (up (- Zpos q)) with 0%Z. rewrite Z.pow_0_r.
    rewrite <- (IZR_Zpower radix2) by lia. change (radix_val radix2) with 2%Z. field.
  - change (up (Zneg q)) with 0%Z. change (up (- Zneg q)) with (Zpos q). rewrite Z.pow_0_r.
    change (Zneg q) with (- Zpos q)%Z. rewrite bpow_opp. rewrite <- (IZR_Zpower radix2) by lia. change (radix_val radix2) with 2%Z.
    field. apply Rgt_not_eq, IZR_lt. apply Z.pow_pos_nonneg; lia.
Qed.
Lemma tiles_close z : (z < 64)%N ->
  close (tiles_per_mile z) (tiles z) (1 / 1000000000000000) /\ bpow radix2 (-10) <= tiles z <= bpow radix2 60.
Proof.
  intros Hz. assert (H : all_below tile_ok 6 0 = true) by (vm_compute; reflexivity).
  apply (all_below_ok _ _ _ z) in H; [|change (N.of_nat 6) with 6%N; lia]. unfold tile_ok in H. cbv zeta in H.
  rewrite tiles_frac. set (k := (Z.of_N z - 14)%Z) in *.
  destruct (tiles_per_mile z) as [s|s| |[] m e] eqn:Et; try discriminate.
  apply andb_prop in H as [H H0]. apply andb_prop in H as [H H1]. apply andb_prop in H as [V H2].
  apply Z.leb_le in H0, H1, H2. assert (Htd : 0 < IZR (tiles_den k)).
  { unfold tiles_den. rewrite !mult_IZR. pose proof (pow_up 2 k ltac:(lia)). pose proof (pow_up 3 (- k) ltac:(lia)).
    repeat apply Rmult_lt_0_compat; lra. }
  assert (Htn : 0 < IZR (tiles_num k)).
  { unfold tiles_num. rewrite !mult_IZR. pose proof (pow_up 3 k ltac:(lia)). pose proof (pow_up 2 (- k) ltac:(lia)).
    repeat apply Rmult_lt_0_compat; lra. }
  set (tn := tiles_num k) in *. set (td := tiles_den k) in *. clearbody tn td.
  assert (Hq : 0 < IZR tn / IZR td) by (by apply Rdiv_lt_0_compat).
  assert (Hvd : 0 < IZR (2 ^ up (- e))) by (apply pow_up; lia).
  split.
  - split; [exact Hq|]. exists (IZR (Zpos m) * bpow radix2 e). split; [exact (lit_real m e V)|]. rewrite bpow_frac.
    set (vd := (2 ^ up (- e))%Z) in *. assert (Hm : (Z.abs (Zpos m * 2 ^ up e * td - tn * vd) * 1000000000000000 <= tn * vd)%Z) by exact H2.
    set (vn := (Zpos m * 2 ^ up e)%Z) in *. assert (Ev : IZR (Zpos m) * (IZR (2 ^ up e) / IZR vd) = IZR vn / IZR vd).
    { unfold vn. rewrite mult_IZR. field. lra. }
    rewrite Ev. clearbody vn vd. apply IZR_le in Hm. rewrite !mult_IZR, abs_IZR, minus_IZR, !mult_IZR in Hm.
    set (x := IZR vn) in *. set (y := IZR vd) in *. set (n := IZR tn) in *. set (t := IZR td) in *. clearbody x y n t.
    assert (Ha : - (n * y / 1000000000000000) <= x * t - n * y <= n * y / 1000000000000000).
    { apply Rabs_le_inv. lra. }
    split.
    + apply Rmult_le_reg_r with (t * y); [by apply Rmult_lt_0_compat|].
      replace (n / t * (1 - 1 / 1000000000000000) * (t * y)) with (n * y * (1 - 1 / 1000000000000000)) by (field; lra).
      replace (x / y * (t * y)) with (x * t) by (field; lra). lra.
    + apply Rmult_le_reg_r with (t * y); [by apply Rmult_lt_0_compat|].
      replace (n / t * (1 + 1 / 1000000000000000) * (t * y)) with (n * y * (1 + 1 / 1000000000000000)) by (field; lra).
      replace (x / y * (t * y)) with (x * t) by (field; lra). lra.
  - apply IZR_le in H0, H1. rewrite mult_IZR in H0, H1.
    change (IZR (2 ^ 60)) with (IZR (radix2 ^ 60)) in H1. change (IZR (2 ^ 10)) with (IZR (radix2 ^ 10)) in H0.
    rewrite IZR_Zpower in H0, H1 by lia. split.
    + apply Rmult_le_reg_r with (IZR td); [exact Htd|]. replace (IZR tn / IZR td * IZR td) with (IZR tn) by (field; lra).
      change (-10)%Z with (- (10))%Z. rewrite bpow_opp. pose proof (bpow_gt_0 radix2 10).
      apply Rmult_le_reg_l with (bpow radix2 10); [assumption|].
      replace (bpow radix2 10 * (/ bpow radix2 10 * IZR td)) with (IZR td) by (field; lra). lra.
    + apply Rmult_le_reg_r with (IZR td); [exact Htd|]. replace (IZR tn / IZR td * IZR td) with (IZR tn) by (field; lra). lra.
Qed.
(** The tiles in a mile, for zooms in the table and beyond it. *)
Theorem C106_tiles : forall zoom, (zoom < 64)%N -> amounts_to (tiles_per_mile zoom) (tiles zoom) (1 / 1000000000000000).
Proof. intros z Hz. by apply amounts_close, tiles_close. Qed.
Print Assumptions C106_tiles.

(** ** The value *)
Lemma one_close : close f_one 1 0.
Proof. split; [lra|]. exists 1. split; [exact (is_real_of_N 1 ltac:(discriminate))|lra]. Qed.
Lemma six_close : close (f_of_N 6) 6 0.
Proof. split; [lra|]. exists 6. split; [exact (is_real_of_N 6 ltac:(discriminate))|lra]. Qed.
Lemma eight_close : close f_08 (8 / 10) (2 / 10000000000000000).
Proof.
  split; [lra|]. exists (IZR 7205759403792794 / IZR (Z.pow_pos 2 53)). split; [apply lit_down; vm_compute; reflexivity|].
  change (Z.pow_pos 2 53) with 9007199254740992%Z. lra.
Qed.
Lemma pow2_bpow n : 2 ^ n = bpow radix2 (Z.of_nat n).
Proof. rewrite bpow_powerRZ, <- pow_powerRZ. reflexivity. Qed.
Lemma mid_range x a b : bpow radix2 a <= x <= bpow radix2 b -> (-1000 <= a)%Z -> (b <= 1000)%Z -> mid x.
Proof.
  intros [H1 H2] Ha Hb. split; [eapply Rle_trans; [|exact H1]|eapply Rle_trans; [exact H2|]]; by apply bpow_le.
Qed.
Lemma range_mul x y a b c d : bpow radix2 a <= x <= bpow radix2 b -> bpow radix2 c <= y <= bpow radix2 d ->
  bpow radix2 (a + c) <= x * y <= bpow radix2 (b + d).
Proof.
  intros [H1 H2] [H3 H4]. pose proof (bpow_gt_0 radix2 a). pose proof (bpow_gt_0 radix2 c). rewrite !bpow_plus.
  split; apply Rmult_le_compat; lra.
Qed.
Lemma range_div x y a b c d : bpow radix2 a <= x <= bpow radix2 b -> bpow radix2 c <= y <= bpow radix2 d ->
  bpow radix2 (a - d) <= x / y <= bpow radix2 (b - c).
Proof.
  intros H [H3 H4]. pose proof (bpow_gt_0 radix2 c). apply (range_mul x (/ y) a b (- d) (- c)); [exact H|].
  rewrite !bpow_opp. split; apply Rinv_le_contravar; lra.
Qed.
Lemma factor_close s : close (fadd (fdiv (fmul (f_of_N 6) (e_pow (if (7 <? s)%N then 7 else s))) (e_pow 7)) f_one)
    (6 * exp (IZR (Z.of_N (N.min s 7))) / exp 7 + 1) (11 / 10000000000000000) /\
  bpow radix2 0 <= 6 * exp (IZR (Z.of_N (N.min s 7))) / exp 7 + 1 <= bpow radix2 3.
Proof.
  replace (if (7 <? s)%N then 7%N else s) with (N.min s 7) by (destruct (N.ltb_spec 7 s); lia).
  set (i := N.min s 7). assert (Hi : (i <= 7)%N) by lia. clearbody i.
  pose proof (e_pow_close i Hi) as Hs. pose proof (e_pow_close 7 ltac:(lia)) as H7. change (IZR (Z.of_N 7)) with 7 in H7.
  assert (E0 : 1 <= exp (IZR (Z.of_N i))).
  { rewrite <- exp_0. destruct (N.eq_0_gt_0_cases i) as [-> |Hp]; [right; reflexivity|]. left. apply exp_increasing, IZR_lt. lia. }
  assert (E7 : exp (IZR (Z.of_N i)) <= exp 7).
  { destruct (N.eq_dec i 7) as [-> |Hn]; [right; reflexivity|]. left. apply exp_increasing, IZR_lt. lia. }
  assert (Ev : 1000 <= exp 7 <= 1100).
  { pose proof (exp_nat_bounds 7) as [B1 B2]. replace (INR 7) with 7 in B1, B2 by (cbn; ring).
    unfold e_low, e_high in *. cbn [Rpow_def.pow] in *. lra. }
  set (v := exp (IZR (Z.of_N i))) in *. set (w := exp 7) in *. clearbody v w.
  assert (R1 : bpow radix2 0 <= 6 * v <= bpow radix2 13) by (change (bpow radix2 0) with 1; change (bpow radix2 13) with 8192; lra).
  assert (R2 : bpow radix2 0 <= w <= bpow radix2 11) by (change (bpow radix2 0) with 1; change (bpow radix2 11) with 2048; lra).
  pose proof (range_div _ _ _ _ _ _ R1 R2) as R3. cbn [Z.sub Z.opp Z.add] in R3.
  assert (Hq : 0 < 6 * v / w <= 6).
  { split; [apply Rdiv_lt_0_compat; lra|]. apply Rmult_le_reg_r with w; [lra|]. replace (6 * v / w * w) with (6 * v) by (field; lra). lra. }
  assert (R4 : bpow radix2 0 <= 6 * v / w + 1 <= bpow radix2 3) by (change (bpow radix2 0) with 1; change (bpow radix2 3) with 8; lra).
  split; [|exact R4].
  assert (C1 : close (fmul (f_of_N 6) (e_pow i)) (6 * v) (41 / 100000000000000000)).
  { eapply close_mul; [exact six_close|exact Hs| | | | |]; try (unfold small; lra). apply (mid_range _ _ _ R1); lia. }
  assert (C2 : close (fdiv (fmul (f_of_N 6) (e_pow i)) (e_pow 7)) (6 * v / w) (83 / 100000000000000000)).
  { eapply close_div; [exact C1|exact H7| | | | |]; try (unfold small; lra). apply (mid_range _ _ _ R3); lia. }
  eapply close_add; [exact C2|exact one_close| | | | |]; try (unfold small; lra). apply (mid_range _ _ _ R4); lia.
Qed.
Lemma worth_close :
  forall zoom distance score radius d r, (zoom < 64)%N ->
  is_real distance d -> 0 <= d <= 2 ^ 200 -> is_real radius r -> / 2 ^ 200 <= r <= 2 ^ 200 ->
  close (scoredist zoom distance score radius) (worth zoom d score r) (4 / 1000000000000000).
Proof.
  intros z dist s radius d r Hz Hd Hd0 Hr Hr0. unfold scoredist, worth, proximity_radius. cbv zeta.
  destruct (factor_close s) as [Cf Rf].
  replace (if (z <? 6)%N then 6%N else z) with (N.max z 6) by (destruct (N.ltb_spec z 6); lia).
  destruct (tiles_close (N.max z 6) ltac:(lia)) as [Ct Rt].
  rewrite pow2_bpow in Hd0, Hr0. change (Z.of_nat 200) with 200%Z in Hd0, Hr0. rewrite <- bpow_opp in Hr0.
  pose proof (bpow_gt_0 radix2 (- (200))) as Hp.
  assert (Cr : close radius r 0) by (split; [lra|]; exists r; split; [exact Hr|lra]).
  set (d' := if Rlt_dec d 1 then 8 / 10 else d).
  assert (Cd : close (if fltb dist f_one then f_08 else dist) d' (2 / 10000000000000000) /\ bpow radix2 (-1) <= d' <= bpow radix2 200).
  { assert (H1 : is_real f_one 1) by exact (is_real_of_N 1 ltac:(discriminate)).
    unfold fltb, SFltb. rewrite (is_real_compare _ _ _ _ Hd H1).
    change (bpow radix2 (-1)) with (/ 2). assert (1 <= bpow radix2 200) by (change 1 with (bpow radix2 0); apply bpow_le; lia).
    unfold d'. destruct (Rlt_dec d 1) as [Hl|Hl].
    - rewrite Rcompare_Lt by exact Hl. split; [exact eight_close|lra].
    - destruct (Rcompare_spec d 1); [lra| |]; (split; [|lra]); (split; [lra|]); exists d; (split; [exact Hd|lra]). }
  destruct Cd as [Cd Rd]. clearbody d'.
  pose proof (range_mul _ _ _ _ _ _ Hr0 Rt) as Rm. pose proof (range_div _ _ _ _ _ _ Rd Rm) as Rq.
  set (t := tiles (N.max z 6)) in *. clearbody t. set (f := 6 * exp (IZR (Z.of_N (N.min s 7))) / exp 7 + 1) in *. clearbody f.
  assert (C1 : close (fmul radius (tiles_per_mile (N.max z 6))) (r * t) (122 / 100000000000000000)).
  { eapply close_mul; [exact Cr|exact Ct| | | | |]; try (unfold small; lra). apply (mid_range _ _ _ Rm); lia. }
  set (q := d' / (r * t)) in *.
  assert (C2 : close (fdiv (if fltb dist f_one then f_08 else dist) (fmul radius (tiles_per_mile (N.max z 6)))) q (167 / 100000000000000000)).
  { eapply close_div; [exact Cd|exact C1| | | | |]; try (unfold small; lra). apply (mid_range _ _ _ Rq); lia. }
  clearbody q. apply close_min in C2; [|unfold small; lra].
  assert (Rn : bpow radix2 (-1 - (200 + 60)) <= Rmin 1 q <= bpow radix2 0).
  { split; [|apply Rmin_l]. apply Rmin_glb; [|apply Rq]. change 1 with (bpow radix2 0). apply bpow_le. lia. }
  pose proof (range_div _ _ _ _ _ _ Rf Rn) as Rz.
  eapply close_div; [exact Cf|exact C2| | | | |]; try (unfold small; lra). apply (mid_range _ _ _ Rz); lia.
Qed.
(** The value of a feature, up to rounding; for zooms, distances and radii with which nothing
    overflows. *)
Theorem C106_worth :
  forall zoom distance score radius d r, (zoom < 64)%N ->
  is_real distance d -> 0 <= d <= 2 ^ 200 -> is_real radius r -> / 2 ^ 200 <= r <= 2 ^ 200 ->
  amounts_to (scoredist zoom distance score radius) (worth zoom d score r) (4 / 1000000000000000).
Proof. intros. apply amounts_close. by apply worth_close. Qed.
Print Assumptions C106_worth.
(** So features are told apart as the formula says, unless it hardly does. *)
Theorem C106_order :
  forall zoom radius r distance score d distance' score' d', (zoom < 64)%N ->
  is_real radius r -> / 2 ^ 200 <= r <= 2 ^ 200 ->
  is_real distance d -> 0 <= d <= 2 ^ 200 -> is_real distance' d' -> 0 <= d' <= 2 ^ 200 ->
  worth zoom d score r * (1 + 1 / 100000000000000) <= worth zoom d' score' r ->
  fltb (scoredist zoom distance score radius) (scoredist zoom distance' score' radius) = true.
Proof.
  intros z radius r dist s d dist' s' d' Hz Hr Hr0 Hd Hd0 Hd' Hd0' Hw.
  destruct (worth_close z dist s radius d r Hz Hd Hd0 Hr Hr0) as [P1 (x & Hx & _ & X2)].
  destruct (worth_close z dist' s' radius d' r Hz Hd' Hd0' Hr Hr0) as [P2 (y & Hy & Y1 & _)].
  unfold fltb, SFltb. rewrite (is_real_compare _ _ _ _ Hx Hy). rewrite Rcompare_Lt; [reflexivity|].
  set (v := worth z d s r) in *. set (w := worth z d' s' r) in *. clearbody v w. lra.
Qed.
Print Assumptions C106_order.
(** Two tiles away at zoom 14, score 3, a radius of 40 miles: sixteen times the factor of the
    score, which is a little above one. *)
Example C106_ex :
  (14 < 64)%N /\ is_real (f_of_N 2) 2 /\ is_real (f_of_N 40) 40 /\ 0 <= 2 <= 2 ^ 200 /\ / 2 ^ 200 <= 40 <= 2 ^ 200 /\
  worth 14 2 3 40 = (6 * exp 3 / exp 7 + 1) / (2 / 32) /\
  fltb (f_lit 17 1) (scoredist 14 (f_of_N 2) 3 (f_of_N 40)) = true /\
  fltb (scoredist 14 (f_of_N 2) 3 (f_of_N 40)) (f_lit 18 1) = true.
Proof.
  assert (H : 64 <= 2 ^ 200).
  { replace 64 with (2 ^ 6) by (cbn; ring). apply Rle_pow; [lra|lia]. }
  split; [lia|]. split; [exact (is_real_of_N 2 ltac:(discriminate))|]. split; [exact (is_real_of_N 40 ltac:(discriminate))|].
  split; [lra|]. split.
  { split; [|lra]. apply Rle_trans with 1; [|lra]. rewrite <- Rinv_1. apply Rinv_le_contravar; lra. }
  split; [|split; vm_compute; reflexivity].
  unfold worth, tiles. destruct (Rlt_dec 2 1) as [Hl|_]; [lra|]. change (N.max 14 6) with 14%N. change (N.min 3 7) with 3%N.
  change (IZR (Z.of_N 3)) with 3. change (Z.of_N 14 - 14)%Z with 0%Z. cbn [powerRZ].
  replace (2 / (40 * (32 / 40 * 1))) with (2 / 32) by field. rewrite Rmin_right by lra. reflexivity.
Qed.
(** A score of 7 sixteen tiles away and a score of 0 two tiles away. *)
Example C106_order_ex :
  worth 14 16 7 40 * (1 + 1 / 100000000000000) <= worth 14 2 0 40 /\ is_real (f_of_N 16) 16 /\ 0 <= 16 <= 2 ^ 200.
Proof.
  assert (H : 64 <= 2 ^ 200).
  { replace 64 with (2 ^ 6) by (cbn; ring). apply Rle_pow; [lra|lia]. }
  split; [|split; [exact (is_real_of_N 16 ltac:(discriminate))|lra]].
  unfold worth, tiles. destruct (Rlt_dec 2 1) as [Hl|_]; [lra|]. destruct (Rlt_dec 16 1) as [Hl|_]; [lra|].
  change (N.max 14 6) with 14%N. change (N.min 0 7) with 0%N. change (N.min 7 7) with 7%N.
  change (IZR (Z.of_N 0)) with 0. change (IZR (Z.of_N 7)) with 7. change (Z.of_N 14 - 14)%Z with 0%Z. cbn [powerRZ].
  rewrite !Rmin_right by lra. rewrite exp_0. pose proof (exp_pos 7).
  replace (6 * exp 7 / exp 7) with 6 by (field; lra).
  assert (0 < 6 * 1 / exp 7) by (apply Rdiv_lt_0_compat; lra). lra.
Qed.
