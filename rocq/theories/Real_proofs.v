(** Real-valued reading of the float operations, through Flocq: the standard
    library's executable [SpecFloat] operations at binary64 are Flocq's correctly
    rounded ones. *)
From Coq Require Import ZArith Reals Lra Lia Psatz.
From Verif Require Import F64.
From Flocq Require Import Core IEEE754.BinarySingleNaN.
Local Open Scope R_scope.

Global Instance Hprec64 : Prec_gt_0 53.
Proof. reflexivity. Qed.
Global Instance Hmax64 : Prec_lt_emax 53 1024.
Proof. reflexivity. Qed.

Notation b64 := (binary_float 53 1024).
Notation fexp64 := (SpecFloat.fexp 53 1024).
Notation rnd := (round radix2 fexp64 ZnearestE).
Global Instance fexp64_valid : Valid_exp fexp64.
Proof. apply (fexp_correct 53 1024 Hprec64). Qed.
Global Instance fexp64_mono : Monotone_exp fexp64.
Proof. apply (fexp_monotone 53 1024). Qed.

(** ** The operations agree *)
Lemma rne_equiv s m l : round_nearest_even m l = choice_mode mode_NE s m l.
Proof.
  destruct l as [|c]; [reflexivity|]. destruct c; try reflexivity.
  simpl. unfold Round.cond_incr. now destruct (Z.even m).
Qed.
Lemma round_aux_equiv sx mx ex lx :
  SpecFloat.binary_round_aux 53 1024 sx mx ex lx = binary_round_aux 53 1024 mode_NE sx mx ex lx.
Proof.
  unfold SpecFloat.binary_round_aux, binary_round_aux.
  destruct (shr_fexp 53 1024 mx ex lx) as [mrs e]. now rewrite (rne_equiv sx).
Qed.
Lemma round_equiv s m e :
  SpecFloat.binary_round 53 1024 s m e = binary_round 53 1024 mode_NE s m e.
Proof.
  unfold SpecFloat.binary_round, binary_round, shl_align_fexp.
  destruct (shl_align _ _ _) as [mz ez]. apply round_aux_equiv.
Qed.
Lemma normalize_equiv m e s :
  SpecFloat.binary_normalize 53 1024 m e s = B2SF (binary_normalize 53 1024 Hprec64 Hmax64 mode_NE m e s).
Proof.
  destruct m; simpl; [reflexivity| |]; rewrite B2SF_SF2B; apply round_equiv.
Qed.
Lemma add_equiv (x y : b64) : fadd (B2SF x) (B2SF y) = B2SF (Bplus mode_NE x y).
Proof.
  unfold fadd, fprec, femax. destruct x as [sx|sx| |sx mx ex Hx], y as [sy|sy| |sy my ey Hy];
    try reflexivity; try (simpl; now destruct (Bool.eqb _ _)). apply normalize_equiv.
Qed.
Lemma sub_equiv (x y : b64) : fsub (B2SF x) (B2SF y) = B2SF (Bminus mode_NE x y).
Proof.
  unfold fsub, fprec, femax. destruct x as [sx|sx| |sx mx ex Hx], y as [sy|sy| |sy my ey Hy];
    try reflexivity; try (simpl; now destruct (Bool.eqb _ _)).
  simpl. unfold Zminus. rewrite <- cond_Zopp_negb. apply normalize_equiv.
Qed.
Lemma mul_equiv (x y : b64) : fmul (B2SF x) (B2SF y) = B2SF (Bmult mode_NE x y).
Proof.
  unfold fmul, fprec, femax. destruct x as [sx|sx| |sx mx ex Hx], y as [sy|sy| |sy my ey Hy];
    try reflexivity. simpl. rewrite B2SF_SF2B. apply round_aux_equiv.
Qed.
Lemma div_equiv (x y : b64) : fdiv (B2SF x) (B2SF y) = B2SF (Bdiv mode_NE x y).
Proof.
  unfold fdiv, fprec, femax. destruct x as [sx|sx| |sx mx ex Hx], y as [sy|sy| |sy my ey Hy];
    try reflexivity. simpl. rewrite B2SF_SF2B.
  destruct (SFdiv_core_binary _ _ _ _ _ _) as [[mz ez] lz]. apply round_aux_equiv.
Qed.
Lemma sqrt_equiv (x : b64) : fsqrt (B2SF x) = B2SF (Bsqrt mode_NE x).
Proof.
  unfold fsqrt, fprec, femax. destruct x as [sx|sx| |sx mx ex Hx]; try reflexivity; [now destruct sx|].
  destruct sx; [reflexivity|]. simpl. rewrite B2SF_SF2B.
  destruct (SFsqrt_core_binary _ _ _ _) as [[mz ez] lz]. apply round_aux_equiv.
Qed.

(** ** Finite values *)
(** [a] is a finite binary64 number with the value [x]. *)
Definition is_real (a : spec_float) (x : R) : Prop :=
  exists b : b64, B2SF b = a /\ is_finite b = true /\ B2R b = x.

Lemma is_real_compare a b x y : is_real a x -> is_real b y -> SFcompare a b = Some (Rcompare x y).
Proof.
  intros (ba & <- & Fa & <-) (bb & <- & Fb & <-). exact (Bcompare_correct _ _ ba bb Fa Fb).
Qed.

Lemma int_format (z : Z) : (Z.abs z <= 2 ^ 53)%Z -> generic_format radix2 fexp64 (IZR z).
Proof.
  intros Hz. change fexp64 with (FLT_exp (-1074) 53). apply generic_format_FLT.
  destruct (Z.eq_dec (Z.abs z) (2 ^ 53)) as [E|E].
  - exists (Float radix2 (Z.sgn z * 2 ^ 52) 1).
    + unfold F2R. simpl Fnum. simpl Fexp. rewrite mult_IZR. change (bpow radix2 1) with 2.
      assert (Hz2 : (z = Z.sgn z * 2 ^ 53)%Z) by (rewrite <- E; symmetry; rewrite Z.mul_comm; apply Z.abs_sgn).
      rewrite Hz2 at 1. rewrite mult_IZR. change (2 ^ 53)%Z with (2 ^ 52 * 2)%Z. rewrite mult_IZR. ring.
    + simpl Fnum. change (radix2 ^ 53)%Z with (2 ^ 53)%Z. destruct z; simpl; lia.
    + simpl. lia.
  - exists (Float radix2 z 0).
    + unfold F2R. simpl. ring.
    + simpl Fnum. change (radix2 ^ 53)%Z with (2 ^ 53)%Z. lia.
    + simpl. lia.
Qed.
Lemma int_round (z : Z) : (Z.abs z <= 2 ^ 53)%Z -> rnd (IZR z) = IZR z.
Proof. intros Hz. apply round_generic; [apply valid_rnd_N|now apply int_format]. Qed.
Lemma int_small (z : Z) : (Z.abs z <= 2 ^ 53)%Z -> Rlt_bool (Rabs (rnd (IZR z))) (bpow radix2 1024) = true.
Proof.
  intros Hz. rewrite int_round by exact Hz. apply Rlt_bool_true. rewrite <- abs_IZR.
  apply Rle_lt_trans with (IZR (2 ^ 53)); [now apply IZR_le|].
  change (IZR (2 ^ 53)) with (IZR (radix2 ^ 53)). rewrite IZR_Zpower by lia. apply bpow_lt. lia.
Qed.

Lemma is_real_of_N n : (n <= 2 ^ 53)%N -> is_real (f_of_N n) (IZR (Z.of_N n)).
Proof.
  intros Hn. unfold f_of_N, fprec, femax. rewrite normalize_equiv.
  exists (binary_normalize 53 1024 Hprec64 Hmax64 mode_NE (Z.of_N n) 0 false). split; [reflexivity|].
  pose proof (binary_normalize_correct 53 1024 Hprec64 Hmax64 mode_NE (Z.of_N n) 0 false) as H.
  cbv zeta in H. replace (F2R (Float radix2 (Z.of_N n) 0)) with (IZR (Z.of_N n)) in H by (unfold F2R; simpl; ring).
  change (round_mode mode_NE) with ZnearestE in H.
  assert (Ha : (Z.abs (Z.of_N n) <= 2 ^ 53)%Z) by lia.
  rewrite (int_small _ Ha), (int_round _ Ha) in H. now destruct H as (H1 & H2 & _).
Qed.
Lemma is_real_sub a b x y :
  is_real a (IZR x) -> is_real b (IZR y) -> (Z.abs (x - y) <= 2 ^ 53)%Z -> is_real (fsub a b) (IZR (x - y)).
Proof.
  intros (ba & <- & Fa & Ha) (bb & <- & Fb & Hb) Hz. rewrite sub_equiv. eexists. split; [reflexivity|].
  pose proof (Bminus_correct 53 1024 Hprec64 Hmax64 mode_NE ba bb Fa Fb) as H. rewrite Ha, Hb, <- minus_IZR in H.
  change (round_mode mode_NE) with ZnearestE in H.
  rewrite (int_small _ Hz), (int_round _ Hz) in H. now destruct H as (H1 & H2 & _).
Qed.
Lemma is_real_add a b x y :
  is_real a (IZR x) -> is_real b (IZR y) -> (Z.abs (x + y) <= 2 ^ 53)%Z -> is_real (fadd a b) (IZR (x + y)).
Proof.
  intros (ba & <- & Fa & Ha) (bb & <- & Fb & Hb) Hz. rewrite add_equiv. eexists. split; [reflexivity|].
  pose proof (Bplus_correct 53 1024 Hprec64 Hmax64 mode_NE ba bb Fa Fb) as H. rewrite Ha, Hb, <- plus_IZR in H.
  change (round_mode mode_NE) with ZnearestE in H.
  rewrite (int_small _ Hz), (int_round _ Hz) in H. now destruct H as (H1 & H2 & _).
Qed.
Lemma is_real_mul a b x y :
  is_real a (IZR x) -> is_real b (IZR y) -> (Z.abs (x * y) <= 2 ^ 53)%Z -> is_real (fmul a b) (IZR (x * y)).
Proof.
  intros (ba & <- & Fa & Ha) (bb & <- & Fb & Hb) Hz. rewrite mul_equiv. eexists. split; [reflexivity|].
  pose proof (Bmult_correct 53 1024 Hprec64 Hmax64 mode_NE ba bb) as H. rewrite Ha, Hb, <- mult_IZR in H.
  change (round_mode mode_NE) with ZnearestE in H.
  rewrite (int_small _ Hz), (int_round _ Hz), Fa, Fb in H. now destruct H as (H1 & H2 & _).
Qed.
Lemma is_real_sqrt a x : is_real a x -> 0 <= x -> is_real (fsqrt a) (rnd (sqrt x)).
Proof.
  intros (ba & <- & Fa & <-) Hx. rewrite sqrt_equiv. eexists. split; [reflexivity|].
  destruct (Bsqrt_correct 53 1024 Hprec64 Hmax64 mode_NE ba) as (H1 & H2 & _). split; [|exact H1].
  rewrite H2. destruct ba as [s|s| |s m e Hb]; try discriminate Fa; [reflexivity|].
  destruct s; [|reflexivity]. exfalso. apply (Rle_not_lt _ _ Hx). apply F2R_lt_0. reflexivity.
Qed.

(** ** Rounded square roots of distinct integers are distinct *)
Lemma rnd_mono x y : x <= y -> rnd x <= rnd y.
Proof. intros H. apply round_le; [apply fexp64_valid|apply valid_rnd_N|exact H]. Qed.
Lemma rnd_error x : 0 <= x <= bpow radix2 17 -> Rabs (rnd x - x) <= / 2 * bpow radix2 (-35).
Proof.
  intros [H0 H1]. eapply Rle_trans; [apply error_le_half_ulp; apply fexp64_valid|].
  apply Rmult_le_compat_l; [lra|]. eapply Rle_trans; [apply (ulp_le_pos radix2 fexp64 x (bpow radix2 17)); assumption|].
  rewrite ulp_bpow. apply bpow_le. vm_compute. discriminate.
Qed.
Lemma sqrt_gap (m n : Z) : (0 <= m)%Z -> (m < n)%Z -> (n <= 2 ^ 34)%Z ->
  sqrt (IZR m) + bpow radix2 (-18) <= sqrt (IZR n) /\ sqrt (IZR n) <= bpow radix2 17.
Proof.
  intros H0 Hmn Hn. assert (Hm' : 0 <= IZR m) by (apply IZR_le; lia). assert (Hn' : 0 <= IZR n) by (apply IZR_le; lia).
  pose proof (sqrt_pos (IZR m)) as S1. pose proof (sqrt_pos (IZR n)) as S2.
  pose proof (sqrt_sqrt _ Hm') as E1. pose proof (sqrt_sqrt _ Hn') as E2.
  assert (Hb : sqrt (IZR n) <= bpow radix2 17).
  { replace (bpow radix2 17) with (sqrt (IZR (2 ^ 34))).
    - apply sqrt_le_1_alt. now apply IZR_le.
    - replace (IZR (2 ^ 34)) with (bpow radix2 17 * bpow radix2 17) by (change (bpow radix2 17) with 131072; change (2 ^ 34)%Z with 17179869184%Z; lra).
      apply sqrt_square. apply bpow_ge_0. }
  split; [|exact Hb].
  assert (Hd : IZR m + 1 <= IZR n) by (rewrite <- plus_IZR; apply IZR_le; lia).
  assert (Hlt : sqrt (IZR m) <= sqrt (IZR n)) by (apply sqrt_le_1_alt; lra).
  set (a := sqrt (IZR m)) in *. set (b := sqrt (IZR n)) in *.
  assert (Hp : (b - a) * (b + a) >= 1) by (replace ((b - a) * (b + a)) with (b * b - a * a) by ring; lra).
  change (bpow radix2 (-18)) with (/ 262144). change (bpow radix2 17) with 131072 in Hb.
  assert (Hs : b + a <= 262144) by lra. assert (Hba : 0 <= b - a) by lra. clearbody a b.
  assert ((b - a) * 262144 >= 1) by nra. lra.
Qed.
Lemma rnd_sqrt_lt (m n : Z) : (0 <= m)%Z -> (m < n)%Z -> (n <= 2 ^ 34)%Z ->
  rnd (sqrt (IZR m)) < rnd (sqrt (IZR n)).
Proof.
  intros H0 Hmn Hn. destruct (sqrt_gap m n H0 Hmn Hn) as [Hg Hb].
  pose proof (sqrt_pos (IZR m)) as S1. pose proof (sqrt_pos (IZR n)) as S2.
  change (bpow radix2 (-18)) with (/ 262144) in Hg.
  pose proof (rnd_error (sqrt (IZR n)) (conj S2 Hb)) as R2.
  assert (Hm : sqrt (IZR m) <= bpow radix2 17) by lra.
  pose proof (rnd_error (sqrt (IZR m)) (conj S1 Hm)) as R1.
  change (bpow radix2 (-35)) with (/ 34359738368) in R1, R2.
  apply Rabs_le_inv in R1. apply Rabs_le_inv in R2. lra.
Qed.
Lemma rnd_sqrt_compare (m n : Z) : (0 <= m <= 2 ^ 34)%Z -> (0 <= n <= 2 ^ 34)%Z ->
  Rcompare (rnd (sqrt (IZR m))) (rnd (sqrt (IZR n))) = Z.compare m n.
Proof.
  intros Hm Hn. destruct (Z.compare_spec m n) as [->|H|H].
  - now apply Rcompare_Eq.
  - apply Rcompare_Lt, rnd_sqrt_lt; lia.
  - apply Rcompare_Gt, rnd_sqrt_lt; lia.
Qed.

(** ** Non-negative values, with infinity *)
(** Not NaN and no minus sign. *)
Definition plus (b : b64) : Prop := is_nan b = false /\ Bsign b = false.
(** The value, [None] for infinity. *)
Definition ev (b : b64) : option R := match b with B754_infinity _ => None | _ => Some (B2R b) end.
Definition ele (a b : option R) : Prop :=
  match a, b with _, None => True | None, Some _ => False | Some x, Some y => x <= y end.
Lemma ele_refl a : ele a a.
Proof. destruct a; simpl; [lra|exact I]. Qed.
Lemma ele_trans a b c : ele a b -> ele b c -> ele a c.
Proof. destruct a, b, c; simpl; intros; try exact I; try contradiction; lra. Qed.
Lemma B2R_plus b : plus b -> 0 <= B2R b.
Proof.
  intros [Hn Hs]. destruct b as [s|s| |s m e Hb]; simpl in *; try lra. subst s. simpl.
  apply F2R_ge_0. simpl. lia.
Qed.
Lemma plus_leb a b : plus a -> plus b -> (SFleb (B2SF a) (B2SF b) = true <-> ele (ev a) (ev b)).
Proof.
  intros Ha Hb. destruct (is_finite a) eqn:Fa, (is_finite b) eqn:Fb.
  - pose proof (Bleb_correct 53 1024 a b Fa Fb) as H. unfold Bleb in H. rewrite H.
    replace (ev a) with (Some (B2R a)) by now destruct a. replace (ev b) with (Some (B2R b)) by now destruct b.
    simpl. destruct (Rle_bool_spec (B2R a) (B2R b)); split; intros; try easy; lra.
  - destruct Ha as [Na Sa], Hb as [Nb Sb]. destruct b as [s|s| |s m e H]; try discriminate. simpl in Sb. subst s.
    destruct a as [s|s| |s m e H]; try discriminate; simpl; now try destruct s.
  - destruct Ha as [Na Sa], Hb as [Nb Sb]. destruct a as [s|s| |s m e H]; try discriminate. simpl in Sa. subst s.
    destruct b as [s|s| |s m e H]; try discriminate; simpl; now try destruct s.
  - destruct Ha as [Na Sa], Hb as [Nb Sb]. destruct a as [s|s| |s m e H], b as [s'|s'| |s' m' e' H']; try discriminate.
    simpl in *. subst. easy.
Qed.
Lemma plus_ltb a b : plus a -> plus b -> SFltb (B2SF a) (B2SF b) = negb (SFleb (B2SF b) (B2SF a)).
Proof.
  intros [Na _] [Nb _]. unfold SFltb, SFleb. pose proof (Bcompare_swap 53 1024 a b) as H. unfold Bcompare in H.
  rewrite H. assert (Hc : SFcompare (B2SF a) (B2SF b) <> None).
  { destruct a as [s|[]| |[] m e H1], b as [s'|[]| |[] m' e' H2]; try discriminate Na; try discriminate Nb; simpl; discriminate. }
  destruct (SFcompare (B2SF a) (B2SF b)) as [[]|]; easy.
Qed.

(** Rounded quotients. *)
Definition ecap (x : R) : option R := if Rlt_bool x (bpow radix2 1024) then Some x else None.
Definition ediv (x : R) (y : option R) : option R :=
  match y with
  | None => Some 0
  | Some y => if Req_bool y 0 then None else ecap (rnd (x / y))
  end.
Lemma ecap_mono x y : x <= y -> ele (ecap x) (ecap y).
Proof. intros H. unfold ecap. destruct (Rlt_bool_spec x (bpow radix2 1024)), (Rlt_bool_spec y (bpow radix2 1024)); simpl; lra. Qed.
Lemma rnd_nonneg x : 0 <= x -> 0 <= rnd x.
Proof. intros H. rewrite <- (round_0 radix2 fexp64 ZnearestE). now apply rnd_mono. Qed.
Lemma plus_div a b : plus a -> plus b -> is_finite a = true -> 0 < B2R a ->
  plus (Bdiv mode_NE a b) /\ ev (Bdiv mode_NE a b) = ediv (B2R a) (ev b).
Proof.
  intros Ha Hb Fa Hpos. pose proof Ha as [Na Sa]. pose proof Hb as [Nb Sb].
  destruct b as [s|s| |s m e Hbb]; try discriminate Nb; simpl in Sb; subst s.
  - destruct a as [s'|s'| |s' m' e' Haa]; try discriminate Fa; [simpl in Hpos; lra|]. simpl in Sa. subst s'.
    simpl. rewrite Req_bool_true by reflexivity. easy.
  - destruct a as [s'|s'| |s' m' e' Haa]; try discriminate Fa; [simpl in Hpos; lra|]. simpl in Sa. subst s'. easy.
  - set (b := B754_finite false m e Hbb) in *. assert (Hy : 0 < B2R b) by (apply F2R_gt_0; simpl; lia).
    assert (Hy0 : B2R b <> 0) by lra.
    pose proof (Bdiv_correct 53 1024 Hprec64 Hmax64 mode_NE a b Hy0) as H. change (round_mode mode_NE) with ZnearestE in H.
    assert (Hq : 0 <= rnd (B2R a / B2R b)).
    { apply rnd_nonneg. apply Rlt_le, Rdiv_lt_0_compat; assumption. }
    rewrite (Rabs_pos_eq _ Hq) in H.
    replace (ediv (B2R a) (ev b)) with (if Req_bool (B2R b) 0 then None else ecap (rnd (B2R a / B2R b))) by reflexivity.
    rewrite Req_bool_false by exact Hy0. unfold ecap.
    replace (xorb (Bsign a) (Bsign b)) with false in H by (rewrite Sa; reflexivity). clearbody b.
    destruct (Rlt_bool (rnd (B2R a / B2R b)) (bpow radix2 1024)).
    + destruct H as (H1 & H2 & H3). rewrite Fa in H2.
      assert (Hn : is_nan (Bdiv mode_NE a b) = false) by (destruct (Bdiv mode_NE a b); easy).
      split; [split; [exact Hn|exact (H3 Hn)]|]. rewrite <- H1. destruct (Bdiv mode_NE a b); easy.
    + unfold binary_overflow in H. simpl in H. destruct (Bdiv mode_NE a b) as [z|z| |z mm ee hh]; simpl in H; try discriminate H.
      injection H as ->. easy.
Qed.
Lemma ediv_mono_l x x' y : (forall r, y = Some r -> 0 <= r) -> x <= x' -> ele (ediv x y) (ediv x' y).
Proof.
  intros Hy Hx. destruct y as [y|]; simpl; [|lra]. specialize (Hy y eq_refl).
  destruct (Req_bool_spec y 0) as [H|H]; [exact I|]. apply ecap_mono, rnd_mono. unfold Rdiv.
  apply Rmult_le_compat_r; [|exact Hx]. apply Rlt_le, Rinv_0_lt_compat. lra.
Qed.
Lemma ediv_mono_r x y y' : 0 < x -> 0 <= y -> y <= y' -> ele (ediv x (Some y')) (ediv x (Some y)).
Proof.
  intros Hx Hy Hle. simpl. destruct (Req_bool_spec y 0) as [H|H]; [destruct (Req_bool y' 0); [exact I|now destruct (ecap _)]|].
  rewrite (Req_bool_false y') by lra. apply ecap_mono, rnd_mono. unfold Rdiv. apply Rmult_le_compat_l; [lra|].
  apply Rinv_le; lra.
Qed.
