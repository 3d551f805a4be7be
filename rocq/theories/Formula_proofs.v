(** The exponential at small integers, and the relative error of float operations. *)
From Coq Require Import ZArith Reals Lra Lia Psatz.
From Flocq Require Import Core IEEE754.BinarySingleNaN Relative.
From Verif Require Import F64 Real_proofs.
Local Open Scope R_scope.

(** ** The number e *)
Lemma fact_dec : Un_decreasing (fun n => / INR (fact n)).
Proof.
  intros n. apply Rinv_le_contravar; [apply INR_fact_lt_0|]. apply le_INR. apply fact_le. lia.
Qed.
Lemma fact_cv : Un_cv (fun n => / INR (fact n)) 0.
Proof.
  pose proof (cv_speed_pow_fact 1) as H. intros eps He. destruct (H eps He) as [N HN]. exists N. intros n Hn.
  specialize (HN n Hn). cbv beta in HN. rewrite pow1 in HN. unfold Rdiv in HN. rewrite Rmult_1_l in HN. exact HN.
Qed.
Lemma exp_minus_one : Un_cv (fun N => sum_f_R0 (tg_alt (fun n => / INR (fact n))) N) (exp (-1)).
Proof.
  unfold exp. destruct (exist_exp (-1)) as [l Hl]. cbn [proj1_sig]. unfold exp_in, infinite_sum in Hl.
  intros eps He. destruct (Hl eps He) as [N HN]. exists N. intros n Hn. specialize (HN n Hn).
  erewrite sum_eq; [exact HN|]. intros i _. unfold tg_alt. cbv beta. ring.
Qed.
(** The partial sums over a common denominator. *)
Fixpoint fact_Z (n : nat) : Z := match n with O => 1 | S n => fact_Z n * Z.of_nat (S n) end%Z.
Fixpoint alt_Z (n : nat) : Z := match n with O => 1 | S n => alt_Z n * Z.of_nat (S n) + (if Nat.even n then -1 else 1) end%Z.
Lemma fact_Z_ok n : INR (fact n) = IZR (fact_Z n).
Proof.
  induction n as [|n IH]; [reflexivity|]. change (fact (S n)) with (S n * fact n)%nat. cbn [fact_Z].
  rewrite mult_INR, IH, mult_IZR, <- INR_IZR_INZ. ring.
Qed.
Lemma fact_Z_pos n : 0 < IZR (fact_Z n).
Proof. rewrite <- fact_Z_ok. apply INR_fact_lt_0. Qed.
Lemma sign_pow n : (-1) ^ n = if Nat.even n then 1 else -1.
Proof.
  induction n as [|n IH]; [reflexivity|]. rewrite <- tech_pow_Rmult, IH. rewrite Nat.even_succ, <- Nat.negb_even.
  destruct (Nat.even n); cbn; ring.
Qed.
Lemma alt_sum n : sum_f_R0 (tg_alt (fun n => / INR (fact n))) n = IZR (alt_Z n) / IZR (fact_Z n).
Proof.
  induction n as [|n IH].
  - cbn [sum_f_R0 alt_Z fact_Z]. unfold tg_alt. rewrite fact_Z_ok. cbn [pow fact_Z]. field.
  - change (sum_f_R0 (tg_alt (fun n => / INR (fact n))) (S n)) with
      (sum_f_R0 (tg_alt (fun n => / INR (fact n))) n + tg_alt (fun n => / INR (fact n)) (S n)).
    rewrite IH. unfold tg_alt. rewrite fact_Z_ok, sign_pow. cbn [alt_Z fact_Z].
    rewrite plus_IZR, !mult_IZR. rewrite Nat.even_succ, <- Nat.negb_even.
    pose proof (fact_Z_pos n). assert (0 < IZR (Z.of_nat (S n))) by (apply IZR_lt; lia).
    destruct (Nat.even n); cbn [negb]; field; lra.
Qed.
Definition e_low : R := 271828182845904523 / 100000000000000000.
Definition e_high : R := 271828182845904524 / 100000000000000000.
Lemma e_bounds : e_low <= exp 1 <= e_high.
Proof.
  pose proof (alternated_series_ineq _ _ 10 fact_dec fact_cv exp_minus_one) as [H1 H2].
  rewrite alt_sum in H1, H2.
  let a := eval vm_compute in (alt_Z (S (2 * 10))) in change (alt_Z (S (2 * 10))) with a in H1.
  let a := eval vm_compute in (fact_Z (S (2 * 10))) in change (fact_Z (S (2 * 10))) with a in H1.
  let a := eval vm_compute in (alt_Z (2 * 10)) in change (alt_Z (2 * 10)) with a in H2.
  let a := eval vm_compute in (fact_Z (2 * 10)) in change (fact_Z (2 * 10)) with a in H2.
  assert (E : exp 1 = / exp (-1)) by (change (-1) with (- (1)); rewrite exp_Ropp, Rinv_inv; reflexivity).
  rewrite E. pose proof (exp_pos (-1)) as Hp. unfold e_low, e_high. split.
  - apply Rmult_le_reg_r with (exp (-1)); [exact Hp|]. rewrite Rinv_l by lra. lra.
  - apply Rmult_le_reg_r with (exp (-1)); [exact Hp|]. rewrite Rinv_l by lra. lra.
Qed.
Lemma exp_nat n : exp (INR n) = exp 1 ^ n.
Proof.
  induction n as [|n IH]; [apply exp_0|]. rewrite S_INR, exp_plus, IH, <- tech_pow_Rmult. ring.
Qed.
Lemma exp_nat_bounds n : e_low ^ n <= exp (INR n) <= e_high ^ n.
Proof.
  rewrite exp_nat. pose proof e_bounds as [H1 H2]. assert (0 <= e_low) by (unfold e_low; lra). split; apply pow_incr; lra.
Qed.

(** ** Relative errors *)
Definition u53 : R := / 9007199254740992.
Lemma rnd_rel x : bpow radix2 (-1022) <= x -> x * (1 - u53) <= rnd x <= x * (1 + u53).
Proof.
  intros Hx. pose proof (bpow_gt_0 radix2 (-1022)) as H0.
  pose proof (relative_error_N_FLT radix2 (-1074) 53 ltac:(reflexivity) (fun x => negb (Z.even x)) x) as H.
  change (-1074 + 53 - 1)%Z with (-1022)%Z in H. rewrite (Rabs_pos_eq x) in H by lra. specialize (H Hx).
  change (round radix2 (FLT_exp (-1074) 53) ZnearestE x) with (rnd x) in H.
  change (bpow radix2 (- (53) + 1)) with (/ IZR 4503599627370496) in H.
  replace (/ 2 * / IZR 4503599627370496) with u53 in H by (unfold u53; lra).
  apply Rabs_le_inv in H. split; lra.
Qed.
(** [a] has the value [x] up to the relative error [d]. *)
Definition close (a : f64) (x d : R) : Prop := 0 < x /\ exists r, is_real a r /\ x * (1 - d) <= r <= x * (1 + d).
Definition small (d : R) : Prop := 0 <= d <= 1 / 1000.
Definition mid (x : R) : Prop := bpow radix2 (-1000) <= x <= bpow radix2 1000.
Lemma rnd_fin x r d : mid x -> small d -> x * (1 - d) <= r <= x * (1 + d) ->
  r * (1 - u53) <= rnd r <= r * (1 + u53) /\ Rlt_bool (Rabs (rnd r)) (bpow radix2 1024) = true.
Proof.
  intros [M1 M2] [D1 D2] [R1 R2]. pose proof (bpow_gt_0 radix2 (-1000)) as H0.
  assert (Hr : bpow radix2 (-1022) <= r).
  { apply Rle_trans with (bpow radix2 (-1000) * / 2).
    - change (/ 2) with (bpow radix2 (-1)). rewrite <- bpow_plus. apply bpow_le. lia.
    - nra. }
  pose proof (rnd_rel r Hr) as [E1 E2]. split; [split; assumption|]. apply Rlt_bool_true.
  assert (0 <= r) by nra. assert (0 <= rnd r) by (unfold u53 in *; nra). rewrite Rabs_pos_eq by assumption.
  apply Rle_lt_trans with (bpow radix2 1000 * 4).
  - unfold u53 in *. nra.
  - change 4 with (bpow radix2 2). rewrite <- bpow_plus. apply bpow_lt. lia.
Qed.
Lemma rel_step x r r' d d' : 0 < x -> small d -> x * (1 - d) <= r <= x * (1 + d) ->
  r * (1 - u53) <= r' <= r * (1 + u53) -> d * (101 / 100) + 2 / 10000000000000000 <= d' -> x * (1 - d') <= r' <= x * (1 + d').
Proof.
  intros Hx [D1 D2] [R1 R2] [S1 S2] Hd. unfold u53 in *. set (u := / 9007199254740992) in *.
  assert (Hu : 0 < u < 12 / 100000000000000000) by (unfold u; lra). clearbody u.
  assert (A1 : x * (1 - d) * (1 - u) <= r') by (apply Rle_trans with (r * (1 - u)); [apply Rmult_le_compat_r; lra|lra]).
  assert (A2 : r' <= x * (1 + d) * (1 + u)) by (apply Rle_trans with (r * (1 + u)); [lra|apply Rmult_le_compat_r; lra]).
  assert (B1 : 1 - d' <= (1 - d) * (1 - u)) by nra. assert (B2 : (1 + d) * (1 + u) <= 1 + d') by nra.
  rewrite Rmult_assoc in A1, A2. split.
  - apply Rle_trans with (x * ((1 - d) * (1 - u))); [apply Rmult_le_compat_l; lra|exact A1].
  - apply Rle_trans with (x * ((1 + d) * (1 + u))); [exact A2|apply Rmult_le_compat_l; lra].
Qed.
Lemma close_mul a b x y d1 d2 d : close a x d1 -> close b y d2 -> small d1 -> small d2 -> small (d1 + d2 + d1 * d2) ->
  mid (x * y) -> (d1 + d2 + d1 * d2) * (101 / 100) + 2 / 10000000000000000 <= d -> close (fmul a b) (x * y) d.
Proof.
  intros [Hx (r & (ba & <- & Fa & Ha) & R1 & R2)] [Hy (s & (bb & <- & Fb & Hb) & S1 & S2)] [? ?] [? ?] Hs Hm Hd.
  split; [apply Rmult_lt_0_compat; assumption|].
  assert (Hr : x * y * (1 - (d1 + d2 + d1 * d2)) <= r * s <= x * y * (1 + (d1 + d2 + d1 * d2))).
  { assert (0 <= x * (1 - d1)) by nra. assert (0 <= y * (1 - d2)) by nra. split.
    - apply Rle_trans with (x * (1 - d1) * (y * (1 - d2))); [|apply Rmult_le_compat; assumption].
      assert (0 <= x * y * (d1 * d2)) by (apply Rmult_le_pos; nra). nra.
    - apply Rle_trans with (x * (1 + d1) * (y * (1 + d2))); [apply Rmult_le_compat; lra|]. right. ring. }
  destruct (rnd_fin _ _ _ Hm Hs Hr) as [E O]. exists (rnd (r * s)). split.
  - rewrite mul_equiv. eexists. split; [reflexivity|].
    pose proof (Bmult_correct 53 1024 Hprec64 Hmax64 mode_NE ba bb) as H'. rewrite Ha, Hb in H'.
    change (round_mode mode_NE) with ZnearestE in H'. rewrite O, Fa, Fb in H'. now destruct H' as (HA & HB & _).
  - eapply rel_step; [apply Rmult_lt_0_compat; assumption|exact Hs|exact Hr|exact E|exact Hd].
Qed.
Lemma close_div a b x y d1 d2 d : close a x d1 -> close b y d2 -> small d1 -> small d2 -> small ((d1 + d2) * (101 / 100)) ->
  mid (x / y) -> (d1 + d2) * (101 / 100) * (101 / 100) + 2 / 10000000000000000 <= d -> close (fdiv a b) (x / y) d.
Proof.
  intros [Hx (r & (ba & <- & Fa & Ha) & R1 & R2)] [Hy (s & (bb & <- & Fb & Hb) & S1 & S2)] [? ?] [? ?] Hs Hm Hd.
  assert (Hxy : 0 < x / y) by (apply Rdiv_lt_0_compat; assumption). split; [exact Hxy|].
  assert (Hs0 : 0 < s) by nra.
  assert (Hr : x / y * (1 - (d1 + d2) * (101 / 100)) <= r / s <= x / y * (1 + (d1 + d2) * (101 / 100))).
  { set (q := x / y) in *. assert (Eq : x = q * y) by (unfold q; field; lra). clearbody q. subst x. split.
    - apply Rmult_le_reg_r with s; [exact Hs0|]. replace (r / s * s) with r by (field; lra).
      apply Rle_trans with (q * y * (1 - d1)); [|exact R1].
      destruct Hs as [Q1 Q2]. assert (H3 : 0 <= q * (1 - (d1 + d2) * (101 / 100))) by (apply Rmult_le_pos; lra).
      apply Rle_trans with (q * (1 - (d1 + d2) * (101 / 100)) * (y * (1 + d2))); [apply Rmult_le_compat_l; assumption|].
      replace (q * (1 - (d1 + d2) * (101 / 100)) * (y * (1 + d2))) with (q * y * ((1 - (d1 + d2) * (101 / 100)) * (1 + d2))) by ring.
      apply Rmult_le_compat_l; [nra|]. nra.
    - apply Rmult_le_reg_r with s; [exact Hs0|]. replace (r / s * s) with r by (field; lra).
      apply Rle_trans with (q * y * (1 + d1)); [exact R2|].
      assert (H3 : 0 <= q * (1 + (d1 + d2) * (101 / 100))) by (apply Rmult_le_pos; lra).
      apply Rle_trans with (q * (1 + (d1 + d2) * (101 / 100)) * (y * (1 - d2))); [|apply Rmult_le_compat_l; assumption].
      replace (q * (1 + (d1 + d2) * (101 / 100)) * (y * (1 - d2))) with (q * y * ((1 + (d1 + d2) * (101 / 100)) * (1 - d2))) by ring.
      apply Rmult_le_compat_l; [nra|]. nra. }
  destruct (rnd_fin _ _ _ Hm Hs Hr) as [E O]. exists (rnd (r / s)). split.
  - rewrite div_equiv. eexists. split; [reflexivity|].
    assert (Hn : B2R bb <> 0) by lra.
    pose proof (Bdiv_correct 53 1024 Hprec64 Hmax64 mode_NE ba bb Hn) as H'. rewrite Ha, Hb in H'.
    change (round_mode mode_NE) with ZnearestE in H'. rewrite O, Fa in H'. now destruct H' as (HA & HB & _).
  - eapply rel_step; [exact Hxy|exact Hs|exact Hr|exact E|exact Hd].
Qed.
Lemma close_add a b x y d1 d2 d : close a x d1 -> close b y d2 -> small d1 -> small d2 ->
  mid (x + y) -> (d1 + d2) * (101 / 100) + 2 / 10000000000000000 <= d -> small (d1 + d2) -> close (fadd a b) (x + y) d.
Proof.
  intros [Hx (r & (ba & <- & Fa & Ha) & R1 & R2)] [Hy (s & (bb & <- & Fb & Hb) & S1 & S2)] [? ?] [? ?] Hm Hd Hs.
  split; [lra|].
  assert (Hr : (x + y) * (1 - (d1 + d2)) <= r + s <= (x + y) * (1 + (d1 + d2))) by (split; nra).
  destruct (rnd_fin _ _ _ Hm Hs Hr) as [E O]. exists (rnd (r + s)). split.
  - rewrite add_equiv. eexists. split; [reflexivity|].
    pose proof (Bplus_correct 53 1024 Hprec64 Hmax64 mode_NE ba bb Fa Fb) as H'. rewrite Ha, Hb in H'.
    change (round_mode mode_NE) with ZnearestE in H'. rewrite O in H'. now destruct H' as (HA & HB & _).
  - eapply rel_step; [lra|exact Hs|exact Hr|exact E|exact Hd].
Qed.
(** The smaller of two amounts. *)
Lemma close_min a x d : close a x d -> small d ->
  close (if fgtb a f_one then f_one else a) (Rmin 1 x) d.
Proof.
  intros [Hx (r & Hr & R1 & R2)] [D1 D2].
  assert (H1 : is_real f_one 1) by (exact (is_real_of_N 1 ltac:(discriminate))).
  split; [apply Rmin_glb_lt; lra|]. unfold fgtb, fltb, SFltb. rewrite (is_real_compare _ _ _ _ H1 Hr).
  destruct (Rcompare_spec 1 r) as [C|C|C]; [exists 1|exists r|exists r]; (split; [assumption|]);
    unfold Rmin; destruct (Rle_dec 1 x); split; nra.
Qed.
