(** Which float operations of the source can produce a NaN. *)
From Verif Require Import Prelude Lists F64 Common Morton Spatial Bits_proofs.
From Coq Require Import ZifyBool.

(** Neither NaN nor negative (a zero counts as non-negative when its sign is +). *)
Definition f_pos (a : f64) : Prop :=
  match a with
  | S754_zero s | S754_infinity s | S754_finite s _ _ => s = false
  | S754_nan => False
  end.
Definition f_finite (a : f64) : Prop :=
  match a with S754_zero _ | S754_finite _ _ _ => True | _ => False end.

Lemma f_pos_nan a : f_pos a -> f_is_nan a = false.
Proof. by destruct a. Qed.

Lemma shr_1_nonneg r : (0 <= shr_m r)%Z -> (0 <= shr_m (shr_1 r))%Z.
Proof. destruct r as [[|[p|p|]|[p|p|]] rr ss]; simpl; lia. Qed.
Lemma iter_shr_nonneg p : forall r, (0 <= shr_m r)%Z -> (0 <= shr_m (iter_pos shr_1 p r))%Z.
Proof. induction p as [p IH|p IH|]; intros r H; simpl; auto using shr_1_nonneg. Qed.
Lemma shr_nonneg r e n : (0 <= shr_m r)%Z -> (0 <= shr_m (shr r e n).1)%Z.
Proof. intros H. destruct n as [|p|p]; simpl; [done|by apply iter_shr_nonneg|done]. Qed.
Lemma shr_fexp_nonneg m e l : (0 <= m)%Z -> (0 <= shr_m (shr_fexp fprec femax m e l).1)%Z.
Proof.
  intros H. unfold shr_fexp. apply shr_nonneg. destruct l as [|[]]; done.
Qed.
Lemma round_nonneg m l : (0 <= m)%Z -> (0 <= round_nearest_even m l)%Z.
Proof. intros H. destruct l as [|[]]; simpl; [lia|destruct (Z.even m); lia|lia|lia]. Qed.

(** The result of rounding has the given sign and is not NaN. *)
Definition f_sign (s : bool) (a : f64) : Prop :=
  match a with
  | S754_zero s' | S754_infinity s' | S754_finite s' _ _ => s' = s
  | S754_nan => False
  end.
Lemma f_sign_nan s a : f_sign s a -> f_is_nan a = false.
Proof. by destruct a. Qed.
Lemma round_aux_sign s m e l : (0 <= m)%Z -> f_sign s (binary_round_aux fprec femax s m e l).
Proof.
  intros H. unfold binary_round_aux.
  pose proof (shr_fexp_nonneg m e l H) as H1.
  destruct (shr_fexp fprec femax m e l) as [r1 e1]. cbn [fst] in H1.
  pose proof (shr_fexp_nonneg _ e1 loc_Exact (round_nonneg _ (loc_of_shr_record r1) H1)) as H2.
  destruct (shr_fexp fprec femax _ e1 loc_Exact) as [r2 e2]. cbn [fst] in H2.
  destruct (shr_m r2) as [|p|p]; [done| |lia].
  destruct (Z.leb e2 _); done.
Qed.
Lemma normalize_not_nan m e s : f_is_nan (binary_normalize fprec femax m e s) = false.
Proof.
  destruct m as [|p|p]; [done| |]; simpl; unfold binary_round;
    destruct (shl_align _ _ _) as [mz ez]; eapply f_sign_nan; by apply round_aux_sign.
Qed.
Lemma normalize_pos p e s : f_pos (binary_normalize fprec femax (Zpos p) e s).
Proof.
  simpl; unfold binary_round; destruct (shl_align _ _ _) as [mz ez].
  pose proof (round_aux_sign false (Zpos mz) ez loc_Exact ltac:(lia)) as H.
  unfold f_pos, f_sign in *. by destruct (binary_round_aux _ _ _ _ _ _).
Qed.
Lemma f_sign_pos a : f_sign false a -> f_pos a.
Proof. by destruct a. Qed.

Lemma fmul_sq_pos a : f_is_nan a = false -> f_pos (fmul a a).
Proof.
  destruct a as [s|s| |s m e]; try done; intros _; unfold fmul; cbn [SFmul]; rewrite xorb_nilpotent; [done..|].
  apply f_sign_pos, round_aux_sign. lia.
Qed.
Lemma fadd_pos a b : f_pos a -> f_pos b -> f_pos (fadd a b).
Proof.
  destruct a as [s|s| |s m e], b as [s'|s'| |s' m' e']; simpl; intros Ha Hb; subst; try done.
  unfold fadd. cbn [SFadd cond_Zopp]. rewrite <- Pos2Z.inj_add. apply normalize_pos.
Qed.
Lemma fsqrt_pos a : f_pos a -> f_pos (fsqrt a).
Proof.
  destruct a as [s|s| |s m e]; simpl; intros Ha; subst; try done.
  unfold fsqrt. cbn [SFsqrt]. unfold SFsqrt_core_binary.
  destruct (Z.sqrtrem _) as [q r] eqn:E. apply f_sign_pos, round_aux_sign.
  match type of E with Z.sqrtrem ?x = _ => pose proof (Z.sqrtrem_sqrt x) as Hs end.
  rewrite E in Hs. cbn [fst] in Hs. rewrite Hs. apply Z.sqrt_nonneg.
Qed.
Lemma fsub_not_nan a b : f_finite a -> f_finite b -> f_is_nan (fsub a b) = false.
Proof.
  destruct a as [s|s| |s m e], b as [s'|s'| |s' m' e']; intros Ha Hb; try done.
  - unfold fsub. simpl. by destruct s, s'.
  - unfold fsub. cbn [SFsub]. apply normalize_not_nan.
Qed.
Lemma fmul_not_nan a b : f_finite a -> f_finite b -> f_is_nan (fmul a b) = false.
Proof.
  destruct a as [s|s| |s m e], b as [s'|s'| |s' m' e']; intros Ha Hb; try done.
  unfold fmul. cbn [SFmul]. eapply f_sign_nan. apply round_aux_sign. lia.
Qed.
Lemma fdiv_finite_not_nan s m e b :
  f_is_nan b = false -> f_is_nan (fdiv (S754_finite s m e) b) = false.
Proof.
  destruct b as [s'|s'| |s' m' e']; intros Hb; try done.
  unfold fdiv. cbn [SFdiv]. unfold SFdiv_core_binary.
  destruct (Z.div_eucl _ _) as [q r] eqn:E. eapply f_sign_nan. apply round_aux_sign.
  match type of E with Z.div_eucl ?x ?y = _ =>
    assert (Hq : q = (x / y)%Z) by (unfold Z.div; by rewrite E) end.
  rewrite Hq. apply Z.div_pos; [|lia].
  match goal with |- (0 <= match ?s with _ => _ end)%Z => destruct s; [lia| |lia] end.
  apply Z.shiftl_nonneg. lia.
Qed.

(** Small integers are converted exactly, in particular to a finite value. *)
Definition f_finiteb (a : f64) : bool :=
  match a with S754_zero _ | S754_finite _ _ _ => true | _ => false end.
Fixpoint all_below (f : N -> bool) (n : nat) (base : N) : bool :=
  match n with
  | O => f base
  | S n' => all_below f n' base && all_below f n' (base + 2 ^ N.of_nat n')
  end.
Lemma all_below_ok f n : forall base k,
  all_below f n base = true -> base <= k < base + 2 ^ N.of_nat n -> f k = true.
Proof.
  induction n as [|n IH]; intros base k H Hk.
  - simpl in *. by replace k with base by lia.
  - cbn [all_below] in H. apply andb_true_iff in H as [H1 H2].
    rewrite Nat2N.inj_succ, N.pow_succ_r' in Hk.
    destruct (N.lt_ge_cases k (base + 2 ^ N.of_nat n)); [apply (IH base); [done|lia]|].
    apply (IH (base + 2 ^ N.of_nat n)); [done|lia].
Qed.
Lemma f_of_N_u16 n : n < 2 ^ 16 -> f_finite (f_of_N n).
Proof.
  intros Hn.
  assert (H : all_below (fun k => f_finiteb (f_of_N k)) 16 0 = true) by (vm_compute; reflexivity).
  apply (all_below_ok _ _ _ n) in H; [|change (N.of_nat 16) with 16; lia].
  unfold f_finiteb in H. destruct (f_of_N n); simpl; [exact I|congruence|congruence|exact I].
Qed.
Lemma f_of_N_not_nan n : f_is_nan (f_of_N n) = false.
Proof. apply normalize_not_nan. Qed.
Lemma f_of_N_pos n : f_pos (f_of_N n).
Proof. destruct n as [|p]; [done|]. apply normalize_pos. Qed.

Lemma tile_dist_pos px py x y :
  px < 2 ^ 16 -> py < 2 ^ 16 -> x < 2 ^ 16 -> y < 2 ^ 16 -> f_pos (tile_dist px py x y).
Proof.
  intros. unfold tile_dist. apply fsqrt_pos, fadd_pos; apply fmul_sq_pos, fsub_not_nan;
    by apply f_of_N_u16.
Qed.

(** ** scoredist *)
Definition score_factor_at (s : N) : f64 :=
  fadd (fdiv (fmul (f_of_N 6) (e_pow s)) (e_pow 7)) f_one.
Definition score_factor (score : N) : f64 := score_factor_at (if 7 <? score then 7 else score).
Lemma score_factor_finite score : exists m e, score_factor score = S754_finite false m e.
Proof.
  unfold score_factor. set (s := if 7 <? score then 7 else score).
  assert (Hs : s < 2 ^ 3) by (unfold s; destruct (7 <? score) eqn:E; lia). clearbody s.
  assert (H : all_below (fun s => match score_factor_at s with S754_finite false _ _ => true | _ => false end)
                3 0 = true) by (vm_compute; reflexivity).
  apply (all_below_ok _ _ _ s) in H; [|change (N.of_nat 3) with 3; lia].
  cbv beta in H. destruct (score_factor_at s) as [| | |[] m e]; try discriminate H. eauto.
Qed.

Lemma fltb_nan_l b : fltb S754_nan b = false.
Proof. done. Qed.

Lemma scoredist_not_nan zoom d score radius :
  f_pos d -> f_finite (proximity_radius (if zoom <? 6 then 6 else zoom) radius) ->
  f_is_nan (scoredist zoom d score radius) = false.
Proof.
  intros Hd Hr. unfold scoredist. change (fadd _ f_one) with (score_factor score).
  set (z := if zoom <? 6 then 6 else zoom) in *.
  set (d' := if fltb d f_one then f_08 else d).
  set (pr := proximity_radius z radius) in *. clearbody pr.
  destruct (score_factor_finite score) as (m & e & ->).
  apply fdiv_finite_not_nan.
  assert (Hd' : (exists m e, d' = S754_finite false m e) \/ d' = S754_infinity false).
  { unfold d'. destruct d as [s|s| |s m' e']; simpl in Hd; subst; try done.
    - left. vm_compute. eauto.
    - right. done.
    - destruct (fltb _ f_one); left; [vm_compute|]; eauto. }
  assert (Hq : f_is_nan (fdiv d' pr) = false).
  { destruct Hd' as [(m' & e' & ->)| ->].
    - apply fdiv_finite_not_nan. by destruct pr.
    - by destruct pr. }
  destruct (fgtb _ _); done.
Qed.

