(** Weighted relevances that differ by the language penalty alone are close. *)
From Coq Require Import ZArith Reals Lra.
From Flocq Require Import Core IEEE754.BinarySingleNaN.
From Verif Require Import Prelude Lists F64 Common Builder Store Query Coalesce Float_proofs Real_proofs Props_float Bound_proofs Cmp_proofs.
Local Open Scope N_scope.

Lemma real_amount a x : is_real a x -> f_pos a -> amount a.
Proof.
  intros (b & <- & Hf & _) Hp. split; [apply valid_binary_B2SF|]. split; [done|]. by destruct b.
Qed.
Lemma share_amount r w : r ∈ shares -> amount w -> amount (fmul r w).
Proof.
  intros Hr Hw. destruct (real_of_amount _ Hw) as (y & Hy & Hy0). destruct (share_ok _ Hr) as (x & Hx & Hx1).
  destruct (mul_real _ _ _ _ Hx Hy Hx1 Hy0) as [Hm _]. eapply real_amount; [exact Hm|]. apply f_sign_pos.
  assert (Hall : forallb (fun r => match r with S754_zero false | S754_finite false _ _ => true | _ => false end) shares = true) by (vm_compute; reflexivity).
  rewrite forallb_forall in Hall. apply elem_of_list_In, Hall in Hr. destruct Hw as (_ & Hp & Hf).
  destruct r as [[]|[]| |[] m e]; try done; destruct w as [[]|[]| |[] m' e']; try done. unfold fmul. cbn [SFmul xorb]. by apply round_aux_sign.
Qed.
Lemma quarter_real : is_real f_025 (1 / 4)%R.
Proof.
  assert (E : valid_binary 53 1024 f_025 = true) by (vm_compute; reflexivity). exists (SF2B _ E). split; [apply B2SF_SF2B|].
  split; [reflexivity|]. rewrite B2R_SF2B.
  replace f_025 with (S754_finite false 4503599627370496 (-54)) by (vm_compute; reflexivity).
  unfold SF2R, F2R. cbn [Fnum Fexp cond_Zopp]. change (bpow radix2 (-54)) with (/ IZR 18014398509481984)%R. lra.
Qed.
Lemma penalty_real : is_real f_096 (8646911284551352 / 9007199254740992)%R.
Proof.
  assert (E : valid_binary 53 1024 f_096 = true) by (vm_compute; reflexivity). exists (SF2B _ E). split; [apply B2SF_SF2B|].
  split; [reflexivity|]. rewrite B2R_SF2B.
  replace f_096 with (S754_finite false 8646911284551352 (-53)) by (vm_compute; reflexivity).
  unfold SF2R, F2R. cbn [Fnum Fexp cond_Zopp]. change (bpow radix2 (-53)) with (/ IZR 9007199254740992)%R. lra.
Qed.
Lemma below_quarter a x : is_real a x -> (x < 1 / 4)%R -> fleb f_025 a = false.
Proof. intros Ha Hx. unfold fleb, SFleb. rewrite (is_real_compare _ _ _ _ quarter_real Ha). by rewrite Rcompare_Gt. Qed.
Lemma not_below_quarter a x : is_real a x -> fleb f_025 a = false -> (x < 1 / 4)%R.
Proof. intros Ha. unfold fleb, SFleb. rewrite (is_real_compare _ _ _ _ quarter_real Ha). destruct (Rcompare_spec (1 / 4) x); [done|done|lra]. Qed.
Lemma sub_below a b c : amount a -> amount b -> amount c -> ord_cmp a b <> Gt -> fleb f_025 (fsub b c) = false -> fleb f_025 (fsub a c) = false.
Proof.
  intros Ha Hb Hc Hle H. destruct (real_of_amount _ Ha) as (x & Hx & Hx0), (real_of_amount _ Hb) as (y & Hy & Hy0), (real_of_amount _ Hc) as (z & Hz & Hz0).
  destruct (sub_real _ _ _ _ Hx Hz Hx0 Hz0) as [S1 _], (sub_real _ _ _ _ Hy Hz Hy0 Hz0) as [S2 _]. apply (not_below_quarter _ _ S2) in H. apply (below_quarter _ _ S1).
  eapply Rle_lt_trans; [|exact H]. apply rnd_mono. unfold ord_cmp in Hle. rewrite (is_real_compare _ _ _ _ Hx Hy) in Hle. destruct (Rcompare_spec x y); try done; lra.
Qed.
Lemma self_sub a : amount a -> fleb f_025 (fsub a a) = false.
Proof.
  intros Ha. destruct (real_of_amount _ Ha) as (x & Hx & Hx0). destruct (sub_real _ _ _ _ Hx Hx Hx0 Hx0) as [S1 _]. apply (below_quarter _ _ S1).
  replace (x - x)%R with 0%R by lra. rewrite (real_format f_zero 0); [lra|]. by exists (B754_zero false).
Qed.
Lemma not_lt_le a b : amount a -> amount b -> fltb a b = false -> ord_cmp b a <> Gt.
Proof.
  intros Ha Hb. destruct (real_of_amount _ Ha) as (x & Hx & _), (real_of_amount _ Hb) as (y & Hy & _). unfold fltb, SFltb, ord_cmp.
  rewrite (is_real_compare _ _ _ _ Hx Hy), (is_real_compare _ _ _ _ Hy Hx). destruct (Rcompare_spec x y), (Rcompare_spec y x); try done; lra.
Qed.
(** Going down, or up by the penalty under a weight of at most six. *)
Lemma pair_close a b w : a ∈ shares -> b ∈ shares -> amount w -> ord_cmp b a <> Gt \/ (a = fmul b f_096 /\ fleb w (f_of_N 6) = true) ->
  fleb f_025 (fsub (fmul b w) (fmul a w)) = false.
Proof.
  intros Ha Hb Hw Hor. pose proof (share_amount _ _ Ha Hw) as Aa. pose proof (share_amount _ _ Hb Hw) as Ab.
  destruct (real_of_amount _ Hw) as (w' & Hw' & Hw0). destruct (share_ok _ Ha) as (x & Hx & Hx1), (share_ok _ Hb) as (y & Hy & Hy1).
  destruct (mul_real _ _ _ _ Hx Hw' Hx1 Hw0) as [Mx [Mx0 _]], (mul_real _ _ _ _ Hy Hw' Hy1 Hw0) as [My [My0 _]].
  destruct (sub_real _ _ _ _ My Mx My0 Mx0) as [S1 _]. apply (below_quarter _ _ S1). destruct Hor as [Hle|[E Hle]].
  - assert (Hxy : (y <= x)%R) by (unfold ord_cmp in Hle; rewrite (is_real_compare _ _ _ _ Hy Hx) in Hle; destruct (Rcompare_spec y x); try done; lra).
    apply Rle_lt_trans with (rnd 0); [apply rnd_mono|rewrite (real_format f_zero 0); [lra|by exists (B754_zero false)]].
    assert (rnd (y * w') <= rnd (x * w'))%R; [apply rnd_mono, Rmult_le_compat_r; lra|lra].
  - assert (H6 : (w' <= 6)%R).
    { assert (R6 : is_real (f_of_N 6) 6).
      { assert (E6 : valid_binary 53 1024 (f_of_N 6) = true) by (vm_compute; reflexivity). exists (SF2B _ E6). split; [apply B2SF_SF2B|].
        split; [reflexivity|]. rewrite B2R_SF2B. replace (f_of_N 6) with (S754_finite false 6755399441055744 (-50)) by (vm_compute; reflexivity).
        unfold SF2R, F2R. cbn [Fnum Fexp cond_Zopp]. change (bpow radix2 (-50)) with (/ IZR 1125899906842624)%R. lra. }
      unfold fleb, SFleb in Hle. rewrite (is_real_compare _ _ _ _ Hw' R6) in Hle. destruct (Rcompare_spec w' 6); [lra|lra|done]. }
    destruct (mul_real _ _ _ _ Hy penalty_real Hy1 ltac:(lra)) as [Mp _]. rewrite <- E in Mp.
    assert (Ex : x = rnd (y * (8646911284551352 / 9007199254740992))).
    { destruct Hx as (b1 & E1 & F1 & <-), Mp as (b2 & E2 & F2 & <-). assert (b1 = b2) as -> by (apply B2SF_inj; congruence). done. }
    assert (B17 : (bpow radix2 17 = 131072)%R) by reflexivity. assert (B35 : (bpow radix2 (-35) = / 34359738368)%R) by reflexivity.
    assert (Hxe : (Rabs (x - y * (8646911284551352 / 9007199254740992)) <= / 2 * bpow radix2 (-35))%R) by (rewrite Ex; apply rnd_error; rewrite B17; lra).
    assert (Hxw : (0 <= x * w' <= 6)%R) by nra. assert (Hyw : (0 <= y * w' <= 6)%R) by nra.
    assert (Hxr : (Rabs (rnd (x * w') - x * w') <= / 2 * bpow radix2 (-35))%R) by (apply rnd_error; rewrite B17; lra).
    assert (Hyr : (Rabs (rnd (y * w') - y * w') <= / 2 * bpow radix2 (-35))%R) by (apply rnd_error; rewrite B17; lra).
    rewrite B35 in *. apply Rabs_le_inv in Hxe, Hxr, Hyr.
    assert (R31 : is_real (S754_finite false 8725724278030336 (-55)) (31 / 128)).
    { assert (E6 : valid_binary 53 1024 (S754_finite false 8725724278030336 (-55)) = true) by (vm_compute; reflexivity). exists (SF2B _ E6). split; [apply B2SF_SF2B|].
      split; [reflexivity|]. rewrite B2R_SF2B. unfold SF2R, F2R. cbn [Fnum Fexp cond_Zopp]. change (bpow radix2 (-55)) with (/ IZR 36028797018963968)%R. lra. }
    apply Rle_lt_trans with (rnd (31 / 128)); [apply rnd_mono|rewrite (real_format _ _ R31); lra].
    assert (Hd : (0 <= y - x + 1 <= 2)%R) by lra. assert (Hyx : (y - x <= 4 / 100 + / 1000000)%R) by lra.
    assert (Hdw : ((y - x) * w' <= (4 / 100 + / 1000000) * 6)%R).
    { apply Rle_trans with ((4 / 100 + / 1000000) * w')%R; [apply Rmult_le_compat_r; lra|apply Rmult_le_compat_l; lra]. }
    lra.
Qed.
