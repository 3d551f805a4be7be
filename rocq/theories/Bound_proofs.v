(** A stack is never more relevant than its subqueries weigh. *)
From Coq Require Import ZArith Reals Lra.
From Flocq Require Import Core IEEE754.BinarySingleNaN.
From Verif Require Import Prelude Lists F64 Heap Common Builder Store Query Spatial Coalesce Stackable
  Float_proofs Spec Builder_proofs Merge_proofs Match_proofs Spec_coalesce Spec_stack Spec_tree Spec_complete.
From Verif Require Import Real_proofs Props_float.
Local Open Scope N_scope.

(** ** Rounded sums and products *)
Lemma real_of_amount a : amount a -> exists x, is_real a x /\ (0 <= x)%R.
Proof.
  intros (Hv & Hp & Hf). destruct (as_b64 a Hv) as [b <-]. exists (B2R b). split.
  - exists b. split; [done|]. split; [by apply finite_b|done].
  - by apply B2R_plus, pos_plus.
Qed.
Lemma real_format a x : is_real a x -> rnd x = x.
Proof. intros (b & _ & _ & <-). apply round_generic; [apply valid_rnd_N|]. apply generic_format_B2R. Qed.
Lemma real_small a x : is_real a x -> (Rabs x < bpow radix2 1024)%R.
Proof. intros (b & _ & Hf & <-). by apply abs_B2R_lt_emax. Qed.
Lemma add_real a b x y : is_real a x -> is_real b y -> (Rabs (rnd (x + y)) < bpow radix2 1024)%R ->
  is_real (fadd a b) (rnd (x + y)).
Proof.
  intros (ba & <- & Fa & <-) (bb & <- & Fb & <-) Hz. rewrite add_equiv. eexists. split; [reflexivity|].
  pose proof (Bplus_correct 53 1024 Hprec64 Hmax64 mode_NE ba bb Fa Fb) as H.
  change (round_mode mode_NE) with ZnearestE in H. rewrite (Rlt_bool_true _ _ Hz) in H. by destruct H as (H1 & H2 & _).
Qed.
Lemma add_finite a b x y : is_real a x -> is_real b y -> f_finite (fadd a b) -> (Rabs (rnd (x + y)) < bpow radix2 1024)%R.
Proof.
  intros (ba & <- & Fa & <-) (bb & <- & Fb & <-). rewrite add_equiv. intros Hf.
  pose proof (Bplus_correct 53 1024 Hprec64 Hmax64 mode_NE ba bb Fa Fb) as H.
  change (round_mode mode_NE) with ZnearestE in H. destruct (Rlt_bool_spec (Rabs (rnd (B2R ba + B2R bb))) (bpow radix2 1024)) as [Hl|Hl]; [done|].
  exfalso. destruct H as [H _]. rewrite H in Hf. destruct (Bsign ba); exact Hf.
Qed.
Lemma mul_real a b x y : is_real a x -> is_real b y -> (0 <= x <= 1)%R -> (0 <= y)%R ->
  is_real (fmul a b) (rnd (x * y)) /\ (0 <= rnd (x * y) <= y)%R.
Proof.
  intros Ha Hb Hx Hy. assert (Hle : (0 <= x * y <= y)%R) by (split; [apply Rmult_le_pos; lra|]; rewrite <- (Rmult_1_l y) at 2; apply Rmult_le_compat_r; lra).
  assert (Hr : (0 <= rnd (x * y) <= y)%R).
  { split; [apply rnd_nonneg; lra|]. rewrite <- (real_format _ _ Hb) at 2. apply rnd_mono. lra. }
  split; [|done]. pose proof (real_small _ _ Hb) as Hs. destruct Ha as (ba & <- & Fa & <-), Hb as (bb & <- & Fb & <-). rewrite mul_equiv. eexists. split; [reflexivity|].
  pose proof (Bmult_correct 53 1024 Hprec64 Hmax64 mode_NE ba bb) as H.
  change (round_mode mode_NE) with ZnearestE in H. rewrite Rlt_bool_true in H.
  - destruct H as (H1 & H2 & _). by rewrite Fa, Fb in H2.
  - rewrite Rabs_pos_eq in * by lra. lra.
Qed.
Lemma sub_real a b x y : is_real a x -> is_real b y -> (0 <= x)%R -> (0 <= y)%R ->
  is_real (fsub a b) (rnd (x - y)) /\ (rnd (x - y) <= x)%R.
Proof.
  intros Ha Hb Hx Hy. split.
  2: { rewrite <- (real_format _ _ Ha) at 2. apply rnd_mono. lra. }
  pose proof (real_small _ _ Ha) as Hs. pose proof (real_small _ _ Hb) as Hs'. pose proof (real_format _ _ Ha) as Ea. pose proof (real_format _ _ Hb) as Eb.
  destruct Ha as (ba & <- & Fa & <-), Hb as (bb & <- & Fb & <-).
  rewrite sub_equiv. eexists. split; [reflexivity|].
  pose proof (Bminus_correct 53 1024 Hprec64 Hmax64 mode_NE ba bb Fa Fb) as H.
  change (round_mode mode_NE) with ZnearestE in H. rewrite Rlt_bool_true in H; [by destruct H as (H1 & H2 & _)|].
  rewrite Rabs_pos_eq in Hs by done. rewrite Rabs_pos_eq in Hs' by done. apply Rabs_lt. split.
  - apply Rlt_le_trans with (- B2R bb)%R; [lra|]. rewrite <- Eb at 1. rewrite <- round_NE_opp. apply rnd_mono. lra.
  - apply Rle_lt_trans with (rnd (B2R ba)); [apply rnd_mono; lra|]. by rewrite Ea.
Qed.
Lemma real_le a b x y : is_real a x -> is_real b y -> (x <= y)%R -> ord_cmp a b <> Gt.
Proof.
  intros Ha Hb Hle. unfold ord_cmp. rewrite (is_real_compare _ _ _ _ Ha Hb). destruct (Rcompare_spec x y); try done. lra.
Qed.
Lemma add_finite_l a b : f_finite (fadd a b) -> f_finite a.
Proof. destruct a as [s|s| |s m e], b as [s'|s'| |s' m' e']; try done. cbn. by destruct (Bool.eqb s s'). Qed.
Lemma below_max a : f_pos a -> ord_cmp a f_max <> Gt -> f_finite a.
Proof. destruct a as [s|s| |s m e]; try done. cbn. by intros ->. Qed.

(** ** The relevance of a match *)
Definition shares : list f64 :=
  map (fun v => fmul (relev_int_to_float v) f_one) [0; 1; 2; 3] ++ map (fun v => fmul (relev_int_to_float v) f_096) [0; 1; 2; 3].
Lemma share_ok r : r ∈ shares -> exists x, is_real r x /\ (0 <= x <= 1)%R.
Proof.
  intros Hr. assert (Hall : forallb (fun r => pfinb r && fleb r f_one) shares = true) by (vm_compute; reflexivity).
  rewrite forallb_forall in Hall. apply elem_of_list_In, Hall in Hr. apply andb_prop in Hr as [H1 H2].
  destruct (pfinb_ok _ H1) as (b & <- & P1 & P2 & P3). destruct one_b as (b1 & E1 & (Q1 & Q2 & Q3) & Q4). exists (B2R b).
  split; [by exists b|]. split; [lra|]. rewrite <- E1 in H2. apply plus_leb in H2; [|done|done].
  rewrite (ev_finite _ P2), (ev_finite _ Q2), Q4 in H2. done.
Qed.
Lemma unpack_share v (b : bool) : fmul (unpack_relev v) (if b then f_one else f_096) ∈ shares.
Proof.
  rewrite unpack_relev_level. unfold shares. apply elem_of_app. destruct b; [left|right]; apply elem_of_map; exists (level v);
    (split; [done|]); destruct (level_cases v) as [->|[->|[->| ->]]]; rewrite !elem_of_cons; auto.
Qed.
Lemma group_key {A K} (key : A -> K) eqb l gs : grouping key eqb l gs -> forall g, g ∈ gs -> exists a, g.1 = key a.
Proof.
  intros H. induction H as [|a run H|a run b l gs H1 H2 H IH]; intros g Hg.
  - by apply elem_of_nil in Hg.
  - apply elem_of_list_singleton in Hg as ->. by exists a.
  - apply elem_of_cons in Hg as [->|Hg]; [by exists a|]. by apply IH.
Qed.
Lemma decoded_share p tb value o lang radius out g :
  decode_matching_value p tb value o lang radius = Ok out -> g ∈ out -> ge_relev (me_entry g) ∈ shares.
Proof.
  unfold decode_matching_value. intros H Hg. apply bind_Ok in H as (root & _ & H). apply bind_Ok in H as (rss & _ & H).
  apply bind_Ok in H as (gs & Hgs & H). injection H as <-. apply elem_of_mjoin in Hg as (l & Hg & Hl).
  apply res_mapM_Ok in Hgs. apply elem_of_list_lookup in Hl as [i Hi]. destruct (Forall2_lookup_r _ _ _ _ _ Hgs Hi) as (gr & Hgr & Hd).
  apply elem_of_list_lookup_2 in Hgr. destruct (group_key _ _ _ _ (eager_groupby_grouping _ _ _) _ Hgr) as (rs & Ers).
  unfold decode_relev_group in Hd. apply bind_Ok in Hd as (ss & _ & Hd). destruct (kmerge_panics ss); [done|].
  apply bind_Ok in Hd as (ms & Hms & Hd). injection Hd as <-. apply elem_of_mjoin in Hg as (m & Hg & Hm).
  apply res_mapM_Ok in Hms. apply elem_of_list_lookup in Hm as [j Hj]. destruct (Forall2_lookup_r _ _ _ _ _ Hms Hj) as (s & _ & Hs).
  apply bind_Ok in Hs as (ids & _ & Hs). injection Hs as <-. apply elem_of_map in Hg as (v & -> & _).
  cbn [mk_match me_entry ge_relev]. rewrite Ers. apply unpack_share.
Qed.
Lemma matched_share p mtb tb s k o n out g :
  streaming_get_matching p mtb tb s k o n = Ok out -> g ∈ out -> ge_relev (me_entry g) ∈ shares.
Proof.
  unfold streaming_get_matching. intros H Hg. apply bind_Ok in H as ([[st en] marker] & _ & H). apply bind_Ok in H as (recs & _ & H).
  apply bind_Ok in H as (q & Hq & H). injection H as <-. rewrite (drain_perm tb) in Hg by done.
  assert (Hinv : forall recs q q', res_foldl (queue_record p mtb tb s k o n) q recs = Ok q' ->
    (forall a, a ∈ mjoin (streams q) -> ge_relev (me_entry a) ∈ shares) ->
    forall a, a ∈ mjoin (streams q') -> ge_relev (me_entry a) ∈ shares).
  { clear. induction recs as [|kv recs IH]; intros q q' H Hall; cbn [res_foldl] in H; [by injection H as <-|].
    apply bind_Ok in H as (q1 & Hq1 & H). apply (IH _ _ H). clear IH H. unfold queue_record in Hq1.
    apply bind_Ok in Hq1 as (lang & _ & Hq1). apply bind_Ok in Hq1 as (es & Hes & Hq1).
    assert (Hes' : forall a, a ∈ es -> ge_relev (me_entry a) ∈ shares) by (intros a; by eapply decoded_share).
    destruct es as [|e es]; [by injection Hq1 as <-|].
    assert (Hpush : forall a, a ∈ mjoin (streams (hp_push q (e, es))) -> ge_relev (me_entry a) ∈ shares).
    { intros a. unfold streams. cbn [hp_push hp_items]. rewrite List.map_app. intros Ha. apply elem_of_mjoin in Ha as (l & Ha & Hl).
      apply elem_of_app in Hl as [Hl|Hl]; [apply Hall; apply elem_of_mjoin; by exists l|].
      cbn [map] in Hl. apply elem_of_list_singleton in Hl as ->. by apply Hes'. }
    destruct (n <=? hp_len q); [|by injection Hq1 as <-].
    destruct (hp_peek_min queue_cmp tb q) as [worst|]; [|done].
    destruct (queue_cmp worst (e, es)); injection Hq1 as <-; [done| |done].
    unfold hp_replace_min. destruct (hp_min_idx queue_cmp tb q) as [i|]; [|done].
    intros a. unfold streams. cbn [hp_replace hp_items]. intros Ha. apply elem_of_mjoin in Ha as (l & Ha & Hl).
    apply elem_of_map in Hl as (x & -> & Hx). apply elem_of_list_lookup in Hx as [j Hj].
    apply list_lookup_insert_Some in Hj as [(-> & <- & _)|(_ & Hj)]; [by apply Hes'|].
    apply Hall, elem_of_mjoin. exists (stream_of x). split; [done|]. apply elem_of_map. exists x. split; [done|]. by eapply elem_of_list_lookup_2. }
  apply (Hinv _ _ _ Hq); [|done]. intros a Ha. cbn in Ha. by apply elem_of_nil in Ha.
Qed.

(** ** Stacks *)
Lemma entry_share p mtb tb o pm e : stack_entry p mtb tb o pm e ->
  exists r, r ∈ shares /\ e_relev e = fmul r (sq_weight pm).
Proof.
  intros (k & g & (ko & out & i & _ & _ & Hs & Hi & _) & (He & _)). exists (ge_relev (me_entry g)).
  split; [eapply matched_share; [exact Hs|]; by eapply elem_of_list_lookup_2|]. unfold e_relev. by rewrite He.
Qed.
Definition shared (pm : subquery) (e : coalesce_entry) : Prop :=
  amount (sq_weight pm) /\ exists r, r ∈ shares /\ e_relev e = fmul r (sq_weight pm).
Lemma sum_weights_cons pm chain : sum_weights (rev (pm :: chain)) = fadd (sum_weights (rev chain)) (sq_weight pm).
Proof. unfold sum_weights. cbn [rev]. by rewrite foldl_app. Qed.
Lemma sum_bound chain es : Forall2 shared chain es -> f_finite (sum_weights (rev chain)) ->
  exists W, is_real (sum_weights (rev chain)) W /\ (0 <= W)%R /\
  (chain <> [] -> exists S, is_real (sum_relev es) S /\ (0 <= S <= W)%R).
Proof.
  intros H. induction H as [|pm e chain es (Hw & r & Hr & He) H IH]; intros Hfin.
  - exists 0%R. split; [|split; [lra|done]]. by exists (B754_zero false).
  - rewrite sum_weights_cons in *. destruct (IH (add_finite_l _ _ Hfin)) as (W & HW & HW0 & HS).
    destruct (real_of_amount _ Hw) as (w & Hwr & Hw0). destruct (share_ok _ Hr) as (x & Hx & Hx1).
    destruct (mul_real _ _ _ _ Hx Hwr Hx1 Hw0) as [Hm Hm1]. rewrite <- He in Hm.
    pose proof (add_finite _ _ _ _ HW Hwr Hfin) as Hov. pose proof (add_real _ _ _ _ HW Hwr Hov) as HWw.
    assert (Hnn : (0 <= rnd (W + w))%R) by (apply rnd_nonneg; lra). exists (rnd (W + w)). split; [done|]. split; [done|]. intros _.
    destruct es as [|e' es].
    + exists (rnd (x * w)). cbn [sum_relev]. split; [done|]. split; [lra|]. apply Rle_trans with w; [lra|].
      rewrite <- (real_format _ _ Hwr) at 1. apply rnd_mono. lra.
    + destruct HS as (S & HS1 & HS2); [by inversion H|].
      assert (Hle : (0 <= rnd (S + rnd (x * w)) <= rnd (W + w))%R) by (split; [apply rnd_nonneg; lra|apply rnd_mono; lra]).
      exists (rnd (S + rnd (x * w))). split; [|done]. change (sum_relev (e :: e' :: es)) with (fadd (sum_relev (e' :: es)) (e_relev e)).
      apply add_real; [done|done|]. rewrite Rabs_pos_eq by lra. rewrite Rabs_pos_eq in Hov by done. lra.
Qed.
Lemma hundredth_real : exists x, is_real (f_lit 1 100) x /\ (0 <= x)%R.
Proof. apply real_of_amount. split; [vm_compute; reflexivity|]. split; vm_compute; exact eq_refl || exact I. Qed.
Lemma stack_bound chain es : chain <> [] -> Forall2 shared chain es -> f_finite (sum_weights (rev chain)) ->
  ord_cmp (cc_relev (stack_context chain es)) (sum_weights (rev chain)) <> Gt.
Proof.
  intros Hne H Hfin. destruct (sum_bound _ _ H Hfin) as (W & HW & _ & HS). destruct (HS Hne) as (S & HS1 & HS2).
  cbn [stack_context cc_relev]. destruct (ascending es); [|by eapply real_le; [exact HS1|exact HW|lra]].
  destruct hundredth_real as (x & Hx & Hx0). destruct (sub_real _ _ _ _ HS1 Hx ltac:(lra) Hx0) as [H1 H2].
  eapply real_le; [exact H1|exact HW|lra].
Qed.
Lemma nested_shared p mtb tb o chain es : nested_stack p mtb tb o chain es -> (forall pm, pm ∈ chain -> amount (sq_weight pm)) ->
  chain <> [] /\ Forall2 shared chain es.
Proof.
  intros H. induction H as [pm e He|pm e pm' e' pms es H IH He Hx Hy]; intros Hw; (split; [done|]).
  - constructor; [|constructor]. split; [apply Hw; by left|by eapply entry_share].
  - constructor; [split; [apply Hw; by left|by eapply entry_share]|]. apply IH. intros q Hq. apply Hw. by right.
Qed.
Lemma weights_pos chain : (forall pm, pm ∈ chain -> amount (sq_weight pm)) -> f_pos (sum_weights (rev chain)).
Proof.
  induction chain as [|pm chain IH]; intros Hw; [done|]. rewrite sum_weights_cons. apply fadd_pos.
  - apply IH. intros q Hq. apply Hw. by right.
  - apply Hw. by left.
Qed.
Lemma entry_relev_le pm e : amount (sq_weight pm) -> (exists r, r ∈ shares /\ e_relev e = fmul r (sq_weight pm)) ->
  ord_cmp (e_relev e) (sum_weights [pm]) <> Gt.
Proof.
  intros Hw (r & Hr & He). destruct (real_of_amount _ Hw) as (w & Hwr & Hw0). destruct (share_ok _ Hr) as (x & Hx & Hx1).
  destruct (mul_real _ _ _ _ Hx Hwr Hx1 Hw0) as [Hm Hm1]. rewrite <- He in Hm.
  assert (Hz : is_real f_zero 0) by (by exists (B754_zero false)).
  pose proof (add_real _ _ _ _ Hz Hwr) as Ha. rewrite Rplus_0_l, (real_format _ _ Hwr) in Ha. specialize (Ha (real_small _ _ Hwr)).
  eapply real_le; [exact Hm|exact Ha|lra].
Qed.
