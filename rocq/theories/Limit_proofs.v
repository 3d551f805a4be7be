(** How many keys tree_coalesce fetches. *)
From Verif Require Import Prelude Lists F64 Heap Common Builder Store Query Spatial Coalesce Stackable Tree.
From Verif Require Import Cmp_proofs Queue_proofs Coalesce_proofs Multi_proofs Spec_coalesce Spec_stack Spec_tree Spec_quota
  Quota_proofs Tree_proofs.
Local Open Scope N_scope.

Section limits.
  Context (p : profile) (ho_ : hash_oracle) (mtb : merge_tb) (tb : tiebreak) (t : tree) (o : match_opts).

  Definition ids_of (F : list (tstep * match_key_id)) : list N := map (fun sk => mki_id sk.2) F.
  (** All entries of a context belong to fetched keys. *)
  Definition from_keys (F : list (tstep * match_key_id)) (c : coalesce_context) : Prop :=
    forall e, e ∈ cc_entries c -> ce_phrasematch_id e ∈ ids_of F.
  Lemma from_keys_mono F F' c : from_keys F c -> from_keys (F ++ F') c.
  Proof. intros H e He. unfold ids_of. rewrite List.map_app. apply elem_of_app. left. by apply H. Qed.
  Record fetched_state (F : list (tstep * match_key_id)) (s : tree_state) : Prop := {
    ft_keys : forall sk, sk ∈ F -> in_tree t (tp_sq sk.1) /\ sk.2 ∈ sq_keys (tp_sq sk.1);
    ft_quotas : forall c, counted c F <= q_get c (tr_quotas s) <= quota_limit c;
    ft_cache : forall id, is_Some (tr_cache s !! id) -> id ∈ ids_of F;
    ft_contexts : exists l, cpq_holds ctx_cmp tree_max_contexts l (tr_contexts s) /\ forall c, c ∈ l -> from_keys F c;
    ft_steps : forall st, st ∈ hp_items (tr_steps s) -> in_tree t (tp_sq st) /\
      forall prev c, tp_prev st = Some prev -> c ∈ prev -> from_keys F c }.

  Lemma made_from F st cache scale css c :
    (forall id, is_Some (cache !! id) -> id ∈ ids_of F) ->
    (forall prev d, tp_prev st = Some prev -> d ∈ prev -> from_keys F d) ->
    keys_made p st scale cache (sq_keys (tp_sq st)) css -> c ∈ mjoin css -> from_keys F c.
  Proof.
    intros Hc Hp Hm Hin. apply (keys_made_elem _ _ _ _ _ _ c Hm) in Hin as (k & grids & g & e & Hk & Hg & Hgin & He & Hgr).
    assert (Hid : ce_phrasematch_id e ∈ ids_of F).
    { apply to_entry_inv in He as (_ & _ & _ & _ & _ & _ & -> & _). apply Hc. eauto. }
    unfold grown in Hgr. destruct (tp_prev st) as [prev|].
    - apply elem_of_map in Hgr as (parent & -> & Hpar). apply elem_of_filter in Hpar as [Hpar _].
      intros e' He'. cbn [grow cc_entries] in He'. apply elem_of_cons in He' as [->|He']; [done|]. by eapply Hp.
    - apply elem_of_list_singleton in Hgr as ->. intros e' He'. cbn in He'. apply elem_of_list_singleton in He' as ->. done.
  Qed.

  Lemma round_fetched F round s s' complete :
    fetched_state F s -> tree_round p ho_ mtb tb t o round s = Ok (s', complete) -> exists F', fetched_state F' s'.
  Proof.
    intros [K1 K2 K3 (l & K4 & K4') K5] H.
    apply tree_round_ok in H as (g & popped & last & fs & rs & [Gd Hcomp HF Hrun Hctx Hst Hqs [C1 C2]]).
    pose proof (gd_steps _ _ _ _ _ _ _ _ Gd) as Hp. cbn [gt_steps] in Hp.
    destruct (gd_keys _ _ _ _ _ _ _ _ Gd) as (new & sks & Enew & HFk & Hcnt). cbn [gt_keys gt_quotas app] in Enew, Hcnt.
    exists (F ++ sks).
    assert (Hpop : forall st, st ∈ popped -> st ∈ hp_items (tr_steps s)) by (intros st Hin; rewrite Hp; apply elem_of_app; by left).
    assert (Hnewid : forall kf, kf ∈ gt_keys g -> kf_id kf ∈ ids_of (F ++ sks)).
    { rewrite Enew. intros kf Hkf. apply elem_of_list_lookup in Hkf as [i Hi].
      destruct (Forall2_lookup_r _ _ _ _ _ HFk Hi) as (sk & Hsk & _ & (_ & -> & _)).
      apply elem_of_map. exists sk. split; [done|]. apply elem_of_app. right. by eapply elem_of_list_lookup_2. }
    assert (Hcache : forall id, is_Some (tr_cache s' !! id) -> id ∈ ids_of (F ++ sks)).
    { intros id [gs Hl]. destruct (C1 _ _ Hl) as [Hold|Hnew].
      - unfold ids_of. rewrite List.map_app. apply elem_of_app. left. apply K3. eauto.
      - apply elem_of_list_lookup in Hnew as [i Hi]. destruct (Forall2_lookup_r _ _ _ _ _ HF Hi) as (kf & Hkfi & Hf).
        apply fetch_key_ok in Hf as (_ & -> & _). apply Hnewid. by eapply elem_of_list_lookup_2. }
    assert (Hrs : forall r, r ∈ rs -> (forall c, c ∈ r.1 -> from_keys (F ++ sks) c) /\
      forall st, st ∈ r.2 -> in_tree t (tp_sq st) /\ forall prev c, tp_prev st = Some prev -> c ∈ prev -> from_keys (F ++ sks) c).
    { intros [out next] Hr. apply elem_of_list_lookup in Hr as [i Hi].
      destruct (Forall2_lookup_r _ _ _ _ _ Hrun Hi) as (st & Hsti & site & Hrn). cbn [fst snd].
      apply elem_of_list_lookup_2 in Hsti. apply elem_of_filter in Hsti as [Hin _]. destruct (K5 st (Hpop _ Hin)) as [_ Hprev].
      apply run_step_ok in Hrn as (scale & css & sel & [N1 N2 (outs & N3 & ->) -> [N5 N4] _]).
      assert (Hmade : forall c, c ∈ mjoin css -> from_keys (F ++ sks) c).
      { intros c Hcin. eapply made_from; [exact Hcache| |exact N2|exact Hcin]. intros prev d Hpr Hd.
        apply from_keys_mono. by eapply Hprev. }
      split.
      - intros c Hcin. apply elem_of_mjoin in Hcin as (out & Hcin & Hout).
        apply elem_of_list_lookup in Hout as [j Hj]. destruct (Forall2_lookup_r _ _ _ _ _ N3 Hj) as (cs & Hcs & Hb).
        apply (best_40_in _ _ _ Hb) in Hcin. apply elem_of_map in Hcin as (d & -> & Hd).
        intros e He. apply (Hmade d); [apply elem_of_mjoin; exists cs; split; [done|by eapply elem_of_list_lookup_2]|].
        unfold penalize in He. destruct d as [m r [|e0 [|e1 es]]]; cbn [cc_entries] in *; try done. by destruct (_ <? _).
      - intros st' Hst'. apply elem_of_map in Hst' as ([j s1] & -> & Hin1). cbn [snd].
        destruct (N4 _ _ Hin1) as (n & Hn & Hfor). split; [exists j, n; split; [done|apply (sf_pm _ _ _ _ _ _ Hfor)]|].
        intros prev c Hpr Hc. rewrite (sf_prev _ _ _ _ _ _ Hfor) in Hpr. injection Hpr as <-. by apply Hmade. }
    split.
    - intros sk Hsk. apply elem_of_app in Hsk as [Hsk|Hsk]; [by apply K1|].
      apply elem_of_list_lookup in Hsk as [i Hi]. destruct (Forall2_lookup_l _ _ _ _ _ HFk Hi) as (kf & _ & Hin & (Hk & _)).
      split; [|done]. by apply K5, Hpop.
    - intros c. rewrite counted_app, Hqs. specialize (Hcnt c). destruct (K2 c) as [A1 A2].
      destruct (gd_quotas _ _ _ _ _ _ _ _ Gd c) as [_ A3]. cbn [gt_quotas] in A3. specialize (A3 A2). lia.
    - exact Hcache.
    - eexists. split; [rewrite Hctx; by apply push_all_holds|]. intros c Hc.
      apply elem_of_app in Hc as [Hc|Hc]; [by apply from_keys_mono, K4'|].
      apply elem_of_app in Hc as [Hc|Hc]; apply elem_of_mjoin in Hc as (l0 & Hc & Hl0); apply elem_of_map in Hl0 as (r & -> & Hr).
      + destruct r as [i f]. unfold pushed_of in Hc. cbn [fst snd] in Hc. destruct f as [q|id data]; [|by apply elem_of_nil in Hc].
        unfold cpq_iter in Hc. rewrite (ho_perm ho_) in Hc.
        apply elem_of_combine_r, elem_of_list_lookup in Hr as [j Hj].
        destruct (Forall2_lookup_r _ _ _ _ _ HF Hj) as (kf & Hkf & Hfk). apply elem_of_list_lookup_2 in Hkf.
        apply fetch_key_ok in Hfk as (_ & out & cs & _ & Hcs & Hh). apply (holds_in _ _ _ _ Hh) in Hc.
        apply (tree_single_ok _ _ _ _ _ _ Hcs) in Hc as (g0 & e & _ & He & ->). intros e' He'. cbn in He'.
        apply elem_of_list_singleton in He' as ->. apply to_entry_inv in He as (_ & _ & _ & _ & _ & _ & -> & _). by apply Hnewid.
      + by apply (Hrs r Hr).
    - intros st Hin. rewrite Hst in Hin. apply elem_of_app in Hin as [Hin|Hin].
      + destruct (K5 st) as [I1 I2]; [rewrite Hp, !elem_of_app; auto|]. split; [done|]. intros prev c Hpr Hc.
        apply from_keys_mono. by eapply I2.
      + apply elem_of_mjoin in Hin as (l0 & Hin & Hl0). apply elem_of_map in Hl0 as (r & -> & Hr). by apply (Hrs r Hr).
  Qed.

  Lemma first_fetched steps :
    res_foldl (first_step p t o) hp_empty (sn_children (t_root t)) = Ok steps ->
    fetched_state [] (TreeState (cpq_new tree_max_contexts) steps ∅ (Quotas 0 0 0 0 0)).
  Proof.
    intros H. apply first_steps_ok in H as (sel & E & [S1 S2] & _). split; cbn [tr_quotas tr_cache tr_contexts tr_steps].
    - intros sk Hsk. by apply elem_of_nil in Hsk.
    - intros []; cbn; lia.
    - intros id [x Hx]. by rewrite lookup_empty in Hx.
    - exists []. split; [apply cpq_new_holds|]. intros c Hc. by apply elem_of_nil in Hc.
    - rewrite E. cbn [hp_empty hp_items app]. intros st Hst. apply elem_of_map in Hst as ([i s1] & -> & Hin). cbn [snd].
      destruct (S2 _ _ Hin) as (n & Hn & Hf). split; [exists i, n; split; [done|apply (sf_pm _ _ _ _ _ _ Hf)]|].
      intros prev c Hpr. by rewrite (sf_prev _ _ _ _ _ _ Hf) in Hpr.
  Qed.

  Lemma tree_fetched fuel out :
    tree_coalesce p ho_ mtb tb fuel t o = Ok out ->
    exists F, (forall sk, sk ∈ F -> in_tree t (tp_sq sk.1) /\ sk.2 ∈ sq_keys (tp_sq sk.1)) /\
      (forall c, counted c F <= quota_limit c) /\ forall d, d ∈ out -> from_keys F d.
  Proof.
    unfold tree_coalesce. intros H. apply bind_Ok in H as (u & _ & H). apply bind_Ok in H as (steps & Hs & H).
    apply bind_Ok in H as (s & Hl & H). injection H as <-.
    assert (Hinv : exists F, fetched_state F s).
    { refine (loop_inv p ho_ mtb tb t o (fun s => exists F, fetched_state F s) _ fuel _ s _ Hl).
      - intros round s1 s2 c (F & HF) Hr. by eapply round_fetched.
      - exists []. by apply first_fetched. }
    destruct Hinv as (F & [K1 K2 _ (l & K4 & K4') _]). exists F. split; [done|]. split; [intros c; specialize (K2 c); lia|].
    intros d Hd. apply K4'. eapply holds_in; [exact K4|].
    destruct (hp_into_desc_ok ctx_cmp total_cmp_ctx tb (cpq_heap (tr_contexts s))) as [Hp _]. unfold cpq_into_desc in Hd. by rewrite Hp in Hd.
  Qed.

  Lemma counted_ids c F D :
    NoDup D -> (forall id, id ∈ D -> exists sk, sk ∈ F /\ mki_id sk.2 = id /\ under_quota c (tp_sq sk.1) sk.2 = true) ->
    N.of_nat (length D) <= counted c F.
  Proof.
    revert D. induction F as [|sk F IH]; intros D Hnd HD.
    - destruct D as [|id D]; [done|]. destruct (HD id ltac:(by left)) as (sk & Hsk & _). by apply elem_of_nil in Hsk.
    - cbn [counted foldr]. fold (counted c F). destruct (under_quota c (tp_sq sk.1) sk.2) eqn:E; cbn [one].
      + specialize (IH (List.filter (fun id => negb (id =? mki_id sk.2)) D)).
        assert (Hlen : (length D <= S (length (List.filter (fun id => negb (id =? mki_id sk.2)%N) D)))%nat).
        { clear - Hnd. induction D as [|id D IHD]; cbn [List.filter length]; [lia|]. apply NoDup_cons in Hnd as [Hni Hnd].
          destruct (N.eqb_spec id (mki_id sk.2)) as [->|Hne]; cbn [negb length]; [|specialize (IHD Hnd); lia].
          enough (List.filter (fun id => negb (id =? mki_id sk.2)%N) D = D) as -> by lia. clear IHD Hnd.
          induction D as [|id D IHD]; cbn [List.filter]; [done|]. apply not_elem_of_cons in Hni as [Hne Hni].
          destruct (N.eqb_spec id (mki_id sk.2)); [congruence|]. cbn [negb]. by rewrite IHD. }
        assert (N.of_nat (length (List.filter (fun id => negb (id =? mki_id sk.2)) D)) <= counted c F); [|lia].
        apply IH; [by apply NoDup_ListNoDup, List.NoDup_filter, NoDup_ListNoDup|].
        intros id Hid. apply elem_of_filter in Hid as [Hid Hne]. destruct (HD id Hid) as (sk' & Hsk & Hi & Hu).
        apply elem_of_cons in Hsk as [->|Hsk]; [|by exists sk']. by rewrite Hi, N.eqb_refl in Hne.
      + apply IH; [done|]. intros id Hid. destruct (HD id Hid) as (sk' & Hsk & Hi & Hu).
        apply elem_of_cons in Hsk as [->|Hsk]; [congruence|by exists sk'].
  Qed.
End limits.
