(** The relevance levels of what a query streams go down, whatever the options. *)
From Verif Require Import Prelude Lists F64 Heap Common Format Builder Store Spatial Query Spec Spec_match
  Cmp_proofs Builder_proofs Record_proofs Store_proofs Finish_proofs History_proofs Merge_proofs Match_proofs Query_proofs Binquery_proofs Bound_proofs.
From Coq Require Import Sorting.Sorted.
From Coq Require Import ZifyBool.
Local Open Scope N_scope.

Definition level_of (r : f64) : N :=
  let above c := match ord_cmp c r with Lt => 1 | _ => 0 end in above (f_lit 9 10) + above (f_lit 7 10) + above (f_lit 5 10).
Definition level_cmp (a b : match_entry) : comparison := N.compare (level_of (ge_relev (me_entry a))) (level_of (ge_relev (me_entry b))).
Lemma total_level : total_cmp level_cmp.
Proof.
  split; unfold level_cmp.
  - intros a b. apply N.compare_antisym.
  - intros a b c. rewrite !N.compare_gt_iff. lia.
Qed.
Lemma above_mono c r r' : ord_cmp c r = Lt -> ord_cmp r r' <> Gt -> ord_cmp c r' = Lt.
Proof.
  intros H1 H2. destruct (ord_cmp c r') eqn:E; [exfalso|done|exfalso].
  - apply (tc_trans _ total_cmp_ord r r' c) in H2; [|rewrite (tc_anti _ total_cmp_ord c r'), E; done]. rewrite (tc_anti _ total_cmp_ord c r), H1 in H2. done.
  - apply (tc_trans _ total_cmp_ord r r' c) in H2; [|rewrite (tc_anti _ total_cmp_ord c r'), E; done]. rewrite (tc_anti _ total_cmp_ord c r), H1 in H2. done.
Qed.
Lemma level_of_mono r r' : ord_cmp r r' <> Gt -> level_of r <= level_of r'.
Proof.
  intros H. assert (Ha : forall c, match ord_cmp c r with Lt => 1 | _ => 0 end <= match ord_cmp c r' with Lt => 1 | _ => 0 end).
  { intros c. destruct (ord_cmp c r) eqn:E; try (destruct (ord_cmp c r'); lia). rewrite (above_mono _ _ _ E H). lia. }
  unfold level_of. pose proof (Ha (f_lit 9 10)). pose proof (Ha (f_lit 7 10)). pose proof (Ha (f_lit 5 10)). lia.
Qed.
Lemma key_level a b : key_cmp a b <> Gt -> level_cmp a b <> Gt.
Proof.
  unfold key_cmp, level_cmp, cmp_then. rewrite N.compare_gt_iff. intros H. apply N.le_ngt, level_of_mono. by destruct (ord_cmp _ _).
Qed.
Lemma level_of_share v (b : bool) : level_of (fmul (unpack_relev v) (if b then f_one else f_096)) = level v.
Proof. rewrite unpack_relev_level. destruct (level_cases v) as [->|[->|[->| ->]]], b; vm_compute; reflexivity. Qed.

(** ** The queue *)
Lemma drain_levels tb fuel : forall q,
  (length (mjoin (streams q)) <= fuel)%nat -> Forall (StronglySorted (desc level_cmp)) (streams q) ->
  StronglySorted (desc level_cmp) (drain_queue tb fuel q).
Proof.
  induction fuel as [|fuel IH]; intros q Hl Hsort.
  - constructor.
  - cbn [drain_queue]. destruct (hp_max_idx queue_cmp tb q) as [i|] eqn:Hi; [|constructor].
    destruct (hp_max_idx_ok queue_cmp tb q i Hi) as ([e rest] & Ha & Hmax). rewrite Ha.
    assert (Hs : streams q !! i = Some (e :: rest)).
    { unfold streams. rewrite list_lookup_fmap, Ha. done. }
    pose proof (mjoin_insert (streams q) i e rest Hs) as Hp.
    assert (Hall : Forall (desc level_cmp e) (mjoin (streams q))).
    { apply (stream_heads level_cmp total_level); [done|]. intros b t Hin.
      apply elem_of_list_fmap in Hin as ([b' t'] & E & Hin). injection E as <- <-.
      rewrite Forall_forall in Hmax. apply key_level, match_key_cmp. exact (Hmax (b, t) Hin). }
    rewrite Hp in Hall. inversion Hall as [|? ? _ Hall']; subst.
    assert (Hrest : StronglySorted (desc level_cmp) rest).
    { rewrite Forall_lookup in Hsort. apply Hsort in Hs. by inversion Hs. }
    destruct rest as [|e' rest].
    + assert (Hs' : mjoin (<[i:=[]]> (streams q)) = mjoin (streams (hp_remove q i))).
      { unfold streams. cbn [hp_remove hp_items]. clear. revert i.
        induction (hp_items q) as [|x l IH]; intros [|i]; simpl; [done..|]. by rewrite IH. }
      rewrite Hs' in Hp, Hall'.
      assert (Hl' : (length (mjoin (streams (hp_remove q i))) <= fuel)%nat)
        by (apply Permutation_length in Hp; simpl in Hp; lia).
      constructor; [|by rewrite (drain_perm tb fuel _ Hl')]. apply IH; [done|].
      unfold streams. cbn [hp_remove hp_items]. clear -Hsort. unfold streams in Hsort.
      rewrite Forall_forall in *. intros l Hin. apply elem_of_list_fmap in Hin as (x & -> & Hin).
      apply Hsort. apply elem_of_list_fmap. exists x. split; [done|].
      revert Hin. generalize (hp_items q) as it. clear. intros it. revert i.
      induction it as [|y it IH]; intros [|i] Hin; simpl in *; [by apply elem_of_nil in Hin..|by right|].
      apply elem_of_cons in Hin as [->|Hin]; [left|right; by eapply IH].
    + assert (Hs' : <[i:=e' :: rest]> (streams q) = streams (hp_replace q i (e', rest))).
      { unfold streams. cbn [hp_replace hp_items]. symmetry.
          exact (list_fmap_insert stream_of (hp_items q) i (e', rest)). }
      rewrite Hs' in Hp, Hall'.
      assert (Hl' : (length (mjoin (streams (hp_replace q i (e', rest)))) <= fuel)%nat)
        by (apply Permutation_length in Hp; simpl in Hp; lia).
      constructor; [|by rewrite (drain_perm tb fuel _ Hl')]. apply IH; [done|].
      rewrite <- Hs'. by apply Forall_insert.
Qed.

(** ** One record *)
Lemma group_levels p tb data o lang radius v rss out m :
  decode_relev_group p tb data o lang radius (unpack_relev v, rss) = Ok out -> m ∈ out -> level_of (ge_relev (me_entry m)) = level v.
Proof.
  unfold decode_relev_group. intros Hd Hg. apply bind_Ok in Hd as (ss & _ & Hd). destruct (kmerge_panics ss); [done|].
  apply bind_Ok in Hd as (ms & Hms & Hd). injection Hd as <-. apply elem_of_mjoin in Hg as (l & Hg & Hm).
  apply res_mapM_Ok in Hms. apply elem_of_list_lookup in Hm as [j Hj]. destruct (Forall2_lookup_r _ _ _ _ _ Hms Hj) as (s & _ & Hs).
  apply bind_Ok in Hs as (ids & _ & Hs). injection Hs as <-. apply elem_of_map in Hg as (x & -> & _).
  cbn [mk_match me_entry ge_relev fst]. apply level_of_share.
Qed.
Lemma same_levels (l : list match_entry) n : (forall m, m ∈ l -> level_of (ge_relev (me_entry m)) = n) -> StronglySorted (desc level_cmp) l.
Proof.
  induction l as [|a l IH]; intros H; [constructor|]. constructor; [apply IH; intros; apply H; by right|]. apply Forall_forall. intros b Hb.
  unfold desc, level_cmp. rewrite (H a) by (by left). rewrite (H b) by (by right). by rewrite N.compare_refl.
Qed.
Lemma groups_levels p tb data o lang radius rss gs :
  grouping (fun rs => unpack_relev (rs_value rs)) feqb rss gs -> StronglySorted (fun a b => rs_value b < rs_value a) rss ->
  forall outs, res_mapM (decode_relev_group p tb data o lang radius) gs = Ok outs ->
  StronglySorted (desc level_cmp) (mjoin outs) /\ forall m, m ∈ mjoin outs -> exists rs, rs ∈ rss /\ level_of (ge_relev (me_entry m)) = level (rs_value rs).
Proof.
  induction 1 as [|a run Hrun|a run b l gs Hrun Hne Hgr IH]; intros Hs outs Ho.
  - injection Ho as <-. split; [constructor|]. intros m Hm. by apply elem_of_nil in Hm.
  - apply res_mapM_Ok in Ho. inversion Ho as [|? out ? ? E Ho']; subst. inversion Ho'; subst.
    assert (Hl : forall m, m ∈ out -> level_of (ge_relev (me_entry m)) = level (rs_value a)) by (intros m Hm; by eapply group_levels).
    change (mjoin [out]) with (out ++ []). rewrite app_nil_r. split; [by apply (same_levels out (level (rs_value a)))|].
    intros m Hm. exists a. split; [by left|by apply Hl].
  - apply res_mapM_Ok in Ho. inversion Ho as [|? out ? outs' E Ho']; subst. apply res_mapM_Ok in Ho'.
    assert (Hs2 : StronglySorted (fun a b => rs_value b < rs_value a) (b :: l)).
    { inversion Hs as [|? ? Hs' _]; subst. by apply StronglySorted_app in Hs' as (_ & ? & _). }
    destruct (IH Hs2 outs' Ho') as [I1 I2].
    assert (Hl : forall m, m ∈ out -> level_of (ge_relev (me_entry m)) = level (rs_value a)) by (intros m Hm; by eapply group_levels).
    change (mjoin (out :: outs')) with (out ++ mjoin outs'). split.
    + apply StronglySorted_app. split; [by apply (same_levels out (level (rs_value a)))|]. split; [done|]. intros x y Hx Hy.
      destruct (I2 y Hy) as (rs & Hrs & Ey). unfold desc, level_cmp. rewrite (Hl x Hx), Ey, N.compare_gt_iff. apply N.le_ngt, level_mono.
      inversion Hs as [|? ? _ Hall]; subst. rewrite Forall_forall in Hall. apply N.lt_le_incl, Hall. apply elem_of_app. by right.
    + intros m Hm. apply elem_of_app in Hm as [Hm|Hm]; [exists a; split; [by left|by apply Hl]|].
      destruct (I2 m Hm) as (rs & Hrs & Em). exists rs. split; [|done]. right. apply elem_of_app. by right.
Qed.
(** A value whose relevances and scores go down. *)
Definition desc_value (v : bytes) : Prop :=
  forall root rss, read_root v = Ok root -> read_var_vec v root = Ok rss -> StronglySorted (fun a b => rs_value b < rs_value a) rss.
Lemma decode_levels p tb value o lang radius out : desc_value value ->
  decode_matching_value p tb value o lang radius = Ok out -> StronglySorted (desc level_cmp) out.
Proof.
  unfold decode_matching_value. intros Hv H. apply bind_Ok in H as (root & Hr & H). apply bind_Ok in H as (rss & Hrss & H).
  apply bind_Ok in H as (gs & Hgs & H). injection H as <-.
  by apply (groups_levels _ _ _ _ _ _ _ _ (eager_groupby_grouping (fun rs => unpack_relev (rs_value rs)) feqb rss) (Hv _ _ Hr Hrss) gs Hgs).
Qed.
Lemma enc_desc be : rec_wf (norm be) -> N.of_nat (length (enc be)) < 2 ^ 32 -> desc_value (enc be).
Proof.
  intros Hwf Hl root rss Hr Hv. destruct (encode_record_reads (norm be) Hwf Hl) as (root' & rss' & Hr' & Hv' & HF).
  change (read_root (enc be) = Ok root') in Hr'. assert (root' = root) as -> by congruence. change (read_var_vec (enc be) root = Ok rss') in Hv'. assert (rss' = rss) as -> by congruence.
  pose proof (norm_sorted be) as Hs. clear - HF Hs. revert Hs. induction HF as [|rs g rss n [E _] HF IH]; intros Hs; [constructor|].
  apply StronglySorted_inv in Hs as [Hs Hall]. constructor; [by apply IH|]. apply Forall_forall. intros x Hx.
  apply elem_of_list_lookup in Hx as [i Hi]. destruct (Forall2_lookup_l _ _ _ _ _ HF Hi) as (g' & Hg' & E' & _).
  rewrite Forall_forall in Hall. rewrite E, E'. apply Hall. by eapply elem_of_list_lookup_2.
Qed.

(** ** The records of a query *)
Lemma built_values o ops s k p st en marker recs kv :
  history_ok ops -> built o ops s -> query_ok ops (mk_phrase k) -> fetch_range p s (mk_phrase k) = Ok (st, en, marker) ->
  take_matching (MatchKey (Range st en) (mk_lang k)) marker (db_iter_from (st_db s) (write_start marker (MatchKey (Range st en) (mk_lang k)))) = Ok recs ->
  kv ∈ recs -> desc_value kv.2.
Proof.
  intros Hh Hb Hq Hf Hr Hkv. pose proof (built_bounds o ops s Hh Hb) as Hbounds.
  destruct Hb as (d & z & t & r & bb & ms & Hfin & Es). assert (Hdb : st_db s = d) by by rewrite Es. rewrite Hdb in Hr.
  pose proof (run_keys_ok ops (proj1 Hh)) as Hkok.
  assert (Hkf : forall k v, d !! k = Some v -> key_form k) by (intros k' v; by apply (finish_key_form o (run ops))).
  assert (Hst : st < 2 ^ 32).
  { destruct (mk_phrase k) as [id|a b]; cbn [fetch_range] in Hf; [apply bind_Ok in Hf as (e & _ & Hf); injection Hf as <- _ _; unfold query_ok in Hq; eapply N.lt_trans; [exact Hq|done]|].
    destruct (_ && _); injection Hf as <- _ _; unfold query_ok in Hq; tauto. }
  rewrite (range_records d st en (mk_lang k) marker Hkf Hst) in Hr. injection Hr as <-.
  apply elem_of_filter in Hkv as [Hin Hsel]. destruct kv as [kb v]. cbn [snd]. rewrite elem_db_iter in Hin. unfold range_sel in Hsel. cbn [fst] in Hsel.
  destruct (Hkf _ _ Hin) as [(m & key & Hk & ->)| ->]; [|by rewrite matches_key_bounds in Hsel].
  rewrite matches_key_write in Hsel by apply Hk. destruct m, marker; try done.
  - pose proof Hfin as Hfin'. apply bind_Ok in Hfin' as (puts & Hp & [= <-]).
    apply apply_puts_some in Hin as [Hin|Hin]; [|by rewrite lookup_empty in Hin].
    apply (finish_elem o (run ops) puts _ Hp) in Hin as [(k' & be & Hd & E)|[H|E]].
    + apply pair_equal_spec in E as [_ ->]. pose proof (run_rel ops k') as Hrel. rewrite Hd in Hrel.
      destruct (written ops !! k') as [es|] eqn:Ew; [|done].
      destruct (history_decode ops k' be es Hh Hd Ew) as (Hhol & Hes & _ & Hsemi & Hlen & _). apply enc_desc; [by eapply holds_wf|done].
    + destruct H as (gid' & g & labelled & _ & _ & (l' & be & langs & _ & _ & E)). apply pair_equal_spec in E as [E _]. apply (f_equal head) in E. done.
    + apply pair_equal_spec in E as [E _]. apply (f_equal head) in E. done.
  - assert (Hbins : bins_ok ops).
    { destruct (mk_phrase k) as [id|a b]; cbn [fetch_range] in Hf; [apply bind_Ok in Hf as (e & _ & Hf); done|].
      destruct (existsb (N.eqb a) (st_bounds s) && existsb (N.eqb b) (st_bounds s)) eqn:E; [|done]. apply andb_prop in E as [E1 E2]. apply existsb_elem in E1, E2. rewrite Hbounds in E1, E2. unfold query_ok in Hq. tauto. }
    destruct key as [gid l]. destruct (bin_record o ops d gid l v Hh Hbins Hfin Hk Hin) as (_ & be & -> & _ & _ & Hwf & Hlen). by apply enc_desc.
Qed.

(** ** What a query streams *)
Lemma stream_levels p mtb tb o ops s k opts max out :
  history_ok ops -> built o ops s -> query_ok ops (mk_phrase k) ->
  streaming_get_matching p mtb tb s k opts max = Ok out -> StronglySorted (desc level_cmp) out.
Proof.
  intros Hh Hb Hq H. unfold streaming_get_matching in H. apply bind_Ok in H as ([[st en] marker] & Hf & H). apply bind_Ok in H as (recs & Hr & H).
  apply bind_Ok in H as (q & Hfold & H). injection H as <-. apply drain_levels; [by rewrite queue_size_streams|].
  assert (Hv : forall kv, kv ∈ recs -> desc_value kv.2) by (intros kv; by eapply built_values).
  assert (Hinv : forall recs q q', (forall kv, kv ∈ recs -> desc_value kv.2) -> res_foldl (queue_record p mtb tb s k opts max) q recs = Ok q' ->
    Forall (StronglySorted (desc level_cmp)) (streams q) -> Forall (StronglySorted (desc level_cmp)) (streams q')).
  { clear. induction recs as [|kv recs IH]; intros q q' Hv H Hall; cbn [res_foldl] in H; [by injection H as <-|].
    apply bind_Ok in H as (q1 & Hq1 & H). apply (IH _ _ (fun kv H => Hv kv ltac:(by right)) H). clear IH H. unfold queue_record in Hq1.
    apply bind_Ok in Hq1 as (lang & _ & Hq1). apply bind_Ok in Hq1 as (es & Hes & Hq1).
    assert (Hes' : StronglySorted (desc level_cmp) es) by (eapply decode_levels; [|exact Hes]; apply Hv; by left).
    destruct es as [|e es]; [by injection Hq1 as <-|].
    assert (Hpush : Forall (StronglySorted (desc level_cmp)) (streams (hp_push q (e, es)))).
    { unfold streams. cbn [hp_push hp_items]. rewrite List.map_app. apply Forall_app. split; [done|]. constructor; [exact Hes'|constructor]. }
    destruct (max <=? hp_len q); [|by injection Hq1 as <-].
    destruct (hp_peek_min queue_cmp tb q) as [worst|]; [|done].
    destruct (queue_cmp worst (e, es)); injection Hq1 as <-; [done| |done].
    unfold hp_replace_min. destruct (hp_min_idx queue_cmp tb q) as [i|]; [|done].
    unfold streams. cbn [hp_replace hp_items]. rewrite Forall_forall in Hall |- *. intros l Hl.
    apply elem_of_map in Hl as (x & -> & Hx). apply elem_of_list_lookup in Hx as [j Hj].
    apply list_lookup_insert_Some in Hj as [(-> & <- & _)|(_ & Hj)]; [done|].
    apply Hall. apply elem_of_map. exists x. split; [done|]. by eapply elem_of_list_lookup_2. }
  apply (Hinv _ _ _ Hv Hfold). constructor.
Qed.
