(** Queries answered from prefix bins. *)
From Verif Require Import Prelude Lists F64 Heap Common Morton Format Builder Spatial Store Spec Spec_match
  Format_proofs Bits_proofs Record_proofs Builder_proofs Finish_proofs Store_proofs Order_proofs Size_proofs
  Bins_proofs History_proofs Spatial_proofs Cmp_proofs Merge_proofs Float_proofs Match_proofs Query_proofs.
From Coq Require Import Sorting.Sorted.
From Coq Require Import ZifyBool.
Local Open Scope N_scope.

(** ** Boundaries *)
Lemma run_bounds ops : b_bounds (run ops) = loaded ops.
Proof.
  unfold run, loaded. induction ops as [|o ops IH] using rev_ind; [done|].
  rewrite !foldl_app. cbn [foldl]. by destruct o.
Qed.

Lemma decode_bounds_le (bs : list N) :
  Forall (fun b => b < 2 ^ 32) bs -> decode_bounds (mjoin (map (le_bytes 4) bs)) = bs.
Proof.
  induction 1 as [|b bs Hb H IH]; [done|].
  assert (Em : mjoin (map (le_bytes 4) (b :: bs)) = le_bytes 4 b ++ mjoin (map (le_bytes 4) bs)) by done.
  rewrite Em. clear Em. revert IH. generalize (mjoin (map (le_bytes 4) bs)) as rest. intros rest IH.
  pose proof (le_value_le_bytes 4 b Hb) as Hv. pose proof (le_bytes_length 4 b) as Hl.
  destruct (le_bytes 4 b) as [|b0 [|b1 [|b2 [|b3 [|]]]]]; try done.
  cbn [app decode_bounds]. by rewrite IH, Hv.
Qed.
Lemma built_bounds o ops s : history_ok ops -> built o ops s -> st_bounds s = loaded ops.
Proof.
  intros [Hops _] (d & z & t & r & bb & ms & Hf & ->). unfold open_store. cbn [st_bounds].
  rewrite <- run_bounds. apply bind_Ok in Hf as (puts & Hp & [= <-]).
  erewrite apply_puts_unique.
  - apply decode_bounds_le. by apply run_bounds_ok.
  - apply finish_puts_groups in Hp as (labelled & _ & ->). apply elem_of_app. right. by left.
  - intros v' Hv. apply (finish_elem o _ puts _ Hp) in Hv as [(k' & be & Hd & E)|[H|E]].
    + apply pair_equal_spec in E as [E _]. symmetry in E. by apply write_key_bounds in E.
    + destruct H as (gid & g & labelled & _ & _ & Hbp). apply bin_put_key in Hbp as (l & E & _).
      cbn [fst] in E. symmetry in E. by apply write_key_bounds in E.
    + by apply pair_equal_spec in E as [_ E].
Qed.

(** ** The label of a phrase *)
Lemma take_while_sorted_filter p (l : list N) :
  StronglySorted (fun a b => a < b) l ->
  take_while (fun b => b <=? p) l = List.filter (fun b => b <=? p) l.
Proof.
  induction 1 as [|b l Hs IH Hb]; [done|]. simpl. destruct (b <=? p) eqn:E; [by rewrite IH|].
  symmetry. apply filter_none. intros x Hx. rewrite Forall_forall in Hb. specialize (Hb x Hx). lia.
Qed.
Lemma label_bin bounds b p :
  StronglySorted (fun a b => a < b) bounds -> head bounds = Some b -> b <= p ->
  label_of bounds p = bin_of bounds p.
Proof.
  intros Hs Hh Hp. destruct bounds as [|b' rest]; [done|]. injection Hh as ->.
  unfold label_of, bin_of. inversion Hs; subst. simpl. replace (b <=? p) with true by lia.
  by rewrite take_while_sorted_filter.
Qed.

Lemma last_filter_spec p (l : list N) :
  StronglySorted (fun a b => a < b) l ->
  match last (List.filter (fun b => b <=? p) l) with
  | None => forall b, b ∈ l -> p < b
  | Some g => g ∈ l /\ g <= p /\ forall b, b ∈ l -> b <= p -> b <= g
  end.
Proof.
  intros Hs. destruct (last _) as [g|] eqn:E.
  - apply last_Some in E as [l' E].
    assert (Hg : g ∈ List.filter (fun b => b <=? p) l) by (rewrite E; apply elem_of_app; right; by left).
    apply elem_of_filter in Hg as [Hg Hle]. split; [done|]. split; [lia|].
    intros b Hb Hbp.
    assert (Hb' : b ∈ List.filter (fun b => b <=? p) l) by (apply elem_of_filter; split; [done|lia]).
    rewrite E in Hb'. apply elem_of_app in Hb' as [Hb'|Hb'%elem_of_list_singleton]; [|lia].
    apply (StronglySorted_filter _ (fun b => b <=? p)) in Hs. rewrite E in Hs.
    apply StronglySorted_app in Hs as (_ & _ & H). specialize (H b g Hb' ltac:(by left)). lia.
  - apply last_None in E. intros b Hb. destruct (N.leb_spec b p) as [Hle|Hle]; [|done].
    assert (Hb' : b ∈ List.filter (fun b => b <=? p) l) by (apply elem_of_filter; split; [done|lia]).
    rewrite E in Hb'. by apply elem_of_nil in Hb'.
Qed.

(** ** Groups of a list sorted by its key are the fibres of the key *)
Lemma grouping_fibre {A K} (key : A -> K) eqb (le : K -> K -> Prop) :
  (forall a b, eqb a b = true <-> a = b) -> (forall a b, le a b -> le b a -> a = b) ->
  forall l gs, grouping key eqb l gs -> StronglySorted (fun a b => le (key a) (key b)) l ->
  forall k g, (k, g) ∈ gs -> g = List.filter (fun x => eqb k (key x)) l.
Proof.
  intros Heq Hanti l gs HG. induction HG as [|a run HF|a run b l gs HF Hab HG IH]; intros Hs k g Hin.
  - by apply elem_of_nil in Hin.
  - apply elem_of_list_singleton in Hin. injection Hin as -> ->. symmetry. apply filter_all.
    intros x [->|Hx]%elem_of_cons; [by apply Heq|]. rewrite Forall_forall in HF. by apply HF.
  - rewrite app_comm_cons in Hs. apply StronglySorted_app in Hs as (_ & Hs2 & Hcross).
    rewrite app_comm_cons, List.filter_app.
    assert (Hrun : forall x, x ∈ a :: run -> key x = key a).
    { intros x [->|Hx]%elem_of_cons; [done|]. rewrite Forall_forall in HF. symmetry. apply Heq. by apply HF. }
    assert (Hrest : forall x, x ∈ b :: l -> key x <> key a).
    { intros x Hx E. assert (Hne : key a <> key b) by (intros E'; apply Heq in E'; congruence).
      apply Hne. apply Hanti; [apply Hcross; [left|left]|].
      rewrite <- E. inversion Hs2 as [|? ? ? HFb]; subst. apply elem_of_cons in Hx as [->|Hx].
      - by congruence.
      - rewrite Forall_forall in HFb. by apply HFb. }
    apply elem_of_cons in Hin as [Hin|Hin].
    + injection Hin as -> ->. rewrite filter_all, filter_none; [by rewrite app_nil_r|..].
      * intros x Hx. apply not_true_is_false. intros E%Heq. by apply (Hrest x Hx).
      * intros x Hx. apply Heq. symmetry. by apply Hrun.
    + rewrite (filter_none _ (a :: run)); [simpl; by apply IH|].
      intros x Hx. apply not_true_is_false. intros E%Heq. subst k. rewrite (Hrun x Hx) in Hin.
      destruct (grouping_elem key eqb _ _ _ _ HG Hin) as (y & run' & -> & Hy & _ & Hsub).
      apply (Hrest y); [|done]. apply Hsub. left.
Qed.

Definition ole (a b : option N) : Prop :=
  match a, b with
  | None, _ => True
  | Some x, Some y => x <= y
  | Some _, None => False
  end.
Lemma ole_anti a b : ole a b -> ole b a -> a = b.
Proof. destruct a, b; simpl; try done. intros. f_equal. lia. Qed.
Lemma bin_of_mono bounds p q :
  StronglySorted (fun a b => a < b) bounds -> p <= q -> ole (bin_of bounds p) (bin_of bounds q).
Proof.
  intros Hs Hpq. unfold bin_of.
  pose proof (last_filter_spec p bounds Hs) as Hp. pose proof (last_filter_spec q bounds Hs) as Hq.
  destruct (last (List.filter (fun b => b <=? p) bounds)) as [g|],
    (last (List.filter (fun b => b <=? q) bounds)) as [g'|]; simpl; try done.
  - destruct Hp as (H1 & H2 & _), Hq as (_ & _ & H3). apply H3; [done|lia].
  - destruct Hp as (H1 & H2 & _). specialize (Hq g H1). lia.
Qed.

(** ** The record of a bin *)
Lemma history_phrases ops k be :
  history_ok ops -> b_data (run ops) !! k = Some be -> gk_phrase k < u32_max.
Proof.
  intros [_ Hw] Hbe. pose proof (run_rel ops k) as Hr. rewrite Hbe in Hr.
  destruct (written ops !! k) as [es|] eqn:E; [|done].
  destruct (Hw k es E) as [H _]. unfold gk_phrase, u32_max. lia.
Qed.
Definition bin_item (ops : list op) (gid l : N) (it : (N * N) * gmap N (gmap N (list N))) : Prop :=
  b_data (run ops) !! it.1 = Some it.2 /\ bin_of (loaded ops) it.1.1 = Some gid /\ it.1.2 = l.

Lemma history_labels ops :
  history_ok ops -> bins_ok ops ->
  finish_groups (run ops) (map (fun it => (bin_of (loaded ops) (gk_phrase it.1), it)) (btree_iter (b_data (run ops)))).
Proof.
  intros Hh (Hs & Hfirst & _).
  pose proof (finish_labels (run ops) (fun k be => history_phrases ops k be Hh)) as H.
  rewrite run_bounds in H. unfold finish_groups in *. rewrite H. f_equal. apply map_ext_in.
  intros [k be] Hin%elem_of_list_In%elem_btree_iter. f_equal. cbn [fst].
  pose proof (run_rel ops k) as Hr. rewrite Hin in Hr.
  destruct (written ops !! k) as [es|] eqn:E; [|done].
  destruct (Hfirst k es E) as (b & Hb & Hle). by eapply label_bin.
Qed.

Lemma bin_group_items ops gid g :
  history_ok ops -> bins_ok ops -> forall labelled, finish_groups (run ops) labelled ->
  (Some gid, g) ∈ eager_groupby fst option_N_eqb labelled ->
  forall it, it ∈ map snd g <-> b_data (run ops) !! it.1 = Some it.2 /\ bin_of (loaded ops) it.1.1 = Some gid.
Proof.
  intros Hh Hb labelled Hl Hg it.
  pose proof (history_labels ops Hh Hb) as Hl'. unfold finish_groups in *. rewrite Hl in Hl'.
  injection Hl' as ->. destruct Hb as (Hs & _).
  pose proof (eager_groupby_grouping fst option_N_eqb
    (map (fun it => (bin_of (loaded ops) (gk_phrase it.1), it)) (btree_iter (b_data (run ops))))) as HG.
  apply (grouping_fibre fst option_N_eqb ole option_N_eqb_eq ole_anti _ _ HG) in Hg.
  - rewrite Hg, elem_of_map. split.
    + intros (x & -> & Hx). apply elem_of_filter in Hx as [Hx E].
      apply elem_of_map in Hx as ([k be] & -> & Hin). cbn [fst snd] in *.
      apply elem_btree_iter in Hin. apply option_N_eqb_eq in E. done.
    + intros [Hd E]. exists (Some gid, it). split; [done|]. apply elem_of_filter. split.
      * apply elem_of_map. exists it. split; [unfold gk_phrase; by rewrite E|].
        destruct it as [k be]. by apply elem_btree_iter.
      * by apply option_N_eqb_eq.
  - apply (StronglySorted_map (fun it => (bin_of (loaded ops) (gk_phrase it.1), it))).
    eapply StronglySorted_impl; [|apply btree_iter_phrases]. cbv beta. cbn [fst].
    intros a b _ _ Hle. by apply bin_of_mono.
Qed.

Lemma bin_entries_holds ops gid l be :
  history_ok ops ->
  (forall rs z v, be_has be rs z v <-> exists it, bin_item ops gid l it /\ be_has it.2 rs z v) ->
  holds be (bin_entries ops gid l) /\ Forall entry_ok (bin_entries ops gid l).
Proof.
  intros Hh Hhas. split.
  - intros rs z v. rewrite Hhas. unfold bin_entries. split.
    + intros ([k be'] & (Hd & Hg & El) & H). cbn [fst snd] in *.
      pose proof (run_rel ops k) as Hr. rewrite Hd in Hr.
      destruct (written ops !! k) as [es|] eqn:E; [|done].
      destruct (proj1 (Hr rs z v) H) as (e & He & Ep). exists e. split; [|done].
      apply elem_of_mjoin. exists es. split; [done|]. apply elem_of_map. exists (k, es). split; [done|].
      apply elem_of_filter. split; [by apply elem_of_map_to_list|]. cbn [fst snd].
      rewrite Hg. rewrite !N.eqb_refl. cbn [andb]. lia.
    + intros (e & He & Ep). apply elem_of_mjoin in He as (es & He & Hes).
      apply elem_of_map in Hes as ([k es'] & -> & Hin). cbn [snd] in He.
      apply elem_of_filter in Hin as [Hin Hc]. apply elem_of_map_to_list in Hin. cbn [fst] in Hc.
      apply andb_prop in Hc as [Hg El].
      destruct (bin_of (loaded ops) k.1) as [g|] eqn:Eg; [|done]. apply N.eqb_eq in Hg as ->.
      apply N.eqb_eq in El. pose proof (run_rel ops k) as Hr. rewrite Hin in Hr.
      destruct (b_data (run ops) !! k) as [be'|] eqn:Ed; [|done].
      exists (k, be'). split; [done|]. apply Hr. eauto.
  - apply Forall_forall. intros e He. unfold bin_entries in He.
    apply elem_of_mjoin in He as (es & He & Hes).
    apply elem_of_map in Hes as ([k es'] & -> & Hin). cbn [snd] in He.
    apply elem_of_filter in Hin as [Hin _]. apply elem_of_map_to_list in Hin.
    destruct Hh as [Hops _]. destruct (written_all_ok ops Hops k es' Hin) as [_ H].
    rewrite Forall_forall in H. by apply H.
Qed.

Lemma bin_record o ops d gid l v :
  history_ok ops -> bins_ok ops -> finish o (run ops) ∅ = Ok d -> key_ok (gid, l) ->
  d !! write_key PrefixBin (gid, l) = Some v ->
  (exists it, bin_item ops gid l it) /\
  exists be, v = enc be /\ holds be (bin_entries ops gid l) /\ Forall entry_ok (bin_entries ops gid l) /\
    rec_wf (norm be) /\ N.of_nat (length (enc be)) < 2 ^ 32.
Proof.
  intros Hh Hb Hf Hk Hv. pose proof (run_keys_ok ops (proj1 Hh)) as [Hkok Hbok].
  apply bind_Ok in Hf as (puts & Hp & [= <-]).
  apply apply_puts_some in Hv as [Hv|Hv]; [|by rewrite lookup_empty in Hv].
  apply (finish_elem o (run ops) puts _ Hp) in Hv as [(k' & be & Hd & E)|[H|E]].
  - apply pair_equal_spec in E as [E _]. apply (f_equal head) in E. done.
  - destruct H as (gid' & g & labelled & Hl & Hg & (l' & be & langs & Hm & Hlk & E)).
    apply pair_equal_spec in E as [E ->].
    assert (Hit : exists it, it ∈ map snd g /\ gk_lang it.1 = l') by (apply (mo_dom _ _ Hm); eauto).
    destruct Hit as (it & Hit & El).
    assert (Hk' : key_ok (gid', l')).
    { destruct (bin_group_elem (run ops) labelled gid' g it (conj Hkok Hbok) Hl Hg Hit) as (H1 & H2 & _).
      rewrite Forall_forall in Hbok. split; [by apply Hbok|]. cbn [snd]. rewrite <- El. by eapply Hkok. }
    destruct (write_key_inj _ _ _ _ Hk Hk' E) as [_ E']. injection E' as <- <-.
    pose proof (bin_group_items ops gid g Hh Hb labelled Hl Hg) as Hits.
    assert (Hhas : forall rs z v, be_has be rs z v <-> exists it, bin_item ops gid l it /\ be_has it.2 rs z v).
    { intros rs z v. pose proof (mo_has _ _ Hm l rs z v) as H. rewrite Hlk in H. cbn [default from_option] in H.
      unfold default in H. simpl in H. rewrite H. split.
      - intros (x & Hx & Ex & Hx'). apply Hits in Hx as [? ?]. exists x. done.
      - intros (x & (H1 & H2 & H3) & Hx'). exists x. split; [by apply Hits|done]. }
    destruct (bin_entries_holds ops gid l be Hh Hhas) as [Hholds Hok].
    assert (Hsemi : be_semi be).
    { apply (mo_semi _ _ Hm) with (l := l); [|done]. intros x Hx. apply Hits in Hx as [Hx _].
      destruct Hh as [Hops _]. by eapply (run_semi ops Hops). }
    split.
    + exists it. apply Hits in Hit as [? ?]. done.
    + exists be. split; [done|]. split; [done|]. split; [done|]. split; [by eapply holds_wf|].
      eapply holds_enc_size; [done|done|]. apply Hb.
  - apply pair_equal_spec in E as [E _]. by apply write_key_bounds in E.
Qed.

Lemma bin_record_exists o ops d gid l it :
  history_ok ops -> bins_ok ops -> finish o (run ops) ∅ = Ok d -> bin_item ops gid l it ->
  exists v, d !! write_key PrefixBin (gid, l) = Some v.
Proof.
  intros Hh Hb Hf (Hd & Hg & El). apply bind_Ok in Hf as (puts & Hp & [= <-]).
  pose proof (history_labels ops Hh Hb) as Hl.
  apply finish_puts_groups in Hp as (labelled & Hl' & ->).
  unfold finish_groups in *. rewrite Hl in Hl'. injection Hl' as <-.
  set (labelled := map (fun it : (N * N) * gmap N (gmap N (list N)) => (bin_of (loaded ops) (gk_phrase it.1), it)) _).
  assert (Hin : (Some gid, it) ∈ labelled).
  { apply elem_of_map. exists it. split; [unfold gk_phrase; by rewrite Hg|].
    destruct it as [k be]. by apply elem_btree_iter. }
  pose proof (eager_groupby_grouping fst option_N_eqb labelled) as HG.
  apply (grouping_in fst option_N_eqb _ _ _ HG) in Hin as (k & g & Hg' & Hin).
  assert (Ek : k = Some gid).
  { symmetry. exact (grouping_key_eq fst option_N_eqb _ _ _ _ _ option_N_eqb_eq HG Hg' Hin). }
  subst k.
  destruct (group_puts_bin o (Some gid, g) gid it eq_refl) as [v Hv].
  { apply elem_of_map. by exists (Some gid, it). }
  unfold gk_lang in Hv. rewrite El in Hv.
  edestruct (apply_puts_in (mjoin (map (group_puts o) (eager_groupby fst option_N_eqb labelled)) ++
    [(bounds_key, mjoin (map (le_bytes 4) (b_bounds (run ops))))]) ∅) as (v' & Hv' & _); [|by exists v'].
  apply elem_of_app. left. apply elem_of_mjoin. eexists. split; [exact Hv|].
  apply elem_of_map. by eexists.
Qed.

(** ** Streams of a query answered from bins *)
Lemma NoDup_map_filter {A B} (f : A -> B) (g : A -> bool) (l : list A) :
  NoDup (map f l) -> NoDup (map f (List.filter g l)).
Proof.
  induction l as [|a l IH]; simpl; [done|]. intros H. inversion H as [|? ? Hn Hd]; subst.
  destruct (g a); simpl; [|auto]. constructor; [|auto]. intros Hin. apply Hn.
  apply elem_of_map in Hin as (x & E & Hx). apply elem_of_filter in Hx as [Hx _]. apply elem_of_map. eauto.
Qed.
Lemma NoDup_fmap_fst_filter (d : gmap (list N) (list N)) f : NoDup (map fst (List.filter f (db_iter d))).
Proof.
  apply (NoDup_map_filter fst f). unfold db_iter.
  rewrite (Permutation_map fst (isort_perm _ (map_to_list d))). apply NoDup_fst_map_to_list.
Qed.
Definition bin_query (ops : list op) (ph : match_phrase) : Prop :=
  match ph with
  | Exact _ => False
  | Range a b => a ∈ loaded ops /\ b ∈ loaded ops
  end.
Lemma bin_of_range bounds st en p gid :
  StronglySorted (fun a b => a < b) bounds -> st ∈ bounds -> en ∈ bounds -> bin_of bounds p = Some gid ->
  (st <=? gid) && (gid <? en) = (st <=? p) && (p <? en).
Proof.
  intros Hs Hst Hen Hg. pose proof (last_filter_spec p bounds Hs) as H. unfold bin_of in Hg. rewrite Hg in H.
  destruct H as (H1 & H2 & H3). pose proof (H3 st Hst). pose proof (H3 en Hen). lia.
Qed.
Lemma bin_item_written ops gid l it :
  bin_item ops gid l it -> exists es, written ops !! it.1 = Some es.
Proof.
  intros (H & _). pose proof (run_rel ops it.1) as Hr. rewrite H in Hr.
  destruct (written ops !! it.1) as [es|] eqn:E; [eauto|done].
Qed.
Lemma written_item ops k es :
  written ops !! k = Some es -> bins_ok ops ->
  exists gid it, bin_item ops gid k.2 it /\ it.1 = k /\ bin_of (loaded ops) k.1 = Some gid.
Proof.
  intros H (Hs & Hfirst & _). pose proof (run_rel ops k) as Hr. rewrite H in Hr.
  destruct (b_data (run ops) !! k) as [be|] eqn:E; [|done].
  destruct (Hfirst k es H) as (b & Hb & Hle).
  pose proof (last_filter_spec k.1 (loaded ops) Hs) as HL. unfold bin_of.
  destruct (last _) as [g|] eqn:Eg.
  - exists g, (k, be). split; [|done]. split; [done|]. split; [exact Eg|done].
  - assert (Hin : b ∈ loaded ops) by (destruct (loaded ops); [done|injection Hb as ->; left]).
    specialize (HL b Hin). lia.
Qed.

Lemma bin_streams p mtb o ops s k opts :
  history_ok ops -> bins_ok ops -> built o ops s -> opts_ok p opts (st_radius s) ->
  bin_query ops (mk_phrase k) ->
  exists ess,
    (forall m, m ∈ mjoin ess <-> should_match ops k opts (st_radius s) m) /\
    (length ess <= size (written ops))%nat /\
    (mo_prox opts = None -> Forall (StronglySorted (desc key_cmp)) ess) /\
    forall tb max, streaming_get_matching p mtb tb s k opts max =
      (let* q := res_foldl (q_push tb max) hp_empty ess in Ok (drain_queue tb (queue_size q) q)).
Proof.
  intros Hh Hb Hbuilt Ho Hq. destruct (mk_phrase k) as [|st en] eqn:Eph; [done|].
  destruct Hq as [Hst Hen].
  pose proof (built_bounds o ops s Hh Hbuilt) as Hbounds.
  destruct Hbuilt as (d & z & t & r & bb & ms & Hf & Es).
  assert (Hdb : st_db s = d) by by rewrite Es.
  assert (Hrad : st_radius s = r) by by rewrite Es.
  clear Es. rewrite Hrad in *.
  pose proof (run_keys_ok ops (proj1 Hh)) as Hkok.
  assert (Hkf : forall k v, d !! k = Some v -> key_form k).
  { intros k' v. by apply (finish_key_form o (run ops)). }
  assert (Hst32 : st < 2 ^ 32).
  { destruct Hkok as [_ Hbk]. rewrite run_bounds, Forall_forall in Hbk. by apply Hbk. }
  set (recs := List.filter (range_sel PrefixBin st en) (db_iter d)).
  assert (Hrec : forall kv, kv ∈ recs <-> exists gid l, key_ok (gid, l) /\ kv.1 = write_key PrefixBin (gid, l) /\
                   d !! kv.1 = Some kv.2 /\ (st <=? gid) && (gid <? en) = true).
  { intros [kb v]. unfold recs. rewrite elem_of_filter, elem_db_iter. cbn [fst snd]. split.
    - intros [Hd Hs]. unfold range_sel in Hs. cbn [fst] in Hs.
      destruct (Hkf _ _ Hd) as [(m & [gid l] & Hk & ->)| ->]; [|by rewrite matches_key_bounds in Hs].
      rewrite matches_key_write in Hs by apply Hk. destruct m; [done|].
      exists gid, l. done.
    - intros (gid & l & Hk & -> & Hd & Hs). split; [done|]. unfold range_sel. cbn [fst].
      rewrite matches_key_write by apply Hk. rewrite N.eqb_refl. exact Hs. }
  assert (Hess : exists ess, Forall2 (fun kv es => exists gid l be,
       key_ok (gid, l) /\ kv.1 = write_key PrefixBin (gid, l) /\ kv.2 = enc be /\
       holds be (bin_entries ops gid l) /\ Forall entry_ok (bin_entries ops gid l) /\
       matches_language k kv.1 = Ok (lang_sel (mk_lang k) l) /\
       decode_matching_value p mtb kv.2 opts (lang_sel (mk_lang k) l) r = Ok es /\
       es ≡ₚ map (query_match opts r (lang_sel (mk_lang k) l)) (List.filter (box_sel (mo_bbox opts)) (record_of be)) /\
       (mo_prox opts = None -> StronglySorted (desc key_cmp) es)) recs ess).
  { assert (Hall : forall kv, kv ∈ recs -> exists gid l, key_ok (gid, l) /\ kv.1 = write_key PrefixBin (gid, l) /\
                   d !! kv.1 = Some kv.2) by (intros kv Hkv; apply Hrec in Hkv as (? & ? & ? & ? & ? & _); eauto).
    clearbody recs. clear Hrec. induction recs as [|kv recs IH]; [by exists []; constructor|].
    destruct IH as [ess IH]; [intros; apply Hall; by right|].
    destruct (Hall kv ltac:(left)) as (gid & l & Hk & Ek & Hd). rewrite Ek in Hd.
    destruct (bin_record o ops d gid l _ Hh Hb Hf Hk Hd) as (_ & be & Ev & Hholds & Hok & Hwf & Hlen).
    destruct (enc_matches p mtb opts (lang_sel (mk_lang k) l) r be Ho Hwf Hlen) as (out & Hdec & Hp & Hso).
    exists (out :: ess). constructor; [|done]. exists gid, l, be.
    split; [done|]. split; [done|]. split; [done|]. split; [done|]. split; [done|].
    split; [rewrite Ek; by apply matches_language_write|]. split; [by rewrite Ev|]. done. }
  destruct Hess as [ess Hess]. exists ess. split; [|split; [|split]].
  - intros m. rewrite elem_of_mjoin. unfold should_match. rewrite Eph. split.
    + intros (es & Hm & Hes). apply elem_of_list_lookup in Hes as [i Hi].
      destruct (Forall2_lookup_r _ _ _ _ _ Hess Hi) as (kv & Hkv & gid & l & be & Hk & Ek & Ev & Hholds & Hok & _ & _ & Hp & _).
      apply elem_of_list_lookup_2, Hrec in Hkv as (gid' & l' & Hk' & Ek' & Hd & Hsel).
      rewrite Ek in Ek'. destruct (write_key_inj _ _ _ _ Hk Hk' Ek') as [_ E']. injection E' as <- <-.
      rewrite Hp in Hm. apply elem_of_map in Hm as (e & -> & He).
      apply elem_of_filter in He as [He Hbox].
      apply (record_elem be _ e Hholds Hok) in He. apply elem_of_map in He as (e0 & -> & He0).
      unfold bin_entries in He0. apply elem_of_mjoin in He0 as (es0 & He0 & Hes0).
      apply elem_of_map in Hes0 as ([key es1] & -> & Hin). cbn [snd] in He0.
      apply elem_of_filter in Hin as [Hin Hc]. apply elem_of_map_to_list in Hin. cbn [fst] in Hc.
      apply andb_prop in Hc as [Hg El].
      destruct (bin_of (loaded ops) key.1) as [g|] eqn:Eg; [|done]. apply N.eqb_eq in Hg as ->.
      apply N.eqb_eq in El. exists key, es1, e0. split; [done|]. split.
      * cbn [phrase_sel]. rewrite <- (bin_of_range (loaded ops) st en key.1 gid); [done|apply Hb|done..].
      * split; [done|]. split; [by destruct (mo_bbox opts)|]. by rewrite El.
    + intros (key & es & e & Hw & Hsel & He & Hbox & ->).
      destruct (written_item ops key es Hw Hb) as (gid & it & Hit & Eit & Hg).
      destruct (bin_record_exists o ops d gid key.2 it Hh Hb Hf Hit) as [v Hv].
      assert (Hkk : key_ok (gid, key.2)).
      { destruct Hh as [Hops _]. destruct (written_all_ok ops Hops key es Hw) as [[_ Hl] _]. split; [|done].
        destruct Hkok as [_ Hbk]. rewrite run_bounds, Forall_forall in Hbk. apply Hbk.
        pose proof (last_filter_spec key.1 (loaded ops) (proj1 Hb)) as H. unfold bin_of in Hg. rewrite Hg in H. tauto. }
      assert (Hin : (write_key PrefixBin (gid, key.2), v) ∈ recs).
      { apply Hrec. exists gid, key.2. split; [done|]. split; [done|]. split; [done|].
        rewrite (bin_of_range (loaded ops) st en key.1 gid); [done|apply Hb|done..]. }
      apply elem_of_list_lookup in Hin as [i Hi].
      destruct (Forall2_lookup_l _ _ _ _ _ Hess Hi) as (out & Hout & gid' & l & be & Hk & Ek & Ev & Hholds & Hok & _ & _ & Hp & _).
      cbn [fst snd] in Ek, Ev. destruct (write_key_inj _ _ _ _ Hkk Hk Ek) as [_ E']. injection E' as <- <-.
      exists out. split; [|by eapply elem_of_list_lookup_2].
      rewrite Hp. apply elem_of_map. exists (snap e). split; [done|]. apply elem_of_filter.
      split; [|by destruct (mo_bbox opts)].
      apply (record_elem be _ _ Hholds Hok). apply elem_of_map. exists e. split; [done|].
      unfold bin_entries. apply elem_of_mjoin. exists es. split; [done|]. apply elem_of_map. exists (key, es).
      split; [done|]. apply elem_of_filter. split; [by apply elem_of_map_to_list|]. cbn [fst]. rewrite Hg, !N.eqb_refl. done.
  - rewrite <- (Forall2_length _ _ _ Hess). rewrite <- (map_length fst recs).
    assert (Hsub : map fst recs ⊆+ map (fun kv : (N * N) * list grid_entry =>
        write_key PrefixBin (default 0 (bin_of (loaded ops) kv.1.1), kv.1.2)) (map_to_list (written ops))).
    { apply NoDup_submseteq.
      - unfold recs. apply (NoDup_fmap_fst_filter d).
      - intros kb Hkb. apply elem_of_map in Hkb as (kv & -> & Hkv).
        apply Hrec in Hkv as (gid & l & Hk & Ek & Hd & _). rewrite Ek in *.
        destruct (bin_record o ops d gid l _ Hh Hb Hf Hk Hd) as ((it & Hit) & _).
        destruct (bin_item_written _ _ _ _ Hit) as [es Hes]. destruct Hit as (_ & Hg & El).
        apply elem_of_map. exists (it.1, es). split; [|by apply elem_of_map_to_list].
        cbn [fst]. by rewrite Hg, El. }
    apply submseteq_length in Hsub. rewrite !map_length in Hsub. rewrite map_length. exact Hsub.
  - intros Hprox. apply Forall_forall. intros es Hes. apply elem_of_list_lookup in Hes as [i Hi].
    destruct (Forall2_lookup_r _ _ _ _ _ Hess Hi) as (kv & Hkv & gid & l & be & _ & _ & _ & _ & _ & _ & _ & _ & H). auto.
  - intros tb max. unfold streaming_get_matching. rewrite Eph. unfold fetch_range. rewrite Hbounds.
    rewrite (proj2 (existsb_elem st _) Hst), (proj2 (existsb_elem en _) Hen). cbn [andb res_bind].
    rewrite Hdb. rewrite range_records by done. cbn [res_bind]. fold recs.
    rewrite (queue_fold p mtb tb s k opts max _ ess); [done|]. rewrite Hrad.
    eapply Forall2_impl; [exact Hess|]. cbv beta. intros kv es (gid & l & be & _ & _ & _ & _ & _ & H1 & H2 & _). eauto.
Qed.

(** ** Streams of any query *)
Lemma plain_query_ok o ops s ph :
  history_ok ops -> built o ops s -> query_ok ops ph -> ~ bin_query ops ph -> plain_query s ph.
Proof.
  intros Hh Hb Hq Hn. destruct ph as [id|a b]; simpl in *; [done|].
  rewrite (built_bounds o ops s Hh Hb). tauto.
Qed.
Lemma bin_query_dec ops ph : bin_query ops ph \/ ~ bin_query ops ph.
Proof.
  destruct ph as [|a b]; simpl; [tauto|].
  destruct (decide (a ∈ loaded ops)), (decide (b ∈ loaded ops)); tauto.
Qed.

Lemma iter_written o ops s kvs :
  history_ok ops -> built o ops s -> iter s = Ok kvs ->
  (forall kv, kv ∈ kvs -> exists es, written ops !! kv.1 = Some es /\ forall e, e ∈ kv.2 <-> e ∈ map snap es) /\
  (forall k es, written ops !! k = Some es -> exists out, (k, out) ∈ kvs) /\
  (length kvs <= size (written ops))%nat.
Proof.
  intros Hh Hb Hi. destruct (built_iter o ops s Hh Hb) as (kvs' & Hi' & Hnd & Hkeys & Hget).
  assert (kvs' = kvs) by congruence. subst kvs'.
  destruct (built_keys o ops s Hh Hb) as (ks & Hk & _ & Hks & _ & Hok).
  assert (ks = map fst kvs) by congruence. subst ks. rewrite Forall_forall in Hok.
  assert (H1 : forall kv, kv ∈ kvs -> exists es, written ops !! kv.1 = Some es /\ forall e, e ∈ kv.2 <-> e ∈ map snap es).
  { intros [k out] Hin. assert (Hkin : k ∈ map fst kvs) by (apply elem_of_map; exists (k, out); done).
    pose proof (Hok k Hkin) as Hkok. apply (Hget k out Hkok) in Hin.
    pose proof (get_written o ops s k Hh Hb Hkok) as G. cbn [fst snd].
    destruct (written ops !! k) as [es|]; [|congruence]. exists es. split; [done|].
    destruct G as (out' & G & _ & He). assert (out' = out) by congruence. subst out'.
    intros e. rewrite He, elem_of_map. naive_solver. }
  split; [done|]. split.
  - intros k es Hw. assert (Hkin : k ∈ map fst kvs) by (apply Hks; eauto).
    apply elem_of_map in Hkin as ([k' out] & E & Hin). cbn [fst] in E. subst k'. eauto.
  - assert (Hsub : map fst kvs ⊆+ map fst (map_to_list (written ops))).
    { apply NoDup_submseteq; [done|]. intros k Hk'. apply Hks in Hk' as [es Hes].
      apply elem_of_map. exists (k, es). split; [done|]. by apply elem_of_map_to_list. }
    apply submseteq_length in Hsub. rewrite !map_length in Hsub. exact Hsub.
Qed.

Lemma expected_should o ops s kvs k opts radius :
  history_ok ops -> built o ops s -> iter s = Ok kvs ->
  forall m, m ∈ expected_matches k opts radius kvs <-> should_match ops k opts radius m.
Proof.
  intros Hh Hb Hi m. destruct (iter_written o ops s kvs Hh Hb Hi) as (H1 & H2 & _).
  unfold expected_matches, should_match. rewrite elem_of_mjoin. split.
  - intros (l & Hm & Hl). apply elem_of_map in Hl as (kv & -> & Hkv).
    apply elem_of_filter in Hkv as [Hkv Hsel]. apply elem_of_map in Hm as (e & -> & He).
    apply elem_of_filter in He as [He Hbox]. destruct (H1 kv Hkv) as (es & Hw & Hes).
    apply Hes, elem_of_map in He as (e0 & -> & He0). exists kv.1, es, e0.
    split; [done|]. split; [done|]. split; [done|]. split; [by destruct (mo_bbox opts)|done].
  - intros (key & es & e & Hw & Hsel & He & Hbox & ->).
    destruct (H2 key es Hw) as [out Hout]. destruct (H1 _ Hout) as (es' & Hw' & Hes). cbn [fst snd] in *.
    assert (es' = es) by congruence. subst es'.
    exists (record_matches k opts radius (key, out)). split.
    + apply elem_of_map. exists (snap e). split; [done|]. apply elem_of_filter. cbn [fst snd].
      split; [|by destruct (mo_bbox opts)]. apply Hes, elem_of_map. eauto.
    + apply elem_of_map. exists (key, out). split; [done|]. apply elem_of_filter. done.
Qed.

Lemma query_streams_all p mtb o ops s k opts :
  history_ok ops -> built o ops s -> opts_ok p opts (st_radius s) -> query_ok ops (mk_phrase k) ->
  exists ess,
    (forall m, m ∈ mjoin ess <-> should_match ops k opts (st_radius s) m) /\
    (length ess <= size (written ops))%nat /\
    (mo_prox opts = None -> Forall (StronglySorted (desc key_cmp)) ess) /\
    forall tb max, streaming_get_matching p mtb tb s k opts max =
      (let* q := res_foldl (q_push tb max) hp_empty ess in Ok (drain_queue tb (queue_size q) q)).
Proof.
  intros Hh Hb Ho Hq. destruct (bin_query_dec ops (mk_phrase k)) as [Hbq|Hbq].
  - apply (bin_streams p mtb o); try done. destruct (mk_phrase k) as [|a b]; [done|].
    destruct Hq as [_ Hq]. destruct Hbq. auto.
  - destruct (built_iter o ops s Hh Hb) as (kvs & Hi & _).
    destruct (plain_streams_all p mtb o ops s k opts kvs Hh Hb Ho (plain_query_ok o ops s _ Hh Hb Hq Hbq) Hi)
      as (ess & HF & Hrun).
    exists ess. split; [|split; [|split; [|done]]].
    + intros m. rewrite (forall2_perm_mjoin _ _ _ _ HF). by eapply expected_should.
    + rewrite <- (Forall2_length _ _ _ HF). etransitivity; [apply filter_length_le|].
      by destruct (iter_written o ops s kvs Hh Hb Hi) as (_ & _ & ?).
    + intros Hp. apply Forall_forall. intros es Hes. apply elem_of_list_lookup in Hes as [i Hi'].
      destruct (Forall2_lookup_r _ _ _ _ _ HF Hi') as (kv & _ & _ & H). auto.
Qed.

Lemma query_streams p mtb tb o ops s k opts :
  history_ok ops -> built o ops s -> opts_ok p opts (st_radius s) -> query_ok ops (mk_phrase k) ->
  exists ess,
    (forall m, m ∈ mjoin ess <-> should_match ops k opts (st_radius s) m) /\
    (length ess <= size (written ops))%nat /\
    (mo_prox opts = None -> Forall (StronglySorted (desc key_cmp)) ess) /\
    forall max, streaming_get_matching p mtb tb s k opts max =
      (let* q := res_foldl (q_push tb max) hp_empty ess in Ok (drain_queue tb (queue_size q) q)).
Proof.
  intros Hh Hb Ho Hq. destruct (query_streams_all p mtb o ops s k opts Hh Hb Ho Hq) as (ess & H1 & H2 & H3 & Hrun). eauto 10.
Qed.

(** ** Comparing result lists *)
Definition rank (m : match_entry) : (Z * Z * Z) * (Z * Z * Z) :=
  (f_key (ge_relev (me_entry m)), f_key (me_scoredist m)).
Lemma key3_cmp_eq a b : key3_cmp a b = Eq -> a = b.
Proof.
  unfold key3_cmp, cmp_then. destruct a as [[a1 a2] a3], b as [[b1 b2] b3]. cbn [fst snd].
  destruct (Z.compare_spec a1 b1); try done. destruct (Z.compare_spec a2 b2); try done.
  destruct (Z.compare_spec a3 b3); try done. intros _. by subst.
Qed.
Lemma key_cmp_eq_rank a b : key_cmp a b = Eq -> rank a = rank b.
Proof.
  unfold key_cmp, cmp_then, rank. rewrite !ord_cmp_key.
  destruct (key3_cmp (f_key (ge_relev (me_entry a))) _) eqn:E1; try done. intros E2.
  f_equal; by apply key3_cmp_eq.
Qed.
Lemma rank_same a b : rank a = rank b -> same_rank a b.
Proof.
  unfold rank, same_rank. intros E. injection E as E1 E2. rewrite !ord_cmp_key, E1, E2.
  pose proof (tc_refl key3_cmp total_cmp_key3). done.
Qed.
Definition rank_cmp (a b : (Z * Z * Z) * (Z * Z * Z)) : comparison :=
  key3_cmp a.1 b.1 <;> key3_cmp a.2 b.2.
Lemma key_cmp_rank a b : key_cmp a b = rank_cmp (rank a) (rank b).
Proof. unfold key_cmp, rank_cmp, rank. cbn [fst snd]. by rewrite !ord_cmp_key. Qed.
Lemma total_cmp_rank : total_cmp rank_cmp.
Proof.
  apply total_cmp_then; [apply (total_cmp_proj fst), total_cmp_key3|apply (total_cmp_proj snd), total_cmp_key3].
Qed.
Lemma rank_cmp_eq a b : rank_cmp a b = Eq -> a = b.
Proof.
  destruct a as [a1 a2], b as [b1 b2]. unfold rank_cmp, cmp_then. cbn [fst snd].
  destruct (key3_cmp a1 b1) eqn:E1; try done. intros E2. apply key3_cmp_eq in E1, E2. by subst.
Qed.

(** Two sorted arrangements of the same matches agree in rank position by position. *)
Lemma sorted_ranks l1 l2 :
  StronglySorted (desc key_cmp) l1 -> StronglySorted (desc key_cmp) l2 -> l1 ≡ₚ l2 ->
  map rank l1 = map rank l2.
Proof.
  intros H1 H2 Hp. apply (sorted_perm_unique (desc rank_cmp)).
  - intros a b _ _ Hab Hba. apply rank_cmp_eq. unfold desc in *.
    destruct (rank_cmp a b) eqn:E; [done|..].
    + exfalso. apply Hab. by apply (tc_gt_lt _ total_cmp_rank).
    + done.
  - apply StronglySorted_map. eapply StronglySorted_impl; [|exact H1]. cbv beta. unfold desc. intros. by rewrite <- key_cmp_rank.
  - apply StronglySorted_map. eapply StronglySorted_impl; [|exact H2]. cbv beta. unfold desc. intros. by rewrite <- key_cmp_rank.
  - by apply Permutation_map.
Qed.

Definition desc_leb (a b : match_entry) : bool := match key_cmp b a with Gt => false | _ => true end.
Lemma desc_leb_desc a b : desc_leb a b = true <-> desc key_cmp a b.
Proof. unfold desc_leb, desc. by destruct (key_cmp b a). Qed.
Lemma sort_matches l : exists l', l' ≡ₚ l /\ StronglySorted (desc key_cmp) l'.
Proof.
  exists (isort desc_leb l). split; [apply isort_perm|].
  eapply StronglySorted_impl; [|apply isort_sorted].
  - cbv beta. intros a b _ _ H. by apply desc_leb_desc.
  - intros a b. rewrite !desc_leb_desc. unfold desc. pose proof (tc_total _ total_cmp_key a b). tauto.
  - intros a b c. rewrite !desc_leb_desc. unfold desc. intros H1 H2.
    apply (tc_trans _ total_cmp_key _ b _); done.
Qed.

Lemma map_take {A B} (f : A -> B) n l : map f (take n l) = take n (map f l).
Proof. revert n. induction l as [|a l IH]; intros [|n]; simpl; [done..|]. by rewrite IH. Qed.
(** The first [n] elements of a limited result rank like those of the full one. *)
Lemma top_ranks n out rest full :
  StronglySorted (desc key_cmp) out -> StronglySorted (desc key_cmp) full ->
  full ≡ₚ out ++ rest -> (rest <> [] -> (n <= length out)%nat) ->
  (forall a b, a ∈ take n out -> b ∈ rest -> key_cmp b a <> Gt) ->
  map rank (take n out) = map rank (take n full).
Proof.
  intros Ho Hf Hp Hr Ht.
  destruct rest as [|r0 rest0] eqn:Er.
  { rewrite app_nil_r in Hp. rewrite !map_take. f_equal. apply sorted_ranks; [done..|]. by symmetry. }
  rewrite <- Er in *. assert (Hn : (n <= length out)%nat) by (apply Hr; by rewrite Er). clear Hr Er r0 rest0.
  destruct (sort_matches (drop n out ++ rest)) as (tl & Htl & Hts).
  assert (Hall : StronglySorted (desc key_cmp) (take n out ++ tl)).
  { rewrite <- (take_drop n out) in Ho. apply StronglySorted_app in Ho as (Ho1 & Ho2 & Ho3).
    apply StronglySorted_app. split; [done|]. split; [done|]. intros a b Ha Hb. rewrite Htl in Hb.
    apply elem_of_app in Hb as [Hb|Hb]; [by apply Ho3|]. by apply Ht. }
  assert (E : map rank full = map rank (take n out ++ tl)).
  { apply sorted_ranks; [done..|]. rewrite Hp, Htl, app_assoc, take_drop. done. }
  rewrite (map_take rank n full), E, <- map_take. f_equal.
  rewrite take_app_le by (rewrite take_length; lia). rewrite take_take. f_equal. lia.
Qed.
