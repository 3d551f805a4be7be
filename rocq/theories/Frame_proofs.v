(** Lemmas for Props_frame.v: the records of a query depend on what was written for its
    phrases. *)
From Verif Require Import Prelude Lists F64 Heap Common Morton Format Format_proofs Builder Spatial Store Spec Spec_match
  Spec_rebuild Spec_frame Bits_proofs Record_proofs Builder_proofs Finish_proofs Store_proofs Order_proofs
  Bins_proofs Size_proofs History_proofs Spatial_proofs Cmp_proofs Merge_proofs Match_proofs Query_proofs
  Binquery_proofs Durable_proofs Rebuild_proofs.
From Coq Require Import ZifyBool.
Local Open Scope N_scope.

Lemma nonempty_ops ops : no_empty_compact ops -> Forall op_nonempty ops.
Proof.
  intros H. apply Forall_forall. intros o Ho. destruct o as [k es|k es|k r s i h cs|bs]; cbn; try done.
  intros ->. by eapply H.
Qed.
Lemma bin_record_full o ops d gid l v :
  history_ok ops -> bins_ok ops -> Forall op_nonempty ops -> finish o (run ops) ∅ = Ok d -> key_ok (gid, l) ->
  d !! write_key PrefixBin (gid, l) = Some v ->
  exists be, v = enc be /\ holds be (bin_entries ops gid l) /\ be_full be.
Proof.
  intros Hh Hb Hne Hf Hk Hv. pose proof (run_keys_ok ops (proj1 Hh)) as [Hkok Hbok].
  apply bind_Ok in Hf as (puts & Hp & [= <-]).
  apply apply_puts_some in Hv as [Hv|Hv]; [|by rewrite lookup_empty in Hv].
  apply (finish_elem o (run ops) puts _ Hp) in Hv as [(k' & be & Hd & E)|[H|E]].
  - apply pair_equal_spec in E as [E _]. apply (f_equal head) in E. done.
  - destruct H as (gid' & g & labelled & Hl & Hg & (l' & be & langs & Hm & Hlk & E)).
    apply pair_equal_spec in E as [E ->].
    assert (Hit : exists it, it ∈ map snd g /\ gk_lang it.1 = l') by (apply (mo_dom _ _ Hm); eauto).
    destruct Hit as (it & Hit & El).
    assert (Hk' : key_ok (gid', l')).
    { destruct (bin_group_elem (run ops) labelled gid' g it (conj Hkok Hbok) Hl Hg Hit) as (H1 & H2 & _).
      rewrite Forall_forall in Hbok. split; [by apply Hbok|]. cbn [snd]. rewrite <- El. by eapply Hkok. }
    destruct (write_key_inj _ _ _ _ Hk Hk' E) as [_ E']. injection E' as <- <-.
    pose proof (bin_group_items ops gid g Hh Hb labelled Hl Hg) as Hits.
    assert (Hhas : forall rs z v, be_has be rs z v <-> exists it, bin_item ops gid l it /\ be_has it.2 rs z v).
    { intros rs z v. pose proof (mo_has _ _ Hm l rs z v) as H. rewrite Hlk in H. cbn [default from_option] in H.
      unfold default in H. simpl in H. rewrite H. split.
      - intros (x & Hx & Ex & Hx'). apply Hits in Hx as [? ?]. exists x. done.
      - intros (x & (H1 & H2 & H3) & Hx'). exists x. split; [by apply Hits|done]. }
    destruct (bin_entries_holds ops gid l be Hh Hhas) as [Hholds _].
    exists be. split; [done|]. split; [done|].
    apply (mo_full _ _ Hm) with (l := l); [|done]. intros x Hx. apply Hits in Hx as [Hx _].
    eapply (run_full ops Hne). exact Hx.
  - apply pair_equal_spec in E as [E _]. by apply write_key_bounds in E.
Qed.

(** Records with the same entries are the same bytes. *)
Lemma holds_same be be' es es' :
  be_full be -> be_full be' -> holds be es -> holds be' es' ->
  (forall e, e ∈ map snap es <-> e ∈ map snap es') -> enc be = enc be'.
Proof.
  intros F F' H H' Hs. unfold enc. f_equal. apply norm_ext; [done|done|].
  intros rs z v. rewrite (H rs z v), (H' rs z v). split.
  - intros (e & He & <-). assert (Hx : snap e ∈ map snap es') by (apply Hs, elem_of_map; eauto).
    apply elem_of_map in Hx as (e' & E & He'). exists e'. split; [done|].
    by rewrite <- packed_snap, <- E, packed_snap.
  - intros (e & He & <-). assert (Hx : snap e ∈ map snap es) by (apply Hs, elem_of_map; eauto).
    apply elem_of_map in Hx as (e' & E & He'). exists e'. split; [done|].
    by rewrite <- packed_snap, <- E, packed_snap.
Qed.

Lemma single_agree o o' ph ops ops' d d' k :
  history_ok ops -> history_ok ops' -> Forall op_nonempty ops -> Forall op_nonempty ops' ->
  finish o (run ops) ∅ = Ok d -> finish o' (run ops') ∅ = Ok d' ->
  agree_on ph ops ops' -> phrase_sel ph k.1 = true -> key_ok k ->
  d !! write_key SinglePhrase k = d' !! write_key SinglePhrase k.
Proof.
  intros [Hops _] [Hops' _] Ne Ne' Hf Hf' Ha Hp Hk.
  rewrite (finish_single_lookup o (run ops) ∅ d k (run_keys_ok ops Hops) Hk Hf).
  rewrite (finish_single_lookup o' (run ops') ∅ d' k (run_keys_ok ops' Hops') Hk Hf').
  specialize (Ha k Hp). pose proof (run_rel ops k) as R. pose proof (run_rel ops' k) as R'.
  pose proof (run_full ops Ne k) as F. pose proof (run_full ops' Ne' k) as F'.
  destruct (b_data (run ops) !! k) as [a|], (written ops !! k) as [es1|]; try done;
  destruct (b_data (run ops') !! k) as [b|], (written ops' !! k) as [es2|]; try done.
  f_equal. eapply holds_same; [by apply F|by apply F'|exact R|exact R'|done].
Qed.

Lemma bin_agree o o' st en ops ops' d d' gid l :
  history_ok ops -> history_ok ops' -> bins_ok ops -> bins_ok ops' ->
  Forall op_nonempty ops -> Forall op_nonempty ops' -> loaded ops = loaded ops' ->
  finish o (run ops) ∅ = Ok d -> finish o' (run ops') ∅ = Ok d' ->
  agree_on (Range st en) ops ops' -> st ∈ loaded ops -> en ∈ loaded ops ->
  (st <=? gid) && (gid <? en) = true -> key_ok (gid, l) ->
  d !! write_key PrefixBin (gid, l) = d' !! write_key PrefixBin (gid, l).
Proof.
  assert (Hgo : forall o o' ops ops' d d',
    history_ok ops -> history_ok ops' -> bins_ok ops -> bins_ok ops' ->
    Forall op_nonempty ops -> Forall op_nonempty ops' -> loaded ops = loaded ops' ->
    finish o (run ops) ∅ = Ok d -> finish o' (run ops') ∅ = Ok d' ->
    agree_on (Range st en) ops ops' -> st ∈ loaded ops -> en ∈ loaded ops ->
    (st <=? gid) && (gid <? en) = true -> key_ok (gid, l) ->
    forall v, d !! write_key PrefixBin (gid, l) = Some v -> d' !! write_key PrefixBin (gid, l) = Some v).
  { clear. intros o o' ops ops' d d' Hh Hh' Hb Hb' Ne Ne' El Hf Hf' Ha Hst Hen Hg Hk v Hv.
    destruct (bin_record o ops d gid l v Hh Hb Hf Hk Hv) as (Hu & _). apply bin_used_item in Hu as (k & es & Hw & Hbin & <-).
    assert (Hsel : forall k' : N * N, bin_of (loaded ops) k'.1 = Some gid -> phrase_sel (Range st en) k'.1 = true).
    { intros k' Hk'. cbn. rewrite <- (bin_of_range (loaded ops) st en k'.1 gid); [done|apply Hb|done..]. }
    assert (Hu' : bin_used ops' gid k.2).
    { pose proof (Ha k (Hsel k Hbin)) as H. rewrite Hw in H. destruct (written ops' !! k) as [es'|] eqn:E; [|done].
      exists k, es'. by rewrite <- El. }
    apply bin_used_item in Hu' as (it & Hit).
    destruct (bin_record_exists o' ops' d' gid k.2 it Hh' Hb' Hf' Hit) as [v' Hv']. rewrite Hv'. f_equal.
    destruct (bin_record_full o ops d gid k.2 v Hh Hb Ne Hf Hk Hv) as (be & -> & H1 & F1).
    destruct (bin_record_full o' ops' d' gid k.2 v' Hh' Hb' Ne' Hf' Hk Hv') as (be' & -> & H2 & F2).
    symmetry. eapply holds_same; [exact F1|exact F2|exact H1|exact H2|].
    intros e. rewrite !elem_of_map. split.
    - intros (x & -> & Hx). apply elem_bin_entries in Hx as (k' & es' & Hw' & Hb2 & Ek & Hx).
      pose proof (Ha k' (Hsel k' Hb2)) as H. rewrite Hw' in H. destruct (written ops' !! k') as [es2|] eqn:E; [|done].
      assert (Hin : snap x ∈ map snap es2) by (apply H, elem_of_map; eauto).
      apply elem_of_map in Hin as (y & -> & Hy). exists y. split; [done|]. apply elem_bin_entries.
      exists k', es2. by rewrite <- El.
    - intros (x & -> & Hx). apply elem_bin_entries in Hx as (k' & es' & Hw' & Hb2 & Ek & Hx).
      rewrite <- El in Hb2.
      pose proof (Ha k' (Hsel k' Hb2)) as H. rewrite Hw' in H. destruct (written ops !! k') as [es2|] eqn:E; [|done].
      assert (Hin : snap x ∈ map snap es2) by (apply H, elem_of_map; eauto).
      apply elem_of_map in Hin as (y & -> & Hy). exists y. split; [done|]. apply elem_bin_entries.
      exists k', es2. done. }
  intros Hh Hh' Hb Hb' Ne Ne' El Hf Hf' Ha Hst Hen Hg Hk.
  assert (Ha' : agree_on (Range st en) ops' ops).
  { intros k Hp. specialize (Ha k Hp). destruct (written ops !! k), (written ops' !! k); try done; intros e; by rewrite Ha. }
  apply option_eq. intros v. split.
  - by eapply (Hgo o o' ops ops' d d').
  - eapply (Hgo o' o ops' ops d' d); try done; by rewrite <- ?El.
Qed.

(** Databases that agree on the keys of a range list the same records. *)
Lemma range_filter_eq d1 d2 m st en :
  db_form d1 -> db_form d2 ->
  (forall key, key_ok key -> (st <=? key.1) && (key.1 <? en) = true -> d1 !! write_key m key = d2 !! write_key m key) ->
  List.filter (range_sel m st en) (db_iter d1) = List.filter (range_sel m st en) (db_iter d2).
Proof.
  intros H1 H2 H.
  assert (Hel : forall d d', db_form d ->
    (forall key, key_ok key -> (st <=? key.1) && (key.1 <? en) = true -> d !! write_key m key = d' !! write_key m key) ->
    forall kv, kv ∈ List.filter (range_sel m st en) (db_iter d) -> kv ∈ List.filter (range_sel m st en) (db_iter d')).
  { intros d d' Hd Hdd' [k v] Hin. apply elem_of_filter in Hin as [Hin Hs]. apply elem_of_filter.
    split; [|done]. apply elem_db_iter. apply elem_db_iter in Hin. pose proof (Hd k v Hin) as Hf.
    unfold range_sel in Hs. cbn [fst] in *. destruct Hf as [(m' & key & Hk & ->)| ->]; [|by rewrite matches_key_bounds in Hs].
    rewrite matches_key_write in Hs by apply Hk. destruct (marker_byte m' =? marker_byte m) eqn:Em; [|done].
    assert (m' = m) as -> by (destruct m', m; done). rewrite <- Hdd'; done. }
  assert (Hnd : forall d, NoDup (List.filter (range_sel m st en) (db_iter d))).
  { intros d. apply NoDup_ListNoDup. apply List.NoDup_filter. apply NoDup_ListNoDup.
    eapply NoDup_fmap_1. apply db_iter_NoDup. }
  apply (sorted_perm_unique kv_le).
  - intros [k1 v1] [k2 v2] Ha Hb Hab Hba. unfold kv_le in *. cbn [fst] in *.
    assert (k1 = k2) as -> by by apply bytes_leb_anti.
    apply elem_of_filter in Ha as [Ha _]. apply elem_of_filter in Hb as [Hb _].
    apply elem_db_iter in Ha, Hb. congruence.
  - apply StronglySorted_filter, db_iter_sorted.
  - apply StronglySorted_filter, db_iter_sorted.
  - apply NoDup_Permutation; [apply Hnd|apply Hnd|]. intros kv. split.
    + by apply Hel.
    + apply Hel; [done|]. intros. symmetry. auto.
Qed.

Lemma same_range s1 s2 p k st en m :
  db_form (st_db s1) -> db_form (st_db s2) -> st_radius s1 = st_radius s2 ->
  fetch_range p s1 (mk_phrase k) = Ok (st, en, m) -> fetch_range p s2 (mk_phrase k) = Ok (st, en, m) -> st < 2 ^ 32 ->
  (forall key, key_ok key -> (st <=? key.1) && (key.1 <? en) = true ->
     st_db s1 !! write_key m key = st_db s2 !! write_key m key) ->
  forall mtb tb opts max,
    streaming_get_matching p mtb tb s1 k opts max = streaming_get_matching p mtb tb s2 k opts max.
Proof.
  intros F1 F2 Hr E1 E2 Hst H mtb tb opts max. unfold streaming_get_matching. rewrite E1, E2. cbn [res_bind].
  rewrite !range_records by done. cbn [res_bind]. rewrite (range_filter_eq _ _ m st en F1 F2 H).
  assert (Hq : forall recs q, res_foldl (queue_record p mtb tb s1 k opts max) q recs =
                              res_foldl (queue_record p mtb tb s2 k opts max) q recs).
  { intros recs. induction recs as [|kv recs IH]; intros q; [done|]. cbn [res_foldl].
    assert (E' : queue_record p mtb tb s1 k opts max q kv = queue_record p mtb tb s2 k opts max q kv).
    { unfold queue_record. by rewrite Hr. }
    rewrite E'. destruct (queue_record p mtb tb s2 k opts max q kv); cbn [res_bind]; auto. }
  by rewrite Hq.
Qed.
