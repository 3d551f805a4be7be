(** Renumbering, interrupted writes and writing over an existing directory. *)
From Verif Require Import Prelude Lists F64 Heap Common Morton Format Builder Spatial Store Spec
  Builder_proofs Bits_proofs Finish_proofs Store_proofs Order_proofs Bins_proofs History_proofs Query_proofs.
From Coq Require Import Sorting.Sorted.
From Coq Require Import ZifyBool.

(** ** Renumbering *)
(** The key after renumbering, when the phrase id is inside the map. *)
Definition new_key (ids : list N) (k : N * N) : option (N * N) :=
  match ids !! N.to_nat k.1 with Some n => Some (n, k.2) | None => None end.

Lemma renumber_loop_spec ids old : forall data r data',
  NoDup (map fst old) -> renumber_loop ids old data = (r, data') ->
  (r = Ok tt \/ r = Err) /\
  (r = Ok tt <->
    (forall k v, (k, v) ∈ old -> exists k', new_key ids k = Some k' /\ data !! k' = None) /\
    (forall k1 v1 k2 v2 k', (k1, v1) ∈ old -> (k2, v2) ∈ old -> new_key ids k1 = Some k' ->
       new_key ids k2 = Some k' -> k1 = k2)) /\
  (r = Ok tt -> forall k' v, data' !! k' = Some v <->
     data !! k' = Some v \/ exists k, (k, v) ∈ old /\ new_key ids k = Some k').
Proof.
  induction old as [|[k v] old IH]; intros data r data' Hnd H; cbn [renumber_loop] in H.
  - apply pair_equal_spec in H as [<- <-]. split; [by left|]. split.
    + split; [|done]. intros _. split; intros *; intros Hin; by apply elem_of_nil in Hin.
    + intros _ k' v. split; [by left|]. intros [?|(k & Hin & _)]; [done|]. by apply elem_of_nil in Hin.
  - cbn [map fst] in Hnd. apply NoDup_cons in Hnd as [Hk Hnd].
    assert (Hold : forall w, (k, w) ∉ old).
    { intros w Hw. apply Hk. apply elem_of_map. exists (k, w). done. }
    unfold gk_phrase, gk_lang in H.
    destruct (ids !! N.to_nat k.1) as [n|] eqn:En.
    2: { apply pair_equal_spec in H as [<- <-]. split; [by right|]. split; [|done].
         split; [done|]. intros [H1 _]. destruct (H1 k v ltac:(left)) as (k' & E & _).
         unfold new_key in E. by rewrite En in E. }
    assert (Enew : new_key ids k = Some (n, k.2)) by (unfold new_key; by rewrite En).
    destruct (data !! (n, k.2)) as [w|] eqn:Ed.
    { apply pair_equal_spec in H as [<- <-]. split; [by right|]. split; [|done].
      split; [done|]. intros [H1 _]. destruct (H1 k v ltac:(left)) as (k' & E & E2). congruence. }
    destruct (IH _ _ _ Hnd H) as (Hr & Hiff & Hdata). split; [done|]. split.
    + rewrite Hiff. clear Hiff Hdata. split.
      * intros [H1 H2]. split.
        { intros k0 v0 Hin. apply elem_of_cons in Hin as [E|Hin].
          - apply pair_equal_spec in E as [-> ->]. eauto.
          - destruct (H1 k0 v0 Hin) as (k' & E1 & E2). exists k'. split; [done|].
            apply lookup_insert_None in E2. by destruct E2. }
        { intros k1 v1 k2 v2 k' Hin1 Hin2 E1 E2.
          apply elem_of_cons in Hin1 as [F1|Hin1]; apply elem_of_cons in Hin2 as [F2|Hin2].
          - apply pair_equal_spec in F1 as [-> _]. by apply pair_equal_spec in F2 as [-> _].
          - apply pair_equal_spec in F1 as [-> _]. destruct (H1 k2 v2 Hin2) as (k'' & E3 & E4).
            assert (k'' = (n, k.2)) by congruence. subst k''. by rewrite lookup_insert in E4.
          - apply pair_equal_spec in F2 as [-> _]. destruct (H1 k1 v1 Hin1) as (k'' & E3 & E4).
            assert (k'' = (n, k.2)) by congruence. subst k''. by rewrite lookup_insert in E4.
          - by eapply (H2 k1 v1 k2 v2). }
      * intros [H1 H2]. split.
        { intros k0 v0 Hin. destruct (H1 k0 v0 ltac:(by right)) as (k' & E1 & E2). exists k'. split; [done|].
          apply lookup_insert_None. split; [done|]. intros <-.
          assert (k = k0) as <-.
          { eapply (H2 k v k0 v0); [left|by right|done|done]. }
          by eapply Hold. }
        { intros k1 v1 k2 v2 k' Hin1 Hin2. apply (H2 k1 v1 k2 v2); by right. }
    + intros Er k' v'. rewrite (Hdata Er). split.
      * intros [[[<- <-]|[_ ?]]%lookup_insert_Some|(k0 & Hin & E)].
        -- right. exists k. split; [left|done].
        -- by left.
        -- right. exists k0. split; [by right|done].
      * intros [Hd|(k0 & Hin & E)].
        -- left. apply lookup_insert_Some. right. split; [|done]. intros <-. congruence.
        -- apply elem_of_cons in Hin as [F|Hin]; [|right; eauto]. apply pair_equal_spec in F as [-> ->].
           left. assert (k' = (n, k.2)) by congruence. subst k'. by rewrite lookup_insert.
Qed.

Lemma renumber_spec b ids r b' :
  renumber b ids = (r, b') ->
  b_bounds b' = b_bounds b /\ (r = Ok tt \/ r = Err) /\
  (r = Ok tt <->
    (forall k, is_Some (b_data b !! k) -> is_Some (new_key ids k)) /\
    (forall k1 k2, is_Some (b_data b !! k1) -> is_Some (b_data b !! k2) ->
       new_key ids k1 = new_key ids k2 -> k1 = k2)) /\
  (r = Ok tt -> forall k' v, b_data b' !! k' = Some v <->
     exists k, b_data b !! k = Some v /\ new_key ids k = Some k').
Proof.
  unfold renumber. destruct (renumber_loop ids (btree_iter (b_data b)) ∅) as [r0 data] eqn:E.
  intros H. apply pair_equal_spec in H as [<- <-]. cbn [b_data b_bounds]. split; [done|].
  destruct (renumber_loop_spec _ _ _ _ _ (btree_iter_NoDup (b_data b)) E) as (Hr & Hiff & Hdata).
  split; [done|]. split.
  - rewrite Hiff. split.
    + intros [H1 H2].
      assert (H1' : forall k, is_Some (b_data b !! k) -> is_Some (new_key ids k)).
      { intros k [v Hv]. apply elem_btree_iter, H1 in Hv as (k' & -> & _). eauto. }
      split; [done|]. intros k1 k2 Hk1 Hk2 Eq. destruct (H1' k1 Hk1) as [k' Hk'].
      destruct Hk1 as [v1 Hv1], Hk2 as [v2 Hv2]. apply elem_btree_iter in Hv1, Hv2.
      eapply H2; [exact Hv1|exact Hv2|exact Hk'|congruence].
    + intros [H1 H2]. split.
      * intros k v Hin. apply elem_btree_iter in Hin. destruct (H1 k ltac:(eauto)) as [k' Hk'].
        exists k'. split; [done|]. apply lookup_empty.
      * intros k1 v1 k2 v2 k' Hin1 Hin2 E1 E2. apply elem_btree_iter in Hin1, Hin2.
        apply H2; [eauto|eauto|congruence].
  - intros Er k' v. rewrite (Hdata Er). rewrite lookup_empty. split.
    + intros [?|(k & Hin & ?)]; [done|]. apply elem_btree_iter in Hin. eauto.
    + intros (k & Hin & ?). right. exists k. split; [by apply elem_btree_iter|done].
Qed.

Lemma run_snoc ops o : run (ops ++ [o]) = apply_op (run ops) o.
Proof. unfold run. by rewrite foldl_app. Qed.

(** The keys of the builder are those of the calls. *)
Lemma run_dom ops k : is_Some (b_data (run ops) !! k) <-> exists o, o ∈ ops /\ op_key o = Some k.
Proof.
  induction ops as [|o ops IH] using rev_ind.
  - unfold run, builder_new. cbn [foldl b_data]. rewrite lookup_empty. split; [by intros [? ?]|].
    intros (o & H & _). by apply elem_of_nil in H.
  - rewrite run_snoc.
    assert (Hins : forall k0 be, op_key o = Some k0 ->
      b_data (apply_op (run ops) o) = <[k0 := be]> (b_data (run ops)) ->
      is_Some (b_data (apply_op (run ops) o) !! k) <-> exists o0, o0 ∈ ops ++ [o] /\ op_key o0 = Some k).
    { intros k0 be Hk0 ->. rewrite lookup_insert_is_Some', IH. setoid_rewrite elem_of_app.
      setoid_rewrite elem_of_list_singleton. split.
      - intros [->|(o0 & ? & ?)]; eauto.
      - intros (o0 & [Hin| ->] & Ho); [right; eauto|left; congruence]. }
    destruct o as [k0 es|k0 es|k0 r s i h cs|bs]; try (eapply Hins; [done|reflexivity]).
    cbn [apply_op load_bin_boundaries b_data]. rewrite IH. setoid_rewrite elem_of_app.
    setoid_rewrite elem_of_list_singleton. split.
    + intros (o0 & ? & ?); eauto.
    + intros (o0 & [?| ->] & ?); [eauto|done].
Qed.

Lemma run_map_op f ops :
  (forall k1 k2, is_Some (b_data (run ops) !! k1) -> is_Some (b_data (run ops) !! k2) -> f k1 = f k2 -> k1 = k2) ->
  b_bounds (run (map (map_op f) ops)) = b_bounds (run ops) /\
  forall k' v, b_data (run (map (map_op f) ops)) !! k' = Some v <->
    exists k, b_data (run ops) !! k = Some v /\ f k = k'.
Proof.
  intros Hinj.
  assert (Hinj' : forall o1 o2 k1 k2, o1 ∈ ops -> o2 ∈ ops -> op_key o1 = Some k1 -> op_key o2 = Some k2 ->
    f k1 = f k2 -> k1 = k2).
  { intros o1 o2 k1 k2 H1 H2 E1 E2. apply Hinj; apply run_dom; eauto. }
  clear Hinj. induction ops as [|o ops IH] using rev_ind.
  - split; [done|]. intros k' v. unfold run, builder_new. cbn [map foldl b_data]. rewrite lookup_empty.
    split; [done|]. intros (k & H & _). by rewrite lookup_empty in H.
  - destruct IH as [IHb IH].
    { intros o1 o2 k1 k2 H1 H2. apply Hinj'; apply elem_of_app; by left. }
    rewrite List.map_app. cbn [map]. rewrite !run_snoc.
    assert (Hlook : forall k0, op_key o = Some k0 ->
      b_data (run (map (map_op f) ops)) !! f k0 = b_data (run ops) !! k0).
    { intros k0 Hk0. destruct (b_data (run ops) !! k0) as [v|] eqn:E; [apply IH; eauto|].
      destruct (b_data (run (map (map_op f) ops)) !! f k0) as [v|] eqn:E'; [|done].
      apply IH in E' as (k & Hk & Ef). assert (is_Some (b_data (run ops) !! k)) as Hs by eauto.
      apply run_dom in Hs as (o1 & Hin1 & Ho1).
      assert (k = k0) as ->; [|congruence].
      apply (Hinj' o1 o); [apply elem_of_app; by left|apply elem_of_app; right; left|done..]. }
    assert (Hins : forall k0 be, op_key o = Some k0 ->
      b_data (apply_op (run ops) o) = <[k0 := be]> (b_data (run ops)) ->
      b_data (apply_op (run (map (map_op f) ops)) (map_op f o)) =
        <[f k0 := be]> (b_data (run (map (map_op f) ops))) ->
      forall k' v, b_data (apply_op (run (map (map_op f) ops)) (map_op f o)) !! k' = Some v <->
        exists k, b_data (apply_op (run ops) o) !! k = Some v /\ f k = k').
    { intros k0 be Hk0 E1 E2 k' v. rewrite E1, E2. rewrite lookup_insert_Some, IH. split.
      - intros [[<- <-]|[Hne (k & Hk & <-)]]; [exists k0; by rewrite lookup_insert|].
        exists k. rewrite lookup_insert_ne by congruence. done.
      - intros (k & [[<- <-]|[Hne Hk]]%lookup_insert_Some & <-); [by left|].
        right. split; [|eauto]. intros Ef. apply Hne. symmetry.
        assert (is_Some (b_data (run ops) !! k)) as Hs by eauto.
        apply run_dom in Hs as (o1 & Hin1 & Ho1).
        apply (Hinj' o1 o); [apply elem_of_app; by left|apply elem_of_app; right; left|done..]. }
    destruct o as [k0 es|k0 es|k0 r s i h cs|bs]; cbn [map_op].
    + split; [done|]. eapply Hins; [done|reflexivity|reflexivity].
    + split; [done|]. eapply Hins; [done|reflexivity|].
      cbn [map_op apply_op append b_data]. by rewrite (Hlook k0).
    + split; [done|]. eapply Hins; [done|reflexivity|].
      cbn [map_op apply_op compact_append b_data]. by rewrite (Hlook k0).
    + split; done.
Qed.

Lemma builder_eq b1 b2 :
  b_bounds b1 = b_bounds b2 -> (forall k v, b_data b1 !! k = Some v <-> b_data b2 !! k = Some v) -> b1 = b2.
Proof.
  destruct b1 as [d1 c1], b2 as [d2 c2]. cbn [b_data b_bounds]. intros -> H. f_equal.
  apply map_eq. intros k. destruct (d1 !! k) as [v|] eqn:E.
  - symmetry. by apply H.
  - destruct (d2 !! k) as [v|] eqn:E'; [|done]. apply H in E'. congruence.
Qed.

(** ** Stores with the same single-phrase records *)
Definition db_form (d : gmap (list N) (list N)) : Prop := forall k v, d !! k = Some v -> key_form k.

Lemma key_form_nonempty k : key_form k -> k <> [].
Proof. intros [(m & key & _ & ->)| ->]; done. Qed.
Lemma key_form_starts0 k v : key_form k -> starts0 (k, v) = true -> exists key, key_ok key /\ k = write_key SinglePhrase key.
Proof. intros [(m & key & Hk & ->)| ->]; [|done]. destruct m; [eauto|done]. Qed.

Lemma single_records_eq d1 d2 :
  db_form d1 -> db_form d2 ->
  (forall key, key_ok key -> d1 !! write_key SinglePhrase key = d2 !! write_key SinglePhrase key) ->
  List.filter starts0 (db_iter d1) = List.filter starts0 (db_iter d2).
Proof.
  intros H1 H2 H.
  assert (Hel : forall d d', db_form d -> (forall key, key_ok key -> d !! write_key SinglePhrase key = d' !! write_key SinglePhrase key) ->
    forall kv, kv ∈ List.filter starts0 (db_iter d) -> kv ∈ List.filter starts0 (db_iter d')).
  { intros d d' Hd Hdd' [k v] Hin. apply elem_of_filter in Hin as [Hin Hs]. apply elem_of_filter.
    split; [|done]. apply elem_db_iter. apply elem_db_iter in Hin. pose proof (Hd k v Hin) as Hf.
    destruct (key_form_starts0 k v Hf Hs) as (key & Hk & ->). by rewrite <- Hdd'. }
  assert (Hnd : forall d, NoDup (List.filter starts0 (db_iter d))).
  { intros d. apply NoDup_ListNoDup. apply List.NoDup_filter. apply NoDup_ListNoDup.
    eapply NoDup_fmap_1. apply db_iter_NoDup. }
  apply (sorted_perm_unique kv_le).
  - intros [k1 v1] [k2 v2] Ha Hb Hab Hba. unfold kv_le in *. cbn [fst] in *.
    assert (k1 = k2) as -> by by apply bytes_leb_anti.
    apply elem_of_filter in Ha as [Ha _]. apply elem_of_filter in Hb as [Hb _].
    apply elem_db_iter in Ha, Hb. congruence.
  - apply StronglySorted_filter, db_iter_sorted.
  - apply StronglySorted_filter, db_iter_sorted.
  - apply NoDup_Permutation; [apply Hnd|apply Hnd|]. intros kv. split.
    + by apply Hel.
    + apply Hel; [done|]. intros. symmetry. auto.
Qed.

Lemma range_sel_single st en kv :
  key_form kv.1 -> range_sel SinglePhrase st en kv = true -> starts0 kv = true.
Proof.
  destruct kv as [k v]. cbn [fst]. intros [(m & key & Hk & ->)| ->]; unfold range_sel; cbn [fst].
  - rewrite matches_key_write by by destruct Hk. destruct m; [done|]. done.
  - by rewrite matches_key_bounds.
Qed.
Lemma range_filter_starts0 d st en :
  db_form d ->
  List.filter (range_sel SinglePhrase st en) (db_iter d) =
  List.filter (range_sel SinglePhrase st en) (List.filter starts0 (db_iter d)).
Proof.
  intros Hd.
  assert (Hall : forall kv, kv ∈ db_iter d -> key_form kv.1).
  { intros [k v] Hin. apply elem_db_iter in Hin. by eapply Hd. }
  induction (db_iter d) as [|kv l IH]; [done|]. cbn [List.filter].
  rewrite IH by (intros; apply Hall; by right).
  destruct (range_sel SinglePhrase st en kv) eqn:E.
  - rewrite (range_sel_single st en kv (Hall kv ltac:(left)) E). cbn [List.filter]. by rewrite E.
  - destruct (starts0 kv); [|done]. cbn [List.filter]. by rewrite E.
Qed.

(** Start of the scanned range within u32. *)
Definition query_start_ok (ph : match_phrase) : Prop :=
  match ph with Exact id => id < 2 ^ 32 | Range a _ => a < 2 ^ 32 end.

Lemma same_singles s1 s2 :
  db_form (st_db s1) -> db_form (st_db s2) ->
  (forall key, key_ok key -> st_db s1 !! write_key SinglePhrase key = st_db s2 !! write_key SinglePhrase key) ->
  st_bounds s1 = [] -> st_bounds s2 = [] -> st_radius s1 = st_radius s2 ->
  (forall key, key_ok key -> get s1 key = get s2 key) /\ keys s1 = keys s2 /\ iter s1 = iter s2 /\
  forall p mtb tb k opts max, query_start_ok (mk_phrase k) ->
    streaming_get_matching p mtb tb s1 k opts max = streaming_get_matching p mtb tb s2 k opts max.
Proof.
  intros F1 F2 H B1 B2 Hr.
  assert (Hs : single_records (st_db s1) = single_records (st_db s2)).
  { rewrite (single_records_filter (st_db s1)) by (intros ? ? Hkv; eapply key_form_nonempty, F1; exact Hkv).
    rewrite (single_records_filter (st_db s2)) by (intros ? ? Hkv; eapply key_form_nonempty, F2; exact Hkv).
    by apply single_records_eq. }
  split; [|split; [|split]].
  - intros key Hk. unfold get. by rewrite H.
  - unfold keys. by rewrite Hs.
  - unfold iter. by rewrite Hs.
  - intros p mtb tb k opts max Hst. unfold streaming_get_matching.
    assert (Hf : fetch_range p s1 (mk_phrase k) = fetch_range p s2 (mk_phrase k)).
    { unfold fetch_range. by rewrite B1, B2. }
    rewrite Hf. destruct (fetch_range p s2 (mk_phrase k)) as [[[st en] m]| | |] eqn:E; try done.
    assert (Hm : m = SinglePhrase /\ st < 2 ^ 32).
    { unfold fetch_range in E. rewrite B2 in E. cbn [existsb andb] in E.
      destruct (mk_phrase k) as [id|a b].
      - apply bind_Ok in E as (e & _ & E). injection E as <- <- <-. done.
      - injection E as <- <- <-. done. }
    destruct Hm as [-> Hst']. cbn [res_bind].
    rewrite !range_records by done. cbn [res_bind].
    rewrite (range_filter_starts0 _ st en F1), (range_filter_starts0 _ st en F2).
    rewrite (single_records_eq _ _ F1 F2 H).
    assert (Hq : forall recs q, res_foldl (queue_record p mtb tb s1 k opts max) q recs =
                                res_foldl (queue_record p mtb tb s2 k opts max) q recs).
    { intros recs. induction recs as [|kv recs IH]; intros q; [done|]. cbn [res_foldl].
      assert (E' : queue_record p mtb tb s1 k opts max q kv = queue_record p mtb tb s2 k opts max q kv).
      { unfold queue_record. by rewrite Hr. }
      rewrite E'. destruct (queue_record p mtb tb s2 k opts max q kv); cbn [res_bind]; auto. }
    by rewrite Hq.
Qed.

(** ** Interrupted writes *)
Lemma run_restrict P ops k :
  b_data (run (restrict P ops)) !! k = if P k then b_data (run ops) !! k else None.
Proof.
  unfold restrict. rewrite run_snoc. cbn [apply_op load_bin_boundaries b_data].
  revert k. induction ops as [|o ops IH] using rev_ind; intros k.
  - unfold run, builder_new. cbn [List.filter foldl b_data]. rewrite !lookup_empty. by destruct (P k).
  - rewrite List.filter_app. cbn [List.filter]. destruct (on_keys P o) eqn:E.
    + rewrite !run_snoc.
      destruct o as [k0 es|k0 es|k0 r s i h cs|bs]; unfold on_keys in E; cbn [op_key] in E;
        cbn [apply_op insert append compact_append load_bin_boundaries b_data]; [..|apply IH];
        rewrite ?(IH k0), ?E; (destruct (decide (k = k0)) as [->|Hne];
          [rewrite !lookup_insert, E; done|rewrite !lookup_insert_ne by done; apply IH]).
    + rewrite app_nil_r, run_snoc, IH.
      destruct o as [k0 es|k0 es|k0 r s i h cs|bs]; unfold on_keys in E; cbn [op_key] in E;
        cbn [apply_op insert append compact_append load_bin_boundaries b_data]; [..|done];
        (destruct (decide (k = k0)) as [->|Hne]; [by rewrite E|by rewrite lookup_insert_ne]).
Qed.
Lemma written_restrict P ops k :
  written (restrict P ops) !! k = if P k then written ops !! k else None.
Proof.
  unfold restrict, written. rewrite foldl_app. cbn [foldl written_step].
  revert k. induction ops as [|o ops IH] using rev_ind; intros k.
  - cbn [List.filter foldl]. rewrite !lookup_empty. by destruct (P k).
  - rewrite List.filter_app. cbn [List.filter]. destruct (on_keys P o) eqn:E.
    + rewrite !foldl_app. cbn [foldl].
      destruct o as [k0 es|k0 es|k0 r s i h cs|bs]; unfold on_keys in E; cbn [op_key] in E;
        cbn [written_step]; [..|apply IH];
        rewrite ?(IH k0), ?E; (destruct (decide (k = k0)) as [->|Hne];
          [rewrite !lookup_insert, E; done|rewrite !lookup_insert_ne by done; apply IH]).
    + rewrite app_nil_r, foldl_app, IH. cbn [foldl].
      destruct o as [k0 es|k0 es|k0 r s i h cs|bs]; unfold on_keys in E; cbn [op_key] in E;
        cbn [written_step]; [..|done];
        (destruct (decide (k = k0)) as [->|Hne]; [by rewrite E|by rewrite lookup_insert_ne]).
Qed.
Lemma history_restrict P ops : history_ok ops -> history_ok (restrict P ops).
Proof.
  intros [H1 H2]. split.
  - unfold restrict. apply Forall_app. split; [|repeat constructor].
    rewrite Forall_forall in *. intros o Ho. apply elem_of_filter in Ho as [Ho _]. auto.
  - intros k es. rewrite written_restrict. destruct (P k); [apply H2|done].
Qed.

Lemma finish_single_inv o b puts k v :
  data_keys_ok b -> key_ok k -> finish_puts o b = Ok puts ->
  (write_key SinglePhrase k, v) ∈ puts -> exists be, b_data b !! k = Some be /\ v = enc be.
Proof.
  intros [Hk Hb] Hok Hp Hv. apply (finish_elem o b puts _ Hp) in Hv as [(k' & be & Hd & E)|[H|E]].
  - apply pair_equal_spec in E as [E ->]. cbn [fst snd] in *.
    pose proof (Hk _ _ Hd) as Hk'. destruct (write_key_inj _ _ _ _ Hok Hk' E) as [_ <-]. eauto.
  - destruct H as (gid & g & labelled & _ & _ & Hbp). apply bin_put_key in Hbp as (l & E & _).
    apply (f_equal head) in E. done.
  - apply pair_equal_spec in E as [E _]. by apply write_key_bounds in E.
Qed.

Lemma finish_bounds_last o b puts n :
  data_keys_ok b -> finish_puts o b = Ok puts -> (n < length puts)%nat ->
  forall v, (bounds_key, v) ∉ take n puts.
Proof.
  intros Hok Hp Hn v Hv. pose proof (finish_puts_groups o b puts Hp) as (labelled & Hl & Ep).
  set (init := mjoin (map (group_puts o) (eager_groupby fst option_N_eqb labelled))) in *.
  rewrite Ep in Hn, Hv. rewrite app_length in Hn. cbn [length] in Hn.
  rewrite take_app_le in Hv by lia.
  assert (Hin : (bounds_key, v) ∈ init).
  { apply elem_of_list_lookup in Hv as [i Hi]. apply lookup_take_Some in Hi as [Hi _].
    by eapply elem_of_list_lookup_2. }
  unfold init in Hin. apply elem_of_mjoin in Hin as (l & Hkv & ([lab g] & -> & Hg)%elem_of_map).
  apply elem_group_puts in Hkv as [([k be] & Hit & E)|(gid & Hgid & Hb)].
  - apply pair_equal_spec in E as [E _]. cbn [fst] in E. symmetry in E. by apply write_key_bounds in E.
  - apply bin_put_key in Hb as (l & E & _). cbn [fst] in E. symmetry in E. by apply write_key_bounds in E.
Qed.

Lemma puts_key_form o b puts k v :
  data_keys_ok b -> finish_puts o b = Ok puts -> (k, v) ∈ puts -> key_form k.
Proof.
  intros Hok Hp Hin. destruct (apply_puts_in puts ∅ k v Hin) as (v' & Hv' & _).
  apply (finish_key_form o b (apply_puts puts ∅) k v'); [done| |done].
  unfold finish. by rewrite Hp.
Qed.

(** The keys present after the first [n] writes. *)
Definition present (puts : list (bytes * bytes)) (n : nat) (k : N * N) : bool :=
  existsb (fun kv => bool_decide (kv.1 = write_key SinglePhrase k)) (take n puts).
Lemma present_spec puts n k : present puts n k = true <-> exists v, (write_key SinglePhrase k, v) ∈ take n puts.
Proof.
  unfold present. rewrite List.existsb_exists. split.
  - intros ([k' v] & Hin & E). apply bool_decide_eq_true in E. cbn [fst] in E. subst k'.
    exists v. by apply elem_of_list_In.
  - intros [v Hin]. exists (write_key SinglePhrase k, v). split; [by apply elem_of_list_In|].
    by apply bool_decide_eq_true.
Qed.
Lemma take_sub {A} n (l : list A) x : x ∈ take n l -> x ∈ l.
Proof.
  intros H. apply elem_of_list_lookup in H as [i Hi]. apply lookup_take_Some in Hi as [Hi _].
  by eapply elem_of_list_lookup_2.
Qed.

Lemma crash_single o b puts n k :
  data_keys_ok b -> key_ok k -> finish_puts o b = Ok puts ->
  apply_puts (take n puts) ∅ !! write_key SinglePhrase k =
    if present puts n k then enc <$> (b_data b !! k) else None.
Proof.
  intros Hok Hk Hp. destruct (present puts n k) eqn:E.
  - apply present_spec in E as [v Hin].
    destruct (finish_single_inv o b puts k v Hok Hk Hp (take_sub _ _ _ Hin)) as (be & Hbe & ->).
    rewrite Hbe. apply apply_puts_unique; [done|]. intros v' Hin'.
    destruct (finish_single_inv o b puts k v' Hok Hk Hp (take_sub _ _ _ Hin')) as (be' & Hbe' & ->). congruence.
  - rewrite apply_puts_none; [apply lookup_empty|]. intros [k' v] Hin E'. cbn [fst] in E'. subst k'.
    assert (present puts n k = true) by (apply present_spec; eauto). congruence.
Qed.

Lemma crash_store o ops puts n z t r bb ms :
  history_ok ops -> finish_puts o (run ops) = Ok puts -> (n < length puts)%nat ->
  let s := open_store (apply_puts (take n puts) ∅) z t r bb ms in
  let P := present puts n in
  st_bounds s = [] /\
  exists s', built o (restrict P ops) s' /\ history_ok (restrict P ops) /\ st_radius s' = st_radius s /\
    (forall key, key_ok key -> get s key = get s' key) /\ keys s = keys s' /\ iter s = iter s' /\
    forall p mtb tb k opts max, query_start_ok (mk_phrase k) ->
      streaming_get_matching p mtb tb s k opts max = streaming_get_matching p mtb tb s' k opts max.
Proof.
  intros Hh Hp Hn s P.
  assert (Hok : data_keys_ok (run ops)) by (apply run_keys_ok; by destruct Hh).
  assert (Hb : apply_puts (take n puts) ∅ !! bounds_key = None).
  { rewrite apply_puts_none; [apply lookup_empty|]. intros [k v] Hin E. cbn [fst] in E. subst k.
    by eapply (finish_bounds_last o (run ops) puts n Hok Hp Hn). }
  assert (Hbs : st_bounds s = []) by (unfold s, open_store; cbn [st_bounds]; by rewrite Hb).
  split; [done|].
  pose proof (history_restrict P ops Hh) as Hh'.
  destruct (history_finish o (restrict P ops) ∅ Hh') as [d' Hd'].
  assert (Hok' : data_keys_ok (run (restrict P ops))) by (apply run_keys_ok; by destruct Hh').
  exists (open_store d' z t r bb ms). split; [repeat eexists; exact Hd'|]. split; [done|]. split; [done|].
  apply same_singles; cbn [s open_store st_db st_radius].
  - intros k v H. apply apply_puts_some in H as [H|H]; [|by rewrite lookup_empty in H].
    eapply (puts_key_form o (run ops) puts k v Hok Hp). by eapply take_sub.
  - intros k v. by apply (finish_key_form o (run (restrict P ops)) d').
  - intros key Hk. rewrite (crash_single o (run ops) puts n key Hok Hk Hp).
    rewrite (finish_single_lookup o _ ∅ d' key Hok' Hk Hd'). rewrite run_restrict. fold P.
    destruct (P key); [|by rewrite lookup_empty]. by destruct (b_data (run ops) !! key).
  - done.
  - assert (Hfin : d' !! bounds_key = Some (mjoin (map (le_bytes 4) []))).
    { apply bind_Ok in Hd' as (puts' & Hp' & E). injection E as <-.
      pose proof (finish_puts_groups o _ puts' Hp') as (labelled & Hl & ->).
      rewrite apply_puts_app. unfold apply_puts at 1. cbn [foldl fst snd]. rewrite lookup_insert. f_equal.
      unfold restrict. by rewrite run_snoc. }
    unfold open_store. cbn [st_bounds]. by rewrite Hfin.
  - done.
Qed.
