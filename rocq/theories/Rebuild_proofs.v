(** A second history written over a directory that is not empty. *)
From Verif Require Import Prelude Lists F64 Heap Common Morton Format Builder Spatial Store Spec Spec_match Spec_rebuild
  Format_proofs Record_proofs Builder_proofs Bits_proofs Finish_proofs Store_proofs Order_proofs Spatial_proofs
  Merge_proofs Match_proofs Bins_proofs History_proofs Query_proofs Binquery_proofs Durable_proofs.
From Coq Require Import Sorting.Sorted.
From Coq Require Import ZifyBool.
Local Open Scope N_scope.

(** The database afterwards: what the second history writes into an empty directory,
    and the old records under all other keys. *)
Lemma apply_puts_over (puts : list (bytes * bytes)) (d : gmap (list N) (list N)) k :
  apply_puts puts d !! k = match apply_puts puts ∅ !! k with Some v => Some v | None => d !! k end.
Proof.
  induction puts as [|[k0 v0] puts IH] using rev_ind.
  - cbn. by rewrite lookup_empty.
  - rewrite !apply_puts_app. unfold apply_puts at 1 3. cbn [foldl fst snd].
    destruct (decide (k = k0)) as [->|Hne]; [by rewrite !lookup_insert|]. by rewrite !lookup_insert_ne.
Qed.
Lemma finish_over o b d d' d0 k :
  finish o b d = Ok d' -> finish o b ∅ = Ok d0 ->
  d' !! k = match d0 !! k with Some v => Some v | None => d !! k end.
Proof.
  intros (puts & Hp & [= <-])%bind_Ok (puts' & Hp' & [= <-])%bind_Ok.
  assert (puts' = puts) by congruence. subst puts'. apply apply_puts_over.
Qed.
Lemma finish_any o b d d' : finish o b d = Ok d' -> exists d0, finish o b ∅ = Ok d0.
Proof. intros (puts & Hp & _)%bind_Ok. unfold finish. rewrite Hp. by eexists. Qed.

(** ** Single records *)
Lemma foldl_untouched ops k : forall b,
  (forall o, o ∈ ops -> op_key o <> Some k) -> b_data (foldl apply_op b ops) !! k = b_data b !! k.
Proof.
  induction ops as [|o ops IH]; intros b H; [done|]. cbn [foldl]. rewrite IH by (intros; apply H; by right).
  specialize (H o ltac:(left)).
  destruct o; cbn [op_key] in H; cbn [apply_op insert append compact_append load_bin_boundaries b_data]; try done;
    rewrite lookup_insert_ne; congruence.
Qed.
Lemma foldl_fresh ops k : forall b b',
  b_data b !! k = b_data b' !! k -> b_data (foldl apply_op b ops) !! k = b_data (foldl apply_op b' ops) !! k.
Proof.
  induction ops as [|o ops IH]; intros b b' H; [done|]. cbn [foldl]. apply IH.
  destruct o as [k0 es|k0 es|k0 r s i h cs|bs]; cbn [apply_op insert append compact_append load_bin_boundaries b_data]; [..|done];
    (destruct (decide (k0 = k)) as [->|Hne]; [rewrite !lookup_insert; by rewrite ?H|by rewrite !lookup_insert_ne]).
Qed.
Lemma foldl_written_untouched ops k : forall m,
  (forall o, o ∈ ops -> op_key o <> Some k) -> foldl written_step m ops !! k = m !! k.
Proof.
  induction ops as [|o ops IH]; intros b H; [done|]. cbn [foldl]. rewrite IH by (intros; apply H; by right).
  specialize (H o ltac:(left)).
  destruct o; cbn [op_key] in H; cbn [written_step]; try done; rewrite lookup_insert_ne; congruence.
Qed.
Lemma foldl_written_fresh ops k : forall m m',
  m !! k = m' !! k -> foldl written_step m ops !! k = foldl written_step m' ops !! k.
Proof.
  induction ops as [|o ops IH]; intros b b' H; [done|]. cbn [foldl]. apply IH.
  destruct o as [k0 es|k0 es|k0 r s i h cs|bs]; cbn [written_step]; [..|done];
    (destruct (decide (k0 = k)) as [->|Hne]; [rewrite !lookup_insert; by rewrite ?H|by rewrite !lookup_insert_ne]).
Qed.
Lemma written_dom ops k : is_Some (written ops !! k) <-> exists o, o ∈ ops /\ op_key o = Some k.
Proof.
  rewrite <- run_dom. pose proof (run_rel ops k) as Hr.
  destruct (b_data (run ops) !! k), (written ops !! k); try done; split; intros [? ?]; done.
Qed.

Lemma written_overlay ops1 ops2 k :
  written (overlay ops1 ops2) !! k =
    match written ops2 !! k with Some es => Some es | None => written ops1 !! k end.
Proof.
  unfold overlay. set (P := fun k => match written ops2 !! k with Some _ => false | None => true end).
  unfold written at 1. rewrite foldl_app. fold (written (restrict P ops1)).
  pose proof (written_restrict P ops1 k) as Hr. unfold P at 2 in Hr.
  destruct (written ops2 !! k) as [es|] eqn:E.
  - rewrite (foldl_written_fresh ops2 k _ ∅); [by rewrite <- E|]. by rewrite Hr, lookup_empty.
  - rewrite foldl_written_untouched; [by rewrite Hr|].
    intros o Ho Hk. assert (H : is_Some (written ops2 !! k)) by (apply written_dom; eauto). rewrite E in H. by destruct H.
Qed.
Lemma run_overlay ops1 ops2 k :
  b_data (run (overlay ops1 ops2)) !! k =
    match b_data (run ops2) !! k with Some be => Some be | None => b_data (run ops1) !! k end.
Proof.
  unfold overlay. set (P := fun k => match written ops2 !! k with Some _ => false | None => true end).
  unfold run at 1. rewrite foldl_app. fold (run (restrict P ops1)).
  pose proof (run_restrict P ops1 k) as Hr. unfold P at 2 in Hr. pose proof (run_rel ops2 k) as Hrel.
  destruct (b_data (run ops2) !! k) as [be|] eqn:E, (written ops2 !! k) as [es|] eqn:Ew; try done.
  - rewrite (foldl_fresh ops2 k _ builder_new); [by rewrite <- E|]. rewrite Hr. unfold builder_new. cbn [b_data].
    by rewrite lookup_empty.
  - rewrite foldl_untouched; [by rewrite Hr|].
    intros o Ho Hk. assert (H : is_Some (b_data (run ops2) !! k)) by (apply run_dom; eauto). rewrite E in H. by destruct H.
Qed.
Lemma loaded_overlay ops1 ops2 : loaded (overlay ops1 ops2) = loaded ops2.
Proof.
  unfold overlay, restrict, loaded. rewrite foldl_app, foldl_app. done.
Qed.
Lemma history_overlay ops1 ops2 : history_ok ops1 -> history_ok ops2 -> history_ok (overlay ops1 ops2).
Proof.
  intros H1 H2. split.
  - unfold overlay. apply Forall_app. split; [|apply H2]. apply (history_restrict _ ops1 H1).
  - intros k es. rewrite written_overlay. destruct (written ops2 !! k) eqn:E; [|apply H1]. intros [= <-]. by apply (proj2 H2 k).
Qed.

(** Stores with the same single records and the same boundaries. *)
Lemma same_singles_plain s1 s2 :
  db_form (st_db s1) -> db_form (st_db s2) ->
  (forall key, key_ok key -> st_db s1 !! write_key SinglePhrase key = st_db s2 !! write_key SinglePhrase key) ->
  st_bounds s1 = st_bounds s2 -> st_radius s1 = st_radius s2 ->
  (forall key, key_ok key -> get s1 key = get s2 key) /\ keys s1 = keys s2 /\ iter s1 = iter s2 /\
  forall p mtb tb k opts max, plain_query s2 (mk_phrase k) ->
    streaming_get_matching p mtb tb s1 k opts max = streaming_get_matching p mtb tb s2 k opts max.
Proof.
  intros F1 F2 H B Hr.
  assert (Hs : single_records (st_db s1) = single_records (st_db s2)).
  { rewrite (single_records_filter (st_db s1)) by (intros ? ? Hkv; eapply key_form_nonempty, F1; exact Hkv).
    rewrite (single_records_filter (st_db s2)) by (intros ? ? Hkv; eapply key_form_nonempty, F2; exact Hkv).
    by apply single_records_eq. }
  split; [|split; [|split]].
  - intros key Hk. unfold get. by rewrite H.
  - unfold keys. by rewrite Hs.
  - unfold iter. by rewrite Hs.
  - intros p mtb tb k opts max Hpl. unfold streaming_get_matching.
    assert (Hf : fetch_range p s1 (mk_phrase k) = fetch_range p s2 (mk_phrase k)) by (unfold fetch_range; by rewrite B).
    destruct (fetch_plain p s2 _ Hpl) as (st & en & E & Hst & _).
    rewrite Hf, E. cbn [res_bind].
    rewrite !range_records by done. cbn [res_bind].
    rewrite (range_filter_starts0 _ st en F1), (range_filter_starts0 _ st en F2).
    rewrite (single_records_eq _ _ F1 F2 H).
    assert (Hq : forall recs q, res_foldl (queue_record p mtb tb s1 k opts max) q recs =
                                res_foldl (queue_record p mtb tb s2 k opts max) q recs).
    { intros recs. induction recs as [|kv recs IH]; intros q; [done|]. cbn [res_foldl].
      assert (E' : queue_record p mtb tb s1 k opts max q kv = queue_record p mtb tb s2 k opts max q kv).
      { unfold queue_record. by rewrite Hr. }
      rewrite E'. destruct (queue_record p mtb tb s2 k opts max q kv); cbn [res_bind]; auto. }
    by rewrite Hq.
Qed.

Lemma overlay_store o o' ops1 ops2 d1 d12 z t r bb ms :
  history_ok ops1 -> history_ok ops2 -> finish o (run ops1) ∅ = Ok d1 -> finish o' (run ops2) d1 = Ok d12 ->
  let s := open_store d12 z t r bb ms in
  db_form d12 /\ st_bounds s = loaded ops2 /\
  exists s', built o' (overlay ops1 ops2) s' /\ history_ok (overlay ops1 ops2) /\ st_radius s' = st_radius s /\
    (forall key, key_ok key -> get s key = get s' key) /\ keys s = keys s' /\ iter s = iter s' /\
    forall p mtb tb k opts max, query_ok ops2 (mk_phrase k) -> ~ bin_query ops2 (mk_phrase k) ->
      streaming_get_matching p mtb tb s k opts max = streaming_get_matching p mtb tb s' k opts max.
Proof.
  intros H1 H2 F1 F12 s. destruct (finish_any _ _ _ _ F12) as [d2 F2].
  pose proof (run_keys_ok ops1 (proj1 H1)) as K1. pose proof (run_keys_ok ops2 (proj1 H2)) as K2.
  assert (Hform : db_form d12).
  { intros k v. rewrite (finish_over _ _ _ _ _ k F12 F2). destruct (d2 !! k) eqn:E.
    - intros _. by eapply (finish_key_form o' (run ops2)).
    - by apply (finish_key_form o (run ops1)). }
  assert (B2 : built o' ops2 (open_store d2 z t r bb ms)) by by repeat eexists.
  assert (Hb : st_bounds s = loaded ops2).
  { rewrite <- (built_bounds o' ops2 _ H2 B2). unfold s, open_store. cbn [st_bounds].
    rewrite (finish_over _ _ _ _ _ bounds_key F12 F2).
    destruct (d2 !! bounds_key) eqn:E; [done|]. exfalso.
    apply bind_Ok in F2 as (puts & Hp & [= <-]). pose proof (finish_puts_groups o' _ puts Hp) as (labelled & Hl & ->).
    rewrite apply_puts_app in E. unfold apply_puts at 1 in E. cbn [foldl fst snd] in E. by rewrite lookup_insert in E. }
  split; [done|]. split; [done|].
  pose proof (history_overlay ops1 ops2 H1 H2) as Hh.
  destruct (history_finish o' (overlay ops1 ops2) ∅ Hh) as [d' F'].
  set (s' := open_store d' z t r bb ms).
  assert (B' : built o' (overlay ops1 ops2) s') by by repeat eexists.
  pose proof (built_bounds _ _ _ Hh B') as Hb'. rewrite loaded_overlay in Hb'.
  pose proof (run_keys_ok _ (proj1 Hh)) as K'.
  exists s'. split; [done|]. split; [done|]. split; [done|].
  destruct (same_singles_plain s s') as (G1 & G2 & G3 & G4).
  - done.
  - intros k v. by apply (finish_key_form o' (run (overlay ops1 ops2)) d').
  - intros key Hk. cbn [s s' open_store st_db].
    rewrite (finish_single_lookup o' _ _ _ key K2 Hk F12), (finish_single_lookup o _ _ _ key K1 Hk F1).
    rewrite (finish_single_lookup o' _ _ _ key K' Hk F'), run_overlay.
    destruct (b_data (run ops2) !! key); [done|]. destruct (b_data (run ops1) !! key); done.
  - by rewrite Hb, Hb'.
  - done.
  - split; [done|]. split; [done|]. split; [done|]. intros p mtb tb k opts max Hq Hn. apply G4.
    eapply (plain_query_ok o' (overlay ops1 ops2)); [done|done| |].
    + destruct (mk_phrase k) as [id|a b]; [done|]. cbn [query_ok bin_query] in *. split; [apply Hq|].
      rewrite loaded_overlay. tauto.
    + destruct (mk_phrase k) as [id|a b]; [done|]. cbn [bin_query] in *. by rewrite loaded_overlay.
Qed.

(** ** Bins *)
Lemma no_bin_records o ops d gid l :
  history_ok ops -> loaded ops = [] -> finish o (run ops) ∅ = Ok d -> key_ok (gid, l) ->
  d !! write_key PrefixBin (gid, l) = None.
Proof.
  intros Hh Hl0 Hf Hk. destruct (d !! _) as [v|] eqn:Hv; [exfalso|done].
  pose proof (run_keys_ok ops (proj1 Hh)) as [Hkok Hbok].
  apply bind_Ok in Hf as (puts & Hp & [= <-]).
  apply apply_puts_some in Hv as [Hv|Hv]; [|by rewrite lookup_empty in Hv].
  apply (finish_elem o (run ops) puts _ Hp) in Hv as [(k' & be & Hd & E)|[H|E]].
  - apply pair_equal_spec in E as [E _]. apply (f_equal head) in E. done.
  - destruct H as (gid' & g & labelled & Hl & Hg & (l' & be & langs & Hm & Hlk & E)).
    assert (Hit : exists it, it ∈ map snd g /\ gk_lang it.1 = l') by (apply (mo_dom _ _ Hm); eauto).
    destruct Hit as (it & Hit & El).
    destruct (bin_group_elem (run ops) labelled gid' g it (conj Hkok Hbok) Hl Hg Hit) as (H1 & _).
    rewrite run_bounds, Hl0 in H1. by apply elem_of_nil in H1.
  - apply pair_equal_spec in E as [E _]. by apply write_key_bounds in E.
Qed.

(** A query answered from bins, on any database whose bins are well formed. *)
Lemma bin_db_streams p mtb tb s k st en opts (E : N -> N -> list grid_entry) :
  db_form (st_db s) -> mk_phrase k = Range st en -> st < 2 ^ 32 ->
  st ∈ st_bounds s -> en ∈ st_bounds s -> opts_ok p opts (st_radius s) ->
  (forall gid l v, key_ok (gid, l) -> st_db s !! write_key PrefixBin (gid, l) = Some v ->
     exists be, v = enc be /\ holds be (E gid l) /\ Forall entry_ok (E gid l) /\
       rec_wf (norm be) /\ N.of_nat (length (enc be)) < 2 ^ 32) ->
  let recs := List.filter (range_sel PrefixBin st en) (db_iter (st_db s)) in
  (forall kb, kb ∈ map fst recs <-> exists gid l, key_ok (gid, l) /\ kb = write_key PrefixBin (gid, l) /\
     is_Some (st_db s !! kb) /\ (st <=? gid) && (gid <? en) = true) /\
  NoDup (map fst recs) /\
  exists ess,
    (forall m, m ∈ mjoin ess <-> exists gid l e, key_ok (gid, l) /\
       is_Some (st_db s !! write_key PrefixBin (gid, l)) /\ (st <=? gid) && (gid <? en) = true /\
       e ∈ E gid l /\ box_sel (mo_bbox opts) e = true /\
       m = query_match opts (st_radius s) (lang_sel (mk_lang k) l) (snap e)) /\
    length ess = length recs /\
    forall max, streaming_get_matching p mtb tb s k opts max =
      (let* q := res_foldl (q_push tb max) hp_empty ess in Ok (drain_queue tb (queue_size q) q)).
Proof.
  intros Hkf Eph Hst32 Hst Hen Ho HE recs. set (d := st_db s) in *. set (r := st_radius s) in *.
  assert (Hrec : forall kv, kv ∈ recs <-> exists gid l, key_ok (gid, l) /\ kv.1 = write_key PrefixBin (gid, l) /\
                   d !! kv.1 = Some kv.2 /\ (st <=? gid) && (gid <? en) = true).
  { intros [kb v]. unfold recs. rewrite elem_of_filter, elem_db_iter. cbn [fst snd]. split.
    - intros [Hd Hs]. unfold range_sel in Hs. cbn [fst] in Hs.
      destruct (Hkf _ _ Hd) as [(m & [gid l] & Hk & ->)| ->]; [|by rewrite matches_key_bounds in Hs].
      rewrite matches_key_write in Hs by apply Hk. destruct m; [done|].
      exists gid, l. done.
    - intros (gid & l & Hk & -> & Hd & Hs). split; [done|]. unfold range_sel. cbn [fst].
      rewrite matches_key_write by apply Hk. rewrite N.eqb_refl. exact Hs. }
  split; [|split; [apply (NoDup_fmap_fst_filter d)|]].
  { intros kb. rewrite elem_of_map. split.
    - intros ([kb' v] & -> & Hin). apply Hrec in Hin as (gid & l & Hk & Ek & Hd & Hs). cbn [fst snd] in *.
      exists gid, l. split; [done|]. split; [done|]. split; [by eexists|done].
    - intros (gid & l & Hk & -> & [v Hv] & Hs). exists (write_key PrefixBin (gid, l), v). split; [done|].
      apply Hrec. exists gid, l. done. }
  assert (Hess : exists ess, Forall2 (fun kv es => exists gid l be,
       key_ok (gid, l) /\ kv.1 = write_key PrefixBin (gid, l) /\ kv.2 = enc be /\
       holds be (E gid l) /\ Forall entry_ok (E gid l) /\
       matches_language k kv.1 = Ok (lang_sel (mk_lang k) l) /\
       decode_matching_value p mtb kv.2 opts (lang_sel (mk_lang k) l) r = Ok es /\
       es ≡ₚ map (query_match opts r (lang_sel (mk_lang k) l)) (List.filter (box_sel (mo_bbox opts)) (record_of be))) recs ess).
  { assert (Hall : forall kv, kv ∈ recs -> exists gid l, key_ok (gid, l) /\ kv.1 = write_key PrefixBin (gid, l) /\
                   d !! kv.1 = Some kv.2) by (intros kv Hkv; apply Hrec in Hkv as (? & ? & ? & ? & ? & _); eauto).
    clearbody recs. clear Hrec. induction recs as [|kv recs IH]; [by exists []; constructor|].
    destruct IH as [ess IH]; [intros; apply Hall; by right|].
    destruct (Hall kv ltac:(left)) as (gid & l & Hk & Ek & Hd). rewrite Ek in Hd.
    destruct (HE gid l _ Hk Hd) as (be & Ev & Hholds & Hok & Hwf & Hlen).
    destruct (enc_matches p mtb opts (lang_sel (mk_lang k) l) r be Ho Hwf Hlen) as (out & Hdec & Hp & _).
    exists (out :: ess). constructor; [|done]. exists gid, l, be.
    split; [done|]. split; [done|]. split; [done|]. split; [done|]. split; [done|].
    split; [rewrite Ek; by apply matches_language_write|]. split; [by rewrite Ev|]. done. }
  destruct Hess as [ess Hess]. exists ess. split; [|split].
  - intros m. rewrite elem_of_mjoin. split.
    + intros (es & Hm & Hes). apply elem_of_list_lookup in Hes as [i Hi].
      destruct (Forall2_lookup_r _ _ _ _ _ Hess Hi) as (kv & Hkv & gid & l & be & Hk & Ek & Ev & Hholds & Hok & _ & _ & Hp).
      apply elem_of_list_lookup_2, Hrec in Hkv as (gid' & l' & Hk' & Ek' & Hd & Hsel).
      rewrite Ek in Ek'. destruct (write_key_inj _ _ _ _ Hk Hk' Ek') as [_ E']. injection E' as <- <-.
      rewrite Hp in Hm. apply elem_of_map in Hm as (e & -> & He).
      apply elem_of_filter in He as [He Hbox].
      apply (record_elem be _ e Hholds Hok) in He. apply elem_of_map in He as (e0 & -> & He0).
      exists gid, l, e0. split; [done|]. split; [rewrite Ek in Hd; by eexists|]. split; [done|]. split; [done|].
      split; [by destruct (mo_bbox opts)|done].
    + intros (gid & l & e & Hkk & [v Hv] & Hsel & He & Hbox & ->).
      assert (Hin : (write_key PrefixBin (gid, l), v) ∈ recs) by (apply Hrec; exists gid, l; done).
      apply elem_of_list_lookup in Hin as [i Hi].
      destruct (Forall2_lookup_l _ _ _ _ _ Hess Hi) as (out & Hout & gid' & l' & be & Hk & Ek & Ev & Hholds & Hok & _ & _ & Hp).
      cbn [fst snd] in Ek, Ev. destruct (write_key_inj _ _ _ _ Hkk Hk Ek) as [_ E']. injection E' as <- <-.
      exists out. split; [|by eapply elem_of_list_lookup_2].
      rewrite Hp. apply elem_of_map. exists (snap e). split; [done|]. apply elem_of_filter.
      split; [|by destruct (mo_bbox opts)].
      apply (record_elem be _ _ Hholds Hok). apply elem_of_map. by exists e.
  - symmetry. exact (Forall2_length _ _ _ Hess).
  - intros max. unfold streaming_get_matching. rewrite Eph. unfold fetch_range.
    rewrite (proj2 (existsb_elem st _) Hst), (proj2 (existsb_elem en _) Hen). cbn [andb res_bind].
    fold d. rewrite range_records by done. cbn [res_bind]. fold recs.
    rewrite (queue_fold p mtb tb s k opts max _ ess); [done|].
    eapply Forall2_impl; [exact Hess|]. cbv beta. intros kv es (gid & l & be & _ & _ & _ & _ & _ & H1 & H2 & _). eauto.
Qed.

Lemma bin_used_item ops gid l : bin_used ops gid l <-> exists it, bin_item ops gid l it.
Proof.
  split.
  - intros (k & es & Hw & Hg & El). pose proof (run_rel ops k) as Hr. rewrite Hw in Hr.
    destruct (b_data (run ops) !! k) as [be|] eqn:E; [|done]. exists (k, be). done.
  - intros (it & Hit). destruct (bin_item_written _ _ _ _ Hit) as [es Hes]. destruct Hit as (_ & Hg & El).
    exists it.1, es. done.
Qed.
Definition bin_usedb (ops : list op) (gid l : N) : bool :=
  existsb (fun kv : (N * N) * list grid_entry =>
    match bin_of (loaded ops) kv.1.1 with Some g => g =? gid | None => false end && (kv.1.2 =? l)) (map_to_list (written ops)).
Lemma bin_usedb_spec ops gid l : bin_usedb ops gid l = true <-> bin_used ops gid l.
Proof.
  unfold bin_usedb. rewrite List.existsb_exists. split.
  - intros ([k es] & Hin%elem_of_list_In%elem_of_map_to_list & E). cbn [fst] in E. apply andb_prop in E as [E1 E2].
    exists k, es. split; [done|]. destruct (bin_of _ _) as [g|]; [|done]. apply N.eqb_eq in E1 as ->. by apply N.eqb_eq in E2.
  - intros (k & es & Hw & Hg & El). exists (k, es). split; [by apply elem_of_list_In, elem_of_map_to_list|].
    cbn [fst]. by rewrite Hg, El, !N.eqb_refl.
Qed.
Lemma elem_bin_entries ops gid l e :
  e ∈ bin_entries ops gid l <->
  exists k es, written ops !! k = Some es /\ bin_of (loaded ops) k.1 = Some gid /\ k.2 = l /\ e ∈ es.
Proof.
  unfold bin_entries. rewrite elem_of_mjoin. split.
  - intros (es0 & He0 & Hes0). apply elem_of_map in Hes0 as ([key es1] & -> & Hin). cbn [snd] in He0.
    apply elem_of_filter in Hin as [Hin Hc]. apply elem_of_map_to_list in Hin. cbn [fst] in Hc.
    apply andb_prop in Hc as [Hg El].
    destruct (bin_of (loaded ops) key.1) as [g|] eqn:Eg; [|done]. apply N.eqb_eq in Hg as ->.
    apply N.eqb_eq in El. exists key, es1. done.
  - intros (k & es & Hw & Hg & El & He). exists es. split; [done|]. apply elem_of_map. exists (k, es). split; [done|].
    apply elem_of_filter. split; [by apply elem_of_map_to_list|]. cbn [fst]. by rewrite Hg, El, !N.eqb_refl.
Qed.

Lemma overlay_bins p mtb tb o o' ops1 ops2 d1 d12 z t r bb ms k st en opts :
  history_ok ops1 -> history_ok ops2 -> bins_ok ops1 \/ loaded ops1 = [] -> bins_ok ops2 ->
  finish o (run ops1) ∅ = Ok d1 -> finish o' (run ops2) d1 = Ok d12 ->
  mk_phrase k = Range st en -> st ∈ loaded ops2 -> en ∈ loaded ops2 -> opts_ok p opts r ->
  let s := open_store d12 z t r bb ms in
  exists ess,
    (forall m, m ∈ mjoin ess <-> should_match ops2 k opts r m \/ stale_match ops1 ops2 k opts r m) /\
    (length ess <= size (written ops1) + size (written ops2))%nat /\
    forall max, streaming_get_matching p mtb tb s k opts max =
      (let* q := res_foldl (q_push tb max) hp_empty ess in Ok (drain_queue tb (queue_size q) q)).
Proof.
  intros H1 H2 B1 B2 F1 F12 Eph Hst Hen Ho s.
  destruct (overlay_store o o' ops1 ops2 d1 d12 z t r bb ms H1 H2 F1 F12) as (Hform & Hb & _).
  destruct (finish_any _ _ _ _ F12) as [d2 F2].
  pose proof (run_bounds_ok _ (proj1 H2)) as Hbk. rewrite run_bounds, Forall_forall in Hbk.
  pose proof (run_bounds_ok _ (proj1 H1)) as Hbk1. rewrite run_bounds, Forall_forall in Hbk1.
  (* The old bins. *)
  assert (R1 : forall gid l v, key_ok (gid, l) -> d1 !! write_key PrefixBin (gid, l) = Some v ->
    bin_used ops1 gid l /\
    exists be, v = enc be /\ holds be (bin_entries ops1 gid l) /\ Forall entry_ok (bin_entries ops1 gid l) /\
      rec_wf (norm be) /\ N.of_nat (length (enc be)) < 2 ^ 32).
  { intros gid l v Hk Hv. destruct B1 as [B1|B1].
    - rewrite bin_used_item. by apply (bin_record o ops1 d1 gid l v).
    - rewrite (no_bin_records o ops1 d1 gid l) in Hv; done. }
  assert (X1 : forall gid l, bin_used ops1 gid l -> is_Some (d1 !! write_key PrefixBin (gid, l))).
  { intros gid l Hu. destruct B1 as [B1|B1].
    - apply bin_used_item in Hu as [it Hit]. destruct (bin_record_exists o ops1 d1 gid l it H1 B1 F1 Hit) as [v Hv]. by eexists.
    - destruct Hu as (k' & es & _ & Hg & _). rewrite B1 in Hg. done. }
  assert (R2 : forall gid l, key_ok (gid, l) -> is_Some (d2 !! write_key PrefixBin (gid, l)) <-> bin_used ops2 gid l).
  { intros gid l Hk. split.
    - intros [v Hv]. apply bin_used_item. by apply (bin_record o' ops2 d2 gid l v).
    - intros Hu. apply bin_used_item in Hu as [it Hit].
      destruct (bin_record_exists o' ops2 d2 gid l it H2 B2 F2 Hit) as [v Hv]. by eexists. }
  assert (Hlook : forall gid l, d12 !! write_key PrefixBin (gid, l) =
    match d2 !! write_key PrefixBin (gid, l) with Some v => Some v | None => d1 !! write_key PrefixBin (gid, l) end).
  { intros. apply (finish_over _ _ _ _ _ _ F12 F2). }
  assert (Hkeys : forall ops gid l, history_ok ops -> (forall b, b ∈ loaded ops -> b < 2 ^ 32) -> bin_used ops gid l -> key_ok (gid, l)).
  { intros ops gid l [Hops _] Hlt (k' & es & Hw & Hg & El).
    destruct (written_all_ok ops Hops k' es Hw) as [[_ Hl] _]. split; [|cbn [snd]; congruence].
    apply Hlt. cbn [fst]. unfold bin_of in Hg. apply last_Some_elem_of in Hg. by apply elem_of_filter in Hg as [? _]. }
  destruct (bin_db_streams p mtb tb s k st en opts
    (fun gid l => if bin_usedb ops2 gid l then bin_entries ops2 gid l else bin_entries ops1 gid l))
    as (Hkb & Hnd & ess & Hel & Hlen & Hrun).
  { exact Hform. }
  { done. }
  { by apply Hbk. }
  { change (st_bounds s) with (st_bounds (open_store d12 z t r bb ms)). by rewrite Hb. }
  { change (st_bounds s) with (st_bounds (open_store d12 z t r bb ms)). by rewrite Hb. }
  { done. }
  { intros gid l v Hk Hv. cbn [s open_store st_db] in Hv. rewrite Hlook in Hv.
    destruct (bin_usedb ops2 gid l) eqn:Eu.
    - apply bin_usedb_spec in Eu. destruct (proj2 (R2 gid l Hk) Eu) as [v2 Hv2]. rewrite Hv2 in Hv. injection Hv as <-.
      by apply (bin_record o' ops2 d2 gid l v2).
    - destruct (d2 !! write_key PrefixBin (gid, l)) as [v2|] eqn:Hv2.
      + assert (Hu : bin_used ops2 gid l) by (apply R2; [done|by eexists]). apply bin_usedb_spec in Hu. congruence.
      + by apply R1. }
  exists ess. split; [|split; [|done]].
  - intros m. rewrite Hel. cbn [s open_store st_db st_radius]. split.
    + intros (gid & l & e & Hk & Hin & Hsel & He & Hbox & ->).
      destruct (bin_usedb ops2 gid l) eqn:Eu.
      * left. apply elem_bin_entries in He as (k' & es & Hw & Hg & <- & He). exists k', es, e.
        split; [done|]. split; [|done]. rewrite Eph. cbn [phrase_sel].
        rewrite <- (bin_of_range (loaded ops2) st en k'.1 gid); [done|apply B2|done..].
      * right. apply elem_bin_entries in He as (k' & es & Hw & Hg & <- & He). exists k', es, gid, e.
        split; [done|]. split; [done|]. split; [by rewrite Eph|]. split; [|done].
        intros Hu. apply bin_usedb_spec in Hu. congruence.
    + intros [(k' & es & e & Hw & Hsel & He & Hbox & ->)|(k' & es & gid & e & Hw & Hg & Hsel & Hnu & He & Hbox & ->)].
      * destruct (written_item ops2 k' es Hw B2) as (gid & it & Hit & Eit & Hg).
        assert (Hu : bin_used ops2 gid k'.2) by (exists k', es; done).
        pose proof (Hkeys ops2 gid k'.2 H2 Hbk Hu) as Hk.
        exists gid, k'.2, e. split; [done|]. split.
        { rewrite Hlook. destruct (proj2 (R2 _ _ Hk) Hu) as [v ->]. by eexists. }
        split; [|split; [|done]].
        { rewrite Eph in Hsel. cbn [phrase_sel] in Hsel. rewrite <- Hsel. apply (bin_of_range (loaded ops2)); [apply B2|done..]. }
        rewrite (proj2 (bin_usedb_spec _ _ _) Hu). apply elem_bin_entries. exists k', es. done.
      * assert (Hu : bin_used ops1 gid k'.2) by (exists k', es; done).
        pose proof (Hkeys ops1 gid k'.2 H1 Hbk1 Hu) as Hk.
        exists gid, k'.2, e. split; [done|]. split.
        { rewrite Hlook. destruct (d2 !! _) as [v|]; [by eexists|]. by apply X1. }
        split; [rewrite Eph in Hsel; exact Hsel|]. split; [|done].
        destruct (bin_usedb ops2 gid k'.2) eqn:Eu; [by apply bin_usedb_spec in Eu|].
        apply elem_bin_entries. exists k', es. done.
  - rewrite Hlen. set (recs := List.filter _ _) in *.
    rewrite <- (map_length fst recs).
    set (bk := fun ops (kv : (N * N) * list grid_entry) => write_key PrefixBin (default 0 (bin_of (loaded ops) kv.1.1), kv.1.2)).
    assert (Hsub : map fst recs ⊆+ map (bk ops1) (map_to_list (written ops1)) ++ map (bk ops2) (map_to_list (written ops2))).
    { apply NoDup_submseteq; [done|]. intros kb Hin. apply Hkb in Hin as (gid & l & Hk & -> & Hin & _).
      cbn [s open_store st_db] in Hin. rewrite Hlook in Hin. apply elem_of_app.
      assert (Hcase : bin_used ops1 gid l \/ bin_used ops2 gid l).
      { destruct (d2 !! _) as [v2|] eqn:Hv2; [right; apply R2; [done|by eexists]|]. left. destruct Hin as [v Hv]. by apply (R1 gid l v). }
      destruct Hcase as [(k' & es & Hw & Hg & <-)|(k' & es & Hw & Hg & <-)]; [left|right];
        apply elem_of_map; exists (k', es); (split; [unfold bk; cbn [fst]; by rewrite Hg|by apply elem_of_map_to_list]). }
    apply submseteq_length in Hsub. rewrite app_length, !map_length in Hsub. rewrite map_length. exact Hsub.
Qed.
