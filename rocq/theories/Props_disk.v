(** Property C83: the bytes in the directory. *)
From Verif Require Import Prelude Lists F64 Heap Common Morton Format Format_proofs Builder Spatial Store Spec Spec_match
  Spec_disk Spec_rebuild Bits_proofs Record_proofs Builder_proofs Finish_proofs Store_proofs Order_proofs
  Bins_proofs Size_proofs History_proofs Spatial_proofs Cmp_proofs Merge_proofs Match_proofs Query_proofs
  Binquery_proofs Durable_proofs Rebuild_proofs Disk_proofs Examples Props_storage Props_match.
From Coq Require Import Sorting.Sorted.
From Coq Require Import ZifyBool.
Local Open Scope N_scope.

Lemma key_laid_write m k bs : key_ok k -> key_laid (marker_byte m) k bs <-> bs = write_key m k.
Proof.
  intros [Hp Hl]. unfold key_laid. split.
  - intros (phrase & lang & -> & Hb & Hg). apply lang_laid_bytes in Hg as ->; [|done].
    apply little_spec in Hb as [_ Hb]. unfold write_key, be_bytes, gk_phrase, gk_lang. rewrite <- Hb.
    by rewrite rev_involutive.
  - intros ->. exists (be_bytes 4 k.1), (lang_bytes k.2). split; [done|]. split.
    + unfold big, be_bytes. rewrite rev_involutive. by apply le_bytes_little.
    + by apply lang_laid_bytes.
Qed.
Lemma bounds_name_key : bounds_name = bounds_key.
Proof. reflexivity. Qed.

(** ** Entries *)
Lemma alternates_interleave x y z : alternates x y z <-> z = interleave x y.
Proof.
  split.
  - intros H. apply N.bits_inj. intros i. destruct (N.Even_or_Odd i) as [[j ->]|[j ->]].
    + destruct (H j) as [-> _]. symmetry. apply interleave_x_bit.
    + destruct (H j) as [_ ->]. symmetry. apply interleave_y_bit.
  - intros -> i. split; [apply interleave_x_bit|apply interleave_y_bit].
Qed.
Lemma lor_low a b k : b < 2 ^ k -> N.lor (a * 2 ^ k) b = a * 2 ^ k + b.
Proof.
  intros H. rewrite <- N.lxor_lor, N.add_nocarry_lxor; [done| |].
  all: apply N.bits_inj; intros i; rewrite N.land_spec, N.bits_0; destruct (N.lt_ge_cases i k) as [Hi|Hi].
  all: try (by rewrite N.mul_pow2_bits_low).
  all: rewrite <- (N.mod_small b (2 ^ k)) by done; rewrite N.mod_pow2_bits_high by done; apply andb_false_r.
Qed.
Lemma codes_packed e t : entry_ok e -> codes e t <-> t = packed e.
Proof.
  intros (Hs & _ & _ & _ & Hh). destruct t as [[rs z] v]. unfold codes, packed. cbn [fst snd].
  assert (Hrs : pack_rs (ge_relev e) (ge_score e) = 16 * relev_code (ge_relev e) + ge_score e).
  { unfold pack_rs, as_u8. rewrite N.shiftl_mul_pow2.
    change (relev_float_to_int (ge_relev e)) with (relev_code (ge_relev e)).
    assert (relev_code (ge_relev e) <= 3) by (unfold relev_code; repeat case_match; lia).
    rewrite N.mod_small by lia. rewrite lor_low by (change (2 ^ 4) with 16; lia). lia. }
  assert (Hid : pack_id (ge_id e) (ge_hash e) = 256 * (ge_id e mod 2 ^ 24) + ge_hash e).
  { unfold pack_id, as_u32. rewrite N.shiftl_mul_pow2. change (2 ^ 32) with (2 ^ 24 * 2 ^ 8).
    rewrite N.mul_mod_distr_r by done. rewrite lor_low by done. lia. }
  rewrite Hrs, Hid, alternates_interleave. split.
  - by intros (-> & -> & ->).
  - intros H. apply pair_equal_spec in H as [H ->]. by apply pair_equal_spec in H as [-> ->].
Qed.
Lemma unpack_stands t : stands_for t (unpack3 t).
Proof.
  destruct t as [[rs z] v]. unfold stands_for, unpack3. cbn [fst snd ge_relev ge_score ge_x ge_y ge_id ge_hash].
  split; [|split; [|split; [|split]]].
  - rewrite unpack_relev_div. change (2 ^ 4) with 16. unfold relev_int_to_float, relev_of.
    destruct (rs / 16) as [|[[]|[]|]]; done.
  - apply unpack_score_mod.
  - apply alternates_interleave. pose proof (interleave_deinterleave z) as H. by destruct (deinterleave z).
  - apply unpack_id_div.
  - apply unpack_hash_mod.
Qed.

(** ** Values *)
Lemma enc_value_laid be es :
  holds be es -> Forall entry_ok es -> rec_wf (norm be) -> N.of_nat (length (enc be)) < 2 ^ 32 ->
  value_laid es (enc be).
Proof.
  intros Hh Hok Hwf Hlen. exists (norm be). split; [by apply encode_laid|]. split.
  - split; [apply norm_sorted|]. intros g cells Hin. apply elem_norm in Hin as (raw & _ & ->).
    split; [apply norm_cells_sorted|]. intros z ids Hin. apply elem_norm_cells in Hin as (r & _ & ->).
    apply sort_ids_sorted.
  - intros [[rs z] v]. change (listed (norm be)) with (rec_triples (norm be)). rewrite elem_rec_triples, (Hh rs z v).
    rewrite Forall_forall in Hok. split.
    + intros (e & He & E). exists e. split; [done|]. apply codes_packed; [by apply Hok|done].
    + intros (e & He & E). exists e. split; [done|]. apply codes_packed in E; [done|by apply Hok].
Qed.

(** ** C83 *)
(** A finished directory is laid out as described, whatever the history of calls and the
    iteration order of the hash tables. *)
Theorem C83_written : forall o ops s,
  history_ok ops -> loaded ops = [] \/ bins_ok ops -> built o ops s -> directory_laid ops (st_db s).
Proof.
  intros o ops s Hh Hbins (d & z & t & r & bb & ms & Hf & ->). cbn [open_store st_db].
  destruct (Hh) as [Hops _]. pose proof (run_keys_ok ops Hops) as Hok.
  assert (Hbin0 : forall gid l, loaded ops = [] -> ~ bin_used ops gid l).
  { intros gid l E (k & es & _ & Hb & _). rewrite E in Hb. done. }
  assert (Hbk : forall gid l, bin_used ops gid l -> key_ok (gid, l)).
  { intros gid l (k & es & Hw & Hb & <-). destruct (written_all_ok ops Hops k es Hw) as [[_ Hl] _].
    split; [|done]. cbn [fst]. pose proof (run_bounds_ok ops Hops) as H. rewrite run_bounds, Forall_forall in H.
    apply H. unfold bin_of in Hb. apply last_Some_elem_of in Hb. by apply elem_of_filter in Hb as [? _]. }
  constructor.
  - intros k es Hw. destruct (written_all_ok ops Hops k es Hw) as [Hk _].
    pose proof (run_rel ops k) as Hr. rewrite Hw in Hr.
    destruct (b_data (run ops) !! k) as [be|] eqn:Hbe; [|done].
    destruct (history_decode ops k be es Hh Hbe Hw) as (H1 & H2 & _ & H4 & H5 & _).
    exists (write_key SinglePhrase k), (enc be). split; [by apply (key_laid_write SinglePhrase)|].
    split; [|apply enc_value_laid; [done|done| |done]; by eapply holds_wf].
    rewrite (finish_single_lookup o (run ops) ∅ d k Hok Hk Hf), Hbe. done.
  - intros b l Hu. destruct Hbins as [H0|Hbins]; [by destruct (Hbin0 b l H0)|].
    pose proof (Hbk b l Hu) as Hk. apply bin_used_item in Hu as (it & Hit).
    destruct (bin_record_exists o ops d b l it Hh Hbins Hf Hit) as [v Hv].
    destruct (bin_record o ops d b l v Hh Hbins Hf Hk Hv) as (_ & be & -> & H1 & H2 & H3 & H4).
    exists (write_key PrefixBin (b, l)), (enc be). split; [by apply (key_laid_write PrefixBin)|].
    split; [done|]. by apply enc_value_laid.
  - rewrite bounds_name_key. exists (mjoin (map (le_bytes 4) (loaded ops))). split.
    + apply bind_Ok in Hf as (puts & Hp & [= <-]). rewrite <- run_bounds.
      apply apply_puts_unique.
      * apply finish_puts_groups in Hp as (labelled & _ & ->). apply elem_of_app. right. by left.
      * intros v' Hv. apply (finish_elem o _ puts _ Hp) in Hv as [(k' & be & Hd & E)|[H|E]].
        -- apply pair_equal_spec in E as [E _]. symmetry in E. by apply write_key_bounds in E.
        -- destruct H as (gid & g & labelled & _ & _ & Hbp). apply bin_put_key in Hbp as (l & E & _).
           cbn [fst] in E. symmetry in E. by apply write_key_bounds in E.
        -- by apply pair_equal_spec in E as [_ ->].
    + apply map_each. intros x Hx. apply le_bytes_little. pose proof (run_bounds_ok ops Hops) as H.
      rewrite run_bounds, Forall_forall in H. by apply H.
  - intros kb v Hv. pose proof (finish_key_form o (run ops) d kb v Hok Hf Hv) as [(m & k & Hk & ->)| ->]; [|by right; right].
    destruct m.
    + left. rewrite (finish_single_lookup o (run ops) ∅ d k Hok Hk Hf) in Hv.
      destruct (b_data (run ops) !! k) as [be|] eqn:Hbe; [|by rewrite lookup_empty in Hv].
      pose proof (run_rel ops k) as Hr. rewrite Hbe in Hr.
      destruct (written ops !! k) as [es|] eqn:Hw; [|done]. exists k, es. split; [|done].
      by apply (key_laid_write SinglePhrase).
    + right. left. destruct k as [gid l]. exists gid, l.
      destruct Hbins as [H0|Hbins].
      { by rewrite (no_bin_records o ops d gid l Hh H0 Hf Hk) in Hv. }
      destruct (bin_record o ops d gid l v Hh Hbins Hf Hk Hv) as ((it & Hit) & _).
      split; [by apply (key_laid_write PrefixBin)|]. apply bin_used_item. eauto.
Qed.
Print Assumptions C83_written.

(** Conversely, any value that is laid out as described is read back as what it lists, in
    that order, however its parts are arranged and whoever wrote it. *)
Theorem C83_read : forall d zoom type_id radius bboxes max_score k kb v groups,
  k.1 < 2 ^ 32 -> k.2 < 2 ^ 128 -> key_laid 0 k kb -> d !! kb = Some v ->
  record_laid v groups -> N.of_nat (length v) < 2 ^ 32 ->
  exists out, get (open_store d zoom type_id radius bboxes max_score) k = Ok (Some out) /\
    Forall2 stands_for (listed groups) out.
Proof.
  intros d zoom type_id radius bboxes max_score k kb v groups Hk1 Hk2 Hk Hv Hl Hlen.
  apply (key_laid_write SinglePhrase) in Hk as ->; [|done].
  exists (map unpack3 (listed groups)). split.
  - unfold get, open_store. cbn [st_db]. rewrite Hv.
    rewrite (decode_reads v groups) by by apply laid_reads. done.
  - induction (listed groups) as [|t l IH]; cbn [map]; constructor; [apply unpack_stands|done].
Qed.
Print Assumptions C83_read.
(** The three numbers stand for one entry only. *)
Theorem C83_stands_unique : forall t e e',
  stands_for t e -> stands_for t e' -> e = e'.
Proof.
  intros t [r s x y i h] [r' s' x' y' i' h'] (H1 & H2 & H3 & H4 & H5) (H1' & H2' & H3' & H4' & H5').
  cbn [ge_relev ge_score ge_x ge_y ge_id ge_hash] in *. subst.
  assert (x = x' /\ y = y') as [-> ->]; [|done].
  split; apply N.bits_inj; intros j; destruct (H3 j) as [E1 E2], (H3' j) as [E1' E2']; congruence.
Qed.
Print Assumptions C83_stands_unique.
(** The boundaries are read back from any directory that has them under their name. *)
Theorem C83_read_bounds : forall d zoom type_id radius bboxes max_score v bounds,
  d !! bounds_name = Some v -> each (little 4) bounds v ->
  st_bounds (open_store d zoom type_id radius bboxes max_score) = bounds.
Proof.
  intros d zoom type_id radius bboxes max_score v bounds Hv He. rewrite bounds_name_key in Hv.
  unfold open_store. cbn [st_bounds]. rewrite Hv.
  rewrite (each_map (little 4) (le_bytes 4) bounds v); [| |exact He].
  - apply decode_bounds_le. eapply each_all; [|exact He]. intros x p H. by apply little_spec in H as [? _].
  - intros x p _ H. by apply little_spec in H as [_ ?].
Qed.
Print Assumptions C83_read_bounds.
(** A key has one form only, and only one key has it. *)
Theorem C83_keys_unique : forall t t' k k' kb kb',
  k.1 < 2 ^ 32 -> k.2 < 2 ^ 128 -> k'.1 < 2 ^ 32 -> k'.2 < 2 ^ 128 -> t <= 1 -> t' <= 1 ->
  key_laid t k kb -> key_laid t' k' kb' -> kb = kb' <-> t = t' /\ k = k'.
Proof.
  intros t t' k k' kb kb' H1 H2 H3 H4 H5 H6 Hk Hk'.
  assert (Ht : forall n, n <= 1 -> exists m, n = marker_byte m).
  { intros n Hn. assert (n = 0 \/ n = 1) as [-> | ->] by lia; [by exists SinglePhrase|by exists PrefixBin]. }
  destruct (Ht t H5) as [m ->], (Ht t' H6) as [m' ->].
  apply key_laid_write in Hk as ->; [|done]. apply key_laid_write in Hk' as ->; [|done]. split.
  - intros E. destruct (write_key_inj m m' k k') as [-> ->]; done.
  - intros [E ->]. by destruct m, m'.
Qed.
Print Assumptions C83_keys_unique.

(** ** Queries on any directory laid out as described *)
Lemma laid_wf v groups : N.of_nat (length v) < 2 ^ 32 -> record_laid v groups -> rec_wf groups.
Proof. intros Hlen H. by destruct (record_has v groups Hlen H) as (_ & _ & _ & _ & _ & _ & _ & ?). Qed.
Lemma value_matches p mtb v es o lang radius :
  opts_ok p o radius -> N.of_nat (length v) < 2 ^ 32 -> value_laid es v -> Forall entry_ok es ->
  exists out, decode_matching_value p mtb v o lang radius = Ok out /\
    forall m, m ∈ out <-> exists e, e ∈ es /\ box_sel (mo_bbox o) e = true /\ m = query_match o radius lang (snap e).
Proof.
  intros Ho Hlen (groups & Hl & [Hf1 Hf2] & Hel) Hok. rewrite Forall_forall in Hok.
  destruct (record_matches_ok p mtb v o lang radius Ho groups) as (out & Hd & Hp & _).
  - by apply laid_reads.
  - by eapply laid_wf.
  - exact Hf1.
  - intros [g cells] Hin. by destruct (Hf2 g cells Hin).
  - exists out. split; [done|]. intros m. rewrite Hp, elem_of_map. split.
    + intros (e & -> & He). apply elem_of_filter in He as [He Hbox]. apply elem_of_map in He as (t & -> & Ht).
      apply Hel in Ht as (e & He & Hc). apply codes_packed in Hc as ->; [|by apply Hok].
      exists e. split; [done|]. rewrite unpack3_packed in * by by apply Hok. split; [by destruct (mo_bbox o)|done].
    + intros (e & He & Hbox & ->). exists (snap e). split; [done|]. apply elem_of_filter. split; [|by destruct (mo_bbox o)].
      rewrite <- unpack3_packed by by apply Hok. apply elem_of_map. exists (packed e). split; [done|].
      apply Hel. exists e. split; [done|]. apply codes_packed; [by apply Hok|done].
Qed.
Lemma laid_streams p mtb tb s k st en m opts (E : N * N -> list grid_entry) :
  db_form (st_db s) -> fetch_range p s (mk_phrase k) = Ok (st, en, m) -> st < 2 ^ 32 -> opts_ok p opts (st_radius s) ->
  (forall key v, key_ok key -> st_db s !! write_key m key = Some v ->
     value_laid (E key) v /\ Forall entry_ok (E key) /\ N.of_nat (length v) < 2 ^ 32) ->
  let recs := List.filter (range_sel m st en) (db_iter (st_db s)) in
  (forall kb, kb ∈ map fst recs -> exists key, key_ok key /\ kb = write_key m key /\ is_Some (st_db s !! kb)) /\
  NoDup (map fst recs) /\
  exists ess,
    (forall x, x ∈ mjoin ess <-> exists key e, key_ok key /\
       is_Some (st_db s !! write_key m key) /\ (st <=? key.1) && (key.1 <? en) = true /\
       e ∈ E key /\ box_sel (mo_bbox opts) e = true /\
       x = query_match opts (st_radius s) (lang_sel (mk_lang k) key.2) (snap e)) /\
    length ess = length recs /\
    forall max, streaming_get_matching p mtb tb s k opts max =
      (let* q := res_foldl (q_push tb max) hp_empty ess in Ok (drain_queue tb (queue_size q) q)).
Proof.
  intros Hkf Hfetch Hst32 Ho HE recs. set (d := st_db s) in *. set (r := st_radius s) in *.
  assert (Hrec : forall kv, kv ∈ recs <-> exists key, key_ok key /\ kv.1 = write_key m key /\
                   d !! kv.1 = Some kv.2 /\ (st <=? key.1) && (key.1 <? en) = true).
  { intros [kb v]. unfold recs. rewrite elem_of_filter, elem_db_iter. cbn [fst snd]. split.
    - intros [Hd Hs]. unfold range_sel in Hs. cbn [fst] in Hs.
      destruct (Hkf _ _ Hd) as [(m' & key & Hk & ->)| ->]; [|by rewrite matches_key_bounds in Hs].
      rewrite matches_key_write in Hs by apply Hk. destruct (marker_byte m' =? marker_byte m) eqn:Em; [|done].
      assert (m' = m) as -> by (by destruct m', m). exists key. done.
    - intros (key & Hk & -> & Hd & Hs). split; [done|]. unfold range_sel. cbn [fst].
      rewrite matches_key_write by apply Hk. rewrite N.eqb_refl. exact Hs. }
  split; [|split; [apply (NoDup_fmap_fst_filter d)|]].
  { intros kb. rewrite elem_of_map. intros ([kb' v] & -> & Hin). apply Hrec in Hin as (key & Hk & Ek & Hd & Hs).
    cbn [fst snd] in *. exists key. split; [done|]. split; [done|]. by eexists. }
  assert (Hess : exists ess, Forall2 (fun kv es => exists key,
       key_ok key /\ kv.1 = write_key m key /\
       matches_language k kv.1 = Ok (lang_sel (mk_lang k) key.2) /\
       decode_matching_value p mtb kv.2 opts (lang_sel (mk_lang k) key.2) r = Ok es /\
       forall x, x ∈ es <-> exists e, e ∈ E key /\ box_sel (mo_bbox opts) e = true /\
         x = query_match opts r (lang_sel (mk_lang k) key.2) (snap e)) recs ess).
  { assert (Hall : forall kv, kv ∈ recs -> exists key, key_ok key /\ kv.1 = write_key m key /\
                   d !! kv.1 = Some kv.2) by (intros kv Hkv; apply Hrec in Hkv as (? & ? & ? & ? & _); eauto).
    clearbody recs. clear Hrec. induction recs as [|kv recs IH]; [by exists []; constructor|].
    destruct IH as [ess IH]; [intros; apply Hall; by right|].
    destruct (Hall kv ltac:(left)) as (key & Hk & Ek & Hd). rewrite Ek in Hd.
    destruct (HE key _ Hk Hd) as (Hl & Hok & Hlen).
    destruct (value_matches p mtb kv.2 (E key) opts (lang_sel (mk_lang k) key.2) r Ho Hlen Hl Hok) as (out & Hdec & Hel).
    exists (out :: ess). constructor; [|done]. exists key.
    split; [done|]. split; [done|]. split; [rewrite Ek; by apply matches_language_write|]. done. }
  destruct Hess as [ess Hess]. exists ess. split; [|split].
  - intros x. rewrite elem_of_mjoin. split.
    + intros (es & Hm & Hes). apply elem_of_list_lookup in Hes as [i Hi].
      destruct (Forall2_lookup_r _ _ _ _ _ Hess Hi) as (kv & Hkv & key & Hk & Ek & _ & _ & Hel).
      apply elem_of_list_lookup_2, Hrec in Hkv as (key' & Hk' & Ek' & Hd & Hsel).
      rewrite Ek in Ek'. destruct (write_key_inj _ _ _ _ Hk Hk' Ek') as [_ <-].
      apply Hel in Hm as (e & He & Hbox & ->).
      exists key, e. split; [done|]. split; [rewrite Ek in Hd; by eexists|]. done.
    + intros (key & e & Hkk & [v Hv] & Hsel & He & Hbox & ->).
      assert (Hin : (write_key m key, v) ∈ recs) by (apply Hrec; exists key; done).
      apply elem_of_list_lookup in Hin as [i Hi].
      destruct (Forall2_lookup_l _ _ _ _ _ Hess Hi) as (out & Hout & key' & Hk & Ek & _ & _ & Hel).
      cbn [fst snd] in Ek. destruct (write_key_inj _ _ _ _ Hkk Hk Ek) as [_ <-].
      exists out. split; [|by eapply elem_of_list_lookup_2]. apply Hel. by exists e.
  - symmetry. exact (Forall2_length _ _ _ Hess).
  - intros max. unfold streaming_get_matching. rewrite Hfetch. cbn [res_bind].
    fold d. rewrite range_records by done. cbn [res_bind]. fold recs.
    rewrite (queue_fold p mtb tb s k opts max _ ess); [done|].
    eapply Forall2_impl; [exact Hess|]. cbv beta. intros kv es (key & _ & _ & H1 & H2 & _). eauto.
Qed.

(** A query on any directory that is laid out as described finds what was to be found
    (compare C11): it does not matter that this builder wrote it. *)
Theorem C83_query : forall p mtb tb ops d zoom type_id radius bboxes max_score k opts max,
  history_ok ops -> directory_laid ops d ->
  (forall kb v, d !! kb = Some v -> N.of_nat (length v) < 2 ^ 32) ->
  opts_ok p opts radius -> query_ok ops (mk_phrase k) ->
  1 <= max -> N.of_nat (size (written ops)) <= max ->
  exists out,
    streaming_get_matching p mtb tb (open_store d zoom type_id radius bboxes max_score) k opts max = Ok out /\
    forall m, m ∈ out <-> should_match ops k opts radius m.
Proof.
  intros p mtb tb ops d zoom type_id radius bboxes max_score k opts max Hh Hd Hsz Ho Hq Hmax Hmax'.
  destruct (Hh) as [Hops _]. set (s := open_store d zoom type_id radius bboxes max_score).
  assert (Hwk : forall k es, written ops !! k = Some es -> key_ok k /\ Forall entry_ok es).
  { intros k' es Hw. exact (written_all_ok ops Hops k' es Hw). }
  assert (Hbk : forall gid l, bin_used ops gid l -> key_ok (gid, l)).
  { intros gid l (k' & es & Hw & Hb & <-). destruct (Hwk k' es Hw) as [[_ Hl] _].
    split; [|done]. cbn [fst]. pose proof (run_bounds_ok ops Hops) as H. rewrite run_bounds, Forall_forall in H.
    apply H. unfold bin_of in Hb. apply last_Some_elem_of in Hb. by apply elem_of_filter in Hb as [? _]. }
  assert (Hform : db_form d).
  { intros kb v Hv. destruct (dl_only _ _ Hd kb v Hv) as [(k' & es & Hk & Hw)|[(b & l & Hk & Hu)| ->]]; [| |by right].
    - left. exists SinglePhrase, k'. destruct (Hwk k' es Hw) as [H _]. split; [done|]. by apply (key_laid_write SinglePhrase).
    - left. exists PrefixBin, (b, l). split; [by apply Hbk|]. apply (key_laid_write PrefixBin); [by apply Hbk|done]. }
  assert (Hbounds : st_bounds s = loaded ops).
  { destruct (dl_bounds _ _ Hd) as (v & Hv & He). unfold s. by apply (C83_read_bounds d zoom type_id radius bboxes max_score v). }
  assert (Hsingle : forall key v, key_ok key -> d !! write_key SinglePhrase key = Some v ->
            exists es, written ops !! key = Some es /\ value_laid es v).
  { intros key v Hk Hv. assert (Hex : exists es, written ops !! key = Some es).
    { destruct (dl_only _ _ Hd _ v Hv) as [(k' & es & Hk' & Hw)|[(b & l & Hk' & Hu)|E]].
      - apply (key_laid_write SinglePhrase) in Hk'; [|by destruct (Hwk k' es Hw)].
        destruct (write_key_inj _ _ _ _ Hk (proj1 (Hwk k' es Hw)) Hk') as [_ ->]. eauto.
      - apply (key_laid_write PrefixBin) in Hk'; [|by apply Hbk]. by destruct (write_key_inj _ _ _ _ Hk (Hbk _ _ Hu) Hk').
      - rewrite bounds_name_key in E. by apply write_key_bounds in E. }
    destruct Hex as [es Hw]. exists es. split; [done|].
    destruct (dl_phrase _ _ Hd key es Hw) as (kb & v' & Hkb & Hv' & Hl).
    apply (key_laid_write SinglePhrase) in Hkb as ->; [|done]. by assert (v' = v) as <- by congruence. }
  assert (Hbin : forall key v, key_ok key -> d !! write_key PrefixBin key = Some v ->
            bin_used ops key.1 key.2 /\ value_laid (bin_entries ops key.1 key.2) v).
  { intros [b l] v Hk Hv. assert (Hu : bin_used ops b l).
    { destruct (dl_only _ _ Hd _ v Hv) as [(k' & es & Hk' & Hw)|[(b' & l' & Hk' & Hu)|E]].
      - apply (key_laid_write SinglePhrase) in Hk'; [|by destruct (Hwk k' es Hw)].
        by destruct (write_key_inj _ _ _ _ Hk (proj1 (Hwk k' es Hw)) Hk').
      - apply (key_laid_write PrefixBin) in Hk'; [|by apply Hbk].
        destruct (write_key_inj _ _ _ _ Hk (Hbk _ _ Hu) Hk') as [_ E]. by injection E as -> ->.
      - rewrite bounds_name_key in E. by apply write_key_bounds in E. }
    split; [done|]. destruct (dl_bin _ _ Hd b l Hu) as (kb & v' & Hkb & Hv' & Hl).
    apply (key_laid_write PrefixBin) in Hkb as ->; [|done]. by assert (v' = v) as <- by congruence. }
  assert (Hcase : plain_query s (mk_phrase k) \/ bin_query ops (mk_phrase k)).
  { destruct (bin_query_dec ops (mk_phrase k)) as [H|H]; [by right|left].
    destruct (mk_phrase k) as [id|a b]; cbn in *; [done|]. split; [apply Hq|]. fold s. by rewrite Hbounds. }
  destruct Hcase as [Hpl|Hbq].
  - destruct (fetch_plain p s (mk_phrase k) Hpl) as (st & en & Hfetch & Hst & Hsel).
    destruct (laid_streams p mtb tb s k st en SinglePhrase opts (fun key => default [] (written ops !! key)))
      as (Hkeys & Hnd & ess & Hel & Hlen & Hrun); [done|done|done|done| |].
    { intros key v Hk Hv. destruct (Hsingle key v Hk Hv) as (es & Hw & Hl). rewrite Hw.
      split; [done|]. split; [by apply (Hwk key es)|]. by eapply Hsz. }
    cbv beta zeta in *. set (recs := List.filter _ _) in *.
    assert (Hle : (length recs <= size (written ops))%nat).
    { assert (Hsub : map fst recs ⊆+ map (fun kv : (N * N) * list grid_entry => write_key SinglePhrase kv.1) (map_to_list (written ops))).
      { apply NoDup_submseteq; [done|]. intros kb Hkb. apply Hkeys in Hkb as (key & Hk & -> & [v Hv]).
        destruct (Hsingle key v Hk Hv) as (es & Hw & _). apply elem_of_map. exists (key, es). split; [done|].
        by apply elem_of_map_to_list. }
      apply submseteq_length in Hsub. by rewrite !map_length in Hsub. }
    destruct (q_run_all tb max ess) as (q & Hq' & Hp & _); [|done|].
    { rewrite Hlen. lia. }
    exists (drain_queue tb (queue_size q) q). rewrite Hrun, Hq'. split; [done|]. intros m. rewrite Hp, Hel. split.
    + intros (key & e & Hk & [v Hv] & Hs & He & Hbox & ->). destruct (Hsingle key v Hk Hv) as (es & Hw & _).
      rewrite Hw in He. exists key, es, e. rewrite <- Hsel. done.
    + intros (key & es & e & Hw & Hs & He & Hbox & ->). exists key, e. destruct (Hwk key es Hw) as [Hk _].
      split; [done|]. split; [|by rewrite Hsel, Hw].
      destruct (dl_phrase _ _ Hd key es Hw) as (kb & v & Hkb & Hv & _).
      apply (key_laid_write SinglePhrase) in Hkb as ->; [|done]. exists v. exact Hv.
  - destruct (mk_phrase k) as [|st en] eqn:Eph; [done|]. cbn [bin_query query_ok] in *. destruct Hbq as [Hst Hen].
    destruct Hq as [Hst32 Hbins]. specialize (Hbins Hst Hen).
    destruct (laid_streams p mtb tb s k st en PrefixBin opts (fun key => bin_entries ops key.1 key.2))
      as (Hkeys & Hnd & ess & Hel & Hlen & Hrun); [done| |done|done| |].
    { rewrite Eph. unfold fetch_range. rewrite Hbounds.
      by rewrite (proj2 (existsb_elem st _) Hst), (proj2 (existsb_elem en _) Hen). }
    { intros key v Hk Hv. destruct (Hbin key v Hk Hv) as [Hu Hl]. split; [done|]. split; [|by eapply Hsz].
      apply Forall_forall. intros e He. apply elem_bin_entries in He as (k' & es & Hw & _ & _ & He).
      destruct (Hwk k' es Hw) as [_ H]. rewrite Forall_forall in H. by apply H. }
    cbv beta zeta in *. set (recs := List.filter _ _) in *.
    assert (Hle : (length recs <= size (written ops))%nat).
    { assert (Hsub : map fst recs ⊆+ map (fun kv : (N * N) * list grid_entry =>
          write_key PrefixBin (default 0 (bin_of (loaded ops) kv.1.1), kv.1.2)) (map_to_list (written ops))).
      { apply NoDup_submseteq; [done|]. intros kb Hkb. apply Hkeys in Hkb as ([b l] & Hk & -> & [v Hv]).
        destruct (Hbin _ v Hk Hv) as [(k' & es & Hw & Hb & El) _]. cbn [fst snd] in *.
        apply elem_of_map. exists (k', es). cbn [fst]. split; [|by apply elem_of_map_to_list]. by rewrite Hb, El. }
      apply submseteq_length in Hsub. by rewrite !map_length in Hsub. }
    destruct (q_run_all tb max ess) as (q & Hq' & Hp & _); [|done|].
    { rewrite Hlen. lia. }
    exists (drain_queue tb (queue_size q) q). rewrite Hrun, Hq'. split; [done|]. intros m. rewrite Hp, Hel.
    unfold should_match. rewrite Eph. split.
    + intros ([b l] & e & Hk & _ & Hs & He & Hbox & ->). cbn [fst snd] in *.
      apply elem_bin_entries in He as (k' & es & Hw & Hb & El & He). exists k', es, e. split; [done|].
      split; [|by rewrite El]. cbn [phrase_sel]. rewrite <- (bin_of_range (loaded ops) st en k'.1 b); [done|apply Hbins|done..].
    + intros (k' & es & e & Hw & Hs & He & Hbox & ->).
      destruct (written_item ops k' es Hw Hbins) as (gid & it & _ & _ & Hg).
      assert (Hu : bin_used ops gid k'.2) by (by exists k', es).
      exists (gid, k'.2), e. cbn [fst snd]. split; [by apply Hbk|]. split; [|split; [|split; [|done]]].
      * destruct (dl_bin _ _ Hd gid k'.2 Hu) as (kb & v & Hkb & Hv & _).
        apply (key_laid_write PrefixBin) in Hkb as ->; [|by apply Hbk]. exists v. exact Hv.
      * rewrite (bin_of_range (loaded ops) st en k'.1 gid); [done|apply Hbins|done..].
      * apply elem_bin_entries. exists k', es. done.
Qed.
Print Assumptions C83_query.

(** The example directory meets the hypotheses of [C83_written]; one of its records, byte by
    byte. *)
Example C83_ex_written :
  history_ok ex_ops /\ bins_ok ex_ops /\ built id_oracle ex_ops (ex_store ex_ops) /\
  directory_laid ex_ops (st_db (ex_store ex_ops)) /\
  st_db (ex_store ex_ops) !! [0; 0; 0; 0; 2] =
    Some [1; 2; 11; 0; 0; 1; 5; 45; 0; 0; 0; 0; 1; 15; 5; 12; 0; 0; 0].
Proof.
  split; [exact ex_ops_ok|]. split; [exact ex_bins_ok|]. split; [exact ex_built|]. split; [|vm_compute; reflexivity].
  apply (C83_written id_oracle); [exact ex_ops_ok|right; exact ex_bins_ok|exact ex_built].
Qed.
(** A record that this builder never writes: a byte that belongs to nothing, then the list
    of groups, the cells and the ids. It lists one entry. *)
Definition odd_record : list N := [99; 1; 63; 4; 1; 5; 39; 0; 0; 0; 11; 1; 2; 11; 0; 0; 1; 0; 0; 0].
Lemma odd_laid : record_laid odd_record [(63, [(39, [2818])])].
Proof.
  exists [99; 1; 63; 4; 1; 5; 39; 0; 0; 0; 11; 1; 2; 11; 0; 0], [1; 0; 0; 0], 1, [(63, 4)], [1], [63; 4].
  split; [done|]. split; [by apply (le_bytes_little 4 1)|].
  split; [by exists [99], [1; 5; 39; 0; 0; 0; 11; 1; 2; 11; 0; 0; 1; 0; 0; 0]|].
  split; [by constructor|]. split.
  { exists [[63; 4]]. split; [|done]. constructor; [|constructor]. exists [4]. split; [done|]. split; [done|]. by constructor. }
  constructor; [|constructor]. split; [done|].
  exists [(39, 11)], [1], 5, [39; 0; 0; 0; 11].
  split; [by exists [99; 1; 63; 4], [1; 2; 11; 0; 0; 1; 0; 0; 0]|]. split; [by constructor|]. split.
  { right. split; [done|]. split; [done|]. split; [|by left]. intros za ->%elem_of_list_singleton. done. }
  split.
  { exists [[39; 0; 0; 0; 11]]. split; [|done]. constructor; [|constructor]. exists [39; 0; 0; 0], [11]. split; [done|].
    split; [by apply (le_bytes_little 4 39)|by apply (le_bytes_little 1 11)]. }
  constructor; [|constructor]. split; [done|]. exists [1], [2; 11; 0; 0].
  split; [by exists [99; 1; 63; 4; 1; 5; 39; 0; 0; 0; 11], [1; 0; 0; 0]|]. split; [by constructor|].
  exists [[2; 11; 0; 0]]. split; [|done]. constructor; [|constructor]. by apply (le_bytes_little 4 2818).
Qed.
Example C83_ex_read :
  exists d kb, key_laid 0 (7, 256) kb /\ kb = [0; 0; 0; 0; 7; 1; 0] /\ d !! kb = Some odd_record /\
  get (open_default d) (7, 256) = Ok (Some [GridEntry f_one 15 3 5 11 2]).
Proof.
  exists {[ [0; 0; 0; 0; 7; 1; 0] := odd_record ]}, [0; 0; 0; 0; 7; 1; 0].
  split; [|split; [done|split; [by rewrite lookup_singleton|vm_compute; reflexivity]]].
  by apply (key_laid_write SinglePhrase (7, 256)).
Qed.
(** An entry and its three numbers. *)
Example C83_ex_codes :
  codes ex_e1 (55, 39, 2818) /\ stands_for (55, 39, 2818) ex_e1.
Proof.
  assert (H : packed ex_e1 = (55, 39, 2818)) by (vm_compute; reflexivity).
  assert (Hok : entry_ok ex_e1) by (unfold entry_ok, ex_e1; cbn; lia).
  split; [by apply codes_packed|]. rewrite <- H.
  assert (E : unpack3 (packed ex_e1) = ex_e1) by (vm_compute; reflexivity). rewrite <- E at 2. apply unpack_stands.
Qed.
(** A query on the example directory through the layout alone. *)
Example C83_ex_query :
  directory_laid ex_ops (st_db (ex_store ex_ops)) /\
  (forall kb v, st_db (ex_store ex_ops) !! kb = Some v -> N.of_nat (length v) < 2 ^ 32) /\
  opts_ok Debug ex_near_opts (st_radius (ex_store ex_ops)) /\ query_ok ex_ops (mk_phrase ex_bin_key) /\
  N.of_nat (size (written ex_ops)) <= 10.
Proof.
  split; [apply C83_ex_written|]. split.
  { assert (H : map_fold (fun _ (v : list N) b => (N.of_nat (length v) <? 2 ^ 32) && b) true (st_db (ex_store ex_ops)) = true)
      by (vm_compute; reflexivity).
    revert H. generalize (st_db (ex_store ex_ops)) as d. intros d. revert d.
    apply (map_fold_ind (fun b (d : gmap (list N) (list N)) => b = true -> forall kb v, d !! kb = Some v -> N.of_nat (length v) < 2 ^ 32)).
    - intros _ kb v Hv. by rewrite lookup_empty in Hv.
    - intros i x m r Hi IH Hb kb v Hv. apply andb_prop in Hb as [Hx Hr].
      apply lookup_insert_Some in Hv as [[_ <-]|[_ Hv]]; [lia|]. by eapply IH. }
  split; [exact ex_near_opts_ok|]. split; [|vm_compute; done].
  split; [lia|]. intros _ _. exact ex_bins_ok.
Qed.
