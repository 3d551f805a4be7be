(** Reading a finished store: [get], [keys], [iter]. *)
From Verif Require Import Prelude Lists F64 Common Morton Format Format_proofs Builder Store
  Record_proofs Spec Bits_proofs Builder_proofs Finish_proofs.
Local Open Scope N_scope.

(** ** Decoding a record *)
Definition unpack3 (t : N * N * N) : grid_entry :=
  let '(rs, z, v) := t in
  GridEntry (unpack_relev rs) (unpack_score rs) (deinterleave z).1 (deinterleave z).2
            (unpack_id v) (unpack_hash v).

Lemma res_mapM_Forall2 {A B C} (f : A -> res C) (g : B -> C) (P : A -> B -> Prop) l l' :
  Forall2 P l l' -> (forall a b, P a b -> f a = Ok (g b)) -> res_mapM f l = Ok (map g l').
Proof.
  intros H Hf. apply res_mapM_Ok. induction H as [|a b l l' Hab H IH]; simpl; constructor; eauto.
Qed.

Lemma map_mjoin {A B} (f : A -> B) (ls : list (list A)) :
  map f (mjoin ls) = mjoin (map (map f) ls).
Proof. induction ls as [|l ls IH]; simpl; [done|]. by rewrite map_app, IH. Qed.

Lemma decode_reads data n :
  reads data n -> decode_value data = Ok (map unpack3 (rec_triples n)).
Proof.
  intros (root & rss & Hr & Hv & Hg). unfold decode_value. rewrite Hr. cbn [res_bind].
  rewrite Hv. cbn [res_bind]. unfold rec_triples. rewrite map_mjoin, map_map.
  erewrite res_mapM_Forall2; [reflexivity|exact Hg|].
  intros rs [r cells] (Hrs & coords & Hc & Hcells). simpl in *. rewrite Hc. cbn [res_bind].
  rewrite map_mjoin, map_map.
  erewrite res_mapM_Forall2; [reflexivity|exact Hcells|].
  intros c [z ids] [Hz Hids]. simpl in *. rewrite Hids. cbn [res_bind].
  rewrite map_map, Hz, Hrs. done.
Qed.

(** ** Ranges *)
Lemma holds_wf be es : be_semi be -> holds be es -> Forall entry_ok es -> rec_wf (norm be).
Proof.
  intros Hs Hh Hes. unfold rec_wf. apply Forall_forall. intros [rs cs] Hin.
  apply elem_norm in Hin as (cells & Hc & ->). destruct (Hs _ _ Hc) as [Hf Hr]. split; [done|].
  apply Forall_forall. intros [z ids] (raw & Hz & ->)%elem_norm_cells. simpl.
  assert (Hrange : forall v, v ∈ raw -> z < 2 ^ 32 /\ v < 2 ^ 32).
  { intros v Hv. destruct (proj1 (Hh rs z v)) as (e & He & E); [by exists cells, raw|].
    unfold packed in E. apply pair_equal_spec in E as [E <-]. apply pair_equal_spec in E as [<- <-].
    rewrite Forall_forall in Hes. destruct (Hes _ He) as (_ & Hx & Hy & _ & Hh8). split.
    - by apply (interleave_lt _ _ 16).
    - by apply pack_id_lt. }
  pose proof (Hf _ _ Hz) as Hne. destruct raw as [|v raw]; [done|]. split.
  - by apply (Hrange v); left.
  - apply Forall_forall. intros w Hw. rewrite sort_ids_elem in Hw. by apply Hrange.
Qed.

Lemma unpack3_packed e : entry_ok e -> unpack3 (packed e) = snap e.
Proof.
  intros (Hs & Hx & Hy & _ & Hh). unfold packed, unpack3, snap.
  rewrite deinterleave_interleave, unpack_relev_pack, unpack_score_pack, unpack_id_pack,
    unpack_hash_pack by done. done.
Qed.

(** ** Order *)
Lemma relev_level_order a b :
  a <= 3 -> b <= 3 -> b < a -> gt_f (relev_int_to_float a) (relev_int_to_float b).
Proof.
  intros Ha Hb Hlt. unfold gt_f.
  assert (HA : a = 0 \/ a = 1 \/ a = 2 \/ a = 3) by lia.
  assert (HB : b = 0 \/ b = 1 \/ b = 2 \/ b = 3) by lia.
  destruct HA as [->|[->|[->| ->]]], HB as [->|[->|[->| ->]]]; try lia; vm_compute; done.
Qed.
Lemma lex_div_mod a b k (ltA := gt_N) :
  b < a -> lex2 gt_N gt_N (a / 2 ^ k, a mod 2 ^ k) (b / 2 ^ k, b mod 2 ^ k).
Proof.
  intros H. unfold lex2, gt_N. cbn [fst snd].
  assert (Hk : 2 ^ k <> 0) by (apply N.pow_nonzero; lia).
  pose proof (N.div_mod a (2 ^ k) Hk). pose proof (N.div_mod b (2 ^ k) Hk).
  pose proof (N.div_le_mono b a (2 ^ k) Hk ltac:(lia)).
  destruct (N.eq_dec (a / 2 ^ k) (b / 2 ^ k)) as [E|E]; [right|left; lia].
  split; [done|]. rewrite E in *. lia.
Qed.
Lemma unpack_score_mod v : unpack_score v = v mod 2 ^ 4.
Proof. unfold unpack_score. change 15 with (N.ones 4). apply N.land_ones. Qed.
Lemma unpack_hash_mod v : unpack_hash v = v mod 2 ^ 8.
Proof. unfold unpack_hash. change 255 with (N.ones 8). apply N.land_ones. Qed.
Lemma unpack_relev_div v : unpack_relev v = relev_int_to_float (v / 2 ^ 4).
Proof. unfold unpack_relev. by rewrite N.shiftr_div_pow2. Qed.
Lemma unpack_id_div v : unpack_id v = v / 2 ^ 8.
Proof. unfold unpack_id. by rewrite N.shiftr_div_pow2. Qed.

Lemma triple_before_entry a b :
  a.1.1 < 64 -> b.1.1 < 64 -> triple_before a b -> entry_before (unpack3 a) (unpack3 b).
Proof.
  destruct a as [[r z] v], b as [[r' z'] v']. cbn [fst snd]. intros Hr Hr' H.
  unfold entry_before, unpack3. cbn [ge_relev ge_score ge_x ge_y ge_id ge_hash].
  pose proof (interleave_deinterleave z) as Ez. pose proof (interleave_deinterleave z') as Ez'.
  destruct (deinterleave z) as [x y], (deinterleave z') as [x' y']. cbn [fst snd].
  rewrite Ez, Ez'. rewrite !unpack_relev_div, !unpack_score_mod, !unpack_id_div, !unpack_hash_mod.
  destruct H as [[H|[E H]]|[E H]]; cbn [fst snd] in *.
  - apply (lex_div_mod _ _ 4) in H as [H|[E H]]; cbn [fst snd] in *.
    + left. cbn [fst snd]. apply relev_level_order; [..|exact H].
      all: apply N.lt_succ_r; apply N.div_lt_upper_bound; [done|]; change (2 ^ 4 * N.succ 3) with 64; lia.
    + right. split; [cbn [fst]; by rewrite E|]. left. exact H.
  - subst r'. right. split; [done|]. right. split; [done|]. left. exact H.
  - apply pair_equal_spec in E as [-> ->]. right. split; [done|]. right. split; [done|]. right.
    split; [done|]. apply (lex_div_mod _ _ 8) in H. exact H.
Qed.
Lemma fltb_irrefl a : fltb a a = false.
Proof.
  unfold fltb. destruct a as [s|s| |s m e]; try destruct s; try done;
  unfold SFltb, SFcompare; rewrite Z.compare_refl, Pos.compare_refl; done.
Qed.
Lemma entry_before_irrefl a : ~ entry_before a a.
Proof.
  unfold entry_before, lex2, gt_N, gt_f. cbn [fst snd]. rewrite fltb_irrefl.
  intros [H|[_ [H|[_ [H|[_ [H|[_ H]]]]]]]]; [done|lia..].
Qed.

(** ** The record of a key *)
Definition record_of (be : gmap N (gmap N (list N))) : list grid_entry :=
  map unpack3 (rec_triples (norm be)).

Lemma decode_enc be :
  rec_wf (norm be) -> N.of_nat (length (enc be)) < 2 ^ 32 ->
  decode_value (enc be) = Ok (record_of be).
Proof. intros Hwf Hl. apply decode_reads. by apply encode_record_reads. Qed.

Lemma record_elem be es e :
  holds be es -> Forall entry_ok es -> e ∈ record_of be <-> e ∈ map snap es.
Proof.
  intros Hh Hes. unfold record_of. rewrite !elem_of_map. rewrite Forall_forall in Hes. split.
  - intros ([[rs z] v] & -> & H%elem_rec_triples). apply Hh in H as (e & He & <-).
    exists e. split; [|done]. by apply unpack3_packed, Hes.
  - intros (e0 & -> & He). exists (packed e0). split; [by rewrite unpack3_packed by eauto|].
    destruct (packed e0) as [[rs z] v] eqn:E. apply elem_rec_triples, Hh. eauto.
Qed.
Lemma packed_rs_lt e : entry_ok e -> (packed e).1.1 < 64.
Proof.
  intros (H & _). simpl. rewrite pack_rs_add by done. pose proof (relev_int_lt (ge_relev e)).
  change (2 ^ 4) with 16. lia.
Qed.
Lemma record_sorted be es :
  holds be es -> Forall entry_ok es -> StronglySorted entry_before (record_of be).
Proof.
  intros Hh Hes. apply StronglySorted_map. eapply StronglySorted_impl; [|apply rec_triples_sorted].
  assert (Hlt : forall t, t ∈ rec_triples (norm be) -> t.1.1 < 64).
  { intros [[rs z] v] H%elem_rec_triples. apply Hh in H as (e & He & E). rewrite <- E.
    rewrite Forall_forall in Hes. by apply packed_rs_lt, Hes. }
  intros a b Ha Hb. apply triple_before_entry; auto.
Qed.
Lemma record_NoDup be es : holds be es -> Forall entry_ok es -> NoDup (record_of be).
Proof.
  intros Hh Hes. eapply StronglySorted_NoDup; [apply entry_before_irrefl|]. by eapply record_sorted.
Qed.

(** ** get *)
(** No stored value reaches 4 GiB: record offsets are 32-bit. *)
Definition small_values (d : gmap (list N) (list N)) : Prop :=
  forall k v, d !! k = Some v -> N.of_nat (length v) < 2 ^ 32.

Definition no_single (d : gmap (list N) (list N)) : Prop :=
  forall k, key_ok k -> d !! write_key SinglePhrase k = None.

Lemma get_run o ops d s k :
  Forall op_ok ops -> key_ok k -> finish o (run ops) ∅ = Ok d -> small_values d -> st_db s = d ->
  match written ops !! k with
  | None => get s k = Ok None
  | Some es => exists be, b_data (run ops) !! k = Some be /\ holds be es /\ Forall entry_ok es /\
                 get s k = Ok (Some (record_of be))
  end.
Proof.
  intros Hops Hk Hf Hsmall Hs. pose proof (run_keys_ok ops Hops) as Hok.
  pose proof (finish_single_lookup o (run ops) ∅ d k Hok Hk Hf) as Hl.
  pose proof (run_rel ops k) as Hr. unfold get. rewrite Hs, Hl.
  destruct (b_data (run ops) !! k) as [be|] eqn:E; destruct (written ops !! k) as [es|] eqn:Ew; try done.
  destruct (written_all_ok ops Hops k es Ew) as [_ Hes].
  exists be. split; [done|]. split; [done|]. split; [done|].
  rewrite decode_enc; [done| |by eapply Hsmall].
  eapply holds_wf; [|done..]. by eapply run_semi.
Qed.

(** ** Byte order *)
Lemma bytes_cmp_refl a : bytes_cmp a a = Eq.
Proof. induction a as [|x a IH]; simpl; [done|]. by rewrite N.compare_refl. Qed.
Lemma bytes_cmp_eq a : forall b, bytes_cmp a b = Eq -> a = b.
Proof.
  induction a as [|x a IH]; intros [|y b]; simpl; try done.
  unfold cmp_then. destruct (N.compare x y) eqn:E; try done.
  apply N.compare_eq in E as ->. intros H. f_equal. auto.
Qed.
Lemma bytes_cmp_anti a : forall b, bytes_cmp b a = CompOpp (bytes_cmp a b).
Proof.
  induction a as [|x a IH]; intros [|y b]; simpl; try done.
  rewrite (N.compare_antisym x y), IH. by destruct (N.compare x y).
Qed.
Lemma bytes_cmp_trans a : forall b c,
  bytes_cmp a b <> Gt -> bytes_cmp b c <> Gt -> bytes_cmp a c <> Gt.
Proof.
  induction a as [|x a IH]; intros [|y b] [|z c]; simpl; try done.
  unfold cmp_then.
  destruct (N.compare_spec x y), (N.compare_spec y z), (N.compare_spec x z); subst; try done; try lia.
  apply IH.
Qed.
Lemma bytes_leb_cmp a b : bytes_leb a b = true <-> bytes_cmp a b <> Gt.
Proof. unfold bytes_leb. destruct (bytes_cmp a b); split; done. Qed.
Lemma bytes_leb_total a b : bytes_leb a b = true \/ bytes_leb b a = true.
Proof. unfold bytes_leb. rewrite (bytes_cmp_anti a b). destruct (bytes_cmp a b); auto. Qed.
Lemma bytes_leb_trans a b c : bytes_leb a b = true -> bytes_leb b c = true -> bytes_leb a c = true.
Proof. rewrite !bytes_leb_cmp. apply bytes_cmp_trans. Qed.
Lemma bytes_leb_anti a b : bytes_leb a b = true -> bytes_leb b a = true -> a = b.
Proof.
  unfold bytes_leb. rewrite (bytes_cmp_anti a b). destruct (bytes_cmp a b) eqn:E; try done.
  intros. by apply bytes_cmp_eq.
Qed.

Lemma bytes_cmp_app a a' b b' :
  length a = length a' -> bytes_cmp (a ++ b) (a' ++ b') = (bytes_cmp a a' <;> bytes_cmp b b').
Proof.
  revert a'. induction a as [|x a IH]; intros [|x' a'] H; simpl in *; try done; try lia.
  rewrite IH by lia. by destruct (N.compare x x').
Qed.
Lemma bytes_cmp_be a : forall b,
  length a = length b -> Forall (fun x => x < 256) a -> Forall (fun x => x < 256) b ->
  bytes_cmp a b = N.compare (be_value a) (be_value b).
Proof.
  induction a as [|x a IH]; intros [|y b] Hl Ha Hb; simpl in Hl; try done; try lia.
  inversion Ha; inversion Hb; subst. cbn [bytes_cmp]. rewrite IH by (done || lia).
  change (x :: a) with ([x] ++ a). change (y :: b) with ([y] ++ b). rewrite !be_value_app.
  assert (Hv : forall s, Forall (fun x => x < 256) s -> be_value s < 256 ^ N.of_nat (length s)).
  { intros s Hs. unfold be_value. rewrite <- (rev_length s). apply le_value_lt, List.Forall_rev, Hs. }
  pose proof (Hv a ltac:(done)) as Va. pose proof (Hv b ltac:(done)) as Vb.
  replace (length b) with (length a) in * by lia. change (be_value [x]) with (x + 256 * 0).
  change (be_value [y]) with (y + 256 * 0). rewrite !N.mul_0_r, !N.add_0_r.
  set (p := 256 ^ N.of_nat (length a)) in *. unfold cmp_then.
  destruct (N.compare_spec x y); symmetry.
  - subst. destruct (N.compare_spec (be_value a) (be_value b)).
    + apply N.compare_eq_iff. lia.
    + apply N.compare_lt_iff. lia.
    + apply N.compare_gt_iff. lia.
  - apply N.compare_lt_iff. assert (x * p + p <= y * p) by nia. lia.
  - apply N.compare_gt_iff. assert (y * p + p <= x * p) by nia. lia.
Qed.
Lemma write_key_cmp m m' k k' :
  gk_phrase k < 2 ^ 32 -> gk_phrase k' < 2 ^ 32 ->
  bytes_cmp (write_key m k) (write_key m' k') =
  (N.compare (marker_byte m) (marker_byte m') <;>
   N.compare (gk_phrase k) (gk_phrase k') <;>
   bytes_cmp (lang_bytes (gk_lang k)) (lang_bytes (gk_lang k'))).
Proof.
  intros H H'. unfold write_key. cbn [bytes_cmp]. f_equal.
  rewrite bytes_cmp_app by by rewrite !be_bytes_length. f_equal.
  rewrite bytes_cmp_be; [|by rewrite !be_bytes_length|apply be_bytes_byte..].
  by rewrite !be_value_be_bytes.
Qed.

(** ** Iteration *)
Definition kv_le (a b : bytes * bytes) : Prop := bytes_leb a.1 b.1 = true.
Lemma db_iter_sorted (d : gmap (list N) (list N)) : StronglySorted kv_le (db_iter d).
Proof.
  apply (isort_sorted (fun a b : bytes * bytes => bytes_leb a.1 b.1)).
  - intros. apply bytes_leb_total.
  - intros a b c. apply bytes_leb_trans.
Qed.
Lemma elem_db_iter (d : gmap (list N) (list N)) k v : (k, v) ∈ db_iter d <-> d !! k = Some v.
Proof. unfold db_iter. rewrite elem_of_isort. apply elem_of_map_to_list. Qed.
Lemma db_iter_NoDup (d : gmap (list N) (list N)) : NoDup ((db_iter d).*1).
Proof. unfold db_iter. rewrite isort_perm. apply NoDup_fst_map_to_list. Qed.

Lemma take_while_filter {A} (R : A -> A -> Prop) (f : A -> bool) l :
  StronglySorted R l -> (forall a b, a ∈ l -> b ∈ l -> R a b -> f b = true -> f a = true) ->
  take_while f l = List.filter f l.
Proof.
  induction 1 as [|a l H IH Ha]; intros Hf; simpl; [done|].
  destruct (f a) eqn:E.
  - f_equal. apply IH. intros b c Hb Hc. apply Hf; by right.
  - assert (Hnone : List.filter f l = []); [|done].
    destruct (List.filter f l) as [|b l'] eqn:E'; [done|].
    assert (Hb : b ∈ List.filter f l) by (rewrite E'; left).
    apply elem_of_filter in Hb as [Hb Hfb]. rewrite Forall_forall in Ha.
    rewrite (Hf a b) in E; [done|left|by right|by apply Ha|done].
Qed.

Definition starts0 (kv : bytes * bytes) : bool :=
  match kv.1 with b :: _ => b =? 0 | [] => false end.
Lemma single_records_filter (d : gmap (list N) (list N)) :
  (forall k v, d !! k = Some v -> k <> []) ->
  single_records d = List.filter starts0 (db_iter d).
Proof.
  intros Hne. unfold single_records. eapply take_while_filter; [apply db_iter_sorted|].
  intros [[|a ka] va] [[|b kb] vb] Ha Hb; unfold kv_le, starts0; cbn [fst]; try done.
  - by apply elem_db_iter, Hne in Ha.
  - rewrite bytes_leb_cmp. simpl. unfold cmp_then. intros H E. apply N.eqb_eq in E as ->.
    destruct (N.compare_spec a 0); subst; try done; lia.
Qed.

(** Every key of a finished store: a phrase, a bin or the boundaries. *)
Lemma finish_key o b d d' k v :
  finish o b d = Ok d' -> d' !! k = Some v ->
  d !! k = Some v \/
  (exists key be, b_data b !! key = Some be /\ k = write_key SinglePhrase key /\ v = enc be) \/
  (exists gid l, k = write_key PrefixBin (gid, l)) \/ k = bounds_key.
Proof.
  intros (puts & Hp & [= <-])%bind_Ok H.
  apply apply_puts_some in H as [H|H]; [|by left]. right.
  apply (finish_elem o b puts _ Hp) in H as [(key & be & Hd & E)|[H|E]].
  - left. apply pair_equal_spec in E as [-> ->]. eauto.
  - right. left. destruct H as (gid & g & labelled & _ & _ & Hbp).
    apply bin_put_key in Hbp as (l & E & _). eauto.
  - right. right. by apply pair_equal_spec in E as [-> _].
Qed.

Lemma finish_nonempty_keys o b d' k v : finish o b ∅ = Ok d' -> d' !! k = Some v -> k <> [].
Proof.
  intros Hf H. apply (finish_key o b ∅ d' k v Hf) in H
    as [H|[(key & be & _ & -> & _)|[(gid & l & ->)| ->]]]; [|done..].
  by rewrite lookup_empty in H.
Qed.

Lemma finish_single_records o b d :
  data_keys_ok b -> finish o b ∅ = Ok d ->
  exists l : list ((N * N) * gmap N (gmap N (list N))),
    single_records d = map single_put l /\
    (forall k be, (k, be) ∈ l <-> b_data b !! k = Some be) /\
    NoDup (map fst l) /\
    StronglySorted (fun a b => bytes_leb (write_key SinglePhrase a.1) (write_key SinglePhrase b.1) = true) l.
Proof.
  intros Hok Hf.
  assert (Hrec : forall kv, kv ∈ single_records d ->
            exists it, kv = single_put it /\ b_data b !! it.1 = Some it.2).
  { intros [k v]. rewrite single_records_filter by (intros ? ?; by eapply finish_nonempty_keys).
    rewrite elem_of_filter, elem_db_iter. intros [Hk Hs].
    apply (finish_key o b ∅ d k v Hf) in Hk
      as [Hk|[(key & be & Hbe & -> & ->)|[(gid & l & ->)| ->]]].
    - by rewrite lookup_empty in Hk.
    - exists (key, be). done.
    - done.
    - done. }
  assert (Hl : exists l, single_records d = map single_put l /\
                  Forall (fun it => b_data b !! it.1 = Some it.2) l).
  { clear Hf. induction (single_records d) as [|kv rs IH]; [by exists []|].
    destruct IH as (l & -> & Hl); [intros; apply Hrec; by right|].
    destruct (Hrec kv) as (it & -> & Hit); [left|]. exists (it :: l). split; [done|]. by constructor. }
  destruct Hl as (l & Hl & Hall). exists l. split; [done|]. rewrite Forall_forall in Hall.
  assert (Hiff : forall k be, (k, be) ∈ l <-> b_data b !! k = Some be).
  { intros k be. split; [by intros H%Hall|]. intros Hbe.
    assert (Hin : single_put (k, be) ∈ single_records d).
    { rewrite single_records_filter by (intros ? ?; by eapply finish_nonempty_keys).
      apply elem_of_filter. split; [|done]. apply elem_db_iter.
      destruct Hok as [Hk Hb]. pose proof (Hk _ _ Hbe) as Hkok.
      cbn [fst]. rewrite (finish_single_lookup o b ∅ d k (conj Hk Hb) Hkok Hf). by rewrite Hbe. }
    rewrite Hl in Hin. apply elem_of_map in Hin as ([k' be'] & E & Hin).
    apply pair_equal_spec in E as [E _]. cbn [fst] in E. pose proof (Hall _ Hin) as Hbe'. simpl in Hbe'.
    destruct Hok as [Hk _]. destruct (write_key_inj _ _ _ _ (Hk _ _ Hbe) (Hk _ _ Hbe') E) as [_ <-].
    congruence. }
  split; [done|].
  pose proof (db_iter_sorted d) as Hsort. pose proof (db_iter_NoDup d) as Hnd.
  assert (HND : NoDup ((single_records d).*1)).
  { rewrite single_records_filter by (intros ? ?; by eapply finish_nonempty_keys).
    clear -Hnd. induction (db_iter d) as [|a l IH]; simpl; [constructor|].
    inversion Hnd as [|? ? Hn Hnd']; subst. destruct (starts0 a); [|by apply IH].
    simpl. constructor; [|by apply IH]. intros H. apply Hn.
    apply elem_of_list_fmap in H as (b & E & Hb). apply elem_of_filter in Hb as [Hb _].
    apply elem_of_list_fmap. eauto. }
  split.
  - rewrite Hl in HND. rewrite <- list_fmap_compose in HND.
    change (NoDup (fst <$> l)).
    apply (NoDup_fmap_1 (write_key SinglePhrase)). rewrite <- list_fmap_compose. exact HND.
  - apply (StronglySorted_map_inv single_put kv_le). rewrite <- Hl.
    rewrite single_records_filter by (intros ? ?; by eapply finish_nonempty_keys).
    by apply StronglySorted_filter.
Qed.
