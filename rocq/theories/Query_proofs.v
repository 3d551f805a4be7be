(** Queries on a built store. *)
From Verif Require Import Prelude Lists F64 Heap Common Morton Format Builder Spatial Store Spec Spec_match
  Bits_proofs Record_proofs Builder_proofs Finish_proofs Store_proofs Order_proofs Bins_proofs History_proofs
  Spatial_proofs Cmp_proofs Merge_proofs Float_proofs Match_proofs.
From Coq Require Import Sorting.Sorted.
From Coq Require Import ZifyBool.
Local Open Scope N_scope.

(** ** The keys of a store *)
Definition key_form (k : bytes) : Prop :=
  (exists m key, key_ok key /\ k = write_key m key) \/ k = bounds_key.
Lemma option_N_eqb_eq a b : option_N_eqb a b = true <-> a = b.
Proof.
  destruct a as [a|], b as [b|]; simpl; try (by split).
  rewrite N.eqb_eq. split; [by intros ->|by intros [= ->]].
Qed.
Lemma bin_group_elem b labelled gid g it :
  data_keys_ok b -> finish_groups b labelled ->
  (Some gid, g) ∈ eager_groupby fst option_N_eqb labelled -> it ∈ map snd g ->
  gid ∈ b_bounds b /\ b_data b !! it.1 = Some it.2 /\ (Some gid, it) ∈ labelled.
Proof.
  intros [Hk Hb] Hl Hg Hit. apply elem_of_map in Hit as ([lab it'] & E & Hx). cbn [snd] in E. subst it'.
  pose proof (eager_groupby_grouping fst option_N_eqb labelled) as HG.
  assert (Hlab : lab = Some gid).
  { exact (grouping_key_eq fst option_N_eqb labelled _ (Some gid) g (lab, it) option_N_eqb_eq HG Hg Hx). }
  subst lab.
  assert (Hin : (Some gid, it) ∈ labelled).
  { apply (grouping_in fst option_N_eqb _ _ _ HG). eauto. }
  split; [|split; [|done]].
  - eapply (bin_label_bounds _ (bin_init (b_bounds b))); [| |exact Hl|exact Hin|done]; [done|done].
  - destruct it as [key be]. apply elem_btree_iter. rewrite <- (bin_label_snd _ _ _ Hl).
    apply elem_of_map. by exists (Some gid, (key, be)).
Qed.
Lemma finish_key_form o b d k v :
  data_keys_ok b -> finish o b ∅ = Ok d -> d !! k = Some v -> key_form k.
Proof.
  intros Hok (puts & Hp & [= <-])%bind_Ok H.
  apply apply_puts_some in H as [H|H]; [|by rewrite lookup_empty in H].
  apply (finish_elem o b puts _ Hp) in H as [(key & be & Hd & E)|[H|E]].
  - apply pair_equal_spec in E as [-> _]. left. exists SinglePhrase, key. split; [|done].
    destruct Hok as [Hk _]. by eapply Hk.
  - destruct H as (gid & g & labelled & Hl & Hg & Hbp).
    apply bin_put_key in Hbp as (l & E & (it & Hit & El)). cbn [fst] in E. left.
    exists PrefixBin, (gid, l). split; [|done].
    destruct (bin_group_elem b labelled gid g it Hok Hl Hg Hit) as (H1 & H2 & _).
    destruct Hok as [Hk Hb]. destruct (Hk _ _ H2) as [_ H3]. rewrite Forall_forall in Hb.
    split; [by apply Hb|]. cbn [snd]. rewrite <- El. exact H3.
  - apply pair_equal_spec in E as [-> _]. by right.
Qed.

(** ** The records of a phrase range *)
Definition range_sel (m : type_marker) (st en : N) (kv : bytes * bytes) : bool :=
  match matches_key (MatchKey (Range st en) 0) m kv.1 with Ok b => b | _ => false end.
Lemma matches_key_lang ph l l' m k : matches_key (MatchKey ph l) m k = matches_key (MatchKey ph l') m k.
Proof. done. Qed.
Lemma matches_key_write st en l m m' key :
  gk_phrase key < 2 ^ 32 ->
  matches_key (MatchKey (Range st en) l) m (write_key m' key) =
  Ok (if marker_byte m' =? marker_byte m then (st <=? gk_phrase key) && (gk_phrase key <? en) else false).
Proof.
  intros H. unfold matches_key. rewrite read_key_phrase_write by done. cbn [res_bind].
  change (index (write_key m' key) 0) with (Ok (marker_byte m')). cbn [res_bind mk_phrase].
  by destruct (marker_byte m' =? marker_byte m).
Qed.
Lemma matches_key_bounds st en l m : matches_key (MatchKey (Range st en) l) m bounds_key = Ok false.
Proof. by destruct m. Qed.

Lemma take_matching_while st en l m (kvs : list (bytes * bytes)) :
  Forall (fun kv => key_form kv.1) kvs ->
  take_matching (MatchKey (Range st en) l) m kvs = Ok (take_while (range_sel m st en) kvs).
Proof.
  induction 1 as [|kv kvs Hk H IH]; [done|]. cbn [take_matching take_while].
  unfold range_sel at 1. rewrite (matches_key_lang _ l 0).
  assert (E : exists b, matches_key (MatchKey (Range st en) 0) m kv.1 = Ok b).
  { destruct Hk as [(m' & key & [Hk _] & ->)| ->].
    - rewrite matches_key_write by done. eauto.
    - rewrite matches_key_bounds. eauto. }
  destruct E as [b ->]. destruct b; [|done]. rewrite IH. done.
Qed.

Lemma write_start_key m st en l : write_start m (MatchKey (Range st en) l) = write_key m (st, u128_max).
Proof. unfold write_start, write_key. cbn [mk_phrase phrase_start gk_phrase gk_lang fst snd].
  change (lang_bytes u128_max) with (@nil N). by rewrite app_nil_r. Qed.

Lemma write_key_le_bounds m key : bytes_cmp bounds_key (write_key m key) = Gt.
Proof. by destruct m. Qed.
Lemma write_key_le m m' k k' :
  gk_phrase k < 2 ^ 32 -> gk_phrase k' < 2 ^ 32 ->
  bytes_leb (write_key m k) (write_key m' k') = true ->
  marker_byte m < marker_byte m' \/ (marker_byte m = marker_byte m' /\ gk_phrase k <= gk_phrase k').
Proof.
  intros H H'. rewrite bytes_leb_cmp, write_key_cmp by done. unfold cmp_then.
  destruct (N.compare_spec (marker_byte m) (marker_byte m')); try lia; [|done].
  destruct (N.compare_spec (gk_phrase k) (gk_phrase k')); try lia. done.
Qed.

Lemma range_records d st en l m :
  (forall k v, d !! k = Some v -> key_form k) -> st < 2 ^ 32 ->
  take_matching (MatchKey (Range st en) l) m (db_iter_from d (write_start m (MatchKey (Range st en) l)))
  = Ok (List.filter (range_sel m st en) (db_iter d)).
Proof.
  intros Hk Hst.
  assert (Hall : Forall (fun kv => key_form kv.1) (db_iter d)).
  { apply Forall_forall. intros [k v] Hin. apply elem_db_iter in Hin. by eapply Hk. }
  rewrite take_matching_while.
  2: { unfold db_iter_from. apply Forall_forall. intros kv Hin. apply elem_of_filter in Hin as [Hin _].
       rewrite Forall_forall in Hall. by apply Hall. }
  f_equal. unfold db_iter_from. rewrite write_start_key.
  rewrite (take_while_filter kv_le).
  - rewrite Forall_forall in Hall. revert Hall. generalize (db_iter d) as L. induction L as [|kv L IH]; intros Hall; [done|].
    cbn [List.filter].
    assert (IH' := IH ltac:(intros; apply Hall; by right)).
    destruct (bytes_leb (write_key m (st, u128_max)) kv.1) eqn:E1; cbn [List.filter];
      destruct (range_sel m st en kv) eqn:E2; rewrite IH'; try done.
    exfalso. unfold range_sel in E2. destruct (Hall kv ltac:(left)) as [(m' & key & [Hkp _] & Ek)|Ek]; rewrite Ek in *.
    + rewrite matches_key_write in E2 by done.
      destruct (marker_byte m' =? marker_byte m) eqn:Em; [|done].
      assert (Hle : bytes_cmp (write_key m (st, u128_max)) (write_key m' key) <> Gt).
      { rewrite write_key_cmp by done. replace (marker_byte m') with (marker_byte m) by lia.
        rewrite N.compare_refl. cbn [cmp_then]. unfold gk_phrase in *; cbn [fst] in *.
        unfold cmp_then. destruct (N.compare_spec st key.1); try done; [|lia].
        change (lang_bytes (gk_lang (st, u128_max))) with (@nil N). by destruct (lang_bytes _). }
      apply bytes_leb_cmp in Hle. congruence.
    + by rewrite matches_key_bounds in E2.
  - apply StronglySorted_filter, db_iter_sorted.
  - intros a b Ha Hb Hle Hfb. apply elem_of_filter in Ha as [Ha Hsa]. apply elem_of_filter in Hb as [Hb _].
    rewrite Forall_forall in Hall. unfold kv_le in Hle. unfold range_sel in *.
    destruct (Hall b Hb) as [(m2 & k2 & [Hk2 _] & Eb)|Eb]; rewrite Eb in *;
      [|by rewrite matches_key_bounds in Hfb].
    rewrite matches_key_write in Hfb by done.
    destruct (marker_byte m2 =? marker_byte m) eqn:E2; [|done].
    destruct (Hall a Ha) as [(m1 & k1 & [Hk1 _] & Ea)|Ea]; rewrite Ea in *.
    + rewrite matches_key_write by done.
      apply write_key_le in Hle; [|done..]. apply write_key_le in Hsa; [|done..].
      unfold gk_phrase in Hsa at 1. cbn [fst] in Hsa.
      replace (marker_byte m1 =? marker_byte m) with true by lia. unfold gk_phrase in *. lia.
    + apply bytes_leb_cmp in Hle. by rewrite write_key_le_bounds in Hle.
Qed.

(** ** Languages *)
Lemma matches_language_write k m key :
  key_ok key -> matches_language k (write_key m key) = Ok (lang_sel (mk_lang k) key.2).
Proof.
  intros [_ Hl]. unfold matches_language. rewrite write_key_drop5. cbn [res_bind]. unfold gk_lang, lang_sel.
  change (2 ^ 128 - 1) with u128_max.
  destruct (lang_bytes key.2) as [|b bs] eqn:E.
  - apply lang_bytes_nil in E as ->; [|done]. by rewrite N.eqb_refl.
  - rewrite <- E. assert (Hne : key.2 <> u128_max).
    { intros Heq. apply (lang_bytes_nil key.2) in Heq; [|done]. congruence. }
    rewrite read_lang_bytes by done. cbn [res_bind].
    replace (key.2 =? u128_max) with false by lia. done.
Qed.

(** ** The queue *)
Lemma queue_fold p mtb tb s k o max recs ess : forall q,
  Forall2 (fun kv es => exists lang, matches_language k kv.1 = Ok lang /\
             decode_matching_value p mtb kv.2 o lang (st_radius s) = Ok es) recs ess ->
  res_foldl (queue_record p mtb tb s k o max) q recs = res_foldl (q_push tb max) q ess.
Proof.
  intros q H. revert q. induction H as [|kv es recs ess (lang & Hl & Hd) H IH]; intros q; [done|].
  cbn [res_foldl].
  assert (E : queue_record p mtb tb s k o max q kv = q_push tb max q es).
  { unfold queue_record. rewrite Hl. cbn [res_bind]. rewrite Hd. done. }
  rewrite E. destruct (q_push tb max q es); [|done..]. cbn [res_bind]. apply IH.
Qed.

(** ** Plain queries *)
(** The query reads single-phrase records: an exact phrase below 2^32-1, or a range
    whose ends are not both boundaries of the store. *)
Definition plain_query (s : store) (ph : match_phrase) : Prop :=
  match ph with
  | Exact id => id < 2 ^ 32 - 1
  | Range a b => a < 2 ^ 32 /\ ~ (a ∈ st_bounds s /\ b ∈ st_bounds s)
  end.
Lemma existsb_elem x l : existsb (N.eqb x) l = true <-> x ∈ l.
Proof.
  rewrite List.existsb_exists. split.
  - intros (y & Hy & E). apply N.eqb_eq in E as <-. by apply elem_of_list_In.
  - intros H. exists x. split; [by apply elem_of_list_In|]. apply N.eqb_refl.
Qed.
Lemma fetch_plain p s ph :
  plain_query s ph ->
  exists st en, fetch_range p s ph = Ok (st, en, SinglePhrase) /\ st < 2 ^ 32 /\
    forall x, (st <=? x) && (x <? en) = phrase_sel ph x.
Proof.
  destruct ph as [id|a b]; simpl.
  - intros H. exists id, (id + 1). unfold uadd.
    replace (id + 1 <? 2 ^ 32) with true by lia.
    split; [by destruct p|]. split; [lia|]. intros x. lia.
  - intros [Ha Hn]. exists a, b.
    assert (E : existsb (N.eqb a) (st_bounds s) && existsb (N.eqb b) (st_bounds s) = false).
    { apply not_true_is_false. intros H. apply andb_true_iff in H as [H1%existsb_elem H2%existsb_elem]. tauto. }
    rewrite E. done.
Qed.

Lemma built_single_range o ops s st en :
  history_ok ops -> built o ops s ->
  exists l : list ((N * N) * gmap N (gmap N (list N))),
    iter s = Ok (map (fun it => (it.1, record_of it.2)) l) /\
    (forall it, it ∈ l -> b_data (run ops) !! it.1 = Some it.2) /\
    List.filter (range_sel SinglePhrase st en) (db_iter (st_db s)) =
    map single_put (List.filter (fun it => (st <=? it.1.1) && (it.1.1 <? en)) l).
Proof.
  intros Hh Hb. destruct (built_records o ops s Hh Hb) as (l & Hl & Hiff & Hnd & Hs).
  assert (Hkeys : forall it, it ∈ l -> key_ok it.1).
  { intros [k be] Hin. apply Hiff in Hin. destruct Hh as [Hops _]. by eapply run_keys_ok. }
  exists l. split; [|split].
  - unfold iter. rewrite Hl, res_mapM_map. apply res_mapM_pure. intros [k be] Hin.
    unfold single_put. cbn [fst snd]. rewrite read_key_write by by apply (Hkeys _ Hin).
    cbn [res_bind]. apply Hiff in Hin. pose proof (run_rel ops k) as Hr. rewrite Hin in Hr.
    destruct (written ops !! k) as [es|] eqn:E; [|done].
    destruct (history_decode ops k be es Hh Hin E) as (_ & _ & _ & _ & _ & ->). done.
  - intros [k be] Hin. by apply Hiff.
  - assert (Hsub : List.filter (range_sel SinglePhrase st en) (db_iter (st_db s)) =
                   List.filter (range_sel SinglePhrase st en) (single_records (st_db s))).
    { destruct Hb as (d & z & t & r & bb & ms & Hf & ->). cbn [open_store st_db].
      rewrite single_records_filter by (intros ? ?; by eapply finish_nonempty_keys).
      assert (Hkf : forall k v, d !! k = Some v -> key_form k).
      { intros k v. apply (finish_key_form o (run ops)); [|done]. apply run_keys_ok. by destruct Hh. }
      assert (Hall : forall kv, kv ∈ db_iter d -> key_form kv.1).
      { intros [k v] Hin. apply elem_db_iter in Hin. by eapply Hkf. }
      clear -Hall. revert Hall. generalize (db_iter d) as L. induction L as [|kv L IH]; intros Hall; [done|].
      assert (IH' := IH ltac:(intros; apply Hall; by right)).
      cbn [List.filter].
      destruct (starts0 kv) eqn:E0; cbn [List.filter]; destruct (range_sel SinglePhrase st en kv) eqn:E1;
        rewrite IH'; try done.
      exfalso. unfold range_sel in E1.
      destruct (Hall kv ltac:(left)) as [(m & key & [Hk _] & Ek)|Ek]; unfold starts0 in E0; rewrite Ek in *.
      - rewrite matches_key_write in E1 by done. destruct m; done.
      - by rewrite matches_key_bounds in E1. }
    rewrite Hsub, Hl. clear -Hkeys. induction l as [|it l IH]; [done|].
    cbn [map List.filter]. rewrite IH by (intros; apply Hkeys; by right).
    unfold range_sel at 1. unfold single_put at 1. cbn [fst].
    destruct (Hkeys it ltac:(left)) as [Hk _]. rewrite matches_key_write by done.
    rewrite N.eqb_refl. unfold gk_phrase. by destruct ((st <=? it.1.1) && (it.1.1 <? en)).
Qed.

Lemma plain_streams_all p mtb o ops s k opts kvs :
  history_ok ops -> built o ops s -> opts_ok p opts (st_radius s) -> plain_query s (mk_phrase k) ->
  iter s = Ok kvs ->
  exists ess,
    Forall2 (fun kv es => es ≡ₚ record_matches k opts (st_radius s) kv /\
               (mo_prox opts = None -> StronglySorted (desc key_cmp) es))
      (List.filter (fun kv => phrase_sel (mk_phrase k) kv.1.1) kvs) ess /\
    forall tb max, streaming_get_matching p mtb tb s k opts max =
      (let* q := res_foldl (q_push tb max) hp_empty ess in Ok (drain_queue tb (queue_size q) q)).
Proof.
  intros Hh Hb Ho Hq Hi.
  destruct (fetch_plain p s (mk_phrase k) Hq) as (st & en & Hf & Hst & Hsel).
  destruct (built_single_range o ops s st en Hh Hb) as (l & Hl & Hdata & Hrecs).
  assert (kvs = map (fun it => (it.1, record_of it.2)) l) by congruence. subst kvs. clear Hi.
  assert (Hkf : forall k v, st_db s !! k = Some v -> key_form k).
  { destruct Hb as (d & z & t & r & bb & ms & Hfin & ->). cbn [open_store st_db]. intros k' v.
    apply (finish_key_form o (run ops)); [|done]. apply run_keys_ok. by destruct Hh. }
  set (l' := List.filter (fun it => (st <=? it.1.1) && (it.1.1 <? en)) l) in *.
  assert (Hess : exists ess,
    Forall2 (fun (it : (N * N) * gmap N (gmap N (list N))) es =>
       matches_language k (single_put it).1 = Ok (lang_sel (mk_lang k) it.1.2) /\
       decode_matching_value p mtb (single_put it).2 opts (lang_sel (mk_lang k) it.1.2) (st_radius s) = Ok es /\
       es ≡ₚ record_matches k opts (st_radius s) (it.1, record_of it.2) /\
       (mo_prox opts = None -> StronglySorted (desc key_cmp) es)) l' ess).
  { assert (Hin : forall it, it ∈ l' -> b_data (run ops) !! it.1 = Some it.2).
    { intros it Hit. apply elem_of_filter in Hit as [Hit _]. by apply Hdata. }
    clearbody l'. clear Hrecs. induction l' as [|it l' IH]; [exists []; constructor|].
    destruct IH as [ess IH]; [intros; apply Hin; by right|].
    pose proof (Hin it ltac:(left)) as Hbe. pose proof (run_rel ops it.1) as Hr. rewrite Hbe in Hr.
    destruct (written ops !! it.1) as [es|] eqn:E; [|done].
    destruct (history_decode ops it.1 it.2 es Hh Hbe E) as (Hhol & Hes & Hkok & Hsemi & Hlen & _).
    destruct (enc_matches p mtb opts (lang_sel (mk_lang k) it.1.2) (st_radius s) it.2 Ho)
      as (out & Hd & Hp & Hso); [by eapply holds_wf|done|].
    exists (out :: ess). constructor; [|done]. split; [by apply matches_language_write|]. done. }
  destruct Hess as [ess Hess]. exists ess. split.
  - assert (Hflt : List.filter (fun kv => phrase_sel (mk_phrase k) kv.1.1)
                     (map (fun it : (N * N) * gmap N (gmap N (list N)) => (it.1, record_of it.2)) l) =
                   map (fun it => (it.1, record_of it.2)) l').
    { unfold l'. clear -Hsel. induction l as [|it l IH]; [done|]. cbn [map List.filter fst].
      rewrite <- Hsel, IH. by destruct ((st <=? it.1.1) && (it.1.1 <? en)). }
    rewrite Hflt. clear -Hess. induction Hess as [|it es l' ess (_ & _ & H) Hess IH]; simpl; constructor; done.
  - intros tb max. unfold streaming_get_matching. rewrite Hf. cbn [res_bind].
    rewrite range_records by done. cbn [res_bind]. rewrite Hrecs.
    rewrite (queue_fold p mtb tb s k opts max _ ess); [done|].
    clear -Hess. induction Hess as [|it es l' ess (H1 & H2 & _) Hess IH]; simpl; constructor; [eauto|done].
Qed.

Lemma plain_streams p mtb tb o ops s k opts kvs :
  history_ok ops -> built o ops s -> opts_ok p opts (st_radius s) -> plain_query s (mk_phrase k) ->
  iter s = Ok kvs ->
  exists ess,
    Forall2 (fun kv es => es ≡ₚ record_matches k opts (st_radius s) kv /\
               (mo_prox opts = None -> StronglySorted (desc key_cmp) es))
      (List.filter (fun kv => phrase_sel (mk_phrase k) kv.1.1) kvs) ess /\
    forall max, streaming_get_matching p mtb tb s k opts max =
      (let* q := res_foldl (q_push tb max) hp_empty ess in Ok (drain_queue tb (queue_size q) q)).
Proof.
  intros Hh Hb Ho Hq Hi. destruct (plain_streams_all p mtb o ops s k opts kvs Hh Hb Ho Hq Hi) as (ess & HF & Hrun). eauto.
Qed.

Lemma forall2_perm_mjoin {A B} (f : A -> list B) l ess (P : A -> list B -> Prop) :
  Forall2 (fun a es => es ≡ₚ f a /\ P a es) l ess -> mjoin ess ≡ₚ mjoin (map f l).
Proof. induction 1 as [|a es l ess [H _] HF IH]; simpl; [done|]. by rewrite H, IH. Qed.
