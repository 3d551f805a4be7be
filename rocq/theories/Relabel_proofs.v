(** Lemmas for Props_relabel.v: records under other names, in the same order. *)
From Verif Require Import Prelude Lists F64 Heap Common Morton Format Format_proofs Builder Spatial Store Spec Spec_match
  Spec_rebuild Spec_frame Spec_relabel Bits_proofs Record_proofs Builder_proofs Finish_proofs Store_proofs Order_proofs
  Bins_proofs Size_proofs History_proofs Spatial_proofs Cmp_proofs Merge_proofs Match_proofs Query_proofs
  Binquery_proofs Durable_proofs Rebuild_proofs Frame_proofs.
From Coq Require Import ZifyBool.
Local Open Scope N_scope.

(** Two lists of records that the queue cannot tell apart. *)
Definition same_record (q q' : match_key) (kv kv' : bytes * bytes) : Prop :=
  kv.2 = kv'.2 /\ matches_language q kv.1 = matches_language q' kv'.1.
Lemma same_records p mtb tb s s' q q' o n st en m st' en' m' :
  st_radius s = st_radius s' ->
  db_form (st_db s) -> db_form (st_db s') -> st < 2 ^ 32 -> st' < 2 ^ 32 ->
  fetch_range p s (mk_phrase q) = Ok (st, en, m) -> fetch_range p s' (mk_phrase q') = Ok (st', en', m') ->
  Forall2 (same_record q q') (List.filter (range_sel m st en) (db_iter (st_db s)))
                             (List.filter (range_sel m' st' en') (db_iter (st_db s'))) ->
  streaming_get_matching p mtb tb s q o n = streaming_get_matching p mtb tb s' q' o n.
Proof.
  intros Hr F F' Hst Hst' E E' H. unfold streaming_get_matching. rewrite E, E'. cbn [res_bind].
  rewrite !range_records by done. cbn [res_bind].
  assert (Hq : forall h, res_foldl (queue_record p mtb tb s q o n) h (List.filter (range_sel m st en) (db_iter (st_db s))) =
                         res_foldl (queue_record p mtb tb s' q' o n) h (List.filter (range_sel m' st' en') (db_iter (st_db s')))).
  { induction H as [|kv kv' l l' [H1 H2] H IH]; intros h; [done|]. cbn [res_foldl].
    assert (Ek : queue_record p mtb tb s q o n h kv = queue_record p mtb tb s' q' o n h kv').
    { unfold queue_record. by rewrite Hr, H1, H2. }
    rewrite Ek. destruct (queue_record p mtb tb s' q' o n h kv'); cbn [res_bind]; auto. }
  by rewrite Hq.
Qed.

(** The record of a key that was written. *)
Lemma single_written o ops d k v :
  history_ok ops -> Forall op_nonempty ops -> finish o (run ops) ∅ = Ok d -> key_ok k ->
  d !! write_key SinglePhrase k = Some v ->
  exists be es, v = enc be /\ be_full be /\ holds be es /\ written ops !! k = Some es.
Proof.
  intros [Hops _] Ne Hf Hk. rewrite (finish_single_lookup o (run ops) ∅ d k (run_keys_ok ops Hops) Hk Hf).
  pose proof (run_rel ops k) as R. pose proof (run_full ops Ne k) as F.
  destruct (b_data (run ops) !! k) as [be|], (written ops !! k) as [es|]; try done.
  intros [= <-]. exists be, es. split; [done|]. split; [by apply F|]. split; [exact R|done].
Qed.
Lemma written_single o ops d k es :
  history_ok ops -> Forall op_nonempty ops -> finish o (run ops) ∅ = Ok d ->
  written ops !! k = Some es -> key_ok k /\
  exists be, d !! write_key SinglePhrase k = Some (enc be) /\ be_full be /\ holds be es.
Proof.
  intros [Hops _] Ne Hf Hw. pose proof (run_rel ops k) as R. pose proof (run_full ops Ne k) as F.
  rewrite Hw in R. destruct (b_data (run ops) !! k) as [be|] eqn:E; [|done].
  assert (Hk : key_ok k) by (eapply run_keys_ok; eauto). split; [done|].
  exists be. rewrite (finish_single_lookup o (run ops) ∅ d k (run_keys_ok ops Hops) Hk Hf), E.
  split; [done|]. split; [by apply F|exact R].
Qed.

Lemma elem_range d st en kv :
  db_form d -> kv ∈ List.filter (range_sel SinglePhrase st en) (db_iter d) <->
  exists k, key_ok k /\ kv.1 = write_key SinglePhrase k /\ d !! kv.1 = Some kv.2 /\ (st <=? k.1) && (k.1 <? en) = true.
Proof.
  intros Hd. destruct kv as [b v]. rewrite elem_of_filter, elem_db_iter. cbn [fst snd]. split.
  - intros [Hin Hs]. pose proof (Hd b v Hin) as Hf. unfold range_sel in Hs. cbn [fst] in Hs.
    destruct Hf as [(m & key & Hk & ->)| ->]; [|by rewrite matches_key_bounds in Hs].
    rewrite matches_key_write in Hs by apply Hk. destruct m; [|done]. exists key. done.
  - intros (k & Hk & -> & Hl & Hs). split; [done|]. unfold range_sel. cbn [fst].
    by rewrite matches_key_write by apply Hk.
Qed.

Section relabel.
  Context (f : N -> N) (q q' : match_key) (ops ops' : list op) (o o' : hash_oracle) (d d' : db).
  Context (Hh : history_ok ops) (Hh' : history_ok ops') (Ne : Forall op_nonempty ops) (Ne' : Forall op_nonempty ops').
  Context (Hf : finish o (run ops) ∅ = Ok d) (Hf' : finish o' (run ops') ∅ = Ok d').
  Context (Hrn : renames f q q' ops ops').
  Context (st en st' en' : N).
  Context (Hsel : forall x, (st <=? x) && (x <? en) = phrase_sel (mk_phrase q) x).
  Context (Hsel' : forall x, (st' <=? x) && (x <? en') = phrase_sel (mk_phrase q') x).

  Definition new_name (kv : bytes * bytes) : bytes * bytes :=
    match read_key kv.1 with Ok k => (write_key SinglePhrase (f k.1, k.2), kv.2) | _ => kv end.
  Lemma new_name_write k v : key_ok k -> new_name (write_key SinglePhrase k, v) = (write_key SinglePhrase (f k.1, k.2), v).
  Proof. intros Hk. unfold new_name. cbn [fst snd]. by rewrite read_key_write. Qed.

  Local Notation L := (List.filter (range_sel SinglePhrase st en) (db_iter d)).
  Local Notation L' := (List.filter (range_sel SinglePhrase st' en') (db_iter d')).
  Lemma form : db_form d.
  Proof. intros k v. apply (finish_key_form o (run ops) d k v (run_keys_ok ops (proj1 Hh)) Hf). Qed.
  Lemma form' : db_form d'.
  Proof. intros k v. apply (finish_key_form o' (run ops') d' k v (run_keys_ok ops' (proj1 Hh')) Hf'). Qed.

  Lemma listed kv : kv ∈ L -> exists k es, key_ok k /\ kv = (write_key SinglePhrase k, kv.2) /\
    phrase_sel (mk_phrase q) k.1 = true /\ written ops !! k = Some es /\ key_ok (f k.1, k.2) /\
    new_name kv = (write_key SinglePhrase (f k.1, k.2), kv.2) /\ new_name kv ∈ L'.
  Proof.
    intros Hin. apply (elem_range _ _ _ _ form) in Hin as (k & Hk & E & Hl & Hs). destruct kv as [b v]. cbn [fst snd] in *. subst b.
    destruct (single_written _ _ _ _ _ Hh Ne Hf Hk Hl) as (be & es & -> & F & R & Hw). rewrite Hsel in Hs.
    destruct k as [x l]. cbn [fst snd] in *.
    destruct (sc_same _ _ _ _ _ (proj1 Hrn) x l es Hs Hw) as (Hs' & es' & Hw' & Hes).
    destruct (written_single _ _ _ _ _ Hh' Ne' Hf' Hw') as (Hk' & be' & Hl' & F' & R').
    exists (x, l), es. rewrite new_name_write by done. cbn [fst snd].
    split; [done|]. split; [done|]. split; [done|]. split; [done|]. split; [done|]. split; [done|].
    apply (elem_range _ _ _ _ form'). exists (f x, l). cbn [fst snd]. split; [done|]. split; [done|]. split.
    - rewrite Hl'. f_equal. symmetry. by eapply holds_same.
    - by rewrite Hsel'.
  Qed.
  Lemma listed_all kv : kv ∈ L' -> exists kv0, kv0 ∈ L /\ new_name kv0 = kv.
  Proof.
    intros Hin. apply (elem_range _ _ _ _ form') in Hin as (k & Hk & E & Hl & Hs). destruct kv as [b v]. cbn [fst snd] in *. subst b.
    destruct (single_written _ _ _ _ _ Hh' Ne' Hf' Hk Hl) as (be & es & -> & F & R & Hw). rewrite Hsel' in Hs.
    destruct k as [y l]. cbn [fst snd] in *.
    destruct (sc_onto _ _ _ _ _ (proj1 Hrn) y l es Hs Hw) as (x & es0 & -> & Hs0 & Hw0).
    destruct (written_single _ _ _ _ _ Hh Ne Hf Hw0) as (Hk0 & be0 & Hl0 & F0 & R0).
    destruct (sc_same _ _ _ _ _ (proj1 Hrn) x l es0 Hs0 Hw0) as (_ & es' & Hw' & Hes).
    assert (es' = es) as -> by congruence.
    exists (write_key SinglePhrase (x, l), enc be0). split.
    - apply (elem_range _ _ _ _ form). exists (x, l). cbn [fst snd]. by rewrite Hsel.
    - rewrite new_name_write by done. cbn [fst snd]. f_equal. by eapply holds_same.
  Qed.

  Lemma name_order kv1 kv2 : kv1 ∈ L -> kv2 ∈ L -> kv_le kv1 kv2 -> kv_le (new_name kv1) (new_name kv2).
  Proof.
    intros H1 H2 Hle. destruct (listed _ H1) as (k1 & es1 & K1 & E1 & S1 & W1 & K1' & N1 & _).
    destruct (listed _ H2) as (k2 & es2 & K2 & E2 & S2 & W2 & K2' & N2 & _).
    unfold kv_le, bytes_leb in *. rewrite N1, N2. rewrite E1, E2 in Hle. cbn [fst snd] in *.
    rewrite write_key_cmp in Hle by (apply K1 || apply K2). rewrite write_key_cmp by (apply K1' || apply K2').
    unfold gk_phrase, gk_lang in *. cbn [fst snd] in *. rewrite N.compare_refl in *. cbn [cmp_then] in *.
    destruct k1 as [x1 l1], k2 as [x2 l2]. cbn [fst snd] in *.
    destruct (N.compare_spec x1 x2) as [->|Hlt|Hgt]; [by rewrite N.compare_refl| |done].
    assert (Hf12 : f x1 < f x2) by (eapply (proj2 Hrn x1 x2 l1 l2); eauto).
    by rewrite (proj2 (N.compare_lt_iff _ _) Hf12).
  Qed.
  Lemma name_inj kv1 kv2 : kv1 ∈ L -> kv2 ∈ L -> new_name kv1 = new_name kv2 -> kv1 = kv2.
  Proof.
    intros H1 H2 E. destruct (listed _ H1) as (k1 & es1 & K1 & E1 & S1 & W1 & K1' & N1 & _).
    destruct (listed _ H2) as (k2 & es2 & K2 & E2 & S2 & W2 & K2' & N2 & _).
    rewrite N1, N2 in E. apply pair_equal_spec in E as [E Ev].
    destruct (write_key_inj _ _ _ _ K1' K2' E) as [_ E']. destruct k1 as [x1 l1], k2 as [x2 l2]. cbn [fst snd] in *.
    injection E' as Ex El. subst l2. rewrite E1, E2, Ev. do 2 f_equal. f_equal.
    destruct (N.compare_spec x1 x2) as [->|Hlt|Hgt]; [done|exfalso..].
    - assert (f x1 < f x2) by (eapply (proj2 Hrn x1 x2 l1 l1); eauto). lia.
    - assert (f x2 < f x1) by (eapply (proj2 Hrn x2 x1 l1 l1); eauto). lia.
  Qed.

  Lemma StronglySorted_on {A} (R Q : A -> A -> Prop) (l : list A) :
    (forall a b, a ∈ l -> b ∈ l -> R a b -> Q a b) -> StronglySorted R l -> StronglySorted Q l.
  Proof.
    intros H Hs. induction Hs as [|a l Hs IH Ha]; constructor.
    - apply IH. intros. apply H; [by right|by right|done].
    - rewrite Forall_forall in *. intros b Hb. apply H; [left|by right|auto].
  Qed.
  Lemma NoDup_map_on {A B} (g : A -> B) (l : list A) :
    (forall a b, a ∈ l -> b ∈ l -> g a = g b -> a = b) -> NoDup l -> NoDup (map g l).
  Proof.
    intros H Hn. induction Hn as [|a l Ha Hn IH]; cbn; constructor.
    - intros Hin. apply elem_of_map in Hin as (b & E & Hb). apply Ha.
      assert (a = b) as -> by (apply H; [left|by right|done]). done.
    - apply IH. intros. apply H; [by right|by right|done].
  Qed.
  Lemma renamed_records : map new_name L = L'.
  Proof.
    assert (Hnd : forall db a b, NoDup (List.filter (range_sel SinglePhrase a b) (db_iter db))).
    { intros db a b. apply NoDup_ListNoDup. apply List.NoDup_filter. apply NoDup_ListNoDup.
      eapply NoDup_fmap_1. apply db_iter_NoDup. }
    assert (Hel : forall kv, kv ∈ map new_name L <-> kv ∈ L').
    { intros kv. rewrite elem_of_map. split.
      - intros (kv0 & -> & Hin). by destruct (listed _ Hin) as (? & ? & _ & _ & _ & _ & _ & _ & H).
      - intros Hin. destruct (listed_all _ Hin) as (kv0 & H0 & <-). eauto. }
    apply (sorted_perm_unique kv_le).
    - intros [k1 v1] [k2 v2] Ha Hb Hab Hba. unfold kv_le in *. cbn [fst] in *.
      assert (k1 = k2) as -> by by apply bytes_leb_anti.
      apply Hel, elem_of_filter in Ha as [Ha _]. apply Hel, elem_of_filter in Hb as [Hb _].
      apply elem_db_iter in Ha, Hb. congruence.
    - apply StronglySorted_map. eapply StronglySorted_on; [|apply StronglySorted_filter, db_iter_sorted].
      intros a b Ha Hb Hab. by apply name_order.
    - apply StronglySorted_filter, db_iter_sorted.
    - apply NoDup_Permutation; [|apply Hnd|exact Hel]. apply NoDup_map_on; [|apply Hnd].
      intros a b Ha Hb. by apply name_inj.
  Qed.
  Lemma renamed_same : Forall2 (same_record q q') L L'.
  Proof.
    rewrite <- renamed_records.
    assert (H : forall kv, kv ∈ L -> same_record q q' kv (new_name kv)).
    { intros kv Hin. destruct (listed _ Hin) as (k & es & K & E & S & W & K' & Hn & _). unfold same_record.
      rewrite Hn. split; [done|]. cbn [fst]. rewrite E. cbn [fst]. rewrite !matches_language_write by done.
      f_equal. cbn [snd]. eapply (sc_langs _ _ _ _ _ (proj1 Hrn) k.1); [done|]. destruct k; eauto. }
    revert H. generalize L. intros l. induction l as [|a l IH]; intros H; cbn; constructor.
    - apply H. left.
    - apply IH. intros. apply H. by right.
  Qed.
End relabel.
