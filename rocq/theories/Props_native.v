(** Properties C54-C56, C58 and C59: collapsing, and the Node bindings. *)
From Verif Require Import Prelude Lists F64 Heap Common Builder Spatial Store Spec Spec_match Query Coalesce Stackable Tree
  Native Cmp_proofs Queue_proofs Spec_coalesce Spec_stack Spec_tree Tree_proofs Spec_native Float_proofs Native_proofs
  History_proofs Examples Props_storage Props_coalesce Props_stack Props_tree.
From Coq Require Import Sorting.Sorted.
From Coq Require Import ZifyBool.
Local Open Scope N_scope.

(** ** C54 Collapsing *)
Theorem C54_collapse :
  forall pms out, collapse_phrasematches pms = Ok out <-> collapses pms out.
Proof. exact collapses_iff. Qed.
Print Assumptions C54_collapse.
(** The only failure is a member without keys that is not the first of its group. *)
Lemma splits_total pm l : (forall q, q ∈ l -> sq_keys q <> []) -> exists ks rest, splits pm l ks rest.
Proof.
  induction l as [|q l IH]; intros H; [exists [], []; constructor|].
  destruct IH as (ks & rest & Hs). { intros. apply H. by right. }
  destruct (same_group q pm) eqn:E.
  - apply same_group_iff in E. destruct (sq_keys q) as [|k ks'] eqn:Ek; [exfalso; apply (H q); [by left|done]|].
    exists (k :: ks), rest. by eapply split_same.
  - exists ks, (q :: rest). apply split_other; [rewrite <- same_group_iff; congruence|done].
Qed.
Lemma splits_rest pm l ks rest : splits pm l ks rest -> forall q, q ∈ rest -> q ∈ l /\ ~ together q pm.
Proof.
  induction 1 as [|q k ks' l ks rest H1 H2 H3 IH|q l ks rest H1 H2 IH]; intros q' Hq.
  - by apply elem_of_nil in Hq.
  - destruct (IH q' Hq). split; [by right|done].
  - apply elem_of_cons in Hq as [->|Hq]; [split; [by left|done]|]. destruct (IH q' Hq). split; [by right|done].
Qed.
Theorem C54_total :
  forall pms, (forall q, q ∈ pms -> sq_keys q <> []) -> exists out, collapse_phrasematches pms = Ok out.
Proof.
  intros pms. induction pms as [l IH] using (induction_ltof1 _ (@length subquery)); unfold ltof in IH. intros H.
  destruct l as [|pm l]; [by exists []|].
  destruct (splits_total pm l) as (ks & rest & Hs). { intros. apply H. by right. }
  destruct (IH rest) as (out & Ho).
  - apply splits_length in Hs. cbn [length]. lia.
  - intros q Hq. apply H. right. by apply (splits_rest _ _ _ _ Hs).
  - exists (with_keys pm (sq_keys pm ++ ks) :: out). apply C54_collapse. eapply coll_cons; [done|]. by apply C54_collapse.
Qed.
Print Assumptions C54_total.
(** With one key each, as from JavaScript, no key is lost, repeated or invented. *)
Lemma splits_keys pm l ks rest : splits pm l ks rest -> (forall q, q ∈ l -> length (sq_keys q) = 1%nat) ->
  mjoin (map sq_keys l) ≡ₚ ks ++ mjoin (map sq_keys rest).
Proof.
  induction 1 as [|q k ks' l ks rest H1 H2 H3 IH|q l ks rest H1 H2 IH]; intros H; cbn [map].
  - done.
  - change (mjoin (?a :: ?b)) with (a ++ mjoin b). rewrite IH by (intros; apply H; by right).
    assert (E : length (sq_keys q) = 1%nat) by (apply H; by left). rewrite H2 in *. destruct ks'; [|done]. done.
  - change (mjoin (?a :: ?b)) with (a ++ mjoin b). rewrite IH by (intros; apply H; by right).
    change (mjoin (sq_keys q :: ?b)) with (sq_keys q ++ mjoin b). rewrite !(assoc (++)). f_equiv. apply Permutation_app_comm.
Qed.
Lemma together_refl a : together a a.
Proof. split; [apply (tc_refl _ total_cmp_ord)|done]. Qed.
Lemma together_sym a b : together a b -> together b a.
Proof. intros (H & ? & ?). split; [by apply (tc_eq_sym _ total_cmp_ord)|done]. Qed.
Lemma together_trans a b c : together a b -> together b c -> together a c.
Proof. intros (H & ? & ?) (H' & ? & ?). split; [by eapply (tc_eq_trans _ total_cmp_ord)|split; congruence]. Qed.
(** Every group comes from a first member. *)
Lemma collapses_from pms out : collapses pms out -> forall g, g ∈ out ->
  exists q ks, q ∈ pms /\ g = with_keys q (sq_keys q ++ ks) /\
    forall k, k ∈ ks -> exists q', q' ∈ pms /\ together q' q /\ k ∈ sq_keys q'.
Proof.
  induction 1 as [|pm l ks rest out' Hs Hc IH]; intros g Hg; [by apply elem_of_nil in Hg|].
  apply elem_of_cons in Hg as [->|Hg].
  - exists pm, ks. split; [by left|]. split; [done|]. clear -Hs.
    induction Hs as [|q k0 ks' l ks rest H1 H2 H3 IH|q l ks rest H1 H2 IH]; intros k Hk.
    + by apply elem_of_nil in Hk.
    + apply elem_of_cons in Hk as [->|Hk].
      * exists q. split; [right; by left|]. split; [done|]. rewrite H2. by left.
      * destruct (IH k Hk) as (q' & Hq & ?). exists q'. split; [|done].
        apply elem_of_cons in Hq as [->|Hq]; [by left|]. right. by right.
    + destruct (IH k Hk) as (q' & Hq & ?). exists q'. split; [|done].
      apply elem_of_cons in Hq as [->|Hq]; [by left|]. right. by right.
  - destruct (IH g Hg) as (q & ks' & Hq & -> & Hk). exists q, ks'.
    split; [right; by apply (splits_rest _ _ _ _ Hs)|]. split; [done|]. intros k Hk'.
    destruct (Hk k Hk') as (q' & Hq' & ?). exists q'. split; [right; by apply (splits_rest _ _ _ _ Hs)|done].
Qed.
Theorem C54_keys :
  forall pms out, (forall q, q ∈ pms -> length (sq_keys q) = 1%nat) -> collapse_phrasematches pms = Ok out ->
  mjoin (map sq_keys out) ≡ₚ mjoin (map sq_keys pms) /\
  forall i j a b, out !! i = Some a -> out !! j = Some b -> together a b -> i = j.
Proof.
  intros pms out H Ho. apply C54_collapse in Ho. revert H.
  induction Ho as [|pm l ks rest out Hs Hc IH]; intros H; [split; [done|]; intros i j a b Ha; done|].
  destruct IH as [IH1 IH2]. { intros q Hq. apply H. right. by apply (splits_rest _ _ _ _ Hs). }
  split.
  - cbn [map]. change (mjoin (?a :: ?b)) with (a ++ mjoin b). cbn [with_keys sq_keys].
    rewrite <- app_assoc. f_equiv. rewrite IH1. symmetry. apply (splits_keys pm); [done|]. intros q Hq. apply H. by right.
  - assert (Hno : forall g, g ∈ out -> ~ together (with_keys pm (sq_keys pm ++ ks)) g).
    { intros g Hg Ht. destruct (collapses_from _ _ Hc g Hg) as (q & ks' & Hq & -> & _).
      apply (splits_rest _ _ _ _ Hs) in Hq as [_ Hq]. apply Hq. by apply together_sym in Ht. }
    intros [|i] [|j] a b Ha Hb Ht; cbn in Ha, Hb; [done| | |f_equal; by eapply IH2].
    + exfalso. assert (with_keys pm (sq_keys pm ++ ks) = a) by congruence. subst a.
      apply (Hno b); [by eapply elem_of_list_lookup_2|done].
    + exfalso. assert (with_keys pm (sq_keys pm ++ ks) = b) by congruence. subst b.
      apply (Hno a); [by eapply elem_of_list_lookup_2|by apply together_sym].
Qed.
Print Assumptions C54_keys.
(** With more keys in a later member, all but the first are lost. *)
Definition c_key (id : N) : match_key_id := MatchKeyWithId (MatchKey (Exact id) 1) false id 1.
Definition c_sq (idx : N) (weight : f64) (ids : list N) : subquery :=
  Subquery (ex_store []) idx 0 weight 1 (map c_key ids).
Theorem C54_lost_refuted :
  exists pms out k q, collapse_phrasematches pms = Ok out /\ q ∈ pms /\ k ∈ sq_keys q /\
    forall g, g ∈ out -> k ∉ sq_keys g.
Proof.
  exists [c_sq 0 f_one [1]; c_sq 0 f_one [2; 3]], [c_sq 0 f_one [1; 2]], (c_key 3), (c_sq 0 f_one [2; 3]).
  split; [apply C54_collapse; apply (coll_cons (c_sq 0 f_one [1]) [c_sq 0 f_one [2; 3]] [c_key 2] [] []); [|constructor];
    by apply (split_same _ (c_sq 0 f_one [2; 3]) (c_key 2) [c_key 3] [] [] []); [split; [apply (tc_refl _ total_cmp_ord)|]| |constructor]|].
  split; [right; by left|]. split; [right; by left|]. intros g Hg. apply elem_of_list_singleton in Hg as ->.
  intros H. apply (elem_of_list_fmap_1 mki_id) in H. vm_compute in H. set_solver.
Qed.
Print Assumptions C54_lost_refuted.
Example C54_ex :
  match collapse_phrasematches [c_sq 0 f_one [1]; c_sq 1 f_one [2]; c_sq 0 f_one [3]; c_sq 0 (f_lit 1 2) [4]; c_sq 1 f_one [5]] with
  | Ok out => map (fun g => (sq_idx g, map mki_id (sq_keys g))) out = [(0, [1; 3]); (1, [2; 5]); (0, [4])]
  | _ => False
  end.
Proof. vm_compute. reflexivity. Qed.

(** ** C55 Language arrays *)
(** The conversion accepts a value exactly if it stands for a set, and gives that set. *)
Theorem C55_to_set :
  forall v s, langarray_to_langset v = Ok s <-> as_langs v s.
Proof. exact langs_iff. Qed.
Print Assumptions C55_to_set.
Theorem C55_to_array :
  forall s, s < 2 ^ 128 -> exists ls, languages s ls /\
    langset_to_langarray s = JsArray (map JsNumber (map f_of_N ls)).
Proof. exact langarray_ok. Qed.
Print Assumptions C55_to_array.
Theorem C55_set_round_trip :
  forall s, s < 2 ^ 128 -> langarray_to_langset (langset_to_langarray s) = Ok s.
Proof. exact lang_round_trip. Qed.
Print Assumptions C55_set_round_trip.
(** There and back: the members below 128, sorted and without repetitions. *)
Theorem C55_array_round_trip :
  forall vs s, langarray_to_langset (JsArray (map JsNumber vs)) = Ok s ->
  exists ls, langset_to_langarray s = JsArray (map JsNumber (map f_of_N ls)) /\ StronglySorted N.lt ls /\
    forall l, l ∈ ls <-> l < 128 /\ exists v, v ∈ vs /\ as_uint (2 ^ 64 - 1) v l.
Proof.
  intros vs s H. apply C55_to_set in H. inversion H as [| |vs' s' Hs Hl E]; subst.
  assert (vs' = vs) as ->.
  { clear -E. revert vs E. induction vs' as [|v vs' IH]; intros [|w vs] E; cbn [map] in E; [done|done|done|].
    assert (v = w) as -> by congruence. f_equal. apply IH. congruence. }
  destruct (C55_to_array s Hs) as (ls & [H1 H2] & H3). exists ls. split; [done|]. split; [done|]. intros l. rewrite H2. split.
  - intros Hb. assert (l < 128); [|split; [done|by apply Hl]].
    destruct (decide (l < 128)); [done|]. rewrite (proj1 (Bits_proofs.lt_pow2_bits s 128) Hs l) in Hb by lia. done.
  - intros [H4 H5]. by apply Hl.
Qed.
Print Assumptions C55_array_round_trip.
(** Integers up to 2^53 stand for themselves. *)
Theorem C55_integers :
  forall max n, n < 2 ^ 53 -> n <= max -> as_uint max (f_of_N n) n.
Proof. intros max n H1 H2. apply cast_uint_iff. symmetry. by apply cast_of_N. Qed.
Print Assumptions C55_integers.
(** 5, 1, 127, 128, 5, 2.5, -1 and NaN: 2.5 is language 2, and both of the last two are
    taken for language 0. *)
Example C55_ex :
  let vs := [f_of_N 5; f_of_N 1; f_of_N 127; f_of_N 128; f_of_N 5; f_lit 5 2; S754_finite true 1 0; S754_nan] in
  match langarray_to_langset (JsArray (map JsNumber vs)) with
  | Ok s => s = 2 ^ 127 + 39 /\ langset_to_langarray s = JsArray (map JsNumber (map f_of_N [0; 1; 2; 5; 127]))
  | _ => False
  end.
Proof. vm_compute. split; reflexivity. Qed.

(** ** C56 Life cycle of the builder object *)
(** Before finish() each call makes the native call it stands for or is rejected, and
    the database is not touched; finish() writes what the builder holds; then every
    call fails and nothing changes any more. *)
Theorem C56_lifecycle :
  forall o b d before after, JsFinish ∉ before ->
  exists rs b', performs b before rs b' /\
    js_run o (Some b, d) before = (rs, (Some b', d)) /\
    (forall d', finish o b' d = Ok d' ->
     js_run o (Some b, d) (before ++ JsFinish :: after) =
       (rs ++ Ok tt :: replicate (length after) Err, (None, d'))) /\
    ((forall d', finish o b' d <> Ok d') ->
     exists r, r <> Ok tt /\
       js_run o (Some b, d) (before ++ JsFinish :: after) =
         (rs ++ r :: replicate (length after) Err, (None, d))).
Proof.
  intros o b d before after Hn. destruct (js_run_open o d before b Hn) as (rs & b' & Hp & Hr).
  exists rs, b'. split; [done|]. split; [done|]. rewrite js_run_app, Hr. cbn [fst snd]. rewrite js_run_cons.
  unfold js_step. cbn [fst snd]. split.
  - intros d' E. rewrite E. cbn [fst snd]. by rewrite js_run_closed.
  - intros E. destruct (finish o b' d) as [d'| | |] eqn:Ef.
    + exfalso. by eapply E.
    + exists Err. split; [done|]. cbn [fst snd]. by rewrite js_run_closed.
    + exists Panic. split; [done|]. cbn [fst snd]. by rewrite js_run_closed.
    + exists Diverge. split; [done|]. cbn [fst snd]. by rewrite js_run_closed.
Qed.
Print Assumptions C56_lifecycle.
(** Without renumber() the finished directory is one written by the accepted calls. *)
Lemma performs_ops b cs rs b' : performs b cs rs b' -> (forall ids, JsRenumber ids ∉ cs) ->
  exists ops, accepted cs ops /\ b' = foldl apply_op b ops.
Proof.
  induction 1 as [b|b c o cs rs b' H1 H2 IH|b ids cs rs b' H1 IH|b c cs rs b' H1 H2 H3 IH]; intros Hn.
  - exists []. split; [constructor|done].
  - destruct IH as (ops & Ha & ->). { intros ids Hi. apply (Hn ids). by right. }
    exists (o :: ops). split; [by constructor|done].
  - exfalso. apply (Hn (Some ids)). by left.
  - destruct IH as (ops & Ha & ->). { intros ids Hi. apply (Hn ids). by right. }
    exists ops. split; [by constructor|done].
Qed.
Theorem C56_built :
  forall o cs d zoom type_id radius bboxes max_score, JsFinish ∉ cs -> (forall ids, JsRenumber ids ∉ cs) ->
  (js_run o (Some builder_new, ∅) (cs ++ [JsFinish])).2 = (None, d) ->
  last (js_run o (Some builder_new, ∅) (cs ++ [JsFinish])).1 = Some (Ok tt) ->
  exists ops, accepted cs ops /\ built o ops (open_store d zoom type_id radius bboxes max_score).
Proof.
  intros o cs d zoom type_id radius bboxes max_score Hf Hr H1 H2.
  destruct (C56_lifecycle o builder_new ∅ cs [] Hf) as (rs & b' & Hp & _ & Hok & Hbad).
  destruct (performs_ops _ _ _ _ Hp Hr) as (ops & Ha & ->). exists ops. split; [done|].
  exists d, zoom, type_id, radius, bboxes, max_score. split; [|done]. change (foldl apply_op builder_new ops) with (run ops) in *.
  destruct (finish o (run ops) ∅) as [d'| | |] eqn:E.
  - rewrite (Hok d' eq_refl) in H1. cbn [snd] in H1. congruence.
  - exfalso. destruct Hbad as (r & Hr' & Hb); [done|]. rewrite Hb in H2. cbn [fst length replicate] in H2. rewrite last_snoc in H2. congruence.
  - exfalso. destruct Hbad as (r & Hr' & Hb); [done|]. rewrite Hb in H2. cbn [fst length replicate] in H2. rewrite last_snoc in H2. congruence.
  - exfalso. destruct Hbad as (r & Hr' & Hb); [done|]. rewrite Hb in H2. cbn [fst length replicate] in H2. rewrite last_snoc in H2. congruence.
Qed.
Print Assumptions C56_built.
Definition js_ex_key : js_key := JsKey (JsNumber (f_of_N 7)) (JsArray [JsNumber (f_of_N 1)]).
Definition js_ex_calls : list js_call :=
  [ JsInsert js_ex_key (Some [ex_e1]);
    JsAppend (JsKey JsNull JsNull) (Some [ex_e2]);
    JsAppend js_ex_key None;
    JsCompact js_ex_key (JsNumber f_one) (JsNumber (f_of_N 3)) (JsNumber (f_of_N 9)) (JsNumber f_zero) (Some [(1, 2)]);
    JsBounds (Some [0; 8]) ].
Example C56_ex :
  (js_run id_oracle (Some builder_new, ∅) (js_ex_calls ++ JsFinish :: js_ex_calls ++ [JsFinish])).1 =
    [Ok tt; Err; Err; Ok tt; Ok tt; Ok tt] ++ replicate 6 Err /\
  (match (js_run id_oracle (Some builder_new, ∅) (js_ex_calls ++ JsFinish :: js_ex_calls)).2 with
   | (None, d) => js_get (open_default d) js_ex_key = Ok (Some [ex_e1; GridEntry f_one 3 1 2 9 0])
   | _ => False
   end).
Proof. split; vm_compute; reflexivity. Qed.
(** A phrase id that does not fit is taken for 2^32-1, with which finish() never
    returns (see C23). *)
Theorem C56_phrase_refuted :
  exists k key, as_key k key /\ jk_phrase k = JsNumber (f_of_N (2 ^ 32)) /\
    (js_run id_oracle (Some builder_new, ∅) [JsInsert k (Some [ex_e1]); JsFinish]).1 = [Ok tt; Diverge].
Proof.
  exists (JsKey (JsNumber (f_of_N (2 ^ 32))) JsNull), (u32_max, u128_max). split; [apply to_key_iff; vm_compute; reflexivity|].
  split; [reflexivity|]. vm_compute. reflexivity.
Qed.
Print Assumptions C56_phrase_refuted.

(** ** C58 Iterating over the keys from JavaScript *)
(** next() gives every written key once, then reports the end, each time; a key given
    back to get() is the key it came from. *)
Theorem C58_keys :
  forall o ops s, history_ok ops -> built o ops s ->
  exists ks, NoDup ks /\ (forall k, k ∈ ks <-> is_Some (written ops !! k)) /\
    (forall n, js_keys_take (length ks + n) (js_keys s) =
       map (fun k : N * N => Ok (JsValue (f_of_N k.1) (langset_to_langarray k.2))) ks ++ replicate n (Ok JsDone)) /\
    forall k, k ∈ ks -> js_get s (JsKey (JsNumber (f_of_N k.1)) (langset_to_langarray k.2)) = get s k.
Proof.
  intros o ops s Hh Hb. destruct (built_keys o ops s Hh Hb) as (ks & Hk & Hnd & Hin & _ & Hok). exists ks.
  split; [done|]. split; [done|]. split.
  - intros n. unfold js_keys. rewrite (js_keys_all _ ks n Hk). done.
  - intros k Hk'. unfold js_get. change k.1 with (gk_phrase k). change k.2 with (gk_lang k).
    rewrite js_key_back; [done|]. rewrite Forall_forall in Hok. by apply Hok.
Qed.
Print Assumptions C58_keys.
Example C58_ex :
  js_keys_take 6 (js_keys (ex_store ex_ops)) =
    map (fun k : N * N => Ok (JsValue (f_of_N k.1) (langset_to_langarray k.2)))
        [(1, 1); (2, u128_max); (2, 6); (4, 0)] ++ [Ok JsDone; Ok JsDone] /\
  langset_to_langarray 6 = JsArray [JsNumber f_one; JsNumber (f_of_N 2)].
Proof. split; vm_compute; reflexivity. Qed.

(** ** C59 stack_and_coalesce is sound *)
(** The same layer, up to the keys. *)
Definition alike (a b : subquery) : Prop :=
  sq_store a = sq_store b /\ sq_idx a = sq_idx b /\ sq_nonoverlap a = sq_nonoverlap b /\
  sq_weight a = sq_weight b /\ sq_mask a = sq_mask b.
Lemma collapses_alike pms out : groups_agree pms -> collapses pms out ->
  forall g k, g ∈ out -> k ∈ sq_keys g -> exists q, q ∈ pms /\ alike g q /\ k ∈ sq_keys q.
Proof.
  intros Hg Hc g k Hin Hk. destruct (collapses_from _ _ Hc g Hin) as (q & ks & Hq & -> & Hks).
  cbn [with_keys sq_keys] in Hk. apply elem_of_app in Hk as [Hk|Hk]; [exists q; done|].
  destruct (Hks k Hk) as (q' & Hq' & Ht & Hk'). exists q'. split; [done|]. split; [|done].
  destruct (Hg q' q Hq' Hq Ht) as (H1 & H2 & H3). destruct Ht as (_ & H4 & H5). repeat split; cbn; congruence.
Qed.
Lemma alike_level p mtb tb o n g e pms out : groups_agree pms -> collapses pms out -> g ∈ out ->
  level_entry p mtb tb o n g e -> exists q, q ∈ pms /\ alike g q /\ level_entry p mtb tb o n q e.
Proof.
  intros Hg Hc Hin (k & m & (ko & l & Hk & Hko & Hs & Hm) & Hto).
  destruct (collapses_alike _ _ Hg Hc g k Hin Hk) as (q & Hq & Ha & Hk'). exists q. split; [done|]. split; [done|].
  destruct Ha as (E1 & E2 & E3 & E4 & E5). exists k, m. split.
  - exists ko, l. split; [done|]. split; [|by rewrite <- E1].
    destruct Hko as (zo & Hz & Hko). exists zo. split; [|done]. unfold zoom_of in *. by rewrite <- E1.
  - unfold to_entry in *. by rewrite <- E2, <- E4, <- E5.
Qed.
Lemma alike_stack p mtb tb o pms out : groups_agree pms -> collapses pms out ->
  forall chain es, stack_of p mtb tb o chain es -> (forall g, g ∈ chain -> g ∈ out) ->
  exists chain', Forall2 alike chain chain' /\ (forall q, q ∈ chain' -> q ∈ pms) /\ stack_of p mtb tb o chain' es.
Proof.
  intros Hg Hc chain es H. induction H as [pm e He|pm e pm' e' chain es He Hi Hs IH]; intros Hin.
  - destruct (alike_level p mtb tb o 100000 pm e pms out Hg Hc) as (q & Hq & Ha & Hl); [apply Hin; by left|done|].
    exists [q]. split; [constructor; [done|constructor]|]. split; [|by constructor]. intros q' Hq'. apply elem_of_list_singleton in Hq' as ->. done.
  - destruct (alike_level p mtb tb o 100000 pm e pms out Hg Hc) as (q & Hq & Ha & Hl); [apply Hin; by left|done|].
    destruct IH as (chain' & Hf & Hp & Hs'). { intros g Hg'. apply Hin. by right. }
    inversion Hf as [|? q' ? chain'' Ha' Hf']; subst. exists (q :: q' :: chain'').
    split; [by constructor|]. split; [intros x Hx; apply elem_of_cons in Hx as [->|Hx]; [done|by apply Hp]|].
    apply stack_more; [done| |done]. unfold inside, zoom_of in *.
    destruct Ha as (Ha & _), Ha' as (Ha' & _). by rewrite <- Ha, <- Ha'.
Qed.
Lemma alike_legal A B chain : legal A chain -> forall chain', Forall2 alike chain chain' -> (forall q, q ∈ chain' -> q ∈ B) -> legal B chain'.
Proof.
  intros (_ & H2 & H3 & H4) chain' Hf Hin. split; [done|].
  assert (E1 : map sq_mask chain' = map sq_mask chain).
  { clear -Hf. induction Hf as [|a b l l' (_ & _ & _ & _ & E) Hf IH]; [done|]. cbn [map]. by rewrite E, IH. }
  assert (E2 : Forall2 (fun a b => type_of a = type_of b) chain chain').
  { eapply Forall2_impl; [exact Hf|]. intros a b (E & _). unfold type_of. by rewrite E. }
  split; [|split; [by rewrite E1|]].
  - clear -H2 E2. induction E2 as [|a b l l' E Hf IH]; [constructor|]. inversion H2 as [|? ? H1 H3]; subst.
    constructor; [by apply IH|]. rewrite List.Forall_forall in *. intros x Hx. apply elem_of_list_In in Hx.
    apply elem_of_list_lookup in Hx as [i Hi]. destruct (Forall2_lookup_r _ _ _ _ _ Hf Hi) as (y & Hy & Ey).
    rewrite <- E, <- Ey. apply H3. apply elem_of_list_In. by eapply elem_of_list_lookup_2.
  - clear -H4 Hf. revert H4. generalize root_idx. induction Hf as [|a b l l' (_ & Ei & En & _) Hf IH]; intros r H; [done|].
    destruct H as [H5 H6]. cbn [not_excluded]. rewrite <- En. split; [done|]. rewrite <- Ei. by apply IH.
Qed.
Lemma Forall2_rev' {A B} (P : A -> B -> Prop) l l' : Forall2 P l l' -> Forall2 P (rev l) (rev l').
Proof.
  induction 1 as [|a b l l' H Hf IH]; [constructor|]. cbn [rev]. apply Forall2_app; [done|]. constructor; [done|constructor].
Qed.
Theorem C59_sound :
  forall p ho mtb tb pms o out c, ids_name_keys (fun pm => pm ∈ pms) -> groups_agree pms ->
  stack_and_coalesce p ho mtb tb pms o = Ok out -> c ∈ out ->
  exists chain, chain <> [] /\ legal pms (rev chain) /\
    cc_mask c = all_masks (map sq_mask chain) /\ map ce_mask (cc_entries c) = map sq_mask chain /\
    (stack_of p mtb tb o chain (cc_entries c) \/
     exists pm e, chain = [pm] /\ cc_entries c = [e] /\ level_entry p mtb tb o 80 pm e).
Proof.
  intros p ho mtb tb pms o out c Hids Hg H Hc. unfold stack_and_coalesce in H.
  apply bind_Ok in H as (groups & Hcol & H). apply C54_collapse in Hcol. cbn zeta in H.
  destruct (C50_stacks p ho mtb tb (tree_fuel (stackable groups)) groups o out c) as (chain & Hne & Hleg & Hm & Hms & Hst); [|exact H|exact Hc|].
  - intros g1 g2 k1 k2 H1 H2 K1 K2 E.
    destruct (collapses_alike _ _ Hg Hcol g1 k1 H1 K1) as (q1 & Q1 & (A1 & _) & L1).
    destruct (collapses_alike _ _ Hg Hcol g2 k2 H2 K2) as (q2 & Q2 & (A2 & _) & L2).
    rewrite A1, A2. by apply Hids.
  - assert (Hin : forall g, g ∈ chain -> g ∈ groups).
    { intros g Hgc. apply Hleg. apply elem_of_list_In. apply -> List.in_rev. by apply elem_of_list_In. }
    destruct Hst as [Hst|(pm & e & -> & He & Hl)].
    + destruct (alike_stack _ _ _ _ _ _ Hg Hcol chain _ Hst Hin) as (chain' & Hf & Hp & Hst').
      assert (E1 : map sq_mask chain' = map sq_mask chain).
      { clear -Hf. induction Hf as [|a b l l' (_ & _ & _ & _ & E) Hf IH]; [done|]. cbn [map]. by rewrite E, IH. }
      exists chain'. rewrite E1. split; [by intros ->; inversion Hf; subst|]. split; [|split; [done|split; [done|by left]]].
      eapply alike_legal; [exact Hleg|by apply Forall2_rev'|].
      intros q Hq. apply Hp. apply elem_of_list_In. apply List.in_rev. by apply elem_of_list_In.
    + destruct (alike_level p mtb tb o 80 pm e pms groups Hg Hcol) as (q & Hq & Ha & Hl'); [apply Hin; by left|done|].
      assert (Ha2 := Ha). destruct Ha2 as (_ & _ & _ & _ & E). exists [q]. cbn [map] in *. rewrite <- E.
      split; [done|]. split; [|split; [done|split; [done|right; by exists q, e]]].
      eapply alike_legal; [exact Hleg|constructor; [done|constructor]|]. intros x Hx. apply elem_of_list_singleton in Hx as ->. done.
Qed.
Print Assumptions C59_sound.
(** Two keys for the finer layer, in two subqueries that are put together. *)
Definition t_b2 : subquery := tlayer 2 ops_b 6 1 1 (f_lit 1 2) 12.
Lemma other_idx {P : Prop} a b : sq_idx a =? sq_idx b = false -> together a b -> P.
Proof. intros H (_ & E & _). rewrite E, N.eqb_refl in H. discriminate. Qed.
Lemma tlayer_agree type ops zoom idx mask weight id id' :
  let a := tlayer type ops zoom idx mask weight id in let b := tlayer type ops zoom idx mask weight id' in
  sq_store a = sq_store b /\ sq_nonoverlap a = sq_nonoverlap b /\ sq_weight a = sq_weight b.
Proof. repeat split. Qed.
Example C59_ex :
  ids_name_keys (fun pm => pm ∈ [t_b; t_a; t_b2]) /\ groups_agree [t_b; t_a; t_b2] /\
  map (fun c => map ce_phrasematch_id (cc_entries c))
    (ok_list (stack_and_coalesce Debug rev_oracle first_mtb last_tb [t_b; t_a; t_b2] t_opts)) =
    [[12; 10]; [11; 10]; [11; 10]; [12; 10]; [12; 10]; [11; 10]; [11; 10]; [12; 10]; [12; 10]; [11; 10];
     [12]; [11]; [12]; [11]; [10]; [10]; [10]; [11]; [12]].
Proof.
  split; [apply distinct_ids; vm_compute; repeat (constructor; [set_solver|]); constructor|].
  split; [|vm_compute; reflexivity].
  intros a b Ha Hb. apply elem_of_cons in Ha as [->|Ha]; [|apply elem_of_cons in Ha as [->|Ha]; [|apply elem_of_list_singleton in Ha as ->]];
    (apply elem_of_cons in Hb as [->|Hb]; [|apply elem_of_cons in Hb as [->|Hb]; [|apply elem_of_list_singleton in Hb as ->]]).
  all: try (apply other_idx; vm_compute; reflexivity).
  all: intros _; apply tlayer_agree.
Qed.
