(** Properties C63 and C64: phrasematch objects, and stack_and_coalesce as a whole. *)
From Verif Require Import Prelude Lists F64 Heap Common Builder Spatial Store Spec Spec_match Query Coalesce Stackable Tree
  Native Cmp_proofs Queue_proofs Spec_coalesce Spec_stack Spec_tree Spec_quota Tree_proofs Spec_native Spec_js Spec_complete Spec_exact
  Stack_proofs Native_proofs Complete_proofs Exact_proofs Examples Props_storage Props_coalesce Props_stack Props_tree Props_native
  Props_complete Props_exact.
From Coq Require Import Sorting.Sorted.
From Coq Require Import ZifyBool.
Local Open Scope N_scope.

(** ** C63 Phrasematch objects *)
Lemma setbits_ok l : forall a i, N.testbit (foldl N.setbit a l) i = true <-> N.testbit a i = true \/ i ∈ l.
Proof.
  induction l as [|n l IH]; intros a i; cbn [foldl].
  - split; [by left|]. intros [?|H]; [done|by apply elem_of_nil in H].
  - rewrite IH, N.setbit_eqb, elem_of_cons. destruct (N.eqb_spec n i); cbn; naive_solver.
Qed.
Lemma given_iff {A} (x : option A) a : given x = Ok a <-> x = Some a.
Proof. destruct x; cbn; split; congruence. Qed.
Lemma given_total {A} (x : option A) : (exists a, given x = Ok a) \/ given x = Err.
Proof. destruct x; cbn; eauto. Qed.
Lemma to_subquery_iff j q : to_subquery j = Ok q <-> as_subquery j q.
Proof.
  unfold to_subquery. split.
  - intros H. apply bind_Ok in H as (lang & Hl & H). apply bind_Ok in H as (nearby & Hn & H).
    apply bind_Ok in H as (non & Ho & H). apply bind_Ok in H as (weight & Hw & H). apply bind_Ok in H as (phrase & Hp & H).
    apply bind_Ok in H as (id & Hi & H). apply bind_Ok in H as (mask & Hm & H). apply bind_Ok in H as (idx & Hx & H).
    apply given_iff in Ho, Hw, Hp, Hi, Hm, Hx. apply langs_iff in Hl.
    assert (Hf : as_flag (jp_nearby j) nearby).
    { destruct (jp_nearby j); try done; injection Hn as <-; constructor. }
    injection H as <-. split; [done|]. split; [done|]. split; [done|]. split; [done|]. split.
    + exists non. split; [done|]. intros i. cbn [sq_nonoverlap]. rewrite setbits_ok, N.bits_0. naive_solver.
    + eexists. split; [done|]. done.
  - intros (H1 & H2 & H3 & H4 & (l & H5 & H6) & [[phrase lang] nearby id len] & H7 & K1 & K2 & K3 & K4 & K5).
    destruct q as [store idx non weight mask keys].
    cbn [sq_store sq_weight sq_mask sq_idx sq_nonoverlap sq_keys mki_key mki_id mki_nearby mki_length mk_phrase mk_lang] in *. subst.
    rewrite (proj2 (langs_iff _ _) K2), H5, H2, K1, K4, H3, H4.
    assert (match jp_nearby j with JsUndefined => Ok false | JsBoolean b => Ok b | _ => Err end = Ok nearby) as ->.
    { inversion K3; reflexivity. }
    cbn [res_bind given]. f_equal. f_equal. apply N.bits_inj. intros i. apply eq_iff_eq_true. rewrite H6, setbits_ok, N.bits_0. naive_solver.
Qed.
Lemma to_subquery_total j : (exists q, to_subquery j = Ok q) \/ to_subquery j = Err.
Proof.
  unfold to_subquery. destruct (langs_total (jp_lang j)) as [[s ->]| ->]; cbn [res_bind]; [|by right].
  destruct (jp_nearby j); cbn [res_bind]; try (by right).
  all: destruct (given_total (jp_nonoverlap j)) as [[? ->]| ->]; cbn [res_bind]; [|by right].
  all: destruct (given_total (jp_weight j)) as [[? ->]| ->]; cbn [res_bind]; [|by right].
  all: destruct (given_total (jp_phrase j)) as [[? ->]| ->]; cbn [res_bind]; [|by right].
  all: destruct (given_total (jp_id j)) as [[? ->]| ->]; cbn [res_bind]; [|by right].
  all: destruct (given_total (jp_mask j)) as [[? ->]| ->]; cbn [res_bind]; [|by right].
  all: destruct (given_total (jp_idx j)) as [[? ->]| ->]; cbn [res_bind]; [|by right].
  all: left; by eexists.
Qed.
Lemma readable_iff j : readable j <-> exists q, as_subquery j q.
Proof.
  split.
  - intros ([w Hw] & [m Hm] & [ph Hp] & [id Hi] & [x Hx] & [l Hl] & Hn & Hlang).
    enough (exists q, to_subquery j = Ok q) as [q Hq] by (exists q; by apply to_subquery_iff).
    unfold to_subquery. rewrite Hw, Hm, Hp, Hi, Hx, Hl.
    assert (exists s, langarray_to_langset (jp_lang j) = Ok s) as [s ->].
    { destruct Hlang as [->|[->|[vs ->]]]; [by eexists..|]. cbn [langarray_to_langset].
      destruct (add_langs_ok vs 0 ltac:(lia)) as (s & Hs & _). by exists s. }
    cbn [res_bind given]. destruct Hn as [->|[b ->]]; cbn [res_bind]; by eexists.
  - intros (q & _ & H2 & H3 & H4 & (l & H5 & _) & k & _ & K1 & K2 & K3 & K4 & _).
    repeat (split; [by eexists|]). split.
    + inversion K3; eauto.
    + inversion K2; eauto.
Qed.
Theorem C63_converted :
  forall js pms, deserialize_phrasesubq js = Ok pms <-> Forall2 as_subquery js pms.
Proof.
  intros js pms. unfold deserialize_phrasesubq. rewrite res_mapM_Ok. split; intros H; eapply Forall2_impl; try exact H; intros j q; apply to_subquery_iff.
Qed.
Print Assumptions C63_converted.
(** An object stands for one subquery only. *)
Theorem C63_unique :
  forall j q q', as_subquery j q -> as_subquery j q' -> q = q'.
Proof. intros j q q' H H'. apply to_subquery_iff in H, H'. congruence. Qed.
Print Assumptions C63_unique.
Theorem C63_rejected :
  forall js, deserialize_phrasesubq js = Err <-> exists j, j ∈ js /\ ~ readable j.
Proof.
  unfold deserialize_phrasesubq. induction js as [|j js IH]; cbn [res_mapM].
  - split; [done|]. intros (j & Hj & _). by apply elem_of_nil in Hj.
  - destruct (to_subquery_total j) as [[q Hq]|Hq]; rewrite Hq; cbn [res_bind].
    + assert (Hr : readable j) by (apply readable_iff; exists q; by apply to_subquery_iff).
      destruct (res_mapM to_subquery js) as [l| | |] eqn:E; cbn [res_bind].
      * split; [done|]. intros (j' & Hj & Hn). apply elem_of_cons in Hj as [->|Hj]; [done|].
        destruct IH as [_ IH]. discriminate (IH (ex_intro _ j' (conj Hj Hn))).
      * split; [|done]. intros _. destruct (proj1 IH eq_refl) as (j' & Hj & Hn). exists j'. split; [by right|done].
      * split; [done|]. intros (j' & Hj & Hn). apply elem_of_cons in Hj as [->|Hj]; [done|].
        destruct IH as [_ IH]. discriminate (IH (ex_intro _ j' (conj Hj Hn))).
      * split; [done|]. intros (j' & Hj & Hn). apply elem_of_cons in Hj as [->|Hj]; [done|].
        destruct IH as [_ IH]. discriminate (IH (ex_intro _ j' (conj Hj Hn))).
    + split; [|done]. intros _. exists j. split; [by left|]. intros Hr. apply readable_iff in Hr as [q Hr].
      apply to_subquery_iff in Hr. congruence.
Qed.
Print Assumptions C63_rejected.
(** There is no other outcome. *)
Theorem C63_accepted :
  forall js, (exists pms, deserialize_phrasesubq js = Ok pms) <-> forall j, j ∈ js -> readable j.
Proof.
  unfold deserialize_phrasesubq. intros js. split.
  - intros [pms H] j Hj. apply res_mapM_Ok in H. apply elem_of_list_lookup in Hj as [i Hi].
    destruct (Forall2_lookup_l _ _ _ _ _ H Hi) as (q & _ & Hq). apply readable_iff. exists q. by apply to_subquery_iff.
  - induction js as [|j js IH]; intros H; [by exists []|]. cbn [res_mapM].
    destruct IH as [pms Hpms]. { intros j' Hj. apply H. by right. }
    destruct (proj1 (readable_iff j) (H j ltac:(by left))) as [q Hq]. apply to_subquery_iff in Hq.
    rewrite Hq, Hpms. by eexists.
Qed.
Print Assumptions C63_accepted.

(** ** C64 stack_and_coalesce *)
Lemma together_refl a : together a a.
Proof. split; [apply (tc_refl _ total_cmp_ord)|done]. Qed.
Lemma alike_together a b : alike a b -> together a b.
Proof. intros (_ & E2 & _ & E4 & E5). split; [rewrite E4; apply (tc_refl _ total_cmp_ord)|done]. Qed.
Section groups.
  Context (p : profile) (mtb : merge_tb) (tb : tiebreak) (o : match_opts) (pms out : list subquery).
  Context (Hone : forall q, q ∈ pms -> length (sq_keys q) = 1%nat).
  Context (Hnd : NoDup (map mki_id (mjoin (map sq_keys pms)))).
  Context (Hagree : groups_agree pms) (Hc : collapses pms out).

  Lemma group_ids : NoDup (map mki_id (mjoin (map sq_keys out))).
  Proof. destruct (C54_keys pms out Hone) as [Hp _]; [by apply C54_collapse|]. by rewrite Hp. Qed.
  Lemma group_index i j a b : out !! i = Some a -> out !! j = Some b -> together a b -> i = j.
  Proof. destruct (C54_keys pms out Hone) as [_ H]; [by apply C54_collapse|]. apply H. Qed.
  Lemma group_same a b : a ∈ out -> b ∈ out -> together a b -> a = b.
  Proof.
    intros Ha Hb Ht. apply elem_of_list_lookup in Ha as [i Hi], Hb as [j Hj]. pose proof (group_index i j a b Hi Hj Ht). congruence.
  Qed.
  Lemma group_nodup : NoDup out.
  Proof. apply NoDup_alt. intros i j a Ha Hb. eapply group_index; [exact Ha|exact Hb|apply together_refl]. Qed.
  Lemma group_keys g : g ∈ out -> sq_keys g <> [].
  Proof.
    intros Hg. destruct (collapses_from _ _ Hc g Hg) as (q & ks & Hq & -> & _). cbn [with_keys sq_keys].
    specialize (Hone q Hq). destruct (sq_keys q); done.
  Qed.
  (** Each group has a member like it, and each subquery a group. *)
  Lemma group_member g : g ∈ out -> exists q, q ∈ pms /\ alike g q.
  Proof.
    intros Hg. pose proof (group_keys g Hg) as Hk. destruct (sq_keys g) as [|k ks] eqn:E; [done|].
    destruct (collapses_alike _ _ Hagree Hc g k Hg) as (q & Hq & Ha & _); [rewrite E; by left|]. by exists q.
  Qed.
  Lemma member_group q k : q ∈ pms -> k ∈ sq_keys q -> exists g, g ∈ out /\ alike g q /\ k ∈ sq_keys g.
  Proof.
    intros Hq Hk. destruct (C54_keys pms out Hone) as [Hp _]; [by apply C54_collapse|].
    assert (Hin : k ∈ mjoin (map sq_keys out)).
    { rewrite Hp. apply elem_of_mjoin. exists (sq_keys q). split; [done|]. apply elem_of_map. by exists q. }
    apply elem_of_mjoin in Hin as (ks & Hks & Hin). apply elem_of_map in Hin as (g & -> & Hg). exists g. split; [done|]. split; [|done].
    destruct (collapses_alike _ _ Hagree Hc g k Hg Hks) as (q' & Hq' & Ha & Hk').
    enough (q' = q) by (by subst). clear -Hnd Hq Hk Hq' Hk'.
    induction pms as [|q0 l IH]; [by apply elem_of_nil in Hq|]. cbn [map] in Hnd.
    change (mjoin (?a :: ?b)) with (a ++ mjoin b) in Hnd. rewrite List.map_app in Hnd. apply NoDup_app in Hnd as (N1 & N2 & N3).
    assert (Hl : forall x, x ∈ l -> k ∈ sq_keys x -> mki_id k ∈ map mki_id (mjoin (map sq_keys l))).
    { intros x Hx Hkx. apply elem_of_map. exists k. split; [done|]. apply elem_of_mjoin. exists (sq_keys x). split; [done|].
      apply elem_of_map. by exists x. }
    assert (H0 : k ∈ sq_keys q0 -> mki_id k ∈ map mki_id (sq_keys q0)). { intros H. apply elem_of_map. by exists k. }
    apply elem_of_cons in Hq as [->|Hq], Hq' as [->|Hq']; [done| | |by apply IH].
    - exfalso. exact (N2 _ (H0 Hk) (Hl _ Hq' Hk')).
    - exfalso. exact (N2 _ (H0 Hk') (Hl _ Hq Hk)).
  Qed.
  Lemma alike_sym a b : alike a b -> alike b a.
  Proof. intros (? & ? & ? & ? & ?). repeat split; congruence. Qed.
  Lemma alike_match g q k n m : alike g q -> k ∈ sq_keys q -> key_match p mtb tb o n g k m -> key_match p mtb tb o n q k m.
  Proof.
    intros (E1 & _) Hk (ko & l & _ & Hko & Hs & Hm). exists ko, l. split; [done|]. split; [|by rewrite <- E1].
    destruct Hko as (zo & Hz & Hko). exists zo. split; [|done]. unfold zoom_of in *. by rewrite <- E1.
  Qed.
  Lemma alike_first g q k m : alike g q -> k ∈ sq_keys q -> first_match p mtb tb o g k m -> first_match p mtb tb o q k m.
  Proof.
    intros (E1 & _) Hk (ko & l & i & _ & Hko & Hs & Hm). exists ko, l, i. split; [done|]. split; [|by rewrite <- E1].
    destruct Hko as (zo & Hz & Hko). exists zo. split; [|done]. unfold zoom_of in *. by rewrite <- E1.
  Qed.
  Lemma alike_entry g q k m e : alike g q -> entry_of g k m e -> entry_of q k m e.
  Proof. intros (E1 & E2 & E3 & E4 & E5) [H1 H2]. unfold entry_of, to_entry in *. by rewrite <- E2, <- E4, <- E5. Qed.
  Lemma stack_entry_member g e : g ∈ out -> stack_entry p mtb tb o g e ->
    exists q, q ∈ pms /\ alike g q /\ stack_entry p mtb tb o q e.
  Proof.
    intros Hg (k & m & Hf & He). assert (Hf' := Hf). destruct Hf' as (ko & l & i & Hk & _).
    destruct (collapses_alike _ _ Hagree Hc g k Hg Hk) as (q & Hq & Ha & Hk'). exists q. split; [done|]. split; [done|].
    exists k, m. split; [by apply (alike_first g)|by apply (alike_entry g)].
  Qed.
  Lemma stack_entry_group q e : q ∈ pms -> stack_entry p mtb tb o q e ->
    exists g, g ∈ out /\ alike g q /\ stack_entry p mtb tb o g e.
  Proof.
    intros Hq (k & m & Hf & He). assert (Hf' := Hf). destruct Hf' as (ko & l & i & Hk & _).
    destruct (member_group q k Hq Hk) as (g & Hg & Ha & Hk'). exists g. split; [done|]. split; [done|].
    exists k, m. split; [by apply (alike_first q); [apply alike_sym|..]|apply (alike_entry q); [by apply alike_sym|done]].
  Qed.
  Lemma nested_alike_members : forall chain es, nested_stack p mtb tb o chain es -> (forall g, g ∈ chain -> g ∈ out) ->
    exists chain', Forall2 alike chain chain' /\ (forall q, q ∈ chain' -> q ∈ pms) /\ nested_stack p mtb tb o chain' es.
  Proof.
    intros chain es H. induction H as [pm e He|pm e pm' e' chain es Hs IH He H1 H2]; intros Hin.
    - destruct (stack_entry_member pm e) as (q & Hq & Ha & Hl); [apply Hin; by left|done|].
      exists [q]. split; [constructor; [done|constructor]|]. split; [|by constructor]. intros q' Hq'. apply elem_of_list_singleton in Hq' as ->. done.
    - destruct (stack_entry_member pm e) as (q & Hq & Ha & Hl); [apply Hin; by left|done|].
      destruct IH as (chain' & Hf & Hp & Hs'). { intros g Hg'. apply Hin. by right. }
      inversion Hf as [|? q' ? chain'' Ha' Hf']; subst. exists (q :: q' :: chain'').
      split; [by constructor|]. split; [intros x Hx; apply elem_of_cons in Hx as [->|Hx]; [done|by apply Hp]|].
      destruct Ha as (Ha & _), Ha' as (Ha' & _). apply nst_more; unfold zoom_of in *; rewrite <- ?Ha, <- ?Ha'; done.
  Qed.
  Lemma nested_alike_groups : forall chain es, nested_stack p mtb tb o chain es -> (forall q, q ∈ chain -> q ∈ pms) ->
    exists chain', Forall2 alike chain' chain /\ (forall g, g ∈ chain' -> g ∈ out) /\ nested_stack p mtb tb o chain' es.
  Proof.
    intros chain es H. induction H as [pm e He|pm e pm' e' chain es Hs IH He H1 H2]; intros Hin.
    - destruct (stack_entry_group pm e) as (q & Hq & Ha & Hl); [apply Hin; by left|done|].
      exists [q]. split; [constructor; [done|constructor]|]. split; [|by constructor]. intros q' Hq'. apply elem_of_list_singleton in Hq' as ->. done.
    - destruct (stack_entry_group pm e) as (q & Hq & Ha & Hl); [apply Hin; by left|done|].
      destruct IH as (chain' & Hf & Hp & Hs'). { intros g Hg'. apply Hin. by right. }
      inversion Hf as [|q' ? chain'' ? Ha' Hf']; subst. exists (q :: q' :: chain'').
      split; [by constructor|]. split; [intros x Hx; apply elem_of_cons in Hx as [->|Hx]; [done|by apply Hp]|].
      destruct Ha as (Ha & _), Ha' as (Ha' & _). apply nst_more; unfold zoom_of in *; rewrite ?Ha, ?Ha'; done.
  Qed.
  Lemma alike_members chain : (forall g, g ∈ chain -> g ∈ out) ->
    exists chain', Forall2 alike chain chain' /\ forall q, q ∈ chain' -> q ∈ pms.
  Proof.
    induction chain as [|g chain IH]; intros Hin.
    { exists []. split; [apply List.Forall2_nil|]. intros q Hq. by apply elem_of_nil in Hq. }
    destruct IH as (chain' & Hf & Hp). { intros x Hx. apply Hin. by right. }
    destruct (group_member g) as (q & Hq & Ha); [apply Hin; by left|]. exists (q :: chain'). split; [by constructor|].
    intros x Hx. apply elem_of_cons in Hx as [->|Hx]; [done|by apply Hp].
  Qed.
  Lemma alike_masks chain chain' : Forall2 alike chain chain' -> map sq_mask chain = map sq_mask chain'.
  Proof. induction 1 as [|a b l l' (_ & _ & _ & _ & E) Hf IH]; [done|]. cbn [map]. by rewrite E, IH. Qed.
  Lemma alike_weights chain chain' : Forall2 alike chain chain' -> sum_weights chain = sum_weights chain'.
  Proof.
    unfold sum_weights. intros H.
    assert (Hw : map sq_weight chain = map sq_weight chain').
    { clear -H. induction H as [|a b l l' (_ & _ & _ & E & _) Hf IH]; [done|]. cbn [map]. by rewrite E, IH. }
    clear H. revert chain' Hw. generalize f_zero.
    induction chain as [|a l IH]; intros f [|b l'] Hw; try done. cbn [map] in Hw. cbn [foldl].
    assert (sq_weight a = sq_weight b) as -> by congruence. apply IH. congruence.
  Qed.
  Lemma group_types : types_by_zoom pms -> types_by_zoom out.
  Proof.
    intros H a b Ha Hb Ht. destruct (group_member a Ha) as (qa & Qa & (Ea & _)), (group_member b Hb) as (qb & Qb & (Eb & _)).
    unfold type_of, zoom_of in *. rewrite Ea, Eb in *. by apply H.
  Qed.
  Lemma group_legal chain : legal out chain -> exists chain', Forall2 alike chain chain' /\ legal pms chain'.
  Proof.
    intros Hl. destruct (alike_members chain) as (chain' & Hf & Hp); [apply Hl|]. exists chain'. split; [done|].
    by eapply alike_legal.
  Qed.
  Lemma group_weights : (forall c, legal pms c -> ord_cmp (sum_weights c) f_max <> Gt) ->
    forall c, legal out c -> ord_cmp (sum_weights c) f_max <> Gt.
  Proof. intros H c Hl. destruct (group_legal c Hl) as (c' & Hf & Hl'). rewrite (alike_weights _ _ Hf). by apply H. Qed.
End groups.

Lemma own_ids_all (pms : list subquery) :
  NoDup (map mki_id (mjoin (map sq_keys pms))) -> own_ids (fun pm => pm ∈ pms) /\ forall pm, pm ∈ pms -> ids_distinct pm.
Proof.
  intros H.
  assert (E : map mki_id (mjoin (map sq_keys pms)) = mjoin (map (fun pm => map mki_id (sq_keys pm)) pms)).
  { clear. induction pms as [|a l IH]; [done|]. cbn [map]. change (mjoin (?a :: ?b)) with (a ++ mjoin b). by rewrite List.map_app, IH. }
  rewrite E in H. split; [by apply own_ids_ok|]. intros pm Hpm. clear E. induction pms as [|a l IH]; [by apply elem_of_nil in Hpm|].
  cbn [map] in H. change (mjoin (?a :: ?b)) with (a ++ mjoin b) in H. apply NoDup_app in H as (N1 & _ & N3).
  apply elem_of_cons in Hpm as [->|Hpm]; [exact N1|by apply IH].
Qed.
(** Only stacks, and none twice. *)
Theorem C64_exact :
  forall p ho mtb tb pms o out,
  (forall q, q ∈ pms -> length (sq_keys q) = 1%nat) -> NoDup (map mki_id (mjoin (map sq_keys pms))) ->
  groups_agree pms -> types_by_zoom pms -> (forall c, legal pms c -> ord_cmp (sum_weights c) f_max <> Gt) ->
  stack_and_coalesce p ho mtb tb pms o = Ok out ->
  (forall c, c ∈ out -> nested_result p mtb tb o pms c \/ lone_result p mtb tb o pms c) /\
  NoDup (map cc_entries out).
Proof.
  intros p ho mtb tb pms o out Hone Hnd Hag Hz Hfin H. unfold stack_and_coalesce in H.
  apply bind_Ok in H as (groups & Hcol & H). apply C54_collapse in Hcol. cbn zeta in H.
  destruct (own_ids_all groups) as [Hown Hdist]; [by eapply group_ids|].
  destruct (C62_stackable p ho mtb tb (tree_fuel (stackable groups)) groups o out) as [Hex Honce]; [|by eapply group_nodup|done|done| |done|].
  - by eapply group_weights.
  - by eapply group_types.
  - split; [|done]. intros c Hc. destruct (Hex c Hc) as [(chain & es & Hn & Hl & ->)|(g & k & m & e & Hg & Hk & He & ->)].
    + left. assert (Hin : forall g, g ∈ chain -> g ∈ groups).
      { intros g Hg. apply Hl. apply elem_of_list_In. apply -> List.in_rev. by apply elem_of_list_In. }
      destruct (nested_alike_members p mtb tb o pms groups Hag Hcol chain es Hn Hin) as (chain' & Hf & Hp & Hn').
      exists chain', es. split; [done|]. split.
      * eapply alike_legal; [exact Hl|by apply Forall2_rev'|]. intros q Hq. apply Hp. apply elem_of_list_In. apply List.in_rev.
        by apply elem_of_list_In.
      * unfold stack_context. by rewrite (alike_masks _ _ Hf).
    + right. destruct (collapses_alike _ _ Hag Hcol g k Hg) as (q & Hq & Ha & Hk'); [by destruct Hk as (? & ? & ? & _)|].
      exists q, k, m, e. split; [done|]. split; [by apply (alike_match p mtb tb o g)|]. split; [by apply (alike_entry g)|].
      destruct Ha as (_ & _ & _ & _ & E). by rewrite E.
Qed.
Print Assumptions C64_exact.

Lemma alike_apart (pms groups : list subquery) : (forall q, q ∈ pms -> length (sq_keys q) = 1%nat) -> collapses pms groups ->
  forall a b c, (forall g, g ∈ a -> g ∈ groups) -> (forall g, g ∈ b -> g ∈ groups) -> Forall2 alike a c -> Forall2 alike b c -> a = b.
Proof.
  intros Hone Hc. induction a as [|x a IH]; intros b c Ha Hb Hac Hbc.
  - inversion Hac; subst. by inversion Hbc.
  - inversion Hac as [|? z ? c' Hx Hac']; subst. inversion Hbc as [|y ? b' ? Hy Hbc']; subst. f_equal.
    + eapply (group_same pms groups Hone Hc); [apply Ha; by left|apply Hb; by left|].
      eapply together_trans; [by apply alike_together|]. apply together_sym. by apply alike_together.
    + apply (IH b' c'); [intros g Hg; apply Ha; by right|intros g Hg; apply Hb; by right|done|done].
Qed.
Lemma group_few pms groups : (forall q, q ∈ pms -> length (sq_keys q) = 1%nat) -> groups_agree pms -> collapses pms groups ->
  (forall cs, NoDup cs -> (forall c, c ∈ cs -> c <> [] /\ legal pms c) -> N.of_nat (length cs) < 2000) ->
  forall cs, NoDup cs -> (forall c, c ∈ cs -> c <> [] /\ legal groups c) -> N.of_nat (length cs) < 2000.
Proof.
  intros Hone Hag Hc Hfew cs Hnd Hcs.
  assert (exists cs', Forall2 (Forall2 alike) cs cs' /\ forall c, c ∈ cs' -> c <> [] /\ legal pms c) as (cs' & Hf & Hcs').
  { clear Hnd. induction cs as [|c cs IH].
    - exists []. split; [apply List.Forall2_nil|]. intros c Hc'. by apply elem_of_nil in Hc'.
    - destruct IH as (cs' & Hf & H'). { intros x Hx. apply Hcs. by right. }
      destruct (Hcs c ltac:(by left)) as [Hne Hl]. destruct (group_legal pms groups Hone Hag Hc c Hl) as (c' & Hcc & Hl').
      exists (c' :: cs'). split; [by constructor|]. intros x Hx. apply elem_of_cons in Hx as [->|Hx]; [|by apply H'].
      split; [|done]. intros ->. by inversion Hcc; subst. }
  rewrite (Forall2_length _ _ _ Hf). apply Hfew; [|done].
  assert (Hcs2 : forall c, c ∈ cs -> legal groups c) by (intros c H; by apply Hcs).
  clear -Hnd Hf Hcs2 Hone Hc. induction Hf as [|c c' cs cs' Hcc Hf IH]; [constructor|].
  apply NoDup_cons in Hnd as [N1 N2]. apply NoDup_cons. split.
  - intros Hin. apply N1. apply elem_of_list_lookup in Hin as [i Hi]. destruct (Forall2_lookup_r _ _ _ _ _ Hf Hi) as (d & Hd & Hdc).
    assert (Hd' : d ∈ cs) by (by eapply elem_of_list_lookup_2).
    assert (c = d) as ->; [|done]. eapply (alike_apart pms groups Hone Hc); [| |exact Hcc|exact Hdc].
    + apply (Hcs2 c); by left.
    + apply (Hcs2 d); by right.
  - apply IH; [done|]. intros x Hx. apply Hcs2. by right.
Qed.
Lemma free_group pms groups : (forall q, q ∈ pms -> length (sq_keys q) = 1%nat) -> NoDup (map mki_id (mjoin (map sq_keys pms))) ->
  groups_agree pms -> collapses pms groups ->
  forall p mtb tb o chain es, nested_stack p mtb tb o chain es -> forall chain', Forall2 alike chain' chain -> (forall q, q ∈ chain -> q ∈ pms) ->
  (forall g, g ∈ chain' -> g ∈ groups) ->
  free_stack chain es -> free_stack chain' es.
Proof.
  intros Hone Hnd Hag Hc p mtb tb o.
  assert (H1 : forall q g e, q ∈ pms -> g ∈ groups -> alike g q -> stack_entry p mtb tb o q e ->
     (forall k, k ∈ sq_keys q -> mki_id k = ce_phrasematch_id e -> unlimited q k) ->
     forall k, k ∈ sq_keys g -> mki_id k = ce_phrasematch_id e -> unlimited g k).
  { intros q g e Hq Hg Ha (k & m & (ko & l & i & Hk & _) & Hto) Hu k' Hk' E.
    assert (Eid : mki_id k = mki_id k').
    { unfold to_entry in Hto. rewrite E. symmetry. apply Hto. }
    assert (k' = k) as ->.
    { destruct (collapses_alike _ _ Hag Hc g k' Hg Hk') as (q' & Hq' & _ & Hk2).
      apply (nodup_map_inj mki_id (mjoin (map sq_keys pms))); [done| | |by rewrite Eid].
      - apply elem_of_mjoin. exists (sq_keys q'). split; [done|]. apply elem_of_map. by exists q'.
      - apply elem_of_mjoin. exists (sq_keys q). split; [done|]. apply elem_of_map. by exists q. }
    specialize (Hu k Hk E). destruct Ha as (Ha & _ & _ & _ & Em). unfold unlimited, zoom_of in *. by rewrite Em, Ha. }
  intros chain es H. induction H as [pm e He|pm e pm' e' chain es Hs IH He X1 X2]; intros chain' Hf Hq Hg Hfree.
  - inversion Hf as [|g ? l ? Ha Hf']; subst. inversion Hf'; subst. inversion Hfree as [|? ? ? ? Hu Hr]; subst.
    constructor; [|constructor]. apply (H1 pm g e); [apply Hq; by left|apply Hg; by left|done|done|exact Hu].
  - inversion Hf as [|g ? l ? Ha Hf']; subst. inversion Hfree as [|? ? ? ? Hu Hr]; subst. constructor.
    + apply (H1 pm g e); [apply Hq; by left|apply Hg; by left|done|done|exact Hu].
    + apply IH; [done|intros q Hq'; apply Hq; by right|intros x Hx; apply Hg; by right|done].
Qed.
(** Nothing is missed unless the result is full or the innermost key has forty better
    stacks on the same layers; the quotas of C61 aside. *)
Theorem C64_complete :
  forall p ho mtb tb pms o out chain es,
  (forall q, q ∈ pms -> length (sq_keys q) = 1%nat) -> NoDup (map mki_id (mjoin (map sq_keys pms))) ->
  groups_agree pms -> types_by_zoom pms -> (forall c, legal pms c -> ord_cmp (sum_weights c) f_max <> Gt) ->
  (forall cs, NoDup cs -> (forall c, c ∈ cs -> c <> [] /\ legal pms c) -> N.of_nat (length cs) < 2000) ->
  all_covered p mtb tb o pms ->
  stack_and_coalesce p ho mtb tb pms o = Ok out ->
  legal pms (rev chain) -> nested_stack p mtb tb o chain es -> free_stack chain es ->
  ((2 <= length chain)%nat \/ exists pm, legal pms (rev chain ++ [pm])) ->
  stack_context chain es ∈ out \/ length out = 800%nat \/
  exists D, NoDup D /\ length D = 40%nat /\ forall es', es' ∈ D ->
    es' <> es /\ ce_phrasematch_id <$> head es' = ce_phrasematch_id <$> head es /\
    listed_before (stack_context chain es') (stack_context chain es) /\
    exists chain', Forall2 alike chain chain' /\ (forall q, q ∈ chain' -> q ∈ pms) /\ nested_stack p mtb tb o chain' es'.
Proof.
  intros p ho mtb tb pms o out chain es Hone Hnd Hag Hz Hfin Hfew Hcov H Hleg Hns Hfree Hst. unfold stack_and_coalesce in H.
  apply bind_Ok in H as (groups & Hcol & H). apply C54_collapse in Hcol. cbn zeta in H.
  destruct (own_ids_all groups) as [Hown Hdist]; [by eapply group_ids|].
  assert (Hin : forall q, q ∈ chain -> q ∈ pms).
  { intros g Hg. apply Hleg. apply elem_of_list_In. apply -> List.in_rev. by apply elem_of_list_In. }
  destruct (nested_alike_groups p mtb tb o pms groups Hone Hnd Hag Hcol chain es Hns Hin) as (gchain & Hf & Hgin & Hgns).
  assert (Hgf : Forall2 alike chain gchain) by (apply Forall2_flip; eapply Forall2_impl; [exact Hf|]; intros a b Hab; exact Hab || by apply alike_sym).
  assert (Ectx : forall es', stack_context gchain es' = stack_context chain es').
  { intros es'. unfold stack_context. by rewrite (alike_masks _ _ Hf). }
  destruct (C60_stacks p ho mtb tb (tree_fuel (stackable groups)) groups o out gchain es)
    as [Hr|[[Hr _]|[(D & D1 & D2 & D3)|(n & _ & Hr & _)]]]; try done.
  - by eapply group_nodup.
  - by eapply group_few.
  - by eapply group_weights.
  - by apply own_ids_name.
  - by eapply group_types.
  - intros g e Hg He. destruct (stack_entry_member p mtb tb o pms groups Hag Hcol g e Hg He) as (q & Hq & (E & _) & He'). rewrite E.
    by apply Hcov.
  - eapply alike_legal; [exact Hleg|by apply Forall2_rev'|]. intros g Hg. apply Hgin. apply elem_of_list_In. apply List.in_rev.
    by apply elem_of_list_In.
  - exact (free_group pms groups Hone Hnd Hag Hcol p mtb tb o chain es Hns gchain Hf Hin Hgin Hfree).
  - destruct Hst as [Hst|[pm Hpm]]; [left; by rewrite <- (Forall2_length _ _ _ Hgf)|right].
    assert (Hpm' : pm ∈ pms) by (apply Hpm, elem_of_app; right; by left).
    destruct (sq_keys pm) as [|k ks] eqn:Ek; [specialize (Hone pm Hpm'); rewrite Ek in Hone; done|].
    destruct (member_group pms groups Hone Hnd Hag Hcol pm k Hpm') as (g & Hg & Ha & _); [rewrite Ek; by left|].
    exists g. eapply alike_legal; [exact Hpm| |].
    + apply Forall2_app; [by apply Forall2_rev'|]. constructor; [by apply alike_sym|constructor].
    + intros x Hx. apply elem_of_app in Hx as [Hx|Hx]; [|by apply elem_of_list_singleton in Hx as ->].
      apply Hgin. apply elem_of_list_In. apply List.in_rev. by apply elem_of_list_In.
  - left. by rewrite <- Ectx.
  - right. by left.
  - right. right. exists D. split; [done|]. split; [done|]. intros es' Hes. destruct (D3 es' Hes) as (X1 & X2 & X3 & X4).
    split; [done|]. split; [done|]. rewrite !Ectx in X4. split; [done|].
    destruct (nested_alike_members p mtb tb o pms groups Hag Hcol gchain es' X1 Hgin) as (chain' & Hf' & Hp & Hn').
    exists chain'. split; [|done]. clear -Hgf Hf'. revert chain' Hf'. induction Hgf as [|a b l l' Hab Hl IH]; intros chain' Hf'.
    + by inversion Hf'.
    + inversion Hf' as [|? z ? c' Hz Hc']; subst. constructor; [|by apply IH].
      destruct Hab as (A1 & A2 & A3 & A4 & A5), Hz as (B1 & B2 & B3 & B4 & B5). repeat split; congruence.
  - right. by left.
Qed.
Print Assumptions C64_complete.

Lemma deserialize_total js : (exists pms, deserialize_phrasesubq js = Ok pms) \/ deserialize_phrasesubq js = Err.
Proof.
  unfold deserialize_phrasesubq. induction js as [|j js IH]; [left; by eexists|]. cbn [res_mapM].
  destruct (to_subquery_total j) as [[q ->]| ->]; cbn [res_bind]; [|by right].
  destruct IH as [[pms ->]| ->]; cbn [res_bind]; [left; by eexists|by right].
Qed.
(** From JavaScript: the call either rejects its arguments or makes the native one. *)
Theorem C63_call :
  forall p ho mtb tb js o,
  (forall pms o', Forall2 as_subquery js pms -> o = Some o' ->
     js_stack_and_coalesce p ho mtb tb js o = stack_and_coalesce p ho mtb tb pms o' /\
     js_coalesce p ho mtb tb js o = coalesce p ho mtb tb pms o') /\
  ((exists j, j ∈ js /\ ~ readable j) \/ o = None ->
     js_stack_and_coalesce p ho mtb tb js o = Err /\ js_coalesce p ho mtb tb js o = Err).
Proof.
  intros p ho mtb tb js o. unfold js_stack_and_coalesce, js_coalesce. split.
  - intros pms o' Hf ->. apply C63_converted in Hf. rewrite Hf. done.
  - intros [H| ->].
    + apply C63_rejected in H. rewrite H. done.
    + destruct (deserialize_total js) as [[pms ->]| ->]; done.
Qed.
Print Assumptions C63_call.
Lemma js_native js pms : Forall2 as_subquery js pms ->
  (forall q, q ∈ pms -> length (sq_keys q) = 1%nat) /\
  (NoDup (map jp_id js) -> NoDup (map mki_id (mjoin (map sq_keys pms)))) /\
  (js_groups_agree js -> groups_agree pms).
Proof.
  intros Hf. split; [|split].
  - intros q Hq. apply elem_of_list_lookup in Hq as [i Hi].
    destruct (Forall2_lookup_r _ _ _ _ _ Hf Hi) as (j & _ & (_ & _ & _ & _ & _ & k & -> & _)). done.
  - intros Hn. enough (E : map jp_id js = map Some (map mki_id (mjoin (map sq_keys pms)))).
    { rewrite E in Hn. by apply NoDup_fmap_1 in Hn. }
    clear Hn. induction Hf as [|j q js pms (_ & _ & _ & _ & _ & k & Ek & (_ & _ & _ & Ei & _)) Hf IH]; [done|].
    cbn [map]. rewrite Ek. change (mjoin (?a :: ?b)) with (a ++ mjoin b). cbn [app map]. by rewrite IH, Ei.
  - intros Hag a b Ha Hb (T1 & T2 & T3). apply elem_of_list_lookup in Ha as [i Hi], Hb as [j Hj].
    destruct (Forall2_lookup_r _ _ _ _ _ Hf Hi) as (ja & Ja & (A1 & A2 & A3 & A4 & (la & A5 & A6) & _)).
    destruct (Forall2_lookup_r _ _ _ _ _ Hf Hj) as (jb & Jb & (B1 & B2 & B3 & B4 & (lb & B5 & B6) & _)).
    destruct (Hag ja jb) as (E1 & E2 & E3); [by eapply elem_of_list_lookup_2..| |].
    { split; [by exists (sq_weight a), (sq_weight b)|]. split; congruence. }
    split; [congruence|]. split; [|congruence].
    apply N.bits_inj. intros n. apply eq_iff_eq_true. rewrite A6, B6. by apply E3.
Qed.
Theorem C63_results :
  forall p ho mtb tb js o out,
  NoDup (map jp_id js) -> js_groups_agree js ->
  js_stack_and_coalesce p ho mtb tb js o = Ok out ->
  exists pms o', Forall2 as_subquery js pms /\ o = Some o' /\
    (types_by_zoom pms -> (forall c, legal pms c -> ord_cmp (sum_weights c) f_max <> Gt) ->
     (forall c, c ∈ out -> nested_result p mtb tb o' pms c \/ lone_result p mtb tb o' pms c) /\
     NoDup (map cc_entries out)).
Proof.
  intros p ho mtb tb js o out Hn Hag H. unfold js_stack_and_coalesce in H.
  apply bind_Ok in H as (pms & Hp & H). apply bind_Ok in H as (o' & Ho & H). apply C63_converted in Hp. apply given_iff in Ho.
  exists pms, o'. split; [done|]. split; [done|]. intros Hz Hw. destruct (js_native js pms Hp) as (H1 & H2 & H3).
  apply (C64_exact p ho); auto.
Qed.
Print Assumptions C63_results.

(** The three subqueries of C59 as objects: languages, flags and excluded indexes in
    several forms. *)
Definition js_of (q : subquery) (lang nearby : jsval) (non : option (list N)) : js_phrasematch :=
  match sq_keys q with
  | k :: _ => JsPhrasematch (sq_store q) (Some (sq_weight q)) (Some (sq_mask q)) (Some (mk_phrase (mki_key k))) lang
                (Some (mki_id k)) (Some (sq_idx q)) nearby non (mki_length k)
  | [] => JsPhrasematch (sq_store q) None None None JsNull None None JsNull None 0
  end.
Definition j_one : jsval := JsArray [JsNumber f_zero; JsNumber f_zero].
Definition j_all : list js_phrasematch :=
  [js_of t_b j_one JsUndefined (Some [5; 70; 5]); js_of t_a JsNull (JsBoolean false) (Some []); js_of t_b2 j_one (JsBoolean true) (Some [70; 5])].
Example C63_ex :
  (exists a b c, deserialize_phrasesubq j_all = Ok [a; b; c] /\ sq_nonoverlap a = 2 ^ 5 + 2 ^ 70 /\ sq_nonoverlap c = 2 ^ 5 + 2 ^ 70 /\
     map (fun k => (mk_lang (mki_key k), mki_nearby k)) (sq_keys a ++ sq_keys b ++ sq_keys c) =
       [(1, false); (2 ^ 128 - 1, false); (1, true)]) /\
  deserialize_phrasesubq (js_of t_a (JsNumber f_one) JsUndefined (Some []) :: j_all) = Err /\
  deserialize_phrasesubq (js_of t_a JsNull JsNull (Some []) :: j_all) = Err /\
  deserialize_phrasesubq (js_of t_a JsNull JsUndefined None :: j_all) = Err.
Proof.
  split; [|split; [|split]]; [|vm_compute; reflexivity..].
  eexists _, _, _. split; [reflexivity|]. split; [vm_compute; reflexivity|]. split; [vm_compute; reflexivity|]. vm_compute. reflexivity.
Qed.
Example C64_ex :
  let pms := [t_b; t_a; t_b2] in
  (forall q, q ∈ pms -> length (sq_keys q) = 1%nat) /\ NoDup (map mki_id (mjoin (map sq_keys pms))) /\
  groups_agree pms /\ types_by_zoom pms /\ (forall c, legal pms c -> ord_cmp (sum_weights c) f_max <> Gt) /\
  (forall cs, NoDup cs -> (forall c, c ∈ cs -> c <> [] /\ legal pms c) -> N.of_nat (length cs) < 2000) /\
  all_covered Debug first_mtb last_tb t_opts pms /\
  legal pms (rev [t_b; t_a]) /\ nested_stack Debug first_mtb last_tb t_opts [t_b; t_a] [c60_b; c60_a] /\
  free_stack [t_b; t_a] [c60_b; c60_a] /\
  length (ok_list (stack_and_coalesce Debug rev_oracle first_mtb last_tb pms t_opts)) = 19%nat.
Proof.
  cbn zeta. split.
  { intros q Hq. rewrite !elem_of_cons, elem_of_nil in Hq. destruct Hq as [->|[->|[->|[]]]]; reflexivity. }
  split; [apply (bool_decide_eq_true_1 _); vm_compute; reflexivity|]. split; [exact (proj1 (proj2 C59_ex))|].
  split; [apply types_zoom_ok; vm_compute; reflexivity|].
  split; [apply (legal_all _ _ (fun c => not_gtb (sum_weights c) f_max)); [intros c; apply not_gtb_ok|vm_compute; reflexivity]|].
  split; [apply few_chains; apply N.ltb_lt; vm_compute; reflexivity|].
  split; [apply all_covered_ok; vm_compute; reflexivity|].
  split; [apply all_chains_ok; vm_compute; repeat (first [left|right])|].
  split; [apply C60_ex|]. split; [apply C60_ex|]. vm_compute. reflexivity.
Qed.
(** The same through the bindings. *)
Definition j_three : list js_phrasematch := map (fun q => js_of q j_one JsUndefined (Some [])) [t_b; t_a; t_b2].
Example C63_results_ex :
  deserialize_phrasesubq j_three = Ok [t_b; t_a; t_b2] /\ NoDup (map jp_id j_three) /\ js_groups_agree j_three /\
  length (ok_list (js_stack_and_coalesce Debug rev_oracle first_mtb last_tb j_three (Some t_opts))) = 19%nat.
Proof.
  split; [reflexivity|]. split; [apply (bool_decide_eq_true_1 _); vm_compute; reflexivity|]. split; [|vm_compute; reflexivity].
  assert (Hi : forall a b (x y : N) P, js_together a b -> jp_idx a = Some x -> jp_idx b = Some y -> x =? y = false -> P).
  { intros a b x y P (_ & H & _) Ea Eb E. rewrite Ea, Eb in H. apply N.eqb_neq in E. congruence. }
  intros a b Ha Hb. cbn [j_three map] in Ha, Hb. rewrite !elem_of_cons, elem_of_nil in Ha, Hb.
  destruct Ha as [->|[->|[->|[]]]], Hb as [->|[->|[->|[]]]]; intros Ht.
  all: try (eapply Hi; [exact Ht|reflexivity..]).
  all: split; [reflexivity|]; split; [reflexivity|]; intros la lb Ea Eb; cbn in Ea, Eb; assert (la = lb) as -> by congruence; done.
Qed.
