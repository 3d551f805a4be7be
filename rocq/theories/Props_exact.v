(** Property C62: what tree_coalesce returns is a set of stacks. *)
From Verif Require Import Prelude Lists F64 Heap Common Builder Spatial Store Spec Spec_match Query Coalesce Stackable Tree
  Cmp_proofs Queue_proofs Spec_coalesce Coalesce_proofs Multi_proofs Spec_stack Stack_proofs Spec_tree Spec_quota Tree_proofs
  Limit_proofs Term_proofs Examples Props_match Props_coalesce Props_stack Props_tree Spec_complete Complete_proofs Props_complete
  Props_quota Spec_exact Sibling_proofs Exact_proofs.
From Coq Require Import ZifyBool.
Local Open Scope N_scope.

(** ** C62 Nothing but stacks, and no stack twice *)
(** Each stack of subqueries is in the tree at most once. *)
Theorem C62_unique :
  forall pms chain n n', NoDup pms ->
  descends (tree_get (stackable pms)) (t_root (stackable pms)) chain n ->
  descends (tree_get (stackable pms)) (t_root (stackable pms)) chain n' -> n = n'.
Proof.
  intros pms chain n n' Hnd. eapply path_unique; [by apply stackable_siblings|by left].
Qed.
Print Assumptions C62_unique.
Example C62_unique_ex : exists n, NoDup [t_b; t_a] /\
  descends (tree_get (stackable [t_b; t_a])) (t_root (stackable [t_b; t_a])) [t_a; t_b] n.
Proof.
  destruct C60_ex as ((Hnd & Hfew & _) & Hleg & _). destruct (C47_complete _ Hnd Hfew _ Hleg) as [n Hn]. by exists n.
Qed.

(** Every result is that of a stack of the tree, or of a match of a leaf of the first level. *)
Theorem C62_exact :
  forall p ho mtb tb fuel t o out c,
  ids_name_keys (in_tree t) -> (forall pm, in_tree t pm -> ids_distinct pm) -> zooms_nested t ->
  tree_coalesce p ho mtb tb fuel t o = Ok out -> c ∈ out ->
  stack_result p mtb tb o t c \/ leaf_result p mtb tb o t c.
Proof.
  intros p ho mtb tb fuel t o out c H1 H2 H3 H Hc.
  destruct (proj1 (tree_exact p ho mtb tb t o H1 H2 H3 fuel out H) c Hc) as [?|?]; [by left|right; by apply leaf_made_result].
Qed.
Print Assumptions C62_exact.
(** No two results have the same entries. *)
Theorem C62_once :
  forall p ho mtb tb fuel t o out,
  own_ids (in_tree t) -> (forall pm, in_tree t pm -> ids_distinct pm) -> zooms_nested t -> siblings_apart t ->
  tree_coalesce p ho mtb tb fuel t o = Ok out -> NoDup (map cc_entries out).
Proof.
  intros p ho mtb tb fuel t o out H1 H2 H3 H4 H. pose proof (own_ids_name _ H2 H1) as H5.
  by apply (tree_exact p ho mtb tb t o H5 H2 H3 fuel out H).
Qed.
Print Assumptions C62_once.

Lemma node_descends p mtb tb o t n chain es :
  node_stack p mtb tb o t n chain es -> descends (tree_get t) (t_root t) (rev chain) n.
Proof.
  intros H. induction H as [i n pm e Hi Hn Hpm _|n' pm' e' pms es i n pm e _ IH Hi Hn Hpm _ _ _].
  - cbn [rev app]. eapply (descends_snoc _ (t_root t) [] (t_root t)); [constructor|done..].
  - cbn [rev]. change (rev pms ++ [pm']) with (rev (pm' :: pms)). by eapply descends_snoc.
Qed.
(** For the tree of a list of subqueries. *)
Theorem C62_stackable :
  forall p ho mtb tb fuel pms o out,
  (forall c, legal pms c -> ord_cmp (sum_weights c) f_max <> Gt) ->
  NoDup pms -> own_ids (fun pm => pm ∈ pms) -> (forall pm, pm ∈ pms -> ids_distinct pm) -> types_by_zoom pms ->
  tree_coalesce p ho mtb tb fuel (stackable pms) o = Ok out ->
  (forall c, c ∈ out -> nested_result p mtb tb o pms c \/ lone_result p mtb tb o pms c) /\
  NoDup (map cc_entries out).
Proof.
  intros p ho mtb tb fuel pms o out Hfin Hnd Hown Hdist Hzoom H.
  assert (Hd : forall pm, in_tree (stackable pms) pm -> ids_distinct pm) by (intros pm Hpm; by apply Hdist, in_tree_pms).
  assert (Ho : own_ids (in_tree (stackable pms))).
  { intros pm1 pm2 k1 k2 I1 I2. apply Hown; by apply in_tree_pms. }
  pose proof (stackable_zooms pms Hfin Hzoom) as Hz. split.
  - intros c Hc. destruct (C62_exact p ho mtb tb fuel (stackable pms) o out c (own_ids_name _ Hd Ho) Hd Hz H Hc)
      as [(n & chain & es & Hns & _ & ->)|(i & n & pm & k & g & e & _ & Hi & Hpm & _ & Hk & He & ->)].
    + left. exists chain, es. split; [by eapply node_nested|]. split; [|done]. apply node_descends in Hns. by apply C46_paths in Hns as [? _].
    + right. exists pm, k, g, e. split; [|done]. apply in_tree_pms. by exists i, n.
  - exact (C62_once p ho mtb tb fuel (stackable pms) o out Ho Hd Hz (stackable_siblings pms Hnd) H).
Qed.
Print Assumptions C62_stackable.
Lemma own_ids_ok (pms : list subquery) :
  NoDup (mjoin (map (fun pm => map mki_id (sq_keys pm)) pms)) -> own_ids (fun pm => pm ∈ pms).
Proof.
  intros Hnd pm1 pm2 k1 k2 H1 H2 K1 K2 E.
  apply elem_of_list_lookup in H1 as [i Hi], H2 as [j Hj].
  assert (i = j) as ->; [|congruence]. revert i j Hi Hj. induction pms as [|pm pms IH]; intros i j Hi Hj; [done|].
  cbn [map] in Hnd. change (mjoin (?a :: ?b)) with (a ++ mjoin b) in Hnd. apply NoDup_app in Hnd as (_ & N2 & N3).
  assert (Hin : forall q k l, pms !! l = Some q -> k ∈ sq_keys q -> mki_id k ∈ mjoin (map (fun pm => map mki_id (sq_keys pm)) pms)).
  { intros q k l Hq Hk. apply elem_of_list_lookup_2 in Hq. apply elem_of_mjoin. exists (map mki_id (sq_keys q)). split; apply elem_of_map; eauto. }
  destruct i as [|i], j as [|j]; cbn in Hi, Hj; [done| | |f_equal; by apply IH].
  - injection Hi as ->. exfalso. apply (N2 (mki_id k1)); [apply elem_of_map; eauto|]. rewrite E. eauto.
  - injection Hj as ->. exfalso. apply (N2 (mki_id k2)); [apply elem_of_map; eauto|]. rewrite <- E. eauto.
Qed.
Example C62_ex :
  fit_for_C60 Debug first_mtb last_tb [t_b; t_a] t_opts /\ own_ids (fun pm => pm ∈ [t_b; t_a]) /\
  length (ok_list (tree_coalesce Debug rev_oracle first_mtb last_tb 9 (stackable [t_b; t_a]) t_opts)) = 11%nat.
Proof.
  split; [exact (proj1 C60_ex)|]. split.
  - apply own_ids_ok; apply (bool_decide_eq_true_1 _); vm_compute; reflexivity.
  - vm_compute. reflexivity.
Qed.

(** If two subqueries share their key ids, the result can hold the same entries twice:
    [t_a] and a copy that differs in the layers it may be stacked with. *)
Definition t_twin : subquery :=
  Subquery (sq_store t_a) (sq_idx t_a) 8 (sq_weight t_a) (sq_mask t_a) (sq_keys t_a).
Definition twin_out : list coalesce_context :=
  ok_list (tree_coalesce Debug rev_oracle first_mtb last_tb 9 (stackable [t_b; t_a; t_twin]) t_opts).
Theorem C62_shared_ids_refuted :
  exists pms o out, NoDup pms /\ ids_name_keys (fun pm => pm ∈ pms) /\ (forall pm, pm ∈ pms -> ids_distinct pm) /\
    types_by_zoom pms /\
    tree_coalesce Debug rev_oracle first_mtb last_tb 9 (stackable pms) o = Ok out /\ ~ NoDup (map cc_entries out).
Proof.
  exists [t_b; t_a; t_twin], t_opts, twin_out. split.
  { apply (nodup_map (fun pm => (sq_idx pm, sq_nonoverlap pm))). apply (bool_decide_eq_true_1 _). vm_compute. reflexivity. }
  split.
  { assert (Hk : forall pm k, pm ∈ [t_b; t_a; t_twin] -> k ∈ sq_keys pm -> mki_id k = 11 /\ pm = t_b /\ k ∈ sq_keys t_b \/
      mki_id k = 10 /\ sq_store pm = sq_store t_a /\ k ∈ sq_keys t_a).
    { intros pm k Hpm Hk. rewrite !elem_of_cons, elem_of_nil in Hpm. destruct Hpm as [->|[->|[->|[]]]].
      - left. split; [|done]. apply elem_of_list_singleton in Hk as ->. done.
      - right. split; [|done]. apply elem_of_list_singleton in Hk as ->. done.
      - right. split; [|split; [reflexivity|exact Hk]]. apply elem_of_list_singleton in Hk as ->. done. }
    intros pm1 pm2 k1 k2 H1 H2 K1 K2 E.
    destruct (Hk _ _ H1 K1) as [(E1 & -> & L1)|(E1 & S1 & L1)], (Hk _ _ H2 K2) as [(E2 & -> & L2)|(E2 & S2 & L2)]; try congruence.
    - apply elem_of_list_singleton in L1 as ->, L2 as ->. done.
    - apply elem_of_list_singleton in L1 as ->, L2 as ->. by rewrite S1, S2. }
  split.
  { intros pm Hpm. rewrite !elem_of_cons, elem_of_nil in Hpm.
    destruct Hpm as [->|[->|[->|[]]]]; apply (bool_decide_eq_true_1 _); vm_compute; reflexivity. }
  split; [apply types_zoom_ok; vm_compute; reflexivity|].
  split; [apply ok_list_ok; vm_compute; exact I|].
  intros Hnd. assert (Hdup : exists i j es, (i < j)%nat /\ map cc_entries twin_out !! i = Some es /\ map cc_entries twin_out !! j = Some es).
  { exists 0%nat, 1%nat. eexists. split; [lia|]. split; vm_compute; reflexivity. }
  destruct Hdup as (i & j & es & Hlt & Hi & Hj). pose proof (NoDup_lookup _ _ _ _ Hnd Hi Hj). lia.
Qed.
Print Assumptions C62_shared_ids_refuted.
