(** Properties C46-C49 and C57: the stacking tree. *)
From Verif Require Import Prelude Lists F64 Common Store Query Stackable Cmp_proofs Float_proofs
  Spec_coalesce Coalesce_proofs Multi_proofs Spec_stack Stack_proofs Arena_proofs Best_proofs Examples Props_coalesce.
From Coq Require Import Sorting.Sorted.
From Coq Require Import ZifyBool.
Local Open Scope N_scope.

(** ** C46 Every path is a legal stack *)
Theorem C46_paths :
  forall pms chain n, descends (tree_get (stackable pms)) (t_root (stackable pms)) chain n ->
  legal pms chain /\
  sn_pm n = last chain /\
  sn_mask n = all_masks (map sq_mask chain) /\
  sn_bmask n = all_masks (map sq_nonoverlap chain) /\
  (forall pm, last chain = Some pm -> sn_idx n = sq_idx pm /\ sn_zoom n = st_zoom (sq_store pm)) /\
  exists ext, legal pms (chain ++ ext) /\ sn_max_relev n = sum_weights (chain ++ ext).
Proof.
  intros pms chain n Hd. destruct (stackable_sound pms) as (L & Ha & Hn).
  pose proof (descends_ok pms L _ _ chain n Ha Hd [] Hn) as Hok. cbn [app] in Hok.
  destruct Hok as [[S1 S2 S3 S4 S5] H2 H3 _ _]. split; [done|]. split; [done|]. split; [done|]. split; [done|]. split; [|done].
  intros pm Hpm. rewrite Hpm in S5. split; [|done]. rewrite S4. unfold last_idx. by rewrite Hpm.
Qed.
Print Assumptions C46_paths.
(** Without NaN a node is at least as relevant as its stack, and as each of its children. *)
Theorem C46_relevance :
  forall pms chain n, (forall c, legal pms c -> f_is_nan (sum_weights c) = false) ->
  descends (tree_get (stackable pms)) (t_root (stackable pms)) chain n ->
  ord_cmp (sum_weights chain) (sn_max_relev n) <> Gt /\
  forall i c, i ∈ sn_children n -> tree_get (stackable pms) i = Some c ->
    ord_cmp (sn_max_relev c) (sn_max_relev n) <> Gt /\
    exists pm, sn_pm c = Some pm /\ descends (tree_get (stackable pms)) (t_root (stackable pms)) (chain ++ [pm]) c.
Proof.
  intros pms chain n Hnan Hd. destruct (stackable_sound pms) as (L & Ha & Hn).
  pose proof (descends_ok pms L _ _ chain n Ha Hd [] Hn) as Hok. cbn [app] in Hok. split; [by apply (no_own _ _ _ _ Hok)|].
  intros i c Hi Hc. destruct (no_kids _ _ _ _ Hok i Hi) as (pm & r & Hl & Hr).
  destruct (ao_node _ _ _ Ha i c Hc) as (ch & _ & Hl' & Hokc & _).
  assert (r = sn_max_relev c) as -> by congruence. split; [by apply Hr|].
  assert (ch = chain ++ [pm]) as -> by congruence. exists pm.
  assert (Hpm : sn_pm c = Some pm) by (rewrite (st_pm _ _ (no_static _ _ _ _ Hokc)); by rewrite last_snoc).
  split; [done|]. clear - Hd Hi Hc Hpm. induction Hd as [n|n j d q rest m Hj Hd' Hq Hd IH].
  - cbn [app]. econstructor; [exact Hi|exact Hc|exact Hpm|constructor].
  - cbn [app]. econstructor; [exact Hj|exact Hd'|exact Hq|]. by apply IH.
Qed.
Print Assumptions C46_relevance.

(** Subqueries for the examples: type, index, mask, declared non-overlap, weight. *)
Definition part (t idx mask nonoverlap : N) (w : f64) : subquery :=
  Subquery (open_store ∅ 6 t (f_of_N 40) [] f_one) idx nonoverlap w mask [].
Definition p_a : subquery := part 1 0 1 0 (f_lit 1 4).
Definition p_b : subquery := part 2 1 2 0 (f_lit 1 4).
Definition p_c : subquery := part 3 2 4 1 (f_lit 1 2).
Definition p_d : subquery := part 3 3 3 0 (f_lit 1 8).
Definition p_all : list subquery := [p_d; p_c; p_a; p_b].
(** The paths of a tree, with the relevance of their ends. *)
Fixpoint paths (fuel : nat) (t : tree) (n : node) : list (list N * f64) :=
  match fuel with
  | O => []
  | S fuel' =>
      mjoin (map (fun i => match tree_get t i with
                           | Some c => (([sn_idx c], sn_max_relev c) :: map (fun p => (sn_idx c :: p.1, p.2)) (paths fuel' t c))
                           | None => []
                           end) (sn_children n))
  end.
Example C46_ex :
  paths 4 (stackable p_all) (t_root (stackable p_all)) =
    [([0], f_one); ([0; 1], f_one); ([0; 1; 2], f_one);
     ([1], f_lit 3 4); ([1; 2], f_lit 3 4); ([2], f_lit 1 2); ([3], f_lit 1 8)].
Proof. vm_compute. reflexivity. Qed.

(** ** C47 Completeness below the limit *)
Theorem C47_complete :
  forall pms, NoDup pms ->
  (forall cs, NoDup cs -> (forall c, c ∈ cs -> c <> [] /\ legal pms c) -> N.of_nat (length cs) < 2000) ->
  forall chain, legal pms chain ->
  exists n, descends (tree_get (stackable pms)) (t_root (stackable pms)) chain n.
Proof.
  intros pms Hnd Hfew chain Hl. apply stackable_complete; [|done]. apply stackable_room.
  change leaf_soft_max with 2000. apply Hfew; [by apply all_chains_nodup|]. intros c. by apply all_chains_ok.
Qed.
Print Assumptions C47_complete.
(** The relevance of the root is then that of the best stack. *)
Theorem C47_best :
  forall pms, NoDup pms ->
  (forall cs, NoDup cs -> (forall c, c ∈ cs -> c <> [] /\ legal pms c) -> N.of_nat (length cs) < 2000) ->
  (forall c, legal pms c -> ord_cmp (sum_weights c) f_max <> Gt) ->
  (exists c, legal pms c /\ sn_max_relev (t_root (stackable pms)) = sum_weights c) /\
  forall c, legal pms c -> ord_cmp (sum_weights c) (sn_max_relev (t_root (stackable pms))) <> Gt.
Proof.
  intros pms Hnd Hfew Hfin. destruct (stackable_sound pms) as (L & Ha & Hn). split.
  - destruct (no_max _ _ _ _ Hn) as (ext & Hl & He). exists ext. done.
  - intros c Hl. destruct (C47_complete pms Hnd Hfew c Hl) as (n & Hd).
    eapply (tc_trans _ total_cmp_ord).
    + apply (no_own _ _ _ _ (descends_ok pms L _ _ c n Ha Hd [] Hn)), fin_no_nan. exact Hfin.
    + exact (desc_max pms Hfin L _ _ c n Ha Hd [] Hn).
Qed.
Print Assumptions C47_best.
Lemma few_chains pms : N.of_nat (length (all_chains pms)) < 2000 ->
  forall cs, NoDup cs -> (forall c, c ∈ cs -> c <> [] /\ legal pms c) -> N.of_nat (length cs) < 2000.
Proof.
  intros H cs Hnd Hcs. assert (Hle : (length cs <= length (all_chains pms))%nat); [|lia].
  apply List.NoDup_incl_length; [by apply NoDup_ListNoDup|]. intros c Hc. apply elem_of_list_In in Hc.
  apply elem_of_list_In. by apply all_chains_ok, Hcs.
Qed.
Lemma legal_all pms (P : list subquery -> Prop) (f : list subquery -> bool) :
  (forall c, f c = true -> P c) -> forallb f ([] :: all_chains pms) = true -> forall c, legal pms c -> P c.
Proof.
  intros Hf H c Hc. apply Hf. apply (forallb_in _ _ H). destruct c as [|q c]; [by left|]. right. apply all_chains_ok. done.
Qed.
Definition not_gtb (a b : f64) : bool := match ord_cmp a b with Gt => false | _ => true end.
Lemma not_gtb_ok a b : not_gtb a b = true -> ord_cmp a b <> Gt.
Proof. unfold not_gtb. by destruct (ord_cmp a b). Qed.
Lemma nodup_by_idx (pms : list subquery) : bool_decide (NoDup (map sq_idx pms)) = true -> NoDup pms.
Proof. intros H%bool_decide_eq_true. eapply NoDup_fmap_1. exact H. Qed.
Example C47_ex :
  NoDup p_all /\
  (forall cs, NoDup cs -> (forall c, c ∈ cs -> c <> [] /\ legal p_all c) -> N.of_nat (length cs) < 2000) /\
  (forall c, legal p_all c -> ord_cmp (sum_weights c) f_max <> Gt) /\
  legal p_all [p_a; p_b; p_c].
Proof.
  split; [apply nodup_by_idx; vm_compute; reflexivity|]. split; [apply few_chains; vm_compute; reflexivity|].
  split; [apply (legal_all p_all _ (fun c => not_gtb (sum_weights c) f_max)); [intros c; apply not_gtb_ok|vm_compute; reflexivity]|].
  apply all_chains_ok. vm_compute. repeat (first [left|right]).
Qed.

(** ** C48 Indexes declared non-overlapping *)
(** Refuted: [p_c] declares that it does not overlap the index of [p_a], yet the tree
    has a stack with both, because only the index just before is looked at. *)
Theorem C48_grandparent_refuted :
  exists n, descends (tree_get (stackable p_all)) (t_root (stackable p_all)) [p_a; p_b; p_c] n /\
  N.testbit (sq_nonoverlap p_c) (sq_idx p_a) = true.
Proof.
  destruct (C47_complete p_all) with (chain := [p_a; p_b; p_c]) as (n & Hd); [apply C47_ex..|].
  exists n. split; [exact Hd|vm_compute; reflexivity].
Qed.
Print Assumptions C48_grandparent_refuted.
(** What holds: no subquery is put just below one whose index it excludes. *)
Theorem C48_parent :
  forall pms pre a b post n,
  descends (tree_get (stackable pms)) (t_root (stackable pms)) (pre ++ a :: b :: post) n ->
  N.testbit (sq_nonoverlap b) (sq_idx a) = false.
Proof.
  intros pms pre a b post n Hd. apply C46_paths in Hd as [(_ & _ & _ & H) _]. revert H. generalize root_idx.
  induction pre as [|q pre IH]; intros i H.
  - by destruct H as (_ & H & _).
  - destruct H as [_ H]. by eapply IH.
Qed.
Print Assumptions C48_parent.

(** ** C49 The arena *)
(** Whatever nodes are offered, in any order and with any limit: the count of leaves is
    right, the [expect] never fails, and a node that is not kept is strictly less
    relevant than every kept one, the limit being reached. *)
Theorem C49_arena :
  forall k ns out a, (forall n, n ∈ ns -> ord_cmp (sn_max_relev n) f_max <> Gt) ->
  add_all (arena_of k) ns = (out, a) ->
  am_panicked a = false /\
  am_leaves a = count is_leaf (am_nodes a) /\
  map fst out = ns /\
  (forall i m, am_nodes a !! i = Some m -> (m, Some i) ∈ out) /\
  (forall n o, (n, o) ∈ out ->
    (exists i, o = Some i /\ am_nodes a !! i = Some n) \/
    (k <= count is_leaf (am_nodes a) /\
     forall i m, am_nodes a !! i = Some m -> ord_cmp (sn_max_relev n) (sn_max_relev m) = Lt)).
Proof.
  intros k ns out a Hfin H.
  assert (Hrun : forall ns a0 out a, (forall n, n ∈ ns -> ord_cmp (sn_max_relev n) f_max <> Gt) -> arena_inv a0 ->
    add_all a0 ns = (out, a) ->
    arena_inv a /\ later a0 a /\ map fst out = ns /\
    (forall i m, am_nodes a !! i = Some m -> am_nodes a0 !! i = Some m \/ (m, Some i) ∈ out) /\
    (forall n o, (n, o) ∈ out -> (exists i, o = Some i /\ am_nodes a !! i = Some n) \/ lost a (sn_max_relev n))).
  { clear. induction ns as [|n ns IH]; intros a0 out a Hfin Hinv H; cbn [add_all] in H.
    - injection H as <- <-. split; [done|]. split; [apply later_refl|]. split; [done|]. split; [by left|].
      intros n o Hn. by apply elem_of_nil in Hn.
    - destruct (arena_add a0 n) as [o1 a1] eqn:E1. destruct (add_all a1 ns) as [out2 a2] eqn:E2. injection H as <- <-.
      pose proof (arena_add_ok _ _ _ _ Hinv (Hfin n ltac:(by left)) E1) as Hok. pose proof (later_add _ _ _ _ E1 Hok) as Hl1.
      destruct (IH a1 out2 a2) as (I1 & I2 & I3 & I4 & I5); [intros m Hm; apply Hfin; by right|apply (ad_inv _ _ _ _ Hok)|done|].
      split; [done|]. split; [by eapply later_trans|]. split; [cbn [map fst]; by rewrite I3|]. split.
      + intros i m Hm. destruct (I4 i m Hm) as [Hm1|?]; [|right; by right].
        destruct (ad_new _ _ _ _ Hok i m Hm1) as [?|[-> ->]]; [by left|]. right. by left.
      + intros m o Hm. apply elem_of_cons in Hm as [[= -> ->]|Hm]; [|by apply I5]. destruct o1 as [i|].
        * destruct (ad_some _ _ _ _ Hok i eq_refl) as [_ Hi]. destruct (lt_old _ _ I2 i n Hi) as [?|?]; [left; eauto|by right].
        * right. destruct (ad_none _ _ _ _ Hok eq_refl) as (-> & Hf & Hx). eapply lost_later; [exact I2|]. done. }
  destruct (Hrun ns (arena_of k) out a Hfin (arena_inv_new k) H) as (I1 & I2 & I3 & I4 & I5).
  split; [apply (ai_panic _ I1)|]. split; [apply (ai_leaves _ I1)|]. split; [done|]. split.
  - intros i m Hm. destruct (I4 i m Hm) as [Hx|?]; [|done]. cbn in Hx. by rewrite lookup_empty in Hx.
  - intros n o Hn. destruct (I5 n o Hn) as [?|[Hf Hx]]; [by left|]. right. split.
    + unfold is_full in Hf. rewrite (lt_soft _ _ I2), (ai_leaves _ I1) in Hf. cbn [arena_of am_soft_max] in Hf. lia.
    + intros i m Hm. eapply (tc_lt_le_trans _ total_cmp_ord); [exact Hx|]. by apply (ai_least _ I1 i).
Qed.
Print Assumptions C49_arena.
(** If only leaves are offered, fewer than [k] kept ones are strictly more relevant than
    any given kept one. *)
Theorem C49_bound :
  forall k ns out a, 0 < k -> (forall n, n ∈ ns -> is_leaf n = true /\ ord_cmp (sn_max_relev n) f_max <> Gt) ->
  add_all (arena_of k) ns = (out, a) ->
  forall i m, am_nodes a !! i = Some m -> count (fun n => ord_lt (sn_max_relev m) (sn_max_relev n)) (am_nodes a) < k.
Proof.
  intros k ns out a Hk Hns H i m Hm.
  assert (Hrun : forall ns a0 out a, (forall n, n ∈ ns -> is_leaf n = true /\ ord_cmp (sn_max_relev n) f_max <> Gt) ->
    arena_inv a0 -> 0 < am_soft_max a0 -> lively a0 -> (forall i m, am_nodes a0 !! i = Some m -> is_leaf m = true) ->
    add_all a0 ns = (out, a) ->
    arena_inv a /\ lively a /\ am_soft_max a = am_soft_max a0 /\ (forall i m, am_nodes a !! i = Some m -> is_leaf m = true)).
  { clear. induction ns as [|n ns IH]; intros a0 out a Hfin Hinv Hk Hl Hleaf H; cbn [add_all] in H.
    - by injection H as <- <-.
    - destruct (arena_add a0 n) as [o1 a1] eqn:E1. destruct (add_all a1 ns) as [out2 a2] eqn:E2. injection H as <- <-.
      destruct (Hfin n ltac:(by left)) as [Hn Hf].
      pose proof (arena_add_ok _ _ _ _ Hinv Hf E1) as Hok. pose proof (ad_soft _ _ _ _ Hok) as Es.
      destruct (IH a1 out2 a2) as (I1 & I2 & I3 & I4).
      + intros q Hq. apply Hfin. by right.
      + apply (ad_inv _ _ _ _ Hok).
      + by rewrite Es.
      + eapply arena_add_lively; [exact Hinv|exact Hk|exact Hl|exact Hf|exact E1|]. left. by left.
      + intros j q Hq. destruct (ad_new _ _ _ _ Hok j q Hq) as [Hq'|[_ ->]]; [by apply (Hleaf j)|done].
      + done.
      + split; [done|]. split; [done|]. split; [by rewrite I3|done]. }
  destruct (Hrun ns (arena_of k) out a) as (I1 & [I2 _] & I3 & I4); [done|apply arena_inv_new|done|by apply lively_new| |done|].
  { intros j q Hq. cbn in Hq. by rewrite lookup_empty in Hq. }
  cbn [arena_of am_soft_max] in I3. rewrite I3 in I2.
  eapply N.le_lt_trans; [|exact I2].
  assert (Hle : forall l : list (N * node), (forall kv, kv ∈ l -> is_leaf kv.2 = true) ->
    (length (List.filter (fun kv => ord_lt (sn_max_relev m) (sn_max_relev kv.2)) l) <=
     length (List.filter (fun kv => above a kv.2) l))%nat).
  { pose proof (ai_least _ I1 i m Hm) as Hmin. induction l as [|kv l IH]; intros Hl; [done|]. cbn [List.filter].
    specialize (IH ltac:(intros x Hx; apply Hl; by right)). unfold above at 1. rewrite (Hl kv) by (by left). cbn [andb].
    destruct (ord_lt (sn_max_relev m) (sn_max_relev kv.2)) eqn:E1.
    - apply ord_lt_true in E1. assert (E2 : ord_lt (am_min a) (sn_max_relev kv.2) = true).
      { apply ord_lt_true. destruct (ord_cmp (am_min a) (sn_max_relev m)) eqn:E; [|eapply (tc_lt_le_trans _ total_cmp_ord); [exact E|by rewrite E1]|done].
        by rewrite (tc_eq_l _ total_cmp_ord _ _ _ E). }
      rewrite E2. cbn [length]. lia.
    - destruct (ord_lt (am_min a) _); cbn [length]; lia. }
  unfold count. specialize (Hle (map_to_list (am_nodes a))). enough (length (List.filter (fun kv : N * node => ord_lt (sn_max_relev m) (sn_max_relev kv.2)) (map_to_list (am_nodes a))) <= length (List.filter (fun kv : N * node => above a kv.2) (map_to_list (am_nodes a))))%nat by lia.
  apply Hle. intros [j q] Hq. apply elem_of_map_to_list in Hq. by apply (I4 j).
Qed.
Print Assumptions C49_bound.
Definition leaf_of (w : f64) : node := Node None [] 0 0 0 w 0.
Example C49_ex :
  let ns := map leaf_of [f_lit 1 4; f_one; f_lit 1 2; f_lit 1 2; f_lit 1 4; f_lit 3 4] in
  forallb (fun n => is_leaf n && not_gtb (sn_max_relev n) f_max) ns = true /\
  map snd (add_all (arena_of 2) ns).1 = [Some 0; Some 1; Some 2; Some 3; None; Some 4] /\
  map (fun kv => (kv.1, sn_max_relev kv.2)) (map_to_list (am_nodes (add_all (arena_of 2) ns).2)) = [(1, f_one); (4, f_lit 3 4)].
Proof. vm_compute. split; [reflexivity|]. split; reflexivity. Qed.

(** In the tree of any subqueries whose weights add up to finite numbers the [expect]
    never fails, and every kept node can be reached from the root. *)
Theorem C49_reachable :
  forall pms, (forall c, legal pms c -> ord_cmp (sum_weights c) f_max <> Gt) ->
  am_panicked (t_arena (stackable pms)) = false /\
  am_leaves (t_arena (stackable pms)) = count is_leaf (am_nodes (t_arena (stackable pms))) /\
  forall i n, tree_get (stackable pms) i = Some n ->
  exists chain, chain <> [] /\ descends (tree_get (stackable pms)) (t_root (stackable pms)) chain n.
Proof.
  intros pms Hfin. destruct (stackable_visited pms Hfin) as (L & V).
  split; [apply (ai_panic _ (v_inv _ _ _ _ _ _ _ _ _ V))|]. split; [apply (ai_leaves _ (v_inv _ _ _ _ _ _ _ _ _ V))|].
  intros i n Hn. destruct (v_reach _ _ _ _ _ _ _ _ _ V i n Hn) as [Hx|?]; [|done]. cbn in Hx. by rewrite lookup_empty in Hx.
Qed.
Print Assumptions C49_reachable.
(** If moreover every subquery adds to the relevance, fewer than 2000 kept leaves are
    strictly more relevant than any given kept node. *)
Theorem C49_tree_bound :
  forall pms, (forall c, legal pms c -> ord_cmp (sum_weights c) f_max <> Gt) ->
  (forall c pm, legal pms (c ++ [pm]) -> ord_cmp (sum_weights c) (sum_weights (c ++ [pm])) = Lt) ->
  forall i n, tree_get (stackable pms) i = Some n ->
  count (fun m => is_leaf m && ord_lt (sn_max_relev n) (sn_max_relev m)) (am_nodes (t_arena (stackable pms))) < 2000.
Proof.
  intros pms Hfin Hgrow i n Hn. destruct (stackable_visited pms Hfin) as (L & V).
  destruct (v_lively _ _ _ _ _ _ _ _ _ V Hgrow) as [[Hl _] _]; [apply (lively_new leaf_soft_max); done|by left|].
  rewrite (lt_soft _ _ (v_later _ _ _ _ _ _ _ _ _ V)) in Hl. change (am_soft_max arena_new) with 2000 in Hl.
  eapply N.le_lt_trans; [|exact Hl]. apply count_le. intros m [Hm Hlt]%andb_prop. unfold above. rewrite Hm. cbn [andb].
  apply ord_lt_true in Hlt. apply ord_lt_true. pose proof (ai_least _ (v_inv _ _ _ _ _ _ _ _ _ V) i n Hn) as Hmin.
  destruct (ord_cmp (am_min (t_arena (stackable pms))) (sn_max_relev n)) eqn:E;
    [|eapply (tc_lt_le_trans _ total_cmp_ord); [exact E|by rewrite Hlt]|done].
  by rewrite (tc_eq_l _ total_cmp_ord _ _ _ E).
Qed.
Print Assumptions C49_tree_bound.

(** ** C57 The best stacks are kept *)
Theorem C57_best_kept :
  forall pms, (forall c, legal pms c -> ord_cmp (sum_weights c) f_max <> Gt) -> estimates_hold pms ->
  forall chain, legal pms chain ->
  (exists n, descends (tree_get (stackable pms)) (t_root (stackable pms)) chain n) \/
  (2000 <= count is_leaf (am_nodes (t_arena (stackable pms))) /\
   forall i n, tree_get (stackable pms) i = Some n -> ord_cmp (sum_weights chain) (sn_max_relev n) = Lt).
Proof.
  intros pms Hfin Hest chain Hl. destruct (stackable_visited pms Hfin) as (L & V).
  pose proof (legal_from_bins pms chain Hl) as [Hf Hs].
  destruct (v_best _ _ _ _ _ _ _ _ _ V (estimates_bound pms Hest) chain Hf Hs Hl) as [?|[Hfull Hlost]]; [by left|]. right. split.
  - unfold is_full in Hfull. rewrite (lt_soft _ _ (v_later _ _ _ _ _ _ _ _ _ V)), (ai_leaves _ (v_inv _ _ _ _ _ _ _ _ _ V)) in Hfull.
    change (am_soft_max arena_new) with 2000 in Hfull. lia.
  - intros i n Hn. eapply (tc_lt_le_trans _ total_cmp_ord); [exact Hlost|].
    by apply (ai_least _ (v_inv _ _ _ _ _ _ _ _ _ V) i).
Qed.
Print Assumptions C57_best_kept.
(** A list of the types, to check the hypothesis on examples. *)
Definition types_of (pms : list subquery) : list N := rev (map fst (foldl (fun m pm => bin_add pm m) [] pms)).
Lemma types_of_above pms t : types_above pms t (List.filter (fun t' => t <? t') (types_of pms)).
Proof.
  pose proof (bins_keyed pms) as (Hs & _). pose proof (bins_keys pms) as Hk. unfold types_of.
  set (l := map fst _) in *. split.
  - apply StronglySorted_filter. clear Hk. clearbody l. induction Hs as [|x l Hs IH HF]; [constructor|]. cbn [rev].
    apply StronglySorted_app. split; [done|]. split; [repeat constructor|]. intros y z Hy Hz.
    apply elem_of_list_singleton in Hz as ->. rewrite Forall_forall in HF. apply HF.
    by rewrite elem_of_list_In, <- in_rev, <- elem_of_list_In in Hy.
  - intros t'. rewrite elem_of_filter, elem_of_list_In, <- in_rev, <- elem_of_list_In, Hk. rewrite N.ltb_lt. naive_solver.
Qed.
Lemma types_above_unique pms t ts1 ts2 : types_above pms t ts1 -> types_above pms t ts2 -> ts1 = ts2.
Proof.
  intros [S1 H1] [S2 H2].
  assert (Hirr : forall a : N, ~ (a < a)) by (intros; lia).
  apply (sorted_perm_unique (fun a b => b < a)); [intros a b _ _ Hab Hba; exfalso; lia|done|done|].
  apply NoDup_Permutation; [by eapply (StronglySorted_NoDup (fun a b => b < a))|by eapply (StronglySorted_NoDup (fun a b => b < a))|].
  intros x. by rewrite H1, H2.
Qed.
Fixpoint splits_ok (f : subquery -> f64 -> bool) (r : f64) (chain : list subquery) : bool :=
  match chain with
  | [] => true
  | pm :: rest => f pm (fadd r (sq_weight pm)) && splits_ok f (fadd r (sq_weight pm)) rest
  end.
Lemma splits_ok_app f pre pm ext : forall r, splits_ok f r (pre ++ pm :: ext) = true ->
  f pm (foldl (fun r pm => fadd r (sq_weight pm)) r (pre ++ [pm])) = true.
Proof.
  induction pre as [|q pre IH]; intros r H; cbn [app splits_ok foldl] in *.
  - by apply andb_prop in H as [H _].
  - apply andb_prop in H as [_ H]. by apply IH.
Qed.
Lemma estimates_check pms :
  forallb (fun chain => splits_ok (fun pm r => not_gtb (sum_weights chain)
      (fadd r (best_after pms (List.filter (fun t => type_of pm <? t) (types_of pms))))) f_zero chain) (all_chains pms) = true ->
  estimates_hold pms.
Proof.
  intros H pre pm ext ts Hl Ht. rewrite (types_above_unique _ _ _ _ Ht (types_of_above pms (type_of pm))).
  assert (Hin : pre ++ pm :: ext ∈ all_chains pms) by (apply all_chains_ok; split; [by destruct pre|done]).
  apply (forallb_in _ _ H) in Hin. apply splits_ok_app in Hin. by apply not_gtb_ok in Hin.
Qed.
(** 39 subqueries of three types with 2743 stacks. *)
Definition many : list subquery :=
  map (fun i => part (1 + i / 13) i (2 ^ (i / 13)) 0 (if i mod 2 =? 0 then f_lit 1 4 else f_lit 1 2)) (map N.of_nat (seq 0 39)).
Lemma grow_check pms :
  forallb (fun chain => match rev chain with pm :: r => ord_lt (sum_weights (rev r)) (sum_weights (rev r ++ [pm])) | [] => true end)
    (all_chains pms) = true ->
  forall c pm, legal pms (c ++ [pm]) -> ord_cmp (sum_weights c) (sum_weights (c ++ [pm])) = Lt.
Proof.
  intros H c pm Hl. assert (Hin : c ++ [pm] ∈ all_chains pms) by (apply all_chains_ok; split; [by destruct c|done]).
  apply (forallb_in _ _ H) in Hin. rewrite rev_app_distr in Hin. cbn [rev app] in Hin. rewrite rev_involutive in Hin.
  by apply ord_lt_true.
Qed.
Example C57_ex :
  (forall c, legal many c -> ord_cmp (sum_weights c) f_max <> Gt) /\ estimates_hold many /\
  (forall c pm, legal many (c ++ [pm]) -> ord_cmp (sum_weights c) (sum_weights (c ++ [pm])) = Lt) /\
  length (all_chains many) = 2743%nat /\
  size (am_nodes (t_arena (stackable many))) = 2639%nat /\ am_leaves (t_arena (stackable many)) = 2444.
Proof.
  split; [apply (legal_all many _ (fun c => not_gtb (sum_weights c) f_max)); [intros c; apply not_gtb_ok|vm_compute; reflexivity]|].
  split; [apply estimates_check; vm_compute; reflexivity|].
  split; [apply grow_check; vm_compute; reflexivity|].
  split; [vm_compute; reflexivity|]. split; vm_compute; reflexivity.
Qed.
(** The hypothesis on the estimates is needed: 0.1 + (0.2 + 0.3) is less than
    (0.1 + 0.2) + 0.3, so a stack is pruned although it is as relevant as the 2000 kept. *)
Definition not_first (idx : N) (t : tree) : bool :=
  forallb (fun i => match tree_get t i with
    | Some c => match sn_pm c with Some q => negb (sq_idx q =? idx) | None => true end | None => true end)
    (sn_children (t_root t)).
Lemma not_first_ok t pm rest : not_first (sq_idx pm) t = true -> ~ exists n, descends (tree_get t) (t_root t) (pm :: rest) n.
Proof.
  intros H (n & Hd). inversion Hd as [|n0 i c q l m Hi Hc Hpm Hd']; subst. apply (forallb_in _ _ H) in Hi.
  rewrite Hc, Hpm, N.eqb_refl in Hi. done.
Qed.
Lemma max_at t i r : match tree_get t i with Some n => Some (sn_max_relev n) | None => None end = Some r ->
  exists i n, tree_get t i = Some n /\ r = sn_max_relev n.
Proof. destruct (tree_get t i) as [n|] eqn:E; [|done]. intros [= <-]. eauto. Qed.
Definition tie_w : f64 := fadd (fadd (f_lit 1 10) (f_lit 2 10)) (f_lit 3 10).
Definition tie_parts : list subquery :=
  [part 1 9000 1 0 (f_lit 1 10); part 2 9001 2 0 (f_lit 2 10); part 3 9002 4 0 (f_lit 3 10)].
Definition tie_pms : list subquery := map (fun i => part 1 i 7 0 tie_w) (map N.of_nat (seq 0 2000)) ++ tie_parts.
Theorem C57_estimate_refuted :
  legal tie_pms tie_parts /\
  (~ exists n, descends (tree_get (stackable tie_pms)) (t_root (stackable tie_pms)) tie_parts n) /\
  (exists i n, tree_get (stackable tie_pms) i = Some n /\ sum_weights tie_parts = sn_max_relev n).
Proof.
  split; [|split].
  - split; [intros pm Hpm; apply elem_of_app; by right|]. split; [|split].
    + repeat (constructor; [|]); repeat constructor.
    + vm_compute. split; [repeat constructor|]. split; [repeat constructor|]. split; [constructor|exact I].
    + vm_compute. split; [reflexivity|]. split; [reflexivity|]. split; [reflexivity|exact I].
  - apply not_first_ok. vm_compute. reflexivity.
  - apply (max_at _ 5). vm_compute. reflexivity.
Qed.
Print Assumptions C57_estimate_refuted.
