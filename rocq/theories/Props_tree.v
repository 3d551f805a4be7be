(** Properties C50-C53: coalescing the stacking tree. *)
From Verif Require Import Prelude Lists F64 Heap Common Builder Spatial Store Spec Spec_match Query Coalesce Stackable Tree
  Cmp_proofs Queue_proofs Spec_coalesce Coalesce_proofs Multi_proofs Spec_stack Stack_proofs Spec_tree Tree_proofs
  Term_proofs Examples Props_match Props_coalesce Props_stack.
From Coq Require Import Sorting.Sorted.
From Coq Require Import ZifyBool.
Local Open Scope N_scope.

(** ** C50 Results are sound *)
Lemma stack_of_masks p mtb tb o chain es : stack_of p mtb tb o chain es -> map ce_mask es = map sq_mask chain.
Proof.
  intros H. induction H as [pm e (k & g & _ & (_ & _ & _ & Em & _))|pm e pm' e' pms es (k & g & _ & (_ & _ & _ & Em & _)) _ _ IH].
  - cbn [map]. by rewrite Em.
  - cbn [map] in *. by rewrite Em, IH.
Qed.
(** For every tree in which a key id names one key of one store: a context goes back to
    a path of the tree, with one entry per level, innermost first. *)
Theorem C50_paths :
  forall p ho mtb tb fuel t o out c, ids_name_keys (in_tree t) ->
  tree_coalesce p ho mtb tb fuel t o = Ok out -> c ∈ out ->
  exists chain n, chain <> [] /\ descends (tree_get t) (t_root t) (rev chain) n /\
    cc_mask c = all_masks (map sq_mask chain) /\ map ce_mask (cc_entries c) = map sq_mask chain /\
    (stack_of p mtb tb o chain (cc_entries c) \/
     exists pm e, chain = [pm] /\ sn_children n = [] /\ cc_entries c = [e] /\ level_entry p mtb tb o 80 pm e).
Proof.
  intros p ho mtb tb fuel t o out c Hids H Hc.
  destruct (tree_coalesce_sound p ho mtb tb t o Hids fuel out H c Hc) as (n & chain & [H1 H2 H3]).
  exists chain, n. destruct H3 as [(pm & e & -> & Hl & He & Hlev & _)|(_ & Hs & _)].
  - split; [done|]. split; [done|]. split; [done|]. split; [|right; by exists pm, e].
    rewrite He. destruct Hlev as (k & g & _ & (_ & _ & _ & Em & _)). cbn [map]. by rewrite Em.
  - split; [by inversion Hs|]. split; [done|]. split; [done|]. split; [by eapply stack_of_masks|by left].
Qed.
Print Assumptions C50_paths.

Lemma in_tree_pms pms pm : in_tree (stackable pms) pm -> pm ∈ pms.
Proof.
  intros (i & n & Hi & Hpm). destruct (stackable_sound pms) as (L & Ha & _).
  destruct (ao_node _ _ _ Ha i n Hi) as (chain & _ & _ & Hok & _).
  destruct Hok as [[S1 _ _ _ _] (Hl & _) _ _ _]. apply Hl. rewrite Hpm in S1. symmetry in S1.
  apply last_Some in S1 as [l ->]. apply elem_of_app. right. by left.
Qed.
(** For the tree of a list of subqueries, the path is a legal stack of them. *)
Theorem C50_stacks :
  forall p ho mtb tb fuel pms o out c, ids_name_keys (fun pm => pm ∈ pms) ->
  tree_coalesce p ho mtb tb fuel (stackable pms) o = Ok out -> c ∈ out ->
  exists chain, chain <> [] /\ legal pms (rev chain) /\
    cc_mask c = all_masks (map sq_mask chain) /\ map ce_mask (cc_entries c) = map sq_mask chain /\
    (stack_of p mtb tb o chain (cc_entries c) \/
     exists pm e, chain = [pm] /\ cc_entries c = [e] /\ level_entry p mtb tb o 80 pm e).
Proof.
  intros p ho mtb tb fuel pms o out c Hids H Hc.
  destruct (C50_paths p ho mtb tb fuel (stackable pms) o out c) as (chain & n & H1 & H2 & H3 & H4 & H5); [|done|done|].
  - intros pm1 pm2 k1 k2 I1 I2. apply Hids; by apply in_tree_pms.
  - exists chain. split; [done|]. split; [by apply (C46_paths pms (rev chain) n)|]. split; [done|]. split; [done|].
    destruct H5 as [?|(pm & e & E & _ & ?)]; [by left|right; exists pm, e; done].
Qed.
Print Assumptions C50_stacks.

(** The entry of a level was stored: [level_entry] in terms of the history of the store. *)
Theorem C50_stored :
  forall p mtb tb o n pm e ho ops,
  level_entry p mtb tb o n pm e -> 1 <= n -> history_ok ops -> built ho ops (sq_store pm) ->
  (forall k, k ∈ sq_keys pm -> query_ok ops (mk_phrase (mki_key k)) /\
     forall ko, key_opts p o pm k ko -> opts_ok p ko (st_radius (sq_store pm))) ->
  exists k ko m, k ∈ sq_keys pm /\ key_opts p o pm k ko /\
    should_match ops (mki_key k) ko (st_radius (sq_store pm)) m /\ to_entry pm (mki_id k) m e.
Proof.
  intros p mtb tb o n pm e ho ops (k & g & (ko & out & Hk & Hko & Hs & Hg) & Hto) Hn Hh Hb Hq.
  destruct (Hq k Hk) as [Hqo Ho].
  destruct (C11_limited p mtb tb ho ops (sq_store pm) (mki_key k) ko n Hh Hb (Ho ko Hko) Hqo Hn) as (out' & Hs' & Hel & _).
  assert (out' = out) by congruence. subst out'. exists k, ko, g. split; [done|]. split; [done|]. split; [by apply Hel|done].
Qed.
Print Assumptions C50_stored.

(** Layers for the examples: type, contents, zoom, index, mask, weight and key id. *)
Definition tlayer (type : N) (ops : list op) (zoom idx mask : N) (weight : f64) (id : N) : subquery :=
  Subquery (open_store (ex_db id_oracle ops) zoom type (f_of_N 40) [BBox 0 0 16383 16383] f_one) idx 0 weight mask
    [MatchKeyWithId (MatchKey (Exact 1) 1) false id 1].
Definition t_a : subquery := tlayer 1 ops_a 5 0 2 (f_lit 1 2) 10.
Definition t_b : subquery := tlayer 2 ops_b 6 1 1 (f_lit 1 2) 11.
Definition t_opts : match_opts := MatchOpts None None 6.
(** The keys of a list of layers have distinct ids. *)
Lemma distinct_ids (pms : list subquery) : NoDup (mjoin (map (fun pm => map mki_id (sq_keys pm)) pms)) ->
  ids_name_keys (fun pm => pm ∈ pms).
Proof.
  intros Hnd. assert (H : forall pm1 pm2 k1 k2, pm1 ∈ pms -> pm2 ∈ pms -> k1 ∈ sq_keys pm1 -> k2 ∈ sq_keys pm2 ->
    mki_id k1 = mki_id k2 -> pm1 = pm2 /\ k1 = k2).
  { induction pms as [|pm pms IH]; [intros pm1 pm2 k1 k2 H; by apply elem_of_nil in H|].
    cbn [map] in Hnd. change (mjoin (?a :: ?b)) with (a ++ mjoin b) in Hnd. apply NoDup_app in Hnd as (N1 & N2 & N3).
    assert (Hin : forall q k, q ∈ pms -> k ∈ sq_keys q -> mki_id k ∈ mjoin (map (fun pm => map mki_id (sq_keys pm)) pms)).
    { intros q k Hq Hk. apply elem_of_mjoin. exists (map mki_id (sq_keys q)). split; apply elem_of_map; eauto. }
    intros pm1 pm2 k1 k2 H1 H2 K1 K2 E. apply elem_of_cons in H1 as [->|H1], H2 as [->|H2].
    - split; [done|]. apply elem_of_list_lookup in K1 as [i Hi], K2 as [j Hj].
      assert (i = j) as ->; [|congruence]. eapply (NoDup_lookup _ i j (mki_id k1)); [exact N1| |];
        rewrite list_lookup_fmap; [by rewrite Hi|by rewrite Hj, E].
    - exfalso. apply (N2 (mki_id k1)); [apply elem_of_map; eauto|]. rewrite E. eauto.
    - exfalso. apply (N2 (mki_id k2)); [apply elem_of_map; eauto|]. rewrite <- E. eauto.
    - by apply IH. }
  intros pm1 pm2 k1 k2 H1 H2 K1 K2 E. destruct (H _ _ _ _ H1 H2 K1 K2 E) as [-> ->]. done.
Qed.
Example C50_ex :
  ids_name_keys (fun pm => pm ∈ [t_b; t_a]) /\
  summary (tree_coalesce Debug rev_oracle first_mtb last_tb 9 (stackable [t_b; t_a]) t_opts) =
    Some [(3, [(1, 2); (0, 2)]); (3, [(1, 1); (0, 5)]); (3, [(1, 1); (0, 1)]); (3, [(1, 3); (0, 5)]);
          (3, [(1, 3); (0, 1)]); (1, [(1, 2)]); (1, [(1, 1)]); (2, [(0, 2)]); (2, [(0, 5)]); (2, [(0, 1)]);
          (1, [(1, 3)])].
Proof.
  split; [|vm_compute; reflexivity]. apply distinct_ids. vm_compute. repeat (constructor; [set_solver|]). constructor.
Qed.

(** Without distinct ids the entries of one store are returned for another: only the id
    is used to find the data of a key again. *)
Definition level_cells (p : profile) (mtb : merge_tb) (tb : tiebreak) (o : match_opts) (n : N) (pm : subquery) : list (N * N) :=
  match adjust_to_zoom p o (zoom_of pm) with
  | Ok zo => mjoin (map (fun k =>
      match (if mki_nearby k then with_nearby_only p zo else Ok zo) with
      | Ok ko => map (fun g => (ge_x (me_entry g), ge_y (me_entry g)))
          (ok_list (streaming_get_matching p mtb tb (sq_store pm) (mki_key k) ko n))
      | _ => []
      end) (sq_keys pm))
  | _ => []
  end.
Lemma level_cell p mtb tb o n pm e : level_entry p mtb tb o n pm e -> e_cell e ∈ level_cells p mtb tb o n pm.
Proof.
  intros (k & g & (ko & out & Hk & (zo & Hz & Hko) & Hs & Hg) & (Ee & _)). unfold level_cells. rewrite Hz.
  apply elem_of_mjoin. eexists. split; [|apply elem_of_map; exists k; split; [reflexivity|exact Hk]].
  rewrite Hko, Hs. cbn [ok_list]. apply elem_of_map. exists g. split; [|exact Hg]. unfold e_cell. rewrite Ee. reflexivity.
Qed.
Definition foreign (p : profile) (mtb : merge_tb) (tb : tiebreak) (o : match_opts) (n : N) (pm : subquery) (e : coalesce_entry) : bool :=
  (ce_idx e =? sq_idx pm) && negb (existsb (fun xy => bool_decide (xy = e_cell e)) (level_cells p mtb tb o n pm)).
Lemma foreign_ok p mtb tb o n pm x :
  existsb (fun c => existsb (foreign p mtb tb o n pm) (cc_entries c)) (ok_list x) = true ->
  exists out c e, x = Ok out /\ c ∈ out /\ e ∈ cc_entries c /\ ce_idx e = sq_idx pm /\ ~ level_entry p mtb tb o n pm e.
Proof.
  intros H. apply existsb_exists in H as (c & Hc & H). apply existsb_exists in H as (e & He & H).
  apply elem_of_list_In in Hc, He. destruct x as [out| | |]; cbn [ok_list] in Hc; try (by apply elem_of_nil in Hc).
  exists out, c, e. unfold foreign in H. apply andb_prop in H as [H1 H2]. apply N.eqb_eq in H1.
  split; [done|]. split; [done|]. split; [done|]. split; [done|]. intros Hl. apply level_cell in Hl.
  apply negb_true_iff in H2. apply not_true_iff_false in H2. apply H2. apply existsb_exists. exists (e_cell e).
  split; [by apply elem_of_list_In|]. by apply bool_decide_eq_true.
Qed.
Definition t_b10 : subquery := tlayer 2 ops_b 6 1 1 (f_lit 1 2) 10.
Theorem C50_shared_id_refuted :
  exists out c e, tree_coalesce Debug rev_oracle first_mtb last_tb 9 (stackable [t_b10; t_a]) t_opts = Ok out /\
    c ∈ out /\ e ∈ cc_entries c /\ ce_idx e = sq_idx t_b10 /\
    ~ level_entry Debug first_mtb last_tb t_opts 100000 t_b10 e.
Proof. apply foreign_ok. vm_compute. reflexivity. Qed.
Print Assumptions C50_shared_id_refuted.

(** A layer below a finer one: the difference of the zooms is negative. A debug build
    stops; a release build stacks cells that are not nested. *)
Definition t_z : subquery := tlayer 3 (layer_ops 1 [GridEntry f_one 1 0 0 8 0]) 6 0 2 (f_lit 1 2) 10.
Definition t_y : subquery := tlayer 4 (layer_ops 1 [GridEntry f_one 1 3 3 9 0]) 5 1 1 (f_lit 1 2) 11.
Lemma first_pair (x : res (list coalesce_context)) a b :
  match ok_list x with
  | c :: _ => match cc_entries c with [e; e'] => Some (e_cell e, e_cell e') | _ => None end
  | _ => None
  end = Some (a, b) ->
  exists out c e e', x = Ok out /\ c ∈ out /\ cc_entries c = [e; e'] /\ e_cell e = a /\ e_cell e' = b.
Proof.
  intros H. destruct x as [out| | |]; cbn [ok_list] in H; [|done|done|done]. destruct out as [|c out]; [done|].
  destruct (cc_entries c) as [|e [|e' [|]]] eqn:E; try done. exists (c :: out), c, e, e'. split; [done|]. split; [by left|].
  split; [done|]. split; congruence.
Qed.
Theorem C50_zoom_order_refuted :
  tree_coalesce Debug rev_oracle first_mtb last_tb 9 (stackable [t_z; t_y]) t_opts = Panic /\
  (zoom_of t_y, zoom_of t_z) = (5, 6) /\
  exists out c e e', tree_coalesce Release rev_oracle first_mtb last_tb 9 (stackable [t_z; t_y]) t_opts = Ok out /\
    c ∈ out /\ cc_entries c = [e; e'] /\ e_cell e = (3, 3) /\ e_cell e' = (0, 0).
Proof.
  split; [vm_compute; reflexivity|]. split; [vm_compute; reflexivity|]. apply first_pair. vm_compute. reflexivity.
Qed.
Print Assumptions C50_zoom_order_refuted.

(** ** C51 Shape *)
Lemma tree_nonempty p ho mtb tb fuel t o out c :
  tree_coalesce p ho mtb tb fuel t o = Ok out -> c ∈ out -> cc_entries c <> [].
Proof.
  unfold tree_coalesce. intros H Hc. apply bind_Ok in H as (u & _ & H). apply bind_Ok in H as (steps & Hs & H).
  apply bind_Ok in H as (s & Hl & H). injection H as <-.
  destruct (hp_into_desc_ok ctx_cmp total_cmp_ctx tb (cpq_heap (tr_contexts s))) as [Hp _]. unfold cpq_into_desc in Hc.
  rewrite Hp in Hc. revert c Hc.
  set (P := fun s => exists l, cpq_holds ctx_cmp tree_max_contexts l (tr_contexts s) /\ forall c, c ∈ l -> cc_entries c <> []).
  assert (HP : P s).
  { eapply (loop_inv p ho mtb tb t o P); [| |exact Hl].
    2: { exists []. split; [apply cpq_new_holds|]. intros c Hc. by apply elem_of_nil in Hc. }
    intros round s0 s1 complete (l & Hl0 & Hn) Hr. apply tree_round_ok in Hr as (g & popped & last & fs & rs & [G Hcm HF Hrun Hctx Hst Hca]).
    eexists. rewrite Hctx. split; [by apply push_all_holds|]. intros c Hc. rewrite !elem_of_app in Hc.
    destruct Hc as [Hc|[Hc|Hc]]; [by apply Hn| |].
    - apply elem_of_mjoin in Hc as (l' & Hcl & Hl'). apply elem_of_map in Hl' as ([j f] & -> & Hjf).
      unfold pushed_of in Hcl. cbn [fst snd] in Hcl. destruct f as [q|]; [|by apply elem_of_nil in Hcl].
      apply elem_of_combine_r in Hjf. apply elem_of_list_lookup in Hjf as [i Hi].
      destruct (Forall2_lookup_r _ _ _ _ _ HF Hi) as (kf & Hkfi & Hf).
      apply fetch_key_ok in Hf as (Hsing & out & cs & Hout & Hcs & Hq).
      rewrite cpq_iter_perm in Hcl. apply (holds_in _ _ _ _ Hq) in Hcl.
      destruct (tree_single_ok _ _ _ _ _ _ Hcs c Hcl) as (g0 & e & Hg0 & He & ->). done.
    - apply elem_of_mjoin in Hc as (l' & Hcl & Hl'). apply elem_of_map in Hl' as ([out next] & -> & Hr).
      apply elem_of_list_lookup in Hr as [i Hi]. destruct (Forall2_lookup_r _ _ _ _ _ Hrun Hi) as (st & Hsti & site & Hrn).
      apply run_step_ok in Hrn as (scale & css & sel & [N1 N2 (outs & N3 & ->) -> [N5 N4] _]). cbn [fst] in Hcl.
      apply elem_of_mjoin in Hcl as (out & Hcl & Hout). apply elem_of_list_lookup in Hout as [j Hj].
      destruct (Forall2_lookup_r _ _ _ _ _ N3 Hj) as (cs & Hcs & Hb).
      apply (best_40_in _ _ _ Hb) in Hcl. apply elem_of_map in Hcl as (d & -> & Hd).
      assert (Hdj : d ∈ mjoin css) by (apply elem_of_mjoin; exists cs; split; [done|by eapply elem_of_list_lookup_2]).
      apply (keys_made_elem _ _ _ _ _ _ d N2) in Hdj as (k & grids & g1 & e & _ & _ & _ & _ & Hgr).
      assert (Hne : cc_entries d <> []).
      { unfold grown in Hgr. destruct (tp_prev st); [apply elem_of_map in Hgr as (parent & -> & _); done|].
        by apply elem_of_list_singleton in Hgr as ->. }
      by rewrite (proj1 (penalize_fields d Hne)). }
  destruct HP as (l & Hh & Hn). intros c Hc. apply Hn. by eapply holds_in.
Qed.
Theorem C51_shape :
  forall p ho mtb tb fuel t o out, tree_coalesce p ho mtb tb fuel t o = Ok out ->
  N.of_nat (length out) <= 800 /\ StronglySorted listed_before out.
Proof.
  intros p ho mtb tb fuel t o out H. destruct (tree_coalesce_shape _ _ _ _ _ _ _ _ H) as [H1 H2].
  split; [exact H1|]. eapply StronglySorted_impl_in; [|exact H2]. intros a b Ha Hb.
  apply cmp_listed_before; by eapply tree_nonempty.
Qed.
Print Assumptions C51_shape.
Example C51_ex :
  length (ok_list (tree_coalesce Debug rev_oracle first_mtb last_tb 9 (stackable [t_b; t_a]) t_opts)) = 11%nat.
Proof. vm_compute. reflexivity. Qed.

(** ** C52 Termination *)
(** For every list of subqueries, store contents (even undecodable ones), options and
    tie-breaking: one more round than there are nodes is enough. *)
Theorem C52_terminates :
  forall p ho mtb tb pms o fuel,
  (N.to_nat (am_next (t_arena (stackable pms))) < fuel)%nat ->
  tree_coalesce p ho mtb tb fuel (stackable pms) o <> Diverge.
Proof.
  intros p ho mtb tb pms o fuel Hf. destruct (stackable_tiles pms) as (G & Ha & Ht).
  apply (halts_tree_coalesce p ho mtb tb (stackable pms) o G Ha fuel Ht). exact Hf.
Qed.
Print Assumptions C52_terminates.
Theorem C52_whole :
  forall p ho mtb tb pms o, stack_and_coalesce p ho mtb tb pms o <> Diverge.
Proof.
  intros p ho mtb tb pms o. unfold stack_and_coalesce. apply halts_bind.
  - unfold collapse_phrasematches. apply halts_foldl. intros acc pm _. induction acc as [|g acc IH]; cbn [collapse_add]; [done|].
    destruct (same_group pm g); [unfold first_key; halt|]. apply halts_bind; [exact IH|done].
  - intros collapsed _. cbn zeta. apply C52_terminates. unfold tree_fuel. lia.
Qed.
Print Assumptions C52_whole.
(** With too little fuel the loop is cut short; the bound is met in the example. *)
Example C52_ex :
  am_next (t_arena (stackable [t_b; t_a])) = 3 /\
  tree_coalesce Debug rev_oracle first_mtb last_tb 1 (stackable [t_b; t_a]) t_opts = Diverge /\
  summary (tree_coalesce Debug rev_oracle first_mtb last_tb 4 (stackable [t_b; t_a]) t_opts) <> None.
Proof. split; [vm_compute; reflexivity|]. split; [vm_compute; reflexivity|]. vm_compute. discriminate. Qed.

(** ** C53 Relevance *)
(** The relevance is the sum over the levels, less 0.01 if the context has one entry or
    its innermost mask is greater than the next one. Only the matches of a node that is
    both at the first level and a leaf keep their relevance. *)
Theorem C53_relevance :
  forall p ho mtb tb fuel t o out c, ids_name_keys (in_tree t) ->
  tree_coalesce p ho mtb tb fuel t o = Ok out -> c ∈ out ->
  exists chain n, descends (tree_get t) (t_root t) (rev chain) n /\
    length (cc_entries c) = length chain /\
    cc_relev c =
      (if (length chain =? 1)%nat && is_leaf n then sum_relev (cc_entries c)
       else if ascending (cc_entries c) then fsub (sum_relev (cc_entries c)) (f_lit 1 100)
       else sum_relev (cc_entries c)) /\
    (forall e, e ∈ cc_entries c -> exists pm k g n, pm ∈ chain /\ key_match p mtb tb o n pm k g /\
       e_relev e = fmul (ge_relev (me_entry g)) (sq_weight pm)).
Proof.
  intros p ho mtb tb fuel t o out c Hids H Hc.
  destruct (tree_coalesce_sound p ho mtb tb t o Hids fuel out H c Hc) as (n & chain & [H1 H2 H3]).
  exists chain, n. split; [done|]. destruct H3 as [(pm & e & -> & Hl & He & Hlev & Hr)|(Hkind & Hs & Hr)].
  - rewrite He. split; [done|]. split.
    + unfold is_leaf. by rewrite Hl.
    + intros e0 He0. apply elem_of_list_singleton in He0 as ->. destruct Hlev as (k & g & Hk & (Ee & _)).
      exists pm, k, g, 80. split; [by left|]. split; [done|]. unfold e_relev. by rewrite Ee.
  - split; [by apply stack_of_length in Hs as [? _]|]. split.
    + rewrite Hr. destruct Hkind as [(pm & -> & Hk)|Hlen].
      * unfold is_leaf. by destruct (sn_children n).
      * by replace (length chain =? 1)%nat with false by lia.
    + clear Hr Hkind H H1 H2 Hc Hids. induction Hs as [pm e (k & g & Hk & (Ee & _))|pm e pm' e' pms es (k & g & Hk & (Ee & _)) _ _ IH].
      * intros e0 He0. apply elem_of_list_singleton in He0 as ->. exists pm, k, g, 100000. split; [by left|]. split; [done|].
        unfold e_relev. by rewrite Ee.
      * intros e0 He0. apply elem_of_cons in He0 as [->|He0].
        -- exists pm, k, g, 100000. split; [by left|]. split; [done|]. unfold e_relev. by rewrite Ee.
        -- destruct (IH e0 He0) as (q & k' & g' & n' & Hq & Hrest). exists q, k', g', n'. split; [by right|done].
Qed.
Print Assumptions C53_relevance.
(** Two layers: no penalty, as the innermost mask is the smaller one. One layer: a
    penalty for the coarse one, which has a child in the tree, and none for the fine one.
    With the masks exchanged, the contexts of two entries are penalized. *)
Definition t_a' : subquery := tlayer 1 ops_a 5 0 1 (f_lit 1 2) 10.
Definition t_b' : subquery := tlayer 2 ops_b 6 1 2 (f_lit 1 2) 11.
Definition relevs (r : res (list coalesce_context)) : list (N * f64) := map (fun c => (cc_mask c, cc_relev c)) (ok_list r).
Definition f_049 : f64 := fsub (f_lit 1 2) (f_lit 1 100).
Example C53_ex :
  map (fun r => (r.1, ord_cmp r.2 f_one, ord_cmp r.2 f_049))
    (relevs (tree_coalesce Debug rev_oracle first_mtb last_tb 9 (stackable [t_b; t_a]) t_opts)) =
    [(3, Eq, Gt); (3, Eq, Gt); (3, Eq, Gt); (3, Lt, Gt); (3, Lt, Gt); (1, Lt, Gt); (1, Lt, Gt);
     (2, Lt, Eq); (2, Lt, Eq); (2, Lt, Eq); (1, Lt, Lt)] /\
  map (fun r => (r.1, ord_cmp r.2 (fsub f_one (f_lit 1 100)), ord_cmp r.2 f_049))
    (relevs (tree_coalesce Debug rev_oracle first_mtb last_tb 9 (stackable [t_b'; t_a']) t_opts)) =
    [(3, Eq, Gt); (3, Eq, Gt); (3, Eq, Gt); (3, Lt, Gt); (3, Lt, Gt); (2, Lt, Gt); (2, Lt, Gt);
     (1, Lt, Eq); (1, Lt, Eq); (1, Lt, Eq); (2, Lt, Lt)].
Proof. split; vm_compute; reflexivity. Qed.
