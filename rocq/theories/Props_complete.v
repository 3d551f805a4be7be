(** Property C60: what tree_coalesce does not miss. *)
From Verif Require Import Prelude Lists F64 Heap Common Builder Spatial Store Spec Spec_match Query Coalesce Stackable Tree
  Cmp_proofs Queue_proofs Spec_coalesce Coalesce_proofs Multi_proofs Spec_stack Stack_proofs Spec_tree Tree_proofs
  Term_proofs Examples Props_match Props_coalesce Props_stack Props_tree Spec_complete Complete_proofs.
From Coq Require Import ZifyBool.
Local Open Scope N_scope.

(** ** C60 Completeness *)
(** For every tree, whatever the hash order and tie-breaking: a stack of entries along a
    path is returned, or 800 results are listed before it, or 40 stacks of the same key
    are, or the search was stopped. *)
Theorem C60_complete :
  forall p ho mtb tb fuel t o out n chain es,
  ids_name_keys (in_tree t) -> (forall pm, in_tree t pm -> ids_distinct pm) -> zooms_nested t -> boxes_cover p mtb tb o t ->
  tree_coalesce p ho mtb tb fuel t o = Ok out ->
  node_stack p mtb tb o t n chain es -> free_stack chain es -> stacked n chain ->
  stack_context chain es ∈ out \/ crowded_out 800 out (stack_context chain es) \/
  key_crowded p mtb tb o t n chain es \/ stopped_early t n chain out.
Proof.
  intros p ho mtb tb fuel t o out n chain es H1 H2 H3 H4 H Hn Hf Hs. by eapply tree_complete.
Qed.
Print Assumptions C60_complete.
(** In particular nothing is missed below the two limits. *)
Theorem C60_all :
  forall p ho mtb tb fuel t o out n chain es,
  ids_name_keys (in_tree t) -> (forall pm, in_tree t pm -> ids_distinct pm) -> zooms_nested t -> boxes_cover p mtb tb o t ->
  tree_coalesce p ho mtb tb fuel t o = Ok out -> (length out < 800)%nat ->
  node_stack p mtb tb o t n chain es -> free_stack chain es -> stacked n chain ->
  (forall D, NoDup D -> (forall es', es' ∈ D -> node_stack p mtb tb o t n chain es' /\ es' <> es) -> (length D < 40)%nat) ->
  stack_context chain es ∈ out.
Proof.
  intros p ho mtb tb fuel t o out n chain es H1 H2 H3 H4 H Hlt Hn Hf Hs Hfew.
  destruct (C60_complete p ho mtb tb fuel t o out n chain es H1 H2 H3 H4 H Hn Hf Hs) as [?|[[E _]|[(D & D1 & D2 & D3)|[E _]]]]; [done|lia| |lia].
  specialize (Hfew D D1). enough (length D < 40)%nat by lia. apply Hfew. intros es' Hes. destruct (D3 es' Hes) as (? & _ & ? & _). done.
Qed.
Print Assumptions C60_all.

(** The same for a list of subqueries, without mention of the tree. *)
Lemma descends_app get n a b m : descends get n (a ++ b) m -> exists k, descends get n a k /\ descends get k b m.
Proof.
  revert n. induction a as [|pm a IH]; intros n H; cbn [app] in H.
  - exists n. split; [constructor|done].
  - inversion H as [|n0 i c pm0 rest m0 Hi Hc Hpm Hd E1 E2 E3]. subst. destruct (IH _ Hd) as (k & Hk & Hb). exists k. split; [|done].
    by econstructor.
Qed.
Lemma descends_one get n pm m : descends get n [pm] m -> exists i, i ∈ sn_children n /\ get i = Some m /\ sn_pm m = Some pm.
Proof.
  intros H. inversion H as [|n0 i c pm0 rest m0 Hi Hc Hpm Hd E1 E2 E3]. subst. inversion Hd. subst. eauto.
Qed.
Lemma nested_node p mtb tb o t chain es :
  nested_stack p mtb tb o chain es -> forall n, descends (tree_get t) (t_root t) (rev chain) n -> node_stack p mtb tb o t n chain es.
Proof.
  intros H. induction H as [pm e He|pm e pm' e' pms es H IH He Hx Hy]; intros n Hd.
  - cbn [rev app] in Hd. apply descends_one in Hd as (i & Hi & Hn & Hpm). by eapply ns_one.
  - change (rev (pm :: pm' :: pms)) with (rev (pm' :: pms) ++ [pm]) in Hd. apply descends_app in Hd as (n' & Hd' & Hd).
    apply descends_one in Hd as (i & Hi & Hn & Hpm). eapply ns_more; [by apply IH|exact Hi|exact Hn|exact Hpm|exact He|exact Hx|exact Hy].
Qed.
Lemma node_nested p mtb tb o t n chain es : node_stack p mtb tb o t n chain es -> nested_stack p mtb tb o chain es.
Proof. intros H. induction H; by constructor. Qed.

Theorem C60_stacks :
  forall p ho mtb tb fuel pms o out chain es,
  NoDup pms -> (forall cs, NoDup cs -> (forall c, c ∈ cs -> c <> [] /\ legal pms c) -> N.of_nat (length cs) < 2000) ->
  (forall c, legal pms c -> ord_cmp (sum_weights c) f_max <> Gt) ->
  ids_name_keys (fun pm => pm ∈ pms) -> (forall pm, pm ∈ pms -> ids_distinct pm) -> types_by_zoom pms ->
  all_covered p mtb tb o pms ->
  tree_coalesce p ho mtb tb fuel (stackable pms) o = Ok out ->
  legal pms (rev chain) -> nested_stack p mtb tb o chain es -> free_stack chain es ->
  ((2 <= length chain)%nat \/ exists pm, legal pms (rev chain ++ [pm])) ->
  stack_context chain es ∈ out \/ crowded_out 800 out (stack_context chain es) \/
  crowded_key p mtb tb o chain es \/
  exists n, descends (tree_get (stackable pms)) (t_root (stackable pms)) (rev chain) n /\
            stopped_early (stackable pms) n chain out.
Proof.
  intros p ho mtb tb fuel pms o out chain es Hnd Hfew Hfin Hids Hdist Hzoom Hcov H Hleg Hns Hfs Hst.
  assert (Hn : exists n, descends (tree_get (stackable pms)) (t_root (stackable pms)) (rev chain) n /\ stacked n chain).
  { destruct Hst as [Hlen|[pm Hpm]].
    - destruct (C47_complete pms Hnd Hfew _ Hleg) as [n Hn]. exists n. split; [done|by left].
    - destruct (C47_complete pms Hnd Hfew _ Hpm) as [m Hm]. apply descends_app in Hm as (n & Hn & Hm). exists n. split; [done|right].
      apply descends_one in Hm as (i & Hi & _). intros E. rewrite E in Hi. by apply elem_of_nil in Hi. }
  destruct Hn as (n & Hn & Hstk).
  destruct (C60_complete p ho mtb tb fuel (stackable pms) o out n chain es) as [?|[?|[(D & D1 & D2 & D3)|E]]]; auto.
  - intros pm1 pm2 k1 k2 I1 I2. apply Hids; by apply in_tree_pms.
  - intros pm Hpm. by apply Hdist, in_tree_pms.
  - intros i n1 pm j m pm' Hi Hpm Hj Hm Hpm'.
    destruct (C49_reachable pms Hfin) as (_ & _ & Hreach). destruct (Hreach i n1 Hi) as (c1 & Hc1 & Hd1).
    assert (Hd2 : descends (tree_get (stackable pms)) (t_root (stackable pms)) (c1 ++ [pm']) m).
    { by eapply descends_snoc. }
    pose proof (C46_paths pms _ _ Hd1) as (_ & Hl1 & _). rewrite Hpm in Hl1. symmetry in Hl1.
    apply last_Some in Hl1 as [c0 ->]. rewrite <- app_assoc in Hd2. cbn [app] in Hd2.
    apply C46_paths in Hd2 as [(Hin & Hsort & _) _].
    apply Hzoom.
    + apply Hin. rewrite !elem_of_app, !elem_of_cons. auto.
    + apply Hin. rewrite !elem_of_app, !elem_of_cons. auto.
    + clear - Hsort. induction c0 as [|q c0 IH]; cbn [app] in Hsort.
      * inversion Hsort as [|a l _ Hf E]. subst. by inversion Hf.
      * apply IH. by inversion Hsort.
  - intros pm e Hpm He. apply Hcov; [by apply in_tree_pms|done].
  - by apply nested_node.
  - right. right. left. exists D. split; [done|]. split; [done|]. intros es' Hes. destruct (D3 es' Hes) as (X1 & X2 & X3 & X4).
    split; [by eapply node_nested|]. done.
  - right. right. right. eauto.
Qed.
Print Assumptions C60_stacks.

(** Concrete entries: that of the [i]-th match of a key. *)
Definition spot_eqb (a b : match_entry) : bool := bool_decide (spot a = spot b).
Definition nth_matches (p : profile) (mtb : merge_tb) (tb : tiebreak) (o : match_opts) (pm : subquery) (k : match_key_id) :
    option (list match_entry) :=
  match adjust_to_zoom p o (zoom_of pm) with
  | Ok zo =>
      match (if mki_nearby k then with_nearby_only p zo else Ok zo) with
      | Ok ko => match streaming_get_matching p mtb tb (sq_store pm) (mki_key k) ko 100000 with Ok l => Some l | _ => None end
      | _ => None
      end
  | _ => None
  end.
Definition entry_for (pm : subquery) (k : match_key_id) (g : match_entry) : coalesce_entry :=
  CoalesceEntry (GridEntry (fmul (ge_relev (me_entry g)) (sq_weight pm)) (ge_score (me_entry g))
                   (ge_x (me_entry g)) (ge_y (me_entry g)) (ge_id (me_entry g)) (ge_hash (me_entry g)))
    (me_lang g) (sq_idx pm) ((sq_idx pm * 2 ^ 25 + ge_id (me_entry g)) mod 2 ^ 32) (sq_mask pm) (me_distance g) (me_scoredist g) (mki_id k).
Definition null_entry : coalesce_entry := CoalesceEntry (GridEntry f_zero 0 0 0 0 0) false 0 0 0 f_zero f_zero 0.
Definition ex_entry (p : profile) (mtb : merge_tb) (tb : tiebreak) (o : match_opts) (pm : subquery) (i : nat) : coalesce_entry :=
  match sq_keys pm with
  | k :: _ => match nth_matches p mtb tb o pm k with
              | Some l => match l !! i with Some g => entry_for pm k g | None => null_entry end
              | None => null_entry
              end
  | [] => null_entry
  end.
Definition ex_entryb (p : profile) (mtb : merge_tb) (tb : tiebreak) (o : match_opts) (pm : subquery) (i : nat) : bool :=
  match sq_keys pm with
  | k :: _ => match nth_matches p mtb tb o pm k with
              | Some l => match l !! i with
                          | Some g => forallb (fun g' => negb (spot_eqb g' g)) (take i l) && (N.of_nat i <? 100000)
                          | None => false
                          end
              | None => false
              end
  | [] => false
  end.
Lemma ex_entry_ok p mtb tb o pm i : ex_entryb p mtb tb o pm i = true -> stack_entry p mtb tb o pm (ex_entry p mtb tb o pm i).
Proof.
  unfold ex_entryb, ex_entry. destruct (sq_keys pm) as [|k ks] eqn:Ek; [done|].
  destruct (nth_matches p mtb tb o pm k) as [l|] eqn:El; [|done]. destruct (l !! i) as [g|] eqn:Ei; [|done].
  intros [H1 H2]%andb_prop. exists k, g. split; [|repeat split].
  unfold nth_matches in El. destruct (adjust_to_zoom p o (zoom_of pm)) as [zo| | |] eqn:Ez; try done.
  destruct (if mki_nearby k then with_nearby_only p zo else Ok zo) as [ko| | |] eqn:Eko; try done.
  destruct (streaming_get_matching p mtb tb (sq_store pm) (mki_key k) ko 100000) as [l'| | |] eqn:Es; try done.
  injection El as ->. exists ko, l, i. split; [rewrite Ek; by left|]. split; [by exists zo|]. split; [done|]. split; [done|].
  split; [lia|]. intros j g' Hj Hg' E. rewrite forallb_forall in H1. specialize (H1 g').
  assert (Hin : In g' (take i l)). { apply elem_of_list_In, elem_of_list_lookup. exists j. by rewrite lookup_take. }
  specialize (H1 Hin). unfold spot_eqb in H1. rewrite (bool_decide_eq_true_2 _ E) in H1. done.
Qed.
Definition coveredb (p : profile) (mtb : merge_tb) (tb : tiebreak) (o : match_opts) (pm : subquery) : bool :=
  forallb (fun c : N * N => existsb (fun b => (bb_x0 b <=? c.1) && (c.1 <=? bb_x1 b) && (bb_y0 b <=? c.2) && (c.2 <=? bb_y1 b))
                      (st_bboxes (sq_store pm))) (level_cells p mtb tb o 100000 pm).
Lemma all_covered_ok p mtb tb o pms : forallb (coveredb p mtb tb o) pms = true -> all_covered p mtb tb o pms.
Proof.
  intros H pm e Hpm (k & g & (ko & l & i & Hk & Hko & Hs & Hi & _) & Hto).
  apply (forallb_in _ _ H) in Hpm. unfold coveredb in Hpm.
  assert (Hl : level_entry p mtb tb o 100000 pm e).
  { exists k, g. split; [|done]. exists ko, l. split; [done|]. split; [done|]. split; [done|]. by eapply elem_of_list_lookup_2. }
  apply level_cell in Hl. apply (forallb_in _ _ Hpm) in Hl. apply existsb_exists in Hl as (b & Hb & Hl).
  exists b. split; [by apply elem_of_list_In|]. lia.
Qed.
Definition types_zoomb (pms : list subquery) : bool :=
  forallb (fun pm => forallb (fun pm' => negb (type_of pm <? type_of pm') ||
    ((zoom_of pm <=? zoom_of pm') && (zoom_of pm' - zoom_of pm <? 16))) pms) pms.
Lemma types_zoom_ok pms : types_zoomb pms = true -> types_by_zoom pms.
Proof.
  intros H pm pm' Hpm Hpm' Ht. apply (forallb_in _ _ H) in Hpm. apply (forallb_in _ _ Hpm) in Hpm'. lia.
Qed.
(** What C60_stacks asks of the subqueries and options. *)
Definition fit_for_C60 (p : profile) (mtb : merge_tb) (tb : tiebreak) (pms : list subquery) (o : match_opts) : Prop :=
  NoDup pms /\ (forall cs, NoDup cs -> (forall c, c ∈ cs -> c <> [] /\ legal pms c) -> N.of_nat (length cs) < 2000) /\
  (forall c, legal pms c -> ord_cmp (sum_weights c) f_max <> Gt) /\
  ids_name_keys (fun pm => pm ∈ pms) /\ (forall pm, pm ∈ pms -> ids_distinct pm) /\ types_by_zoom pms /\
  all_covered p mtb tb o pms.
Definition fitb (p : profile) (mtb : merge_tb) (tb : tiebreak) (pms : list subquery) (o : match_opts) : bool :=
  bool_decide (NoDup (map sq_idx pms)) && (N.of_nat (length (all_chains pms)) <? 2000) &&
  forallb (fun c => not_gtb (sum_weights c) f_max) ([] :: all_chains pms) &&
  bool_decide (NoDup (mjoin (map (fun pm => map mki_id (sq_keys pm)) pms))) &&
  forallb (fun pm => bool_decide (NoDup (map mki_id (sq_keys pm)))) pms && types_zoomb pms &&
  forallb (coveredb p mtb tb o) pms.
Lemma fit_ok p mtb tb pms o : fitb p mtb tb pms o = true -> fit_for_C60 p mtb tb pms o.
Proof.
  intros [[[[[[H1 H2]%andb_prop H3]%andb_prop H4]%andb_prop H5]%andb_prop H6]%andb_prop H7]%andb_prop.
  split; [by apply nodup_by_idx|]. split; [apply few_chains; lia|].
  split; [apply (legal_all pms _ (fun c => not_gtb (sum_weights c) f_max)); [intros c; apply not_gtb_ok|exact H3]|].
  split; [apply distinct_ids; by apply bool_decide_eq_true in H4|].
  split; [intros pm Hpm; apply (forallb_in _ _ H5) in Hpm; by apply bool_decide_eq_true in Hpm|].
  split; [by apply types_zoom_ok|by apply all_covered_ok].
Qed.

Definition c60_b : coalesce_entry := ex_entry Debug first_mtb last_tb t_opts t_b 0.
Definition c60_a : coalesce_entry := ex_entry Debug first_mtb last_tb t_opts t_a 0.
Example C60_ex :
  fit_for_C60 Debug first_mtb last_tb [t_b; t_a] t_opts /\
  legal [t_b; t_a] (rev [t_b; t_a]) /\ nested_stack Debug first_mtb last_tb t_opts [t_b; t_a] [c60_b; c60_a] /\
  free_stack [t_b; t_a] [c60_b; c60_a] /\ (e_id c60_b, e_cell c60_b) = (2, (4, 4)) /\ (e_id c60_a, e_cell c60_a) = (2, (2, 2)).
Proof.
  split; [apply fit_ok; vm_compute; reflexivity|].
  split; [apply all_chains_ok; vm_compute; repeat (first [left|right])|].
  split.
  { apply nst_more; [apply nst_one| | |]; [apply ex_entry_ok; vm_compute; reflexivity|apply ex_entry_ok; vm_compute; reflexivity| |]; vm_compute; reflexivity. }
  split; [|split; vm_compute; reflexivity].
  constructor; [|constructor; [|constructor]]; intros k Hk _; apply elem_of_list_singleton in Hk as ->; split; intros ? *; vm_compute; done.
Qed.

(** The early stop: a step of low promise ends the search although the steps taken
    together with it have just opened others. Eight leaves with keys of 40, 40 and 20
    cells fill the result with relevance 0.8; then [s_a] and [s_b] on its own are taken
    together, [s_b] promises only 0.5, and the stack of [s_b] on [s_a] is never looked
    at although its relevance is 1. *)
Definition s_ops : list op :=
  layer_ops 1 (map (fun i => GridEntry (f_lit 8 10) 1 (60 - N.of_nat i) 7 (N.of_nat i) 0) (seq 1 40)) ++
  layer_ops 2 (map (fun i => GridEntry (f_lit 8 10) 1 (60 - N.of_nat i) 7 (N.of_nat i) 0) (seq 1 20)).
Definition s_leaf (i : nat) : subquery :=
  Subquery (open_store (ex_db id_oracle s_ops) 6 1 (f_of_N 40) [BBox 0 0 16383 16383] f_one) (N.of_nat i) 0 f_one 3
    (map (fun pj : N * N => MatchKeyWithId (MatchKey (Exact pj.1) 1) false (10 * N.of_nat i + pj.2) 1) [(1, 0); (1, 1); (2, 2)]).
Definition s_layer (type idx mask : N) : subquery :=
  Subquery (open_store (ex_db id_oracle (layer_ops 1 [GridEntry f_one 1 1 1 1 0])) 6 type (f_of_N 40)
              [BBox 0 0 16383 16383] f_zero) idx 0 (f_lit 1 2) mask [MatchKeyWithId (MatchKey (Exact 1) 1) false (1000 + idx) 1].
Definition s_a : subquery := s_layer 2 20 2.
Definition s_b : subquery := s_layer 3 21 1.
Definition s_all : list subquery := map s_leaf (seq 1 8) ++ [s_a; s_b].
Definition s_es : list coalesce_entry :=
  [ex_entry Debug first_mtb first_tb t_opts s_b 0; ex_entry Debug first_mtb first_tb t_opts s_a 0].
Lemma all_between x a c :
  match x with
  | Ok out => (Nat.eqb (length out) 800) && forallb (fun d => match ord_cmp (cc_relev d) (cc_relev c), ord_cmp (cc_relev a) (cc_relev d) with Lt, Lt => true | _, _ => false end) out
  | _ => false
  end = true ->
  exists out, x = Ok out /\ length out = 800%nat /\ forall d, d ∈ out -> ord_cmp (cc_relev d) (cc_relev c) = Lt /\ ord_cmp (cc_relev a) (cc_relev d) = Lt.
Proof.
  destruct x as [out| | |]; try done. intros [H1 H2]%andb_prop. exists out. split; [done|].
  split; [by apply Nat.eqb_eq|]. intros d Hd. apply (forallb_in _ _ H2) in Hd. destruct (ord_cmp (cc_relev d) (cc_relev c)); try done.
  by destruct (ord_cmp (cc_relev a) (cc_relev d)).
Qed.
(** What is returned is less relevant than the stack, and more than [s_a] on its own. *)
Definition s_alone : list coalesce_entry := [ex_entry Debug first_mtb first_tb t_opts s_a 0].
Lemma s_run : exists out, tree_coalesce Debug id_oracle first_mtb first_tb 99 (stackable s_all) t_opts = Ok out /\ length out = 800%nat /\
  forall d, d ∈ out -> ord_cmp (cc_relev d) (cc_relev (stack_context [s_b; s_a] s_es)) = Lt /\
    ord_cmp (cc_relev (stack_context [s_a] s_alone)) (cc_relev d) = Lt.
Proof. apply all_between. vm_compute. reflexivity. Qed.
Lemma s_legal : legal s_all [s_a; s_b].
Proof.
  split; [|split; [|split]].
  - intros pm Hpm. unfold s_all. apply elem_of_app. by right.
  - constructor; [constructor; constructor|]. constructor; [reflexivity|constructor].
  - unfold disjoint_masks. cbn. repeat constructor.
  - split; [reflexivity|]. split; [reflexivity|]. exact I.
Qed.
Lemma s_fit : fit_for_C60 Debug first_mtb first_tb s_all t_opts.
Proof. apply fit_ok. vm_compute. reflexivity. Qed.
Lemma s_nested : nested_stack Debug first_mtb first_tb t_opts [s_b; s_a] s_es.
Proof.
  unfold s_es. apply nst_more; [apply nst_one| | |].
  - apply ex_entry_ok. vm_compute. reflexivity.
  - apply ex_entry_ok. vm_compute. reflexivity.
  - vm_compute. reflexivity.
  - vm_compute. reflexivity.
Qed.
Lemma s_free : free_stack [s_b; s_a] s_es.
Proof.
  constructor; [|constructor; [|constructor]]; intros k Hk _; apply elem_of_list_singleton in Hk as ->.
  - split; [intros s e H; discriminate H|]. intros H. vm_compute in H. by destruct H.
  - split; [intros s e H; discriminate H|]. intros H. vm_compute in H. by destruct H.
Qed.
Theorem C60_best_first_refuted :
  exists pms o chain es out,
  fit_for_C60 Debug first_mtb first_tb pms o /\ legal pms (rev chain) /\ length chain = 2%nat /\
  nested_stack Debug first_mtb first_tb o chain es /\ free_stack chain es /\
  tree_coalesce Debug id_oracle first_mtb first_tb 99 (stackable pms) o = Ok out /\
  length out = 800%nat /\ forall d, d ∈ out -> ord_cmp (cc_relev d) (cc_relev (stack_context chain es)) = Lt.
Proof.
  exists s_all, t_opts, [s_b; s_a], s_es.
  destruct s_run as (out & H1 & H2 & H3).
  exists out. split; [exact s_fit|]. split; [exact s_legal|]. split; [exact eq_refl|]. split; [exact s_nested|]. split; [exact s_free|].
  split; [exact H1|]. split; [exact H2|]. intros d Hd. exact (proj1 (H3 d Hd)).
Qed.
Print Assumptions C60_best_first_refuted.
