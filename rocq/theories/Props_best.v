(** Property C76: when not everything fits, tree_coalesce keeps the most relevant. *)
From Verif Require Import Prelude Lists F64 Heap Common Builder Spatial Store Spec Spec_match Query Coalesce Stackable Tree
  Cmp_proofs Queue_proofs Float_proofs Spec_coalesce Coalesce_proofs Multi_proofs Spec_stack Stack_proofs Spec_tree Spec_quota Tree_proofs
  Limit_proofs Term_proofs Examples Props_match Props_coalesce Props_stack Props_tree Spec_complete Complete_proofs Props_complete
  Props_quota Spec_exact Exact_proofs Props_exact Spec_leaf Leaf_proofs Props_leaf Props_float Bound_proofs Spec_best.
From Coq Require Import ZifyBool.
Local Open Scope N_scope.

(** ** C76 The most relevant are kept *)
(** Further down nothing more is promised. *)
Lemma promise_down pms i m ext n :
  (forall c, legal pms c -> ord_cmp (sum_weights c) f_max <> Gt) ->
  tree_get (stackable pms) i = Some m -> descends (tree_get (stackable pms)) m ext n ->
  ord_cmp (sn_max_relev n) (sn_max_relev m) <> Gt.
Proof.
  intros Hfin Hi Hd. destruct (C49_reachable pms Hfin) as (_ & _ & Hreach). destruct (Hreach i m Hi) as (pre & _ & Hpre).
  assert (Hnan : forall c, legal pms c -> f_is_nan (sum_weights c) = false).
  { intros c Hc. specialize (Hfin c Hc). by destruct (sum_weights c). }
  clear Hi Hreach. revert pre Hpre. induction Hd as [n|n j c pm rest m Hj Hc Hpm Hd IH]; intros pre Hpre.
  - by rewrite (tc_refl _ total_cmp_ord).
  - destruct (C46_relevance pms _ _ Hnan Hpre) as [_ Hkids]. destruct (Hkids j c Hj Hc) as (Hle & pm' & Hpm' & Hpre').
    assert (pm' = pm) as -> by congruence. eapply (tc_trans _ total_cmp_ord); [by apply (IH _ Hpre')|done].
Qed.
Lemma listed_relev a b : listed_before a b -> ord_cmp (cc_relev b) (cc_relev a) <> Gt.
Proof. intros (ea & ra & eb & rb & _ & _ & H). cbn [first_difference] in H. by destruct (ord_cmp (cc_relev b) (cc_relev a)). Qed.
Lemma crowded_outranked out c : crowded_out 800 out c -> outranked out c.
Proof. intros [H1 H2]. split; [done|]. intros d Hd. by apply listed_relev, H2. Qed.

(** Weights are finite and not negative. Then for every run there are at most seven nodes of
    the tree such that a stack is returned, or the result is full of others that are at
    least as relevant, or forty of its key are listed before it, or it extends the stack of
    one of the seven nodes - or one of the shortcuts of C61 applies. *)
Theorem C76_stacks :
  forall p ho mtb tb fuel pms o out,
  fit_for_C60 p mtb tb pms o -> (forall pm, pm ∈ pms -> amount (sq_weight pm)) ->
  tree_coalesce p ho mtb tb fuel (stackable pms) o = Ok out ->
  exists B, (length B <= 7)%nat /\ (forall b, b ∈ B -> exists i, tree_get (stackable pms) i = Some b) /\
  forall chain es, legal pms (rev chain) -> nested_stack p mtb tb o chain es ->
  ((2 <= length chain)%nat \/ exists pm, legal pms (rev chain ++ [pm])) ->
  exists n, descends (tree_get (stackable pms)) (t_root (stackable pms)) (rev chain) n /\
  (stack_context chain es ∈ out \/ outranked out (stack_context chain es) \/
   crowded_key p mtb tb o chain es \/ (exists b, b ∈ B /\ below (stackable pms) b n chain) \/
   passed_by out n chain es \/ quota_hit (fun c => quota_limit c < tree_uses c (stackable pms)) chain es).
Proof.
  intros p ho mtb tb fuel pms o out (Hnd & Hfew & Hfin & Hids & Hdist & Hzoom & Hcov) Hw H.
  destruct (stackable_fit p mtb tb pms o Hfin Hids Hdist Hzoom Hcov) as (F1 & F2 & F3 & F4).
  destruct (stackable_tiles pms) as (G & Ha & Ht).
  assert (Hfull : forall c, quota_limit c < tree_uses c (stackable pms) \/ (arena_tiles G (t_arena (stackable pms)) /\
    tiles G 0 (sn_children (t_root (stackable pms))) (am_next (t_arena (stackable pms))) /\ tree_uses c (stackable pms) <= quota_limit c)).
  { intros c. destruct (N.lt_ge_cases (quota_limit c) (tree_uses c (stackable pms))); [by left|by right]. }
  destruct (tree_complete_cut p ho mtb tb (stackable pms) o F1 F2 F3 F4 G _ Hfull fuel out H) as (B & HB1 & HB2 & HB).
  exists B. split; [done|]. split; [done|]. intros chain es Hleg Hns Hst.
  assert (Hn : exists n, descends (tree_get (stackable pms)) (t_root (stackable pms)) (rev chain) n /\ stacked n chain).
  { destruct Hst as [Hlen|[pm Hpm]].
    - destruct (C47_complete pms Hnd Hfew _ Hleg) as [n Hn]. exists n. split; [done|by left].
    - destruct (C47_complete pms Hnd Hfew _ Hpm) as [m Hm]. apply descends_app in Hm as (n & Hn & Hm). exists n. split; [done|right].
      apply descends_one in Hm as (i & Hi & _). intros E. rewrite E in Hi. by apply elem_of_nil in Hi. }
  destruct Hn as (n & Hn & Hstk). exists n. split; [exact Hn|].
  destruct (HB n chain es (nested_node _ _ _ _ _ _ _ Hns _ Hn) Hstk)
    as [?|[Hc|[(D & D1 & D2 & D3)|[[[E Hcut] _]|[?|?]]]]]; [by left| | | |auto 10|auto 10].
  - right. left. by apply crowded_outranked.
  - right. right. left. exists D. split; [done|]. split; [done|]. intros es' Hes. destruct (D3 es' Hes) as (X1 & X2 & X3 & X4).
    split; [by eapply node_nested|]. done.
  - destruct Hcut as [(i & m & Hm & (pre & ext & _ & _ & Hd) & Hno)|?]; [|auto 10]. right. left. split; [done|]. intros d Hd'.
    assert (Hwc : forall pm, pm ∈ chain -> amount (sq_weight pm)).
    { intros pm Hpm. apply Hw, (proj1 Hleg). apply elem_of_list_In. rewrite <- in_rev. by apply elem_of_list_In. }
    destruct (nested_shared _ _ _ _ _ _ Hns Hwc) as [Hne Hsh].
    eapply (tc_trans _ total_cmp_ord).
    { apply stack_bound; [done|done|]. apply below_max; [by apply weights_pos|by apply Hfin]. }
    assert (Hnan : forall c, legal pms c -> f_is_nan (sum_weights c) = false).
    { intros c Hc. specialize (Hfin c Hc). by destruct (sum_weights c). }
    eapply (tc_trans _ total_cmp_ord); [apply (proj1 (C46_relevance pms _ _ Hnan Hn))|].
    eapply (tc_trans _ total_cmp_ord); [by eapply promise_down|by apply Hno].
Qed.
Print Assumptions C76_stacks.

(** A subquery that nothing stacks on: there is no exception for some nodes. *)
Theorem C76_alone :
  forall p ho mtb tb fuel pms o out pm k ms j g,
  NoDup pms ->
  (forall cs, NoDup cs -> (forall c, c ∈ cs -> c <> [] /\ legal pms c) -> N.of_nat (length cs) < 2000) ->
  own_ids (fun pm => pm ∈ pms) -> (forall pm, pm ∈ pms -> ids_distinct pm) -> amount (sq_weight pm) ->
  tree_coalesce p ho mtb tb fuel (stackable pms) o = Ok out ->
  legal pms [pm] -> (forall pm', ~ legal pms [pm; pm']) ->
  leaf_matches p mtb tb o pm k ms -> within_reach pm ms j g ->
  (exists g' e, represents pm ms j g g' /\ entry_of pm k g' e /\
    (lone pm e ∈ out \/ outranked out (lone pm e) \/ features_before pm k ms e)) \/
  (forall g' e, g' ∈ ms -> entry_of pm k g' e -> outranked out (lone pm e)) \/
  leaf_passed out pm k \/
  (exists c, under_quota c pm k = true /\ quota_limit c < tree_uses c (stackable pms)).
Proof.
  intros p ho mtb tb fuel pms o out pm k ms j g Hnd Hfew Hown Hdist Hw H Hleg Hno Hms Hr.
  destruct (C71_alone p ho mtb tb fuel pms o out pm k ms j g Hnd Hfew Hown Hdist H Hleg Hno Hms Hr)
    as [(g' & e & H1 & H2 & H3)|[[E Hb]|[?|?]]]; auto.
  - left. exists g', e. split; [done|]. split; [done|]. destruct H3 as [?|[Hc|?]]; auto. right. left. by apply crowded_outranked.
  - right. left. intros g' e Hg' He. split; [done|]. intros d Hd. eapply (tc_trans _ total_cmp_ord); [|by apply Hb].
    cbn [lone cc_relev]. destruct Hms as (ko & _ & _ & Hs). apply entry_relev_le; [done|]. exists (ge_relev (me_entry g')).
    split; [by eapply matched_share|]. destruct He as (He & _). unfold e_relev. by rewrite He.
Qed.
Print Assumptions C76_alone.

(** Eight leaves fill the result with relevance 0.8 (see C60_best_first_refuted); [s_a] on
    its own has relevance 1/2 and is not returned. *)
Definition amountb (a : f64) : bool := valid_binary 53 1024 a && match a with S754_zero s | S754_finite s _ _ => negb s | _ => false end.
Lemma amountb_ok a : amountb a = true -> amount a.
Proof. intros [H1 H2]%andb_prop. split; [done|]. by destruct a as [[]|[]| |[]]. Qed.
Example C76_ex :
  fit_for_C60 Debug first_mtb first_tb s_all t_opts /\ (forall pm, pm ∈ s_all -> amount (sq_weight pm)) /\
  legal s_all [s_a] /\ (exists pm, legal s_all ([s_a] ++ [pm])) /\ nested_stack Debug first_mtb first_tb t_opts [s_a] s_alone /\
  (exists out, tree_coalesce Debug id_oracle first_mtb first_tb 99 (stackable s_all) t_opts = Ok out /\
    outranked out (stack_context [s_a] s_alone) /\ ~ stack_context [s_a] s_alone ∈ out) /\
  forall c, tree_uses c (stackable s_all) <= quota_limit c.
Proof.
  split; [exact s_fit|].
  split. { intros pm Hpm. apply amountb_ok. revert pm Hpm. apply forallb_in. vm_compute. reflexivity. }
  split.
  { split; [|split; [|split]].
    - intros pm Hpm. apply (proj1 s_legal). apply elem_of_list_singleton in Hpm as ->. by left.
    - constructor; constructor.
    - unfold disjoint_masks. cbn. repeat constructor.
    - split; [reflexivity|]. exact I. }
  split; [exists s_b; exact s_legal|].
  split; [apply nst_one, ex_entry_ok; vm_compute; reflexivity|].
  split; [|intros []; apply N.leb_le; vm_compute; reflexivity].
  destruct s_run as (out & H1 & H2 & H3). exists out. split; [exact H1|]. split.
  - split; [exact H2|]. intros d Hd. destruct (H3 d Hd) as [_ E]. by rewrite E.
  - intros Hd. destruct (H3 _ Hd) as [_ E]. by rewrite (tc_refl _ total_cmp_ord) in E.
Qed.
