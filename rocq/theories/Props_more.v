(** Property C105: a request with more subqueries keeps the results of one with fewer. *)
From Verif Require Import Prelude Lists F64 Heap Common Builder Spatial Store Spec Spec_match Query Coalesce Stackable Tree
  Cmp_proofs Queue_proofs Spec_coalesce Coalesce_proofs Multi_proofs Spec_stack Stack_proofs Spec_tree Spec_quota Tree_proofs
  Limit_proofs Term_proofs Examples Props_match Props_coalesce Props_stack Props_tree
  Spec_complete Complete_proofs Props_complete
  Props_quota Spec_exact Sibling_proofs Exact_proofs Props_exact Spec_leaf Leaf_proofs Props_leaf Spec_room Props_room Spec_native Native_proofs Props_native Spec_work Props_work Spec_more.
From Coq Require Import ZifyBool.
Local Open Scope N_scope.

Section more.
  Context (p : profile) (mtb : merge_tb) (tb : tiebreak) (o : match_opts) (pms1 pms2 : list subquery).
  Context (Hsub : forall pm, pm ∈ pms1 -> pm ∈ pms2).
  Lemma legal_more c : legal pms1 c -> legal pms2 c.
  Proof. intros (H & H'). split; [|done]. intros pm Hpm. by apply Hsub, H. Qed.
  Lemma fit_fewer : NoDup pms1 -> fit_for_C60 p mtb tb pms2 o -> fit_for_C60 p mtb tb pms1 o.
  Proof.
    intros Hnd (_ & Hfew & Hfin & Hname & Hdist & Hzoom & Hcov). split; [done|].
    split. { intros cs Hcs Hc. apply Hfew; [done|]. intros c Hin. destruct (Hc c Hin). split; [done|by apply legal_more]. }
    split. { intros c Hc. by apply Hfin, legal_more. }
    split. { intros pm1 pm2 k1 k2 H1 H2. apply Hname; by apply Hsub. }
    split. { intros pm Hpm. by apply Hdist, Hsub. }
    split. { intros pm pm' H1 H2. apply Hzoom; by apply Hsub. }
    intros pm e Hpm. by apply Hcov, Hsub.
  Qed.
  Context (Hnd1 : NoDup pms1) (Hfit2 : fit_for_C60 p mtb tb pms2 o).
  (** A node has children if and only if its stack can be made larger. *)
  Lemma children_legal pms chain n : fit_for_C60 p mtb tb pms o ->
    descends (tree_get (stackable pms)) (t_root (stackable pms)) chain n ->
    sn_children n <> [] <-> exists pm, legal pms (chain ++ [pm]).
  Proof.
    intros (Hnd & Hfew & _) Hd. split.
    - intros Hch. destruct (stackable_sound pms) as (L & Ha & Hroot).
      pose proof (descends_ok pms L _ _ _ _ Ha Hd [] Hroot) as Hok. cbn [app] in Hok. by apply (no_next _ _ _ _ Hok).
    - intros [pm Hl] E. destruct (C47_complete pms Hnd Hfew _ Hl) as [m Hm]. apply descends_app in Hm as (n2 & Hn2 & Hm).
      assert (n2 = n) as -> by (eapply (path_unique (stackable pms)); [by apply stackable_siblings|by left|exact Hn2|exact Hd]).
      apply descends_one in Hm as (j & Hj & _). rewrite E in Hj. by apply elem_of_nil in Hj.
  Qed.
  Lemma exact_more c : exact p mtb tb (stackable pms1) o c ->
    exact p mtb tb (stackable pms2) o c \/
    exists pm k g e, pm ∈ pms1 /\ key_match p mtb tb o 80 pm k g /\ entry_of pm k g e /\
      c = CoalesceContext (sq_mask pm) (e_relev e) [e] /\ stands_alone pms1 pm /\ has_company pms2 pm.
  Proof.
    pose proof (fit_fewer Hnd1 Hfit2) as Hfit1. pose proof Hfit2 as (Hnd2 & Hfew2 & _).
    intros [(n & chain & es & Hns & Hst & ->)|Hleaf].
    - left. left. pose proof (node_nested _ _ _ _ _ _ _ _ Hns) as Hnest. pose proof (node_descends _ _ _ _ _ _ _ _ Hns) as Hdesc.
      destruct (C46_paths pms1 _ _ Hdesc) as [Hleg _].
      destruct (C47_complete pms2 Hnd2 Hfew2 _ (legal_more _ Hleg)) as [n' Hd'].
      exists n', chain, es. split; [by eapply nested_node|]. split; [|done].
      destruct Hst as [Hst|Hch]; [by left|right]. apply (children_legal _ _ _ Hfit2 Hd').
      apply (children_legal _ _ _ Hfit1 Hdesc) in Hch as [pm Hl]. exists pm. by apply legal_more.
    - pose proof Hleaf as (i & n & pm & k & ko & ms & cs & Hi & Hin & Hpm & Hl & Hk & Hko & Hms & Hcs & Hc).
      assert (Hd : descends (tree_get (stackable pms1)) (t_root (stackable pms1)) [pm] n).
      { eapply desc_child; [exact Hi|exact Hin|exact Hpm|constructor]. }
      destruct (C46_paths pms1 _ _ Hd) as [Hleg _].
      destruct (C47_complete pms2 Hnd2 Hfew2 _ (legal_more _ Hleg)) as [n' Hd'].
      destruct (sn_children n') as [|x l] eqn:Ex.
      + left. right. apply descends_one in Hd' as (j & Hj & Hn' & Hp'). by exists j, n', pm, k, ko, ms, cs.
      + right. destruct (tree_single_ok _ _ _ _ _ _ Hcs c Hc) as (g & e & Hg & He & ->).
        exists pm, k, g, e. split; [apply Hleg; by left|]. split; [by exists ko, ms|]. split; [by eapply entry_of_inv|].
        split; [apply to_entry_inv in He as (_ & _ & _ & Em & _); unfold single_context; by rewrite Em|]. split.
        * intros q Hq. assert (Hne : sn_children n <> []) by (apply (children_legal _ _ _ Hfit1 Hd); by exists q). done.
        * apply (children_legal _ _ _ Hfit2 Hd'). by rewrite Ex.
  Qed.
End more.

(** ** C105 More subqueries *)
(** Below the limits, each result of the search over some subqueries is a result of the search
    over more of them; unless it is a match of a subquery that stood alone and does so no
    longer, in which case its feature is still found there, for 0.01 less. *)
Theorem C105_kept :
  forall p ho1 ho2 mtb tb fuel1 fuel2 pms1 pms2 o out1 out2 c,
  NoDup pms1 -> (forall pm, pm ∈ pms1 -> pm ∈ pms2) ->
  fit_for_C60 p mtb tb pms2 o -> own_ids (fun pm => pm ∈ pms2) -> roomy p mtb tb o pms2 ->
  tree_coalesce p ho1 mtb tb fuel1 (stackable pms1) o = Ok out1 ->
  tree_coalesce p ho2 mtb tb fuel2 (stackable pms2) o = Ok out2 ->
  (length out2 < 800)%nat -> c ∈ out1 ->
  c ∈ out2 \/
  exists pm k g e, pm ∈ pms1 /\ stands_alone pms1 pm /\ has_company pms2 pm /\
    key_match p mtb tb o 80 pm k g /\ entry_of pm k g e /\ c = CoalesceContext (sq_mask pm) (e_relev e) [e] /\
    (within_limit p mtb tb o pm k g -> demoted p mtb tb o pm k g out2).
Proof.
  intros p ho1 ho2 mtb tb fuel1 fuel2 pms1 pms2 o out1 out2 c Hnd1 Hsub Hfit2 Hown2 Hroom H1 H2 Hlen Hc.
  pose proof (fit_fewer p mtb tb o pms1 pms2 Hsub Hnd1 Hfit2) as Hfit1.
  assert (Hown1 : own_ids (fun pm => pm ∈ pms1)). { intros pm1 pm2 k1 k2 A1 A2. apply Hown2; by apply Hsub. }
  destruct (room_only _ _ _ _ _ _ _ _ Hfit1 Hown1 H1) as [E1 _].
  destruct (exact_more p mtb tb o pms1 pms2 Hsub Hnd1 Hfit2 c (E1 c Hc)) as [Hx|(pm & k & g & e & Hpm & Hkm & He & -> & Ha & [q Hq])].
  { left. exact (room_all _ _ _ _ _ _ _ _ Hfit2 Hown2 Hroom H2 Hlen c Hx). }
  right. exists pm, k, g, e. do 2 (split; [done|]). split; [by exists q|]. do 3 (split; [done|]).
  intros (ko & ms & i & Hko & Hms & Hi & Hlt).
  assert (Hfirst : exists g0 j, ms !! j = Some g0 /\ (j <= i)%nat /\ spot g0 = spot g /\
    forall j' g', (j' < j)%nat -> ms !! j' = Some g' -> spot g' <> spot g).
  { clear -Hi. revert i Hi. induction ms as [|m ms IH]; intros i Hi; [done|].
    destruct (decide (spot m = spot g)) as [E|E].
    - exists m, 0%nat. split; [done|]. split; [lia|]. split; [done|]. intros j'. lia.
    - destruct i as [|i]; [injection Hi as ->; done|]. destruct (IH i Hi) as (g0 & j & J1 & J2 & J3 & J4).
      exists g0, (S j). split; [done|]. split; [lia|]. split; [done|]. intros [|j'] g' Hj' Hg'; [injection Hg' as <-; done|].
      eapply (J4 j'); [lia|exact Hg']. }
  destruct Hfirst as (g0 & j & J1 & J2 & J3 & J4).
  assert (Hfm : first_match p mtb tb o pm k g0).
  { exists ko, ms, j. split; [by destruct Hkm as (? & ? & ? & _)|]. do 3 (split; [done|]). split; [lia|].
    rewrite J3. exact J4. }
  assert (He0 : entry_of pm k g0 (entry_for pm k g0)) by (repeat split).
  exists g0, (entry_for pm k g0). do 3 (split; [done|]).
  assert (Hnest : nested_stack p mtb tb o [pm] [entry_for pm k g0]) by (constructor; by exists k, g0).
  pose proof Hfit2 as (Hnd2 & Hfew2 & _).
  destruct (C47_complete pms2 Hnd2 Hfew2 [pm]) as [n' Hd'].
  { destruct Hq as (Q1 & Q2 & Q3 & Q4). split; [intros x Hx; apply Hsub; by apply elem_of_list_singleton in Hx as ->|].
    split; [repeat constructor|]. split; [by cbn in *|]. cbn in *. tauto. }
  assert (Hx : stack_context [pm] [entry_for pm k g0] ∈ out2).
  { apply (room_all _ _ _ _ _ _ _ _ Hfit2 Hown2 Hroom H2 Hlen). left. exists n', [pm], [entry_for pm k g0].
    split; [by eapply nested_node|]. split; [|done]. right. apply (children_legal p mtb tb o _ _ _ Hfit2 Hd'). by exists q. }
  unfold stack_context in Hx. cbn [map all_masks foldr ascending sum_relev] in Hx. by rewrite N.lor_0_r in Hx.
Qed.
Print Assumptions C105_kept.
Theorem C105_stacks :
  forall p ho1 ho2 mtb tb fuel1 fuel2 pms1 pms2 o out1 out2 c,
  NoDup pms1 -> (forall pm, pm ∈ pms1 -> pm ∈ pms2) ->
  fit_for_C60 p mtb tb pms2 o -> own_ids (fun pm => pm ∈ pms2) -> roomy p mtb tb o pms2 ->
  tree_coalesce p ho1 mtb tb fuel1 (stackable pms1) o = Ok out1 ->
  tree_coalesce p ho2 mtb tb fuel2 (stackable pms2) o = Ok out2 ->
  (length out2 < 800)%nat -> c ∈ out1 -> (2 <= length (cc_entries c))%nat -> c ∈ out2.
Proof.
  intros p ho1 ho2 mtb tb fuel1 fuel2 pms1 pms2 o out1 out2 c Hnd1 Hsub Hfit2 Hown2 Hroom H1 H2 Hlen Hc H.
  destruct (C105_kept _ _ _ _ _ _ _ _ _ _ _ _ c Hnd1 Hsub Hfit2 Hown2 Hroom H1 H2 Hlen Hc) as [?|(pm & k & g & e & _ & _ & _ & _ & _ & -> & _)]; [done|].
  cbn in H. lia.
Qed.
Print Assumptions C105_stacks.
(** And what is new has an entry of a subquery that is new; or it is such a match, 0.01 less relevant. *)
Theorem C105_new :
  forall p ho1 ho2 mtb tb fuel1 fuel2 pms1 pms2 o out1 out2 c,
  NoDup pms1 -> (forall pm, pm ∈ pms1 -> pm ∈ pms2) ->
  fit_for_C60 p mtb tb pms2 o -> own_ids (fun pm => pm ∈ pms2) -> roomy p mtb tb o pms1 ->
  tree_coalesce p ho1 mtb tb fuel1 (stackable pms1) o = Ok out1 ->
  tree_coalesce p ho2 mtb tb fuel2 (stackable pms2) o = Ok out2 ->
  (length out1 < 800)%nat -> c ∈ out2 ->
  (forall e, e ∈ cc_entries c -> exists pm k, pm ∈ pms1 /\ k ∈ sq_keys pm /\ mki_id k = ce_phrasematch_id e) ->
  c ∈ out1 \/
  exists pm e, pm ∈ pms1 /\ stands_alone pms1 pm /\ has_company pms2 pm /\ stack_entry p mtb tb o pm e /\
    c = CoalesceContext (sq_mask pm) (fsub (e_relev e) (f_lit 1 100)) [e].
Proof.
  intros p ho1 ho2 mtb tb fuel1 fuel2 pms1 pms2 o out1 out2 c Hnd1 Hsub Hfit2 Hown2 Hroom H1 H2 Hlen Hc Hold.
  pose proof (fit_fewer p mtb tb o pms1 pms2 Hsub Hnd1 Hfit2) as Hfit1. pose proof Hfit1 as (_ & Hfew1 & _).
  assert (Hown1 : own_ids (fun pm => pm ∈ pms1)). { intros pm1 pm2 k1 k2 A1 A2. apply Hown2; by apply Hsub. }
  destruct (room_only _ _ _ _ _ _ _ _ Hfit2 Hown2 H2) as [E2 _].
  pose proof (room_all _ _ _ _ _ _ _ _ Hfit1 Hown1 Hroom H1 Hlen) as Hall.
  destruct (E2 c Hc) as [(n & chain & es & Hns & Hst & ->)|Hleaf].
  - pose proof (node_nested _ _ _ _ _ _ _ _ Hns) as Hnest. pose proof (node_descends _ _ _ _ _ _ _ _ Hns) as Hdesc.
    destruct (C46_paths pms2 _ _ Hdesc) as [Hleg _]. cbn [stack_context cc_entries] in Hold.
    assert (Hin : forall pm, pm ∈ chain -> pm ∈ pms1).
    { pose proof (nstack_backed _ _ _ _ _ _ _ _ Hns) as HF. intros pm Hpm. apply elem_of_list_lookup in Hpm as [i Hi].
      destruct (Forall2_lookup_l _ _ _ _ _ HF Hi) as (e & He & Ht & k & Hk & Hid). apply elem_of_list_lookup_2 in He.
      destruct (Hold e He) as (pm' & k' & Hp' & Hk' & Hid'). apply in_tree_pms in Ht.
      rewrite (Hown2 pm pm' k k'); [done|done|by apply Hsub|done|done|congruence]. }
    assert (Hleg1 : legal pms1 (rev chain)).
    { destruct Hleg as [_ Hleg]. split; [|done]. intros pm Hpm. apply Hin. apply elem_of_list_In. apply in_rev. by apply elem_of_list_In. }
    destruct (C47_complete pms1 Hnd1 Hfew1 _ Hleg1) as [n' Hd'].
    assert (Hs : (2 <= length chain)%nat \/ length chain = 1%nat).
    { destruct Hnest; cbn; [by right|left; lia]. }
    destruct Hs as [Hs|Hs].
    { left. apply Hall. left. exists n', chain, es. split; [by eapply nested_node|]. split; [by left|done]. }
    destruct (decide (sn_children n' = [])) as [El|El].
    2: { left. apply Hall. left. exists n', chain, es. split; [by eapply nested_node|]. split; [by right|done]. }
    right. destruct Hnest as [pm e He|? ? ? ? ? ? ? ? ? ?]; [|cbn in Hs; lia]. exists pm, e. split; [apply Hin; by left|]. split; [|split; [|split; [done|]]].
    + intros q Hq. assert (Hne : sn_children n' <> []) by (apply (children_legal p mtb tb o _ _ _ Hfit1 Hd'); by exists q). done.
    + destruct Hst as [Hst|Hst]; [cbn in Hst; lia|]. by apply (children_legal p mtb tb o _ _ _ Hfit2 Hdesc) in Hst.
    + unfold stack_context. cbn [map all_masks foldr ascending sum_relev]. by rewrite N.lor_0_r.
  - left. apply Hall. right. destruct Hleaf as (i & n & pm & k & ko & ms & cs & Hi & Hin & Hpm & Hl & Hk & Hko & Hms & Hcs & Hcc).
    destruct (tree_single_ok _ _ _ _ _ _ Hcs c Hcc) as (g & e & Hg & He & Ec).
    destruct (Hold e) as (pm' & k' & Hp' & Hk' & Hid'). { rewrite Ec. cbn. by left. }
    apply to_entry_inv in He as (_ & _ & _ & _ & _ & _ & Eid & _).
    assert (Hpm2 : pm ∈ pms2) by (apply in_tree_pms; by exists i, n).
    assert (pm = pm') as <- by (apply (Hown2 pm pm' k k'); [done|by apply Hsub|done|done|congruence]).
    assert (Hd : descends (tree_get (stackable pms2)) (t_root (stackable pms2)) [pm] n).
    { eapply desc_child; [exact Hi|exact Hin|exact Hpm|constructor]. }
    destruct (C46_paths pms2 _ _ Hd) as [Hleg _].
    destruct (C47_complete pms1 Hnd1 Hfew1 [pm]) as [n' Hd'].
    { destruct Hleg as [_ Hleg]. split; [|done]. intros x Hx. by apply elem_of_list_singleton in Hx as ->. }
    assert (Hl' : sn_children n' = []).
    { destruct (decide (sn_children n' = [])) as [E|E]; [done|exfalso].
      apply (children_legal p mtb tb o _ _ _ Hfit1 Hd') in E as [q Hq].
      assert (Hne : sn_children n <> []) by (apply (children_legal p mtb tb o _ _ _ Hfit2 Hd); exists q; by eapply legal_more). done. }
    apply descends_one in Hd' as (j & Hj & Hn' & Hp''). by exists j, n', pm, k, ko, ms, cs.
Qed.
Print Assumptions C105_new.

(** ** Requests *)
Section leave_out.
  Context (old : subquery -> bool) (Hold : forall a b, together a b -> old a = old b).
  Lemma collapse_add_filter pm : forall acc acc', collapse_add pm acc = Ok acc' ->
    if old pm then collapse_add pm (List.filter old acc) = Ok (List.filter old acc') else List.filter old acc' = List.filter old acc.
  Proof.
    induction acc as [|g acc IH]; intros acc' H; cbn [collapse_add] in H.
    - injection H as <-. cbn [List.filter]. by destruct (old pm).
    - destruct (same_group pm g) eqn:E.
      + apply bind_Ok in H as (k & Hk & H). injection H as <-. assert (Eo : old pm = old g) by (apply Hold, same_group_iff, E).
        cbn [List.filter].
        rewrite (Hold (Subquery (sq_store g) (sq_idx g) (sq_nonoverlap g) (sq_weight g) (sq_mask g) (sq_keys g ++ [k])) g) by apply (together_refl g).
        rewrite Eo. destruct (old g); [|done]. cbn [collapse_add]. rewrite E, Hk. done.
      + apply bind_Ok in H as (acc2 & H2 & H). injection H as <-. specialize (IH _ H2). cbn [List.filter].
        destruct (old pm), (old g); cbn [collapse_add]; [by rewrite E, IH|done|by rewrite IH|done].
  Qed.
  (** Leaving out whole groups of phrasematches leaves out their subqueries. *)
  Lemma collapse_filter pms : forall acc groups, res_foldl (fun acc pm => collapse_add pm acc) acc pms = Ok groups ->
    res_foldl (fun acc pm => collapse_add pm acc) (List.filter old acc) (List.filter old pms) = Ok (List.filter old groups).
  Proof.
    induction pms as [|pm pms IH]; intros acc groups H; cbn [res_foldl] in H; [injection H as <-; done|].
    apply bind_Ok in H as (acc1 & H1 & H). apply collapse_add_filter in H1. apply IH in H. cbn [List.filter].
    destruct (old pm); [cbn [res_foldl]; rewrite H1; exact H|rewrite <- H1; exact H].
  Qed.
End leave_out.
(** A request, and what is left of it when some groups of phrasematches (those with the same
    weight, idx and mask) are left out altogether. *)
Theorem C105_request :
  forall p ho1 ho2 mtb tb pms old groups o out1 out2 c,
  (forall a b, together a b -> old a = old b) -> collapse_phrasematches pms = Ok groups ->
  fit_for_C60 p mtb tb groups o -> own_ids (fun pm => pm ∈ groups) ->
  stack_and_coalesce p ho1 mtb tb (List.filter old pms) o = Ok out1 ->
  stack_and_coalesce p ho2 mtb tb pms o = Ok out2 ->
  (roomy p mtb tb o groups -> (length out2 < 800)%nat -> c ∈ out1 ->
   c ∈ out2 \/
   exists pm k g e, pm ∈ groups /\ old pm = true /\ stands_alone (List.filter old groups) pm /\ has_company groups pm /\
     key_match p mtb tb o 80 pm k g /\ entry_of pm k g e /\ c = CoalesceContext (sq_mask pm) (e_relev e) [e] /\
     (within_limit p mtb tb o pm k g -> demoted p mtb tb o pm k g out2)) /\
  (roomy p mtb tb o (List.filter old groups) -> (length out1 < 800)%nat -> c ∈ out2 ->
   (forall e, e ∈ cc_entries c -> exists pm k, pm ∈ groups /\ old pm = true /\ k ∈ sq_keys pm /\ mki_id k = ce_phrasematch_id e) ->
   c ∈ out1 \/
   exists pm e, pm ∈ groups /\ old pm = true /\ stands_alone (List.filter old groups) pm /\ has_company groups pm /\
     stack_entry p mtb tb o pm e /\ c = CoalesceContext (sq_mask pm) (fsub (e_relev e) (f_lit 1 100)) [e]).
Proof.
  intros p ho1 ho2 mtb tb pms old groups o out1 out2 c Hold Hg Hfit Hown H1 H2.
  pose proof (collapse_filter old Hold pms [] groups Hg) as Hg1. change (List.filter old []) with (@nil subquery) in Hg1.
  change (collapse_phrasematches (List.filter old pms) = Ok (List.filter old groups)) in Hg1.
  unfold stack_and_coalesce in H1, H2. rewrite Hg1 in H1. rewrite Hg in H2. cbn [res_bind] in H1, H2.
  assert (Hin : forall pm, pm ∈ List.filter old groups <-> pm ∈ groups /\ old pm = true).
  { intros pm. rewrite !elem_of_list_In. apply filter_In. }
  assert (Hsub : forall pm, pm ∈ List.filter old groups -> pm ∈ groups) by (intros pm Hpm; by apply Hin in Hpm as [? _]).
  assert (Hnd : NoDup (List.filter old groups)).
  { destruct Hfit as [Hnd _]. apply NoDup_ListNoDup. apply List.NoDup_filter. by apply NoDup_ListNoDup. }
  split.
  - intros Hroom Hlen Hc.
    destruct (C105_kept _ _ _ _ _ _ _ _ _ _ _ _ c Hnd Hsub Hfit Hown Hroom H1 H2 Hlen Hc) as [?|(pm & k & g & e & Hpm & Hr)]; [by left|].
    right. exists pm, k, g, e. apply Hin in Hpm as [??]. done.
  - intros Hroom Hlen Hc He.
    destruct (C105_new _ _ _ _ _ _ _ _ _ _ _ _ c Hnd Hsub Hfit Hown Hroom H1 H2 Hlen Hc) as [?|(pm & e & Hpm & Hr)]; [|by left|].
    { intros e Hin'. destruct (He e Hin') as (pm & k & P1 & P2 & P3). exists pm, k. split; [by apply Hin|done]. }
    right. exists pm, e. apply Hin in Hpm as [??]. done.
Qed.
Print Assumptions C105_request.

(** Layer A alone, layer B alone, and both. *)
Definition more_out (pms : list subquery) : list coalesce_context :=
  ok_list (tree_coalesce Debug id_oracle first_mtb last_tb 9 (stackable pms) t_opts).
Lemma more_ok pms : match tree_coalesce Debug id_oracle first_mtb last_tb 9 (stackable pms) t_opts with Ok _ => True | _ => False end ->
  tree_coalesce Debug id_oracle first_mtb last_tb 9 (stackable pms) t_opts = Ok (more_out pms).
Proof. intros H. unfold more_out. by apply ok_list_ok. Qed.
Lemma only_first {A} (P : A -> bool) (l l' : list A) : existsb P l = true -> existsb P l' = false -> exists c, c ∈ l /\ c ∉ l'.
Proof.
  rewrite existsb_exists. intros (c & Hc & Pc) Hn. exists c. split; [by apply elem_of_list_In|]. intros Hin.
  assert (H : existsb P l' = true); [|congruence]. apply existsb_exists. exists c. split; [by apply elem_of_list_In|done].
Qed.
Example C105_ex :
  NoDup [t_a] /\ (forall pm, pm ∈ [t_a] -> pm ∈ [t_b; t_a]) /\
  fit_for_C60 Debug first_mtb last_tb [t_b; t_a] t_opts /\ own_ids (fun pm => pm ∈ [t_b; t_a]) /\
  roomy Debug first_mtb last_tb t_opts [t_b; t_a] /\ roomy Debug first_mtb last_tb t_opts [t_a] /\
  tree_coalesce Debug id_oracle first_mtb last_tb 9 (stackable [t_a]) t_opts = Ok (more_out [t_a]) /\
  tree_coalesce Debug id_oracle first_mtb last_tb 9 (stackable [t_b; t_a]) t_opts = Ok (more_out [t_b; t_a]) /\
  length (more_out [t_a]) = 3%nat /\ length (more_out [t_b; t_a]) = 11%nat.
Proof.
  split; [apply NoDup_singleton|]. split; [intros pm Hpm; right; exact Hpm|].
  destruct C72_ex as (F & W & R & _). split; [exact F|]. split; [exact W|]. split; [exact R|].
  split; [apply roomy_ok; vm_compute; reflexivity|].
  split; [apply more_ok; vm_compute; exact I|]. split; [apply more_ok; vm_compute; exact I|].
  split; vm_compute; reflexivity.
Qed.
(** The exception does occur: the matches of layer A are less relevant once layer B is asked for
    too, while those of B stay as they are. *)
Theorem C105_all_refuted :
  exists p ho mtb tb fuel pms1 pms2 o out1 out2 c,
  NoDup pms1 /\ (forall pm, pm ∈ pms1 -> pm ∈ pms2) /\
  fit_for_C60 p mtb tb pms2 o /\ own_ids (fun pm => pm ∈ pms2) /\ roomy p mtb tb o pms2 /\
  tree_coalesce p ho mtb tb fuel (stackable pms1) o = Ok out1 /\
  tree_coalesce p ho mtb tb fuel (stackable pms2) o = Ok out2 /\
  (length out2 < 800)%nat /\ c ∈ out1 /\ c ∉ out2.
Proof.
  destruct (only_first (fun d => match cc_entries d with
    | [e] => (ce_idx e =? 0) && feqb (cc_relev d) (f_lit 1 2) | _ => false end) (more_out [t_a]) (more_out [t_b; t_a])) as (c & C1 & C2);
    [vm_compute; reflexivity|vm_compute; reflexivity|].
  exists Debug, id_oracle, first_mtb, last_tb, 9%nat, [t_a], [t_b; t_a], t_opts, (more_out [t_a]), (more_out [t_b; t_a]), c.
  destruct C105_ex as (N & S & F & W & R & _ & H1 & H2 & L1 & L2).
  split; [exact N|]. split; [exact S|]. split; [exact F|]. split; [exact W|]. split; [exact R|]. split; [exact H1|]. split; [exact H2|].
  split; [|split; [exact C1|exact C2]]. rewrite L2. apply Nat.ltb_lt. reflexivity.
Qed.
Print Assumptions C105_all_refuted.
(** As a request: layer B is left out. *)
Example C105_request_ex :
  let old := fun pm => sq_idx pm =? 0 in
  (forall a b, together a b -> old a = old b) /\
  (exists b, collapse_phrasematches [t_b; t_a] = Ok [b; t_a] /\ b = t_b /\ old b = false /\ old t_a = true) /\
  length (List.filter old [t_b; t_a]) = 1%nat.
Proof.
  intros old. split; [intros a b (_ & E & _); unfold old; rewrite E; reflexivity|].
  split; [exists t_b; split; [vm_compute; reflexivity|split; [reflexivity|split; vm_compute; reflexivity]]|vm_compute; reflexivity].
Qed.
