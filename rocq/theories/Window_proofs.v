(** Flat coalesce: nothing is returned that is a quarter below a stack of an earlier layer. *)
From Verif Require Import Prelude Lists F64 Heap Common Builder Store Query Spatial Coalesce
  Cmp_proofs Queue_proofs Spec_coalesce Coalesce_proofs Props_zoom Multi_proofs Flat_proofs Spec_flat Owed_proofs Max_proofs.
From Coq Require Import Sorting.Sorted.
From Coq Require Import ZifyBool.
Local Open Scope N_scope.

Lemma fltb_inv a b : fltb a b = true -> f_is_nan a = false /\ f_is_nan b = false /\ ord_cmp a b = Lt.
Proof. unfold fltb, SFltb, ord_cmp. intros H. destruct (SFcompare a b) as [[]|] eqn:E; try done. by destruct a as [[]|[]| |[]], b as [[]|[]| |[]]. Qed.
Lemma fltb_false_trans a r c : fltb a r = true -> fltb a c = false -> fltb r c = false.
Proof.
  intros H1 H2. destruct (fltb r c) eqn:H3; [|done]. apply fltb_inv in H1 as (A1 & A2 & A3), H3 as (B1 & B2 & B3).
  rewrite <- H2. symmetry. apply fltb_ord; [done|done|].
  assert (H4 : ord_cmp a c <> Gt) by (apply (tc_trans _ total_cmp_ord _ r _); congruence).
  destruct (ord_cmp a c) eqn:E; [|done|done]. exfalso.
  assert (H5 : ord_cmp c r <> Gt).
  { apply (tc_trans _ total_cmp_ord _ a _); [rewrite (tc_anti _ total_cmp_ord a c), E; done|congruence]. }
  apply H5. rewrite (tc_anti _ total_cmp_ord r c), B3. done.
Qed.
Lemma fltb_irrefl a : fltb a a = false.
Proof.
  destruct (fltb a a) eqn:E; [|done]. apply fltb_inv in E as (_ & _ & E). pose proof (tc_anti _ total_cmp_ord a a) as H. by rewrite E in H.
Qed.

Section window.
  Context (p : profile) (mtb : merge_tb) (tb : tiebreak) (stack : list subquery) (o : match_opts).
  Definition under (top : f64) (m : gmap (N * N * N) (list coalesce_context)) : Prop :=
    forall k l d, m !! k = Some l -> d ∈ l -> fltb top (cc_relev d) = false.
  Definition near (m : gmap (N * N * N) (list coalesce_context)) (c : coalesce_context) : Prop :=
    exists top, under top m /\ fltb (fsub top (cc_relev c)) f_025 = true.
  Definition win (s : multi_state) : Prop :=
    under (ms_max_relev s) (ms_coalesced s) /\ under (ms_max_relev s) (ms_to_add s) /\ Forall (near (ms_coalesced s)) (ms_contexts s).
  Lemma under_up top r m : under top m -> under (if fltb top r then r else top) m.
  Proof. intros H. destruct (fltb top r) eqn:E; [|done]. intros k l d Hk Hd. eapply fltb_false_trans; [exact E|by eapply H]. Qed.
  Lemma under_empty top : under top ∅.
  Proof. intros k l d H. by rewrite lookup_empty in H. Qed.
  Lemma under_push top m k c : under top m -> fltb top (cc_relev c) = false -> under top (push_ctx m k c).
  Proof.
    intros Hm Hc k' l d H Hd. unfold push_ctx in H. destruct (decide (k = k')) as [->|Hne].
    - rewrite lookup_insert in H. injection H as <-. apply elem_of_app in Hd as [Hd|Hd].
      + destruct (m !! k') as [l|] eqn:E; cbn [default] in Hd; [by eapply Hm|by apply elem_of_nil in Hd].
      + apply elem_of_list_singleton in Hd as ->. done.
    - rewrite lookup_insert_ne in H by done. by eapply Hm.
  Qed.
  Lemma under_merge top ho_ i m1 m2 : under top m1 -> under top m2 -> under top (merge_to_add ho_ i m1 m2).
  Proof.
    intros H1 H2 k l c H Hc. rewrite merge_lookup in H. destruct (m2 !! k) as [v|] eqn:E2; [|by eapply H1].
    injection H as <-. apply elem_of_app in Hc as [Hc|Hc]; [|by eapply H2].
    destruct (m1 !! k) as [l|] eqn:E; cbn [default] in Hc; [by eapply H1|by apply elem_of_nil in Hc].
  Qed.
  (** Before the last layer there are no contexts; in the last one nothing is added to the map. *)
  Definition phase (is_last : bool) (s : multi_state) : Prop := if is_last then ms_to_add s = ∅ else ms_contexts s = [].
  Lemma grid_win is_first is_last zooms sq zo s g s' : win s -> phase is_last s ->
    multi_grid p is_first is_last zooms sq zo s g = Ok s' -> win s' /\ phase is_last s'.
  Proof.
    intros (W1 & W2 & W3) Hph H. unfold multi_grid in H. apply bind_Ok in H as (e & He & H). apply bind_Ok in H as (t & Ht & H).
    destruct is_last; [|destruct (is_first || _)]; injection H as <-; unfold win; cbn [ms_coalesced ms_to_add ms_contexts ms_max_relev phase] in *.
    - split; [|done]. split; [by apply under_up|]. split; [by apply under_up|].
      destruct (fltb (fsub _ _) f_025) eqn:E; [|exact W3]. apply Forall_app. split; [exact W3|]. apply Forall_singleton.
      eexists. split; [|exact E]. by apply under_up.
    - split; [|done]. split; [by apply under_up|]. split; [|by rewrite Hph].
      apply under_push; [by apply under_up|]. cbn [cc_relev]. destruct (fltb (ms_max_relev s) (sk_relev t)) eqn:E; [apply fltb_irrefl|done].
    - split; [|done]. split; [by apply under_up|]. split; [by apply under_up|]. by rewrite Hph.
  Qed.
  Lemma grids_win is_first is_last zooms sq zo gs : forall s s', win s -> phase is_last s ->
    res_foldl (multi_grid p is_first is_last zooms sq zo) s gs = Ok s' -> win s' /\ phase is_last s'.
  Proof.
    induction gs as [|g gs IH]; intros s s' Hw Hp H; cbn [res_foldl] in H; [by injection H as <-|].
    apply bind_Ok in H as (s1 & H1 & H). destruct (grid_win _ _ _ _ _ _ _ _ Hw Hp H1). by eapply IH.
  Qed.
  Lemma subquery_win ho_ k sq s zo s' zo' : (k < length stack)%nat -> win s -> ms_contexts s = [] ->
    multi_subquery p ho_ mtb tb stack o (s, zo) (k, sq) = Ok (s', zo') -> win s' /\ (S k <> length stack -> ms_contexts s' = []).
  Proof.
    intros Hk (W1 & W2 & W3) Hc H. unfold multi_subquery in H.
    apply bind_Ok in H as (zo1 & _ & H). apply bind_Ok in H as (key & _ & H). apply bind_Ok in H as (grids & _ & H).
    apply bind_Ok in H as (s1 & Hs1 & H). injection H as <- _.
    assert (Hw0 : win (MultiState (ms_coalesced s) ∅ (ms_contexts s) (ms_max_relev s))) by (split; [exact W1|]; split; [apply under_empty|exact W3]).
    assert (Hp0 : phase (k =? length stack - 1)%nat (MultiState (ms_coalesced s) ∅ (ms_contexts s) (ms_max_relev s))) by (unfold phase; by destruct (k =? length stack - 1)%nat).
    destruct (grids_win _ _ _ _ _ _ _ _ Hw0 Hp0 Hs1) as [(A1 & A2 & A3) A4].
    unfold win. cbn [ms_coalesced ms_to_add ms_contexts ms_max_relev]. split.
    - split; [by apply under_merge|]. split; [apply under_empty|]. unfold phase in A4. destruct (k =? length stack - 1)%nat; [|rewrite A4; constructor].
      eapply Forall_impl; [exact A3|]. intros c (top & T1 & T2). exists top. split; [|done]. apply under_merge; [done|]. rewrite A4. apply under_empty.
    - intros Hne. unfold phase in A4. destruct (k =? length stack - 1)%nat eqn:E; [lia|done].
  Qed.
  Lemma subqueries_win ho_ l : forall k s zo s' zo', (k + length l = length stack)%nat -> win s -> ((k < length stack)%nat -> ms_contexts s = []) ->
    res_foldl (multi_subquery p ho_ mtb tb stack o) (s, zo) (combine (seq k (length l)) l) = Ok (s', zo') -> win s'.
  Proof.
    induction l as [|sq l IH]; intros k s zo s' zo' Hd HW Hc H; [by injection H as <- _|].
    cbn [length seq combine res_foldl] in H, Hd. apply bind_Ok in H as ([s1 zo1] & H1 & H).
    destruct (subquery_win ho_ k sq s zo s1 zo1 ltac:(lia) HW ltac:(apply Hc; lia) H1) as [A1 A2].
    eapply (IH (S k)); [lia|exact A1| |exact H]. intros Hlt. apply A2. lia.
  Qed.
End window.

Lemma coalesce_window p ho_ mtb tb stack layers o cs i sq g :
  layers ≡ₚ stack -> Sorted.StronglySorted zoom_ordered layers ->
  (forall a, a ∈ layers -> sq_mask a <> 0) ->
  (forall a b, a ∈ layers -> b ∈ layers -> st_zoom (sq_store a) - st_zoom (sq_store b) < 16) ->
  (forall a b, a ∈ layers -> b ∈ layers -> sq_idx a = sq_idx b -> a = b) ->
  coalesce p ho_ mtb tb stack o = Ok cs ->
  layers !! i = Some sq -> (S i < length layers)%nat -> anchored p mtb tb o layers i g ->
  exists d e es, cc_entries d = e :: es /\ to_entry sq 0 g e /\ stacked p mtb tb layers o d /\ maximal p mtb tb o layers d /\
    forall c, c ∈ cs -> exists top, fltb top (cc_relev d) = false /\ fltb (fsub top (cc_relev c)) f_025 = true.
Proof.
  intros Hp Hs Hmask Hz Hid H Hi Hlen Ha.
  assert (Hel : forall a, a ∈ stack <-> a ∈ layers) by (intros a; by rewrite Hp).
  assert (Hm : exists all, coalesce_multi p ho_ mtb tb stack o = Ok all /\ forall c, c ∈ cs -> c ∈ all).
  { destruct stack as [|a [|b stack]]; [apply Permutation_length in Hp; cbn in Hp; lia..|].
    unfold coalesce in H. apply bind_Ok in H as (all & Hall & H). exists all. split; [done|]. intros c Hc. destruct all as [|c0 all]; injection H as <-; [done|].
    eapply elem_of_sublist; [exact Hc|exact (coalesce_filter_sub (cc_relev c0) (c0 :: all) [] 0)]. }
  clear H. destruct Hm as (all & Hall & Hc). unfold coalesce_multi in Hall.
  rewrite (sort_ordered stack layers Hp Hs) in Hall by (intros a b Ha' Hb; apply Hid; by apply Hel).
  apply bind_Ok in Hall as ([s zo] & Hloop & Hall). cbn beta iota in Hall. injection Hall as <-.
  assert (Hempty : good_map (entry_from p mtb tb layers o) ∅) by (intros z x y l d Hl; by rewrite lookup_empty in Hl).
  assert (Hemax : max_map p mtb tb layers o ∅) by (intros k l d Hl; by rewrite lookup_empty in Hl).
  set (s0 := MultiState ∅ ∅ [] f_zero) in *.
  assert (HG0 : good_multi (entry_from p mtb tb layers o) s0) by (split; [done|]; split; [done|constructor]).
  destruct (subqueries_owed p mtb tb layers o Hmask Hz Hs ho_ layers 0 s0 o s zo eq_refl HG0 ltac:(by left) (adjust_self _ _) ltac:(split; intros; lia) Hloop) as [[U1 _] _].
  destruct (subqueries_max p mtb tb layers o Hmask Hz Hs ho_ layers 0 s0 o s zo eq_refl HG0 ltac:(by left) (adjust_self _ _) ltac:(split; intros; lia)
    ltac:(split; [done|]; split; [done|constructor]) Hloop) as (M1 & _ & _).
  destruct (subqueries_win p mtb tb layers o ho_ layers 0 s0 o s zo eq_refl) as (W1 & _ & W3); [|done|exact Hloop|].
  { split; [apply under_empty|]. split; [apply under_empty|constructor]. }
  assert (HG : good_multi (entry_from p mtb tb layers o) s).
  { eapply multi_subqueries_good; [|exact Hmask|exact Hz|exact HG0|apply adjust_self|exact Hloop]. intros j a Ha'. by eapply elem_of_combine_r. }
  destruct (U1 i sq g ltac:(lia) ltac:(lia) Hi Ha) as (l & d & e & es & H1 & H2 & H3 & H4).
  exists d, e, es. split; [done|]. split; [done|]. split.
  { destruct HG as (HG & _). destruct (HG _ _ _ _ _ H1 H2) as (e0 & es0 & E1 & _ & E2). exists (st_zoom (sq_store sq)). left. by exists e0, es0. }
  split; [by eapply M1|]. intros c Hcs. apply Hc in Hcs. rewrite elem_of_isort in Hcs. apply elem_of_app in Hcs as [Hcs|Hcs].
  - rewrite Forall_forall in W3. destruct (W3 c Hcs) as (top & T1 & T2). exists top. split; [by eapply T1|done].
  - apply elem_of_filter in Hcs as [_ Hcs]. exists (ms_max_relev s). split; [by eapply W1|done].
Qed.
