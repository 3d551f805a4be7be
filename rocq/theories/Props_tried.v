(** Property C107: in which order the stacking tree lists the children of a node. *)
From Verif Require Import Prelude Lists F64 Heap Common Builder Store Query Coalesce Stackable Spec_coalesce Spec_stack Spec_exact
  Cmp_proofs Coalesce_proofs Stack_proofs Sibling_proofs Props_coalesce Props_stack.
Local Open Scope N_scope.

(** ** Specification *)
(** By increasing type; within a type by decreasing weight, and with the same weight by
    increasing index. *)
Definition tried_before (a b : subquery) : Prop :=
  st_type_id (sq_store a) < st_type_id (sq_store b) \/
  st_type_id (sq_store a) = st_type_id (sq_store b) /\
  (ord_cmp (sq_weight b) (sq_weight a) = Lt \/
   ord_cmp (sq_weight b) (sq_weight a) = Eq /\ sq_idx a <= sq_idx b).

(** ** Proof *)
Section tried.
  Notation ghost := (gmap N subquery).
  Notation sorted := (StronglySorted tried_before).
  Record arena_tried (K : ghost) (a : arena) : Prop := {
    at_dom : forall i, is_Some (K !! i) -> i < am_next a;
    at_node : forall i n, am_nodes a !! i = Some n -> is_Some (sn_pm n) /\ K !! i = sn_pm n /\ exists l, kids K n l /\ sorted l }.

  Lemma attach_tried K a n l child pm n' a' :
    arena_tried K a -> kids K n l -> sn_pm child = Some pm -> (exists lc, kids K child lc /\ sorted lc) ->
    attach n child a = (n', a') ->
    exists K' l', K ⊆ K' /\ arena_tried K' a' /\ kids K' n' l' /\ sn_pm n' = sn_pm n /\ (l' = l \/ l' = l ++ [pm]).
  Proof.
    intros Ha Hn Hpm (lc & Hlc & Hnd) H. unfold attach in H. destruct (arena_add a child) as [[i|] a1] eqn:E.
    2:{ injection H as <- <-. apply arena_add_none in E as ->. exists K, l. split; [done|]. split; [done|]. split; [done|]. split; [done|by left]. }
    apply arena_add_some in E as (Hi & Hnext & Hnodes). injection H as <- <-.
    assert (Hfresh : K !! i = None).
    { destruct (K !! i) eqn:El; [|done]. exfalso. pose proof (at_dom _ _ Ha i ltac:(eauto)). lia. }
    assert (HK : K ⊆ <[i := pm]> K) by (by apply insert_subseteq).
    exists (<[i := pm]> K), (l ++ [pm]). split; [done|]. split; [|split; [|split; [done|by right]]].
    - split.
      + intros j Hj. apply lookup_insert_is_Some in Hj as [<-|[_ Hj]]; [lia|]. pose proof (at_dom _ _ Ha j Hj). lia.
      + intros j c Hj. destruct (Hnodes j c Hj) as [[-> ->]|Hold].
        * split; [by rewrite Hpm|]. split; [by rewrite lookup_insert, Hpm|]. exists lc. split; [by eapply kids_mono|done].
        * destruct (at_node _ _ Ha j c Hold) as (H1 & H2 & lj & H3 & H4). split; [done|]. split.
          -- destruct H1 as [x Hx]. rewrite Hx in *. by eapply lookup_weaken.
          -- exists lj. split; [by eapply kids_mono|done].
    - unfold kids. cbn [sn_children]. apply Forall2_app; [by apply (kids_mono K _ n)|]. constructor; [by rewrite lookup_insert|constructor].
  Qed.

  Lemma visit_tried bins : forall r n a K l n' a',
    arena_tried K a -> kids K n l -> sorted (l ++ mjoin (map pb_pms bins)) -> visit bins r n a = (n', a') ->
    exists K' l', K ⊆ K' /\ arena_tried K' a' /\ kids K' n' l' /\ sorted l' /\ sn_pm n' = sn_pm n.
  Proof.
    induction bins as [|b rest IH]; intros r n a K l n' a' Ha Hn Hd H; cbn [visit] in H.
    { injection H as <- <-. exists K, l. cbn in Hd. rewrite app_nil_r in Hd. done. }
    match type of H with (let '(_, _) := foldl ?f _ _ in _) = _ => set (F := f) in H end.
    assert (Hloop : forall ps n a K l n1 a1, arena_tried K a -> kids K n l -> sorted (l ++ ps ++ mjoin (map pb_pms rest)) ->
      foldl F (n, a) ps = (n1, a1) ->
      exists K' l', K ⊆ K' /\ arena_tried K' a1 /\ kids K' n1 l' /\ sorted (l' ++ mjoin (map pb_pms rest)) /\ sn_pm n1 = sn_pm n).
    { clear n a K l n' a' Ha Hn Hd H. induction ps as [|pm ps IHl]; intros n a K l n1 a1 Ha Hn Hd H; cbn [foldl] in H.
      { injection H as <- <-. exists K, l. done. }
      assert (Hskip : sorted (l ++ ps ++ mjoin (map pb_pms rest))).
      { eapply StronglySorted_sublist; [|exact Hd]. apply sublist_app; [done|]. cbn [app]. by apply sublist_cons. }
      unfold F at 2 in H. destruct (can_stack n pm); [|by eapply IHl].
      destruct (is_full a && fltb _ _); [by eapply IHl|].
      destruct (visit rest (fadd r (sq_weight pm)) (child_node n pm (fadd r (sq_weight pm))) a) as [child a2] eqn:Ev.
      assert (Hrest : sorted (mjoin (map pb_pms rest))) by (by apply StronglySorted_app in Hskip as (_ & [_ [? _]]%StronglySorted_app & _)).
      destruct (IH _ (child_node n pm (fadd r (sq_weight pm))) _ K [] _ _ Ha (List.Forall2_nil _) Hrest Ev)
        as (K2 & lc & HK2 & Ha2 & Hc2 & Hnc & Hpc).
      destruct (attach n child a2) as [n3 a3] eqn:Ea.
      destruct (attach_tried K2 a2 n l child pm n3 a3) as (K3 & l3 & HK3 & Ha3 & Hn3 & Hpm3 & Hl3); [done|by eapply kids_mono|done|eauto|done|].
      destruct (IHl n3 a3 K3 l3 n1 a1) as (K4 & l4 & HK4 & Ha4 & Hn4 & Hd4 & Hpm4); [done|done| |done|].
      { destruct Hl3 as [->| ->]; [done|]. by rewrite <- app_assoc. }
      exists K4, l4. split; [by etransitivity; [exact HK2|etransitivity]|]. split; [done|]. split; [done|]. split; [done|]. congruence. }
    destruct (foldl F (n, a) (pb_pms b)) as [n1 a1] eqn:E.
    destruct (Hloop (pb_pms b) n a K l n1 a1) as (K1 & l1 & HK1 & Ha1 & Hn1 & Hd1 & Hp1); [done..|].
    destruct (IH r n1 a1 K1 l1 n' a') as (K2 & l2 & HK2 & Ha2 & Hn2 & Hd2 & Hp2); [done..|].
    exists K2, l2. split; [by etransitivity|]. split; [done|]. split; [done|]. split; [done|]. congruence.
  Qed.

  Lemma pm_leb_cmp : total_cmp (fun a b => ord_cmp (sq_weight b) (sq_weight a) <;> N.compare (sq_idx a) (sq_idx b)).
  Proof.
    apply total_cmp_then.
    - apply (total_cmp_flip (fun a b => ord_cmp (sq_weight a) (sq_weight b))), (total_cmp_proj sq_weight), total_cmp_ord.
    - apply (total_cmp_proj sq_idx), total_cmp_N.
  Qed.
  Lemma pms_sorted l : (forall a b, a ∈ l -> b ∈ l -> st_type_id (sq_store a) = st_type_id (sq_store b)) -> sorted (isort pm_leb l).
  Proof.
    intros Ht. pose proof pm_leb_cmp as HT.
    assert (Hle : forall a b, pm_leb a b = true <-> (ord_cmp (sq_weight b) (sq_weight a) <;> N.compare (sq_idx a) (sq_idx b)) <> Gt).
    { intros a b. unfold pm_leb. by destruct (_ <;> _). }
    assert (HS : StronglySorted (fun a b => pm_leb a b = true) (isort pm_leb l)).
    { apply isort_sorted.
      - intros a b. rewrite !Hle. apply (tc_total _ HT).
      - intros a b c. rewrite !Hle. apply (tc_trans _ HT). }
    eapply StronglySorted_impl_in; [|exact HS]. intros a b Ha Hb Hab. apply elem_of_isort in Ha, Hb.
    right. split; [by apply Ht|]. apply Hle in Hab. unfold cmp_then in Hab. destruct (ord_cmp _ _); [|by left|done].
    right. split; [done|]. by apply N.compare_le_iff.
  Qed.
  Lemma bins_sorted pms : sorted (mjoin (map pb_pms (make_bins pms))).
  Proof.
    assert (Hb : Forall (fun l => sorted l) (map pb_pms (make_bins pms))).
    { rewrite make_bins_pms. pose proof (bins_keyed pms) as (_ & Hin & _). apply Forall_forall. intros l Hl.
      apply elem_of_map in Hl as ([t b] & -> & Hb). apply pms_sorted. intros x y Hx Hy.
      destruct (Hin t b x Hb Hx) as [H1 _]. destruct (Hin t b y Hb Hy) as [H2 _]. unfold type_of in *. congruence. }
    pose proof (make_bins_wf pms) as [_ Hs]. induction Hs as [|b bins Hs IH HF]; cbn [map] in *; [constructor|].
    apply Forall_cons in Hb as [H1 Hb]. change (mjoin (?a :: ?b)) with (a ++ mjoin b). apply StronglySorted_app.
    split; [done|]. split; [by apply IH|]. intros x y Hx Hj. apply elem_of_mjoin in Hj as (l & Hl & Hm). apply elem_of_map in Hm as (b' & -> & Hb').
    rewrite Forall_forall in HF. left. exact (HF b' Hb' x y Hx Hl).
  Qed.
End tried.

(** Of two children of a node, the first is for the subquery that comes first. *)
Theorem C107_children :
  forall pms n i j a b ca cb pa pb,
  n = t_root (stackable pms) \/ (exists k, tree_get (stackable pms) k = Some n) ->
  sn_children n !! i = Some a -> sn_children n !! j = Some b -> (i < j)%nat ->
  tree_get (stackable pms) a = Some ca -> sn_pm ca = Some pa ->
  tree_get (stackable pms) b = Some cb -> sn_pm cb = Some pb ->
  tried_before pa pb.
Proof.
  intros pms n i j a b ca cb pa pb. unfold stackable.
  destruct (visit (make_bins pms) f_zero root_node arena_new) as [root ar] eqn:E. cbn [t_root].
  intros Hn Hi Hj Hij Ha Hpa Hb Hpb.
  destruct (visit_tried (make_bins pms) f_zero root_node arena_new ∅ [] root ar) as (K & l & _ & HA & Hk & Hl & _); [| | |done|].
  - split.
    + intros k [x Hx]. by rewrite lookup_empty in Hx.
    + intros k m Hm. cbn [arena_new am_nodes] in Hm. by rewrite lookup_empty in Hm.
  - constructor.
  - apply bins_sorted.
  - assert (H : exists l, kids K n l /\ StronglySorted tried_before l).
    { destruct Hn as [->|[k Hk']]; [by exists l|]. by destruct (at_node _ _ HA k n Hk') as (_ & _ & ?). }
    clear l Hk Hl. destruct H as (l & Hk & Hl).
    destruct (Forall2_lookup_l _ _ _ _ _ Hk Hi) as (x & Hx & Kx). destruct (Forall2_lookup_l _ _ _ _ _ Hk Hj) as (y & Hy & Ky).
    destruct (at_node _ _ HA a ca Ha) as (_ & Ka & _). destruct (at_node _ _ HA b cb Hb) as (_ & Kb & _).
    assert (x = pa) as -> by congruence. assert (y = pb) as -> by congruence.
    clear -Hl Hx Hy Hij. revert i j Hx Hy Hij. induction Hl as [|z l _ IH HF]; [done|]. intros [|i] [|j] Hx Hy Hij; try lia.
    + injection Hx as <-. rewrite Forall_forall in HF. apply HF. by eapply elem_of_list_lookup_2.
    + apply (IH i j); [exact Hx|exact Hy|lia].
Qed.
Print Assumptions C107_children.
(** Given in any order: the children of the root by type, weight and index. *)
Example C107_ex :
  let s ty := open_store ∅ 6 ty f_zero [] f_one in
  let t := stackable [Subquery (s 1) 4 0 f_one 1 []; Subquery (s 0) 3 0 (f_lit 1 4) 1 [];
                      Subquery (s 0) 2 0 (f_lit 1 2) 1 []; Subquery (s 0) 1 0 (f_lit 1 2) 1 []] in
  map (fun i => sq_idx <$> (tree_get t i ≫= sn_pm)) (sn_children (t_root t)) = [Some 1; Some 2; Some 3; Some 4].
Proof. vm_compute. reflexivity. Qed.
