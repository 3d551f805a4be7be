(** The stacking tree holds each stack at most once. *)
From Verif Require Import Prelude Lists F64 Heap Common Builder Store Query Coalesce Stackable Spec_coalesce Spec_stack Spec_exact Stack_proofs.
Local Open Scope N_scope.

Section siblings.
  Notation ghost := (gmap N subquery).
  (** The subqueries of the children; [K] remembers those of evicted nodes. *)
  Definition kids (K : ghost) (n : node) (l : list subquery) : Prop :=
    Forall2 (fun j pm => K !! j = Some pm) (sn_children n) l.
  Record arena_kids (K : ghost) (a : arena) : Prop := {
    ak_dom : forall i, is_Some (K !! i) -> i < am_next a;
    ak_node : forall i n, am_nodes a !! i = Some n -> is_Some (sn_pm n) /\ K !! i = sn_pm n /\ exists l, kids K n l /\ NoDup l }.

  Lemma kids_mono K K' n l : K ⊆ K' -> kids K n l -> kids K' n l.
  Proof. intros HK H. eapply Forall2_impl; [exact H|]. intros j pm Hj. exact (lookup_weaken _ _ _ _ Hj HK). Qed.

  Lemma attach_kids K a n l child pm n' a' :
    arena_kids K a -> kids K n l -> sn_pm child = Some pm -> (exists lc, kids K child lc /\ NoDup lc) -> pm ∉ l ->
    attach n child a = (n', a') ->
    exists K' l', K ⊆ K' /\ arena_kids K' a' /\ kids K' n' l' /\ sn_pm n' = sn_pm n /\ (l' = l \/ l' = l ++ [pm]).
  Proof.
    intros Ha Hn Hpm (lc & Hlc & Hnd) Hni H. unfold attach in H. destruct (arena_add a child) as [[i|] a1] eqn:E.
    2:{ injection H as <- <-. apply arena_add_none in E as ->. exists K, l. split; [done|]. split; [done|]. split; [done|]. split; [done|by left]. }
    apply arena_add_some in E as (Hi & Hnext & Hnodes). injection H as <- <-.
    assert (Hfresh : K !! i = None).
    { destruct (K !! i) eqn:El; [|done]. exfalso. pose proof (ak_dom _ _ Ha i ltac:(eauto)). lia. }
    assert (HK : K ⊆ <[i := pm]> K) by (by apply insert_subseteq).
    exists (<[i := pm]> K), (l ++ [pm]). split; [done|]. split; [|split; [|split; [done|by right]]].
    - split.
      + intros j Hj. apply lookup_insert_is_Some in Hj as [<-|[_ Hj]]; [lia|]. pose proof (ak_dom _ _ Ha j Hj). lia.
      + intros j c Hj. destruct (Hnodes j c Hj) as [[-> ->]|Hold].
        * split; [by rewrite Hpm|]. split; [by rewrite lookup_insert, Hpm|]. exists lc. split; [by eapply kids_mono|done].
        * destruct (ak_node _ _ Ha j c Hold) as (H1 & H2 & lj & H3 & H4). split; [done|]. split.
          -- destruct H1 as [x Hx]. rewrite Hx in *. by eapply lookup_weaken.
          -- exists lj. split; [by eapply kids_mono|done].
    - unfold kids. cbn [sn_children]. apply Forall2_app; [by apply (kids_mono K _ n)|]. constructor; [by rewrite lookup_insert|constructor].
  Qed.

  Lemma visit_kids bins : forall r n a K l n' a',
    arena_kids K a -> kids K n l -> NoDup (l ++ mjoin (map pb_pms bins)) -> visit bins r n a = (n', a') ->
    exists K' l', K ⊆ K' /\ arena_kids K' a' /\ kids K' n' l' /\ NoDup l' /\ sn_pm n' = sn_pm n.
  Proof.
    induction bins as [|b rest IH]; intros r n a K l n' a' Ha Hn Hd H; cbn [visit] in H.
    { injection H as <- <-. exists K, l. cbn in Hd. rewrite app_nil_r in Hd. done. }
    match type of H with (let '(_, _) := foldl ?f _ _ in _) = _ => set (F := f) in H end.
    assert (Hloop : forall ps n a K l n1 a1, arena_kids K a -> kids K n l -> NoDup (l ++ ps ++ mjoin (map pb_pms rest)) ->
      foldl F (n, a) ps = (n1, a1) ->
      exists K' l', K ⊆ K' /\ arena_kids K' a1 /\ kids K' n1 l' /\ NoDup (l' ++ mjoin (map pb_pms rest)) /\ sn_pm n1 = sn_pm n).
    { clear n a K l n' a' Ha Hn Hd H. induction ps as [|pm ps IHl]; intros n a K l n1 a1 Ha Hn Hd H; cbn [foldl] in H.
      { injection H as <- <-. exists K, l. done. }
      assert (Hskip : NoDup (l ++ ps ++ mjoin (map pb_pms rest))).
      { clear - Hd. apply NoDup_app in Hd as (D1 & D2 & D3). apply NoDup_cons in D3 as [_ D3]. apply NoDup_app.
        split; [done|]. split; [|done]. intros x Hx Hx'. apply (D2 x Hx). by right. }
      unfold F at 2 in H. destruct (can_stack n pm); [|by eapply IHl].
      destruct (is_full a && fltb _ _); [by eapply IHl|].
      destruct (visit rest (fadd r (sq_weight pm)) (child_node n pm (fadd r (sq_weight pm))) a) as [child a2] eqn:Ev.
      assert (Hrest : NoDup (mjoin (map pb_pms rest))) by (by apply NoDup_app in Hskip as (_ & _ & [_ [_ ?]]%NoDup_app)).
      destruct (IH _ (child_node n pm (fadd r (sq_weight pm))) _ K [] _ _ Ha (List.Forall2_nil _) Hrest Ev)
        as (K2 & lc & HK2 & Ha2 & Hc2 & Hnc & Hpc).
      destruct (attach n child a2) as [n3 a3] eqn:Ea.
      destruct (attach_kids K2 a2 n l child pm n3 a3) as (K3 & l3 & HK3 & Ha3 & Hn3 & Hpm3 & Hl3); [done|by eapply kids_mono|done|eauto| |done|].
      { intros Hin. apply NoDup_app in Hd as (_ & Hd & _). apply (Hd pm Hin). by left. }
      destruct (IHl n3 a3 K3 l3 n1 a1) as (K4 & l4 & HK4 & Ha4 & Hn4 & Hd4 & Hpm4); [done|done| |done|].
      { destruct Hl3 as [->| ->]; [done|]. by rewrite <- app_assoc. }
      exists K4, l4. split; [by etransitivity; [exact HK2|etransitivity]|]. split; [done|]. split; [done|]. split; [done|]. congruence. }
    destruct (foldl F (n, a) (pb_pms b)) as [n1 a1] eqn:E.
    destruct (Hloop (pb_pms b) n a K l n1 a1) as (K1 & l1 & HK1 & Ha1 & Hn1 & Hd1 & Hp1); [done..|].
    destruct (IH r n1 a1 K1 l1 n' a') as (K2 & l2 & HK2 & Ha2 & Hn2 & Hd2 & Hp2); [done..|].
    exists K2, l2. split; [by etransitivity|]. split; [done|]. split; [done|]. split; [done|]. congruence.
  Qed.

  Lemma make_bins_join pms : NoDup pms -> NoDup (mjoin (map pb_pms (make_bins pms))).
  Proof.
    intros H. pose proof (make_bins_nodup pms H) as Hn. pose proof (make_bins_wf pms) as [_ Hs].
    induction Hs as [|b bins Hs IH HF]; cbn [map] in *; [constructor|].
    apply Forall_cons in Hn as [Hb Hn]. change (mjoin (?a :: ?b)) with (a ++ mjoin b). apply NoDup_app. split; [done|].
    split; [|by apply IH]. intros pm Hpm Hj. apply elem_of_mjoin in Hj as (l & Hl & Hm). apply elem_of_map in Hm as (b' & -> & Hb').
    rewrite Forall_forall in HF. specialize (HF b' Hb' pm pm Hpm Hl). lia.
  Qed.

  (** Different children of a node are for different subqueries. *)
  Lemma stackable_siblings pms : NoDup pms -> siblings_apart (stackable pms).
  Proof.
    intros Hnd. unfold stackable. destruct (visit (make_bins pms) f_zero root_node arena_new) as [root a] eqn:E.
    destruct (visit_kids (make_bins pms) f_zero root_node arena_new ∅ [] root a) as (K & l & _ & Ha & Hn & Hl & _); [| | |done|].
    - split.
      + intros i [x Hx]. by rewrite lookup_empty in Hx.
      + intros i n Hi. cbn [arena_new am_nodes] in Hi. by rewrite lookup_empty in Hi.
    - constructor.
    - by apply make_bins_join.
    - assert (Hk : forall n l, kids K n l ->
        Forall2 (fun j pm => forall c, tree_get (Tree root a) j = Some c -> sn_pm c = Some pm) (sn_children n) l).
      { intros n l0 H. eapply Forall2_impl; [exact H|]. intros j pm Hj c Hc. destruct (ak_node _ _ Ha j c Hc) as (_ & <- & _). done. }
      intros n [->|[i Hi]].
      + exists l. split; [done|]. by apply Hk.
      + destruct (ak_node _ _ Ha i n Hi) as (_ & _ & l' & H1 & H2). exists l'. split; [done|]. by apply Hk.
  Qed.

  Lemma child_unique t n i j c d pm :
    siblings_apart t -> n = t_root t \/ (exists i, tree_get t i = Some n) ->
    i ∈ sn_children n -> j ∈ sn_children n -> tree_get t i = Some c -> tree_get t j = Some d ->
    sn_pm c = Some pm -> sn_pm d = Some pm -> i = j /\ c = d.
  Proof.
    intros Hs Hn Hi Hj Hc Hd Hpc Hpd. destruct (Hs n Hn) as (l & Hnd & HF).
    apply elem_of_list_lookup in Hi as [a Ha], Hj as [b Hb].
    destruct (Forall2_lookup_l _ _ _ _ _ HF Ha) as (pa & Hpa & Ea). destruct (Forall2_lookup_l _ _ _ _ _ HF Hb) as (pb & Hpb & Eb).
    specialize (Ea _ Hc). specialize (Eb _ Hd). assert (pa = pb) as -> by congruence.
    assert (a = b) as -> by (by eapply NoDup_lookup). assert (i = j) as -> by congruence. split; [done|congruence].
  Qed.
  Lemma path_unique t chain : siblings_apart t -> forall n, n = t_root t \/ (exists i, tree_get t i = Some n) ->
    forall m m', descends (tree_get t) n chain m -> descends (tree_get t) n chain m' -> m = m'.
  Proof.
    intros Hs. induction chain as [|pm chain IH]; intros n Hn m m' H H'.
    - inversion H. inversion H'. congruence.
    - inversion H as [|n0 i c pm0 rest m0 Hi Hc Hpm Hd E1 E2 E3]. subst.
      inversion H' as [|n0 j d pm0 rest m0 Hj Hd' Hpm' Hdd E1 E2 E3]. subst.
      destruct (child_unique t n i j c d pm Hs Hn Hi Hj Hc Hd' Hpm Hpm') as [-> ->]. eapply (IH d); [right; eauto|done|done].
  Qed.
End siblings.
