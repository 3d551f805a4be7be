(** Lemmas for Props_twin.v: two runs in step. *)
From Verif Require Import Prelude Lists F64 Heap Common Morton Spatial Store Query Coalesce Stackable Tree Spec_twin.
From Coq Require Import ZifyBool.
Local Open Scope N_scope.

Inductive rres {A B} (R : A -> B -> Prop) : res A -> res B -> Prop :=
  | rr_ok a b : R a b -> rres R (Ok a) (Ok b)
  | rr_err : rres R Err Err
  | rr_panic : rres R Panic Panic
  | rr_div : rres R Diverge Diverge.
Lemma rres_bind {A B C D} (R : A -> B -> Prop) (Q : C -> D -> Prop) m m' f f' :
  rres R m m' -> (forall a b, R a b -> rres Q (f a) (f' b)) -> rres Q (res_bind m f) (res_bind m' f').
Proof. intros Hm H. destruct Hm; cbn; auto; constructor. Qed.
Lemma rres_eq {A} (m : res A) : rres eq m m.
Proof. destruct m; by constructor. Qed.
Lemma rres_eq_eq {A} (m m' : res A) : rres eq m m' -> m = m'.
Proof. by intros [? ? ->| | |]. Qed.
Lemma rres_foldl {A B S T} (R : A -> B -> Prop) (Q : S -> T -> Prop) f f' l l' s s' :
  Forall2 R l l' -> Q s s' -> (forall s s' a b, Q s s' -> R a b -> rres Q (f s a) (f' s' b)) ->
  rres Q (res_foldl f s l) (res_foldl f' s' l').
Proof.
  intros Hl Hs Hf. revert s s' Hs. induction Hl as [|a b l l' Hab Hl IH]; intros s s' Hs; [by constructor|].
  cbn [res_foldl]. eapply rres_bind; [by apply Hf|]. intros. by apply IH.
Qed.
Lemma rres_mapM {A B C D} (R : A -> B -> Prop) (Q : C -> D -> Prop) f f' l l' :
  Forall2 R l l' -> (forall a b, R a b -> rres Q (f a) (f' b)) ->
  rres (Forall2 Q) (res_mapM f l) (res_mapM f' l').
Proof.
  intros Hl Hf. induction Hl as [|a b l l' Hab Hl IH]; [constructor; constructor|]. cbn [res_mapM].
  eapply rres_bind; [by apply Hf|]. intros c d Hcd. eapply rres_bind; [apply IH|]. intros. constructor. by constructor.
Qed.
Lemma foldl_rel {A B S T} (R : A -> B -> Prop) (Q : S -> T -> Prop) f f' l l' s s' :
  Forall2 R l l' -> Q s s' -> (forall s s' a b, Q s s' -> R a b -> Q (f s a) (f' s' b)) ->
  Q (foldl f s l) (foldl f' s' l').
Proof. intros Hl Hs Hf. revert s s' Hs. induction Hl; intros; cbn; auto. Qed.
Lemma combine_rel {A B} (R : A -> B -> Prop) (l : list A) (l' : list B) : Forall2 R l l' -> forall n,
  Forall2 (fun x y : nat * _ => x.1 = y.1 /\ R x.2 y.2) (combine (seq n (length l)) l) (combine (seq n (length l')) l').
Proof. intros H. induction H; intros n; cbn; constructor; auto. Qed.
Lemma insert_rel {A B} (R : A -> B -> Prop) leb leb' a a' l l' :
  (forall a a' b b', R a a' -> R b b' -> leb a b = leb' a' b') ->
  R a a' -> Forall2 R l l' -> Forall2 R (insert_sorted leb a l) (insert_sorted leb' a' l').
Proof.
  intros H Ha Hl. induction Hl as [|b b' l l' Hb Hl IH]; cbn; [by repeat constructor|].
  rewrite (H _ _ _ _ Ha Hb). destruct (leb' a' b'); repeat (constructor; try done).
Qed.
Lemma isort_rel {A B} (R : A -> B -> Prop) leb leb' l l' :
  (forall a a' b b', R a a' -> R b b' -> leb a b = leb' a' b') ->
  Forall2 R l l' -> Forall2 R (isort leb l) (isort leb' l').
Proof. intros H Hl. induction Hl; cbn; [constructor|]. by apply insert_rel. Qed.

(** ** Heaps *)
Section heaps.
  Context {A : Type} (R : A -> A -> Prop) (cmp : A -> A -> comparison).
  Hypothesis Hcmp : forall a a' b b', R a a' -> R b b' -> cmp a b = cmp a' b'.
  Definition heapR (h h' : heap A) : Prop :=
    Forall2 R (hp_items h) (hp_items h') /\ Forall2 (hop_rel R) (hp_log h) (hp_log h').
  Lemma all_in_rel (f f' : A -> bool) l l' : Forall2 R l l' -> (forall a b, R a b -> f a = f' b) -> all_in f l = all_in f' l'.
  Proof. intros Hl H. induction Hl as [|a b l l' Hab Hl IH]; [done|]. cbn. by rewrite (H _ _ Hab), IH. Qed.
  Lemma max_idxs_rel l l' : Forall2 R l l' -> max_idxs cmp l = max_idxs cmp l'.
  Proof.
    intros Hl. unfold max_idxs. rewrite (Forall2_length _ _ _ Hl). apply List.filter_ext. intros i.
    pose proof (proj1 (Forall2_lookup R l l') Hl i) as H. destruct H as [a b Hab|]; [|done].
    apply all_in_rel; [done|]. intros x y Hxy. unfold not_gt. by rewrite (Hcmp _ _ _ _ Hxy Hab).
  Qed.
  Lemma push_rel h h' a a' : heapR h h' -> R a a' -> heapR (hp_push h a) (hp_push h' a').
  Proof. intros [H1 H2] Ha. split; cbn; [apply Forall2_app; auto|constructor; [by constructor|done]]. Qed.
  Lemma pop_rel tb h h' :
    (forall log log', Forall2 (hop_rel R) log log' -> tb A log = tb A log') -> heapR h h' ->
    option_Forall2 (fun x y => R x.1 y.1 /\ heapR x.2 y.2) (hp_pop_max cmp tb h) (hp_pop_max cmp tb h').
  Proof.
    intros Ht [H1 H2]. unfold hp_pop_max, hp_max_idx, pick. rewrite (max_idxs_rel _ _ H1), (Ht _ _ H2).
    destruct (_ !! _) as [i|]; [|constructor].
    pose proof (proj1 (Forall2_lookup R _ _) H1 i) as H. destruct H as [a b Hab|]; constructor.
    split; [done|]. split; cbn; [by apply Forall2_delete|]. constructor; [constructor|done].
  Qed.
End heaps.

Section twins.
  Context (p : profile) (mtb : merge_tb) (tb : tiebreak).

  Record sqR (a b : subquery) : Prop := SqR {
    qr_idx : sq_idx a = sq_idx b;
    qr_non : sq_nonoverlap a = sq_nonoverlap b;
    qr_weight : sq_weight a = sq_weight b;
    qr_mask : sq_mask a = sq_mask b;
    qr_opts : same_options (sq_store a) (sq_store b);
    qr_keys : Forall2 (fun k k' => same_use p k k' /\ forall o n,
      streaming_get_matching p mtb tb (sq_store a) (mki_key k) o n =
      streaming_get_matching p mtb tb (sq_store b) (mki_key k') o n) (sq_keys a) (sq_keys b) }.
  Record nodeR (n n' : node) : Prop := NodeR {
    nr_pm : option_Forall2 sqR (sn_pm n) (sn_pm n');
    nr_children : sn_children n = sn_children n';
    nr_bmask : sn_bmask n = sn_bmask n';
    nr_mask : sn_mask n = sn_mask n';
    nr_idx : sn_idx n = sn_idx n';
    nr_relev : sn_max_relev n = sn_max_relev n';
    nr_zoom : sn_zoom n = sn_zoom n' }.
  Lemma is_leaf_rel n n' : nodeR n n' -> is_leaf n = is_leaf n'.
  Proof. intros H. unfold is_leaf. by rewrite (nr_children _ _ H). Qed.

  (** ** The tree *)
  Definition nodesR (m m' : gmap N node) : Prop := forall i, option_Forall2 nodeR (m !! i) (m' !! i).
  Definition arenaR (a a' : arena) : Prop :=
    nodesR (am_nodes a) (am_nodes a') /\
    (am_relev a, am_min a, am_leaves a, am_soft_max a, am_next a, am_panicked a) =
    (am_relev a', am_min a', am_leaves a', am_soft_max a', am_next a', am_panicked a').
  Lemma nodes_insert m m' i n n' : nodesR m m' -> nodeR n n' -> nodesR (<[i := n]> m) (<[i := n']> m').
  Proof.
    intros H Hn j. destruct (decide (i = j)) as [<-|Hne]; [rewrite !lookup_insert; by constructor|].
    by rewrite !lookup_insert_ne.
  Qed.
  Lemma nodes_delete m m' is : nodesR m m' ->
    nodesR (foldl (fun m i => delete i m) m is) (foldl (fun m i => delete i m) m' is).
  Proof.
    revert m m'. induction is as [|i is IH]; intros m m' H; [done|]. cbn. apply IH. intros j.
    destruct (decide (i = j)) as [<-|Hne]; [rewrite !lookup_delete; constructor|]. by rewrite !lookup_delete_ne.
  Qed.
  Lemma cull_rel a a' : arenaR a a' -> arenaR (cull_min a) (cull_min a').
  Proof.
    destruct a as [n1 r1 m1 l1 s1 x1 p1], a' as [n2 r2 m2 l2 s2 x2 p2]. intros [H E]. cbn in H, E.
    injection E as -> -> -> -> -> ->. unfold cull_min. cbn [am_nodes am_relev am_min am_leaves am_soft_max am_next am_panicked].
    destruct (relev_find m2 r2) as [[c is]|]; split; cbn; try done. by apply nodes_delete.
  Qed.
  Lemma add_rel a a' n n' : arenaR a a' -> nodeR n n' ->
    (arena_add a n).1 = (arena_add a' n').1 /\ arenaR (arena_add a n).2 (arena_add a' n').2.
  Proof.
    intros Ha Hn. unfold arena_add. rewrite <- (nr_relev _ _ Hn), <- (is_leaf_rel _ _ Hn).
    destruct a as [n1 r1 m1 l1 s1 x1 p1], a' as [n2 r2 m2 l2 s2 x2 p2]. destruct Ha as [H E]. cbn in H, E.
    injection E as -> -> -> -> -> ->. unfold is_full.
    cbn [am_nodes am_relev am_min am_leaves am_soft_max am_next am_panicked].
    pose proof (nodes_insert _ _ x2 _ _ H Hn) as Hi.
    repeat match goal with |- context [if ?c then _ else _] => destruct c end;
      try (destruct (relev_find _ _) as [[c is]|]);
      repeat match goal with |- context [if ?c then _ else _] => destruct c end; cbn [fst snd];
      (split; [done|]); try done; try (by split); by apply cull_rel.
  Qed.
  Lemma attach_rel n n' c c' a a' : nodeR n n' -> nodeR c c' -> arenaR a a' ->
    nodeR (attach n c a).1 (attach n' c' a').1 /\ arenaR (attach n c a).2 (attach n' c' a').2.
  Proof.
    intros Hn Hc Ha. unfold attach. destruct (add_rel a a' c c' Ha Hc) as [E Hr].
    destruct (arena_add a c) as [i b], (arena_add a' c') as [i' b']. cbn in E, Hr. subst i'.
    destruct i; cbn; (split; [|done]); [|done]. destruct Hn as [? -> ? ? ? -> ?], Hc as [? _ ? ? ? -> ?]. by constructor.
  Qed.
  Record binR (b b' : pm_bin) : Prop := BinR {
    br_pms : Forall2 sqR (pb_pms b) (pb_pms b');
    br_max : pb_max b = pb_max b';
    br_after : pb_after b = pb_after b' }.
  Lemma visit_rel bins bins' : Forall2 binR bins bins' -> forall r n n' a a', nodeR n n' -> arenaR a a' ->
    nodeR (visit bins r n a).1 (visit bins' r n' a').1 /\ arenaR (visit bins r n a).2 (visit bins' r n' a').2.
  Proof.
    intros Hb. induction Hb as [|b b' bins bins' Hb Hbs IH]; intros r n n' a a' Hn Ha; [done|].
    cbn [visit].
    match goal with |- context [foldl ?f (n, a) (pb_pms b)] => set (F := f) end.
    match goal with |- context [foldl ?f (n', a') (pb_pms b')] => set (F' := f) end.
    assert (H : nodeR (foldl F (n, a) (pb_pms b)).1 (foldl F' (n', a') (pb_pms b')).1 /\
                arenaR (foldl F (n, a) (pb_pms b)).2 (foldl F' (n', a') (pb_pms b')).2).
    { apply (foldl_rel sqR (fun x y : node * arena => nodeR x.1 y.1 /\ arenaR x.2 y.2)); [apply Hb|done|].
      intros [m c] [m' c'] pm pm' [Hm Hc] Hpm. unfold F, F'. cbn in Hm, Hc.
      assert (Ec : can_stack m pm = can_stack m' pm').
      { unfold can_stack. by rewrite (nr_mask _ _ Hm), (qr_mask _ _ Hpm), (qr_non _ _ Hpm), (nr_idx _ _ Hm). }
      assert (Ef : is_full c = is_full c') by (unfold is_full; destruct Hc as [_ E]; injection E as; congruence).
      assert (Em : am_min c = am_min c') by (destruct Hc as [_ E]; injection E as; congruence).
      rewrite Ec, Ef, Em, (br_after _ _ Hb), (qr_weight _ _ Hpm).
      destruct (can_stack m' pm'); [|done].
      destruct (is_full c' && _); [done|].
      assert (Hch : nodeR (child_node m pm (fadd r (sq_weight pm'))) (child_node m' pm' (fadd r (sq_weight pm')))).
      { unfold child_node. constructor; cbn; try done; [by constructor|..].
        - by rewrite (nr_bmask _ _ Hm), (qr_non _ _ Hpm).
        - by rewrite (nr_mask _ _ Hm), (qr_mask _ _ Hpm).
        - apply Hpm.
        - apply (qr_opts _ _ Hpm). }
      destruct (IH (fadd r (sq_weight pm')) _ _ c c' Hch Hc) as [H1 H2].
      destruct (visit bins _ _ c) as [ch c1], (visit bins' _ _ c') as [ch' c1']. cbn in H1, H2.
      by apply attach_rel. }
    destruct (foldl F (n, a) (pb_pms b)) as [m c], (foldl F' (n', a') (pb_pms b')) as [m' c']. cbn in H. destruct H.
    by apply IH.
  Qed.
  Lemma bin_add_rel pm pm' m m' : sqR pm pm' ->
    Forall2 (fun x y : N * pm_bin => x.1 = y.1 /\ binR x.2 y.2) m m' ->
    Forall2 (fun x y : N * pm_bin => x.1 = y.1 /\ binR x.2 y.2) (bin_add pm m) (bin_add pm' m').
  Proof.
    intros Hpm Hm. pose proof (qr_opts _ _ Hpm) as (_ & Et & _). pose proof (qr_weight _ _ Hpm) as Ew.
    assert (Hu : forall b b', binR b b' ->
      binR (PmBin (pb_pms b ++ [pm]) (if fltb (pb_max b) (sq_weight pm) then sq_weight pm else pb_max b) (pb_after b))
           (PmBin (pb_pms b' ++ [pm']) (if fltb (pb_max b') (sq_weight pm') then sq_weight pm' else pb_max b') (pb_after b'))).
    { intros b b' [H1 H2 H3]. constructor; cbn; [apply Forall2_app; auto|by rewrite H2, Ew|done]. }
    assert (H0 : binR (PmBin [] f_zero f_zero) (PmBin [] f_zero f_zero)) by (constructor; cbn; [constructor|done..]).
    induction Hm as [|[t b] [t' b'] m m' [E Hb] Hm IH]; cbn [bin_add].
    - constructor; [|constructor]. split; [done|]. by apply (Hu _ _ H0).
    - cbn in E, Hb. subst t'. rewrite <- Et. destruct (N.compare _ t).
      + constructor; [|done]. split; [done|]. by apply Hu.
      + constructor; [|by constructor]. split; [done|]. by apply (Hu _ _ H0).
      + by constructor.
  Qed.
  Lemma set_after_rel bins bins' : Forall2 binR bins bins' ->
    Forall2 binR (set_after bins).1 (set_after bins').1 /\ (set_after bins).2 = (set_after bins').2.
  Proof.
    intros H. induction H as [|b b' bins bins' Hb H [IH1 IH2]]; [split; [constructor|done]|]. cbn [set_after].
    destruct (set_after bins) as [o s], (set_after bins') as [o' s']. cbn in *. subst s'. destruct Hb.
    split; [constructor; [by constructor|done]|congruence].
  Qed.
  Lemma make_bins_rel pms pms' : Forall2 sqR pms pms' -> Forall2 binR (make_bins pms) (make_bins pms').
  Proof.
    intros H. unfold make_bins. apply set_after_rel.
    assert (Hm : Forall2 (fun x y : N * pm_bin => x.1 = y.1 /\ binR x.2 y.2)
                   (foldl (fun m pm => bin_add pm m) [] pms) (foldl (fun m pm => bin_add pm m) [] pms')).
    { eapply foldl_rel; [exact H|constructor|]. intros. by apply bin_add_rel. }
    induction Hm as [|x y m m' [_ Hb] Hm IH]; [constructor|]. cbn [map]. constructor; [|done]. destruct Hb as [H1 H2 H3].
    constructor; cbn; [|done..]. apply isort_rel; [|done]. intros a a' b b' Ha Hb. unfold pm_leb.
    by rewrite (qr_weight _ _ Ha), (qr_weight _ _ Hb), (qr_idx _ _ Ha), (qr_idx _ _ Hb).
  Qed.
  Definition treeR (t t' : tree) : Prop := nodeR (t_root t) (t_root t') /\ arenaR (t_arena t) (t_arena t').
  Lemma stackable_rel pms pms' : Forall2 sqR pms pms' -> treeR (stackable pms) (stackable pms').
  Proof.
    intros H. unfold stackable.
    destruct (visit_rel _ _ (make_bins_rel _ _ H) f_zero root_node root_node arena_new arena_new) as [H1 H2].
    - constructor; cbn; try done. constructor.
    - split; [|done]. intros i. cbn. rewrite lookup_empty. constructor.
    - destruct (visit (make_bins pms) _ _ _), (visit (make_bins pms') _ _ _). done.
  Qed.

  (** ** Steps *)
  Record stepR (a b : tstep) : Prop := StepR {
    sr_node : nodeR (tp_node a) (tp_node b);
    sr_sq : sqR (tp_sq a) (tp_sq b);
    sr_prev : tp_prev a = tp_prev b;
    sr_zoom : tp_prev_zoom a = tp_prev_zoom b;
    sr_opts : tp_opts a = tp_opts b;
    sr_possible : tp_possible a = tp_possible b;
    sr_prox : tp_prox a = tp_prox b }.
  Lemma zoom_rel a b : sqR a b -> st_zoom (sq_store a) = st_zoom (sq_store b).
  Proof. intros H. apply (qr_opts _ _ H). Qed.
  Lemma bboxes_rel a b : sqR a b -> st_bboxes (sq_store a) = st_bboxes (sq_store b).
  Proof. intros H. apply (qr_opts _ _ H). Qed.
  Lemma step_cmp_rel a a' b b' : stepR a a' -> stepR b b' -> step_cmp a b = step_cmp a' b'.
  Proof.
    intros Ha Hb. unfold step_cmp. rewrite (nr_relev _ _ (sr_node _ _ Ha)), (nr_relev _ _ (sr_node _ _ Hb)).
    rewrite (sr_prox _ _ Ha), (sr_prox _ _ Hb).
    destruct (qr_opts _ _ (sr_sq _ _ Ha)) as (_ & _ & _ & ->).
    by destruct (qr_opts _ _ (sr_sq _ _ Hb)) as (_ & _ & _ & ->).
  Qed.
  Lemma make_step_rel n n' prev z o r : nodeR n n' -> rres stepR (make_step p n prev z o r) (make_step p n' prev z o r).
  Proof.
    intros Hn. unfold make_step. pose proof (nr_pm _ _ Hn) as H. destruct H as [sq sq' Hsq|]; [|constructor].
    rewrite <- (zoom_rel _ _ Hsq), <- (bboxes_rel _ _ Hsq). eapply rres_bind; [apply rres_eq|].
    intros o1 o2 <-. constructor. by constructor.
  Qed.
  Lemma entry_rel g a b o i : sqR a b -> grid_to_coalesce_entry p g a o i = grid_to_coalesce_entry p g b o i.
  Proof.
    intros H. unfold grid_to_coalesce_entry.
    by rewrite (zoom_rel _ _ H), (qr_idx _ _ H), (qr_weight _ _ H), (qr_mask _ _ H).
  Qed.
  Lemma single_loop_rel a b o i gs : sqR a b -> forall s, single_loop p a o i gs s = single_loop p b o i gs s.
  Proof.
    intros H. induction gs as [|g gs IH]; intros s; [done|]. cbn [single_loop]. rewrite (entry_rel g a b o i H).
    destruct (grid_to_coalesce_entry p g b o i); cbn [res_bind]; try done. by destruct (single_body _ _ _).
  Qed.
  Record kfR (a b : kfetch) : Prop := KfR {
    kr_id : kf_id a = kf_id b;
    kr_sq : sqR (kf_sq a) (kf_sq b);
    kr_opts : kf_opts a = kf_opts b;
    kr_single : kf_single a = kf_single b;
    kr_same : forall o n, streaming_get_matching p mtb tb (sq_store (kf_sq a)) (kf_key a) o n =
                          streaming_get_matching p mtb tb (sq_store (kf_sq b)) (kf_key b) o n }.
  Lemma fetch_rel a b : kfR a b -> fetch_key p mtb tb a = fetch_key p mtb tb b.
  Proof.
    intros [E1 Hsq E3 E4 Hs]. unfold fetch_key. rewrite <- E1, <- E3, <- E4, !Hs. destruct (kf_single a).
    - destruct (streaming_get_matching _ _ _ _ _ _ _); cbn [res_bind]; try done.
      unfold tree_coalesce_single. by rewrite (single_loop_rel _ _ _ _ _ Hsq).
    - done.
  Qed.
  Lemma is_single_rel a b : stepR a b -> is_single a = is_single b.
  Proof. intros H. unfold is_single. by rewrite (sr_prev _ _ H), (is_leaf_rel _ _ (sr_node _ _ H)). Qed.
  Definition keyR (st st' : tstep) (k k' : match_key_id) : Prop :=
    same_use p k k' /\ forall o n,
      streaming_get_matching p mtb tb (sq_store (tp_sq st)) (mki_key k) o n =
      streaming_get_matching p mtb tb (sq_store (tp_sq st')) (mki_key k') o n.
  Lemma admit_rel r kn b st st' k k' q : stepR st st' -> same_use p k k' -> admit_key r kn b st k q = admit_key r kn b st' k' q.
  Proof.
    intros H (E1 & E2 & E3 & E4). unfold admit_key, might_be_slow.
    by rewrite (zoom_rel _ _ (sr_sq _ _ H)), (qr_mask _ _ (sr_sq _ _ H)), (is_leaf_rel _ _ (sr_node _ _ H)), (sr_possible _ _ H), E1, E3.
  Qed.
  Definition gkR (a b : list kfetch * list (N * bool) * quotas * bool) : Prop :=
    Forall2 kfR a.1.1.1 b.1.1.1 /\ (a.1.1.2, a.1.2, a.2) = (b.1.1.2, b.1.2, b.2).
  Lemma gather_key_rel cache best st st' a b k k' : stepR st st' -> gkR a b -> keyR st st' k k' ->
    rres gkR (gather_key p cache best st a k) (gather_key p cache best st' b k').
  Proof.
    intros Hst [Hk E] [Hu Hs]. destruct a as [[[ks u] q] e], b as [[[ks' u'] q'] e']. cbn in Hk, E. injection E as <- <- <-.
    unfold gather_key. rewrite <- (is_single_rel _ _ Hst), <- (sr_opts _ _ Hst).
    pose proof Hu as (E1 & E2 & E3 & E4). rewrite <- E1, <- E2, <- E4.
    destruct (is_single st || _); [|by constructor].
    eapply rres_bind; [apply rres_eq|]. intros o ? <-. eapply rres_bind; [apply rres_eq|]. intros r ? <-.
    rewrite <- (admit_rel _ _ _ _ _ _ _ _ Hst Hu). destruct (admit_key _ _ _ _ _ _) as [ok q'].
    destruct (ok && _); constructor; (split; [|done]); cbn; [|done]. apply Forall2_app; [done|].
    constructor; [|constructor]. constructor; cbn; try done. apply Hst.
  Qed.
  Record gatherR (a b : gather_state) : Prop := GatherR {
    gr_steps : heapR stepR (gt_steps a) (gt_steps b);
    gr_chunk : Forall2 stepR (gt_chunk a) (gt_chunk b);
    gr_keys : Forall2 kfR (gt_keys a) (gt_keys b);
    gr_unique : gt_unique a = gt_unique b;
    gr_quotas : gt_quotas a = gt_quotas b;
    gr_added : gt_added a = gt_added b;
    gr_complete : gt_complete a = gt_complete b }.
  Context (Htb : by_order tb).
  Lemma gather_rel cache cs fuel : forall a b, gatherR a b ->
    rres gatherR (gather p tb cache cs fuel a) (gather p tb cache cs fuel b).
  Proof.
    induction fuel as [|fuel IH]; intros a b H; cbn [gather]; [constructor|].
    rewrite <- (gr_added _ _ H). destruct (chunk_size <=? gt_added a); [by constructor|].
    pose proof (pop_rel stepR step_cmp step_cmp_rel tb _ _ (Htb stepR step_cmp_rel) (gr_steps _ _ H)) as Hp.
    destruct Hp as [[st h] [st' h'] [Hst Hh]|]; [|by constructor]. cbn in Hst, Hh.
    rewrite <- (nr_relev _ _ (sr_node _ _ Hst)).
    eapply rres_bind; [apply rres_eq|]. intros stop ? <-. destruct stop.
    { constructor. destruct H. by constructor. }
    rewrite <- (is_single_rel _ _ Hst).
    assert (Hf : forall best, rres gkR
      (res_foldl (gather_key p cache best st) (gt_keys a, gt_unique a, gt_quotas a, false) (sq_keys (tp_sq st)))
      (res_foldl (gather_key p cache best st') (gt_keys b, gt_unique b, gt_quotas b, false) (sq_keys (tp_sq st')))).
    { intros best. apply (rres_foldl (keyR st st') gkR).
      - apply (qr_keys _ _ (sr_sq _ _ Hst)).
      - split; cbn; [apply H|]. by rewrite (gr_unique _ _ H), (gr_quotas _ _ H).
      - intros s s' k k' Hs Hk. by apply gather_key_rel. }
    eapply rres_bind; [apply Hf|]. intros [[[ks u] q] e] [[[ks' u'] q'] e'] [Hk E]. cbn in Hk, E. injection E as <- <- <-.
    apply IH. constructor; cbn; try done. destruct (is_single st); [apply H|]. apply Forall2_app; [apply H|constructor; [done|constructor]].
  Qed.

  Lemma child_rel t t' o state zoom relev acc acc' i : treeR t t' -> Forall2 stepR acc acc' ->
    rres (Forall2 stepR) (child_step p t o state zoom relev acc i) (child_step p t' o state zoom relev acc' i).
  Proof.
    intros [_ [Ha _]] Hacc. unfold child_step, tree_get. destruct (Ha i) as [n n' Hn|]; [|by constructor].
    pose proof (nr_pm _ _ Hn) as H. destruct H as [sq sq' Hsq|]; [|constructor].
    rewrite <- (zoom_rel _ _ Hsq), <- (bboxes_rel _ _ Hsq), <- (qr_weight _ _ Hsq).
    eapply rres_bind; [apply rres_eq|]. intros bs ? <-. destruct (existsb _ bs); [|by constructor].
    eapply rres_bind; [by apply make_step_rel|]. intros s s' Hs. constructor. apply Forall2_app; [done|constructor; [done|constructor]].
  Qed.
  Lemma stack_key_rel ho_ site cache st st' scale a i k k' : stepR st st' -> same_use p k k' ->
    stack_key p ho_ tb site cache st scale a (i, k) = stack_key p ho_ tb site cache st' scale a (i, k').
  Proof.
    intros H (_ & Ek & _ & _). destruct a as [[r out] state]. unfold stack_key. rewrite <- Ek. rename i into ki. destruct (cache !! mki_id k) as [grids|]; [|done].
    assert (E : forall l acc, res_foldl (stack_grid p ho_ tb (N.of_nat ki :: site) st scale (mki_id k)) acc l =
                              res_foldl (stack_grid p ho_ tb (N.of_nat ki :: site) st' scale (mki_id k)) acc l).
    { induction l as [|[gi g] l IH]; intros acc; [done|]. cbn [res_foldl].
      assert (Eg : stack_grid p ho_ tb (N.of_nat ki :: site) st scale (mki_id k) acc (gi, g) =
                   stack_grid p ho_ tb (N.of_nat ki :: site) st' scale (mki_id k) acc (gi, g)).
      { unfold stack_grid. rewrite <- (sr_opts _ _ H), <- (sr_prev _ _ H), (entry_rel _ _ _ _ _ (sr_sq _ _ H)).
        destruct (grid_to_coalesce_entry _ _ _ _ _) as [e| | |]; cbn [res_bind]; try done.
        destruct (tp_prev st) as [prev|].
        - generalize (bush_exact ho_ (7 :: N.of_nat gi :: N.of_nat ki :: site) prev (ge_x (me_entry g) / scale) (ge_y (me_entry g) / scale)).
          intros is. revert acc. induction is as [|i is IHi]; intros acc; [done|]. cbn [res_foldl].
          assert (Eo : stack_on tb st e prev acc i = stack_on tb st' e prev acc i).
          { unfold stack_on. by rewrite (qr_mask _ _ (sr_sq _ _ H)), (is_leaf_rel _ _ (sr_node _ _ H)). }
          rewrite Eo. clear Eo. destruct (stack_on _ _ _ _ _ _); cbn [res_bind]; auto.
        - by rewrite (qr_mask _ _ (sr_sq _ _ H)). }
      rewrite Eg. clear Eg. destruct (stack_grid _ _ _ _ _ _ _ _ _); cbn [res_bind]; auto. }
    by rewrite E.
  Qed.
  Definition outR (a b : list coalesce_context * list tstep) : Prop := a.1 = b.1 /\ Forall2 stepR a.2 b.2.
  Lemma run_step_rel ho_ t t' o cache site st st' : treeR t t' -> stepR st st' ->
    rres outR (run_step p ho_ tb t o cache site st) (run_step p ho_ tb t' o cache site st').
  Proof.
    intros Ht H. unfold run_step. rewrite <- (zoom_rel _ _ (sr_sq _ _ H)), <- (sr_zoom _ _ H).
    eapply rres_bind; [apply rres_eq|]. intros d ? <-. eapply rres_bind; [apply rres_eq|]. intros scale ? <-.
    assert (E : forall acc, res_foldl (stack_key p ho_ tb site cache st scale) acc (combine (seq 0 (length (sq_keys (tp_sq st)))) (sq_keys (tp_sq st))) =
                res_foldl (stack_key p ho_ tb site cache st' scale) acc (combine (seq 0 (length (sq_keys (tp_sq st')))) (sq_keys (tp_sq st')))).
    { intros acc. apply rres_eq_eq. eapply rres_foldl; [apply (combine_rel _ _ _ (qr_keys _ _ (sr_sq _ _ H)))|done|].
      intros s s' [i k] [j k'] -> [E [Hu _]]. cbn in E, Hu. subst j. rewrite (stack_key_rel _ _ _ _ _ _ _ _ _ _ H Hu). apply rres_eq. }
    rewrite E. eapply rres_bind; [apply rres_eq|]. intros [[relev out] state] ? <-.
    destruct state as [|c state]; [constructor; split; [done|constructor]|]. rewrite <- (nr_children _ _ (sr_node _ _ H)).
    eapply (rres_bind (Forall2 stepR)).
    - apply (rres_foldl eq (Forall2 stepR)); [apply Forall2_same_length_lookup; split; [done|congruence]|constructor|].
      intros s s' a b Hs <-. by apply child_rel.
    - intros n n' Hn. constructor. by split.
  Qed.
  Record trR (a b : tree_state) : Prop := TrR {
    tr_c : tr_contexts a = tr_contexts b;
    tr_s : heapR stepR (tr_steps a) (tr_steps b);
    tr_k : tr_cache a = tr_cache b;
    tr_q : tr_quotas a = tr_quotas b }.
  Lemma round_rel ho_ t t' o round a b : treeR t t' -> trR a b ->
    rres (fun x y => trR x.1 y.1 /\ x.2 = y.2) (tree_round p ho_ mtb tb t o round a) (tree_round p ho_ mtb tb t' o round b).
  Proof.
    intros Ht [Ec Hs Ek Eq]. unfold tree_round. rewrite <- Ec, <- Ek, <- Eq.
    rewrite (Forall2_length _ _ _ (proj1 Hs)). eapply rres_bind.
    { apply gather_rel. constructor; cbn; try done; constructor. }
    intros g g' Hg.
    assert (Ef : res_mapM (fetch_key p mtb tb) (gt_keys g) = res_mapM (fetch_key p mtb tb) (gt_keys g')).
    { pose proof (gr_keys _ _ Hg) as H. induction H as [|x y l l' Hxy H IH]; [done|]. cbn [res_mapM].
      by rewrite (fetch_rel _ _ Hxy), IH. }
    rewrite Ef. eapply rres_bind; [apply rres_eq|]. intros fs ? <-.
    destruct (foldl (store_fetched ho_ tb round) _ _) as [contexts cache].
    eapply (rres_bind (Forall2 outR)).
    { eapply rres_mapM; [apply (combine_rel stepR), Hg|]. intros [i x] [j y] [E H]. cbn in E, H. subst j. cbn [fst snd].
      by apply run_step_rel. }
    intros rs rs' Hrs. constructor. split; [|apply Hg]. cbn [fst]. constructor; cbn; try done; [| |apply Hg].
    - assert (H : forall c c' : cpq coalesce_context, c = c' ->
        foldl (fun q (r : list coalesce_context * list tstep) => cpq_push_all tb q r.1) c rs =
        foldl (fun q (r : list coalesce_context * list tstep) => cpq_push_all tb q r.1) c' rs'); [|by apply H].
      intros c c' E. apply (foldl_rel outR eq); [done|done|]. by intros s ? x y -> [-> _].
    - apply (foldl_rel outR (heapR stepR)); [done|apply Hg|]. intros h h' x y Hh [_ Hxy].
      apply (foldl_rel stepR (heapR stepR)); [done|done|]. intros. by apply push_rel.
  Qed.
  Lemma loop_rel ho_ t t' o fuel : treeR t t' -> forall a b, trR a b ->
    rres trR (tree_loop p ho_ mtb tb t o fuel a) (tree_loop p ho_ mtb tb t' o fuel b).
  Proof.
    intros Ht. induction fuel as [|fuel IH]; intros a b H; cbn [tree_loop]; [constructor|].
    pose proof (proj1 (tr_s _ _ H)) as Hi.
    assert (G : rres trR
      (let* (s', complete) := tree_round p ho_ mtb tb t o (N.of_nat fuel) a in
       if (complete : bool) then Ok s' else tree_loop p ho_ mtb tb t o fuel s')
      (let* (s', complete) := tree_round p ho_ mtb tb t' o (N.of_nat fuel) b in
       if (complete : bool) then Ok s' else tree_loop p ho_ mtb tb t' o fuel s')).
    { eapply rres_bind; [by apply round_rel|]. intros [x c] [y c'] [Hxy E]. cbn in Hxy, E. subst c'.
      destruct c; [by constructor|]. by apply IH. }
    destruct Hi as [|s s' l l' Hs Hl]; [by constructor|exact G].
  Qed.
  Lemma tree_coalesce_rel ho_ fuel t t' o : treeR t t' ->
    tree_coalesce p ho_ mtb tb fuel t o = tree_coalesce p ho_ mtb tb fuel t' o.
  Proof.
    intros Ht. apply rres_eq_eq. unfold tree_coalesce.
    assert (E : match sn_pm (t_root t) with None => true | Some _ => false end =
                match sn_pm (t_root t') with None => true | Some _ => false end).
    { destruct (nr_pm _ _ (proj1 Ht)); done. }
    rewrite E. eapply rres_bind; [apply rres_eq|]. intros u ? <-. rewrite <- (nr_children _ _ (proj1 Ht)).
    eapply (rres_bind (heapR stepR)).
    { apply (rres_foldl eq (heapR stepR)); [apply Forall2_same_length_lookup; split; [done|congruence]|split; constructor|].
      intros h h' i ? Hh <-. unfold first_step, tree_get. destruct (proj1 (proj2 Ht) i) as [n n' Hn|]; [|by constructor].
      pose proof (nr_pm _ _ Hn) as Hp. destruct Hp as [sq sq' Hsq|]; [|constructor].
      rewrite <- (qr_weight _ _ Hsq). eapply rres_bind; [by apply make_step_rel|]. intros s s' Hs. constructor.
      by apply push_rel. }
    intros h h' Hh. eapply rres_bind; [apply loop_rel; [done|by constructor]|].
    intros a b Hab. constructor. by rewrite (tr_c _ _ Hab).
  Qed.

  (** ** Putting subqueries together *)
  Context (K : N -> match_key_id -> match_key_id -> Prop).
  Definition sqK (a b : subquery) : Prop := twin p mtb tb (K (sq_idx a)) a b.
  Lemma sqK_sqR a b : sqK a b -> sqR a b.
  Proof. intros H. destruct H. constructor; try done. eapply Forall2_impl; [done|]. auto. Qed.
  Lemma collapse_add_rel pm pm' acc acc' : sqK pm pm' -> Forall2 sqK acc acc' ->
    rres (Forall2 sqK) (collapse_add pm acc) (collapse_add pm' acc').
  Proof.
    intros Hpm Hacc. induction Hacc as [|g g' acc acc' Hg Hacc IH]; cbn [collapse_add]; [constructor; constructor; [done|constructor]|].
    assert (E : same_group pm g = same_group pm' g').
    { unfold same_group. by rewrite (tw_weight _ _ _ _ _ _ Hpm), (tw_weight _ _ _ _ _ _ Hg), (tw_idx _ _ _ _ _ _ Hpm), (tw_idx _ _ _ _ _ _ Hg),
        (tw_mask _ _ _ _ _ _ Hpm), (tw_mask _ _ _ _ _ _ Hg). }
    rewrite <- E. destruct (same_group pm g) eqn:Eg.
    - eapply (rres_bind (K (sq_idx pm))).
      { unfold first_key. pose proof (tw_keys _ _ _ _ _ _ Hpm) as Hk. destruct Hk; by constructor. }
      intros k k' Hk. constructor. constructor; [|done].
      assert (Ei : sq_idx pm = sq_idx g).
      { unfold same_group in Eg. destruct (ord_cmp _ _); try done. lia. }
      rewrite Ei in Hk. destruct Hg. constructor; cbn; try done. apply Forall2_app; [done|]. constructor; [done|constructor].
    - eapply rres_bind; [apply IH|]. intros x y Hxy. constructor. by constructor.
  Qed.
  Lemma stack_and_coalesce_rel ho_ pms pms' o : Forall2 sqK pms pms' ->
    stack_and_coalesce p ho_ mtb tb pms o = stack_and_coalesce p ho_ mtb tb pms' o.
  Proof.
    intros H. apply rres_eq_eq. unfold stack_and_coalesce. eapply (rres_bind (Forall2 sqK)).
    { unfold collapse_phrasematches. eapply rres_foldl; [exact H|constructor|]. intros. by apply collapse_add_rel. }
    intros c c' Hc.
    assert (Ht : treeR (stackable c) (stackable c')).
    { apply stackable_rel. eapply Forall2_impl; [exact Hc|]. apply sqK_sqR. }
    assert (Ef : tree_fuel (stackable c) = tree_fuel (stackable c')).
    { unfold tree_fuel. destruct Ht as [_ [_ E]]. injection E as. congruence. }
    rewrite Ef, (tree_coalesce_rel _ _ _ _ _ Ht). apply rres_eq.
  Qed.
End twins.

(** ** coalesce *)
Section flat.
  Context (p : profile) (mtb : merge_tb) (tb : tiebreak).
  Notation sqR := (sqR p mtb tb).
  Lemma coalesce_single_rel ho_ a b o : sqR a b -> coalesce_single p ho_ mtb tb a o = coalesce_single p ho_ mtb tb b o.
  Proof.
    intros H. unfold coalesce_single, first_key. pose proof (qr_keys _ _ _ _ _ H) as Hk.
    destruct Hk as [|k k' ks ks' [_ Hk] _]; [done|]. cbn [res_bind]. rewrite Hk.
    destruct (streaming_get_matching _ _ _ _ _ _ _); cbn [res_bind]; try done. by rewrite (single_loop_rel p mtb tb _ _ _ _ _ H).
  Qed.
  Lemma zooms_rel l l' a b : Forall2 sqR l l' -> sqR a b -> compatible_zooms l a = compatible_zooms l' b.
  Proof.
    intros Hl Hab. unfold compatible_zooms. f_equal. rewrite (qr_idx _ _ _ _ _ Hab), (zoom_rel _ _ _ _ _ Hab).
    induction Hl as [|x y l l' Hxy Hl IH]; [done|]. cbn [List.filter].
    rewrite (qr_idx _ _ _ _ _ Hxy), (zoom_rel _ _ _ _ _ Hxy).
    destruct (negb _); [|done]. cbn [map]. by rewrite IH, (zoom_rel _ _ _ _ _ Hxy).
  Qed.
  Lemma multi_subquery_rel ho_ l l' o st i a b : Forall2 sqR l l' -> sqR a b ->
    multi_subquery p ho_ mtb tb l o st (i, a) = multi_subquery p ho_ mtb tb l' o st (i, b).
  Proof.
    intros Hl H. destruct st as [s zo]. unfold multi_subquery, first_key.
    rewrite <- (zooms_rel _ _ _ _ Hl H), <- (zoom_rel _ _ _ _ _ H), <- (Forall2_length _ _ _ Hl).
    destruct (if negb _ then _ else _) as [zo'| | |]; cbn [res_bind]; try done.
    pose proof (qr_keys _ _ _ _ _ H) as Hk.
    destruct Hk as [|k k' ks ks' [_ Hk] _]; [done|]. cbn [res_bind]. rewrite Hk.
    destruct (streaming_get_matching _ _ _ _ _ _ _) as [grids| | |]; cbn [res_bind]; try done.
    assert (Eg : forall fi la zs gs s0, res_foldl (multi_grid p fi la zs a zo') s0 gs = res_foldl (multi_grid p fi la zs b zo') s0 gs).
    { intros fi la zs gs. induction gs as [|g gs IH]; intros s0; [done|]. cbn [res_foldl].
      assert (E1 : multi_grid p fi la zs a zo' s0 g = multi_grid p fi la zs b zo' s0 g).
      { unfold multi_grid. by rewrite (entry_rel p mtb tb g a b zo' 0 H), (zoom_rel _ _ _ _ _ H). }
      rewrite E1. clear E1. destruct (multi_grid p fi la zs b zo' s0 g); cbn [res_bind]; auto. }
    by rewrite Eg.
  Qed.
  Lemma coalesce_rel ho_ l l' o : Forall2 sqR l l' -> coalesce p ho_ mtb tb l o = coalesce p ho_ mtb tb l' o.
  Proof.
    intros Hl.
    assert (Hm : coalesce_multi p ho_ mtb tb l o = coalesce_multi p ho_ mtb tb l' o).
    { unfold coalesce_multi.
      assert (Hs : Forall2 sqR (isort stack_leb l) (isort stack_leb l')).
      { apply isort_rel; [|done]. intros a a' b b' Ha Hb. unfold stack_leb.
        by rewrite (zoom_rel _ _ _ _ _ Ha), (zoom_rel _ _ _ _ _ Hb), (qr_idx _ _ _ _ _ Ha), (qr_idx _ _ _ _ _ Hb). }
      revert Hs. generalize (isort stack_leb l) (isort stack_leb l'). intros s s' Hs.
      assert (E : res_foldl (multi_subquery p ho_ mtb tb s o) (MultiState ∅ ∅ [] f_zero, o) (combine (seq 0 (length s)) s) =
                  res_foldl (multi_subquery p ho_ mtb tb s' o) (MultiState ∅ ∅ [] f_zero, o) (combine (seq 0 (length s')) s')).
      { apply rres_eq_eq. eapply rres_foldl; [apply (combine_rel sqR _ _ Hs)|done|].
        intros st st' [i a] [j b] -> [E H]. cbn in E, H. subst j. rewrite (multi_subquery_rel ho_ _ _ o st' i _ _ Hs H). apply rres_eq. }
      by rewrite E. }
    unfold coalesce. destruct Hl as [|a b l l' Hab Hl]; [done|]. destruct Hl as [|a2 b2 l l' Hab2 Hl].
    - by rewrite (coalesce_single_rel ho_ _ _ o Hab).
    - by rewrite Hm.
  Qed.
End flat.
