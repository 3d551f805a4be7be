(** Lemmas on the arena of the stacking tree. *)
From Verif Require Import Prelude Lists F64 Common Store Query Stackable Cmp_proofs Spec_stack.
From Coq Require Import ZifyBool.
Local Open Scope N_scope.

(** ** Counting nodes *)
Lemma filter_length_split {A} (P Q : A -> bool) l :
  length (List.filter P l) =
  (length (List.filter (fun x => P x && Q x) l) + length (List.filter (fun x => P x && negb (Q x)) l))%nat.
Proof.
  induction l as [|x l IH]; [done|]. cbn [List.filter]. destruct (P x), (Q x); cbn [andb negb length]; lia.
Qed.
Lemma filter_filter {A} (P Q : A -> bool) l :
  List.filter P (List.filter Q l) = List.filter (fun x => P x && Q x) l.
Proof.
  induction l as [|x l IH]; [done|]. cbn [List.filter]. destruct (Q x) eqn:E; cbn [List.filter].
  - rewrite andb_true_r. destruct (P x); by rewrite IH.
  - by rewrite andb_false_r.
Qed.
Lemma count_empty P : count P ∅ = 0.
Proof. unfold count. by rewrite map_to_list_empty. Qed.
Lemma count_insert P (m : gmap N node) i n : m !! i = None ->
  count P (<[i := n]> m) = (if P n then 1 else 0) + count P m.
Proof.
  intros H. unfold count. rewrite (Permutation_length (filter_perm _ _ _ (map_to_list_insert m i n H))).
  cbn [List.filter snd]. destruct (P n); cbn [length]; lia.
Qed.
Lemma count_split P Q m : count P m = count (fun n => P n && Q n) m + count (fun n => P n && negb (Q n)) m.
Proof.
  unfold count. rewrite (filter_length_split _ (fun kv : N * node => Q kv.2)). lia.
Qed.
Lemma count_le P Q m : (forall n, P n = true -> Q n = true) -> count P m <= count Q m.
Proof.
  intros H. unfold count. induction (map_to_list m) as [|[i n] l IH]; [done|]. cbn [List.filter snd].
  specialize (H n). destruct (P n), (Q n); cbn [length]; try lia.
Qed.
Lemma count_ext P Q m : (forall n, P n = Q n) -> count P m = count Q m.
Proof. intros H. apply N.le_antisymm; apply count_le; intros n; by rewrite H. Qed.
Lemma count_keep P Q (m m' : gmap N node) :
  (forall i n, m' !! i = Some n <-> m !! i = Some n /\ Q n = false) ->
  count P m' = count (fun n => P n && negb (Q n)) m.
Proof.
  intros H. unfold count. f_equal.
  assert (Hp : map_to_list m' ≡ₚ List.filter (fun kv : N * node => negb (Q kv.2)) (map_to_list m)).
  { apply NoDup_Permutation.
    - apply NoDup_map_to_list.
    - apply NoDup_ListNoDup, List.NoDup_filter, NoDup_ListNoDup, NoDup_map_to_list.
    - intros [i n]. rewrite elem_of_filter, !elem_of_map_to_list, H. cbn [snd]. rewrite negb_true_iff. done. }
  rewrite (Permutation_length (filter_perm _ _ _ Hp)). by rewrite filter_filter.
Qed.
Lemma count_pos P m : 0 < count P m <-> exists i n, m !! i = Some n /\ P n = true.
Proof.
  unfold count. split.
  - intros H. destruct (List.filter _ (map_to_list m)) as [|[i n] l] eqn:E; [cbn in H; lia|].
    assert (Hin : (i, n) ∈ List.filter (fun kv : N * node => P kv.2) (map_to_list m)) by (rewrite E; by left).
    apply elem_of_filter in Hin as [Hin HP]. apply elem_of_map_to_list in Hin. eauto.
  - intros (i & n & Hi & HP).
    assert (Hin : (i, n) ∈ List.filter (fun kv : N * node => P kv.2) (map_to_list m)).
    { apply elem_of_filter. split; [by apply elem_of_map_to_list|done]. }
    destruct (List.filter _ (map_to_list m)); [by apply elem_of_nil in Hin|cbn; lia].
Qed.

(** ** The table of relevances *)
Definition eqr (x y : f64) : bool := match ord_cmp x y with Eq => true | _ => false end.
Lemma eqr_true x y : eqr x y = true <-> ord_cmp x y = Eq.
Proof. unfold eqr. by destruct (ord_cmp x y). Qed.
Lemma eqr_false x y : eqr x y = false <-> ord_cmp x y <> Eq.
Proof. unfold eqr. by destruct (ord_cmp x y). Qed.
Lemma ord_lt_true x y : ord_lt x y = true <-> ord_cmp x y = Lt.
Proof. unfold ord_lt. by destruct (ord_cmp x y). Qed.
Lemma eqr_sym x y : eqr x y = eqr y x.
Proof. unfold eqr. rewrite (tc_anti _ total_cmp_ord x y). by destruct (ord_cmp x y). Qed.
Lemma eqr_l x y z : eqr x y = true -> eqr x z = eqr y z.
Proof. intros H%eqr_true. unfold eqr. by rewrite (tc_eq_l _ total_cmp_ord _ _ z H). Qed.
Lemma eqr_refl x : eqr x x = true.
Proof. apply eqr_true, (tc_refl _ total_cmp_ord). Qed.

Lemma find_cons x b m : relev_find x (b :: m) = if eqr x b.1 then Some b.2 else relev_find x m.
Proof. unfold relev_find. cbn [List.find]. unfold relev_is, eqr. by destruct (ord_cmp x b.1). Qed.
Lemma find_eq x y m : eqr x y = true -> relev_find x m = relev_find y m.
Proof.
  intros H. induction m as [|b m IH]; [done|]. rewrite !find_cons, IH. by rewrite (eqr_l _ _ b.1 H).
Qed.
Lemma find_add x r l i m :
  relev_find x (relev_add r l i m) =
  if eqr x r then Some (match relev_find r m with Some ci => (ci.1 + l, ci.2 ++ [i]) | None => (l, [i]) end)
  else relev_find x m.
Proof.
  induction m as [|b m IH]; cbn [relev_add].
  - rewrite find_cons. cbn [fst snd]. by destruct (eqr x r).
  - change (relev_is r b) with (eqr r b.1). rewrite (find_cons r b m). destruct (eqr r b.1) eqn:Eb.
    + rewrite !find_cons. cbn [fst snd]. rewrite eqr_sym in Eb.
      rewrite (eqr_sym x b.1), (eqr_l _ _ x Eb), (eqr_sym r x). by destruct (eqr x r).
    + rewrite !find_cons, IH. destruct (eqr x r) eqn:Ex; [|done].
      rewrite (eqr_l _ _ b.1 Ex), Eb. done.
Qed.
Lemma find_remove x r m : relev_find x (relev_remove r m) = if eqr x r then None else relev_find x m.
Proof.
  induction m as [|b m IH]; cbn [relev_remove List.filter].
  - cbn. by destruct (eqr x r).
  - change (relev_is r b) with (eqr r b.1). change (List.filter _ m) with (relev_remove r m).
    destruct (eqr r b.1) eqn:Eb; cbn [negb].
    + rewrite IH, find_cons. destruct (eqr x r) eqn:Ex; [done|].
      rewrite eqr_sym in Eb. by rewrite (eqr_sym x b.1), (eqr_l _ _ x Eb), (eqr_sym r x), Ex.
    + rewrite !find_cons, IH. destruct (eqr x r) eqn:Ex; [|done]. by rewrite (eqr_l _ _ b.1 Ex), Eb.
Qed.
Lemma find_in x m ci : relev_find x m = Some ci -> exists b, b ∈ m /\ ord_cmp x b.1 = Eq.
Proof.
  induction m as [|b m IH]; [done|]. rewrite find_cons. destruct (eqr x b.1) eqn:E; intros H.
  - exists b. split; [by left|]. by apply eqr_true.
  - destruct (IH H) as (b' & Hb & He). exists b'. split; [by right|done].
Qed.
Lemma in_find b m : b ∈ m -> is_Some (relev_find b.1 m).
Proof.
  induction m as [|c m IH]; [intros H; by apply elem_of_nil in H|]. intros H. rewrite find_cons.
  destruct (eqr b.1 c.1) eqn:E; [by eexists|]. apply elem_of_cons in H as [->|H]; [by rewrite eqr_refl in E|by apply IH].
Qed.
Lemma relev_min_ok m : m <> [] ->
  is_Some (relev_find (relev_min m) m) /\ forall x, is_Some (relev_find x m) -> ord_cmp (relev_min m) x <> Gt.
Proof.
  intros Hm. destruct m as [|b m]; [done|]. clear Hm. unfold relev_min.
  set (F := fun (acc : f64) (c : f64 * (N * list N)) => match ord_cmp c.1 acc with Lt => c.1 | _ => acc end).
  pose proof total_cmp_ord as HT.
  assert (H : forall l acc, let r := fold_left F l acc in
    (r = acc \/ exists c, c ∈ l /\ r = c.1) /\ ord_cmp r acc <> Gt /\ forall c, c ∈ l -> ord_cmp r c.1 <> Gt).
  { induction l as [|c l IH]; intros acc; cbn zeta.
    - cbn [fold_left]. split; [by left|]. split; [by rewrite (tc_refl _ HT)|]. intros c Hc. by apply elem_of_nil in Hc.
    - cbn [fold_left]. destruct (IH (F acc c)) as (H1 & H2 & H3).
      assert (HF : ord_cmp (F acc c) acc <> Gt /\ ord_cmp (F acc c) c.1 <> Gt /\ (F acc c = acc \/ F acc c = c.1)).
      { unfold F. destruct (ord_cmp c.1 acc) eqn:E.
        - rewrite (tc_refl _ HT). split; [done|]. split; [|by left]. by rewrite (tc_eq_sym _ HT _ _ E).
        - rewrite (tc_refl _ HT), E. split; [done|]. split; [done|by right].
        - rewrite (tc_refl _ HT). split; [done|]. split; [|by left]. apply (tc_gt_lt _ HT) in E. by rewrite E. }
      destruct HF as (F1 & F2 & F3). split; [|split].
      + destruct H1 as [H1|(c' & Hc' & H1)].
        * destruct F3 as [F3|F3]; [left; congruence|]. right. exists c. split; [by left|congruence].
        * right. exists c'. split; [by right|done].
      + by eapply (tc_trans _ HT).
      + intros c' Hc'. apply elem_of_cons in Hc' as [->|Hc']; [by eapply (tc_trans _ HT)|by apply H3]. }
  specialize (H m b.1). cbn zeta in H. destruct H as (H1 & H2 & H3). split.
  - destruct H1 as [->|(c & Hc & ->)]; [apply in_find; by left|apply in_find; by right].
  - intros x [ci Hx]. apply find_in in Hx as (c & Hc & Hxc).
    rewrite (tc_eq_r _ HT _ _ _ Hxc). apply elem_of_cons in Hc as [->|Hc]; [done|by apply H3].
Qed.

(** ** The invariant *)
Definition at_relev (x : f64) (n : node) : bool := eqr x (sn_max_relev n).
Record arena_inv (a : arena) : Prop := {
  ai_bucket : forall x c idxs, relev_find x (am_relev a) = Some (c, idxs) ->
    c = count (fun n => is_leaf n && at_relev x n) (am_nodes a) /\
    (exists i n, am_nodes a !! i = Some n /\ at_relev x n = true) /\
    forall i, i ∈ idxs <-> exists n, am_nodes a !! i = Some n /\ at_relev x n = true;
  ai_node : forall i n, am_nodes a !! i = Some n -> is_Some (relev_find (sn_max_relev n) (am_relev a));
  ai_leaves : am_leaves a = count is_leaf (am_nodes a);
  ai_least : forall i n, am_nodes a !! i = Some n -> ord_cmp (am_min a) (sn_max_relev n) <> Gt;
  ai_min : (am_nodes a = ∅ /\ am_min a = f_max) \/ is_Some (relev_find (am_min a) (am_relev a));
  ai_fresh : forall i, is_Some (am_nodes a !! i) -> i < am_next a;
  ai_panic : am_panicked a = false }.

Lemma arena_inv_new k : arena_inv (arena_of k).
Proof.
  split; cbn [arena_of am_nodes am_relev am_min am_leaves am_next am_panicked]; try done.
  - by left.
  - intros i. rewrite lookup_empty. by intros [? ?].
Qed.

Lemma foldl_delete idxs : forall (m : gmap N node) j c,
  foldl (fun m i => delete i m) m idxs !! j = Some c <-> m !! j = Some c /\ j ∉ idxs.
Proof.
  induction idxs as [|x idxs IH]; intros m j c; cbn [foldl].
  - split; [|by intros [? _]]. intros H. split; [done|]. intros Hx. by apply elem_of_nil in Hx.
  - rewrite IH, lookup_delete_Some, not_elem_of_cons. naive_solver.
Qed.

(** The node is added to the nodes and to the table; the least relevance is not yet looked at. *)
Definition pushed (a : arena) (n : node) : arena :=
  let leaf := if is_leaf n then 1 else 0 in
  Arena (<[am_next a := n]> (am_nodes a)) (relev_add (sn_max_relev n) leaf (am_next a) (am_relev a))
    (am_min a) (am_leaves a + leaf) (am_soft_max a) (am_next a + 1) (am_panicked a).
Lemma pushed_bucket a n : arena_inv a -> forall x c idxs,
  relev_find x (am_relev (pushed a n)) = Some (c, idxs) ->
    c = count (fun n => is_leaf n && at_relev x n) (am_nodes (pushed a n)) /\
    (exists i n', am_nodes (pushed a n) !! i = Some n' /\ at_relev x n' = true) /\
    forall i, i ∈ idxs <-> exists n', am_nodes (pushed a n) !! i = Some n' /\ at_relev x n' = true.
Proof.
  intros Ha x c idxs H. unfold pushed in *. cbn [am_nodes am_relev] in *.
  assert (Hfresh : am_nodes a !! am_next a = None).
  { destruct (am_nodes a !! am_next a) eqn:E; [|done]. pose proof (ai_fresh _ Ha (am_next a) ltac:(eauto)). lia. }
  rewrite find_add in H. rewrite count_insert by done.
  assert (Hnone : forall y, relev_find y (am_relev a) = None ->
    (forall i m, am_nodes a !! i = Some m -> at_relev y m = false)).
  { intros y Hy i m Hm. destruct (at_relev y m) eqn:E; [|done]. exfalso. pose proof (ai_node _ Ha i m Hm) as Hs.
    unfold at_relev in E. rewrite <- (find_eq _ _ _ E), Hy in Hs. by destruct Hs. }
  destruct (eqr x (sn_max_relev n)) eqn:Ex.
  - unfold at_relev at 1. rewrite Ex, andb_true_r.
    rewrite <- (find_eq _ _ _ Ex) in H. destruct (relev_find x (am_relev a)) as [[c0 idxs0]|] eqn:Ef.
    + cbn [fst snd] in H. injection H as <- <-. destruct (ai_bucket _ Ha _ _ _ Ef) as (Hc & _ & Hi). split; [|split].
      * rewrite <- Hc. lia.
      * exists (am_next a), n. by rewrite lookup_insert.
      * intros i. rewrite elem_of_app, elem_of_list_singleton, Hi. split.
        -- intros [(m & Hm & Hq)| ->].
           ++ exists m. rewrite lookup_insert_ne; [done|]. congruence.
           ++ exists n. by rewrite lookup_insert.
        -- intros (m & Hm & Hq). apply lookup_insert_Some in Hm as [[<- <-]|[Hne Hm]]; [by right|]. left. eauto.
    + injection H as <- <-. split; [|split].
      * assert (E0 : count (fun n0 => is_leaf n0 && at_relev x n0) (am_nodes a) = 0).
        { destruct (N.eq_0_gt_0_cases (count (fun n0 => is_leaf n0 && at_relev x n0) (am_nodes a))) as [E|E]; [done|].
          apply count_pos in E as (i & m & Hm & Hp). rewrite (Hnone _ Ef i m Hm), andb_false_r in Hp. done. }
        rewrite E0. lia.
      * exists (am_next a), n. by rewrite lookup_insert.
      * intros i. rewrite elem_of_list_singleton. split.
        -- intros ->. exists n. by rewrite lookup_insert.
        -- intros (m & Hm & Hq). apply lookup_insert_Some in Hm as [[<- <-]|[Hne Hm]]; [done|].
           rewrite (Hnone _ Ef i m Hm) in Hq. done.
  - unfold at_relev at 1. rewrite Ex, andb_false_r, N.add_0_l.
    destruct (ai_bucket _ Ha _ _ _ H) as (Hc & (i0 & n0 & H0 & Hq0) & Hi). split; [done|]. split.
    + exists i0, n0. rewrite lookup_insert_ne; [done|]. congruence.
    + intros i. rewrite Hi. split.
      * intros (m & Hm & Hq). exists m. rewrite lookup_insert_ne; [done|]. congruence.
      * intros (m & Hm & Hq). apply lookup_insert_Some in Hm as [[<- <-]|[Hne Hm]]; [|eauto].
        unfold at_relev in Hq. congruence.
Qed.
Lemma pushed_inv a n r : arena_inv a ->
  ((r = am_min a /\ ord_cmp r (sn_max_relev n) <> Gt /\ (am_nodes a = ∅ -> ord_cmp (sn_max_relev n) f_max <> Gt)) \/
   (r = sn_max_relev n /\ ord_cmp r (am_min a) <> Gt)) ->
  let p := pushed a n in
  arena_inv (Arena (am_nodes p) (am_relev p) r (am_leaves p) (am_soft_max p) (am_next p) (am_panicked p)).
Proof.
  intros Ha Hr p. pose proof total_cmp_ord as HT.
  assert (Hfresh : am_nodes a !! am_next a = None).
  { destruct (am_nodes a !! am_next a) eqn:E; [|done]. pose proof (ai_fresh _ Ha (am_next a) ltac:(eauto)). lia. }
  split; cbn [am_nodes am_relev am_min am_leaves am_next am_panicked].
  - exact (pushed_bucket a n Ha).
  - intros i m Hm. subst p. cbn [pushed am_nodes am_relev] in *. rewrite find_add.
    destruct (eqr (sn_max_relev m) (sn_max_relev n)) eqn:E; [by eexists|].
    apply lookup_insert_Some in Hm as [[<- <-]|[_ Hm]]; [by rewrite eqr_refl in E|]. by apply (ai_node _ Ha i).
  - subst p. cbn [pushed am_nodes am_leaves]. rewrite count_insert by done. rewrite (ai_leaves _ Ha). lia.
  - intros i m Hm. subst p. cbn [pushed am_nodes] in Hm. apply lookup_insert_Some in Hm as [[<- <-]|[_ Hm]].
    + destruct Hr as [(-> & H & _)|(-> & _)]; [done|]. by rewrite (tc_refl _ HT).
    + destruct Hr as [(-> & _)|(-> & H)]; [by apply (ai_least _ Ha i)|].
      eapply (tc_trans _ HT); [exact H|]. by apply (ai_least _ Ha i).
  - right. subst p. cbn [pushed am_relev]. rewrite find_add. destruct (eqr r (sn_max_relev n)) eqn:E; [by eexists|].
    destruct Hr as [(-> & H & Hmax)|(-> & _)]; [|by rewrite eqr_refl in E].
    destruct (ai_min _ Ha) as [[He Em]|Hs]; [|done]. exfalso. specialize (Hmax He). rewrite Em in H, E.
    apply eqr_false in E. destruct (ord_cmp f_max (sn_max_relev n)) eqn:Ec; [done| |done].
    apply (tc_gt_lt _ HT) in Ec. done.
  - intros i Hi. subst p. cbn [pushed am_nodes am_next] in *. apply lookup_insert_is_Some in Hi as [<-|[_ Hi]]; [lia|].
    pose proof (ai_fresh _ Ha i Hi). lia.
  - apply (ai_panic _ Ha).
Qed.

Lemma cull_soft a : am_soft_max (cull_min a) = am_soft_max a.
Proof. unfold cull_min. by destruct (relev_find _ _) as [[c l]|]. Qed.
(** Removing the least bucket, another one being there. *)
Lemma cull_inv a c idxs :
  arena_inv a -> relev_find (am_min a) (am_relev a) = Some (c, idxs) ->
  (exists i n, am_nodes a !! i = Some n /\ ord_cmp (am_min a) (sn_max_relev n) = Lt) ->
  arena_inv (cull_min a) /\ am_leaves (cull_min a) = am_leaves a - c /\
  ord_cmp (am_min a) (am_min (cull_min a)) = Lt /\
  (forall i n, am_nodes (cull_min a) !! i = Some n <-> am_nodes a !! i = Some n /\ at_relev (am_min a) n = false).
Proof.
  intros Ha Hf (i0 & n0 & Hi0 & Hlt0). pose proof total_cmp_ord as HT.
  destruct (ai_bucket _ Ha _ _ _ Hf) as (Hc & _ & Hidx).
  unfold cull_min. rewrite Hf. cbn [am_nodes am_relev am_min am_leaves am_next am_panicked].
  set (nodes' := foldl (fun m i => delete i m) (am_nodes a) idxs).
  assert (Hnodes : forall i n, nodes' !! i = Some n <-> am_nodes a !! i = Some n /\ at_relev (am_min a) n = false).
  { intros i n. unfold nodes'. rewrite foldl_delete, Hidx. split; intros [H1 H2]; (split; [done|]).
    - destruct (at_relev (am_min a) n) eqn:E; [|done]. exfalso. apply H2. eauto.
    - intros (m & Hm & Hq). congruence. }
  set (relev' := relev_remove (am_min a) (am_relev a)).
  assert (Hne : relev' <> []).
  { pose proof (ai_node _ Ha i0 n0 Hi0) as [ci Hs]. assert (Hx : relev_find (sn_max_relev n0) relev' = Some ci).
    { unfold relev'. rewrite find_remove. destruct (eqr (sn_max_relev n0) (am_min a)) eqn:E; [|done].
      apply eqr_true in E. apply (tc_eq_sym _ HT) in E. congruence. }
    intros E. by rewrite E in Hx. }
  destruct (relev_min_ok _ Hne) as [Hmin1 Hmin2].
  assert (Hmin3 : ord_cmp (am_min a) (relev_min relev') = Lt).
  { destruct Hmin1 as [[c1 l1] Hm1]. unfold relev' in Hm1 at 2. rewrite find_remove in Hm1.
    destruct (eqr (relev_min relev') (am_min a)) eqn:E; [done|].
    destruct (ai_bucket _ Ha _ _ _ Hm1) as (_ & (i & n & Hn & Hq) & _). pose proof (ai_least _ Ha i n Hn) as Hle.
    apply eqr_true in Hq. rewrite <- (tc_eq_r _ HT _ _ _ Hq) in Hle. rewrite eqr_sym in E. apply eqr_false in E.
    by destruct (ord_cmp (am_min a) (relev_min relev')). }
  split; [|split; [done|split; [done|exact Hnodes]]].
  split; cbn [am_nodes am_relev am_min am_leaves am_next am_panicked].
  - intros x c' idxs' Hx. unfold relev' in Hx. rewrite find_remove in Hx.
    destruct (eqr x (am_min a)) eqn:E; [done|]. destruct (ai_bucket _ Ha _ _ _ Hx) as (Hc' & (i & n & Hn & Hq) & Hi).
    assert (Hdiff : forall m, at_relev x m = true -> at_relev (am_min a) m = false).
    { intros m Hm. unfold at_relev in *. destruct (eqr (am_min a) (sn_max_relev m)) eqn:E'; [|done]. exfalso.
      rewrite (eqr_l _ _ (am_min a) Hm), eqr_sym in E. congruence. }
    split; [|split].
    + rewrite (count_keep _ _ _ _ Hnodes), Hc'. apply count_ext. intros m. specialize (Hdiff m).
      destruct (at_relev x m); [rewrite Hdiff; [|done]|]; destruct (is_leaf m); done.
    + exists i, n. rewrite Hnodes. split; [|done]. split; [done|]. by apply Hdiff.
    + intros j. rewrite Hi. split; intros (m & Hm & Hqm); exists m; (split; [|done]).
      * rewrite Hnodes. split; [done|]. by apply Hdiff.
      * by apply Hnodes in Hm as [Hm _].
  - intros i n Hn. apply Hnodes in Hn as [Hn Hq]. unfold relev'. rewrite find_remove. unfold at_relev in Hq.
    rewrite eqr_sym, Hq. by apply (ai_node _ Ha i).
  - rewrite (count_keep _ _ _ _ Hnodes), (ai_leaves _ Ha), Hc.
    rewrite (count_split is_leaf (at_relev (am_min a)) (am_nodes a)). lia.
  - intros i n Hn. apply Hmin2. apply Hnodes in Hn as [Hn Hq]. unfold relev'. rewrite find_remove. unfold at_relev in Hq.
    rewrite eqr_sym, Hq. by apply (ai_node _ Ha i).
  - by right.
  - intros i [n Hn]. apply Hnodes in Hn as [Hn _]. apply (ai_fresh _ Ha). eauto.
  - apply (ai_panic _ Ha).
Qed.

(** ** One addition *)
Record add_ok (a : arena) (n : node) (o : option N) (a' : arena) : Prop := {
  ad_inv : arena_inv a';
  ad_soft : am_soft_max a' = am_soft_max a;
  ad_full : is_full a = true -> is_full a' = true /\ ord_cmp (am_min a) (am_min a') <> Gt;
  ad_none : o = None -> a' = a /\ is_full a = true /\ ord_cmp (sn_max_relev n) (am_min a) = Lt;
  ad_some : forall i, o = Some i -> i = am_next a /\ am_nodes a' !! i = Some n;
  ad_old : forall i m, am_nodes a !! i = Some m -> am_nodes a' !! i = Some m \/
    (is_full a' = true /\ ord_cmp (sn_max_relev m) (am_min a') = Lt);
  ad_new : forall i m, am_nodes a' !! i = Some m -> am_nodes a !! i = Some m \/ (o = Some i /\ m = n) }.

Lemma arena_add_unfold a n :
  arena_add a n =
  if is_full a && ord_lt (sn_max_relev n) (am_min a) then (None, a) else
  let p := pushed a n in
  (Some (am_next a),
   if is_full a then
     if ord_lt (am_min a) (sn_max_relev n) then
       match relev_find (am_min a) (am_relev p) with
       | None => Arena (am_nodes p) (am_relev p) (am_min p) (am_leaves p) (am_soft_max p) (am_next p) true
       | Some (c, _) => if am_soft_max a <=? am_leaves p - c then cull_min p else p
       end
     else p
   else if ord_lt (sn_max_relev n) (am_min a)
     then Arena (am_nodes p) (am_relev p) (sn_max_relev n) (am_leaves p) (am_soft_max p) (am_next p) (am_panicked p)
     else p).
Proof.
  unfold arena_add, is_full. destruct (am_soft_max a <=? am_leaves a) eqn:E, (ord_lt (sn_max_relev n) (am_min a)) eqn:E1;
    cbn [andb]; try done;
    (destruct (am_leaves a <? am_soft_max a) eqn:E2; [try (exfalso; lia)|try (exfalso; lia)]); try done.
  destruct (ord_lt (am_min a) (sn_max_relev n)); [|done]. cbn zeta. unfold pushed. cbn [am_relev am_leaves am_nodes am_min am_soft_max am_next].
  by destruct (relev_find _ _) as [[c l]|].
Qed.

Lemma pushed_eta p : p = Arena (am_nodes p) (am_relev p) (am_min p) (am_leaves p) (am_soft_max p) (am_next p) (am_panicked p).
Proof. by destruct p. Qed.

Lemma arena_add_ok a n o a' :
  arena_inv a -> ord_cmp (sn_max_relev n) f_max <> Gt -> arena_add a n = (o, a') -> add_ok a n o a'.
Proof.
  intros Ha Hmax. pose proof total_cmp_ord as HT. rewrite arena_add_unfold.
  assert (Hfresh : am_nodes a !! am_next a = None).
  { destruct (am_nodes a !! am_next a) eqn:E; [|done]. pose proof (ai_fresh _ Ha (am_next a) ltac:(eauto)). lia. }
  assert (Hold : forall i m, am_nodes a !! i = Some m -> am_nodes (pushed a n) !! i = Some m).
  { intros i m Hm. cbn [pushed am_nodes]. rewrite lookup_insert_ne; [done|]. congruence. }
  assert (Hnew : forall i m, am_nodes (pushed a n) !! i = Some m -> am_nodes a !! i = Some m \/ (i = am_next a /\ m = n)).
  { intros i m Hm. cbn [pushed am_nodes] in Hm. apply lookup_insert_Some in Hm as [[<- <-]|[_ Hm]]; [by right|by left]. }
  assert (Hat : am_nodes (pushed a n) !! am_next a = Some n) by (cbn [pushed am_nodes]; apply lookup_insert).
  assert (Hle : is_full a = true -> is_full (pushed a n) = true).
  { unfold is_full. cbn [pushed am_soft_max am_leaves]. generalize (if is_leaf n then 1 else 0). intros. lia. }
  destruct (is_full a) eqn:Ef; cbn [andb].
  - destruct (ord_lt (sn_max_relev n) (am_min a)) eqn:E1.
    { intros [= <- <-]. split; try done.
      - intros _. split; [done|]. by rewrite (tc_refl _ HT).
      - intros _. split; [done|]. split; [done|]. by apply ord_lt_true in E1 as ->.
      - intros i m Hm. by left.
      - intros i m Hm. by left. }
    assert (Hge : ord_cmp (am_min a) (sn_max_relev n) <> Gt).
    { intros E. apply (tc_gt_lt _ HT) in E. unfold ord_lt in E1. by rewrite E in E1. }
    assert (Hinv : arena_inv (pushed a n)).
    { rewrite (pushed_eta (pushed a n)). apply pushed_inv; [done|]. left. done. }
    cbn zeta. destruct (ord_lt (am_min a) (sn_max_relev n)) eqn:E2.
    2:{ intros [= <- <-]. split; try done.
        - intros _. split; [by apply Hle|]. by rewrite (tc_refl _ HT).
        - intros i [= <-]. done.
        - intros i m Hm. left. by apply Hold.
        - intros i m Hm. destruct (Hnew i m Hm) as [?|[-> ->]]; [by left|by right]. }
    assert (Hlt : ord_cmp (am_min a) (sn_max_relev n) = Lt) by (by apply ord_lt_true).
    assert (Hb : is_Some (relev_find (am_min a) (am_relev (pushed a n)))).
    { destruct (ai_min _ Hinv) as [[He _]|Hs]; [|done]. rewrite He, lookup_empty in Hat. done. }
    destruct Hb as [[c idxs] Hb]. rewrite Hb. destruct (am_soft_max a <=? am_leaves (pushed a n) - c) eqn:E3.
    2:{ intros [= <- <-]. split; try done.
        - intros _. split; [by apply Hle|]. by rewrite (tc_refl _ HT).
        - intros i [= <-]. done.
        - intros i m Hm. left. by apply Hold.
        - intros i m Hm. destruct (Hnew i m Hm) as [?|[-> ->]]; [by left|by right]. }
    destruct (cull_inv _ _ _ Hinv Hb) as (C1 & C2 & C3 & C4).
    { exists (am_next a), n. done. }
    intros [= <- <-].
    assert (Hfull : is_full (cull_min (pushed a n)) = true).
    { unfold is_full. rewrite C2, cull_soft. exact E3. }
    split; try done.
    + by rewrite cull_soft.
    + intros _. split; [done|]. change (am_min (pushed a n)) with (am_min a) in C3. by rewrite C3.
    + intros i [= <-]. split; [done|]. apply C4. split; [done|]. apply eqr_false.
      change (am_min (pushed a n)) with (am_min a). by rewrite Hlt.
    + intros i m Hm. destruct (at_relev (am_min a) m) eqn:Eq.
      * right. split; [done|]. apply eqr_true in Eq. rewrite <- (tc_eq_l _ HT _ _ _ Eq). exact C3.
      * left. apply C4. split; [by apply Hold|done].
    + intros i m Hm. apply C4 in Hm as [Hm _]. destruct (Hnew i m Hm) as [?|[-> ->]]; [by left|by right].
  - cbn zeta. intros [= <- <-].
    set (a' := if ord_lt (sn_max_relev n) (am_min a) then _ else _).
    assert (En : am_nodes a' = am_nodes (pushed a n)) by (unfold a'; by destruct (ord_lt _ _)).
    assert (Hinv : arena_inv a').
    { unfold a'. destruct (ord_lt (sn_max_relev n) (am_min a)) eqn:E1.
      - apply pushed_inv; [done|]. right. split; [done|]. by apply ord_lt_true in E1 as ->.
      - rewrite (pushed_eta (pushed a n)). apply pushed_inv; [done|]. left. split; [done|]. split; [|done].
        intros E. apply (tc_gt_lt _ HT) in E. unfold ord_lt in E1. change (am_min (pushed a n)) with (am_min a) in E. by rewrite E in E1. }
    split; try done.
    + unfold a'. by destruct (ord_lt _ _).
    + intros Hx. exfalso. congruence.
    + intros i [= <-]. rewrite En. done.
    + intros i m Hm. left. rewrite En. by apply Hold.
    + intros i m Hm. rewrite En in Hm. destruct (Hnew i m Hm) as [?|[-> ->]]; [by left|by right].
Qed.

(** ** The bound *)
Definition above (a : arena) (n : node) : bool := is_leaf n && ord_lt (am_min a) (sn_max_relev n).
Definition lively (a : arena) : Prop :=
  count (above a) (am_nodes a) < am_soft_max a /\
  forall i n, am_nodes a !! i = Some n -> exists j m, am_nodes a !! j = Some m /\ is_leaf m = true /\
    ord_cmp (sn_max_relev n) (sn_max_relev m) = Eq.
Lemma count_above a : arena_inv a ->
  am_leaves a = count (fun n => is_leaf n && at_relev (am_min a) n) (am_nodes a) + count (above a) (am_nodes a).
Proof.
  intros Ha. rewrite (ai_leaves _ Ha), (count_split is_leaf (at_relev (am_min a))). f_equal.
  assert (H : forall l : list (N * node), (forall i n, (i, n) ∈ l -> ord_cmp (am_min a) (sn_max_relev n) <> Gt) ->
    List.filter (fun kv : N * node => is_leaf kv.2 && negb (at_relev (am_min a) kv.2)) l =
    List.filter (fun kv : N * node => above a kv.2) l).
  { induction l as [|[i n] l IH]; intros Hl; [done|]. cbn [List.filter snd]. rewrite IH; [|intros j m Hj; apply (Hl j); by right].
    specialize (Hl i n ltac:(by left)). unfold above, at_relev, eqr, ord_lt.
    by destruct (is_leaf n), (ord_cmp (am_min a) (sn_max_relev n)). }
  unfold count. rewrite H; [done|]. intros i n Hin. apply elem_of_map_to_list in Hin. by apply (ai_least _ Ha i).
Qed.
Lemma arena_add_lively a n o a' :
  arena_inv a -> 0 < am_soft_max a -> lively a -> ord_cmp (sn_max_relev n) f_max <> Gt -> arena_add a n = (o, a') ->
  (is_leaf n = true \/ exists j m, am_nodes a !! j = Some m /\ is_leaf m = true /\
    ord_cmp (sn_max_relev n) (sn_max_relev m) = Eq) \/ o = None ->
  lively a'.
Proof.
  intros Ha Hpos [Hb Hl] Hmax H Hn. pose proof total_cmp_ord as HT.
  pose proof (arena_add_ok a n o a' Ha Hmax H) as [Hinv Hsoft Hfull Hnone Hsome Hold Hnew].
  destruct o as [i|].
  2:{ destruct (Hnone eq_refl) as [-> _]. done. }
  destruct Hn as [Hn|?]; [|done]. destruct (Hsome i eq_refl) as [-> Hi].
  (* every relevance still has a leaf *)
  assert (Hleaf : forall j m, am_nodes a' !! j = Some m -> exists k q, am_nodes a' !! k = Some q /\ is_leaf q = true /\
    ord_cmp (sn_max_relev m) (sn_max_relev q) = Eq).
  { intros j m Hj.
    assert (Hstay : forall k q, am_nodes a !! k = Some q -> ord_cmp (sn_max_relev m) (sn_max_relev q) = Eq ->
      am_nodes a' !! k = Some q).
    { intros k q Hk He. destruct (Hold k q Hk) as [?|[_ Hlt]]; [done|]. exfalso.
      rewrite <- (tc_eq_l _ HT _ _ _ He) in Hlt. pose proof (ai_least _ Hinv j m Hj) as Hge.
      apply (tc_gt_lt _ HT) in Hlt. done. }
    destruct (Hnew j m Hj) as [Hm|[_ ->]].
    - destruct (Hl j m Hm) as (k & q & Hk & Hq & He). exists k, q. split; [by apply Hstay|done].
    - destruct Hn as [Hn|(k & q & Hk & Hq & He)].
      + exists (am_next a), n. split; [done|]. split; [done|]. apply (tc_refl _ HT).
      + exists k, q. split; [by apply Hstay|done]. }
  split; [|exact Hleaf].
  assert (Hmin : 0 < count (fun n => is_leaf n && at_relev (am_min a') n) (am_nodes a')).
  { destruct (ai_min _ Hinv) as [[He _]|[[c idxs] Hs]]; [rewrite He, lookup_empty in Hi; done|].
    destruct (ai_bucket _ Hinv _ _ _ Hs) as (_ & (j & m & Hj & Hq) & _).
    destruct (Hleaf j m Hj) as (k & q & Hk & Hqq & He). apply count_pos. exists k, q. split; [done|]. rewrite Hqq. cbn [andb].
    unfold at_relev in *. rewrite eqr_sym. apply eqr_true in He. rewrite (eqr_sym (sn_max_relev q)).
    rewrite eqr_sym in Hq. rewrite (eqr_l _ _ (sn_max_relev q) ltac:(rewrite eqr_sym; exact Hq)). exact He. }
  pose proof (count_above _ Ha) as E0. pose proof (count_above _ Hinv) as E1. rewrite Hsoft.
  rewrite arena_add_unfold in H. destruct (is_full a) eqn:Ef; cbn [andb] in H.
  2:{ assert (El : am_leaves a' = am_leaves a + if is_leaf n then 1 else 0).
      { cbn zeta in H. destruct (ord_lt (sn_max_relev n) (am_min a)); injection H as <-; done. }
      unfold is_full in Ef. assert ((if is_leaf n then 1 else 0) <= 1) by (destruct (is_leaf n); lia).
      generalize dependent (if is_leaf n then 1 else 0). intros. lia. }
  destruct (ord_lt (sn_max_relev n) (am_min a)) eqn:E1'; [done|]. cbn zeta in H.
  assert (Hfresh : am_nodes a !! am_next a = None).
  { destruct (am_nodes a !! am_next a) eqn:E; [|done]. pose proof (ai_fresh _ Ha (am_next a) ltac:(eauto)). lia. }
  assert (Eab : count (above a) (am_nodes (pushed a n)) = (if above a n then 1 else 0) + count (above a) (am_nodes a)).
  { cbn [pushed am_nodes]. by apply count_insert. }
  destruct (ord_lt (am_min a) (sn_max_relev n)) eqn:E2.
  2:{ injection H as <-. unfold above in Eab at 2. rewrite E2, andb_false_r, N.add_0_l in Eab.
      change (above (pushed a n)) with (above a). rewrite Eab. exact Hb. }
  assert (Hinvp : arena_inv (pushed a n)).
  { rewrite (pushed_eta (pushed a n)). apply pushed_inv; [done|]. left. split; [done|]. split; [|done].
    change (am_min (pushed a n)) with (am_min a). intros E. unfold ord_lt in E2. by rewrite E in E2. }
  destruct (relev_find (am_min a) (am_relev (pushed a n))) as [[c idxs]|] eqn:Eb.
  2:{ exfalso. pose proof (ai_panic _ Hinv) as Hp. injection H as <-. done. }
  pose proof (count_above _ Hinvp) as Ep. destruct (ai_bucket _ Hinvp _ _ _ Eb) as (Ec & _).
  change (am_min (pushed a n)) with (am_min a) in Ep. rewrite <- Ec in Ep. change (above (pushed a n)) with (above a) in Ep.
  assert (Hab : (if above a n then 1 else 0) <= 1) by (destruct (above a n); lia).
  destruct (am_soft_max a <=? am_leaves (pushed a n) - c) eqn:E3.
  - destruct (cull_inv _ _ _ Hinvp Eb) as (_ & C2 & _).
    { exists (am_next a), n. split; [cbn [pushed am_nodes]; apply lookup_insert|].
      change (am_min (pushed a n)) with (am_min a). by apply ord_lt_true in E2 as ->. }
    injection H as <-. generalize dependent (if above a n then 1 else 0). intros. lia.
  - injection H as <-. change (above (pushed a n)) with (above a). generalize dependent (if above a n then 1 else 0). intros. lia.
Qed.
Lemma lively_new k : 0 < k -> lively (arena_of k).
Proof. intros H. split; [cbn [arena_of am_nodes am_soft_max]; by rewrite count_empty|]. intros i n Hn. cbn in Hn. by rewrite lookup_empty in Hn. Qed.
