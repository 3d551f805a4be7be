(** Comparison functions that are total preorders, and the heap contract. *)
From Verif Require Import Prelude Lists F64 Heap Common Store.
From Coq Require Import Sorting.Sorted.
From Coq Require Import ZifyBool.

Record total_cmp {A} (cmp : A -> A -> comparison) : Prop := {
  tc_anti : forall a b, cmp b a = CompOpp (cmp a b);
  tc_trans : forall a b c, cmp a b <> Gt -> cmp b c <> Gt -> cmp a c <> Gt }.

Section total.
  Context {A : Type} (cmp : A -> A -> comparison) (H : total_cmp cmp).
  Lemma tc_refl a : cmp a a = Eq.
  Proof. pose proof (tc_anti _ H a a) as E. destruct (cmp a a); done. Qed.
  Lemma tc_eq_sym a b : cmp a b = Eq -> cmp b a = Eq.
  Proof. intros E. rewrite (tc_anti _ H a b), E. done. Qed.
  Lemma tc_gt_lt a b : cmp a b = Gt <-> cmp b a = Lt.
  Proof. rewrite (tc_anti _ H a b). destruct (cmp a b); done. Qed.
  Lemma tc_total a b : cmp a b <> Gt \/ cmp b a <> Gt.
  Proof. rewrite (tc_anti _ H a b). destruct (cmp a b); simpl; [left|left|right]; done. Qed.
  Lemma tc_eq_trans a b c : cmp a b = Eq -> cmp b c = Eq -> cmp a c = Eq.
  Proof.
    intros H1 H2. pose proof (tc_trans _ H a b c) as T1. pose proof (tc_trans _ H c b a) as T2.
    rewrite H1, H2 in T1. rewrite (tc_eq_sym _ _ H1), (tc_eq_sym _ _ H2) in T2.
    rewrite (tc_anti _ H a c) in T2. destruct (cmp a c); simpl in *; [done| |].
    - exfalso. by apply T2.
    - exfalso. by apply T1.
  Qed.
  Lemma tc_eq_l a b c : cmp a b = Eq -> cmp a c = cmp b c.
  Proof.
    intros E. pose proof (tc_eq_sym _ _ E) as E'.
    destruct (cmp a c) eqn:E1, (cmp b c) eqn:E2; try done; exfalso.
    - rewrite (tc_eq_trans b a c E' E1) in E2. done.
    - rewrite (tc_eq_trans b a c E' E1) in E2. done.
    - rewrite (tc_eq_trans a b c E E2) in E1. done.
    - apply (tc_trans _ H b a c); rewrite ?E', ?E1; done.
    - rewrite (tc_eq_trans a b c E E2) in E1. done.
    - apply (tc_trans _ H a b c); rewrite ?E, ?E2; done.
  Qed.
  Lemma tc_eq_r a b c : cmp a b = Eq -> cmp c a = cmp c b.
  Proof. intros E. rewrite (tc_anti _ H a c), (tc_anti _ H b c). by rewrite (tc_eq_l a b c E). Qed.
  Lemma tc_lt_le_trans a b c : cmp a b = Lt -> cmp b c <> Gt -> cmp a c = Lt.
  Proof.
    intros H1 H2. pose proof (tc_trans _ H a b c ltac:(by rewrite H1) H2) as H3.
    destruct (cmp a c) eqn:E; [|done|done]. exfalso.
    pose proof (tc_eq_l a c b E) as E'. rewrite H1 in E'. symmetry in E'.
    apply tc_gt_lt in E'. done.
  Qed.
End total.

Lemma total_cmp_proj {A B} (f : A -> B) cmp : total_cmp cmp -> total_cmp (fun a b => cmp (f a) (f b)).
Proof. intros [H1 H2]. split; intros; [apply H1|eapply H2; eauto]. Qed.
Lemma total_cmp_flip {A} (cmp : A -> A -> comparison) : total_cmp cmp -> total_cmp (fun a b => cmp b a).
Proof. intros [H1 H2]. split; intros; [apply H1|eapply H2; eauto]. Qed.
Lemma total_cmp_then {A} (c1 c2 : A -> A -> comparison) :
  total_cmp c1 -> total_cmp c2 -> total_cmp (fun a b => c1 a b <;> c2 a b).
Proof.
  intros H1 H2. split.
  - intros a b. rewrite (tc_anti _ H1 a b), (tc_anti _ H2 a b). by destruct (c1 a b).
  - intros a b c Hab Hbc. unfold cmp_then in *.
    destruct (c1 a b) eqn:E1; [| |done].
    + rewrite (tc_eq_l c1 H1 a b c E1). destruct (c1 b c); [|done|done].
      eapply tc_trans; eauto.
    + assert (Hle : c1 b c <> Gt) by (destruct (c1 b c); done).
      rewrite (tc_lt_le_trans c1 H1 a b c E1 Hle). done.
Qed.
Lemma total_cmp_N : total_cmp N.compare.
Proof.
  split; [intros; apply N.compare_antisym|]. intros a b c Hab Hbc.
  change (a <= c). change (a <= b) in Hab. change (b <= c) in Hbc. lia.
Qed.
Lemma total_cmp_Z : total_cmp Z.compare.
Proof.
  split; [intros; apply Z.compare_antisym|]. intros a b c Hab Hbc.
  change (a <= c)%Z. change (a <= b)%Z in Hab. change (b <= c)%Z in Hbc. lia.
Qed.
Lemma total_cmp_bool : total_cmp cmp_bool.
Proof. split; [intros [] []; done|intros [] [] []; simpl; done]. Qed.

(** ** OrderedFloat *)
Definition f_key (a : f64) : Z * Z * Z :=
  match a with
  | S754_zero _ => (0, 0, 0)
  | S754_infinity false => (2, 0, 0)
  | S754_infinity true => (-2, 0, 0)
  | S754_nan => (3, 0, 0)
  | S754_finite false m e => (1, e, Zpos m)
  | S754_finite true m e => (-1, - e, Zneg m)
  end%Z.
Definition key3_cmp (a b : Z * Z * Z) : comparison :=
  (Z.compare a.1.1 b.1.1) <;> (Z.compare a.1.2 b.1.2) <;> (Z.compare a.2 b.2).
Lemma total_cmp_key3 : total_cmp key3_cmp.
Proof.
  apply total_cmp_then; [apply (total_cmp_proj (fun a : Z * Z * Z => a.1.1)), total_cmp_Z|].
  apply total_cmp_then; [apply (total_cmp_proj (fun a : Z * Z * Z => a.1.2)), total_cmp_Z|].
  apply (total_cmp_proj (fun a : Z * Z * Z => a.2)), total_cmp_Z.
Qed.
Lemma ord_cmp_key a b : ord_cmp a b = key3_cmp (f_key a) (f_key b).
Proof.
  unfold ord_cmp, key3_cmp, cmp_then.
  destruct a as [sa|sa| |sa ma ea], b as [sb|sb| |sb mb eb];
    repeat match goal with s : bool |- _ => destruct s end; try reflexivity.
  - cbn [SFcompare f_key fst snd Z.compare]. rewrite Z.compare_opp.
    rewrite (Z.compare_antisym ea eb).
    cbn [Z.compare]. destruct (ea ?= eb)%Z; cbn [CompOpp]; try done.
  - cbn [SFcompare f_key fst snd Z.compare]. destruct (ea ?= eb)%Z; done.
Qed.
Lemma total_cmp_ord : total_cmp ord_cmp.
Proof.
  pose proof (total_cmp_proj f_key _ total_cmp_key3) as [H1 H2].
  split; intros; rewrite !ord_cmp_key in *; [apply H1|eapply H2; eauto].
Qed.
Lemma SFcompare_ord a b :
  f_is_nan a = false -> f_is_nan b = false -> SFcompare a b = Some (ord_cmp a b).
Proof.
  intros Ha Hb. unfold ord_cmp. destruct (SFcompare a b) as [c|] eqn:E; [done|].
  destruct a as [sa|sa| |sa ma ea], b as [sb|sb| |sb mb eb]; try done; simpl in E;
    repeat match goal with s : bool |- _ => destruct s end; try done;
    destruct (ea ?= eb)%Z; done.
Qed.

(** ** The store's and coalesce's orders *)
Lemma total_cmp_match : total_cmp match_cmp.
Proof.
  unfold match_cmp.
  apply total_cmp_then; [apply (total_cmp_proj (fun a => ge_relev (me_entry a))), total_cmp_ord|].
  apply total_cmp_then; [apply (total_cmp_proj me_scoredist), total_cmp_ord|].
  apply total_cmp_then; [apply (total_cmp_proj me_lang), total_cmp_bool|].
  apply total_cmp_then; [apply (total_cmp_proj (fun a => ge_x (me_entry a))), total_cmp_N|].
  apply total_cmp_then; [apply (total_cmp_proj (fun a => ge_y (me_entry a))), total_cmp_N|].
  apply (total_cmp_proj (fun a => ge_id (me_entry a))), total_cmp_N.
Qed.
Lemma total_cmp_queue : total_cmp queue_cmp.
Proof. apply (total_cmp_proj fst), total_cmp_match. Qed.

(** ** Greatest and least elements *)
Lemma delete_insert_list {A} (l : list A) i a : delete i (<[i:=a]> l) = delete i l.
Proof. revert i. induction l as [|b l IH]; intros [|i]; simpl; [done|done|done|]. by rewrite IH. Qed.
Section heap.
  Context {A : Type} (cmp : A -> A -> comparison) (H : total_cmp cmp).

  Lemma max_exists l : l <> [] -> exists i a, l !! i = Some a /\ Forall (fun b => cmp b a <> Gt) l.
  Proof.
    induction l as [|a l IH]; [done|]. intros _. destruct l as [|b l].
    - exists O, a. split; [done|]. constructor; [|constructor]. by rewrite (tc_refl cmp H).
    - destruct IH as (i & m & Hi & Hm); [done|].
      destruct (cmp a m) eqn:E.
      + exists (S i), m. split; [done|]. constructor; [by rewrite E|done].
      + exists (S i), m. split; [done|]. constructor; [by rewrite E|done].
      + exists O, a. split; [done|]. constructor; [by rewrite (tc_refl cmp H)|].
        eapply Forall_impl; [exact Hm|]. intros x Hx. eapply (tc_trans _ H); [exact Hx|].
        apply (tc_gt_lt cmp H) in E. by rewrite E.
  Qed.
  Lemma not_gt_true a b : not_gt cmp a b = true <-> cmp a b <> Gt.
  Proof. unfold not_gt. by destruct (cmp a b). Qed.

  Lemma all_in_forallb {B} (f : B -> bool) l : all_in f l = forallb f l.
  Proof. induction l as [|b l IH]; [done|]. cbn. by destruct (f b). Qed.

  Lemma elem_max_idxs l i :
    i ∈ max_idxs cmp l <-> exists a, l !! i = Some a /\ Forall (fun b => cmp b a <> Gt) l.
  Proof.
    unfold max_idxs. rewrite elem_of_filter. split.
    - intros [Hi Hf]. destruct (l !! i) as [a|]; [|done]. exists a. split; [done|].
      apply Forall_forall. rewrite all_in_forallb, List.forallb_forall in Hf. intros x Hx.
      apply elem_of_list_In, Hf in Hx. by apply not_gt_true.
    - intros (a & Ha & Hf). split.
      + apply elem_of_seq. apply lookup_lt_Some in Ha. lia.
      + rewrite Ha, all_in_forallb. apply List.forallb_forall. intros x Hx. apply not_gt_true.
        rewrite Forall_forall in Hf. apply Hf. by apply elem_of_list_In.
  Qed.
  Lemma elem_min_idxs l i :
    i ∈ min_idxs cmp l <-> exists a, l !! i = Some a /\ Forall (fun b => cmp a b <> Gt) l.
  Proof.
    unfold min_idxs. rewrite elem_of_filter. split.
    - intros [Hi Hf]. destruct (l !! i) as [a|]; [|done]. exists a. split; [done|].
      apply Forall_forall. rewrite all_in_forallb, List.forallb_forall in Hf. intros x Hx.
      apply elem_of_list_In, Hf in Hx. by apply not_gt_true.
    - intros (a & Ha & Hf). split.
      + apply elem_of_seq. apply lookup_lt_Some in Ha. lia.
      + rewrite Ha, all_in_forallb. apply List.forallb_forall. intros x Hx. apply not_gt_true.
        rewrite Forall_forall in Hf. apply Hf. by apply elem_of_list_In.
  Qed.
  Lemma pick_elem tb log cands i : pick (A:=A) tb log cands = Some i -> i ∈ cands.
  Proof. unfold pick. apply elem_of_list_lookup_2. Qed.
  Lemma pick_some tb log cands : cands <> [] -> exists i, pick (A:=A) tb log cands = Some i.
  Proof.
    intros Hc. unfold pick. apply lookup_lt_is_Some_2. apply Nat.mod_upper_bound.
    by destruct cands.
  Qed.

  Lemma hp_max_idx_ok tb h i :
    hp_max_idx cmp tb h = Some i ->
    exists a, hp_items h !! i = Some a /\ Forall (fun b => cmp b a <> Gt) (hp_items h).
  Proof. intros E. apply pick_elem in E. by apply elem_max_idxs. Qed.
  Lemma hp_min_idx_ok tb h i :
    hp_min_idx cmp tb h = Some i ->
    exists a, hp_items h !! i = Some a /\ Forall (fun b => cmp a b <> Gt) (hp_items h).
  Proof. intros E. apply pick_elem in E. by apply elem_min_idxs. Qed.
  Lemma hp_max_idx_some tb h : hp_items h <> [] -> exists i, hp_max_idx cmp tb h = Some i.
  Proof.
    intros Hne. apply pick_some. destruct (max_exists _ Hne) as (i & a & Hi & Ha).
    intros E. assert (Hin : i ∈ max_idxs cmp (hp_items h)) by (apply elem_max_idxs; eauto).
    rewrite E in Hin. by apply elem_of_nil in Hin.
  Qed.
End heap.
Section heap_min.
  Context {A : Type} (cmp : A -> A -> comparison) (H : total_cmp cmp).
  Lemma min_exists l : l <> [] -> exists i a, l !! i = Some a /\ Forall (fun b => cmp a b <> Gt) l.
  Proof.
    intros Hl. destruct (max_exists (fun a b => cmp b a) (total_cmp_flip _ H) l Hl) as (i & a & Hi & Ha).
    eauto.
  Qed.
  Lemma hp_min_idx_some tb h : hp_items h <> [] -> exists i, hp_min_idx cmp tb h = Some i.
  Proof.
    intros Hne. apply pick_some. destruct (min_exists _ Hne) as (i & a & Hi & Ha).
    intros E. assert (Hin : i ∈ min_idxs cmp (hp_items h)) by (apply elem_min_idxs; eauto).
    rewrite E in Hin. by apply elem_of_nil in Hin.
  Qed.
  Lemma hp_peek_min_ok tb h m :
    hp_peek_min cmp tb h = Some m ->
    m ∈ hp_items h /\ Forall (fun b => cmp m b <> Gt) (hp_items h).
  Proof.
    unfold hp_peek_min. destruct (hp_min_idx cmp tb h) as [i|] eqn:E; [|done]. intros Hm.
    destruct (hp_min_idx_ok cmp tb h i E) as (a & Ha & Hf). rewrite Hm in Ha. injection Ha as <-.
    split; [by eapply elem_of_list_lookup_2|done].
  Qed.
  Lemma hp_peek_min_some tb h : hp_items h <> [] -> exists m, hp_peek_min cmp tb h = Some m.
  Proof.
    intros Hne. destruct (hp_min_idx_some tb h Hne) as [i Hi]. unfold hp_peek_min. rewrite Hi.
    destruct (hp_min_idx_ok cmp tb h i Hi) as (a & Ha & _). eauto.
  Qed.
  Lemma hp_replace_min_ok tb h a :
    hp_items h <> [] ->
    exists m rest, hp_items h ≡ₚ m :: rest /\ hp_items (hp_replace_min cmp tb h a) ≡ₚ a :: rest /\
      Forall (fun b => cmp m b <> Gt) (hp_items h) /\
      hp_peek_min cmp tb h = Some m.
  Proof.
    intros Hne. destruct (hp_min_idx_some tb h Hne) as [i Hi]. unfold hp_replace_min. rewrite Hi.
    unfold hp_peek_min. rewrite Hi.
    destruct (hp_min_idx_ok cmp tb h i Hi) as (m & Hm & Hf).
    exists m, (delete i (hp_items h)). split; [by apply delete_Permutation|]. split; [|done].
    cbn [hp_replace hp_items].
    assert (Hl : <[i:=a]> (hp_items h) !! i = Some a) by (apply list_lookup_insert; by eapply lookup_lt_Some).
    rewrite (delete_Permutation _ _ _ Hl). by rewrite delete_insert_list.
  Qed.
End heap_min.
