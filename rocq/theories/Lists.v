(** General facts about the list operations of [Prelude]. *)
From Verif Require Import Prelude.
From Coq Require Export Sorting.Sorted ZifyBool.

(** ** [res] *)
Lemma bind_Ok {A B} (m : res A) (f : A -> res B) b :
  res_bind m f = Ok b <-> exists a, m = Ok a /\ f a = Ok b.
Proof.
  destruct m; simpl; split; try discriminate; eauto.
  - intros (a' & [= ->] & ?). done.
  - intros (? & ? & ?). discriminate.
  - intros (? & ? & ?). discriminate.
  - intros (? & ? & ?). discriminate.
Qed.

Lemma res_mapM_Ok {A B} (f : A -> res B) l bs :
  res_mapM f l = Ok bs <-> Forall2 (fun a b => f a = Ok b) l bs.
Proof.
  revert bs. induction l as [|a l IH]; intros bs; simpl.
  - split; [intros [= <-]; constructor | intros H; inversion H; done].
  - rewrite bind_Ok. split.
    + intros (b & Hb & H). apply bind_Ok in H as (bs' & Hbs & [= <-]).
      constructor; [done|]. by apply IH.
    + intros H. inversion H as [|? b ? bs' Hb Hbs]; subst.
      exists b. split; [done|]. apply bind_Ok. exists bs'. split; [by apply IH|done].
Qed.

Lemma res_mapM_ext {A B} (f g : A -> res B) l :
  (forall a, a ∈ l -> f a = g a) -> res_mapM f l = res_mapM g l.
Proof.
  induction l as [|a l IH]; intros H; simpl; [done|].
  rewrite H by left. rewrite IH; [done|]. intros; apply H; by right.
Qed.

Lemma res_mapM_pure {A B} (f : A -> res B) (g : A -> B) l :
  (forall a, a ∈ l -> f a = Ok (g a)) -> res_mapM f l = Ok (map g l).
Proof.
  intros H. apply res_mapM_Ok. induction l as [|a l IH]; simpl; constructor.
  - apply H. left.
  - apply IH. intros. apply H. by right.
Qed.

Lemma res_mapM_map {A B C} (f : B -> res C) (g : A -> B) l :
  res_mapM f (map g l) = res_mapM (fun a => f (g a)) l.
Proof. induction l as [|a l IH]; simpl; [done|]. by rewrite IH. Qed.

Lemma res_foldl_app {A S} (f : S -> A -> res S) s l1 l2 :
  res_foldl f s (l1 ++ l2) = res_bind (res_foldl f s l1) (fun s' => res_foldl f s' l2).
Proof.
  revert s. induction l1 as [|a l1 IH]; intros s; simpl; [done|].
  destruct (f s a); simpl; auto.
Qed.

Lemma res_foldl_inv {A S} (I : S -> Prop) (f : S -> A -> res S) s l s' :
  I s -> (forall s a s', a ∈ l -> I s -> f s a = Ok s' -> I s') ->
  res_foldl f s l = Ok s' -> I s'.
Proof.
  revert s. induction l as [|a l IH]; intros s Hs Hstep; simpl; [by intros [= <-]|].
  intros (s1 & H1 & H2)%bind_Ok. eapply IH; [|intros; eapply Hstep; [by right|..]; eauto|done].
  eapply Hstep; eauto. left.
Qed.

(** ** Sorting *)
Section isort.
  Context {A : Type} (leb : A -> A -> bool).
  Lemma insert_sorted_perm a l : insert_sorted leb a l ≡ₚ a :: l.
  Proof.
    induction l as [|b l IH]; simpl; [done|]. destruct (leb a b); [done|].
    rewrite IH. apply perm_swap.
  Qed.
  Lemma isort_perm l : isort leb l ≡ₚ l.
  Proof. induction l as [|a l IH]; simpl; [done|]. by rewrite insert_sorted_perm, IH. Qed.
  Lemma isort_length l : length (isort leb l) = length l.
  Proof. apply Permutation_length, isort_perm. Qed.
  Lemma elem_of_isort a l : a ∈ isort leb l <-> a ∈ l.
  Proof. by rewrite isort_perm. Qed.

  Context (Htotal : forall a b, leb a b = true \/ leb b a = true)
          (Htrans : forall a b c, leb a b = true -> leb b c = true -> leb a c = true).
  Notation le := (fun a b => leb a b = true).
  Lemma insert_sorted_sorted a l :
    StronglySorted le l -> StronglySorted le (insert_sorted leb a l).
  Proof.
    induction 1 as [|b l Hl IH Hb]; simpl; [repeat constructor|].
    destruct (leb a b) eqn:E.
    - constructor; [by constructor|]. constructor; [done|].
      eapply Forall_impl; [exact Hb|]. simpl. eauto.
    - constructor; [done|]. rewrite insert_sorted_perm. constructor; [|done].
      destruct (Htotal a b); congruence.
  Qed.
  Lemma isort_sorted l : StronglySorted le (isort leb l).
  Proof. induction l as [|a l IH]; simpl; [constructor|]. by apply insert_sorted_sorted. Qed.
End isort.

(** A sorted list is determined by its elements when the order is antisymmetric
    on them. *)
Lemma sorted_perm_unique {A} (le : A -> A -> Prop) l1 l2 :
  (forall a b, a ∈ l1 -> b ∈ l1 -> le a b -> le b a -> a = b) ->
  StronglySorted le l1 -> StronglySorted le l2 -> l1 ≡ₚ l2 -> l1 = l2.
Proof.
  intros Hanti H1. revert l2. induction H1 as [|a l1 Hs IH Ha]; intros l2 H2 HP.
  - by apply Permutation_nil_l in HP.
  - destruct H2 as [|b l2 H2 Hb]; [by apply Permutation_nil_r in HP|].
    assert (a = b) as ->.
    { assert (a ∈ b :: l2) as Ha2 by (rewrite <- HP; left).
      assert (b ∈ a :: l1) as Hb1 by (rewrite HP; left).
      apply elem_of_cons in Ha2 as [->|Ha2]; [done|].
      apply elem_of_cons in Hb1 as [->|Hb1]; [done|].
      rewrite Forall_forall in Ha, Hb. apply Hanti; [left|by right|eauto|eauto]. }
    f_equal. apply IH; [|done|by eapply Permutation_cons_inv].
    intros x y Hx Hy. apply Hanti; by right.
Qed.

Lemma StronglySorted_impl {A} (R S : A -> A -> Prop) l :
  (forall a b, a ∈ l -> b ∈ l -> R a b -> S a b) -> StronglySorted R l -> StronglySorted S l.
Proof.
  intros HRS H. induction H as [|a l H IH Ha]; constructor.
  - apply IH. intros. apply HRS; [by right..|done].
  - rewrite Forall_forall in *. intros x Hx. apply HRS; [left|by right|eauto].
Qed.

Lemma StronglySorted_map {A B} (f : A -> B) (R : B -> B -> Prop) l :
  StronglySorted (fun a b => R (f a) (f b)) l -> StronglySorted R (map f l).
Proof.
  induction 1 as [|a l H IH Ha]; simpl; constructor; [done|].
  apply List.Forall_map. eapply Forall_impl; [exact Ha|]. done.
Qed.
Lemma StronglySorted_map_inv {A B} (f : A -> B) (R : B -> B -> Prop) l :
  StronglySorted R (map f l) -> StronglySorted (fun a b => R (f a) (f b)) l.
Proof.
  induction l as [|a l IH]; simpl; intros H; [constructor|].
  inversion H as [|? ? H1 H2]; subst. constructor; [by apply IH|].
  apply (proj1 (List.Forall_map f (R (f a)) l)) in H2. exact H2.
Qed.

Lemma StronglySorted_app {A} (R : A -> A -> Prop) l1 l2 :
  StronglySorted R (l1 ++ l2) <->
  StronglySorted R l1 /\ StronglySorted R l2 /\ (forall a b, a ∈ l1 -> b ∈ l2 -> R a b).
Proof.
  induction l1 as [|a l1 IH]; simpl.
  - split; [intros; split; [constructor|split; [done|]]|intros (_ & ? & _); done].
    intros ? ? Hx. by apply elem_of_nil in Hx.
  - split.
    + intros H. inversion H as [|? ? H1 H2]; subst. apply IH in H1 as (H3 & H4 & H5).
      apply Forall_app in H2 as [H6 H7]. split; [by constructor|]. split; [done|].
      intros x y [->|Hx]%elem_of_cons Hy; [|by apply H5].
      rewrite Forall_forall in H7. by apply H7.
    + intros (H1 & H2 & H3). inversion H1 as [|? ? H4 H5]; subst. constructor.
      * apply IH. split; [done|]. split; [done|]. intros. apply H3; [by right|done].
      * apply Forall_app. split; [done|]. apply Forall_forall. intros. apply H3; [left|done].
Qed.

Lemma StronglySorted_filter {A} (R : A -> A -> Prop) f l :
  StronglySorted R l -> StronglySorted R (List.filter f l).
Proof.
  induction 1 as [|a l H IH Ha]; simpl; [constructor|].
  destruct (f a); [|done]. constructor; [done|].
  rewrite Forall_forall in *. intros x Hx. apply Ha.
  apply elem_of_list_In, List.filter_In in Hx as [Hx _]. by apply elem_of_list_In.
Qed.

Lemma StronglySorted_NoDup {A} (R : A -> A -> Prop) l :
  (forall a, ~ R a a) -> StronglySorted R l -> NoDup l.
Proof.
  intros Hirr. induction 1 as [|a l H IH Ha]; constructor; [|done].
  intros Hin. rewrite Forall_forall in Ha. by apply (Hirr a), Ha.
Qed.

Lemma StronglySorted_lookup {A} (R : A -> A -> Prop) l i j a b :
  StronglySorted R l -> (i < j)%nat -> l !! i = Some a -> l !! j = Some b -> R a b.
Proof.
  intros H. revert i j. induction H as [|c l H IH Hc]; intros i j Hij Hi Hj; [done|].
  destruct i as [|i]; destruct j as [|j]; try lia; simpl in *.
  - injection Hi as ->. rewrite Forall_forall in Hc. eapply Hc, elem_of_list_lookup_2; eauto.
  - eapply IH; [|eauto..]. lia.
Qed.

(** ** Descending sort + dedup of numbers *)
Notation gtN := (fun a b : N => b < a) (only parsing).
Notation geN := (fun a b : N => (b <=? a) = true) (only parsing).

Lemma dedup_after_elem {A} (same : A -> A -> bool) prev l x :
  (forall a b, same a b = true -> a = b) ->
  x ∈ prev :: dedup_after same prev l <-> x ∈ prev :: l.
Proof.
  intros Hs. revert prev. induction l as [|b l IH]; intros prev; simpl; [done|].
  destruct (same prev b) eqn:E.
  - apply Hs in E as ->. rewrite IH. rewrite !elem_of_cons. tauto.
  - specialize (IH b). rewrite !elem_of_cons in *. tauto.
Qed.
Lemma dedup_elem {A} (same : A -> A -> bool) l x :
  (forall a b, same a b = true -> a = b) -> x ∈ dedup same l <-> x ∈ l.
Proof. intros Hs. destruct l as [|a l]; simpl; [done|]. by apply dedup_after_elem. Qed.

Lemma dedup_after_sorted prev l :
  Forall (fun b => b <= prev) l -> StronglySorted geN l ->
  StronglySorted gtN (prev :: dedup_after N.eqb prev l).
Proof.
  revert prev. induction l as [|b l IH]; intros prev Hp Hl; simpl; [repeat constructor|].
  inversion Hl as [|? ? H1 H2]; subst. inversion Hp as [|? ? Hb Hp']; subst.
  destruct (prev =? b) eqn:E; [by apply IH|].
  apply N.eqb_neq in E.
  assert (Hs : StronglySorted gtN (b :: dedup_after N.eqb b l)).
  { apply IH; [|done]. eapply Forall_impl; [exact H2|]. simpl. intros; lia. }
  constructor; [done|]. constructor; [lia|].
  inversion Hs as [|? ? _ H3]; subst. eapply Forall_impl; [exact H3|]. simpl; intros; lia.
Qed.
Lemma dedup_sorted l : StronglySorted geN l -> StronglySorted gtN (dedup N.eqb l).
Proof.
  destruct l as [|a l]; simpl; intros H; [constructor|]. inversion H; subst.
  apply dedup_after_sorted; [|done]. eapply Forall_impl; [eassumption|]. simpl; intros; lia.
Qed.

Lemma sorted_gt_unique l1 l2 :
  StronglySorted gtN l1 -> StronglySorted gtN l2 ->
  (forall x, x ∈ l1 <-> x ∈ l2) -> l1 = l2.
Proof.
  intros H1 H2 H. apply (sorted_perm_unique gtN); [intros; lia|done|done|].
  apply NoDup_Permutation; [| |done]; eapply (StronglySorted_NoDup gtN); eauto; intros a; lia.
Qed.

(** ** Grouping of consecutive elements *)
Lemma group_consec_concat {A K} (key : A -> K) eqb l :
  mjoin (map snd (group_consec key eqb l)) = l.
Proof.
  induction l as [|a l IH]; simpl; [done|].
  destruct (group_consec key eqb l) as [|[k g] gs]; simpl in *; [by rewrite <- IH|].
  destruct (eqb (key a) k); simpl; by rewrite IH.
Qed.
Lemma group_consec_key {A K} (key : A -> K) eqb l k g :
  (forall a b, eqb a b = true <-> a = b) ->
  (k, g) ∈ group_consec key eqb l -> g <> [] /\ forall a, a ∈ g -> key a = k.
Proof.
  intros He. revert k g. induction l as [|a l IH]; intros k g; simpl; [by intros ?%elem_of_nil|].
  destruct (group_consec key eqb l) as [|[k' g'] gs]; simpl in *.
  - intros Hx%elem_of_list_singleton. injection Hx as -> ->.
    split; [done|]. by intros ? ->%elem_of_list_singleton.
  - destruct (eqb (key a) k') eqn:E.
    + apply He in E. intros [Hx|Hx]%elem_of_cons.
      * injection Hx as -> ->. split; [done|].
        intros x [->|Hx]%elem_of_cons; [done|]. rewrite E. eapply IH; [left|done].
      * apply IH. by right.
    + intros [Hx|Hx]%elem_of_cons; [|by apply IH].
      injection Hx as -> ->. split; [done|]. by intros ? ->%elem_of_list_singleton.
Qed.

(** ** Misc *)
Lemma elem_of_filter {A} (f : A -> bool) l x : x ∈ List.filter f l <-> x ∈ l /\ f x = true.
Proof. rewrite !elem_of_list_In. apply List.filter_In. Qed.
Lemma filter_perm {A} (f : A -> bool) l1 l2 :
  l1 ≡ₚ l2 -> List.filter f l1 ≡ₚ List.filter f l2.
Proof.
  induction 1 as [|x l l0 H IH|x y l|l l0 l3 H IH H0 IH0]; simpl; repeat case_match;
    first [done | by constructor | by etrans].
Qed.
Lemma elem_of_mjoin {A} (x : A) (ls : list (list A)) : x ∈ mjoin ls <-> exists l, x ∈ l /\ l ∈ ls.
Proof. apply elem_of_list_join. Qed.
Lemma elem_of_map {A B} (f : A -> B) l y : y ∈ map f l <-> exists x, y = f x /\ x ∈ l.
Proof. apply elem_of_list_fmap. Qed.
