(** The bounded priority queue, and the order on contexts. *)
From Verif Require Import Prelude Lists F64 Heap Common Store Cmp_proofs Query Coalesce.
From Coq Require Import Sorting.Sorted.
From Coq Require Import ZifyBool.
Local Open Scope N_scope.

(** Extending a total preorder to lists' heads. *)
Definition head_cmp {A B} (f : A -> list B) (c : A * B -> A * B -> comparison) (a b : A) : comparison :=
  match f a, f b with
  | x :: _, y :: _ => c (a, x) (b, y)
  | [], [] => Eq
  | [], _ :: _ => Lt
  | _ :: _, [] => Gt
  end.
Lemma total_cmp_head {A B} (f : A -> list B) c : total_cmp c -> total_cmp (head_cmp f c).
Proof.
  intros [Ha Ht]. split; unfold head_cmp.
  - intros a b. destruct (f a), (f b); [done|done|done|apply Ha].
  - intros a b d. destruct (f a), (f b), (f d); try done. apply Ht.
Qed.
Lemma total_cmp_ext {A} (c1 c2 : A -> A -> comparison) :
  (forall a b, c1 a b = c2 a b) -> total_cmp c1 -> total_cmp c2.
Proof. intros E [Ha Ht]. split; intros; rewrite <- !E in *; eauto. Qed.

Lemma total_cmp_ctx : total_cmp ctx_cmp.
Proof.
  apply (total_cmp_ext (head_cmp cc_entries (fun a b =>
      ord_cmp (cc_relev a.1) (cc_relev b.1) <;>
      ord_cmp (ce_scoredist a.2) (ce_scoredist b.2) <;>
      N.compare (ce_idx b.2) (ce_idx a.2) <;>
      N.compare (ge_x (ce_entry a.2)) (ge_x (ce_entry b.2)) <;>
      N.compare (ge_y (ce_entry a.2)) (ge_y (ce_entry b.2)) <;>
      N.compare (ge_id (ce_entry a.2)) (ge_id (ce_entry b.2))))).
  - intros a b. unfold head_cmp, ctx_cmp. by destruct (cc_entries a), (cc_entries b).
  - set (cc := (coalesce_context * coalesce_entry)%type). apply total_cmp_head.
    apply total_cmp_then; [apply (total_cmp_proj (fun a : cc => cc_relev a.1)), total_cmp_ord|].
    apply total_cmp_then; [apply (total_cmp_proj (fun a : cc => ce_scoredist a.2)), total_cmp_ord|].
    apply total_cmp_then;
      [apply (total_cmp_proj (fun a : cc => ce_idx a.2) (fun a b => N.compare b a)), total_cmp_flip, total_cmp_N|].
    apply total_cmp_then; [apply (total_cmp_proj (fun a : cc => ge_x (ce_entry a.2))), total_cmp_N|].
    apply total_cmp_then; [apply (total_cmp_proj (fun a : cc => ge_y (ce_entry a.2))), total_cmp_N|].
    apply (total_cmp_proj (fun a : cc => ge_id (ce_entry a.2))), total_cmp_N.
Qed.
Lemma total_cmp_single : total_cmp single_cmp.
Proof.
  apply (total_cmp_ext (head_cmp cc_entries (fun a b =>
      ord_cmp (cc_relev a.1) (cc_relev b.1) <;>
      ord_cmp (ce_scoredist a.2) (ce_scoredist b.2) <;>
      N.compare (ge_x (ce_entry a.2)) (ge_x (ce_entry b.2)) <;>
      N.compare (ge_y (ce_entry a.2)) (ge_y (ce_entry b.2)) <;>
      N.compare (ge_id (ce_entry a.2)) (ge_id (ce_entry b.2))))).
  - intros a b. unfold head_cmp, single_cmp. by destruct (cc_entries a), (cc_entries b).
  - set (cc := (coalesce_context * coalesce_entry)%type). apply total_cmp_head.
    apply total_cmp_then; [apply (total_cmp_proj (fun a : cc => cc_relev a.1)), total_cmp_ord|].
    apply total_cmp_then; [apply (total_cmp_proj (fun a : cc => ce_scoredist a.2)), total_cmp_ord|].
    apply total_cmp_then; [apply (total_cmp_proj (fun a : cc => ge_x (ce_entry a.2))), total_cmp_N|].
    apply total_cmp_then; [apply (total_cmp_proj (fun a : cc => ge_y (ce_entry a.2))), total_cmp_N|].
    apply (total_cmp_proj (fun a : cc => ge_id (ce_entry a.2))), total_cmp_N.
Qed.

(** ** Bounded queue *)
Section queue.
  Context {A : Type} (cmp : A -> A -> comparison) (H : total_cmp cmp) (tb : tiebreak).

  (** What a queue of capacity [n] is after the pushes [l]. *)
  Definition cpq_holds (n : N) (l : list A) (q : cpq A) : Prop :=
    cpq_max q = n /\ exists dropped,
      l ≡ₚ hp_items (cpq_heap q) ++ dropped /\
      N.of_nat (length (hp_items (cpq_heap q))) = N.min n (N.of_nat (length l)) /\
      forall d k, d ∈ dropped -> k ∈ hp_items (cpq_heap q) -> cmp d k <> Gt.

  Lemma cpq_new_holds n : cpq_holds n [] (cpq_new n).
  Proof.
    split; [done|]. exists []. cbn. split; [done|]. split; [lia|]. intros d k Hd. by apply elem_of_nil in Hd.
  Qed.

  Lemma cpq_push_holds n l q a : cpq_holds n l q -> cpq_holds n (l ++ [a]) (cpq_push cmp tb q a).1.
  Proof.
    intros (Hn & dropped & Hp & Hlen & Hle). unfold cpq_push.
    destruct (cpq_max q <=? hp_len (cpq_heap q)) eqn:E; unfold hp_len in E.
    - rewrite Hn in E. assert (Hll : n <= N.of_nat (length l)) by lia.
      destruct (hp_peek_min cmp tb (cpq_heap q)) as [m|] eqn:Em.
      + destruct (hp_peek_min_ok cmp tb _ _ Em) as [Hm Hmin]. rewrite Forall_forall in Hmin.
        destruct (cmp a m) eqn:Ea.
        3: { (* replaced *)
          cbn [fst]. destruct (hp_replace_min_ok cmp H tb (cpq_heap q) a) as (m' & rest & P1 & P2 & _ & Em').
          { intros E'. rewrite E' in Hm. by apply elem_of_nil in Hm. }
          assert (m' = m) by congruence. subst m'.
          split; [done|]. exists (m :: dropped). cbn [cpq_heap].
          split; [|split].
          - rewrite P2, Hp, P1. transitivity (a :: ((m :: rest) ++ dropped)); [symmetry; apply Permutation_cons_append|].
            cbn. apply Permutation_skip, Permutation_middle.
          - rewrite (Permutation_length P2). rewrite (Permutation_length P1) in Hlen.
            cbn [length] in *. rewrite app_length. cbn. lia.
          - intros d k Hd Hk. rewrite P2 in Hk.
            assert (Hdm : cmp d m <> Gt).
            { apply elem_of_cons in Hd as [->|Hd]; [by rewrite (tc_refl cmp H)|].
              apply (Hle d m); [done|]. rewrite P1. by left. }
            apply elem_of_cons in Hk as [->|Hk].
            + eapply (tc_trans _ H); [exact Hdm|]. rewrite (tc_anti _ H a m), Ea. done.
            + apply elem_of_cons in Hd as [->|Hd].
              * apply Hmin. rewrite P1. by right.
              * apply (Hle d k); [done|]. rewrite P1. by right. }
        all: cbn [fst]; split; [done|]; exists (a :: dropped); split;
          [rewrite Hp; rewrite <- app_assoc; apply Permutation_app_head; symmetry; apply Permutation_cons_append|];
          split; [rewrite app_length; cbn; lia|];
          intros d k Hd Hk; apply elem_of_cons in Hd as [->|Hd]; [|by apply Hle];
          eapply (tc_trans _ H); [|by apply Hmin]; by rewrite Ea.
      + cbn [fst]. assert (Hi : hp_items (cpq_heap q) = []).
        { destruct (hp_items (cpq_heap q)) as [|x xs] eqn:Ei; [done|].
          destruct (hp_peek_min_some cmp H tb (cpq_heap q)) as [m Hm]; [by rewrite Ei|]. congruence. }
        split; [done|]. exists (a :: dropped). rewrite Hi in *. cbn in *. split; [|split].
        * rewrite Hp. symmetry. apply Permutation_cons_append.
        * rewrite app_length. cbn. lia.
        * intros d k _ Hk. by apply elem_of_nil in Hk.
    - cbn [fst cpq_heap hp_push hp_items]. rewrite Hn in E.
      assert (Hd0 : dropped = []).
      { assert (length l = length (hp_items (cpq_heap q)) + length dropped)%nat
          by (rewrite (Permutation_length Hp), app_length; done).
        destruct dropped; [done|]. exfalso. cbn [length] in *. apply N.leb_gt in E. lia. }
      subst dropped. rewrite app_nil_r in Hp.
      split; [done|]. exists []. cbn [cpq_heap hp_items]. split; [by rewrite app_nil_r, Hp|]. split.
      + unfold hp_push. cbn [hp_items]. rewrite !app_length. pose proof (Permutation_length Hp). cbn [length]. apply N.leb_gt in E. lia.
      + intros d k Hd. by apply elem_of_nil in Hd.
  Qed.

  Lemma cpq_pushes_hold n l l' q :
    cpq_holds n l q -> cpq_holds n (l ++ l') (foldl (fun q a => (cpq_push cmp tb q a).1) q l').
  Proof.
    revert l q. induction l' as [|a l' IH]; intros l q Hq; cbn [foldl].
    - by rewrite app_nil_r.
    - replace (l ++ a :: l') with ((l ++ [a]) ++ l') by by rewrite <- app_assoc.
      apply IH. by apply cpq_push_holds.
  Qed.

  Lemma hp_pop_max_ok h a h' :
    hp_pop_max cmp tb h = Some (a, h') ->
    hp_items h ≡ₚ a :: hp_items h' /\ Forall (fun b => cmp b a <> Gt) (hp_items h).
  Proof.
    unfold hp_pop_max. destruct (hp_max_idx cmp tb h) as [i|] eqn:Ei; [|done].
    destruct (hp_items h !! i) as [x|] eqn:Ex; [|done]. intros [= -> <-].
    destruct (hp_max_idx_ok cmp tb h i Ei) as (a' & Ha' & Hf). assert (a' = a) by congruence. subst a'.
    split; [|done]. cbn. by apply delete_Permutation.
  Qed.
  Lemma hp_pop_max_some h : hp_items h <> [] -> exists a h', hp_pop_max cmp tb h = Some (a, h').
  Proof.
    intros Hne. destruct (hp_max_idx_some cmp H tb h Hne) as [i Hi]. unfold hp_pop_max. rewrite Hi.
    destruct (hp_max_idx_ok cmp tb h i Hi) as (a & Ha & _). rewrite Ha. eauto.
  Qed.
  Lemma hp_drain_desc_ok fuel : forall h, length (hp_items h) = fuel ->
    hp_drain_desc cmp tb fuel h ≡ₚ hp_items h /\
    StronglySorted (fun a b => cmp b a <> Gt) (hp_drain_desc cmp tb fuel h).
  Proof.
    induction fuel as [|fuel IH]; intros h Hl; cbn [hp_drain_desc].
    - destruct (hp_items h); [|done]. split; [done|constructor].
    - destruct (hp_pop_max_some h) as (a & h' & E); [by intros E; rewrite E in Hl|].
      rewrite E. destruct (hp_pop_max_ok h a h' E) as [Hp Hf].
      destruct (IH h') as [P S]; [rewrite (Permutation_length Hp) in Hl; cbn in Hl; lia|].
      split; [by rewrite P, Hp|]. constructor; [done|]. rewrite Forall_forall in *.
      intros x Hx. rewrite P in Hx. apply Hf. rewrite Hp. by right.
  Qed.
  Lemma hp_into_desc_ok h :
    hp_into_desc cmp tb h ≡ₚ hp_items h /\ StronglySorted (fun a b => cmp b a <> Gt) (hp_into_desc cmp tb h).
  Proof. by apply hp_drain_desc_ok. Qed.
End queue.
