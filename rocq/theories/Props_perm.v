(** Property C82: below the limits, the order of the subqueries and of their keys does not
    show in the result of tree_coalesce. *)
From Verif Require Import Prelude Lists F64 Heap Common Builder Spatial Store Spec Spec_match Query Coalesce Stackable Tree
  Native Cmp_proofs Queue_proofs Spec_coalesce Coalesce_proofs Multi_proofs Spec_stack Stack_proofs Spec_tree Spec_quota Tree_proofs
  Limit_proofs Term_proofs Spec_native Native_proofs Examples Props_match Props_coalesce Props_stack Props_tree Props_native
  Spec_complete Complete_proofs Props_complete
  Props_quota Spec_exact Sibling_proofs Exact_proofs Props_exact Spec_leaf Leaf_proofs Props_leaf Spec_room Props_room Props_js Spec_perm.
From Coq Require Import Sorting.Sorted.
From Coq Require Import ZifyBool.
Local Open Scope N_scope.

(** Two lists without repetitions whose elements correspond to each other. *)
Lemma match_up {A B} (R : A -> B -> Prop) (l2 : list B) : forall l1 : list A, NoDup l1 -> NoDup l2 ->
  (forall a, a ∈ l1 -> exists b, b ∈ l2 /\ R a b) -> (forall b, b ∈ l2 -> exists a, a ∈ l1 /\ R a b) ->
  (forall a a' b, a ∈ l1 -> a' ∈ l1 -> R a b -> R a' b -> a = a') ->
  (forall a b b', b ∈ l2 -> b' ∈ l2 -> R a b -> R a b' -> b = b') ->
  exists l, l1 ≡ₚ l /\ Forall2 R l l2.
Proof.
  induction l2 as [|b l2 IH]; intros l1 N1 N2 H12 H21 Hi Hf.
  - exists []. split; [|apply List.Forall2_nil]. destruct l1 as [|a l1]; [done|]. destruct (H12 a ltac:(by left)) as (b & Hb & _). by apply elem_of_nil in Hb.
  - destruct (H21 b ltac:(by left)) as (a & Ha & Hab). apply elem_of_Permutation in Ha as [l1' El].
    apply NoDup_cons in N2 as [Nb N2]. rewrite El in N1. apply NoDup_cons in N1 as [Na N1].
    assert (Hin : forall x, x ∈ l1' -> x ∈ l1) by (intros x Hx; rewrite El; by right).
    assert (Ha : a ∈ l1) by (rewrite El; by left).
    destruct (IH l1' N1 N2) as (l & E & Hl).
    + intros x Hx. destruct (H12 x (Hin x Hx)) as (y & Hy & Hxy). apply elem_of_cons in Hy as [->|Hy]; [|eauto].
      exfalso. apply Na. assert (a = x) as -> by (by eapply Hi; [| |exact Hab|exact Hxy]; auto). done.
    + intros y Hy. destruct (H21 y ltac:(by right)) as (x & Hx & Hxy). rewrite El in Hx. apply elem_of_cons in Hx as [->|Hx]; [|eauto].
      exfalso. apply Nb. assert (b = y) as -> by (eapply Hf; [by left|by right|exact Hab|exact Hxy]). done.
    + intros x x' y Hx Hx'. apply Hi; auto.
    + intros x y y' Hy Hy'. apply Hf; by right.
    + exists (a :: l). split; [by rewrite El, E|]. by constructor.
Qed.

Lemma same_keys_form a b : same_keys a b -> exists ks, ks ≡ₚ sq_keys a /\ b = with_keys a ks.
Proof.
  destruct a as [s i no w m ks], b as [s' i' no' w' m' ks']. intros (E1 & E2 & E3 & E4 & E5 & E6). cbn in *. subst.
  exists ks'. by split.
Qed.
Lemma same_keys_sym a b : same_keys a b -> same_keys b a.
Proof. intros (E1 & E2 & E3 & E4 & E5 & E6). repeat split; by symmetry. Qed.
Lemma same_keys_trans a b c : same_keys a b -> same_keys b c -> same_keys a c.
Proof. intros (E1 & E2 & E3 & E4 & E5 & E6) (F1 & F2 & F3 & F4 & F5 & F6). repeat split; by etransitivity. Qed.
Lemma chain_sym c c' : Forall2 same_keys c c' -> Forall2 same_keys c' c.
Proof. intros H. apply Forall2_flip. eapply Forall2_impl; [exact H|]. apply same_keys_sym. Qed.
Lemma chain_trans c c' c'' : Forall2 same_keys c c' -> Forall2 same_keys c' c'' -> Forall2 same_keys c c''.
Proof.
  intros H. revert c''. induction H as [|a b c c' Hab H IH]; intros c'' H'; inversion H' as [|? d ? c0 Hbd H0]; subst; [constructor|].
  constructor; [by eapply same_keys_trans|by apply IH].
Qed.
(** With keys of their own, subqueries that differ in the order of their keys only are equal. *)
Lemma own_same S a b : own_ids S -> S a -> S b -> same_keys a b -> a = b.
Proof.
  intros Ho Ha Hb Hs. pose proof Hs as (_ & _ & _ & _ & _ & Hk). destruct (sq_keys a) as [|k ks] eqn:E.
  - apply Permutation_nil_l in Hk. destruct (same_keys_form _ _ Hs) as (ks & Hks & Eb). rewrite Eb in Hk. cbn in Hk. subst ks.
    rewrite Eb. destruct a. cbn in *. by subst.
  - eapply (Ho a b k k Ha Hb); [rewrite E; by left|rewrite <- Hk; by left|done].
Qed.
Lemma chain_same S c c' : own_ids S -> (forall a, a ∈ c -> S a) -> (forall a, a ∈ c' -> S a) -> Forall2 same_keys c c' -> c = c'.
Proof.
  intros Ho H1 H2 H. induction H as [|a b c c' Hab H IH]; [done|]. f_equal.
  - eapply own_same; [exact Ho|apply H1; by left|apply H2; by left|done].
  - apply IH; intros x Hx; [apply H1|apply H2]; by right.
Qed.

Lemma one_same a b : same_keys a b -> Forall2 same_keys [a] [b].
Proof. intros H. constructor; [done|constructor]. Qed.

(** What is said about one chain holds of the other. *)
Lemma legal_same pms1 pms2 c c' : legal pms1 c -> Forall2 same_keys c c' -> (forall b, b ∈ c' -> b ∈ pms2) -> legal pms2 c'.
Proof.
  intros (_ & H2 & H3 & H4) Hf Hin. split; [done|]. clear Hin.
  assert (Em : map sq_mask c = map sq_mask c'). { clear -Hf. induction Hf as [|a b c c' Hab Hf IH]; [done|]. cbn [map]. f_equal; [apply Hab|exact IH]. }
  split; [|split].
  - clear H3 H4 Em. induction Hf as [|a b c c' Hab Hf IH]; [constructor|]. inversion H2 as [|? ? Hs HF]; subst. constructor; [by apply IH|].
    clear IH Hs H2. rewrite Forall_forall in HF. apply Forall_forall. intros y Hy. apply elem_of_list_lookup in Hy as [i Hi].
    destruct (Forall2_lookup_r _ _ _ _ _ Hf Hi) as (x & Hx & Hxy). assert (Hx' : x ∈ c) by (by eapply elem_of_list_lookup_2).
    specialize (HF x Hx'). unfold type_of in *. destruct Hab as (<- & _), Hxy as (<- & _). done.
  - by rewrite <- Em.
  - clear H2 H3 Em. revert H4. generalize root_idx. induction Hf as [|a b c c' Hab Hf IH]; intros prev H; [done|].
    cbn [not_excluded] in *. destruct Hab as (_ & E2 & E3 & _). rewrite <- E2, <- E3. split; [apply H|]. apply IH, H.
Qed.
Lemma weights_same c c' : Forall2 same_keys c c' -> sum_weights c = sum_weights c'.
Proof.
  unfold sum_weights. generalize f_zero. intros r H. revert r. induction H as [|a b c c' (_ & _ & _ & E & _) H IH]; intros r; [done|].
  cbn [foldl]. rewrite E. apply IH.
Qed.
Lemma entry_same p mtb tb o a b e : same_keys a b -> stack_entry p mtb tb o a e -> stack_entry p mtb tb o b e.
Proof.
  intros H (k & g & (ko & out & i & Hk & H1) & He). destruct (same_keys_form _ _ H) as (ks & Eks & ->). exists k, g.
  split; [|exact He]. exists ko, out, i. split; [|exact H1]. cbn. by rewrite Eks.
Qed.
Lemma nested_same p mtb tb o c es : nested_stack p mtb tb o c es -> forall c', Forall2 same_keys c c' -> nested_stack p mtb tb o c' es.
Proof.
  intros H. induction H as [pm e He|pm e pm' e' pms es H IH He Hx Hy]; intros c' Hf.
  - inversion Hf as [|? b ? l Hb Hf']; subst. inversion Hf'; subst. constructor. by eapply entry_same.
  - inversion Hf as [|? b ? l Hb Hf']; subst. inversion Hf' as [|? b' ? l' Hb' Hf'']; subst. constructor.
    + by apply IH.
    + by eapply entry_same.
    + unfold zoom_of. destruct Hb as (<- & _), Hb' as (<- & _). done.
    + unfold zoom_of. destruct Hb as (<- & _), Hb' as (<- & _). done.
Qed.
Lemma context_same c c' es : Forall2 same_keys c c' -> stack_context c es = stack_context c' es.
Proof.
  intros H. unfold stack_context. do 2 f_equal. induction H as [|a b c c' (_ & _ & _ & _ & E & _) H IH]; [done|]. cbn [map]. by rewrite E, IH.
Qed.
Lemma leaf_same p mtb tb o a b k ms : same_keys a b -> leaf_matches p mtb tb o a k ms -> leaf_matches p mtb tb o b k ms.
Proof.
  intros H (ko & Hk & H1). destruct (same_keys_form _ _ H) as (ks & Eks & ->). exists ko. split; [|exact H1]. cbn. by rewrite Eks.
Qed.

Lemma single_loop_keys p a ks o pid l : forall s, single_loop p (with_keys a ks) o pid l s = single_loop p a o pid l s.
Proof.
  induction l as [|g l IH]; intros s; [done|]. cbn [single_loop]. change (grid_to_coalesce_entry p g (with_keys a ks) o pid) with (grid_to_coalesce_entry p g a o pid).
  destruct (grid_to_coalesce_entry p g a o pid) as [e| | |]; [|done..]. cbn [res_bind]. by destruct (single_body _ s e).
Qed.

(** A tree below its limit has one node for each legal chain, so the keys that are asked
    for can be counted from the chains. *)
Definition chain_uses (c : quota) (chain : list subquery) : N :=
  match last chain with Some pm => tally c pm (sq_keys pm) | None => 0 end.
Definition total {A} (f : A -> N) (l : list A) : N := foldr (fun a s => f a + s) 0 l.
Lemma total_perm {A} (f : A -> N) l l' : l ≡ₚ l' -> total f l = total f l'.
Proof. intros H. induction H as [|x l l' H IH|x y l|l l' l'' H IH H' IH']; cbn [total foldr] in *; unfold total in *; lia. Qed.
Lemma total_map {A B} (f : B -> N) (g : A -> B) l : total f (map g l) = total (fun a => f (g a)) l.
Proof. induction l as [|a l IH]; [done|]. cbn [map]. unfold total in *. cbn [foldr]. lia. Qed.
Lemma total_ext {A} (f g : A -> N) l : (forall a, a ∈ l -> f a = g a) -> total f l = total g l.
Proof.
  intros H. induction l as [|a l IH]; [done|]. unfold total in *. cbn [foldr]. rewrite IH by (intros; apply H; by right).
  by rewrite (H a ltac:(by left)).
Qed.
Lemma uses_chains c pms : NoDup pms ->
  (forall cs, NoDup cs -> (forall c, c ∈ cs -> c <> [] /\ legal pms c) -> N.of_nat (length cs) < 2000) ->
  tree_uses c (stackable pms) = total (chain_uses c) (all_chains pms).
Proof.
  intros Hnd Hfew. set (t := stackable pms). destruct (stackable_sound pms) as (L & Ha & Hroot).
  set (N := N.to_nat (am_next (t_arena t))).
  set (f := fun i : nat => match tree_get t (N.of_nat i), L !! N.of_nat i with Some n, Some (ch, _) => ch | _, _ => [] end).
  assert (Hlen : (N <= length (all_chains pms))%nat).
  { unfold N, t, stackable. destruct (visit (make_bins pms) f_zero root_node arena_new) as [root a] eqn:E. cbn [t_arena].
    pose proof (visit_count _ _ _ _ _ _ E) as (H1 & _). cbn [root_node sn_mask sn_idx arena_new am_next] in H1.
    change 129 with root_idx in H1. fold (all_chains pms) in H1. lia. }
  assert (Hsub : forall ch, ch ∈ all_chains pms -> ch ∈ map f (seq 0 N)).
  { intros ch Hch. apply all_chains_ok in Hch as [Hne Hleg]. destruct (C47_complete pms Hnd Hfew ch Hleg) as [n Hd].
    destruct ch as [|pm ch] using rev_ind; [done|clear IHch Hne]. apply descends_app in Hd as (n' & Hd' & Hd).
    pose proof (descends_ok pms L _ _ ch n' Ha Hd' [] Hroot) as Hok. cbn [app] in Hok.
    apply descends_one in Hd as (i & Hi & Hn & Hpm). destruct (no_kids _ _ _ _ Hok i Hi) as (pm' & r & Hl & _).
    destruct (ao_node _ _ _ Ha i n Hn) as (chain & _ & Hl' & Hok' & _). assert (chain = ch ++ [pm']) as -> by congruence.
    pose proof (st_pm _ _ (no_static _ _ _ _ Hok')) as Epm. rewrite last_snoc in Epm. assert (pm' = pm) as -> by congruence.
    apply elem_of_map. exists (N.to_nat i). split.
    - unfold f. rewrite N2Nat.id. fold t in Hn. rewrite Hn, Hl. done.
    - apply elem_of_seq. pose proof (ao_dom _ _ _ Ha i ltac:(eauto)). unfold N, t. lia. }
  assert (Hperm : map f (seq 0 N) ≡ₚ all_chains pms).
  { symmetry. apply submseteq_Permutation_length_le; [by rewrite map_length, seq_length|].
    apply NoDup_submseteq; [by apply all_chains_nodup|exact Hsub]. }
  rewrite <- (total_perm _ _ _ Hperm), total_map. unfold tree_uses, uses_before. fold N.
  change (total (fun i => match tree_get t (N.of_nat i) with Some n => node_uses c n | None => 0 end) (seq 0 N) =
    total (fun i => chain_uses c (f i)) (seq 0 N)). apply total_ext.
  intros i Hi. assert (Hfi : f i ∈ all_chains pms) by (rewrite <- Hperm; apply elem_of_map; by exists i).
  apply all_chains_ok in Hfi as [Hne _]. unfold f in *. destruct (tree_get t (N.of_nat i)) as [n|] eqn:En; [|done].
  destruct (ao_node _ _ _ Ha _ n En) as (chain & _ & Hl & Hok & _). rewrite Hl. unfold node_uses, chain_uses.
  by rewrite (st_pm _ _ (no_static _ _ _ _ Hok)).
Qed.

Section rearranged.
  Context (p : profile) (mtb : merge_tb) (tb : tiebreak) (o : match_opts) (pms1 pms2 : list subquery).
  Context (H12 : forall a, a ∈ pms1 -> exists b, b ∈ pms2 /\ same_keys a b).

  Lemma chain_other c : (forall a, a ∈ c -> a ∈ pms1) -> exists c', Forall2 same_keys c c' /\ forall b, b ∈ c' -> b ∈ pms2.
  Proof.
    induction c as [|a c IH]; intros H; [exists []; split; [constructor|]; intros b Hb; by apply elem_of_nil in Hb|].
    destruct IH as (c' & Hf & Hc'). { intros x Hx. apply H. by right. }
    destruct (H12 a (H a ltac:(by left))) as (b & Hb & Hab). exists (b :: c'). split; [by constructor|].
    intros x Hx. apply elem_of_cons in Hx as [->|Hx]; [done|by apply Hc'].
  Qed.
  Lemma legal_other c : legal pms1 c -> exists c', Forall2 same_keys c c' /\ legal pms2 c'.
  Proof.
    intros Hl. destruct (chain_other c) as (c' & Hf & Hc'); [apply Hl|]. exists c'. split; [done|]. by eapply legal_same.
  Qed.
  (** What is found in the tree of one list is found in that of the other. *)
  Lemma exact_other : NoDup pms2 ->
    (forall cs, NoDup cs -> (forall c, c ∈ cs -> c <> [] /\ legal pms2 c) -> N.of_nat (length cs) < 2000) ->
    (forall b, b ∈ pms2 -> exists a, a ∈ pms1 /\ same_keys a b) -> NoDup pms1 ->
    (forall cs, NoDup cs -> (forall c, c ∈ cs -> c <> [] /\ legal pms1 c) -> N.of_nat (length cs) < 2000) ->
    forall c, exact p mtb tb (stackable pms1) o c -> exact p mtb tb (stackable pms2) o c.
  Proof.
    intros Hnd2 Hfew2 H21 Hnd1 Hfew1 c [(n & chain & es & Hns & Hst & ->)|
      (i & n & pm & k & ko & ms & cs & Hi & Hin & Hpm & Hl & Hk & Hko & Hms & Hcs & Hc)].
    - left. pose proof (node_nested _ _ _ _ _ _ _ _ Hns) as Hnest. pose proof (node_descends _ _ _ _ _ _ _ _ Hns) as Hdesc.
      destruct (C46_paths pms1 _ _ Hdesc) as [Hleg _].
      destruct (chain_other chain) as (chain' & Hf & Hin'). { intros a Ha. apply Hleg. apply elem_of_list_In. rewrite <- in_rev. by apply elem_of_list_In. }
      assert (Hfr : Forall2 same_keys (rev chain) (rev chain')).
      { clear -Hf. induction Hf as [|a b c c' H Hf IH]; [constructor|]. cbn [rev]. apply Forall2_app; [done|]. constructor; [done|constructor]. }
      assert (Hleg' : legal pms2 (rev chain')).
      { eapply legal_same; [exact Hleg|exact Hfr|]. intros b Hb. apply Hin'. apply elem_of_list_In. rewrite in_rev. by apply elem_of_list_In. }
      destruct (C47_complete pms2 Hnd2 Hfew2 _ Hleg') as [n' Hd']. exists n', chain', es.
      split; [eapply nested_node; [by eapply nested_same|done]|]. split; [|by apply context_same].
      destruct Hst as [Hst|Hch]; [left; by rewrite <- (Forall2_length _ _ _ Hf)|right].
      destruct (stackable_sound pms1) as (L & Ha & Hroot).
      pose proof (descends_ok pms1 L _ _ _ _ Ha Hdesc [] Hroot) as Hok. cbn [app] in Hok.
      destruct (no_next _ _ _ _ Hok Hch) as [pm Hl].
      destruct (H12 pm) as (pm' & Hpm' & Hs). { apply Hl. apply elem_of_app. right. by left. }
      assert (Hl' : legal pms2 (rev chain' ++ [pm'])).
      { eapply legal_same; [exact Hl|apply Forall2_app; [exact Hfr|by apply one_same]|].
        intros b Hb. apply elem_of_app in Hb as [Hb|Hb]; [by apply Hleg'|]. by apply elem_of_list_singleton in Hb as ->. }
      destruct (C47_complete pms2 Hnd2 Hfew2 _ Hl') as [m Hm]. apply descends_app in Hm as (n2 & Hn2 & Hm).
      assert (n2 = n') as -> by (eapply (path_unique (stackable pms2)); [by apply stackable_siblings|by left|exact Hn2|exact Hd']).
      apply descends_one in Hm as (j & Hj & _). intros E. rewrite E in Hj. by apply elem_of_nil in Hj.
    - right. assert (Hd : descends (tree_get (stackable pms1)) (t_root (stackable pms1)) [pm] n).
      { eapply desc_child; [exact Hi|exact Hin|exact Hpm|constructor]. }
      destruct (C46_paths pms1 _ _ Hd) as [Hleg _].
      destruct (H12 pm) as (pm' & Hpm' & Hs). { apply Hleg. by left. }
      assert (Hf : Forall2 same_keys [pm] [pm']) by (by apply one_same).
      assert (Hleg' : legal pms2 [pm']).
      { eapply legal_same; [exact Hleg|exact Hf|]. intros b Hb. by apply elem_of_list_singleton in Hb as ->. }
      destruct (C47_complete pms2 Hnd2 Hfew2 _ Hleg') as [n' Hd'].
      assert (Hl' : sn_children n' = []).
      { destruct (sn_children n') as [|x l] eqn:Ex; [done|exfalso]. destruct (stackable_sound pms2) as (L & Ha & Hroot).
        pose proof (descends_ok pms2 L _ _ _ _ Ha Hd' [] Hroot) as Hok. cbn [app] in Hok.
        destruct (no_next _ _ _ _ Hok) as [q' Hq']; [by rewrite Ex|].
        destruct (H21 q') as (q & Hq & Hqs). { apply Hq'. right. by left. }
        assert (Hlq : legal pms1 ([pm] ++ [q])).
        { eapply legal_same; [exact Hq'|apply chain_sym, Forall2_app; by apply one_same|]. intros b Hb.
          apply elem_of_app in Hb as [Hb|Hb]; [by apply Hleg|]. by apply elem_of_list_singleton in Hb as ->. }
        destruct (C47_complete pms1 Hnd1 Hfew1 _ Hlq) as [m Hm]. apply descends_app in Hm as (n2 & Hn2 & Hm).
        assert (n2 = n) as -> by (eapply (path_unique (stackable pms1)); [by apply stackable_siblings|by left|exact Hn2|exact Hd]).
        apply descends_one in Hm as (j & Hj & _). rewrite Hl in Hj. by apply elem_of_nil in Hj. }
      apply descends_one in Hd' as (j & Hj & Hn' & Hp'). exists j, n', pm', k, ko, ms, cs.
      do 4 (split; [done|]). destruct (same_keys_form _ _ Hs) as (ks & Eks & ->). split; [cbn; by rewrite Eks|].
      do 2 (split; [done|]). split; [|done].
      unfold tree_coalesce_single in *. by rewrite single_loop_keys.
  Qed.
End rearranged.

Section transfer.
  Context (p : profile) (mtb : merge_tb) (tb : tiebreak) (o : match_opts) (pms1 pms2 : list subquery).
  Context (Hr : rearranged pms1 pms2).
  Lemma to_second a : a ∈ pms1 -> exists b, b ∈ pms2 /\ same_keys a b.
  Proof.
    destruct Hr as (l & E & Hf). rewrite E. intros Ha. apply elem_of_list_lookup in Ha as [i Hi].
    destruct (Forall2_lookup_l _ _ _ _ _ Hf Hi) as (b & Hb & Hab). exists b. split; [by eapply elem_of_list_lookup_2|done].
  Qed.
  Lemma to_first b : b ∈ pms2 -> exists a, a ∈ pms1 /\ same_keys a b.
  Proof.
    destruct Hr as (l & E & Hf). setoid_rewrite E. intros Hb. apply elem_of_list_lookup in Hb as [i Hi].
    destruct (Forall2_lookup_r _ _ _ _ _ Hf Hi) as (a & Ha & Hab). exists a. split; [by eapply elem_of_list_lookup_2|done].
  Qed.
  Lemma to_first' b : b ∈ pms2 -> exists a, a ∈ pms1 /\ same_keys b a.
  Proof. intros Hb. destruct (to_first b Hb) as (a & Ha & H). exists a. split; [done|by apply same_keys_sym]. Qed.
  Context (Hown : own_ids (fun pm => pm ∈ pms1)) (Hnd : NoDup pms1).
  Lemma first_inj a a' b : a ∈ pms1 -> a' ∈ pms1 -> same_keys a b -> same_keys a' b -> a = a'.
  Proof.
    intros Ha Ha' H H'. eapply (own_same _ _ _ Hown); [done..|]. eapply same_keys_trans; [exact H|by apply same_keys_sym].
  Qed.
  Lemma pms2_nodup : NoDup pms2.
  Proof.
    destruct Hr as (l & El & Hf). assert (Hl : NoDup l) by (by rewrite <- El). apply NoDup_alt. intros i j b Hi Hj.
    destruct (Forall2_lookup_r _ _ _ _ _ Hf Hi) as (a & Ha & Hab), (Forall2_lookup_r _ _ _ _ _ Hf Hj) as (a' & Ha' & Hab').
    assert (a = a') as <-; [|by eapply NoDup_lookup].
    eapply first_inj; [| |exact Hab|exact Hab']; rewrite El; by eapply elem_of_list_lookup_2.
  Qed.
  Lemma second_inj a b b' : b ∈ pms2 -> b' ∈ pms2 -> same_keys a b -> same_keys a b' -> b = b'.
  Proof.
    intros Hb Hb' H H'. destruct Hr as (l & El & Hf). assert (Hl : NoDup l) by (by rewrite <- El).
    apply elem_of_list_lookup in Hb as [i Hi], Hb' as [j Hj].
    destruct (Forall2_lookup_r _ _ _ _ _ Hf Hi) as (x & Hx & Hxb), (Forall2_lookup_r _ _ _ _ _ Hf Hj) as (y & Hy & Hyb).
    assert (x = y) as <-.
    { eapply (first_inj x y a); [rewrite El; by eapply elem_of_list_lookup_2..| |].
      - eapply same_keys_trans; [exact Hxb|by apply same_keys_sym].
      - eapply same_keys_trans; [exact Hyb|by apply same_keys_sym]. }
    assert (i = j) as <- by (by eapply NoDup_lookup). congruence.
  Qed.
  Lemma own_other : own_ids (fun pm => pm ∈ pms2).
  Proof.
    intros b b' k k' Hb Hb' Hk Hk' E. destruct (to_first b Hb) as (a & Ha & Hab), (to_first b' Hb') as (a' & Ha' & Hab').
    assert (a = a') as <-; [|by eapply second_inj].
    eapply (Hown a a' k k'); [done..| | |done].
    - destruct Hab as (_ & _ & _ & _ & _ & Hp). by rewrite Hp.
    - destruct Hab' as (_ & _ & _ & _ & _ & Hp). by rewrite Hp.
  Qed.
  (** The chains of both lists correspond to each other. *)
  Lemma chains_match : exists l, all_chains pms1 ≡ₚ l /\ Forall2 (Forall2 same_keys) l (all_chains pms2).
  Proof.
    apply match_up.
    - by apply all_chains_nodup.
    - apply all_chains_nodup, pms2_nodup.
    - intros c Hc. apply all_chains_ok in Hc as [Hne Hl]. destruct (legal_other pms1 pms2 to_second c Hl) as (c' & Hf & Hl').
      exists c'. split; [|done]. apply all_chains_ok. split; [|done]. intros ->. by inversion Hf; subst.
    - intros c Hc. apply all_chains_ok in Hc as [Hne Hl]. destruct (legal_other pms2 pms1 to_first' c Hl) as (c' & Hf & Hl').
      exists c'. split; [|by apply chain_sym]. apply all_chains_ok. split; [|done]. intros ->. by inversion Hf; subst.
    - intros c c' d Hc Hc' H H'. apply all_chains_ok in Hc as [_ (Hc & _)], Hc' as [_ (Hc' & _)].
      eapply (chain_same _ _ _ Hown); [done..|]. eapply chain_trans; [exact H|by apply chain_sym].
    - intros c d d' Hd Hd' H H'. apply all_chains_ok in Hd as [_ (Hd & _)], Hd' as [_ (Hd' & _)].
      eapply (chain_same _ _ _ own_other); [done..|]. eapply chain_trans; [by apply chain_sym|exact H'].
  Qed.
  Lemma few_other :
    (forall cs, NoDup cs -> (forall c, c ∈ cs -> c <> [] /\ legal pms1 c) -> N.of_nat (length cs) < 2000) ->
    forall cs, NoDup cs -> (forall c, c ∈ cs -> c <> [] /\ legal pms2 c) -> N.of_nat (length cs) < 2000.
  Proof.
    intros Hfew. apply few_chains. destruct chains_match as (l & E & Hf). rewrite <- (Forall2_length _ _ _ Hf), <- E.
    apply Hfew; [by apply all_chains_nodup|]. intros c. by apply all_chains_ok.
  Qed.
  Lemma fit_other : fit_for_C60 p mtb tb pms1 o -> fit_for_C60 p mtb tb pms2 o.
  Proof.
    intros (_ & Hfew & Hfin & Hname & Hdist & Hzoom & Hcov).
    assert (Hk : forall a b k, same_keys a b -> k ∈ sq_keys b -> k ∈ sq_keys a).
    { intros a b k (_ & _ & _ & _ & _ & Hp) H. by rewrite Hp. }
    split; [apply pms2_nodup|]. split; [by apply few_other|]. split; [|split; [|split; [|split]]].
    - intros c Hc. destruct (legal_other pms2 pms1 to_first' c Hc) as (c' & Hf & Hl). rewrite (weights_same _ _ Hf). by apply Hfin.
    - intros b b' k k' Hb Hb' Hkb Hkb' E. destruct (to_first b Hb) as (a & Ha & Hab), (to_first b' Hb') as (a' & Ha' & Hab').
      destruct (Hname a a' k k' Ha Ha') as (E1 & E2 & E3); [by eapply Hk|by eapply Hk|done|].
      split; [|done]. destruct Hab as (<- & _), Hab' as (<- & _). done.
    - intros b Hb. destruct (to_first b Hb) as (a & Ha & (_ & _ & _ & _ & _ & Hp)). specialize (Hdist a Ha).
      unfold ids_distinct in *. by rewrite <- Hp.
    - intros b b' Hb Hb'. destruct (to_first b Hb) as (a & Ha & (E & _)), (to_first b' Hb') as (a' & Ha' & (E' & _)).
      specialize (Hzoom a a' Ha Ha'). unfold type_of, zoom_of in *. by rewrite <- E, <- E'.
    - intros b e Hb He. destruct (to_first b Hb) as (a & Ha & Hs).
      destruct (Hcov a e Ha) as (bb & H1 & H2); [by eapply entry_same; [apply same_keys_sym|]|].
      exists bb. destruct Hs as (<- & _). done.
  Qed.
  Lemma chain_uses_same c l l' : Forall2 same_keys l l' -> chain_uses c l = chain_uses c l'.
  Proof using.
    clear. intros Hf. unfold chain_uses.
    assert (Hl : match last l, last l' with Some a, Some b => same_keys a b | None, None => True | _, _ => False end).
    { induction Hf as [|a b l l' Hab Hf IH]; [done|]. destruct Hf; [done|]. exact IH. }
    destruct (last l) as [a|], (last l') as [b|]; [|done..].
    pose proof Hl as (Es & _ & _ & _ & Em & Hp). unfold tally. f_equal.
    assert (Hu : forall k, under_quota c a k = under_quota c b k).
    { intros k. destruct c; unfold under_quota, one_word, far_reaching, high_zoom, zoom_of; by rewrite ?Em, ?Es. }
    rewrite (List.filter_ext _ _ Hu). clear -Hp. revert Hp. generalize (sq_keys a), (sq_keys b), (under_quota c b). clear. intros l l' f H.
    induction H as [|x l l' H IH|x y l|l l' l'' H IH H' IH']; cbn [List.filter]; [done| | |congruence].
    - destruct (f x); cbn [length]; congruence.
    - by destruct (f x), (f y).
  Qed.
  Lemma uses_other c : (forall cs, NoDup cs -> (forall c, c ∈ cs -> c <> [] /\ legal pms1 c) -> N.of_nat (length cs) < 2000) ->
    tree_uses c (stackable pms2) = tree_uses c (stackable pms1).
  Proof.
    intros Hfew. rewrite (uses_chains c pms1 Hnd Hfew), (uses_chains c pms2 pms2_nodup (few_other Hfew)).
    destruct chains_match as (l & E & Hf). rewrite (total_perm _ _ _ E). clear E. unfold total.
    induction Hf as [|x y l l' Hxy Hf IH]; [done|]. cbn [foldr]. rewrite IH. by rewrite (chain_uses_same c x y Hxy).
  Qed.
  Lemma roomy_other : (forall cs, NoDup cs -> (forall c, c ∈ cs -> c <> [] /\ legal pms1 c) -> N.of_nat (length cs) < 2000) ->
    roomy p mtb tb o pms1 -> roomy p mtb tb o pms2.
  Proof.
    intros Hfew (R1 & R2 & R3 & R4). split; [|split; [|split]].
    - intros c. rewrite (uses_other c Hfew). apply R1.
    - intros b k Hb Hk. destruct (to_first b Hb) as (a & Ha & (Es & _ & _ & _ & Em & Hp)). rewrite <- Hp in Hk.
      specialize (R2 a k Ha Hk). unfold one_word, high_zoom, zoom_of in *. by rewrite <- Em, <- Es.
    - intros chain id Hl D Hd HD. destruct (chain_other pms2 pms1 to_first' chain) as (chain' & Hf & Hin).
      { intros b Hb. apply Hl. apply elem_of_list_In. rewrite <- in_rev. by apply elem_of_list_In. }
      apply (R3 chain' id); [|done|].
      + eapply legal_same; [exact Hl| |].
        * clear -Hf. induction Hf as [|a b c c' H Hf IH]; [constructor|]. cbn [rev]. apply Forall2_app; [done|by apply one_same].
        * intros b Hb. apply Hin. apply elem_of_list_In. rewrite in_rev. by apply elem_of_list_In.
      + intros es Hes. destruct (HD es Hes) as [H1 H2]. split; [by eapply nested_same|done].
    - intros b k ms Hb Hms. destruct (to_first' b Hb) as (a & Ha & Hs). eapply R4; [exact Ha|]. by eapply leaf_same.
  Qed.
End transfer.

(** ** C82 The order of the subqueries does not show below the limits *)
(** Two runs of tree_coalesce for the same subqueries, given in any order and with their
    keys in any order, return the same results, if one of them returned less than 800. *)
Theorem C82_tree :
  forall p ho1 ho2 mtb tb fuel1 fuel2 pms1 pms2 o out1 out2,
  rearranged pms1 pms2 ->
  fit_for_C60 p mtb tb pms1 o -> own_ids (fun pm => pm ∈ pms1) -> roomy p mtb tb o pms1 ->
  tree_coalesce p ho1 mtb tb fuel1 (stackable pms1) o = Ok out1 ->
  tree_coalesce p ho2 mtb tb fuel2 (stackable pms2) o = Ok out2 ->
  (length out1 < 800)%nat -> out1 ≡ₚ out2.
Proof.
  intros p ho1 ho2 mtb tb fuel1 fuel2 pms1 pms2 o out1 out2 Hr Hfit Hown Hroom H1 H2 Hlen.
  pose proof Hfit as (Hnd & Hfew & _).
  pose proof (fit_other p mtb tb o pms1 pms2 Hr Hown Hnd Hfit) as Hfit2. pose proof Hfit2 as (Hnd2 & Hfew2 & _).
  pose proof (own_other pms1 pms2 Hr Hown Hnd) as Hown2.
  pose proof (roomy_other p mtb tb o pms1 pms2 Hr Hown Hnd Hfew Hroom) as Hroom2.
  destruct (room_only _ _ _ _ _ _ _ _ Hfit Hown H1) as [E1 N1]. destruct (room_only _ _ _ _ _ _ _ _ Hfit2 Hown2 H2) as [E2 N2].
  assert (X12 : forall c, exact p mtb tb (stackable pms1) o c -> exact p mtb tb (stackable pms2) o c).
  { apply exact_other; [by apply to_second|done|done|by apply to_first|done|done]. }
  assert (X21 : forall c, exact p mtb tb (stackable pms2) o c -> exact p mtb tb (stackable pms1) o c).
  { apply exact_other; [by apply to_first'|done|done| |done|done].
    intros a Ha. destruct (to_second pms1 pms2 Hr a Ha) as (b & Hb & Hs). exists b. split; [done|by apply same_keys_sym]. }
  assert (S21 : forall c, c ∈ out2 -> c ∈ out1) by (intros c Hc; by eapply room_all, X21, E2).
  assert (Hlen2 : (length out2 < 800)%nat).
  { enough (length out2 <= length out1)%nat by lia. apply submseteq_length, NoDup_submseteq; [done|exact S21]. }
  apply NoDup_Permutation; [done..|]. intros c. split; [|apply S21]. intros Hc. by eapply room_all, X12, E1.
Qed.
Print Assumptions C82_tree.

(** ** The same for a whole request *)
(** The keys of a group are those of its members, in order. *)
Lemma splits_filter pm l ks rest : splits pm l ks rest -> (forall q, q ∈ l -> length (sq_keys q) = 1%nat) ->
  ks = mjoin (map sq_keys (List.filter (fun q => same_group q pm) l)).
Proof.
  induction 1 as [|q k ks' l ks rest H1 H2 H3 IH|q l ks rest H1 H2 IH]; intros H; cbn [List.filter]; [done| |].
  - apply same_group_iff in H1. rewrite H1. cbn [map]. change (mjoin (?a :: ?b)) with (a ++ mjoin b).
    rewrite <- IH by (intros; apply H; by right). assert (E : length (sq_keys q) = 1%nat) by (apply H; by left).
    rewrite H2 in *. by destruct ks'.
  - destruct (same_group q pm) eqn:E; [by apply same_group_iff in E|]. apply IH. intros; apply H; by right.
Qed.
Lemma splits_others pm l ks rest g : splits pm l ks rest -> ~ together pm g ->
  List.filter (fun q => same_group q g) rest = List.filter (fun q => same_group q g) l.
Proof.
  intros H Hn. induction H as [|q k ks' l ks rest H1 H2 H3 IH|q l ks rest H1 H2 IH]; cbn [List.filter]; [done| |by rewrite IH].
  destruct (same_group q g) eqn:E; [|done]. apply same_group_iff in E. destruct Hn. eapply together_trans; [by apply together_sym|done].
Qed.
Lemma collapses_keys pms out : collapses pms out -> (forall q, q ∈ pms -> length (sq_keys q) = 1%nat) ->
  forall g, g ∈ out -> sq_keys g = mjoin (map sq_keys (List.filter (fun q => same_group q g) pms)).
Proof.
  intros Hc. induction Hc as [|pm l ks rest out Hs Hc IH]; intros H g Hg; [by apply elem_of_nil in Hg|].
  assert (Hl : forall q, q ∈ l -> length (sq_keys q) = 1%nat) by (intros; apply H; by right).
  apply elem_of_cons in Hg as [->|Hg].
  - cbn [List.filter]. rewrite (proj2 (same_group_iff pm (Spec_native.with_keys pm (sq_keys pm ++ ks)))) by apply (together_refl pm).
    cbn [map Spec_native.with_keys sq_keys]. change (mjoin (?a :: ?b)) with (a ++ mjoin b). apply (f_equal (app (sq_keys pm))).
    exact (splits_filter pm l ks rest Hs Hl).
  - assert (Hn : ~ together pm g).
    { destruct (collapses_from _ _ Hc g Hg) as (q & ks' & Hq & -> & _). intros Ht. apply (splits_rest _ _ _ _ Hs) in Hq as [_ Hq].
      apply Hq. apply together_sym. exact Ht. }
    cbn [List.filter]. destruct (same_group pm g) eqn:E; [by apply same_group_iff in E|].
    rewrite <- (splits_others pm l ks rest g Hs Hn). apply IH; [|done]. intros q Hq. apply Hl. by apply (splits_rest _ _ _ _ Hs).
Qed.
Lemma filter_perm {A} (f : A -> bool) l l' : l ≡ₚ l' -> List.filter f l ≡ₚ List.filter f l'.
Proof.
  intros H. induction H as [|x l l' H IH|x y l|l l' l'' H IH H' IH']; cbn [List.filter]; [done| | |by etransitivity].
  - destruct (f x); by rewrite IH.
  - destruct (f x), (f y); try done. apply Permutation_swap.
Qed.
Lemma groups_rearranged pms1 pms2 groups1 groups2 :
  pms1 ≡ₚ pms2 -> (forall q, q ∈ pms1 -> length (sq_keys q) = 1%nat) -> NoDup (map mki_id (mjoin (map sq_keys pms1))) ->
  groups_agree pms1 -> collapses pms1 groups1 -> collapses pms2 groups2 -> rearranged groups1 groups2.
Proof.
  intros Hp Hone Hnd Hag Hc1 Hc2.
  assert (Hnd2 : NoDup (map mki_id (mjoin (map sq_keys pms2)))) by (by rewrite <- Hp).
  assert (Hone2 : forall q, q ∈ pms2 -> length (sq_keys q) = 1%nat) by (intros q; rewrite <- Hp; apply Hone).
  assert (Hag2 : groups_agree pms2) by (intros a b; rewrite <- Hp; apply Hag).
  assert (Hsame : forall g1 g2, g1 ∈ groups1 -> g2 ∈ groups2 -> alike g1 g2 -> same_keys g1 g2).
  { intros g1 g2 Hg1 Hg2 (A1 & A2 & A3 & A4 & A5). repeat split; [done..|].
    rewrite (collapses_keys _ _ Hc1 Hone g1 Hg1), (collapses_keys _ _ Hc2 Hone2 g2 Hg2).
    rewrite (List.filter_ext (fun q => same_group q g1) (fun q => same_group q g2)).
    - by rewrite (filter_perm _ _ _ Hp).
    - intros q. unfold same_group. by rewrite A2, A4, A5. }
  assert (Hone_key : forall q, q ∈ pms1 -> exists k, k ∈ sq_keys q).
  { intros q Hq. specialize (Hone q Hq). destruct (sq_keys q) as [|k ks]; [done|]. exists k. by left. }
  assert (Hsym : forall a b, alike a b -> alike b a) by (intros a b (A1 & A2 & A3 & A4 & A5); split_and!; by symmetry).
  assert (Htr : forall a b c, alike a b -> alike b c -> alike a c).
  { intros a b c (A1 & A2 & A3 & A4 & A5) (B1 & B2 & B3 & B4 & B5). split_and!; congruence. }
  assert (Htog : forall a b, same_keys a b -> together a b).
  { intros a b (A1 & A2 & A3 & A4 & A5 & _). apply alike_together. split_and!; done. }
  apply match_up.
  - eapply (group_nodup pms1 groups1); eauto.
  - eapply (group_nodup pms2 groups2); eauto.
  - intros g Hg. destruct (group_member pms1 groups1 Hone Hag Hc1 g Hg) as (q & Hq & Ha).
    destruct (Hone_key q Hq) as [k Hk]. rewrite Hp in Hq. destruct (member_group pms2 groups2 Hone2 Hnd2 Hag2 Hc2 q k Hq Hk) as (g' & Hg' & Ha' & _).
    exists g'. split; [done|]. apply Hsame; [done..|]. eapply Htr; [exact Ha|by apply Hsym].
  - intros g Hg. destruct (group_member pms2 groups2 Hone2 Hag2 Hc2 g Hg) as (q & Hq & Ha).
    rewrite <- Hp in Hq. destruct (Hone_key q Hq) as [k Hk]. destruct (member_group pms1 groups1 Hone Hnd Hag Hc1 q k Hq Hk) as (g' & Hg' & Ha' & _).
    exists g'. split; [done|]. apply Hsame; [done..|]. eapply Htr; [exact Ha'|by apply Hsym].
  - intros a a' b Ha Ha' H H'. eapply (group_same pms1 groups1); eauto. eapply together_trans; [by apply Htog|apply together_sym; by apply Htog].
  - intros a b b' Hb Hb' H H'. eapply (group_same pms2 groups2); eauto. eapply together_trans; [apply together_sym; by apply Htog|by apply Htog].
Qed.
(** The subqueries of a request may be given in any order, as long as those that are put
    together agree. *)
Theorem C82_request :
  forall p ho1 ho2 mtb tb pms1 pms2 groups o out1 out2,
  pms1 ≡ₚ pms2 -> (forall q, q ∈ pms1 -> length (sq_keys q) = 1%nat) -> NoDup (map mki_id (mjoin (map sq_keys pms1))) ->
  groups_agree pms1 -> collapse_phrasematches pms1 = Ok groups ->
  fit_for_C60 p mtb tb groups o -> roomy p mtb tb o groups ->
  stack_and_coalesce p ho1 mtb tb pms1 o = Ok out1 -> stack_and_coalesce p ho2 mtb tb pms2 o = Ok out2 ->
  (length out1 < 800)%nat -> out1 ≡ₚ out2.
Proof.
  intros p ho1 ho2 mtb tb pms1 pms2 groups o out1 out2 Hp Hone Hnd Hag Hg Hfit Hroom H1 H2 Hlen.
  destruct (own_ids_all groups) as [Hown _]; [eapply (group_ids pms1); eauto; by apply C54_collapse|].
  unfold stack_and_coalesce in H1, H2. rewrite Hg in H1. cbn in H1. apply bind_Ok in H2 as (groups2 & Hg2 & H2).
  eapply C82_tree; [eapply groups_rearranged; [exact Hp|exact Hone|exact Hnd|exact Hag|by apply C54_collapse|by apply C54_collapse]|
    exact Hfit|exact Hown|exact Hroom|exact H1|exact H2|exact Hlen].
Qed.
Print Assumptions C82_request.

(** Three subqueries, two of which are put together, in two orders. *)
Definition m_groups : list subquery := ok_list (collapse_phrasematches [t_b; t_a; t_b2]).
Definition m_out (ho_ : hash_oracle) (pms : list subquery) : list coalesce_context :=
  ok_list (stack_and_coalesce Debug ho_ first_mtb last_tb pms t_opts).
Example C82_ex :
  [t_b; t_a; t_b2] ≡ₚ [t_b2; t_b; t_a] /\ (forall q, q ∈ [t_b; t_a; t_b2] -> length (sq_keys q) = 1%nat) /\
  NoDup (map mki_id (mjoin (map sq_keys [t_b; t_a; t_b2]))) /\ groups_agree [t_b; t_a; t_b2] /\
  collapse_phrasematches [t_b; t_a; t_b2] = Ok m_groups /\
  map (fun g => map mki_id (sq_keys g)) m_groups = [[11; 12]; [10]] /\
  fit_for_C60 Debug first_mtb last_tb m_groups t_opts /\
  roomy Debug first_mtb last_tb t_opts m_groups /\
  stack_and_coalesce Debug id_oracle first_mtb last_tb [t_b; t_a; t_b2] t_opts = Ok (m_out id_oracle [t_b; t_a; t_b2]) /\
  stack_and_coalesce Debug rev_oracle first_mtb last_tb [t_b2; t_b; t_a] t_opts = Ok (m_out rev_oracle [t_b2; t_b; t_a]) /\
  length (m_out id_oracle [t_b; t_a; t_b2]) = 19%nat.
Proof.
  split. { rewrite (Permutation_cons_append [t_b; t_a] t_b2). done. }
  split. { intros q Hq. rewrite !elem_of_cons, elem_of_nil in Hq. destruct Hq as [->|[->|[->|[]]]]; reflexivity. }
  split; [apply (bool_decide_eq_true_1 _); vm_compute; reflexivity|]. split; [apply C59_ex|]. split; [unfold m_groups; apply ok_list_ok; vm_compute; exact I|]. split; [vm_compute; reflexivity|].
  split; [apply fit_ok; vm_compute; reflexivity|].
  split; [apply roomy_ok; vm_compute; reflexivity|].
  split; [unfold m_out; apply ok_list_ok; vm_compute; exact I|]. split; [unfold m_out; apply ok_list_ok; vm_compute; exact I|].
  vm_compute. reflexivity.
Qed.

(** Beyond the quotas the order shows: of nine autocomplete ranges of one letter the last
    one is not looked up. *)
Definition q_b' : subquery := with_keys q_b (rev (sq_keys q_b)).
Lemma not_same id x y n :
  match x, y with
  | Ok out1, Ok out2 => has_id id out1 && negb (has_id id out2) && Nat.leb (length out1) n && Nat.leb (length out2) n
  | _, _ => false
  end = true ->
  exists out1 out2, x = Ok out1 /\ y = Ok out2 /\ (length out1 <= n)%nat /\ (length out2 <= n)%nat /\ ~ out1 ≡ₚ out2.
Proof.
  destruct x as [out1| | |]; try done. destruct y as [out2| | |]; try done. intros [[[H1 H2]%andb_prop H3]%andb_prop H4]%andb_prop.
  exists out1, out2. split; [done|]. split; [done|]. split; [by apply Nat.leb_le|]. split; [by apply Nat.leb_le|]. intros Hp.
  apply negb_true_iff in H2. enough (has_id id out2 = true) by congruence. apply existsb_exists in H1 as (d & Hd & H1).
  apply existsb_exists. exists d. split; [|done]. apply elem_of_list_In. rewrite <- Hp. by apply elem_of_list_In.
Qed.
Theorem C82_quota_refuted :
  exists pms1 pms2 o out1 out2, rearranged pms1 pms2 /\
  fit_for_C60 Debug first_mtb first_tb pms1 o /\ own_ids (fun pm => pm ∈ pms1) /\
  tree_coalesce Debug id_oracle first_mtb first_tb 99 (stackable pms1) o = Ok out1 /\
  tree_coalesce Debug id_oracle first_mtb first_tb 99 (stackable pms2) o = Ok out2 /\
  (length out1 <= 9)%nat /\ (length out2 <= 9)%nat /\ ~ out1 ≡ₚ out2.
Proof.
  exists q_all, [q_a; q_b'], t_opts.
  destruct (not_same 1 (tree_coalesce Debug id_oracle first_mtb first_tb 99 (stackable q_all) t_opts)
    (tree_coalesce Debug id_oracle first_mtb first_tb 99 (stackable [q_a; q_b']) t_opts) 9) as (out1 & out2 & H); [vm_compute; reflexivity|].
  exists out1, out2. split; [|split; [exact q_fit|split; [|exact H]]].
  - exists q_all. split; [done|]. constructor; [repeat split; done|]. constructor; [|constructor].
    split_and!; try reflexivity. change (sq_keys q_b') with (rev (sq_keys q_b)). apply Permutation_rev.
  - apply own_ids_ok. apply (bool_decide_eq_true_1 _). vm_compute. reflexivity.
Qed.
Print Assumptions C82_quota_refuted.
(** Nor need the results be the same if subqueries that are put together are for different
    stores: the store of the first is used for all of them. *)
Definition m_odd : subquery := Subquery (sq_store t_z) (sq_idx t_b) 0 (sq_weight t_b) (sq_mask t_b) (sq_keys t_b2).
Theorem C82_agree_refuted :
  exists pms1 pms2 o out1 out2, pms1 ≡ₚ pms2 /\ (forall q, q ∈ pms1 -> length (sq_keys q) = 1%nat) /\
  NoDup (map mki_id (mjoin (map sq_keys pms1))) /\
  stack_and_coalesce Debug id_oracle first_mtb last_tb pms1 o = Ok out1 /\
  stack_and_coalesce Debug id_oracle first_mtb last_tb pms2 o = Ok out2 /\
  (length out1 < length out2)%nat.
Proof.
  exists [m_odd; t_b], [t_b; m_odd], t_opts, (m_out id_oracle [m_odd; t_b]), (m_out id_oracle [t_b; m_odd]).
  split; [apply Permutation_swap|].
  split. { intros q Hq. rewrite !elem_of_cons, elem_of_nil in Hq. destruct Hq as [->|[->|[]]]; reflexivity. }
  split; [apply (bool_decide_eq_true_1 _); vm_compute; reflexivity|].
  split; [unfold m_out; apply ok_list_ok; vm_compute; exact I|]. split; [unfold m_out; apply ok_list_ok; vm_compute; exact I|].
  apply Nat.ltb_lt. vm_compute. reflexivity.
Qed.
Print Assumptions C82_agree_refuted.
