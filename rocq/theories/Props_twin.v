(** Property C86: what no key of a request asks for does not show in its results. *)
From Verif Require Import Prelude Lists F64 Heap Common Morton Format Builder Spatial Store Query Coalesce Stackable Tree
  Spec Spec_match Spec_frame Spec_twin Twin_proofs Frame_proofs Props_rebuild Props_frame Examples.
From Coq Require Import Sorting.Sorted.
Local Open Scope N_scope.

(** The results are a function of the subqueries, of what is known of their stores without reading them, and of the
    answers to the keys of the subqueries. *)
Theorem C86_flat :
  forall p ho_ mtb tb pms pms' o,
  Forall2 (fun a b => twin p mtb tb (at_once a b) a b) pms pms' ->
  coalesce p ho_ mtb tb pms o = coalesce p ho_ mtb tb pms' o.
Proof.
  intros p ho_ mtb tb pms pms' o H. apply coalesce_rel. eapply Forall2_impl; [exact H|].
  intros a b Hab. by apply (sqK_sqR p mtb tb (fun _ => at_once a b)).
Qed.
Print Assumptions C86_flat.

Theorem C86_tree :
  forall p ho_ mtb tb pms pms' o, by_order tb ->
  Forall2 (fun a b => twin p mtb tb (asked pms pms' (sq_idx a)) a b) pms pms' ->
  stack_and_coalesce p ho_ mtb tb pms o = stack_and_coalesce p ho_ mtb tb pms' o.
Proof.
  intros p ho_ mtb tb pms pms' o Htb H. by apply (stack_and_coalesce_rel p mtb tb Htb (asked pms pms')).
Qed.
Print Assumptions C86_tree.

(** Two subqueries on stores that were built from histories which agree on the keys [K]. *)
Definition same_asked (K : match_key_id -> Prop) (a b : subquery) : Prop :=
  (sq_idx a, sq_nonoverlap a, sq_weight a, sq_mask a, sq_keys a) =
  (sq_idx b, sq_nonoverlap b, sq_weight b, sq_mask b, sq_keys b) /\
  same_options (sq_store a) (sq_store b) /\ st_radius (sq_store a) = st_radius (sq_store b) /\
  exists ho1 ho2 ops ops', history_ok ops /\ history_ok ops' /\ no_empty_compact ops /\ no_empty_compact ops' /\
    built ho1 ops (sq_store a) /\ built ho2 ops' (sq_store b) /\
    forall k, K k -> let ph := mk_phrase (mki_key k) in
      query_ok ops ph /\ query_ok ops' ph /\ same_source ph ops ops' /\ agree_on ph ops ops'.
Lemma same_asked_twin p mtb tb (K : match_key_id -> Prop) (K' : match_key_id -> match_key_id -> Prop) a b :
  same_asked K a b -> Forall2 K' (sq_keys a) (sq_keys b) -> (forall k k', K' k k' -> k = k' /\ K k) -> twin p mtb tb K' a b.
Proof.
  intros (E & Ho & Hr & ho1 & ho2 & ops & ops' & H1 & H2 & H3 & H4 & H5 & H6 & H) HK HK'. injection E as E1 E2 E3 E4 E5.
  constructor; try done.
  - intros k k' Hk. by destruct (HK' _ _ Hk) as [-> _].
  - intros k k' o n Hk. destruct (HK' _ _ Hk) as [<- Hk2]. destruct (H k Hk2) as (Q1 & Q2 & Hs & Ha).
    by apply (C85_frame ho1 ho2 ops ops').
Qed.
Lemma at_once_all a b : length (sq_keys a) = length (sq_keys b) -> Forall2 (at_once a b) (sq_keys a) (sq_keys b).
Proof. intros E. apply Forall2_same_length_lookup. split; [done|]. intros i x y Hx Hy. by exists i. Qed.
Definition asked_for (pms : list subquery) (i : N) (k : match_key_id) : Prop :=
  exists pm, pm ∈ pms /\ sq_idx pm = i /\ k ∈ sq_keys pm.
Theorem C86_frame :
  forall pms pms',
  (Forall2 (fun a b => same_asked (fun k => k ∈ sq_keys a) a b) pms pms' ->
     forall p ho_ mtb tb o, coalesce p ho_ mtb tb pms o = coalesce p ho_ mtb tb pms' o) /\
  (Forall2 (fun a b => same_asked (asked_for pms (sq_idx a)) a b) pms pms' ->
     forall p ho_ mtb tb o, by_order tb ->
       stack_and_coalesce p ho_ mtb tb pms o = stack_and_coalesce p ho_ mtb tb pms' o).
Proof.
  assert (Hk : forall K a b, same_asked K a b -> sq_keys a = sq_keys b) by (intros K a b [E _]; congruence).
  intros pms pms'. split.
  - intros H p ho_ mtb tb o. apply C86_flat. eapply Forall2_impl; [exact H|]. intros a b Hab.
    pose proof (Hk _ _ _ Hab) as E. eapply same_asked_twin; [exact Hab|apply at_once_all; by rewrite E|].
    intros k k' (n & H1 & H2). rewrite <- E in H2. split; [congruence|]. by eapply elem_of_list_lookup_2.
  - intros H p ho_ mtb tb o Htb. apply C86_tree; [done|]. apply Forall2_same_length_lookup.
    split; [by eapply Forall2_length|]. intros i a b Ha Hb.
    pose proof (Forall2_lookup_lr _ _ _ _ _ _ H Ha Hb) as Hab. pose proof (Hk _ _ _ Hab) as E.
    eapply same_asked_twin; [exact Hab| |].
    + eapply Forall2_impl; [apply at_once_all; by rewrite E|]. intros k k' Hkk. by exists i, a, b.
    + intros k k' (n & a' & b' & Ha' & Hb' & Hi & m & H1 & H2).
      rewrite <- (Hk _ _ _ (Forall2_lookup_lr _ _ _ _ _ _ H Ha' Hb')) in H2. split; [congruence|].
      exists a'. split; [by eapply elem_of_list_lookup_2|]. split; [done|]. by eapply elem_of_list_lookup_2.
Qed.
Print Assumptions C86_frame.

(** The tie-breaks used in the examples are of the kind assumed. *)
Lemma first_by_order : by_order first_tb.
Proof. by intros R HR log log' H. Qed.
Lemma last_by_order : by_order last_tb.
Proof. intros R HR log log' H. unfold last_tb. by eapply Forall2_length. Qed.

(** A request of two layers on two pairs of stores that agree on little more than the phrases
    that are asked for; one layer is answered from bins. *)
Definition tw_store (ops : list op) (type : N) : store :=
  open_store (ex_db id_oracle ops) 6 type (f_of_N 400) [BBox 0 0 16383 16383] f_one.
Definition tw_key (ph : match_phrase) (id : N) : match_key_id := MatchKeyWithId (MatchKey ph 1) false id 5.
Definition tw_a (ops : list op) : subquery := Subquery (tw_store ops 1) 1 0 (f_lit 5 10) 1 [tw_key (Range 0 5) 1].
Definition tw_b (ops : list op) : subquery := Subquery (tw_store ops 2) 2 0 (f_lit 5 10) 2 [tw_key (Exact 1) 2].
Definition tw_opts0 : match_opts := MatchOpts None None 6.
Lemma fr_built type : built id_oracle fr_1 (tw_store fr_1 type) /\ built id_oracle fr_2 (tw_store fr_2 type).
Proof. split; apply built_run; vm_compute; reflexivity. Qed.
Lemma agree_narrow ph ph' ops ops' :
  (forall x, phrase_sel ph' x = true -> phrase_sel ph x = true) -> agree_on ph ops ops' -> agree_on ph' ops ops'.
Proof. intros H Ha k Hk. by apply Ha, H. Qed.
Lemma fr_same_asked idx type w m ks (K : match_key_id -> Prop) :
  (forall k, K k -> mk_phrase (mki_key k) = Range 0 5 \/ mk_phrase (mki_key k) = Exact 1) ->
  same_asked K (Subquery (tw_store fr_1 type) idx 0 w m ks) (Subquery (tw_store fr_2 type) idx 0 w m ks).
Proof.
  intros HK. split; [done|]. split; [done|]. split; [done|]. exists id_oracle, id_oracle, fr_1, fr_2.
  split; [apply C85_ex|]. split; [apply C85_ex|]. split; [apply C85_ex|]. split; [apply C85_ex|].
  split; [apply fr_built|]. split; [apply fr_built|]. intros k Hk. cbv zeta.
  destruct (HK k Hk) as [-> | ->].
  - destruct C85_ex as (_ & _ & _ & _ & H1 & H2 & H3 & H4 & _). done.
  - split; [done|]. split; [done|]. split; [left; reflexivity|].
    eapply agree_narrow; [|exact fr_agree]. intros x Hx. cbn in *. apply N.eqb_eq in Hx as ->. done.
Qed.
Definition tw_out (r : res (list coalesce_context)) : list (N * list N) :=
  match r with Ok l => map (fun c => (cc_mask c, map (fun e => ge_y (ce_entry e)) (cc_entries c))) l | _ => [] end.
Example C86_ex :
  let pms := [tw_a fr_1; tw_b fr_1] in let pms' := [tw_a fr_2; tw_b fr_2] in
  Forall2 (fun a b => same_asked (asked_for pms (sq_idx a)) a b) pms pms' /\
  Forall2 (fun a b => same_asked (fun k => k ∈ sq_keys a) a b) pms pms' /\ sq_store (tw_a fr_1) <> sq_store (tw_a fr_2) /\
  tw_out (stack_and_coalesce Debug id_oracle first_mtb first_tb pms tw_opts0) <> [] /\
  tw_out (coalesce Debug id_oracle first_mtb first_tb pms tw_opts0) <> [].
Proof.
  assert (HA : forall i k, asked_for [tw_a fr_1; tw_b fr_1] i k -> mk_phrase (mki_key k) = Range 0 5 \/ mk_phrase (mki_key k) = Exact 1).
  { intros i k (pm & Hpm & _ & Hk). rewrite !elem_of_cons, elem_of_nil in Hpm.
    destruct Hpm as [->|[->|[]]]; cbn in Hk; apply elem_of_list_singleton in Hk as ->; auto. }
  intros pms pms'. split; [|split; [|split; [|split]]].
  - repeat constructor; apply fr_same_asked; intros k Hk; by eapply HA.
  - repeat constructor; apply fr_same_asked; intros k Hk; cbn in Hk; apply elem_of_list_singleton in Hk as ->; auto.
  - intros E. apply (f_equal (fun s => get s (7, 1))) in E. vm_compute in E. discriminate.
  - vm_compute. discriminate.
  - vm_compute. discriminate.
Qed.

(** It is not enough that each store agrees on the keys of its own subquery: of two subqueries
    with the same index, weight and mask the second is read from the store of the first. *)
Definition tw_c (ops : list op) : subquery := Subquery (tw_store ops 1) 1 0 (f_lit 5 10) 1 [tw_key (Exact 1) 1].
Definition tw_d : subquery := Subquery (tw_store fr_1 1) 1 0 (f_lit 5 10) 1 [tw_key (Exact 7) 2].
Theorem C86_own_keys_refuted :
  exists pms pms', Forall2 (fun a b => forall p mtb tb, twin p mtb tb (at_once a b) a b) pms pms' /\
    exists p ho_ mtb tb o, by_order tb /\
      stack_and_coalesce p ho_ mtb tb pms o <> stack_and_coalesce p ho_ mtb tb pms' o.
Proof.
  exists [tw_c fr_1; tw_d], [tw_c fr_2; tw_d]. split.
  - constructor; [|constructor; [|constructor]].
    + intros p mtb tb. apply (same_asked_twin p mtb tb (fun k => k ∈ sq_keys (tw_c fr_1))); [|by apply at_once_all|].
      * apply fr_same_asked. intros k Hk. cbn in Hk. apply elem_of_list_singleton in Hk as ->. auto.
      * intros k k' (n & H1 & H2). split; [|by eapply elem_of_list_lookup_2]. cbn [tw_c sq_keys] in H1, H2. congruence.
    + intros p mtb tb. constructor; try done; [by apply at_once_all| |].
      * intros k k' (n & H1 & H2). by assert (k = k') as -> by congruence.
      * intros k k' o m (n & H1 & H2). by assert (k = k') as -> by congruence.
  - exists Debug, id_oracle, first_mtb, first_tb, tw_opts0. split; [apply first_by_order|].
    intros E. apply (f_equal tw_out) in E. vm_compute in E. discriminate.
Qed.
Print Assumptions C86_own_keys_refuted.
