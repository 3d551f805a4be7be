(** Property C72: below the limits, hash order does not show in the result of tree_coalesce. *)
From Verif Require Import Prelude Lists F64 Heap Common Builder Spatial Store Spec Spec_match Query Coalesce Stackable Tree
  Cmp_proofs Queue_proofs Spec_coalesce Coalesce_proofs Multi_proofs Spec_stack Stack_proofs Spec_tree Spec_quota Tree_proofs
  Limit_proofs Term_proofs Examples Props_match Props_coalesce Props_stack Props_tree Spec_complete Complete_proofs Props_complete
  Props_quota Spec_exact Sibling_proofs Exact_proofs Props_exact Spec_leaf Leaf_proofs Props_leaf Spec_room.
From Coq Require Import ZifyBool.
Local Open Scope N_scope.

Lemma lone_ids p sq ko ms k cs : tree_coalesce_single p sq ko ms (mki_id k) = Ok cs ->
  at_most_40 (fun id => exists g, g ∈ ms /\ ge_id (me_entry g) = id) -> (length cs <= 40)%nat.
Proof.
  intros H Hm. pose proof (tree_single_ids _ _ _ _ _ _ H) as Hnd.
  assert (Hl : exists l, map lone_id cs = map Some l /\ forall id, id ∈ l -> exists g, g ∈ ms /\ ge_id (me_entry g) = id).
  { pose proof (tree_single_ok _ _ _ _ _ _ H) as Hok. clear H Hnd Hm. induction cs as [|c cs IH].
    - exists []. split; [done|]. intros id Hid. by apply elem_of_nil in Hid.
    - destruct IH as (l & E & Hl); [intros c' Hc'; apply Hok; by right|].
      destruct (Hok c ltac:(by left)) as (g & e & Hg & He & ->). apply entry_of_inv in He as (Ee & _).
      exists (e_id e :: l). split; [cbn [map]; by rewrite E|]. intros id Hid. apply elem_of_cons in Hid as [->|Hid]; [|by apply Hl].
      exists g. split; [done|]. unfold e_id. by rewrite Ee. }
  destruct Hl as (l & E & Hl). rewrite E in Hnd. apply NoDup_fmap_1 in Hnd. specialize (Hm l Hnd Hl).
  apply (f_equal length) in E. rewrite !map_length in E. lia.
Qed.

(** All there is to find is in a result of less than 800, and nothing else is. *)
Lemma room_all p ho mtb tb fuel pms o out :
  fit_for_C60 p mtb tb pms o -> own_ids (fun pm => pm ∈ pms) -> roomy p mtb tb o pms ->
  tree_coalesce p ho mtb tb fuel (stackable pms) o = Ok out -> (length out < 800)%nat ->
  forall c, exact p mtb tb (stackable pms) o c -> c ∈ out.
Proof.
  intros Hfit Hown (R1 & R2 & R3 & R4) H Hlen.
  pose proof Hfit as (Hnd & Hfew & Hfin & Hname & Hdist & Hzoom & Hcov).
  assert (Hd : forall pm, in_tree (stackable pms) pm -> ids_distinct pm) by (intros pm Hpm; by apply Hdist, in_tree_pms).
  assert (Ho : own_ids (in_tree (stackable pms))).
  { intros pm1 pm2 k1 k2 I1 I2. apply Hown; by apply in_tree_pms. }
  intros c [(n & chain & es & Hns & Hst & ->)|
    (i & n & pm & k & ko & ms & cs & Hi & Hin & Hpm & Hl & Hk & Hko & Hms & Hcs & Hc)].
  - pose proof (node_nested _ _ _ _ _ _ _ _ Hns) as Hnest. pose proof (node_descends _ _ _ _ _ _ _ _ Hns) as Hdesc.
    destruct (C46_paths pms _ _ Hdesc) as [Hleg _].
    assert (Hst' : (2 <= length chain)%nat \/ exists pm, legal pms (rev chain ++ [pm])).
    { destruct Hst as [?|Hch]; [by left|right]. destruct (stackable_sound pms) as (L & Ha & Hroot).
      pose proof (descends_ok pms L _ _ _ _ Ha Hdesc [] Hroot) as Hok. cbn [app] in Hok. by apply (no_next _ _ _ _ Hok). }
    destruct (C61_complete p ho mtb tb fuel pms o out chain es Hfit H Hleg Hnest Hst')
      as (n' & _ & [?|[[E _]|[(D & D1 & D2 & D3)|[[E _]|[Hp|(i & pm & e & k & c & _ & _ & _ & _ & _ & Hc)]]]]]); [done|lia|exfalso|lia|exfalso|exfalso].
    + assert (Hhead : exists id, ce_phrasematch_id <$> head es = Some id) by (destruct Hnest; cbn; eauto). destruct Hhead as [id Hid].
      specialize (R3 chain id Hleg (es :: D)). cbn [length] in R3. rewrite D2 in R3. enough (41 <= 40)%nat by lia. apply R3.
      * constructor; [|done]. intros Hin. by destruct (D3 es Hin) as (_ & _ & ? & _).
      * intros x Hx. apply elem_of_cons in Hx as [->|Hx]; [done|]. destruct (D3 x Hx) as (X1 & X2 & _). split; [done|]. congruence.
    + destruct Hp as (pm & rest & e & es' & k & b & r & -> & _ & Hk & _ & Hw & Hh & _).
      assert (Hin : pm ∈ pms). { apply Hleg. cbn [rev]. apply elem_of_app. right. by left. }
      pose proof (R2 pm k Hin Hk) as E. by rewrite Hw, Hh in E.
    + specialize (R1 c). lia.
  - destruct (stackable_tiles pms) as (G & Hat & Ht).
    assert (Hfull : forall c, False \/ (arena_tiles G (t_arena (stackable pms)) /\
      tiles G 0 (sn_children (t_root (stackable pms))) (am_next (t_arena (stackable pms))) /\ tree_uses c (stackable pms) <= quota_limit c)).
    { intros c0. right. split; [done|]. split; [done|]. apply R1. }
    assert (Hpms : pm ∈ pms) by (apply in_tree_pms; by exists i, n).
    eapply (tree_leaf_all p ho mtb tb (stackable pms) o Ho Hd G (fun _ => False) Hfull fuel out i n pm k ko ms cs); try done.
    + eapply lone_ids; [exact Hcs|]. eapply R4; [exact Hpms|]. by exists ko.
    + by apply R2.
    + by intros ? [].
Qed.
Lemma room_only p ho mtb tb fuel pms o out :
  fit_for_C60 p mtb tb pms o -> own_ids (fun pm => pm ∈ pms) ->
  tree_coalesce p ho mtb tb fuel (stackable pms) o = Ok out ->
  (forall c, c ∈ out -> exact p mtb tb (stackable pms) o c) /\ NoDup out.
Proof.
  intros (Hnd & Hfew & Hfin & Hname & Hdist & Hzoom & Hcov) Hown H.
  assert (Hd : forall pm, in_tree (stackable pms) pm -> ids_distinct pm) by (intros pm Hpm; by apply Hdist, in_tree_pms).
  assert (Ho : own_ids (in_tree (stackable pms))).
  { intros pm1 pm2 k1 k2 I1 I2. apply Hown; by apply in_tree_pms. }
  pose proof (stackable_zooms pms Hfin Hzoom) as Hz. pose proof (own_ids_name _ Hd Ho) as Hn.
  destruct (tree_exact p ho mtb tb (stackable pms) o Hn Hd Hz fuel out H) as [E N]. split; [exact E|].
  specialize (N Ho (stackable_siblings pms Hnd)). by apply NoDup_fmap_1 in N.
Qed.

(** ** C72 Hash order does not show below the limits *)
(** Two runs of tree_coalesce that differ in nothing but the order in which hash maps are
    walked return the same results, if one of them returned less than 800. *)
Theorem C72_order :
  forall p ho1 ho2 mtb tb fuel1 fuel2 pms o out1 out2,
  fit_for_C60 p mtb tb pms o -> own_ids (fun pm => pm ∈ pms) -> roomy p mtb tb o pms ->
  tree_coalesce p ho1 mtb tb fuel1 (stackable pms) o = Ok out1 ->
  tree_coalesce p ho2 mtb tb fuel2 (stackable pms) o = Ok out2 ->
  (length out1 < 800)%nat -> out1 ≡ₚ out2.
Proof.
  intros p ho1 ho2 mtb tb fuel1 fuel2 pms o out1 out2 Hfit Hown Hroom H1 H2 Hlen.
  destruct (room_only _ _ _ _ _ _ _ _ Hfit Hown H1) as [E1 N1]. destruct (room_only _ _ _ _ _ _ _ _ Hfit Hown H2) as [E2 N2].
  assert (S21 : forall c, c ∈ out2 -> c ∈ out1) by (intros c Hc; by eapply room_all, E2).
  assert (Hlen2 : (length out2 < 800)%nat).
  { enough (length out2 <= length out1)%nat by lia. apply submseteq_length, NoDup_submseteq; [done|exact S21]. }
  apply NoDup_Permutation; [done..|]. intros c. split; [|apply S21]. intros Hc. by eapply room_all, E1.
Qed.
Print Assumptions C72_order.

(** The same for a whole request, in terms of the subqueries it is collapsed to. *)
Theorem C72_request :
  forall p ho1 ho2 mtb tb pms groups o out1 out2,
  collapse_phrasematches pms = Ok groups ->
  fit_for_C60 p mtb tb groups o -> own_ids (fun pm => pm ∈ groups) -> roomy p mtb tb o groups ->
  stack_and_coalesce p ho1 mtb tb pms o = Ok out1 -> stack_and_coalesce p ho2 mtb tb pms o = Ok out2 ->
  (length out1 < 800)%nat -> out1 ≡ₚ out2.
Proof.
  intros p ho1 ho2 mtb tb pms groups o out1 out2 Hg Hfit Hown Hroom H1 H2 Hlen. unfold stack_and_coalesce in H1, H2.
  rewrite Hg in H1, H2. cbn in H1, H2. by eapply C72_order.
Qed.
Print Assumptions C72_request.

(** Room, by inspection. *)
Definition all_entries (p : profile) (mtb : merge_tb) (tb : tiebreak) (o : match_opts) (pm : subquery) : list coalesce_entry :=
  mjoin (map (fun k => map (entry_for pm k) (or_nil (nth_matches p mtb tb o pm k))) (sq_keys pm)).
Fixpoint products {A} (ls : list (list A)) : list (list A) :=
  match ls with
  | [] => [[]]
  | l :: ls => mjoin (map (fun a => map (cons a) (products ls)) l)
  end.
Definition all_quotas : list quota := [OneLetter; OneWord; OneWordHigh; HighRange; High].
Definition roomyb (p : profile) (mtb : merge_tb) (tb : tiebreak) (o : match_opts) (pms : list subquery) : bool :=
  forallb (fun c => tree_uses c (stackable pms) <=? quota_limit c) all_quotas &&
  forallb (fun pm => forallb (fun k => negb (one_word pm k && high_zoom pm)) (sq_keys pm)) pms &&
  forallb (fun c => Nat.leb (length (products (map (all_entries p mtb tb o) (rev c)))) 40) ([] :: all_chains pms) &&
  forallb (fun pm => forallb (fun k => match leaf_list p mtb tb o pm k with
                                       | Some ms => Nat.leb (length (ids_of ms)) 40 | None => true end) (sq_keys pm)) pms.
Lemma all_entries_ok p mtb tb o pm e : stack_entry p mtb tb o pm e -> e ∈ all_entries p mtb tb o pm.
Proof.
  intros (k & g & (ko & l & i & Hk & (zo & Hzo & Hko) & Hs & Hi & _) & He). apply elem_of_mjoin.
  eexists. split; [|apply elem_of_map; exists k; split; [reflexivity|exact Hk]].
  apply elem_of_map. exists g. split; [eapply entry_of_unique; [exact He|]; repeat split|].
  unfold nth_matches. rewrite Hzo, Hko, Hs. cbn. by eapply elem_of_list_lookup_2.
Qed.
Lemma products_ok {A B} (f : B -> list A) chain es : Forall2 (fun b a => a ∈ f b) chain es -> es ∈ products (map f chain).
Proof.
  intros H. induction H as [|b a chain es Ha H IH]; [by left|]. cbn [map products]. apply elem_of_mjoin.
  eexists. split; [|apply elem_of_map; exists a; split; [reflexivity|exact Ha]]. apply elem_of_map. by exists es.
Qed.
Lemma nested_entries p mtb tb o chain es : nested_stack p mtb tb o chain es -> Forall2 (fun pm e => e ∈ all_entries p mtb tb o pm) chain es.
Proof.
  intros H. induction H as [pm e H|pm e pm' e' pms es _ IH H _ _]; (constructor; [by apply all_entries_ok|]); [apply List.Forall2_nil|exact IH].
Qed.
Lemma leaf_list_some p mtb tb o pm k ms : leaf_matches p mtb tb o pm k ms -> leaf_list p mtb tb o pm k = Some ms.
Proof. intros (ko & Hk & (zo & Hzo & Hko) & Hs). unfold leaf_list. by rewrite Hzo, Hko, Hs. Qed.
Lemma roomy_ok p mtb tb o pms : roomyb p mtb tb o pms = true -> roomy p mtb tb o pms.
Proof.
  intros [[[H1 H2]%andb_prop H3]%andb_prop H4]%andb_prop. split; [|split; [|split]].
  - intros c. assert (Hc : c ∈ all_quotas) by (destruct c; repeat (first [by left|right])). apply (forallb_in _ _ H1) in Hc. lia.
  - intros pm k Hpm Hk. apply (forallb_in _ _ H2) in Hpm. apply (forallb_in _ _ Hpm) in Hk. by apply negb_true_iff in Hk.
  - intros chain id Hleg D Hnd HD.
    assert (Hc : rev chain ∈ [] :: all_chains pms).
    { destruct (rev chain) as [|x l] eqn:E; [by left|]. right. by apply all_chains_ok. }
    apply (forallb_in _ _ H3) in Hc. rewrite rev_involutive in Hc. apply Nat.leb_le in Hc.
    enough (length D <= length (products (map (all_entries p mtb tb o) chain)))%nat by lia.
    apply submseteq_length, NoDup_submseteq; [done|]. intros es Hes. destruct (HD es Hes) as [Hns _]. by apply products_ok, nested_entries.
  - intros pm k ms Hpm Hms. apply (forallb_in _ _ H4) in Hpm. pose proof Hms as (ko & Hk & _).
    apply (forallb_in _ _ Hpm) in Hk. rewrite (leaf_list_some _ _ _ _ _ _ _ Hms) in Hk. apply Nat.leb_le in Hk.
    intros D Hnd HD. exact (few_ids ms Hk D Hnd HD).
Qed.

Definition r_out (ho_ : hash_oracle) : list coalesce_context :=
  ok_list (tree_coalesce Debug ho_ first_mtb last_tb 9 (stackable [t_b; t_a]) t_opts).
Example C72_ex :
  fit_for_C60 Debug first_mtb last_tb [t_b; t_a] t_opts /\ own_ids (fun pm => pm ∈ [t_b; t_a]) /\
  roomy Debug first_mtb last_tb t_opts [t_b; t_a] /\
  tree_coalesce Debug id_oracle first_mtb last_tb 9 (stackable [t_b; t_a]) t_opts = Ok (r_out id_oracle) /\
  tree_coalesce Debug rev_oracle first_mtb last_tb 9 (stackable [t_b; t_a]) t_opts = Ok (r_out rev_oracle) /\
  length (r_out id_oracle) = 11%nat.
Proof.
  split; [exact (proj1 C62_ex)|]. split; [apply C62_ex|]. split; [apply roomy_ok; vm_compute; reflexivity|].
  split; [unfold r_out; apply ok_list_ok; vm_compute; exact I|]. split; [unfold r_out; apply ok_list_ok; vm_compute; exact I|].
  vm_compute. reflexivity.
Qed.

(** Beyond the limits it shows: 41 features in one cell, and one in a finer layer. All 41
    stacks are listed equal; which of them is left out depends on the order. *)
Definition m_parent : subquery :=
  tlayer 1 (layer_ops 1 (map (fun i => GridEntry f_one 1 1 1 (N.of_nat i) 0) (seq 1 41))) 5 0 2 (f_lit 1 2) 10.
Definition m_child : subquery := tlayer 2 (layer_ops 1 [GridEntry f_one 3 2 2 1 0]) 6 1 1 (f_lit 1 2) 11.
Definition stack_ids (c : coalesce_context) : list N := map e_id (cc_entries c).
Definition m_out (ho_ : hash_oracle) : list coalesce_context :=
  ok_list (tree_coalesce Debug ho_ first_mtb first_tb 9 (stackable [m_child; m_parent]) t_opts).
Theorem C72_ties_refuted :
  exists pms o out1 out2 c,
  fit_for_C60 Debug first_mtb first_tb pms o /\ own_ids (fun pm => pm ∈ pms) /\
  (forall c, tree_uses c (stackable pms) <= quota_limit c) /\
  (forall pm k, pm ∈ pms -> k ∈ sq_keys pm -> one_word pm k && high_zoom pm = false) /\
  tree_coalesce Debug id_oracle first_mtb first_tb 9 (stackable pms) o = Ok out1 /\ length out1 = 81%nat /\
  tree_coalesce Debug rev_oracle first_mtb first_tb 9 (stackable pms) o = Ok out2 /\ length out2 = 81%nat /\
  c ∈ out1 /\ length (cc_entries c) = 2%nat /\ c ∉ out2.
Proof.
  assert (Hc : exists c, c ∈ m_out id_oracle /\ length (cc_entries c) = 2%nat /\ c ∉ m_out rev_oracle).
  { assert (E : existsb (fun c => Nat.eqb (length (cc_entries c)) 2 &&
      negb (bool_decide (stack_ids c ∈ map stack_ids (m_out rev_oracle)))) (m_out id_oracle) = true) by (vm_compute; reflexivity).
    apply existsb_exists in E as (c & Hc & E). apply elem_of_list_In in Hc. apply andb_prop in E as [E1 E2]. exists c.
    split; [done|]. split; [by apply Nat.eqb_eq|]. intros Hin. apply negb_true_iff, bool_decide_eq_false in E2. apply E2.
    apply elem_of_map. by exists c. }
  destruct Hc as (c & C1 & C2 & C3). exists [m_child; m_parent], t_opts, (m_out id_oracle), (m_out rev_oracle), c.
  split; [apply fit_ok; vm_compute; reflexivity|].
  split; [apply own_ids_ok; apply (bool_decide_eq_true_1 _); vm_compute; reflexivity|].
  split; [intros []; apply N.leb_le; vm_compute; reflexivity|].
  split.
  { intros pm k Hpm Hk. assert (E : forallb (fun pm => forallb (fun k => negb (one_word pm k && high_zoom pm)) (sq_keys pm)) [m_child; m_parent] = true)
      by (vm_compute; reflexivity). apply (forallb_in _ _ E) in Hpm. apply (forallb_in _ _ Hpm) in Hk. by apply negb_true_iff in Hk. }
  split; [unfold m_out; apply ok_list_ok; vm_compute; exact I|]. split; [vm_compute; reflexivity|].
  split; [unfold m_out; apply ok_list_ok; vm_compute; exact I|]. split; [vm_compute; reflexivity|].
  split; [exact C1|]. split; [exact C2|exact C3].
Qed.
Print Assumptions C72_ties_refuted.
