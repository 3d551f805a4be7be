(** C104: how often tree_coalesce reads a store. *)
From Verif Require Import Prelude Lists F64 Heap Common Builder Store Query Spatial Coalesce Stackable Tree.
From Verif Require Import Cmp_proofs Queue_proofs Coalesce_proofs Multi_proofs Spec_coalesce Spec_stack Spec_tree Spec_quota Quota_proofs
  Match_proofs Tree_proofs Spec_exact Sibling_proofs Spec_native Native_proofs Props_native Examples Props_coalesce Props_tree Spec_work.
Local Open Scope N_scope.

(** ** Lemmas *)
Section work.
  Context (p : profile) (ho_ : hash_oracle) (mtb : merge_tb) (tb : tiebreak) (t : tree) (o : match_opts).
  (** What is read for stacking is not in the cache. *)
  Definition fresh (cache : gmap N (list match_entry)) (keys : list kfetch) : Prop :=
    forall id, id ∈ stacked keys -> cache !! id = None.
  Lemma gather_keys_fresh cache best st ks : forall keys uniq q enq keys' uniq' q' enq',
    res_foldl (gather_key p cache best st) (keys, uniq, q, enq) ks = Ok (keys', uniq', q', enq') ->
    fresh cache keys -> fresh cache keys'.
  Proof.
    induction ks as [|k ks IH]; intros keys uniq q enq keys' uniq' q' enq' H Hf; cbn [res_foldl] in H.
    - injection H as <- _ _ _. done.
    - apply bind_Ok in H as ([[[keys1 uniq1] q1] enq1] & H1 & H2). apply (IH _ _ _ _ _ _ _ _ H2). clear IH H2.
      unfold gather_key in H1.
      destruct (is_single st || negb match cache !! mki_id k with Some _ => true | None => false end) eqn:Ec.
      2: { injection H1 as <- _ _ _. done. }
      apply bind_Ok in H1 as (ko & _ & H1). apply bind_Ok in H1 as (r & _ & H1).
      destruct (admit_key r (key_known uniq (mki_id k) (is_single st)) best st k q) as [ok q0].
      destruct (ok && negb (key_known uniq (mki_id k) (is_single st))); injection H1 as <- _ _ _; [|done].
      intros id. unfold stacked. rewrite List.filter_app, List.map_app, elem_of_app. intros [Hid|Hid]; [by apply Hf|].
      cbn [List.filter kf_single] in Hid. destruct (is_single st); cbn [negb map orb] in *; [by apply elem_of_nil in Hid|].
      apply elem_of_list_singleton in Hid as ->. cbn [kf_id]. by destruct (cache !! mki_id k).
  Qed.
  Lemma gather_fresh cache contexts fuel : forall s s',
    gather p tb cache contexts fuel s = Ok s' -> fresh cache (gt_keys s) -> fresh cache (gt_keys s').
  Proof.
    induction fuel as [|fuel IH]; intros s s' H Hf; cbn [gather] in H; [done|].
    destruct (chunk_size <=? gt_added s); [by injection H as <-|].
    destruct (hp_pop_max step_cmp tb (gt_steps s)) as [[st steps']|]; [|by injection H as <-].
    apply bind_Ok in H as (stop & _ & H). destruct stop; [by injection H as <-|].
    apply bind_Ok in H as ([[[keys uniq] q] enq] & Hk & H). apply (IH _ _ H). cbn [gt_keys].
    by apply (gather_keys_fresh _ _ _ _ _ _ _ _ _ _ _ _ Hk).
  Qed.

  (** The keys of the steps that are results by themselves. *)
  Definition owed (l : list tstep) : list (N * subquery) :=
    mjoin (map (fun st => if is_single st then keys_of (tp_sq st) else []) l).
  Lemma owed_app l l' : owed (l ++ l') = owed l ++ owed l'.
  Proof. unfold owed. by rewrite List.map_app, mjoin_app2. Qed.
  Lemma owed_perm l l' : l ≡ₚ l' -> owed l ≡ₚ owed l'.
  Proof.
    intros H. induction H as [|x l l' H IH|x y l|l l' l'' H1 IH1 H2 IH2]; [done| | |by transitivity (owed l')].
    - change (x :: l) with ([x] ++ l). change (x :: l') with ([x] ++ l'). rewrite !owed_app. by rewrite IH.
    - change (y :: x :: l) with ([y] ++ [x] ++ l). change (x :: y :: l) with ([x] ++ [y] ++ l).
      rewrite !owed_app, !app_assoc. by rewrite (Permutation_app_comm (owed [y])).
  Qed.
  Lemma owed_none l : (forall st, st ∈ l -> is_single st = false) -> owed l = [].
  Proof.
    induction l as [|st l IH]; intros H; [done|]. change (st :: l) with ([st] ++ l). rewrite owed_app, IH by (intros; apply H; by right).
    unfold owed. cbn [map]. rewrite (H st) by by left. done.
  Qed.

  (** One round. *)
  Lemma gather_work s g :
    gather p tb (tr_cache s) (tr_contexts s) (S (length (hp_items (tr_steps s))))
      (GatherState (tr_steps s) [] [] [] (tr_quotas s) 0 false) = Ok g ->
    NoDup (stacked (gt_keys g)) /\ fresh (tr_cache s) (gt_keys g) /\
    alone (gt_keys g) ++ owed (hp_items (gt_steps g)) ⊆+ owed (hp_items (tr_steps s)).
  Proof.
    intros Hg. split; [|split].
    - apply gather_ok in Hg as (popped & last & Gd); [|done].
      destruct (gd_keyed _ _ _ _ _ _ _ _ Gd) as [[Hnd _] _]; [split; cbn [gt_keys gt_unique map]; [constructor|]|].
      { intros id b. split; [intros H; by apply elem_of_nil in H|]. intros (kf & H & _). by apply elem_of_nil in H. }
      revert Hnd. unfold stacked. generalize (gt_keys g). intros l. induction l as [|k l IH]; cbn [map List.filter]; intros Hnd; [constructor|].
      apply NoDup_cons in Hnd as [Hk Hnd]. destruct (kf_single k) eqn:Es; cbn [negb map]; [by apply IH|].
      apply NoDup_cons. split; [|by apply IH]. intros Hin. apply elem_of_map in Hin as (k' & E & Hin).
      apply elem_of_filter in Hin as [Hin Hs]. apply Hk. apply elem_of_map. exists k'. split; [|done].
      destruct (kf_single k'); [done|]. by rewrite E.
    - apply (gather_fresh _ _ _ _ _ Hg). intros id Hid. by apply elem_of_nil in Hid.
    - apply gather_ok in Hg as (popped & last & Gd); [|done].
      destruct (gd_keyed _ _ _ _ _ _ _ _ Gd) as [[Hnd _] _]; [split; cbn [gt_keys gt_unique map]; [constructor|]|].
      { intros id b. split; [intros H; by apply elem_of_nil in H|]. intros (kf & H & _). by apply elem_of_nil in H. }
      pose proof (gd_steps _ _ _ _ _ _ _ _ Gd) as Hp. cbn [gt_steps] in Hp.
      destruct (gd_keys_from _ _ _ _ _ _ _ _ Gd) as (new & Enew & Hnew). cbn [gt_keys app] in Enew. rewrite Enew in *. clear Enew.
      rewrite (owed_perm _ _ Hp), !owed_app. apply submseteq_app; [|by apply submseteq_inserts_l].
      apply NoDup_submseteq.
      + revert Hnd. clear. unfold alone. induction new as [|k l IH]; cbn [map List.filter]; intros Hnd; [constructor|].
        apply NoDup_cons in Hnd as [Hk Hnd]. destruct (kf_single k) eqn:Es; cbn [map]; [|by apply IH].
        apply NoDup_cons. split; [|by apply IH]. intros Hin. apply elem_of_map in Hin as (k' & E & Hin).
        apply elem_of_filter in Hin as [Hin Hs]. apply Hk. apply elem_of_map. exists k'. split; [|done].
        rewrite Hs. injection E as -> _. done.
      + intros x Hx. apply elem_of_map in Hx as (kf & -> & Hkf). apply elem_of_filter in Hkf as [Hkf Hs].
        destruct (Hnew kf Hkf) as (st & k & Hst & (F1 & -> & -> & _ & F5 & _)). rewrite Hs in F5.
        apply elem_of_mjoin. exists (keys_of (tp_sq st)). split; [apply elem_of_map; by exists k|].
        apply elem_of_map. exists st. split; [by rewrite <- F5|done].
  Qed.
  Lemma round_work round s s' complete g :
    gather p tb (tr_cache s) (tr_contexts s) (S (length (hp_items (tr_steps s))))
      (GatherState (tr_steps s) [] [] [] (tr_quotas s) 0 false) = Ok g ->
    tree_round p ho_ mtb tb t o round s = Ok (s', complete) ->
    (forall id, is_Some (tr_cache s !! id) \/ id ∈ stacked (gt_keys g) -> is_Some (tr_cache s' !! id)) /\
    owed (hp_items (tr_steps s')) = owed (hp_items (gt_steps g)).
  Proof.
    intros Hg H. unfold tree_round in H. apply bind_Ok in H as (g' & Hg' & H).
    assert (g' = g) as -> by congruence. clear Hg'.
    apply bind_Ok in H as (fs & Hfs & H).
    destruct (foldl (store_fetched ho_ tb round) (tr_contexts s, tr_cache s) (combine (seq 0 (length fs)) fs))
      as [q cache] eqn:Ef.
    apply bind_Ok in H as (rs & Hrs & H). injection H as <- <-. cbn [tr_cache tr_steps].
    apply res_mapM_Ok in Hfs, Hrs. apply store_fetched_fold in Ef as (_ & _ & C2). split.
    - intros id Hor. apply C2. destruct Hor as [?|Hid]; [by left|right].
      apply elem_of_map in Hid as (kf & -> & Hkf). apply elem_of_filter in Hkf as [Hkf Hs].
      apply elem_of_list_lookup in Hkf as [i Hi]. destruct (Forall2_lookup_l _ _ _ _ _ Hfs Hi) as (f & Hf & Hk).
      apply fetch_key_ok in Hk. destruct f as [q0|id data]; [destruct Hk as [Hk _]; by rewrite Hk in Hs|].
      destruct Hk as (_ & -> & _). exists i, data. apply combine_seq_elem. exists i. done.
    - rewrite fold_steps, owed_app, (owed_none (mjoin _)); [by rewrite app_nil_r|].
      intros st Hst. apply elem_of_mjoin in Hst as (l & Hst & Hl). apply elem_of_map in Hl as ([out next] & -> & Hr).
      apply elem_of_list_lookup in Hr as [i Hi]. destruct (Forall2_lookup_r _ _ _ _ _ Hrs Hi) as ([j x] & _ & Hrun).
      apply run_step_ok in Hrun as (scale & css & sel & R). cbn [snd] in Hst. rewrite (rn_next _ _ _ _ _ _ _ _ _ _ R) in Hst.
      apply elem_of_map in Hst as ([i' s1] & -> & Hin). destruct (proj2 (rn_steps _ _ _ _ _ _ _ _ _ _ R) _ _ Hin) as (n & _ & Hf).
      cbn [snd]. unfold is_single. by rewrite (sf_prev _ _ _ _ _ _ Hf).
  Qed.

  Lemma loop_work fuel : forall s,
    let l := loop_reads p ho_ mtb tb t o fuel s in
    NoDup (stacked l) /\ fresh (tr_cache s) l /\ alone l ⊆+ owed (hp_items (tr_steps s)).
  Proof.
    assert (Hnil : forall s, NoDup (stacked []) /\ fresh (tr_cache s) [] /\ alone [] ⊆+ owed (hp_items (tr_steps s))).
    { intros s. split; [constructor|]. split; [intros id H; by apply elem_of_nil in H|apply submseteq_nil_l]. }
    induction fuel as [|fuel IH]; intros s; cbn [loop_reads]; [apply Hnil|].
    destruct (hp_items (tr_steps s)) as [|st0 sts] eqn:Ei; [rewrite <- Ei; apply Hnil|]. rewrite <- Ei. clear Ei.
    destruct (gather _ _ _ _ _ _) as [g| | |] eqn:Eg; try apply Hnil.
    pose proof (gather_work s g Eg) as (G1 & G2 & G3).
    assert (Hg : NoDup (stacked (gt_keys g ++ [])) /\ fresh (tr_cache s) (gt_keys g ++ []) /\
      alone (gt_keys g ++ []) ⊆+ owed (hp_items (tr_steps s))).
    { rewrite app_nil_r. split; [done|]. split; [done|]. etransitivity; [|exact G3]. by apply submseteq_inserts_r. }
    destruct (tree_round p ho_ mtb tb t o (N.of_nat fuel) s) as [[s' [|]]| | |] eqn:Er; try exact Hg. clear Hg.
    destruct (round_work _ _ _ _ _ Eg Er) as [R1 R2]. destruct (IH s') as (I1 & I2 & I3). cbn zeta in *.
    set (l := loop_reads p ho_ mtb tb t o fuel s') in *.
    unfold fresh, stacked, alone in *. rewrite !List.filter_app, !List.map_app. split; [|split].
    - apply NoDup_app. split; [done|]. split; [|done]. intros id H1 H2. apply I2 in H2.
      destruct (R1 id (or_intror H1)) as [gs Hgs]. congruence.
    - intros id. rewrite elem_of_app. intros [H|H]; [by apply G2|]. apply I2 in H.
      destruct (tr_cache s !! id) as [gs|] eqn:E; [|done]. destruct (R1 id) as [gs' Hgs]; [left; eauto|]. congruence.
    - etransitivity; [|exact G3]. apply submseteq_app; [done|]. by rewrite <- R2.
  Qed.

  (** What is read are keys of the tree. *)
  Definition steps_in (s : tree_state) : Prop := forall st, st ∈ hp_items (tr_steps s) -> in_tree t (tp_sq st).
  Lemma round_in round s s' complete : steps_in s -> tree_round p ho_ mtb tb t o round s = Ok (s', complete) -> steps_in s'.
  Proof.
    intros Hs H. apply tree_round_ok in H as (g & popped & last & fs & rs & R).
    destruct R as [Gd _ _ Hrun _ Hst _ _]. intros st Hin. rewrite Hst in Hin. apply elem_of_app in Hin as [Hin|Hin].
    - apply Hs. rewrite (gd_steps _ _ _ _ _ _ _ _ Gd : hp_items (tr_steps s) ≡ₚ _), !elem_of_app. auto.
    - apply elem_of_mjoin in Hin as (l & Hin & Hl). apply elem_of_map in Hl as ([out next] & -> & Hr).
      apply elem_of_list_lookup in Hr as [i Hi]. destruct (Forall2_lookup_r _ _ _ _ _ Hrun Hi) as (x & _ & site & Hx).
      apply run_step_ok in Hx as (scale & css & sel & R). cbn [snd] in Hin. rewrite (rn_next _ _ _ _ _ _ _ _ _ _ R) in Hin.
      apply elem_of_map in Hin as ([i' s1] & -> & Hin). destruct (proj2 (rn_steps _ _ _ _ _ _ _ _ _ _ R) _ _ Hin) as (n & Hn & Hf).
      cbn [snd]. exists i', n. split; [done|apply (sf_pm _ _ _ _ _ _ Hf)].
  Qed.
  Lemma loop_in fuel : forall s kf, steps_in s -> kf ∈ loop_reads p ho_ mtb tb t o fuel s ->
    in_tree t (kf_sq kf) /\ exists k, k ∈ sq_keys (kf_sq kf) /\ kf_id kf = mki_id k /\ kf_key kf = mki_key k.
  Proof.
    induction fuel as [|fuel IH]; intros s kf Hs Hin; cbn [loop_reads] in Hin; [by apply elem_of_nil in Hin|].
    destruct (hp_items (tr_steps s)) as [|st0 sts] eqn:Ei; [by apply elem_of_nil in Hin|]. rewrite <- Ei in Hin. clear Ei.
    destruct (gather _ _ _ _ _ _) as [g| | |] eqn:Eg; try by apply elem_of_nil in Hin.
    apply elem_of_app in Hin as [Hin|Hin].
    - apply gather_ok in Eg as (popped & last & Gd); [|done].
      destruct (gd_keys_from _ _ _ _ _ _ _ _ Gd) as (new & Enew & Hnew). cbn [gt_keys app] in Enew. rewrite Enew in Hin.
      destruct (Hnew kf Hin) as (st & k & Hst & (F1 & F2 & F3 & F4 & _)). rewrite F3. split.
      + apply Hs. rewrite (gd_steps _ _ _ _ _ _ _ _ Gd : hp_items (tr_steps s) ≡ₚ _). apply elem_of_app. by left.
      + by exists k.
    - destruct (tree_round p ho_ mtb tb t o (N.of_nat fuel) s) as [[s' [|]]| | |] eqn:Er; try by apply elem_of_nil in Hin.
      apply (IH s' kf); [by eapply round_in|done].
  Qed.
End work.

(** ** C104 Reads of a search *)
(** A key that is read for stacking is read once in the whole search, however many
    nodes of the tree have it and in whatever rounds they come up. *)
Theorem C104_once :
  forall p ho mtb tb fuel t o, NoDup (stacked (reads p ho mtb tb fuel t o)).
Proof.
  intros p ho mtb tb fuel t o. unfold reads. destruct (res_foldl _ _ _) as [steps| | |]; try constructor.
  apply loop_work.
Qed.
Print Assumptions C104_once.
(** The other reads are for the keys of the children of the root that have no children,
    each at most once. *)
Theorem C104_alone :
  forall p ho mtb tb fuel t o,
  alone (reads p ho mtb tb fuel t o) ⊆+ mjoin (map keys_of (lone_children t)).
Proof.
  intros p ho mtb tb fuel t o. unfold reads.
  destruct (res_foldl _ _ _) as [steps| | |] eqn:E; try apply submseteq_nil_l.
  etransitivity; [apply loop_work|]. cbn [tr_steps].
  assert (H : forall kids h h', res_foldl (first_step p t o) h kids = Ok h' ->
    owed (hp_items h') = owed (hp_items h) ++ mjoin (map keys_of (mjoin (map (fun i => match tree_get t i with
      | Some n => match sn_pm n, sn_children n with Some sq, [] => [sq] | _, _ => [] end
      | None => [] end) kids)))).
  { induction kids as [|i kids IH]; intros h h' H; cbn [res_foldl] in H.
    - injection H as <-. cbn. by rewrite app_nil_r.
    - apply bind_Ok in H as (h1 & H1 & H). rewrite (IH _ _ H). cbn [map]. change (mjoin (?a :: ?b)) with (a ++ mjoin b).
      rewrite List.map_app, mjoin_app2, app_assoc. f_equal.
      unfold first_step in H1. destruct (tree_get t i) as [n|]; [|injection H1 as <-; cbn; by rewrite app_nil_r].
      destruct (sn_pm n) as [sq|] eqn:En; [|done]. apply bind_Ok in H1 as (st & Hst & H1). injection H1 as <-.
      cbn [hp_push hp_items]. rewrite owed_app. f_equal.
      unfold make_step in Hst. rewrite En in Hst. apply bind_Ok in Hst as (o' & _ & Hst). injection Hst as <-.
      unfold owed, is_single, is_leaf. cbn [map tp_prev tp_node tp_sq]. by destruct (sn_children n). }
  rewrite (H _ _ _ E). cbn [hp_empty hp_items app owed map]. done.
Qed.
Print Assumptions C104_alone.

(** Whatever is read is a key of a subquery of the tree. *)
Theorem C104_own :
  forall p ho mtb tb fuel t o kf, kf ∈ reads p ho mtb tb fuel t o ->
  in_tree t (kf_sq kf) /\ exists k, k ∈ sq_keys (kf_sq kf) /\ kf_id kf = mki_id k /\ kf_key kf = mki_key k.
Proof.
  intros p ho mtb tb fuel t o kf H. unfold reads in H.
  destruct (res_foldl _ _ _) as [steps| | |] eqn:E; try by apply elem_of_nil in H.
  refine (loop_in p ho mtb tb t o fuel _ kf _ H). intros st Hst. cbn [tr_steps] in Hst.
  apply first_steps_ok in E as (sel & E & [_ S2] & _). rewrite E in Hst. cbn [hp_empty hp_items app] in Hst.
  apply elem_of_map in Hst as ([i s1] & -> & Hin). destruct (S2 _ _ Hin) as (n & Hn & Hf). cbn [snd].
  exists i, n. split; [done|apply (sf_pm _ _ _ _ _ _ Hf)].
Qed.
Print Assumptions C104_own.
(** For the tree of some subqueries: each of their keys is read at most twice, once for
    stacking and once for itself. *)
Theorem C104_twice :
  forall p ho mtb tb fuel pms o, NoDup pms ->
  let l := reads p ho mtb tb fuel (stackable pms) o in
  stacked l ⊆+ map fst (mjoin (map keys_of pms)) /\ alone l ⊆+ mjoin (map keys_of pms) /\
  (length l <= 2 * length (mjoin (map keys_of pms)))%nat.
Proof.
  intros p ho mtb tb fuel pms o Hnd l.
  assert (H1 : stacked l ⊆+ map fst (mjoin (map keys_of pms))).
  { apply NoDup_submseteq; [apply C104_once|]. intros id Hid. apply elem_of_map in Hid as (kf & -> & Hkf).
    apply elem_of_filter in Hkf as [Hkf _]. apply C104_own in Hkf as (Hin & k & Hk & -> & _). apply in_tree_pms in Hin.
    apply elem_of_map. exists (mki_id k, kf_sq kf). split; [done|]. apply elem_of_mjoin. exists (keys_of (kf_sq kf)).
    split; apply elem_of_map; eauto. }
  assert (H2 : alone l ⊆+ mjoin (map keys_of pms)).
  { etransitivity; [apply C104_alone|].
    assert (Hl : lone_children (stackable pms) ⊆+ pms).
    { apply NoDup_submseteq.
      - destruct (stackable_siblings pms Hnd (t_root (stackable pms)) (or_introl eq_refl)) as (ks & Hks & HF).
        unfold lone_children. induction HF as [|j pm js ks Hj HF IH]; [constructor|]. apply NoDup_cons in Hks as [Hn Hks].
        cbn [map]. change (mjoin (?a :: ?b)) with (a ++ mjoin b). specialize (IH Hks).
        destruct (tree_get (stackable pms) j) as [c|] eqn:Ec; [|done]. rewrite (Hj c eq_refl).
        destruct (sn_children c); [|done]. apply NoDup_app. split; [apply NoDup_singleton|]. split; [|done].
        intros x Hx Hin. apply elem_of_list_singleton in Hx as ->. apply Hn.
        apply elem_of_mjoin in Hin as (q & Hx & Hq). apply elem_of_map in Hq as (i & -> & Hi).
        apply elem_of_list_lookup in Hi as [z Hz]. destruct (Forall2_lookup_l _ _ _ _ _ HF Hz) as (pm' & Hz' & Hc).
        destruct (tree_get (stackable pms) i) as [d|] eqn:Ed; [|by apply elem_of_nil in Hx]. rewrite (Hc d eq_refl) in Hx.
        destruct (sn_children d); [|by apply elem_of_nil in Hx]. apply elem_of_list_singleton in Hx as ->.
        by eapply elem_of_list_lookup_2.
      - intros pm Hin. apply elem_of_mjoin in Hin as (q & Hx & Hq). apply elem_of_map in Hq as (i & -> & Hi).
        destruct (tree_get (stackable pms) i) as [d|] eqn:Ed; [|by apply elem_of_nil in Hx].
        destruct (sn_pm d) as [sq|] eqn:Es; [|by apply elem_of_nil in Hx].
        destruct (sn_children d); [|by apply elem_of_nil in Hx]. apply elem_of_list_singleton in Hx as ->.
        apply in_tree_pms. by exists i, d. }
    revert Hl. generalize (lone_children (stackable pms)). clear. intros l H.
    induction H as [|x l k H IH|x y l|x l k H IH|l k m H1 IH1 H2 IH2]; [done| | | |by etransitivity];
      cbn [map]; change (mjoin (?a :: ?b)) with (a ++ mjoin b).
    - by apply submseteq_app.
    - change (mjoin (?a :: ?b)) with (a ++ mjoin b). rewrite !app_assoc. apply submseteq_app; [|done].
      apply Permutation_submseteq, Permutation_app_comm.
    - by apply submseteq_inserts_l. }
  split; [done|]. split; [done|].
  apply submseteq_length in H1, H2. unfold stacked, alone in H1, H2. rewrite !map_length in H1. rewrite map_length in H2.
  assert (Hsum : (length l = length (List.filter (fun k => negb (kf_single k)) l) + length (List.filter kf_single l))%nat).
  { clear. induction l as [|k l IH]; [done|]. cbn [List.filter length]. destruct (kf_single k); cbn [negb length]; lia. }
  lia.
Qed.
Print Assumptions C104_twice.
(** A request: its subqueries are first put together, which leaves no two alike, so a request
    reads no more than twice the keys it has. *)
Lemma collapse_add_apart pm : forall acc acc', collapse_add pm acc = Ok acc' ->
  (forall x, x ∈ acc' -> together x pm \/ exists y, y ∈ acc /\ together x y) /\
  (length (mjoin (map sq_keys acc')) <= length (mjoin (map sq_keys acc)) + length (sq_keys pm))%nat /\
  (ForallOrdPairs (fun a b => ~ together a b) acc -> ForallOrdPairs (fun a b => ~ together a b) acc').
Proof.
  induction acc as [|g acc IH]; intros acc' H; cbn [collapse_add] in H.
  - injection H as <-. split; [|split].
    + intros x Hx. apply elem_of_list_singleton in Hx as ->. left. apply together_refl.
    + cbn [map]. change (mjoin (?a :: ?b)) with (a ++ mjoin b). rewrite !app_length. cbn. lia.
    + intros _. constructor; constructor.
  - destruct (same_group pm g) eqn:E.
    + apply bind_Ok in H as (k & Hk & H). injection H as <-. split; [|split].
      * intros x Hx. right. apply elem_of_cons in Hx as [->|Hx].
        -- exists g. split; [by left|]. apply (together_refl g).
        -- exists x. split; [by right|apply together_refl].
      * cbn [map sq_keys]. change (mjoin (?a :: ?b)) with (a ++ mjoin b). rewrite !app_length.
        unfold first_key in Hk. destruct (sq_keys pm); [done|]. cbn [length]. lia.
      * intros Ha. inversion Ha as [|? ? H1 H2]; subst. constructor; [exact H1|exact H2].
    + apply bind_Ok in H as (acc2 & H2 & H). injection H as <-. destruct (IH _ H2) as (I1 & I2 & I3). split; [|split].
      * intros x Hx. apply elem_of_cons in Hx as [->|Hx]; [right; exists g; split; [by left|apply together_refl]|].
        destruct (I1 x Hx) as [?|(y & Hy & ?)]; [by left|right; exists y; split; [by right|done]].
      * cbn [map]. change (mjoin (?a :: ?b)) with (a ++ mjoin b). rewrite !app_length. lia.
      * intros Ha. inversion Ha as [|? ? H1 H3]; subst. constructor; [|by apply I3]. rewrite Forall_forall in *. intros x Hx Hgx.
        destruct (I1 x Hx) as [Ht|(y & Hy & Ht)].
        -- assert (Hgp : together pm g) by (apply together_sym; by eapply together_trans). apply same_group_iff in Hgp. congruence.
        -- apply (H1 y Hy). by eapply together_trans.
Qed.
Lemma collapse_apart pms : forall acc out, res_foldl (fun acc pm => collapse_add pm acc) acc pms = Ok out ->
  ForallOrdPairs (fun a b => ~ together a b) acc ->
  ForallOrdPairs (fun a b => ~ together a b) out /\
  (length (mjoin (map sq_keys out)) <= length (mjoin (map sq_keys acc)) + length (mjoin (map sq_keys pms)))%nat.
Proof.
  induction pms as [|pm pms IH]; intros acc out H Ha; cbn [res_foldl] in H.
  - injection H as <-. split; [done|]. lia.
  - apply bind_Ok in H as (acc1 & H1 & H). apply collapse_add_apart in H1 as (_ & L & A).
    destruct (IH _ _ H (A Ha)) as [B C]. split; [done|]. cbn [map]. change (mjoin (?a :: ?b)) with (a ++ mjoin b).
    rewrite app_length. lia.
Qed.
Theorem C104_request :
  forall p ho mtb tb fuel pms o groups, collapse_phrasematches pms = Ok groups ->
  (length (reads p ho mtb tb fuel (stackable groups) o) <= 2 * length (mjoin (map sq_keys pms)))%nat.
Proof.
  intros p ho mtb tb fuel pms o groups H. unfold collapse_phrasematches in H.
  apply collapse_apart in H as [Ha Hl]; [|constructor].
  assert (Hnd : NoDup groups).
  { clear Hl. induction Ha as [|g l H1 H2 IH]; [constructor|]. apply NoDup_cons. split; [|done]. intros Hg.
    rewrite Forall_forall in H1. apply (H1 g Hg), together_refl. }
  pose proof (C104_twice p ho mtb tb fuel groups o Hnd) as (_ & _ & Hb). cbn [map] in Hl. change (mjoin []) with (@nil match_key_id) in Hl.
  cbn [length] in Hl.
  assert (El : length (mjoin (map keys_of groups)) = length (mjoin (map sq_keys groups))).
  { clear. induction groups as [|g l IH]; [done|]. cbn [map]. change (mjoin (?a :: ?b)) with (a ++ mjoin b).
    rewrite !app_length, IH. unfold keys_of. by rewrite map_length. }
  lia.
Qed.
Print Assumptions C104_request.
(** Seven nodes, four of them with the third layer's key. It is read once for all the stacks,
    and once because the layer is also a child of the root without children. *)
Definition w_c : subquery := tlayer 3 ops_b 6 2 4 (f_lit 1 4) 12.
Example C104_ex :
  let pms := [t_a; t_b; w_c] in
  let t := stackable pms in
  let l := reads Debug id_oracle first_mtb last_tb (tree_fuel t) t t_opts in
  am_next (t_arena t) = 7 /\ map kf_id l = [10; 11; 12; 12] /\ stacked l = [10; 11; 12] /\
  map fst (alone l) = [12] /\ map sq_idx (lone_children t) = [2] /\
  res_map (map sq_idx) (collapse_phrasematches pms) = Ok [0; 1; 2].
Proof. vm_compute. repeat split; reflexivity. Qed.
Example C104_twice_ex : NoDup [t_a; t_b; w_c].
Proof. apply (NoDup_fmap_1 sq_idx). repeat constructor; vm_compute; intros H; repeat (apply elem_of_cons in H as [H|H]; [discriminate|]); by apply elem_of_nil in H. Qed.
