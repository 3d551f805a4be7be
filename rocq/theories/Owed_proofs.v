(** Flat coalesce: no match that a result is owed is lost without a reason. *)
From Verif Require Import Prelude Lists F64 Heap Common Builder Store Query Spatial Coalesce
  Cmp_proofs Queue_proofs Spec_coalesce Coalesce_proofs Props_zoom Props_coalesce Multi_proofs Flat_proofs Spec_flat.
From Coq Require Import Sorting.Sorted.
From Coq Require Import ZifyBool.
Local Open Scope N_scope.

(** ** Stacking on parents *)
Definition fresh (e : coalesce_entry) (s : stack_state) : Prop :=
  sk_entries s = [e] /\ sk_mask s = ce_mask e /\ sk_prev_mask s = 0.
Definition tall (s : stack_state) : Prop := (2 <= length (sk_entries s))%nat.
Lemma removelast_length {A} (l : list A) (a : A) : l <> [] -> length (removelast l ++ [a]) = length l.
Proof.
  intros Hl. destruct (exists_last Hl) as (l' & b & ->). rewrite removelast_last, !app_length. done.
Qed.
Lemma stack_parent_tall s pe : tall s -> tall (stack_parent s pe).
Proof.
  unfold tall, stack_parent. intros Hs. destruct (_ && _); cbn [sk_entries].
  - rewrite removelast_length; [done|]. destruct (sk_entries s); [cbn in Hs; lia|done].
  - destruct (_ =? _); [|done]. cbn [sk_entries]. rewrite app_length. lia.
Qed.
Lemma stack_parent_fresh e s pe : ce_mask pe <> 0 -> fresh e s ->
  fresh e (stack_parent s pe) /\ N.land (ce_mask e) (ce_mask pe) <> 0 \/ tall (stack_parent s pe).
Proof.
  intros Hm (H1 & H2 & H3). unfold stack_parent, tall. rewrite H3, (proj2 (N.eqb_neq _ _) Hm). cbn [andb]. rewrite H2.
  destruct (N.land (ce_mask e) (ce_mask pe) =? 0) eqn:E.
  - right. cbn [sk_entries]. rewrite H1. cbn. lia.
  - left. split; [done|]. lia.
Qed.
Lemma stack_parents_tall pes : forall s, tall s -> tall (foldl stack_parent s pes).
Proof. induction pes as [|pe pes IH]; intros s Hs; cbn [foldl]; [done|]. by apply IH, stack_parent_tall. Qed.
Lemma stack_parents_fresh e pes : (forall pe, pe ∈ pes -> ce_mask pe <> 0) -> forall s, fresh e s ->
  fresh e (foldl stack_parent s pes) /\ (forall pe, pe ∈ pes -> N.land (ce_mask e) (ce_mask pe) <> 0) \/ tall (foldl stack_parent s pes).
Proof.
  induction pes as [|pe pes IH]; intros Hm s Hs; cbn [foldl].
  - left. split; [done|]. intros pe Hpe. by apply elem_of_nil in Hpe.
  - destruct (stack_parent_fresh e s pe (Hm pe ltac:(by left)) Hs) as [[Hf Hl]|Ht]; [|right; by apply stack_parents_tall].
    destruct (IH ltac:(intros; apply Hm; by right) _ Hf) as [[Hf' Hl']|Ht]; [|by right]. left. split; [done|].
    intros q Hq. apply elem_of_cons in Hq as [->|Hq]; [done|by apply Hl'].
Qed.
Section zooms.
  Context (p : profile) (m : gmap (N * N * N) (list coalesce_context)) (z : N).
  Context (Hm : forall k cs c e, m !! k = Some cs -> c ∈ cs -> e ∈ cc_entries c -> ce_mask e <> 0).
  Lemma stack_zoom_tall s oz s' : tall s -> stack_zoom p m z s oz = Ok s' -> tall s'.
  Proof.
    intros Hs H. unfold stack_zoom in H. apply bind_Ok in H as (d & _ & H). apply bind_Ok in H as (sc & _ & H).
    apply bind_Ok in H as (e0 & _ & H). destruct (m !! _); injection H as <-; [|done]. by apply stack_parents_tall.
  Qed.
  Lemma stack_zooms_tall zooms : forall s s', tall s -> res_foldl (stack_zoom p m z) s zooms = Ok s' -> tall s'.
  Proof.
    induction zooms as [|oz zooms IH]; intros s s' Hs H; cbn [res_foldl] in H; [by injection H as <-|].
    apply bind_Ok in H as (s1 & H1 & H). eapply IH; [|exact H]. by eapply stack_zoom_tall.
  Qed.
  (** A parent of other words at a compatible zoom is stacked upon. *)
  Lemma stack_zooms_on e zooms oz cs c pe : oz ∈ zooms -> Forall (fun oz => oz <= z /\ z - oz < 16) zooms ->
    m !! (oz, (ancestor (z - oz) (e_cell e)).1, (ancestor (z - oz) (e_cell e)).2) = Some cs -> c ∈ cs -> pe ∈ cc_entries c ->
    N.land (ce_mask e) (ce_mask pe) = 0 ->
    forall s s', fresh e s -> res_foldl (stack_zoom p m z) s zooms = Ok s' -> tall s'.
  Proof.
    intros Hoz HF Hcs Hc Hpe Hland. induction zooms as [|oz' zooms IH]; intros s s' Hs H; [by apply elem_of_nil in Hoz|].
    cbn [res_foldl] in H. apply bind_Ok in H as (s1 & H1 & H). inversion HF as [|? ? [Z1 Z2] HF']; subst.
    unfold stack_zoom in H1. apply bind_Ok in H1 as (d & Hd & H1). unfold usub in Hd. destruct (oz' <=? z) eqn:E; [|lia]. injection Hd as <-.
    rewrite scale_ok in H1 by done. cbn [res_bind] in H1. pose proof Hs as (S1 & S2 & S3). rewrite S1 in H1.
    change (index [e] 0) with (Ok e) in H1. cbn [res_bind] in H1.
    destruct (m !! (oz', _, _)) as [parents|] eqn:Em; injection H1 as <-.
    - assert (Hmm : forall pe, pe ∈ mjoin (map cc_entries parents) -> ce_mask pe <> 0).
      { intros q Hq. apply elem_of_mjoin in Hq as (l & Hq & Hl). apply elem_of_map in Hl as (c' & -> & Hc'). by eapply Hm. }
      assert (Hf : fresh e (StackState [e] (sk_relev s) (sk_mask s) 0 f_zero)) by done.
      destruct (stack_parents_fresh e _ Hmm _ Hf) as [[Hf' Hl]|Ht]; [|by eapply stack_zooms_tall].
      apply elem_of_cons in Hoz as [->|Hoz]; [|by eapply IH].
      exfalso. unfold ancestor, e_cell in Hcs. cbn [fst snd] in Hcs. rewrite Em in Hcs. injection Hcs as ->.
      apply (Hl pe); [|done]. apply elem_of_mjoin. exists (cc_entries c). split; [done|]. apply elem_of_map. by exists c.
    - apply elem_of_cons in Hoz as [->|Hoz]; [|by eapply IH].
      exfalso. unfold ancestor, e_cell in Hcs. cbn [fst snd] in Hcs. rewrite Em in Hcs. done.
  Qed.
End zooms.

(** ** One layer *)
Section layer.
  Context (p : profile) (mtb : merge_tb) (tb : tiebreak) (stack : list subquery) (o : match_opts).
  Context (Hmask : forall a, a ∈ stack -> sq_mask a <> 0)
          (Hz : forall a b, a ∈ stack -> b ∈ stack -> st_zoom (sq_store a) - st_zoom (sq_store b) < 16).
  Notation ef := (entry_from p mtb tb stack o).
  Definition top_ok (m : f64) : Prop := m = f_zero \/ exists c', stacked p mtb tb stack o c' /\ m = cc_relev c'.
  Lemma ef_mask e z : ef e z -> ce_mask e <> 0.
  Proof. intros (sq' & g & Hin & _ & _ & (_ & _ & _ & Hm & _)). rewrite Hm. by apply Hmask. Qed.
  Lemma good_map_masks m : good_map ef m -> forall k cs c e, m !! k = Some cs -> c ∈ cs -> e ∈ cc_entries c -> ce_mask e <> 0.
  Proof.
    intros G [[z x] y] cs c e Hk Hc He. destruct (G _ _ _ _ _ Hk Hc) as (e0 & es & E & _ & [G1 G2 _ _ _]). rewrite E in He.
    apply elem_of_cons in He as [->|He]; [by eapply ef_mask|]. rewrite Forall_forall in G2. destruct (G2 e He) as (z' & H & _). by eapply ef_mask.
  Qed.
  (** The context of a match is found under its tile. *)
  Definition holds (m : gmap (N * N * N) (list coalesce_context)) (sq : subquery) (g : match_entry) : Prop :=
    exists cs c e es, m !! (st_zoom (sq_store sq), (g_cell g).1, (g_cell g).2) = Some cs /\ c ∈ cs /\
      cc_entries c = e :: es /\ to_entry sq 0 g e.
  Lemma holds_push m k c sq g : holds m sq g -> holds (push_ctx m k c) sq g.
  Proof.
    intros (cs & c' & e & es & H1 & H2 & H3). unfold push_ctx.
    destruct (decide (k = (st_zoom (sq_store sq), (g_cell g).1, (g_cell g).2))) as [->|Hne].
    - exists (cs ++ [c]), c', e, es. rewrite lookup_insert, H1. cbn [default]. split; [done|]. split; [|done].
      apply elem_of_app. by left.
    - exists cs, c', e, es. rewrite lookup_insert_ne by done. done.
  Qed.
  Lemma holds_merge ho_ i m1 m2 sq g : holds m1 sq g \/ holds m2 sq g -> holds (merge_to_add ho_ i m1 m2) sq g.
  Proof.
    intros [(cs & c' & e & es & H1 & H2 & H3)|(cs & c' & e & es & H1 & H2 & H3)].
    - destruct (m2 !! (st_zoom (sq_store sq), (g_cell g).1, (g_cell g).2)) as [v|] eqn:E.
      + exists (cs ++ v), c', e, es. rewrite merge_lookup, E, H1. cbn [default]. split; [done|]. split; [|done]. apply elem_of_app. by left.
      + exists cs, c', e, es. rewrite merge_lookup, E. done.
    - exists (default [] (m1 !! (st_zoom (sq_store sq), (g_cell g).1, (g_cell g).2)) ++ cs), c', e, es. rewrite merge_lookup, H1.
      split; [done|]. split; [|done]. apply elem_of_app. by right.
  Qed.
  (** A match with a parent to stand on. *)
  Definition kin (m : gmap (N * N * N) (list coalesce_context)) (sq : subquery) (g : match_entry) : Prop :=
    exists sq' g', sq' ∈ stack /\ holds m sq' g' /\ st_zoom (sq_store sq') <= st_zoom (sq_store sq) /\
      sq_idx sq' <> sq_idx sq /\ N.land (sq_mask sq) (sq_mask sq') = 0 /\
      ancestor (st_zoom (sq_store sq) - st_zoom (sq_store sq')) (g_cell g) = g_cell g'.
  Lemma to_entry_cell sq pid g e : to_entry sq pid g e -> e_cell e = g_cell g.
  Proof. intros [H _]. unfold e_cell, g_cell. by rewrite H. Qed.
  Lemma compatible_in sq sq' : sq' ∈ stack -> sq_idx sq' <> sq_idx sq -> st_zoom (sq_store sq') <= st_zoom (sq_store sq) ->
    st_zoom (sq_store sq') ∈ compatible_zooms stack sq.
  Proof.
    intros H1 H2 H3. unfold compatible_zooms. apply dedup_elem; [intros a b Hab; by apply N.eqb_eq|].
    apply elem_of_map. exists sq'. split; [done|]. apply elem_of_filter. split; [done|].
    apply negb_true_iff, orb_false_iff. split; [apply N.eqb_neq; congruence|lia].
  Qed.
  Definition kept (s : multi_state) (sq : subquery) (g : match_entry) : Prop :=
    exists c e es, cc_entries c = e :: es /\ to_entry sq 0 g e /\ stacked p mtb tb stack o c /\
      (c ∈ ms_contexts s \/ exists top, top_ok top /\ fltb (fsub top (cc_relev c)) f_025 = false).
  Lemma grid_owed is_first is_last sq o' s g s' : sq ∈ stack -> good_multi ef s -> top_ok (ms_max_relev s) ->
    (forall e, grid_to_coalesce_entry p g sq o' 0 = Ok e -> ef e (st_zoom (sq_store sq))) ->
    multi_grid p is_first is_last (compatible_zooms stack sq) sq o' s g = Ok s' ->
    ms_coalesced s' = ms_coalesced s /\ top_ok (ms_max_relev s') /\
    (forall sq1 g1, holds (ms_to_add s) sq1 g1 -> holds (ms_to_add s') sq1 g1) /\
    (forall sq1 g1, kept s sq1 g1 -> kept s' sq1 g1) /\
    (is_last = false -> (is_first = true \/ kin (ms_coalesced s) sq g) -> holds (ms_to_add s') sq g) /\
    (is_last = true -> kept s' sq g).
  Proof.
    intros Hsq (G1 & G2 & G3) Htop Hconv H. pose proof (compatible_zooms_ok stack sq Hsq Hz) as Hzs.
    unfold multi_grid in H. apply bind_Ok in H as (e & He & H). apply bind_Ok in H as (k & Hk & H).
    pose proof (Hconv e He) as HPe. pose proof (to_entry_inv _ _ _ _ _ _ He) as Hto. pose proof (to_entry_cell _ _ _ _ Hto) as Hcell.
    assert (Hgk : good_state ef (st_zoom (sq_store sq)) e k).
    { eapply stack_zooms_good; [exact ef_mask|exact G1| |exact Hzs|exact Hk]. exists []. split; [done|]. cbn [sk_mask sk_relev].
      split; [done|constructor|cbn; by split; [constructor|]|cbn; by rewrite N.lor_0_r|apply acc_one]. }
    destruct Hgk as (es & Es & Gk).
    assert (Hst : stacked p mtb tb stack o (CoalesceContext (sk_mask k) (sk_relev k) (sk_entries k))).
    { exists (st_zoom (sq_store sq)). left. exists e, es. done. }
    assert (Htop' : top_ok (if fltb (ms_max_relev s) (sk_relev k) then sk_relev k else ms_max_relev s)).
    { destruct (fltb (ms_max_relev s) (sk_relev k)); [right; eexists; split; [exact Hst|reflexivity]|exact Htop]. }
    destruct is_last; [|destruct (is_first || negb (length (sk_entries k) =? 1)%nat) eqn:Ef]; injection H as <-;
      cbn [ms_coalesced ms_to_add ms_contexts ms_max_relev].
    - split; [done|]. split; [done|]. split; [done|]. split; [|split; [done|]].
      + intros sq1 g1 (c & e1 & es1 & H1 & H2 & H3 & H4). exists c, e1, es1. split; [done|]. split; [done|]. split; [done|].
        cbn [ms_contexts]. destruct H4 as [H4|?]; [left|by right]. destruct (fltb _ f_025); [|done]. apply elem_of_app. by left.
      + intros _. exists (CoalesceContext (sk_mask k) (last_penalty (sk_entries k) (sk_relev k)) (sk_entries k)), e, es. split; [done|]. split; [done|]. split.
        * exists (st_zoom (sq_store sq)). right. exists e, es, (sk_relev k). cbn [cc_entries cc_mask cc_relev]. rewrite Es. done.
        * cbn [cc_relev ms_contexts]. destruct (fltb (fsub _ _) f_025) eqn:Ew.
          -- left. apply elem_of_app. right. by left.
          -- right. eexists. split; [exact Htop'|exact Ew].
    - split; [done|]. split; [done|]. split; [intros; by apply holds_push|]. split; [done|]. split; [|done]. intros _ _.
      unfold push_ctx. eexists _, (CoalesceContext (sk_mask k) (sk_relev k) (sk_entries k)), e, es.
      unfold g_cell. cbn [fst snd]. rewrite lookup_insert. split; [done|]. split; [apply elem_of_app; right; by left|]. done.
    - split; [done|]. split; [done|]. split; [done|]. split; [done|]. split; [|done]. intros _ Hor. exfalso.
      apply orb_false_iff in Ef as [Ef1 Ef2]. destruct Hor as [?|(sq' & g' & Hsq' & (cs & c & e' & es' & Hcs & Hc & Ee & Hto') & Hle & Hidx & Hland & Hanc)]; [congruence|].
      assert (Ht : tall k).
      { eapply (stack_zooms_on p (ms_coalesced s) (st_zoom (sq_store sq)) (good_map_masks _ G1) e); [| | |exact Hc| | | |exact Hk].
        - by apply (compatible_in sq sq').
        - exact Hzs.
        - rewrite Hcell, Hanc. exact Hcs.
        - rewrite Ee. by left.
        - destruct Hto as (_ & _ & _ & Hm1 & _), Hto' as (_ & _ & _ & Hm2 & _). by rewrite Hm1, Hm2.
        - done. }
      unfold tall in Ht. apply negb_false_iff in Ef2. lia.
  Qed.

  Lemma grids_owed is_first is_last sq zo : sq ∈ stack -> forall gs s s',
    (forall g e, g ∈ gs -> grid_to_coalesce_entry p g sq zo 0 = Ok e -> ef e (st_zoom (sq_store sq))) ->
    good_multi ef s -> top_ok (ms_max_relev s) ->
    res_foldl (multi_grid p is_first is_last (compatible_zooms stack sq) sq zo) s gs = Ok s' ->
    ms_coalesced s' = ms_coalesced s /\ top_ok (ms_max_relev s') /\
    (forall sq1 g1, holds (ms_to_add s) sq1 g1 -> holds (ms_to_add s') sq1 g1) /\
    (forall sq1 g1, kept s sq1 g1 -> kept s' sq1 g1) /\
    (forall g, g ∈ gs -> is_last = false -> (is_first = true \/ kin (ms_coalesced s) sq g) -> holds (ms_to_add s') sq g) /\
    (forall g, g ∈ gs -> is_last = true -> kept s' sq g).
  Proof.
    intros Hsq. induction gs as [|g gs IH]; intros s s' Hconv HG Htop H; cbn [res_foldl] in H.
    { injection H as <-. split; [done|]. split; [done|]. split; [done|]. split; [done|]. split; intros g Hg; by apply elem_of_nil in Hg. }
    apply bind_Ok in H as (s1 & H1 & H).
    destruct (grid_owed is_first is_last sq zo s g s1 Hsq HG Htop ltac:(intros e; apply Hconv; by left) H1) as (A1 & A2 & A3 & A4 & A5 & A6).
    assert (HG1 : good_multi ef s1).
    { eapply multi_grid_good; [exact ef_mask| |exact HG|by apply compatible_zooms_ok|exact H1]. intros e. apply Hconv. by left. }
    destruct (IH s1 s' ltac:(intros g' e Hg'; apply Hconv; by right) HG1 A2 H) as (B1 & B2 & B3 & B4 & B5 & B6).
    split; [congruence|]. split; [done|]. split; [auto|]. split; [auto|]. split.
    - intros g' Hg' Hl Hk. apply elem_of_cons in Hg' as [->|Hg']; [by apply B3, A5|]. apply B5; [done|done|]. by rewrite A1.
    - intros g' Hg' Hl. apply elem_of_cons in Hg' as [->|Hg']; [by apply B4, A6|]. by apply B6.
  Qed.
  Lemma subquery_owed ho_ i sq s zo s' zo' : sq ∈ stack -> good_multi ef s -> top_ok (ms_max_relev s) ->
    adjust_to_zoom p o (mo_zoom zo) = Ok zo ->
    multi_subquery p ho_ mtb tb stack o (s, zo) (i, sq) = Ok (s', zo') ->
    top_ok (ms_max_relev s') /\
    (forall sq1 g1, holds (ms_coalesced s) sq1 g1 -> holds (ms_coalesced s') sq1 g1) /\
    (forall sq1 g1, kept s sq1 g1 -> kept s' sq1 g1) /\
    (forall g, looked_at p mtb tb o sq g -> (i =? length stack - 1)%nat = false ->
       (i =? 0)%nat = true \/ kin (ms_coalesced s) sq g -> holds (ms_coalesced s') sq g) /\
    (forall g, looked_at p mtb tb o sq g -> (i =? length stack - 1)%nat = true -> kept s' sq g).
  Proof.
    intros Hsq (G1 & G2 & G3) Htop Hzo H. unfold multi_subquery in H.
    assert (Hempty : good_map ef ∅) by (intros z x y cs c Hl; by rewrite lookup_empty in Hl).
    apply bind_Ok in H as (zo1 & Hzo1 & H).
    assert (Hadj : adjust_to_zoom p o (st_zoom (sq_store sq)) = Ok zo1).
    { destruct (mo_zoom zo =? st_zoom (sq_store sq)) eqn:E; cbn [negb] in Hzo1; [|done].
      apply N.eqb_eq in E. injection Hzo1 as <-. by rewrite <- E. }
    apply bind_Ok in H as (k & Hk & H). apply bind_Ok in H as (grids & Hg & H). apply bind_Ok in H as (s1 & Hs1 & H).
    injection H as <- <-. cbn [ms_coalesced ms_max_relev].
    unfold first_key in Hk. destruct (sq_keys sq) as [|k' ks] eqn:Ek; [done|]. injection Hk as ->.
    assert (Hconv : forall g e, g ∈ take_N max_grids_per_phrase grids -> grid_to_coalesce_entry p g sq zo1 0 = Ok e -> ef e (st_zoom (sq_store sq))).
    { intros g e Hin He. exists sq, g. split; [exact Hsq|]. split; [reflexivity|]. split; [|by eapply to_entry_inv].
      exists k, ks, zo1, grids. split; [exact Ek|]. split; [exact Hadj|]. split; [exact Hg|].
      eapply elem_of_sublist; [exact Hin|apply take_N_sub]. }
    assert (HG0 : good_multi ef (MultiState (ms_coalesced s) ∅ (ms_contexts s) (ms_max_relev s))) by (split; [exact G1|]; split; [exact Hempty|exact G3]).
    destruct (grids_owed _ _ sq zo1 Hsq _ _ _ Hconv HG0 Htop Hs1) as (A1 & A2 & A3 & A4 & A5 & A6).
    cbn [ms_coalesced ms_to_add ms_contexts] in A1, A3, A4, A5.
    assert (Hsee : forall g, looked_at p mtb tb o sq g -> g ∈ take_N max_grids_per_phrase grids).
    { intros g (k1 & ks1 & zo2 & out & E1 & E2 & E3 & E4). rewrite Ek in E1. injection E1 as -> ->. rewrite Hadj in E2. injection E2 as ->.
      change 100000 with max_grids_per_phrase in E3, E4. rewrite Hg in E3. injection E3 as ->. exact E4. }
    split; [done|]. split; [|split; [|split]].
    - intros sq1 g1 Hh. apply holds_merge. left. by rewrite A1.
    - intros sq1 g1 Hk. exact (A4 sq1 g1 Hk).
    - intros g Hl Hi Hor. apply holds_merge. right. by apply A5; [apply Hsee| |].
    - intros g Hl Hi. exact (A6 g (Hsee g Hl) Hi).
  Qed.

  Context (Hsort : Sorted.StronglySorted zoom_ordered stack).
  Lemma sorted_zoom j i sq' sq : (j < i)%nat -> stack !! j = Some sq' -> stack !! i = Some sq ->
    st_zoom (sq_store sq') <= st_zoom (sq_store sq).
  Proof.
    clear -Hsort. revert j i. induction Hsort as [|a l Hl IH HF]; intros j i Hji H1 H2; [done|].
    destruct i as [|i]; [lia|]. destruct j as [|j]; cbn in H1, H2.
    - injection H1 as ->. rewrite Forall_forall in HF. destruct (HF sq (elem_of_list_lookup_2 _ _ _ H2)) as [?|[? ?]]; lia.
    - eapply (IH Hl j i); [lia|exact H1|exact H2].
  Qed.
  Definition upto (k : nat) (s : multi_state) : Prop :=
    (forall i sq g, (i < k)%nat -> S i <> length stack -> stack !! i = Some sq -> anchored p mtb tb o stack i g ->
       holds (ms_coalesced s) sq g) /\
    (forall i sq g, (i < k)%nat -> S i = length stack -> stack !! i = Some sq -> looked_at p mtb tb o sq g -> kept s sq g).
  Lemma anchored_looked i g sq : anchored p mtb tb o stack i g -> stack !! i = Some sq -> looked_at p mtb tb o sq g.
  Proof. intros H Hs. destruct H as [sq1 g H1 H2|i sq1 g j sq' g' Hj H1 H2 H3 H4]; rewrite Hs in H1; by injection H1 as <-. Qed.
  Lemma subquery_step ho_ k sq s zo s1 zo1 : stack !! k = Some sq -> good_multi ef s -> top_ok (ms_max_relev s) ->
    adjust_to_zoom p o (mo_zoom zo) = Ok zo -> upto k s ->
    multi_subquery p ho_ mtb tb stack o (s, zo) (k, sq) = Ok (s1, zo1) -> top_ok (ms_max_relev s1) /\ upto (S k) s1.
  Proof.
    intros Hsk HG Htop Hzo [U1 U2] H1.
    assert (Hin : sq ∈ stack) by by eapply elem_of_list_lookup_2.
    assert (Hlt : (k < length stack)%nat) by by eapply lookup_lt_Some.
    destruct (subquery_owed ho_ k sq s zo s1 zo1 Hin HG Htop Hzo H1) as (A1 & A2 & A3 & A4 & A5).
    split; [done|]. split.
    - intros i sq1 g Hi Hne Hs Ha. destruct (decide (i = k)) as [->|Hik].
      + rewrite Hsk in Hs. injection Hs as <-. apply A4; [by eapply anchored_looked|apply Nat.eqb_neq; lia|].
        destruct Ha as [sq1 g E1 E2|i sq1 g j sq' g' Hj E1 E2 E3 E4 E5 E6 E7]; [by left|right].
        rewrite Hsk in E1. injection E1 as <-.
        exists sq', g'. split; [by eapply elem_of_list_lookup_2|]. split; [apply (U1 j); [lia|lia|done|done]|].
        split; [by eapply (sorted_zoom j i)|]. done.
      + apply A2, (U1 i); [lia|done|done|done].
    - intros i sq1 g Hi Hl Hs Ha. destruct (decide (i = k)) as [->|Hik].
      + rewrite Hsk in Hs. injection Hs as <-. apply A5; [done|apply Nat.eqb_eq; lia].
      + apply A3, (U2 i); [lia|done|done|done].
  Qed.
  Lemma subqueries_owed ho_ l : forall k s zo s' zo', drop k stack = l -> good_multi ef s -> top_ok (ms_max_relev s) ->
    adjust_to_zoom p o (mo_zoom zo) = Ok zo -> upto k s ->
    res_foldl (multi_subquery p ho_ mtb tb stack o) (s, zo) (combine (seq k (length l)) l) = Ok (s', zo') ->
    upto (length stack) s' /\ top_ok (ms_max_relev s').
  Proof.
    induction l as [|sq l IH]; intros k s zo s' zo' Hd HG Htop Hzo HU H.
    { cbn in H. injection H as <- _. split; [|done].
      assert (Hk : (length stack <= k)%nat). { apply (f_equal length) in Hd. rewrite drop_length in Hd. cbn in Hd. lia. }
      destruct HU as [U1 U2]. split; intros i sq g Hi; [apply U1|apply U2]; lia. }
    cbn [length seq combine res_foldl] in H. apply bind_Ok in H as ([s1 zo1] & H1 & H).
    assert (Hsk : stack !! k = Some sq). { rewrite <- (Nat.add_0_r k), <- lookup_drop, Hd. done. }
    assert (Hin : sq ∈ stack) by by eapply elem_of_list_lookup_2.
    destruct (multi_subquery_good p ho_ mtb tb stack o s zo k sq s1 zo1 Hin Hmask Hz HG Hzo H1) as [HG1 Hzo1].
    destruct (subquery_step ho_ k sq s zo s1 zo1 Hsk HG Htop Hzo HU H1) as [A1 A2].
    eapply (IH (S k)); [|exact HG1|exact A1|exact Hzo1|exact A2|exact H].
    replace (S k) with (k + 1)%nat by lia. rewrite <- drop_drop, Hd. done.
  Qed.
End layer.

(** ** The final filter *)
Lemma filter_reason mr pre : forall seen n c suf, (forall d, d ∈ pre ++ c :: suf -> cc_entries d <> []) ->
  let out := coalesce_filter mr seen n (pre ++ c :: suf) in
  c ∈ out \/ (exists t, first_tmp c = Some t /\ t ∈ seen) \/
  (exists d, d ∈ pre /\ d ∈ out /\ first_tmp d = first_tmp c) \/
  (max_contexts <= n + N.of_nat (length out) /\ forall d, d ∈ out -> d ∈ pre) \/
  exists d, (d = c \/ d ∈ pre) /\ fleb f_025 (fsub mr (cc_relev d)) = true.
Proof.
  induction pre as [|a pre IH]; intros seen n c suf Hne; cbn [app coalesce_filter].
  - destruct (max_contexts <=? n) eqn:En; [do 3 right; left; split; [cbn; lia|intros d Hd; by apply elem_of_nil in Hd]|].
    destruct (fleb f_025 _) eqn:Ew; [do 4 right; exists c; by split; [left|]|].
    destruct (cc_entries c) as [|e es] eqn:Ee; [exfalso; eapply Hne; [by left|done]|].
    destruct (existsb _ seen) eqn:Es; [|left; by left]. right; left. exists (ce_tmp_id e). split; [unfold first_tmp; by rewrite Ee|].
    apply existsb_exists in Es as (t & Hin & Heq). apply N.eqb_eq in Heq as ->. by apply elem_of_list_In.
  - destruct (max_contexts <=? n) eqn:En; [do 3 right; left; split; [cbn; lia|intros d Hd; by apply elem_of_nil in Hd]|].
    destruct (fleb f_025 _) eqn:Ew; [do 4 right; exists a; split; [right; by left|done]|].
    destruct (cc_entries a) as [|e es] eqn:Ee; [exfalso; eapply Hne; [by left|done]|].
    assert (Ht : first_tmp a = Some (ce_tmp_id e)) by (unfold first_tmp; by rewrite Ee).
    assert (Hne' : forall d, d ∈ pre ++ c :: suf -> cc_entries d <> []) by (intros; apply Hne; by right).
    destruct (existsb _ seen) eqn:Es.
    + destruct (IH seen n c suf Hne') as [H|[H|[(d & H1 & H2 & H3)|[[H1 H2]|(d & H1 & H2)]]]].
      * by left.
      * right; by left.
      * do 2 right; left. exists d. split; [by right|done].
      * do 3 right; left. split; [done|]. intros d Hd. right. by apply H2.
      * do 4 right. exists d. split; [|done]. destruct H1 as [?|?]; [by left|right; by right].
    + destruct (IH (ce_tmp_id e :: seen) (n + 1) c suf Hne') as [H|[(t & H1 & H2)|[(d & H1 & H2 & H3)|[[H1 H2]|(d & H1 & H2)]]]].
      * left. by right.
      * apply elem_of_cons in H2 as [->|H2]; [|right; left; eauto].
        do 2 right; left. exists a. split; [by left|]. split; [by left|]. congruence.
      * do 2 right; left. exists d. split; [by right|]. split; [by right|done].
      * do 3 right; left. split; [cbn [length]; lia|]. intros d Hd. apply elem_of_cons in Hd as [->|Hd]; [by left|right; by apply H2].
      * do 4 right. exists d. split; [|done]. destruct H1 as [?|?]; [by left|right; by right].
Qed.
Lemma fleb_fltb a b : fleb a b = true -> fltb b a = false.
Proof.
  unfold fleb, fltb, SFleb, SFltb.
  assert (H : SFcompare b a = CompOpp <$> SFcompare a b); [|rewrite H; by destruct (SFcompare a b) as [[]|]].
  destruct a as [[]|[]| |[] m1 e1], b as [[]|[]| |[] m2 e2]; try reflexivity; cbn;
    rewrite (Z.compare_antisym e1 e2); destruct (Z.compare e1 e2); cbn; try reflexivity;
    change (Pos.compare_cont Eq m2 m1) with (Pos.compare m2 m1); change (Pos.compare_cont Eq m1 m2) with (Pos.compare m1 m2);
    rewrite (Pos.compare_antisym m1 m2); destruct (Pos.compare m1 m2); reflexivity.
Qed.

(** ** All of it *)
Lemma sort_ordered stack layers : layers ≡ₚ stack -> Sorted.StronglySorted zoom_ordered layers ->
  (forall a b, a ∈ stack -> b ∈ stack -> sq_idx a = sq_idx b -> a = b) -> isort stack_leb stack = layers.
Proof.
  intros Hp Hs Hid. apply (sorted_perm_unique (fun a b => stack_leb a b = true)).
  - intros a b Ha Hb. rewrite elem_of_isort in Ha, Hb. rewrite !stack_leb_le. intros H1 H2. apply Hid; [done|done|lia].
  - apply isort_sorted; [apply stack_leb_total|]. intros a b c. rewrite !stack_leb_le. lia.
  - eapply StronglySorted_impl; [|exact Hs]. intros a b _ _ H. by apply stack_leb_le.
  - by rewrite isort_perm.
Qed.
Lemma coalesce_owed p ho_ mtb tb stack layers o cs i sq g :
  layers ≡ₚ stack -> Sorted.StronglySorted zoom_ordered layers -> (2 <= length layers)%nat ->
  (forall a, a ∈ layers -> sq_mask a <> 0) ->
  (forall a b, a ∈ layers -> b ∈ layers -> st_zoom (sq_store a) - st_zoom (sq_store b) < 16) ->
  (forall a b, a ∈ layers -> b ∈ layers -> sq_idx a = sq_idx b -> a = b) ->
  coalesce p ho_ mtb tb stack o = Ok cs ->
  layers !! i = Some sq -> owed p mtb tb o layers i g ->
  exists c e es, cc_entries c = e :: es /\ to_entry sq 0 g e /\ stacked p mtb tb layers o c /\
    (c ∈ cs \/ (exists d, d ∈ cs /\ first_tmp d = first_tmp c /\ listed_before d c) \/
     ((length cs = 40)%nat /\ forall d, d ∈ cs -> listed_before d c) \/ too_weak p mtb tb o layers c).
Proof.
  intros Hp Hs Hlen Hmask Hz Hid H Hi Ho.
  assert (Hel : forall a, a ∈ stack <-> a ∈ layers) by (intros a; by rewrite Hp).
  assert (Hm : exists all, coalesce_multi p ho_ mtb tb stack o = Ok all /\
    cs = match all with [] => [] | c :: _ => coalesce_filter (cc_relev c) [] 0 all end).
  { destruct stack as [|a [|b stack]]; [apply Permutation_length in Hp; cbn in Hp; lia..|].
    unfold coalesce in H. apply bind_Ok in H as (all & Ha & H). exists all. split; [done|]. by destruct all; injection H as <-. }
  destruct Hm as (all & Hall & Ecs).
  assert (Hgood : Forall (stacked p mtb tb layers o) all).
  { pose proof (coalesce_multi_good p ho_ mtb tb layers o all Hmask Hz) as Hg. apply Hg. rewrite <- Hall. unfold coalesce_multi.
    rewrite (stack_sort_unique layers stack Hp); [done|]. done. }
  unfold coalesce_multi in Hall.
  rewrite (sort_ordered stack layers Hp Hs) in Hall by (intros a b Ha Hb; apply Hid; by apply Hel).
  apply bind_Ok in Hall as ([s zo] & Hloop & Hall). cbn beta iota in Hall. injection Hall as Hall.
  assert (Hempty : good_map (entry_from p mtb tb layers o) ∅) by (intros z x y l c Hl; by rewrite lookup_empty in Hl).
  destruct (subqueries_owed p mtb tb layers o Hmask Hz Hs ho_ layers 0 (MultiState ∅ ∅ [] f_zero) o s zo eq_refl) as [[U1 U2] Htop].
  { split; [done|]. split; [done|constructor]. }
  { by left. }
  { apply adjust_self. }
  { split; intros; lia. }
  { exact Hloop. }
  assert (Hi' : (i < length layers)%nat) by by eapply lookup_lt_Some.
  assert (Hcand : exists c e es, cc_entries c = e :: es /\ to_entry sq 0 g e /\ stacked p mtb tb layers o c /\
    (c ∈ all \/ exists top, top_ok p mtb tb layers o top /\ fltb (fsub top (cc_relev c)) f_025 = false)).
  { destruct (decide (S i = length layers)) as [El|El].
    - assert (Hlook : looked_at p mtb tb o sq g).
      { destruct Ho as [Ha|[_ (sq' & E & Hl)]]; [by eapply anchored_looked|]. rewrite Hi in E. by injection E as <-. }
      destruct (U2 i sq g Hi' El Hi Hlook) as (c & e & es & H1 & H2 & H3 & H4). exists c, e, es. split; [done|]. split; [done|]. split; [done|].
      destruct H4 as [H4|?]; [left|by right]. rewrite <- Hall, elem_of_isort. apply elem_of_app. by left.
    - assert (Ha : anchored p mtb tb o layers i g) by (destruct Ho as [?|[? _]]; done).
      destruct (U1 i sq g Hi' El Hi Ha) as (l & c & e & es & H1 & H2 & H3 & H4). exists c, e, es. split; [done|]. split; [done|].
      destruct (fltb (fsub (ms_max_relev s) (cc_relev c)) f_025) eqn:Ew.
      + assert (Hc : c ∈ all).
        { rewrite <- Hall, elem_of_isort. apply elem_of_app. right. apply elem_of_filter. split; [|done].
          apply elem_of_mjoin. exists l. split; [done|]. apply elem_of_map. eexists (_, l). split; [done|].
          unfold hash_iter. rewrite (ho_perm ho_). apply elem_of_map_to_list. exact H1. }
        split; [|by left]. rewrite Forall_forall in Hgood. by apply Hgood.
      + split; [|right; eexists; split; [exact Htop|exact Ew]].
        assert (HG : good_multi (entry_from p mtb tb layers o) s).
        { eapply multi_subqueries_good; [|exact Hmask|exact Hz| |apply adjust_self|exact Hloop].
          - intros j a Ha'. by eapply elem_of_combine_r.
          - split; [exact Hempty|]. split; [exact Hempty|constructor]. }
        destruct HG as (HG & _). destruct (HG _ _ _ _ _ H1 H2) as (e0 & es0 & E1 & _ & E2).
        exists (st_zoom (sq_store sq)). left. by exists e0, es0. }
  destruct Hcand as (c & e & es & H1 & H2 & H3 & H4). exists c, e, es. split; [done|]. split; [done|]. split; [done|].
  destruct H4 as [Hc|(top & T1 & T2)]; [|do 3 right; exists top, c; split; [exact T1|]; split; [by left|exact T2]].
  assert (Hsorted : StronglySorted (fun a b => ctx_cmp b a <> Gt) all) by (rewrite <- Hall; apply isort_desc, total_cmp_ctx).
  assert (Hne : forall d, d ∈ all -> cc_entries d <> []).
  { intros d Hd. rewrite Forall_forall in Hgood. destruct (Hgood d Hd) as (z & [(e0 & es0 & E & _)|(e0 & es0 & r & E & _)]); by rewrite E. }
  apply elem_of_list_split in Hc as (pre & suf & Eall).
  assert (Hbefore : forall d, d ∈ pre -> listed_before d c).
  { intros d Hd. apply cmp_listed_before; [apply Hne; rewrite Eall; apply elem_of_app; by left|apply Hne; rewrite Eall; apply elem_of_app; right; by left|].
    rewrite Eall in Hsorted. clear -Hsorted Hd. induction pre as [|a pre IH]; [by apply elem_of_nil in Hd|].
    cbn [app] in Hsorted. inversion Hsorted as [|? ? HS HF]; subst. apply elem_of_cons in Hd as [->|Hd]; [|by apply IH].
    rewrite Forall_forall in HF. apply HF, elem_of_app. right. by left. }
  destruct all as [|b all]; [by destruct pre|]. set (mr := cc_relev b) in *.
  assert (Hne' : forall d, d ∈ pre ++ c :: suf -> cc_entries d <> []) by (rewrite <- Eall; exact Hne).
  pose proof (filter_reason mr pre [] 0 c suf Hne') as HR. cbn zeta in HR. rewrite <- Eall, <- Ecs in HR.
  destruct HR as [HR|[(t & _ & HR)|[(d & R1 & R2 & R3)|[[R1 R2]|(d & R1 & R2)]]]].
  - by left.
  - by apply elem_of_nil in HR.
  - right; left. exists d. split; [done|]. split; [done|]. by apply Hbefore.
  - do 2 right; left. split; [|intros d Hd; by apply Hbefore, R2].
    pose proof (coalesce_filter_len mr (b :: all) [] 0 ltac:(done)) as Hl. rewrite <- Ecs in Hl. unfold max_contexts in *. lia.
  - do 3 right. exists mr, d. split; [right; exists b; split; [|done]|].
    + rewrite Forall_forall in Hgood. apply Hgood. by left.
    + split; [destruct R1 as [->|R1]; [by left|right; split; [by apply Hbefore|]]|by apply fleb_fltb].
      rewrite Forall_forall in Hgood. apply Hgood. rewrite Eall. apply elem_of_app. by left.
Qed.
