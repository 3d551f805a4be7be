(** Flat coalesce: no stack leaves out a match that it has room for. *)
From Verif Require Import Prelude Lists F64 Heap Common Builder Store Query Spatial Coalesce
  Cmp_proofs Queue_proofs Spec_coalesce Coalesce_proofs Props_zoom Multi_proofs Flat_proofs Spec_flat Owed_proofs.
From Coq Require Import Sorting.Sorted.
From Coq Require Import ZifyBool.
Local Open Scope N_scope.

Definition meets (s : stack_state) (pe : coalesce_entry) : Prop := N.land (sk_mask s) (ce_mask pe) <> 0.
Definition prev_in (s : stack_state) : Prop := N.land (sk_mask s) (sk_prev_mask s) = sk_prev_mask s.
Lemma meets_lor a b c : N.land a c <> 0 -> N.land (N.lor a b) c <> 0.
Proof. intros H E. rewrite N.land_lor_distr_l in E. apply N.lor_eq_0_iff in E as [E _]. done. Qed.
Lemma land_lor_self a b : N.land (N.lor a b) b = b.
Proof. rewrite N.land_lor_distr_l, N.land_diag. apply N.bits_inj. intros i. rewrite N.lor_spec, N.land_spec. by destruct (N.testbit a i), (N.testbit b i). Qed.
Lemma stack_parent_meets s pe : prev_in s -> ce_mask pe <> 0 ->
  prev_in (stack_parent s pe) /\ meets (stack_parent s pe) pe /\ forall q, meets s q -> meets (stack_parent s pe) q.
Proof.
  unfold prev_in, meets, stack_parent. intros Hp Hm.
  destruct ((ce_mask pe =? sk_prev_mask s) && fltb (sk_prev_relev s) (ge_relev (ce_entry pe))) eqn:E1; cbn [sk_mask sk_prev_mask].
  - apply andb_true_iff in E1 as [E1 _]. apply N.eqb_eq in E1. rewrite E1. split; [done|]. split; [|done]. rewrite Hp, <- E1. done.
  - destruct (N.land (sk_mask s) (ce_mask pe) =? 0) eqn:E2; cbn [sk_mask sk_prev_mask].
    + split; [apply land_lor_self|]. split; [by rewrite land_lor_self|]. intros q. apply meets_lor.
    + split; [done|]. split; [by apply N.eqb_neq|done].
Qed.
Lemma stack_parents_meets pes : (forall pe, pe ∈ pes -> ce_mask pe <> 0) -> forall s, prev_in s ->
  (forall pe, pe ∈ pes -> meets (foldl stack_parent s pes) pe) /\ forall q, meets s q -> meets (foldl stack_parent s pes) q.
Proof.
  induction pes as [|pe pes IH]; intros Hm s Hs; cbn [foldl].
  { split; [|done]. intros pe Hpe. by apply elem_of_nil in Hpe. }
  destruct (stack_parent_meets s pe Hs (Hm pe ltac:(by left))) as (A1 & A2 & A3).
  destruct (IH ltac:(intros; apply Hm; by right) _ A1) as [B1 B2]. split; [|auto].
  intros q Hq. apply elem_of_cons in Hq as [->|Hq]; [by apply B2|by apply B1].
Qed.
Section zooms.
  Context (p : profile) (m : gmap (N * N * N) (list coalesce_context)) (z : N).
  Context (Hm : forall k cs c e, m !! k = Some cs -> c ∈ cs -> e ∈ cc_entries c -> ce_mask e <> 0).
  Context (e : coalesce_entry).
  Definition led (s : stack_state) : Prop := head (sk_entries s) = Some e.
  Lemma stack_parent_led s pe : led s -> prev_in s -> ce_mask pe <> 0 ->
    (sk_prev_mask s <> 0 -> tall s) -> led (stack_parent s pe) /\ (sk_prev_mask (stack_parent s pe) <> 0 -> tall (stack_parent s pe)).
  Proof.
    unfold led, stack_parent, tall. intros Hl _ Hpe Ht.
    destruct ((ce_mask pe =? sk_prev_mask s) && _) eqn:E1; cbn [sk_entries sk_prev_mask].
    - apply andb_true_iff in E1 as [E1 _]. apply N.eqb_eq in E1. assert (Hp : sk_prev_mask s <> 0) by congruence. specialize (Ht Hp).
      split; [|intros _; rewrite removelast_length; [done|intros E; rewrite E in Ht; cbn in Ht; lia]].
      destruct (sk_entries s) as [|a [|b l]]; [done|cbn in Ht; lia|]. exact Hl.
    - destruct (_ =? 0); cbn [sk_entries sk_prev_mask]; [|done]. split.
      + by destruct (sk_entries s).
      + intros _. rewrite app_length. destruct (sk_entries s); [done|]. cbn. lia.
  Qed.
  Lemma stack_parents_led pes : (forall pe, pe ∈ pes -> ce_mask pe <> 0) -> forall s, led s -> prev_in s -> (sk_prev_mask s <> 0 -> tall s) ->
    led (foldl stack_parent s pes).
  Proof.
    induction pes as [|pe pes IH]; intros Hpes s Hs Hp Ht; cbn [foldl]; [done|].
    assert (Hpe : ce_mask pe <> 0) by (apply Hpes; by left).
    destruct (stack_parent_led s pe Hs Hp Hpe Ht) as [A1 A2].
    destruct (stack_parent_meets s pe Hp Hpe) as (B1 & _). apply IH; [intros; apply Hpes; by right|done|done|done].
  Qed.
  Lemma stack_zooms_meets zooms : Forall (fun oz => oz <= z /\ z - oz < 16) zooms ->
    forall s s', led s -> res_foldl (stack_zoom p m z) s zooms = Ok s' ->
    (forall q, meets s q -> meets s' q) /\
    forall oz cs c pe, oz ∈ zooms -> m !! (oz, (ancestor (z - oz) (e_cell e)).1, (ancestor (z - oz) (e_cell e)).2) = Some cs ->
      c ∈ cs -> pe ∈ cc_entries c -> meets s' pe.
  Proof.
    induction zooms as [|oz zooms IH]; intros HF s s' Hs H; cbn [res_foldl] in H.
    { injection H as <-. split; [done|]. intros oz cs c pe Hoz. by apply elem_of_nil in Hoz. }
    apply bind_Ok in H as (s1 & H1 & H). inversion HF as [|? ? [Z1 Z2] HF']; subst.
    unfold stack_zoom in H1. apply bind_Ok in H1 as (d & Hd & H1). unfold usub in Hd. destruct (oz <=? z) eqn:E; [|lia]. injection Hd as <-.
    rewrite scale_ok in H1 by done. cbn [res_bind] in H1. pose proof Hs as Hs'. unfold led in Hs'.
    destruct (sk_entries s) as [|e' es] eqn:Es; [done|]. cbn [head] in Hs'. injection Hs' as ->.
    change (index (e :: es) 0) with (Ok e) in H1. cbn [res_bind] in H1.
    destruct (m !! (oz, _, _)) as [parents|] eqn:Em; injection H1 as <-.
    - assert (Hmm : forall pe, pe ∈ mjoin (map cc_entries parents) -> ce_mask pe <> 0).
      { intros q Hq. apply elem_of_mjoin in Hq as (l & Hq & Hl). apply elem_of_map in Hl as (c' & -> & Hc'). by eapply Hm. }
      set (s0 := StackState (e :: es) (sk_relev s) (sk_mask s) 0 f_zero) in *.
      assert (Hp0 : prev_in s0) by (unfold prev_in, s0; cbn [sk_mask sk_prev_mask]; apply N.land_0_r).
      destruct (stack_parents_meets _ Hmm s0 Hp0) as [A1 A2].
      assert (Hl1 : led (foldl stack_parent s0 (mjoin (map cc_entries parents)))) by (apply stack_parents_led; done).
      destruct (IH HF' _ _ Hl1 H) as [B1 B2]. split.
      + intros q Hq. apply B1, A2. exact Hq.
      + intros oz' cs c pe Hoz Hcs Hc Hpe. apply elem_of_cons in Hoz as [->|Hoz]; [|by eapply B2].
        unfold ancestor, e_cell in Hcs. cbn [fst snd] in Hcs. rewrite Em in Hcs. injection Hcs as ->.
        apply B1, A1, elem_of_mjoin. exists (cc_entries c). split; [done|]. apply elem_of_map. by exists c.
    - destruct (IH HF' _ _ Hs H) as [B1 B2]. split; [done|]. intros oz' cs c pe Hoz Hcs Hc Hpe.
      apply elem_of_cons in Hoz as [->|Hoz]; [|by eapply B2].
      unfold ancestor, e_cell in Hcs. cbn [fst snd] in Hcs. rewrite Em in Hcs. done.
  Qed.
End zooms.

Section layers.
  Context (p : profile) (mtb : merge_tb) (tb : tiebreak) (stack : list subquery) (o : match_opts).
  Context (Hmask : forall a, a ∈ stack -> sq_mask a <> 0)
          (Hz : forall a b, a ∈ stack -> b ∈ stack -> st_zoom (sq_store a) - st_zoom (sq_store b) < 16)
          (Hsort : Sorted.StronglySorted zoom_ordered stack).
  Notation ef := (entry_from p mtb tb stack o).
  Notation mx := (maximal p mtb tb o stack).
  Definition max_map (m : gmap (N * N * N) (list coalesce_context)) : Prop := forall k l c, m !! k = Some l -> c ∈ l -> mx c.
  Definition max_state (s : multi_state) : Prop := max_map (ms_coalesced s) /\ max_map (ms_to_add s) /\ Forall mx (ms_contexts s).
  Lemma max_push m k c : max_map m -> mx c -> max_map (push_ctx m k c).
  Proof.
    intros Hm Hc k' l d H Hd. unfold push_ctx in H. destruct (decide (k = k')) as [->|Hne].
    - rewrite lookup_insert in H. injection H as <-. apply elem_of_app in Hd as [Hd|Hd].
      + destruct (m !! k') as [l|] eqn:E; cbn [default] in Hd; [by eapply Hm|by apply elem_of_nil in Hd].
      + apply elem_of_list_singleton in Hd as ->. done.
    - rewrite lookup_insert_ne in H by done. by eapply Hm.
  Qed.
  Lemma max_merge ho_ i m1 m2 : max_map m1 -> max_map m2 -> max_map (merge_to_add ho_ i m1 m2).
  Proof.
    intros H1 H2 k l c H Hc. rewrite merge_lookup in H. destruct (m2 !! k) as [v|] eqn:E2; [|by eapply H1].
    injection H as <-. apply elem_of_app in Hc as [Hc|Hc]; [|by eapply H2].
    destruct (m1 !! k) as [l|] eqn:E; cbn [default] in Hc; [by eapply H1|by apply elem_of_nil in Hc].
  Qed.
  Definition below (k : nat) (m : gmap (N * N * N) (list coalesce_context)) : Prop :=
    forall j sq' g', (j < k)%nat -> stack !! j = Some sq' -> anchored p mtb tb o stack j g' -> holds m sq' g'.
  Lemma grid_max k sq is_first is_last zo s g s' : stack !! k = Some sq -> looked_at p mtb tb o sq g ->
    good_multi ef s -> max_state s -> below k (ms_coalesced s) ->
    multi_grid p is_first is_last (compatible_zooms stack sq) sq zo s g = Ok s' ->
    ms_coalesced s' = ms_coalesced s /\ max_state s'.
  Proof.
    intros Hk Hl (G1 & G2 & G3) (M1 & M2 & M3) Hb H.
    assert (Hsq : sq ∈ stack) by by eapply elem_of_list_lookup_2.
    pose proof (compatible_zooms_ok stack sq Hsq Hz) as Hzs.
    unfold multi_grid in H. apply bind_Ok in H as (e & He & H). apply bind_Ok in H as (t & Ht & H).
    pose proof (to_entry_inv _ _ _ _ _ _ He) as Hto. pose proof (to_entry_cell _ _ _ _ Hto) as Hcell.
    set (s0 := StackState [e] (ge_relev (ce_entry e)) (ce_mask e) 0 f_zero) in *.
    assert (Hmm := good_map_masks p mtb tb stack o Hmask _ G1).
    destruct (stack_zooms_meets p (ms_coalesced s) (st_zoom (sq_store sq)) Hmm e _ Hzs s0 t eq_refl Ht) as [_ Hmeet].
    assert (Hled : led e t).
    { assert (Hgen : forall zs a b, Forall (fun oz => oz <= st_zoom (sq_store sq) /\ st_zoom (sq_store sq) - oz < 16) zs -> led e a ->
        res_foldl (stack_zoom p (ms_coalesced s) (st_zoom (sq_store sq))) a zs = Ok b -> led e b).
      { induction zs as [|oz zs IH]; intros a b HF Ha Hab; cbn [res_foldl] in Hab; [by injection Hab as <-|].
        apply bind_Ok in Hab as (a1 & H1 & Hab). inversion HF; subst. eapply IH; [done| |exact Hab].
        unfold stack_zoom in H1. apply bind_Ok in H1 as (d & _ & H1). apply bind_Ok in H1 as (sc & _ & H1). apply bind_Ok in H1 as (e0 & _ & H1).
        destruct (ms_coalesced s !! _) as [ps|] eqn:Em; injection H1 as <-; [|done].
        apply stack_parents_led; [|done|unfold prev_in; apply N.land_0_r|done].
        intros q Hq. apply elem_of_mjoin in Hq as (l & Hq & Hl'). apply elem_of_map in Hl' as (c' & -> & Hc'). by eapply Hmm. }
      by eapply Hgen; [exact Hzs| |exact Ht]. }
    unfold led in Hled. destruct (sk_entries t) as [|e' es] eqn:Es; [done|]. cbn [head] in Hled. injection Hled as ->.
    assert (Hmx : forall r, mx (CoalesceContext (sk_mask t) r (e :: es))).
    { intros r. exists k, sq, g, e, es. split; [done|]. split; [done|]. split; [done|]. split; [done|].
      intros j sq' g' Hj Hsq' Ha Hidx Hanc. cbn [cc_mask].
      destruct (Hb j sq' g' Hj Hsq' Ha) as (cs & c & e' & es' & Hcs & Hc & Ee & Hto').
      assert (Hle : st_zoom (sq_store sq') <= st_zoom (sq_store sq)) by by eapply (sorted_zoom stack Hsort j k).
      assert (Hm : meets t e').
      { eapply Hmeet; [|  |exact Hc|rewrite Ee; by left].
        - eapply (compatible_in stack sq sq'); [by eapply elem_of_list_lookup_2|done|done].
        - rewrite Hcell, Hanc. exact Hcs. }
      unfold meets in Hm. destruct Hto' as (_ & _ & _ & Hm' & _). by rewrite Hm' in Hm. }
    destruct is_last; [|destruct (is_first || negb (length (e :: es) =? 1)%nat)]; injection H as <-;
      (split; [done|]); (split; [exact M1|]); cbn [ms_to_add ms_contexts].
    - split; [exact M2|]. destruct (fltb _ f_025); [|exact M3]. apply Forall_app. split; [exact M3|]. apply Forall_singleton, Hmx.
    - split; [|exact M3]. apply max_push; [exact M2|apply Hmx].
    - split; [exact M2|exact M3].
  Qed.
  Lemma grids_max k sq is_first is_last zo : stack !! k = Some sq -> forall gs s s',
    (forall g, g ∈ gs -> looked_at p mtb tb o sq g) ->
    (forall g e, g ∈ gs -> grid_to_coalesce_entry p g sq zo 0 = Ok e -> ef e (st_zoom (sq_store sq))) ->
    good_multi ef s -> max_state s -> below k (ms_coalesced s) ->
    res_foldl (multi_grid p is_first is_last (compatible_zooms stack sq) sq zo) s gs = Ok s' -> max_state s'.
  Proof.
    intros Hk. assert (Hsq : sq ∈ stack) by by eapply elem_of_list_lookup_2.
    induction gs as [|g gs IH]; intros s s' Hl Hconv HG HM Hb H; cbn [res_foldl] in H; [by injection H as <-|].
    apply bind_Ok in H as (s1 & H1 & H).
    destruct (grid_max k sq is_first is_last zo s g s1 Hk (Hl g ltac:(by left)) HG HM Hb H1) as [E1 M1].
    eapply (IH s1); [intros; apply Hl; by right|intros g' e Hg'; apply Hconv; by right| |exact M1|by rewrite E1|exact H].
    eapply multi_grid_good; [exact (ef_mask p mtb tb stack o Hmask)| |exact HG|by apply compatible_zooms_ok|exact H1].
    intros e. apply Hconv. by left.
  Qed.
  Lemma subquery_max ho_ k sq s zo s' zo' : stack !! k = Some sq -> good_multi ef s -> adjust_to_zoom p o (mo_zoom zo) = Ok zo ->
    max_state s -> below k (ms_coalesced s) ->
    multi_subquery p ho_ mtb tb stack o (s, zo) (k, sq) = Ok (s', zo') -> max_state s'.
  Proof.
    intros Hk (G1 & G2 & G3) Hzo (M1 & M2 & M3) Hb H. unfold multi_subquery in H.
    assert (Hsq : sq ∈ stack) by by eapply elem_of_list_lookup_2.
    apply bind_Ok in H as (zo1 & Hzo1 & H).
    assert (Hadj : adjust_to_zoom p o (st_zoom (sq_store sq)) = Ok zo1).
    { destruct (mo_zoom zo =? st_zoom (sq_store sq)) eqn:E; cbn [negb] in Hzo1; [|done].
      apply N.eqb_eq in E. injection Hzo1 as <-. by rewrite <- E. }
    apply bind_Ok in H as (key & Hkey & H). apply bind_Ok in H as (grids & Hg & H). apply bind_Ok in H as (s1 & Hs1 & H).
    injection H as <- <-.
    unfold first_key in Hkey. destruct (sq_keys sq) as [|k' ks] eqn:Ek; [done|]. injection Hkey as ->.
    assert (M : max_state s1).
    { eapply (grids_max k sq _ _ zo1 Hk); [| | | | |exact Hs1].
      - intros g Hin. exists key, ks, zo1, grids. done.
      - intros g e Hin He. exists sq, g. split; [exact Hsq|]. split; [reflexivity|]. split; [|by eapply to_entry_inv].
        exists key, ks, zo1, grids. split; [exact Ek|]. split; [exact Hadj|]. split; [exact Hg|].
        eapply elem_of_sublist; [exact Hin|apply take_N_sub].
      - split; [exact G1|]. split; [|exact G3]. intros z x y cs c Hl. cbn [ms_to_add] in Hl. by rewrite lookup_empty in Hl.
      - split; [exact M1|]. split; [|exact M3]. intros kk l c Hl. cbn [ms_to_add] in Hl. by rewrite lookup_empty in Hl.
      - exact Hb. }
    destruct M as (A1 & A2 & A3). split; [by apply max_merge|]. split; [|exact A3]. intros kk l c Hl. cbn [ms_to_add] in Hl. by rewrite lookup_empty in Hl.
  Qed.
  Lemma subqueries_max ho_ l : forall k s zo s' zo', drop k stack = l -> good_multi ef s -> top_ok p mtb tb stack o (ms_max_relev s) ->
    adjust_to_zoom p o (mo_zoom zo) = Ok zo -> upto p mtb tb stack o k s -> max_state s ->
    res_foldl (multi_subquery p ho_ mtb tb stack o) (s, zo) (combine (seq k (length l)) l) = Ok (s', zo') -> max_state s'.
  Proof.
    induction l as [|sq l IH]; intros k s zo s' zo' Hd HG Htop Hzo HU HM H; [by injection H as <- _|].
    cbn [length seq combine res_foldl] in H. apply bind_Ok in H as ([s1 zo1] & H1 & H).
    assert (Hsk : stack !! k = Some sq). { rewrite <- (Nat.add_0_r k), <- lookup_drop, Hd. done. }
    assert (Hin : sq ∈ stack) by by eapply elem_of_list_lookup_2.
    assert (Hlt : (k < length stack)%nat) by by eapply lookup_lt_Some.
    destruct (multi_subquery_good p ho_ mtb tb stack o s zo k sq s1 zo1 Hin Hmask Hz HG Hzo H1) as [HG1 Hzo1].
    destruct (subquery_step p mtb tb stack o Hmask Hz Hsort ho_ k sq s zo s1 zo1 Hsk HG Htop Hzo HU H1) as [A1 A2].
    eapply (IH (S k)); [|exact HG1|exact A1|exact Hzo1|exact A2| |exact H].
    - replace (S k) with (k + 1)%nat by lia. rewrite <- drop_drop, Hd. done.
    - eapply subquery_max; [exact Hsk|exact HG|exact Hzo|exact HM| |exact H1]. intros j sq' g' Hj Hj' Ha.
      destruct HU as [U1 _]. apply (U1 j); [done|lia|done|done].
  Qed.
End layers.

Lemma coalesce_maximal p ho_ mtb tb stack layers o cs c :
  layers ≡ₚ stack -> Sorted.StronglySorted zoom_ordered layers -> (2 <= length layers)%nat ->
  (forall a, a ∈ layers -> sq_mask a <> 0) ->
  (forall a b, a ∈ layers -> b ∈ layers -> st_zoom (sq_store a) - st_zoom (sq_store b) < 16) ->
  (forall a b, a ∈ layers -> b ∈ layers -> sq_idx a = sq_idx b -> a = b) ->
  coalesce p ho_ mtb tb stack o = Ok cs -> c ∈ cs -> maximal p mtb tb o layers c.
Proof.
  intros Hp Hs Hlen Hmask Hz Hid H Hc.
  assert (Hel : forall a, a ∈ stack <-> a ∈ layers) by (intros a; by rewrite Hp).
  assert (Hm : exists all, coalesce_multi p ho_ mtb tb stack o = Ok all /\ c ∈ all).
  { destruct stack as [|a [|b stack]]; [apply Permutation_length in Hp; cbn in Hp; lia..|].
    unfold coalesce in H. apply bind_Ok in H as (all & Ha & H). exists all. split; [done|]. destruct all as [|c0 all]; injection H as <-; [done|].
    eapply elem_of_sublist; [exact Hc|exact (coalesce_filter_sub (cc_relev c0) (c0 :: all) [] 0)]. }
  clear H Hc. destruct Hm as (all & Hall & Hc). unfold coalesce_multi in Hall.
  rewrite (sort_ordered stack layers Hp Hs) in Hall by (intros a b Ha Hb; apply Hid; by apply Hel).
  apply bind_Ok in Hall as ([s zo] & Hloop & Hall). cbn beta iota in Hall. injection Hall as <-.
  assert (Hempty : good_map (entry_from p mtb tb layers o) ∅) by (intros z x y l d Hl; by rewrite lookup_empty in Hl).
  assert (Hemax : max_map p mtb tb layers o ∅) by (intros k l d Hl; by rewrite lookup_empty in Hl).
  destruct (subqueries_max p mtb tb layers o Hmask Hz Hs ho_ layers 0 (MultiState ∅ ∅ [] f_zero) o s zo eq_refl) as (M1 & _ & M3).
  { split; [done|]. split; [done|constructor]. }
  { by left. }
  { apply adjust_self. }
  { split; intros; lia. }
  { split; [done|]. split; [done|constructor]. }
  { exact Hloop. }
  rewrite elem_of_isort in Hc. apply elem_of_app in Hc as [Hc|Hc]; [rewrite Forall_forall in M3; by apply M3|].
  apply elem_of_filter in Hc as [Hc _]. apply elem_of_mjoin in Hc as (l & Hc & Hl).
  apply elem_of_map in Hl as ([k l'] & -> & Hl). unfold hash_iter in Hl. rewrite (ho_perm ho_) in Hl.
  apply elem_of_map_to_list in Hl. by eapply M1.
Qed.
