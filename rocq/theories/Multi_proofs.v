(** Invariants of coalesce_multi. *)
From Verif Require Import Prelude Lists F64 Heap Common Builder Store Query Spatial Coalesce
  Cmp_proofs Queue_proofs Spec_coalesce Coalesce_proofs Props_zoom.
From Coq Require Import Sorting.Sorted.
From Coq Require Import ZifyBool.
Local Open Scope N_scope.

(** ** Masks *)
Lemma all_masks_app l1 l2 : all_masks (l1 ++ l2) = N.lor (all_masks l1) (all_masks l2).
Proof.
  induction l1 as [|m l1 IH]; cbn; [by rewrite ?N.lor_0_l|]. fold (all_masks (l1 ++ l2)) (all_masks l1).
  by rewrite IH, N.lor_assoc.
Qed.
Lemma land_all_masks l m : N.land (all_masks l) m = 0 <-> Forall (fun m' => N.land m' m = 0) l.
Proof.
  induction l as [|x l IH]; cbn.
  - split; [constructor|]. intros _. done.
  - fold (all_masks l). rewrite N.land_lor_distr_l, N.lor_eq_0_iff, IH. split.
    + intros [? ?]. by constructor.
    + intros H. by inversion H.
Qed.
Lemma disjoint_masks_app l m :
  disjoint_masks (l ++ [m]) <-> disjoint_masks l /\ N.land (all_masks l) m = 0.
Proof.
  rewrite land_all_masks. induction l as [|x l IH]; cbn.
  - split; [|repeat constructor]. intros _. split; [done|constructor].
  - rewrite IH, Forall_app. rewrite Forall_singleton. split.
    + intros ((H1 & H2) & H3 & H4). split; [done|]. by constructor.
    + intros ((H1 & H2) & H3). inversion H3; subst. done.
Qed.

Lemma accumulates_impl (P Q : coalesce_entry -> Prop) : (forall e, P e -> Q e) ->
  forall es t, accumulates P es t -> accumulates Q es t.
Proof. intros H es t. induction 1; [apply acc_one|by apply acc_add; [apply H|]|apply acc_swap; auto]. Qed.

Section multi.
  (** [P e z]: the entry comes from a layer of zoom [z]. *)
  Context (P : coalesce_entry -> N -> Prop) (HP : forall e z, P e z -> ce_mask e <> 0).

  (** The cell of [e] contains the cell of [e0], a cell of zoom [z]. *)
  Definition nested (z : N) (e0 e : coalesce_entry) : Prop :=
    exists z', P e z' /\ z' <= z /\ ancestor (z - z') (e_cell e0) = e_cell e.
  Record good_entries (z : N) (e0 : coalesce_entry) (es : list coalesce_entry) (mask : N) (relev : f64) : Prop := {
    gd_first : P e0 z;
    gd_nested : Forall (nested z e0) es;
    gd_disjoint : disjoint_masks (map ce_mask (e0 :: es));
    gd_mask : mask = all_masks (map ce_mask (e0 :: es));
    gd_relev : accumulates (nested z e0) (e0 :: es) relev }.
  Definition good_ctx (z : N) (c : coalesce_context) : Prop :=
    exists e0 es, cc_entries c = e0 :: es /\ good_entries z e0 es (cc_mask c) (cc_relev c).

  Definition good_state (z : N) (e0 : coalesce_entry) (s : stack_state) : Prop :=
    exists es, sk_entries s = e0 :: es /\ good_entries z e0 es (sk_mask s) (sk_relev s).
  Definition prev_ok (s : stack_state) : Prop :=
    sk_prev_mask s = 0 \/
    exists base l, sk_entries s = base ++ [l] /\ base <> [] /\
      ce_mask l = sk_prev_mask s /\ e_relev l = sk_prev_relev s.

  Lemma stack_parent_good z e0 s pe :
    good_state z e0 s -> prev_ok s -> nested z e0 pe ->
    good_state z e0 (stack_parent s pe) /\ prev_ok (stack_parent s pe).
  Proof.
    intros (es & Es & [G1 G2 G3 G4 G5]) Hprev Hn. unfold stack_parent.
    assert (Hm : ce_mask pe <> 0) by (destruct Hn as (z' & Hp & _); by eapply HP).
    destruct ((ce_mask pe =? sk_prev_mask s) && fltb (sk_prev_relev s) (ge_relev (ce_entry pe))) eqn:E.
    - apply andb_prop in E as [E1 E2]. apply N.eqb_eq in E1.
      destruct Hprev as [H0|(base & l & Hb & Hne & Hlm & Hlr)]; [congruence|].
      destruct base as [|b0 base]; [done|]. rewrite Es in Hb. injection Hb as <- ->.
      rewrite Es. change (e0 :: base ++ [l]) with ((e0 :: base) ++ [l]). rewrite removelast_last.
      split.
      + exists (base ++ [pe]). split; [done|]. cbn [sk_mask sk_relev].
        apply Forall_app in G2 as [G2 Hnl]. rewrite Forall_singleton in Hnl.
        assert (Hmm : map ce_mask (e0 :: base ++ [pe]) = map ce_mask (e0 :: base ++ [l])).
        { change (e0 :: base ++ [pe]) with ((e0 :: base) ++ [pe]). change (e0 :: base ++ [l]) with ((e0 :: base) ++ [l]).
          rewrite !List.map_app. cbn. congruence. }
        split; [done|apply Forall_app; split; [done|by constructor]|by rewrite Hmm|by rewrite Hmm|].
        change (e0 :: base ++ [pe]) with ((e0 :: base) ++ [pe]). rewrite <- Hlr.
        apply acc_swap; [done|done|done|congruence| |by rewrite Hlr]. exact G5.
      + right. exists (e0 :: base), pe. done.
    - destruct (N.land (sk_mask s) (ce_mask pe) =? 0) eqn:E2; [|split; [by exists es|done]].
      apply N.eqb_eq in E2. rewrite Es. split.
      + exists (es ++ [pe]). split; [done|]. cbn [sk_mask sk_relev].
        assert (Hmm : forall A (f : coalesce_entry -> A), map f (e0 :: es ++ [pe]) = map f (e0 :: es) ++ [f pe]).
        { intros A f. change (e0 :: es ++ [pe]) with ((e0 :: es) ++ [pe]). by rewrite List.map_app. }
        split; [done|apply Forall_app; split; [done|by constructor]| | |]; [rewrite Hmm..|].
        * apply disjoint_masks_app. by rewrite <- G4.
        * rewrite all_masks_app, <- G4. cbn. by rewrite N.lor_0_r.
        * change (e0 :: es ++ [pe]) with ((e0 :: es) ++ [pe]). by apply acc_add.
      + right. exists (e0 :: es), pe. done.
  Qed.
  Lemma stack_parents_good z e0 pes : forall s,
    good_state z e0 s -> prev_ok s -> Forall (nested z e0) pes -> good_state z e0 (foldl stack_parent s pes).
  Proof.
    induction pes as [|pe pes IH]; intros s Hg Hp HF; cbn [foldl]; [done|].
    inversion HF; subst. destruct (stack_parent_good z e0 s pe) as [? ?]; [done|done|done|]. by apply IH.
  Qed.

  (** The map from cells to contexts. *)
  Definition good_map (m : gmap (N * N * N) (list coalesce_context)) : Prop :=
    forall z x y cs c, m !! (z, x, y) = Some cs -> c ∈ cs ->
      exists e0 es, cc_entries c = e0 :: es /\ e_cell e0 = (x, y) /\
        good_entries z e0 es (cc_mask c) (cc_relev c).

  Lemma nested_self z e : P e z -> nested z e e.
  Proof.
    intros He. exists z. split; [done|]. split; [lia|]. rewrite N.sub_diag. unfold ancestor.
    rewrite N.pow_0_r, !N.div_1_r. by destruct (e_cell e).
  Qed.
  Lemma nested_trans z oz e0 p0 pe :
    oz <= z -> ancestor (z - oz) (e_cell e0) = e_cell p0 -> nested oz p0 pe -> nested z e0 pe.
  Proof.
    intros Hz Hc (z' & Hp & Hz' & Hc'). exists z'. split; [done|]. split; [lia|].
    rewrite <- Hc', <- Hc. unfold ancestor. cbn [fst snd].
    rewrite !N.div_div by (apply N.pow_nonzero; done). rewrite <- N.pow_add_r. do 2 f_equal; f_equal; f_equal; lia.
  Qed.
  Lemma stack_zoom_good p m z e0 s oz s' :
    good_map m -> good_state z e0 s -> oz <= z -> z - oz < 16 ->
    stack_zoom p m z s oz = Ok s' -> good_state z e0 s'.
  Proof.
    intros Hm Hg Hoz Hd H. unfold stack_zoom in H.
    apply bind_Ok in H as (d & Hsub & H). unfold usub in Hsub. destruct (oz <=? z) eqn:E; [|lia]. injection Hsub as <-.
    rewrite scale_ok in H by done. cbn [res_bind] in H.
    pose proof Hg as (es & Es & G). rewrite Es in H. cbn [index] in H.
    change (index (e0 :: es) 0) with (Ok e0) in H. cbn [res_bind] in H.
    destruct (m !! _) as [parents|] eqn:Em; injection H as <-; [|done].
    apply stack_parents_good.
    - exists es. done.
    - by left.
    - rewrite Forall_forall. intros pe Hpe. apply elem_of_mjoin in Hpe as (l & Hpe & Hl).
      apply elem_of_map in Hl as (c & -> & Hc). destruct (Hm _ _ _ _ _ Em Hc) as (p0 & pes & Ep & Hcell & Gp).
      assert (Hanc : ancestor (z - oz) (e_cell e0) = e_cell p0) by (rewrite Hcell; done).
      rewrite Ep in Hpe. apply elem_of_cons in Hpe as [->|Hpe].
      + apply (nested_trans z oz e0 p0 p0); [done|done|]. apply nested_self. apply Gp.
      + apply (nested_trans z oz e0 p0 pe); [done|done|]. destruct Gp as [_ G2 _ _ _].
        rewrite Forall_forall in G2. by apply G2.
  Qed.
  Lemma stack_zooms_good p m z e0 zooms : forall s s',
    good_map m -> good_state z e0 s -> Forall (fun oz => oz <= z /\ z - oz < 16) zooms ->
    res_foldl (stack_zoom p m z) s zooms = Ok s' -> good_state z e0 s'.
  Proof.
    induction zooms as [|oz zooms IH]; intros s s' Hm Hg HF H; cbn [res_foldl] in H; [by injection H as <-|].
    inversion HF as [|? ? [H1 H2] HF']; subst. apply bind_Ok in H as (s1 & H0 & H).
    eapply IH; [done| |done|exact H]. by eapply stack_zoom_good.
  Qed.

  (** A context of the last layer carries the penalty. *)
  Definition good_last (z : N) (c : coalesce_context) : Prop :=
    exists e0 es relev, cc_entries c = e0 :: es /\ good_entries z e0 es (cc_mask c) relev /\
      cc_relev c = last_penalty (e0 :: es) relev.
  Definition good_contexts (cs : list coalesce_context) : Prop := Forall (fun c => exists z, good_last z c) cs.

  Lemma push_ctx_good m z x y c :
    good_map m ->
    (exists e0 es, cc_entries c = e0 :: es /\ e_cell e0 = (x, y) /\ good_entries z e0 es (cc_mask c) (cc_relev c)) ->
    good_map (push_ctx m (z, x, y) c).
  Proof.
    intros Hm Hc z' x' y' cs c' Hl Hin. unfold push_ctx in Hl.
    destruct (decide ((z, x, y) = (z', x', y'))) as [Heq|Hne].
    - injection Heq as <- <- <-. rewrite lookup_insert in Hl. injection Hl as <-.
      apply elem_of_app in Hin as [Hin|Hin].
      + destruct (m !! (z, x, y)) as [l|] eqn:El; cbn in Hin; [|by apply elem_of_nil in Hin]. by eapply Hm.
      + apply elem_of_list_singleton in Hin as ->. done.
    - rewrite lookup_insert_ne in Hl by done. by eapply Hm.
  Qed.
  Lemma merge_good ho i m1 m2 : good_map m1 -> good_map m2 -> good_map (merge_to_add ho i m1 m2).
  Proof.
    intros H1 H2. unfold merge_to_add.
    assert (Hl : forall kv, kv ∈ hash_iter ho [4; i] m2 -> m2 !! kv.1 = Some kv.2).
    { intros [k v] Hin. unfold hash_iter in Hin. rewrite (ho_perm ho) in Hin. by apply elem_of_map_to_list in Hin. }
    revert m1 H1. induction (hash_iter ho [4; i] m2) as [|[[[z x] y] v] l IH]; intros m1 H1; cbn [foldl]; [done|].
    apply IH; [intros; apply Hl; by right|]. cbn [fst snd].
    intros z' x' y' cs c Hlk Hin.
    destruct (decide ((z, x, y) = (z', x', y'))) as [Heq|Hne].
    - injection Heq as <- <- <-. rewrite lookup_insert in Hlk. injection Hlk as <-.
      apply elem_of_app in Hin as [Hin|Hin].
      + destruct (m1 !! (z, x, y)) as [l1|] eqn:El; cbn in Hin; [|by apply elem_of_nil in Hin]. by eapply H1.
      + eapply (H2 z x y v); [|done]. apply (Hl ((z, x, y), v)). by left.
    - rewrite lookup_insert_ne in Hlk by done. by eapply H1.
  Qed.

  Definition good_multi (s : multi_state) : Prop :=
    good_map (ms_coalesced s) /\ good_map (ms_to_add s) /\ good_contexts (ms_contexts s).
  Lemma multi_grid_good p is_first is_last zooms sq o s g s' :
    (forall e, grid_to_coalesce_entry p g sq o 0 = Ok e -> P e (st_zoom (sq_store sq))) ->
    good_multi s -> Forall (fun oz => oz <= st_zoom (sq_store sq) /\ st_zoom (sq_store sq) - oz < 16) zooms ->
    multi_grid p is_first is_last zooms sq o s g = Ok s' -> good_multi s'.
  Proof.
    intros Hconv (G1 & G2 & G3) Hz H. unfold multi_grid in H.
    apply bind_Ok in H as (e & He & H). apply bind_Ok in H as (k & Hk & H).
    pose proof (Hconv e He) as HPe. pose proof (to_entry_inv _ _ _ _ _ _ He) as Hto.
    assert (Hcell : e_cell e = (ge_x (me_entry g), ge_y (me_entry g))).
    { unfold e_cell. destruct Hto as [-> _]. done. }
    assert (Hgk : good_state (st_zoom (sq_store sq)) e k).
    { eapply stack_zooms_good; [exact G1| |exact Hz|exact Hk]. exists []. split; [done|]. cbn [sk_mask sk_relev].
      split; [done|constructor|cbn; by split; [constructor|]|cbn; by rewrite N.lor_0_r|apply acc_one]. }
    destruct Hgk as (es & Es & Gk).
    destruct is_last; [|destruct (is_first || negb (length (sk_entries k) =? 1)%nat)]; injection H as <-; [| |done].
    - split; [done|]. split; [done|]. cbn [ms_contexts]. destruct (fltb _ f_025); [|done].
      apply Forall_app. split; [done|]. constructor; [|constructor].
      exists (st_zoom (sq_store sq)), e, es, (sk_relev k). cbn [cc_entries cc_mask cc_relev]. rewrite Es. done.
    - split; [done|]. split; [|done]. cbn [ms_to_add]. apply push_ctx_good; [done|].
      exists e, es. cbn [cc_entries cc_mask cc_relev]. rewrite Es. done.
  Qed.
  Lemma multi_grids_good p is_first is_last zooms sq o grids : forall s s',
    (forall g e, g ∈ grids -> grid_to_coalesce_entry p g sq o 0 = Ok e -> P e (st_zoom (sq_store sq))) ->
    good_multi s -> Forall (fun oz => oz <= st_zoom (sq_store sq) /\ st_zoom (sq_store sq) - oz < 16) zooms ->
    res_foldl (multi_grid p is_first is_last zooms sq o) s grids = Ok s' -> good_multi s'.
  Proof.
    induction grids as [|g grids IH]; intros s s' Hc Hg Hz H; cbn [res_foldl] in H; [by injection H as <-|].
    apply bind_Ok in H as (s1 & H0 & H). eapply IH; [| |done|exact H].
    - intros g' e Hin. apply Hc. by right.
    - eapply multi_grid_good; [|done|done|exact H0]. intros e. apply Hc. by left.
  Qed.
  Lemma compatible_zooms_ok stack sq : sq ∈ stack ->
    (forall a b, a ∈ stack -> b ∈ stack -> st_zoom (sq_store a) - st_zoom (sq_store b) < 16) ->
    Forall (fun oz => oz <= st_zoom (sq_store sq) /\ st_zoom (sq_store sq) - oz < 16) (compatible_zooms stack sq).
  Proof.
    intros Hsq Hz. rewrite Forall_forall. intros oz Hin. unfold compatible_zooms in Hin.
    assert (Hin' : oz ∈ map (fun b => st_zoom (sq_store b))
      (List.filter (fun b => negb ((sq_idx sq =? sq_idx b) || (st_zoom (sq_store sq) <? st_zoom (sq_store b)))) stack)).
    { revert Hin. apply dedup_elem. intros a b Hab. by apply N.eqb_eq. }
    apply elem_of_map in Hin' as (b & -> & Hb). apply elem_of_filter in Hb as [Hb Hf].
    split; [|by apply Hz]. apply negb_true_iff, orb_false_iff in Hf as [_ Hf]. lia.
  Qed.
End multi.

(** ** The whole call *)
Lemma adjust_zoom p o t o' : adjust_to_zoom p o t = Ok o' -> mo_zoom o' = t.
Proof.
  unfold adjust_to_zoom. destruct (mo_zoom o =? t) eqn:E; [intros [= <-]; by apply N.eqb_eq|].
  intros H. apply bind_Ok in H as (? & _ & H). apply bind_Ok in H as (? & _ & H). by injection H as <-.
Qed.
Lemma adjust_self p o : adjust_to_zoom p o (mo_zoom o) = Ok o.
Proof. unfold adjust_to_zoom. by rewrite N.eqb_refl. Qed.

(** An entry made from a match of a layer's first key, at the layer's zoom. *)
Definition layer_match (p : profile) (mtb : merge_tb) (tb : tiebreak) (o : match_opts) (sq : subquery)
    (g : match_entry) : Prop :=
  exists k ks zo out, sq_keys sq = k :: ks /\ adjust_to_zoom p o (st_zoom (sq_store sq)) = Ok zo /\
    streaming_get_matching p mtb tb (sq_store sq) (mki_key k) zo max_grids_per_phrase = Ok out /\ g ∈ out.
Definition entry_from (p : profile) (mtb : merge_tb) (tb : tiebreak) (stack : list subquery) (o : match_opts)
    (e : coalesce_entry) (z : N) : Prop :=
  exists sq g, sq ∈ stack /\ st_zoom (sq_store sq) = z /\ layer_match p mtb tb o sq g /\ to_entry sq 0 g e.

Lemma multi_subquery_good p ho mtb tb stack o s zo i sq s' zo' :
  sq ∈ stack -> (forall a, a ∈ stack -> sq_mask a <> 0) ->
  (forall a b, a ∈ stack -> b ∈ stack -> st_zoom (sq_store a) - st_zoom (sq_store b) < 16) ->
  good_multi (entry_from p mtb tb stack o) s -> adjust_to_zoom p o (mo_zoom zo) = Ok zo ->
  multi_subquery p ho mtb tb stack o (s, zo) (i, sq) = Ok (s', zo') ->
  good_multi (entry_from p mtb tb stack o) s' /\ adjust_to_zoom p o (mo_zoom zo') = Ok zo'.
Proof.
  intros Hsq Hmask Hz (G1 & G2 & G3) Hzo H. unfold multi_subquery in H.
  assert (HP : forall e z, entry_from p mtb tb stack o e z -> ce_mask e <> 0).
  { intros e z (sq' & g & Hin & _ & _ & (_ & _ & _ & Hm & _)). rewrite Hm. by apply Hmask. }
  assert (Hempty : good_map (entry_from p mtb tb stack o) ∅) by (intros z x y cs c Hl; by rewrite lookup_empty in Hl).
  apply bind_Ok in H as (zo1 & Hzo1 & H).
  assert (Hadj : adjust_to_zoom p o (st_zoom (sq_store sq)) = Ok zo1).
  { destruct (mo_zoom zo =? st_zoom (sq_store sq)) eqn:E; cbn [negb] in Hzo1; [|done].
    apply N.eqb_eq in E. injection Hzo1 as <-. by rewrite <- E. }
  apply bind_Ok in H as (k & Hk & H). apply bind_Ok in H as (grids & Hg & H). apply bind_Ok in H as (s1 & Hs1 & H).
  injection H as <- <-. split; [|by rewrite (adjust_zoom _ _ _ _ Hadj)].
  assert (G : good_multi (entry_from p mtb tb stack o) s1).
  { eapply multi_grids_good; [exact HP| | |by apply compatible_zooms_ok|exact Hs1].
    - intros g e Hin He. exists sq, g. split; [done|]. split; [done|]. split; [|by eapply to_entry_inv].
      unfold first_key in Hk. destruct (sq_keys sq) as [|k' ks] eqn:Ek; [done|]. injection Hk as ->.
      exists k, ks, zo1, grids. split; [done|]. split; [done|]. split; [done|].
      eapply elem_of_sublist; [exact Hin|apply take_N_sub].
    - split; [done|]. split; [done|done]. }
  destruct G as (A1 & A2 & A3). split; [by apply merge_good|]. split; [done|done].
Qed.

Lemma elem_of_combine_r {A B} (l1 : list A) (l2 : list B) a b : (a, b) ∈ combine l1 l2 -> b ∈ l2.
Proof. intros H. apply elem_of_list_In in H. apply elem_of_list_In. by eapply in_combine_r. Qed.

Lemma multi_subqueries_good p ho mtb tb stack o isqs : forall s zo s' zo',
  (forall i a, (i, a) ∈ isqs -> a ∈ stack) -> (forall a, a ∈ stack -> sq_mask a <> 0) ->
  (forall a b, a ∈ stack -> b ∈ stack -> st_zoom (sq_store a) - st_zoom (sq_store b) < 16) ->
  good_multi (entry_from p mtb tb stack o) s -> adjust_to_zoom p o (mo_zoom zo) = Ok zo ->
  res_foldl (multi_subquery p ho mtb tb stack o) (s, zo) isqs = Ok (s', zo') ->
  good_multi (entry_from p mtb tb stack o) s'.
Proof.
  induction isqs as [|[i sq] isqs IH]; intros s zo s' zo' Hin Hmask Hz Hg Hzo H; cbn [res_foldl] in H.
  { apply pair_equal_spec in H as [<- _] || (injection H as <- _). done. }
  apply bind_Ok in H as ([s1 zo1] & H0 & H).
  destruct (multi_subquery_good p ho mtb tb stack o s zo i sq s1 zo1) as [G1 Z1];
    [eapply Hin; by left|done|done|done|done|done|].
  eapply IH; [|done|done|exact G1|exact Z1|exact H]. intros j a Ha. eapply Hin. by right.
Qed.

(** A context made by stacking, as returned. *)
Definition stacked (p : profile) (mtb : merge_tb) (tb : tiebreak) (stack : list subquery) (o : match_opts)
    (c : coalesce_context) : Prop :=
  exists z, good_ctx (entry_from p mtb tb stack o) z c \/ good_last (entry_from p mtb tb stack o) z c.
Lemma coalesce_multi_good p ho mtb tb stack o cs :
  (forall a, a ∈ stack -> sq_mask a <> 0) ->
  (forall a b, a ∈ stack -> b ∈ stack -> st_zoom (sq_store a) - st_zoom (sq_store b) < 16) ->
  coalesce_multi p ho mtb tb stack o = Ok cs -> Forall (stacked p mtb tb stack o) cs.
Proof.
  intros Hmask Hz H. unfold coalesce_multi in H. apply bind_Ok in H as ([s zo] & Hs & H).
  cbn beta iota in H. injection H as <-.
  assert (Hel : forall a, a ∈ isort stack_leb stack <-> a ∈ stack) by (intros; apply elem_of_isort).
  assert (G : good_multi (entry_from p mtb tb (isort stack_leb stack) o) s).
  { eapply multi_subqueries_good; [| | | | |exact Hs].
    - intros i a Ha. by eapply elem_of_combine_r.
    - intros a Ha. apply Hmask. by apply Hel.
    - intros a b Ha Hb. apply Hz; by apply Hel.
    - split; [|split; [|apply Forall_nil_2]]; intros z x y cs c Hl; cbn [ms_coalesced ms_to_add] in Hl; by rewrite lookup_empty in Hl.
    - apply adjust_self. }
  assert (G' : good_multi (entry_from p mtb tb stack o) s).
  { assert (E : forall e z, entry_from p mtb tb (isort stack_leb stack) o e z -> entry_from p mtb tb stack o e z).
    { intros e z (sq & g & Hin & Hr). exists sq, g. split; [by apply Hel|done]. }
    assert (En : forall z e0 e, nested (entry_from p mtb tb (isort stack_leb stack) o) z e0 e ->
                                nested (entry_from p mtb tb stack o) z e0 e).
    { intros z e0 e (z' & H1 & H2). exists z'. split; [by apply E|done]. }
    assert (Eg : forall z e0 es m r, good_entries (entry_from p mtb tb (isort stack_leb stack) o) z e0 es m r ->
                                     good_entries (entry_from p mtb tb stack o) z e0 es m r).
    { intros z e0 es m r [? G2 ? ? ?]. split; [by apply E| |done|done|by eapply accumulates_impl; [apply En|]].
      eapply Forall_impl; [exact G2|]. intros e. apply En. }
    destruct G as (G1 & G2 & G3). split; [|split].
    - intros z x y cs c Hl Hc. destruct (G1 z x y cs c Hl Hc) as (e0 & es & ? & ? & ?). exists e0, es. auto.
    - intros z x y cs c Hl Hc. destruct (G2 z x y cs c Hl Hc) as (e0 & es & ? & ? & ?). exists e0, es. auto.
    - eapply Forall_impl; [exact G3|]. intros c (z & e0 & es & r & ? & ? & ?). exists z, e0, es, r. auto. }
  destruct G' as (G1 & _ & G3). rewrite Forall_forall. intros c Hc. rewrite elem_of_isort in Hc.
  apply elem_of_app in Hc as [Hc|Hc].
  - unfold good_contexts in G3; rewrite Forall_forall in G3. apply G3 in Hc as [z Hc]. exists z. by right.
  - apply elem_of_filter in Hc as [Hc _]. apply elem_of_mjoin in Hc as (l & Hc & Hl).
    apply elem_of_map in Hl as ([[[z x] y] l'] & -> & Hl). unfold hash_iter in Hl. rewrite (ho_perm ho) in Hl.
    apply elem_of_map_to_list in Hl. destruct (G1 _ _ _ _ _ Hl Hc) as (e0 & es & E1 & _ & E2).
    exists z. left. exists e0, es. done.
Qed.
