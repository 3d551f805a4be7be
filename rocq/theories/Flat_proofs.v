(** Flat coalesce: when it answers, and that the order of hash maps does not show. *)
From Verif Require Import Prelude Lists F64 Heap Common Morton Format Builder Spatial Store Spec Spec_match Query Coalesce Stackable Tree
  Cmp_proofs Queue_proofs Spec_coalesce Coalesce_proofs Multi_proofs Term_proofs Total_proofs.
From Coq Require Import Sorting.Sorted.
From Coq Require Import ZifyBool.
Local Open Scope N_scope.

Lemma mjoin_cons {A} (a : list A) b : mjoin (a :: b) = a ++ mjoin b.
Proof. done. Qed.

(** ** Stable sorting *)
Section stable.
  Context {A : Type} (cmp : A -> A -> comparison) (H : total_cmp cmp).
  Lemma tc_eq_trans a b c : cmp a b = Eq -> cmp b c = Eq -> cmp a c = Eq.
  Proof.
    intros E1 E2. assert (H1 : cmp a c <> Gt) by (apply (tc_trans _ H a b c); congruence).
    assert (H2 : cmp c a <> Gt) by (apply (tc_trans _ H c b a); rewrite (tc_anti _ H), ?E1, ?E2; done).
    rewrite (tc_anti _ H a c) in H2. destruct (cmp a c); done.
  Qed.
  Definition alike_to (x a : A) : bool := match cmp x a with Eq => true | _ => false end.
  Lemma alike_to_ok x a : alike_to x a = true <-> cmp x a = Eq.
  Proof. unfold alike_to. by destruct (cmp x a). Qed.
  Lemma insert_filter x a l : List.filter (alike_to x) (insert_sorted (desc_by cmp) a l) = List.filter (alike_to x) (a :: l).
  Proof.
    induction l as [|b l IH]; [done|]. cbn [insert_sorted]. destruct (desc_by cmp a b) eqn:E; [done|].
    cbn [List.filter] in *. rewrite IH. destruct (alike_to x a) eqn:Ea, (alike_to x b) eqn:Eb; try done.
    apply alike_to_ok in Ea, Eb. assert (Hab : cmp a b = Eq).
    { eapply tc_eq_trans; [|exact Eb]. by apply tc_eq_sym. }
    unfold desc_by in E. by rewrite Hab in E.
  Qed.
  Lemma isort_filter x l : List.filter (alike_to x) (isort (desc_by cmp) l) = List.filter (alike_to x) l.
  Proof. induction l as [|a l IH]; [done|]. cbn [isort]. rewrite insert_filter. cbn [List.filter]. by rewrite IH. Qed.
  Lemma alike_in x l : x ∈ l -> x ∈ List.filter (alike_to x) l.
  Proof. intros Hx. apply elem_of_list_In, filter_In. split; [by apply elem_of_list_In|]. apply alike_to_ok, tc_refl, H. Qed.
  Lemma sorted_unique : forall l1 l2, StronglySorted (fun a b => cmp b a <> Gt) l1 -> StronglySorted (fun a b => cmp b a <> Gt) l2 ->
    (forall x, List.filter (alike_to x) l1 = List.filter (alike_to x) l2) -> l1 = l2.
  Proof.
    assert (Hsub : forall (l1 l2 : list A) x, (forall x, List.filter (alike_to x) l1 = List.filter (alike_to x) l2) -> x ∈ l1 -> x ∈ l2).
    { intros l1 l2 x Hf Hx. apply alike_in in Hx. rewrite Hf in Hx. apply elem_of_list_In, filter_In in Hx as [Hx _]. by apply elem_of_list_In. }
    induction l1 as [|a l1 IH]; intros l2 S1 S2 Hf.
    - destruct l2 as [|b l2]; [done|]. exfalso. assert (Hb : b ∈ @nil A); [|by apply elem_of_nil in Hb].
      apply (Hsub (b :: l2) []); [done|by left].
    - destruct l2 as [|b l2].
      { exfalso. assert (Ha : a ∈ @nil A); [|by apply elem_of_nil in Ha]. apply (Hsub (a :: l1) []); [done|by left]. }
      apply StronglySorted_inv in S1 as [S1 F1], S2 as [S2 F2]. rewrite Forall_forall in F1, F2.
      assert (Hab : cmp a b = Eq).
      { assert (H1 : cmp b a <> Gt).
        { assert (Hb : b ∈ a :: l1) by (apply (Hsub (b :: l2)); [done|by left]). apply elem_of_cons in Hb as [->|Hb]; [by rewrite (tc_refl cmp H)|by apply F1]. }
        assert (H2 : cmp a b <> Gt).
        { assert (Ha : a ∈ b :: l2) by (apply (Hsub (a :: l1)); [done|by left]). apply elem_of_cons in Ha as [->|Ha]; [by rewrite (tc_refl cmp H)|by apply F2]. }
        rewrite (tc_anti _ H a b) in H1. by destruct (cmp a b). }
      pose proof (Hf a) as Ea. cbn [List.filter] in Ea. rewrite (proj2 (alike_to_ok a a) (tc_refl cmp H a)), (proj2 (alike_to_ok a b) Hab) in Ea.
      injection Ea as <- _. f_equal. apply IH; [done|done|]. intros x. specialize (Hf x). cbn [List.filter] in Hf.
      destruct (alike_to x a); [by injection Hf|done].
  Qed.
  Lemma isort_unique l1 l2 : (forall x, List.filter (alike_to x) l1 = List.filter (alike_to x) l2) -> isort (desc_by cmp) l1 = isort (desc_by cmp) l2.
  Proof.
    intros Hf. apply sorted_unique; [by apply isort_desc|by apply isort_desc|]. intros x. by rewrite !isort_filter.
  Qed.
  (** Blocks in any order, no ties between different blocks. *)
  Lemma blocks_filter {K} (g : A -> bool) x (k1 k2 : list (K * list A)) : k1 ≡ₚ k2 -> NoDup (map fst k1) ->
    (forall b b' a a', b ∈ k1 -> b' ∈ k1 -> b.1 <> b'.1 -> a ∈ b.2 -> a' ∈ b'.2 -> cmp a a' <> Eq) ->
    List.filter (alike_to x) (List.filter g (mjoin (map snd k1))) = List.filter (alike_to x) (List.filter g (mjoin (map snd k2))).
  Proof.
    intros Hp. induction Hp as [|[k b] l1 l2 Hp IH|[ka a] [kb b] l|l1 l2 l3 Hp1 IH1 Hp2 IH2]; intros Hnd Hx.
    - done.
    - cbn [map snd]. rewrite !mjoin_cons, !List.filter_app. f_equal. apply IH.
      + cbn [map] in Hnd. by apply NoDup_cons in Hnd as [_ ?].
      + intros c c' ? ? Hc Hc'. apply Hx; by right.
    - cbn [map snd]. rewrite !mjoin_cons, !List.filter_app, !app_assoc. f_equal.
      cbn [map fst] in Hnd. apply NoDup_cons in Hnd as [Hk _].
      destruct (List.filter (alike_to x) (List.filter g b)) as [|b0 fb] eqn:Eb; [by rewrite app_nil_r|].
      destruct (List.filter (alike_to x) (List.filter g a)) as [|a0 fa] eqn:Ea; [by rewrite app_nil_r|].
      exfalso. assert (Hb0 : In b0 (b0 :: fb)) by (by left). assert (Ha0 : In a0 (a0 :: fa)) by (by left).
      rewrite <- Eb in Hb0. rewrite <- Ea in Ha0. apply filter_In in Hb0 as [[Hb0 _]%filter_In Eb0], Ha0 as [[Ha0 _]%filter_In Ea0].
      apply alike_to_ok in Eb0, Ea0. apply (Hx (kb, b) (ka, a) b0 a0); [by left|right; by left| |by apply elem_of_list_In|by apply elem_of_list_In|].
      + cbn [fst]. intros ->. apply Hk. by left.
      + eapply tc_eq_trans; [|exact Ea0]. by apply tc_eq_sym.
    - rewrite IH1 by done. apply IH2.
      + by rewrite <- Hp1.
      + intros b b' a a' Hb Hb'. apply Hx; by rewrite Hp1.
  Qed.
End stable.

(** ** Hash order: one layer *)
Lemma single_map_ids has es : forall s, (forall id e, ss_coalesced s !! id = Some e -> ge_id (ce_entry e) = id) ->
  forall id e, ss_coalesced (run_entries has es s) !! id = Some e -> ge_id (ce_entry e) = id.
Proof.
  assert (Hins : forall m e, (forall id e, m !! id = Some e -> ge_id (ce_entry e) = id) ->
    forall id e', coalesced_insert m e !! id = Some e' -> ge_id (ce_entry e') = id).
  { intros m e Hm id e'. unfold coalesced_insert. cbn zeta.
    assert (H1 : <[ge_id (ce_entry e):=e]> m !! id = Some e' -> ge_id (ce_entry e') = id).
    { destruct (decide (ge_id (ce_entry e) = id)) as [<-|Hne]; [rewrite lookup_insert; by intros [= <-]|].
      rewrite lookup_insert_ne by done. apply Hm. }
    destruct (m !! ge_id (ce_entry e)); [|done]. destruct (_ && _); [done|apply Hm]. }
  induction es as [|e es IH]; intros s Hs; cbn [run_entries]; [done|].
  unfold single_body. cbn zeta.
  destruct (_ && _); [by apply IH|]. destruct (_ && _); [by apply IH|]. destruct (_ && _); [done|]. destruct (fleb _ _); [done|].
  destruct (_ && _); cbn [ss_coalesced]; [by apply Hins|]. apply IH. cbn [ss_coalesced]. by apply Hins.
Qed.
Lemma single_pre_hash ho1 ho2 o es : single_pre ho1 o es = single_pre ho2 o es.
Proof.
  unfold single_pre. f_equal. apply (isort_unique _ total_cmp_single). intros x. unfold map_contexts, hash_iter.
  set (m := ss_coalesced _). assert (Hm : forall id e, m !! id = Some e -> ge_id (ce_entry e) = id).
  { apply single_map_ids. intros id e He. cbn [single_init ss_coalesced] in He. by rewrite lookup_empty in He. }
  clearbody m.
  assert (Hl : forall l : list (N * coalesce_entry), List.filter (fun _ => true) (mjoin (map snd (map (fun ie => (ie.1, [single_context ie.2])) l))) =
    map (fun ie => single_context ie.2) l).
  { induction l as [|ie l IH]; [done|]. cbn [map snd]. rewrite mjoin_cons. cbn [app List.filter].
    by rewrite IH. }
  rewrite <- !Hl. apply (blocks_filter _ total_cmp_single).
  - apply Permutation_map. by rewrite !ho_perm.
  - rewrite List.map_map. cbn [fst]. change (map (fun x0 : N * coalesce_entry => x0.1) ?l) with (l.*1). rewrite ho_perm. apply NoDup_fst_map_to_list.
  - intros b b' a a' Hb Hb' Hne Ha Ha'. apply elem_of_map in Hb as ([i e] & -> & Hi), Hb' as ([i' e'] & -> & Hi').
    cbn [fst snd] in *. apply elem_of_list_singleton in Ha as ->, Ha' as ->. rewrite ho_perm in Hi, Hi'.
    apply elem_of_map_to_list in Hi, Hi'. apply Hm in Hi, Hi'. unfold single_cmp, single_context. cbn [cc_entries].
    unfold cmp_then. repeat (destruct (ord_cmp _ _); try done). repeat (destruct (N.compare (ge_x _) _); try done).
    repeat (destruct (N.compare (ge_y _) _); try done). intros E. apply N.compare_eq in E. congruence.
Qed.

(** ** Hash order: several layers *)
Lemma merge_fold (k : N * N * N) (l : list ((N * N * N) * list coalesce_context)) : NoDup (l.*1) ->
  forall (r : option (list coalesce_context)) (m1 : gmap (N * N * N) (list coalesce_context)), (forall v, (k, v) ∈ l <-> r = Some v) ->
  foldl (fun m (kv : (N * N * N) * list coalesce_context) => <[kv.1 := default [] (m !! kv.1) ++ kv.2]> m) m1 l !! k =
  match r with Some v => Some (default [] (m1 !! k) ++ v) | None => m1 !! k end.
Proof.
  induction l as [|[k' v'] l IH]; intros Hnd r m1 Hr; cbn [foldl].
  - destruct r as [v|]; [|done]. pose proof (proj2 (Hr v) eq_refl) as Hv. by apply elem_of_nil in Hv.
  - rewrite fmap_cons in Hnd. cbn [fst] in Hnd. apply NoDup_cons in Hnd as [Hk' Hnd]. cbn [fst snd].
    destruct (decide (k = k')) as [<-|Hne].
    + assert (r = Some v') as -> by (apply Hr; by left).
      rewrite (IH Hnd None).
      * by rewrite lookup_insert.
      * intros v. split; [|done]. intros Hv. exfalso. apply Hk'. apply elem_of_list_fmap. by exists (k, v).
    + rewrite (IH Hnd r).
      * by rewrite lookup_insert_ne.
      * intros v. rewrite <- Hr, elem_of_cons. split; [by right|]. intros [[= ? _]|?]; done.
Qed.
Lemma merge_lookup ho_ i m1 m2 k : merge_to_add ho_ i m1 m2 !! k =
  match m2 !! k with Some v => Some (default [] (m1 !! k) ++ v) | None => m1 !! k end.
Proof.
  unfold merge_to_add, hash_iter. apply merge_fold.
  - rewrite ho_perm. apply NoDup_fst_map_to_list.
  - intros v. rewrite ho_perm. apply elem_of_map_to_list.
Qed.
Lemma merge_hash ho1 ho2 i m1 m2 : merge_to_add ho1 i m1 m2 = merge_to_add ho2 i m1 m2.
Proof. apply map_eq. intros k. by rewrite !merge_lookup. Qed.
Lemma multi_subquery_hash p ho1 ho2 mtb tb stack o st isq :
  multi_subquery p ho1 mtb tb stack o st isq = multi_subquery p ho2 mtb tb stack o st isq.
Proof.
  unfold multi_subquery. destruct st as [s zo], isq as [i sq].
  destruct (if negb _ then _ else _); cbn [res_bind]; [|done|done|done].
  destruct (first_key sq); cbn [res_bind]; [|done|done|done].
  destruct (streaming_get_matching _ _ _ _ _ _ _); cbn [res_bind]; [|done|done|done].
  destruct (res_foldl _ _ _); cbn [res_bind]; [|done|done|done]. by rewrite (merge_hash ho1 ho2).
Qed.
Lemma res_foldl_ext {A S} (f g : S -> A -> res S) l : (forall s a, f s a = g s a) -> forall s, res_foldl f s l = res_foldl g s l.
Proof.
  intros H. induction l as [|a l IH]; intros s; cbn [res_foldl]; [done|]. rewrite H. destruct (g s a); cbn [res_bind]; done.
Qed.
(** What [coalesced] holds when the layers have been gone through. *)
Lemma multi_good p ho_ mtb tb stack o s zo :
  (forall a, a ∈ stack -> sq_mask a <> 0) ->
  (forall a b, a ∈ stack -> b ∈ stack -> st_zoom (sq_store a) - st_zoom (sq_store b) < 16) ->
  res_foldl (multi_subquery p ho_ mtb tb stack o) (MultiState ∅ ∅ [] f_zero, o) (combine (seq 0 (length stack)) stack) = Ok (s, zo) ->
  good_multi (entry_from p mtb tb stack o) s.
Proof.
  intros Hmask Hz Hs. eapply multi_subqueries_good; [|done|done| | |exact Hs].
  - intros i a Ha. by eapply elem_of_combine_r.
  - split; [|split; [|apply Forall_nil_2]]; intros z x y cs c Hl; cbn [ms_coalesced ms_to_add] in Hl; by rewrite lookup_empty in Hl.
  - apply adjust_self.
Qed.
Lemma ctx_cmp_first a b ea la eb lb : cc_entries a = ea :: la -> cc_entries b = eb :: lb -> ctx_cmp a b = Eq ->
  ce_idx ea = ce_idx eb /\ e_cell ea = e_cell eb.
Proof.
  intros Ha Hb. unfold ctx_cmp. rewrite Ha, Hb. unfold cmp_then.
  destruct (ord_cmp _ _); try done. destruct (ord_cmp _ _); try done.
  destruct (N.compare (ce_idx _) _) eqn:E1; try done. destruct (N.compare (ge_x _) _) eqn:E2; try done.
  destruct (N.compare (ge_y _) _) eqn:E3; try done. intros _.
  apply N.compare_eq in E1, E2, E3. split; [done|]. unfold e_cell. congruence.
Qed.
Lemma multi_hash p ho1 ho2 mtb tb stack o :
  (forall a, a ∈ stack -> sq_mask a <> 0) ->
  (forall a b, a ∈ stack -> b ∈ stack -> st_zoom (sq_store a) - st_zoom (sq_store b) < 16) ->
  (forall a b, a ∈ stack -> b ∈ stack -> sq_idx a = sq_idx b -> st_zoom (sq_store a) = st_zoom (sq_store b)) ->
  coalesce_multi p ho1 mtb tb stack o = coalesce_multi p ho2 mtb tb stack o.
Proof.
  intros Hmask Hz Hidx. unfold coalesce_multi. cbn zeta.
  assert (Hel : forall a, a ∈ isort stack_leb stack <-> a ∈ stack) by (intros; apply elem_of_isort).
  rewrite (res_foldl_ext (multi_subquery p ho1 mtb tb (isort stack_leb stack) o) (multi_subquery p ho2 mtb tb (isort stack_leb stack) o))
    by (intros; apply multi_subquery_hash).
  destruct (res_foldl _ _ _) as [[s zo]| | |] eqn:Hs; cbn [res_bind]; [|done|done|done].
  apply multi_good in Hs as (G & _ & _); [|intros a Ha; apply Hmask; by apply Hel|intros a b Ha Hb; apply Hz; by apply Hel].
  f_equal. apply (isort_unique _ total_cmp_ctx). intros x. rewrite !List.filter_app. f_equal.
  apply (blocks_filter _ total_cmp_ctx).
  - unfold hash_iter. by rewrite !ho_perm.
  - unfold hash_iter. change (map fst ?l) with (l.*1). rewrite ho_perm. apply NoDup_fst_map_to_list.
  - intros [[[z cx] cy] b] [[[z' cx'] cy'] b'] a a' Hb Hb' Hne Ha Ha' Heq. cbn [fst snd] in *. unfold hash_iter in Hb, Hb'.
    rewrite ho_perm in Hb, Hb'. apply elem_of_map_to_list in Hb, Hb'.
    destruct (G _ _ _ _ _ Hb Ha) as (e & es & E & Hc & Ge), (G _ _ _ _ _ Hb' Ha') as (e' & es' & E' & Hc' & Ge').
    destruct (ctx_cmp_first _ _ _ _ _ _ E E' Heq) as [Hi Hcell].
    destruct (gd_first _ _ _ _ _ _ Ge) as (sq & g & Hsq & Hzq & _ & Hto), (gd_first _ _ _ _ _ _ Ge') as (sq' & g' & Hsq' & Hzq' & _ & Hto').
    apply Hne. assert (z = z') as ->.
    { rewrite <- Hzq, <- Hzq'. apply Hidx; [by apply Hel|by apply Hel|]. destruct Hto as (_ & _ & H1 & _), Hto' as (_ & _ & H2 & _). congruence. }
    rewrite Hcell, Hc' in Hc. by injection Hc as <- <-.
Qed.

(** The order in which the layers are given. *)
Lemma stack_leb_total a b : stack_leb a b = true \/ stack_leb b a = true.
Proof.
  unfold stack_leb, cmp_then. rewrite (N.compare_antisym (st_zoom (sq_store a))), (N.compare_antisym (sq_idx a)).
  destruct (N.compare _ _); cbn [CompOpp]; [|auto|auto]. destruct (N.compare _ _); cbn [CompOpp]; auto.
Qed.
Lemma stack_leb_le a b : stack_leb a b = true <->
  st_zoom (sq_store a) < st_zoom (sq_store b) \/ st_zoom (sq_store a) = st_zoom (sq_store b) /\ sq_idx a <= sq_idx b.
Proof.
  unfold stack_leb, cmp_then. destruct (N.compare_spec (st_zoom (sq_store a)) (st_zoom (sq_store b))).
  - destruct (N.compare_spec (sq_idx a) (sq_idx b)); split; intros; try done; lia.
  - split; intros; [by left|done].
  - split; intros; [done|lia].
Qed.
Lemma stack_sort_unique l1 l2 : l1 ≡ₚ l2 -> (forall a b, a ∈ l1 -> b ∈ l1 -> sq_idx a = sq_idx b -> a = b) ->
  isort stack_leb l1 = isort stack_leb l2.
Proof.
  intros Hp Hid. assert (Ht : forall a b c, stack_leb a b = true -> stack_leb b c = true -> stack_leb a c = true).
  { intros a b c. rewrite !stack_leb_le. lia. }
  apply (sorted_perm_unique (fun a b => stack_leb a b = true)).
  - intros a b Ha Hb. rewrite elem_of_isort in Ha, Hb. rewrite !stack_leb_le. intros H1 H2. apply Hid; [done|done|lia].
  - apply isort_sorted; [apply stack_leb_total|exact Ht].
  - apply isort_sorted; [apply stack_leb_total|exact Ht].
  - by rewrite !isort_perm, Hp.
Qed.
Lemma coalesce_single_hash p ho1 ho2 mtb tb sq o : coalesce_single p ho1 mtb tb sq o = coalesce_single p ho2 mtb tb sq o.
Proof.
  unfold coalesce_single. destruct (first_key sq); cbn [res_bind]; [|done|done|done].
  destruct (streaming_get_matching _ _ _ _ _ _ _); cbn [res_bind]; [|done|done|done].
  destruct (single_loop _ _ _ _ _ _) as [s| | |] eqn:Hs; cbn [res_bind]; [|done|done|done].
  apply single_loop_run in Hs as (pre & suf & es & _ & _ & ->). f_equal. exact (single_pre_hash ho1 ho2 o es).
Qed.

(** ** When flat coalesce answers *)
(** What a layer must allow, its options being [zo]. *)
Definition layer_works (p : profile) (mtb : merge_tb) (tb : tiebreak) (zo : match_opts) (sq : subquery) : Prop :=
  mo_zoom zo = st_zoom (sq_store sq) /\
  exists k ks, sq_keys sq = k :: ks /\
    forall n, 1 <= n -> exists out, streaming_get_matching p mtb tb (sq_store sq) (mki_key k) zo n = Ok out /\ small_ids out.
Lemma coalesce_single_safe p ho_ mtb tb sq o : layer_works p mtb tb o sq -> safe (coalesce_single p ho_ mtb tb sq o).
Proof.
  intros (Hz & k & ks & Ek & Hw). unfold coalesce_single, first_key. rewrite Ek. cbn [res_bind].
  destruct (Hw bigger_max) as (out & Ho & Hs); [done|]. rewrite Ho. cbn [res_bind].
  apply safe_bind; [by apply single_safe|done].
Qed.
Lemma stack_parent_nonempty s pe : sk_entries (stack_parent s pe) <> [] \/ sk_entries (stack_parent s pe) = sk_entries s.
Proof.
  unfold stack_parent. destruct (_ && _); [left; cbn [sk_entries]; by destruct (removelast _)|].
  destruct (_ =? _); [left; cbn [sk_entries]; by destruct (sk_entries s)|by right].
Qed.
Lemma stack_parents_nonempty pes : forall s, sk_entries s <> [] -> sk_entries (foldl stack_parent s pes) <> [].
Proof.
  induction pes as [|pe pes IH]; intros s Hs; cbn [foldl]; [done|]. apply IH.
  destruct (stack_parent_nonempty s pe) as [?|E]; [done|by rewrite E].
Qed.
Lemma multi_grid_safe p is_first is_last zooms sq o s g : mo_zoom o = st_zoom (sq_store sq) -> ge_id (me_entry g) < 2 ^ 25 ->
  (p = Debug -> Forall (fun oz => oz <= st_zoom (sq_store sq) /\ st_zoom (sq_store sq) - oz < 16) zooms) ->
  safe (multi_grid p is_first is_last zooms sq o s g).
Proof.
  intros Hz Hg Hzs. unfold multi_grid. destruct (entry_safe p g sq o 0 Hz Hg) as [e ->]. cbn [res_bind].
  apply safe_bind; [|intros k _; destruct is_last; [done|]; by destruct (_ || _)].
  apply (safe_foldl (fun k => sk_entries k <> [])); [done|]. intros k oz Hoz Hk.
  assert (Hd : p = Debug -> oz <= st_zoom (sq_store sq) /\ st_zoom (sq_store sq) - oz < 16).
  { intros Ep. specialize (Hzs Ep). rewrite Forall_forall in Hzs. by apply Hzs. }
  unfold stack_zoom. destruct (usub_safe p (st_zoom (sq_store sq)) oz) as (d & Hd1 & Hd2); [intros Ep; by apply Hd|].
  rewrite Hd1. cbn [res_bind]. destruct (ushl_safe p d) as [sc Hsc]; [intros Ep; rewrite (Hd2 Ep); by apply Hd|]. rewrite Hsc. cbn [res_bind].
  destruct (sk_entries k) as [|e0 es] eqn:Ek; [done|]. change (index (e0 :: es) 0) with (Ok e0). cbn [res_bind].
  destruct (_ !! _).
  - split; [done|]. intros k' E. injection E as <-. by apply stack_parents_nonempty.
  - split; [done|]. intros k' E. injection E as <-. by rewrite Ek.
Qed.
Lemma multi_subquery_safe p ho_ mtb tb stack o s zo i sq : sq ∈ stack ->
  (p = Debug -> forall a b, a ∈ stack -> b ∈ stack -> st_zoom (sq_store a) - st_zoom (sq_store b) < 16) ->
  adjust_to_zoom p o (mo_zoom zo) = Ok zo ->
  (exists zo', adjust_to_zoom p o (st_zoom (sq_store sq)) = Ok zo' /\ layer_works p mtb tb zo' sq) ->
  safe (multi_subquery p ho_ mtb tb stack o (s, zo) (i, sq)) /\
  forall s' zo', multi_subquery p ho_ mtb tb stack o (s, zo) (i, sq) = Ok (s', zo') -> adjust_to_zoom p o (mo_zoom zo') = Ok zo'.
Proof.
  intros Hsq Hz Hzo (zo1 & Hadj & Hez & k & ks & Ek & Hw). unfold multi_subquery. cbn zeta.
  assert (E : (if negb (mo_zoom zo =? st_zoom (sq_store sq)) then adjust_to_zoom p o (st_zoom (sq_store sq)) else Ok zo) = Ok zo1).
  { destruct (mo_zoom zo =? st_zoom (sq_store sq)) eqn:Ez; cbn [negb]; [|done]. apply N.eqb_eq in Ez. rewrite Ez in Hzo. congruence. }
  rewrite E. cbn [res_bind]. unfold first_key. rewrite Ek. cbn [res_bind].
  destruct (Hw max_grids_per_phrase) as (out & Ho & Hs); [done|]. rewrite Ho. cbn [res_bind]. split.
  - apply safe_bind; [|done]. apply (safe_foldl (fun _ => True)); [done|]. intros st g Hg _. split; [|done].
    apply multi_grid_safe; [done| |].
    + apply Hs. eapply elem_of_sublist; [exact Hg|apply take_N_sub].
    + intros Ep. apply compatible_zooms_ok; [done|by apply Hz].
  - intros s' zo' H. apply bind_Ok in H as (s1 & _ & H). injection H as <- <-. by rewrite Hez.
Qed.
Lemma coalesce_multi_safe p ho_ mtb tb stack o :
  (p = Debug -> forall a b, a ∈ stack -> b ∈ stack -> st_zoom (sq_store a) - st_zoom (sq_store b) < 16) ->
  (forall sq, sq ∈ stack -> exists zo, adjust_to_zoom p o (st_zoom (sq_store sq)) = Ok zo /\ layer_works p mtb tb zo sq) ->
  safe (coalesce_multi p ho_ mtb tb stack o).
Proof.
  intros Hz Hw. unfold coalesce_multi. cbn zeta.
  assert (Hel : forall a, a ∈ isort stack_leb stack <-> a ∈ stack) by (intros; apply elem_of_isort).
  apply safe_bind; [|intros [s zo] _; done].
  apply (safe_foldl (fun st : multi_state * match_opts => adjust_to_zoom p o (mo_zoom st.2) = Ok st.2)); [apply adjust_self|].
  intros [s zo] [i sq] Hin Hzo. apply elem_of_combine_r in Hin. cbn [snd] in Hzo.
  destruct (multi_subquery_safe p ho_ mtb tb (isort stack_leb stack) o s zo i sq) as [H1 H2]; [done| |done| |].
  - intros Ep a b Ha Hb. apply Hz; [done|by apply Hel|by apply Hel].
  - apply Hw. by apply Hel.
  - split; [done|]. intros [s' zo'] E. cbn [snd]. by apply (H2 s').
Qed.
Lemma coalesce_safe p ho_ mtb tb stack o : stack <> [] ->
  (p = Debug -> forall a b, a ∈ stack -> b ∈ stack -> st_zoom (sq_store a) - st_zoom (sq_store b) < 16) ->
  (forall sq, sq ∈ stack -> exists zo, adjust_to_zoom p o (st_zoom (sq_store sq)) = Ok zo /\ layer_works p mtb tb zo sq) ->
  (forall sq, stack = [sq] -> mo_zoom o = st_zoom (sq_store sq)) ->
  safe (coalesce p ho_ mtb tb stack o).
Proof.
  intros Hne Hz Hw H1. unfold coalesce. apply safe_bind; [|intros cs _; by destruct cs].
  destruct stack as [|sq [|sq' stack]]; [done| |by apply coalesce_multi_safe].
  apply coalesce_single_safe. destruct (Hw sq) as (zo & Hzo & Hl); [by left|].
  rewrite <- (H1 sq eq_refl), adjust_self in Hzo. by injection Hzo as <-.
Qed.

(** Flat coalesce contains no unbounded loop. *)
Lemma halts_coalesce p ho_ mtb tb stack o : halts (coalesce p ho_ mtb tb stack o).
Proof.
  unfold coalesce, coalesce_multi, coalesce_single, multi_subquery, multi_grid, stack_zoom, first_key. halt.
Qed.
