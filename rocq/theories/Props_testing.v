(** Property C103: the stores and keys of the tests are what the tests take them to be. *)
From Verif Require Import Prelude Lists F64 Common Builder Spatial Store Spec Finish_proofs Order_proofs Binquery_proofs History_proofs Props_storage Native Native_proofs Props_native Examples Testing.
From Coq Require Import ZifyBool.
Local Open Scope N_scope.

(** ** Languages *)
Lemma shl_bit p l : l < 128 \/ p = Release -> ushl p 128 1 l = Ok (2 ^ (l mod 128)).
Proof.
  intros H. unfold ushl. assert (Hs : forall k, k < 128 -> N.shiftl 1 k mod 2 ^ 128 = 2 ^ k).
  { intros k Hk. rewrite N.shiftl_1_l. apply N.mod_small. by apply N.pow_lt_mono_r. }
  destruct (N.ltb_spec l 128) as [Hl|Hl].
  - rewrite (N.mod_small l 128) by done. by rewrite Hs.
  - destruct H as [?|E]; [lia|]. subst p. rewrite Hs; [done|]. by apply N.mod_lt.
Qed.
Lemma field_from p ls : (forall l, l ∈ ls -> l < 128 \/ p = Release) -> forall b, b < 2 ^ 128 ->
  exists f, res_foldl (fun out lang => let* bit := ushl p 128 1 lang in Ok (N.lor out bit)) b ls = Ok f /\ f < 2 ^ 128 /\
    forall i, N.testbit f i = true <-> N.testbit b i = true \/ exists l, l ∈ ls /\ i = l mod 128.
Proof.
  induction ls as [|l ls IH]; intros H b Hb; cbn [res_foldl].
  - exists b. split; [done|]. split; [done|]. intros i. split; [by left|]. intros [?|(l & Hl & _)]; [done|]. by apply elem_of_nil in Hl.
  - rewrite shl_bit by (apply H; by left). cbn [res_bind].
    destruct (IH ltac:(intros x Hx; apply H; by right) (N.lor b (2 ^ (l mod 128)))) as (f & E & Hf & Hbits).
    { destruct (N.eq_dec (N.lor b (2 ^ (l mod 128))) 0) as [->|Hne]; [done|]. apply N.log2_lt_pow2; [by apply N.neq_0_lt_0|]. rewrite N.log2_lor.
      apply N.max_lub_lt; [|rewrite N.log2_pow2 by apply N.le_0_l; by apply N.mod_lt].
      destruct (N.eq_dec b 0) as [->|]; [done|]. apply N.log2_lt_pow2; [by apply N.neq_0_lt_0|done]. }
    exists f. split; [done|]. split; [done|]. intros i. rewrite Hbits, N.lor_spec, orb_true_iff, N.pow2_bits_eqb, N.eqb_eq. split.
    + intros [[?|E']|(x & Hx & ->)]; [by left|right; exists l; split; [by left|done]|right; exists x; split; [by right|done]].
    + intros [?|(x & Hx & ->)]; [by left; left|]. apply elem_of_cons in Hx as [->|Hx]; [by left; right|right; by exists x].
Qed.
(** Languages below 128: the field has exactly these, and it is the one that the binding
    makes from the same array. *)
Theorem C103_languages :
  forall p ls, (forall l, l ∈ ls -> l < 128) ->
  exists f, langarray_to_langfield p ls = Ok f /\ f < 2 ^ 128 /\ (forall i, N.testbit f i = true <-> i ∈ ls) /\
    langarray_to_langset (JsArray (map JsNumber (map f_of_N ls))) = Ok f.
Proof.
  intros p ls H. destruct (field_from p ls ltac:(intros l Hl; left; by apply H) 0 ltac:(done)) as (f & E & Hf & Hbits).
  assert (Hb : forall i, N.testbit f i = true <-> i ∈ ls).
  { intros i. rewrite Hbits, N.bits_0. split; [intros [?|(l & Hl & ->)]; [done|]; rewrite N.mod_small by (by apply H); done|].
    intros Hi. right. exists i. split; [done|]. rewrite N.mod_small; [done|by apply H]. }
  exists f. split; [exact E|]. split; [done|]. split; [done|]. apply C55_to_set. constructor; [done|]. intros i Hi. rewrite Hb. split.
  - intros Hin. exists (f_of_N i). split; [apply elem_of_map; by exists i|]. by apply C55_integers; lia.
  - intros (v & Hv & Hu). apply elem_of_map in Hv as (l & -> & Hl). pose proof (H l Hl).
    assert (i = l) as ->; [|done]. apply cast_uint_iff in Hu. rewrite cast_of_N in Hu by lia. done.
Qed.
Print Assumptions C103_languages.
(** Others: with overflow checks the helper panics; without, the language is taken modulo
    128. *)
Theorem C103_large_languages :
  forall ls, (exists l, l ∈ ls /\ 128 <= l) ->
  langarray_to_langfield Debug ls = Panic /\
  exists f, langarray_to_langfield Release ls = Ok f /\ forall i, N.testbit f i = true <-> exists l, l ∈ ls /\ i = l mod 128.
Proof.
  intros ls (l & Hl & H). split.
  - unfold langarray_to_langfield. generalize 0. induction ls as [|x ls IH]; intros b; [by apply elem_of_nil in Hl|]. cbn [res_foldl].
    unfold ushl at 1. destruct (N.ltb_spec x 128) as [Hx|Hx]; [|done]. cbn [res_bind]. apply IH. apply elem_of_cons in Hl as [->|?]; [lia|done].
  - destruct (field_from Release ls ltac:(by right) 0 ltac:(done)) as (f & E & _ & Hbits). exists f. split; [exact E|]. intros i.
    rewrite Hbits, N.bits_0. naive_solver.
Qed.
Print Assumptions C103_large_languages.
(** Refuted: the helper and the binding agree on all arrays. *)
Theorem C103_languages_refuted :
  langarray_to_langfield Release [130] = Ok 4 /\ langarray_to_langset (JsArray (map JsNumber (map f_of_N [130]))) = Ok 0.
Proof. split; vm_compute; reflexivity. Qed.
Print Assumptions C103_languages_refuted.

(** ** Stores *)
Definition block_ok (b : (N * N) * list grid_entry) : Prop :=
  key_ok b.1 /\ b.1.1 < 2 ^ 32 - 1 /\ Forall entry_ok b.2 /\ N.of_nat (length b.2) <= 2 ^ 27.
Definition block_op (b : (N * N) * list grid_entry) : op := OpInsert b.1 b.2.
Lemma blocks_run blocks : forall b, foldl (fun b (r : grid_key * list grid_entry) => insert b r.1 r.2) b blocks = foldl apply_op b (map block_op blocks).
Proof. induction blocks as [|x blocks IH]; intros b; [done|]. cbn [foldl map]. apply IH. Qed.
Lemma written_blocks blocks : forall m k, foldl written_step m (map block_op blocks) !! k =
  match List.find (fun b => bool_decide (b.1 = k)) (rev blocks) with Some b => Some b.2 | None => m !! k end.
Proof.
  induction blocks as [|x blocks IH] using rev_ind; intros m k; [done|]. rewrite List.map_app, foldl_app, rev_app_distr. cbn [map foldl rev app List.find written_step block_op].
  case_bool_decide as E; [rewrite E; by rewrite lookup_insert|]. rewrite lookup_insert_ne by done. apply IH.
Qed.
Lemma find_last (a b : list ((N * N) * list grid_entry)) k es : k ∉ map fst b ->
  List.find (fun b => bool_decide (b.1 = k)) (rev (a ++ (k, es) :: b)) = Some (k, es).
Proof.
  intros H. induction b as [|x b IH] using rev_ind.
  - rewrite rev_app_distr. cbn. by rewrite bool_decide_true.
  - rewrite app_comm_cons, app_assoc, rev_app_distr. cbn. rewrite List.map_app in H. apply not_elem_of_app in H as [H1 H2].
    rewrite bool_decide_false; [by apply IH|]. intros E. apply H2. cbn. rewrite E. by left.
Qed.
Lemma find_none (l : list ((N * N) * list grid_entry)) k : k ∉ map fst l -> List.find (fun b => bool_decide (b.1 = k)) (rev l) = None.
Proof.
  intros H. destruct (List.find _ (rev l)) as [b|] eqn:E; [|done]. apply find_some in E as [E1 E2]. apply bool_decide_eq_true in E2. destruct H.
  apply elem_of_map. exists b. split; [done|]. apply elem_of_list_In. by apply in_rev.
Qed.
Lemma blocks_history blocks : Forall block_ok blocks -> history_ok (map block_op blocks).
Proof.
  intros H. split.
  - apply Forall_forall. intros o Ho. apply elem_of_map in Ho as (b & -> & Hb). rewrite Forall_forall in H. destruct (H b Hb) as (? & _ & ? & _). done.
  - intros k es E. unfold written in E. rewrite written_blocks in E. destruct (List.find _ (rev blocks)) as [b|] eqn:F; [|by rewrite lookup_empty in E].
    apply find_some in F as [F1 F2]. apply bool_decide_eq_true in F2. injection E as <-. subst k. rewrite Forall_forall in H.
    destruct (H b) as (_ & ? & _ & ?); [|done]. apply elem_of_list_In. by apply in_rev.
Qed.
Lemma global_box p z : z < 32 -> global_bbox_for_zoom p z = Ok [BBox 0 0 (as_u16 (2 ^ z - 1)) (as_u16 (2 ^ z - 1))].
Proof.
  intros H. unfold global_bbox_for_zoom, ushl. rewrite (proj2 (N.ltb_lt _ _) H). cbn [res_bind].
  rewrite N.shiftl_1_l, N.mod_small by (by apply N.pow_lt_mono_r). unfold usub.
  assert (E : (1 <=? 2 ^ z) = true). { apply N.leb_le. pose proof (N.pow_nonzero 2 z ltac:(done)). lia. }
  by rewrite E.
Qed.
Lemma box_edge z x : x < 2 ^ 16 -> x <= as_u16 (2 ^ z - 1) <-> x < 2 ^ z.
Proof.
  intros Hx. unfold as_u16. pose proof (N.pow_nonzero 2 z ltac:(done)) as Hz. destruct (N.lt_ge_cases z 16) as [H|H].
  - assert (2 ^ z < 2 ^ 16) by (by apply N.pow_lt_mono_r). rewrite N.mod_small by lia. lia.
  - assert (E : 2 ^ z = 2 ^ (z - 16) * 2 ^ 16) by (rewrite <- N.pow_add_r; f_equal; lia).
    assert (Hp : 2 ^ (z - 16) <> 0) by (by apply N.pow_nonzero).
    assert (Em : (2 ^ z - 1) mod 2 ^ 16 = 2 ^ 16 - 1).
    { symmetry. apply (N.mod_unique _ _ (2 ^ (z - 16) - 1)); [done|]. rewrite E. nia. }
    rewrite Em. split; intros _; [|lia]. rewrite E. nia.
Qed.
(** Blocks in range at a zoom below 32: the store has the settings given and the whole grid
    for its box; it holds, for each key, the entries of the last block with that key and
    nothing else. The hash orders do not show. *)
Theorem C103_store :
  forall p blocks idx zoom type_id non radius,
  Forall block_ok blocks -> zoom < 32 ->
  exists t, (forall o, create_store p o blocks idx zoom type_id non radius = Ok t) /\ ts_idx t = idx /\ ts_non t = non /\
    let s := ts_store t in
    st_zoom s = zoom /\ st_type_id s = type_id /\ st_radius s = radius /\ st_max_score s = f_one /\ st_bounds s = [] /\
    (exists b, st_bboxes s = [b] /\ forall x y, x < 2 ^ 16 -> y < 2 ^ 16 ->
       (bb_x0 b <= x <= bb_x1 b /\ bb_y0 b <= y <= bb_y1 b) <-> (x < 2 ^ zoom /\ y < 2 ^ zoom)) /\
    (forall before k es after, blocks = before ++ (k, es) :: after -> k ∉ map fst after ->
       exists out, get s k = Ok (Some out) /\ NoDup out /\ forall e, e ∈ out <-> exists e0, e0 ∈ es /\ e = snap e0) /\
    (forall k, key_ok k -> k ∉ map fst blocks -> get s k = Ok None).
Proof.
  intros p blocks idx zoom type_id non radius Hb Hz. pose proof (blocks_history blocks Hb) as Hh.
  destruct (history_finish id_oracle (map block_op blocks) ∅ Hh) as [d Hd].
  assert (Hall : forall o, finish o (run (map block_op blocks)) ∅ = Ok d).
  { intros o. rewrite <- Hd. apply C04_write_order; [apply Hh| | |done|intros k; by destruct (written _ !! k)].
    all: apply Forall_forall; intros x Hx; apply elem_of_map in Hx as (y & -> & _); done. }
  set (s := open_store d zoom type_id radius [BBox 0 0 (as_u16 (2 ^ zoom - 1)) (as_u16 (2 ^ zoom - 1))] f_one).
  assert (Hbu : built id_oracle (map block_op blocks) s) by (by apply built_run).
  exists (TestStore s idx non). split.
  { intros o. unfold create_store. rewrite blocks_run. change (foldl apply_op builder_new (map block_op blocks)) with (run (map block_op blocks)).
    rewrite Hall. cbn [res_bind]. by rewrite global_box. }
  split; [done|]. split; [done|]. cbn zeta. cbn [ts_store]. split; [done|]. split; [done|]. split; [done|]. split; [done|]. split.
  { rewrite (built_bounds _ _ _ Hh Hbu). clear. induction blocks as [|x l IH]; [done|exact IH]. }
  split; [|split].
  - eexists. split; [reflexivity|]. intros x y Hx Hy. cbn [bb_x0 bb_x1 bb_y0 bb_y1].
    pose proof (box_edge zoom x Hx). pose proof (box_edge zoom y Hy). split; [intros [[_ ?] [_ ?]]; tauto|]. intros [? ?]. split; split; (lia || tauto).
  - intros before k es after E Hk. assert (Hkok : key_ok k).
    { rewrite Forall_forall in Hb. apply (Hb (k, es)). rewrite E. apply elem_of_app. right. by left. }
    pose proof (C01_store_round_trip id_oracle _ s k Hh Hbu Hkok) as Hg. unfold written in Hg. rewrite written_blocks, E, find_last in Hg by done. exact Hg.
  - intros k Hkok Hk. pose proof (C01_store_round_trip id_oracle _ s k Hh Hbu Hkok) as Hg. unfold written in Hg.
    rewrite written_blocks, find_none in Hg by done. by rewrite lookup_empty in Hg.
Qed.
Print Assumptions C103_store.

(** A zoom of 32 or more: with overflow checks create_store panics; without, the box is that
    of the zoom modulo 32. *)
Theorem C103_large_zoom :
  forall o blocks idx zoom type_id non radius,
  Forall block_ok blocks -> 32 <= zoom ->
  create_store Debug o blocks idx zoom type_id non radius = Panic /\
  exists t t', create_store Release o blocks idx zoom type_id non radius = Ok t /\
    create_store Release o blocks idx (zoom mod 32) type_id non radius = Ok t' /\
    st_zoom (ts_store t) = zoom /\ st_bboxes (ts_store t) = st_bboxes (ts_store t').
Proof.
  intros o blocks idx zoom type_id non radius Hb Hz. pose proof (blocks_history blocks Hb) as Hh.
  destruct (history_finish o (map block_op blocks) ∅ Hh) as [d Hd]. unfold run in Hd.
  assert (Hl : zoom mod 32 < 32) by (by apply N.mod_lt).
  unfold create_store. rewrite !blocks_run, !Hd. cbn [res_bind]. rewrite (global_box _ (zoom mod 32) Hl).
  unfold global_bbox_for_zoom, ushl. rewrite (proj2 (N.ltb_ge zoom 32) Hz). split; [done|]. cbn [res_bind].
  rewrite N.shiftl_1_l, N.mod_small by (by apply N.pow_lt_mono_r). unfold usub.
  assert (E : (1 <=? 2 ^ (zoom mod 32)) = true). { apply N.leb_le. pose proof (N.pow_nonzero 2 (zoom mod 32) ltac:(done)). lia. }
  rewrite E. cbn [res_bind]. eexists _, _. split; [reflexivity|]. split; [reflexivity|]. done.
Qed.
Print Assumptions C103_large_zoom.

(** Two blocks with one key: the later one counts. *)
Definition t_blocks : list ((N * N) * list grid_entry) :=
  [((1, 1), [ex_e1]); ((2, 5), [ex_e2; ex_e3]); ((1, 1), [ex_e3])].
Example C103_ex :
  Forall block_ok t_blocks /\ (forall l, l ∈ [5; 0; 127; 5] -> l < 128) /\ langarray_to_langfield Debug [5; 0; 127; 5] = Ok (2 ^ 127 + 33) /\
  match create_store Debug id_oracle t_blocks 3 6 1 2 (f_of_N 40) with
  | Ok t => get (ts_store t) (1, 1) = Ok (Some [snap ex_e3]) /\ get (ts_store t) (9, 1) = Ok None /\ st_bboxes (ts_store t) = [BBox 0 0 63 63]
  | _ => False
  end /\ (exists l, l ∈ [5; 128] /\ 128 <= l).
Proof.
  split.
  { assert (H : history_ok (map block_op t_blocks)) by (apply history_okb_ok; vm_compute; reflexivity).
    destruct H as [H _]. repeat apply Forall_cons_1 in H as [? H].
    repeat constructor; cbn in *; try lia; try (by apply entry_okb_ok); naive_solver. }
  split. { intros l Hl. rewrite !elem_of_cons, elem_of_nil in Hl. lia. }
  split; [vm_compute; reflexivity|]. split; [vm_compute; done|].
  exists 128. split; [by right; left|done].
Qed.
