(** A debug build that does not panic does what an optimised build does. *)
From Verif Require Import Prelude F64 Heap Common Builder Store Query Spatial Coalesce Stackable Tree Native.

(** The debug build panics, or both do the same. *)
Definition panics_or_same {A} (debug release : res A) : Prop := debug = Panic \/ debug = release.

Lemma ps_same {A} (x : res A) : panics_or_same x x.
Proof. by right. Qed.
Lemma ps_panic {A} (x : res A) : panics_or_same Panic x.
Proof. by left. Qed.
Lemma ps_bind {A B} (x y : res A) (f g : A -> res B) :
  panics_or_same x y -> (forall a, panics_or_same (f a) (g a)) -> panics_or_same (res_bind x f) (res_bind y g).
Proof. intros [->| ->] H; [by left|]. destruct y; cbn; try by right. apply H. Qed.
Lemma ps_foldl {A S} (f g : S -> A -> res S) l :
  (forall s a, panics_or_same (f s a) (g s a)) -> forall s, panics_or_same (res_foldl f s l) (res_foldl g s l).
Proof. intros H. induction l as [|a l IH]; intros s; cbn; [by right|]. apply ps_bind; [apply H|exact IH]. Qed.
Lemma ps_mapM {A B} (f g : A -> res B) l :
  (forall a, panics_or_same (f a) (g a)) -> panics_or_same (res_mapM f l) (res_mapM g l).
Proof.
  intros H. induction l as [|a l IH]; cbn; [by right|]. apply ps_bind; [apply H|]. intros b.
  apply ps_bind; [exact IH|]. intros bs. by right.
Qed.
Lemma ps_option {A B} (f g : A -> res B) o :
  (forall a, panics_or_same (f a) (g a)) -> panics_or_same (res_option f o) (res_option g o).
Proof. intros H. destruct o; cbn; [|by right]. apply ps_bind; [apply H|]. intros b. by right. Qed.
Lemma ps_or_none {A B} (x y : res A) (f g : A -> res (option B)) :
  panics_or_same x y -> (forall a, panics_or_same (f a) (g a)) -> panics_or_same (or_none x f) (or_none y g).
Proof. intros [->| ->] H; [by left|]. destruct y; cbn; try by right. apply H. Qed.
Lemma ps_add w a b : panics_or_same (uadd Debug w a b) (uadd Release w a b).
Proof. unfold uadd. case_match; [by right|by left]. Qed.
Lemma ps_sub w a b : panics_or_same (usub Debug w a b) (usub Release w a b).
Proof. unfold usub. case_match; [by right|by left]. Qed.
Lemma ps_mul w a b : panics_or_same (umul Debug w a b) (umul Release w a b).
Proof. unfold umul. case_match; [by right|by left]. Qed.
Lemma ps_shl w a b : panics_or_same (ushl Debug w a b) (ushl Release w a b).
Proof. unfold ushl. case_match; [by right|by left]. Qed.
Lemma ps_shr w a b : panics_or_same (ushr Debug w a b) (ushr Release w a b).
Proof. unfold ushr. case_match; [by right|by left]. Qed.
Lemma ps_assert b : panics_or_same (debug_assert Debug b) (debug_assert Release b).
Proof. destruct b; [by right|by left]. Qed.

(** One step of taking apart two programs that differ in the profile only. *)
Ltac ps_step :=
  lazymatch goal with
  | |- panics_or_same ?x ?x => apply ps_same
  | |- panics_or_same Panic _ => apply ps_panic
  | |- panics_or_same (res_bind _ _) (res_bind _ _) => apply ps_bind; [|let a := fresh "a" in intros a]
  | |- panics_or_same (res_foldl _ _ _) (res_foldl _ _ _) => apply ps_foldl; intros ? ?
  | |- panics_or_same (res_mapM _ _) (res_mapM _ _) => apply ps_mapM; intros ?
  | |- panics_or_same (res_option _ _) (res_option _ _) => apply ps_option; intros ?
  | |- panics_or_same (or_none _ _) (or_none _ _) => apply ps_or_none; [|intros ?]
  | |- panics_or_same (uadd _ _ _ _) _ => apply ps_add
  | |- panics_or_same (usub _ _ _ _) _ => apply ps_sub
  | |- panics_or_same (umul _ _ _ _) _ => apply ps_mul
  | |- panics_or_same (ushl _ _ _ _) _ => apply ps_shl
  | |- panics_or_same (ushr _ _ _ _) _ => apply ps_shr
  | |- panics_or_same (debug_assert _ _) _ => apply ps_assert
  | |- panics_or_same (match ?x with _ => _ end) (match ?x with _ => _ end) => destruct x
  | |- panics_or_same (let '(_, _) := ?x in _) _ => destruct x
  end.
Ltac ps := repeat (ps_step; cbv zeta beta).

Lemma ps_adjust_bbox b s t : panics_or_same (adjust_bbox_zoom Debug b s t) (adjust_bbox_zoom Release b s t).
Proof. unfold adjust_bbox_zoom. cbv zeta. ps. Qed.
Lemma ps_adjust_point pt s t : panics_or_same (adjust_point_zoom Debug pt s t) (adjust_point_zoom Release pt s t).
Proof. unfold adjust_point_zoom. cbv zeta. ps. Qed.
Lemma ps_adjust o z : panics_or_same (adjust_to_zoom Debug o z) (adjust_to_zoom Release o z).
Proof. unfold adjust_to_zoom. ps; [apply ps_adjust_point|apply ps_adjust_bbox]. Qed.
Lemma ps_nearby o : panics_or_same (with_nearby_only Debug o) (with_nearby_only Release o).
Proof. unfold with_nearby_only. cbv zeta. ps. Qed.
Lemma ps_bbox_range cs b : panics_or_same (bbox_range Debug cs b) (bbox_range Release cs b).
Proof. unfold bbox_range. cbv zeta. ps. Qed.
Lemma ps_bbox_filter cs b : panics_or_same (bbox_filter Debug cs b) (bbox_filter Release cs b).
Proof. unfold bbox_filter. ps. apply ps_bbox_range. Qed.
Lemma ps_bbox_proximity cs b pt : panics_or_same (bbox_proximity_filter Debug cs b pt) (bbox_proximity_filter Release cs b pt).
Proof. unfold bbox_proximity_filter. ps. apply ps_bbox_range. Qed.
Lemma ps_select o cs : panics_or_same (select_coords Debug o cs) (select_coords Release o cs).
Proof. unfold select_coords. ps; [apply ps_bbox_proximity|apply ps_bbox_filter]. Qed.
Lemma ps_decode tb v o lang r : panics_or_same (decode_matching_value Debug tb v o lang r) (decode_matching_value Release tb v o lang r).
Proof. unfold decode_matching_value. ps. unfold decode_relev_group. ps. apply ps_select. Qed.
Lemma ps_matching mtb tb s k o n :
  panics_or_same (streaming_get_matching Debug mtb tb s k o n) (streaming_get_matching Release mtb tb s k o n).
Proof.
  unfold streaming_get_matching. ps.
  - unfold fetch_range. ps.
  - unfold queue_record. ps. apply ps_decode.
Qed.
Lemma ps_entry g sq o pid : panics_or_same (grid_to_coalesce_entry Debug g sq o pid) (grid_to_coalesce_entry Release g sq o pid).
Proof. unfold grid_to_coalesce_entry. cbv zeta. ps. Qed.
Lemma ps_single_loop sq o pid gs : forall s,
  panics_or_same (single_loop Debug sq o pid gs s) (single_loop Release sq o pid gs s).
Proof.
  induction gs as [|g gs IH]; intros s; cbn [single_loop]; [by right|]. apply ps_bind; [apply ps_entry|]. intros e.
  generalize (match mo_prox o with Some _ => true | None => false end). intros b. destruct (single_body b s e); [apply IH|by right].
Qed.
Lemma ps_single ho mtb tb sq o : panics_or_same (coalesce_single Debug ho mtb tb sq o) (coalesce_single Release ho mtb tb sq o).
Proof. unfold coalesce_single. ps; [apply ps_matching|apply ps_single_loop]. Qed.
Lemma ps_multi ho mtb tb st o : panics_or_same (coalesce_multi Debug ho mtb tb st o) (coalesce_multi Release ho mtb tb st o).
Proof.
  unfold coalesce_multi. cbv zeta. ps. unfold multi_subquery. ps.
  - apply ps_adjust.
  - apply ps_matching.
  - unfold multi_grid. cbv zeta. ps; [apply ps_entry|]. unfold stack_zoom. ps.
Qed.
Lemma ps_coalesce ho mtb tb st o : panics_or_same (coalesce Debug ho mtb tb st o) (coalesce Release ho mtb tb st o).
Proof. unfold coalesce. ps; [apply ps_single|apply ps_multi]. Qed.

Lemma ps_make_step n prev z o f : panics_or_same (make_step Debug n prev z o f) (make_step Release n prev z o f).
Proof. unfold make_step. ps. apply ps_adjust. Qed.
Lemma ps_gather tb cache cs fuel : forall s, panics_or_same (gather Debug tb cache cs fuel s) (gather Release tb cache cs fuel s).
Proof.
  induction fuel as [|f IH]; intros s; cbn [gather]; [by right|]. ps.
  - unfold gather_key. cbv zeta. ps; [apply ps_nearby|]. unfold key_is_range. ps.
  - apply IH.
Qed.
Lemma ps_fetch mtb tb k : panics_or_same (fetch_key Debug mtb tb k) (fetch_key Release mtb tb k).
Proof.
  unfold fetch_key. cbv zeta. ps; [apply ps_matching| |apply ps_matching]. unfold tree_coalesce_single. ps. apply ps_single_loop.
Qed.
Lemma ps_run_step ho_ tb t o cache site st : panics_or_same (run_step Debug ho_ tb t o cache site st) (run_step Release ho_ tb t o cache site st).
Proof.
  unfold run_step. cbv zeta. ps.
  - unfold stack_key. ps. unfold stack_grid. ps. apply ps_entry.
  - unfold child_step. ps; [apply ps_adjust_bbox|apply ps_make_step].
Qed.
Lemma ps_round ho_ mtb tb t o r s : panics_or_same (tree_round Debug ho_ mtb tb t o r s) (tree_round Release ho_ mtb tb t o r s).
Proof. unfold tree_round. cbv zeta. ps; [apply ps_gather|apply ps_fetch|apply ps_run_step]. Qed.
Lemma ps_loop ho_ mtb tb t o fuel : forall s, panics_or_same (tree_loop Debug ho_ mtb tb t o fuel s) (tree_loop Release ho_ mtb tb t o fuel s).
Proof. induction fuel as [|f IH]; intros s; cbn [tree_loop]; [by right|]. ps; [apply ps_round|apply IH]. Qed.
Lemma ps_tree ho_ mtb tb fuel t o : panics_or_same (tree_coalesce Debug ho_ mtb tb fuel t o) (tree_coalesce Release ho_ mtb tb fuel t o).
Proof. unfold tree_coalesce. ps; [|apply ps_loop]. unfold first_step. ps. apply ps_make_step. Qed.
Lemma ps_request ho_ mtb tb pms o : panics_or_same (stack_and_coalesce Debug ho_ mtb tb pms o) (stack_and_coalesce Release ho_ mtb tb pms o).
Proof. unfold stack_and_coalesce. cbv zeta. ps. apply ps_tree. Qed.
