(** Specification vocabulary for the completeness of flat coalesce. *)
From Verif Require Import Prelude F64 Heap Common Builder Store Query Spatial Coalesce Props_zoom Spec_coalesce Multi_proofs.
Local Open Scope N_scope.

(** Layers in the order of their zoom, then of their index. *)
Definition zoom_ordered (a b : subquery) : Prop :=
  st_zoom (sq_store a) < st_zoom (sq_store b) \/
  st_zoom (sq_store a) = st_zoom (sq_store b) /\ sq_idx a <= sq_idx b.
Definition g_cell (g : match_entry) : N * N := (ge_x (me_entry g), ge_y (me_entry g)).

Section layers.
  Context (p : profile) (mtb : merge_tb) (tb : tiebreak) (o : match_opts) (stack : list subquery).
  (** One of the first 100000 matches of the layer's first key, at the layer's zoom. *)
  Definition looked_at (sq : subquery) (g : match_entry) : Prop :=
    exists k ks zo out, sq_keys sq = k :: ks /\ adjust_to_zoom p o (st_zoom (sq_store sq)) = Ok zo /\
      streaming_get_matching p mtb tb (sq_store sq) (mki_key k) zo 100000 = Ok out /\ g ∈ take_N 100000 out.
  (** A match of the first layer, or one inside the tile of such a match of an earlier
      layer with another index and other words of the query. *)
  Inductive anchored : nat -> match_entry -> Prop :=
    | anchored_first sq g : stack !! 0%nat = Some sq -> looked_at sq g -> anchored 0 g
    | anchored_on i sq g j sq' g' : (j < i)%nat -> stack !! i = Some sq -> stack !! j = Some sq' ->
        looked_at sq g -> anchored j g' -> sq_idx sq' <> sq_idx sq -> N.land (sq_mask sq) (sq_mask sq') = 0 ->
        ancestor (st_zoom (sq_store sq) - st_zoom (sq_store sq')) (g_cell g) = g_cell g' -> anchored i g.
  (** Matches that a result is owed: anchored ones and all of the last layer. *)
  Definition owed (i : nat) (g : match_entry) : Prop :=
    anchored i g \/ S i = length stack /\ exists sq, stack !! i = Some sq /\ looked_at sq g.
  (** [c] is a quarter or more below [top]; [d] stands for itself or something better. *)
  Definition too_weak (c : coalesce_context) : Prop :=
    exists top d, (top = f_zero \/ exists c', stacked p mtb tb stack o c' /\ top = cc_relev c') /\
      (d = c \/ listed_before d c /\ stacked p mtb tb stack o d) /\ fltb (fsub top (cc_relev d)) (f_lit 25 100) = false.
End layers.

Section maximal.
  Context (p : profile) (mtb : merge_tb) (tb : tiebreak) (o : match_opts) (stack : list subquery).
  (** [c] is led by a match of some layer, and every match of an earlier layer whose tile
      contains it (and that can be stood upon) uses words that [c] already uses. *)
  Definition maximal (c : coalesce_context) : Prop :=
    exists i sq g e es, stack !! i = Some sq /\ looked_at p mtb tb o sq g /\ cc_entries c = e :: es /\ to_entry sq 0 g e /\
      forall j sq' g', (j < i)%nat -> stack !! j = Some sq' -> anchored p mtb tb o stack j g' ->
        sq_idx sq' <> sq_idx sq ->
        ancestor (st_zoom (sq_store sq) - st_zoom (sq_store sq')) (g_cell g) = g_cell g' ->
        N.land (cc_mask c) (sq_mask sq') <> 0.
End maximal.
