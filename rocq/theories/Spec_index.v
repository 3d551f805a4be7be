(** Specification vocabulary: what a program should find, from what it did. *)
From Verif Require Import Prelude F64 Common Builder Spatial Store Spec Spec_match Query Coalesce Native Spec_native Spec_js Props_zoom
  Spec_ground Spec_end Session Spec_session Spec_program.
Local Open Scope N_scope.

Section layers.
  Context (l : list deed) (o : match_opts) (layers : list (nat * js_phrasematch)).
  (** Written for the first layer, or inside the tile of such an entry of an earlier layer
      with other words of the query. *)
  Inductive program_standing : nat -> grid_entry -> Prop :=
    | psta_first x w : layers !! 0%nat = Some x -> program_asked l o x w -> program_standing 0 w
    | psta_on i x w i' x' w' m m' : (i' < i)%nat -> layers !! i = Some x -> layers !! i' = Some x' ->
        program_asked l o x w -> program_standing i' w' -> jp_mask x.2 = Some m -> jp_mask x'.2 = Some m' -> N.land m m' = 0 ->
        program_inside l (x, w) (x', w') -> program_standing i w.
  (** Such entries, and all those of the last layer. *)
  Definition program_expected (i : nat) (w : grid_entry) : Prop :=
    program_standing i w \/ S i = length layers /\ exists x, layers !! i = Some x /\ program_asked l o x w.
End layers.
(** Layers in the order in which they are looked at: by zoom, then by index. *)
Definition program_layered (l : list deed) (a b : nat * js_phrasematch) : Prop :=
  forall f g so to, opened l a.1 f so -> opened l b.1 g to ->
    opt_zoom so < opt_zoom to \/ opt_zoom so = opt_zoom to /\ forall x y, jp_idx a.2 = Some x -> jp_idx b.2 = Some y -> x <= y.

(** The quotas do not apply to the object: an exact phrase (or a range of at most one), or a
    mask of several words; and a store of zoom 14 or more is only asked for what is nearby. *)
Definition program_unlimited (l : list deed) (x : nat * js_phrasematch) : Prop :=
  (forall s e m, jp_phrase x.2 = Some (Range s e) -> jp_mask x.2 = Some m -> s <= e <= s + 1 \/ count_ones m <> 1) /\
  (forall f so, opened l x.1 f so -> 14 <= opt_zoom so -> jp_nearby x.2 = JsBoolean true).
Definition opt_bboxes (so : opts_arg) : list bbox := match so with GivenOpts o => so_bboxes o | _ => [BBox 0 0 63 63] end.
(** The boxes given for the store cover what was written. *)
Definition program_covers (l : list deed) (x : nat * js_phrasematch) : Prop :=
  forall f so cs key w, opened l x.1 f so -> filled l f cs -> js_holds cs key w ->
    exists b, b ∈ opt_bboxes so /\ in_box b (ge_x w) (ge_y w).
(** No object excludes index 129, which the program takes for "none". *)
Definition free_of_129 (xs : list (nat * js_phrasematch)) : Prop :=
  forall x non, x ∈ xs -> jp_nonoverlap x.2 = Some non -> 129 ∉ non.
(** Of two objects or more, or of one on which another could be put. *)
Definition stackable_with (l : list deed) (js xs : list (nat * js_phrasematch)) : Prop :=
  (2 <= length xs)%nat \/ exists y, y ∈ js /\ program_legal l (y :: xs).
