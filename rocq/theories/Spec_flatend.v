(** Specification vocabulary: from the calls of JavaScript to the results of coalesce. *)
From Verif Require Import Prelude F64 Common Builder Store Spec Spec_match Query Coalesce Native Spec_native Spec_js Props_zoom Spec_ground Spec_end.
Local Open Scope N_scope.

(** The object asks for the entry; coalesce does not heed [nearby_only]. *)
Definition js_asked (cs : list js_call) (o : match_opts) (j : js_phrasematch) (w : grid_entry) : Prop :=
  (exists key ph, js_holds cs key w /\ jp_phrase j = Some ph /\ phrase_sel ph key.1 = true) /\ js_in o j (ge_x w) (ge_y w).
(** An entry of a result, for an object and an entry that was written. The id of the object
    is not handed on. *)
Definition js_flat_result (j : js_phrasematch) (w : grid_entry) (e : coalesce_entry) : Prop :=
  ce_phrasematch_id e = 0 /\ jp_idx j = Some (ce_idx e) /\ jp_mask j = Some (ce_mask e) /\
  ge_score (ce_entry e) = ge_score w /\ ge_x (ce_entry e) = ge_x w /\ ge_y (ce_entry e) = ge_y w /\
  ge_id (ce_entry e) = ge_id w mod 2 ^ 24 /\ ge_hash (ce_entry e) = ge_hash w /\
  exists wt f, jp_weight j = Some wt /\ (f = f_one \/ f = f_lit 96 100 /\ ce_lang e = false) /\
    ge_relev (ce_entry e) = fmul (fmul (snap_relev (ge_relev w)) f) wt.
Definition js_zoom (j : js_phrasematch) : N := st_zoom (jp_store j).
(** The tile of the one lies in the tile of the other. *)
Definition js_inside (a b : js_phrasematch * grid_entry) : Prop :=
  js_zoom b.1 <= js_zoom a.1 /\
  ge_x a.2 / 2 ^ (js_zoom a.1 - js_zoom b.1) = ge_x b.2 /\ ge_y a.2 / 2 ^ (js_zoom a.1 - js_zoom b.1) = ge_y b.2.

Section layers.
  Context (calls : js_phrasematch -> list js_call) (o : match_opts) (layers : list js_phrasematch).
  (** Written for the first layer, or inside the tile of such an entry of an earlier layer
      with other words of the query. *)
  Inductive js_standing : nat -> grid_entry -> Prop :=
    | jsta_first j w : layers !! 0%nat = Some j -> js_asked (calls j) o j w -> js_standing 0 w
    | jsta_on i j w i' j' w' m m' : (i' < i)%nat -> layers !! i = Some j -> layers !! i' = Some j' ->
        js_asked (calls j) o j w -> js_standing i' w' -> jp_mask j = Some m -> jp_mask j' = Some m' -> N.land m m' = 0 ->
        js_inside (j, w) (j', w') -> js_standing i w.
  (** Such entries, and all those of the last layer. *)
  Definition js_expected (i : nat) (w : grid_entry) : Prop :=
    js_standing i w \/ S i = length layers /\ exists j, layers !! i = Some j /\ js_asked (calls j) o j w.
End layers.
(** Layers in the order in which they are looked at: by zoom, then by index. *)
Definition js_layered (a b : js_phrasematch) : Prop :=
  js_zoom a < js_zoom b \/ js_zoom a = js_zoom b /\ forall x y, jp_idx a = Some x -> jp_idx b = Some y -> x <= y.
