(** Specification vocabulary: the same data elsewhere on the grid. *)
From Verif Require Import Prelude F64 Common Spatial Store Query Spec Spec_match Spec_frame.
Local Open Scope N_scope.

(** Entries, matches and calls with each cell put where [f] says. *)
Definition put_entry (f : N * N -> N * N) (e : grid_entry) : grid_entry :=
  let c := f (ge_x e, ge_y e) in GridEntry (ge_relev e) (ge_score e) c.1 c.2 (ge_id e) (ge_hash e).
Definition put_match (f : N * N -> N * N) (m : match_entry) : match_entry :=
  MatchEntry (put_entry f (me_entry m)) (me_lang m) (me_distance m) (me_scoredist m).
Definition put_op (f : N * N -> N * N) (o : op) : op :=
  match o with
  | OpInsert k es => OpInsert k (map (put_entry f) es)
  | OpAppend k es => OpAppend k (map (put_entry f) es)
  | OpCompact k r s i h cs => OpCompact k r s i h (map f cs)
  | OpBounds bs => OpBounds bs
  end.
(** The cells that calls write to. *)
Definition op_cells (o : op) : list (N * N) :=
  match o with
  | OpInsert _ es | OpAppend _ es => map (fun e => (ge_x e, ge_y e)) es
  | OpCompact _ _ _ _ _ cs => cs
  | OpBounds _ => []
  end.
Definition cells (ops : list op) : list (N * N) := mjoin (map op_cells ops).

Definition in_box (b : option bbox) (c : N * N) : Prop :=
  match b with
  | None => True
  | Some b => bb_x0 b <= c.1 <= bb_x1 b /\ bb_y0 b <= c.2 <= bb_y1 b
  end.
(** The square of the distance of two cells. *)
Definition sq_dist (a b : N * N) : Z :=
  ((Z.of_N a.1 - Z.of_N b.1) ^ 2 + (Z.of_N a.2 - Z.of_N b.2) ^ 2)%Z.

(** Where [f] puts the cells, they look from [o'] as they do from [o]: no two are put in the
    same place, those in the box are put in the box and no others, and the distances from
    the point are kept. *)
Record same_view (f : N * N -> N * N) (cs : list (N * N)) (o o' : match_opts) : Prop := SameView {
  sv_inj : forall c d, c ∈ cs -> d ∈ cs -> f c = f d -> c = d;
  sv_box : forall c, c ∈ cs -> (in_box (mo_bbox o) c <-> in_box (mo_bbox o') (f c));
  sv_point : match mo_prox o, mo_prox o' with
             | None, None => True
             | Some p, Some p' => forall c, c ∈ cs -> sq_dist p c = sq_dist p' (f c)
             | _, _ => False
             end;
  sv_zoom : mo_zoom o = mo_zoom o' }.

(** The motions of the grid: exchange the axes or not, turn each of them round or not, and
    shift. Cells that would get outside are put at 0. *)
Record motion := Motion { mv_swap : bool; mv_turn_x : bool; mv_turn_y : bool; mv_dx : Z; mv_dy : Z }.
Definition moved (m : motion) (c : N * N) : Z * Z :=
  let c := if mv_swap m then (c.2, c.1) else c in
  ((if mv_turn_x m then mv_dx m - Z.of_N c.1 else mv_dx m + Z.of_N c.1)%Z,
   (if mv_turn_y m then mv_dy m - Z.of_N c.2 else mv_dy m + Z.of_N c.2)%Z).
Definition move (m : motion) (c : N * N) : N * N := (Z.to_N (moved m c).1, Z.to_N (moved m c).2).
Definition stays (m : motion) (c : N * N) : Prop := (0 <= (moved m c).1 < 2 ^ 16 /\ 0 <= (moved m c).2 < 2 ^ 16)%Z.
(** The box and the point moved along. *)
Definition move_box (m : motion) (b : bbox) : bbox :=
  let a := move m (bb_x0 b, bb_y0 b) in let c := move m (bb_x1 b, bb_y1 b) in
  BBox (N.min a.1 c.1) (N.min a.2 c.2) (N.max a.1 c.1) (N.max a.2 c.2).
Definition move_opts (m : motion) (o : match_opts) : match_opts :=
  MatchOpts (move_box m <$> mo_bbox o) (move m <$> mo_prox o) (mo_zoom o).
(** Nothing gets off the grid, and the box is not upside down. *)
Definition fits (m : motion) (cs : list (N * N)) (o : match_opts) : Prop :=
  (forall c, c ∈ cs -> stays m c) /\
  (forall b, mo_bbox o = Some b -> stays m (bb_x0 b, bb_y0 b) /\ stays m (bb_x1 b, bb_y1 b) /\ bb_x0 b <= bb_x1 b /\ bb_y0 b <= bb_y1 b) /\
  (forall p, mo_prox o = Some p -> stays m p).
