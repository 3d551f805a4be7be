(** Specification vocabulary for what a distance is worth: the formulas that the tables of
    spatial.rs (485-520, 566-577) are taken from, over the real numbers. *)
From Coq Require Import Reals.
From Verif Require Import Prelude F64 Real_proofs.
Local Open Scope R_scope.

(** [a] is finite, and [x] up to the relative error [d]. *)
Definition amounts_to (a : f64) (x d : R) : Prop := exists r, is_real a r /\ Rabs (r - x) <= d * x.
(** The tiles in a mile: 32 in 40 miles at zoom 14, by one and a half with each zoom. *)
Definition tiles (zoom : N) : R := 32 / 40 * powerRZ (3 / 2) (Z.of_N zoom - 14).
(** The value of a feature of a score at a distance (in tiles) within a radius (in miles). *)
Definition worth (zoom : N) (distance : R) (score : N) (radius : R) : R :=
  let distance := if Rlt_dec distance 1 then 8 / 10 else distance in
  (6 * exp (IZR (Z.of_N (N.min score 7))) / exp 7 + 1) / Rmin 1 (distance / (radius * tiles (N.max zoom 6))).
