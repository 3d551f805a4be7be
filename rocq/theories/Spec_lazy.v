(** Specification vocabulary: an answer that is handed out item by item. *)
From Verif Require Import Prelude F64 Common Spatial Store.
Local Open Scope nat_scope.

(** What [n] calls of next() return when [out] is what there is. *)
Definition handed_out (out : list match_entry) (n : nat) : list (option match_entry) :=
  map Some (take n out) ++ replicate (n - length out) None.

(** Every value of the database is a list of bytes. *)
Definition of_bytes (s : store) : Prop :=
  forall key v, st_db s !! key = Some v -> Forall (fun b => b < 256)%N v.
(** The point is one of u16 coordinates, the radius in tiles is not infinite. *)
Definition point_ok (o : match_opts) (radius : f64) : Prop :=
  match mo_prox o with
  | None => True
  | Some pt => (pt.1 < 2 ^ 16 /\ pt.2 < 2 ^ 16)%N /\
      match proximity_radius (N.max 6 (mo_zoom o)) radius with S754_infinity _ => False | _ => True end
  end.
