(** Contract of the [morton] crate: [interleave_morton(x, y)] puts bit [i] of [x]
    at position [2i] and bit [i] of [y] at position [2i+1];
    [deinterleave_morton] is the inverse.  (External crate; the bit order is
    fixed by the assertions in /repo/rust-src/src/gridstore/spatial.rs 225-330
    and builder.rs 247-300.) *)
From Verif Require Import Prelude.

(** Bit [i] of the argument moves to bit [2i]. *)
Fixpoint spread_pos (p : positive) : positive :=
  match p with
  | xH => xH
  | xO p' => xO (xO (spread_pos p'))
  | xI p' => xI (xO (spread_pos p'))
  end.
Definition spread (n : N) : N :=
  match n with N0 => N0 | Npos p => Npos (spread_pos p) end.

(** Bit [2i] of the argument moves to bit [i]; odd bits are dropped. *)
Fixpoint evens_pos (p : positive) : N :=
  match p with
  | xH => 1
  | xO xH => 0
  | xI xH => 1
  | xO (xO p') | xO (xI p') => N.double (evens_pos p')
  | xI (xO p') | xI (xI p') => N.succ_double (evens_pos p')
  end.
Definition evens (n : N) : N :=
  match n with N0 => N0 | Npos p => evens_pos p end.

Definition interleave (x y : N) : N := spread x + 2 * spread y.
Definition deinterleave (c : N) : N * N := (evens c, evens (N.div2 c)).
