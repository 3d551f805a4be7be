(** IEEE-754 binary64 as used by the source ([f64] and [OrderedFloat<f64>]),
    on top of the standard library's executable specification [SpecFloat]. *)
From Coq Require Export Floats.SpecFloat.
From Verif Require Import Prelude.

Notation f64 := spec_float (only parsing).

Definition fprec : Z := 53.
Definition femax : Z := 1024.

Definition fadd (a b : f64) : f64 := SFadd fprec femax a b.
Definition fsub (a b : f64) : f64 := SFsub fprec femax a b.
Definition fmul (a b : f64) : f64 := SFmul fprec femax a b.
Definition fdiv (a b : f64) : f64 := SFdiv fprec femax a b.
Definition fsqrt (a : f64) : f64 := SFsqrt fprec femax a.

(** [n as f64] for an unsigned integer. *)
Definition f_of_N (n : N) : f64 := binary_normalize fprec femax (Z.of_N n) 0 false.

(** A decimal literal, given as the fraction [m / d], correctly rounded. *)
Definition f_lit (m d : positive) : f64 :=
  fdiv (S754_finite false m 0) (S754_finite false d 0).

Definition f_zero : f64 := S754_zero false.
Definition f_one : f64 := f_of_N 1.

Definition f_is_nan (a : f64) : bool :=
  match a with S754_nan => true | _ => false end.

(** Rust's [==], [<], [<=], [>] on [f64] (false when a NaN is involved). *)
Definition feqb (a b : f64) : bool := SFeqb a b.
Definition fltb (a b : f64) : bool := SFltb a b.
Definition fleb (a b : f64) : bool := SFleb a b.
Definition fgtb (a b : f64) : bool := fltb b a.

(** [OrderedFloat]'s total order: NaN is equal to itself and greater than
    every other value; otherwise the IEEE comparison. *)
Definition ord_cmp (a b : f64) : comparison :=
  match SFcompare a b with
  | Some c => c
  | None =>
      match f_is_nan a, f_is_nan b with
      | true, true => Eq
      | true, false => Gt
      | _, _ => Lt
      end
  end.

(** [x.ceil() as u16]: saturating cast. *)
Definition f_ceil_u16 (a : f64) : N :=
  match a with
  | S754_zero _ | S754_nan => 0
  | S754_infinity s => if s then 0 else u16_max
  | S754_finite true _ _ => 0
  | S754_finite false m e =>
      let c :=
        match e with
        | Z0 => Npos m
        | Zpos k => N.shiftl (Npos m) (Npos k)
        | Zneg k =>
            let q := N.shiftr (Npos m) (Npos k) in
            if N.shiftl q (Npos k) =? Npos m then q else q + 1
        end in
      N.min c u16_max
  end.
