(** Shared vocabulary of the model: outcomes of fallible code, build profiles,
    fixed-width integers, bytes, and the list operations of the Rust standard
    library and itertools that the source uses. *)
From stdpp Require Export base list numbers option gmap.
From Coq Require Export NArith ZArith Lia.
From Coq Require Import Sorting.Permutation.

Global Open Scope N_scope.

(** Outcome of a Rust computation: normal return, [Result::Err], panic, or
    non-termination. *)
Inductive res (A : Type) : Type :=
| Ok (a : A)
| Err
| Panic
| Diverge.
Global Arguments Ok {A} a.
Global Arguments Err {A}.
Global Arguments Panic {A}.
Global Arguments Diverge {A}.

Definition res_bind {A B} (m : res A) (f : A -> res B) : res B :=
  match m with
  | Ok a => f a
  | Err => Err
  | Panic => Panic
  | Diverge => Diverge
  end.

Definition res_map {A B} (f : A -> B) (m : res A) : res B :=
  res_bind m (fun a => Ok (f a)).

Notation "'let*' x ':=' m 'in' k" := (res_bind m (fun x => k))
  (at level 200, x pattern, m at level 100, k at level 200, right associativity).

(** Run a fallible function over a list, left to right, stopping at the first
    failure ([Iterator::map] + [collect], and [for] loops). *)
Fixpoint res_mapM {A B} (f : A -> res B) (l : list A) : res (list B) :=
  match l with
  | [] => Ok []
  | a :: l' =>
      let* b := f a in
      let* bs := res_mapM f l' in
      Ok (b :: bs)
  end.

Fixpoint res_foldl {A S} (f : S -> A -> res S) (s : S) (l : list A) : res S :=
  match l with
  | [] => Ok s
  | a :: l' => let* s' := f s a in res_foldl f s' l'
  end.

(** [cargo build] profiles: integer overflow panics in [Debug] and wraps in
    [Release]; [debug_assert!] only exists in [Debug]. *)
Inductive profile := Debug | Release.

(** ** Fixed-width integers *)
Definition u8_max : N := 255.
Definition u16_max : N := 65535.
Definition u32_max : N := 4294967295.
Definition u128_max : N := 340282366920938463463374607431768211455.

(** [as u8], [as u16], [as u32] on a larger unsigned integer. *)
Definition as_u8 (n : N) : N := n mod 2 ^ 8.
Definition as_u16 (n : N) : N := n mod 2 ^ 16.
Definition as_u32 (n : N) : N := n mod 2 ^ 32.

(** Checked-or-wrapping arithmetic of width [w] bits. *)
Definition uadd (p : profile) (w a b : N) : res N :=
  if a + b <? 2 ^ w then Ok (a + b)
  else match p with Debug => Panic | Release => Ok ((a + b) mod 2 ^ w) end.
Definition usub (p : profile) (w a b : N) : res N :=
  if b <=? a then Ok (a - b)
  else match p with Debug => Panic | Release => Ok ((2 ^ w + a - b) mod 2 ^ w) end.
Definition umul (p : profile) (w a b : N) : res N :=
  if a * b <? 2 ^ w then Ok (a * b)
  else match p with Debug => Panic | Release => Ok ((a * b) mod 2 ^ w) end.
(** [a << k]: a shift amount of at least the width panics or is masked; the
    bits shifted out are lost silently in both profiles. *)
Definition ushl (p : profile) (w a k : N) : res N :=
  if k <? w then Ok (N.shiftl a k mod 2 ^ w)
  else match p with Debug => Panic | Release => Ok (N.shiftl a (k mod w) mod 2 ^ w) end.
Definition ushr (p : profile) (w a k : N) : res N :=
  if k <? w then Ok (N.shiftr a k)
  else match p with Debug => Panic | Release => Ok (N.shiftr a (k mod w)) end.

(** ** Bytes *)
Notation byte := N (only parsing).
Notation bytes := (list N) (only parsing).

(** [n] little-endian bytes of [v] ([to_le_bytes], truncated to [n] bytes). *)
Fixpoint le_bytes (n : nat) (v : N) : bytes :=
  match n with
  | O => []
  | S n' => v mod 256 :: le_bytes n' (v / 256)
  end.

(** [from_le_bytes]. *)
Fixpoint le_value (bs : bytes) : N :=
  match bs with
  | [] => 0
  | b :: bs' => b + 256 * le_value bs'
  end.

(** [to_be_bytes] of an [n]-byte integer and the big-endian read. *)
Definition be_bytes (n : nat) (v : N) : bytes := rev (le_bytes n v).
Definition be_value (bs : bytes) : N := le_value (rev bs).

(** [&data[from..]] (panics when [from > len]) and
    [&data[from..from+n]]. *)
Definition slice_from {A} (l : list A) (from : nat) : res (list A) :=
  if (from <=? length l)%nat then Ok (drop from l) else Panic.
Definition slice {A} (l : list A) (from n : nat) : res (list A) :=
  if (from + n <=? length l)%nat then Ok (take n (drop from l)) else Panic.
Definition index {A} (l : list A) (i : nat) : res A :=
  match l !! i with Some a => Ok a | None => Panic end.

(** ** Sorting: [sort_by] is a stable sort; insertion sort is the reference
    stable sort. [leb a b] means [a] may stand before [b]. *)
Section isort.
  Context {A : Type} (leb : A -> A -> bool).
  Fixpoint insert_sorted (a : A) (l : list A) : list A :=
    match l with
    | [] => [a]
    | b :: l' => if leb a b then a :: l else b :: insert_sorted a l'
    end.
  Fixpoint isort (l : list A) : list A :=
    match l with
    | [] => []
    | a :: l' => insert_sorted a (isort l')
    end.
End isort.

(** [Vec::dedup]/[dedup_by_key]: drop elements equal to the previously kept
    one. [same prev cur]. *)
Fixpoint dedup_after {A} (same : A -> A -> bool) (prev : A) (l : list A) : list A :=
  match l with
  | [] => []
  | b :: l' =>
      if same prev b then dedup_after same prev l'
      else b :: dedup_after same b l'
  end.
Definition dedup {A} (same : A -> A -> bool) (l : list A) : list A :=
  match l with
  | [] => []
  | a :: l' => a :: dedup_after same a l'
  end.

(** itertools' [group_by] on consecutive equal keys. *)
Fixpoint group_consec {A K} (key : A -> K) (eqb : K -> K -> bool) (l : list A)
  : list (K * list A) :=
  match l with
  | [] => []
  | a :: l' =>
      match group_consec key eqb l' with
      | (k, g) :: gs =>
          if eqb (key a) k then (key a, a :: g) :: gs
          else (key a, [a]) :: (k, g) :: gs
      | [] => [(key a, [a])]
      end
  end.

(** [Iterator::take_while]. *)
Fixpoint take_while {A} (f : A -> bool) (l : list A) : list A :=
  match l with
  | [] => []
  | a :: l' => if f a then a :: take_while f l' else []
  end.
Fixpoint skip_while {A} (f : A -> bool) (l : list A) : list A :=
  match l with
  | [] => []
  | a :: l' => if f a then skip_while f l' else l
  end.

(** Lexicographic comparison of sort keys. *)
Definition cmp_then (a b : comparison) : comparison :=
  match a with Eq => b | _ => a end.
Notation "a '<;>' b" := (cmp_then a b) (at level 60, right associativity).
Definition cmp_bool (a b : bool) : comparison :=
  match a, b with
  | false, true => Lt
  | true, false => Gt
  | _, _ => Eq
  end.
