(** struct PhrasematchSubquery, common.rs 471-480. [non_overlapping_indexes] is a
    bit set over layer indexes, represented by a bit mask. *)
From Verif Require Import Prelude F64 Common Store.

Record subquery := Subquery {
  sq_store : store;
  sq_idx : N;
  sq_nonoverlap : N;
  sq_weight : f64;
  sq_mask : N;
  sq_keys : list match_key_id }.

(** [FixedBitSet::contains]. *)
Definition bit_in (bits i : N) : bool := N.testbit bits i.

(** [u32::count_ones]. *)
Fixpoint pos_ones (p : positive) : N :=
  match p with xH => 1 | xO p' => pos_ones p' | xI p' => 1 + pos_ones p' end.
Definition count_ones (n : N) : N := match n with N0 => 0 | Npos p => pos_ones p end.

(** [std::f64::MAX]. *)
Definition f_max : f64 := S754_finite false 9007199254740991 971.

(** [Iterator::take] with a [usize] count. *)
Fixpoint take_N {A} (n : N) (l : list A) : list A :=
  match l with
  | [] => []
  | a :: l' => if n =? 0 then [] else a :: take_N (n - 1) l'
  end.
