(** Specification vocabulary: the same subqueries in another order. *)
From Verif Require Import Prelude F64 Common Store Query.
Local Open Scope N_scope.

(** The same subquery, with its keys perhaps in another order. *)
Definition same_keys (a b : subquery) : Prop :=
  sq_store a = sq_store b /\ sq_idx a = sq_idx b /\ sq_nonoverlap a = sq_nonoverlap b /\
  sq_weight a = sq_weight b /\ sq_mask a = sq_mask b /\ sq_keys a ≡ₚ sq_keys b.
(** The same subqueries in another order, the keys of each perhaps also in another order. *)
Definition rearranged (pms1 pms2 : list subquery) : Prop :=
  exists l, pms1 ≡ₚ l /\ Forall2 same_keys l pms2.
