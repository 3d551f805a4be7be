(** Specification vocabulary for which results are kept when not all fit. *)
From Verif Require Import Prelude F64 Common Store Query Spec_coalesce.
Local Open Scope N_scope.

(** The result is full, and everything in it is at least as relevant as [c]. *)
Definition outranked (out : list coalesce_context) (c : coalesce_context) : Prop :=
  length out = 800%nat /\ forall d, d ∈ out -> ord_cmp (cc_relev c) (cc_relev d) <> Gt.
