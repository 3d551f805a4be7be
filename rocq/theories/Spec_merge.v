(** Specification vocabulary: a query as a merge of what its records hold. *)
From Verif Require Import Prelude F64 Common Store Spec Spec_match.
Local Open Scope N_scope.

(** [a] comes before [b]: by relevance, then scoredist, then matching language, then x, y
    and feature id, the greater first. *)
Definition beats (a b : match_entry) : Prop :=
  let ra := ge_relev (me_entry a) in let rb := ge_relev (me_entry b) in
  let xa := ge_x (me_entry a) in let xb := ge_x (me_entry b) in
  let ya := ge_y (me_entry a) in let yb := ge_y (me_entry b) in
  ord_cmp ra rb = Gt \/ ord_cmp ra rb = Eq /\
  (ord_cmp (me_scoredist a) (me_scoredist b) = Gt \/ ord_cmp (me_scoredist a) (me_scoredist b) = Eq /\
  (me_lang a = true /\ me_lang b = false \/ me_lang a = me_lang b /\
  (xb < xa \/ xa = xb /\ (yb < ya \/ ya = yb /\ ge_id (me_entry b) < ge_id (me_entry a))))).
(** Neither comes before the other. *)
Definition tied (a b : match_entry) : Prop := ~ beats a b /\ ~ beats b a.

(** [out] is a merge of the lists [ss]: each time one of the first elements is taken that no
    other first element beats. *)
Inductive merges : list (list match_entry) -> list match_entry -> Prop :=
| merge_done ss : (forall l, l ∈ ss -> l = []) -> merges ss []
| merge_take ss a s rest out :
    ss ≡ₚ (a :: s) :: rest -> (forall b t, b :: t ∈ ss -> ~ beats b a) -> merges (s :: rest) out -> merges ss (a :: out).

(** [kept] are [n] of the lists that are not empty, or all of them: none of the others, the
    [dropped] ones, begins with something that beats the beginning of a kept one. *)
Definition best_begun (n : N) (all kept dropped : list (list match_entry)) : Prop :=
  kept ++ dropped ≡ₚ List.filter (fun l => match l with [] => false | _ => true end) all /\
  N.of_nat (length kept) <= n /\ (dropped <> [] -> N.of_nat (length kept) = n) /\
  forall a s b t, a :: s ∈ dropped -> b :: t ∈ kept -> ~ beats a b.
