(** Specification vocabulary for the Node bindings: what JavaScript arguments mean. *)
From Verif Require Import Prelude F64 Common Builder Query Native Spec.
From Coq Require Import Sorting.Sorted.
Local Open Scope N_scope.

(** [n] is the integer part of the positive number [m * 2^e]. *)
Definition integer_part (m : positive) (e : Z) (n : N) : Prop :=
  n * 2 ^ Z.to_N (- e) <= Npos m * 2 ^ Z.to_N e < (n + 1) * 2 ^ Z.to_N (- e).
(** A number as an unsigned integer no larger than [max]: anything that is not
    positive becomes 0, anything too large becomes [max]. *)
Inductive as_uint (max : N) : f64 -> N -> Prop :=
| uint_zero s : as_uint max (S754_zero s) 0
| uint_nan : as_uint max S754_nan 0
| uint_neg m e : as_uint max (S754_finite true m e) 0
| uint_neg_inf : as_uint max (S754_infinity true) 0
| uint_inf : as_uint max (S754_infinity false) max
| uint_pos m e n : integer_part m e n -> as_uint max (S754_finite false m e) (N.min max n).

(** The set of languages a value stands for: all 128 of them for null and undefined;
    for an array of numbers the members below 128. *)
Inductive as_langs : jsval -> N -> Prop :=
| langs_null : as_langs JsNull (2 ^ 128 - 1)
| langs_undefined : as_langs JsUndefined (2 ^ 128 - 1)
| langs_array vs s :
    s < 2 ^ 128 ->
    (forall l, l < 128 -> (N.testbit s l = true <-> exists v, v ∈ vs /\ as_uint (2 ^ 64 - 1) v l)) ->
    as_langs (JsArray (map JsNumber vs)) s.

(** The key a key object stands for. *)
Definition as_key (k : js_key) (key : N * N) : Prop :=
  exists v, jk_phrase k = JsNumber v /\ as_uint (2 ^ 32 - 1) v key.1 /\ as_langs (jk_lang k) key.2.

(** The call on the native builder that a JavaScript call stands for. *)
Inductive stands_for : js_call -> op -> Prop :=
| means_insert k key es : as_key k key -> stands_for (JsInsert k (Some es)) (OpInsert key es)
| means_append k key es : as_key k key -> stands_for (JsAppend k (Some es)) (OpAppend key es)
| means_compact k key relev score sc id i hash h cs :
    as_key k key -> as_uint (2 ^ 8 - 1) score sc -> as_uint (2 ^ 32 - 1) id i -> as_uint (2 ^ 8 - 1) hash h ->
    stands_for (JsCompact k (JsNumber relev) (JsNumber score) (JsNumber id) (JsNumber hash) (Some cs))
               (OpCompact key relev sc i h cs)
| means_bounds bs : stands_for (JsBounds (Some bs)) (OpBounds bs).

(** Calls on a builder that is not finished: their outcomes, and what it holds after. *)
Inductive performs : builder -> list js_call -> list (res unit) -> builder -> Prop :=
| perf_nil b : performs b [] [] b
| perf_op b c o cs rs b' :
    stands_for c o -> performs (apply_op b o) cs rs b' -> performs b (c :: cs) (Ok tt :: rs) b'
| perf_renumber b ids cs rs b' :
    performs (renumber b ids).2 cs rs b' ->
    performs b (JsRenumber (Some ids) :: cs) ((renumber b ids).1 :: rs) b'
| perf_bad b c cs rs b' :
    (forall o, ~ stands_for c o) -> (forall ids, c <> JsRenumber (Some ids)) ->
    performs b cs rs b' -> performs b (c :: cs) (Err :: rs) b'.

(** The languages of a set, ascending. *)
Definition languages (s : N) (ls : list N) : Prop :=
  StronglySorted N.lt ls /\ forall l, l ∈ ls <-> N.testbit s l = true.

(** ** Collapsing *)
(** Two subqueries that are put together: equal weight, index and mask. *)
Definition together (a b : subquery) : Prop :=
  ord_cmp (sq_weight a) (sq_weight b) = Eq /\ sq_idx a = sq_idx b /\ sq_mask a = sq_mask b.
(** [rest] is [l] without the subqueries that go with [pm], whose first keys are [ks]. *)
Inductive splits (pm : subquery) : list subquery -> list match_key_id -> list subquery -> Prop :=
| split_nil : splits pm [] [] []
| split_same q k ks' l ks rest :
    together q pm -> sq_keys q = k :: ks' -> splits pm l ks rest -> splits pm (q :: l) (k :: ks) rest
| split_other q l ks rest :
    ~ together q pm -> splits pm l ks rest -> splits pm (q :: l) ks (q :: rest).
Definition with_keys (pm : subquery) (ks : list match_key_id) : subquery :=
  Subquery (sq_store pm) (sq_idx pm) (sq_nonoverlap pm) (sq_weight pm) (sq_mask pm) ks.
(** Each group in the place of its first member, with the keys of that member followed
    by the first key of every other member, in order. *)
Inductive collapses : list subquery -> list subquery -> Prop :=
| coll_nil : collapses [] []
| coll_cons pm l ks rest out :
    splits pm l ks rest -> collapses rest out ->
    collapses (pm :: l) (with_keys pm (sq_keys pm ++ ks) :: out).
(** What a collapsed subquery takes from its group's first member is the same for the
    other members. *)
Definition groups_agree (pms : list subquery) : Prop :=
  forall a b, a ∈ pms -> b ∈ pms -> together a b ->
    sq_store a = sq_store b /\ sq_nonoverlap a = sq_nonoverlap b /\ sq_weight a = sq_weight b.

(** The native calls that the accepted ones of a sequence of JavaScript calls stand for. *)
Inductive accepted : list js_call -> list op -> Prop :=
| acc_nil : accepted [] []
| acc_op c o cs ops : stands_for c o -> accepted cs ops -> accepted (c :: cs) (o :: ops)
| acc_skip c cs ops : (forall o, ~ stands_for c o) -> accepted cs ops -> accepted (c :: cs) ops.
