(** Specification vocabulary for requests of which one has all the subqueries of the other. *)
From Verif Require Import Prelude F64 Heap Common Store Query Coalesce Stackable Spec_coalesce Spec_stack Spec_tree Spec_complete.
Local Open Scope N_scope.

(** No subquery can be put below [pm], and some can. *)
Definition stands_alone (pms : list subquery) (pm : subquery) : Prop := forall q, ~ legal pms [pm; q].
Definition has_company (pms : list subquery) (pm : subquery) : Prop := exists q, legal pms [pm; q].
(** The feature and cell of [g] are in the result, as found by key [k] and with the relevance of the
    first match there, less 0.01. *)
Definition demoted (p : profile) (mtb : merge_tb) (tb : tiebreak) (o : match_opts) (pm : subquery) (k : match_key_id)
    (g : match_entry) (out : list coalesce_context) : Prop :=
  exists g0 e0, first_match p mtb tb o pm k g0 /\ spot g0 = spot g /\ entry_of pm k g0 e0 /\
    CoalesceContext (sq_mask pm) (fsub (e_relev e0) (f_lit 1 100)) [e0] ∈ out.
(** [g] is among the first 100000 matches of the key. *)
Definition within_limit (p : profile) (mtb : merge_tb) (tb : tiebreak) (o : match_opts) (pm : subquery) (k : match_key_id)
    (g : match_entry) : Prop :=
  exists ko ms i, key_opts p o pm k ko /\
    streaming_get_matching p mtb tb (sq_store pm) (mki_key k) ko 100000 = Ok ms /\
    ms !! i = Some g /\ N.of_nat i < 100000.
