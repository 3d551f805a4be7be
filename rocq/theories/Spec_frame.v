(** What a query asks for, and histories of calls that agree on it. *)
From Verif Require Import Prelude F64 Common Spatial Store Query Spec Spec_match.
Local Open Scope N_scope.

(** The two histories wrote the same entries, rounded as they are stored, for every phrase
    that the query asks for, in whatever order and however often. What they wrote for other
    phrases is of no concern. *)
Definition agree_on (ph : match_phrase) (ops ops' : list op) : Prop :=
  forall k, phrase_sel ph k.1 = true ->
    match written ops !! k, written ops' !! k with
    | Some es, Some es' => forall e, e ∈ map snap es <-> e ∈ map snap es'
    | None, None => True
    | _, _ => False
    end.
(** No compact append is called without coordinates (it would leave a trace: C04). *)
Definition no_empty_compact (ops : list op) : Prop :=
  forall k r s i h, OpCompact k r s i h [] ∉ ops.
(** The query is answered from the same kind of record in both: from single records, or
    from bins of the same boundaries. *)
Definition from_singles (ops : list op) (ph : match_phrase) : Prop :=
  match ph with Exact _ => True | Range a b => ~ (a ∈ loaded ops /\ b ∈ loaded ops) end.
Definition same_source (ph : match_phrase) (ops ops' : list op) : Prop :=
  loaded ops = loaded ops' \/ (from_singles ops ph /\ from_singles ops' ph).
