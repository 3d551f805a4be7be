(** Specification vocabulary: the two searches compared. *)
From Verif Require Import Prelude F64 Common Builder Store Query.
Local Open Scope N_scope.

(** The results up to the first that is a quarter or more below the first of all. *)
Fixpoint until_drop_from (top : f64) (cs : list coalesce_context) : list coalesce_context :=
  match cs with
  | [] => []
  | c :: cs' => if fleb (f_lit 25 100) (fsub top (cc_relev c)) then [] else c :: until_drop_from top cs'
  end.
Definition until_drop (cs : list coalesce_context) : list coalesce_context :=
  match cs with [] => [] | c :: _ => until_drop_from (cc_relev c) cs end.
(** The same with another phrasematch id. *)
Definition entry_with_pid (n : N) (e : coalesce_entry) : coalesce_entry :=
  CoalesceEntry (ce_entry e) (ce_lang e) (ce_idx e) (ce_tmp_id e) (ce_mask e) (ce_distance e) (ce_scoredist e) n.
Definition with_pid (n : N) (c : coalesce_context) : coalesce_context :=
  CoalesceContext (cc_mask c) (cc_relev c) (map (entry_with_pid n) (cc_entries c)).
(** A range that does not end before it starts. *)
Definition ordered_phrase (m : match_phrase) : Prop := match m with Exact _ => True | Range s e => s <= e end.
