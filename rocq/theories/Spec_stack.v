(** Specification vocabulary for the stacking tree. *)
From Verif Require Import Prelude F64 Common Store Query Stackable Spec_coalesce.
From Coq Require Import Sorting.Sorted.
Local Open Scope N_scope.

(** The accumulated weight of a chain of subqueries, root first. *)
Definition sum_weights (chain : list subquery) : f64 :=
  foldl (fun r pm => fadd r (sq_weight pm)) f_zero chain.
Definition type_of (pm : subquery) : N := st_type_id (sq_store pm).

(** No subquery excludes the index before it; [prev] is the index before the first. *)
Fixpoint not_excluded (prev : N) (chain : list subquery) : Prop :=
  match chain with
  | [] => True
  | pm :: rest => N.testbit (sq_nonoverlap pm) prev = false /\ not_excluded (sq_idx pm) rest
  end.
(** The index of the root, which no subquery has. *)
Definition root_idx : N := 129.

(** A stack that may be built from the given subqueries. *)
Definition legal (pms chain : list subquery) : Prop :=
  (forall pm, pm ∈ chain -> pm ∈ pms) /\
  StronglySorted (fun a b => type_of a < type_of b) chain /\
  disjoint_masks (map sq_mask chain) /\
  not_excluded root_idx chain.

(** Going down in a tree of nodes found by their indexes, collecting the subqueries. *)
Inductive descends (get : N -> option node) : node -> list subquery -> node -> Prop :=
  | desc_here n : descends get n [] n
  | desc_child n i c pm rest m :
      i ∈ sn_children n -> get i = Some c -> sn_pm c = Some pm -> descends get c rest m ->
      descends get n (pm :: rest) m.

(** How many of the kept nodes satisfy a test. *)
Definition count (P : node -> bool) (m : gmap N node) : N :=
  N.of_nat (length (List.filter (fun kv : N * node => P kv.2) (map_to_list m))).
(** Adding a list of nodes one after the other; the answers are kept beside the nodes. *)
Fixpoint add_all (a : arena) (ns : list node) : list (node * option N) * arena :=
  match ns with
  | [] => ([], a)
  | n :: rest => let '(o, a1) := arena_add a n in let '(out, a2) := add_all a1 rest in ((n, o) :: out, a2)
  end.
(** An empty arena with another limit than that of the program. *)
Definition arena_of (soft_max : N) : arena := Arena ∅ [] f_max 0 soft_max 0 false.

(** The largest weight of a type, 0 if there is none larger. *)
Definition top_weight (pms : list subquery) (t : N) : f64 :=
  foldl (fun m pm => if (type_of pm =? t) && fltb m (sq_weight pm) then sq_weight pm else m) f_zero pms.
(** The types above [t], the largest first. *)
Definition types_above (pms : list subquery) (t : N) (ts : list N) : Prop :=
  StronglySorted (fun a b => b < a) ts /\
  forall t', t' ∈ ts <-> t < t' /\ exists pm, pm ∈ pms /\ type_of pm = t'.
(** The most that later types can add, summed from the last type backwards. *)
Definition best_after (pms : list subquery) (ts : list N) : f64 :=
  foldl (fun acc t => fadd acc (top_weight pms t)) f_zero ts.
(** Summing in that other order never gives less than the accumulated weight. *)
Definition estimates_hold (pms : list subquery) : Prop :=
  forall pre pm ext ts, legal pms (pre ++ pm :: ext) -> types_above pms (type_of pm) ts ->
  ord_cmp (sum_weights (pre ++ pm :: ext)) (fadd (sum_weights (pre ++ [pm])) (best_after pms ts)) <> Gt.
