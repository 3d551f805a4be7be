(** Specification vocabulary for the bindings of the phrase set, and for indexing with
    its ids. *)
From Verif Require Import Prelude F64 Common Spatial Builder Store Native Fuzzy Spec Spec_match Spec_native.
From Coq Require Import Sorting.Sorted.
Local Open Scope N_scope.

(** The number [v] is the integer [n]. *)
Definition exactly (v : f64) (n : N) : Prop :=
  match v with
  | S754_zero _ => n = 0
  | S754_finite false m e => n * 2 ^ Z.to_N (- e) = Npos m * 2 ^ Z.to_N e
  | _ => False
  end.

(** The outcome of a call on the crate, and what JavaScript gets for it. *)
Definition answered {A B} (R : A -> B -> Prop) (r : res A) (out : res B) : Prop :=
  match r, out with
  | Ok a, Ok b => R a b
  | Err, Err | Panic, Panic | Diverge, Diverge => True
  | _, _ => False
  end.

(** Calls on a phrase set builder that is not finished. *)
Inductive phrase_calls (pc : phrase_crate) :
  pc_builder pc -> list (fz_call pc) -> list (res (fz_out (pc_found pc))) -> pc_builder pc -> Prop :=
| calls_nil b : phrase_calls pc b [] [] b
| calls_insert b ph r b1 out cs rs b' :
    pc_insert pc b ph = (r, b1) ->
    answered (fun id v => exists x, v = FzNumber x /\ exactly x id) r out ->
    phrase_calls pc b1 cs rs b' -> phrase_calls pc b (FzInsert pc (Some ph) :: cs) (out :: rs) b'
| calls_load b ws r b1 out cs rs b' :
    pc_load pc b ws = (r, b1) -> answered (fun _ v => v = FzUndefined) r out ->
    phrase_calls pc b1 cs rs b' -> phrase_calls pc b (FzLoad pc (Some ws) :: cs) (out :: rs) b'
| calls_bad b c cs rs b' :
    c = FzInsert pc None \/ c = FzLoad pc None ->
    phrase_calls pc b cs rs b' -> phrase_calls pc b (c :: cs) (Err :: rs) b'.

(** Bins as the crate is meant to give them: ranges of ids, ascending and apart, the id
    2^32-1 not among them. *)
Definition bins_apart (bins : list (N * N)) : Prop :=
  StronglySorted (fun a b : N * N => a.2 < b.1) bins /\
  Forall (fun b : N * N => b.1 <= b.2 /\ b.2 < 2 ^ 32 - 1) bins.
(** Where the bins start, and where the last one ends. *)
Definition bin_starts (bins : list (N * N)) : list N :=
  map fst bins ++ match last bins with Some b => [b.2 + 1] | None => [] end.

(** What a query on final ids should find, from the calls made with temporary ids. *)
Definition indexed_match (ids : list N) (ops : list op) (k : match_key) (o : match_opts) (radius : f64)
    (m : match_entry) : Prop :=
  exists tmp lang fin es e, written ops !! (tmp, lang) = Some es /\ ids !! N.to_nat tmp = Some fin /\
    phrase_sel (mk_phrase k) fin = true /\ e ∈ es /\ box_sel (mo_bbox o) e = true /\
    m = query_match o radius (lang_sel (mk_lang k) lang) (snap e).
