(** The same data under other phrase ids. *)
From Verif Require Import Prelude F64 Common Spatial Store Query Spec Spec_match Spec_frame.
Local Open Scope N_scope.

(** What the query [q] selects of the calls [ops] is, under the names that [f] gives to the
    phrases, what [q'] selects of the calls [ops']: the same entries (rounded as they are
    stored) for the same sets of languages. A set of languages that occurs is met by both
    queries or by neither. *)
Record same_content (f : N -> N) (q q' : match_key) (ops ops' : list op) : Prop := SameContent {
  sc_same : forall x l es, phrase_sel (mk_phrase q) x = true -> written ops !! (x, l) = Some es ->
    phrase_sel (mk_phrase q') (f x) = true /\
    exists es', written ops' !! (f x, l) = Some es' /\ forall e, e ∈ map snap es <-> e ∈ map snap es';
  sc_onto : forall y l es', phrase_sel (mk_phrase q') y = true -> written ops' !! (y, l) = Some es' ->
    exists x es, y = f x /\ phrase_sel (mk_phrase q) x = true /\ written ops !! (x, l) = Some es;
  sc_langs : forall x l, phrase_sel (mk_phrase q) x = true -> is_Some (written ops !! (x, l)) ->
    lang_sel (mk_lang q) l = lang_sel (mk_lang q') l }.
(** The names are in the order of the phrases they stand for. *)
Definition in_order (f : N -> N) (q : match_key) (ops : list op) : Prop :=
  forall x x' l l', phrase_sel (mk_phrase q) x = true -> phrase_sel (mk_phrase q) x' = true ->
    is_Some (written ops !! (x, l)) -> is_Some (written ops !! (x', l')) -> x < x' -> f x < f x'.
Definition renames (f : N -> N) (q q' : match_key) (ops ops' : list op) : Prop :=
  same_content f q q' ops ops' /\ in_order f q ops.

(** Two histories that answer a key each alike: they agree on the key (C85), or hold what
    is asked for under other names. *)
Definition alike (ops ops' : list op) (q q' : match_key) : Prop :=
  query_ok ops (mk_phrase q) /\ query_ok ops' (mk_phrase q') /\
  ((q = q' /\ same_source (mk_phrase q) ops ops' /\ agree_on (mk_phrase q) ops ops') \/
   (from_singles ops (mk_phrase q) /\ from_singles ops' (mk_phrase q') /\ exists f, renames f q q' ops ops')).
