(** One query as the sum of others. *)
From Verif Require Import Prelude F64 Heap Common Spatial Store Query Spec Spec_match Spec_frame.
Local Open Scope N_scope.

(** A store with the calls that wrote it, and what is asked of it: phrases and a box. *)
Record asking := Asking { a_ops : list op; a_store : store; a_phrase : match_phrase; a_box : option bbox }.
(** The entry [e] was written under the key [k] (and is rounded as it is stored), and it is
    asked for. *)
Definition concerns (a : asking) (k : N * N) (e : grid_entry) : Prop :=
  exists es w, written (a_ops a) !! k = Some es /\ w ∈ es /\ e = snap w /\
    phrase_sel (a_phrase a) k.1 = true /\ box_sel (a_box a) w = true.
(** Queries within the documented ranges, with a limit that does not show. *)
Definition fair (p : profile) (prox : option (N * N)) (zoom max : N) (a : asking) : Prop :=
  history_ok (a_ops a) /\ (exists o, built o (a_ops a) (a_store a)) /\
  opts_ok p (MatchOpts (a_box a) prox zoom) (st_radius (a_store a)) /\ query_ok (a_ops a) (a_phrase a) /\
  1 <= max /\ N.of_nat (size (written (a_ops a))) <= max.
(** What is answered, for a set of languages and a point. *)
Definition answer (p : profile) (mtb : merge_tb) (tb : tiebreak) (prox : option (N * N)) (zoom max lang : N) (a : asking) (out : list match_entry) : Prop :=
  streaming_get_matching p mtb tb (a_store a) (MatchKey (a_phrase a) lang) (MatchOpts (a_box a) prox zoom) max = Ok out.

(** Everything the whole asks for is asked for by some part, and no part asks for more. *)
Definition covered_by (whole : asking) (parts : list asking) : Prop :=
  forall k e, concerns whole k e <-> exists a, a ∈ parts /\ concerns a k e.
(** No entry is asked for twice. *)
Definition disjoint (parts : list asking) : Prop :=
  forall i j a b k e, parts !! i = Some a -> parts !! j = Some b -> concerns a k e -> concerns b k e -> i = j.
