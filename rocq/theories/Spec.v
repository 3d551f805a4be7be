(** Specifications used by the property theorems. They talk about what a user
    writes and reads, not about the model's internal structures. *)
From Verif Require Import Prelude F64 Common Morton Builder Store.
From Coq Require Import Sorting.Sorted.

(** ** Grouping of consecutive elements *)
(** [gs] cuts [l] into consecutive non-empty runs; a run is labelled with the key of
    its first element, every further element of the run has an equal key, and the
    next run starts with a different key. *)
Inductive grouping {A K} (key : A -> K) (eqb : K -> K -> bool)
  : list A -> list (K * list A) -> Prop :=
| grouping_nil : grouping key eqb [] []
| grouping_one a run :
    Forall (fun b => eqb (key a) (key b) = true) run ->
    grouping key eqb (a :: run) [(key a, a :: run)]
| grouping_cons a run b l gs :
    Forall (fun b => eqb (key a) (key b) = true) run ->
    eqb (key a) (key b) = false ->
    grouping key eqb (b :: l) gs ->
    grouping key eqb (a :: run ++ b :: l) ((key a, a :: run) :: gs).

(** ** What is written *)
Inductive op :=
| OpInsert (k : N * N) (es : list grid_entry)
| OpAppend (k : N * N) (es : list grid_entry)
| OpCompact (k : N * N) (relev : f64) (score id hash : N) (coords : list (N * N))
| OpBounds (bounds : list N).

(** The calls on a fresh builder. *)
Definition apply_op (b : builder) (o : op) : builder :=
  match o with
  | OpInsert k es => insert b k es
  | OpAppend k es => append b k es
  | OpCompact k r s i h cs => compact_append b k r s i h cs
  | OpBounds bs => load_bin_boundaries b bs
  end.
Definition run (ops : list op) : builder := foldl apply_op builder_new ops.

(** The entries of a compact append: one entry per coordinate. *)
Definition compact_entries (relev : f64) (score id hash : N) (coords : list (N * N))
  : list grid_entry :=
  map (fun xy : N * N => GridEntry relev score xy.1 xy.2 id hash) coords.

(** The entries written for each key by a history of calls. *)
Definition written_step (m : gmap (N * N) (list grid_entry)) (o : op)
  : gmap (N * N) (list grid_entry) :=
  match o with
  | OpInsert k es => <[k := es]> m
  | OpAppend k es => <[k := default [] (m !! k) ++ es]> m
  | OpCompact k r s i h cs => <[k := default [] (m !! k) ++ compact_entries r s i h cs]> m
  | OpBounds _ => m
  end.
Definition written (ops : list op) : gmap (N * N) (list grid_entry) :=
  foldl written_step ∅ ops.

(** Ranges of the Rust types, and scores that fit in four bits. *)
Definition entry_ok (e : grid_entry) : Prop :=
  ge_score e <= 15 /\ ge_x e < 2 ^ 16 /\ ge_y e < 2 ^ 16 /\ ge_id e < 2 ^ 32 /\ ge_hash e < 2 ^ 8.
Definition key_ok (k : N * N) : Prop := k.1 < 2 ^ 32 /\ k.2 < 2 ^ 128.
(** A call whose arguments are in range. *)
Definition op_ok (o : op) : Prop :=
  match o with
  | OpInsert k es | OpAppend k es => key_ok k /\ Forall entry_ok es
  | OpCompact k _ s i h cs =>
      key_ok k /\ s <= 15 /\ i < 2 ^ 32 /\ h < 2 ^ 8 /\
      Forall (fun xy : N * N => xy.1 < 2 ^ 16 /\ xy.2 < 2 ^ 16) cs
  | OpBounds bs => Forall (fun b => b < 2 ^ 32) bs
  end.

(** A history within the documented ranges: arguments in range, phrase id 2^32-1
    not used (see C23), and at most 2^27 entries per key (so that a record stays
    below 4 GiB, the range of its 32-bit offsets). *)
Definition history_ok (ops : list op) : Prop :=
  Forall op_ok ops /\
  forall k es, written ops !! k = Some es ->
    k.1 < 2 ^ 32 - 1 /\ N.of_nat (length es) <= 2 ^ 27.

(** [s] is a store opened, with some options, on the directory written by running
    the history and finish() into an empty directory. *)
Definition built (o : hash_oracle) (ops : list op) (s : store) : Prop :=
  exists d zoom type_id radius bboxes max_score,
    finish o (run ops) ∅ = Ok d /\ s = open_store d zoom type_id radius bboxes max_score.

(** The four relevance values of the format; anything else becomes 1.0. *)
Definition relev_levels : list f64 := [f_lit 4 10; f_lit 6 10; f_lit 8 10].
Definition snap_relev (r : f64) : f64 :=
  default f_one (List.find (fun l => feqb r l) relev_levels).
(** An entry as it can be read back. *)
Definition snap (e : grid_entry) : grid_entry :=
  GridEntry (snap_relev (ge_relev e)) (ge_score e) (ge_x e) (ge_y e)
            (ge_id e mod 2 ^ 24) (ge_hash e).

(** [a] comes strictly before [b] in a record. *)
Definition lex2 {A B} (ltA : A -> A -> Prop) (ltB : B -> B -> Prop) (a b : A * B) : Prop :=
  ltA a.1 b.1 \/ (a.1 = b.1 /\ ltB a.2 b.2).
Definition gt_N (a b : N) : Prop := b < a.
Definition gt_f (a b : f64) : Prop := fltb b a = true.
Definition entry_before (a b : grid_entry) : Prop :=
  lex2 gt_f (lex2 gt_N (lex2 gt_N (lex2 gt_N gt_N)))
    (ge_relev a, (ge_score a, (interleave (ge_x a) (ge_y a), (ge_id a, ge_hash a))))
    (ge_relev b, (ge_score b, (interleave (ge_x b) (ge_y b), (ge_id b, ge_hash b)))).

(** Calls on renamed keys. *)
Definition map_op (f : N * N -> N * N) (o : op) : op :=
  match o with
  | OpInsert k es => OpInsert (f k) es
  | OpAppend k es => OpAppend (f k) es
  | OpCompact k r s i h cs => OpCompact (f k) r s i h cs
  | OpBounds bs => OpBounds bs
  end.
Definition op_key (o : op) : option (N * N) :=
  match o with
  | OpInsert k _ | OpAppend k _ | OpCompact k _ _ _ _ _ => Some k
  | OpBounds _ => None
  end.

(** The calls on the keys selected by [P]. *)
Definition on_keys (P : N * N -> bool) (o : op) : bool :=
  match op_key o with Some k => P k | None => true end.
Definition restrict (P : N * N -> bool) (ops : list op) : list op :=
  List.filter (on_keys P) ops ++ [OpBounds []].
