(** Model of /repo/native/src/fuzzy_phrase.rs, the Node bindings of the crate
    fuzzy-phrase. The crate itself is not part of the repository: its builder, its
    phrase set and what they return are given by a record, about which nothing is
    assumed. As in [Native], an argument that goes through [neon_serde::from_value]
    is an [option]. Values going out through [neon_serde::to_value] are kept as they
    are. *)
From Verif Require Import Prelude F64 Native.
Local Open Scope N_scope.

(** The crate's calls used by the bindings: [FuzzyPhraseSetBuilder::insert] (30),
    [load_word_replacements] (58) and [finish] (79), which writes the set to disk and
    returns, for each id given out by insert, the final id of the phrase;
    [FuzzyPhraseSet::contains] (138), [fuzzy_match] (169), [fuzzy_match_windows] (205),
    [fuzzy_match_multi] (235), [get_by_phrase_id] (258), and [get_prefix_bins] (277) as
    the first and last id of each bin. *)
Record phrase_crate := PhraseCrate {
  pc_builder : Type;
  pc_replacement : Type;
  pc_files : Type;
  pc_ending : Type;
  pc_found : Type;
  pc_insert : pc_builder -> list bytes -> res N * pc_builder;
  pc_load : pc_builder -> list pc_replacement -> res unit * pc_builder;
  pc_finish : pc_builder -> pc_files -> res (list N) * pc_files;
  pc_contains : pc_files -> list bytes -> pc_ending -> res bool;
  pc_match : pc_files -> list bytes -> N -> N -> pc_ending -> res pc_found;
  pc_windows : pc_files -> list bytes -> N -> N -> pc_ending -> res pc_found;
  pc_multi : pc_files -> list (list bytes * pc_ending) -> N -> N -> res pc_found;
  pc_by_id : pc_files -> N -> res (option (list bytes));
  pc_bins : pc_files -> N -> res (list (N * N)) }.

(** What the methods return. An ArrayBuffer is given as the [u32] slice it is filled
    with. *)
Inductive fz_out {F : Type} :=
| FzNumber (v : f64)
| FzBoolean (b : bool)
| FzUndefined
| FzBuffer (ids : list N)
| FzFound (f : F)
| FzPhrase (ws : list bytes).
Arguments fz_out : clear implicits.

(** 86-92 and 287-292: the buffer is as long as the low 32 bits of the number of bytes
    say, and [copy_from_slice] panics unless the slice has as many elements. *)
Definition to_buffer {F} (ids : list N) : res (fz_out F) :=
  let len := N.of_nat (length ids) in
  if (len * 4) mod 2 ^ 32 / 4 =? len then Ok (FzBuffer ids) else Panic.

Section crate.
Context (pc : phrase_crate).

(** The methods of JsFuzzyPhraseSetBuilder, 16-107. *)
Inductive fz_call :=
| FzInsert (phrase : option (list bytes))
| FzLoad (words : option (list (pc_replacement pc)))
| FzFinish.
(** A builder object and the files at its path. *)
Definition fz_state : Type := option (pc_builder pc) * pc_files pc.
Definition fz_step (s : fz_state) (c : fz_call) : res (fz_out (pc_found pc)) * fz_state :=
  match c with
  | FzInsert ph =>                                                      (* 16-42 *)
      match ph, s.1 with
      | Some ph, Some b =>
          let '(r, b') := pc_insert pc b ph in
          (let* id := r in Ok (FzNumber (f_of_N id)), (Some b', s.2))
      | _, _ => (Err, s)
      end
  | FzLoad ws =>                                                        (* 44-70 *)
      match ws, s.1 with
      | Some ws, Some b =>
          let '(r, b') := pc_load pc b ws in
          (let* _ := r in Ok FzUndefined, (Some b', s.2))
      | _, _ => (Err, s)
      end
  | FzFinish =>                                                         (* 72-107 *)
      match s.1 with
      | Some b => let '(r, f') := pc_finish pc b s.2 in (let* ids := r in to_buffer ids, (None, f'))
      | None => (Err, s)
      end
  end.
Fixpoint fz_run (s : fz_state) (cs : list fz_call) : list (res (fz_out (pc_found pc))) * fz_state :=
  match cs with
  | [] => ([], s)
  | c :: cs' =>
      let '(r, s1) := fz_step s c in
      let '(rs, s2) := fz_run s1 cs' in (r :: rs, s2)
  end.

(** JsFuzzyPhraseSet, 110-306. The arguments are checked in the order in which they are
    read; nothing else happens before they all are. *)
Definition fz_contains (f : pc_files pc) (ph : option (list bytes)) (e : option (pc_ending pc))
    : res (fz_out (pc_found pc)) :=                                     (* 119-145 *)
  let* ph := given ph in
  let* e := given e in
  let* b := pc_contains pc f ph e in
  Ok (FzBoolean b).
Definition fz_match (f : pc_files pc) (ph : option (list bytes)) (wd pd : jsval) (e : option (pc_ending pc))
    : res (fz_out (pc_found pc)) :=                                     (* 147-181 *)
  let* ph := given ph in
  let* wd := as_number wd in
  let* pd := as_number pd in
  let* e := given e in
  let* r := pc_match pc f ph (cast_uint u8_max wd) (cast_uint u8_max pd) e in
  Ok (FzFound r).
Definition fz_windows (f : pc_files pc) (ph : option (list bytes)) (wd pd : jsval) (e : option (pc_ending pc))
    : res (fz_out (pc_found pc)) :=                                     (* 183-217 *)
  let* ph := given ph in
  let* wd := as_number wd in
  let* pd := as_number pd in
  let* e := given e in
  let* r := pc_windows pc f ph (cast_uint u8_max wd) (cast_uint u8_max pd) e in
  Ok (FzFound r).
Definition fz_multi (f : pc_files pc) (phs : option (list (list bytes * pc_ending pc))) (wd pd : jsval)
    : res (fz_out (pc_found pc)) :=                                     (* 219-247 *)
  let* phs := given phs in
  let* wd := as_number wd in
  let* pd := as_number pd in
  let* r := pc_multi pc f phs (cast_uint u8_max wd) (cast_uint u8_max pd) in
  Ok (FzFound r).
Definition fz_by_id (f : pc_files pc) (id : jsval) : res (fz_out (pc_found pc)) :=   (* 249-266 *)
  let* id := as_number id in
  let* r := pc_by_id pc f (cast_uint u32_max id) in
  Ok (match r with Some ws => FzPhrase ws | None => FzUndefined end).
(** 282-285: the first id of every bin, then one past the last id of the last bin. *)
Definition bare_ids (p : profile) (bins : list (N * N)) : res (list N) :=
  let firsts := map (fun b : N * N => b.1 mod 2 ^ 32) bins in
  match last bins with
  | None => Ok firsts
  | Some b => let* e := uadd p 32 (b.2 mod 2 ^ 32) 1 in Ok (firsts ++ [e])
  end.
Definition fz_bins (p : profile) (f : pc_files pc) (size : jsval) : res (fz_out (pc_found pc)) := (* 268-306 *)
  let* size := as_number size in
  let* bins := pc_bins pc f (cast_uint usize_max size) in
  let* ids := bare_ids p bins in
  to_buffer ids.
End crate.
