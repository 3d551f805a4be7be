(** Model of /repo/rust-src/src/gridstore/common.rs. *)
From Verif Require Import Prelude F64 Heap.

(** enum TypeMarker, 14-18, with its [as u8] value. *)
Inductive type_marker := SinglePhrase | PrefixBin.
Definition marker_byte (m : type_marker) : N :=
  match m with SinglePhrase => 0 | PrefixBin => 1 end.

(** struct GridKey, 20-24: (phrase_id : u32, lang_set : u128). *)
Notation grid_key := (N * N)%type (only parsing).
Definition gk_phrase (k : grid_key) : N := k.1.
Definition gk_lang (k : grid_key) : N := k.2.

(** derive(Ord) on GridKey: lexicographic on (phrase_id, lang_set). *)
Definition grid_key_cmp (a b : grid_key) : comparison :=
  N.compare a.1 b.1 <;> N.compare a.2 b.2.

(** GridKey::write_to, 26-45. *)
Definition lang_bytes (lang : N) : bytes :=
  if lang =? u128_max then []
  else if lang =? 0 then [0]
  else skip_while (fun b => b =? 0) (be_bytes 16 lang).
Definition write_key (m : type_marker) (k : grid_key) : bytes :=
  marker_byte m :: be_bytes 4 (gk_phrase k) ++ lang_bytes (gk_lang k).

(** enum MatchPhrase, 47-51; struct MatchKey, 53-57. *)
Inductive match_phrase := Exact (id : N) | Range (start end_ : N).
Record match_key := MatchKey { mk_phrase : match_phrase; mk_lang : N }.

(** MatchKey::write_start_to, 66-79. *)
Definition phrase_start (p : match_phrase) : N :=
  match p with Exact id => id | Range s _ => s end.
Definition write_start (m : type_marker) (k : match_key) : bytes :=
  marker_byte m :: be_bytes 4 (phrase_start (mk_phrase k)).

(** [(&key[1..]).read_u32::<BigEndian>()?]: an error for fewer than four bytes,
    a panic for an empty key. *)
Definition read_key_phrase (db_key : bytes) : res N :=
  let* rest := slice_from db_key 1 in
  if (length rest <? 4)%nat then Err else Ok (be_value (take 4 rest)).

(** MatchKey::matches_key, 81-90. *)
Definition matches_key (k : match_key) (m : type_marker) (db_key : bytes) : res bool :=
  let* key_phrase := read_key_phrase db_key in
  let* b := index db_key 0 in
  if negb (b =? marker_byte m) then Ok false
  else Ok (match mk_phrase k with
           | Exact id => id =? key_phrase
           | Range s e => (s <=? key_phrase) && (key_phrase <? e)
           end).

(** The language part of a key: [key[5..]] copied right-aligned into 16 bytes
    (panics when longer than 16), 93-102; also store.rs 389-398. *)
Definition read_lang (partial : bytes) : res N :=
  if (16 <? length partial)%nat then Panic
  else Ok (be_value (replicate (16 - length partial) 0 ++ partial)).

(** MatchKey::matches_language, 92-105. *)
Definition matches_language (k : match_key) (db_key : bytes) : res bool :=
  let* partial := slice_from db_key 5 in
  match partial with
  | [] => Ok true
  | _ => let* l := read_lang partial in Ok (negb (N.land (mk_lang k) l =? 0))
  end.

(** [u16; 4] bounding boxes: min x, min y, max x, max y. *)
Record bbox := BBox { bb_x0 : N; bb_y0 : N; bb_x1 : N; bb_y1 : N }.

(** struct MatchOpts, 108-113. *)
Record match_opts := MatchOpts {
  mo_bbox : option bbox;
  mo_prox : option (N * N);
  mo_zoom : N }.

(** spatial.rs 601-629, adjust_bbox_zoom (here because adjust_to_zoom needs it). *)
Definition adjust_bbox_zoom (p : profile) (b : bbox) (source_z target_z : N) : res bbox :=
  if target_z <? source_z then
    let k := source_z - target_z in
    let* x0 := ushr p 16 (bb_x0 b) k in
    let* y0 := ushr p 16 (bb_y0 b) k in
    let* x1 := ushr p 16 (bb_x1 b) k in
    let* y1 := ushr p 16 (bb_y1 b) k in
    Ok (BBox x0 y0 x1 y1)
  else
    let* scale := ushl p 16 1 (target_z - source_z) in
    let* x0 := umul p 16 (bb_x0 b) scale in
    let* y0 := umul p 16 (bb_y0 b) scale in
    let* x1 := umul p 16 (bb_x1 b) scale in
    let* d := usub p 16 scale 1 in
    let* x1 := uadd p 16 x1 d in
    let* y1 := umul p 16 (bb_y1 b) scale in
    let* y1 := uadd p 16 y1 d in
    Ok (BBox x0 y0 x1 y1).

(** MatchOpts::adjust_to_zoom, 125-156. All arithmetic is on [u16]. *)
Definition adjust_point_zoom (p : profile) (pt : N * N) (source_z target_z : N) : res (N * N) :=
  if target_z <? source_z then
    let k := source_z - target_z in
    let* x := ushr p 16 pt.1 k in
    let* y := ushr p 16 pt.2 k in
    Ok (x, y)
  else
    let* scale := ushl p 16 1 (target_z - source_z) in
    let* mid := usub p 16 (scale / 2) 1 in
    let* x := umul p 16 pt.1 scale in
    let* x := uadd p 16 x mid in
    let* y := umul p 16 pt.2 scale in
    let* y := uadd p 16 y mid in
    Ok (x, y).
Definition res_option {A B} (f : A -> res B) (o : option A) : res (option B) :=
  match o with
  | None => Ok None
  | Some a => let* b := f a in Ok (Some b)
  end.
Definition adjust_to_zoom (p : profile) (o : match_opts) (target_z : N) : res match_opts :=
  if mo_zoom o =? target_z then Ok o
  else
    let* prox := res_option (fun pt => adjust_point_zoom p pt (mo_zoom o) target_z) (mo_prox o) in
    let* bb := res_option (fun b => adjust_bbox_zoom p b (mo_zoom o) target_z) (mo_bbox o) in
    Ok (MatchOpts bb prox target_z).

(** EARTH_CIRC_IN_MILES, NEARBY_RADIUS, 121-122. *)
Definition earth_circ : f64 := f_of_N 24901.
Definition nearby_radius : f64 := f_of_N 25.

(** 166-167; [1 << zoom] is an [i32] shift, exact for zoom <= 30. *)
Definition nearby_padding (zoom : N) : N :=
  f_ceil_u16 (fdiv nearby_radius (fdiv earth_circ (f_of_N (2 ^ zoom)))).

(** MatchOpts::with_nearby_only, 158-187. *)
Definition with_nearby_only (p : profile) (o : match_opts) : res match_opts :=
  match mo_prox o with
  | None => Ok o
  | Some (px, py) =>
      let padding := nearby_padding (mo_zoom o) in
      let x0 := if px <? padding then 0 else px - padding in
      let y0 := if py <? padding then 0 else py - padding in
      let* x1 := uadd p 16 px padding in
      let* y1 := uadd p 16 py padding in
      let nb :=
        match mo_bbox o with
        | Some old => BBox (N.max (bb_x0 old) x0) (N.max (bb_y0 old) y0)
                           (N.min (bb_x1 old) x1) (N.min (bb_y1 old) y1)
        | None => BBox x0 y0 x1 y1
        end in
      Ok (MatchOpts (Some nb) (mo_prox o) (mo_zoom o))
  end.

(** MAX_CONTEXTS, MAX_GRIDS_PER_PHRASE, 371 and 376. *)
Definition max_contexts : N := 40.
Definition max_grids_per_phrase : N := 100000.

(** struct GridEntry, 378-388. *)
Record grid_entry := GridEntry {
  ge_relev : f64; ge_score : N; ge_x : N; ge_y : N; ge_id : N; ge_hash : N }.

(** struct MatchEntry, 390-396. *)
Record match_entry := MatchEntry {
  me_entry : grid_entry; me_lang : bool; me_distance : f64; me_scoredist : f64 }.

(** struct CoalesceEntry, 398-408. *)
Record coalesce_entry := CoalesceEntry {
  ce_entry : grid_entry; ce_lang : bool; ce_idx : N; ce_tmp_id : N; ce_mask : N;
  ce_distance : f64; ce_scoredist : f64; ce_phrasematch_id : N }.

(** struct CoalesceContext, 410-415. *)
Record coalesce_context := CoalesceContext {
  cc_mask : N; cc_relev : f64; cc_entries : list coalesce_entry }.

(** CoalesceContext::sort_key and Ord, 419-435. [entries[0]] panics on an empty
    list; contexts are never built empty, so in the model an empty one just comes
    before all others. *)
Definition ctx_cmp (a b : coalesce_context) : comparison :=
  match cc_entries a, cc_entries b with
  | ea :: _, eb :: _ =>
      ord_cmp (cc_relev a) (cc_relev b) <;>
      ord_cmp (ce_scoredist ea) (ce_scoredist eb) <;>
      N.compare (ce_idx eb) (ce_idx ea) <;>
      N.compare (ge_x (ce_entry ea)) (ge_x (ce_entry eb)) <;>
      N.compare (ge_y (ce_entry ea)) (ge_y (ce_entry eb)) <;>
      N.compare (ge_id (ce_entry ea)) (ge_id (ce_entry eb))
  | [], [] => Eq
  | [], _ :: _ => Lt
  | _ :: _, [] => Gt
  end.

(** struct MatchKeyWithId, 448-456. *)
Record match_key_id := MatchKeyWithId {
  mki_key : match_key; mki_nearby : bool; mki_id : N; mki_length : N }.

(** ConstrainedPriorityQueue, 489-533. *)
Record cpq (A : Type) := Cpq { cpq_max : N; cpq_heap : heap A }.
Global Arguments Cpq {A}. Global Arguments cpq_max {A}. Global Arguments cpq_heap {A}.
Section cpq.
  Context {A : Type} (cmp : A -> A -> comparison) (tb : tiebreak).
  Definition cpq_new (max_size : N) : cpq A := Cpq max_size hp_empty.
  (** push, 499-512. *)
  Definition cpq_push (q : cpq A) (a : A) : cpq A * bool :=
    if cpq_max q <=? hp_len (cpq_heap q) then
      match hp_peek_min cmp tb (cpq_heap q) with
      | Some m =>
          match cmp a m with
          | Gt => (Cpq (cpq_max q) (hp_replace_min cmp tb (cpq_heap q) a), true)
          | _ => (q, false)
          end
      | None => (q, false)
      end
    else (Cpq (cpq_max q) (hp_push (cpq_heap q) a), true).
  Definition cpq_len (q : cpq A) : N := hp_len (cpq_heap q).
  Definition cpq_peek_min (q : cpq A) : option A := hp_peek_min cmp tb (cpq_heap q).
  Definition cpq_peek_max (q : cpq A) : option A := hp_peek_max cmp tb (cpq_heap q).
  Definition cpq_pop_max (q : cpq A) : option (A * cpq A) :=
    match hp_pop_max cmp tb (cpq_heap q) with
    | Some (a, h) => Some (a, Cpq (cpq_max q) h)
    | None => None
    end.
  Definition cpq_into_desc (q : cpq A) : list A := hp_into_desc cmp tb (cpq_heap q).
End cpq.

(** Literals. *)
Definition f_04 : f64 := f_lit 4 10.
Definition f_06 : f64 := f_lit 6 10.
Definition f_08 : f64 := f_lit 8 10.
Definition f_096 : f64 := f_lit 96 100.

(** relev_float_to_int, 545-555. *)
Definition relev_float_to_int (r : f64) : N :=
  if feqb r f_04 then 0
  else if feqb r f_06 then 1
  else if feqb r f_08 then 2
  else 3.

(** relev_int_to_float, 558-565. *)
Definition relev_int_to_float (n : N) : f64 :=
  if n =? 0 then f_04
  else if n =? 1 then f_06
  else if n =? 2 then f_08
  else f_one.

(** somewhat_eager_groupby, 573-629. The captured variables of the closure are
    the state; [gb_next] is one call of the closure passed to [from_fn]. The key
    function is called exactly once per item, in order. *)
Section groupby.
  Context {A K : Type} (key : A -> K) (eqb : K -> K -> bool).
  Record gb_state := GbState {
    gb_it : list A; gb_curr : option K; gb_run : list A; gb_done : bool }.

  (** The inner [loop], 590-627. *)
  Fixpoint gb_loop (it : list A) (curr : option K) (run : list A)
    : option (K * list A) * gb_state :=
    match it with
    | val :: it' =>
        let k := key val in
        match curr with
        | None => gb_loop it' (Some k) (run ++ [val])
        | Some o =>
            if negb (eqb o k) then
              (Some (o, run), GbState it' (Some k) [val] false)
            else gb_loop it' (Some o) (run ++ [val])
        end
    | [] =>
        match curr with
        | None => (None, GbState [] None run false)
        | Some o => (Some (o, run), GbState [] (Some o) [] true)
        end
    end.

  Definition gb_next (s : gb_state) : option (K * list A) * gb_state :=
    if gb_done s then (None, s) else gb_loop (gb_it s) (gb_curr s) (gb_run s).

  (** Draining the iterator: [next] until it returns [None]. *)
  Fixpoint gb_collect (fuel : nat) (s : gb_state) : list (K * list A) :=
    match fuel with
    | O => []
    | S f =>
        match gb_next s with
        | (Some g, s') => g :: gb_collect f s'
        | (None, _) => []
        end
    end.
  Definition eager_groupby (l : list A) : list (K * list A) :=
    gb_collect (S (length l)) (GbState l None [] false).
End groupby.
