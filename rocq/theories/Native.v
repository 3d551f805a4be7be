(** Model of /repo/native/src/gridstore.rs, the Node bindings. What neon_serde makes
    of a JavaScript value is not modelled: an argument that goes through
    [neon_serde::from_value] is an [option], [None] standing for a value that it
    rejects. Everything the bindings convert by hand is modelled on [jsval]. *)
From Verif Require Import Prelude F64 Heap Common Builder Store Query Coalesce Stackable Tree.
Local Open Scope N_scope.

(** JavaScript values, as far as the bindings tell them apart. *)
Inductive jsval :=
| JsNumber (v : f64)
| JsBoolean (v : bool)
| JsNull
| JsUndefined
| JsArray (vs : list jsval)
| JsOther.

(** [f64 as u8/u32/usize] (saturating, NaN to 0), 167, 178-180, 331, 435 and 594. *)
Definition cast_uint (max : N) (v : f64) : N :=
  match v with
  | S754_finite false m e =>
      N.min max (match e with
                 | Zneg k => N.shiftr (Npos m) (Npos k)
                 | _ => N.shiftl (Npos m) (Z.to_N e)
                 end)
  | S754_infinity false => max
  | _ => 0
  end.
Definition usize_max : N := 18446744073709551615.

(** [downcast::<JsNumber>().or_throw()?.value()]. *)
Definition as_number (v : jsval) : res f64 := match v with JsNumber x => Ok x | _ => Err end.

(** The loop of langarray_to_langset, 432-441. *)
Definition add_lang (out : N) (v : jsval) : res N :=
  let* x := as_number v in
  let l := cast_uint usize_max x in
  if 128 <=? l then Ok out else Ok (N.lor out (N.shiftl 1 l)).
(** langarray_to_langset, 424-450. *)
Definition langarray_to_langset (v : jsval) : res N :=
  match v with
  | JsArray vs => res_foldl add_lang 0 vs
  | JsNull | JsUndefined => Ok u128_max
  | _ => Err
  end.

(** langset_to_langarray, 452-464. *)
Definition langset_to_langarray (s : N) : jsval :=
  JsArray (map (fun j => JsNumber (f_of_N (N.of_nat j)))
               (List.filter (fun j => negb (N.land s (N.shiftl 1 (N.of_nat j)) =? 0)) (seq 0 128))).

(** A key object with its two properties, and its conversion: 162-175, 325-339,
    593-599. *)
Record js_key := JsKey { jk_phrase : jsval; jk_lang : jsval }.
Definition to_key (k : js_key) : res grid_key :=
  let* ph := as_number (jk_phrase k) in
  let* l := langarray_to_langset (jk_lang k) in
  Ok (cast_uint u32_max ph, l).

(** The methods of JsGridStoreBuilder, 92-295, with their arguments. The ArrayBuffers
    are given as the [u32] slices they are read as. *)
Inductive js_call :=
| JsInsert (k : js_key) (values : option (list grid_entry))
| JsAppend (k : js_key) (values : option (list grid_entry))
| JsCompact (k : js_key) (relev score id hash : jsval) (coords : option (list (N * N)))
| JsRenumber (ids : option (list N))
| JsBounds (bounds : option (list N))
| JsFinish.

(** [None]: the value is rejected, the method throws. *)
Definition given {A} (o : option A) : res A := match o with Some a => Ok a | None => Err end.

(** The effect of a method other than finish on the builder it holds; the outcome and
    the state in which the builder is left. *)
Definition js_edit (b : builder) (c : js_call) : res unit * builder :=
  match c with
  | JsInsert k vs =>
      match (let* vs := given vs in let* k := to_key k in Ok (insert b k vs)) with
      | Ok b' => (Ok tt, b') | _ => (Err, b)
      end
  | JsAppend k vs =>
      match (let* vs := given vs in let* k := to_key k in Ok (append b k vs)) with
      | Ok b' => (Ok tt, b') | _ => (Err, b)
      end
  | JsCompact k relev score id hash coords =>
      match (let* k := to_key k in
             let* relev := as_number relev in
             let* score := as_number score in
             let* id := as_number id in
             let* hash := as_number hash in
             let* coords := given coords in
             Ok (compact_append b k relev (cast_uint u8_max score) (cast_uint u32_max id)
                                (cast_uint u8_max hash) coords)) with
      | Ok b' => (Ok tt, b') | _ => (Err, b)
      end
  | JsRenumber ids =>
      match ids with Some ids => renumber b ids | None => (Err, b) end
  | JsBounds bs =>
      match bs with Some bs => (Ok tt, load_bin_boundaries b bs) | None => (Err, b) end
  | JsFinish => (Err, b)
  end.

(** A builder object and the database at its path; one call, 92-295. finish() takes
    the builder out of the object whether or not it succeeds. *)
Definition js_state : Type := option builder * gmap (list N) (list N).
Definition js_step (o : hash_oracle) (s : js_state) (c : js_call) : res unit * js_state :=
  match s.1 with
  | None => (Err, s)
  | Some b =>
      match c with
      | JsFinish =>
          match finish o b s.2 with
          | Ok d => (Ok tt, (None, d))
          | Err => (Err, (None, s.2))
          | Panic => (Panic, (None, s.2))
          | Diverge => (Diverge, (None, s.2))
          end
      | _ => let '(r, b') := js_edit b c in (r, (Some b', s.2))
      end
  end.
(** A sequence of calls; the outcomes are kept. *)
Fixpoint js_run (o : hash_oracle) (s : js_state) (cs : list js_call) : list (res unit) * js_state :=
  match cs with
  | [] => ([], s)
  | c :: cs' =>
      let '(r, s1) := js_step o s c in
      let '(rs, s2) := js_run o s1 cs' in (r :: rs, s2)
  end.

(** JsGridStore.get, 324-355. *)
Definition js_get (s : store) (k : js_key) : res (option (list grid_entry)) :=
  let* k := to_key k in get s k.

(** JsGridKeyStoreKeyIterator, 358-421: the records still to come. The iterator
    behind it stays exhausted once it is ([take_while] and RocksDB's iterator both
    do). What [next] returns: *)
Inductive js_next := JsValue (phrase : f64) (langs : jsval) | JsDone.
Definition js_keys (s : store) : list (bytes * bytes) := single_records (st_db s).
Definition js_keys_next (it : list (bytes * bytes)) : res js_next * list (bytes * bytes) :=
  match it with
  | [] => (Ok JsDone, [])
  | r :: it' =>
      (let* k := read_key r.1 in Ok (JsValue (f_of_N (gk_phrase k)) (langset_to_langarray (gk_lang k))), it')
  end.
(** [n] calls of next(). *)
Fixpoint js_keys_take (n : nat) (it : list (bytes * bytes)) : list (res js_next) :=
  match n with
  | O => []
  | S n' => let '(r, it') := js_keys_next it in r :: js_keys_take n' it'
  end.

(** A phrasematch object, and deserialize_phrasesubq, 506-572. *)
Record js_phrasematch := JsPhrasematch {
  jp_store : store;
  jp_weight : option f64;
  jp_mask : option N;
  jp_phrase : option match_phrase;
  jp_lang : jsval;
  jp_id : option N;
  jp_idx : option N;
  jp_nearby : jsval;
  jp_nonoverlap : option (list N);
  jp_length : N }.
Definition to_subquery (j : js_phrasematch) : res subquery :=
  let* lang := langarray_to_langset (jp_lang j) in
  let* nearby := (match jp_nearby j with JsUndefined => Ok false | JsBoolean b => Ok b | _ => Err end) in
  let* non := given (jp_nonoverlap j) in
  let* weight := given (jp_weight j) in
  let* phrase := given (jp_phrase j) in
  let* id := given (jp_id j) in
  let* mask := given (jp_mask j) in
  let* idx := given (jp_idx j) in
  Ok (Subquery (jp_store j) idx (foldl N.setbit 0 non) weight mask
               [MatchKeyWithId (MatchKey phrase lang) nearby id (jp_length j)]).
Definition deserialize_phrasesubq (js : list js_phrasematch) : res (list subquery) :=
  res_mapM to_subquery js.

(** js_stack_and_coalesce, 486-504, and StackAndCoalesceTask, 49-78: what the
    callback gets. js_coalesce, 466-484, likewise. *)
Definition js_stack_and_coalesce (p : profile) (ho_ : hash_oracle) (mtb : merge_tb) (tb : tiebreak)
    (js : list js_phrasematch) (o : option match_opts) : res (list coalesce_context) :=
  let* pms := deserialize_phrasesubq js in
  let* o := given o in
  stack_and_coalesce p ho_ mtb tb pms o.
Definition js_coalesce (p : profile) (ho_ : hash_oracle) (mtb : merge_tb) (tb : tiebreak)
    (js : list js_phrasematch) (o : option match_opts) : res (list coalesce_context) :=
  let* pms := deserialize_phrasesubq js in
  let* o := given o in
  coalesce p ho_ mtb tb pms o.
