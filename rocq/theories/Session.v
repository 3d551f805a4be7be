(** Model of the whole of /repo/native/src/gridstore.rs as JavaScript sees it: a program
    makes objects on directories and calls their methods, in any order. RocksDB: a
    directory that was never written cannot be opened for reading; a store that is open
    keeps the contents it was opened on. A finish() that does not succeed is taken to leave
    the directory as it was (see C28 for one that is interrupted). js_stackable, 574-584,
    returns nothing and is left out. *)
From Verif Require Import Prelude F64 Heap Common Builder Store Query Coalesce Stackable Tree Native.
Local Open Scope N_scope.

(** GridStoreOpts, 81-88. *)
Record store_opts := StoreOpts {
  so_zoom : N; so_type : N; so_radius : f64; so_bboxes : list bbox; so_max_score : f64 }.
(** The second argument of the constructor of JsGridStore, 300-318: left out, rejected by
    neon_serde, or given. *)
Inductive opts_arg := NoOpts | BadOpts | GivenOpts (o : store_opts).

(** The objects: JsGridStoreBuilder, 91-295, JsGridStore, 297-356, and
    JsGridKeyStoreKeyIterator, 358-421. *)
Inductive js_object :=
| ABuilder (dir : N) (b : option builder)
| AStore (s : store)
| AnIterator (rest : list (bytes * bytes)).

(** What a program does. Objects are named by the order in which they were made; directories
    by a number. The store of a phrasematch object is given beside it. *)
Inductive js_do :=
| NewBuilder (dir : option N)
| CallBuilder (obj : nat) (c : js_call)
| NewStore (dir : option N) (o : opts_arg)
| GetKey (obj : nat) (k : js_key)
| NewIterator (obj : nat)
| NextKey (obj : nat)
| Request (stacked : bool) (js : list (nat * js_phrasematch)) (o : option match_opts).
(** What it gets. *)
Inductive js_out :=
| OutDone (r : res unit)
| OutObject (r : res nat)
| OutEntries (r : res (option (list grid_entry)))
| OutNext (r : res js_next)
| OutContexts (r : res (list coalesce_context)).

Record js_world := World { w_dirs : gmap N db; w_objs : list js_object }.
Definition js_start : js_world := World ∅ [].

Definition js_make (w : js_world) (x : js_object) : js_out * js_world :=
  (OutObject (Ok (length (w_objs w))), World (w_dirs w) (w_objs w ++ [x])).
(** JsGridStore, 298-322. *)
Definition js_open (d : db) (o : opts_arg) : res store :=
  match o with
  | NoOpts => Ok (open_default d)
  | BadOpts => Err
  | GivenOpts o => Ok (open_store d (so_zoom o) (so_type o) (so_radius o) (so_bboxes o) (so_max_score o))
  end.
(** A phrasematch object whose property [store] is this object, 515-522. *)
Definition on_store (w : js_world) (x : nat * js_phrasematch) : res js_phrasematch :=
  match w_objs w !! x.1 with
  | Some (AStore s) =>
      let j := x.2 in
      Ok (JsPhrasematch s (jp_weight j) (jp_mask j) (jp_phrase j) (jp_lang j) (jp_id j) (jp_idx j)
                        (jp_nearby j) (jp_nonoverlap j) (jp_length j))
  | _ => Err
  end.

(** One step. A method called on an object of another class throws. *)
Definition js_does (p : profile) (ho : hash_oracle) (mtb : merge_tb) (tb : tiebreak)
    (w : js_world) (a : js_do) : js_out * js_world :=
  match a with
  | NewBuilder (Some f) => js_make w (ABuilder f (Some builder_new))
  | NewBuilder None => (OutObject Err, w)
  | CallBuilder i c =>
      match w_objs w !! i with
      | Some (ABuilder f b) =>
          let '(r, (b', d)) := js_step ho (b, default ∅ (w_dirs w !! f)) c in
          (OutDone r, World (match r, c with
                             | Ok _, JsFinish => <[f := d]> (w_dirs w)
                             | _, _ => w_dirs w
                             end) (<[i := ABuilder f b']> (w_objs w)))
      | _ => (OutDone Err, w)
      end
  | NewStore (Some f) o =>
      match w_dirs w !! f with
      | Some d => match js_open d o with
                  | Ok s => js_make w (AStore s)
                  | _ => (OutObject Err, w)
                  end
      | None => (OutObject Err, w)
      end
  | NewStore None _ => (OutObject Err, w)
  | GetKey i k =>
      (OutEntries (match w_objs w !! i with Some (AStore s) => js_get s k | _ => Err end), w)
  | NewIterator i =>
      match w_objs w !! i with
      | Some (AStore s) => js_make w (AnIterator (js_keys s))
      | _ => (OutObject Err, w)
      end
  | NextKey i =>
      match w_objs w !! i with
      | Some (AnIterator l) =>
          let '(r, l') := js_keys_next l in (OutNext r, World (w_dirs w) (<[i := AnIterator l']> (w_objs w)))
      | _ => (OutNext Err, w)
      end
  | Request stacked js o =>
      (OutContexts (let* js := res_mapM (on_store w) js in
                    if stacked then js_stack_and_coalesce p ho mtb tb js o
                    else js_coalesce p ho mtb tb js o), w)
  end.
(** A program; what it gets is kept. *)
Fixpoint js_session (p : profile) (ho : hash_oracle) (mtb : merge_tb) (tb : tiebreak)
    (w : js_world) (l : list js_do) : list js_out * js_world :=
  match l with
  | [] => ([], w)
  | a :: l' =>
      let '(r, w1) := js_does p ho mtb tb w a in
      let '(rs, w2) := js_session p ho mtb tb w1 l' in (r :: rs, w2)
  end.
