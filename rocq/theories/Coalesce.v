(** Model of the flat part of /repo/rust-src/src/gridstore/coalesce.rs:
    coalesce, coalesce_single, coalesce_multi. *)
From Verif Require Import Prelude F64 Heap Common Builder Store Query.
From Verif Require Import Spatial.

(** 0.25 (43, 117, 284, 321) and 0.01 (278, 281, 440). *)
Definition f_025 : f64 := f_lit 25 100.
Definition f_001 : f64 := f_lit 1 100.

(** grid_to_coalesce_entry, 55-75. [idx as u32 << 25] loses the upper bits
    silently; the addition cannot overflow for 24-bit ids but is checked. *)
Definition grid_to_coalesce_entry (p : profile) (g : match_entry) (sq : subquery) (o : match_opts)
    (phrasematch_id : N) : res coalesce_entry :=
  let* _ := debug_assert p (mo_zoom o =? st_zoom (sq_store sq)) in
  let e := me_entry g in
  let* tmp := uadd p 32 (as_u32 (N.shiftl (sq_idx sq) 25)) (ge_id e) in
  Ok (CoalesceEntry
        (GridEntry (fmul (ge_relev e) (sq_weight sq)) (ge_score e) (ge_x e) (ge_y e)
                   (ge_id e) (ge_hash e))
        (me_lang g) (sq_idx sq) tmp (sq_mask sq) (me_distance g) (me_scoredist g)
        phrasematch_id).

(** State of the loop of coalesce_single, 88-95. *)
Record single_state := SingleState {
  ss_max_relev : f64;
  ss_prev_id : N;
  ss_prev_relev : f64;
  ss_prev_scoredist : f64;
  ss_min_scoredist : f64;
  ss_count : N;
  ss_coalesced : gmap N coalesce_entry }.
Definition single_init : single_state :=
  SingleState f_zero 0 f_zero f_zero f_max 0 ∅.
(** [2 * MAX_CONTEXTS], 81 and 871. *)
Definition bigger_max : N := 2 * max_contexts.

(** 129-141 / 914-926. *)
Definition coalesced_insert (m : gmap N coalesce_entry) (e : coalesce_entry) : gmap N coalesce_entry :=
  let id := ge_id (ce_entry e) in
  match m !! id with
  | Some old =>
      if fltb (ce_scoredist old) (ce_scoredist e) &&
         fleb (ge_relev (ce_entry old)) (ge_relev (ce_entry e))
      then <[id := e]> m else m
  | None => <[id := e]> m
  end.

(** What one iteration does: go on, or leave the loop. *)
Inductive loop_step (S : Type) := Continue (s : S) | Break (s : S).
Global Arguments Continue {S}. Global Arguments Break {S}.

(** The body of the loop, 100-154 (coalesce_single) and 885-939
    (tree_coalesce_single): the two texts are identical. *)
Definition single_body (has_prox : bool) (s : single_state) (e : coalesce_entry)
  : loop_step single_state :=
  let id := ge_id (ce_entry e) in
  let relev := ge_relev (ce_entry e) in
  let sd := ce_scoredist e in
  if (ss_prev_id s =? id) && fleb sd (ss_prev_scoredist s) then Continue s
  else if (bigger_max <? ss_count s) && fltb sd (ss_min_scoredist s) then Continue s
  else if (bigger_max <? ss_count s) && fltb relev (ss_prev_relev s) then Break s
  else if fleb f_025 (fsub (ss_max_relev s) relev) then Break s
  else
    let max_relev := if fltb (ss_max_relev s) relev then relev else ss_max_relev s in
    let m := coalesced_insert (ss_coalesced s) e in
    let count := if ss_prev_id s =? id then ss_count s else ss_count s + 1 in
    if negb has_prox && (bigger_max <? count) then
      Break (SingleState max_relev (ss_prev_id s) (ss_prev_relev s) (ss_prev_scoredist s)
                         (ss_min_scoredist s) count m)
    else
      Continue (SingleState max_relev id relev sd
                  (if fltb sd (ss_min_scoredist s) then sd else ss_min_scoredist s) count m).

(** The loop over the matches, 97-155 and 882-940. *)
Fixpoint single_loop (p : profile) (sq : subquery) (o : match_opts) (pid : N)
    (grids : list match_entry) (s : single_state) : res single_state :=
  match grids with
  | [] => Ok s
  | g :: grids' =>
      let* e := grid_to_coalesce_entry p g sq o pid in
      match single_body (match mo_prox o with Some _ => true | None => false end) s e with
      | Continue s' => single_loop p sq o pid grids' s'
      | Break s' => Ok s'
      end
  end.

(** 159-163 and 946. *)
Definition single_context (e : coalesce_entry) : coalesce_context :=
  CoalesceContext (ce_mask e) (ge_relev (ce_entry e)) [e].

(** Sort key of coalesce_single, 166-174 (reversed). *)
Definition single_cmp (a b : coalesce_context) : comparison :=
  match cc_entries a, cc_entries b with
  | ea :: _, eb :: _ =>
      ord_cmp (cc_relev a) (cc_relev b) <;>
      ord_cmp (ce_scoredist ea) (ce_scoredist eb) <;>
      N.compare (ge_x (ce_entry ea)) (ge_x (ce_entry eb)) <;>
      N.compare (ge_y (ce_entry ea)) (ge_y (ce_entry eb)) <;>
      N.compare (ge_id (ce_entry ea)) (ge_id (ce_entry eb))
  | [], [] => Eq
  | [], _ :: _ => Lt
  | _ :: _, [] => Gt
  end.
(** [sort_by_key] with a [Reverse]d key, 166-174 and 327-336: is [a] listed no later than [b]? *)
Definition desc_by {A} (cmp : A -> A -> comparison) (a b : A) : bool :=
  match cmp a b with Lt => false | _ => true end.

(** [subquery.match_keys[0]], 84, 215 and 966. *)
Definition first_key (sq : subquery) : res match_key_id :=
  match sq_keys sq with k :: _ => Ok k | [] => Panic end.

(** coalesce_single, 77-178. *)
Definition coalesce_single (p : profile) (ho : hash_oracle) (mtb : merge_tb) (tb : tiebreak)
    (sq : subquery) (o : match_opts) : res (list coalesce_context) :=
  let* k := first_key sq in
  let* grids := streaming_get_matching p mtb tb (sq_store sq) (mki_key k) o bigger_max in
  let* s := single_loop p sq o 0 grids single_init in
  let contexts := map (fun ie : N * coalesce_entry => single_context ie.2)
                      (hash_iter ho [3] (ss_coalesced s)) in
  Ok (take_N max_contexts (isort (desc_by single_cmp) contexts)).

(** 184: sort_by_key (zoom, idx). *)
Definition stack_leb (a b : subquery) : bool :=
  match N.compare (st_zoom (sq_store a)) (st_zoom (sq_store b)) <;>
        N.compare (sq_idx a) (sq_idx b) with
  | Gt => false | _ => true end.

(** 196-208. *)
Definition compatible_zooms (stack : list subquery) (sq : subquery) : list N :=
  dedup N.eqb
    (map (fun b => st_zoom (sq_store b))
         (List.filter (fun b => negb ((sq_idx sq =? sq_idx b) ||
                                 (st_zoom (sq_store sq) <? st_zoom (sq_store b)))) stack)).

(** The type of the keys and of the map, 186. *)
Notation zxy := (N * N * N)%type (only parsing).
Notation ctx_map := (gmap (N * N * N) (list coalesce_context)) (only parsing).

(** State of the loop over parent entries, 226-228 and 241-242. *)
Record stack_state := StackState {
  sk_entries : list coalesce_entry;
  sk_relev : f64;
  sk_mask : N;
  sk_prev_mask : N;
  sk_prev_relev : f64 }.

(** 247-266. [entries.pop()] removes the last entry. *)
Definition stack_parent (s : stack_state) (pe : coalesce_entry) : stack_state :=
  if (ce_mask pe =? sk_prev_mask s) && fltb (sk_prev_relev s) (ge_relev (ce_entry pe)) then
    StackState (removelast (sk_entries s) ++ [pe])
               (fadd (fsub (sk_relev s) (sk_prev_relev s)) (ge_relev (ce_entry pe)))
               (sk_mask s) (ce_mask pe) (ge_relev (ce_entry pe))
  else if N.land (sk_mask s) (ce_mask pe) =? 0 then
    StackState (sk_entries s ++ [pe])
               (fadd (sk_relev s) (ge_relev (ce_entry pe)))
               (N.lor (sk_mask s) (ce_mask pe)) (ce_mask pe) (ge_relev (ce_entry pe))
  else s.

(** 232-270: one compatible zoom. [entries[0]] is read again for each zoom. *)
Definition stack_zoom (p : profile) (coalesced : ctx_map) (zoom : N) (s : stack_state)
    (other_zoom : N) : res stack_state :=
  let* d := usub p 16 zoom other_zoom in
  let* scale := ushl p 16 1 d in
  let* e0 := index (sk_entries s) 0 in
  let key := (other_zoom, ge_x (ce_entry e0) / scale, ge_y (ce_entry e0) / scale) in
  match coalesced !! key with
  | None => Ok s
  | Some parents =>
      Ok (foldl stack_parent
            (StackState (sk_entries s) (sk_relev s) (sk_mask s) 0 f_zero)
            (mjoin (map cc_entries parents)))
  end.

(** 276-282: the penalty of the last level. *)
Definition last_penalty (entries : list coalesce_entry) (relev : f64) : f64 :=
  match entries with
  | [_] => fsub relev f_001
  | e0 :: e1 :: _ => if ce_mask e1 <? ce_mask e0 then fsub relev f_001 else relev
  | [] => relev
  end.

(** State of the outer loop: [coalesced], [contexts], [max_relevance] and, within
    one subquery, [to_add_to_coalesced]; 186-195. *)
Record multi_state := MultiState {
  ms_coalesced : ctx_map;
  ms_to_add : ctx_map;
  ms_contexts : list coalesce_context;
  ms_max_relev : f64 }.

(** 292-307. *)
Definition push_ctx (m : ctx_map) (k : zxy) (c : coalesce_context) : ctx_map :=
  <[k := default [] (m !! k) ++ [c]]> m.

(** 221-308: one grid. *)
Definition multi_grid (p : profile) (is_first is_last : bool) (zooms : list N) (sq : subquery)
    (o : match_opts) (s : multi_state) (g : match_entry) : res multi_state :=
  let zoom := st_zoom (sq_store sq) in
  let* e := grid_to_coalesce_entry p g sq o 0 in
  let* k := res_foldl (stack_zoom p (ms_coalesced s) zoom)
                      (StackState [e] (ge_relev (ce_entry e)) (ce_mask e) 0 f_zero) zooms in
  let relev := sk_relev k in
  let max_relev := if fltb (ms_max_relev s) relev then relev else ms_max_relev s in
  if is_last then
    let relev := last_penalty (sk_entries k) relev in
    Ok (MultiState (ms_coalesced s) (ms_to_add s)
          (if fltb (fsub max_relev relev) f_025
           then ms_contexts s ++ [CoalesceContext (sk_mask k) relev (sk_entries k)]
           else ms_contexts s)
          max_relev)
  else if is_first || negb (length (sk_entries k) =? 1)%nat then
    Ok (MultiState (ms_coalesced s)
          (push_ctx (ms_to_add s) (zoom, ge_x (me_entry g), ge_y (me_entry g))
                    (CoalesceContext (sk_mask k) relev (sk_entries k)))
          (ms_contexts s) max_relev)
  else Ok (MultiState (ms_coalesced s) (ms_to_add s) (ms_contexts s) max_relev).

(** 310-316. *)
Definition merge_to_add (ho : hash_oracle) (i : N) (coalesced to_add : ctx_map) : ctx_map :=
  foldl (fun m (kv : zxy * list coalesce_context) =>
           <[kv.1 := default [] (m !! kv.1) ++ kv.2]> m)
        coalesced (hash_iter ho [4; i] to_add).

(** 193-317: one subquery. *)
Definition multi_subquery (p : profile) (ho : hash_oracle) (mtb : merge_tb) (tb : tiebreak)
    (stack : list subquery) (o : match_opts)
    (st : multi_state * match_opts) (isq : nat * subquery) : res (multi_state * match_opts) :=
  let '(s, zo) := st in
  let '(i, sq) := isq in
  let zooms := compatible_zooms stack sq in
  let* zo := (if negb (mo_zoom zo =? st_zoom (sq_store sq))
              then adjust_to_zoom p o (st_zoom (sq_store sq)) else Ok zo) in
  let* k := first_key sq in
  let* grids := streaming_get_matching p mtb tb (sq_store sq) (mki_key k) zo max_grids_per_phrase in
  let* s := res_foldl (multi_grid p (i =? 0)%nat (i =? length stack - 1)%nat zooms sq zo)
                      (MultiState (ms_coalesced s) ∅ (ms_contexts s) (ms_max_relev s))
                      (take_N max_grids_per_phrase grids) in
  Ok (MultiState (merge_to_add ho (N.of_nat i) (ms_coalesced s) (ms_to_add s)) ∅
                 (ms_contexts s) (ms_max_relev s), zo).

(** coalesce_multi, 180-339. The sort key at 327-336 is the reverse of
    CoalesceContext's order. *)
Definition coalesce_multi (p : profile) (ho : hash_oracle) (mtb : merge_tb) (tb : tiebreak)
    (stack : list subquery) (o : match_opts) : res (list coalesce_context) :=
  let stack := isort stack_leb stack in
  let* (s, _) := res_foldl (multi_subquery p ho mtb tb stack o)
                   (MultiState ∅ ∅ [] f_zero, o)
                   (combine (seq 0 (length stack)) stack) in
  let rest := mjoin (map snd (hash_iter ho [5] (ms_coalesced s))) in
  let keep := List.filter (fun c => fltb (fsub (ms_max_relev s) (cc_relev c)) f_025) rest in
  Ok (isort (desc_by ctx_cmp) (ms_contexts s ++ keep)).

(** The filter of coalesce, 34-51. *)
Fixpoint coalesce_filter (max_relev : f64) (seen : list N) (out : N)
    (contexts : list coalesce_context) : list coalesce_context :=
  match contexts with
  | [] => []
  | c :: cs =>
      if max_contexts <=? out then []
      else if fleb f_025 (fsub max_relev (cc_relev c)) then []
      else
        match cc_entries c with
        | [] => []
        | e :: _ =>
            if existsb (N.eqb (ce_tmp_id e)) seen then coalesce_filter max_relev seen out cs
            else c :: coalesce_filter max_relev (ce_tmp_id e :: seen) (out + 1) cs
        end
  end.

(** coalesce, 24-53. *)
Definition coalesce (p : profile) (ho : hash_oracle) (mtb : merge_tb) (tb : tiebreak)
    (stack : list subquery) (o : match_opts) : res (list coalesce_context) :=
  let* contexts :=
    match stack with
    | [] => Panic
    | [sq] => coalesce_single p ho mtb tb sq o
    | _ => coalesce_multi p ho mtb tb stack o
    end in
  match contexts with
  | [] => Ok []
  | c :: _ => Ok (coalesce_filter (cc_relev c) [] 0 contexts)
  end.
