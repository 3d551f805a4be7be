(** Model of the background tasks of /repo/native/src/gridstore.rs, 17-77 and 466-504: a
    request is converted when it is made and put into a queue; worker threads take tasks
    from the queue and finish them in any order; the main thread calls back with the results
    of finished tasks whenever it is not busy. Stores are shared and not written to. A task
    that panics ends the process: nothing comes after. The callback itself is part of the
    program. *)
From Verif Require Import Prelude F64 Heap Common Builder Store Query Coalesce Stackable Tree Native Session.
Local Open Scope N_scope.

(** CoalesceTask, 17-19, and StackAndCoalesceTask, 49-51. *)
Record bg_task := BgTask { tk_stacked : bool; tk_subqueries : list subquery; tk_opts : match_opts }.
(** perform, 26-28 and 58-60. *)
Definition perform (p : profile) (ho : hash_oracle) (mtb : merge_tb) (tb : tiebreak) (t : bg_task) : res (list coalesce_context) :=
  if tk_stacked t then stack_and_coalesce p ho mtb tb (tk_subqueries t) (tk_opts t)
  else coalesce p ho mtb tb (tk_subqueries t) (tk_opts t).
(** js_coalesce, 466-484, and js_stack_and_coalesce, 486-504, up to the scheduling; [cb]:
    the third argument is a function. *)
Definition prepare (w : js_world) (stacked : bool) (js : list (nat * js_phrasematch)) (o : option match_opts) (cb : bool) : res bg_task :=
  let* js := res_mapM (on_store w) js in
  let* pms := deserialize_phrasesubq js in
  let* o := given o in
  if cb then Ok (BgTask stacked pms o) else Err.

(** The world, the number of tasks so far, the tasks in the queue or at work, and the results
    not yet handed over. *)
Record bg_state := BgState {
  bg_world : js_world;
  bg_count : nat;
  bg_waiting : list (nat * bg_task);
  bg_ready : list (nat * res (list coalesce_context)) }.
Definition bg_start : bg_state := BgState js_start 0 [] [].

(** What happens: the program does something else than a request; it makes a request, which
    throws or is scheduled; a worker finishes a task; the main thread calls back. *)
Inductive bg_event :=
| EvDo (a : js_do) (r : js_out)
| EvAsk (stacked : bool) (js : list (nat * js_phrasematch)) (o : option match_opts) (cb : bool) (r : res nat)
| EvWork (n : nat)
| EvCallback (n : nat) (r : res (list coalesce_context)).

Definition is_request (a : js_do) : bool := match a with Request _ _ _ => true | _ => false end.
Inductive bg_step (p : profile) (ho : hash_oracle) (mtb : merge_tb) (tb : tiebreak) : bg_state -> bg_event -> bg_state -> Prop :=
| st_do s a r w : is_request a = false -> js_does p ho mtb tb (bg_world s) a = (r, w) ->
    bg_step p ho mtb tb s (EvDo a r) (BgState w (bg_count s) (bg_waiting s) (bg_ready s))
| st_throw s stacked js o cb : prepare (bg_world s) stacked js o cb = Err ->
    bg_step p ho mtb tb s (EvAsk stacked js o cb Err) s
| st_ask s stacked js o cb t : prepare (bg_world s) stacked js o cb = Ok t ->
    bg_step p ho mtb tb s (EvAsk stacked js o cb (Ok (bg_count s)))
      (BgState (bg_world s) (S (bg_count s)) (bg_waiting s ++ [(bg_count s, t)]) (bg_ready s))
| st_work s n t r before after : bg_waiting s = before ++ (n, t) :: after ->
    perform p ho mtb tb t = r -> r <> Panic -> r <> Diverge ->
    bg_step p ho mtb tb s (EvWork n) (BgState (bg_world s) (bg_count s) (before ++ after) (bg_ready s ++ [(n, r)]))
| st_callback s n r before after : bg_ready s = before ++ (n, r) :: after ->
    bg_step p ho mtb tb s (EvCallback n r) (BgState (bg_world s) (bg_count s) (bg_waiting s) (before ++ after)).
Inductive bg_run (p : profile) (ho : hash_oracle) (mtb : merge_tb) (tb : tiebreak) : bg_state -> list bg_event -> bg_state -> Prop :=
| run_none s : bg_run p ho mtb tb s [] s
| run_more s e s1 es s2 : bg_step p ho mtb tb s e s1 -> bg_run p ho mtb tb s1 es s2 -> bg_run p ho mtb tb s (e :: es) s2.
