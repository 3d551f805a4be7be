(** Specification vocabulary: programs within range, from what they did and what came of it. *)
From Verif Require Import Prelude F64 Common Builder Spatial Store Spec Spec_match Query Coalesce Native Spec_native Spec_js Props_zoom Spec_total
  Spec_ground Spec_end Session Spec_session Spec_program.
Local Open Scope N_scope.

(** The process ended or hung. *)
Definition crashes {A} (r : res A) : Prop := r = Panic \/ r = Diverge.
Definition crashed (r : js_out) : Prop :=
  match r with
  | OutDone r => crashes r
  | OutObject r => crashes r
  | OutEntries r => crashes r
  | OutNext r => crashes r
  | OutContexts r => crashes r
  end.
(** It did what was asked. *)
Definition succeeds {A} (r : res A) : Prop := exists a, r = Ok a.
Definition succeeded (r : js_out) : Prop :=
  match r with
  | OutDone r => succeeds r
  | OutObject r => succeeds r
  | OutEntries r => succeeds r
  | OutNext r => succeeds r
  | OutContexts r => succeeds r
  end.

(** The calls before the first finish() of each builder are in range. *)
Definition fills_in_range (l : list deed) : Prop :=
  forall f cs ops, filled l f cs -> accepted cs ops -> history_ok ops.
(** What a build with overflow checks and debug assertions needs of a request. *)
Definition box_careful (o : match_opts) : Prop :=
  mo_zoom o <= 15 /\ (forall pt, mo_prox o = Some pt -> tile_at (mo_zoom o) pt) /\
  forall b, mo_bbox o = Some b -> box_at (mo_zoom o) b /\ bb_x0 b <= bb_x1 b /\ bb_y0 b <= bb_y1 b.
Definition stack_careful (l : list deed) (o : match_opts) (js : list (nat * js_phrasematch)) : Prop :=
  box_careful o /\
  (forall x y f g so to, x ∈ js -> y ∈ js -> opened l x.1 f so -> opened l y.1 g to -> opt_type so < opt_type to -> opt_zoom so <= opt_zoom to) /\
  (forall x a b, x ∈ js -> jp_phrase x.2 = Some (Range a b) -> a <= b) /\
  forall x pt b, x ∈ js -> jp_nearby x.2 = JsBoolean true -> mo_prox o = Some pt -> mo_bbox o = Some b -> in_box b pt.1 pt.2.
(** A request in range for a build. *)
Definition request_in_range (p : profile) (l : list deed) (stacked : bool) (js : list (nat * js_phrasematch)) (o : match_opts) : Prop :=
  (forall x, x ∈ js -> asks_in_range l x) /\
  if stacked then program_groups js /\ (p = Release /\ prox_u16 o \/ stack_careful l o js)
  else js <> [] /\ (forall x f so, js = [x] -> opened l x.1 f so -> mo_zoom o = opt_zoom so) /\ (p = Release /\ prox_u16 o \/ box_careful o).
(** A program in range for a build. *)
Record in_range (p : profile) (l : list deed) : Prop := {
  ir_apart : builders_apart l;
  ir_numbers : no_renumber l;
  ir_fills : fills_in_range l;
  ir_requests : forall st js o r, (Request st js (Some o), r) ∈ l -> request_in_range p l st js o }.

(** Something that makes sense after what was done: methods of objects that were made, with
    arguments of the right types; no calls on a builder after finish(); a store on a directory
    that was written. *)
Inductive sensible (before : list deed) : js_do -> Prop :=
| sen_builder f : sensible before (NewBuilder (Some f))
| sen_call f i c op :
    (NewBuilder (Some f), OutObject (Ok i)) ∈ before -> (forall r, (CallBuilder i JsFinish, r) ∉ before) ->
    Spec_native.stands_for c op -> sensible before (CallBuilder i c)
| sen_finish f i :
    (NewBuilder (Some f), OutObject (Ok i)) ∈ before -> (forall r, (CallBuilder i JsFinish, r) ∉ before) ->
    sensible before (CallBuilder i JsFinish)
| sen_store f i so :
    (NewBuilder (Some f), OutObject (Ok i)) ∈ before -> (CallBuilder i JsFinish, OutDone (Ok tt)) ∈ before -> so <> BadOpts ->
    sensible before (NewStore (Some f) so)
| sen_get h f so k key : opened before h f so -> as_key k key -> sensible before (GetKey h k)
| sen_iterator h f so : opened before h f so -> sensible before (NewIterator h)
| sen_next h i : (NewIterator h, OutObject (Ok i)) ∈ before -> sensible before (NextKey i)
| sen_request st js o :
    (forall x, x ∈ js -> readable x.2 /\ exists f so, opened before x.1 f so) -> sensible before (Request st js (Some o)).
