(** Specification vocabulary for programs that use several objects. *)
From Verif Require Import Prelude F64 Common Builder Store Native Session.
Local Open Scope N_scope.

(** What was done, and what came of it. *)
Definition deed : Type := js_do * js_out.
(** The calls made on a builder, with their outcomes. *)
Definition call_on (i : nat) (x : deed) : option (js_call * res unit) :=
  match x with
  | (CallBuilder i' c, OutDone r) => if decide (i = i') then Some (c, r) else None
  | _ => None
  end.
Definition calls_on (i : nat) (l : list deed) : list (js_call * res unit) := omap (call_on i) l.
(** What an iterator handed out. *)
Definition next_on (i : nat) (x : deed) : option (res js_next) :=
  match x with
  | (NextKey i', OutNext r) => if decide (i = i') then Some r else None
  | _ => None
  end.
Definition nexts_on (i : nat) (l : list deed) : list (res js_next) := omap (next_on i) l.
(** The only builder on the directory. *)
Definition only_builder (w : js_world) (f : N) (i : nat) : Prop :=
  forall i' b, w_objs w !! i' = Some (ABuilder f b) -> i' = i.
(** Something is asked of an object that is not of the class that can do it. *)
Definition is_store (w : js_world) (i : nat) : Prop := exists s, w_objs w !! i = Some (AStore s).
Definition wrong_object (w : js_world) (a : js_do) : Prop :=
  match a with
  | CallBuilder i _ => ~ exists f b, w_objs w !! i = Some (ABuilder f b)
  | GetKey i _ | NewIterator i => ~ is_store w i
  | NextKey i => ~ exists rest, w_objs w !! i = Some (AnIterator rest)
  | Request _ js _ => exists x, x ∈ js /\ ~ is_store w x.1
  | NewBuilder _ | NewStore _ _ => False
  end.
Definition js_threw (r : js_out) : Prop :=
  r = OutDone Err \/ r = OutObject Err \/ r = OutEntries Err \/ r = OutNext Err \/ r = OutContexts Err.
(** A store has these settings; without options they are those of GridStore::new. *)
Definition has_settings (s : store) (so : opts_arg) : Prop :=
  match so with
  | BadOpts => False
  | NoOpts => st_zoom s = 6 /\ st_type_id s = 0 /\ st_radius s = f_zero /\ st_bboxes s = [BBox 0 0 63 63] /\ st_max_score s = f_zero
  | GivenOpts o => st_zoom s = so_zoom o /\ st_type_id s = so_type o /\ st_radius s = so_radius o /\ st_bboxes s = so_bboxes o /\
                   st_max_score s = so_max_score o
  end.
