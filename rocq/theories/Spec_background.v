(** Specification vocabulary for requests that are answered in the background. *)
From Verif Require Import Prelude F64 Common Builder Store Coalesce Native Session Spec_session Background.
Local Open Scope N_scope.

(** What the callback of a request is first called with. *)
Fixpoint called (n : nat) (es : list bg_event) : option (res (list coalesce_context)) :=
  match es with
  | [] => None
  | EvCallback n' r :: es => if decide (n = n') then Some r else called n es
  | _ :: es => called n es
  end.
(** What the program did and what came of it, as if it had waited for each answer. Requests
    without an answer so far are left out, and so are those without a callback. *)
Fixpoint deeds_of (es : list bg_event) : list deed :=
  match es with
  | [] => []
  | EvDo a r :: es => (a, r) :: deeds_of es
  | EvAsk stacked js o cb r :: es =>
      match r with
      | Ok n => match called n es with
                | Some r => (Request stacked js o, OutContexts r) :: deeds_of es
                | None => deeds_of es
                end
      | _ => if cb then (Request stacked js o, OutContexts Err) :: deeds_of es else deeds_of es
      end
  | _ :: es => deeds_of es
  end.
(** Nothing is left to do. *)
Definition settled (s : bg_state) : Prop := bg_waiting s = [] /\ bg_ready s = [].
(** Only workers and callbacks. *)
Definition in_background (e : bg_event) : Prop :=
  match e with EvWork _ | EvCallback _ _ => True | _ => False end.
