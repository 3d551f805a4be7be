(** Specification vocabulary: a program in which every step meets its own hash orders, as
    every HashMap and HashSet of the code has its own random keys. *)
From Verif Require Import Prelude F64 Heap Common Builder Store Query Coalesce Native Spec_native Spec_js Session Spec_session Spec_program.
Local Open Scope N_scope.

Fixpoint steps (p : profile) (mtb : merge_tb) (tb : tiebreak) (w : js_world) (l : list (hash_oracle * js_do)) : list js_out * js_world :=
  match l with
  | [] => ([], w)
  | (ho, a) :: l' =>
      let '(r, w1) := js_does p ho mtb tb w a in
      let '(rs, w2) := steps p mtb tb w1 l' in (r :: rs, w2)
  end.
(** The objects of a request of coalesce() have masks, the zooms of their stores are less than
    16 apart, and objects with the same idx have the same zoom. *)
Definition layers_fit (l : list deed) (js : list (nat * js_phrasematch)) : Prop :=
  (forall x, x ∈ js -> jp_mask x.2 <> Some 0) /\
  forall x y f g so to, x ∈ js -> y ∈ js -> opened l x.1 f so -> opened l y.1 g to ->
    opt_zoom so - opt_zoom to < 16 /\ (jp_idx x.2 = jp_idx y.2 -> opt_zoom so = opt_zoom to).
(** The subqueries that a request stands for. *)
Definition asked_for (w : js_world) (js : list (nat * js_phrasematch)) (pms : list subquery) : Prop :=
  Forall2 (fun x pm => exists s, w_objs w !! x.1 = Some (AStore s) /\
    as_subquery (JsPhrasematch s (jp_weight x.2) (jp_mask x.2) (jp_phrase x.2) (jp_lang x.2) (jp_id x.2) (jp_idx x.2)
                               (jp_nearby x.2) (jp_nonoverlap x.2) (jp_length x.2)) pm) js pms.
