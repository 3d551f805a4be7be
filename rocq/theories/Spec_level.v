(** Specification vocabulary: in what order a query may give two matches, whatever its options. *)
From Verif Require Import Prelude F64 Common Builder Store Spatial.
Local Open Scope N_scope.

(** At most as relevant, or the same but that the first was penalised for its language and the second was not. *)
Definition may_follow (o : match_opts) (radius : f64) (a b : match_entry) : Prop :=
  let near m := match mo_prox o with None => false | Some _ => fleb (me_distance m) (proximity_radius (mo_zoom o) radius) end in
  ord_cmp (ge_relev (me_entry b)) (ge_relev (me_entry a)) <> Gt \/
  (ge_relev (me_entry a) = fmul (ge_relev (me_entry b)) (f_lit 96 100) /\
   me_lang a = false /\ near a = false /\ (me_lang b = true \/ near b = true)).
