(** Property C73: overflow checks and debug assertions only turn answers into panics. *)
From Verif Require Import Prelude F64 Heap Common Builder Store Query Spatial Coalesce Stackable Tree Native
  Examples Props_coalesce Props_stack Props_tree Profile_proofs.
Local Open Scope N_scope.

(** ** C73 Debug and optimised builds *)
Theorem C73_options :
  forall o z,
  (adjust_to_zoom Debug o z = Panic \/ adjust_to_zoom Debug o z = adjust_to_zoom Release o z) /\
  (with_nearby_only Debug o = Panic \/ with_nearby_only Debug o = with_nearby_only Release o).
Proof. intros o z. split; [apply ps_adjust|apply ps_nearby]. Qed.
Print Assumptions C73_options.
Theorem C73_matching :
  forall mtb tb s k o n,
  streaming_get_matching Debug mtb tb s k o n = Panic \/
  streaming_get_matching Debug mtb tb s k o n = streaming_get_matching Release mtb tb s k o n.
Proof. exact ps_matching. Qed.
Print Assumptions C73_matching.
Theorem C73_coalesce :
  forall ho mtb tb stack o,
  coalesce Debug ho mtb tb stack o = Panic \/ coalesce Debug ho mtb tb stack o = coalesce Release ho mtb tb stack o.
Proof. exact ps_coalesce. Qed.
Print Assumptions C73_coalesce.
Theorem C73_tree :
  forall ho mtb tb fuel t o,
  tree_coalesce Debug ho mtb tb fuel t o = Panic \/
  tree_coalesce Debug ho mtb tb fuel t o = tree_coalesce Release ho mtb tb fuel t o.
Proof. exact ps_tree. Qed.
Print Assumptions C73_tree.
Theorem C73_request :
  forall ho mtb tb pms o,
  stack_and_coalesce Debug ho mtb tb pms o = Panic \/
  stack_and_coalesce Debug ho mtb tb pms o = stack_and_coalesce Release ho mtb tb pms o.
Proof. exact ps_request. Qed.
Print Assumptions C73_request.
(** The calls from JavaScript. *)
Theorem C73_js :
  forall ho mtb tb js o,
  (js_coalesce Debug ho mtb tb js o = Panic \/ js_coalesce Debug ho mtb tb js o = js_coalesce Release ho mtb tb js o) /\
  (js_stack_and_coalesce Debug ho mtb tb js o = Panic \/
   js_stack_and_coalesce Debug ho mtb tb js o = js_stack_and_coalesce Release ho mtb tb js o).
Proof.
  intros ho mtb tb js o. split.
  - unfold js_coalesce. do 2 (apply ps_bind; [apply ps_same|intros ?]). apply ps_coalesce.
  - unfold js_stack_and_coalesce. do 2 (apply ps_bind; [apply ps_same|intros ?]). apply ps_request.
Qed.
Print Assumptions C73_js.

(** Both happen: an answer, the same in both, and a panic where the optimised build
    answers, with a box that does not hold the point (C35). *)
Example C73_ex :
  length (ok_list (stack_and_coalesce Debug rev_oracle first_mtb last_tb [t_b; t_a] t_opts)) = 11%nat /\
  length (ok_list (coalesce Debug rev_oracle first_mtb last_tb [layer_a; layer_b] t_opts)) = 3%nat /\
  with_nearby_only Debug (MatchOpts None (Some (65500, 100)) 16) = Panic /\
  with_nearby_only Release (MatchOpts None (Some (65500, 100)) 16) =
    Ok (MatchOpts (Some (BBox 65434 34 30 166)) (Some (65500, 100)) 16).
Proof. repeat split; vm_compute; reflexivity. Qed.
