(** Properties C68, C69 and C70: flat coalesce loses no match without a reason, leaves no room
    in a stack, and drops what is far below a stack of an earlier layer. *)
From Verif Require Import Prelude Lists F64 Heap Common Builder Spatial Store Query Coalesce
  Spec_coalesce Spec_flat Multi_proofs Owed_proofs Max_proofs Window_proofs Props_zoom Props_coalesce Examples.
From Coq Require Import Sorting.Sorted.
Local Open Scope N_scope.

(** ** C68 No match is lost without a reason *)
(** A match that is owed a result leads a stack that is returned, or its feature (the
    same layer and id) leads a result listed no later, or 40 results are listed no later, or
    its stack or one listed no later is a quarter or more below some stack. *)
Theorem C68_owed :
  forall p ho mtb tb stack layers o cs i sq g,
  layers ≡ₚ stack -> StronglySorted zoom_ordered layers -> (2 <= length layers)%nat ->
  (forall a, a ∈ layers -> sq_mask a <> 0) ->
  (forall a b, a ∈ layers -> b ∈ layers -> st_zoom (sq_store a) - st_zoom (sq_store b) < 16) ->
  (forall a b, a ∈ layers -> b ∈ layers -> sq_idx a = sq_idx b -> a = b) ->
  coalesce p ho mtb tb stack o = Ok cs ->
  layers !! i = Some sq -> owed p mtb tb o layers i g ->
  exists c e es, cc_entries c = e :: es /\ to_entry sq 0 g e /\ stacked p mtb tb layers o c /\
    (c ∈ cs \/
     (exists d, d ∈ cs /\ first_tmp d = first_tmp c /\ listed_before d c) \/
     ((length cs = 40)%nat /\ forall d, d ∈ cs -> listed_before d c) \/
     too_weak p mtb tb o layers c).
Proof. exact coalesce_owed. Qed.
Print Assumptions C68_owed.

Definition o_a : subquery := layer (layer_ops 1 [GridEntry f_one 1 0 0 8 0]) 5 0 1 (f_lit 1 2).
Definition o_b : subquery := layer (layer_ops 1 [GridEntry f_one 1 1 1 1 0; GridEntry f_one 2 60 60 2 0]) 6 1 2 (f_lit 1 2).
Definition o_c : subquery := layer (layer_ops 1 [GridEntry f_one 1 7 7 3 0]) 7 2 4 (f_lit 1 2).
Definition o_o : match_opts := MatchOpts None None 5.
Definition o_g : match_entry := MatchEntry (GridEntry f_one 1 1 1 1 0) true f_zero f_one.
Definition o_h : match_entry := MatchEntry (GridEntry f_one 1 0 0 8 0) true f_zero f_one.
(** Three layers; the match of the middle one lies in the tile of the match of the first one. *)
Example C68_ex :
  [o_a; o_b; o_c] ≡ₚ [o_c; o_b; o_a] /\ StronglySorted zoom_ordered [o_a; o_b; o_c] /\
  (forall a, a ∈ [o_a; o_b; o_c] -> sq_mask a <> 0) /\
  (forall a b, a ∈ [o_a; o_b; o_c] -> b ∈ [o_a; o_b; o_c] -> st_zoom (sq_store a) - st_zoom (sq_store b) < 16) /\
  (forall a b, a ∈ [o_a; o_b; o_c] -> b ∈ [o_a; o_b; o_c] -> sq_idx a = sq_idx b -> a = b) /\
  owed Debug first_mtb first_tb o_o [o_a; o_b; o_c] 1 o_g /\
  summary (coalesce Debug id_oracle first_mtb first_tb [o_c; o_b; o_a] o_o) = Some [(3, [(1, 1); (0, 8)])].
Proof.
  split; [symmetry; apply (Permutation_rev [o_c; o_b; o_a])|]. split; [|split; [|split; [|split; [|split; [|vm_compute; reflexivity]]]]].
  - repeat constructor.
  - intros a Ha. rewrite !elem_of_cons, elem_of_nil in Ha. destruct Ha as [->|[->|[->|[]]]]; done.
  - intros a b Ha Hb. rewrite !elem_of_cons, elem_of_nil in Ha, Hb. destruct Ha as [->|[->|[->|[]]]], Hb as [->|[->|[->|[]]]]; done.
  - intros a b Ha Hb. rewrite !elem_of_cons, elem_of_nil in Ha, Hb. destruct Ha as [->|[->|[->|[]]]], Hb as [->|[->|[->|[]]]]; done.
  - left. apply (anchored_on _ _ _ _ _ 1 o_b o_g 0 o_a o_h); [lia|done|done| | |done|done|vm_compute; reflexivity].
    + eexists _, [], _, _. split; [reflexivity|]. split; [vm_compute; reflexivity|]. split; [vm_compute; reflexivity|].
      vm_compute. right. left.
    + apply (anchored_first _ _ _ _ _ o_a); [done|]. eexists _, [], _, _. split; [reflexivity|]. split; [vm_compute; reflexivity|].
      split; [vm_compute; reflexivity|]. vm_compute. left.
Qed.

(** "Every match of every layer that is not too weak leads some result" does not hold:
    between the first and the last layer a match with nothing below it is dropped, however
    good it is. Here all three matches stand alone with the same relevance; the match of the
    middle layer is missing, and is returned when its layer is the last one. *)
Definition o_m : subquery := layer (layer_ops 1 [GridEntry f_one 2 60 60 2 0]) 6 1 2 (f_lit 1 2).
Theorem C68_middle_refuted :
  (exists g, looked_at Debug first_mtb first_tb o_o o_m g) /\
  summary (coalesce Debug id_oracle first_mtb first_tb [o_c; o_m; o_a] o_o) = Some [(1, [(0, 8)]); (4, [(2, 3)])] /\
  summary (coalesce Debug id_oracle first_mtb first_tb [o_m; o_a] o_o) = Some [(1, [(0, 8)]); (2, [(1, 2)])].
Proof.
  split; [|split; vm_compute; reflexivity]. eexists. eexists _, [], _, _. split; [reflexivity|]. split; [vm_compute; reflexivity|].
  split; [vm_compute; reflexivity|]. vm_compute. left.
Qed.
Print Assumptions C68_middle_refuted.

(** ** C69 No returned stack has room for another match *)
(** A returned context is led by a match of some layer; every match of an earlier layer
    that could be stood upon and whose tile contains the leading match uses words of the
    query that the context already uses. *)
Theorem C69_maximal :
  forall p ho mtb tb stack layers o cs c,
  layers ≡ₚ stack -> StronglySorted zoom_ordered layers -> (2 <= length layers)%nat ->
  (forall a, a ∈ layers -> sq_mask a <> 0) ->
  (forall a b, a ∈ layers -> b ∈ layers -> st_zoom (sq_store a) - st_zoom (sq_store b) < 16) ->
  (forall a b, a ∈ layers -> b ∈ layers -> sq_idx a = sq_idx b -> a = b) ->
  coalesce p ho mtb tb stack o = Ok cs -> c ∈ cs -> maximal p mtb tb o layers c.
Proof. exact coalesce_maximal. Qed.
Print Assumptions C69_maximal.
(** In the stack of C68_ex the leading match of layer 1 lies in the tile of the match of layer
    0, and the context uses the words of layer 0. *)
Example C69_ex :
  (exists cs c, coalesce Debug id_oracle first_mtb first_tb [o_c; o_b; o_a] o_o = Ok cs /\ c ∈ cs /\ N.land (cc_mask c) (sq_mask o_a) <> 0) /\
  anchored Debug first_mtb first_tb o_o [o_a; o_b; o_c] 0 o_h /\
  ancestor (st_zoom (sq_store o_b) - st_zoom (sq_store o_a)) (g_cell o_g) = g_cell o_h.
Proof.
  split; [|split; [|vm_compute; reflexivity]].
  - eexists _, _. split; [vm_compute; reflexivity|]. split; [left|]. vm_compute. discriminate.
  - apply (anchored_first _ _ _ _ _ o_a); [done|]. eexists _, [], _, _. split; [reflexivity|]. split; [vm_compute; reflexivity|].
    split; [vm_compute; reflexivity|]. vm_compute. left.
Qed.
(** "No room for any match": a match of a middle layer with nothing below it cannot be
    stood upon, even where it is the best that is left. *)
Definition o_r : subquery := layer (layer_ops 1 [GridEntry f_one 1 120 120 3 0]) 7 2 4 (f_lit 1 2).
Theorem C69_unanchored_refuted :
  summary (coalesce Debug id_oracle first_mtb first_tb [o_r; o_m; o_a] o_o) = Some [(1, [(0, 8)]); (4, [(2, 3)])] /\
  summary (coalesce Debug id_oracle first_mtb first_tb [o_r; o_m] (MatchOpts None None 6)) = Some [(6, [(2, 3); (1, 2)])].
Proof. split; vm_compute; reflexivity. Qed.
Print Assumptions C69_unanchored_refuted.

(** ** C70 The window below the stacks of earlier layers *)
(** Every match of a layer before the last one that is owed a result leads a stack with no
    room left such that everything returned is less than a quarter below it: below a
    relevance that the stack does not exceed. *)
Theorem C70_window :
  forall p ho mtb tb stack layers o cs i sq g,
  layers ≡ₚ stack -> StronglySorted zoom_ordered layers ->
  (forall a, a ∈ layers -> sq_mask a <> 0) ->
  (forall a b, a ∈ layers -> b ∈ layers -> st_zoom (sq_store a) - st_zoom (sq_store b) < 16) ->
  (forall a b, a ∈ layers -> b ∈ layers -> sq_idx a = sq_idx b -> a = b) ->
  coalesce p ho mtb tb stack o = Ok cs ->
  layers !! i = Some sq -> (S i < length layers)%nat -> anchored p mtb tb o layers i g ->
  exists d e es, cc_entries d = e :: es /\ to_entry sq 0 g e /\ stacked p mtb tb layers o d /\ maximal p mtb tb o layers d /\
    forall c, c ∈ cs -> exists top, fltb top (cc_relev d) = false /\ fltb (fsub top (cc_relev c)) (f_lit 25 100) = true.
Proof. exact coalesce_window. Qed.
Print Assumptions C70_window.
(** C68_ex meets the hypotheses; there the first layer alone is a quarter or more below. *)
Example C70_ex :
  (2 < length [o_a; o_b; o_c])%nat /\ anchored Debug first_mtb first_tb o_o [o_a; o_b; o_c] 0 o_h /\
  (exists cs c, coalesce Debug id_oracle first_mtb first_tb [o_c; o_b; o_a] o_o = Ok cs /\ c ∈ cs /\ fleb f_one (cc_relev c) = true).
Proof.
  split; [cbn; lia|]. split; [apply C69_ex|]. eexists _, _. split; [vm_compute; reflexivity|]. split; [left|]. vm_compute. reflexivity.
Qed.
(** "Whatever is less than a quarter below the best result is returned" does not hold: the
    window is measured from relevances before the penalty for the order of the words. Here the
    best result has relevance 0.99 and the match of layer 0 on another tile stands alone with
    0.745; it is dropped because the best stack had 1 before the penalty. Without the stack
    it is returned. *)
Definition w_a : subquery := layer (layer_ops 1 [GridEntry f_one 1 0 0 8 0; GridEntry f_one 1 20 20 9 0]) 5 0 1 (f_lit 745 1000).
Definition w_b : subquery := layer (layer_ops 1 [GridEntry f_one 1 1 1 1 0]) 6 1 2 (f_lit 255 1000).
Definition w_c : subquery := layer (layer_ops 1 [GridEntry f_one 1 50 50 1 0]) 6 1 2 (f_lit 255 1000).
Theorem C70_penalty_refuted :
  (exists c, coalesce Debug id_oracle first_mtb first_tb [w_a; w_b] (MatchOpts None None 5) = Ok [c] /\
     map e_id (cc_entries c) = [1; 8] /\ fltb (fsub (cc_relev c) (f_lit 745 1000)) (f_lit 25 100) = true) /\
  summary (coalesce Debug id_oracle first_mtb first_tb [w_a; w_c] (MatchOpts None None 5)) = Some [(1, [(0, 9)]); (1, [(0, 8)])].
Proof. split; [eexists; split; [vm_compute; reflexivity|]; split; vm_compute; reflexivity|vm_compute; reflexivity]. Qed.
Print Assumptions C70_penalty_refuted.
