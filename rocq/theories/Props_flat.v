(** Properties C66 and C67: when flat coalesce answers, and what its answer does not depend on. *)
From Verif Require Import Prelude Lists F64 Heap Common Morton Format Builder Spatial Store Spec Spec_match Query Coalesce Stackable Tree
  Cmp_proofs Spatial_proofs Spec_stack Spec_tree Props_match Props_zoom Props_coalesce Props_stack Props_tree
  Spec_total Total_proofs Term_proofs Props_total Flat_proofs Examples.
From Coq Require Import ZifyBool.
Local Open Scope N_scope.

(** ** C66 The flat search answers *)
Lemma layer_answers p mtb tb zo sq : answerable sq -> mo_zoom zo = zoom_of sq -> prox_u16 zo ->
  (forall b, mo_bbox zo = Some b -> p = Release \/ bb_x0 b <= bb_x1 b /\ bb_y0 b <= bb_y1 b) -> layer_works p mtb tb zo sq.
Proof.
  intros (Hne & Hfin & Hbuilt) Hz Hpr Hbox. split; [done|]. destruct (sq_keys sq) as [|k ks] eqn:Ek; [done|].
  exists k, ks. split; [done|]. destruct (Hbuilt k ltac:(by left)) as (ho & ops & Hh & Hb & Hq). intros n Hn.
  destruct (C11_limited p mtb tb ho ops (sq_store sq) (mki_key k) zo n Hh Hb) as (out & Hout & Hin1 & _); [|done|done|].
  - split.
    + destruct (mo_bbox zo) as [b|] eqn:Eb; [|done]. destruct (Hbox b eq_refl) as [?|[H1 H2]]; [by left|right].
      by apply interleave_mono.
    + destruct (mo_prox zo) as [pt|] eqn:Ep; [|done]. destruct (Hpr pt Ep) as [H1 H2]. split; [done|]. split; [done|].
      rewrite Hz. exact Hfin.
  - exists out. split; [done|]. intros g Hg. destruct (Hin1 g Hg) as (key & es & e & _ & _ & _ & _ & ->).
    cbn [query_match me_entry ge_id snap]. pose proof (N.mod_lt (ge_id e) (2 ^ 24) ltac:(done)) as Hlt.
    eapply N.lt_trans; [exact Hlt|done].
Qed.
Theorem C66_release :
  forall ho mtb tb stack o, stack <> [] -> (forall sq, sq ∈ stack -> answerable sq) -> prox_u16 o -> own_zoom o stack ->
  exists out, coalesce Release ho mtb tb stack o = Ok out.
Proof.
  intros ho mtb tb stack o Hne Ha Hp Ho. apply safe_exists; [|apply halts_coalesce].
  apply coalesce_safe; [done|done| |done]. intros sq Hsq. destruct (adjust_release o (zoom_of sq) Hp) as (zo & Hz & Hpz).
  exists zo. split; [done|]. apply layer_answers; [by apply Ha|by eapply adjust_zoom_eq|done|by left].
Qed.
Print Assumptions C66_release.
Theorem C66_careful :
  forall p ho mtb tb stack o, stack <> [] -> (forall sq, sq ∈ stack -> answerable sq) -> flat_careful o stack -> own_zoom o stack ->
  exists out, coalesce p ho mtb tb stack o = Ok out.
Proof.
  intros p ho mtb tb stack o Hne Ha [C1 C2 C3 C4] Ho. apply safe_exists; [|apply halts_coalesce]. unfold zoom_of in *.
  apply coalesce_safe; [done|intros _ a b Ha' Hb'; pose proof (C4 a Ha'); lia| |done]. intros sq Hsq.
  destruct (adjust_careful p o (zoom_of sq) C1 (C4 sq Hsq) C2 C3) as (zo & Hz & Ez & Htile & Hbox & _).
  exists zo. split; [done|]. apply layer_answers; [by apply Ha|done| |by right; apply Hbox].
  intros pt Hpt. apply (tile_u16 (zoom_of sq)); [by apply C4|by apply Htile].
Qed.
Print Assumptions C66_careful.
(** Two layers of different zoom, a box and a proximity point. *)
Example C66_ex :
  (forall sq, sq ∈ [u_b; u_a] -> answerable sq) /\ flat_careful u_opts [u_b; u_a] /\ own_zoom u_opts [u_b; u_a] /\ own_zoom u_opts [u_b] /\
  summary (coalesce Debug rev_oracle first_mtb last_tb [u_b; u_a] u_opts) = Some [(3, [(1, 1); (0, 5)]); (3, [(1, 2); (0, 2)]); (3, [(1, 3); (0, 5)])] /\
  summary (coalesce Debug rev_oracle first_mtb last_tb [u_b] u_opts) = Some [(1, [(1, 1)]); (1, [(1, 2)]); (1, [(1, 3)])].
Proof.
  destruct C65_ex as (Ha & Hc & _). split; [exact Ha|]. split; [|split; [|split; [|vm_compute; done]]].
  - split; apply Hc.
  - intros sq E. discriminate E.
  - intros sq E. injection E as <-. done.
Qed.
(** A single layer whose zoom is not that of the options is not brought to the zoom of
    the options: a debug build stops at the first match; any build applies the box of one zoom
    to the tiles of another. Here the box covers the tile of a match at the layer's zoom, so
    that the two-layer search finds the match, and the one-layer search does not. *)
Definition f_far : subquery := layer (layer_ops 1 [GridEntry f_one 3 40 40 1 0]) 6 1 1 (f_lit 1 2).
Definition f_box : match_opts := MatchOpts (Some (BBox 20 20 20 20)) None 5.
Theorem C66_own_zoom_refuted :
  coalesce Debug id_oracle first_mtb first_tb [f_far] (MatchOpts None None 5) = Panic /\
  (forall p, coalesce p id_oracle first_mtb first_tb [f_far] f_box = Ok []) /\
  summary (coalesce Release id_oracle first_mtb first_tb [layer_a; f_far] f_box) = Some [(1, [(1, 1)])].
Proof. split; [vm_compute; reflexivity|]. split; [intros []; vm_compute; reflexivity|vm_compute; reflexivity]. Qed.
Print Assumptions C66_own_zoom_refuted.

(** ** C67 What the answer does not depend on *)
(** Neither on the iteration order of hash maps ... *)
Theorem C67_hash_order :
  forall p ho1 ho2 mtb tb stack o,
  (forall a, a ∈ stack -> sq_mask a <> 0) ->
  (forall a b, a ∈ stack -> b ∈ stack -> zoom_of a - zoom_of b < 16) ->
  (forall a b, a ∈ stack -> b ∈ stack -> sq_idx a = sq_idx b -> zoom_of a = zoom_of b) ->
  coalesce p ho1 mtb tb stack o = coalesce p ho2 mtb tb stack o.
Proof.
  intros p ho1 ho2 mtb tb stack o H1 H2 H3. unfold coalesce. destruct stack as [|sq [|sq' stack]]; [done| |].
  - by rewrite (coalesce_single_hash p ho1 ho2).
  - by rewrite (multi_hash p ho1 ho2).
Qed.
Print Assumptions C67_hash_order.
(** ... nor on the order in which the layers are given. *)
Theorem C67_layer_order :
  forall p ho mtb tb stack1 stack2 o, stack1 ≡ₚ stack2 ->
  (forall a b, a ∈ stack1 -> b ∈ stack1 -> sq_idx a = sq_idx b -> a = b) ->
  coalesce p ho mtb tb stack1 o = coalesce p ho mtb tb stack2 o.
Proof.
  intros p ho mtb tb stack1 stack2 o Hp Hid. pose proof (Permutation_length Hp) as Hl.
  destruct stack1 as [|a [|a' stack1]], stack2 as [|b [|b' stack2]]; try done.
  - apply Permutation_singleton_l in Hp. by injection Hp as <-.
  - unfold coalesce, coalesce_multi. by rewrite (stack_sort_unique _ _ Hp Hid).
Qed.
Print Assumptions C67_layer_order.
Example C67_ex :
  (forall a, a ∈ [layer_b; layer_a] -> sq_mask a <> 0) /\
  (forall a b, a ∈ [layer_b; layer_a] -> b ∈ [layer_b; layer_a] -> zoom_of a - zoom_of b < 16) /\
  (forall a b, a ∈ [layer_b; layer_a] -> b ∈ [layer_b; layer_a] -> sq_idx a = sq_idx b -> a = b) /\
  summary (coalesce Debug id_oracle first_mtb last_tb [layer_a; layer_b] (MatchOpts None None 6)) =
    Some [(3, [(1, 2); (0, 2)]); (3, [(1, 1); (0, 5)]); (3, [(1, 3); (0, 5)])].
Proof.
  split; [|split; [|split; [|vm_compute; reflexivity]]].
  - intros a Ha. rewrite !elem_of_cons, elem_of_nil in Ha. destruct Ha as [->|[->|[]]]; done.
  - intros a b Ha Hb. rewrite !elem_of_cons, elem_of_nil in Ha, Hb. destruct Ha as [->|[->|[]]], Hb as [->|[->|[]]]; done.
  - intros a b Ha Hb. rewrite !elem_of_cons, elem_of_nil in Ha, Hb. destruct Ha as [->|[->|[]]], Hb as [->|[->|[]]]; done.
Qed.
(** Two layers of one index but different zooms: contexts of different tiles with the
    same coordinates tie, and only the first one is kept. *)
Definition f_p : subquery := layer (layer_ops 1 [GridEntry f_one 1 0 0 8 0; GridEntry f_one 1 1 1 9 0]) 5 0 1 (f_lit 1 2).
Definition f_q (zoom : N) : subquery := layer (layer_ops 1 [GridEntry f_one 1 1 1 1 0]) zoom 1 2 (f_lit 1 2).
Definition f_r : subquery := layer (layer_ops 1 [GridEntry f_one 1 100 100 1 0]) 7 2 4 (f_lit 1 2).
Theorem C67_two_zooms_refuted :
  summary (coalesce Debug id_oracle first_mtb first_tb [f_p; f_q 5; f_q 6; f_r] (MatchOpts None None 5)) <>
  summary (coalesce Debug rev_oracle first_mtb first_tb [f_p; f_q 5; f_q 6; f_r] (MatchOpts None None 5)) /\
  (forall a, a ∈ [f_p; f_q 5; f_q 6; f_r] -> sq_mask a <> 0).
Proof.
  split; [vm_compute; discriminate|]. intros a Ha. rewrite !elem_of_cons, elem_of_nil in Ha.
  destruct Ha as [->|[->|[->|[->|[]]]]]; done.
Qed.
Print Assumptions C67_two_zooms_refuted.
