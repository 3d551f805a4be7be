(** Properties C14-C16, C30 and C31: selection and ordering of cells. *)
From Verif Require Import Prelude Lists F64 Common Morton Format Spatial Spec Bits_proofs Spatial_proofs.
From Coq Require Import Sorting.Sorted.
From Coq Require Import ZifyBool.

(** A cell in a box, all four edges included. *)
Definition in_box (b : bbox) (x y : N) : Prop :=
  bb_x0 b <= x /\ x <= bb_x1 b /\ bb_y0 b <= y /\ y <= bb_y1 b.
(** A box that is not inverted. *)
Definition proper_box (b : bbox) : Prop := bb_x0 b <= bb_x1 b /\ bb_y0 b <= bb_y1 b.
(** [f] selects the coordinates of the cells in the box. *)
Definition selects_box (b : bbox) (f : coord -> bool) : Prop :=
  forall c x y, c_coord c = interleave x y -> (f c = true <-> in_box b x y).

Lemma in_bbox_selects b : selects_box b (in_bbox b).
Proof.
  intros c x y E. unfold in_bbox, in_box. rewrite E, deinterleave_interleave.
  rewrite !andb_true_iff, !N.leb_le. tauto.
Qed.
Lemma proper_box_order b :
  proper_box b -> interleave (bb_x0 b) (bb_y0 b) <= interleave (bb_x1 b) (bb_y1 b).
Proof. intros [? ?]. by apply interleave_mono. Qed.

Definition ex_coords : list coord :=
  [Coord (interleave 9 9) 1; Coord (interleave 4 7) 2; Coord (interleave 3 5) 3;
   Coord (interleave 5 2) 4; Coord (interleave 1 1) 5].
Lemma ex_coords_descending : descending ex_coords.
Proof. repeat constructor. Qed.

(** ** C14 Bounding-box filter is exact *)
Theorem C14_bbox_exact :
  forall p coords b, descending coords -> proper_box b ->
  exists f r, selects_box b f /\ bbox_filter p coords b = Ok r /\ default [] r = List.filter f coords.
Proof.
  intros p coords b Hd Hb.
  destruct (bbox_filter_exact p coords b Hd (or_intror (proper_box_order b Hb))) as (r & H1 & H2).
  exists (in_bbox b), r. split; [apply in_bbox_selects|done].
Qed.
Print Assumptions C14_bbox_exact.
(** Optimised builds select the (empty) set of cells of an inverted box as well. *)
Theorem C14_bbox_release :
  forall coords b, descending coords ->
  exists f r, selects_box b f /\ bbox_filter Release coords b = Ok r /\ default [] r = List.filter f coords.
Proof.
  intros coords b Hd.
  destruct (bbox_filter_exact Release coords b Hd (or_introl eq_refl)) as (r & H1 & H2).
  exists (in_bbox b), r. split; [apply in_bbox_selects|done].
Qed.
Print Assumptions C14_bbox_release.
(** With debug assertions an inverted box may panic. *)
Theorem C14_inverted_debug_refuted :
  exists coords b, descending coords /\ bbox_filter Debug coords b = Panic.
Proof. exists ex_coords, (BBox 5 5 4 4). split; [apply ex_coords_descending|]. vm_compute. reflexivity. Qed.
Print Assumptions C14_inverted_debug_refuted.
Example C14_ex :
  descending ex_coords /\ proper_box (BBox 3 2 9 7) /\
  bbox_filter Debug ex_coords (BBox 3 2 9 7)
  = Ok (Some [Coord (interleave 4 7) 2; Coord (interleave 3 5) 3; Coord (interleave 5 2) 4]).
Proof.
  split; [apply ex_coords_descending|]. split; [unfold proper_box; simpl; lia|]. vm_compute. reflexivity.
Qed.

(** ** C15 Proximity only reorders *)
Theorem C15_proximity_perm :
  forall coords pt, descending coords ->
  exists r, proximity coords pt = Ok r /\ default [] r ≡ₚ coords.
Proof. intros coords pt Hd. destruct (proximity_ok coords pt Hd) as (r & ? & ? & _). eauto. Qed.
Print Assumptions C15_proximity_perm.
Theorem C15_bbox_proximity_perm :
  forall p coords b pt, descending coords -> proper_box b ->
  exists f r, selects_box b f /\ bbox_proximity_filter p coords b pt = Ok r /\
    default [] r ≡ₚ List.filter f coords.
Proof.
  intros p coords b pt Hd Hb.
  destruct (bbox_proximity_ok p coords b pt Hd (or_intror (proper_box_order b Hb))) as (r & H1 & H2 & _).
  exists (in_bbox b), r. split; [apply in_bbox_selects|done].
Qed.
Print Assumptions C15_bbox_proximity_perm.

(** ** C16 Proximity iteration order *)
(** The distance of the Z-order values to the one of the proximity point. *)
Definition z_gap (px py : N) (c : coord) : Z :=
  Z.abs (Z.of_N (c_coord c) - Z.of_N (interleave px py)).
Theorem C16_proximity_order :
  forall coords px py r, descending coords -> proximity coords (px, py) = Ok r ->
  StronglySorted (fun a b => (z_gap px py a <= z_gap px py b)%Z) (default [] r).
Proof.
  intros coords px py r Hd Hr. destruct (proximity_ok coords (px, py) Hd) as (r' & Hr' & _ & HS).
  rewrite Hr in Hr'. injection Hr' as <-. eapply StronglySorted_impl; [|exact HS].
  intros a b _ _. unfold nearer, zdist, z_gap. cbn [fst snd]. lia.
Qed.
Print Assumptions C16_proximity_order.
Theorem C16_bbox_proximity_order :
  forall p coords b px py r, descending coords -> proper_box b ->
  bbox_proximity_filter p coords b (px, py) = Ok r ->
  StronglySorted (fun a b => (z_gap px py a <= z_gap px py b)%Z) (default [] r).
Proof.
  intros p coords b px py r Hd Hb Hr.
  destruct (bbox_proximity_ok p coords b (px, py) Hd (or_intror (proper_box_order b Hb))) as (r' & Hr' & _ & HS).
  rewrite Hr in Hr'. injection Hr' as <-. eapply StronglySorted_impl; [|exact HS].
  intros x y _ _. unfold nearer, zdist, z_gap. cbn [fst snd]. lia.
Qed.
Print Assumptions C16_bbox_proximity_order.
(** Equally near: the smaller value comes first. So the order of the list follows from
    its members alone. *)
Definition comes_before (px py : N) (a b : coord) : Prop :=
  (z_gap px py a < z_gap px py b)%Z \/ z_gap px py a = z_gap px py b /\ c_coord a < c_coord b.
Lemma merge_by_sorted_in {A} (first : A -> A -> bool) (R : A -> A -> Prop) l1 :
  (forall a b c, R a b -> R b c -> R a c) -> StronglySorted R l1 -> forall l2, StronglySorted R l2 ->
  (forall a b, a ∈ l1 -> b ∈ l2 -> if first a b then R a b else R b a) ->
  StronglySorted R (merge_by first l1 l2).
Proof.
  intros Htr. induction 1 as [|a l1 H1 IH1 Ha]; intros l2 H2; [intros _; by rewrite merge_by_nil_l|].
  induction H2 as [|b l2 H2 IH2 Hb]; intros H; [rewrite merge_by_nil_r; by constructor|].
  pose proof (H a b ltac:(left) ltac:(left)) as Hab. rewrite merge_by_cons. destruct (first a b) eqn:E.
  - constructor; [apply IH1; [by constructor|]; intros x y Hx Hy; apply H; [by right|done]|]. rewrite merge_by_perm.
    apply Forall_app. split; [done|]. constructor; [done|].
    eapply Forall_impl; [exact Hb|]. intros x Hx. by eapply Htr.
  - constructor; [apply IH2; intros x y Hx Hy; apply H; [done|by right]|]. rewrite merge_by_perm. simpl. constructor; [done|].
    apply Forall_app. split; [|done]. eapply Forall_impl; [exact Ha|]. intros x Hx. by eapply Htr.
Qed.
(** The part before the position found, backwards, and the part from it on, each filtered. *)
Lemma merged_order coords px py f m s n k :
  descending coords -> (m < length coords)%nat ->
  (forall i c, (i < m)%nat -> coords !! i = Some c -> interleave px py < c_coord c) ->
  ((exists c, coords !! m = Some c /\ c_coord c <= interleave px py) \/ m = (length coords - 1)%nat) ->
  (s + n <= m \/ n = 0)%nat ->
  StronglySorted (comes_before px py)
    (merge_by (closer (interleave px py)) (List.filter f (rev (take n (drop s coords)))) (List.filter f (take k (drop m coords)))).
Proof.
  intros Hd Hm Hb Ha Hn.
  assert (Hhead : forall x, x ∈ rev (take n (drop s coords)) -> exists i, (i < m)%nat /\ coords !! i = Some x).
  { intros x Hx. apply elem_of_list_In, in_rev, elem_of_list_In in Hx. apply elem_of_list_lookup in Hx as [i Hi].
    apply lookup_take_Some in Hi as [Hi Hl]. rewrite lookup_drop in Hi. exists (s + i)%nat. split; [lia|done]. }
  assert (Htail : forall x, x ∈ take k (drop m coords) -> exists i, (m <= i)%nat /\ coords !! i = Some x).
  { intros x Hx. apply elem_of_list_lookup in Hx as [i Hi]. apply lookup_take_Some in Hi as [Hi _].
    rewrite lookup_drop in Hi. exists (m + i)%nat. split; [lia|done]. }
  apply merge_by_sorted_in.
  - unfold comes_before. intros a b c. lia.
  - apply StronglySorted_filter. pose proof (StronglySorted_rev _ _ (StronglySorted_take_drop _ _ n s Hd)) as HS.
    eapply StronglySorted_impl; [|exact HS]. cbv beta. intros a b (i & Hi & Ai)%Hhead (j & Hj & Bj)%Hhead Hab.
    apply Hb in Ai, Bj; [|done..]. left. unfold z_gap. lia.
  - apply StronglySorted_filter. pose proof (StronglySorted_take_drop _ _ k m Hd) as HS. destruct Ha as [(c & Hc & Hle)|Hend].
    + eapply StronglySorted_impl; [|exact HS]. cbv beta.
      assert (Hgt : forall x, x ∈ take k (drop m coords) -> c_coord x <= interleave px py).
      { intros x (i & Hi & Ai)%Htail. destruct (Nat.eq_dec i m) as [->|]; [congruence|].
        pose proof (descending_lookup _ _ _ _ _ Hd Hc Ai ltac:(lia)). lia. }
      intros a b Ha%Hgt Hb'%Hgt Hab. left. unfold z_gap. lia.
    + assert (Hlen : (length (take k (drop m coords)) <= 1)%nat) by (rewrite take_length, drop_length; lia).
      destruct (take k (drop m coords)) as [|x [|y l]]; [constructor|repeat constructor|simpl in Hlen; lia].
  - intros a b Hain Hbin. apply elem_of_list_In, filter_In in Hain as [Hain _], Hbin as [Hbin _]. apply elem_of_list_In in Hain, Hbin.
    apply Hhead in Hain as (i & Hi & Ai). apply Htail in Hbin as (j & Hj & Bj).
    pose proof (descending_lookup _ _ _ _ _ Hd Ai Bj ltac:(lia)). unfold closer, comes_before, zdist, z_gap.
    destruct (_ <? _) eqn:E; lia.
Qed.
Theorem C16_proximity_exact :
  forall coords px py r, descending coords -> proximity coords (px, py) = Ok r ->
  StronglySorted (comes_before px py) (default [] r).
Proof.
  intros coords px py r Hd Hr. unfold proximity in Hr. cbv zeta in Hr. cbn [fst snd] in Hr.
  destruct (length coords =? 0)%nat eqn:E0; [injection Hr as <-; constructor|].
  destruct (coord_binary_search_ok coords (interleave px py) 0 Hd ltac:(lia)) as (m & Es & Hm & Hb & Ha). rewrite Es in Hr.
  cbn [or_none] in Hr. rewrite get_all_rev in Hr by lia. cbn [res_bind] in Hr. rewrite get_all_seq in Hr by lia. cbn [res_bind] in Hr.
  injection Hr as <-. cbn [default from_option].
  pose proof (merged_order coords px py (fun _ => true) m 0 m (length coords - m)%nat Hd ltac:(lia)) as G.
  assert (Hid : forall l : list coord, List.filter (fun _ => true) l = l) by (induction l as [|c l IH]; [done|]; cbn; by rewrite IH).
  rewrite !Hid in G. apply G; [|done|lia]. intros i c Hi. apply Hb; lia.
Qed.
Print Assumptions C16_proximity_exact.
Theorem C16_bbox_proximity_exact :
  forall p coords b px py r, descending coords -> proper_box b ->
  bbox_proximity_filter p coords b (px, py) = Ok r -> StronglySorted (comes_before px py) (default [] r).
Proof.
  intros p coords b px py r Hd Hp Hr. unfold bbox_proximity_filter in Hr. cbv zeta in Hr. cbn [fst snd] in Hr.
  destruct (bbox_range_ok p coords b Hd (or_intror (proper_box_order b Hp))) as (rg & Er & Hrg). rewrite Er in Hr. cbn [res_bind] in Hr.
  destruct rg as [[s e]|]; [|injection Hr as <-; constructor]. destruct Hrg as [Hse _].
  replace (length coords =? 0)%nat with false in Hr by lia.
  destruct (coord_binary_search_ok coords (interleave px py) 0 Hd ltac:(lia)) as (m & Es & Hm & Hb & Ha). rewrite Es in Hr.
  cbn [or_none] in Hr. rewrite get_all_rev in Hr by lia. cbn [res_bind] in Hr. rewrite get_all_seq in Hr by lia. cbn [res_bind] in Hr.
  injection Hr as <-. cbn [default from_option].
  apply merged_order; [done|lia| |done|lia]. intros i c Hi. apply Hb; lia.
Qed.
Print Assumptions C16_bbox_proximity_exact.
(** Cells 1 and 3 are equally near to cell 2. *)
Example C16_tie_ex :
  descending [Coord 3 0; Coord 1 1] /\ proximity [Coord 3 0; Coord 1 1] (0, 1) = Ok (Some [Coord 1 1; Coord 3 0]).
Proof. split; [repeat constructor|]. vm_compute. reflexivity. Qed.
Example C15_C16_ex :
  proximity ex_coords (4, 4) =
    Ok (Some [Coord (interleave 3 5) 3; Coord (interleave 4 7) 2; Coord (interleave 5 2) 4;
              Coord (interleave 1 1) 5; Coord (interleave 9 9) 1]) /\
  bbox_proximity_filter Debug ex_coords (BBox 1 1 5 7) (4, 4) =
    Ok (Some [Coord (interleave 3 5) 3; Coord (interleave 4 7) 2; Coord (interleave 5 2) 4;
              Coord (interleave 1 1) 5]).
Proof. vm_compute. done. Qed.

(** ** C30 Z-order coordinate coding *)
(** Bit [i] of [x] is bit [2i], bit [i] of [y] is bit [2i+1] of the cell number. *)
Theorem C30_bits :
  forall x y i, N.testbit (interleave x y) (2 * i) = N.testbit x i /\
                N.testbit (interleave x y) (2 * i + 1) = N.testbit y i.
Proof. intros. split; [apply interleave_x_bit|apply interleave_y_bit]. Qed.
Print Assumptions C30_bits.
Theorem C30_bijection :
  (forall x y, x < 2 ^ 16 -> y < 2 ^ 16 ->
     interleave x y < 2 ^ 32 /\ deinterleave (interleave x y) = (x, y)) /\
  (forall c, c < 2 ^ 32 -> (deinterleave c).1 < 2 ^ 16 /\ (deinterleave c).2 < 2 ^ 16 /\
     interleave (deinterleave c).1 (deinterleave c).2 = c).
Proof.
  split.
  - intros x y Hx Hy. split; [exact (interleave_lt x y 16 Hx Hy)|apply deinterleave_interleave].
  - intros c Hc. destruct (deinterleave_lt c 16 Hc) as [H1 H2]. split; [done|]. split; [done|].
    pose proof (interleave_deinterleave c) as H. by destruct (deinterleave c).
Qed.
Print Assumptions C30_bijection.
Theorem C30_monotone :
  (forall x x' y, x < x' -> interleave x y < interleave x' y) /\
  (forall x y y', y < y' -> interleave x y < interleave x y').
Proof. split; [exact interleave_mono_x|exact interleave_mono_y]. Qed.
Print Assumptions C30_monotone.
Theorem C30_box :
  forall b x y, in_box b x y ->
  interleave (bb_x0 b) (bb_y0 b) <= interleave x y /\ interleave x y <= interleave (bb_x1 b) (bb_y1 b).
Proof. intros b x y (? & ? & ? & ?). split; by apply interleave_mono. Qed.
Print Assumptions C30_box.
Example C30_ex : interleave 3 5 = 39 /\ deinterleave 39 = (3, 5) /\ interleave 65535 65535 = 4294967295.
Proof. vm_compute. done. Qed.

(** ** C31 Coordinate binary search *)
(** The first position from [off] on whose value is at most [val]; the last
    position when all values are greater. An offset outside is an error. *)
Theorem C31_binary_search :
  forall coords val off, descending coords ->
  if (length coords <=? off)%nat then coord_binary_search coords val off = Err
  else exists r, coord_binary_search coords val off = Ok r /\ (off <= r < length coords)%nat /\
    (forall i c, (off <= i)%nat -> (i < r)%nat -> coords !! i = Some c -> val < c_coord c) /\
    ((exists c, coords !! r = Some c /\ c_coord c <= val) \/
     (r = length coords - 1)%nat /\ forall i c, (off <= i)%nat -> coords !! i = Some c -> val < c_coord c).
Proof.
  intros coords val off Hd. destruct (length coords <=? off)%nat eqn:E.
  - unfold coord_binary_search. by rewrite E.
  - destruct (coord_binary_search_ok coords val off Hd ltac:(lia)) as (r & H1 & H2 & H3 & H4).
    exists r. split; [done|]. split; [done|]. split; [done|].
    destruct H4 as [H4|H4]; [by left|].
    destruct (lookup_lt_is_Some_2 coords r) as [c Hc]; [lia|].
    destruct (N.leb_spec (c_coord c) val) as [Hle|Hgt]; [left; eauto|].
    right. split; [done|]. intros i c' Hi Hc'. pose proof (lookup_lt_Some _ _ _ Hc').
    destruct (Nat.eq_dec i r) as [->|]; [rewrite Hc in Hc'; injection Hc' as <-; lia|].
    apply (H3 i c'); [lia|lia|done].
Qed.
Print Assumptions C31_binary_search.
(** In particular a value that is present (from [off] on) is found. *)
Theorem C31_finds :
  forall coords val off i c, descending coords -> (off <= i)%nat -> coords !! i = Some c ->
  c_coord c = val -> coord_binary_search coords val off = Ok i.
Proof.
  intros coords val off i c Hd Hi Hc Hv. pose proof (lookup_lt_Some _ _ _ Hc).
  destruct (coord_binary_search_ok coords val off Hd ltac:(lia)) as (r & H1 & H2 & H3 & H4).
  rewrite H1. f_equal. destruct (lt_eq_lt_dec r i) as [[Hlt|Heq]|Hgt]; [|done|].
  - exfalso. destruct H4 as [(c' & Hc' & Hle)|H4]; [|lia].
    pose proof (descending_lookup _ _ _ _ _ Hd Hc' Hc Hlt). lia.
  - specialize (H3 i c Hi Hgt Hc). lia.
Qed.
Print Assumptions C31_finds.
Example C31_ex :
  coord_binary_search ex_coords (interleave 3 5) 0 = Ok 2%nat /\
  coord_binary_search ex_coords (interleave 3 5 + 1) 0 = Ok 2%nat /\
  coord_binary_search ex_coords (interleave 9 9 + 1) 0 = Ok 0%nat /\
  coord_binary_search ex_coords 0 1 = Ok 4%nat /\
  coord_binary_search ex_coords 0 5 = Err.
Proof. vm_compute. done. Qed.
