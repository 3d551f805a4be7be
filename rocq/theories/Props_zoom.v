(** Properties C32-C35: changing the zoom of query options, and the nearby box. *)
From Verif Require Import Prelude Lists F64 Heap Common Morton Format Builder Spatial Store Spec Spec_match
  Examples.
From Coq Require Import ZifyBool.
Local Open Scope N_scope.

(** ** Specification *)
(** A tile is inside a box (corners included). *)
Definition in_box (b : bbox) (x y : N) : Prop := bb_x0 b <= x <= bb_x1 b /\ bb_y0 b <= y <= bb_y1 b.
(** The tile [k] zoom levels up that contains the tile. *)
Definition ancestor (k : N) (xy : N * N) : N * N := (xy.1 / 2 ^ k, xy.2 / 2 ^ k).
(** Tiles and boxes of zoom [z]. *)
Definition tile_at (z : N) (xy : N * N) : Prop := xy.1 < 2 ^ z /\ xy.2 < 2 ^ z.
Definition box_at (z : N) (b : bbox) : Prop :=
  bb_x0 b < 2 ^ z /\ bb_y0 b < 2 ^ z /\ bb_x1 b < 2 ^ z /\ bb_y1 b < 2 ^ z.

(** ** Lemmas *)
Lemma ushr_ok p a k : k < 16 -> ushr p 16 a k = Ok (a / 2 ^ k).
Proof. intros H. unfold ushr. destruct (k <? 16) eqn:E; [|lia]. by rewrite N.shiftr_div_pow2. Qed.
Lemma pow_split z t : z <= t -> 2 ^ t = 2 ^ z * 2 ^ (t - z).
Proof. intros H. rewrite <- N.pow_add_r. f_equal. lia. Qed.
Lemma pow_le_16 k : k < 16 -> 2 ^ k <= 2 ^ 15.
Proof. intros H. apply N.pow_le_mono_r; lia. Qed.
Lemma pow_pos k : 0 < 2 ^ k.
Proof. by apply N.neq_0_lt_0, N.pow_nonzero. Qed.
Lemma scale_ok p k : k < 16 -> ushl p 16 1 k = Ok (2 ^ k).
Proof.
  intros H. unfold ushl. destruct (k <? 16) eqn:E; [|lia]. rewrite N.shiftl_1_l. f_equal.
  apply N.mod_small. pose proof (pow_le_16 k H). change (2 ^ 16) with 65536. change (2 ^ 15) with 32768 in *. lia.
Qed.
(** x * s + c stays below 2^16 when x < 2^z, s = 2^(t-z), c < s, t <= 16. *)
Lemma fits z t x c : z <= t -> t <= 16 -> x < 2 ^ z -> c < 2 ^ (t - z) -> x * 2 ^ (t - z) + c < 2 ^ 16.
Proof.
  intros Hzt Ht Hx Hc.
  assert (H1 : x * 2 ^ (t - z) + c < 2 ^ t) by (rewrite (pow_split z t Hzt); nia).
  assert (2 ^ t <= 2 ^ 16) by (apply N.pow_le_mono_r; lia). lia.
Qed.
Lemma mul_ok p z t x : z <= t -> t <= 16 -> x < 2 ^ z -> umul p 16 x (2 ^ (t - z)) = Ok (x * 2 ^ (t - z)).
Proof.
  intros Hzt Ht Hx. unfold umul. pose proof (fits z t x 0 Hzt Ht Hx (pow_pos _)).
  destruct (_ <? _) eqn:E; [done|]. exfalso. rewrite N.add_0_r in *. generalize dependent (x * 2 ^ (t - z)). lia.
Qed.
Lemma add_ok p z t x c : z <= t -> t <= 16 -> x < 2 ^ z -> c < 2 ^ (t - z) ->
  uadd p 16 (x * 2 ^ (t - z)) c = Ok (x * 2 ^ (t - z) + c).
Proof.
  intros Hzt Ht Hx Hc. unfold uadd. pose proof (fits z t x c Hzt Ht Hx Hc) as H.
  revert H. generalize (x * 2 ^ (t - z)) as y. intros y H. destruct (_ <? _) eqn:E; [done|]. lia.
Qed.
Lemma div_back s x c : 0 < s -> c < s -> (x * s + c) / s = x.
Proof. intros Hs Hc. rewrite N.div_add_l by lia. rewrite N.div_small by lia. lia. Qed.
Lemma half_lt k : 0 < k -> 2 ^ k / 2 - 1 < 2 ^ k /\ 1 <= 2 ^ k / 2.
Proof.
  intros Hk. replace k with (1 + (k - 1)) by lia. rewrite N.pow_add_r. change (2 ^ 1) with 2.
  rewrite N.mul_comm, N.div_mul by lia. pose proof (pow_pos (k - 1)). lia.
Qed.

(** ** C32 Zooming a query in and out *)
(** Zooming out: the point becomes its ancestor, and the box becomes the box of the
    ancestors of its tiles, no more and no fewer. *)
Theorem C32_zoom_out :
  forall p o t, t <= mo_zoom o -> mo_zoom o - t < 16 ->
  exists o', adjust_to_zoom p o t = Ok o' /\ mo_zoom o' = t /\
    mo_prox o' = option_map (ancestor (mo_zoom o - t)) (mo_prox o) /\
    match mo_bbox o, mo_bbox o' with
    | None, None => True
    | Some b, Some b' =>
        bb_x0 b <= bb_x1 b -> bb_y0 b <= bb_y1 b ->
        forall x' y', in_box b' x' y' <->
          exists x y, in_box b x y /\ ancestor (mo_zoom o - t) (x, y) = (x', y')
    | _, _ => False
    end.
Proof.
  intros p [bb prox z] t Ht Hk. cbn [mo_zoom mo_prox mo_bbox] in *. unfold adjust_to_zoom. cbn [mo_zoom mo_prox mo_bbox].
  assert (Hdiv : forall b, bb_x0 b <= bb_x1 b -> bb_y0 b <= bb_y1 b ->
    forall s, 0 < s -> forall x' y',
      in_box (BBox (bb_x0 b / s) (bb_y0 b / s) (bb_x1 b / s) (bb_y1 b / s)) x' y' <->
      exists x y, in_box b x y /\ (x / s, y / s) = (x', y')).
  { intros b Hx Hy s Hs x' y'. unfold in_box. cbn [bb_x0 bb_y0 bb_x1 bb_y1].
    assert (H1 : forall lo hi v', lo <= hi -> lo / s <= v' <= hi / s -> exists v, lo <= v <= hi /\ v / s = v').
    { intros lo hi v' Hlh [Ha Hb]. exists (N.max lo (v' * s)).
      assert (Hlo : lo < s * (lo / s) + s).
      { pose proof (N.div_mod' lo s). pose proof (N.mod_lt lo s). lia. }
      assert (Hhi : s * (hi / s) <= hi) by (apply N.mul_div_le; lia).
      assert (v' * s <= hi) by nia.
      split; [lia|]. destruct (N.max_spec lo (v' * s)) as [[Hlt ->]|[Hge ->]].
      - by rewrite N.div_mul by lia.
      - assert (v' <= lo / s) by (apply N.div_le_lower_bound; lia). lia. }
    split.
    - intros [Hvx Hvy]. destruct (H1 _ _ _ Hx Hvx) as (x & Hx1 & Hx2).
      destruct (H1 _ _ _ Hy Hvy) as (y & Hy1 & Hy2). exists x, y. split; [done|]. by rewrite Hx2, Hy2.
    - intros (x & y & [Hx1 Hy1] & E). apply pair_equal_spec in E as [<- <-].
      split; split; apply N.div_le_mono; lia. }
  destruct (z =? t) eqn:E.
  - assert (z = t) as -> by lia. exists (MatchOpts bb prox t). split; [done|]. split; [done|]. cbn [mo_prox mo_bbox].
    rewrite N.sub_diag. split.
    + destruct prox as [[x y]|]; [|done]. cbn [option_map]. unfold ancestor. cbn [fst snd].
      by rewrite N.pow_0_r, !N.div_1_r.
    + destruct bb as [b|]; [|done]. intros _ _ x' y'. unfold ancestor. cbn [fst snd].
      split; [intros H; exists x', y'|intros (x & y & H & E')]; rewrite N.pow_0_r, !N.div_1_r in *; [done|].
      apply pair_equal_spec in E' as [<- <-]. done.
  - assert (Hlt : (t <? z) = true) by lia. unfold adjust_point_zoom, adjust_bbox_zoom. rewrite Hlt.
    assert (Hp : res_option (fun pt : N * N =>
        let* x := ushr p 16 pt.1 (z - t) in let* y := ushr p 16 pt.2 (z - t) in Ok (x, y)) prox =
      Ok (option_map (ancestor (z - t)) prox)).
    { destruct prox as [[x y]|]; [|done]. cbn [res_option fst snd]. rewrite !ushr_ok by done. done. }
    rewrite Hp. cbn [res_bind].
    destruct bb as [b|]; cbn [res_option res_bind].
    + rewrite !ushr_ok by done. cbn [res_bind]. eexists. split; [reflexivity|]. cbn [mo_zoom mo_prox mo_bbox].
      split; [done|]. split; [done|]. intros Hx Hy x' y'. unfold ancestor. cbn [fst snd]. apply Hdiv; [done|done|apply pow_pos].
    + eexists. split; [reflexivity|]. done.
Qed.
Print Assumptions C32_zoom_out.

(** Zooming in: the point becomes one of its descendants, and the box becomes the box
    of the descendants of its tiles. *)
Theorem C32_zoom_in :
  forall p o t, mo_zoom o < t -> t <= 16 -> t - mo_zoom o < 16 ->
  (forall pt, mo_prox o = Some pt -> tile_at (mo_zoom o) pt) ->
  (forall b, mo_bbox o = Some b -> box_at (mo_zoom o) b) ->
  exists o', adjust_to_zoom p o t = Ok o' /\ mo_zoom o' = t /\
    option_map (ancestor (t - mo_zoom o)) (mo_prox o') = mo_prox o /\
    (forall pt', mo_prox o' = Some pt' -> tile_at t pt') /\
    match mo_bbox o, mo_bbox o' with
    | None, None => True
    | Some b, Some b' =>
        box_at t b' /\
        forall x y, in_box b' x y <->
          in_box b (ancestor (t - mo_zoom o) (x, y)).1 (ancestor (t - mo_zoom o) (x, y)).2
    | _, _ => False
    end.
Proof.
  intros p [bb prox z] t Hz Ht Hk Hpt Hbb. cbn [mo_zoom mo_prox mo_bbox] in *.
  unfold adjust_to_zoom. cbn [mo_zoom mo_prox mo_bbox].
  destruct (z =? t) eqn:E; [lia|]. clear E. assert (Hlt : (t <? z) = false) by lia.
  unfold adjust_point_zoom, adjust_bbox_zoom. rewrite Hlt.
  set (s := 2 ^ (t - z)). assert (Hs : 0 < s) by apply pow_pos.
  destruct (half_lt (t - z) ltac:(lia)) as [Hm1 Hm2]. fold s in Hm1, Hm2.
  assert (Hmid : usub p 16 (s / 2) 1 = Ok (s / 2 - 1)).
  { unfold usub. destruct (1 <=? s / 2) eqn:E; [done|]. lia. }
  assert (Hs1 : usub p 16 s 1 = Ok (s - 1)).
  { unfold usub. destruct (1 <=? s) eqn:E; [done|]. lia. }
  assert (Hmul : forall x, x < 2 ^ z -> umul p 16 x s = Ok (x * s)).
  { intros x Hx. unfold s. apply mul_ok; [lia|lia|done]. }
  assert (Hadd : forall x c, x < 2 ^ z -> c < s -> uadd p 16 (x * s) c = Ok (x * s + c)).
  { intros x c Hx Hc. unfold s. apply add_ok; [lia|lia|done|done]. }
  assert (Hpow : 2 ^ t = 2 ^ z * s) by (apply pow_split; lia).
  assert (Hp : exists prox', res_option (fun pt : N * N =>
      let* scale := ushl p 16 1 (t - z) in
      let* mid := usub p 16 (scale / 2) 1 in
      let* x := umul p 16 pt.1 scale in let* x := uadd p 16 x mid in
      let* y := umul p 16 pt.2 scale in let* y := uadd p 16 y mid in Ok (x, y)) prox = Ok prox' /\
      option_map (ancestor (t - z)) prox' = prox /\ forall pt', prox' = Some pt' -> tile_at t pt').
  { destruct prox as [[x y]|]; [|by exists None]. cbn [res_option fst snd].
    destruct (Hpt (x, y) eq_refl) as [Hx Hy]. cbn [fst snd] in Hx, Hy.
    rewrite scale_ok by done. cbn [res_bind]. fold s. rewrite Hmid. cbn [res_bind].
    rewrite !Hmul by done. cbn [res_bind]. rewrite !Hadd by (done || lia). cbn [res_bind].
    rewrite ?Hmul by done. cbn [res_bind]. rewrite ?Hadd by (done || lia). cbn [res_bind].
    eexists. split; [reflexivity|]. split.
    - cbn [option_map]. unfold ancestor. cbn [fst snd]. fold s. by rewrite !div_back.
    - intros pt' [= <-]. unfold tile_at. cbn [fst snd]. rewrite Hpow. nia. }
  destruct Hp as (prox' & Hp1 & Hp2 & Hp3). rewrite Hp1. cbn [res_bind].
  destruct bb as [b|]; cbn [res_option res_bind].
  - destruct (Hbb b eq_refl) as (H1 & H2 & H3 & H4).
    rewrite scale_ok by done. cbn [res_bind].
    fold s. rewrite !Hmul by done. cbn [res_bind]. rewrite Hs1. cbn [res_bind]. repeat (rewrite ?Hmul, ?Hadd by (done || lia); cbn [res_bind]).
    eexists. split; [reflexivity|]. cbn [mo_zoom mo_prox mo_bbox]. split; [done|]. split; [done|]. split; [done|].
    unfold box_at, in_box, ancestor. cbn [bb_x0 bb_y0 bb_x1 bb_y1 fst snd]. fold s. rewrite Hpow. split; [nia|].
    assert (Hr : forall lo hi v, lo * s <= v <= hi * s + (s - 1) <-> lo <= v / s <= hi).
    { intros lo hi v. pose proof (N.div_mod' v s) as Hdm. pose proof (N.mod_lt v s ltac:(lia)) as Hml.
      generalize dependent (v / s). generalize dependent (v mod s). intros m Hm q ->. split; intros; nia. }
    intros x y. by rewrite !Hr.
  - eexists. split; [reflexivity|]. done.
Qed.
Print Assumptions C32_zoom_in.

(** There and back: zooming in and out again gives the same point and a box with the
    same tiles. *)
Theorem C32_in_and_out :
  forall p o t o1, mo_zoom o < t -> t <= 16 -> t - mo_zoom o < 16 ->
  (forall pt, mo_prox o = Some pt -> tile_at (mo_zoom o) pt) ->
  (forall b, mo_bbox o = Some b -> box_at (mo_zoom o) b /\ bb_x0 b <= bb_x1 b /\ bb_y0 b <= bb_y1 b) ->
  adjust_to_zoom p o t = Ok o1 ->
  exists o2, adjust_to_zoom p o1 (mo_zoom o) = Ok o2 /\ mo_zoom o2 = mo_zoom o /\ mo_prox o2 = mo_prox o /\
    match mo_bbox o, mo_bbox o2 with
    | None, None => True
    | Some b, Some b2 => forall x y, in_box b2 x y <-> in_box b x y
    | _, _ => False
    end.
Proof.
  intros p o t o1 Hz Ht Hk Hpt Hbb H1.
  destruct (C32_zoom_in p o t Hz Ht Hk Hpt) as (o1' & E1 & Z1 & P1 & T1 & B1); [intros b Hb; by apply Hbb|].
  assert (o1' = o1) by congruence. subst o1'. clear H1 E1.
  destruct (C32_zoom_out p o1 (mo_zoom o)) as (o2 & E2 & Z2 & P2 & B2); [lia|lia|].
  exists o2. split; [done|]. split; [done|]. rewrite Z1 in *. split; [by rewrite P2|].
  destruct (mo_bbox o) as [b|] eqn:Eb, (mo_bbox o1) as [b1|] eqn:Eb1, (mo_bbox o2) as [b2|] eqn:Eb2; try done.
  destruct B1 as [_ B1]. destruct (Hbb b eq_refl) as (_ & Hx & Hy).
  pose proof (pow_pos (t - mo_zoom o)) as Hs. unfold ancestor in *. cbn [fst snd] in *.
  set (s := 2 ^ (t - mo_zoom o)) in *. clearbody s.
  assert (Hd : forall v, v * s / s = v) by (intros v; apply N.div_mul; lia).
  assert (Hb1 : in_box b1 (bb_x0 b * s) (bb_y0 b * s)).
  { apply B1. rewrite !Hd. unfold in_box. lia. }
  intros x y. rewrite B2 by (unfold in_box in Hb1; lia). split.
  - intros (x' & y' & Hin & E). apply pair_equal_spec in E as [<- <-]. by apply B1.
  - intros Hin. exists (x * s), (y * s). rewrite !Hd. split; [|done]. apply B1. by rewrite !Hd.
Qed.
Print Assumptions C32_in_and_out.

(** Zooming out and in again keeps every tile of the box inside. *)
Theorem C32_out_and_in :
  forall p o t o1 b, t < mo_zoom o -> mo_zoom o <= 16 -> mo_zoom o - t < 16 ->
  mo_bbox o = Some b -> box_at (mo_zoom o) b ->
  adjust_to_zoom p (MatchOpts (Some b) None (mo_zoom o)) t = Ok o1 ->
  exists o2 b2, adjust_to_zoom p o1 (mo_zoom o) = Ok o2 /\ mo_bbox o2 = Some b2 /\
    forall x y, in_box b x y -> in_box b2 x y.
Proof.
  intros p o t o1 b Ht Hz Hk Hb Hat H1.
  destruct (C32_zoom_out p (MatchOpts (Some b) None (mo_zoom o)) t) as (o1' & E1 & Z1 & P1 & B1);
    cbn [mo_zoom mo_prox mo_bbox] in *; [lia|lia|].
  assert (o1' = o1) by congruence. subst o1'. clear H1.
  assert (Eb : exists b1, mo_bbox o1 = Some b1 /\
     b1 = BBox (bb_x0 b / 2 ^ (mo_zoom o - t)) (bb_y0 b / 2 ^ (mo_zoom o - t))
               (bb_x1 b / 2 ^ (mo_zoom o - t)) (bb_y1 b / 2 ^ (mo_zoom o - t))).
  { unfold adjust_to_zoom, adjust_bbox_zoom in E1. cbn [mo_zoom mo_prox mo_bbox res_option res_bind] in E1.
    destruct (mo_zoom o =? t) eqn:Ez; [lia|]. destruct (t <? mo_zoom o) eqn:Ez2; [|lia].
    rewrite !ushr_ok in E1 by done. cbn [res_bind] in E1. injection E1 as <-. cbn [mo_bbox]. eauto. }
  destruct Eb as (b1 & Eb1 & Eb1').
  destruct o1 as [bb1 pr1 z1]. cbn [mo_zoom mo_prox mo_bbox] in *. subst z1 bb1 pr1.
  destruct (C32_zoom_in p (MatchOpts (Some b1) None t) (mo_zoom o)) as (o2 & E2 & Z2 & P2 & T2 & B2);
    cbn [mo_zoom mo_prox mo_bbox] in *; [lia|lia|lia|done| |].
  { intros b0 [= <-]. rewrite Eb1'. unfold box_at in *. cbn [bb_x0 bb_y0 bb_x1 bb_y1].
    rewrite (pow_split t (mo_zoom o)) in Hat by lia. pose proof (pow_pos (mo_zoom o - t)).
    destruct Hat as (? & ? & ? & ?).
    split; [|split; [|split]]; apply N.div_lt_upper_bound; lia. }
  exists o2. destruct (mo_bbox o2) as [b2|]; [|done]. exists b2. split; [done|]. split; [done|].
  intros x y Hin. apply B2. unfold ancestor. cbn [fst snd]. rewrite Eb1'. unfold in_box in *.
  cbn [bb_x0 bb_y0 bb_x1 bb_y1]. pose proof (pow_pos (mo_zoom o - t)).
  split; split; apply N.div_le_mono; lia.
Qed.
Print Assumptions C32_out_and_in.
Example C32_ex :
  adjust_to_zoom Debug (MatchOpts (Some (BBox 6 5 7 6)) (Some (6, 6)) 4) 3 =
    Ok (MatchOpts (Some (BBox 3 2 3 3)) (Some (3, 3)) 3) /\
  adjust_to_zoom Debug (MatchOpts (Some (BBox 3 2 3 3)) (Some (3, 3)) 3) 4 =
    Ok (MatchOpts (Some (BBox 6 4 7 7)) (Some (6, 6)) 4) /\
  tile_at 3 (3, 3) /\ box_at 3 (BBox 3 2 3 3).
Proof. vm_compute. done. Qed.

(** ** C33 Zoom shift overflow *)
(** Sixteen levels: debug builds panic; release builds do not move the tile at all when
    zooming out. *)
Theorem C33_diff_16 :
  forall o t, mo_zoom o = t + 16 -> (mo_prox o <> None \/ mo_bbox o <> None) ->
  adjust_to_zoom Debug o t = Panic /\
  adjust_to_zoom Release o t = Ok (MatchOpts (mo_bbox o) (mo_prox o) t).
Proof.
  intros [bb prox z] t Hz Hsome. cbn [mo_zoom mo_prox mo_bbox] in *. subst z.
  unfold adjust_to_zoom, adjust_point_zoom, adjust_bbox_zoom. cbn [mo_zoom mo_prox mo_bbox].
  destruct (t + 16 =? t) eqn:E; [lia|]. destruct (t <? t + 16) eqn:E2; [|lia].
  replace (t + 16 - t) with 16 by lia.
  assert (Hr : forall a, ushr Release 16 a 16 = Ok a) by (intros a; reflexivity).
  assert (Hd : forall a, ushr Debug 16 a 16 = Panic) by done.
  destruct prox as [[x y]|], bb as [[x0 y0 x1 y1]|]; cbn [res_option fst snd bb_x0 bb_y0 bb_x1 bb_y1];
    rewrite ?Hr, ?Hd; cbn [res_bind]; split; try done. by destruct Hsome.
Qed.
Print Assumptions C33_diff_16.
Theorem C33_overflow_refuted :
  exists o t, mo_zoom o <= 16 /\ t <= 16 /\ (forall pt, mo_prox o = Some pt -> tile_at (mo_zoom o) pt) /\
    adjust_to_zoom Debug o t = Panic /\
    exists o', adjust_to_zoom Release o t = Ok o' /\
      forall pt', mo_prox o' = Some pt' -> ~ tile_at t pt'.
Proof.
  exists (MatchOpts None (Some (40000, 3)) 16), 0. split; [done|]. split; [done|]. split.
  - intros pt [= <-]. vm_compute. done.
  - split; [done|]. eexists. split; [reflexivity|]. intros pt' [= <-]. vm_compute. intros [? _]. done.
Qed.
Print Assumptions C33_overflow_refuted.
(** From zoom 0 to zoom 16 a proximity point panics in debug builds as well, and in
    release builds leaves the world's only tile's first row and column. *)
Theorem C33_in_16_refuted :
  adjust_to_zoom Debug (MatchOpts None (Some (0, 0)) 0) 16 = Panic /\
  adjust_to_zoom Release (MatchOpts None (Some (0, 0)) 0) 16 = Ok (MatchOpts None (Some (65535, 65535)) 16).
Proof. vm_compute. done. Qed.
Print Assumptions C33_in_16_refuted.

(** ** C34 Nearby-only restriction *)
(** The padding is the least number of tiles that cover 25 miles at the equator, for
    every zoom up to 16. *)
Lemma padding_table : forallb (fun z => (25 * 2 ^ z <=? 24901 * nearby_padding z) &&
    (24901 * (nearby_padding z - 1) <? 25 * 2 ^ z) && (1 <=? nearby_padding z) && (nearby_padding z <=? 66))
  [0; 1; 2; 3; 4; 5; 6; 7; 8; 9; 10; 11; 12; 13; 14; 15; 16] = true.
Proof. vm_compute. reflexivity. Qed.
Theorem C34_padding :
  forall z, z <= 16 ->
  25 * 2 ^ z <= 24901 * nearby_padding z /\ 24901 * (nearby_padding z - 1) < 25 * 2 ^ z /\
  1 <= nearby_padding z <= 66.
Proof.
  intros z Hz. pose proof padding_table as H. rewrite List.forallb_forall in H.
  assert (Hin : In z [0; 1; 2; 3; 4; 5; 6; 7; 8; 9; 10; 11; 12; 13; 14; 15; 16]) by (simpl; lia).
  specialize (H z Hin). generalize dependent (nearby_padding z). generalize (2 ^ z). intros. lia.
Qed.
Print Assumptions C34_padding.
(** Within one tile-row/column distance of at most the padding. *)
Definition near (pad a b : N) : Prop := a <= b + pad /\ b <= a + pad.
Theorem C34_nearby :
  forall p o px py, mo_prox o = Some (px, py) -> mo_zoom o <= 15 -> tile_at (mo_zoom o) (px, py) ->
  exists b', with_nearby_only p o = Ok (MatchOpts (Some b') (Some (px, py)) (mo_zoom o)) /\
    (forall x y, in_box b' x y <->
      match mo_bbox o with Some b => in_box b x y | None => True end /\
      near (nearby_padding (mo_zoom o)) x px /\ near (nearby_padding (mo_zoom o)) y py) /\
    ((exists x y, match mo_bbox o with Some b => in_box b x y | None => True end /\
        near (nearby_padding (mo_zoom o)) x px /\ near (nearby_padding (mo_zoom o)) y py) ->
     bb_x0 b' <= bb_x1 b' /\ bb_y0 b' <= bb_y1 b').
Proof.
  intros p [bb prox z] px py Hp Hz [Hx Hy]. cbn [mo_zoom mo_prox mo_bbox fst snd] in *. subst prox.
  unfold with_nearby_only. cbn [mo_zoom mo_prox mo_bbox].
  destruct (C34_padding z ltac:(lia)) as (_ & _ & Hpad). set (pad := nearby_padding z) in *. clearbody pad.
  assert (2 ^ z <= 2 ^ 15) by (apply N.pow_le_mono_r; lia). change (2 ^ 15) with 32768 in *.
  generalize dependent (2 ^ z). intros tz Hx Hy Htz.
  assert (Ha : forall v, v < 32768 -> uadd p 16 v pad = Ok (v + pad)).
  { intros v Hv. unfold uadd. change (2 ^ 16) with 65536. destruct (_ <? _) eqn:E; [done|lia]. }
  rewrite !Ha by lia. cbn [res_bind].
  assert (Hgoal : forall b', b' = match bb with
      | Some old => BBox (N.max (bb_x0 old) (if px <? pad then 0 else px - pad))
                         (N.max (bb_y0 old) (if py <? pad then 0 else py - pad))
                         (N.min (bb_x1 old) (px + pad)) (N.min (bb_y1 old) (py + pad))
      | None => BBox (if px <? pad then 0 else px - pad) (if py <? pad then 0 else py - pad) (px + pad) (py + pad)
      end ->
    (forall x y, in_box b' x y <->
      match bb with Some b => in_box b x y | None => True end /\ near pad x px /\ near pad y py)).
  { intros b' -> x y. unfold in_box, near.
    destruct bb as [[x0 y0 x1 y1]|]; cbn [bb_x0 bb_y0 bb_x1 bb_y1];
      destruct (px <? pad) eqn:E1, (py <? pad) eqn:E2; lia. }
  eexists. split; [reflexivity|]. specialize (Hgoal _ eq_refl). split; [exact Hgoal|].
  intros (x & y & H). apply Hgoal in H. unfold in_box in H. lia.
Qed.
Print Assumptions C34_nearby.
Example C34_ex :
  with_nearby_only Debug (MatchOpts (Some (BBox 90 0 120 130)) (Some (100, 100)) 14) =
    Ok (MatchOpts (Some (BBox 90 83 117 117)) (Some (100, 100)) 14) /\
  nearby_padding 14 = 17 /\ tile_at 14 (100, 100).
Proof. vm_compute. done. Qed.

(** ** C35 Nearby-only overflow *)
(** At zoom 16 a point within 66 tiles of the eastern or southern edge overflows: debug
    builds panic exactly then. *)
Theorem C35_overflow :
  forall o px py, mo_prox o = Some (px, py) -> mo_zoom o = 16 ->
  (with_nearby_only Debug o = Panic <-> 65470 <= px \/ 65470 <= py).
Proof.
  intros [bb prox z] px py Hp Hz. cbn [mo_zoom mo_prox] in *. subst prox z.
  unfold with_nearby_only. cbn [mo_zoom mo_prox mo_bbox].
  change (nearby_padding 16) with 66. unfold uadd. change (2 ^ 16) with 65536.
  destruct (px + 66 <? 65536) eqn:E1; cbn [res_bind].
  - destruct (py + 66 <? 65536) eqn:E2; cbn [res_bind]; (split; [done || lia|]); [lia|done].
  - split; [lia|done].
Qed.
Print Assumptions C35_overflow.
Theorem C35_overflow_refuted :
  (* the point itself is excluded in release builds *)
  with_nearby_only Debug (MatchOpts None (Some (65500, 100)) 16) = Panic /\
  exists b', with_nearby_only Release (MatchOpts None (Some (65500, 100)) 16) = Ok (MatchOpts (Some b') (Some (65500, 100)) 16) /\
    ~ in_box b' 65500 100.
Proof.
  split; [vm_compute; reflexivity|]. eexists. split; [vm_compute; reflexivity|]. vm_compute. intros [[_ H] _]. done.
Qed.
Print Assumptions C35_overflow_refuted.
(** A caller's box away from the point gives an inverted box, with which a debug build
    panics as soon as a selected record has cells. *)
Theorem C35_disjoint_refuted :
  exists o o', with_nearby_only Debug o = Ok o' /\
    streaming_get_matching Debug first_mtb first_tb (ex_store ex_ops) (MatchKey (Exact 1) 1) o' 10 = Panic.
Proof.
  exists (MatchOpts (Some (BBox 1000 1000 1100 1100)) (Some (3, 6)) 14). eexists.
  split; [vm_compute; reflexivity|]. vm_compute. reflexivity.
Qed.
Print Assumptions C35_disjoint_refuted.
