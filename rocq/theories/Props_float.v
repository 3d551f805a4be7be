(** C36, C37: how distances and distance scores are ordered, under IEEE rounding. *)
From Verif Require Import Prelude Lists F64 Common Morton Spatial Bits_proofs Float_proofs.
From Verif Require Real_proofs.
From Coq Require Import ZArith Reals Lra Lia.
From Flocq Require Core IEEE754.BinarySingleNaN.
From Coq Require Import ZifyBool.
Import Real_proofs.
Local Open Scope N_scope.

(** ** Specification *)
(** The exact squared distance between two tiles. *)
Definition dist2 (px py gx gy : N) : Z :=
  ((Z.of_N px - Z.of_N gx) * (Z.of_N px - Z.of_N gx) + (Z.of_N py - Z.of_N gy) * (Z.of_N py - Z.of_N gy))%Z.
Definition coord (n : N) : Prop := n < 65536.
Definition absdiff (a b : N) : N := (a - b) + (b - a).
(** A double that is not NaN, not infinite and not negative, in its canonical representation. *)
Definition amount (a : f64) : Prop := valid_binary 53 1024 a = true /\ f_pos a /\ f_finite a.

(** ** tile_dist *)
Lemma dist2_nonneg px py gx gy : (0 <= dist2 px py gx gy)%Z.
Proof. unfold dist2. apply Z.add_nonneg_nonneg; apply Z.square_nonneg. Qed.
Lemma dist2_bound px py gx gy : coord px -> coord py -> coord gx -> coord gy ->
  (0 <= dist2 px py gx gy <= 2 ^ 34)%Z.
Proof.
  unfold coord. intros. unfold dist2.
  assert (Ha : (-65536 < Z.of_N px - Z.of_N gx < 65536)%Z) by lia.
  assert (Hb : (-65536 < Z.of_N py - Z.of_N gy < 65536)%Z) by lia.
  generalize dependent (Z.of_N px - Z.of_N gx)%Z. generalize dependent (Z.of_N py - Z.of_N gy)%Z.
  intros b Hb a Ha. change (2 ^ 34)%Z with 17179869184%Z. nia.
Qed.

(** The computed distance is the exact distance, rounded once to the nearest double. *)
Theorem C37_correctly_rounded px py gx gy : coord px -> coord py -> coord gx -> coord gy ->
  is_real (tile_dist px py gx gy)
    (Flocq.Core.Generic_fmt.round Flocq.Core.Zaux.radix2 (SpecFloat.fexp 53 1024)
       Flocq.Core.Round_NE.ZnearestE (sqrt (IZR (dist2 px py gx gy)))).
Proof.
  intros H1 H2 H3 H4. pose proof (dist2_bound px py gx gy H1 H2 H3 H4) as Hd. unfold coord in *.
  unfold tile_dist. apply is_real_sqrt; [|apply IZR_le; lia].
  assert (Hx : is_real (fsub (f_of_N px) (f_of_N gx)) (IZR (Z.of_N px - Z.of_N gx))).
  { apply is_real_sub; [apply is_real_of_N; lia..|lia]. }
  assert (Hy : is_real (fsub (f_of_N py) (f_of_N gy)) (IZR (Z.of_N py - Z.of_N gy))).
  { apply is_real_sub; [apply is_real_of_N; lia..|lia]. }
  unfold dist2 in *.
  assert (Ha : (-65536 < Z.of_N px - Z.of_N gx < 65536)%Z) by lia.
  assert (Hb : (-65536 < Z.of_N py - Z.of_N gy < 65536)%Z) by lia.
  change (2 ^ 34)%Z with 17179869184%Z in Hd.
  generalize dependent (Z.of_N px - Z.of_N gx)%Z. generalize dependent (Z.of_N py - Z.of_N gy)%Z.
  intros b Hy Hb a Hx Hd Ha.
  apply is_real_add; [apply is_real_mul; [done..|]|apply is_real_mul; [done..|]|];
    change (2 ^ 53)%Z with 9007199254740992%Z; nia.
Qed.
Print Assumptions C37_correctly_rounded.

(** Distances compare exactly as the squared distances do. *)
Theorem C37_order px py gx gy px' py' gx' gy' :
  coord px -> coord py -> coord gx -> coord gy -> coord px' -> coord py' -> coord gx' -> coord gy' ->
  SFcompare (tile_dist px py gx gy) (tile_dist px' py' gx' gy')
    = Some (Z.compare (dist2 px py gx gy) (dist2 px' py' gx' gy')).
Proof.
  intros. rewrite (is_real_compare _ _ _ _ (C37_correctly_rounded px py gx gy ltac:(done) ltac:(done) ltac:(done) ltac:(done))
                     (C37_correctly_rounded px' py' gx' gy' ltac:(done) ltac:(done) ltac:(done) ltac:(done))).
  by rewrite rnd_sqrt_compare by (by apply dist2_bound).
Qed.
Print Assumptions C37_order.

(** Two finite values of the same sign that compare equal are the same double. *)
Lemma same_float a b x : is_real a x -> is_real b x -> f_pos a -> f_pos b -> a = b.
Proof.
  intros (ba & <- & Fa & Ha) (bb & <- & Fb & Hb) Pa Pb. f_equal.
  apply BinarySingleNaN.B2R_Bsign_inj; [done|done|congruence|]. by destruct ba, bb; simpl in *; subst.
Qed.

Theorem C37_symmetric px py gx gy : coord px -> coord py -> coord gx -> coord gy ->
  tile_dist px py gx gy = tile_dist gx gy px py.
Proof.
  intros. eapply same_float; [by apply C37_correctly_rounded| |by apply tile_dist_pos..].
  replace (dist2 px py gx gy) with (dist2 gx gy px py) by (unfold dist2; ring). by apply C37_correctly_rounded.
Qed.
Print Assumptions C37_symmetric.

Theorem C37_zero_iff px py gx gy : coord px -> coord py -> coord gx -> coord gy ->
  tile_dist px py gx gy = f_zero <-> px = gx /\ py = gy.
Proof.
  intros H1 H2 H3 H4. assert (C0 : coord 0) by (unfold coord; lia).
  pose proof (C37_order px py gx gy 0 0 0 0 H1 H2 H3 H4 C0 C0 C0 C0) as Ho.
  change (tile_dist 0 0 0 0) with f_zero in Ho. change (dist2 0 0 0 0) with 0%Z in Ho. split.
  - intros E. rewrite E in Ho. change (SFcompare f_zero f_zero) with (Some Eq) in Ho.
    assert (Hz : (dist2 px py gx gy = 0)%Z) by (apply Z.compare_eq; congruence). unfold dist2 in Hz.
    assert ((Z.of_N px - Z.of_N gx = 0)%Z /\ (Z.of_N py - Z.of_N gy = 0)%Z) by
      (pose proof (Z.square_nonneg (Z.of_N px - Z.of_N gx)); pose proof (Z.square_nonneg (Z.of_N py - Z.of_N gy));
       split; match goal with |- ?a = 0%Z => assert ((a * a = 0)%Z) as Hs by lia; apply Z.mul_eq_0 in Hs; lia end). lia.
  - intros [-> ->]. unfold dist2 in Ho. rewrite !Z.sub_diag in Ho. simpl in Ho.
    pose proof (tile_dist_pos gx gy gx gy H1 H2 H3 H4) as Hp.
    destruct (tile_dist gx gy gx gy) as [s|s| |s m e]; simpl in Hp; subst; try done.
Qed.
Print Assumptions C37_zero_iff.

Theorem C37_positive_iff px py gx gy : coord px -> coord py -> coord gx -> coord gy ->
  fltb f_zero (tile_dist px py gx gy) = true <-> (px <> gx \/ py <> gy).
Proof.
  intros H1 H2 H3 H4. pose proof (C37_zero_iff px py gx gy H1 H2 H3 H4) as Hz.
  pose proof (tile_dist_pos px py gx gy H1 H2 H3 H4) as Hp.
  destruct (C37_correctly_rounded px py gx gy H1 H2 H3 H4) as (b & Hb & Fb & _).
  destruct (tile_dist px py gx gy) as [s|s| |s m e]; simpl in Hp; subst.
  - split; [done|]. destruct Hz as [Hz _]. specialize (Hz eq_refl). lia.
  - by destruct b.
  - by destruct b.
  - split; [intros _|done]. destruct (N.eq_dec px gx) as [->|]; [|by left].
    destruct (N.eq_dec py gy) as [->|]; [|by right]. destruct Hz as [_ Hz]. by specialize (Hz (conj eq_refl eq_refl)).
Qed.
Print Assumptions C37_positive_iff.

Lemma absdiff_sq a b : ((Z.of_N a - Z.of_N b) * (Z.of_N a - Z.of_N b) = Z.of_N (absdiff a b) * Z.of_N (absdiff a b))%Z.
Proof.
  unfold absdiff. destruct (N.le_ge_cases a b).
  - replace (Z.of_N (a - b + (b - a))) with (Z.of_N b - Z.of_N a)%Z by lia. ring.
  - replace (Z.of_N (a - b + (b - a))) with (Z.of_N a - Z.of_N b)%Z by lia. ring.
Qed.
Theorem C37_monotone px py gx gy px' py' gx' gy' :
  coord px -> coord py -> coord gx -> coord gy -> coord px' -> coord py' -> coord gx' -> coord gy' ->
  absdiff px gx <= absdiff px' gx' -> absdiff py gy <= absdiff py' gy' ->
  fleb (tile_dist px py gx gy) (tile_dist px' py' gx' gy') = true
  /\ (absdiff px gx < absdiff px' gx' \/ absdiff py gy < absdiff py' gy' ->
      fltb (tile_dist px py gx gy) (tile_dist px' py' gx' gy') = true).
Proof.
  intros ? ? ? ? ? ? ? ? Hx Hy. unfold fleb, fltb, SFleb, SFltb. rewrite C37_order by done. unfold dist2.
  rewrite (absdiff_sq px gx), (absdiff_sq py gy), (absdiff_sq px' gx'), (absdiff_sq py' gy').
  generalize dependent (absdiff px gx). generalize dependent (absdiff py gy).
  generalize dependent (absdiff px' gx'). generalize dependent (absdiff py' gy'). intros b' a' b Hb a Ha.
  destruct (Z.compare_spec (Z.of_N a * Z.of_N a + Z.of_N b * Z.of_N b) (Z.of_N a' * Z.of_N a' + Z.of_N b' * Z.of_N b'));
    split; try done; intros; nia.
Qed.
Print Assumptions C37_monotone.

(** Along one axis the distance is the exact number of tiles. *)
Theorem C37_axis px py gx : coord px -> coord py -> coord gx ->
  tile_dist px py gx py = f_of_N (absdiff px gx) /\ tile_dist py px py gx = f_of_N (absdiff px gx).
Proof.
  intros H1 H2 H3.
  assert (Ha : absdiff px gx <= 2 ^ 53) by (unfold absdiff, coord in *; lia).
  assert (Hs : sqrt (IZR (Z.of_N (absdiff px gx) * Z.of_N (absdiff px gx))) = IZR (Z.of_N (absdiff px gx))).
  { rewrite mult_IZR. apply sqrt_square. apply IZR_le. lia. }
  split; (eapply same_float; [by apply C37_correctly_rounded| |by apply tile_dist_pos|apply f_of_N_pos]);
    unfold dist2; rewrite Z.sub_diag, Z.mul_0_l, ?Z.add_0_r, ?Z.add_0_l, absdiff_sq, Hs, int_round by lia;
    by apply is_real_of_N.
Qed.
Print Assumptions C37_axis.

Example C37_example :
  tile_dist 3 4 0 0 = f_of_N 5 /\ tile_dist 0 0 3 4 = f_of_N 5
  /\ SFcompare (tile_dist 0 0 65535 65534) (tile_dist 0 0 65535 65535) = Some Lt
  /\ dist2 0 0 65535 65534 = 8589541381%Z.
Proof. vm_compute. repeat split. Qed.

(** ** scoredist *)
Lemma as_b64 a : valid_binary 53 1024 a = true -> exists b : BinarySingleNaN.binary_float 53 1024, BinarySingleNaN.B2SF b = a.
Proof. intros H. exists (BinarySingleNaN.SF2B a H). apply BinarySingleNaN.B2SF_SF2B. Qed.
Lemma pos_plus (b : b64) : f_pos (BinarySingleNaN.B2SF b) -> Real_proofs.plus b.
Proof. destruct b; simpl; try done; intros ->; done. Qed.
Lemma finite_b (b : b64) : f_finite (BinarySingleNaN.B2SF b) -> BinarySingleNaN.is_finite b = true.
Proof. by destruct b. Qed.
Lemma ev_finite (b : b64) : BinarySingleNaN.is_finite b = true -> ev b = Some (BinarySingleNaN.B2R b).
Proof. by destruct b. Qed.

(** A positive finite double. *)
Definition pfin (b : BinarySingleNaN.binary_float 53 1024) : Prop :=
  Real_proofs.plus b /\ BinarySingleNaN.is_finite b = true /\ (0 < BinarySingleNaN.B2R b)%R.
Definition pfinb (a : f64) : bool :=
  valid_binary 53 1024 a && match a with S754_finite false _ _ => true | _ => false end.
Lemma pfinb_ok a : pfinb a = true -> exists b, BinarySingleNaN.B2SF b = a /\ pfin b.
Proof.
  unfold pfinb. intros [Hv H]%andb_true_iff. destruct (as_b64 a Hv) as [b <-]. exists b. split; [done|].
  destruct b as [s|s| |s m e Hb]; try discriminate H. destruct s; [discriminate H|]. split; [done|]. split; [done|].
  apply Flocq.Core.Float_prop.F2R_gt_0. simpl. lia.
Qed.
Lemma factor_ok s : exists b, BinarySingleNaN.B2SF b = score_factor s /\ pfin b.
Proof.
  apply pfinb_ok. unfold score_factor. set (k := if 7 <? s then 7 else s).
  assert (Hk : k < 2 ^ 3) by (unfold k; destruct (7 <? s) eqn:E; lia). clearbody k.
  assert (H : all_below (fun s => pfinb (score_factor_at s)) 3 0 = true) by (vm_compute; reflexivity).
  apply (all_below_ok _ _ _ k) in H; [done|change (N.of_nat 3) with 3; lia].
Qed.
Lemma factor_mono s s' : s <= s' -> fleb (score_factor s) (score_factor s') = true.
Proof.
  intros Hs. unfold score_factor. set (k := if 7 <? s then 7 else s). set (k' := if 7 <? s' then 7 else s').
  assert (Hk : k <= k' /\ k' < 2 ^ 3) by (unfold k, k'; destruct (7 <? s) eqn:E, (7 <? s') eqn:E'; lia). clearbody k k'.
  assert (H : all_below (fun a => all_below (fun b => (b <? a) || fleb (score_factor_at a) (score_factor_at b)) 3 0) 3 0 = true)
    by (vm_compute; reflexivity).
  apply (all_below_ok _ _ _ k) in H; [|change (N.of_nat 3) with 3; lia]. cbv beta in H.
  apply (all_below_ok _ _ _ k') in H; [|change (N.of_nat 3) with 3; lia]. cbv beta in H.
  apply orb_true_iff in H as [H|H]; [lia|done].
Qed.
Lemma tpm_ok zoom : zoom < 1024 -> exists b, BinarySingleNaN.B2SF b = tiles_per_mile zoom /\ pfin b.
Proof.
  intros Hz. apply pfinb_ok.
  assert (H : all_below (fun z => pfinb (tiles_per_mile z)) 10 0 = true) by (vm_compute; reflexivity).
  apply (all_below_ok _ _ _ zoom) in H; [done|change (N.of_nat 10) with 10; lia].
Qed.
Lemma mul_plus a b : Real_proofs.plus a -> BinarySingleNaN.is_finite a = true -> pfin b ->
  Real_proofs.plus (BinarySingleNaN.Bmult BinarySingleNaN.mode_NE a b).
Proof.
  intros [Na Sa] Fa (Hb & Fb & _). destruct Hb as [Nb Sb].
  pose proof (BinarySingleNaN.Bmult_correct 53 1024 Hprec64 Hmax64 BinarySingleNaN.mode_NE a b) as H.
  rewrite Sa, Sb in H. simpl xorb in H. destruct (Raux.Rlt_bool _ _).
  - destruct H as (_ & H2 & H3). rewrite Fa, Fb in H2.
    assert (Hn : BinarySingleNaN.is_nan (BinarySingleNaN.Bmult BinarySingleNaN.mode_NE a b) = false)
      by (by destruct (BinarySingleNaN.Bmult BinarySingleNaN.mode_NE a b)).
    split; [done|by apply H3].
  - destruct (BinarySingleNaN.Bmult BinarySingleNaN.mode_NE a b); simpl in H; try discriminate H. injection H as ->. done.
Qed.
Lemma prox_ok zoom radius : zoom < 1024 -> amount radius ->
  exists b, BinarySingleNaN.B2SF b = proximity_radius zoom radius /\ Real_proofs.plus b.
Proof.
  intros Hz (Hv & Hp & Hf). destruct (tpm_ok zoom Hz) as (t & Ht & Pt). destruct (as_b64 _ Hv) as [r <-].
  unfold proximity_radius. rewrite <- Ht, mul_equiv. eexists. split; [done|].
  apply mul_plus; [by apply pos_plus|by apply finite_b|done].
Qed.

Definition floor_dist (d : f64) : f64 := if fltb d f_one then f_08 else d.
Definition clamp_ratio (r : f64) : f64 := if fgtb r f_one then f_one else r.
Definition zoom6 (zoom : N) : N := if zoom <? 6 then 6 else zoom.
Lemma scoredist_unfold zoom d score radius :
  scoredist zoom d score radius
  = fdiv (score_factor score) (clamp_ratio (fdiv (floor_dist d) (proximity_radius (zoom6 zoom) radius))).
Proof. done. Qed.

Lemma one_b : exists b, BinarySingleNaN.B2SF b = f_one /\ pfin b /\ BinarySingleNaN.B2R b = 1%R.
Proof.
  destruct (pfinb_ok f_one ltac:(vm_compute; reflexivity)) as (b & Hb & Pb). exists b. split; [done|]. split; [done|].
  destruct (is_real_of_N 1 ltac:(lia)) as (b' & Hb' & _ & Hr). change (f_of_N 1) with f_one in Hb'.
  by rewrite (BinarySingleNaN.B2SF_inj _ _ b b' ltac:(congruence)).
Qed.
Lemma floor_ok d : amount d -> exists b, BinarySingleNaN.B2SF b = floor_dist d /\ pfin b.
Proof.
  intros (Hv & Hp & Hf). unfold floor_dist. destruct (fltb d f_one) eqn:E.
  - apply pfinb_ok. vm_compute. reflexivity.
  - apply pfinb_ok. unfold pfinb. rewrite Hv. destruct d as [s|s| |s m e]; simpl in Hp; subst; try done.
Qed.
Lemma fleb_trans a b c : valid_binary 53 1024 a = true -> valid_binary 53 1024 b = true -> valid_binary 53 1024 c = true ->
  f_pos a -> f_pos b -> f_pos c -> fleb a b = true -> fleb b c = true -> fleb a c = true.
Proof.
  intros Va Vb Vc Pa Pb Pc. destruct (as_b64 a Va) as [x <-], (as_b64 b Vb) as [y <-], (as_b64 c Vc) as [z <-].
  unfold fleb. rewrite !plus_leb by (by apply pos_plus). apply ele_trans.
Qed.
Lemma not_fltb a b : valid_binary 53 1024 a = true -> valid_binary 53 1024 b = true -> f_pos a -> f_pos b ->
  fltb a b = negb (fleb b a).
Proof.
  intros Va Vb Pa Pb. destruct (as_b64 a Va) as [x <-], (as_b64 b Vb) as [y <-]. apply plus_ltb; by apply pos_plus.
Qed.
Lemma floor_mono d d' : amount d -> amount d' -> fleb d d' = true -> fleb (floor_dist d) (floor_dist d') = true.
Proof.
  intros (Hv & Hp & Hf) (Hv' & Hp' & Hf') Hle. unfold floor_dist.
  assert (V1 : valid_binary 53 1024 f_one = true) by (vm_compute; reflexivity).
  assert (V8 : valid_binary 53 1024 f_08 = true) by (vm_compute; reflexivity).
  assert (P1 : f_pos f_one) by (vm_compute; reflexivity). assert (P8 : f_pos f_08) by (vm_compute; reflexivity).
  rewrite (not_fltb d f_one), (not_fltb d' f_one) by done.
  destruct (fleb f_one d) eqn:E, (fleb f_one d') eqn:E'; simpl.
  - done.
  - by rewrite (fleb_trans f_one d d') in E' by done.
  - apply (fleb_trans f_08 f_one d'); try done. 
  - vm_compute. reflexivity.
Qed.

(** The clamped ratio lies between 0 and 1. *)
Definition emin1 (a : option R) : R := match a with None => 1 | Some x => Rmin x 1 end.
Lemma clamp_ok b : Real_proofs.plus b ->
  exists c, BinarySingleNaN.B2SF c = clamp_ratio (BinarySingleNaN.B2SF b) /\ Real_proofs.plus c
    /\ BinarySingleNaN.is_finite c = true /\ BinarySingleNaN.B2R c = emin1 (ev b).
Proof.
  intros Hb. destruct one_b as (o & Ho & (Po & Fo & _) & Ro). unfold clamp_ratio, fgtb, fltb. rewrite <- Ho.
  rewrite plus_ltb by done. destruct (SFleb (BinarySingleNaN.B2SF b) (BinarySingleNaN.B2SF o)) eqn:E; simpl.
  - apply plus_leb in E; [|done..]. rewrite (ev_finite o Fo), Ro in E. exists b. split; [done|]. split; [done|].
    assert (Fb : BinarySingleNaN.is_finite b = true) by (destruct Hb as [Hb _]; by destruct b).
    split; [done|]. rewrite (ev_finite b Fb) in E |- *. symmetry. by apply Rmin_left.
  - exists o. repeat split; try done; try apply Po. rewrite Ro. unfold emin1. destruct (ev b) as [x|] eqn:Ex; [|done].
    symmetry. apply Rmin_right. apply Rnot_lt_le. intros Hlt.
    assert (ele (ev b) (ev o)) as Hc. { rewrite Ex, (ev_finite o Fo), Ro. simpl. lra. }
    apply plus_leb in Hc; [congruence|done..].
Qed.
Lemma ediv_ok x y : (0 < x)%R -> (forall r, y = Some r -> (0 <= r)%R) -> forall q, ediv x y = Some q -> (0 <= q)%R.
Proof.
  intros Hx Hy q. destruct y as [y|]; simpl; [|intros [= <-]; lra]. specialize (Hy y eq_refl).
  destruct (Raux.Req_bool_spec y 0); [done|]. unfold ecap. destruct (Raux.Rlt_bool _ _); [|done]. intros [= <-].
  apply rnd_nonneg. apply Rlt_le, Rdiv_lt_0_compat; lra.
Qed.
Lemma emin1_mono a b : ele a b -> (emin1 a <= emin1 b)%R.
Proof.
  destruct a as [x|], b as [y|]; simpl; intros H; try done; try lra.
  - apply Rle_min_compat_r. done.
  - apply Rmin_r.
Qed.
Lemma emin1_nonneg a : (forall r, a = Some r -> (0 <= r)%R) -> (0 <= emin1 a <= 1)%R.
Proof.
  intros H. destruct a as [x|]; simpl; [|lra]. specialize (H x eq_refl). split; [apply Rmin_glb; lra|apply Rmin_r].
Qed.
Lemma ev_nonneg b : Real_proofs.plus b -> forall r, ev b = Some r -> (0 <= r)%R.
Proof. intros Hb r. pose proof (B2R_plus b Hb). destruct b; simpl in *; intros E; try discriminate E; injection E as <-; done. Qed.

(** The score in extended reals. *)
Lemma scoredist_ok zoom d score radius : zoom < 1024 -> amount d -> amount radius ->
  exists r f dd pr,
    BinarySingleNaN.B2SF r = scoredist zoom d score radius /\ Real_proofs.plus r
    /\ BinarySingleNaN.B2SF f = score_factor score /\ pfin f
    /\ BinarySingleNaN.B2SF dd = floor_dist d /\ pfin dd
    /\ BinarySingleNaN.B2SF pr = proximity_radius (zoom6 zoom) radius /\ Real_proofs.plus pr
    /\ ev r = ediv (BinarySingleNaN.B2R f) (Some (emin1 (ediv (BinarySingleNaN.B2R dd) (ev pr)))).
Proof.
  intros Hz Hd Hr. destruct (factor_ok score) as (f & Hf & Pf). destruct (floor_ok d Hd) as (dd & Hdd & Pdd).
  destruct (prox_ok (zoom6 zoom) radius) as (pr & Hpr & Ppr); [unfold zoom6; destruct (zoom <? 6); lia|done|].
  pose proof Pdd as (Pd1 & Pd2 & Pd3). destruct (plus_div dd pr Pd1 Ppr Pd2 Pd3) as [Pq Eq].
  destruct (clamp_ok _ Pq) as (c & Hc & Pc & Fc & Rc). rewrite Eq in Rc.
  pose proof Pf as (Pf1 & Pf2 & Pf3). destruct (plus_div f c Pf1 Pc Pf2 Pf3) as [Ps Es].
  rewrite (ev_finite c Fc), Rc in Es.
  exists (BinarySingleNaN.Bdiv BinarySingleNaN.mode_NE f c), f, dd, pr.
  split; [|done]. rewrite scoredist_unfold, <- Hdd, <- Hpr, div_equiv, <- Hc, <- Hf, div_equiv. done.
Qed.

Theorem C36_not_nan zoom d score radius : zoom < 1024 -> amount d -> amount radius ->
  f_is_nan (scoredist zoom d score radius) = false.
Proof.
  intros Hz Hd Hr. destruct (scoredist_ok zoom d score radius Hz Hd Hr) as (r & f & dd & pr & <- & [Hn _] & _).
  by destruct r.
Qed.
Print Assumptions C36_not_nan.

Theorem C36_distance_antitone zoom d d' score radius : zoom < 1024 -> amount d -> amount d' -> amount radius ->
  fleb d d' = true -> fleb (scoredist zoom d' score radius) (scoredist zoom d score radius) = true.
Proof.
  intros Hz Hd Hd' Hr Hle.
  destruct (scoredist_ok zoom d score radius Hz Hd Hr) as (r & f & dd & pr & <- & Pr & Hf & Pf & Hdd & Pdd & Hpr & Ppr & Er).
  destruct (scoredist_ok zoom d' score radius Hz Hd' Hr) as (r' & f' & dd' & pr' & <- & Pr' & Hf' & Pf' & Hdd' & Pdd' & Hpr' & Ppr' & Er').
  assert (f' = f) as -> by (apply BinarySingleNaN.B2SF_inj; congruence).
  assert (pr' = pr) as -> by (apply BinarySingleNaN.B2SF_inj; congruence).
  apply plus_leb; [done..|]. rewrite Er, Er'.
  pose proof (floor_mono d d' Hd Hd' Hle) as Hfl. rewrite <- Hdd, <- Hdd' in Hfl.
  apply plus_leb in Hfl; [|apply Pdd|apply Pdd'].
  destruct Pdd as (Pd1 & Pd2 & Pd3), Pdd' as (Pd1' & Pd2' & Pd3').
  rewrite (ev_finite _ Pd2), (ev_finite _ Pd2') in Hfl. simpl in Hfl.
  apply ediv_mono_r; [apply Pf| |].
  - apply emin1_nonneg. apply ediv_ok; [done|]. by apply ev_nonneg.
  - apply emin1_mono. apply ediv_mono_l; [by apply ev_nonneg|done].
Qed.
Print Assumptions C36_distance_antitone.

Theorem C36_score_monotone zoom d score score' radius : zoom < 1024 -> amount d -> amount radius ->
  score <= score' -> fleb (scoredist zoom d score radius) (scoredist zoom d score' radius) = true.
Proof.
  intros Hz Hd Hr Hle.
  destruct (scoredist_ok zoom d score radius Hz Hd Hr) as (r & f & dd & pr & <- & Pr & Hf & Pf & Hdd & Pdd & Hpr & Ppr & Er).
  destruct (scoredist_ok zoom d score' radius Hz Hd Hr) as (r' & f' & dd' & pr' & <- & Pr' & Hf' & Pf' & Hdd' & Pdd' & Hpr' & Ppr' & Er').
  assert (dd' = dd) as -> by (apply BinarySingleNaN.B2SF_inj; congruence).
  assert (pr' = pr) as -> by (apply BinarySingleNaN.B2SF_inj; congruence).
  apply plus_leb; [done..|]. rewrite Er, Er'.
  pose proof (factor_mono score score' Hle) as Hfl. rewrite <- Hf, <- Hf' in Hfl.
  apply plus_leb in Hfl; [|apply Pf|apply Pf'].
  destruct Pf as (Pf1 & Pf2 & Pf3), Pf' as (Pf1' & Pf2' & Pf3').
  rewrite (ev_finite _ Pf2), (ev_finite _ Pf2') in Hfl. simpl in Hfl.
  apply ediv_mono_l; [|done]. intros q [= <-]. apply emin1_nonneg. apply ediv_ok; [apply Pdd|]. by apply ev_nonneg.
Qed.
Print Assumptions C36_score_monotone.

Lemma ev_inj a b : Real_proofs.plus a -> Real_proofs.plus b -> ev a = ev b -> a = b.
Proof.
  intros [Na Sa] [Nb Sb] E. destruct (BinarySingleNaN.is_finite a) eqn:Fa, (BinarySingleNaN.is_finite b) eqn:Fb.
  - rewrite (ev_finite a Fa), (ev_finite b Fb) in E. apply BinarySingleNaN.B2R_Bsign_inj; congruence.
  - rewrite (ev_finite a Fa) in E. by destruct b.
  - rewrite (ev_finite b Fb) in E. by destruct a.
  - destruct a, b; simpl in *; try done. by subst.
Qed.
Lemma factor_valid s : valid_binary 53 1024 (score_factor s) = true /\ f_pos (score_factor s).
Proof.
  destruct (factor_ok s) as (b & <- & (Na & Sa) & _). split; [apply BinarySingleNaN.valid_binary_B2SF|].
  by destruct b.
Qed.
Lemma far_value zoom d score radius : zoom < 1024 -> amount d -> amount radius ->
  fleb f_one d = true -> fleb (proximity_radius (zoom6 zoom) radius) d = true ->
  scoredist zoom d score radius = fdiv (score_factor score) f_one.
Proof.
  intros Hz Hd Hr H1 H2.
  destruct (scoredist_ok zoom d score radius Hz Hd Hr) as (r & f & dd & pr & <- & Pr & <- & Pf & Hdd & Pdd & Hpr & Ppr & Er).
  destruct one_b as (o & <- & (Po & Fo & Ho) & Ro). rewrite div_equiv. f_equal.
  pose proof Pf as (Pf1 & Pf2 & Pf3). destruct (plus_div f o Pf1 Po Pf2 Pf3) as [Ps Es].
  apply ev_inj; [done..|]. rewrite Er, Es, (ev_finite o Fo), Ro. do 2 f_equal.
  assert (Hfl : floor_dist d = d).
  { unfold floor_dist. destruct Hd as (Hv & Hp & Hf). rewrite not_fltb, H1; [done..|vm_compute; reflexivity|done|vm_compute; reflexivity]. }
  rewrite Hfl in Hdd. rewrite <- Hpr, <- Hdd in H2. destruct Pdd as (Pd1 & Pd2 & Pd3).
  apply plus_leb in H2; [|done..]. rewrite (ev_finite dd Pd2) in H2.
  destruct (ev pr) as [y|] eqn:Ey; [|done]. simpl in H2. pose proof (ev_nonneg pr Ppr y Ey) as Hy.
  simpl. destruct (Raux.Req_bool_spec y 0) as [E|E]; [done|]. unfold ecap. destruct (Raux.Rlt_bool _ _); [|done].
  simpl. apply Rmin_right. rewrite <- (int_round 1) at 1 by lia. apply rnd_mono.
  apply Rmult_le_reg_r with y; [lra|]. unfold Rdiv. rewrite Rmult_assoc, Rinv_l by done. lra.
Qed.

(** At or beyond the proximity radius (and at least one tile away) the distance no longer counts. *)
Theorem C36_far_constant zoom d d' score radius : zoom < 1024 -> amount d -> amount d' -> amount radius ->
  let pr := proximity_radius (if zoom <? 6 then 6 else zoom) radius in
  fleb f_one d = true -> fleb f_one d' = true -> fleb pr d = true -> fleb pr d' = true ->
  scoredist zoom d score radius = scoredist zoom d' score radius
  /\ scoredist zoom d score radius = fdiv (score_factor score) f_one.
Proof.
  intros Hz Hd Hd' Hr pr H1 H1' H2 H2'.
  rewrite (far_value zoom d), (far_value zoom d') by done. done.
Qed.
Print Assumptions C36_far_constant.

(** The score never falls below the score factor, which is at least 1. *)
Theorem C36_lower_bound zoom d score radius : zoom < 1024 -> amount d -> amount radius ->
  fleb (score_factor score) (scoredist zoom d score radius) = true /\ fleb f_one (score_factor score) = true.
Proof.
  intros Hz Hd Hr. split.
  - destruct (scoredist_ok zoom d score radius Hz Hd Hr) as (r & f & dd & pr & <- & Pr & <- & Pf & Hdd & Pdd & Hpr & Ppr & Er).
    destruct Pf as (Pf1 & Pf2 & Pf3). apply plus_leb; [done..|]. rewrite Er, (ev_finite f Pf2).
    destruct (emin1_nonneg (ediv (BinarySingleNaN.B2R dd) (ev pr))) as [E0 E1].
    { apply ediv_ok; [apply Pdd|by apply ev_nonneg]. }
    eapply ele_trans; [|by apply ediv_mono_r]. simpl. rewrite Raux.Req_bool_false by lra.
    unfold Rdiv. rewrite Rinv_1, Rmult_1_r, Generic_fmt.round_generic; [| |apply BinarySingleNaN.generic_format_B2R].
    + unfold ecap. rewrite Raux.Rlt_bool_true; [apply Rle_refl|]. rewrite <- (Rabs_pos_eq (BinarySingleNaN.B2R f)) by lra.
      apply BinarySingleNaN.abs_B2R_lt_emax.
    + apply Generic_fmt.valid_rnd_N.
  - destruct (factor_valid score) as [Vs Ps].
    destruct (factor_valid 0) as [V0 P0].
    assert (V1 : valid_binary 53 1024 f_one = true) by (vm_compute; reflexivity).
    assert (P1 : f_pos f_one) by (vm_compute; reflexivity).
    assert (L1 : fleb f_one (score_factor 0) = true) by (vm_compute; reflexivity).
    assert (L2 : fleb (score_factor 0) (score_factor score) = true) by (apply factor_mono; lia).
    exact (fleb_trans _ _ _ V1 V0 Vs P1 P0 Ps L1 L2).
Qed.
Print Assumptions C36_lower_bound.

Example C36_example :
  amount (tile_dist 3 4 0 0) /\ amount (f_of_N 40) /\ amount (f_lit 8 10)
  /\ fltb (scoredist 14 (f_of_N 30) 0 (f_of_N 40)) (scoredist 14 (tile_dist 3 4 0 0) 0 (f_of_N 40)) = true
  /\ fltb (scoredist 14 (f_of_N 30) 0 (f_of_N 40)) (scoredist 14 (f_of_N 30) 3 (f_of_N 40)) = true
  /\ fleb (proximity_radius 14 (f_of_N 40)) (f_of_N 33) = true
  /\ scoredist 14 (f_of_N 33) 2 (f_of_N 40) = scoredist 14 (f_of_N 600) 2 (f_of_N 40)
  /\ scoredist 14 f_zero 2 (f_of_N 40) = scoredist 14 (f_lit 99 100) 2 (f_of_N 40)
  /\ scoredist 14 (f_of_N 5) 2 f_zero = scoredist 14 (f_of_N 600) 2 f_zero.
Proof. vm_compute. repeat split. Qed.

(** Without the bound on the zoom the score can be NaN: tiles_per_mile overflows to
    infinity and a radius of 0 times infinity is NaN. *)
Theorem C36_not_nan_any_zoom_refuted :
  ~ (forall zoom d score radius, zoom < 65536 -> amount d -> amount radius ->
       f_is_nan (scoredist zoom d score radius) = false).
Proof.
  intros H. specialize (H 2000 f_one 0 f_zero). vm_compute in H.
  by specialize (H eq_refl (conj eq_refl (conj eq_refl I)) (conj eq_refl (conj eq_refl I))).
Qed.
Print Assumptions C36_not_nan_any_zoom_refuted.

(** Closer than one tile is not always better: a tile nine tenths away counts as if it were
    at 0.8, so distances below one tile are not told apart. *)
Theorem C36_strictly_decreasing_refuted :
  ~ (forall zoom d d' score radius, zoom < 1024 -> amount d -> amount d' -> amount radius ->
       fltb d d' = true -> fleb d' (proximity_radius zoom radius) = true ->
       fltb (scoredist zoom d' score radius) (scoredist zoom d score radius) = true).
Proof.
  intros H. specialize (H 14 f_zero (f_lit 9 10) 0 (f_of_N 40)). vm_compute in H.
  by specialize (H eq_refl (conj eq_refl (conj eq_refl I)) (conj eq_refl (conj eq_refl I))
                   (conj eq_refl (conj eq_refl I)) eq_refl eq_refl).
Qed.
Print Assumptions C36_strictly_decreasing_refuted.
