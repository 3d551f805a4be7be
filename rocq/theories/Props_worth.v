(** Property C106, for matches and results: their scores and order with a proximity point. *)
From Coq Require Import ZArith Reals Lra Lia Psatz.
From Flocq Require Import Core IEEE754.BinarySingleNaN.
From Verif Require Import Prelude F64 Common Spatial Builder Store Spec Spec_match Finish_proofs Query Coalesce Spec_coalesce Cmp_proofs Props_match Props_coalesce Examples
  Bits_proofs Float_proofs Real_proofs Formula_proofs Props_float Spec_formula Props_formula.
Local Open Scope R_scope.

Lemma sqrt_cases n : (0 <= n)%Z -> n = 0%Z \/ 1 <= R_sqrt.sqrt (IZR n).
Proof.
  intros Hn. destruct (Z.eq_dec n 0) as [->|Hz]; [by left|right].
  rewrite <- sqrt_1. apply sqrt_le_1_alt. apply IZR_le. lia.
Qed.
(** Rounding a distance of at least one tile leaves it at least one tile. *)
Lemma rnd_sqrt n : (0 <= n <= 2 ^ 34)%Z -> let d := R_sqrt.sqrt (IZR n) in
  (d = 0 /\ rnd d = 0) \/
  (1 <= d /\ 1 <= rnd d <= 2 ^ 200 /\ d * (1 - u53) <= rnd d <= d * (1 + u53)).
Proof.
  intros [Hn Hm] d. destruct (sqrt_cases n Hn) as [->|H1].
  - left. unfold d. rewrite sqrt_0. split; [reflexivity|]. apply round_0. apply valid_rnd_N.
  - right. fold d in H1. split; [exact H1|].
    assert (Hd : d <= bpow radix2 17).
    { unfold d. rewrite <- (sqrt_square (bpow radix2 17)) by apply bpow_ge_0. apply sqrt_le_1_alt.
      rewrite <- bpow_plus. change (bpow radix2 (17 + 17)) with (IZR (2 ^ 34)). by apply IZR_le. }
    assert (Hr : d * (1 - u53) <= rnd d <= d * (1 + u53)).
    { apply rnd_rel. apply Rle_trans with 1; [|exact H1]. change 1 with (bpow radix2 0). apply bpow_le. lia. }
    split; [|exact Hr]. split.
    + replace 1 with (rnd 1); [|].
      * apply round_le; [apply (fexp_correct 53 1024); reflexivity|apply valid_rnd_N|exact H1].
      * apply round_generic; [apply valid_rnd_N|]. change 1 with (bpow radix2 0).
        apply generic_format_bpow. vm_compute. discriminate.
    + rewrite pow2_bpow. change (Z.of_nat 200) with 200%Z.
      apply Rle_trans with (bpow radix2 17 * 2).
      * unfold u53 in Hr. lra.
      * change 2 with (bpow radix2 1). rewrite <- bpow_plus. apply bpow_le. lia.
Qed.
Lemma quot_near f m m' : 0 < f -> 0 < m -> m * (1 - u53) <= m' <= m * (1 + u53) ->
  Rabs (f / m' - f / m) <= 3 / 10000000000000000 * (f / m).
Proof.
  intros Hf Hm [H1 H2]. unfold u53 in *. assert (Hm' : 0 < m') by lra.
  set (q := f / m). assert (Hq : 0 < q) by (apply Rdiv_lt_0_compat; assumption).
  replace f with (q * m) by (unfold q; field; lra). clearbody q.
  apply Rabs_le. split.
  - apply Rmult_le_reg_r with m'; [exact Hm'|]. replace ((q * m / m' - q) * m') with (q * (m - m')) by (field; lra).
    replace (- (3 / 10000000000000000 * q) * m') with (q * (- (3 / 10000000000000000) * m')) by ring.
    apply Rmult_le_compat_l; lra.
  - apply Rmult_le_reg_r with m'; [exact Hm'|]. replace ((q * m / m' - q) * m') with (q * (m - m')) by (field; lra).
    replace (3 / 10000000000000000 * q * m') with (q * (3 / 10000000000000000 * m')) by ring.
    apply Rmult_le_compat_l; lra.
Qed.
Lemma tiles_pos z : 0 < tiles z.
Proof. unfold tiles. apply Rmult_lt_0_compat; [lra|]. apply powerRZ_lt. lra. Qed.
Lemma worth_near z n s r : (0 <= n <= 2 ^ 34)%Z -> 0 < r -> let d := R_sqrt.sqrt (IZR n) in
  0 < worth z d s r /\ Rabs (worth z (rnd d) s r - worth z d s r) <= 3 / 10000000000000000 * worth z d s r.
Proof.
  intros Hn Hr d. pose proof (rnd_sqrt n Hn) as H. cbv zeta in H. fold d in H.
  unfold worth. cbv zeta. set (f := 6 * exp (IZR (Z.of_N (N.min s 7))) / exp 7 + 1).
  assert (Hf : 0 < f).
  { unfold f. pose proof (exp_pos (IZR (Z.of_N (N.min s 7)))). pose proof (exp_pos 7).
    assert (0 < 6 * exp (IZR (Z.of_N (N.min s 7))) / exp 7) by (apply Rdiv_lt_0_compat; lra). lra. }
  clearbody f. pose proof (tiles_pos (N.max z 6)) as Ht. set (k := r * tiles (N.max z 6)).
  assert (Hk : 0 < k) by (apply Rmult_lt_0_compat; assumption). clearbody k. clearbody d.
  assert (Hmin : forall x, 0 < x -> 0 < Rmin 1 (x / k)).
  { intros x Hx. apply Rmin_glb_lt; [lra|]. apply Rdiv_lt_0_compat; assumption. }
  destruct H as [[E1 E2]|(H1 & [H2 _] & H3)].
  - rewrite E2, E1. destruct (Rlt_dec 0 1); [|lra].
    specialize (Hmin (8 / 10) ltac:(lra)).
    assert (Hq : 0 < f / Rmin 1 (8 / 10 / k)) by (apply Rdiv_lt_0_compat; assumption).
    split; [exact Hq|]. rewrite Rminus_diag_eq, Rabs_R0 by reflexivity. lra.
  - destruct (Rlt_dec (rnd d) 1); [lra|]. destruct (Rlt_dec d 1); [lra|].
    pose proof (Hmin d ltac:(lra)) as Hm. split; [apply Rdiv_lt_0_compat; assumption|].
    apply quot_near; [exact Hf|exact Hm|].
    assert (Hq : d / k * (1 - u53) <= rnd d / k <= d / k * (1 + u53)).
    { assert (0 < / k) by (apply Rinv_0_lt_compat; exact Hk). unfold Rdiv.
      split; [replace (d * / k * (1 - u53)) with (d * (1 - u53) * / k) by ring
             |replace (d * / k * (1 + u53)) with (d * (1 + u53) * / k) by ring]; apply Rmult_le_compat_r; lra. }
    unfold u53 in *. assert (0 < d / k) by (apply Rdiv_lt_0_compat; lra).
    unfold Rmin. destruct (Rle_dec 1 (d / k)); destruct (Rle_dec 1 (rnd d / k)); lra.
Qed.

(** The distance of a match is the distance of its tile from the proximity point, and its score
    the worth of that distance, up to rounding. *)
Theorem C106_match :
  forall p mtb tb o ops s k opts max px py r out m,
  history_ok ops -> built o ops s -> opts_ok p opts (st_radius s) -> query_ok ops (mk_phrase k) -> (1 <= max)%N ->
  mo_prox opts = Some (px, py) -> (mo_zoom opts < 64)%N ->
  is_real (st_radius s) r -> / 2 ^ 200 <= r <= 2 ^ 200 ->
  streaming_get_matching p mtb tb s k opts max = Ok out -> m ∈ out ->
  let d := R_sqrt.sqrt (IZR (dist2 px py (ge_x (me_entry m)) (ge_y (me_entry m)))) in
  amounts_to (me_distance m) d (2 / 10000000000000000) /\
  amounts_to (me_scoredist m) (worth (mo_zoom opts) d (ge_score (me_entry m)) r) (5 / 1000000000000000).
Proof.
  intros p mtb tb o ops s k opts max px py r out m Hh Hb Ho Hq Hmax Hp Hz Hr Hr0 Hrun Hm.
  destruct (C11_limited p mtb tb o ops s k opts max Hh Hb Ho Hq Hmax) as (out' & Hrun' & Hs & _).
  rewrite Hrun in Hrun'. injection Hrun' as <-. destruct (Hs m Hm) as (key & es & e & Hw & _ & He & _ & ->).
  destruct Ho as [_ Ho]. rewrite Hp in Ho. destruct Ho as (Hx & Hy & _). cbn [fst snd] in Hx, Hy.
  assert (Hok : entry_ok e).
  { destruct (written_all_ok ops (proj1 Hh) _ _ Hw) as [_ Hes]. rewrite Forall_forall in Hes. by apply Hes. }
  destruct Hok as (_ & Hgx & Hgy & _).
  unfold query_match. cbn [me_entry ge_x ge_y ge_score me_distance me_scoredist snap].
  unfold query_scoredist, query_distance. rewrite Hp. cbn [ge_x ge_y ge_score snap]. cbv zeta.
  set (gx := ge_x e) in *. set (gy := ge_y e) in *.
  pose proof (C37_correctly_rounded px py gx gy Hx Hy Hgx Hgy) as Hd.
  pose proof (dist2_bound px py gx gy Hx Hy Hgx Hgy) as Hn.
  generalize dependent (tile_dist px py gx gy). generalize dependent (dist2 px py gx gy). intros n Hn a Hd.
  fold (rnd (R_sqrt.sqrt (IZR n))) in Hd. pose proof (rnd_sqrt n Hn) as Hrd. cbv zeta in Hrd.
  pose proof (bpow_gt_0 radix2 200) as Hb2.
  assert (Hp0 : 0 < 2 ^ 200) by (rewrite pow2_bpow; apply bpow_gt_0).
  assert (Hr1 : 0 < r). { apply Rlt_le_trans with (/ 2 ^ 200); [by apply Rinv_0_lt_compat|apply Hr0]. }
  destruct (worth_near (mo_zoom opts) n (ge_score e) r Hn Hr1) as [W1 W2].
  set (d := R_sqrt.sqrt (IZR n)) in *. clearbody d.
  split.
  - exists (rnd d). split; [exact Hd|]. unfold u53 in Hrd. apply Rabs_le.
    destruct Hrd as [[E1 E2]|(H1 & _ & H3)]; [rewrite E2, E1|]; lra.
  - assert (Hd0 : 0 <= rnd d <= 2 ^ 200) by (destruct Hrd as [[E1 E2]|(H1 & H2 & H3)]; [rewrite E2|]; lra).
    destruct (C106_worth (mo_zoom opts) a (ge_score e) (st_radius s) (rnd d) r Hz Hd Hd0 Hr Hr0) as (x & Hx1 & Hx2).
    exists x. split; [exact Hx1|].
    set (w := worth (mo_zoom opts) d (ge_score e) r) in *. set (w' := worth (mo_zoom opts) (rnd d) (ge_score e) r) in *.
    clearbody w w'. apply Rabs_le_inv in Hx2. apply Rabs_le_inv in W2. apply Rabs_le. lra.
Qed.
Print Assumptions C106_match.
(** In the example store, from the tile (3, 6): its matches within the box are at the next tile and
    at that tile itself, and the hypotheses hold. *)
Example C106_match_ex :
  history_ok ex_ops /\ built id_oracle ex_ops (ex_store ex_ops) /\
  opts_ok Debug ex_near_opts (st_radius (ex_store ex_ops)) /\ query_ok ex_ops (mk_phrase ex_key) /\
  mo_prox ex_near_opts = Some (3, 6)%N /\ (mo_zoom ex_near_opts < 64)%N /\
  is_real (st_radius (ex_store ex_ops)) 400 /\ / 2 ^ 200 <= 400 <= 2 ^ 200 /\
  res_map (map (fun m => (ge_x (me_entry m), ge_y (me_entry m), dist2 3 6 (ge_x (me_entry m)) (ge_y (me_entry m)))))
    (ex_query ex_key ex_near_opts 100) = Ok [(3, 5, 1%Z); (3, 6, 0%Z); (3, 6, 0%Z)]%N.
Proof.
  split; [exact ex_ops_ok|]. split; [exact ex_built|]. split; [exact ex_near_opts_ok|].
  split; [apply ex_query_ok|]. split; [reflexivity|]. split; [reflexivity|].
  split; [exact (is_real_of_N 400 ltac:(discriminate))|]. split.
  - assert (H : 512 <= 2 ^ 200).
    { replace 512 with (2 ^ 9) by (cbn; ring). apply Rle_pow; [lra|lia]. }
    split; [|lra]. apply Rle_trans with 1; [|lra]. rewrite <- Rinv_1. apply Rinv_le_contravar; lra.
  - vm_compute. reflexivity.
Qed.

(** Results of one layer that are equally relevant are listed by decreasing worth, unless the
    formula hardly tells them apart: no result is worth more than an earlier one by more than a
    factor of 1 + 2e-14. *)
Theorem C106_listed :
  forall p ho mtb tb o ops sq k ks opts px py r cs i j c c' e e',
  history_ok ops -> built o ops (sq_store sq) -> opts_ok p opts (st_radius (sq_store sq)) ->
  sq_keys sq = k :: ks -> query_ok ops (mk_phrase (mki_key k)) ->
  mo_prox opts = Some (px, py) -> (mo_zoom opts < 64)%N ->
  is_real (st_radius (sq_store sq)) r -> / 2 ^ 200 <= r <= 2 ^ 200 ->
  coalesce p ho mtb tb [sq] opts = Ok cs ->
  cs !! i = Some c -> cs !! j = Some c' -> (i < j)%nat -> fleb (cc_relev c) (cc_relev c') = true ->
  e ∈ cc_entries c -> e' ∈ cc_entries c' ->
  let value e := worth (mo_zoom opts) (R_sqrt.sqrt (IZR (dist2 px py (ge_x (ce_entry e)) (ge_y (ce_entry e)))))
                   (ge_score (ce_entry e)) r in
  value e' <= value e * (1 + 2 / 100000000000000).
Proof.
  intros p ho mtb tb o ops sq k ks opts px py r cs i j c c' e e' Hh Hb Ho Hk Hq Hp Hz Hr Hr0 Hc Hi Hj Hij Hle He He'.
  destruct (C42_backed p ho mtb tb sq opts cs Hc) as (k1 & ks1 & out & Hk1 & Hrun & Hback).
  rewrite Hk in Hk1. injection Hk1 as <- <-.
  destruct (C40_shape p ho mtb tb [sq] opts cs Hc) as (_ & Hs & _).
  assert (Hlb : listed_before c c').
  { clear -Hs Hi Hj Hij. revert i j Hi Hj Hij. induction Hs as [|a l _ IH HF]; [done|]. intros [|i] [|j] Hi Hj Hij; try lia.
    - injection Hi as <-. rewrite Forall_forall in HF. apply HF. by eapply elem_of_list_lookup_2.
    - apply (IH i j); [exact Hi|exact Hj|lia]. }
  destruct (Hback c (elem_of_list_lookup_2 _ _ _ Hi)) as (g & Hg & ec & Ec & Hto & _).
  destruct (Hback c' (elem_of_list_lookup_2 _ _ _ Hj)) as (g' & Hg' & ec' & Ec' & Hto' & _).
  destruct Hlb as (ea & ra & eb & rb & Ea & Eb & Hd). rewrite Ec in Ea, He. rewrite Ec' in Eb, He'.
  injection Ea as <- _. injection Eb as <- _. apply elem_of_list_singleton in He as ->, He' as ->.
  destruct (C106_match p mtb tb o ops (sq_store sq) (mki_key k) opts 80 px py r out g Hh Hb Ho Hq ltac:(lia) Hp Hz Hr Hr0 Hrun Hg)
    as [_ (x & Hx & Hxw)].
  destruct (C106_match p mtb tb o ops (sq_store sq) (mki_key k) opts 80 px py r out g' Hh Hb Ho Hq ltac:(lia) Hp Hz Hr Hr0 Hrun Hg')
    as [_ (y & Hy & Hyw)].
  destruct Hto as (E1 & _ & _ & _ & _ & E2 & _). destruct Hto' as (F1 & _ & _ & _ & _ & F2 & _).
  cbv zeta beta. rewrite E1, F1. cbn [ge_x ge_y ge_score]. rewrite E2, F2 in Hd.
  set (v := worth _ _ (ge_score (me_entry g)) r) in *. set (w := worth _ _ (ge_score (me_entry g')) r) in *. clearbody v w.
  assert (Hxy : y <= x).
  { cbn [first_difference] in Hd. destruct (ord_cmp (cc_relev c') (cc_relev c)) eqn:E.
    - assert (Eo : ord_cmp (me_scoredist g') (me_scoredist g) = Rcompare y x)
        by (unfold ord_cmp; rewrite (is_real_compare _ _ _ _ Hy Hx); reflexivity).
      rewrite Eo in Hd. revert Hd. destruct (Rcompare_spec y x) as [H|H|H]; intros Hd; [lra|lra|]. exfalso. apply Hd. reflexivity.
    - exfalso. unfold fleb, SFleb in Hle. rewrite (tc_anti _ total_cmp_ord) in E. unfold ord_cmp in E.
      destruct (SFcompare (cc_relev c) (cc_relev c')) as [[]|]; done.
    - exfalso. apply Hd. reflexivity. }
  apply Rabs_le_inv in Hxw, Hyw. lra.
Qed.
Print Assumptions C106_listed.
(** Three equally relevant features around the tile (5, 6): the one in the tile is listed first,
    the one three tiles away last, and the hypotheses hold. *)
Definition near_ops : list op :=
  layer_ops 1 [GridEntry f_one 1 5 6 1 0; GridEntry f_one 1 5 9 2 0; GridEntry f_one 1 6 6 3 0].
Definition near_layer : subquery := layer near_ops 14 0 1 f_one.
Definition near_opts : match_opts := MatchOpts None (Some (5, 6)%N) 14.
Example C106_listed_ex :
  history_ok near_ops /\ built id_oracle near_ops (sq_store near_layer) /\
  opts_ok Debug near_opts (st_radius (sq_store near_layer)) /\
  sq_keys near_layer = [MatchKeyWithId (MatchKey (Exact 1) 1) false 0 0]%N /\ query_ok near_ops (Exact 1) /\
  mo_prox near_opts = Some (5, 6)%N /\ (mo_zoom near_opts < 64)%N /\
  is_real (st_radius (sq_store near_layer)) 40 /\ / 2 ^ 200 <= 40 <= 2 ^ 200 /\
  res_map (map (fun c => (cc_relev c, map e_id (cc_entries c))))
    (coalesce Debug id_oracle first_mtb first_tb [near_layer] near_opts) =
    Ok [(f_one, [1%N]); (f_one, [3%N]); (f_one, [2%N])].
Proof.
  split; [apply history_okb_ok; vm_compute; reflexivity|].
  split; [change (sq_store near_layer) with (layer_store near_ops 14); unfold layer_store; apply built_run; vm_compute; reflexivity|].
  split; [split; [exact I|]; cbn [mo_prox near_opts fst snd]; split; [reflexivity|]; split; [reflexivity|]; vm_compute; exact I|].
  split; [reflexivity|]. split; [reflexivity|]. split; [reflexivity|]. split; [reflexivity|].
  split; [exact (is_real_of_N 40 ltac:(discriminate))|]. split.
  - assert (H : 64 <= 2 ^ 200).
    { replace 64 with (2 ^ 6) by (cbn; ring). apply Rle_pow; [lra|lia]. }
    split; [|lra]. apply Rle_trans with 1; [|lra]. rewrite <- Rinv_1. apply Rinv_le_contravar; lra.
  - vm_compute. reflexivity.
Qed.
