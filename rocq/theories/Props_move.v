(** Property C91: the same data elsewhere on the grid. *)
From Verif Require Import Prelude Lists F64 Heap Common Morton Spatial Builder Store Spec Spec_match Spec_frame Spec_sum Spec_move
  Builder_proofs Query_proofs Store_proofs History_proofs Binquery_proofs Frame_proofs Spatial_proofs Float_proofs Examples Props_match Props_sum Props_float.
From Coq Require Import ZifyBool.
Local Open Scope N_scope.

(** ** What is written *)
Lemma put_written f ops : written (map (put_op f) ops) = map (put_entry f) <$> written ops.
Proof.
  unfold written. assert (G : forall m : gmap (N * N) (list grid_entry),
    foldl written_step (map (put_entry f) <$> m) (map (put_op f) ops) = map (put_entry f) <$> foldl written_step m ops); [|by rewrite <- G, fmap_empty].
  induction ops as [|o ops IH]; intros m; [done|]. cbn [map foldl]. rewrite <- IH. f_equal.
  destruct o as [k es|k es|k r s i h cs|bs]; cbn [put_op written_step]; [by rewrite fmap_insert| | |done].
  - rewrite fmap_insert, lookup_fmap. f_equal. destruct (m !! k); cbn; by rewrite ?List.map_app.
  - rewrite fmap_insert, lookup_fmap. f_equal.
    assert (E : compact_entries r s i h (map f cs) = map (put_entry f) (compact_entries r s i h cs)).
    { unfold compact_entries. rewrite !List.map_map. apply List.map_ext. by intros [x y]. }
    rewrite E. destruct (m !! k); cbn; by rewrite ?List.map_app.
Qed.
Lemma put_loaded f ops : loaded (map (put_op f) ops) = loaded ops.
Proof.
  unfold loaded. generalize (@nil N). induction ops as [|o ops IH]; intros bs; [done|]. cbn [map foldl]. rewrite IH. by destruct o.
Qed.
Lemma written_cells ops k es e : written ops !! k = Some es -> e ∈ es -> (ge_x e, ge_y e) ∈ cells ops.
Proof.
  unfold written.
  assert (G : forall ops (m : gmap (N * N) (list grid_entry)) (P : N * N -> Prop), (forall k es e, m !! k = Some es -> e ∈ es -> P (ge_x e, ge_y e)) -> (forall c, c ∈ cells ops -> P c) ->
    forall k es e, foldl written_step m ops !! k = Some es -> e ∈ es -> P (ge_x e, ge_y e)).
  { clear. induction ops as [|o ops IH]; intros m P Hm Hc; [exact Hm|]. cbn [foldl]. apply IH.
    - assert (Ho : forall c, c ∈ op_cells o -> P c). { intros c H. apply Hc. apply elem_of_mjoin. exists (op_cells o). split; [done|left]. }
      destruct o as [k es|k es|k r s i h cs|bs]; cbn [written_step op_cells] in *; [| | |exact Hm]; intros k' es' e H He;
        apply lookup_insert_Some in H as [[<- <-]|[_ H]]; try (by eapply Hm).
      + apply Ho. apply elem_of_map. by exists e.
      + apply elem_of_app in He as [He|He]; [|apply Ho; apply elem_of_map; by exists e].
        destruct (m !! k) as [es0|] eqn:E; [by eapply Hm|by apply elem_of_nil in He].
      + apply elem_of_app in He as [He|He].
        * destruct (m !! k) as [es0|] eqn:E; [by eapply Hm|by apply elem_of_nil in He].
        * apply elem_of_map in He as ([x y] & -> & Hxy). by apply Ho.
    - intros c H. apply Hc. unfold cells in *. cbn [map]. change (mjoin (?a :: ?b)) with (a ++ mjoin b). apply elem_of_app. by right. }
  intros H He. eapply (G ops ∅ (fun c => c ∈ cells ops)); [|done|exact H|exact He]. intros ? ? ? X. by rewrite lookup_empty in X.
Qed.

(** ** What is seen *)
Lemma box_in b e : box_sel b e = true <-> in_box b (ge_x e, ge_y e).
Proof. destruct b as [b|]; cbn; [|done]. rewrite !andb_true_iff, !N.leb_le. lia. Qed.
Lemma dist_same p p' c c' : p.1 < 2 ^ 16 -> p.2 < 2 ^ 16 -> p'.1 < 2 ^ 16 -> p'.2 < 2 ^ 16 ->
  c.1 < 2 ^ 16 -> c.2 < 2 ^ 16 -> c'.1 < 2 ^ 16 -> c'.2 < 2 ^ 16 -> sq_dist p c = sq_dist p' c' ->
  tile_dist p.1 p.2 c.1 c.2 = tile_dist p'.1 p'.2 c'.1 c'.2.
Proof.
  intros. eapply same_float; [by apply C37_correctly_rounded| |by apply tile_dist_pos..].
  assert (E : dist2 p.1 p.2 c.1 c.2 = dist2 p'.1 p'.2 c'.1 c'.2) by (unfold sq_dist, dist2 in *; nia).
  rewrite E. by apply C37_correctly_rounded.
Qed.
Definition cell (e : grid_entry) : N * N := (ge_x e, ge_y e).
Definition on_grid (c : N * N) : Prop := c.1 < 2 ^ 16 /\ c.2 < 2 ^ 16.
Lemma put_query f cs o o' p r lang e : same_view f cs o o' -> opts_ok p o r -> opts_ok p o' r -> cell e ∈ cs ->
  on_grid (cell e) -> on_grid (f (cell e)) ->
  query_match o' r lang (put_entry f e) = put_match f (query_match o r lang e).
Proof.
  intros [_ _ Hp Hz] [_ Ho] [_ Ho'] Hin [G1 G2] [G3 G4].
  assert (Hd : query_distance o' (put_entry f e) = query_distance o e).
  { unfold query_distance. destruct (mo_prox o) as [[px py]|], (mo_prox o') as [[px' py']|]; try done.
    symmetry. apply (dist_same (px, py) (px', py') (cell e) (f (cell e))); try done; try tauto. by apply Hp. }
  unfold query_match, put_match. cbn [me_entry me_lang me_distance me_scoredist].
  assert (Hn : query_nearby o' r (put_entry f e) = query_nearby o r e).
  { unfold query_nearby. rewrite Hd, Hz. by destruct (mo_prox o), (mo_prox o'). }
  assert (Hs : query_scoredist o' r (put_entry f e) = query_scoredist o r e).
  { unfold query_scoredist. rewrite Hd, Hz. by destruct (mo_prox o), (mo_prox o'). }
  by rewrite Hd, Hn, Hs.
Qed.
Lemma put_snap f e : snap (put_entry f e) = put_entry f (snap e).
Proof. done. Qed.
Lemma history_grid ops k es e : history_ok ops -> written ops !! k = Some es -> e ∈ es -> on_grid (cell e).
Proof.
  intros [Ho _] H He. pose proof (written_cells ops k es e H He) as Hc. unfold cells in Hc.
  apply elem_of_mjoin in Hc as (l & Hl & Hin). apply elem_of_map in Hin as (o & -> & Hin). rewrite Forall_forall in Ho. specialize (Ho o Hin).
  unfold cell. destruct o as [k' es'|k' es'|k' r s i h cs|bs]; cbn [op_cells op_ok] in *.
  1, 2: destruct Ho as [_ Ho]; rewrite Forall_forall in Ho; apply elem_of_map in Hl as (e' & -> & He'); specialize (Ho e' He'); split; apply Ho.
  - destruct Ho as (_ & _ & _ & _ & Ho). rewrite Forall_forall in Ho. apply (Ho _ Hl).
  - by apply elem_of_nil in Hl.
Qed.

(** ** C91 The same data elsewhere on the grid *)
(** The same calls with the cells put elsewhere: a query that sees them there as the other
    one does here answers the same matches, put elsewhere. *)
Theorem C91_view :
  forall f p mtb tb mtb' tb' o o' ops s s' k opts opts' max out out',
  history_ok ops -> history_ok (map (put_op f) ops) -> built o ops s -> built o' (map (put_op f) ops) s' ->
  st_radius s = st_radius s' -> same_view f (cells ops) opts opts' ->
  opts_ok p opts (st_radius s) -> opts_ok p opts' (st_radius s') -> query_ok ops (mk_phrase k) -> query_ok (map (put_op f) ops) (mk_phrase k) ->
  1 <= max -> N.of_nat (size (written ops)) <= max ->
  streaming_get_matching p mtb tb s k opts max = Ok out ->
  streaming_get_matching p mtb' tb' s' k opts' max = Ok out' ->
  (forall m, m ∈ out' <-> m ∈ map (put_match f) out) /\
  (from_singles ops (mk_phrase k) -> out' ≡ₚ map (put_match f) out).
Proof.
  intros f p mtb tb mtb' tb' o o' ops s s' k opts opts' max out out' Hh Hh' Hb Hb' Hr Hv Ho Ho' Hq Hq' Hmax Hsz E E'.
  assert (Hsz' : N.of_nat (size (written (map (put_op f) ops))) <= max) by (rewrite put_written, map_size_fmap; done).
  assert (Hgrid : forall k es e, written ops !! k = Some es -> e ∈ es -> cell e ∈ cells ops /\ on_grid (cell e) /\ on_grid (f (cell e))).
  { intros k' es e H He. split; [by eapply written_cells|]. split; [by apply (history_grid ops k' es e)|].
    assert (H' : written (map (put_op f) ops) !! k' = Some (map (put_entry f) es)) by (rewrite put_written, lookup_fmap, H; done).
    assert (He' : put_entry f e ∈ map (put_entry f) es) by (apply elem_of_map; by exists e).
    pose proof (history_grid _ _ _ _ Hh' H' He') as G. destruct (f (cell e)) as [u v] eqn:Ef. unfold cell, put_entry in G. unfold cell in Ef. rewrite Ef in G. exact G. }
  destruct k as [ph lang]. cbn [mk_phrase] in *.
  set (a := Asking ops s ph (mo_bbox opts)). set (a' := Asking (map (put_op f) ops) s' ph (mo_bbox opts')).
  destruct opts as [box prox zoom], opts' as [box' prox' zoom']. pose proof (sv_zoom _ _ _ _ Hv) as Ez. cbn [mo_zoom mo_bbox] in *. subst zoom'.
  assert (Hf : fair p prox zoom max a) by (split; [done|]; split; [by exists o|]; done).
  assert (Hf' : fair p prox' zoom max a') by (split; [done|]; split; [by exists o'|]; done).
  assert (Hbox : forall e, cell e ∈ cells ops -> box_sel box' (put_entry f e) = box_sel box e).
  { intros e He. pose proof (sv_box _ _ _ _ Hv (cell e) He) as G. cbn [mo_bbox] in G. apply eq_true_iff_eq. rewrite !box_in.
    unfold cell in G. rewrite G. cbn [put_entry ge_x ge_y]. by destruct (f (ge_x e, ge_y e)). }
  assert (Hcon : forall k e', concerns a' k e' <-> exists e, concerns a k e /\ e' = put_entry f e).
  { intros k e'. unfold concerns. cbn [a_ops a_phrase a_box a a']. split.
    - intros (es' & w' & H & Hin & -> & Hph & Hbs). rewrite put_written, lookup_fmap in H.
      destruct (written ops !! k) as [es|] eqn:Hw; [|done]. cbn in H. injection H as <-.
      apply elem_of_map in Hin as (w & -> & Hin). exists (snap w). split; [|apply put_snap].
      exists es, w. do 4 (split; [done|]). rewrite <- Hbox; [done|]. by eapply Hgrid.
    - intros (e & (es & w & H & Hin & -> & Hph & Hbs) & ->). exists (map (put_entry f) es), (put_entry f w).
      split; [by rewrite put_written, lookup_fmap, H|]. split; [apply elem_of_map; by exists w|]. split; [by rewrite put_snap|]. split; [done|].
      rewrite Hbox; [done|]. by eapply Hgrid. }
  assert (Hqm : forall k e, concerns a k e -> query_match (MatchOpts box' prox' zoom) (st_radius s') (lang_sel lang k.2) (put_entry f e) =
    put_match f (query_match (MatchOpts box prox zoom) (st_radius s) (lang_sel lang k.2) e)).
  { intros k e (es & w & H & Hin & -> & _). destruct (Hgrid k es w H Hin) as (G1 & G2 & G3). rewrite <- Hr in Ho' |- *.
    by eapply (put_query f (cells ops) (MatchOpts box prox zoom) (MatchOpts box' prox' zoom) p). }
  split.
  - intros m.
    assert (Hel : forall prox (a : asking) mtb tb out, fair p prox zoom max a -> answer p mtb tb prox zoom max lang a out -> forall m, m ∈ out <->
      exists k e, concerns a k e /\ m = query_match (MatchOpts (a_box a) prox zoom) (st_radius (a_store a)) (lang_sel lang k.2) e).
    { clear. intros prox a mtb tb o' (Hh & [o Hb] & Hop & Hq & Hmax & Hsz) Ha m'.
      destruct (C11_selects p mtb tb o (a_ops a) (a_store a) (MatchKey (a_phrase a) lang) (MatchOpts (a_box a) prox zoom) max Hh Hb Hop Hq Hmax Hsz) as (o2 & R & E).
      assert (o2 = o') by (unfold answer in Ha; congruence). subst o2. rewrite E. split.
      - intros (key & es & e & W1 & W2 & W3 & W4 & ->). exists key, (snap e). split; [|done]. by exists es, e.
      - intros (k & e & (es & w & W1 & W2 & -> & W3 & W4) & ->). by exists k, es, w. }
    rewrite (Hel prox' a' mtb' tb' out' Hf' E'), elem_of_map. split.
    + intros (k & e' & Hc & ->). apply Hcon in Hc as (e & Hc & ->). cbn [a_box a_store a']. rewrite Hqm by done.
      eexists. split; [done|]. apply (Hel prox a mtb tb out Hf E). by exists k, e.
    + intros (m0 & -> & Hm0). apply (Hel prox a mtb tb out Hf E) in Hm0 as (k & e & Hc & ->). exists k, (put_entry f e).
      split; [apply Hcon; by exists e|]. cbn [a_box a_store a a']. by rewrite Hqm.
  - intros Hs. assert (Hs' : from_singles (map (put_op f) ops) ph) by (unfold from_singles in *; by rewrite put_loaded).
    destruct (listing_of _ _ _ _ _ Hf) as (L & Hn & Hin & Hout). destruct (listing_of _ _ _ _ _ Hf') as (L' & Hn' & Hin' & Hout').
    rewrite (Hout mtb tb lang out Hs E), (Hout' mtb' tb' lang out' Hs' E').
    assert (HL : L' ≡ₚ map (fun x : (N * N) * grid_entry => (x.1, put_entry f x.2)) L).
    { apply NoDup_Permutation; [done| |].
      - apply (NoDup_fmap_2_strong (fun x : (N * N) * grid_entry => (x.1, put_entry f x.2))); [|done].
        intros [k1 e1] [k2 e2] H1 H2 X. cbn [fst snd] in X. apply Hin in H1 as (es1 & w1 & W1 & I1 & -> & _), H2 as (es2 & w2 & W2 & I2 & -> & _).
        assert (k1 = k2) by congruence. assert (X' : put_entry f (snap w1) = put_entry f (snap w2)) by congruence. clear X. subst k2. f_equal.
        assert (Ec : f (cell w1) = f (cell w2)).
        { rewrite (surjective_pairing (f (cell w1))), (surjective_pairing (f (cell w2))). f_equal; [by apply (f_equal ge_x) in X'|by apply (f_equal ge_y) in X']. }
        apply (sv_inj _ _ _ _ Hv) in Ec; [|apply (Hgrid _ _ _ W1 I1)|apply (Hgrid _ _ _ W2 I2)].
        assert (F1 := f_equal ge_relev X'). assert (F2 := f_equal ge_score X'). assert (F3 := f_equal ge_id X'). assert (F4 := f_equal ge_hash X').
        cbn [put_entry snap ge_relev ge_score ge_id ge_hash] in F1, F2, F3, F4. unfold cell in Ec. injection Ec as Ex Ey.
        unfold snap. by rewrite F1, F2, F3, F4, Ex, Ey.
      - intros [k' e']. rewrite Hin', Hcon, elem_of_map. split.
        + intros (e & Hc & ->). exists (k', e). split; [done|]. by apply Hin.
        + intros ([k e] & X & Hkl). cbn [fst snd] in X. injection X as -> ->. exists e. split; [by apply Hin|done]. }
    rewrite HL. rewrite !List.map_map. cbn [fst snd a_box a_store a a'].
    erewrite List.map_ext_in; [done|]. intros [k e] Hx. cbn [fst snd]. apply Hqm. apply Hin. by apply elem_of_list_In.
Qed.
Print Assumptions C91_view.

(** ** Motions *)
Lemma move_grid m c : stays m c -> on_grid (move m c) /\ Z.of_N (move m c).1 = (moved m c).1 /\ Z.of_N (move m c).2 = (moved m c).2.
Proof. unfold stays, on_grid, move. cbn [fst snd]. lia. Qed.
Lemma axis (t : bool) (d : Z) x x0 x1 u u0 u1 : x0 <= x1 ->
  Z.of_N u = (if t then d - Z.of_N x else d + Z.of_N x)%Z -> Z.of_N u0 = (if t then d - Z.of_N x0 else d + Z.of_N x0)%Z ->
  Z.of_N u1 = (if t then d - Z.of_N x1 else d + Z.of_N x1)%Z ->
  (x0 <= x /\ x <= x1) <-> (N.min u0 u1 <= u /\ u <= N.max u0 u1).
Proof. destruct t; lia. Qed.
Lemma motion_view m ops o : fits m (cells ops) o -> same_view (move m) (cells ops) o (move_opts m o).
Proof.
  intros (Hc & Hb & Hp). split; [| | |done].
  - intros c d Hin Hin' E. destruct (move_grid m c (Hc c Hin)) as (_ & E1 & E2), (move_grid m d (Hc d Hin')) as (_ & E3 & E4).
    rewrite E in E1, E2. rewrite E3 in E1. rewrite E4 in E2. clear E E3 E4. destruct c as [x y], d as [x' y'], m as [sw fx fy dx dy].
    unfold moved in E1, E2. cbn in E1, E2. destruct sw, fx, fy; cbn in E1, E2; f_equal; lia.
  - intros c Hin. destruct o as [[b|] p z]; [|done]. cbn [move_opts mo_bbox mo_prox mo_zoom] in *.
    destruct (Hb b eq_refl) as (S0 & S1 & L1 & L2). cbn. unfold move_box, in_box. cbn [bb_x0 bb_y0 bb_x1 bb_y1].
    destruct (move_grid m c (Hc c Hin)) as (_ & E1 & E2), (move_grid m _ S0) as (_ & E3 & E4), (move_grid m _ S1) as (_ & E5 & E6).
    revert E1 E2 E3 E4 E5 E6. generalize (move m c), (move m (bb_x0 b, bb_y0 b)), (move m (bb_x1 b, bb_y1 b)). intros [u v] [u0 v0] [u1 v1].
    clear -L1 L2. destruct c as [x y], m as [sw fx fy dx dy]. unfold moved. cbn [fst snd mv_swap mv_turn_x mv_turn_y mv_dx mv_dy]. intros E1 E2 E3 E4 E5 E6.
    destruct sw; cbn [fst snd] in *.
    + pose proof (axis fx dx y _ _ u u0 u1 L2 E1 E3 E5). pose proof (axis fy dy x _ _ v v0 v1 L1 E2 E4 E6). rewrite <- E1, <- E2, <- E3, <- E4, <- E5, <- E6, !N2Z.id. tauto.
    + pose proof (axis fx dx x _ _ u u0 u1 L1 E1 E3 E5). pose proof (axis fy dy y _ _ v v0 v1 L2 E2 E4 E6). rewrite <- E1, <- E2, <- E3, <- E4, <- E5, <- E6, !N2Z.id. tauto.
  - destruct o as [b [p|] z]; [|done]. cbn [move_opts mo_bbox mo_prox mo_zoom] in *. cbn. intros c Hin.
    destruct (move_grid m c (Hc c Hin)) as (_ & E1 & E2), (move_grid m _ (Hp p eq_refl)) as (_ & E3 & E4).
    unfold sq_dist. rewrite E1, E2, E3, E4. clear. destruct c as [x y], p as [px py], m as [sw fx fy dx dy]. unfold moved. destruct sw, fx, fy; cbn -[Z.add Z.sub Z.mul Z.opp]; ring.
Qed.
Lemma motion_opts m ops o p r : fits m (cells ops) o -> opts_ok p o r -> opts_ok p (move_opts m o) r.
Proof.
  intros (_ & Hb & Hp) [Ho1 Ho2]. split.
  - destruct o as [[b|] pt z]; [|done]. cbn. right. apply interleave_mono; lia.
  - destruct o as [b [pt|] z]; [|done]. cbn [move_opts mo_prox mo_zoom] in *. cbn. destruct (move_grid m pt (Hp pt eq_refl)) as ((G1 & G2) & _). tauto.
Qed.
Lemma motion_history m ops o : fits m (cells ops) o -> history_ok ops -> history_ok (map (put_op (move m)) ops).
Proof.
  intros (Hc & _) [Ho Hw]. split.
  - rewrite !Forall_forall in *. intros o' Hin. apply elem_of_map in Hin as (o0 & -> & Hin). specialize (Ho o0 Hin).
    assert (Hs : forall c, c ∈ op_cells o0 -> stays m c).
    { intros c Hcin. apply Hc. unfold cells. apply elem_of_mjoin. exists (op_cells o0). split; [done|]. apply elem_of_map. by exists o0. }
    clear Hc. assert (Hes : forall es, op_cells o0 = map (fun e => (ge_x e, ge_y e)) es -> Forall entry_ok es -> Forall entry_ok (map (put_entry (move m)) es)).
    { intros es E. rewrite !Forall_forall. intros Hes e He. apply elem_of_map in He as (w & -> & Hw'). specialize (Hes w Hw').
      destruct (move_grid m (ge_x w, ge_y w)) as ((G1 & G2) & _); [apply Hs; rewrite E; apply elem_of_map; by exists w|].
      unfold entry_ok, put_entry in *. cbn [ge_score ge_x ge_y ge_id ge_hash]. tauto. }
    destruct o0 as [k es|k es|k r s i h cs|bs]; cbn [put_op op_ok op_cells] in *; [split; [apply Ho|apply Hes; [done|apply Ho]]..| |done].
    destruct Ho as (H1 & H2 & H3 & H4 & H5). do 4 (split; [done|]). rewrite Forall_forall. intros c Hcin.
    apply elem_of_map in Hcin as (c0 & -> & Hcin). destruct (move_grid m c0 (Hs c0 Hcin)) as (G & _). exact G.
  - intros k es H. rewrite put_written, lookup_fmap in H. destruct (written ops !! k) as [es0|] eqn:E; [|done]. cbn in H. injection H as <-.
    rewrite map_length. by apply (Hw k).
Qed.
Lemma motion_query f ops ph : ~ bin_query ops ph -> query_ok ops ph -> query_ok (map (put_op f) ops) ph.
Proof. destruct ph as [|a b]; [done|]. cbn. rewrite put_loaded. tauto. Qed.

(** Exchange the axes, turn them round and shift the data, the box and the point: the
    matches move along, with the same distances and scores. *)
Theorem C91_motion :
  forall m p mtb tb mtb' tb' o o' ops s s' k opts max out out',
  history_ok ops -> built o ops s -> built o' (map (put_op (move m)) ops) s' -> st_radius s = st_radius s' ->
  opts_ok p opts (st_radius s) -> query_ok ops (mk_phrase k) -> from_singles ops (mk_phrase k) ->
  fits m (cells ops) opts -> 1 <= max -> N.of_nat (size (written ops)) <= max ->
  streaming_get_matching p mtb tb s k opts max = Ok out ->
  streaming_get_matching p mtb' tb' s' k (move_opts m opts) max = Ok out' ->
  out' ≡ₚ map (put_match (move m)) out.
Proof.
  intros m p mtb tb mtb' tb' o o' ops s s' k opts max out out' Hh Hb Hb' Hr Ho Hq Hs Hf Hmax Hsz E E'.
  assert (Hn : ~ bin_query ops (mk_phrase k)) by (destruct (mk_phrase k); simpl in *; tauto).
  refine (proj2 (C91_view (move m) p mtb tb mtb' tb' o o' ops s s' k opts (move_opts m opts) max out out' Hh _ Hb Hb' Hr _ Ho _ Hq _ Hmax Hsz E E') Hs).
  - by eapply motion_history.
  - by apply motion_view.
  - rewrite <- Hr. by eapply motion_opts.
  - by apply motion_query.
Qed.
Print Assumptions C91_motion.

(** Refuted: the same for a query with a limit. Which records a limit keeps depends on where
    on the grid they are: one step aside, another match is returned. *)
Definition ex_step : motion := Motion false false false 1 1.
Definition ex_here : list op :=
  [OpInsert (1, 1) [GridEntry f_one 7 7 7 1 1; GridEntry f_one 7 11 11 2 1];
   OpInsert (2, 1) [GridEntry f_one 7 10 10 3 1]].
Definition ex_there : list op := map (put_op (move ex_step)) ex_here.
Definition ex_step_key : match_key := MatchKey (Range 1 3) 1.
Definition ex_step_opts : match_opts := MatchOpts (Some (BBox 0 0 20 20)) (Some (8, 8)) 14.
Definition ex_ask (ops : list op) (o : match_opts) (max : N) : list match_entry :=
  match streaming_get_matching Debug first_mtb first_tb (ex_store ops) ex_step_key o max with Ok l => l | _ => [] end.
Lemma ex_ask_ok :
  streaming_get_matching Debug first_mtb first_tb (ex_store ex_here) ex_step_key ex_step_opts 1 = Ok (ex_ask ex_here ex_step_opts 1) /\
  streaming_get_matching Debug first_mtb first_tb (ex_store ex_there) ex_step_key (move_opts ex_step ex_step_opts) 1 = Ok (ex_ask ex_there (move_opts ex_step ex_step_opts) 1) /\
  streaming_get_matching Debug first_mtb first_tb (ex_store ex_here) ex_step_key ex_step_opts 10 = Ok (ex_ask ex_here ex_step_opts 10) /\
  streaming_get_matching Debug first_mtb first_tb (ex_store ex_there) ex_step_key (move_opts ex_step ex_step_opts) 10 = Ok (ex_ask ex_there (move_opts ex_step ex_step_opts) 10).
Proof. split; [|split; [|split]]; vm_compute; reflexivity. Qed.
Lemma ex_step_fits : fits ex_step (cells ex_here) ex_step_opts.
Proof.
  split; [|split].
  - intros c Hc. change (cells ex_here) with [(7, 7); (11, 11); (10, 10)] in Hc. rewrite !elem_of_cons, elem_of_nil in Hc.
    destruct Hc as [->|[->|[->|[]]]]; split; cbn; lia.
  - intros b Hb. injection Hb as <-. split; [split; cbn; lia|]. split; [split; cbn; lia|]. cbn. lia.
  - intros p Hp. injection Hp as <-. split; cbn; lia.
Qed.
Lemma ex_step_ok : history_ok ex_here /\ built id_oracle ex_here (ex_store ex_here) /\ built id_oracle ex_there (ex_store ex_there) /\
  st_radius (ex_store ex_here) = st_radius (ex_store ex_there) /\ opts_ok Debug ex_step_opts (st_radius (ex_store ex_here)) /\
  query_ok ex_here (mk_phrase ex_step_key) /\ from_singles ex_here (mk_phrase ex_step_key) /\ N.of_nat (size (written ex_here)) <= 10.
Proof.
  split; [apply history_okb_ok; vm_compute; done|]. split; [apply built_run; vm_compute; reflexivity|]. split; [apply built_run; vm_compute; reflexivity|].
  split; [vm_compute; reflexivity|]. split; [split; [right; vm_compute; discriminate|]; cbn; split; [lia|split; [lia|vm_compute; done]]|].
  split; [cbn; split; [lia|]; change (loaded ex_here) with (@nil N); intros H; by apply elem_of_nil in H|].
  split; [|vm_compute; discriminate]. cbn. change (loaded ex_here) with (@nil N). intros [H _]. by apply elem_of_nil in H.
Qed.
Theorem C91_limit_refuted :
  exists m p mtb tb o ops s s' k opts out out',
    history_ok ops /\ built o ops s /\ built o (map (put_op (move m)) ops) s' /\ st_radius s = st_radius s' /\
    opts_ok p opts (st_radius s) /\ query_ok ops (mk_phrase k) /\ from_singles ops (mk_phrase k) /\ fits m (cells ops) opts /\
    streaming_get_matching p mtb tb s k opts 1 = Ok out /\
    streaming_get_matching p mtb tb s' k (move_opts m opts) 1 = Ok out' /\
    ~ (forall x, x ∈ map (ge_id ∘ me_entry) out <-> x ∈ map (ge_id ∘ me_entry) out').
Proof.
  destruct ex_step_ok as (H1 & H2 & H3 & H4 & H5 & H6 & H7 & _). destruct ex_ask_ok as (E1 & E2 & _).
  exists ex_step, Debug, first_mtb, first_tb, id_oracle, ex_here, (ex_store ex_here), (ex_store ex_there), ex_step_key, ex_step_opts,
    (ex_ask ex_here ex_step_opts 1), (ex_ask ex_there (move_opts ex_step ex_step_opts) 1).
  split; [exact H1|]. split; [exact H2|]. split; [exact H3|]. split; [exact H4|]. split; [exact H5|]. split; [exact H6|]. split; [exact H7|].
  split; [exact ex_step_fits|]. split; [exact E1|]. split; [exact E2|]. clear.
  assert (I1 : map (ge_id ∘ me_entry) (ex_ask ex_here ex_step_opts 1) = [3]) by (vm_compute; reflexivity).
  assert (I2 : map (ge_id ∘ me_entry) (ex_ask ex_there (move_opts ex_step ex_step_opts) 1) = [1; 2]) by (vm_compute; reflexivity).
  rewrite I1, I2. intros H. specialize (H 3). rewrite !elem_of_cons, elem_of_nil in H. lia.
Qed.
Print Assumptions C91_limit_refuted.
Example C91_ex :
  history_ok ex_here /\ built id_oracle ex_here (ex_store ex_here) /\ built id_oracle ex_there (ex_store ex_there) /\
  st_radius (ex_store ex_here) = st_radius (ex_store ex_there) /\ opts_ok Debug ex_step_opts (st_radius (ex_store ex_here)) /\
  query_ok ex_here (mk_phrase ex_step_key) /\ from_singles ex_here (mk_phrase ex_step_key) /\ N.of_nat (size (written ex_here)) <= 10 /\
  fits ex_step (cells ex_here) ex_step_opts /\ same_view (move ex_step) (cells ex_here) ex_step_opts (move_opts ex_step ex_step_opts) /\
  map xy_id (ex_ask ex_here ex_step_opts 10) = [(10, 10, 3); (11, 11, 2); (7, 7, 1)] /\
  map xy_id (ex_ask ex_there (move_opts ex_step ex_step_opts) 10) = [(8, 8, 1); (11, 11, 3); (12, 12, 2)].
Proof.
  destruct ex_step_ok as (H1 & H2 & H3 & H4 & H5 & H6 & H7 & H8).
  split; [exact H1|]. split; [exact H2|]. split; [exact H3|]. split; [exact H4|]. split; [exact H5|]. split; [exact H6|]. split; [exact H7|].
  split; [exact H8|]. split; [exact ex_step_fits|]. split; [apply motion_view, ex_step_fits|]. split; vm_compute; reflexivity.
Qed.
