(** Matching queries return exactly the selected entries. *)
From Verif Require Import Prelude Lists F64 Heap Common Morton Format Builder Spatial Store Spec Spec_match
  Bits_proofs Record_proofs Builder_proofs Finish_proofs Store_proofs Spatial_proofs
  Cmp_proofs Merge_proofs Float_proofs.
From Coq Require Import Sorting.Sorted.
From Coq Require Import ZifyBool.
Local Open Scope N_scope.

Lemma mjoin_map_perm {A B} (f : A -> list B) l1 l2 : l1 ≡ₚ l2 -> mjoin (map f l1) ≡ₚ mjoin (map f l2).
Proof. intros H. apply mjoin_perm. by apply Permutation_map. Qed.
Lemma mjoin_app2 {A} (l1 l2 : list (list A)) : mjoin (l1 ++ l2) = mjoin l1 ++ mjoin l2.
Proof. induction l1 as [|x l IH]; simpl; [done|]. by rewrite IH, app_assoc. Qed.
Lemma mjoin_mjoin {A} (l : list (list (list A))) : mjoin (mjoin l) = mjoin (map mjoin l).
Proof. induction l as [|x l IH]; simpl; [done|]. by rewrite mjoin_app2, IH. Qed.
Lemma filter_mjoin {A} (f : A -> bool) (l : list (list A)) :
  List.filter f (mjoin l) = mjoin (map (List.filter f) l).
Proof. induction l as [|x l IH]; simpl; [done|]. by rewrite List.filter_app, IH. Qed.
Lemma mjoin_map_filter {A B} (f : A -> bool) (g : A -> list B) l :
  mjoin (map g (List.filter f l)) = mjoin (map (fun a => if f a then g a else []) l).
Proof. induction l as [|x l IH]; simpl; [done|]. destruct (f x); simpl; by rewrite IH. Qed.
Lemma map_mjoin_map {A B C} (f : B -> C) (g : A -> list B) (l : list A) :
  map f (mjoin (map g l)) = mjoin (map (fun a => map f (g a)) l).
Proof. by rewrite map_mjoin, map_map. Qed.

Lemma radius_max z : (if z <? 6 then 6 else z) = N.max 6 z.
Proof. destruct (N.ltb_spec z 6); lia. Qed.

Section record.
  Context (p : profile) (tb : merge_tb) (data : bytes) (o : match_opts) (lang : bool) (radius : f64).
  Hypothesis Ho : opts_ok p o radius.

  Definition ids_at (off : N) : list N :=
    match read_fixed_vec data off with Ok ids => ids | _ => [] end.
  Definition coords_at (off : N) : list coord :=
    match read_uniform_vec data off with Ok cs => cs | _ => [] end.
  Definition cell_triples (rs : N) (c : coord) : list (N * N * N) :=
    map (fun v => (rs, c_coord c, v)) (ids_at (c_ids c)).
  Definition rs_triples (rs : relev_score) : list (N * N * N) :=
    mjoin (map (cell_triples (rs_value rs)) (coords_at (rs_coords rs))).
  Definition rs_good (rs : relev_score) : Prop :=
    exists coords, read_uniform_vec data (rs_coords rs) = Ok coords /\ descending coords /\
      Forall (fun c => c_coord c < 2 ^ 32 /\ exists ids, read_fixed_vec data (c_ids c) = Ok ids) coords.

  Lemma select_coords_ok coords :
    descending coords ->
    exists sel, select_coords p o coords = Ok sel /\
      sel ≡ₚ List.filter (fun c => match mo_bbox o with Some b => in_bbox b c | None => true end) coords.
  Proof.
    intros Hd. destruct Ho as [Hb Hp]. unfold select_coords.
    destruct (mo_bbox o) as [b|], (mo_prox o) as [pt|].
    - destruct (bbox_proximity_ok p coords b pt Hd Hb) as (r & -> & Hr & _). eauto.
    - destruct (bbox_filter_exact p coords b Hd Hb) as (r & -> & Hr). cbn [res_bind]. eexists.
      split; [done|]. by rewrite Hr.
    - destruct (proximity_ok coords pt Hd) as (r & -> & Hr & _). cbn [res_bind]. eexists.
      split; [done|]. rewrite Hr. by rewrite filter_all.
    - cbn [res_bind]. eexists. split; [done|]. by rewrite filter_all.
  Qed.

  Lemma in_box_cell rs c v :
    box_sel (mo_bbox o) (unpack3 (rs, c_coord c, v)) =
    match mo_bbox o with Some b => in_bbox b c | None => true end.
  Proof.
    unfold box_sel, in_bbox, unpack3. destruct (mo_bbox o) as [b|]; [|done].
    cbn [ge_x ge_y]. destruct (deinterleave (c_coord c)) as [x y]. cbn [fst snd].
    destruct (N.leb_spec (bb_x0 b) x), (N.leb_spec x (bb_x1 b)),
      (N.leb_spec (bb_y0 b) y), (N.leb_spec y (bb_y1 b)); done.
  Qed.

  Lemma mk_match_query rs c v :
    mk_match (unpack_relev rs) lang (score_cell o radius (unpack_score rs) c) v =
    query_match o radius lang (unpack3 (rs, c_coord c, v)).
  Proof.
    unfold mk_match, query_match, query_nearby, query_scoredist, query_distance, score_cell, unpack3.
    cbn [ge_relev ge_score ge_x ge_y ge_id ge_hash].
    destruct (deinterleave (c_coord c)) as [x y]. cbn [fst snd].
    destruct (mo_prox o) as [[px py]|]; done.
  Qed.

  Definition sel_stream (rs : relev_score) (s : list scored) : Prop :=
    exists sel, s = map (score_cell o radius (unpack_score (rs_value rs))) sel /\
      sel ≡ₚ List.filter (fun c => match mo_bbox o with Some b => in_bbox b c | None => true end)
                         (coords_at (rs_coords rs)).

  Lemma streams_ok rss :
    Forall rs_good rss ->
    exists ss, res_mapM (fun rs =>
        let* coords := read_uniform_vec data (rs_coords rs) in
        let* sel := select_coords p o coords in
        Ok (map (score_cell o radius (unpack_score (rs_value rs))) sel)) rss = Ok ss /\
      Forall2 sel_stream rss ss.
  Proof.
    induction 1 as [|rs rss (coords & Hc & Hd & _) H IH].
    - exists []. split; [done|constructor].
    - destruct IH as (ss & E & HF). destruct (select_coords_ok coords Hd) as (sel & Hs & Hp).
      exists (map (score_cell o radius (unpack_score (rs_value rs))) sel :: ss). split.
      + cbn [res_mapM]. rewrite Hc. cbn [res_bind]. rewrite Hs. cbn [res_bind]. rewrite E. done.
      + constructor; [|done]. exists sel. split; [done|]. unfold coords_at. by rewrite Hc.
  Qed.

  Lemma score_cell_not_nan score c :
    c_coord c < 2 ^ 32 -> f_is_nan (sc_dist (score_cell o radius score c)) = false.
  Proof.
    intros Hc. unfold score_cell. destruct (deinterleave_lt (c_coord c) 16 Hc) as [Hx Hy].
    destruct (deinterleave (c_coord c)) as [x y]. cbn [fst snd] in *.
    destruct Ho as [_ Hp]. destruct (mo_prox o) as [[px py]|].
    - destruct Hp as (Hpx & Hpy & Hr). cbn [fst snd sc_dist] in *.
      apply scoredist_not_nan; [by apply tile_dist_pos|]. rewrite radius_max.
      unfold f_finite. by destruct (proximity_radius _ _).
    - apply f_of_N_not_nan.
  Qed.
  Lemma score_cell_ids score c : sc_ids (score_cell o radius score c) = c_ids c.
  Proof.
    unfold score_cell. destruct (deinterleave (c_coord c)) as [x y]. by destruct (mo_prox o) as [[px py]|].
  Qed.
  Lemma score_cell_score score c : sc_score (score_cell o radius score c) = score.
  Proof.
    unfold score_cell. destruct (deinterleave (c_coord c)) as [x y]. by destruct (mo_prox o) as [[px py]|].
  Qed.

  (** Every scored cell of a good group. *)
  Lemma stream_elem rs ss s :
    rs_good rs -> sel_stream rs ss -> s ∈ ss ->
    exists c, s = score_cell o radius (unpack_score (rs_value rs)) c /\
      c_coord c < 2 ^ 32 /\ read_fixed_vec data (c_ids c) = Ok (ids_at (c_ids c)).
  Proof.
    intros (coords & Hc & Hd & Hall) (sel & -> & Hp) Hs. apply elem_of_map in Hs as (c & -> & Hin).
    exists c. split; [done|]. rewrite Hp in Hin. apply elem_of_filter in Hin as [Hin _].
    unfold coords_at in Hin. rewrite Hc in Hin. rewrite Forall_forall in Hall.
    destruct (Hall c Hin) as (Hlt & ids & Hids). split; [done|]. unfold ids_at. by rewrite Hids.
  Qed.

  Lemma group_ok r rss :
    Forall rs_good rss -> Forall (fun rs => unpack_relev (rs_value rs) = r) rss ->
    exists out, decode_relev_group p tb data o lang radius (r, rss) = Ok out /\
      out ≡ₚ map (query_match o radius lang)
               (List.filter (box_sel (mo_bbox o)) (map unpack3 (mjoin (map rs_triples rss)))) /\
      (mo_prox o = None -> StronglySorted (desc key_cmp) out /\
         Forall (fun m => ge_relev (me_entry m) = fmul r (if lang then f_one else f_096)) out).
  Proof.
    intros Hg Hr. destruct (streams_ok rss Hg) as (ss & E & HF).
    assert (Hel : forall s, s ∈ mjoin ss ->
              f_is_nan (sc_dist s) = false /\ read_fixed_vec data (sc_ids s) = Ok (ids_at (sc_ids s))).
    { intros s Hs. apply elem_of_mjoin in Hs as (l & Hs & Hl).
      apply elem_of_list_lookup in Hl as [i Hi].
      destruct (Forall2_lookup_r _ _ _ _ _ HF Hi) as (rs & Hrs & Hsel).
      rewrite Forall_lookup in Hg. destruct (stream_elem rs l s (Hg _ _ Hrs) Hsel Hs) as (c & -> & Hc & Hids).
      rewrite score_cell_ids. split; [by apply score_cell_not_nan|done]. }
    unfold decode_relev_group. cbn [fst snd]. rewrite E. cbn [res_bind].
    assert (Hnp : kmerge_panics ss = false).
    { unfold kmerge_panics. destruct (List.filter nonempty ss) as [|s1 [|s2 ss']]; [done..|].
      apply not_true_is_false. intros Hex. apply List.existsb_exists in Hex as (l & Hl & Hex).
      apply List.existsb_exists in Hex as (s & Hs & Hnan).
      destruct (Hel s) as [Hn _]; [|congruence]. apply elem_of_mjoin. exists l.
      split; by apply elem_of_list_In. }
    rewrite Hnp.
    set (cmp := fun a b : scored => ord_cmp (sc_dist a) (sc_dist b)).
    assert (Hcmp : total_cmp cmp) by apply (total_cmp_proj sc_dist), total_cmp_ord.
    assert (Hk : kmerge scoredist_before tb ss = kmerge_loop (gtb cmp) (length (mjoin ss)) (tb scored ss) ss).
    { unfold kmerge. apply kmerge_loop_ext. intros a b Ha Hb. unfold scoredist_before, gtb, cmp.
      destruct (Hel a Ha) as [Na _]. destruct (Hel b Hb) as [Nb _]. by rewrite SFcompare_ord. }
    set (km := kmerge scoredist_before tb ss) in *.
    assert (Hperm : km ≡ₚ mjoin ss) by (rewrite Hk; by apply kmerge_loop_perm).
    rewrite (res_mapM_pure _ (fun s => map (mk_match r lang s) (ids_at (sc_ids s)))).
    2: { intros s Hs. rewrite Hperm in Hs. destruct (Hel s Hs) as [_ ->]. done. }
    cbn [res_bind]. eexists. split; [done|]. split.
    - rewrite (mjoin_map_perm _ _ _ Hperm). rewrite map_mjoin, mjoin_mjoin, map_map.
      rewrite map_mjoin_map, filter_mjoin, map_map, map_mjoin_map. clear E Hel Hnp Hk Hperm.
      induction HF as [|rs s rss ss Hs HF IH]; [done|].
      inversion Hg as [|? ? Hg1 Hg2]; inversion Hr as [|? ? Hr1 Hr2]; subst. simpl.
      rewrite (IH Hg2 Hr2). apply Permutation_app; [|done]. clear IH HF.
      destruct Hs as (sel & -> & Hp). rewrite map_map.
      rewrite (mjoin_map_perm _ _ _ Hp). clear Hp.
      unfold rs_triples. rewrite map_mjoin_map, filter_mjoin, map_map, map_mjoin_map.
      rewrite mjoin_map_filter. clear Hg1. induction (coords_at (rs_coords rs)) as [|c cs IH]; [done|].
      simpl. rewrite IH. apply Permutation_app; [|done]. clear IH.
      rewrite score_cell_ids. unfold cell_triples. rewrite map_map.
      destruct (match mo_bbox o with Some b => in_bbox b c | None => true end) eqn:Eb.
      + rewrite filter_all.
        * rewrite map_map. erewrite List.map_ext; [done|]. intros v. apply mk_match_query.
        * intros x Hx. apply elem_of_map in Hx as (v & -> & _). by rewrite in_box_cell.
      + rewrite filter_none; [done|].
        intros x Hx. apply elem_of_map in Hx as (v & -> & _). by rewrite in_box_cell.
    - intros Hprox.
      assert (Hcell : forall s, s ∈ km -> sc_within s = false).
      { intros s Hs. rewrite Hperm in Hs. apply elem_of_mjoin in Hs as (l & Hs & Hl).
        apply elem_of_list_lookup in Hl as [i Hi].
        destruct (Forall2_lookup_r _ _ _ _ _ HF Hi) as (rs & Hrs & Hsel).
        rewrite Forall_lookup in Hg. destruct (stream_elem rs l s (Hg _ _ Hrs) Hsel Hs) as (c & -> & _).
        unfold score_cell. rewrite Hprox. by destruct (deinterleave (c_coord c)). }
      assert (Hrel : forall s v, s ∈ km -> ge_relev (me_entry (mk_match r lang s v)) =
                fmul r (if lang then f_one else f_096)).
      { intros s v Hs. cbn [mk_match me_entry ge_relev]. rewrite (Hcell s Hs). by rewrite orb_false_r. }
      split.
      2: { apply Forall_forall. intros m Hm. apply elem_of_mjoin in Hm as (l & Hm & Hl).
           apply elem_of_map in Hl as (s & -> & Hs). apply elem_of_map in Hm as (v & -> & _).
           by apply Hrel. }
      assert (Hsorted : StronglySorted (desc cmp) km).
      { rewrite Hk. apply kmerge_loop_sorted; [done|done|].
        apply Forall_forall. intros l Hl. apply elem_of_list_lookup in Hl as [i Hi].
        destruct (Forall2_lookup_r _ _ _ _ _ HF Hi) as (rs & Hrs & (sel & -> & _)).
        clear -Hprox Hcmp. induction sel as [|c sel IH]; simpl; [constructor|]. constructor; [done|].
        apply Forall_forall. intros s Hs. apply elem_of_map in Hs as (c' & -> & _).
        unfold desc, cmp, score_cell. rewrite Hprox.
        destruct (deinterleave (c_coord c)), (deinterleave (c_coord c')). cbn [sc_dist].
        by rewrite (tc_refl _ total_cmp_ord). }
      clear -Hsorted Hrel.
      induction Hsorted as [|s km H IH Hall]; simpl; [constructor|].
      apply StronglySorted_app. split; [|split].
      + induction (ids_at (sc_ids s)) as [|v vs IHv]; simpl; [constructor|]. constructor; [done|].
        apply Forall_forall. intros m Hm. apply elem_of_map in Hm as (v' & -> & _).
        unfold desc, key_cmp. cbn [mk_match me_entry ge_relev me_scoredist].
        rewrite (tc_refl _ total_cmp_ord). simpl. by rewrite (tc_refl _ total_cmp_ord).
      + apply IH. intros s' v Hs'. apply Hrel. by right.
      + intros a b Ha Hb. apply elem_of_map in Ha as (v & -> & _).
        apply elem_of_mjoin in Hb as (l & Hm & Hl). apply elem_of_map in Hl as (s' & -> & Hs').
        apply elem_of_map in Hm as (v' & -> & _). unfold desc, key_cmp.
        rewrite !Hrel by (try left; try right; done). rewrite (tc_refl _ total_cmp_ord). simpl.
        rewrite Forall_forall in Hall. by apply Hall.
  Qed.
End record.

(** ** A whole record *)
Definition level (v : N) : N := N.min 3 (N.shiftr v 4).
Lemma unpack_relev_level v : unpack_relev v = relev_int_to_float (level v).
Proof.
  unfold unpack_relev, level. set (n := N.shiftr v 4). clearbody n.
  destruct (N.le_gt_cases n 3); [by rewrite N.min_r|]. rewrite N.min_l by lia.
  unfold relev_int_to_float.
  replace (n =? 0) with false by lia. replace (n =? 1) with false by lia.
  replace (n =? 2) with false by lia. done.
Qed.
Lemma level_mono a b : a <= b -> level a <= level b.
Proof. intros H. unfold level. rewrite !N.shiftr_div_pow2. pose proof (N.div_le_mono a b (2 ^ 4)). lia. Qed.
Lemma level_cases v : level v = 0 \/ level v = 1 \/ level v = 2 \/ level v = 3.
Proof. unfold level. lia. Qed.
Definition lang_factor (lang : bool) : f64 := if lang then f_one else f_096.
Lemma level_relev_lt lang a b :
  level a < level b ->
  ord_cmp (fmul (unpack_relev a) (lang_factor lang)) (fmul (unpack_relev b) (lang_factor lang)) = Lt.
Proof.
  rewrite !unpack_relev_level.
  destruct (level_cases a) as [->|[->|[->| ->]]], (level_cases b) as [->|[->|[->| ->]]]; intros; try lia;
    destruct lang; vm_compute; done.
Qed.
Lemma feqb_level a b :
  feqb (unpack_relev a) (unpack_relev b) = true <-> level a = level b.
Proof.
  rewrite !unpack_relev_level.
  destruct (level_cases a) as [->|[->|[->| ->]]], (level_cases b) as [->|[->|[->| ->]]];
    (split; [|done]); vm_compute; done.
Qed.

Section whole.
  Context (p : profile) (tb : merge_tb) (data : bytes) (o : match_opts) (lang : bool) (radius : f64).
  Hypothesis Ho : opts_ok p o radius.

  Lemma groups_matches rss gs :
    grouping (fun rs => unpack_relev (rs_value rs)) feqb rss gs ->
    Forall (rs_good data) rss -> StronglySorted (fun a b => rs_value b < rs_value a) rss ->
    exists outs, res_mapM (decode_relev_group p tb data o lang radius) gs = Ok outs /\
      mjoin outs ≡ₚ map (query_match o radius lang)
        (List.filter (box_sel (mo_bbox o)) (map unpack3 (mjoin (map (rs_triples data) rss)))) /\
      (mo_prox o = None -> StronglySorted (desc key_cmp) (mjoin outs) /\
         Forall (fun m => exists rs, rs ∈ rss /\
           ge_relev (me_entry m) = fmul (unpack_relev (rs_value rs)) (lang_factor lang)) (mjoin outs)).
  Proof.
    assert (Hone : forall a run, Forall (rs_good data) (a :: run) ->
      Forall (fun b => feqb (unpack_relev (rs_value a)) (unpack_relev (rs_value b)) = true) run ->
      exists out, decode_relev_group p tb data o lang radius (unpack_relev (rs_value a), a :: run) = Ok out /\
        out ≡ₚ map (query_match o radius lang)
                 (List.filter (box_sel (mo_bbox o)) (map unpack3 (mjoin (map (rs_triples data) (a :: run))))) /\
        (mo_prox o = None -> StronglySorted (desc key_cmp) out /\
           Forall (fun m => ge_relev (me_entry m) = fmul (unpack_relev (rs_value a)) (lang_factor lang)) out)).
    { intros a run Hg Hrun. apply (group_ok p tb data o lang radius Ho); [done|]. constructor; [done|].
      eapply Forall_impl; [exact Hrun|]. cbv beta. intros b Hb. apply feqb_level in Hb.
      by rewrite !unpack_relev_level, Hb. }
    induction 1 as [|a run Hrun|a run b l gs Hrun Hne Hgr IH]; intros Hg Hs.
    - exists []. split; [done|]. split; [done|]. intros _. split; constructor.
    - destruct (Hone a run Hg Hrun) as (out & E & Hp & Hprox). exists [out].
      split; [|split].
      + cbn [res_mapM]. rewrite E. done.
      + simpl. rewrite app_nil_r. done.
      + intros H0. destruct (Hprox H0) as [H1 H2]. cbn [mjoin list_join foldr]. simpl. rewrite app_nil_r.
        split; [done|]. eapply Forall_impl; [exact H2|]. cbv beta. intros m Hm. exists a. split; [left|done].
    - assert (Hg1 : Forall (rs_good data) (a :: run)).
      { inversion Hg as [|? ? Ha Hg']; subst. constructor; [done|]. by apply Forall_app in Hg' as [? _]. }
      assert (Hg2 : Forall (rs_good data) (b :: l)).
      { inversion Hg as [|? ? Ha Hg']; subst. by apply Forall_app in Hg' as [_ ?]. }
      assert (Hs2 : StronglySorted (fun a b => rs_value b < rs_value a) (b :: l)).
      { inversion Hs as [|? ? Hs' _]; subst. by apply StronglySorted_app in Hs' as (_ & ? & _). }
      destruct (Hone a run Hg1 Hrun) as (out & E & Hp & Hprox).
      destruct (IH Hg2 Hs2) as (outs & E2 & Hp2 & Hprox2).
      exists (out :: outs). split; [|split].
      + cbn [res_mapM]. rewrite E. cbn [res_bind]. rewrite E2. done.
      + change (mjoin (out :: outs)) with (out ++ mjoin outs). rewrite Hp, Hp2.
        change (a :: run ++ b :: l) with ((a :: run) ++ b :: l).
        by rewrite (map_app (rs_triples data)), mjoin_app2, !map_app, List.filter_app, map_app.
      + intros H0. destruct (Hprox H0) as [H1 H2]. destruct (Hprox2 H0) as [H3 H4].
        change (mjoin (out :: outs)) with (out ++ mjoin outs). split.
        * apply StronglySorted_app. split; [done|]. split; [done|]. intros x y Hx Hy.
          rewrite Forall_forall in H2, H4. destruct (H4 y Hy) as (rs & Hrs & Ey).
          unfold desc, key_cmp. rewrite (H2 x Hx), Ey.
          rewrite level_relev_lt; [done|].
          assert (Hab : level (rs_value b) < level (rs_value a)).
          { assert (rs_value b < rs_value a).
            { inversion Hs as [|? ? _ Hall]; subst. rewrite Forall_forall in Hall. apply Hall.
              apply elem_of_app. right. left. }
            pose proof (level_mono (rs_value b) (rs_value a)).
            assert (level (rs_value a) <> level (rs_value b)); [|lia].
            intros Heq. apply feqb_level in Heq. congruence. }
          assert (Hrb : rs_value rs <= rs_value b).
          { apply elem_of_cons in Hrs as [->|Hrs]; [lia|].
            inversion Hs2 as [|? ? _ Hall]; subst. rewrite Forall_forall in Hall.
            pose proof (Hall rs Hrs). lia. }
          pose proof (level_mono _ _ Hrb). lia.
        * apply Forall_app. split.
          -- eapply Forall_impl; [exact H2|]. cbv beta. intros m Hm. exists a. split; [left|done].
          -- eapply Forall_impl; [exact H4|]. cbv beta. intros m (rs & Hrs & Hm). exists rs.
             split; [|done]. right. apply elem_of_app. by right.
  Qed.

  Lemma record_matches_ok n :
    reads data n -> rec_wf n -> StronglySorted (fun a b => b.1 < a.1) n ->
    (forall g, g ∈ n -> StronglySorted (fun a b => b.1 < a.1) g.2) ->
    exists out, decode_matching_value p tb data o lang radius = Ok out /\
      out ≡ₚ map (query_match o radius lang)
               (List.filter (box_sel (mo_bbox o)) (map unpack3 (rec_triples n))) /\
      (mo_prox o = None -> StronglySorted (desc key_cmp) out).
  Proof.
    intros (root & rss & Hr & Hv & Hg) Hwf Hsn Hsc. unfold decode_matching_value.
    rewrite Hr. cbn [res_bind]. rewrite Hv. cbn [res_bind].
    assert (Hall : Forall (rs_good data) rss /\ mjoin (map (rs_triples data) rss) = rec_triples n /\
                   StronglySorted (fun a b => rs_value b < rs_value a) rss /\
                   (forall m, Forall (fun g : N * list (N * list N) => g.1 < m) n ->
                      Forall (fun rs => rs_value rs < m) rss)).
    { clear Hr Hv. unfold rec_wf in Hwf. unfold rec_triples.
      induction Hg as [|rs [r cells] rss n (Hrs & coords & Hc & Hcells) Hg IH].
      - repeat split; constructor.
      - inversion Hwf as [|? ? [Hr Hcw] Hwf']; subst. inversion Hsn as [|? ? Hsn' Hhd]; subst.
        destruct IH as (IH1 & IH2 & IH3 & IH4); [done|done|intros; apply Hsc; by right|].
        pose proof (Hsc (r, cells) ltac:(left)) as Hsr. cbn [fst snd] in *.
        assert (Hcs : descending coords /\
          (forall m, Forall (fun c : N * list N => c.1 < m) cells -> Forall (fun c => c_coord c < m) coords) /\
          Forall (fun c => c_coord c < 2 ^ 32 /\ exists ids, read_fixed_vec data (c_ids c) = Ok ids) coords /\
          mjoin (map (cell_triples data r) coords) =
            mjoin (map (fun c : N * list N => map (fun v => (r, c.1, v)) c.2) cells)).
        { clear -Hcells Hcw Hsr. induction Hcells as [|c [z ids] coords cells [Hz Hids] H IH].
          - repeat split; constructor.
          - inversion Hcw as [|? ? [Hz1 _] Hcw']; subst. inversion Hsr as [|? ? Hsr' Hall]; subst.
            destruct (IH Hcw' Hsr') as (I1 & I2 & I3 & I4). cbn [fst snd] in *.
            split; [|split; [|split]].
            + constructor; [done|]. rewrite Hz. by apply I2.
            + intros m Hm. inversion Hm; subst. constructor; [cbn [fst] in *; lia|by apply I2].
            + constructor; [|done]. split; [lia|]. eauto.
            + simpl. rewrite I4. f_equal. unfold cell_triples, ids_at. by rewrite Hids, Hz. }
        destruct Hcs as (C1 & _ & C3 & C4).
        split; [|split; [|split]].
        + constructor; [|done]. exists coords. done.
        + simpl. rewrite IH2. f_equal. unfold rs_triples, coords_at. by rewrite Hc, Hrs.
        + constructor; [done|]. rewrite Hrs. by apply IH4.
        + intros m Hm. inversion Hm; subst. constructor; [cbn [fst] in *; lia|by apply IH4]. }
    destruct Hall as (G1 & G2 & G3 & _).
    destruct (groups_matches rss _ (eager_groupby_grouping (fun rs => unpack_relev (rs_value rs)) feqb rss) G1 G3)
      as (outs & E & Hp & Hprox).
    rewrite E. cbn [res_bind]. eexists. split; [done|]. rewrite <- G2. split; [done|].
    intros H0. by destruct (Hprox H0).
  Qed.
End whole.

(** A record of the builder. *)
Lemma enc_matches p tb o lang radius be :
  opts_ok p o radius -> rec_wf (norm be) -> N.of_nat (length (enc be)) < 2 ^ 32 ->
  exists out, decode_matching_value p tb (enc be) o lang radius = Ok out /\
    out ≡ₚ map (query_match o radius lang) (List.filter (box_sel (mo_bbox o)) (record_of be)) /\
    (mo_prox o = None -> StronglySorted (desc key_cmp) out).
Proof.
  intros Ho Hwf Hl. apply record_matches_ok; [done|by apply encode_record_reads|done|apply norm_sorted|].
  intros [rs cs] Hin. apply elem_norm in Hin as (cells & _ & ->). apply norm_cells_sorted.
Qed.
