(** Property C74: every entry of a result was written, was asked for, and lies where the
    query asks. *)
From Verif Require Import Prelude Lists F64 Heap Common Builder Spatial Store Spec Spec_match Query Coalesce Stackable Tree
  Spec_coalesce Coalesce_proofs Multi_proofs Spec_stack Stack_proofs Spec_tree Tree_proofs Examples Props_match Props_coalesce
  Props_stack Props_tree Spec_native Native_proofs Props_native Profile_proofs Props_zoom Spec_ground.
From Coq Require Import ZifyBool.
Local Open Scope N_scope.

(** What an answer of either build says about the calls. *)
Lemma answer_written p mtb tb ho ops s k o max out m :
  history_ok ops -> built ho ops s -> opts_ok Release o (st_radius s) -> query_ok ops (mk_phrase k) -> 1 <= max ->
  streaming_get_matching p mtb tb s k o max = Ok out -> m ∈ out -> should_match ops k o (st_radius s) m.
Proof.
  intros Hh Hb Ho Hq Hmax H Hm.
  assert (H' : streaming_get_matching Release mtb tb s k o max = Ok out).
  { destruct p; [|done]. destruct (ps_matching mtb tb s k o max) as [E|E]; rewrite H in E; [done|by symmetry]. }
  destruct (C11_limited Release mtb tb ho ops s k o max Hh Hb Ho Hq Hmax) as (out' & Hs' & Hel & _).
  assert (out' = out) by congruence. subst out'. by apply Hel.
Qed.

(** The options at the zoom of a layer. *)
Lemma ground_same z b x y : shares_ground z b z x y <-> in_box b x y.
Proof.
  unfold shares_ground, ancestor. split.
  - intros [H _]. destruct (H ltac:(lia)) as (x0 & y0 & Hb & E). cbn in E. rewrite N.sub_diag, N.pow_0_r, !N.div_1_r in E. by injection E as <- <-.
  - intros H. split; [|lia]. intros _. exists x, y. split; [done|]. cbn. by rewrite N.sub_diag, N.pow_0_r, !N.div_1_r.
Qed.
Lemma place_same z pt : place z pt z = pt.
Proof. unfold place, ancestor. destruct (z <=? z) eqn:E; [|lia]. rewrite N.sub_diag, N.pow_0_r, !N.div_1_r. by destruct pt. Qed.
Lemma place_out z z' pt : z' <= z -> place z pt z' = ancestor (z - z') pt.
Proof. intros H. unfold place. destruct (z' <=? z) eqn:E; [done|lia]. Qed.
Lemma point_in p z z' pt : z < z' -> z' <= 15 -> tile_at z pt -> adjust_point_zoom p pt z z' = Ok (place z pt z').
Proof.
  intros Hz Hz' [Hx Hy]. unfold adjust_point_zoom, place. destruct (z' <? z) eqn:E; [lia|]. destruct (z' <=? z) eqn:E'; [lia|].
  rewrite scale_ok by lia. cbn [res_bind]. destruct (half_lt (z' - z) ltac:(lia)) as [Hm1 Hm2].
  assert (Hmid : usub p 16 (2 ^ (z' - z) / 2) 1 = Ok (2 ^ (z' - z) / 2 - 1)).
  { unfold usub. destruct (1 <=? 2 ^ (z' - z) / 2) eqn:E1; [done|]. lia. }
  rewrite Hmid. cbn [res_bind]. rewrite mul_ok by (done || lia). cbn [res_bind]. rewrite add_ok by (done || lia). cbn [res_bind].
  rewrite mul_ok by (done || lia). cbn [res_bind]. rewrite add_ok by (done || lia). done.
Qed.
Lemma adjusted p o z' zo : sane o -> z' <= 15 -> adjust_to_zoom p o z' = Ok zo ->
  mo_zoom zo = z' /\
  match mo_bbox o, mo_bbox zo with
  | None, None => True
  | Some b, Some b' => forall x y, in_box b' x y <-> shares_ground (mo_zoom o) b z' x y
  | _, _ => False
  end /\
  match mo_prox o, mo_prox zo with
  | None, None => True
  | Some pt, Some pt' => tile_at z' pt' /\ pt' = place (mo_zoom o) pt z'
  | _, _ => False
  end.
Proof.
  intros (Hz & Hpt & Hbb) Hz' H. destruct (N.lt_trichotomy z' (mo_zoom o)) as [Hlt|[->|Hlt]].
  - destruct (C32_zoom_out p o z') as (o' & E & Z & P & B); [lia|lia|]. assert (o' = zo) as -> by congruence.
    split; [done|]. split.
    + destruct (mo_bbox o) as [b|] eqn:Eb, (mo_bbox zo) as [b'|]; try done. destruct (Hbb b eq_refl) as (_ & X & Y).
      intros x y. rewrite (B X Y x y). unfold shares_ground. split; [intros H0; split; [done|lia]|]. intros [H0 _]. apply H0. lia.
    + rewrite P. destruct (mo_prox o) as [pt|] eqn:Ep; [|done]. cbn [option_map]. split; [|by rewrite place_out by lia].
      destruct (Hpt pt eq_refl) as [X Y]. split; cbn [ancestor fst snd]; apply N.div_lt_upper_bound; try (by apply N.pow_nonzero);
        rewrite N.mul_comm, <- pow_split; try done; lia.
  - unfold adjust_to_zoom in H. rewrite N.eqb_refl in H. injection H as <-. split; [done|]. split.
    + destruct (mo_bbox o) as [b|]; [|done]. intros x y. by rewrite ground_same.
    + destruct (mo_prox o) as [pt|]; [|done]. split; [by apply Hpt|by rewrite place_same].
  - destruct (C32_zoom_in p o z') as (o' & E & Z & P & P' & B); [lia|lia|lia|done|intros b Eb; by apply Hbb|].
    assert (o' = zo) as -> by congruence. split; [done|]. split.
    + destruct (mo_bbox o) as [b|] eqn:Eb, (mo_bbox zo) as [b'|]; try done. destruct B as [_ B].
      intros x y. rewrite (B x y). unfold shares_ground. cbn [ancestor fst snd]. split; [intros H0; split; [lia|done]|]. intros [_ H0]. apply H0. lia.
    + destruct (mo_prox o) as [pt|] eqn:Ep, (mo_prox zo) as [pt'|] eqn:Ep'; cbn in P; try done.
      split; [by apply P'|]. unfold adjust_to_zoom in H. destruct (mo_zoom o =? z') eqn:En; [lia|].
      rewrite Ep in H. cbn [res_option] in H. rewrite (point_in p _ _ _ Hlt Hz' (Hpt pt eq_refl)) in H. cbn [res_bind] in H.
      apply bind_Ok in H as (bb & _ & H). injection H as <-. cbn [mo_prox] in Ep'. by injection Ep' as <-.
Qed.
Lemma adjusted_ok o pm zo : sane o -> zoom_of pm <= 15 -> mo_zoom zo = zoom_of pm ->
  match mo_prox o, mo_prox zo with
  | None, None => True
  | Some pt, Some pt' => tile_at (zoom_of pm) pt' /\ pt' = place (mo_zoom o) pt (zoom_of pm)
  | _, _ => False
  end ->
  match proximity_radius (N.max 6 (zoom_of pm)) (st_radius (sq_store pm)) with
  | S754_zero _ | S754_finite _ _ _ => True
  | _ => False
  end -> opts_ok Release zo (st_radius (sq_store pm)).
Proof.
  intros Hs Hz Ez Hp Hr. split; [destruct (mo_bbox zo); [by left|done]|].
  destruct (mo_prox zo) as [pt'|]; [|done]. destruct (mo_prox o) as [pt|]; [|done]. destruct Hp as [[X Y] _]. rewrite Ez.
  assert (2 ^ zoom_of pm <= 2 ^ 15) by (apply N.pow_le_mono_r; lia). change (2 ^ 16) with 65536. change (2 ^ 15) with 32768 in *.
  split; [lia|]. split; [lia|exact Hr].
Qed.

(** A match of the records written, with the options [zo], gives such an entry. *)
Lemma match_came ops pm k zo m e pid : should_match ops (mki_key k) zo (st_radius (sq_store pm)) m -> to_entry pm pid m e ->
  came_from ops pm k e /\ forall b, mo_bbox zo = Some b -> in_box b (e_cell e).1 (e_cell e).2.
Proof.
  intros (key & es & w & Hw & Hsel & Hin & Hbox & ->) (E1 & E2 & E3 & E4 & _ & _ & _ & E8). split.
  - exists key, es, w. rewrite E1, E2, E8. cbn -[N.pow N.modulo]. repeat (split; [done|]).
    exists (if lang_sel (mk_lang (mki_key k)) key.2 || query_nearby zo (st_radius (sq_store pm)) (snap w) then f_one else f_lit 96 100).
    split; [|done]. destruct (lang_sel _ _); cbn [orb]; [by left|]. destruct (query_nearby _ _ _); [by left|by right].
  - intros b Eb. unfold e_cell. rewrite E1. cbn. unfold box_sel in Hbox. rewrite Eb in Hbox. unfold in_box. lia.
Qed.

Lemma level_ground p mtb tb o n pm e ops :
  level_entry p mtb tb o n pm e -> 1 <= n -> sane o -> written_by ops pm ->
  exists k, k ∈ sq_keys pm /\ mki_id k = ce_phrasematch_id e /\ came_from ops pm k e /\ lies_in o pm e /\
    (mki_nearby k = true -> lies_near o pm e).
Proof.
  intros (k & g & (ko & out & Hk & (zo & Hzo & Hko) & Hs & Hg) & Hto) Hn Hsane (Hh & [ho Hb] & Hz & Hq & Hr).
  destruct (adjusted p o (zoom_of pm) zo Hsane Hz Hzo) as (Ez & Ab & Ap).
  pose proof (adjusted_ok o pm zo Hsane Hz Ez Ap Hr) as Hok.
  exists k. split; [done|]. split; [by destruct Hto as (_ & _ & _ & _ & _ & _ & <- & _)|].
  assert (Hplain : ko = zo -> came_from ops pm k e /\ lies_in o pm e).
  { intros ->. pose proof (answer_written _ _ _ _ _ _ _ _ _ _ _ Hh Hb Hok (Hq k Hk) Hn Hs Hg) as Hm.
    destruct (match_came _ _ _ _ _ _ _ Hm Hto) as [Hc Hbox]. split; [done|]. intros b Eb. rewrite Eb in Ab.
    destruct (mo_bbox zo) as [b'|]; [|done]. apply Ab. by apply Hbox. }
  destruct (mki_nearby k) eqn:Enear; [|injection Hko as <-; destruct (Hplain eq_refl); done].
  destruct (mo_prox zo) as [[px py]|] eqn:Ep.
  - destruct (mo_prox o) as [pt|] eqn:Eo; [|done]. destruct Ap as [Ht Hp].
    destruct (C34_nearby p zo px py Ep) as (b' & Eb' & Hin & _); [lia|by rewrite Ez|].
    assert (ko = MatchOpts (Some b') (Some (px, py)) (mo_zoom zo)) as -> by congruence.
    assert (Hok' : opts_ok Release (MatchOpts (Some b') (Some (px, py)) (mo_zoom zo)) (st_radius (sq_store pm))).
    { split; [by left|]. destruct Hok as [_ Hok]. by rewrite Ep in Hok. }
    pose proof (answer_written _ _ _ _ _ _ _ _ _ _ _ Hh Hb Hok' (Hq k Hk) Hn Hs Hg) as Hm.
    destruct (match_came _ _ _ _ _ _ _ Hm Hto) as [Hc Hbox]. specialize (Hbox b' eq_refl). apply Hin in Hbox as (B1 & B2 & B3).
    split; [done|]. split.
    + intros b Eb. rewrite Eb in Ab. destruct (mo_bbox zo) as [b0|]; [|done]. by apply Ab.
    + intros _ pt0 Ept. rewrite Eo in Ept. injection Ept as <-. rewrite <- Hp. cbn [fst snd]. rewrite Ez in B2, B3. done.
  - assert (ko = zo) as ->. { unfold with_nearby_only in Hko. rewrite Ep in Hko. by injection Hko. }
    destruct (Hplain eq_refl) as [? ?]. split; [done|]. split; [done|]. intros _ pt Ept. by rewrite Ept in Ap.
Qed.

Lemma stack_levels p mtb tb o chain es : stack_of p mtb tb o chain es ->
  forall e, e ∈ es -> exists pm, pm ∈ chain /\ level_entry p mtb tb o 100000 pm e.
Proof.
  intros H. induction H as [pm e Hl|pm e pm' e' pms es Hl _ _ IH]; intros x Hx.
  - apply elem_of_list_singleton in Hx as ->. exists pm. split; [by left|done].
  - apply elem_of_cons in Hx as [->|Hx]; [exists pm; split; [by left|done]|].
    destruct (IH x Hx) as (q & Hq & ?). exists q. split; [by right|done].
Qed.

(** ** C74 Where results come from and where they lie *)
(** For each entry of a result of tree_coalesce there is a subquery and one of its keys:
    the entry was written for a phrase of the key, it lies in a tile that shares ground
    with the box of the query, and near the point if the key asks for that. *)
Theorem C74_tree :
  forall p ho mtb tb fuel pms o out c e calls,
  ids_name_keys (fun pm => pm ∈ pms) -> sane o -> (forall pm, pm ∈ pms -> written_by (calls pm) pm) ->
  tree_coalesce p ho mtb tb fuel (stackable pms) o = Ok out -> c ∈ out -> e ∈ cc_entries c ->
  exists pm k, pm ∈ pms /\ k ∈ sq_keys pm /\ mki_id k = ce_phrasematch_id e /\ came_from (calls pm) pm k e /\
    lies_in o pm e /\ (mki_nearby k = true -> lies_near o pm e).
Proof.
  intros p ho mtb tb fuel pms o out c e calls Hids Hs Hw H Hc He.
  destruct (C50_stacks p ho mtb tb fuel pms o out c Hids H Hc) as (chain & _ & Hleg & _ & _ & Hst).
  assert (Hl : exists pm n, pm ∈ pms /\ level_entry p mtb tb o n pm e /\ 1 <= n).
  { destruct Hst as [Hst|(pm & e' & -> & Ee & Hl)].
    - destruct (stack_levels _ _ _ _ _ _ Hst e He) as (pm & Hpm & Hl). exists pm, 100000. split; [|done].
      apply Hleg. apply elem_of_list_In. apply -> List.in_rev. by apply elem_of_list_In.
    - rewrite Ee in He. apply elem_of_list_singleton in He as ->. exists pm, 80. split; [|done]. apply Hleg. by left. }
  destruct Hl as (pm & n & Hpm & Hl & Hn). destruct (level_ground _ _ _ _ _ _ _ _ Hl Hn Hs (Hw pm Hpm)) as (k & ?). by exists pm, k.
Qed.
Print Assumptions C74_tree.
Theorem C74_request :
  forall p ho mtb tb pms o out c e calls,
  ids_name_keys (fun pm => pm ∈ pms) -> groups_agree pms -> sane o -> (forall pm, pm ∈ pms -> written_by (calls pm) pm) ->
  stack_and_coalesce p ho mtb tb pms o = Ok out -> c ∈ out -> e ∈ cc_entries c ->
  exists pm k, pm ∈ pms /\ k ∈ sq_keys pm /\ mki_id k = ce_phrasematch_id e /\ came_from (calls pm) pm k e /\
    lies_in o pm e /\ (mki_nearby k = true -> lies_near o pm e).
Proof.
  intros p ho mtb tb pms o out c e calls Hids Hg Hs Hw H Hc He.
  destruct (C59_sound p ho mtb tb pms o out c Hids Hg H Hc) as (chain & _ & Hleg & _ & _ & Hst).
  assert (Hl : exists pm n, pm ∈ pms /\ level_entry p mtb tb o n pm e /\ 1 <= n).
  { destruct Hst as [Hst|(pm & e' & -> & Ee & Hl)].
    - destruct (stack_levels _ _ _ _ _ _ Hst e He) as (pm & Hpm & Hl). exists pm, 100000. split; [|done].
      apply Hleg. apply elem_of_list_In. apply -> List.in_rev. by apply elem_of_list_In.
    - rewrite Ee in He. apply elem_of_list_singleton in He as ->. exists pm, 80. split; [|done]. apply Hleg. by left. }
  destruct Hl as (pm & n & Hpm & Hl & Hn). destruct (level_ground _ _ _ _ _ _ _ _ Hl Hn Hs (Hw pm Hpm)) as (k & ?). by exists pm, k.
Qed.
Print Assumptions C74_request.
(** The same for coalesce; it looks up the first key of each subquery, nearby or not. A
    single layer is not adjusted to: the options have to be at its zoom. *)
Theorem C74_coalesce :
  forall p ho mtb tb stack o out c e calls,
  sane o -> (forall sq, sq ∈ stack -> sq_mask sq <> 0 /\ written_by (calls sq) sq) ->
  (forall sq, stack = [sq] -> mo_zoom o = zoom_of sq) ->
  coalesce p ho mtb tb stack o = Ok out -> c ∈ out -> e ∈ cc_entries c ->
  exists sq k ks, sq ∈ stack /\ sq_keys sq = k :: ks /\ came_from (calls sq) sq k e /\ lies_in o sq e.
Proof.
  intros p ho mtb tb stack o out c e calls Hs Hw Hone H Hc He.
  assert (Hfin : forall sq k ks zo max ms g, sq ∈ stack -> sq_keys sq = k :: ks -> adjust_to_zoom p o (zoom_of sq) = Ok zo -> 1 <= max ->
    streaming_get_matching p mtb tb (sq_store sq) (mki_key k) zo max = Ok ms -> g ∈ ms -> to_entry sq 0 g e ->
    exists sq k ks, sq ∈ stack /\ sq_keys sq = k :: ks /\ came_from (calls sq) sq k e /\ lies_in o sq e).
  { intros sq k ks zo max ms g Hsq Hk Hzo Hmax Hms Hg Hto. destruct (Hw sq Hsq) as [_ (Hh & [ho' Hb] & Hz & Hq & Hr)].
    destruct (adjusted p o (zoom_of sq) zo Hs Hz Hzo) as (Ez & Ab & Ap).
    pose proof (adjusted_ok o sq zo Hs Hz Ez Ap Hr) as Hok.
    assert (Hk' : k ∈ sq_keys sq) by (rewrite Hk; by left).
    pose proof (answer_written _ _ _ _ _ _ _ _ _ _ _ Hh Hb Hok (Hq k Hk') Hmax Hms Hg) as Hm.
    destruct (match_came _ _ _ _ _ _ _ Hm Hto) as [Hc' Hbox]. exists sq, k, ks. split; [done|]. split; [done|]. split; [done|].
    intros b Eb. rewrite Eb in Ab. destruct (mo_bbox zo) as [b'|]; [|done]. apply Ab. by apply Hbox. }
  destruct stack as [|sq [|sq' stack]]; [done| |].
  - destruct (C42_backed p ho mtb tb sq o out H) as (k & ks & ms & Hk & Hms & Hall). destruct (Hall c Hc) as (g & Hg & e' & Ee & Hto & _).
    rewrite Ee in He. apply elem_of_list_singleton in He as ->.
    eapply (Hfin sq k ks o 80 ms g); try done; [by left|]. unfold adjust_to_zoom. by rewrite (Hone sq eq_refl), N.eqb_refl.
  - destruct (C44_contexts p ho mtb tb (sq :: sq' :: stack) o out c) as (z & e0 & es & total & Ee & H0 & Hes & _); try done.
    + cbn. lia.
    + intros a Ha. by apply Hw.
    + intros a b Ha Hb. destruct (Hw a Ha) as [_ (_ & _ & Z & _)]. unfold zoom_of in Z. lia.
    + assert (Hfrom : exists z', entry_from p mtb tb (sq :: sq' :: stack) o e z').
      { rewrite Ee in He. apply elem_of_cons in He as [->|He]; [by exists z|]. destruct (Hes e He) as (z' & ? & _). by exists z'. }
      destruct Hfrom as (z' & a & g & Ha & _ & (k & ks & zo & ms & Hk & Hzo & Hms & Hg) & Hto).
      eapply (Hfin a k ks zo max_grids_per_phrase ms g); try done.
Qed.
Print Assumptions C74_coalesce.

(** A box of four tiles of zoom 6, with the point in one of its corners. *)
Definition g_opts : match_opts := MatchOpts (Some (BBox 4 4 5 5)) (Some (4, 4)) 6.
Definition g_b : subquery :=
  Subquery (sq_store t_b) 1 0 (f_lit 1 2) 1 [MatchKeyWithId (MatchKey (Exact 1) 1) true 11 1].
Definition g_calls (pm : subquery) : list op := if sq_idx pm =? 0 then ops_a else ops_b.
Lemma g_sane : sane g_opts.
Proof.
  split; [apply N.leb_le; reflexivity|]. split.
  - intros pt E. injection E as <-. split; apply N.ltb_lt; reflexivity.
  - intros b E. injection E as <-. repeat split; try (apply N.ltb_lt; reflexivity); apply N.leb_le; reflexivity.
Qed.
Lemma g_written pm : pm ∈ [g_b; t_a] -> written_by (g_calls pm) pm.
Proof.
  intros H. repeat (apply elem_of_cons in H as [->|H]); [| |by apply elem_of_nil in H].
  all: split; [apply history_okb_ok; vm_compute; reflexivity|]; split; [exists id_oracle; apply built_run; vm_compute; reflexivity|].
  all: split; [apply N.leb_le; vm_compute; reflexivity|]; split; [|vm_compute; exact I].
  all: intros k Hk; apply elem_of_list_singleton in Hk as ->; apply N.ltb_lt; reflexivity.
Qed.
Example C74_ex :
  ids_name_keys (fun pm => pm ∈ [g_b; t_a]) /\ sane g_opts /\ (forall pm, pm ∈ [g_b; t_a] -> written_by (g_calls pm) pm) /\
  summary (tree_coalesce Debug rev_oracle first_mtb last_tb 9 (stackable [g_b; t_a]) g_opts) =
    Some [(3, [(1, 2); (0, 2)]); (1, [(1, 2)]); (2, [(0, 2)])] /\
  summary (stack_and_coalesce Debug rev_oracle first_mtb last_tb [g_b; t_a] g_opts) =
    Some [(3, [(1, 2); (0, 2)]); (1, [(1, 2)]); (2, [(0, 2)])] /\
  summary (coalesce Debug rev_oracle first_mtb last_tb [g_b; t_a] g_opts) = Some [(3, [(1, 2); (0, 2)])].
Proof.
  split; [apply distinct_ids; vm_compute; repeat (constructor; [set_solver|]); constructor|].
  split; [exact g_sane|]. split; [exact g_written|]. repeat split; vm_compute; reflexivity.
Qed.

(** coalesce does not keep to the neighbourhood of the point: an entry 7900 tiles away,
    of a key that asks for nearby results only, is returned. *)
Definition g_far_ops : list op := layer_ops 1 [GridEntry f_one 1 8000 8000 1 0].
Definition g_far : subquery :=
  Subquery (open_store (ex_db id_oracle g_far_ops) 14 1 (f_of_N 40) [BBox 0 0 16383 16383] f_one)
    0 0 (f_lit 1 2) 1 [MatchKeyWithId (MatchKey (Exact 1) 1) true 11 1].
Definition g_far_opts : match_opts := MatchOpts None (Some (100, 100)) 14.
Theorem C74_nearby_refuted :
  exists sq o out c e, sane o /\ written_by g_far_ops sq /\ mo_zoom o = zoom_of sq /\ (forall k, k ∈ sq_keys sq -> mki_nearby k = true) /\
    coalesce Debug id_oracle first_mtb last_tb [sq] o = Ok out /\ c ∈ out /\ e ∈ cc_entries c /\ ~ lies_near o sq e /\
    stack_and_coalesce Debug id_oracle first_mtb last_tb [sq] o = Ok [].
Proof.
  exists g_far, g_far_opts. destruct (coalesce Debug id_oracle first_mtb last_tb [g_far] g_far_opts) as [out| | |] eqn:E;
    try (vm_compute in E; discriminate E). vm_compute in E. injection E as <-. do 3 eexists.
  split.
  { split; [apply N.leb_le; reflexivity|]. split; [|done]. intros pt Ept. injection Ept as <-. split; apply N.ltb_lt; reflexivity. }
  split.
  { split; [apply history_okb_ok; vm_compute; reflexivity|]. split; [exists id_oracle; apply built_run; vm_compute; reflexivity|].
    split; [apply N.leb_le; vm_compute; reflexivity|]. split; [|vm_compute; exact I].
    intros k Hk. apply elem_of_list_singleton in Hk as ->. apply N.ltb_lt; reflexivity. }
  split; [reflexivity|]. split; [intros k Hk; by apply elem_of_list_singleton in Hk as ->|]. split; [reflexivity|].
  split; [apply elem_of_list_here|]. split; [apply elem_of_list_here|]. split; [|vm_compute; reflexivity].
  intros H. destruct (H (100, 100) eq_refl) as [Hx _].
  unfold near in Hx. vm_compute in Hx. destruct Hx as [Hx ?]. by apply Hx.
Qed.
Print Assumptions C74_nearby_refuted.
(** With a single layer coalesce takes the box to be at the zoom of the layer: an
    optimised build returns what lies outside and misses what lies inside, a debug build
    panics. *)
Theorem C74_zoom_refuted :
  exists o out c e, sane o /\ written_by ops_a t_a /\
    coalesce Release id_oracle first_mtb last_tb [t_a] o = Ok out /\ c ∈ out /\ e ∈ cc_entries c /\ ~ lies_in o t_a e /\
    coalesce Debug id_oracle first_mtb last_tb [t_a] o = Panic /\
    summary (stack_and_coalesce Release id_oracle first_mtb last_tb [t_a] o) = Some [(2, [(0, 5)]); (2, [(0, 1)])].
Proof.
  exists (MatchOpts (Some (BBox 2 2 3 3)) None 6).
  destruct (coalesce Release id_oracle first_mtb last_tb [t_a] (MatchOpts (Some (BBox 2 2 3 3)) None 6)) as [out| | |] eqn:E;
    try (vm_compute in E; discriminate E). vm_compute in E. injection E as <-. do 3 eexists.
  split.
  { split; [apply N.leb_le; reflexivity|]. split; [done|]. intros b Eb. injection Eb as <-.
    repeat split; try (apply N.ltb_lt; reflexivity); apply N.leb_le; reflexivity. }
  split; [apply (g_written t_a); right; left|]. split; [reflexivity|].
  split; [apply elem_of_list_here|]. split; [apply elem_of_list_here|]. split; [|split; vm_compute; reflexivity].
  intros H. destruct (H _ eq_refl) as [Hs _]. destruct Hs as (x0 & y0 & Hb & Ea); [vm_compute; congruence|].
  destruct Hb as [[_ B2] _]. cbn [bb_x1] in B2. unfold ancestor in Ea. injection Ea as Ex Ey. cbn in Ex.
  assert (x0 / 2 <= 3 / 2) by (by apply N.div_le_mono). change (3 / 2) with 1 in *. change (N.pos (2 * 1)) with 2 in *. lia.
Qed.
Print Assumptions C74_zoom_refuted.
