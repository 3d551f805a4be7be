(** Property C65: when the search over the stacking tree answers. *)
From Verif Require Import Prelude Lists F64 Heap Common Morton Format Builder Spatial Store Spec Spec_match Query Coalesce Stackable Tree
  Cmp_proofs Spatial_proofs Spec_stack Stack_proofs Spec_tree Spec_native Native_proofs Props_match Props_zoom Props_coalesce Props_stack Props_tree Props_native
  Spec_total Total_proofs Examples.
From Coq Require Import Sorting.Sorted.
From Coq Require Import ZifyBool.
Local Open Scope N_scope.

(** ** The options of a key *)
Lemma uadd_bound w a b c : uadd Release w a b = Ok c -> c < 2 ^ w.
Proof.
  unfold uadd. destruct (_ <? _) eqn:E; intros [= <-]; [lia|]. apply N.mod_lt. by apply N.pow_nonzero.
Qed.
Lemma ushr_bound p w a k c : ushr p w a k = Ok c -> c <= a.
Proof.
  assert (H : forall k, N.shiftr a k <= a).
  { intros j. rewrite N.shiftr_div_pow2. destruct (N.eq_dec (2 ^ j) 0) as [E|E]; [by rewrite E; destruct a|].
    by apply N.div_le_upper_bound; [|nia]. }
  unfold ushr. destruct (_ <? _); [intros [= <-]; apply H|]. destruct p; [done|]. intros [= <-]. apply H.
Qed.
Lemma adjust_release o t : prox_u16 o -> exists o', adjust_to_zoom Release o t = Ok o' /\ prox_u16 o'.
Proof.
  intros Hp. unfold adjust_to_zoom. destruct (mo_zoom o =? t); [by exists o|].
  assert (exists pr, res_option (fun pt => adjust_point_zoom Release pt (mo_zoom o) t) (mo_prox o) = Ok pr /\
    forall pt, pr = Some pt -> pt.1 < 2 ^ 16 /\ pt.2 < 2 ^ 16) as (pr & -> & Hpr).
  { destruct (mo_prox o) as [pt|] eqn:E; [|by exists None]. cbn [res_option]. destruct (Hp pt E) as [H1 H2].
    unfold adjust_point_zoom. destruct (t <? mo_zoom o).
    - destruct (rel_ushr 16 pt.1 (mo_zoom o - t)) as [x Hx]. destruct (rel_ushr 16 pt.2 (mo_zoom o - t)) as [y Hy].
      rewrite Hx, Hy. cbn [res_bind]. eexists. split; [reflexivity|]. intros q [= <-]. cbn [fst snd].
      apply ushr_bound in Hx, Hy. lia.
    - destruct (rel_ushl 16 1 (t - mo_zoom o)) as [sc ->]. cbn [res_bind].
      destruct (rel_usub 16 (sc / 2) 1) as [m ->]. cbn [res_bind].
      destruct (rel_umul 16 pt.1 sc) as [x ->]. cbn [res_bind]. destruct (rel_uadd 16 x m) as [x' Hx]. rewrite Hx. cbn [res_bind].
      destruct (rel_umul 16 pt.2 sc) as [y ->]. cbn [res_bind]. destruct (rel_uadd 16 y m) as [y' Hy]. rewrite Hy. cbn [res_bind].
      eexists. split; [reflexivity|]. intros q [= <-]. cbn [fst snd]. apply uadd_bound in Hx, Hy. done. }
  cbn [res_bind].
  assert (exists bb, res_option (fun b => adjust_bbox_zoom Release b (mo_zoom o) t) (mo_bbox o) = Ok bb) as [bb ->].
  { destruct (mo_bbox o) as [b|]; [|by eexists]. cbn [res_option]. unfold adjust_bbox_zoom.
    destruct (t <? mo_zoom o); wraps; by eexists. }
  cbn [res_bind]. eexists. split; [reflexivity|]. exact Hpr.
Qed.
Lemma nearby_release o : prox_u16 o -> exists o', with_nearby_only Release o = Ok o' /\ prox_u16 o'.
Proof.
  intros Hp. unfold with_nearby_only. destruct (mo_prox o) as [[px py]|] eqn:E; [|by exists o].
  wraps. eexists. split; [reflexivity|]. intros pt Hpt. cbn [mo_prox] in Hpt. apply Hp. congruence.
Qed.
Lemma works p mtb tb o pm zo : answerable pm -> adjust_to_zoom p o (zoom_of pm) = Ok zo -> (p = Debug -> zoom_of pm < 16) ->
  (forall k, k ∈ sq_keys pm -> (exists b, key_is_range p (mki_key k) = Ok b) /\
    exists ko, (if mki_nearby k then with_nearby_only p zo else Ok zo) = Ok ko /\ prox_u16 ko /\
      forall b, mo_bbox ko = Some b -> p = Release \/ bb_x0 b <= bb_x1 b /\ bb_y0 b <= bb_y1 b) ->
  pm_works p mtb tb o pm.
Proof.
  intros (_ & Hfin & Hbuilt) Hz Hzoom Hk. split; [by exists zo|]. split; [done|]. intros k Hin.
  destruct (Hk k Hin) as (Hr & ko & Hko & Hpr & Hbox). split; [done|]. exists ko. split; [by exists zo|].
  destruct (Hbuilt k Hin) as (ho & ops & Hh & Hb & Hq). intros n Hn. assert (Ezo : mo_zoom ko = st_zoom (sq_store pm)).
  { pose proof (adjust_zoom_eq _ _ _ _ Hz) as Ez. destruct (mki_nearby k); [|by injection Hko as <-].
    by rewrite (nearby_zoom_eq _ _ _ Hko), Ez. }
  destruct (C11_limited p mtb tb ho ops (sq_store pm) (mki_key k) ko n Hh Hb) as (out & Hout & Hin1 & _); [|done|done|].
  - split.
    + destruct (mo_bbox ko) as [b|] eqn:Eb; [|done]. destruct (Hbox b eq_refl) as [?|[H1 H2]]; [by left|right].
      by apply interleave_mono.
    + destruct (mo_prox ko) as [pt|] eqn:Ep; [|done]. destruct (Hpr pt Ep) as [H1 H2]. split; [done|]. split; [done|].
      rewrite Ezo. exact Hfin.
  - exists out. split; [done|]. intros g Hg. destruct (Hin1 g Hg) as (key & es & e & _ & _ & _ & _ & ->).
    cbn [query_match me_entry ge_id snap]. pose proof (N.mod_lt (ge_id e) (2 ^ 24) ltac:(done)) as Hlt.
    eapply N.lt_trans; [exact Hlt|done].
Qed.
Lemma works_release mtb tb o pm : answerable pm -> prox_u16 o -> pm_works Release mtb tb o pm.
Proof.
  intros Ha Hp. destruct (adjust_release o (zoom_of pm) Hp) as (zo & Hz & Hpz). apply (works Release mtb tb o pm zo Ha Hz); [done|].
  intros k _. split.
  - unfold key_is_range. destruct (mk_phrase (mki_key k)); [by eexists|]. wraps. by eexists.
  - destruct (mki_nearby k).
    + destruct (nearby_release zo Hpz) as (ko & Hk & Hpk). exists ko. split; [done|]. split; [done|]. intros; by left.
    + exists zo. split; [done|]. split; [done|]. intros; by left.
Qed.
Lemma tile_u16 z pt : z <= 15 -> tile_at z pt -> pt.1 < 2 ^ 16 /\ pt.2 < 2 ^ 16.
Proof.
  intros Hz [H1 H2]. assert (2 ^ z <= 2 ^ 16) by (apply N.pow_le_mono_r; lia). split; eapply N.lt_le_trans; done.
Qed.
(** Changing the zoom keeps the point a tile, the box non-empty and the point in it. *)
Lemma adjust_careful p o t : mo_zoom o <= 15 -> t <= 15 -> (forall pt, mo_prox o = Some pt -> tile_at (mo_zoom o) pt) ->
  (forall b, mo_bbox o = Some b -> box_at (mo_zoom o) b /\ bb_x0 b <= bb_x1 b /\ bb_y0 b <= bb_y1 b) ->
  exists o', adjust_to_zoom p o t = Ok o' /\ mo_zoom o' = t /\
    (forall pt, mo_prox o' = Some pt -> tile_at t pt) /\
    (forall b, mo_bbox o' = Some b -> bb_x0 b <= bb_x1 b /\ bb_y0 b <= bb_y1 b) /\
    ((forall pt b, mo_prox o = Some pt -> mo_bbox o = Some b -> in_box b pt.1 pt.2) ->
     forall pt b, mo_prox o' = Some pt -> mo_bbox o' = Some b -> in_box b pt.1 pt.2).
Proof.
  intros Hz Ht Hp Hb. destruct (N.le_gt_cases t (mo_zoom o)) as [Hle|Hlt].
  - destruct (C32_zoom_out p o t Hle ltac:(lia)) as (o' & Ho & Ez & Epr & Hbox). exists o'. split; [done|]. split; [done|].
    split; [|split].
    + intros pt Ept. rewrite Epr in Ept. destruct (mo_prox o) as [q|]; [|done]. cbn [option_map] in Ept. injection Ept as <-.
      destruct (Hp q eq_refl) as [H1 H2]. unfold tile_at, ancestor. cbn [fst snd].
      rewrite (pow_split t (mo_zoom o) Hle) in H1, H2. pose proof (pow_pos (mo_zoom o - t)).
      split; apply N.div_lt_upper_bound; lia.
    + intros b Eb. rewrite Eb in Hbox. destruct (mo_bbox o) as [b0|] eqn:E0; [|done].
      destruct (Hb b0 eq_refl) as (_ & Hx & Hy).
      assert (Hi : in_box b (bb_x0 b0 / 2 ^ (mo_zoom o - t)) (bb_y0 b0 / 2 ^ (mo_zoom o - t))).
      { apply (Hbox Hx Hy). exists (bb_x0 b0), (bb_y0 b0). split; [split; lia|done]. }
      destruct Hi. lia.
    + intros Hin pt b Ept Eb. rewrite Epr in Ept. rewrite Eb in Hbox. destruct (mo_prox o) as [q|]; [|done].
      cbn [option_map] in Ept. injection Ept as <-. destruct (mo_bbox o) as [b0|] eqn:E0; [|done].
      destruct (Hb b0 eq_refl) as (_ & Hx & Hy). apply (Hbox Hx Hy). exists q.1, q.2. split; [by apply Hin|]. done.
  - destruct (C32_zoom_in p o t Hlt ltac:(lia) ltac:(lia) Hp) as (o' & Ho & Ez & Epr & Htile & Hbox); [intros b Eb; by apply Hb|].
    exists o'. split; [done|]. split; [done|]. split; [done|]. split.
    + intros b Eb. rewrite Eb in Hbox. destruct (mo_bbox o) as [b0|] eqn:E0; [|done]. destruct Hbox as [_ Hbox].
      destruct (Hb b0 eq_refl) as (_ & Hx & Hy).
      set (s := 2 ^ (t - mo_zoom o)) in *.
      assert (Hi : in_box b (bb_x0 b0 * s) (bb_y0 b0 * s)).
      { apply Hbox. unfold ancestor. cbn [fst snd]. fold s. pose proof (pow_pos (t - mo_zoom o)). fold s in H.
        rewrite !N.div_mul by lia. split; lia. }
      destruct Hi. lia.
    + intros Hin pt b Ept Eb. rewrite Eb in Hbox. destruct (mo_bbox o) as [b0|] eqn:E0; [|done]. destruct Hbox as [_ Hbox].
      rewrite Ept in Epr. cbn [option_map] in Epr. apply Hbox. symmetry in Epr. specialize (Hin _ _ Epr eq_refl). by destruct pt.
Qed.
Lemma works_careful p mtb tb o pms pm : answerable pm -> careful o pms -> pm ∈ pms -> pm_works p mtb tb o pm.
Proof.
  intros Ha [C1 C2 C3 C4 C5 C6 C7] Hpm. pose proof (C4 pm Hpm) as Hz.
  destruct (adjust_careful p o (zoom_of pm) C1 Hz C2 C3) as (zo & Ho & Ez & Htile & Hbox & Hin).
  apply (works p mtb tb o pm zo Ha Ho); [lia|]. intros k Hk. split.
  - unfold key_is_range. destruct (mk_phrase (mki_key k)) as [?|a b] eqn:Ek; [by eexists|].
    pose proof (C6 pm k a b Hpm Hk Ek). unfold usub. destruct (a <=? b) eqn:E; [by eexists|lia].
  - destruct (mki_nearby k) eqn:Ek.
    + destruct (mo_prox zo) as [[px py]|] eqn:Ep.
      * destruct (C34_nearby p zo px py Ep ltac:(lia)) as (b' & Hb' & _ & Hne); [rewrite Ez; by apply Htile|].
        eexists. split; [exact Hb'|]. split.
        -- intros pt [= <-]. cbn [fst snd]. apply (tile_u16 (zoom_of pm) (px, py)); [done|]. by apply Htile.
        -- intros b [= <-]. right. apply Hne. exists px, py. split; [|unfold near; lia].
           destruct (mo_bbox zo) as [b0|] eqn:Eb; [|done].
           apply (Hin (fun pt b H1 H2 => C7 pm k pt b Hpm Hk Ek H1 H2) (px, py) b0 eq_refl eq_refl).
      * exists zo. unfold with_nearby_only. rewrite Ep. split; [done|]. split; [intros pt Hpt; congruence|].
        intros b Eb. right. by apply Hbox.
    + exists zo. split; [done|]. split.
      * intros pt Hpt. apply (tile_u16 (zoom_of pm)); [done|]. by apply Htile.
      * intros b Eb. right. by apply Hbox.
Qed.

(** ** The tree *)
Lemma stackable_safe p ho mtb tb fuel pms o : (forall pm, pm ∈ pms -> pm_works p mtb tb o pm) ->
  (p = Debug -> forall pm pm', pm ∈ pms -> pm' ∈ pms -> type_of pm < type_of pm' -> zoom_of pm <= zoom_of pm') ->
  safe (tree_coalesce p ho mtb tb fuel (stackable pms) o).
Proof.
  intros Hw Hz. destruct (stackable_sound pms) as (L & Ha & Hroot).
  assert (Hnode : forall i n, tree_get (stackable pms) i = Some n ->
    exists chain pm, L !! i = Some (chain ++ [pm], sn_max_relev n) /\ node_ok pms L (chain ++ [pm]) n /\ sn_pm n = Some pm).
  { intros i n Hi. destruct (ao_node _ _ _ Ha i n Hi) as (chain & Hne & HL & Hok & _).
    destruct (exists_last Hne) as (chain0 & pm & ->). exists chain0, pm. split; [done|]. split; [done|].
    rewrite (st_pm _ _ (no_static _ _ _ _ Hok)). by rewrite last_snoc. }
  apply tree_coalesce_safe.
  - by rewrite (st_pm _ _ (no_static _ _ _ _ Hroot)).
  - intros i n Hi. destruct (Hnode i n Hi) as (chain & pm & _ & Hok & Hpm). exists pm. split; [done|]. apply Hw.
    apply (no_legal _ _ _ _ Hok). apply elem_of_app. right. by left.
  - intros i n pm j c pm' Hi Hpm Hj Hc Hpm' Hp.
    destruct (Hnode i n Hi) as (chain & pm0 & HL & Hok & E0). assert (pm0 = pm) as -> by congruence.
    destruct (Hnode j c Hc) as (chain' & pm1 & HL' & Hok' & E1). assert (pm1 = pm') as -> by congruence.
    destruct (no_kids _ _ _ _ Hok j Hj) as (pm2 & r & HL2 & _). rewrite HL' in HL2. injection HL2 as E2 _.
    apply app_inj_tail in E2 as [-> <-]. destruct (no_legal _ _ _ _ Hok') as (Hin & Hs & _).
    assert (I1 : pm ∈ pms) by (apply Hin; rewrite !elem_of_app, elem_of_list_singleton; auto).
    assert (I2 : pm' ∈ pms) by (apply Hin; rewrite !elem_of_app, !elem_of_list_singleton; auto).
    assert (Ht : type_of pm < type_of pm').
    { clear - Hs. rewrite <- app_assoc in Hs. induction chain as [|q chain IH]; cbn [app] in Hs.
      - apply StronglySorted_inv in Hs as [_ Hs]. by apply Forall_cons in Hs as [? _].
      - apply StronglySorted_inv in Hs as [Hs _]. by apply IH. }
    pose proof (Hz Hp pm pm' I1 I2 Ht). destruct (Hw pm' I2) as (_ & Hz' & _). specialize (Hz' Hp). lia.
Qed.

(** ** C65 The search answers *)
(** A release build: stores written in range and asked in range. *)
Theorem C65_release :
  forall ho mtb tb pms o, (forall pm, pm ∈ pms -> answerable pm) -> prox_u16 o ->
  exists out, tree_coalesce Release ho mtb tb (tree_fuel (stackable pms)) (stackable pms) o = Ok out.
Proof.
  intros ho mtb tb pms o Ha Hp. apply safe_exists; [|apply C52_terminates; unfold tree_fuel; lia].
  apply stackable_safe; [|done]. intros pm Hpm. by apply works_release; [apply Ha|].
Qed.
Print Assumptions C65_release.
(** Any build, in particular one with overflow checks and debug assertions. *)
Theorem C65_careful :
  forall p ho mtb tb pms o, (forall pm, pm ∈ pms -> answerable pm) -> careful o pms ->
  exists out, tree_coalesce p ho mtb tb (tree_fuel (stackable pms)) (stackable pms) o = Ok out.
Proof.
  intros p ho mtb tb pms o Ha Hc. apply safe_exists; [|apply C52_terminates; unfold tree_fuel; lia].
  apply stackable_safe; [|intros _; apply (ca_types _ _ Hc)]. intros pm Hpm. eapply works_careful; [by apply Ha|done|done].
Qed.
Print Assumptions C65_careful.
(** The same for the whole search, phrasematches first put together. *)
Theorem C65_whole :
  forall p ho mtb tb pms o, (forall pm, pm ∈ pms -> answerable pm) -> groups_agree pms ->
  (p = Release /\ prox_u16 o \/ careful o pms) ->
  exists out, stack_and_coalesce p ho mtb tb pms o = Ok out.
Proof.
  intros p ho mtb tb pms o Ha Hag Hc. unfold stack_and_coalesce.
  destruct (C54_total pms) as (groups & Hg); [intros q Hq; by apply Ha|]. rewrite Hg. cbn [res_bind]. cbn zeta.
  apply C54_collapse in Hg.
  assert (Hmem : forall g, g ∈ groups -> exists q, q ∈ pms /\ sq_store g = sq_store q).
  { intros g Hin. destruct (collapses_from _ _ Hg g Hin) as (q & ks & Hq & -> & _). by exists q. }
  assert (Hkey : forall g k, g ∈ groups -> k ∈ sq_keys g -> exists q, q ∈ pms /\ sq_store g = sq_store q /\ k ∈ sq_keys q).
  { intros g k Hin Hk. destruct (collapses_alike _ _ Hag Hg g k Hin Hk) as (q & Hq & (Es & _) & Hk'). by exists q. }
  assert (Ha' : forall g, g ∈ groups -> answerable g).
  { intros g Hin. destruct (collapses_from _ _ Hg g Hin) as (q0 & ks & Hq0 & Eg & _).
    destruct (Ha q0 Hq0) as (Hne & Hfin & _). split; [|split].
    - rewrite Eg. cbn [with_keys sq_keys]. by destruct (sq_keys q0).
    - by rewrite Eg.
    - intros k Hk. destruct (Hkey g k Hin Hk) as (q & Hq & Es & Hk'). rewrite Es. by apply (Ha q Hq). }
  destruct Hc as [[-> Hp]|Hc]; [by apply C65_release|]. apply C65_careful; [done|].
  destruct Hc as [C1 C2 C3 C4 C5 C6 C7]. unfold zoom_of, type_of in *. split; [done|done|done| | | |].
  - intros g Hin. destruct (Hmem g Hin) as (q & Hq & Es). unfold zoom_of. rewrite Es. by apply C4.
  - intros g g' Hin Hin'. destruct (Hmem g Hin) as (q & Hq & Es), (Hmem g' Hin') as (q' & Hq' & Es'). unfold zoom_of, type_of.
    rewrite Es, Es'. by apply C5.
  - intros g k a b Hin Hk. destruct (Hkey g k Hin Hk) as (q & Hq & _ & Hk'). by apply (C6 q).
  - intros g k pt b Hin Hk. destruct (Hkey g k Hin Hk) as (q & Hq & _ & Hk'). by apply (C7 q).
Qed.
Print Assumptions C65_whole.

(** Two layers, a box, a proximity point in it, and a nearby-only key next to a range. *)
Definition u_store (zoom type : N) (ops : list op) : store :=
  open_store (ex_db id_oracle ops) zoom type (f_of_N 40) [BBox 0 0 16383 16383] f_one.
Definition u_key (ph : match_phrase) (near : bool) (id : N) : match_key_id := MatchKeyWithId (MatchKey ph 1) near id 1.
Definition u_a : subquery := Subquery (u_store 5 1 ops_a) 0 0 (f_lit 1 2) 2 [u_key (Exact 1) true 10].
Definition u_b : subquery := Subquery (u_store 6 2 ops_b) 1 0 (f_lit 1 2) 1 [u_key (Range 0 2) false 11].
Definition u_opts : match_opts := MatchOpts (Some (BBox 0 0 5 5)) (Some (3, 3)) 6.
Lemma u_built zoom type ops : (exists d, finish id_oracle (run ops) ∅ = Ok d) -> built id_oracle ops (u_store zoom type ops).
Proof. intros [d Hd]. exists d, zoom, type, (f_of_N 40), [BBox 0 0 16383 16383], f_one. split; [exact Hd|]. unfold u_store, ex_db. by rewrite Hd. Qed.
Example C65_ex :
  (forall pm, pm ∈ [u_b; u_a] -> answerable pm) /\ careful u_opts [u_b; u_a] /\ groups_agree [u_b; u_a] /\ prox_u16 u_opts /\
  summary (stack_and_coalesce Debug rev_oracle first_mtb last_tb [u_b; u_a] u_opts) =
    Some [(3, [(1, 1); (0, 1)]); (3, [(1, 1); (0, 5)]); (3, [(1, 2); (0, 2)]); (3, [(1, 3); (0, 5)]);
          (3, [(1, 3); (0, 1)]); (1, [(1, 1)]); (1, [(1, 2)]); (2, [(0, 5)]); (2, [(0, 1)]); (2, [(0, 2)]);
          (1, [(1, 3)])].
Proof.
  assert (Hans : forall pm, pm ∈ [u_b; u_a] -> answerable pm).
  { intros pm Hpm. rewrite !elem_of_cons, elem_of_nil in Hpm. destruct Hpm as [->|[->|[]]].
    - split; [done|]. split; [vm_compute; exact I|]. intros k Hk. apply elem_of_list_singleton in Hk as ->.
      exists id_oracle, ops_b. split; [apply history_okb_ok; vm_compute; reflexivity|].
      split; [apply u_built; eexists; vm_compute; reflexivity|]. split; [done|]. intros H. vm_compute in H. by apply elem_of_nil in H.
    - split; [done|]. split; [vm_compute; exact I|]. intros k Hk. apply elem_of_list_singleton in Hk as ->.
      exists id_oracle, ops_a. split; [apply history_okb_ok; vm_compute; reflexivity|].
      split; [apply u_built; eexists; vm_compute; reflexivity|]. done. }
  split; [exact Hans|]. split; [|split; [|split; [|vm_compute; reflexivity]]].
  - split.
    + done.
    + intros pt [= <-]. done.
    + intros b [= <-]. done.
    + intros pm Hpm. rewrite !elem_of_cons, elem_of_nil in Hpm. destruct Hpm as [->|[->|[]]]; done.
    + intros pm pm' Hpm Hpm'. rewrite !elem_of_cons, elem_of_nil in Hpm, Hpm'.
      destruct Hpm as [->|[->|[]]], Hpm' as [->|[->|[]]]; done.
    + intros pm k a b Hpm Hk. rewrite !elem_of_cons, elem_of_nil in Hpm.
      destruct Hpm as [->|[->|[]]]; apply elem_of_list_singleton in Hk as ->; [by intros [= <- <-]|done].
    + intros pm k pt b _ _ _ [= <-] [= <-]. split; cbn; lia.
  - intros a b Ha Hb. rewrite !elem_of_cons, elem_of_nil in Ha, Hb.
    destruct Ha as [->|[->|[]]], Hb as [->|[->|[]]]; intros (_ & E & _); try done; vm_compute in E; done.
  - intros pt [= <-]. done.
Qed.

(** Without these conditions a debug build stops where a release build answers: a store
    of zoom 16, a nearby-only key whose surroundings are outside the box, a range that
    ends before it starts. For layers not ordered by zoom see C50_zoom_order_refuted. *)
Definition answers (r : res (list coalesce_context)) : bool := match r with Ok _ => true | _ => false end.
Definition stops_only_debug (pms : list subquery) (o : match_opts) : Prop :=
  stack_and_coalesce Debug rev_oracle first_mtb last_tb pms o = Panic /\
  answers (stack_and_coalesce Release rev_oracle first_mtb last_tb pms o) = true.
Definition u_c : subquery := Subquery (u_store 16 1 ops_a) 0 0 (f_lit 1 2) 2 [u_key (Exact 1) false 10; u_key (Exact 2) false 12].
Definition u_d : subquery := Subquery (u_store 6 3 ops_b) 2 0 (f_lit 1 2) 4 [u_key (Range 3 2) false 13].
Theorem C65_careful_refuted :
  stops_only_debug [u_b; u_c] (MatchOpts None None 6) /\
  stops_only_debug [u_b; u_a] (MatchOpts (Some (BBox 40 40 45 45)) (Some (3, 3)) 6) /\
  stops_only_debug [u_d] (MatchOpts None None 6).
Proof. vm_compute. done. Qed.
Print Assumptions C65_careful_refuted.
