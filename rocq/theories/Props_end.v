(** Property C89: from the calls of JavaScript to the results of JavaScript. *)
From Verif Require Import Prelude Lists F64 Heap Common Builder Spatial Store Spec Spec_match Spatial_proofs Query Coalesce Stackable Tree
  Native Cmp_proofs Queue_proofs Spec_coalesce Spec_stack Spec_tree Spec_quota Tree_proofs Spec_native Spec_js Spec_complete Spec_exact
  Multi_proofs Stack_proofs Native_proofs Complete_proofs Exact_proofs Examples Props_storage Props_match Props_coalesce Props_stack Props_tree Props_native
  Props_complete Props_exact Props_js Spec_room Props_room Props_zoom Spec_ground Props_ground Props_found Spec_end.
From Coq Require Import Sorting.Sorted.
From Coq Require Import ZifyBool.
Local Open Scope N_scope.

(** ** What the calls hold *)
Definition in_map (m : gmap (N * N) (list grid_entry)) (key : N * N) (w : grid_entry) : Prop :=
  exists es, m !! key = Some es /\ w ∈ es.
Lemma as_key_fun k a b : as_key k a -> as_key k b -> a = b.
Proof. rewrite <- !to_key_iff. congruence. Qed.
Lemma as_uint_one max v a b : as_uint max v a -> as_uint max v b -> a = b.
Proof. rewrite !cast_uint_iff. congruence. Qed.
Lemma in_insert m k es key w : in_map (<[k := es]> m) key w <-> (k = key /\ w ∈ es) \/ (k <> key /\ in_map m key w).
Proof.
  unfold in_map. destruct (decide (k = key)) as [->|Hne].
  - rewrite lookup_insert. split; [intros (? & [= <-] & ?); by left|]. intros [[_ ?]|[? _]]; [by exists es|done].
  - rewrite lookup_insert_ne by done. split; [intros H; by right|]. intros [[? _]|[_ ?]]; done.
Qed.
Lemma in_default m k (w : grid_entry) : w ∈ default [] (m !! k) <-> in_map m k w.
Proof.
  unfold in_map. destruct (m !! k) as [l|]; cbn.
  - split; [by exists l|]. by intros (? & [= <-] & ?).
  - split; [intros H; by apply elem_of_nil in H|]. by intros (? & ? & _).
Qed.
Lemma written_one m c o key w : Spec_native.stands_for c o ->
  in_map (written_step m o) key w <->
  js_writes c key w \/ (in_map m key w /\ forall k es, c = JsInsert k (Some es) -> ~ as_key k key).
Proof.
  intros Hs. destruct Hs as [k key' es Hk|k key' es Hk|k key' relev score sc id i hash h cs Hk H1 H2 H3|bs]; cbn [written_step].
  - rewrite in_insert. split.
    + intros [[-> Hw]|[Hne Hm]]; [left; by constructor|]. right. split; [done|]. intros k' es' [= <- <-] Hk'. by apply Hne, (as_key_fun k).
    + intros [Hw|[Hm Hno]].
      * inversion Hw; subst. left. split; [by eapply as_key_fun|done].
      * right. split; [|done]. intros ->. by eapply (Hno k es).
  - rewrite in_insert, elem_of_app, in_default. split.
    + intros [[-> [Hm|Hw]]|[Hne Hm]]; [by right|left; by constructor|by right].
    + intros [Hw|[Hm _]]; [inversion Hw; subst; left; split; [by eapply as_key_fun|by right]|].
      destruct (decide (key' = key)) as [->|]; [left; split; [done|by left]|by right].
  - rewrite in_insert, elem_of_app, in_default. unfold compact_entries. split.
    + intros [[-> [Hm|Hw]]|[Hne Hm]]; [by right| |by right]. left.
      apply elem_of_map in Hw as ([x y] & -> & Hxy). cbn [fst snd]. by constructor.
    + intros [Hw|[Hm _]].
      * inversion Hw; subst. left. split; [by eapply as_key_fun|]. right. apply elem_of_map. exists (x, y). split; [|done]. cbn [fst snd].
        f_equal; by eapply as_uint_one.
      * destruct (decide (key' = key)) as [->|]; [left; split; [done|by left]|by right].
  - split; [by right|]. intros [Hw|[Hm _]]; [inversion Hw|done].
Qed.
Lemma not_written c key w : (forall o, ~ Spec_native.stands_for c o) -> ~ js_writes c key w.
Proof. intros H Hw. inversion Hw; subst; (eapply H; by econstructor). Qed.
Lemma holds_cons c cs key w : js_holds (c :: cs) key w <->
  js_holds cs key w \/ (js_writes c key w /\ forall k es, JsInsert k (Some es) ∈ cs -> ~ as_key k key).
Proof.
  split.
  - intros (before & c' & after & E & Hw & Hno). destruct before as [|b before]; cbn [app] in E; injection E as -> ->; [by right|].
    left. by exists before, c', after.
  - intros [(before & c' & after & -> & Hw & Hno)|[Hw Hno]]; [by exists (c :: before), c', after|by exists [], c, cs].
Qed.
Lemma written_from cs ops : accepted cs ops -> forall m key w,
  in_map (foldl written_step m ops) key w <->
  js_holds cs key w \/ (in_map m key w /\ forall k es, JsInsert k (Some es) ∈ cs -> ~ as_key k key).
Proof.
  induction 1 as [|c o cs ops Hs Ha IH|c cs ops Hno Ha IH]; intros m key w; cbn [foldl].
  - split; [intros H; right; split; [done|]; intros k es H'; by apply elem_of_nil in H'|].
    intros [(b & c & a & E & _)|[? _]]; [by destruct b|done].
  - rewrite IH, holds_cons, (written_one m c o key w Hs). split.
    + intros [?|[[Hw|[Hm Hc]] Hcs]]; [by left; left|by left; right|right]. split; [done|].
      intros k es Hi. apply elem_of_cons in Hi as [<-|Hi]; [by apply (Hc k es)|by apply (Hcs k es)].
    + intros [[?|[Hw Hcs]]|[Hm Hcs]]; [by left|right; split; [by left|done]|right]. split.
      * right. split; [done|]. intros k es ->. apply (Hcs k es). by left.
      * intros k es Hi. apply (Hcs k es). by right.
  - rewrite IH, holds_cons. pose proof (not_written c key w Hno) as Hnw. split.
    + intros [?|[Hm Hcs]]; [by left; left|right]. split; [done|]. intros k es Hi Hk. apply elem_of_cons in Hi as [<-|Hi]; [|by apply (Hcs k es)].
      apply (Hno (OpInsert key es)). by constructor.
    + intros [[?|[? _]]|[Hm Hcs]]; [by left|done|right]. split; [done|]. intros k es Hi. apply (Hcs k es). by right.
Qed.
(** The native calls write what the JavaScript calls hold: what is written by a call that
    is accepted, and not overwritten by a later insert(). *)
Theorem C89_written :
  forall cs ops key w, accepted cs ops ->
  ((exists es, written ops !! key = Some es /\ w ∈ es) <-> js_holds cs key w).
Proof.
  intros cs ops key w Ha. change (in_map (foldl written_step ∅ ops) key w <-> js_holds cs key w). rewrite (written_from cs ops Ha).
  split; [|by left]. intros [?|[(es & E & _) _]]; [done|]. by rewrite lookup_empty in E.
Qed.
Print Assumptions C89_written.

(** ** Objects and subqueries *)
Lemma ready_written cs j q : ready cs j -> as_subquery j q -> exists ops, accepted cs ops /\ written_by ops q.
Proof.
  intros ((o & rs & d & z & t & r & bb & ms & Hf & Hr & Hrun & Hlast & Es) & Hops & Hz & Hrad) (Eq & _ & _ & _ & _ & k & Ek & Hk).
  destruct (C56_built o cs d z t r bb ms Hf Hr) as (ops & Ha & Hb); [by rewrite Hrun|by rewrite Hrun|].
  exists ops. split; [done|]. destruct (Hops ops Ha) as [Hh Hq]. split; [done|]. split; [exists o; by rewrite Eq, Es|].
  unfold zoom_of. rewrite Eq. split; [done|]. split; [|done].
  intros k' Hk'. rewrite Ek in Hk'. apply elem_of_list_singleton in Hk' as ->. apply Hq. by destruct Hk as [-> _].
Qed.
Lemma flag_true v b : as_flag v b -> v = JsBoolean true <-> b = true.
Proof. intros H. inversion H; subst; split; congruence. Qed.
Lemma js_in_tile o j q x y : as_subquery j q -> js_in o j x y <-> tile_in o q x y.
Proof. intros (E & _). unfold js_in, tile_in, zoom_of. by rewrite E. Qed.
Lemma js_near_tile o j q x y : as_subquery j q -> js_near o j x y <-> tile_near o q x y.
Proof. intros (E & _). unfold js_near, tile_near, zoom_of. by rewrite E. Qed.
Lemma wanted_js cs ops o j q k w : accepted cs ops -> as_subquery j q -> sq_keys q = [k] -> js_wanted cs o j w -> wanted ops o q k w.
Proof.
  intros Ha Hs Ek ((key & ph & Hh & Hph & Hsel) & Hin & Hnear). split; [rewrite Ek; by left|].
  pose proof Hs as (_ & _ & _ & _ & _ & k' & Ek' & (K1 & _ & K3 & _)). assert (k' = k) as -> by congruence.
  apply (C89_written cs ops key w Ha) in Hh as (es & H1 & H2). split.
  - exists key, es. split; [done|]. split; [|done]. congruence.
  - split; [by apply (js_in_tile o j q)|]. intros Hn. apply (js_near_tile o j q); [done|]. apply Hnear. by apply (flag_true _ _ K3).
Qed.
Lemma level_js p mtb tb o n cs j q e : level_entry p mtb tb o n q e -> 1 <= n -> sane o -> ready cs j -> as_subquery j q ->
  exists w, js_wanted cs o j w /\ js_result j w e.
Proof.
  intros Hl Hn Hs Hr Hj. destruct (ready_written cs j q Hr Hj) as (ops & Ha & Hw).
  destruct (level_ground p mtb tb o n q e ops Hl Hn Hs Hw) as (k & Hk & Hid & Hc & Hin & Hnear).
  destruct Hc as (key & es & w & W1 & W2 & W3 & E1 & E2 & E3 & E4 & E5 & E6 & E7 & E8 & _ & f & F1 & F2).
  pose proof Hj as (_ & J2 & J3 & J4 & _ & k' & Ek & (K1 & _ & K3 & K4 & _)).
  rewrite Ek in Hk. apply elem_of_list_singleton in Hk as ->. exists w. split.
  - split; [|split].
    + exists key, (mk_phrase (mki_key k')). split; [|done]. apply (C89_written cs ops key w Ha). by exists es.
    + apply (js_in_tile o j q); [done|]. rewrite <- E2, <- E3. exact Hin.
    + intros Hf. apply (js_near_tile o j q); [done|]. rewrite <- E2, <- E3. apply Hnear. by apply (flag_true _ _ K3).
  - unfold js_result. rewrite K4, J4, J3, Hid, E7, E8. repeat (split; [done|]). exists (sq_weight q), f. done.
Qed.

Lemma legal_js pms jchain chain : legal pms (rev chain) -> Forall2 as_subquery jchain chain -> js_legal jchain.
Proof.
  intros (_ & Hsort & Hmask & Hex) HF. apply StronglySorted_rev in Hsort. rewrite rev_involutive in Hsort.
  induction HF as [|j q jl ql Hjq HF IH]; [split; [constructor|]; split; intros *; by rewrite lookup_nil|].
  inversion Hsort as [|? ? Hsort' Hall]; subst. cbn [rev] in Hmask, Hex. rewrite List.map_app in Hmask. cbn [map] in Hmask.
  apply disjoint_masks_app in Hmask as (M1 & M3). rewrite land_all_masks, Forall_forall in M3. apply not_excluded_app in Hex as [X1 X2]. destruct (IH Hsort' M1 X1) as (I1 & I2 & I3). clear IH.
  pose proof Hjq as (Es & _ & Em & Ei & (non & En & Hnon) & _).
  assert (Hat : forall k b, jl !! k = Some b -> exists q', q' ∈ ql /\ as_subquery b q').
  { intros k b Hb. destruct (Forall2_lookup_l _ _ _ _ _ HF Hb) as (q' & Hq' & Ha). exists q'. split; [by eapply elem_of_list_lookup_2|done]. }
  assert (Hland : forall k b mb, jl !! k = Some b -> jp_mask b = Some mb -> N.land mb (sq_mask q) = 0).
  { intros k b mb Hb E. destruct (Hat k b Hb) as (q' & Hq' & (_ & _ & Em' & _)). rewrite Em' in E. injection E as <-.
    apply M3. apply elem_of_list_In, List.in_map. apply -> List.in_rev. by apply elem_of_list_In. }
  split; [|split].
  - constructor; [done|]. apply Forall_forall. intros b Hb. apply elem_of_list_lookup in Hb as [k Hk]. destruct (Hat k b Hk) as (q' & Hq' & (Es' & _)).
    rewrite Forall_forall in Hall. specialize (Hall q' Hq'). rewrite <- Es, <- Es'. exact Hall.
  - intros [|i] [|k] a b ma mb Hne Ha Hb Ea Eb; [done| | |]; cbn in Ha, Hb.
    + injection Ha as <-. assert (ma = sq_mask q) as -> by congruence. rewrite N.land_comm. by eapply Hland.
    + injection Hb as <-. assert (mb = sq_mask q) as -> by congruence. by eapply Hland.
    + eapply (I2 i k); try done. congruence.
  - intros [|i] a b non' idx Ha Hb Ea Eb; [|exact (I3 i a b non' idx Ha Hb Ea Eb)]. injection Ha as <-. assert (non' = non) as -> by congruence.
    inversion HF as [|b' q' jl' ql' Hbq' HF' E1 E2]; subst; [discriminate Hb|]. injection Hb as <-.
    cbn [rev] in X2. rewrite last_snoc in X2. destruct Hbq' as (_ & _ & _ & Ei' & _). assert (idx = sq_idx q') as -> by congruence.
    intros Hin. apply Hnon in Hin. congruence.
Qed.


(** ** C89 Results and calls *)
Lemma js_types_zoom js pms : Forall2 as_subquery js pms -> js_types js -> types_by_zoom pms.
Proof.
  intros Hf Ht a b Ha Hb. apply elem_of_list_lookup in Ha as [i Hi], Hb as [j Hj].
  destruct (Forall2_lookup_r _ _ _ _ _ Hf Hi) as (ja & Ja & (A1 & _)), (Forall2_lookup_r _ _ _ _ _ Hf Hj) as (jb & Jb & (B1 & _)).
  unfold type_of, zoom_of. rewrite A1, B1. apply Ht; by eapply elem_of_list_lookup_2.
Qed.
Lemma object_of js pms q : Forall2 as_subquery js pms -> q ∈ pms -> exists j, j ∈ js /\ as_subquery j q.
Proof.
  intros Hf Hq. apply elem_of_list_lookup in Hq as [i Hi]. destruct (Forall2_lookup_r _ _ _ _ _ Hf Hi) as (j & Hj & ?).
  exists j. split; [by eapply elem_of_list_lookup_2|done].
Qed.
Lemma stack_js p mtb tb o js pms calls chain es :
  Forall2 as_subquery js pms -> js_types js -> sane o -> (forall j, j ∈ js -> ready (calls j) j) ->
  stack_of p mtb tb o chain es -> (forall q, q ∈ chain -> q ∈ pms) -> StronglySorted (fun a b => type_of b < type_of a) chain ->
  exists jchain ws, js_stack calls o jchain ws /\ Forall2 as_subquery jchain chain /\ (forall j, j ∈ jchain -> j ∈ js) /\
    Forall2 (fun jw e => js_result jw.1 jw.2 e) (zip jchain ws) es.
Proof.
  intros Hf Ht Hs Hr H. pose proof (js_types_zoom _ _ Hf Ht) as Hz.
  induction H as [q e Hl|q e q' e' chain es Hl Hi H IH]; intros Hin Hsort.
  - destruct (object_of _ _ q Hf) as (j & Hj & Hjq); [apply Hin; by left|].
    destruct (level_js p mtb tb o _ (calls j) j q e Hl ltac:(lia) Hs (Hr j Hj) Hjq) as (w & Hw & Hres).
    exists [j], [w]. split; [by constructor|]. split; [constructor; [done|constructor]|]. split; [intros x Hx; by apply elem_of_list_singleton in Hx as ->|].
    constructor; [done|constructor].
  - inversion Hsort as [|? ? Hsort' Hall]; subst. destruct IH as (jchain & ws & I1 & I2 & I3 & I4); [intros x Hx; apply Hin; by right|done|].
    destruct (object_of _ _ q Hf) as (j & Hj & Hjq); [apply Hin; by left|].
    destruct (level_js p mtb tb o _ (calls j) j q e Hl ltac:(lia) Hs (Hr j Hj) Hjq) as (w & Hw & Hres).
    inversion I2 as [|j' ? jchain' ? Hj'q' I2' E1 E2]; subst. destruct ws as [|w' ws]; [inversion I1|].
    exists (j :: j' :: jchain'), (w :: w' :: ws). split.
    + constructor; [done..|]. destruct Hi as [_ Hi]. apply List.Forall_inv in Hall as Hlt.
      destruct (Hz q' q) as [Z1 Z2]; [apply Hin; by right; left|apply Hin; by left|exact Hlt|].
      destruct (Hi Z1 Z2) as [C1 C2]. cbn [zip] in I4. apply Forall2_cons in I4 as [(_ & _ & _ & _ & X' & Y' & _) _].
      destruct Hres as (_ & _ & _ & _ & X & Y & _). cbn [fst snd] in X', Y'. unfold e_cell in C1, C2. cbn [fst snd] in C1, C2.
      rewrite X, X' in C1. rewrite Y, Y' in C2. destruct Hjq as [Q1 _], Hj'q' as [Q2 _]. unfold zoom_of in C1, C2. rewrite Q1, Q2 in C1, C2.
      unfold ancestor. cbn [fst snd]. by rewrite C1, C2.
    + split; [by constructor|]. split; [intros x Hx; apply elem_of_cons in Hx as [->|Hx]; [done|by apply I3]|].
      cbn [zip]. by constructor.
Qed.
(** Every result comes from one object for each entry, and an entry that the calls for the
    store of the object hold: it was written for a phrase of the object, where the options
    ask, and its tile is in the tile of the next. *)
Theorem C89_sound :
  forall p ho mtb tb js o out c calls,
  NoDup (map jp_id js) -> js_groups_agree js -> js_types js -> sane o -> (forall j, j ∈ js -> ready (calls j) j) ->
  js_stack_and_coalesce p ho mtb tb js (Some o) = Ok out -> c ∈ out ->
  exists jchain ws, js_stack calls o jchain ws /\ (forall j, j ∈ jchain -> j ∈ js) /\ js_legal jchain /\
    Forall2 (fun jw e => js_result jw.1 jw.2 e) (zip jchain ws) (cc_entries c).
Proof.
  intros p ho mtb tb js o out c calls Hn Hag Ht Hs Hr H Hc. unfold js_stack_and_coalesce in H.
  apply bind_Ok in H as (pms & Hp & H). apply bind_Ok in H as (o' & Ho & H). apply C63_converted in Hp. apply given_iff in Ho.
  injection Ho as <-. destruct (js_native js pms Hp) as (H1 & H2 & H3).
  destruct (own_ids_all pms (H2 Hn)) as [Hown Hdist].
  assert (Hids : ids_name_keys (fun pm => pm ∈ pms)) by (by apply own_ids_name).
  destruct (C59_sound p ho mtb tb pms o out c Hids (H3 Hag) H Hc) as (chain & _ & Hleg & _ & _ & Hst).
  assert (Hin : forall q, q ∈ chain -> q ∈ pms).
  { intros q Hq. apply Hleg. apply elem_of_list_In. apply -> List.in_rev. by apply elem_of_list_In. }
  destruct Hst as [Hst|(q & e & -> & Ee & Hl)].
  - destruct (stack_js p mtb tb o js pms calls chain (cc_entries c)) as (jchain & ws & J1 & J2 & J3 & J4); try done;
      [|exists jchain, ws; split; [done|]; split; [done|]; split; [by eapply legal_js|done]].
    destruct Hleg as (_ & Hsort & _). apply StronglySorted_rev in Hsort. by rewrite rev_involutive in Hsort.
  - destruct (object_of _ _ q Hp) as (j & Hj & Hjq); [apply Hin; by left|].
    destruct (level_js p mtb tb o _ (calls j) j q e Hl ltac:(lia) Hs (Hr j Hj) Hjq) as (w & Hw & Hres).
    exists [j], [w]. split; [by constructor|]. split; [intros x Hx; by apply elem_of_list_singleton in Hx as ->|].
    split; [eapply (legal_js pms [j] [q]); [done|constructor; [done|constructor]]|]. rewrite Ee. constructor; [done|constructor].
Qed.
Print Assumptions C89_sound.

Lemma stack_found p mtb tb o js pms calls jchain ws :
  Forall2 as_subquery js pms -> sane o -> (forall j, j ∈ js -> ready (calls j) j) -> short_answers p mtb tb o pms ->
  js_stack calls o jchain ws -> (forall j, j ∈ jchain -> j ∈ js /\ js_unlimited j) ->
  forall chain, Forall2 as_subquery jchain chain -> (forall q, q ∈ chain -> q ∈ pms) ->
  exists es, nested_stack p mtb tb o chain es /\ free_stack chain es /\
    Forall2 (fun jw e => jp_id jw.1 = Some (ce_phrasematch_id e) /\ e_cell e = (ge_x jw.2, ge_y jw.2) /\ e_id e = ge_id jw.2 mod 2 ^ 24)
      (zip jchain ws) es.
Proof.
  intros Hf Hs Hr Hshort H.
  assert (Hone : forall j q w, j ∈ js -> js_unlimited j -> as_subquery j q -> q ∈ pms -> js_wanted (calls j) o j w ->
    exists e, stack_entry p mtb tb o q e /\ (forall k, k ∈ sq_keys q -> mki_id k = ce_phrasematch_id e -> unlimited q k) /\
      jp_id j = Some (ce_phrasematch_id e) /\ e_cell e = (ge_x w, ge_y w) /\ e_id e = ge_id w mod 2 ^ 24).
  { intros j q w Hj [U1 U2] Hjq Hq Hw. destruct (ready_written (calls j) j q (Hr j Hj) Hjq) as (ops & Ha & Hwb).
    pose proof Hjq as (J1 & _ & J3 & _ & _ & k & Ek & (K1 & _ & K3 & K4 & _)).
    pose proof (wanted_js (calls j) ops o j q k w Ha Hjq Ek Hw) as Hwant.
    destruct (wanted_entry p mtb tb o pms q k w ops Hs Hwb Hwant Hq Hshort) as (e & He & (S1 & S2 & S3)).
    exists e. split; [done|]. split; [|by rewrite S1]. intros k' Hk' _. rewrite Ek in Hk'. apply elem_of_list_singleton in Hk' as ->. split.
    - intros s t E. apply (U1 s t); [congruence|done].
    - unfold zoom_of. rewrite J1. intros Hz. apply (flag_true _ _ K3). by apply U2. }
  induction H as [j w Hw|j w j' w' jchain ws H IH Hw Ha]; intros Hj chain Hc Hin.
  - inversion Hc as [|? q ? ? Hjq Hc' E1 E2]; subst. apply Forall2_nil_inv_l in Hc' as ->.
    destruct (Hj j) as [J1 J2]; [by left|]. destruct (Hone j q w J1 J2 Hjq) as (e & E1 & E2 & E3); [apply Hin; by left|done|].
    exists [e]. split; [by constructor|]. split; [constructor; [done|constructor]|]. constructor; [done|constructor].
  - inversion Hc as [|? q ? chain' Hjq Hc' E1 E2]; subst. destruct (IH ltac:(intros x Hx; apply Hj; by right) chain' Hc') as (es & I1 & I2 & I3).
    { intros x Hx. apply Hin. by right. }
    destruct (Hj j) as [J1 J2]; [by left|]. destruct (Hone j q w J1 J2 Hjq) as (e & E1 & E2 & E3); [apply Hin; by left|done|].
    inversion Hc' as [|? q' ? chain'' Hj'q' Hc'' E4 E5]; subst. cbn [zip] in I3.
    apply Forall2_cons_inv_l in I3 as (e' & es' & F1 & F2 & ->). exists (e :: e' :: es'). split.
    + destruct E3 as (_ & C & _), F1 as (_ & C' & _). cbn [fst snd] in C'. unfold ancestor in Ha. cbn [fst snd] in Ha. injection Ha as A1 A2.
      destruct Hjq as [Q1 _], Hj'q' as [Q2 _]. constructor; [done..| |]; unfold zoom_of; by rewrite C, C', Q1, Q2.
    + split; [by constructor|]. cbn [zip]. constructor; [done|]. by constructor.
Qed.
(** What the calls hold and the request asks for is found: take entries for objects that can
    be stacked, the tile of each in the tile of the next. If the result is not full, no key
    has more than forty stacks and no answer of a store is cut off, then some result has
    entries of the same objects, in the same tiles, for the same features. *)
Theorem C89_found :
  forall p ho mtb tb js o out pms jchain ws chain calls,
  NoDup (map jp_id js) -> js_groups_agree js -> js_types js -> sane o -> (forall j, j ∈ js -> ready (calls j) j) ->
  (forall j, j ∈ js -> js_covers (calls j) j) ->
  Forall2 as_subquery js pms -> (forall c, legal pms c -> ord_cmp (sum_weights c) f_max <> Gt) ->
  (forall cs, NoDup cs -> (forall c, c ∈ cs -> c <> [] /\ legal pms c) -> N.of_nat (length cs) < 2000) ->
  short_answers p mtb tb o pms ->
  js_stack_and_coalesce p ho mtb tb js (Some o) = Ok out -> (length out < 800)%nat ->
  js_stack calls o jchain ws -> (forall j, j ∈ jchain -> j ∈ js /\ js_unlimited j) ->
  Forall2 as_subquery jchain chain -> legal pms (rev chain) -> ((2 <= length chain)%nat \/ exists q, legal pms (rev chain ++ [q])) ->
  (forall id, at_most_40 (fun es => ce_phrasematch_id <$> head es = Some id /\
     exists chain', Forall2 alike chain chain' /\ (forall q, q ∈ chain' -> q ∈ pms) /\ nested_stack p mtb tb o chain' es)) ->
  exists c, c ∈ out /\
    Forall2 (fun jw e => jp_id jw.1 = Some (ce_phrasematch_id e) /\ e_cell e = (ge_x jw.2, ge_y jw.2) /\ e_id e = ge_id jw.2 mod 2 ^ 24)
      (zip jchain ws) (cc_entries c).
Proof.
  intros p ho mtb tb js o out pms jchain ws chain calls Hn Hag Ht Hs Hr Hcov Hp Hfin Hfew Hshort H Hlen Hjs Hj Hjc Hleg Hst H40.
  unfold js_stack_and_coalesce in H. apply bind_Ok in H as (pms' & Hp' & H). apply bind_Ok in H as (o' & Ho & H).
  apply given_iff in Ho. injection Ho as <-. assert (pms' = pms) as -> by (apply C63_converted in Hp; congruence). clear Hp'.
  destruct (js_native js pms Hp) as (H1 & H2 & H3).
  assert (Hin : forall q, q ∈ chain -> q ∈ pms).
  { intros q Hq. apply Hleg. apply elem_of_list_In. apply -> List.in_rev. by apply elem_of_list_In. }
  destruct (stack_found p mtb tb o js pms calls jchain ws Hp Hs Hr Hshort Hjs Hj chain Hjc Hin) as (es & Hnest & Hfree & Hst').
  assert (Hcovered : all_covered p mtb tb o pms).
  { intros q e Hq (k & g & (ko & res & i & Hk & Hko & Hres & Hi & _) & Hto). destruct (object_of _ _ q Hp Hq) as (j & Hjj & Hjq).
    destruct (level_js p mtb tb o 100000 (calls j) j q e) as (w & ((key & ph & Hh & _) & _) & (_ & _ & _ & _ & X & Y & _)); try done; [|by apply Hr|].
    { exists k, g. split; [|done]. exists ko, res. repeat (split; [done|]). by eapply elem_of_list_lookup_2. }
    destruct (Hcov j Hjj key w Hh) as (b & Hb & [Bx By]). destruct Hjq as [-> _]. exists b. split; [done|].
    unfold e_cell. cbn [fst snd]. by rewrite X, Y. }
  exists (stack_context chain es). split; [|done].
  destruct (C64_complete p ho mtb tb pms o out chain es H1 (H2 Hn) (H3 Hag) (js_types_zoom _ _ Hp Ht) Hfin Hfew Hcovered H Hleg Hnest Hfree Hst)
    as [?|[E|(D & D1 & D2 & D3)]]; [done|lia|exfalso].
  assert (Hhead : exists id, ce_phrasematch_id <$> head es = Some id) by (destruct Hnest; cbn; eauto). destruct Hhead as [id Hid].
  specialize (H40 id (es :: D)). cbn [length] in H40. rewrite D2 in H40. enough (41 <= 40)%nat by lia. apply H40.
  - constructor; [|done]. intros Hx. by destruct (D3 es Hx) as (? & _).
  - intros x Hx. apply elem_of_cons in Hx as [->|Hx].
    + split; [done|]. exists chain. split; [|done]. apply Forall_Forall2_diag. apply Forall_forall. by repeat split.
    + destruct (D3 x Hx) as (_ & X1 & _ & X2). split; [congruence|done].
Qed.
Print Assumptions C89_found.

(** ** An example *)
(** Two stores made by calls of all kinds, among them one that is overwritten, two that are
    rejected and one that is written twice; the second object asks for what is nearby. *)
Definition e_key : js_key := JsKey (JsNumber f_one) (JsArray [JsNumber f_zero]).
Definition e_calls_a : list js_call :=
  [JsInsert e_key (Some [GridEntry f_one 1 2 2 9 0]);
   JsInsert e_key None;
   JsInsert e_key (Some [GridEntry f_one 1 1 1 1 0; GridEntry f_one 1 2 2 2 0; GridEntry f_one 1 1 1 5 0]);
   JsBounds (Some [1; 7])].
Definition e_calls_b : list js_call :=
  [JsAppend e_key (Some [GridEntry f_one 3 3 3 1 0]);
   JsAppend (JsKey JsNull JsNull) (Some []);
   JsCompact e_key (JsNumber f_one) (JsNumber (f_of_N 3)) (JsNumber (f_of_N 2)) (JsNumber f_zero) (Some [(4, 4); (9, 9)])].
Definition e_store (cs : list js_call) (zoom type : N) : store :=
  open_store (js_run id_oracle (Some builder_new, ∅) (cs ++ [JsFinish])).2.2 zoom type (f_of_N 40) [BBox 0 0 16383 16383] f_one.
Definition e_a : js_phrasematch :=
  JsPhrasematch (e_store e_calls_a 5 1) (Some (f_lit 1 2)) (Some 2) (Some (Exact 1)) JsNull (Some 10) (Some 0) JsUndefined (Some []) 1.
Definition e_b : js_phrasematch :=
  JsPhrasematch (e_store e_calls_b 6 2) (Some (f_lit 1 2)) (Some 1) (Some (Range 1 2)) (JsArray [JsNumber f_zero]) (Some 11) (Some 1)
    (JsBoolean true) (Some []) 1.
Definition e_calls (j : js_phrasematch) : list js_call :=
  match jp_idx j with Some 0 => e_calls_a | _ => e_calls_b end.
Definition e_sub (j : js_phrasematch) : subquery :=
  match deserialize_phrasesubq [j] with Ok [q] => q | _ => t_a end.
Definition e_pms : list subquery := [e_sub e_b; e_sub e_a].

Definition to_op (c : js_call) : option op :=
  match c with
  | JsInsert k (Some es) => match to_key k with Ok key => Some (OpInsert key es) | _ => None end
  | JsAppend k (Some es) => match to_key k with Ok key => Some (OpAppend key es) | _ => None end
  | JsCompact k (JsNumber r) (JsNumber s) (JsNumber i) (JsNumber h) (Some xs) =>
      match to_key k with
      | Ok key => Some (OpCompact key r (cast_uint (2 ^ 8 - 1) s) (cast_uint (2 ^ 32 - 1) i) (cast_uint (2 ^ 8 - 1) h) xs)
      | _ => None
      end
  | JsBounds (Some bs) => Some (OpBounds bs)
  | _ => None
  end.
Lemma to_op_ok c o : Spec_native.stands_for c o <-> to_op c = Some o.
Proof.
  split.
  - intros Hs. destruct Hs as [k key es Hk|k key es Hk|k key r s sc i i' h h' xs Hk H1 H2 H3|bs]; cbn [to_op]; [..|done];
      apply to_key_iff in Hk; rewrite Hk; [done..|]. apply cast_uint_iff in H1, H2, H3. by subst.
  - intros H. destruct c as [k [es|]|k [es|]|k r s i h xs|ids|[bs|]|]; cbn [to_op] in H; try discriminate H.
    + destruct (to_key k) as [key| | |] eqn:E; try discriminate H. injection H as <-. constructor. by apply to_key_iff.
    + destruct (to_key k) as [key| | |] eqn:E; try discriminate H. injection H as <-. constructor. by apply to_key_iff.
    + destruct r, s, i, h, xs; try discriminate H. destruct (to_key k) as [key| | |] eqn:E; try discriminate H. injection H as <-.
      constructor; [by apply to_key_iff|by apply cast_uint_iff..].
    + injection H as <-. constructor.
Qed.
Lemma accepted_iff cs ops : accepted cs ops <-> ops = omap to_op cs.
Proof.
  split.
  - induction 1 as [|c o cs ops Hs Ha IH|c cs ops Hno Ha IH]; [done| |].
    + apply to_op_ok in Hs. cbn. by rewrite Hs, IH.
    + cbn. destruct (to_op c) as [o|] eqn:E; [|done]. apply to_op_ok in E. by destruct (Hno o).
  - intros ->. induction cs as [|c cs IH]; [constructor|]. cbn. destruct (to_op c) as [o|] eqn:E.
    + constructor; [by apply to_op_ok|done].
    + constructor; [|done]. intros o Ho. apply to_op_ok in Ho. congruence.
Qed.
(** What a list of calls stands for is determined. *)
Lemma accepted_one cs ops ops' : accepted cs ops -> accepted cs ops' -> ops = ops'.
Proof. rewrite !accepted_iff. congruence. Qed.

Lemma e_indexed cs zoom type : JsFinish ∉ cs -> (forall ids, JsRenumber ids ∉ cs) ->
  (let r := js_run id_oracle (Some builder_new, ∅) (cs ++ [JsFinish]) in
   match r.2.1, last r.1 with None, Some (Ok tt) => true | _, _ => false end) = true -> indexed cs (e_store cs zoom type).
Proof.
  intros Hf Hr H. cbn zeta in H. unfold e_store. destruct (js_run _ _ _) as [rs [b d]] eqn:E. cbn [fst snd] in *.
  destruct b; [discriminate H|]. destruct (last rs) as [[[]| | |]|] eqn:El; try discriminate H.
  exists id_oracle, rs, d, zoom, type, (f_of_N 40), [BBox 0 0 16383 16383], f_one. by repeat (split; [done|]).
Qed.
Lemma e_ready j : j ∈ [e_b; e_a] -> ready (e_calls j) j.
Proof.
  intros H. rewrite !elem_of_cons, elem_of_nil in H. destruct H as [->|[->|[]]]; (split; [|split; [|split]]).
  1, 5: apply e_indexed; [set_solver|intros ids; set_solver|vm_compute; reflexivity].
  2, 5: apply N.leb_le; vm_compute; reflexivity.
  2, 4: vm_compute; exact I.
  all: intros ops Ha; apply accepted_iff in Ha; subst ops; split; [apply history_okb_ok; vm_compute; reflexivity|].
  - intros ph E. injection E as <-. split; [apply N.ltb_lt; reflexivity|]. intros H. vm_compute in H. by apply elem_of_nil in H.
  - intros ph E. injection E as <-. apply N.ltb_lt. reflexivity.
Qed.
Lemma e_covers j : j ∈ [e_b; e_a] -> js_covers (e_calls j) j.
Proof.
  intros H key w Hh. assert (Ha : accepted (e_calls j) (omap to_op (e_calls j))) by by apply accepted_iff.
  apply (C89_written _ _ _ _ Ha) in Hh as (es & H1 & H2).
  rewrite !elem_of_cons, elem_of_nil in H. destruct H as [->|[->|[]]].
  - assert (Hc : coversb (omap to_op e_calls_b) (e_sub e_b) = true) by (vm_compute; reflexivity).
    exact (covers_ok _ _ Hc key es w H1 H2).
  - assert (Hc : coversb (omap to_op e_calls_a) (e_sub e_a) = true) by (vm_compute; reflexivity).
    exact (covers_ok _ _ Hc key es w H1 H2).
Qed.
Lemma e_subqueries : Forall2 as_subquery [e_b; e_a] e_pms.
Proof. apply C63_converted. vm_compute. reflexivity. Qed.

Definition e_wa : grid_entry := GridEntry f_one 1 2 2 2 0.
Definition e_wb : grid_entry := GridEntry f_one 3 4 4 2 0.
Lemma e_stack : js_stack e_calls g_opts [e_b; e_a] [e_wb; e_wa].
Proof.
  assert (Hin : forall j x y, (j = e_b /\ (x, y) = (4, 4)) \/ (j = e_a /\ (x, y) = (2, 2)) -> js_in g_opts j x y).
  { intros j x y H b Eb. injection Eb as <-. destruct H as [[-> H]|[-> H]]; injection H as -> ->;
      (split; [|intros Hx; vm_compute in Hx; discriminate Hx]); intros _; exists 4, 4;
      (split; [repeat split; apply N.leb_le; reflexivity|reflexivity]). }
  assert (Hk : as_key e_key (1, 1)) by (apply to_key_iff; vm_compute; reflexivity).
  assert (Ha : js_wanted (e_calls e_a) g_opts e_a e_wa).
  { split; [|split; [apply Hin; by right|intros E; discriminate E]]. exists (1, 1), (Exact 1). split; [|done].
    exists (take 2 e_calls_a), (JsInsert e_key (Some [GridEntry f_one 1 1 1 1 0; GridEntry f_one 1 2 2 2 0; GridEntry f_one 1 1 1 5 0])), (drop 3 e_calls_a).
    split; [reflexivity|]. split; [constructor; [done|]; apply (bool_decide_unpack _); vm_compute; exact I|].
    intros k es H. cbn in H. set_solver. }
  constructor; [by constructor| |reflexivity].
  split; [|split; [apply Hin; by left|]].
  - exists (1, 1), (Range 1 2). split; [|done].
    exists (take 2 e_calls_b), (JsCompact e_key (JsNumber f_one) (JsNumber (f_of_N 3)) (JsNumber (f_of_N 2)) (JsNumber f_zero) (Some [(4, 4); (9, 9)])), [].
    split; [reflexivity|]. split; [|intros k es H; by apply elem_of_nil in H].
    apply writes_compact; [done|apply cast_uint_iff; vm_compute; reflexivity..|by left].
  - intros _ pt Ept. injection Ept as <-. repeat split; apply N.leb_le; vm_compute; reflexivity.
Qed.
Definition any_entry : list coalesce_entry := mjoin (map (all_entries Debug first_mtb last_tb g_opts) e_pms).
Lemma e_forty chain : length chain = 2%nat ->
  forall id, at_most_40 (fun es => ce_phrasematch_id <$> head es = Some id /\
     exists chain', Forall2 alike chain chain' /\ (forall q, q ∈ chain' -> q ∈ e_pms) /\ nested_stack Debug first_mtb last_tb g_opts chain' es).
Proof.
  intros Hc id D Hnd HD. enough (length D <= length (products [any_entry; any_entry]))%nat.
  { assert (E : (length (products [any_entry; any_entry]) <= 40)%nat) by (apply Nat.leb_le; vm_compute; reflexivity). lia. }
  apply submseteq_length, NoDup_submseteq; [done|]. intros es Hes. destruct (HD es Hes) as (_ & chain' & Ha & Hin & Hns).
  apply Forall2_length in Ha. rewrite Hc in Ha. destruct chain' as [|a [|b [|? ?]]]; try discriminate Ha.
  apply nested_entries in Hns. change [any_entry; any_entry] with (map (fun _ : unit => any_entry) [tt; tt]). apply products_ok.
  inversion Hns as [|? e1 ? es1 H1 Hns1]; subst. inversion Hns1 as [|? e2 ? es2 H2 Hns2]; subst. inversion Hns2; subst.
  constructor; [|constructor; [|constructor]]; apply elem_of_mjoin; eexists; (split; [eassumption|]); apply elem_of_map; eexists; (split; [reflexivity|]); apply Hin; set_solver.
Qed.
Example C89_ex :
  let js := [e_b; e_a] in
  NoDup (map jp_id js) /\ js_groups_agree js /\ js_types js /\ sane g_opts /\ (forall j, j ∈ js -> ready (e_calls j) j) /\
  (forall j, j ∈ js -> js_covers (e_calls j) j) /\ Forall2 as_subquery js e_pms /\
  (forall c, legal e_pms c -> ord_cmp (sum_weights c) f_max <> Gt) /\
  (forall cs, NoDup cs -> (forall c, c ∈ cs -> c <> [] /\ legal e_pms c) -> N.of_nat (length cs) < 2000) /\
  short_answers Debug first_mtb last_tb g_opts e_pms /\
  js_stack e_calls g_opts js [e_wb; e_wa] /\ (forall j, j ∈ js -> j ∈ js /\ js_unlimited j) /\
  legal e_pms (rev e_pms) /\
  (forall id, at_most_40 (fun es => ce_phrasematch_id <$> head es = Some id /\
     exists chain', Forall2 alike e_pms chain' /\ (forall q, q ∈ chain' -> q ∈ e_pms) /\ nested_stack Debug first_mtb last_tb g_opts chain' es)) /\
  summary (js_stack_and_coalesce Debug rev_oracle first_mtb last_tb js (Some g_opts)) =
    Some [(3, [(1, 2); (0, 2)]); (1, [(1, 2)]); (2, [(0, 2)])] /\
  (exists key, js_holds e_calls_a key e_wa) /\ ~ (exists key, js_holds e_calls_a key (GridEntry f_one 1 2 2 9 0)).
Proof.
  cbn zeta. split; [apply (bool_decide_eq_true_1 _); vm_compute; reflexivity|]. split.
  { intros a b Ha Hb (_ & H & _). rewrite !elem_of_cons, elem_of_nil in Ha. rewrite !elem_of_cons, elem_of_nil in Hb.
    destruct Ha as [->|[->|[]]], Hb as [->|[->|[]]]; try discriminate H.
    all: split; [reflexivity|]; split; [reflexivity|]; intros la lb Ea Eb; cbn in Ea, Eb; assert (la = lb) as -> by congruence; done. }
  split.
  { intros a b Ha Hb. rewrite !elem_of_cons, elem_of_nil in Ha. rewrite !elem_of_cons, elem_of_nil in Hb.
    destruct Ha as [->|[->|[]]], Hb as [->|[->|[]]]; cbn [jp_store e_a e_b e_store open_store st_type_id st_zoom]; lia. }
  split; [exact g_sane|]. split; [exact e_ready|]. split; [exact e_covers|]. split; [exact e_subqueries|].
  split; [apply (legal_all _ _ (fun c => not_gtb (sum_weights c) f_max)); [intros c; apply not_gtb_ok|vm_compute; reflexivity]|].
  split; [apply few_chains; apply N.ltb_lt; vm_compute; reflexivity|].
  split; [apply short_answers_ok; vm_compute; reflexivity|]. split; [exact e_stack|]. split.
  { intros j Hj. split; [done|]. rewrite !elem_of_cons, elem_of_nil in Hj.
    destruct Hj as [->|[->|[]]]; (split; [|intros Hz; vm_compute in Hz; by destruct Hz]); intros s e m E _; [|discriminate E].
    injection E as <- <-. left. lia. }
  split; [apply all_chains_ok; vm_compute; repeat (first [left|right])|].
  split; [by apply e_forty|]. split; [vm_compute; reflexivity|]. split.
  - exists (1, 1). assert (Ha : accepted e_calls_a (omap to_op e_calls_a)) by by apply accepted_iff.
    apply (C89_written _ _ _ _ Ha). eexists. split; [vm_compute; reflexivity|]. apply (bool_decide_unpack _); vm_compute; exact I.
  - intros (key & Hh). assert (Ha : accepted e_calls_a (omap to_op e_calls_a)) by by apply accepted_iff.
    apply (C89_written _ _ _ _ Ha) in Hh as (es & H1 & H2).
    apply elem_of_map_to_list in H1.
    assert (Hall : forallb (fun kv : (N * N) * list grid_entry => forallb (fun w => negb (ge_id w =? 9)) kv.2)
      (map_to_list (written (omap to_op e_calls_a))) = true) by (vm_compute; reflexivity).
    apply (forallb_in _ _ Hall) in H1. apply (forallb_in _ _ H1) in H2. discriminate H2.
Qed.
