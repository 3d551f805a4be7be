(** Property C94: from the calls of JavaScript to the results of coalesce. *)
From Verif Require Import Prelude Lists F64 Heap Common Builder Spatial Store Spec Spec_match Spatial_proofs Query Coalesce Stackable Tree
  Native Spec_coalesce Multi_proofs Spec_stack Spec_tree Spec_native Spec_js Native_proofs Examples Props_storage Props_match Props_coalesce
  Props_native Props_js Props_owed Props_zoom Spec_ground Props_ground Spec_flat Props_layers Spec_end Props_end Spec_flatend.
From Coq Require Import Sorting.Sorted.
From Coq Require Import ZifyBool.
Local Open Scope N_scope.

Lemma sub_same j q : as_subquery j q ->
  sq_store q = jp_store j /\ jp_weight j = Some (sq_weight q) /\ jp_mask j = Some (sq_mask q) /\ jp_idx j = Some (sq_idx q).
Proof. intros (A & B & C & D & _). done. Qed.
(** An entry made of a match of the layer. *)
Lemma flat_js p mtb tb o cs j q k ks zo max ms g e : sane o -> ready cs j -> as_subquery j q -> sq_keys q = k :: ks ->
  adjust_to_zoom p o (zoom_of q) = Ok zo -> 1 <= max -> streaming_get_matching p mtb tb (sq_store q) (mki_key k) zo max = Ok ms ->
  g ∈ ms -> to_entry q 0 g e -> exists w, js_asked cs o j w /\ js_flat_result j w e.
Proof.
  intros Hs Hr Hj Hk Hzo Hmax Hms Hg Hto. destruct (ready_written cs j q Hr Hj) as (ops & Ha & (Hh & [ho' Hb] & Hz & Hq & Hrad)).
  destruct (adjusted p o (zoom_of q) zo Hs Hz Hzo) as (Ez & Ab & Ap).
  pose proof (adjusted_ok o q zo Hs Hz Ez Ap Hrad) as Hok. assert (Hk' : k ∈ sq_keys q) by (rewrite Hk; by left).
  pose proof (answer_written _ _ _ _ _ _ _ _ _ _ _ Hh Hb Hok (Hq k Hk') Hmax Hms Hg) as Hm.
  destruct (match_came _ _ _ _ _ _ _ Hm Hto) as [Hc Hbox].
  assert (Hin : lies_in o q e).
  { intros b Eb. rewrite Eb in Ab. destruct (mo_bbox zo) as [b'|]; [|done]. apply Ab. by apply Hbox. }
  destruct Hc as (key & es & w & W1 & W2 & W3 & E1 & E2 & E3 & E4 & E5 & E6 & E7 & E8 & _ & f & F1 & F2).
  pose proof Hj as (_ & J2 & J3 & J4 & _ & k' & Ek & (K1 & _)).
  assert (k' = k) as -> by congruence. exists w. split; [split|].
  - exists key, (mk_phrase (mki_key k)). split; [|done]. apply (C89_written cs ops key w Ha). by exists es.
  - apply (js_in_tile o j q); [done|]. rewrite <- E2, <- E3. exact Hin.
  - destruct Hto as (_ & _ & _ & _ & _ & _ & Ep & _). unfold js_flat_result. rewrite Ep, J4, J3, E7, E8.
    repeat (split; [done|]). exists (sq_weight q), f. done.
Qed.

(** ** C94 Results of coalesce and calls *)
(** Every result consists of entries that were written and asked for, the first one in the
    tiles of the others, each for other words of the query. *)
Theorem C94_sound :
  forall p ho mtb tb js o out c calls,
  sane o -> (forall j, j ∈ js -> ready (calls j) j /\ jp_mask j <> Some 0) ->
  (forall j, js = [j] -> mo_zoom o = js_zoom j) ->
  js_coalesce p ho mtb tb js (Some o) = Ok out -> c ∈ out ->
  exists first rest, Forall2 (fun jw e => jw.1 ∈ js /\ js_asked (calls jw.1) o jw.1 jw.2 /\ js_flat_result jw.1 jw.2 e) (first :: rest) (cc_entries c) /\
    (forall jw, jw ∈ rest -> js_inside first jw) /\ disjoint_masks (map ce_mask (cc_entries c)).
Proof.
  intros p ho mtb tb js o out c calls Hs Hr Hone H Hc. unfold js_coalesce in H.
  apply bind_Ok in H as (pms & Hp & H). apply bind_Ok in H as (o' & Ho & H). apply C63_converted in Hp. apply given_iff in Ho.
  injection Ho as <-.
  destruct pms as [|q [|q' pms]].
  - exfalso. cbn in H. discriminate H.
  - inversion Hp as [|j ? js' ? Hj Hnil]; subst. inversion Hnil; subst.
    destruct (C42_backed p ho mtb tb q o out H) as (k & ks & ms & Hk & Hms & Hall). destruct (Hall c Hc) as (g & Hg & e & Ee & Hto & _).
    destruct (flat_js p mtb tb o (calls j) j q k ks o 80 ms g e) as (w & W1 & W2); try done.
    + apply Hr. by left.
    + unfold adjust_to_zoom, zoom_of. pose proof (Hone j eq_refl) as Ez. unfold js_zoom in Ez.
      destruct (sub_same j q Hj) as (-> & _). by rewrite Ez, N.eqb_refl.
    + exists (j, w), []. rewrite Ee. split; [constructor; [|constructor]|].
      * split; [by left|done].
      * split; [intros jw Hjw; by apply elem_of_nil in Hjw|]. cbn. done.
  - assert (Hobj : forall a, a ∈ q :: q' :: pms -> exists j, j ∈ js /\ as_subquery j a) by (intros a Ha; by eapply object_of).
    assert (Hwr : forall a, a ∈ q :: q' :: pms -> sq_mask a <> 0 /\ zoom_of a <= 15).
    { intros a Ha. destruct (Hobj a Ha) as (j & Hj & Hja). destruct (Hr j Hj) as [Hrj Hm]. destruct (sub_same j a Hja) as (A & _ & C & _).
      split; [congruence|]. destruct Hrj as (_ & _ & Z & _). unfold zoom_of. by rewrite A. }
    destruct (C44_contexts p ho mtb tb (q :: q' :: pms) o out c) as (z & e0 & es & total & Ee & H0 & Hes & Hdis & _); try done.
    + cbn. lia.
    + intros a Ha. by apply Hwr.
    + intros a b Ha Hb. destruct (Hwr a Ha) as [_ Z]. unfold zoom_of in Z. lia.
    + assert (Hfrom : forall e z', entry_from p mtb tb (q :: q' :: pms) o e z' ->
        exists j w, j ∈ js /\ js_asked (calls j) o j w /\ js_flat_result j w e /\ js_zoom j = z').
      { intros e z' (a & g & Ha & Ez & (k & ks & zo & ms & Hk & Hzo & Hms & Hg) & Hto).
        destruct (Hobj a Ha) as (j & Hj & Hja). destruct (Hr j Hj) as [Hrj _].
        destruct (flat_js p mtb tb o (calls j) j a k ks zo max_grids_per_phrase ms g e) as (w & W1 & W2); try done.
        exists j, w. split; [done|]. split; [done|]. split; [done|]. destruct (sub_same j a Hja) as (A & _). unfold js_zoom. congruence. }
      destruct (Hfrom e0 z H0) as (j0 & w0 & Hj0 & W1 & W2 & Z0).
      assert (Hcell : forall j w e, js_flat_result j w e -> e_cell e = (ge_x w, ge_y w)).
      { intros j w e (_ & _ & _ & _ & Ex & Ey & _). unfold e_cell. by rewrite Ex, Ey. }
      assert (Hrest : exists rest, Forall2 (fun jw e => (jw.1 ∈ js /\ js_asked (calls jw.1) o jw.1 jw.2 /\ js_flat_result jw.1 jw.2 e) /\ js_inside (j0, w0) jw) rest es).
      { assert (Hes' : Forall (lies_under p mtb tb (q :: q' :: pms) o z e0) es) by (by apply Forall_forall).
        clear - Hes' Hfrom Hcell W2 Z0. induction Hes' as [|e es (z' & He & Hz' & Ex & Ey) _ [rest IH]]; [by exists []|].
        destruct (Hfrom e z' He) as (j & w & Hj & V1 & V2 & V3). exists ((j, w) :: rest). constructor; [|done]. split; [done|].
        rewrite (Hcell _ _ _ W2), (Hcell _ _ _ V2) in Ex, Ey. unfold js_inside. cbn [fst snd] in *. rewrite V3, Z0. done. }
      destruct Hrest as [rest Hrest]. exists (j0, w0), rest. rewrite Ee. split; [|split; [|done]].
      * constructor; [done|]. eapply Forall2_impl; [exact Hrest|]. by intros ? ? [? _].
      * intros jw Hjw. apply elem_of_list_lookup in Hjw as [n Hn]. destruct (Forall2_lookup_l _ _ _ _ _ Hrest Hn) as (e & _ & _ & ?). done.
Qed.
Print Assumptions C94_sound.

(** ** What is found *)
Definition ops_of (calls : js_phrasematch -> list js_call) (js : list js_phrasematch) (q : subquery) : list op :=
  match list_find (fun j => jp_idx j = Some (sq_idx q)) js with
  | Some (_, j) => omap to_op (calls j)
  | None => []
  end.
Lemma ops_of_object calls js j q : NoDup (map jp_idx js) -> j ∈ js -> as_subquery j q -> accepted (calls j) (ops_of calls js q).
Proof.
  intros Hn Hj Hq. destruct (sub_same j q Hq) as (_ & _ & _ & Ei). unfold ops_of.
  destruct (list_find _ js) as [[n j']|] eqn:E.
  - apply list_find_Some in E as (Hn' & Ej' & _). apply elem_of_list_lookup in Hj as [m Hm].
    assert (n = m) as ->.
    { apply (NoDup_lookup (map jp_idx js) n m (Some (sq_idx q))); [done| |]; rewrite list_lookup_fmap; [rewrite Hn'|rewrite Hm]; cbn; congruence. }
    assert (j' = j) as -> by congruence. by apply accepted_iff.
  - exfalso. apply list_find_None in E. rewrite Forall_forall in E. apply (E j Hj). done.
Qed.
Lemma permuted_objects js pms ls : Forall2 as_subquery js pms -> ls ≡ₚ js -> exists qs, Forall2 as_subquery ls qs /\ qs ≡ₚ pms.
Proof.
  intros HF Hp. revert pms HF. induction Hp as [|j l l' Hp IH|a b l|l l' l'' Hp IH Hp' IH']; intros pms HF.
  - inversion HF; subst. by exists [].
  - inversion HF as [|? q ? pms' H1 H2]; subst. destruct (IH _ H2) as (qs & A & B). exists (q :: qs). split; [by constructor|by rewrite B].
  - inversion HF as [|? q ? pms' H1 H2]; subst. inversion H2 as [|? q' ? pms'' H3 H4]; subst.
    exists (q' :: q :: pms''). split; [constructor; [done|]; constructor; done|]. apply Permutation_swap.
  - destruct (IH' _ HF) as (qs & A & B). destruct (IH _ A) as (qs' & A' & B'). exists qs'. split; [done|]. by rewrite B'.
Qed.
Lemma subqueries_unique js : forall qs qs', Forall2 as_subquery js qs -> Forall2 as_subquery js qs' -> qs = qs'.
Proof.
  induction js as [|j js IH]; intros qs qs' H H'; inversion H; inversion H'; subst; [done|]. f_equal; [by eapply C63_unique|by apply IH].
Qed.
Lemma asked_js calls o js j q w : NoDup (map jp_idx js) -> j ∈ js -> as_subquery j q -> js_asked (calls j) o j w -> asked (ops_of calls js q) o q w.
Proof.
  intros Hn Hj Hq ((key & ph & Hh & Hph & Hsel) & Hin). pose proof (ops_of_object calls js j q Hn Hj Hq) as Ha.
  pose proof Hq as (_ & _ & _ & _ & _ & k & Ek & (K1 & _)). exists k, []. split; [done|].
  apply (C89_written _ _ key w Ha) in Hh as (es & H1 & H2). split; [|by apply (js_in_tile o j q)].
  exists key, es. split; [done|]. split; [congruence|done].
Qed.

(** Below its limits, and if no two stacks are a quarter apart, coalesce has a result for
    every entry that was written, is asked for, and lies on what was written for the layers
    before it, or is of the last layer. *)
Theorem C94_found :
  forall p ho mtb tb js ls layers o out calls i j w,
  ls ≡ₚ js -> StronglySorted js_layered ls -> (2 <= length ls)%nat -> NoDup (map jp_idx ls) ->
  (forall j, j ∈ ls -> ready (calls j) j /\ jp_mask j <> Some 0 /\ forall x, jp_idx j = Some x -> x < 128) -> sane o ->
  Forall2 as_subquery ls layers -> (forall q, q ∈ layers -> first_short p mtb tb o 100000 q) -> close_stacks p mtb tb o layers ->
  js_coalesce p ho mtb tb js (Some o) = Ok out -> (length out < 40)%nat ->
  ls !! i = Some j -> js_expected calls o ls i w ->
  exists c e es, c ∈ out /\ cc_entries c = e :: es /\ jp_idx j = Some (ce_idx e) /\ e_id e = ge_id w mod 2 ^ 24.
Proof.
  intros p ho mtb tb js ls layers o out calls i j w Hperm Hsort Hlen Hnd Hr Hs HF Hshort Hclose H Hroom Hi He. unfold js_coalesce in H.
  apply bind_Ok in H as (pms & Hp & H). apply bind_Ok in H as (o' & Ho & H). apply C63_converted in Hp. apply given_iff in Ho. injection Ho as <-.
  destruct (permuted_objects js pms ls Hp Hperm) as (qs & HF' & Hpq). assert (qs = layers) as -> by (by eapply subqueries_unique). clear HF'.
  assert (Hat : forall n j, ls !! n = Some j -> exists q, layers !! n = Some q /\ as_subquery j q).
  { intros n x Hx. destruct (Forall2_lookup_l _ _ _ _ _ HF Hx) as (q & A & B). by exists q. }
  assert (Hback : forall q, q ∈ layers -> exists j, j ∈ ls /\ as_subquery j q) by (intros q Hq; by eapply object_of).
  assert (Hstand : forall n x, js_standing calls o ls n x -> standing (ops_of calls ls) o layers n x).
  { intros n x Hx. induction Hx as [j1 w1 H1 H2|n1 j1 w1 n2 j2 w2 m1 m2 Hlt H1 H2 H3 H4 IH M1 M2 Hm Hins].
    - destruct (Hat _ _ H1) as (q & A & B). apply (standing_first _ _ _ q); [done|]. apply (asked_js calls o ls j1); try done.
      by eapply elem_of_list_lookup_2.
    - destruct (Hat _ _ H1) as (q1 & A1 & B1). destruct (Hat _ _ H2) as (q2 & A2 & B2).
      destruct (sub_same _ _ B1) as (S1 & _ & E1 & I1). destruct (sub_same _ _ B2) as (S2 & _ & E2 & I2).
      apply (standing_on _ _ _ n1 q1 w1 n2 q2 w2); try done.
      + apply (asked_js calls o ls j1); try done. by eapply elem_of_list_lookup_2.
      + intros Eidx. assert (n2 = n1); [|lia]. apply (NoDup_lookup (map jp_idx ls) n2 n1 (jp_idx j1)); [done| |];
          rewrite list_lookup_fmap; [rewrite H2|rewrite H1]; cbn; congruence.
      + assert (sq_mask q1 = m1) as -> by congruence. assert (sq_mask q2 = m2) as -> by congruence. done.
      + destruct Hins as (Z & Ex & Ey). unfold js_zoom in *. cbn [fst snd] in *. unfold zoom_of. rewrite S1, S2. unfold ancestor. cbn [fst snd].
        rewrite ?N.shiftr_div_pow2. by rewrite Ex, Ey. }
  destruct (Hat i j Hi) as (sq & Hsq & Hjs). destruct (sub_same _ _ Hjs) as (_ & _ & _ & Ei).
  destruct (C77_found p ho mtb tb pms layers o out (ops_of calls ls) i sq w) as (c & Hc & e & es & Ec & Eidx & Eid); try done.
  - clear - HF Hsort Hnd Hr. revert Hsort Hnd Hr. induction HF as [|j1 q1 l1 l2 H1 HF IH]; intros Hsort Hnd Hr; [constructor|].
    apply StronglySorted_inv in Hsort as [Hs1 Hs2]. inversion Hnd; subst. constructor; [apply IH; [done|done|]; intros x Hx; apply Hr; by right|].
    rewrite Forall_forall in Hs2. apply Forall_forall. intros q Hq. destruct (object_of _ _ q HF Hq) as (j2 & Hj2 & B2).
    destruct (sub_same _ _ H1) as (S1 & _ & _ & I1). destruct (sub_same _ _ B2) as (S2 & _ & _ & I2).
    unfold zoom_ordered. rewrite S1, S2. destruct (Hs2 j2 Hj2) as [?|[? ?]]; [by left|right]. split; [done|]. by eauto.
  - apply Forall2_length in HF. lia.
  - intros a Ha. destruct (Hback a Ha) as (ja & Hja & B). destruct (Hr ja Hja) as (_ & Hm & Hx). destruct (sub_same _ _ B) as (_ & _ & Em & Ex).
    split; [congruence|by apply Hx].
  - intros a b Ha Hb E. destruct (Hback a Ha) as (ja & Hja & Ba). destruct (Hback b Hb) as (jb & Hjb & Bb).
    destruct (sub_same _ _ Ba) as (_ & _ & _ & Ia). destruct (sub_same _ _ Bb) as (_ & _ & _ & Ib).
    apply elem_of_list_lookup in Hja as [n Hn]. apply elem_of_list_lookup in Hjb as [m Hm].
    assert (n = m) as ->.
    { apply (NoDup_lookup (map jp_idx ls) n m (jp_idx ja)); [done| |]; rewrite list_lookup_fmap; [rewrite Hn|rewrite Hm]; cbn; congruence. }
    assert (ja = jb) as -> by congruence. by eapply C63_unique.
  - intros a Ha. destruct (Hback a Ha) as (ja & Hja & Ba). destruct (Hr ja Hja) as (Hrj & _).
    destruct (ready_written _ _ _ Hrj Ba) as (ops & Hacc & Hw). by rewrite (accepted_one _ _ _ (ops_of_object calls ls ja a Hnd Hja Ba) Hacc).
  - destruct He as [He|(Hl & jx & Hx & Hax)]; [left; by apply Hstand|]. right. rewrite <- (Forall2_length _ _ _ HF). split; [done|].
    exists sq. split; [done|]. assert (jx = j) as -> by congruence. apply (asked_js calls o ls j); try done. by eapply elem_of_list_lookup_2.
  - exists c, e, es. split; [done|]. split; [done|]. split; [congruence|done].
Qed.
Print Assumptions C94_found.

(** ** An example *)
(** The layers of the example of C77, written from JavaScript. *)
Definition y_object (q : subquery) : js_phrasematch :=
  JsPhrasematch (sq_store q) (Some (sq_weight q)) (Some (sq_mask q)) (Some (Exact 1)) (JsArray [JsNumber f_zero]) (Some (sq_idx q))
    (Some (sq_idx q)) JsUndefined (Some []) 0.
Definition y_a : js_phrasematch := y_object l_a.
Definition y_b : js_phrasematch := y_object l_b.
Definition y_calls_a : list js_call := [JsInsert e_key (Some [GridEntry f_one 1 0 0 8 0])].
Definition y_calls_b : list js_call :=
  [JsAppend e_key None; JsInsert e_key (Some [GridEntry f_one 1 1 1 1 0; GridEntry f_one 2 60 60 2 0])].
Definition y_calls (j : js_phrasematch) : list js_call := match jp_idx j with Some 0 => y_calls_a | _ => y_calls_b end.
Lemma y_sub : Forall2 as_subquery [y_a; y_b] [l_a; l_b].
Proof.
  constructor; [|constructor; [|constructor]].
  all: split; [reflexivity|]; split; [reflexivity|]; split; [reflexivity|]; split; [reflexivity|]; split.
  1, 3: exists []; split; [reflexivity|]; intros i; split; [|intros H; by apply elem_of_nil in H]; cbn [sq_nonoverlap]; intros H; exfalso;
    rewrite N.bits_0 in H; discriminate H.
  all: eexists; split; [reflexivity|]; split; [reflexivity|]; split; [|split; [constructor|by split]].
  all: apply langs_iff; vm_compute; reflexivity.
Qed.
Lemma indexed_ops cs ops zoom ty radius bb ms : JsFinish ∉ cs -> (forall ids, JsRenumber ids ∉ cs) -> accepted cs ops ->
  match finish id_oracle (run ops) ∅ with Ok _ => true | _ => false end = true ->
  indexed cs (open_store (ex_db id_oracle ops) zoom ty radius bb ms).
Proof.
  intros Hf Hr Ha Hok. destruct (C56_lifecycle id_oracle builder_new ∅ cs [] Hf) as (rs & b' & Hp & _ & Hfin & _).
  destruct (performs_ops _ _ _ _ Hp Hr) as (ops' & Ha' & ->). rewrite (accepted_one _ _ _ Ha' Ha) in Hfin.
  change (foldl apply_op builder_new ops) with (run ops) in Hfin. unfold ex_db.
  destruct (finish id_oracle (run ops) ∅) as [d| | |]; try discriminate Hok.
  exists id_oracle, (rs ++ [Ok tt]), d, zoom, ty, radius, bb, ms. split; [done|]. split; [done|]. split; [by apply Hfin|]. split; [by rewrite last_snoc|done].
Qed.
Lemma y_ready j : j ∈ [y_a; y_b] -> ready (y_calls j) j.
Proof.
  intros H. rewrite !elem_of_cons, elem_of_nil in H. destruct H as [->|[->|[]]]; (split; [|split; [|split]]).
  - apply (indexed_ops y_calls_a l_a_ops); [set_solver|intros ids; set_solver|apply accepted_iff; vm_compute; reflexivity|vm_compute; reflexivity].
  - intros ops Ha; apply accepted_iff in Ha; subst ops; split; [apply history_okb_ok; vm_compute; reflexivity|].
    intros ph E. injection E as <-. apply N.ltb_lt. reflexivity.
  - apply N.leb_le. reflexivity.
  - vm_compute. exact I.
  - apply (indexed_ops y_calls_b l_b_ops); [set_solver|intros ids; set_solver|apply accepted_iff; vm_compute; reflexivity|vm_compute; reflexivity].
  - intros ops Ha; apply accepted_iff in Ha; subst ops; split; [apply history_okb_ok; vm_compute; reflexivity|].
    intros ph E. injection E as <-. apply N.ltb_lt. reflexivity.
  - apply N.leb_le. reflexivity.
  - vm_compute. exact I.
Qed.
Definition y_w : grid_entry := GridEntry f_one 1 1 1 1 0.
Definition y_w' : grid_entry := GridEntry f_one 2 60 60 2 0.
Lemma y_asked j w : (j = y_a /\ w = GridEntry f_one 1 0 0 8 0) \/ (j = y_b /\ w ∈ [y_w; y_w']) -> js_asked (y_calls j) o_o j w.
Proof.
  assert (Hk : as_key e_key (1, 1)) by (apply to_key_iff; vm_compute; reflexivity).
  intros [[-> ->]|[-> Hw]]; (split; [|intros b E; discriminate E]); exists (1, 1), (Exact 1); (split; [|done]).
  - exists [], (JsInsert e_key (Some [GridEntry f_one 1 0 0 8 0])), []. split; [reflexivity|].
    split; [constructor; [done|by left]|]. intros k es H. by apply elem_of_nil in H.
  - exists [JsAppend e_key None], (JsInsert e_key (Some [y_w; y_w'])), []. split; [reflexivity|].
    split; [by constructor|]. intros k es H. by apply elem_of_nil in H.
Qed.
Example C94_ex :
  [y_a; y_b] ≡ₚ [y_b; y_a] /\ StronglySorted js_layered [y_a; y_b] /\ NoDup (map jp_idx [y_a; y_b]) /\
  (forall j, j ∈ [y_a; y_b] -> ready (y_calls j) j /\ jp_mask j <> Some 0 /\ forall x, jp_idx j = Some x -> x < 128) /\ sane o_o /\
  Forall2 as_subquery [y_a; y_b] [l_a; l_b] /\
  (forall q, q ∈ [l_a; l_b] -> first_short Debug first_mtb first_tb o_o 100000 q) /\ close_stacks Debug first_mtb first_tb o_o [l_a; l_b] /\
  js_standing y_calls o_o [y_a; y_b] 1 y_w /\ js_expected y_calls o_o [y_a; y_b] 1 y_w' /\
  summary (js_coalesce Debug id_oracle first_mtb first_tb [y_b; y_a] (Some o_o)) = Some [(3, [(1, 1); (0, 8)]); (1, [(0, 8)]); (2, [(1, 2)])].
Proof.
  split; [apply (Permutation_rev [y_a; y_b])|]. split; [repeat constructor|].
  split; [apply (bool_decide_eq_true_1 _); vm_compute; reflexivity|].
  split.
  { intros j H. split; [by apply y_ready|]. rewrite !elem_of_cons, elem_of_nil in H. destruct H as [->|[->|[]]]; (split; [done|]); intros x E; by injection E as <-. }
  split; [split; [apply N.leb_le; reflexivity|]; by split|]. split; [exact y_sub|].
  split; [intros a H; apply first_short_ok; rewrite !elem_of_cons, elem_of_nil in H; destruct H as [->|[->|[]]]; vm_compute; reflexivity|].
  split; [exact l_close|]. split; [|split; [|vm_compute; reflexivity]].
  - eapply (jsta_on _ _ _ 1 y_b _ 0 y_a (GridEntry f_one 1 0 0 8 0) 2 1); try reflexivity.
    + lia.
    + apply y_asked. right. split; [done|by left].
    + eapply jsta_first; [reflexivity|]. apply y_asked. by left.
    + split; [apply N.leb_le; reflexivity|]. split; reflexivity.
  - right. split; [reflexivity|]. exists y_b. split; [reflexivity|]. apply y_asked. right. split; [done|]. right. by left.
Qed.

