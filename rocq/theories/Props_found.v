(** Property C75: below the limits, what was written and is asked for is found. *)
From Verif Require Import Prelude Lists F64 Heap Common Morton Builder Spatial Store Spec Spec_match Spatial_proofs Query Coalesce Stackable Tree
  Spec_coalesce Coalesce_proofs Multi_proofs Spec_stack Stack_proofs Spec_tree Spec_quota Tree_proofs Examples Props_match Props_coalesce
  Props_stack Props_tree Spec_complete Complete_proofs Props_complete Props_quota Spec_exact Sibling_proofs Exact_proofs Props_exact
  Spec_leaf Leaf_proofs Props_leaf Spec_room Props_room Props_zoom Props_total Spec_ground Props_ground.
From Coq Require Import ZifyBool.
Local Open Scope N_scope.

(** ** A record that should match is found *)
Lemma box_ok b : bb_x0 b <= bb_x1 b -> bb_y0 b <= bb_y1 b -> interleave (bb_x0 b) (bb_y0 b) <= interleave (bb_x1 b) (bb_y1 b).
Proof. intros. by apply interleave_mono. Qed.
Lemma box_selected b w : in_box b (ge_x w) (ge_y w) -> box_sel (Some b) w = true.
Proof. unfold in_box, box_sel. lia. Qed.
Lemma wanted_opts p o pm k w ops : sane o -> written_by ops pm -> wanted ops o pm k w ->
  exists ko, key_opts p o pm k ko /\ opts_ok p ko (st_radius (sq_store pm)) /\ box_sel (mo_bbox ko) w = true.
Proof.
  intros Hs (Hh & _ & Hz & Hq & Hr) (Hk & _ & Hin & Hnear). pose proof Hs as (S1 & S2 & S3).
  destruct (adjust_careful p o (zoom_of pm) S1 Hz S2 S3) as (zo & Ho & Ez & Htile & Hbox & _).
  destruct (adjusted p o (zoom_of pm) zo Hs Hz Ho) as (_ & Ab & Ap).
  pose proof (adjusted_ok o pm zo Hs Hz Ez Ap Hr) as [_ Hok].
  assert (Hbz : match mo_bbox zo with Some b => in_box b (ge_x w) (ge_y w) | None => True end).
  { destruct (mo_bbox zo) as [b'|]; [|done]. destruct (mo_bbox o) as [b|] eqn:Eb; [|done]. apply Ab. by apply Hin. }
  destruct (mki_nearby k) eqn:Ek; [destruct (mo_prox zo) as [[px py]|] eqn:Ep|].
  - destruct (C34_nearby p zo px py Ep ltac:(lia)) as (b' & Hb' & Hin' & Hne); [rewrite Ez; by apply Htile|].
    destruct (mo_prox o) as [pt|] eqn:Eo; [|done]. destruct Ap as [_ Hp].
    assert (Hw : near (nearby_padding (mo_zoom zo)) (ge_x w) px /\ near (nearby_padding (mo_zoom zo)) (ge_y w) py).
    { pose proof (Hnear eq_refl pt Eo) as Hw. cbn zeta in Hw. rewrite <- Hp in Hw. by rewrite Ez. }
    eexists. split; [exists zo; split; [exact Ho|]; rewrite Ek; exact Hb'|]. split.
    + split; [|exact Hok]. right. apply box_ok; apply Hne; by exists (ge_x w), (ge_y w).
    + apply box_selected, Hin'. done.
  - exists zo. split; [exists zo; split; [exact Ho|]; rewrite Ek; unfold with_nearby_only; by rewrite Ep|]. split.
    + split; [|by rewrite Ep]. destruct (mo_bbox zo) as [b|] eqn:Eb; [|done]. right. by apply box_ok; apply Hbox.
    + destruct (mo_bbox zo) as [b|]; [by apply box_selected|done].
  - exists zo. split; [exists zo; split; [exact Ho|]; by rewrite Ek|]. split.
    + split; [|exact Hok]. destruct (mo_bbox zo) as [b|] eqn:Eb; [|done]. right. by apply box_ok; apply Hbox.
    + destruct (mo_bbox zo) as [b|]; [by apply box_selected|done].
Qed.
Lemma first_of_spot (l : list match_entry) m : m ∈ l ->
  exists i g, l !! i = Some g /\ spot g = spot m /\ forall j g', (j < i)%nat -> l !! j = Some g' -> spot g' <> spot g.
Proof.
  induction l as [|a l IH]; intros Hm; [by apply elem_of_nil in Hm|].
  destruct (decide (spot a = spot m)) as [E|E].
  { exists O, a. split; [done|]. split; [done|]. lia. }
  apply elem_of_cons in Hm as [->|Hm]; [done|]. destruct (IH Hm) as (i & g & H1 & H2 & H3).
  exists (S i), g. split; [done|]. split; [done|]. intros [|j] g' Hj Hg'; [cbn in Hg'; congruence|]. apply (H3 j); [lia|done].
Qed.
#[local] Instance match_entry_eq_dec : EqDecision match_entry.
Proof. solve_decision. Defined.
Lemma wanted_match p mtb tb o pm k w ops n : sane o -> written_by ops pm -> wanted ops o pm k w -> 1 <= n ->
  exists ko out, key_opts p o pm k ko /\ streaming_get_matching p mtb tb (sq_store pm) (mki_key k) ko n = Ok out /\
    (N.of_nat (length out) < n -> exists m, m ∈ out /\ spot m = (ge_x w, ge_y w, ge_id w mod 2 ^ 24)).
Proof.
  intros Hs Hw Hwant Hn. destruct (wanted_opts p o pm k w ops Hs Hw Hwant) as (ko & Hko & Hok & Hsel).
  destruct Hw as (Hh & [ho Hb] & _ & Hq & _). destruct Hwant as (Hk & (key & es & H1 & H2 & H3) & _).
  destruct (C11_limited p mtb tb ho ops (sq_store pm) (mki_key k) ko n Hh Hb Hok (Hq k Hk) Hn) as (out & Hout & _ & Hall).
  exists ko, out. split; [done|]. split; [done|]. intros Hlen.
  set (m := query_match ko (st_radius (sq_store pm)) (lang_sel (mk_lang (mki_key k)) key.2) (snap w)).
  exists m. split; [|done]. destruct (decide (m ∈ out)) as [?|Hno]; [done|exfalso].
  enough (n <= N.of_nat (length out)) by lia. apply (Hall m); [|done]. by exists key, es, w.
Qed.
Lemma wanted_entry p mtb tb o pms pm k w ops : sane o -> written_by ops pm -> wanted ops o pm k w ->
  pm ∈ pms -> short_answers p mtb tb o pms -> exists e, stack_entry p mtb tb o pm e /\ stands_for (k, w) e.
Proof.
  intros Hs Hw Hwant Hpm Hshort. destruct (wanted_match p mtb tb o pm k w ops 100000 Hs Hw Hwant ltac:(lia)) as (ko & out & Hko & Hout & Hm).
  pose proof Hwant as (Hk & _). pose proof (Hshort pm k ko out Hpm Hk Hko Hout) as Hlen.
  destruct (Hm Hlen) as (m & Hin & Hspot). destruct (first_of_spot out m Hin) as (i & g & H1 & H2 & H3).
  exists (entry_for pm k g). split.
  - exists k, g. split; [|repeat split]. exists ko, out, i. repeat (split; [done|]). split; [|done].
    apply lookup_lt_Some in H1. lia.
  - rewrite Hspot in H2. unfold spot in H2. injection H2 as E1 E2 E3. unfold stands_for, e_cell, e_id, entry_for. cbn. by rewrite E1, E2, E3.
Qed.

(** ** C75 What was written is found *)
Lemma found_stack p mtb tb o pms calls chain ws : sane o -> proper calls pms -> short_answers p mtb tb o pms ->
  written_stack calls o chain ws -> (forall pm, pm ∈ chain -> pm ∈ pms) ->
  exists es, nested_stack p mtb tb o chain es /\ Forall2 stands_for ws es.
Proof.
  intros Hs Hp Hshort H. induction H as [pm k w Hw|pm k w pm' k' w' chain ws H IH Hw Ha]; intros Hin.
  - destruct (wanted_entry p mtb tb o pms pm k w (calls pm) Hs) as (e & He & Hst); try done; [apply (pr_written _ _ Hp)|..]; try (apply Hin; by left).
    exists [e]. split; [by constructor|]. constructor; [done|apply List.Forall2_nil].
  - destruct IH as (es & Hn & Hf); [intros q Hq; apply Hin; by right|].
    destruct (wanted_entry p mtb tb o pms pm k w (calls pm) Hs) as (e & He & Hst); try done; [apply (pr_written _ _ Hp)|..]; try (apply Hin; by left).
    inversion Hf as [|? e' ? es' Hst' Hf' E1 E2]; subst. exists (e :: e' :: es'). split; [|by constructor].
    destruct Hst as (_ & Ec & _), Hst' as (_ & Ec' & _). cbn [fst snd] in Ec, Ec'.
    unfold ancestor in Ha. cbn [fst snd] in Ha. injection Ha as A1 A2.
    constructor; [done..| |]; by rewrite Ec, Ec'.
Qed.
Lemma proper_fit p mtb tb o calls pms : sane o -> proper calls pms -> fit_for_C60 p mtb tb pms o /\ own_ids (fun pm => pm ∈ pms).
Proof.
  intros Hs [P1 P2 P3 P4 P5 P6 P7 P8]. split; [|exact P2]. split; [done|]. split; [done|]. split; [done|].
  split; [by apply own_ids_name|]. split; [done|]. split; [done|].
  intros pm e Hpm (k & g & (ko & out & i & Hk & Hko & Hout & Hi & _) & Hto).
  destruct (level_ground p mtb tb o 100000 pm e (calls pm)) as (k' & _ & _ & (key & es & w & W1 & _ & W2 & _ & X & Y & _) & _); try done; [|by apply P7|].
  { exists k, g. split; [|done]. exists ko, out. repeat (split; [done|]). by eapply elem_of_list_lookup_2. }
  destruct (P8 pm Hpm key es w W1 W2) as (b & Hb & [Bx By]). exists b. split; [done|]. unfold e_cell. cbn [fst snd]. rewrite X, Y. done.
Qed.
(** Take one written entry for each subquery of a legal stack, the tile of each in the tile
    of the next, each where the query asks. Then some result has entries of the same keys,
    in the same tiles, for the same features. *)
Theorem C75_tree :
  forall p ho mtb tb fuel pms o out chain ws calls,
  sane o -> proper calls pms -> short_answers p mtb tb o pms -> roomy p mtb tb o pms ->
  tree_coalesce p ho mtb tb fuel (stackable pms) o = Ok out -> (length out < 800)%nat ->
  written_stack calls o chain ws -> legal pms (rev chain) ->
  ((2 <= length chain)%nat \/ exists pm, legal pms (rev chain ++ [pm])) ->
  exists c, c ∈ out /\ Forall2 stands_for ws (cc_entries c).
Proof.
  intros p ho mtb tb fuel pms o out chain ws calls Hs Hp Hshort (R1 & R2 & R3 & R4) H Hlen Hws Hleg Hst.
  destruct (proper_fit p mtb tb o calls pms Hs Hp) as [Hfit _].
  assert (Hin : forall pm, pm ∈ chain -> pm ∈ pms).
  { intros pm Hpm. apply Hleg. apply elem_of_list_In. apply -> List.in_rev. by apply elem_of_list_In. }
  destruct (found_stack p mtb tb o pms calls chain ws Hs Hp Hshort Hws Hin) as (es & Hnest & Hf).
  exists (stack_context chain es). split; [|done].
  destruct (C61_complete p ho mtb tb fuel pms o out chain es Hfit H Hleg Hnest Hst)
    as (n' & _ & [?|[[E _]|[(D & D1 & D2 & D3)|[[E _]|[Hpass|(i & pm & e & k & c & _ & _ & _ & _ & _ & Hc)]]]]]); [done|lia|exfalso|lia|exfalso|exfalso].
  - assert (Hhead : exists id, ce_phrasematch_id <$> head es = Some id) by (destruct Hnest; cbn; eauto). destruct Hhead as [id Hid].
    specialize (R3 chain id Hleg (es :: D)). cbn [length] in R3. rewrite D2 in R3. enough (41 <= 40)%nat by lia. apply R3.
    + constructor; [|done]. intros Hx. by destruct (D3 es Hx) as (_ & _ & ? & _).
    + intros x Hx. apply elem_of_cons in Hx as [->|Hx]; [done|]. destruct (D3 x Hx) as (X1 & X2 & _). split; [done|]. congruence.
  - destruct Hpass as (pm & rest & e & es' & k & b & r & -> & _ & Hk & _ & Hw & Hh & _).
    assert (Hpm : pm ∈ pms) by (apply Hin; by left). pose proof (R2 pm k Hpm Hk) as E. by rewrite Hw, Hh in E.
  - specialize (R1 c). lia.
Qed.
Print Assumptions C75_tree.
(** A subquery that nothing stacks on: the feature is found, if less than 80 records answer
    the key and their relevances are less than a quarter apart. *)
Theorem C75_alone :
  forall p ho mtb tb fuel pms o out pm k w calls,
  sane o -> proper calls pms -> roomy p mtb tb o pms ->
  (forall ms, leaf_matches p mtb tb o pm k ms -> N.of_nat (length ms) < 80 /\ close_relevances pm ms) ->
  tree_coalesce p ho mtb tb fuel (stackable pms) o = Ok out -> (length out < 800)%nat ->
  wanted (calls pm) o pm k w -> ge_id w mod 2 ^ 24 <> 0 -> legal pms [pm] -> (forall pm', ~ legal pms [pm; pm']) ->
  exists c e, c ∈ out /\ cc_entries c = [e] /\ ce_phrasematch_id e = mki_id k /\ e_id e = ge_id w mod 2 ^ 24.
Proof.
  intros p ho mtb tb fuel pms o out pm k w calls Hs Hp (R1 & R2 & R3 & R4) Hclose H Hlen Hwant Hid Hleg Hno.
  assert (Hpm : pm ∈ pms) by (apply Hleg; by left). pose proof Hwant as (Hk & _).
  destruct (wanted_match p mtb tb o pm k w (calls pm) 80 Hs (pr_written _ _ Hp pm Hpm) Hwant ltac:(lia)) as (ko & ms & Hko & Hms & Hm).
  assert (Hl : leaf_matches p mtb tb o pm k ms) by (by exists ko). destruct (Hclose ms Hl) as [Hshort Hcl].
  destruct (Hm Hshort) as (m & Hin & Hspot). apply elem_of_list_lookup in Hin as [j Hj].
  unfold spot in Hspot. injection Hspot as _ _ Em.
  destruct (C71_all p ho mtb tb fuel pms o out pm k ms j m (pr_nodup _ _ Hp) (pr_few _ _ Hp) (pr_ids _ _ Hp) (pr_distinct _ _ Hp) H Hlen R1 Hleg Hno Hl)
    as (g' & e & (_ & Eg & _) & (Ee & _ & _ & _ & _ & _ & Epid & _) & Hout).
  - by apply R2.
  - exact (R4 pm k ms Hpm Hl).
  - split; [done|]. split; [apply lookup_lt_Some in Hj; lia|]. split; [|left; by rewrite Em].
    intros g Hg. assert (Hg' : g ∈ ms) by (apply elem_of_take in Hg as (x & Hx & _); by eapply elem_of_list_lookup_2). destruct (Hcl g Hg') as [C1 C2]. split; [done|].
    intros g1 Hg1. apply C2. apply elem_of_take in Hg1 as (x & Hx & _). by eapply elem_of_list_lookup_2.
  - exists (lone pm e), e. split; [done|]. split; [done|]. split; [done|]. unfold e_id. rewrite Ee. cbn. by rewrite Eg, Em.
Qed.
Print Assumptions C75_alone.
(** For a whole request, in terms of the subqueries it is collapsed to. *)
Theorem C75_request :
  forall p ho mtb tb pms groups o out chain ws calls,
  collapse_phrasematches pms = Ok groups ->
  sane o -> proper calls groups -> short_answers p mtb tb o groups -> roomy p mtb tb o groups ->
  stack_and_coalesce p ho mtb tb pms o = Ok out -> (length out < 800)%nat ->
  written_stack calls o chain ws -> legal groups (rev chain) ->
  ((2 <= length chain)%nat \/ exists pm, legal groups (rev chain ++ [pm])) ->
  exists c, c ∈ out /\ Forall2 stands_for ws (cc_entries c).
Proof.
  intros p ho mtb tb pms groups o out chain ws calls Hg Hs Hp Hshort Hroom H. unfold stack_and_coalesce in H.
  rewrite Hg in H. cbn in H. by eapply C75_tree.
Qed.
Print Assumptions C75_request.

Definition short_answersb (p : profile) (mtb : merge_tb) (tb : tiebreak) (o : match_opts) (pms : list subquery) : bool :=
  forallb (fun pm => forallb (fun k => N.of_nat (length (or_nil (nth_matches p mtb tb o pm k))) <? 100000) (sq_keys pm)) pms.
Lemma short_answers_ok p mtb tb o pms : short_answersb p mtb tb o pms = true -> short_answers p mtb tb o pms.
Proof.
  intros H pm k ko out Hpm Hk (zo & Hzo & Hko) Hout. apply (forallb_in _ _ H) in Hpm. apply (forallb_in _ _ Hpm) in Hk.
  unfold nth_matches in Hk. rewrite Hzo, Hko, Hout in Hk. cbn in Hk. by apply N.ltb_lt.
Qed.
Definition coversb (ops : list op) (pm : subquery) : bool :=
  forallb (fun kv : (N * N) * list grid_entry => forallb (fun w => existsb (fun b => box_sel (Some b) w) (st_bboxes (sq_store pm))) kv.2)
    (map_to_list (written ops)).
Lemma covers_ok ops pm : coversb ops pm = true -> covers ops pm.
Proof.
  intros H key es w Hw Hin. apply elem_of_map_to_list in Hw. apply (forallb_in _ _ H) in Hw. cbn [snd] in Hw.
  apply (forallb_in _ _ Hw), existsb_exists in Hin as (b & Hb & Hs). exists b. split; [by apply elem_of_list_In|].
  unfold box_sel in Hs. unfold in_box. lia.
Qed.
Definition g_stack : list (match_key_id * grid_entry) :=
  [(MatchKeyWithId (MatchKey (Exact 1) 1) true 11 1, GridEntry f_one 3 4 4 2 0);
   (MatchKeyWithId (MatchKey (Exact 1) 1) false 10 1, GridEntry f_one 1 2 2 2 0)].
Example C75_ex :
  sane g_opts /\ proper g_calls [g_b; t_a] /\ short_answers Debug first_mtb last_tb g_opts [g_b; t_a] /\
  roomy Debug first_mtb last_tb g_opts [g_b; t_a] /\
  written_stack g_calls g_opts [g_b; t_a] g_stack /\ legal [g_b; t_a] [t_a; g_b] /\
  collapse_phrasematches [g_b; t_a] = Ok [g_b; t_a] /\
  summary (stack_and_coalesce Debug rev_oracle first_mtb last_tb [g_b; t_a] g_opts) =
    Some [(3, [(1, 2); (0, 2)]); (1, [(1, 2)]); (2, [(0, 2)])].
Proof.
  assert (Hfit : fit_for_C60 Debug first_mtb last_tb [g_b; t_a] g_opts) by (apply fit_ok; vm_compute; reflexivity).
  destruct Hfit as (F1 & F2 & F3 & F4 & F5 & F6 & F7).
  split; [exact g_sane|]. split.
  { constructor; try assumption.
    - apply own_ids_ok; apply (bool_decide_eq_true_1 _); vm_compute; reflexivity.
    - exact g_written.
    - intros pm Hpm. repeat (apply elem_of_cons in Hpm as [->|Hpm]); [| |by apply elem_of_nil in Hpm]; apply covers_ok; vm_compute; reflexivity. }
  split; [apply short_answers_ok; vm_compute; reflexivity|]. split; [apply roomy_ok; vm_compute; reflexivity|].
  split.
  { assert (Ha : wanted (g_calls t_a) g_opts t_a (MatchKeyWithId (MatchKey (Exact 1) 1) false 10 1) (GridEntry f_one 1 2 2 2 0)).
    { split; [left|]. split; [|split; [|done]].
      - exists (1, 1). eexists. split; [vm_compute; reflexivity|]. split; [reflexivity|]. apply (bool_decide_unpack _); vm_compute; exact I.
      - intros b Eb. injection Eb as <-. split; [|intros Hx; vm_compute in Hx; discriminate Hx]. intros _. exists 4, 4.
        split; [repeat split; apply N.leb_le; reflexivity|reflexivity]. }
    apply ws_more; [by apply ws_one| |reflexivity].
    split; [left|]. split; [|split].
    - exists (1, 1). eexists. split; [vm_compute; reflexivity|]. split; [reflexivity|]. apply (bool_decide_unpack _); vm_compute; exact I.
    - intros b Eb. injection Eb as <-. split; [|intros Hx; vm_compute in Hx; discriminate Hx]. intros _. exists 4, 4.
      split; [repeat split; apply N.leb_le; reflexivity|reflexivity].
    - intros _ pt Ept. injection Ept as <-. repeat split; apply N.leb_le; vm_compute; reflexivity. }
  split.
  { split; [intros q Hq; rewrite !elem_of_cons, elem_of_nil in *; tauto|]. split; [repeat constructor|]. split; repeat constructor. }
  split; vm_compute; reflexivity.
Qed.
