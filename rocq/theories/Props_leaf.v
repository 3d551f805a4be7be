(** Property C71: what tree_coalesce does not miss of subqueries that stand alone. *)
From Verif Require Import Prelude Lists F64 Heap Common Builder Spatial Store Spec Spec_match Query Coalesce Stackable Tree
  Cmp_proofs Queue_proofs Spec_coalesce Coalesce_proofs Multi_proofs Spec_stack Stack_proofs Spec_tree Spec_quota Tree_proofs
  Limit_proofs Term_proofs Examples Props_match Props_coalesce Props_stack Props_tree Spec_complete Complete_proofs Props_complete
  Props_quota Spec_exact Exact_proofs Props_exact Spec_leaf Leaf_proofs.
From Coq Require Import ZifyBool.
Local Open Scope N_scope.

(** ** C71 Subqueries that stand alone *)
(** For any tree: take a leaf of the first level, one of its keys, and one of the first 80
    records of that key, all of which are close in relevance. A result for the feature of
    that record is returned, and not for a worse record of it; or it was missed because
    forty other features of the key, or 800 results, are listed before it, because the
    search was stopped, because of the shortcut for autocomplete leaves, or because a
    quota applies to the key. *)
Theorem C71_tree :
  forall p ho mtb tb fuel t o out i n pm k ms j g,
  own_ids (in_tree t) -> (forall pm, in_tree t pm -> ids_distinct pm) ->
  tree_coalesce p ho mtb tb fuel t o = Ok out ->
  i ∈ sn_children (t_root t) -> tree_get t i = Some n -> sn_pm n = Some pm -> sn_children n = [] ->
  leaf_matches p mtb tb o pm k ms -> within_reach pm ms j g ->
  stopped_early t n [pm] out \/ leaf_passed out pm k \/ (exists c, under_quota c pm k = true) \/
  exists g' e, represents pm ms j g g' /\ entry_of pm k g' e /\
    (lone pm e ∈ out \/ crowded_out 800 out (lone pm e) \/ features_before pm k ms e).
Proof.
  intros p ho mtb tb fuel t o out i n pm k ms j g Hown Hdist H Hi Hn Hpm Hl Hms Hr.
  destruct (tree_leaf p ho mtb tb t o Hown Hdist ∅ (fun _ => True) (fun _ => or_introl I) fuel out i n pm k ms j g H Hi Hn Hpm Hl Hms Hr)
    as [?|[?|[(c & Hc & _)|?]]]; eauto 10.
Qed.
Print Assumptions C71_tree.

Lemma legal_first_two pms pm pm' ext : legal pms (pm :: pm' :: ext) -> legal pms [pm; pm'].
Proof.
  intros (H1 & H2 & H3 & H4). split; [|split; [|split]].
  - intros q Hq. apply H1. rewrite !elem_of_cons in *. rewrite elem_of_nil in Hq. tauto.
  - inversion H2 as [|a l _ Hf E]; subst. inversion Hf; subst. constructor; [by repeat constructor|]. by constructor.
  - cbn [map disjoint_masks] in *. destruct H3 as [Hf _]. inversion Hf; subst. split; [by constructor|]. split; [constructor|done].
  - cbn [not_excluded] in *. tauto.
Qed.

(** For the tree of a list of subqueries: [pm] may be used but nothing stacks on it. *)
Theorem C71_alone :
  forall p ho mtb tb fuel pms o out pm k ms j g,
  NoDup pms ->
  (forall cs, NoDup cs -> (forall c, c ∈ cs -> c <> [] /\ legal pms c) -> N.of_nat (length cs) < 2000) ->
  own_ids (fun pm => pm ∈ pms) -> (forall pm, pm ∈ pms -> ids_distinct pm) ->
  tree_coalesce p ho mtb tb fuel (stackable pms) o = Ok out ->
  legal pms [pm] -> (forall pm', ~ legal pms [pm; pm']) ->
  leaf_matches p mtb tb o pm k ms -> within_reach pm ms j g ->
  (exists g' e, represents pm ms j g g' /\ entry_of pm k g' e /\
    (lone pm e ∈ out \/ crowded_out 800 out (lone pm e) \/ features_before pm k ms e)) \/
  (length out = 800%nat /\ forall d, d ∈ out -> ord_cmp (sum_weights [pm]) (cc_relev d) <> Gt) \/
  leaf_passed out pm k \/
  (exists c, under_quota c pm k = true /\ quota_limit c < tree_uses c (stackable pms)).
Proof.
  intros p ho mtb tb fuel pms o out pm k ms j g Hnd Hfew Hown Hdist H Hleg Hno Hms Hr.
  destruct (C47_complete pms Hnd Hfew _ Hleg) as [n Hd].
  destruct (stackable_sound pms) as (L & Ha & Hroot).
  pose proof (descends_ok pms L _ _ [pm] n Ha Hd [] Hroot) as Hok. cbn [app] in Hok.
  assert (Hkids : sn_children n = []).
  { destruct (sn_children n) as [|x l] eqn:Ex; [done|exfalso]. destruct (no_next _ _ _ _ Hok) as [pm' Hpm']; [by rewrite Ex|].
    by apply (Hno pm'). }
  assert (Hmax : sn_max_relev n = sum_weights [pm]).
  { destruct (no_max _ _ _ _ Hok) as ([|pm' ext] & Hl & E); [done|exfalso]. by apply (Hno pm'), (legal_first_two _ _ _ ext). }
  apply descends_one in Hd as (i & Hi & Hn & Hpm).
  destruct (stackable_tiles pms) as (G & Hat & Ht).
  assert (Hfull : forall c, quota_limit c < tree_uses c (stackable pms) \/ (arena_tiles G (t_arena (stackable pms)) /\
    tiles G 0 (sn_children (t_root (stackable pms))) (am_next (t_arena (stackable pms))) /\ tree_uses c (stackable pms) <= quota_limit c)).
  { intros c. destruct (N.lt_ge_cases (quota_limit c) (tree_uses c (stackable pms))); [by left|by right]. }
  assert (Hd' : forall pm, in_tree (stackable pms) pm -> ids_distinct pm) by (intros q Hq; by apply Hdist, in_tree_pms).
  assert (Ho' : own_ids (in_tree (stackable pms))).
  { intros pm1 pm2 k1 k2 I1 I2. apply Hown; by apply in_tree_pms. }
  destruct (tree_leaf p ho mtb tb (stackable pms) o Ho' Hd' G _ Hfull fuel out i n pm k ms j g H Hi Hn Hpm Hkids Hms Hr)
    as [(E & i' & m & _ & Em & Hb)|[?|[?|?]]]; auto.
  right. left. split; [done|]. rewrite <- Hmax, <- (Em eq_refl). done.
Qed.
Print Assumptions C71_alone.

(** In particular nothing is missed when the result has room, the keys fit into the
    quotas, the shortcut does not apply and the key has at most forty features. *)
Theorem C71_all :
  forall p ho mtb tb fuel pms o out pm k ms j g,
  NoDup pms ->
  (forall cs, NoDup cs -> (forall c, c ∈ cs -> c <> [] /\ legal pms c) -> N.of_nat (length cs) < 2000) ->
  own_ids (fun pm => pm ∈ pms) -> (forall pm, pm ∈ pms -> ids_distinct pm) ->
  tree_coalesce p ho mtb tb fuel (stackable pms) o = Ok out -> (length out < 800)%nat ->
  (forall c, tree_uses c (stackable pms) <= quota_limit c) ->
  legal pms [pm] -> (forall pm', ~ legal pms [pm; pm']) ->
  leaf_matches p mtb tb o pm k ms -> one_word pm k && high_zoom pm = false ->
  (forall ids, NoDup ids -> (forall id, id ∈ ids -> exists g', g' ∈ ms /\ ge_id (me_entry g') = id) -> (length ids <= 40)%nat) ->
  within_reach pm ms j g ->
  exists g' e, represents pm ms j g g' /\ entry_of pm k g' e /\ lone pm e ∈ out.
Proof.
  intros p ho mtb tb fuel pms o out pm k ms j g Hnd Hfew Hown Hdist H Hlen Hq Hleg Hno Hms Hsc Hids Hr.
  destruct (C71_alone p ho mtb tb fuel pms o out pm k ms j g Hnd Hfew Hown Hdist H Hleg Hno Hms Hr)
    as [(g' & e & R1 & R2 & R3)|[[E _]|[(W1 & W2 & _)|(c & _ & Hc)]]]; [|lia|by rewrite W1, W2 in Hsc|specialize (Hq c); lia].
  exists g', e. split; [done|]. split; [done|]. destruct R3 as [?|[[E _]|(D & D1 & D2 & D3)]]; [done|lia|exfalso].
  assert (Hid : forall g0 e0, entry_of pm k g0 e0 -> e_id e0 = ge_id (me_entry g0)).
  { intros g0 e0 (E & _). unfold e_id. by rewrite E. }
  specialize (Hids (e_id e :: map e_id D)). cbn [length] in Hids. rewrite map_length, D2 in Hids.
  enough (41 <= 40)%nat by lia. apply Hids.
  - constructor; [|done]. intros Hin. apply elem_of_map in Hin as (e' & E & He'). destruct (D3 e' He') as [Hne _]. congruence.
  - intros id Hin. apply elem_of_cons in Hin as [->|Hin].
    + exists g'. split; [apply R1|]. symmetry. by apply Hid.
    + apply elem_of_map in Hin as (e' & -> & He'). destruct (D3 e' He') as (_ & _ & g0 & Hg0 & He0). exists g0. split; [done|].
      symmetry. by apply Hid.
Qed.
Print Assumptions C71_all.

(** Lists of subqueries none of which stack, by inspection. *)
Definition aloneb (pms : list subquery) : bool :=
  bool_decide (NoDup (map sq_idx pms)) && (N.of_nat (length (all_chains pms)) <? 2000) &&
  forallb (fun c => Nat.eqb (length c) 1) (all_chains pms) &&
  forallb (fun pm => existsb (fun c => match c with [q] => sq_idx q =? sq_idx pm | _ => false end) (all_chains pms)) pms &&
  bool_decide (NoDup (mjoin (map (fun pm => map mki_id (sq_keys pm)) pms))) &&
  forallb (fun pm => bool_decide (NoDup (map mki_id (sq_keys pm)))) pms.
(** What C71_all asks of the subqueries. *)
Definition fit_for_C71 (pms : list subquery) (pm : subquery) : Prop :=
  NoDup pms /\ (forall cs, NoDup cs -> (forall c, c ∈ cs -> c <> [] /\ legal pms c) -> N.of_nat (length cs) < 2000) /\
  own_ids (fun pm => pm ∈ pms) /\ (forall pm, pm ∈ pms -> ids_distinct pm) /\
  legal pms [pm] /\ (forall pm', ~ legal pms [pm; pm']).
Lemma alone_ok pms : aloneb pms = true -> forall pm, pm ∈ pms -> fit_for_C71 pms pm.
Proof.
  intros [[[[[H1 H2]%andb_prop H3]%andb_prop H4]%andb_prop H5]%andb_prop H6]%andb_prop pm Hpm.
  apply bool_decide_eq_true in H1, H5.
  split; [apply (NoDup_fmap_1 sq_idx); exact H1|]. split; [apply few_chains; lia|]. split; [by apply own_ids_ok|].
  split; [intros q Hq; apply (forallb_in _ _ H6) in Hq; by apply bool_decide_eq_true in Hq|]. split.
  - apply (forallb_in _ _ H4) in Hpm as Hex. apply existsb_exists in Hex as (c & Hc & E). apply elem_of_list_In in Hc.
    destruct c as [|q [|? ?]]; try done. apply N.eqb_eq in E. pose proof (proj1 (all_chains_ok pms [q]) Hc) as [_ Hl].
    assert (q = pm) as <-; [|exact Hl]. apply (nodup_map_inj sq_idx pms); [done| |done|done]. apply Hl. by left.
  - intros pm' Hl. assert (Hc : [pm; pm'] ∈ all_chains pms) by (apply all_chains_ok; done). by apply (forallb_in _ _ H3) in Hc.
Qed.
(** The records of a key. *)
Definition leaf_list (p : profile) (mtb : merge_tb) (tb : tiebreak) (o : match_opts) (pm : subquery) (k : match_key_id) : option (list match_entry) :=
  match adjust_to_zoom p o (zoom_of pm) with
  | Ok zo => match (if mki_nearby k then with_nearby_only p zo else Ok zo) with
             | Ok ko => match streaming_get_matching p mtb tb (sq_store pm) (mki_key k) ko 80 with Ok ms => Some ms | _ => None end
             | _ => None
             end
  | _ => None
  end.
Lemma leaf_list_ok p mtb tb o pm k ms : k ∈ sq_keys pm -> leaf_list p mtb tb o pm k = Some ms -> leaf_matches p mtb tb o pm k ms.
Proof.
  intros Hk. unfold leaf_list. destruct (adjust_to_zoom p o (zoom_of pm)) as [zo| | |] eqn:Ez; try done.
  destruct (if mki_nearby k then with_nearby_only p zo else Ok zo) as [ko| | |] eqn:Eko; try done.
  destruct (streaming_get_matching p mtb tb (sq_store pm) (mki_key k) ko 80) as [l| | |] eqn:Es; try done.
  intros E. injection E as <-. exists ko. split; [done|]. split; [by exists zo|done].
Qed.
Definition or_nil {A} (l : option (list A)) : list A := match l with Some l => l | None => [] end.
Definition first_key (pm : subquery) : match_key_id :=
  match sq_keys pm with k :: _ => k | [] => MatchKeyWithId (MatchKey (Exact 0) 0) false 0 0 end.
Lemma or_nil_ok {A} (l : option (list A)) : match l with Some _ => true | None => false end = true -> l = Some (or_nil l).
Proof. by destruct l. Qed.
Lemma list_matches p mtb tb o pm : first_key pm ∈ sq_keys pm ->
  match leaf_list p mtb tb o pm (first_key pm) with Some _ => true | None => false end = true ->
  leaf_matches p mtb tb o pm (first_key pm) (or_nil (leaf_list p mtb tb o pm (first_key pm))).
Proof. intros Hk H. apply leaf_list_ok; [done|]. by apply or_nil_ok. Qed.

(** Two of the layers of [s_all], that share bits and do not stack: the feature of the 31st
    record of the first key is returned. *)
Definition l_all : list subquery := [s_leaf 1; s_a].
Definition l_ms : list match_entry := or_nil (leaf_list Debug first_mtb first_tb t_opts (s_leaf 1) (first_key (s_leaf 1))).
Definition l_out : list coalesce_context := ok_list (tree_coalesce Debug id_oracle first_mtb first_tb 9 (stackable l_all) t_opts).
Definition ids_of (ms : list match_entry) : list N := remove_dups (map (fun g => ge_id (me_entry g)) ms).
Lemma few_ids ms : (length (ids_of ms) <= 40)%nat ->
  forall ids, NoDup ids -> (forall id, id ∈ ids -> exists g', g' ∈ ms /\ ge_id (me_entry g') = id) -> (length ids <= 40)%nat.
Proof.
  intros H ids Hnd Hin. enough (length ids <= length (ids_of ms))%nat by lia. apply submseteq_length, NoDup_submseteq; [done|].
  intros id Hid. destruct (Hin id Hid) as (g & Hg & <-). unfold ids_of. apply elem_of_remove_dups, elem_of_map. by exists g.
Qed.
Example C71_ex :
  fit_for_C71 l_all (s_leaf 1) /\
  tree_coalesce Debug id_oracle first_mtb first_tb 9 (stackable l_all) t_opts = Ok l_out /\ length l_out = 101%nat /\
  (forall c, tree_uses c (stackable l_all) <= quota_limit c) /\
  leaf_matches Debug first_mtb first_tb t_opts (s_leaf 1) (first_key (s_leaf 1)) l_ms /\
  one_word (s_leaf 1) (first_key (s_leaf 1)) && high_zoom (s_leaf 1) = false /\
  length l_ms = 40%nat /\ (length (ids_of l_ms) <= 40)%nat /\
  exists g, within_reach (s_leaf 1) l_ms 30 g.
Proof.
  split; [apply alone_ok; [vm_compute; reflexivity|by left]|].
  split; [unfold l_out; apply ok_list_ok; vm_compute; exact I|]. split; [vm_compute; reflexivity|].
  split; [intros []; apply N.leb_le; vm_compute; reflexivity|].
  split; [unfold l_ms; apply list_matches; [apply elem_of_list_here|vm_compute; reflexivity]|]. split; [vm_compute; reflexivity|].
  split; [vm_compute; reflexivity|]. split; [apply Nat.leb_le; vm_compute; reflexivity|].
  assert (E : exists g, l_ms !! 30%nat = Some g) by (vm_compute; by eexists). destruct E as [g E]. exists g. split; [exact E|].
  split; [apply N.ltb_lt; vm_compute; reflexivity|]. split; [apply close_relevancesb_ok; vm_compute; reflexivity|].
  left. assert (H : forallb (fun g => negb (ge_id (me_entry g) =? 0)) l_ms = true) by (vm_compute; reflexivity).
  apply elem_of_list_lookup_2 in E. apply (forallb_in _ _ H) in E. by apply negb_true_iff, N.eqb_neq in E.
Qed.

(** The shortcut: eight leaves make the first round; after it the ninth, of low weight, is
    not looked up although the result has room. *)
Definition h_pm : subquery := w_layer 14 2 22 1 (f_lit 2 10) (Range 1 3).
Definition h_all : list subquery := map (fun i => w_layer 14 1 (N.of_nat i) 1 f_one (Exact 1)) (seq 1 8) ++ [h_pm].
Definition h_ms : list match_entry := or_nil (leaf_list Debug first_mtb first_tb t_opts h_pm (first_key h_pm)).
Definition of_layer (idx : N) (d : coalesce_context) : bool := existsb (fun e => ce_idx e =? idx) (cc_entries d).
Lemma none_of_layer x idx n :
  match x with Ok out => forallb (fun d => negb (of_layer idx d)) out && Nat.eqb (length out) n | _ => false end = true ->
  exists out, x = Ok out /\ (forall d, d ∈ out -> of_layer idx d = false) /\ length out = n.
Proof.
  destruct x as [out| | |]; try done. intros [H1 H2]%andb_prop. exists out. split; [done|].
  split; [|by apply Nat.eqb_eq]. intros d Hd. apply (forallb_in _ _ H1) in Hd. by apply negb_true_iff.
Qed.
Lemma not_of_layer pm k g e (out : list coalesce_context) : (forall d, d ∈ out -> of_layer (sq_idx pm) d = false) -> entry_of pm k g e -> lone pm e ∉ out.
Proof.
  intros H (_ & _ & E & _) Hin. apply H in Hin. unfold of_layer, lone in Hin. cbn in Hin. by rewrite E, N.eqb_refl in Hin.
Qed.
(** The first record is within reach. *)
Definition first_reachb (pm : subquery) (ms : list match_entry) : bool :=
  match ms with g :: _ => close_relevancesb pm [g] && negb (ge_id (me_entry g) =? 0) | [] => false end.
Lemma first_reach_ok pm ms : first_reachb pm ms = true -> exists g, within_reach pm ms 0 g.
Proof.
  destruct ms as [|g ms]; [done|]. intros [H1 H2]%andb_prop. exists g. split; [done|]. split; [lia|].
  split; [by apply close_relevancesb_ok|]. left. lia.
Qed.
Theorem C71_shortcut_refuted :
  exists pms o pm k ms g out,
  fit_for_C71 pms pm /\ (forall c, tree_uses c (stackable pms) <= quota_limit c) /\
  leaf_matches Debug first_mtb first_tb o pm k ms /\ within_reach pm ms 0 g /\
  tree_coalesce Debug id_oracle first_mtb first_tb 9 (stackable pms) o = Ok out /\ length out = 8%nat /\
  forall g' e, entry_of pm k g' e -> lone pm e ∉ out.
Proof.
  assert (Hr : exists g, within_reach h_pm h_ms 0 g) by (apply first_reach_ok; vm_compute; reflexivity). destruct Hr as [g Hg].
  destruct (none_of_layer (tree_coalesce Debug id_oracle first_mtb first_tb 9 (stackable h_all) t_opts) 22 8) as (out & H1 & H2 & H3);
    [vm_compute; reflexivity|].
  exists h_all, t_opts, h_pm, (first_key h_pm), h_ms, g, out.
  split; [apply alone_ok; [vm_compute; reflexivity|apply elem_of_app; right; apply elem_of_list_here]|].
  split; [intros []; apply N.leb_le; vm_compute; reflexivity|].
  split; [unfold h_ms; apply list_matches; [apply elem_of_list_here|vm_compute; reflexivity]|].
  split; [exact Hg|]. split; [exact H1|]. split; [exact H3|]. intros g' e He. exact (not_of_layer h_pm (first_key h_pm) g' e out H2 He).
Qed.
Print Assumptions C71_shortcut_refuted.
(** Ids that are used twice: of two leaves whose keys have the same id only one is looked up. *)
Definition x_pm (i : N) : subquery :=
  with_keys (w_layer 6 1 i 1 f_one (Exact 1)) [MatchKeyWithId (MatchKey (Exact 1) 1) false 5 2].
Definition x_ms : list match_entry := or_nil (leaf_list Debug first_mtb first_tb t_opts (x_pm 2) (first_key (x_pm 2))).
Lemma x_alone pm : legal [x_pm 1; x_pm 2] [x_pm 2] /\ ~ legal [x_pm 1; x_pm 2] [x_pm 2; pm].
Proof.
  split.
  - split; [intros q Hq; apply elem_of_list_singleton in Hq as ->; right; by left|]. split; [repeat constructor|]. split; [repeat constructor|]. repeat constructor.
  - intros (H1 & H2 & _). inversion H2 as [|a l _ Hf E]; subst. inversion Hf as [|b l Hb _ E]; subst.
    specialize (H1 pm ltac:(right; by left)). rewrite !elem_of_cons, elem_of_nil in H1. destruct H1 as [->|[->|[]]]; apply N.ltb_lt in Hb; vm_compute in Hb; discriminate Hb.
Qed.
Theorem C71_ids_refuted :
  exists pms o pm k ms g out,
  NoDup (map sq_idx pms) /\ length pms = 2%nat /\ (forall pm, pm ∈ pms -> ids_distinct pm) /\
  legal pms [pm] /\ (forall pm', ~ legal pms [pm; pm']) /\
  (forall c, tree_uses c (stackable pms) <= quota_limit c) /\ one_word pm k && high_zoom pm = false /\
  leaf_matches Debug first_mtb first_tb o pm k ms /\ within_reach pm ms 0 g /\
  tree_coalesce Debug id_oracle first_mtb first_tb 9 (stackable pms) o = Ok out /\ length out = 1%nat /\
  forall g' e, entry_of pm k g' e -> lone pm e ∉ out.
Proof.
  assert (Hr : exists g, within_reach (x_pm 2) x_ms 0 g) by (apply first_reach_ok; vm_compute; reflexivity). destruct Hr as [g Hg].
  destruct (none_of_layer (tree_coalesce Debug id_oracle first_mtb first_tb 9 (stackable [x_pm 1; x_pm 2]) t_opts) 2 1) as (out & H1 & H2 & H3);
    [vm_compute; reflexivity|].
  exists [x_pm 1; x_pm 2], t_opts, (x_pm 2), (first_key (x_pm 2)), x_ms, g, out.
  split; [apply (bool_decide_unpack _); vm_compute; exact I|]. split; [reflexivity|].
  split; [intros pm Hpm; rewrite !elem_of_cons, elem_of_nil in Hpm; destruct Hpm as [->|[->|[]]]; repeat constructor; intros Hn; by apply elem_of_nil in Hn|].
  split; [apply (x_alone (x_pm 2))|]. split; [intros pm'; apply (x_alone pm')|].
  split; [intros []; apply N.leb_le; vm_compute; reflexivity|]. split; [vm_compute; reflexivity|].
  split; [unfold x_ms; apply list_matches; [apply elem_of_list_here|vm_compute; reflexivity]|].
  split; [exact Hg|]. split; [exact H1|]. split; [exact H3|]. intros g' e He. exact (not_of_layer (x_pm 2) (first_key (x_pm 2)) g' e out H2 He).
Qed.
Print Assumptions C71_ids_refuted.
