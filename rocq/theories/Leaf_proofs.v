(** What tree_coalesce does not miss at the leaves of the first level. *)
From Verif Require Import Prelude Lists F64 Heap Common Builder Store Query Spatial Coalesce Stackable Tree.
From Verif Require Import Cmp_proofs Queue_proofs Coalesce_proofs Multi_proofs Spec_coalesce Spec_stack Spec_tree Spec_quota Quota_proofs Tree_proofs
  Term_proofs Spec_complete Props_coalesce Complete_proofs Spec_exact Exact_proofs Spec_leaf.
From Coq Require Import ZifyBool Sorting.Sorted.
Local Open Scope N_scope.

(** ** The loop over the records of a key *)
Lemma fltb_lt a b : fltb a b = true -> ord_cmp a b = Lt.
Proof. unfold fltb, SFltb, ord_cmp. destruct (SFcompare a b) as [[]|]; done. Qed.
Lemma ord_le_lt a b c : ord_cmp a b <> Gt -> ord_cmp b c = Lt -> ord_cmp a c = Lt.
Proof.
  intros H1 H2. destruct (ord_cmp a b) eqn:E; [| |done].
  - by rewrite (tc_eq_l _ total_cmp_ord _ _ _ E).
  - eapply (tc_lt_le_trans _ total_cmp_ord); [exact E|by rewrite H2].
Qed.
Definition no_worse (f f' : coalesce_entry) : Prop :=
  ord_cmp (e_relev f) (e_relev f') <> Gt /\ ord_cmp (ce_scoredist f) (ce_scoredist f') <> Gt.
Lemma no_worse_refl f : no_worse f f.
Proof. split; by rewrite (tc_refl _ total_cmp_ord). Qed.
Lemma insert_no_worse m e id f : m !! id = Some f -> exists f', coalesced_insert m e !! id = Some f' /\ no_worse f f'.
Proof.
  intros H. unfold coalesced_insert. destruct (m !! ge_id (ce_entry e)) as [old|] eqn:E.
  - destruct (_ && _) eqn:Eb; [|exists f; split; [done|apply no_worse_refl]].
    destruct (decide (ge_id (ce_entry e) = id)) as [Eid|Hne].
    + exists e. rewrite <- Eid, lookup_insert. split; [done|]. rewrite Eid in E. assert (old = f) as -> by congruence.
      apply andb_prop in Eb as [E1 E2]. apply fltb_lt in E1. apply fleb_ord in E2. split; [done|]. by rewrite E1.
    + exists f. rewrite lookup_insert_ne by done. split; [done|apply no_worse_refl].
  - exists f. rewrite lookup_insert_ne by congruence. split; [done|apply no_worse_refl].
Qed.
Lemma body_no_worse hp s e s' id f :
  single_body hp s e = Continue s' \/ single_body hp s e = Break s' ->
  ss_coalesced s !! id = Some f -> exists f', ss_coalesced s' !! id = Some f' /\ no_worse f f'.
Proof.
  unfold single_body. intros H Hf.
  repeat match type of H with context [if ?b then _ else _] =>
    destruct b; [destruct H as [[= <-]|[= <-]]; exists f; split; [done|apply no_worse_refl]|] end.
  cbv zeta in H.
  destruct (negb hp && _); destruct H as [[= <-]|[= <-]]; cbn [ss_coalesced]; by apply insert_no_worse.
Qed.
Lemma run_no_worse hp es : forall s id f,
  ss_coalesced s !! id = Some f -> exists f', ss_coalesced (run_entries hp es s) !! id = Some f' /\ no_worse f f'.
Proof.
  induction es as [|e es IH]; intros s id f Hf; cbn [run_entries]; [exists f; split; [done|apply no_worse_refl]|].
  destruct (single_body hp s e) as [s1|s1] eqn:Eb.
  - destruct (body_no_worse _ _ _ _ _ _ (or_introl Eb) Hf) as (f1 & Hf1 & A1 & A2). destruct (IH _ _ _ Hf1) as (f2 & Hf2 & B1 & B2).
    exists f2. split; [done|]. split; by eapply (tc_trans _ total_cmp_ord).
  - exact (body_no_worse _ _ _ _ _ _ (or_intror Eb) Hf).
Qed.

(** The loop gets past records that are close in relevance and not too many. *)
Section prefix.
  Context (p : profile) (sq : subquery) (o : match_opts) (pid : N) (R : f64 -> Prop).
  Context (HR : forall r, R r -> fleb f_025 (fsub f_zero r) = false /\ forall r', R r' -> fleb f_025 (fsub r r') = false).
  Notation conv := (fun g e => grid_to_coalesce_entry p g sq o pid = Ok e).
  Lemma conv_relev g e : conv g e -> e_relev e = weighted sq g /\ ce_scoredist e = me_scoredist g /\ e_id e = ge_id (me_entry g).
  Proof.
    intros H%to_entry_inv. destruct H as (E1 & _ & _ & _ & _ & E2 & _). unfold e_relev, e_id. rewrite E1. done.
  Qed.
  Lemma loop_prefix pre : forall suf dn s s',
    single_loop p sq o pid (pre ++ suf) s = Ok s' -> single_inv dn s ->
    (forall e, e ∈ dn -> R (e_relev e)) -> (forall g, g ∈ pre -> R (weighted sq g)) ->
    N.of_nat (length dn + length pre) <= bigger_max ->
    exists es, Forall2 conv pre es /\ single_loop p sq o pid suf (run_entries (has_prox o) es s) = Ok s'.
  Proof using HR.
    induction pre as [|g pre IH]; intros suf dn s s' H Hi Hd Hp Hl.
    { exists []. split; [constructor|done]. }
    cbn [app single_loop] in H. apply bind_Ok in H as (e & He & H). fold (has_prox o) in H.
    assert (Hdn : forall d, d ∈ dn ++ [e] -> R (e_relev d)).
    { intros d Hin. apply elem_of_app in Hin as [Hin|Hin]; [by apply Hd|]. apply elem_of_list_singleton in Hin as ->.
      rewrite (proj1 (conv_relev _ _ He)). apply Hp. by left. }
    destruct (single_body_inv (has_prox o) dn s e Hi) as (s1 & Es & Hi1 & _).
    { rewrite app_length. cbn [length] in *. lia. }
    { split; [intros d Hin; exact (proj1 (HR _ (Hdn d Hin)))|]. intros d d' H1 H2. exact (proj2 (HR _ (Hdn d H1)) _ (Hdn d' H2)). }
    rewrite Es in H. destruct (IH suf (dn ++ [e]) s1 s' H Hi1 Hdn) as (es & HF & Hs).
    { intros g' Hg'. apply Hp. by right. }
    { rewrite app_length. cbn [length] in *. lia. }
    exists (e :: es). split; [by constructor|]. cbn [run_entries]. by rewrite Es.
  Qed.
End prefix.

Lemma take_S_app {A} (l : list A) j a : l !! j = Some a -> exists suf, l = take (S j) l ++ suf /\ a ∈ take (S j) l /\ length (take (S j) l) = S j.
Proof.
  intros H. exists (drop (S j) l). split; [by rewrite take_drop|]. split.
  - apply elem_of_list_lookup. exists j. rewrite lookup_take by lia. done.
  - apply take_length_le. apply lookup_lt_Some in H. lia.
Qed.

(** The records within reach are in the result, or a record of the same feature that is no worse. *)
Lemma tree_single_reach p sq o pid ms cs j g :
  tree_coalesce_single p sq o ms pid = Ok cs -> within_reach sq ms j g ->
  exists g' e, represents sq ms j g g' /\ grid_to_coalesce_entry p g' sq o pid = Ok e /\ single_context e ∈ cs.
Proof.
  unfold tree_coalesce_single. intros H (Hj & Hj80 & Hclose & Hnz). apply bind_Ok in H as (s & Hs & H). injection H as <-.
  destruct (take_S_app _ _ _ Hj) as (suf & Ems & Hin & Hlen). set (pre := take (S j) ms) in *.
  rewrite Ems in Hs.
  assert (HR : forall r, (exists g, g ∈ pre /\ r = weighted sq g) -> fleb f_025 (fsub f_zero r) = false /\
    forall r', (exists g, g ∈ pre /\ r' = weighted sq g) -> fleb f_025 (fsub r r') = false).
  { intros r (g1 & Hg1 & ->). destruct (Hclose g1 Hg1) as [H1 H2]. split; [done|]. intros r' (g2 & Hg2 & ->). by apply H2. }
  destruct (loop_prefix p sq o pid _ HR pre suf [] single_init s Hs single_inv_init) as (es & HF & Hs2).
  { intros e He. by apply elem_of_nil in He. }
  { intros g' Hg'. by exists g'. }
  { rewrite Hlen. cbn [length]. change bigger_max with 80. lia. }
  assert (Hes : forall e, e ∈ es -> exists g', g' ∈ pre /\ grid_to_coalesce_entry p g' sq o pid = Ok e).
  { intros e [i Hi]%elem_of_list_lookup. destruct (Forall2_lookup_r _ _ _ _ _ HF Hi) as (g' & Hg' & Hc). exists g'.
    split; [by eapply elem_of_list_lookup_2|done]. }
  destruct (run_entries_inv (has_prox o) es [] single_init single_inv_init) as [Hinv Hbest].
  { cbn [app]. rewrite <- (Forall2_length _ _ _ HF), Hlen. change bigger_max with 80. lia. }
  { cbn [app]. split.
    - intros e He. destruct (Hes e He) as (g' & Hg' & Hc). rewrite (proj1 (conv_relev _ _ _ _ _ _ Hc)). apply (HR (weighted sq g')). by exists g'.
    - intros e e' He He'. destruct (Hes e He) as (g1 & Hg1 & Hc1). destruct (Hes e' He') as (g2 & Hg2 & Hc2).
      rewrite (proj1 (conv_relev _ _ _ _ _ _ Hc1)), (proj1 (conv_relev _ _ _ _ _ _ Hc2)). apply (HR (weighted sq g1)); eauto. }
  { intros id f Hf. unfold single_init in Hf. cbn [ss_coalesced] in Hf. by rewrite lookup_empty in Hf. }
  cbn [app] in Hinv, Hbest. set (s1 := run_entries (has_prox o) es single_init) in *.
  assert (Hpre : exists e, e ∈ es /\ grid_to_coalesce_entry p g sq o pid = Ok e).
  { apply elem_of_list_lookup in Hin as [i Hi]. destruct (Forall2_lookup_l _ _ _ _ _ HF Hi) as (e & He & Hc).
    exists e. split; [by eapply elem_of_list_lookup_2|done]. }
  destruct Hpre as (e0 & He0 & Hc0). destruct (conv_relev _ _ _ _ _ _ Hc0) as (_ & Esd & Eid).
  destruct (si_all _ _ Hinv e0 He0) as [f Hf]. { rewrite Esd, Eid. done. }
  pose proof Hs2 as Hs3. apply single_loop_run in Hs3 as (a & b & es2 & -> & HF2 & ->).
  destruct (run_no_worse (has_prox o) es2 s1 _ _ Hf) as (f' & Hf' & W1 & W2).
  assert (Hfrom : exists g', g' ∈ ms /\ grid_to_coalesce_entry p g' sq o pid = Ok f' /\ e_id f' = e_id e0).
  { destruct (run_entries_from _ _ _ _ _ Hf') as [Hold|[Hnew Eid']].
    - destruct (run_entries_from _ _ _ _ _ Hold) as [Hold'|[Hnew Eid']].
      + unfold single_init in Hold'. cbn [ss_coalesced] in Hold'. by rewrite lookup_empty in Hold'.
      + destruct (Hes _ Hnew) as (g' & Hg' & Hc). exists g'. split; [rewrite Ems; apply elem_of_app; by left|].
        split; [done|]. by rewrite Eid'.
    - apply elem_of_list_lookup in Hnew as [i Hi]. destruct (Forall2_lookup_r _ _ _ _ _ HF2 Hi) as (g' & Hg' & Hc). exists g'.
      split; [rewrite Ems, !elem_of_app; right; left; by eapply elem_of_list_lookup_2|]. split; [done|]. by rewrite Eid'. }
  destruct Hfrom as (g' & Hg' & Hc' & Eid'). destruct (conv_relev _ _ _ _ _ _ Hc') as (R1 & R2 & R3).
  exists g', f'. split; [|split; [done|]].
  - split; [done|]. split; [congruence|]. intros Hid [Hnan Hsort] g2 Hg2 Eid2 [D1 D2].
    apply elem_of_list_lookup in Hg2 as [i Hi]. destruct (Forall2_lookup_l _ _ _ _ _ HF Hi) as (e2 & He2 & Hc2).
    apply elem_of_list_lookup_2 in He2. destruct (conv_relev _ _ _ _ _ _ Hc2) as (S1 & S2 & S3).
    assert (HB : best_inv es s1).
    { apply Hbest.
      - intros e f0 He. by apply elem_of_nil in He.
      - intros d Hd. destruct (Hes d Hd) as (gd & Hgd & Hcd). destruct (conv_relev _ _ _ _ _ _ Hcd) as (-> & -> & _). by apply Hnan.
      - unfold relev_desc. fold pre in Hsort. clearbody pre. clear - HF Hsort. revert Hsort. induction HF as [|g e pre es Hc HF IH]; intros Hs; [constructor|].
        apply StronglySorted_inv in Hs as [Hs Hall]. constructor; [by apply IH|]. apply Forall_forall. rewrite Forall_forall in Hall.
        intros d Hd. apply elem_of_list_lookup in Hd as [i Hi]. destruct (Forall2_lookup_r _ _ _ _ _ HF Hi) as (gd & Hgd & Hcd).
        rewrite (proj1 (conv_relev _ _ _ _ _ _ Hc)), (proj1 (conv_relev _ _ _ _ _ _ Hcd)). apply Hall. by eapply elem_of_list_lookup_2. }
    apply (HB e2 f He2); [congruence|rewrite S3, Eid2, <- Eid; exact Hf|].
    rewrite S1, S2. rewrite R1 in W1. rewrite R2 in W2. split; [by eapply (tc_trans _ total_cmp_ord)|].
    by eapply ord_le_lt.
  - apply elem_of_map. exists (e_id e0, f'). split; [done|]. rewrite elem_of_isort. by apply elem_of_map_to_list.
Qed.

(** One result per feature. *)
Definition lone_id (c : coalesce_context) : option N := match cc_entries c with [e] => Some (e_id e) | _ => None end.
Lemma tree_single_ids p sq ko ms pid cs : tree_coalesce_single p sq ko ms pid = Ok cs -> NoDup (map lone_id cs).
Proof.
  intros K3. unfold tree_coalesce_single in K3. apply bind_Ok in K3 as (s1 & Hs1 & K3). injection K3 as <-.
  apply single_loop_run in Hs1 as (a & b & es & -> & HFc & ->). rewrite List.map_map.
  eapply nodup_perm_map; [apply isort_perm|].
  apply NoDup_fmap_2_strong; [|apply NoDup_map_to_list].
  intros [id0 e0] [id1 e1] H0 H1 E. unfold lone_id in E. cbn in E. injection E as E. apply elem_of_map_to_list in H0, H1.
  assert (Hid : forall id e, ss_coalesced (run_entries (has_prox ko) es single_init) !! id = Some e -> id = e_id e).
  { intros id e2 He2. destruct (run_entries_from _ _ _ _ _ He2) as [Hz|[_ ->]]; [|done].
    unfold single_init in Hz; cbn [ss_coalesced] in Hz; by rewrite lookup_empty in Hz. }
  assert (id0 = id1) as -> by (rewrite (Hid _ _ H0), (Hid _ _ H1); done). f_equal. congruence.
Qed.

(** ** Rounds *)
Section leaf.
  Context (p : profile) (ho_ : hash_oracle) (mtb : merge_tb) (tb : tiebreak) (t : tree) (o : match_opts).
  Context (Hown : own_ids (in_tree t)) (Hdist : forall pm, in_tree t pm -> ids_distinct pm).
  Context (G : gmap N N) (full : quota -> Prop).
  Context (Hfull : forall c, full c \/ (arena_tiles G (t_arena t) /\
    tiles G 0 (sn_children (t_root t)) (am_next (t_arena t)) /\ tree_uses c t <= quota_limit c)).
  Notation heavier c := (heavy t G (upto t c)).
  Notation step_ok := (step_ok p mtb tb t o).
  Notation state_ok := (state_ok p mtb tb t o).
  Let Hids : ids_name_keys (in_tree t) := own_ids_name (in_tree t) Hdist Hown.

  (** A key of a leaf was looked up, and the best of what was found is in [L]. *)
  Definition looked_up (L : list coalesce_context) (pm : subquery) (k : match_key_id) : Prop :=
    exists ko ms cs q, key_opts p o pm k ko /\
      streaming_get_matching p mtb tb (sq_store pm) (mki_key k) ko bigger_max = Ok ms /\
      tree_coalesce_single p pm ko ms (mki_id k) = Ok cs /\ cpq_holds ctx_cmp max_contexts cs q /\
      forall c, c ∈ hp_items (cpq_heap q) -> c ∈ L.
  Definition kept_out (L : list coalesce_context) (pm : subquery) (k : match_key_id) : Prop :=
    leaf_passed L pm k \/ exists c, under_quota c pm k = true /\ full c.
  Lemma kept_out_mono L L' pm k : at_least L L' -> kept_out L pm k -> kept_out L' pm k.
  Proof.
    intros HL [(H1 & H2 & b & Hb & H3)|H]; [left|by right]. split; [done|]. split; [done|]. exists b. split; [|done].
    destruct Hb as [?|(d & Hd & Hle)]; [by left|right]. destruct (HL d Hd) as (d' & Hd' & Hle'). exists d'. split; [done|].
    by eapply (tc_trans _ total_cmp_ord).
  Qed.

  Record lstate (H : list tstep) (L : list coalesce_context) (q : cpq coalesce_context) (qs : quotas) : Prop := {
    ls_holds : cpq_holds ctx_cmp tree_max_contexts L q;
    ls_weight : forall st, st ∈ H -> tp_prev st = None -> tp_possible st = sq_weight (tp_sq st);
    ls_quota : forall c, full c \/ exists W, heavier c H W /\ q_get c qs + W <= quota_limit c;
    ls_all : forall i n pm k, i ∈ sn_children (t_root t) -> tree_get t i = Some n -> sn_pm n = Some pm ->
      sn_children n = [] -> k ∈ sq_keys pm ->
      looked_up L pm k \/ (exists st, st ∈ H /\ tp_prev st = None /\ tp_node st = n) \/
      kept_out (hp_items (cpq_heap q)) pm k }.

  Lemma owns_tallies_ok c l : (forall st, st ∈ l -> exists chain, step_ok chain st) -> owns (node_uses c) l = tallies c l.
  Proof.
    induction l as [|st l IH]; intros H; cbn [owns tallies foldr]; [done|]. fold (owns (node_uses c) l). fold (tallies c l).
    rewrite IH by (intros; apply H; by right). destruct (H st ltac:(by left)) as (chain & Hok).
    unfold node_uses. by rewrite (sf_pm _ _ _ _ _ _ (so_for _ _ _ _ _ _ _ Hok)).
  Qed.

  Lemma round_leaf round s s' complete L :
    lstate (hp_items (tr_steps s)) L (tr_contexts s) (tr_quotas s) ->
    state_ok s -> state_ok s' ->
    tree_round p ho_ mtb tb t o round s = Ok (s', complete) ->
    exists L' last rest new, lstate (last ++ hp_items (tr_steps s')) L' (tr_contexts s') (tr_quotas s') /\
      hp_items (tr_steps s') = rest ++ new /\ (forall st, st ∈ new -> tp_prev st <> None) /\
      if complete then exists st m, last = [st] /\ cpq_max (tr_contexts s) <= cpq_len (tr_contexts s) /\
          cpq_peek_min ctx_cmp tb (tr_contexts s) = Some m /\ fleb (sn_max_relev (tp_node st)) (cc_relev m) = true /\
          (forall st', st' ∈ rest -> step_cmp st' st <> Gt) /\ exists l, tr_contexts s' = cpq_push_all tb (tr_contexts s) l
      else last = [].
  Proof using All.
    intros [Hq Hwt Hquota Hall] Hsok Hsok' H.
    apply tree_round_ok in H as (g & popped & last & fs & rs & [Gd Hcomp HF Hrun Hctx Hst Hqs [C1 C2]]).
    pose proof (gd_steps _ _ _ _ _ _ _ _ Gd) as Hp. cbn [gt_steps] in Hp.
    assert (Hpop : forall st, st ∈ popped -> exists chain, step_ok chain st).
    { intros st Hin. apply Hsok. rewrite Hp. apply elem_of_app. by left. }
    assert (Hkf : forall kf, kf ∈ gt_keys g -> exists st k, st ∈ popped /\ fetches p st k kf).
    { destruct (gd_keys_from _ _ _ _ _ _ _ _ Gd) as (new & E & Hn). cbn [gt_keys app] in E. rewrite E. exact Hn. }
    destruct (gd_keyed _ _ _ _ _ _ _ _ Gd) as [[_ Hkeyed] Hfree].
    { cbn [gt_keys gt_unique]. split; [constructor|]. intros id b. split; [intros Hb; by apply elem_of_nil in Hb|].
      intros (kf & Hb & _). by apply elem_of_nil in Hb. }
    assert (Hweight : forall c, full c \/ exists W1 W2 W', heavier c popped W1 /\ heavier c (last ++ hp_items (gt_steps g)) W2 /\
      heavier c (mjoin (map snd rs)) W' /\ W' + tallies c popped <= W1 /\ q_get c (tr_quotas s) + (W1 + W2) <= quota_limit c).
    { intros c. destruct (Hfull c) as [?|(HG & _ & _)]; [by left|]. destruct (Hquota c) as [?|(W & HW & Hle)]; [by left|right].
      apply (heavy_perm _ _ _ _ _ Hp), heavy_app_inv in HW as (W1 & W2 & H1 & H2 & ->).
      destruct (runs_light p ho_ tb t o G HG (upto t c) (node_uses c) (upto_mono t c) (upto_own t c) _ _ _ _ Hrun H1) as (W' & HW' & Hle').
      rewrite (owns_tallies_ok c popped Hpop) in Hle'. exists W1, W2, W'. done. }
    set (A := mjoin (map (pushed_of ho_ round) (combine (seq 0 (length fs)) fs))).
    set (L' := L ++ (A ++ mjoin (map fst rs))).
    assert (HL : forall c, c ∈ L -> c ∈ L') by (intros c Hin; apply elem_of_app; by left).
    exists L', last, (hp_items (gt_steps g)), (mjoin (map snd rs)).
    assert (Hnew : forall st', st' ∈ mjoin (map snd rs) -> tp_prev st' <> None).
    { intros st' Hst'. apply elem_of_mjoin in Hst' as (l & Hl & Hr). apply elem_of_map in Hr as ([out next] & -> & Hr).
      cbn [snd] in Hl. apply elem_of_list_lookup in Hr as [i Hi].
      destruct (Forall2_lookup_r _ _ _ _ _ Hrun Hi) as (st & Hsti & site & Hrn).
      apply run_step_ok in Hrn as (scale & css & sel & [N1 N2 N3 -> [N5 N4] _]).
      apply elem_of_map in Hl as ([j s1] & -> & Hin1). cbn [snd].
      destruct (N4 _ _ Hin1) as (n & Hn & Hfor). by rewrite (sf_prev _ _ _ _ _ _ Hfor). }
    split; [split|].
    - rewrite Hctx. by apply push_all_holds.
    - intros st Hin Hpr. rewrite Hst in Hin. rewrite !elem_of_app in Hin. destruct Hin as [Hin|[Hin|Hin]].
      + apply Hwt; [|done]. rewrite Hp, !elem_of_app. by right; left.
      + apply Hwt; [|done]. rewrite Hp, !elem_of_app. by right; right.
      + by apply Hnew in Hin.
    - intros c. destruct (Hweight c) as [?|(W1 & W2 & W' & H1 & H2 & HW' & Hle1 & Hle2)]; [by left|right].
      exists (W2 + W'). split; [rewrite Hst, app_assoc; by apply heavy_app|].
      pose proof (proj1 (gd_quotas _ _ _ _ _ _ _ _ Gd c)) as Hgq. cbn [gt_quotas] in Hgq. rewrite Hqs. lia.
    - intros i n pm k Hi Hn Hpm Hleaf Hk.
      destruct (Hall i n pm k Hi Hn Hpm Hleaf Hk) as [(ko & ms & cs & q & K1 & K2 & K3 & K4 & K5)|[(st & Hin & Hpr & En)|Hb]].
      { left. exists ko, ms, cs, q. do 4 (split; [done|]). intros c Hc. by apply HL, K5. }
      2: { right. right. eapply kept_out_mono; [|exact Hb]. by eapply kept_at_least. }
      pose proof Hin as HinH. rewrite Hp in Hin. apply elem_of_app in Hin as [Hin|Hin].
      2: { right. left. exists st. split; [|done]. rewrite Hst, !elem_of_app. apply elem_of_app in Hin as [?|?]; auto. }
      destruct (Hpop st Hin) as (chain & Hok). pose proof (so_for _ _ _ _ _ _ _ Hok) as Hfor.
      assert (Esq : tp_sq st = pm) by (pose proof (sf_pm _ _ _ _ _ _ Hfor); congruence).
      assert (Es : is_single st = true). { unfold is_single, is_leaf. by rewrite Hpr, En, Hleaf. }
      pose proof Hin as Hin'. pose proof Hk as Hk'. rewrite <- Esq in Hk'.
      apply elem_of_list_split in Hin' as (pre & post & Epop). apply elem_of_list_split in Hk' as (kpre & kpost & Eks).
      destruct (Hfree _ _ _ _ _ _ Epop Eks ltac:(by left)) as [Hun|[(P1 & P2 & P3 & P4)|(c & U1 & U2)]].
      + left. rewrite Es in Hun. apply Hkeyed in Hun as (kf & Hkfin & Hid & Hsg).
        destruct (Hkf kf Hkfin) as (st' & k' & Hst' & (F1 & F2 & F3 & F4 & F5 & F6)). destruct (Hpop st' Hst') as (chain' & Hok').
        assert (Epm : tp_sq st' = pm).
        { eapply (Hown (tp_sq st') pm k' k); [apply (so_tree _ _ _ _ _ _ _ Hok')|by exists i, n|done|done|congruence]. }
        rewrite Epm in *. assert (Ek : k' = k).
        { apply (nodup_map_inj mki_id (sq_keys pm)); [apply Hdist; by exists i, n|done|done|congruence]. }
        subst k'. apply elem_of_list_lookup in Hkfin as [x Hx]. destruct (Forall2_lookup_l _ _ _ _ _ HF Hx) as (f & Hf & Hfk).
        apply fetch_key_ok in Hfk. destruct f as [q|id data]; [|destruct Hfk as [Hs1 _]; congruence].
        destruct Hfk as (_ & ms & cs & M1 & M2 & M3). rewrite F3, F4 in M1. rewrite F3, F2 in M2.
        exists (kf_opts kf), ms, cs, q. split.
        { exists (tp_opts st'). split; [|done]. pose proof (sf_opts _ _ _ _ _ _ (so_for _ _ _ _ _ _ _ Hok')) as Ho. by rewrite Epm in Ho. }
        split; [done|]. split; [done|]. split; [done|]. intros c Hc. unfold L'. rewrite !elem_of_app. right. left.
        unfold A. apply elem_of_mjoin. exists (cpq_iter ho_ [6; round; N.of_nat x] q). split; [by rewrite cpq_iter_perm|].
        apply elem_of_map. exists (x, FSingle q). split; [done|]. apply combine_seq_elem. by exists x.
      + right. right. left. rewrite Esq in *. split; [done|]. split; [done|]. exists (best_of tb (tr_contexts s)). split.
        { unfold best_of. destruct (cpq_peek_max ctx_cmp tb (tr_contexts s)) as [d|] eqn:Ed; [right|by left].
          eapply kept_at_least; [exact Hsok|exact Hsok'|exact Hq|exact Hctx|].
          unfold cpq_peek_max, hp_peek_max in Ed. destruct (hp_max_idx ctx_cmp tb _); [|done]. by eapply elem_of_list_lookup_2. }
        rewrite (Hwt st HinH Hpr), Esq in P4. done.
      + right. right. right. exists c. rewrite Esq in *. split; [done|].
        destruct (Hweight c) as [?|(W1 & W2 & W' & H1 & _ & _ & Hle1 & Hle2)]; [done|exfalso].
        cbn [gt_quotas] in U2. rewrite Epop, tallies_app in Hle1. cbn [tallies foldr] in Hle1.
        rewrite Esq, Eks, tally_app, tally_cons, U1 in Hle1.
        cbn [one] in Hle1. fold (tallies c pre) in Hle1. lia.
    - split; [exact Hst|]. split; [exact Hnew|].
      pose proof (gd_last _ _ _ _ _ _ _ _ Gd) as Hlast. rewrite Hcomp. destruct (gt_complete g); [|exact Hlast].
      destruct Hlast as (st & m & -> & L1 & L2 & L3 & L4). exists st, m. split; [done|]. split; [done|]. split; [done|].
      split; [done|]. split; [done|]. eexists. exact Hctx.
  Qed.

  Lemma loop_leaf fuel : forall s s' L,
    lstate (hp_items (tr_steps s)) L (tr_contexts s) (tr_quotas s) -> state_ok s ->
    tree_loop p ho_ mtb tb t o fuel s = Ok s' ->
    state_ok s' /\ exists L' H', lstate H' L' (tr_contexts s') (tr_quotas s') /\
      (H' = [] \/ stop_reached (tr_contexts s') H').
  Proof using All.
    induction fuel as [|fuel IH]; intros s s' L Hc Hok H; cbn [tree_loop] in H; [done|].
    destruct (hp_items (tr_steps s)) as [|st0 sts] eqn:Es.
    { injection H as <-. split; [done|]. exists L, []. split; [done|]. by left. }
    rewrite <- Es in Hc. apply bind_Ok in H as ([s1 complete] & H1 & H).
    pose proof (round_sound _ _ _ _ _ _ Hids _ _ _ _ Hok H1) as Hok1.
    destruct (round_leaf _ _ _ _ _ Hc Hok Hok1 H1) as (L' & last & rest & new & Hc1 & Er & Hnew & Hcomp).
    destruct complete.
    - injection H as <-. split; [done|]. exists L', (last ++ hp_items (tr_steps s1)). split; [done|]. right.
      destruct Hcomp as (st & m & -> & M1 & M2 & M3 & M4 & l & El).
      destruct (hp_peek_min_ok ctx_cmp tb _ _ M2) as [Hm Hmin]. rewrite Forall_forall in Hmin.
      destruct (push_all_floor tb l m (tr_contexts s) M1 Hmin) as [F1 F2]. rewrite <- El in F1, F2.
      assert (Hb : bounded_by (tr_contexts s1) st).
      { intros d Hd. eapply (tc_trans _ total_cmp_ord); [by apply fleb_ord|]. apply ctx_cmp_relev; [|by eapply ok_entries|by apply F2].
        exact (ok_entries _ _ _ _ _ _ _ Hok Hm). }
      split; [done|]. split; [exists st; split; [by left|done]|].
      intros st' Hst' Hprev. cbn [app] in Hst'. apply elem_of_cons in Hst' as [->|Hst']; [done|].
      rewrite Er in Hst'. apply elem_of_app in Hst' as [Hst'|Hst']; [|by apply Hnew in Hst'].
      intros d Hd. eapply (tc_trans _ total_cmp_ord); [|by apply Hb]. apply step_cmp_relev. by apply M4.
    - subst last. cbn [app] in Hc1. by eapply IH.
  Qed.

  Lemma first_weights kids : forall h h',
    res_foldl (first_step p t o) h kids = Ok h' ->
    (forall st, st ∈ hp_items h -> tp_possible st = sq_weight (tp_sq st)) ->
    forall st, st ∈ hp_items h' -> tp_possible st = sq_weight (tp_sq st).
  Proof using.
    clear. induction kids as [|i kids IH]; intros h h' H Hh; cbn [res_foldl] in H; [by injection H as <-|].
    apply bind_Ok in H as (h1 & H1 & H2). apply (IH _ _ H2). unfold first_step in H1. destruct (tree_get t i) as [n|]; [|by injection H1 as <-].
    destruct (sn_pm n) as [sq|] eqn:En; [|done]. apply bind_Ok in H1 as (st & Hst & H1). injection H1 as <-. cbn [hp_push hp_items].
    unfold make_step in Hst. rewrite En in Hst. apply bind_Ok in Hst as (o' & _ & Hst). injection Hst as <-.
    intros st Hin. apply elem_of_app in Hin as [Hin|Hin]; [by apply Hh|]. by apply elem_of_list_singleton in Hin as ->.
  Qed.

  Lemma first_leaf steps :
    res_foldl (first_step p t o) hp_empty (sn_children (t_root t)) = Ok steps ->
    lstate (hp_items steps) [] (cpq_new tree_max_contexts) (Quotas 0 0 0 0 0).
  Proof using All.
    intros H. pose proof (first_weights _ _ _ H) as Hw.
    apply first_steps_ok in H as (sel & E & [S1 S2] & S3). cbn [hp_empty hp_items app] in E, Hw.
    split.
    - apply cpq_new_holds.
    - intros st Hin _. apply Hw; [|done]. intros st' Hst'. by apply elem_of_nil in Hst'.
    - intros c. destruct (Hfull c) as [?|(HG & Ht & Hle)]; [by left|right].
      destruct (heavy_sel p t o G (upto t c) (upto_mono t c) _ _ _ _ _ _ (conj S1 S2) Ht) as (W & HW & HWle).
      exists W. rewrite E. split; [exact HW|]. destruct c; cbn [q_get q_letter q_word q_word_hz q_hz_range q_hz]; unfold upto, tree_uses in *; lia.
    - intros i n pm k Hi Hn Hpm Hleaf Hk. right. left. destruct (S3 i n Hi Hn) as [s1 Hs1]. destruct (S2 _ _ Hs1) as (n0 & Hn0 & Hf).
      exists s1. split; [rewrite E; apply elem_of_map; by exists (i, s1)|]. split; [apply (sf_prev _ _ _ _ _ _ Hf)|].
      rewrite (sf_node _ _ _ _ _ _ Hf). congruence.
  Qed.

  Lemma tree_leaf fuel out i n pm k ms j g :
    tree_coalesce p ho_ mtb tb fuel t o = Ok out ->
    i ∈ sn_children (t_root t) -> tree_get t i = Some n -> sn_pm n = Some pm -> sn_children n = [] ->
    leaf_matches p mtb tb o pm k ms -> within_reach pm ms j g ->
    stopped_early t n [pm] out \/ leaf_passed out pm k \/ (exists c, under_quota c pm k = true /\ full c) \/
    exists g' e, represents pm ms j g g' /\ entry_of pm k g' e /\
      (lone pm e ∈ out \/ crowded_out 800 out (lone pm e) \/ features_before pm k ms e).
  Proof using All.
    intros H Hi Hn Hpm Hleaf (ko & Hk & Hko & Hms) Hreach.
    unfold tree_coalesce in H. apply bind_Ok in H as (u & _ & H). apply bind_Ok in H as (steps & Hs & H).
    apply bind_Ok in H as (s & Hl & H). injection H as <-.
    destruct (loop_leaf _ (TreeState (cpq_new tree_max_contexts) steps ∅ (Quotas 0 0 0 0 0)) _ [] (first_leaf _ Hs)
      (first_ok _ mtb tb _ _ _ Hs) Hl) as (Hok & L & H & Hc & Hend).
    destruct (hp_into_desc_ok ctx_cmp total_cmp_ctx tb (cpq_heap (tr_contexts s))) as [Hp _].
    fold (cpq_into_desc ctx_cmp tb (tr_contexts s)) in Hp.
    destruct (ls_holds _ _ _ _ Hc) as (Hmax & dropped & Q1 & Q2 & Q3).
    assert (Hlen : cpq_max (tr_contexts s) <= cpq_len (tr_contexts s) -> length (cpq_into_desc ctx_cmp tb (tr_contexts s)) = 800%nat).
    { intros Hle. rewrite (Permutation_length Hp). unfold cpq_len, hp_len in Hle. rewrite Hmax in Hle.
      change tree_max_contexts with 800 in *. lia. }
    destruct (ls_all _ _ _ _ Hc i n pm k Hi Hn Hpm Hleaf Hk) as [(ko' & ms' & cs & q & K1 & K2 & K3 & K4 & K5)|[(st & Hst & Hpr & En)|Hb]].
    - assert (ko' = ko) as -> by by eapply key_opts_unique. change bigger_max with 80 in K2. assert (ms' = ms) as -> by congruence.
      right. right. right. destruct (tree_single_reach _ _ _ _ _ _ _ _ K3 Hreach) as (g' & e & R1 & R2 & R3).
      assert (Hctx : forall e0 g0, grid_to_coalesce_entry p g0 pm ko (mki_id k) = Ok e0 -> single_context e0 = lone pm e0).
      { intros e0 g0 H0. apply to_entry_inv in H0 as (_ & _ & _ & Em & _). unfold single_context, lone. by rewrite Em. }
      exists g', e. split; [done|]. split; [by eapply entry_of_inv|]. rewrite (Hctx _ _ R2) in R3.
      destruct K4 as (_ & dr & D1 & D2 & D3). rewrite D1 in R3. apply elem_of_app in R3 as [Hin|Hdr].
      + apply K5 in Hin. rewrite Q1 in Hin. apply elem_of_app in Hin as [Hin|Hdr]; [left; by rewrite Hp|]. right. left.
        assert (Hd0 : (0 < length dropped)%nat) by (destruct dropped; [by apply elem_of_nil in Hdr|cbn; lia]).
        pose proof (Permutation_length Q1) as Hlq. rewrite app_length in Hlq.
        split; [apply Hlen; unfold cpq_len, hp_len; rewrite Hmax; change tree_max_contexts with 800 in *; lia|].
        intros d Hd. rewrite Hp in Hd. apply cmp_listed_before; [by eapply ok_entries|done|by apply Q3].
      + right. right.
        assert (Hcs : NoDup (map lone_id cs) /\ forall c, c ∈ cs -> exists e0 g0, c = lone pm e0 /\ g0 ∈ ms /\ grid_to_coalesce_entry p g0 pm ko (mki_id k) = Ok e0).
        { split; [by eapply tree_single_ids|]. intros c Hc0. destruct (tree_single_ok _ _ _ _ _ _ K3 c Hc0) as (g0 & e0 & Hg0 & He0 & ->). exists e0, g0.
          split; [by eapply Hctx|done]. }
        destruct Hcs as [Hnd Hform]. set (ent := fun c : coalesce_context => match cc_entries c with e0 :: _ => e0 | [] => e end).
        exists (map ent (hp_items (cpq_heap q))).
        eapply nodup_perm_map in Hnd; [|symmetry; exact D1]. rewrite List.map_app in Hnd. apply NoDup_app in Hnd as (N1 & N2 & _).
        assert (Hsub : forall c, c ∈ hp_items (cpq_heap q) -> c ∈ cs) by (intros c Hc0; rewrite D1; apply elem_of_app; by left).
        split; [|split].
        * rewrite List.map_map. apply (NoDup_fmap_1 Some). change (NoDup (map Some (map (fun c => e_id (ent c)) (hp_items (cpq_heap q))))).
          rewrite List.map_map. erewrite map_ext_in; [exact N1|]. intros c Hc0. apply elem_of_list_In in Hc0.
          destruct (Hform c (Hsub c Hc0)) as (e0 & g0 & -> & _). done.
        * rewrite map_length. pose proof (Permutation_length D1) as Hl0. rewrite app_length in Hl0.
          assert (0 < length dr)%nat by (destruct dr; [by apply elem_of_nil in Hdr|cbn; lia]).
          change max_contexts with 40 in D2. lia.
        * intros e' He'. apply elem_of_map in He' as (c & -> & Hc0). destruct (Hform c (Hsub c Hc0)) as (e0 & g0 & -> & Hg0 & He0).
          cbn [ent lone cc_entries]. split; [|split].
          -- intros E. apply (N2 (Some (e_id e0))); [apply elem_of_map; by exists (lone pm e0)|]. apply elem_of_map. exists (lone pm e). split; [|done].
             cbn. by rewrite E.
          -- apply cmp_listed_before; [done|done|]. by apply D3.
          -- exists g0. split; [done|]. by eapply entry_of_inv.
    - left. destruct Hend as [->|(E1 & _ & Hb1)]; [by apply elem_of_nil in Hst|]. split; [by apply Hlen|].
      exists i, n. split; [done|]. split; [done|]. intros d Hd. rewrite Hp in Hd. rewrite <- En. by apply (Hb1 st Hst).
    - right. destruct Hb as [Hb|Hb]; [left|right; by left]. destruct Hb as (B1 & B2 & b & Hb & B3). split; [done|]. split; [done|].
      exists b. split; [|done]. destruct Hb as [?|(d & Hd & Hle)]; [by left|right]. exists d. split; [by rewrite Hp|done].
  Qed.

  (** With room everywhere, all that is found for a key is returned. *)
  Lemma tree_leaf_all fuel out i n pm k ko ms cs :
    tree_coalesce p ho_ mtb tb fuel t o = Ok out -> (length out < 800)%nat ->
    i ∈ sn_children (t_root t) -> tree_get t i = Some n -> sn_pm n = Some pm -> sn_children n = [] ->
    k ∈ sq_keys pm -> key_opts p o pm k ko -> streaming_get_matching p mtb tb (sq_store pm) (mki_key k) ko 80 = Ok ms ->
    tree_coalesce_single p pm ko ms (mki_id k) = Ok cs -> (length cs <= 40)%nat ->
    one_word pm k && high_zoom pm = false -> (forall c, ~ full c) -> forall c, c ∈ cs -> c ∈ out.
  Proof using All.
    intros H Hlen Hi Hn Hpm Hleaf Hk Hko Hms Hcs Hroom Hsc Hnf c Hcin.
    unfold tree_coalesce in H. apply bind_Ok in H as (u & _ & H). apply bind_Ok in H as (steps & Hs & H).
    apply bind_Ok in H as (s & Hl & H). injection H as <-.
    destruct (loop_leaf _ (TreeState (cpq_new tree_max_contexts) steps ∅ (Quotas 0 0 0 0 0)) _ [] (first_leaf _ Hs)
      (first_ok _ mtb tb _ _ _ Hs) Hl) as (Hok & L & H & Hc & Hend).
    destruct (hp_into_desc_ok ctx_cmp total_cmp_ctx tb (cpq_heap (tr_contexts s))) as [Hp _].
    fold (cpq_into_desc ctx_cmp tb (tr_contexts s)) in Hp. rewrite (Permutation_length Hp) in Hlen.
    destruct (ls_holds _ _ _ _ Hc) as (Hmax & dropped & Q1 & Q2 & Q3).
    pose proof (Permutation_length Q1) as Hlq. rewrite app_length in Hlq.
    rewrite Hp. destruct (ls_all _ _ _ _ Hc i n pm k Hi Hn Hpm Hleaf Hk) as [(ko' & ms' & cs' & q & K1 & K2 & K3 & K4 & K5)|[(st & Hst & Hpr & En)|Hb]].
    - assert (ko' = ko) as -> by by eapply key_opts_unique. change bigger_max with 80 in K2. assert (ms' = ms) as -> by congruence.
      assert (cs' = cs) as -> by congruence. destruct K4 as (_ & dr & D1 & D2 & D3).
      pose proof (Permutation_length D1) as Hl0. rewrite app_length in Hl0. change max_contexts with 40 in D2.
      assert (dr = []) as -> by (apply length_zero_iff_nil; destruct dr; [done|cbn [length] in *; lia]). rewrite app_nil_r in D1.
      rewrite D1 in Hcin. apply K5 in Hcin. rewrite Q1 in Hcin. apply elem_of_app in Hcin as [?|Hdr]; [done|exfalso].
      change tree_max_contexts with 800 in *. destruct dropped; [by apply elem_of_nil in Hdr|cbn [length] in *; lia].
    - exfalso. destruct Hend as [->|(E1 & _)]; [by apply elem_of_nil in Hst|].
      unfold cpq_len, hp_len in E1. rewrite Hmax in E1. change tree_max_contexts with 800 in *. lia.
    - exfalso. destruct Hb as [(B1 & B2 & _)|(c0 & _ & Hf)]; [by rewrite B1, B2 in Hsc|by apply (Hnf c0)].
  Qed.
End leaf.
