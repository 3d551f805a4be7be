(** Lemmas about coalesce: the final filter, temporary ids, the single-layer loop. *)
From Verif Require Import Prelude Lists F64 Heap Common Builder Store Query Spatial Coalesce
  Cmp_proofs Queue_proofs Spec_coalesce.
From Coq Require Import Sorting.Sorted.
From Coq Require Import ZifyBool.
Local Open Scope N_scope.

(** ** The final filter *)
Lemma coalesce_filter_sub mr cs : forall seen n, coalesce_filter mr seen n cs `sublist_of` cs.
Proof.
  induction cs as [|c cs IH]; intros seen n; cbn [coalesce_filter]; [done|].
  destruct (max_contexts <=? n); [apply sublist_nil_l|].
  destruct (fleb f_025 _); [apply sublist_nil_l|].
  destruct (cc_entries c) as [|e es]; [apply sublist_nil_l|].
  destruct (existsb _ seen); [by apply sublist_cons|by apply sublist_skip].
Qed.
Lemma coalesce_filter_len mr cs : forall seen n, n <= max_contexts ->
  n + N.of_nat (length (coalesce_filter mr seen n cs)) <= max_contexts.
Proof.
  induction cs as [|c cs IH]; intros seen n Hn; cbn [coalesce_filter].
  { cbn. lia. }
  destruct (max_contexts <=? n) eqn:E; [cbn; lia|].
  destruct (fleb f_025 _); [cbn; lia|].
  destruct (cc_entries c) as [|e es]; [cbn; lia|].
  destruct (existsb _ seen); [by apply IH|].
  cbn [length]. specialize (IH (ce_tmp_id e :: seen) (n + 1)). lia.
Qed.
Lemma coalesce_filter_window mr cs : forall seen n c,
  c ∈ coalesce_filter mr seen n cs -> fleb f_025 (fsub mr (cc_relev c)) = false.
Proof.
  induction cs as [|c cs IH]; intros seen n c' Hc; cbn [coalesce_filter] in Hc.
  { by apply elem_of_nil in Hc. }
  destruct (max_contexts <=? n); [by apply elem_of_nil in Hc|].
  destruct (fleb f_025 _) eqn:E; [by apply elem_of_nil in Hc|].
  destruct (cc_entries c) as [|e es]; [by apply elem_of_nil in Hc|].
  destruct (existsb _ seen); [by eapply IH|].
  apply elem_of_cons in Hc as [->|Hc]; [done|by eapply IH].
Qed.
Lemma coalesce_filter_nonempty mr cs : forall seen n c,
  c ∈ coalesce_filter mr seen n cs -> cc_entries c <> [].
Proof.
  induction cs as [|c cs IH]; intros seen n c' Hc; cbn [coalesce_filter] in Hc.
  { by apply elem_of_nil in Hc. }
  destruct (max_contexts <=? n); [by apply elem_of_nil in Hc|].
  destruct (fleb f_025 _) eqn:E; [by apply elem_of_nil in Hc|].
  destruct (cc_entries c) as [|e es] eqn:Ee; [by apply elem_of_nil in Hc|].
  destruct (existsb _ seen); [by eapply IH|].
  apply elem_of_cons in Hc as [->|Hc]; [by rewrite Ee|by eapply IH].
Qed.
Lemma coalesce_filter_fresh mr cs : forall seen n c t,
  c ∈ coalesce_filter mr seen n cs -> first_tmp c = Some t -> t ∉ seen.
Proof.
  induction cs as [|c cs IH]; intros seen n c' t Hc Ht; cbn [coalesce_filter] in Hc.
  { by apply elem_of_nil in Hc. }
  destruct (max_contexts <=? n); [by apply elem_of_nil in Hc|].
  destruct (fleb f_025 _) eqn:E; [by apply elem_of_nil in Hc|].
  destruct (cc_entries c) as [|e es] eqn:Ee; [by apply elem_of_nil in Hc|].
  destruct (existsb _ seen) eqn:Es; [by eapply IH|].
  apply elem_of_cons in Hc as [->|Hc].
  - unfold first_tmp in Ht. rewrite Ee in Ht. cbn in Ht. injection Ht as <-.
    intros Hin. apply Bool.not_true_iff_false in Es. apply Es. apply existsb_exists.
    exists (ce_tmp_id e). split; [by apply elem_of_list_In|]. apply N.eqb_refl.
  - specialize (IH _ _ _ _ Hc Ht). by apply not_elem_of_cons in IH as [_ ?].
Qed.
Lemma coalesce_filter_nodup mr cs : forall seen n,
  NoDup (map first_tmp (coalesce_filter mr seen n cs)).
Proof.
  induction cs as [|c cs IH]; intros seen n; cbn [coalesce_filter]; [constructor|].
  destruct (max_contexts <=? n); [constructor|].
  destruct (fleb f_025 _) eqn:E; [constructor|].
  destruct (cc_entries c) as [|e es] eqn:Ee; [constructor|].
  destruct (existsb _ seen) eqn:Es; [apply IH|].
  cbn [map]. constructor; [|apply IH].
  intros Hin. apply elem_of_map in Hin as (c' & Heq & Hc').
  assert (Ht : first_tmp c = Some (ce_tmp_id e)) by (unfold first_tmp; by rewrite Ee).
  rewrite Ht in Heq. symmetry in Heq.
  eapply coalesce_filter_fresh in Hc'; [|exact Heq]. apply Hc'. by left.
Qed.
(** Nothing is lost without a reason. *)
Lemma coalesce_filter_complete mr cs : forall seen n c,
  (forall d, d ∈ cs -> cc_entries d <> []) ->
  (forall d, d ∈ cs -> fleb f_025 (fsub mr (cc_relev d)) = false) ->
  c ∈ cs ->
  let out := coalesce_filter mr seen n cs in
  max_contexts <= n + N.of_nat (length out) \/
  (exists t, first_tmp c = Some t /\ t ∈ seen) \/
  exists d, d ∈ out /\ first_tmp d = first_tmp c.
Proof.
  induction cs as [|d cs IH]; intros seen n c Hne Hw Hc; cbn [coalesce_filter].
  { by apply elem_of_nil in Hc. }
  destruct (max_contexts <=? n) eqn:En; [left; cbn; lia|].
  rewrite (Hw d) by by left.
  destruct (cc_entries d) as [|e es] eqn:Ee; [exfalso; eapply Hne; [by left|done]|].
  assert (Ht : first_tmp d = Some (ce_tmp_id e)) by (unfold first_tmp; by rewrite Ee).
  destruct (existsb _ seen) eqn:Es.
  - apply elem_of_cons in Hc as [->|Hc].
    + right; left. exists (ce_tmp_id e). split; [done|]. apply existsb_exists in Es as (t & Hin & Heq).
      apply N.eqb_eq in Heq as ->. by apply elem_of_list_In.
    + apply IH; [intros; apply Hne; by right|intros; apply Hw; by right|done].
  - apply elem_of_cons in Hc as [->|Hc].
    + right; right. exists d. split; [by left|done].
    + destruct (IH (ce_tmp_id e :: seen) (n + 1) c) as [H|[(t & H1 & H2)|(d' & H1 & H2)]];
        [intros; apply Hne; by right|intros; apply Hw; by right|done| | |].
      * left. cbn [length]. lia.
      * apply elem_of_cons in H2 as [->|H2].
        -- right; right. exists d. split; [by left|]. congruence.
        -- right; left. eauto.
      * right; right. exists d'. split; [by right|done].
Qed.

Lemma StronglySorted_sublist {A} (R : A -> A -> Prop) l1 l2 :
  l1 `sublist_of` l2 -> StronglySorted R l2 -> StronglySorted R l1.
Proof.
  induction 1 as [|x l1 l2 Hs IH|x l1 l2 Hs IH]; intros HS; [constructor| |].
  - apply StronglySorted_inv in HS as [HS HF]. constructor; [by apply IH|].
    rewrite Forall_forall in *. intros y Hy. apply HF. eapply elem_of_submseteq; [exact Hy|]. by apply sublist_submseteq.
  - apply StronglySorted_inv in HS as [HS HF]. by apply IH.
Qed.

(** ** Sorting in descending order *)
Lemma isort_desc {A} (cmp : A -> A -> comparison) l :
  total_cmp cmp -> StronglySorted (fun a b => cmp b a <> Gt) (isort (desc_by cmp) l).
Proof.
  intros H. eapply StronglySorted_impl; [|apply isort_sorted].
  - intros a b. cbn. unfold desc_by. rewrite (tc_anti _ H a b). destruct (cmp a b); cbn; naive_solver.
  - intros a b. unfold desc_by. rewrite (tc_anti _ H a b). destruct (cmp a b); cbn; naive_solver.
  - intros a b c. unfold desc_by. intros Hab Hbc.
    assert (H1 : cmp c b <> Gt) by (rewrite (tc_anti _ H b c); destruct (cmp b c); done).
    assert (H2 : cmp b a <> Gt) by (rewrite (tc_anti _ H a b); destruct (cmp a b); done).
    pose proof (tc_trans _ H _ _ _ H1 H2) as H3. rewrite (tc_anti _ H a c) in H3. by destruct (cmp a c).
Qed.

(** ** Comparisons of numbers that are not NaN *)
Lemma fltb_ord a b : f_is_nan a = false -> f_is_nan b = false -> fltb a b = true <-> ord_cmp a b = Lt.
Proof.
  intros Ha Hb. unfold fltb, SFltb. rewrite (SFcompare_ord a b Ha Hb). by destruct (ord_cmp a b).
Qed.
Lemma fleb_ord a b : f_is_nan a = false -> f_is_nan b = false -> fleb a b = true <-> ord_cmp a b <> Gt.
Proof.
  intros Ha Hb. unfold fleb, SFleb. rewrite (SFcompare_ord a b Ha Hb). by destruct (ord_cmp a b).
Qed.

(** ** Temporary ids *)
Lemma tmp_shift idx : as_u32 (N.shiftl idx 25) = (idx mod 128) * 2 ^ 25.
Proof.
  unfold as_u32. rewrite N.shiftl_mul_pow2. replace (2 ^ 32) with (128 * 2 ^ 25) by done.
  rewrite N.mul_mod_distr_r by done. done.
Qed.
Lemma tmp_ok p idx id : id < 2 ^ 25 ->
  uadd p 32 (as_u32 (N.shiftl idx 25)) id = Ok ((idx mod 128) * 2 ^ 25 + id).
Proof.
  intros Hid. rewrite tmp_shift. unfold uadd.
  assert (idx mod 128 < 128) by (apply N.mod_lt; done). generalize dependent (idx mod 128). intros i Hi.
  change (2 ^ 25) with 33554432 in *. change (2 ^ 32) with 4294967296. destruct (_ <? _) eqn:E; [done|lia].
Qed.

(** ** Entries *)
Lemma to_entry_inv p g sq o pid e : grid_to_coalesce_entry p g sq o pid = Ok e -> to_entry sq pid g e.
Proof.
  unfold grid_to_coalesce_entry. intros H. apply bind_Ok in H as (? & _ & H).
  apply bind_Ok in H as (tmp & Ht & H). injection H as <-. do 7 (split; [done|]). cbn [ce_tmp_id].
  unfold uadd, as_u32 in Ht. rewrite N.shiftl_mul_pow2 in Ht.
  assert (Em : forall a b, (a mod 2 ^ 32 + b) mod 2 ^ 32 = (a + b) mod 2 ^ 32)
    by (intros a b; by rewrite N.add_mod_idemp_l).
  rewrite <- Em. destruct p.
  - destruct (_ <? 2 ^ 32) eqn:E; [|done]. injection Ht as <-. symmetry. apply N.mod_small. by apply N.ltb_lt.
  - destruct (_ <? 2 ^ 32) eqn:E; injection Ht as <-; [|done]. symmetry. apply N.mod_small. by apply N.ltb_lt.
Qed.
Lemma to_entry_ok p g sq o pid :
  mo_zoom o = st_zoom (sq_store sq) -> ge_id (me_entry g) < 2 ^ 25 ->
  exists e, grid_to_coalesce_entry p g sq o pid = Ok e /\ to_entry sq pid g e /\
    ce_tmp_id e = (sq_idx sq mod 128) * 2 ^ 25 + ge_id (me_entry g).
Proof.
  intros Hz Hid. unfold grid_to_coalesce_entry. rewrite Hz, N.eqb_refl.
  assert (Hd : debug_assert p true = Ok tt) by by destruct p. rewrite Hd. cbn [res_bind].
  rewrite tmp_ok by done. cbn [res_bind]. eexists. split; [reflexivity|]. split; [|done].
  apply (to_entry_inv p _ _ o). unfold grid_to_coalesce_entry. rewrite Hz, N.eqb_refl, Hd. cbn [res_bind]. by rewrite tmp_ok.
Qed.

(** ** The single-layer loop *)
Fixpoint run_entries (hp : bool) (es : list coalesce_entry) (s : single_state) : single_state :=
  match es with
  | [] => s
  | e :: es' => match single_body hp s e with Continue s' => run_entries hp es' s' | Break s' => s' end
  end.
Definition has_prox (o : match_opts) : bool := match mo_prox o with Some _ => true | None => false end.
Lemma single_loop_run p sq o pid grids : forall s s',
  single_loop p sq o pid grids s = Ok s' ->
  exists pre suf es, grids = pre ++ suf /\
    Forall2 (fun g e => grid_to_coalesce_entry p g sq o pid = Ok e) pre es /\
    s' = run_entries (has_prox o) es s.
Proof.
  induction grids as [|g grids IH]; intros s s' H; cbn [single_loop] in H.
  { injection H as <-. exists [], [], []. repeat split; constructor. }
  apply bind_Ok in H as (e & He & H). fold (has_prox o) in H.
  destruct (single_body (has_prox o) s e) as [s1|s1] eqn:Eb.
  - destruct (IH _ _ H) as (pre & suf & es & -> & HF & ->).
    exists (g :: pre), suf, (e :: es). split; [done|]. split; [by constructor|]. cbn [run_entries]. by rewrite Eb.
  - injection H as <-. exists [g], grids, [e]. split; [done|]. split; [by repeat constructor|].
    cbn [run_entries]. by rewrite Eb.
Qed.
Lemma single_loop_ok p sq o pid grids es : forall s,
  Forall2 (fun g e => grid_to_coalesce_entry p g sq o pid = Ok e) grids es ->
  single_loop p sq o pid grids s = Ok (run_entries (has_prox o) es s).
Proof.
  intros s HF. revert s. induction HF as [|g e grids es He HF IH]; intros s; [done|].
  cbn [single_loop run_entries]. rewrite He. cbn [res_bind]. fold (has_prox o).
  destruct (single_body (has_prox o) s e); [apply IH|done].
Qed.

Lemma coalesced_insert_lookup m e id f :
  coalesced_insert m e !! id = Some f -> m !! id = Some f \/ (f = e /\ id = ge_id (ce_entry e)).
Proof.
  unfold coalesced_insert. destruct (m !! ge_id (ce_entry e)) as [old|] eqn:E.
  - destruct (_ && _); [|by left]. destruct (decide (ge_id (ce_entry e) = id)) as [<-|Hne].
    + rewrite lookup_insert. intros [= <-]. by right.
    + rewrite lookup_insert_ne by done. by left.
  - destruct (decide (ge_id (ce_entry e) = id)) as [<-|Hne].
    + rewrite lookup_insert. intros [= <-]. by right.
    + rewrite lookup_insert_ne by done. by left.
Qed.
Lemma coalesced_insert_here m e : is_Some (coalesced_insert m e !! ge_id (ce_entry e)).
Proof.
  unfold coalesced_insert. destruct (m !! ge_id (ce_entry e)) as [old|] eqn:E.
  - destruct (_ && _); [rewrite lookup_insert|rewrite E]; eauto.
  - rewrite lookup_insert. eauto.
Qed.
Lemma coalesced_insert_keep m e id : is_Some (m !! id) -> is_Some (coalesced_insert m e !! id).
Proof.
  intros H. unfold coalesced_insert. destruct (m !! ge_id (ce_entry e)) as [old|] eqn:E.
  - destruct (_ && _); [|done]. apply lookup_insert_is_Some'. by right.
  - apply lookup_insert_is_Some'. by right.
Qed.

(** Where the entries come from. *)
Lemma single_body_from hp s e s' :
  single_body hp s e = Continue s' \/ single_body hp s e = Break s' ->
  forall id f, ss_coalesced s' !! id = Some f ->
    ss_coalesced s !! id = Some f \/ (f = e /\ id = ge_id (ce_entry e)).
Proof.
  unfold single_body. intros H id f Hf.
  repeat match type of H with context [if ?b then _ else _] => destruct b; [destruct H as [[= <-]|[= <-]]; by left|] end.
  cbv zeta in H.
  destruct (negb hp && _); destruct H as [[= <-]|[= <-]]; cbn [ss_coalesced] in Hf; by apply coalesced_insert_lookup.
Qed.
Lemma run_entries_from hp es : forall s id f,
  ss_coalesced (run_entries hp es s) !! id = Some f ->
  ss_coalesced s !! id = Some f \/ (f ∈ es /\ id = ge_id (ce_entry f)).
Proof.
  induction es as [|e es IH]; intros s id f Hf; cbn [run_entries] in Hf; [by left|].
  destruct (single_body hp s e) as [s1|s1] eqn:Eb.
  - destruct (IH _ _ _ Hf) as [H|[H1 H2]]; [|right; split; [by right|done]].
    destruct (single_body_from hp s e s1 (or_introl Eb) _ _ H) as [?|[-> ->]]; [by left|]. right. split; [by left|done].
  - destruct (single_body_from hp s e s1 (or_intror Eb) _ _ Hf) as [?|[-> ->]]; [by left|]. right. split; [by left|done].
Qed.

(** Without reaching a limit: no entry is lost. *)
Record single_inv (done : list coalesce_entry) (s : single_state) : Prop := {
  si_count : ss_count s <= N.of_nat (length done);
  si_max : ss_max_relev s = f_zero \/ exists e, e ∈ done /\ ss_max_relev s = e_relev e;
  si_prev : (ss_prev_id s = 0 /\ ss_prev_scoredist s = f_zero /\ ss_coalesced s = ∅) \/
            (exists e, e ∈ done /\ e_id e = ss_prev_id s /\ ce_scoredist e = ss_prev_scoredist s /\
                       is_Some (ss_coalesced s !! ss_prev_id s));
  si_all : forall e, e ∈ done -> e_id e <> 0 \/ fltb f_zero (ce_scoredist e) = true ->
           is_Some (ss_coalesced s !! e_id e) }.
Definition best_inv (done : list coalesce_entry) (s : single_state) : Prop :=
  forall e f, e ∈ done -> e_id e <> 0 -> ss_coalesced s !! e_id e = Some f ->
    ~ (ord_cmp (e_relev f) (e_relev e) <> Gt /\ ord_cmp (ce_scoredist f) (ce_scoredist e) = Lt).

Definition in_window (es : list coalesce_entry) : Prop :=
  (forall e, e ∈ es -> fleb f_025 (fsub f_zero (e_relev e)) = false) /\
  (forall e e', e ∈ es -> e' ∈ es -> fleb f_025 (fsub (e_relev e) (e_relev e')) = false).

Lemma single_body_inv hp done s e :
  single_inv done s -> N.of_nat (length (done ++ [e])) <= bigger_max -> in_window (done ++ [e]) ->
  exists s', single_body hp s e = Continue s' /\ single_inv (done ++ [e]) s' /\
    (best_inv done s -> (forall d, d ∈ done ++ [e] -> f_is_nan (e_relev d) = false /\ f_is_nan (ce_scoredist d) = false) ->
     (forall id f, ss_coalesced s !! id = Some f -> f ∈ done /\ id = e_id f) ->
     (forall d, d ∈ done -> ord_cmp (e_relev e) (e_relev d) <> Gt) -> best_inv (done ++ [e]) s').
Proof.
  intros [Hc Hm Hp Ha] Hlen [Hw0 Hw]. rewrite app_length in Hlen. cbn [length] in Hlen.
  assert (He : e ∈ done ++ [e]) by (apply elem_of_app; right; by apply elem_of_list_singleton).
  assert (Hsub : forall d, d ∈ done -> d ∈ done ++ [e]) by (intros; apply elem_of_app; by left).
  unfold single_body. cbv zeta. fold (e_id e). fold (e_relev e).
  destruct ((ss_prev_id s =? e_id e) && fleb (ce_scoredist e) (ss_prev_scoredist s)) eqn:E1.
  { (* skipped *)
    apply andb_prop in E1 as [E1 E2]. apply N.eqb_eq in E1. exists s. split; [done|]. split.
    - split; [rewrite app_length; cbn; lia| | |].
      + destruct Hm as [Hm|(d & Hd & Hm)]; [by left|right; exists d; auto].
      + destruct Hp as [Hp|(d & Hd & Hp)]; [by left|right; exists d; auto].
      + intros d Hd Hnz. apply elem_of_app in Hd as [Hd|Hd]; [by apply Ha|].
        apply elem_of_list_singleton in Hd as ->. destruct Hp as [(P1 & P2 & P3)|(d & Hd & P1 & P2 & P3)].
        * exfalso. destruct Hnz as [Hnz|Hnz]; [congruence|]. rewrite P2 in E2.
          unfold fltb, fleb, SFltb, SFleb in *.
          destruct (ce_scoredist e) as [[]|[]| |[] ? ?]; cbn in Hnz, E2; done.
        * by rewrite <- E1.
    - intros Hb Hnan Hkeyed Hsort d f Hd Hid Hf [D1 D2].
      apply elem_of_app in Hd as [Hd|Hd]; [by eapply Hb; eauto|].
      apply elem_of_list_singleton in Hd as ->.
      destruct Hp as [(P1 & P2 & P3)|(d & Hd & P1 & P2 & P3)]; [congruence|].
      assert (Hid2 : e_id d = e_id e) by congruence.
      apply (Hb d f Hd); [congruence|by rewrite Hid2|]. split.
      + eapply (tc_trans _ total_cmp_ord); [exact D1|by apply Hsort].
      + eapply (tc_lt_le_trans _ total_cmp_ord); [exact D2|]. rewrite <- P2 in E2.
        apply fleb_ord in E2; [done| |]; apply Hnan; auto. }
  assert (Hcnt : (bigger_max <? ss_count s) = false) by (unfold bigger_max in *; lia). rewrite Hcnt. cbn [andb].
  assert (Hwin : fleb f_025 (fsub (ss_max_relev s) (e_relev e)) = false).
  { destruct Hm as [->|(d & Hd & ->)]; [by apply Hw0|apply Hw; auto]. }
  rewrite Hwin.
  assert (Hcnt2 : (bigger_max <? (if ss_prev_id s =? e_id e then ss_count s else ss_count s + 1)) = false).
  { unfold bigger_max in *. destruct (_ =? _); lia. }
  rewrite Hcnt2, andb_false_r. eexists. split; [reflexivity|]. split.
  - split; cbn [ss_count ss_max_relev ss_prev_id ss_prev_scoredist ss_coalesced].
    + rewrite app_length. cbn [length]. destruct (_ =? _); lia.
    + destruct (fltb _ _); [right; exists e; auto|].
      destruct Hm as [Hm|(d & Hd & Hm)]; [by left|right; exists d; auto].
    + right. exists e. split; [done|]. split; [done|]. split; [done|]. apply coalesced_insert_here.
    + intros d Hd Hnz. apply elem_of_app in Hd as [Hd|Hd].
      * apply coalesced_insert_keep. by apply Ha.
      * apply elem_of_list_singleton in Hd as ->. apply coalesced_insert_here.
  - intros Hb Hnan Hkeyed Hsort d f Hd Hid. cbn [ss_coalesced]. unfold coalesced_insert. fold (e_id e).
    assert (Hrefl : forall a, ~ (ord_cmp (e_relev a) (e_relev a) <> Gt /\ ord_cmp (ce_scoredist a) (ce_scoredist a) = Lt)).
    { intros a [_ D]. by rewrite (tc_refl _ total_cmp_ord) in D. }
    destruct (ss_coalesced s !! e_id e) as [old|] eqn:Eo.
    + destruct (Hkeyed _ _ Eo) as [Hold Hoid].
      destruct (Hnan old ltac:(auto)) as [N1 N2]. destruct (Hnan e ltac:(auto)) as [N3 N4].
      destruct (fltb (ce_scoredist old) (ce_scoredist e) && fleb (ge_relev (ce_entry old)) (ge_relev (ce_entry e))) eqn:E.
      * apply andb_prop in E as [E2 E3]. apply fltb_ord in E2; [|done|done]. apply fleb_ord in E3; [|done|done].
        fold (e_relev old) (e_relev e) in E3.
        destruct (decide (e_id e = e_id d)) as [Hde|Hde].
        -- rewrite Hde, lookup_insert. intros [= <-]. apply elem_of_app in Hd as [Hd|Hd].
           2: { apply elem_of_list_singleton in Hd as ->. apply Hrefl. }
           intros [D1 D2]. apply (Hb d old Hd Hid); [by rewrite <- Hde|]. split.
           ++ eapply (tc_trans _ total_cmp_ord); eauto.
           ++ eapply (tc_lt_le_trans _ total_cmp_ord); [exact E2|]. by rewrite D2.
        -- rewrite lookup_insert_ne by done. intros Hf. apply elem_of_app in Hd as [Hd|Hd]; [by eapply Hb|].
           apply elem_of_list_singleton in Hd as ->. done.
      * intros Hf. apply elem_of_app in Hd as [Hd|Hd]; [by eapply Hb|].
        apply elem_of_list_singleton in Hd as ->. rewrite Eo in Hf. injection Hf as <-. intros [D1 D2].
        apply fltb_ord in D2; [|done|done]. apply fleb_ord in D1; [|done|done].
        unfold e_relev in D1. rewrite D1, D2 in E. done.
    + destruct (decide (e_id e = e_id d)) as [Hde|Hde].
      * rewrite Hde, lookup_insert. intros [= <-]. apply elem_of_app in Hd as [Hd|Hd].
        -- exfalso. destruct (Ha d Hd) as [x Hx]; [by left|]. rewrite <- Hde in Hx. congruence.
        -- apply elem_of_list_singleton in Hd as ->. apply Hrefl.
      * rewrite lookup_insert_ne by done. intros Hf. apply elem_of_app in Hd as [Hd|Hd]; [by eapply Hb|].
        apply elem_of_list_singleton in Hd as ->. done.
Qed.

Definition relev_desc (es : list coalesce_entry) : Prop :=
  StronglySorted (fun a b => ord_cmp (e_relev b) (e_relev a) <> Gt) es.
Lemma run_entries_inv hp es : forall done s,
  single_inv done s -> N.of_nat (length (done ++ es)) <= bigger_max -> in_window (done ++ es) ->
  (forall id f, ss_coalesced s !! id = Some f -> f ∈ done /\ id = e_id f) ->
  let s' := run_entries hp es s in
  single_inv (done ++ es) s' /\
  (best_inv done s -> (forall d, d ∈ done ++ es -> f_is_nan (e_relev d) = false /\ f_is_nan (ce_scoredist d) = false) ->
   relev_desc (done ++ es) -> best_inv (done ++ es) s').
Proof.
  induction es as [|e es IH]; intros done s Hi Hlen Hw Hk; cbn [run_entries].
  { rewrite app_nil_r. done. }
  assert (Happ : done ++ e :: es = (done ++ [e]) ++ es) by by rewrite <- app_assoc.
  rewrite Happ in *.
  destruct (single_body_inv hp done s e Hi) as (s1 & Es & Hi1 & Hb1).
  { rewrite app_length in Hlen. lia. }
  { destruct Hw as [Hw0 Hw]. split; intros.
    - apply Hw0. apply elem_of_app. by left.
    - apply Hw; apply elem_of_app; by left. }
  rewrite Es. destruct (IH (done ++ [e]) s1 Hi1 Hlen Hw) as [H1 H2].
  { intros id f Hf. destruct (single_body_from hp s e s1 (or_introl Es) _ _ Hf) as [Hf'|[-> ->]].
    - destruct (Hk _ _ Hf'). split; [apply elem_of_app; by left|done].
    - split; [apply elem_of_app; right; by apply elem_of_list_singleton|done]. }
  split; [done|]. intros Hb Hnan Hs. apply H2; [|done|done]. apply Hb1; [done| |done|].
  - intros d Hd. apply Hnan. apply elem_of_app. by left.
  - intros d Hd. unfold relev_desc in Hs. apply elem_of_list_lookup in Hd as [i Hi'].
    eapply (StronglySorted_lookup _ _ i (length done) d e Hs).
    + by apply lookup_lt_Some in Hi'.
    + rewrite lookup_app_l, lookup_app_l; [done| |]; apply lookup_lt_Some in Hi'; rewrite ?app_length; lia.
    + rewrite lookup_app_l by (rewrite app_length; cbn; lia). by apply list_lookup_middle.
Qed.
Lemma single_inv_init : single_inv [] single_init.
Proof.
  split; cbn; [lia|by left|by left|]. intros e He. by apply elem_of_nil in He.
Qed.

(** ** The whole single-layer call *)
Lemma take_N_length {A} (l : list A) : forall n, N.of_nat (length (take_N n l)) = N.min n (N.of_nat (length l)).
Proof.
  induction l as [|a l IH]; intros n; cbn [take_N]; [cbn; lia|].
  destruct (n =? 0) eqn:E; [cbn; lia|]. cbn [length]. specialize (IH (n - 1)). lia.
Qed.
Lemma take_N_sub {A} (l : list A) : forall n, take_N n l `sublist_of` l.
Proof.
  induction l as [|a l IH]; intros n; cbn [take_N]; [done|].
  destruct (n =? 0); [apply sublist_nil_l|by apply sublist_skip].
Qed.
Lemma take_N_all {A} (l : list A) : forall n, N.of_nat (length l) <= n -> take_N n l = l.
Proof.
  induction l as [|a l IH]; intros n Hn; cbn [take_N]; [done|]. cbn [length] in Hn.
  destruct (n =? 0) eqn:E; [lia|]. rewrite IH; [done|lia].
Qed.
Lemma elem_of_sublist {A} (x : A) l1 l2 : x ∈ l1 -> l1 `sublist_of` l2 -> x ∈ l2.
Proof. intros Hx Hs. eapply elem_of_submseteq; [exact Hx|by apply sublist_submseteq]. Qed.
Lemma NoDup_sublist {A} (l1 l2 : list A) : l1 `sublist_of` l2 -> NoDup l2 -> NoDup l1.
Proof.
  intros Hs. induction Hs as [|x l1 l2 Hs IH|x l1 l2 Hs IH]; intros Hn; [done| |].
  - apply NoDup_cons in Hn as [Hx Hn]. constructor; [|by apply IH]. intros Hin. apply Hx. by eapply elem_of_sublist.
  - apply NoDup_cons in Hn as [Hx Hn]. by apply IH.
Qed.
Lemma coalesce_filter_id mr cs : forall seen n,
  n + N.of_nat (length cs) <= max_contexts ->
  (forall d, d ∈ cs -> exists e es, cc_entries d = e :: es /\ ce_tmp_id e ∉ seen) ->
  (forall d, d ∈ cs -> fleb f_025 (fsub mr (cc_relev d)) = false) ->
  NoDup (map first_tmp cs) -> coalesce_filter mr seen n cs = cs.
Proof.
  induction cs as [|c cs IH]; intros seen n Hn Hne Hw Hd; cbn [coalesce_filter]; [done|].
  cbn [length] in Hn. destruct (max_contexts <=? n) eqn:E; [lia|]. rewrite (Hw c) by by left.
  destruct (Hne c ltac:(by left)) as (e & es & Ee & Hs). rewrite Ee.
  destruct (existsb _ seen) eqn:Ex.
  { apply existsb_exists in Ex as (t & Ht & Heq). apply N.eqb_eq in Heq as <-. by apply elem_of_list_In in Ht. }
  f_equal. change (map first_tmp (c :: cs)) with (first_tmp c :: map first_tmp cs) in Hd.
  apply NoDup_cons in Hd as [Hc Hd]. apply IH; [lia| |intros; apply Hw; by right|done].
  intros d Hin. destruct (Hne d ltac:(by right)) as (e' & es' & Ee' & Hs'). exists e', es'. split; [done|].
  apply not_elem_of_cons. split; [|done]. intros Heq. apply Hc. apply elem_of_map. exists d. split; [|done].
  unfold first_tmp. rewrite Ee, Ee'. cbn. by rewrite Heq.
Qed.

(** The contexts made from a map of entries. *)
Definition map_contexts (ho : hash_oracle) (m : gmap N coalesce_entry) : list coalesce_context :=
  map (fun ie : N * coalesce_entry => single_context ie.2) (hash_iter ho [3] m).
Lemma elem_of_map_contexts ho m c :
  c ∈ map_contexts ho m <-> exists id e, m !! id = Some e /\ c = single_context e.
Proof.
  unfold map_contexts. rewrite elem_of_map. unfold hash_iter. split.
  - intros ([id e] & -> & Hin). rewrite (ho_perm ho) in Hin. apply elem_of_map_to_list in Hin. eauto.
  - intros (id & e & Hm & ->). exists (id, e). split; [done|]. rewrite (ho_perm ho). by apply elem_of_map_to_list.
Qed.
Lemma map_contexts_length ho m : length (map_contexts ho m) = size m.
Proof.
  unfold map_contexts, hash_iter. rewrite List.map_length, (Permutation_length (ho_perm ho _ _ _)). reflexivity.
Qed.

Lemma map_contexts_nodup ho m base :
  (forall id e, m !! id = Some e -> ce_tmp_id e = base + id) -> NoDup (map first_tmp (map_contexts ho m)).
Proof.
  intros Hk. unfold map_contexts. rewrite List.map_map. cbn.
  assert (Hl : forall ie, ie ∈ hash_iter ho [3] m -> m !! ie.1 = Some ie.2).
  { intros [id e] Hin. unfold hash_iter in Hin. rewrite (ho_perm ho) in Hin. by apply elem_of_map_to_list in Hin. }
  assert (Hn : NoDup (map fst (hash_iter ho [3] m))).
  { unfold hash_iter. assert (Hp : map fst (Builder.ho ho [3] (N * coalesce_entry)%type (map_to_list m)) ≡ₚ map fst (map_to_list m)).
    { apply Permutation_map, ho_perm. }
    rewrite Hp. apply NoDup_fst_map_to_list. }
  induction (hash_iter ho [3] m) as [|[id e] l IH]; [constructor|].
  change (map fst ((id, e) :: l)) with (id :: map fst l) in Hn. apply NoDup_cons in Hn as [Hid Hn].
  change (map ?f ((id, e) :: l)) with (f (id, e) :: map f l). constructor.
  - intros Hin. apply elem_of_map in Hin as ([id' e'] & Heq & Hin). apply Hid. apply elem_of_map.
    exists (id', e'). split; [|done]. cbn in *. unfold first_tmp in Heq. cbn in Heq.
    pose proof (Hk _ _ (Hl (id, e) ltac:(by left))) as H1. pose proof (Hk _ _ (Hl (id', e') ltac:(by right))) as H2.
    cbn in H1, H2. injection Heq as Heq. lia.
  - apply IH; [|done]. intros ie Hie. apply Hl. by right.
Qed.

Definition single_pre (ho : hash_oracle) (o : match_opts) (es : list coalesce_entry) : list coalesce_context :=
  take_N max_contexts (isort (desc_by single_cmp)
    (map_contexts ho (ss_coalesced (run_entries (has_prox o) es single_init)))).
Lemma coalesce_one p ho mtb tb sq o cs :
  coalesce p ho mtb tb [sq] o = Ok cs ->
  exists k ks out pre suf es, sq_keys sq = k :: ks /\
    streaming_get_matching p mtb tb (sq_store sq) (mki_key k) o bigger_max = Ok out /\ out = pre ++ suf /\
    Forall2 (fun g e => grid_to_coalesce_entry p g sq o 0 = Ok e) pre es /\
    cs = match single_pre ho o es with [] => [] | c :: _ => coalesce_filter (cc_relev c) [] 0 (single_pre ho o es) end.
Proof.
  unfold coalesce, coalesce_single. intros H. apply bind_Ok in H as (cs0 & H0 & H).
  apply bind_Ok in H0 as (k & Hk & H0). apply bind_Ok in H0 as (out & Hout & H0).
  apply bind_Ok in H0 as (s & Hs & H0). injection H0 as <-.
  apply single_loop_run in Hs as (pre & suf & es & -> & HF & ->).
  unfold first_key in Hk. destruct (sq_keys sq) as [|k' ks] eqn:Ek; [done|]. injection Hk as ->.
  exists k, ks, (pre ++ suf), pre, suf, es. split; [done|]. split; [done|]. split; [done|]. split; [done|].
  unfold single_pre, map_contexts. destruct (take_N _ _) eqn:E; by injection H as <-.
Qed.
Lemma coalesce_one_ok p ho mtb tb sq o k ks out es :
  sq_keys sq = k :: ks -> streaming_get_matching p mtb tb (sq_store sq) (mki_key k) o bigger_max = Ok out ->
  Forall2 (fun g e => grid_to_coalesce_entry p g sq o 0 = Ok e) out es ->
  coalesce p ho mtb tb [sq] o =
    Ok match single_pre ho o es with [] => [] | c :: _ => coalesce_filter (cc_relev c) [] 0 (single_pre ho o es) end.
Proof.
  intros Hk Hout HF. unfold coalesce, coalesce_single, first_key. rewrite Hk. cbn [res_bind]. rewrite Hout. cbn [res_bind].
  rewrite (single_loop_ok p sq o 0 out es single_init HF). cbn [res_bind].
  unfold single_pre, map_contexts. by destruct (take_N _ _).
Qed.
Lemma convert_all p sq o pid out :
  mo_zoom o = st_zoom (sq_store sq) -> (forall g, g ∈ out -> ge_id (me_entry g) < 2 ^ 25) ->
  exists es, Forall2 (fun g e => grid_to_coalesce_entry p g sq o pid = Ok e) out es.
Proof.
  intros Hz. induction out as [|g out IH]; intros Hid; [exists []; constructor|].
  destruct IH as [es HF]; [intros; apply Hid; by right|].
  destruct (to_entry_ok p g sq o pid Hz (Hid g ltac:(by left))) as (e & He & _). exists (e :: es). by constructor.
Qed.
