(** Invariants of tree_coalesce. *)
From Verif Require Import Prelude Lists F64 Heap Common Builder Store Query Spatial Coalesce Stackable Tree.
From Verif Require Import Cmp_proofs Queue_proofs Coalesce_proofs Multi_proofs Spec_coalesce Spec_stack Spec_tree Spec_quota Quota_proofs.
Local Open Scope N_scope.

Lemma descends_snoc get n chain m i c pm :
  descends get n chain m -> i ∈ sn_children m -> get i = Some c -> sn_pm c = Some pm ->
  descends get n (chain ++ [pm]) c.
Proof.
  intros Hd Hi Hc Hpm. induction Hd as [n|n j d pm' rest m Hj Hd Hp H IH]; cbn [app].
  - econstructor; [exact Hi|exact Hc|exact Hpm|constructor].
  - econstructor; [exact Hj|exact Hd|exact Hp|by apply IH].
Qed.

Lemma index_Ok {A} (l : list A) i a : index l i = Ok a -> l !! i = Some a.
Proof. unfold index. destruct (l !! i); [by intros [= ->]|done]. Qed.

Lemma combine_seq_elem {A} (l : list A) n i a :
  (i, a) ∈ combine (seq n (length l)) l <-> exists j, i = (n + j)%nat /\ l !! j = Some a.
Proof.
  revert n. induction l as [|b l IH]; intros n; cbn [length seq combine].
  - split; [intros H; by apply elem_of_nil in H|intros (j & _ & Hj); by rewrite lookup_nil in Hj].
  - rewrite elem_of_cons, IH. split.
    + intros [[= -> ->]|(j & -> & Hj)]; [exists 0%nat; split; [lia|done]|exists (S j); split; [lia|done]].
    + intros ([|j] & -> & Hj); cbn in Hj.
      * injection Hj as ->. left. f_equal. lia.
      * right. exists j. split; [lia|done].
Qed.
Lemma combine_seq_snd {A} (l : list A) n : map snd (combine (seq n (length l)) l) = l.
Proof. revert n. induction l as [|a l IH]; intros n; cbn [length seq combine map snd]; [done|]. by rewrite IH. Qed.

(** ** Queues *)
Section queue.
  Context (tb : tiebreak).
  Notation holds := (cpq_holds ctx_cmp).
  Lemma push_all_holds n l l' q : holds n l q -> holds n (l ++ l') (cpq_push_all tb q l').
  Proof. apply (cpq_pushes_hold ctx_cmp total_cmp_ctx tb). Qed.
  Lemma push_all_app q l1 l2 : cpq_push_all tb q (l1 ++ l2) = cpq_push_all tb (cpq_push_all tb q l1) l2.
  Proof. unfold cpq_push_all. by rewrite foldl_app. Qed.
  Lemma holds_perm n l l' q : l ≡ₚ l' -> holds n l q -> holds n l' q.
  Proof.
    intros Hp (Hn & dropped & H1 & H2 & H3). split; [done|]. exists dropped. split; [by rewrite <- Hp|].
    split; [by rewrite <- (Permutation_length Hp)|done].
  Qed.
  Lemma holds_in n l q c : holds n l q -> c ∈ hp_items (cpq_heap q) -> c ∈ l.
  Proof. intros (_ & dropped & Hp & _) Hc. rewrite Hp. apply elem_of_app. by left. Qed.
  Lemma cpq_iter_perm ho_ site q : cpq_iter ho_ site q ≡ₚ hp_items (cpq_heap q).
  Proof. apply (ho_perm ho_). Qed.
End queue.

(** The best relevance of some contexts. *)
Definition rmax (r : f64) (cs : list coalesce_context) : f64 :=
  foldl (fun r c => if fltb r (cc_relev c) then cc_relev c else r) r cs.
Lemma rmax_app r l1 l2 : rmax r (l1 ++ l2) = rmax (rmax r l1) l2.
Proof. apply foldl_app. Qed.
Lemma fltb_nan a b : fltb a b = true -> f_is_nan a = false /\ f_is_nan b = false.
Proof. unfold fltb, SFltb, SFcompare. by destruct a, b. Qed.
Lemma fltb_below a b c : fltb a b = true -> fltb a c = false -> fltb b c = false.
Proof.
  intros Hab Hac. destruct (fltb b c) eqn:E; [|done]. rewrite <- Hac. symmetry.
  destruct (fltb_nan _ _ Hab) as [Ha Hb]. destruct (fltb_nan _ _ E) as [_ Hc].
  apply fltb_ord in Hab; [|done|done]. apply fltb_ord in E; [|done|done]. apply fltb_ord; [done|done|].
  assert (Hgt : ord_cmp a c <> Gt).
  { eapply (tc_trans _ total_cmp_ord); [by rewrite Hab|by rewrite E]. }
  destruct (ord_cmp a c) eqn:Eac; [|done|done]. exfalso.
  assert (Hca : ord_cmp c a <> Gt) by (rewrite (tc_anti _ total_cmp_ord), Eac; done).
  pose proof (tc_trans _ total_cmp_ord b c a ltac:(by rewrite E) Hca) as H. by rewrite (tc_anti _ total_cmp_ord), Hab in H.
Qed.
Lemma rmax_mono cs : forall r x, fltb r x = false -> fltb (rmax r cs) x = false.
Proof.
  induction cs as [|c cs IH]; intros r x H; cbn [rmax foldl]; [done|]. apply IH.
  destruct (fltb r (cc_relev c)) eqn:E; [by eapply fltb_below|done].
Qed.
Lemma rmax_above cs : forall r c, c ∈ cs -> fltb (rmax r cs) (cc_relev c) = false.
Proof.
  induction cs as [|d cs IH]; intros r c Hc; [by apply elem_of_nil in Hc|].
  cbn [rmax foldl]. apply elem_of_cons in Hc as [->|Hc]; [|by apply IH]. apply rmax_mono.
  destruct (fltb r (cc_relev d)) eqn:E; [|done]. destruct (fltb (cc_relev d) (cc_relev d)) eqn:E2; [|done].
  destruct (fltb_nan _ _ E2) as [_ Hn]. apply fltb_ord in E2; [|done|done]. by rewrite (tc_refl _ total_cmp_ord) in E2.
Qed.

(** ** Phase 2: stacking *)
Section stack.
  Context (p : profile) (ho_ : hash_oracle) (tb : tiebreak) (st : tstep).
  Let sq := tp_sq st.
  Let zoom := st_zoom (sq_store sq).

  (** The context made from an entry and a parent context, and the ones made from one
      grid. *)
  Definition grow (e : coalesce_entry) (parent : coalesce_context) : coalesce_context :=
    CoalesceContext (N.lor (cc_mask parent) (sq_mask sq)) (fadd (cc_relev parent) (ge_relev (ce_entry e)))
      (e :: cc_entries parent).
  Definition at_cell (x y : N) (c : coalesce_context) : bool :=
    match ctx_cell c with Some (x', y') => (x =? x') && (y =? y') | None => false end.
  Definition base_context (e : coalesce_entry) : coalesce_context :=
    CoalesceContext (sq_mask sq) (ge_relev (ce_entry e)) [e].
  (** What is made from one entry. *)
  Definition grown (scale : N) (g : match_entry) (e : coalesce_entry) : list coalesce_context :=
    match tp_prev st with
    | Some prev => map (grow e) (List.filter (at_cell (ge_x (me_entry g) / scale) (ge_y (me_entry g) / scale)) prev)
    | None => [base_context e]
    end.
  (** Whether the contexts are kept for the children. *)
  Definition keeps : bool := match tp_prev st with Some _ => negb (is_leaf (tp_node st)) | None => true end.

  Lemma bush_exact_contexts site prev x y : exists is,
    bush_exact ho_ site prev x y = is /\
    (forall i, i ∈ is -> exists c, prev !! i = Some c) /\
    map (fun i => default (CoalesceContext 0 f_zero []) (prev !! i)) is ≡ₚ List.filter (at_cell x y) prev.
  Proof.
    exists (bush_exact ho_ site prev x y). split; [done|]. unfold bush_exact. split.
    - intros i Hi. rewrite (ho_perm ho_) in Hi. apply elem_of_filter in Hi as [Hi _].
      apply elem_of_seq in Hi. apply lookup_lt_is_Some. lia.
    - etransitivity; [apply Permutation_map, (ho_perm ho_)|].
      assert (H : forall l pre, 
        map (fun i => default (CoalesceContext 0 f_zero []) ((pre ++ l) !! i))
          (List.filter (fun i => match (pre ++ l) !! i ≫= ctx_cell with
             | Some (x', y') => (x =? x') && (y =? y') | None => false end) (seq (length pre) (length l))) =
        List.filter (at_cell x y) l).
      { induction l as [|c l IH]; intros pre; cbn [length seq List.filter map]; [done|].
        rewrite list_lookup_middle by done. cbn [mbind option_bind]. fold (at_cell x y c).
        specialize (IH (pre ++ [c])). rewrite app_length in IH. cbn [length] in IH.
        rewrite <- app_assoc in IH. cbn [app] in IH. replace (length pre + 1)%nat with (S (length pre)) in IH by lia.
        rewrite <- IH. destruct (at_cell x y c); cbn [map]; [|done].
        f_equal. by rewrite list_lookup_middle. }
      specialize (H prev []). cbn [app length] in H. by rewrite H.
  Qed.

  Lemma stack_on_fold e prev is : forall a a',
    (forall i, i ∈ is -> exists c, prev !! i = Some c) ->
    res_foldl (stack_on tb st e prev) a is = Ok a' ->
    let cs := map (fun i => grow e (default (CoalesceContext 0 f_zero []) (prev !! i))) is in
    sa_queue a' = cpq_push_all tb (sa_queue a) (map penalize cs) /\
    sa_state a' = sa_state a ++ (if is_leaf (tp_node st) then [] else cs) /\ sa_relev a' = rmax (sa_relev a) cs.
  Proof.
    induction is as [|i is IH]; intros a a' Hin H cs; cbn [res_foldl] in H.
    - injection H as <-. cbn. split; [done|]. split; [|done]. by destruct (is_leaf _); rewrite app_nil_r.
    - apply bind_Ok in H as (a1 & H1 & H2). unfold stack_on in H1.
      apply bind_Ok in H1 as (parent & Hpar & H1). apply index_Ok in Hpar.
      destruct (IH a1 a' ltac:(intros; apply Hin; by right) H2) as (Q & S & R). clear IH H2. injection H1 as <-.
      cbn [sa_queue sa_state sa_relev] in Q, S, R. subst cs. cbn [map]. rewrite Hpar. cbn [default from_option].
      split; [|split].
      + rewrite Q. done.
      + rewrite S. destruct (is_leaf _); [done|]. by rewrite <- app_assoc.
      + rewrite R. done.
  Qed.

  Lemma stack_grid_eq site scale key_id a gi g a' :
    stack_grid p ho_ tb site st scale key_id a (gi, g) = Ok a' ->
    exists e cs, grid_to_coalesce_entry p g sq (tp_opts st) key_id = Ok e /\
      cs ≡ₚ grown scale g e /\
      sa_queue a' = cpq_push_all tb (sa_queue a) (map penalize cs) /\
      sa_state a' = sa_state a ++ (if keeps then cs else []) /\ sa_relev a' = rmax (sa_relev a) cs.
  Proof.
    unfold stack_grid. intros H. apply bind_Ok in H as (e & He & H). exists e. unfold grown, keeps.
    destruct (tp_prev st) as [prev|].
    - destruct (bush_exact_contexts (7 :: N.of_nat gi :: site) prev (ge_x (me_entry g) / scale) (ge_y (me_entry g) / scale))
        as (is & Eis & Hin & Hp). rewrite Eis in H.
      destruct (stack_on_fold e prev is a a' Hin H) as (Q & S & R).
      eexists. split; [exact He|]. split; [|split; [exact Q|split; [|exact R]]].
      + rewrite <- Hp, List.map_map. done.
      + rewrite S. by destruct (is_leaf _).
    - injection H as <-. exists [base_context e]. split; [exact He|]. split; [done|]. split; [done|]. split; done.
  Qed.

  (** One key: the contexts made from its matches, in some order. *)
  Definition key_made (scale : N) (key_id : N) (grids : list match_entry) (cs : list coalesce_context) : Prop :=
    exists es css, Forall2 (fun g e => grid_to_coalesce_entry p g sq (tp_opts st) key_id = Ok e) grids es /\
      Forall2 (fun ge cs => cs ≡ₚ grown scale ge.1 ge.2) (combine grids es) css /\ cs = mjoin css.

  Lemma stack_grids_eq site scale key_id igs : forall a a',
    res_foldl (stack_grid p ho_ tb site st scale key_id) a igs = Ok a' ->
    exists cs, key_made scale key_id (map snd igs) cs /\
      sa_queue a' = cpq_push_all tb (sa_queue a) (map penalize cs) /\
      sa_state a' = sa_state a ++ (if keeps then cs else []) /\ sa_relev a' = rmax (sa_relev a) cs.
  Proof.
    induction igs as [|[gi g] igs IH]; intros a a' H; cbn [res_foldl map snd] in *.
    - injection H as <-. exists []. split; [exists [], []; repeat split; constructor|]. split; [done|].
      split; [|done]. by destruct keeps; rewrite app_nil_r.
    - apply bind_Ok in H as (a1 & H1 & H2). destruct (stack_grid_eq _ _ _ _ _ _ _ H1) as (e & cs1 & He & Hc1 & Q1 & S1 & R1).
      destruct (IH _ _ H2) as (cs2 & (es & css & F1 & F2 & ->) & Q2 & S2 & R2).
      exists (cs1 ++ mjoin css). split; [exists (e :: es), (cs1 :: css); split; [by constructor|]; split; [by constructor|done]|].
      split; [by rewrite Q2, Q1, List.map_app, push_all_app|]. split; [|by rewrite R2, R1, rmax_app]. rewrite S2, S1, <- app_assoc. by destruct keeps.
  Qed.

  Lemma key_made_elem scale key_id grids cs c :
    key_made scale key_id grids cs ->
    (c ∈ cs <-> exists g e, g ∈ grids /\ grid_to_coalesce_entry p g sq (tp_opts st) key_id = Ok e /\ c ∈ grown scale g e).
  Proof.
    intros (es & css & F1 & F2 & ->). revert css F2. induction F1 as [|g e grids es He F1 IH]; intros css F2.
    - cbn [combine] in F2. inversion F2. subst. cbn. split; [intros H; by apply elem_of_nil in H|].
      intros (g & e & Hg & _). by apply elem_of_nil in Hg.
    - cbn [combine] in F2. inversion F2 as [|x cs1 y css' Hc1 F2' E1 E2]. subst. cbn [fst snd] in Hc1.
      change (mjoin (cs1 :: css')) with (cs1 ++ mjoin css'). rewrite elem_of_app, (IH _ F2'), Hc1. split.
      + intros [H|(g' & e' & Hg & He' & Hc)]; [exists g, e; split; [by left|done]|exists g', e'; split; [by right|done]].
      + intros (g' & e' & Hg & He' & Hc). apply elem_of_cons in Hg as [->|Hg].
        * left. assert (e' = e) by congruence. by subst.
        * right. eauto.
  Qed.

  (** All keys: per key the contexts made and the queue they went through. *)
  Definition keys_made (scale : N) (cache : gmap N (list match_entry)) (ks : list match_key_id)
      (css : list (list coalesce_context)) : Prop :=
    Forall2 (fun k cs => match cache !! mki_id k with
                         | Some grids => key_made scale (mki_id k) grids cs
                         | None => cs = [] end) ks css.
  Definition best_40 (l out : list coalesce_context) : Prop :=
    exists q, cpq_holds ctx_cmp max_contexts l q /\ out ≡ₚ hp_items (cpq_heap q).
  Lemma best_40_nil : best_40 [] [].
  Proof. exists (cpq_new max_contexts). split; [apply cpq_new_holds|done]. Qed.

  Lemma stack_keys_eq site cache scale iks : forall relev out state relev' out' state',
    res_foldl (stack_key p ho_ tb site cache st scale) (relev, out, state) iks = Ok (relev', out', state') ->
    exists css outs, keys_made scale cache (map snd iks) css /\
      Forall2 (fun cs out => best_40 (map penalize cs) out) css outs /\
      out' = out ++ mjoin outs /\ state' = state ++ (if keeps then mjoin css else []) /\ relev' = rmax relev (mjoin css).
  Proof.
    induction iks as [|[ki k] iks IH]; intros relev out state relev' out' state' H; cbn [res_foldl map snd] in *.
    - injection H as <- <- <-. exists [], []. split; [constructor|]. split; [constructor|]. cbn.
      rewrite app_nil_r. split; [done|]. split; [|done]. by destruct keeps; rewrite app_nil_r.
    - apply bind_Ok in H as ([[r1 o1] s1] & H1 & H2). unfold stack_key in H1.
      destruct (IH _ _ _ _ _ _ H2) as (css & outs & K & F & -> & -> & ->). clear IH H2.
      destruct (cache !! mki_id k) as [grids|] eqn:Ec.
      + apply bind_Ok in H1 as (acc & H1 & H). injection H as <- <- <-.
        apply stack_grids_eq in H1 as (cs & Hcs & Q & S & R). rewrite combine_seq_snd in Hcs. cbn [sa_queue sa_state sa_relev] in Q, S, R.
        exists (cs :: css), (cpq_iter ho_ (8 :: N.of_nat ki :: site) (sa_queue acc) :: outs).
        split; [constructor; [by rewrite Ec|done]|]. split.
        { constructor; [|done]. exists (sa_queue acc). split; [|apply cpq_iter_perm].
          rewrite Q. apply (push_all_holds tb max_contexts [] (map penalize cs)). apply cpq_new_holds. }
        change (mjoin (?a :: ?b)) with (a ++ mjoin b). rewrite !app_assoc. split; [done|].
        split; [rewrite S, <- app_assoc; by destruct keeps|]. by rewrite R, rmax_app.
      + injection H1 as <- <- <-. exists ([] :: css), ([] :: outs). split; [constructor; [by rewrite Ec|done]|].
        split; [constructor; [apply best_40_nil|done]|]. split; [done|]. split; done.
  Qed.

  Lemma keys_made_elem scale cache ks css c : keys_made scale cache ks css ->
    (c ∈ mjoin css <-> exists k grids g e, k ∈ ks /\ cache !! mki_id k = Some grids /\ g ∈ grids /\
       grid_to_coalesce_entry p g sq (tp_opts st) (mki_id k) = Ok e /\ c ∈ grown scale g e).
  Proof.
    intros H. induction H as [|k cs ks css Hk H IH].
    - cbn. split; [intros H; by apply elem_of_nil in H|]. intros (k & _ & _ & _ & Hk & _). by apply elem_of_nil in Hk.
    - change (mjoin (cs :: css)) with (cs ++ mjoin css). rewrite elem_of_app, IH. split.
      + intros [Hc|(k' & grids & g & e & H1 & H2)].
        * destruct (cache !! mki_id k) as [grids|] eqn:Ec; [|subst cs; by apply elem_of_nil in Hc].
          apply (key_made_elem _ _ _ _ _ Hk) in Hc as (g & e & Hg & He & Hc). exists k, grids, g, e. split; [by left|done].
        * exists k', grids, g, e. split; [by right|done].
      + intros (k' & grids & g & e & H1 & H2 & H3 & H4). apply elem_of_cons in H1 as [->|H1].
        * left. rewrite H2 in Hk. apply (key_made_elem _ _ _ _ _ Hk). eauto.
        * right. exists k', grids, g, e. done.
  Qed.

  Lemma best_40_in l out c : best_40 l out -> c ∈ out -> c ∈ l.
  Proof. intros (q & Hq & Hp) Hc. rewrite Hp in Hc. by eapply holds_in. Qed.
End stack.

(** ** Steps *)
Section steps.
  Context (p : profile) (ho_ : hash_oracle) (mtb : merge_tb) (tb : tiebreak) (t : tree) (o : match_opts).

  (** A step made for a node. *)
  Record step_for (n : node) (prev : option (list coalesce_context)) (pz : N) (s : tstep) : Prop := {
    sf_node : tp_node s = n;
    sf_pm : sn_pm n = Some (tp_sq s);
    sf_prev : tp_prev s = prev;
    sf_zoom : tp_prev_zoom s = pz;
    sf_opts : adjust_to_zoom p o (st_zoom (sq_store (tp_sq s))) = Ok (tp_opts s);
    sf_possible : forall cs, prev = Some cs -> exists r, tp_possible s = fadd r (sq_weight (tp_sq s)) /\
      forall c, c ∈ cs -> fltb r (cc_relev c) = false }.
  Lemma make_step_ok n prev pz possible s :
    (forall cs sq, prev = Some cs -> sn_pm n = Some sq -> exists r, possible = fadd r (sq_weight sq) /\
      forall c, c ∈ cs -> fltb r (cc_relev c) = false) ->
    make_step p n prev pz o possible = Ok s -> step_for n prev pz s.
  Proof.
    intros Hr. unfold make_step. destruct (sn_pm n) as [sq|] eqn:E; [|done]. intros H. apply bind_Ok in H as (o' & Ho & H).
    injection H as <-. split; cbn [tp_node tp_sq tp_prev tp_prev_zoom tp_opts tp_possible]; try done; [|intros cs Hcs; by apply (Hr cs sq)].
    destruct (mo_zoom o =? st_zoom (sq_store sq)) eqn:Ez; [|done]. injection Ho as <-.
    apply N.eqb_eq in Ez. by rewrite <- Ez, adjust_self.
  Qed.

  (** The steps for the children of a node: for a part of the children, in order. *)
  Definition box_hits (state : list coalesce_context) (zoom : N) (csq : subquery) : Prop :=
    forall boxes, (if st_zoom (sq_store csq) =? zoom then Ok (st_bboxes (sq_store csq))
       else res_mapM (fun b => adjust_bbox_zoom p b (st_zoom (sq_store csq)) zoom) (st_bboxes (sq_store csq))) = Ok boxes ->
    existsb (bush_any state) boxes = true.
  Definition steps_for (prev : option (list coalesce_context)) (pz : N) (kids : list N) (sel : list (N * tstep)) : Prop :=
    map fst sel `sublist_of` kids /\
    (forall i s, (i, s) ∈ sel -> exists n, tree_get t i = Some n /\ step_for n prev pz s).
  Lemma child_steps_ok state zoom relev kids : (forall c, c ∈ state -> fltb relev (cc_relev c) = false) -> forall acc next,
    res_foldl (child_step p t o state zoom relev) acc kids = Ok next ->
    exists sel, next = acc ++ map snd sel /\ steps_for (Some state) zoom kids sel /\
      (forall i n csq, i ∈ kids -> tree_get t i = Some n -> sn_pm n = Some csq -> box_hits state zoom csq ->
         exists s, (i, s) ∈ sel).
  Proof.
    intros Hrel. induction kids as [|i kids IH]; intros acc next H; cbn [res_foldl] in H.
    - injection H as <-. exists []. rewrite app_nil_r. split; [done|]. split; [split; [done|]|].
      + intros i s Hs. by apply elem_of_nil in Hs.
      + intros i n csq Hi. by apply elem_of_nil in Hi.
    - apply bind_Ok in H as (acc1 & H1 & H2). destruct (IH _ _ H2) as (sel & -> & [Hs1 Hs2] & Hc). clear IH H2.
      assert (Hskip : acc1 = acc ->
        (forall n csq, tree_get t i = Some n -> sn_pm n = Some csq -> ~ box_hits state zoom csq) ->
        exists sel0, acc1 ++ map snd sel = acc ++ map snd sel0 /\ steps_for (Some state) zoom (i :: kids) sel0 /\
        (forall j n csq, j ∈ i :: kids -> tree_get t j = Some n -> sn_pm n = Some csq -> box_hits state zoom csq ->
         exists s, (j, s) ∈ sel0)).
      { intros -> Hno. exists sel. split; [done|]. split; [split; [by apply sublist_cons|done]|].
        intros j n csq Hj Hn Hpm Hb. apply elem_of_cons in Hj as [->|Hj]; [by destruct (Hno _ _ Hn Hpm)|by eapply Hc]. }
      unfold child_step in H1. destruct (tree_get t i) as [n|] eqn:Ei; [|injection H1 as <-; by apply Hskip].
      destruct (sn_pm n) as [csq|] eqn:En; [|done].
      apply bind_Ok in H1 as (boxes & Hb & H1).
      destruct (existsb (bush_any state) boxes) eqn:Eb.
      + apply bind_Ok in H1 as (s & Hs & H1). injection H1 as <-. apply make_step_ok in Hs; [|intros cs sq [= <-] Hsq; exists relev; split; [congruence|done]].
        exists ((i, s) :: sel). cbn [map snd]. rewrite <- app_assoc. split; [done|]. split; [split|].
        * cbn [map fst]. by apply sublist_skip.
        * intros j s' Hj. apply elem_of_cons in Hj as [[= -> ->]|Hj]; [eauto|by apply Hs2].
        * intros j n' csq' Hj Hn Hpm Hh. apply elem_of_cons in Hj as [->|Hj]; [exists s; by left|].
          destruct (Hc _ _ _ Hj Hn Hpm Hh) as [s' Hs']. exists s'. by right.
      + injection H1 as <-. apply Hskip; [done|]. intros n' csq' [= <-] Hpm Hh. assert (csq' = csq) by congruence. subst csq'.
        rewrite (Hh boxes Hb) in Eb. done.
  Qed.

  Lemma first_steps_ok kids : forall h h',
    res_foldl (first_step p t o) h kids = Ok h' ->
    exists sel, hp_items h' = hp_items h ++ map snd sel /\ steps_for None 0 kids sel /\
      (forall i n, i ∈ kids -> tree_get t i = Some n -> exists s, (i, s) ∈ sel).
  Proof.
    induction kids as [|i kids IH]; intros h h' H; cbn [res_foldl] in H.
    - injection H as <-. exists []. rewrite app_nil_r. split; [done|]. split; [split; [done|]|].
      + intros i s Hs. by apply elem_of_nil in Hs.
      + intros i n Hi. by apply elem_of_nil in Hi.
    - apply bind_Ok in H as (h1 & H1 & H2). destruct (IH _ _ H2) as (sel & E & [Hs1 Hs2] & Hc). clear IH H2.
      unfold first_step in H1. destruct (tree_get t i) as [n|] eqn:Ei.
      + destruct (sn_pm n) as [csq|] eqn:En; [|done]. apply bind_Ok in H1 as (s & Hs & H1). injection H1 as <-.
        apply make_step_ok in Hs; [|done]. exists ((i, s) :: sel). rewrite E. cbn [hp_push hp_items map snd]. rewrite <- app_assoc.
        split; [done|]. split; [split|].
        * cbn [map fst]. by apply sublist_skip.
        * intros j s' Hj. apply elem_of_cons in Hj as [[= -> ->]|Hj]; [eauto|by apply Hs2].
        * intros j n' Hj Hn. apply elem_of_cons in Hj as [->|Hj]; [exists s; by left|].
          destruct (Hc _ _ Hj Hn) as [s' Hs']. exists s'. by right.
      + injection H1 as <-. exists sel. split; [done|]. split; [split; [by apply sublist_cons|done]|].
        intros j n Hj Hn. apply elem_of_cons in Hj as [->|Hj]; [congruence|by eapply Hc].
  Qed.

  (** Phase 2 for one step. *)
  Record ran (cache : gmap N (list match_entry)) (st : tstep) (out : list coalesce_context) (next : list tstep)
      (scale : N) (css : list (list coalesce_context)) (sel : list (N * tstep)) : Prop := {
    rn_scale : (let* d := usub p 16 (st_zoom (sq_store (tp_sq st))) (tp_prev_zoom st) in ushl p 16 1 d) = Ok scale;
    rn_made : keys_made p st scale cache (sq_keys (tp_sq st)) css;
    rn_out : exists outs, Forall2 (fun cs out => best_40 (map penalize cs) out) css outs /\ out = mjoin outs;
    rn_next : next = map snd sel;
    rn_steps : steps_for (Some (mjoin css)) (st_zoom (sq_store (tp_sq st))) (sn_children (tp_node st)) sel;
    rn_all : mjoin css <> [] ->
      forall i n csq, i ∈ sn_children (tp_node st) -> tree_get t i = Some n -> sn_pm n = Some csq ->
        box_hits (mjoin css) (st_zoom (sq_store (tp_sq st))) csq -> exists s, (i, s) ∈ sel }.

  Lemma run_step_ok cache site st out next :
    run_step p ho_ tb t o cache site st = Ok (out, next) ->
    exists scale css sel, ran cache st out next scale css sel.
  Proof.
    unfold run_step. intros H. apply bind_Ok in H as (d & Hd & H). apply bind_Ok in H as (scale & Hs & H).
    apply bind_Ok in H as ([[relev out1] state] & Hk & H).
    apply stack_keys_eq in Hk as (css & outs & K & F & E1 & E2 & E3). rewrite combine_seq_snd in K. cbn [app] in E1, E2.
    exists scale, css.
    assert (Hscale : (let* d := usub p 16 (st_zoom (sq_store (tp_sq st))) (tp_prev_zoom st) in ushl p 16 1 d) = Ok scale)
      by (rewrite Hd; exact Hs).
    assert (Hnone : sn_children (tp_node st) = [] \/ mjoin css = [] -> out = out1 -> next = [] ->
      exists sel, ran cache st out next scale css sel).
    { intros Hn -> ->. exists []. split; [done|done|by exists outs|done|split; [apply sublist_nil_l|]|].
      - intros i s Hi. by apply elem_of_nil in Hi.
      - intros Hne i n csq Hi. destruct Hn as [Hn|Hn]; [|done]. rewrite Hn in Hi. by apply elem_of_nil in Hi. }
    unfold keeps in E2. destruct state as [|c0 state].
    - injection H as <- <-. apply Hnone; [|done|done].
      destruct (tp_prev st); [|by right]. unfold is_leaf in E2.
      destruct (sn_children (tp_node st)); [by left|by right].
    - cbn beta iota in H. apply bind_Ok in H as (next' & Hn & H). injection H as <- <-.
      assert (E : c0 :: state = mjoin css).
      { destruct (tp_prev st); [|done]. by destruct (is_leaf (tp_node st)). }
      rewrite E in Hn. apply child_steps_ok in Hn as (sel & -> & S1 & S2); [|intros c; rewrite E3; apply rmax_above]. exists sel.
      split; [done|done|by exists outs|done|done|]. intros _. exact S2.
  Qed.

  (** ** Gathering a chunk *)
  (** What is fetched for a key of a step. *)
  Definition fetches (st : tstep) (k : match_key_id) (kf : kfetch) : Prop :=
    k ∈ sq_keys (tp_sq st) /\ kf_id kf = mki_id k /\ kf_sq kf = tp_sq st /\ kf_key kf = mki_key k /\
    kf_single kf = is_single st /\
    (if mki_nearby k then with_nearby_only p (tp_opts st) else Ok (tp_opts st)) = Ok (kf_opts kf).
  Lemma key_known_true u id b : key_known u id b = true <-> (id, b) ∈ u.
  Proof.
    unfold key_known. rewrite existsb_exists. split.
    - intros ([id' b'] & Hin & H). cbn [fst snd] in H. apply andb_prop in H as [H1 H2].
      apply N.eqb_eq in H1. apply eqb_prop in H2. subst. by apply elem_of_list_In.
    - intros H. exists (id, b). split; [by apply elem_of_list_In|]. cbn [fst snd]. by rewrite N.eqb_refl, eqb_reflx.
  Qed.

  Section gather_keys.
    Context (cache : gmap N (list match_entry)).
    Definition keyed (keys : list kfetch) (uniq : list (N * bool)) : Prop :=
      NoDup (map (fun kf => (kf_id kf, kf_single kf)) keys) /\
      forall id b, (id, b) ∈ uniq <-> exists kf, kf ∈ keys /\ kf_id kf = id /\ kf_single kf = b.
    (** Why a key is not fetched: passed over, or a quota that applies to it is used up. *)
    Definition refused (best : f64) (q : quotas) (st : tstep) (pre : list match_key_id) (k : match_key_id) : Prop :=
      passed_over best st k \/
      exists c, under_quota c (tp_sq st) k = true /\ quota_limit c <= q_get c q + tally c (tp_sq st) pre.
    Definition fetched_now (st : tstep) (ks : list match_key_id) (new : list kfetch) : Prop :=
      Forall2 (fetches st) ks new.
    Lemma tally_cons c pm k ks : tally c pm (k :: ks) = one (under_quota c pm k) + tally c pm ks.
    Proof. unfold tally. cbn [List.filter]. destruct (under_quota c pm k); cbn [length one]; lia. Qed.
    Lemma gather_keys_ok best st ks : forall keys uniq q enq keys' uniq' q' enq',
      (forall k, k ∈ ks -> k ∈ sq_keys (tp_sq st)) ->
      res_foldl (gather_key p cache best st) (keys, uniq, q, enq) ks = Ok (keys', uniq', q', enq') ->
      exists new nks, keys' = keys ++ new /\ nks `sublist_of` ks /\ fetched_now st nks new /\
        (keyed keys uniq -> keyed keys' uniq' /\
          forall pre k post, ks = pre ++ k :: post -> is_single st = true \/ cache !! mki_id k = None ->
            (mki_id k, is_single st) ∈ uniq' \/ refused best q st pre k) /\
        (forall c, q_get c q + tally c (tp_sq st) nks <= q_get c q' <= q_get c q + tally c (tp_sq st) ks) /\
        (forall c, q_get c q <= quota_limit c -> q_get c q' <= quota_limit c).
    Proof.
      induction ks as [|k ks IH]; intros keys uniq q enq keys' uniq' q' enq' Hks H; cbn [res_foldl] in H.
      - injection H as <- <- <- _. exists [], []. rewrite app_nil_r. split; [done|]. split; [done|]. split; [|split; [|split]].
        + constructor.
        + intros Hu. split; [done|]. intros pre k post E. by destruct pre.
        + intros c. unfold tally. cbn. lia.
        + done.
      - apply bind_Ok in H as ([[[keys1 uniq1] q1] enq1] & H1 & H2).
        destruct (IH _ _ _ _ _ _ _ _ ltac:(intros; apply Hks; by right) H2) as (new & nks & -> & Hsub & Hm & Hu & Hq & Hl). clear IH H2.
        assert (Hstep : exists new1 nk1, keys1 = keys ++ new1 /\ nk1 `sublist_of` [k] /\ fetched_now st nk1 new1 /\
          (keyed keys uniq -> keyed keys1 uniq1 /\
            (is_single st = true \/ cache !! mki_id k = None -> (mki_id k, is_single st) ∈ uniq1 \/ refused best q st [] k)) /\
          (forall c, q_get c q + tally c (tp_sq st) nk1 <= q_get c q1 <= q_get c q + one (under_quota c (tp_sq st) k)) /\
          (forall c, q_get c q <= quota_limit c -> q_get c q1 <= quota_limit c)).
        { assert (Hsame : keys1 = keys -> uniq1 = uniq ->
            (forall c, q_get c q <= q_get c q1 <= q_get c q + one (under_quota c (tp_sq st) k)) ->
            (forall c, q_get c q <= quota_limit c -> q_get c q1 <= quota_limit c) ->
            (is_single st = true \/ cache !! mki_id k = None -> (mki_id k, is_single st) ∈ uniq1 \/ refused best q st [] k) ->
            exists new1 nk1, keys1 = keys ++ new1 /\ nk1 `sublist_of` [k] /\ fetched_now st nk1 new1 /\
            (keyed keys uniq -> keyed keys1 uniq1 /\
              (is_single st = true \/ cache !! mki_id k = None -> (mki_id k, is_single st) ∈ uniq1 \/ refused best q st [] k)) /\
            (forall c, q_get c q + tally c (tp_sq st) nk1 <= q_get c q1 <= q_get c q + one (under_quota c (tp_sq st) k)) /\
            (forall c, q_get c q <= quota_limit c -> q_get c q1 <= quota_limit c)).
          { intros -> -> Hq1 Hl1 Hf. exists [], []. rewrite app_nil_r. split; [done|]. split; [apply sublist_nil_l|]. split; [constructor|].
            split; [done|]. split; [|done]. intros c. specialize (Hq1 c). unfold tally. cbn. lia. }
          unfold gather_key in H1.
          destruct (is_single st || negb match cache !! mki_id k with Some _ => true | None => false end) eqn:Ec.
          - apply bind_Ok in H1 as (ko & Hko & H1). apply bind_Ok in H1 as (r & Hr & H1).
            apply key_is_range_spans in Hr as ->.
            destruct (admit_key (spans k) (key_known uniq (mki_id k) (is_single st)) best st k q) as [ok q0] eqn:Ea.
            apply admit_key_ok in Ea as (A1 & A2 & A3 & A4).
            destruct (key_known uniq (mki_id k) (is_single st)) eqn:Ek.
            + rewrite andb_false_r in H1. injection H1 as <- <- <- _. apply Hsame; [done|done|done|done|].
              intros _. left. by apply key_known_true.
            + destruct ok; cbn [andb negb] in H1; injection H1 as <- <- <- _.
              * exists [KFetch (mki_id k) (tp_sq st) (mki_key k) ko (is_single st)], [k]. split; [done|]. split; [done|].
                split.
                { constructor; [|constructor]. split; [apply Hks; by left|]. done. }
                split; [|split; [|done]].
                { intros [Hnd0 Hu0]. split; [split|intros _; left; apply elem_of_app; right; by left].
                  { rewrite List.map_app. apply NoDup_app. split; [done|]. split; [|apply NoDup_singleton].
                    intros x Hx Hx'. apply elem_of_list_singleton in Hx' as ->. cbn [kf_id kf_single] in Hx.
                    apply Bool.not_true_iff_false in Ek. apply Ek, key_known_true, Hu0.
                    apply elem_of_map in Hx as (kf & [= E1 E2] & Hkf). by exists kf. }
                  intros id b. rewrite elem_of_app, (Hu0 id b), elem_of_list_singleton. split.
                  - intros [(kf & ? & ?)|[= -> ->]]; [exists kf; split; [apply elem_of_app; by left|done]|].
                    eexists. split; [apply elem_of_app; right; by left|done].
                  - intros (kf & Hkf & <- & <-). apply elem_of_app in Hkf as [Hkf|Hkf]; [left; eauto|].
                    apply elem_of_list_singleton in Hkf as ->. by right. }
                intros c. specialize (A1 c). rewrite tally_cons. replace (tally c (tp_sq st) []) with 0 by done.
                destruct (under_quota c (tp_sq st) k) eqn:Eu; cbn [one] in *; [|lia]. rewrite (A3 eq_refl eq_refl c Eu). lia.
              * apply Hsame; [done|done|done|done|]. intros _. right. destruct (A4 eq_refl) as [?|(c & C1 & C2)]; [by left|right].
                exists c. split; [done|]. unfold tally. cbn. lia.
          - injection H1 as <- <- <- _. apply Hsame; [done|done| |done|].
            + intros c. lia.
            + intros Hor. exfalso. destruct Hor as [Hs|Hc]; [rewrite Hs in Ec; done|]. rewrite Hc, orb_true_r in Ec. done. }
        destruct Hstep as (new1 & nk1 & -> & Hsub1 & Hm1 & Hu1 & Hq1 & Hl1). exists (new1 ++ new), (nk1 ++ nks).
        rewrite app_assoc. split; [done|]. split; [change (k :: ks) with ([k] ++ ks); by apply sublist_app|].
        split; [|split; [|split]].
        + by apply Forall2_app.
        + intros Hk0. destruct (Hu1 Hk0) as [Hk1 Hf1]. destruct (Hu Hk1) as [Hk2 Hf2]. split; [done|].
          intros pre k' post E Hor. destruct pre as [|k0 pre]; injection E as <- E.
          * destruct (Hf1 Hor) as [Hin|Href]; [left|by right].
            destruct (proj1 (proj2 Hk1 _ _) Hin) as (kf & Hkf & Hid & Hsg).
            apply (proj2 Hk2 (mki_id k) (is_single st)). exists kf. split; [apply elem_of_app; by left|done].
          * destruct (Hf2 pre k' post E Hor) as [Hin|[Hp|(c & C1 & C2)]]; [by left|right; by left|right; right].
            exists c. split; [done|]. specialize (Hq1 c). rewrite tally_cons. lia.
        + intros c. specialize (Hq c). specialize (Hq1 c). rewrite tally_cons.
          assert (Et : tally c (tp_sq st) (nk1 ++ nks) = tally c (tp_sq st) nk1 + tally c (tp_sq st) nks)
            by (unfold tally; rewrite List.filter_app, app_length; lia).
          rewrite Et. lia.
        + intros c Hc. by apply Hl, Hl1.
    Qed.
  End gather_keys.

  (** The result of gathering: the steps taken from the heap, in order, and the step
      at which the search was found to be complete. *)
  Definition not_single (st : tstep) : bool := negb (is_single st).
  Definition best_of (contexts : cpq coalesce_context) : f64 :=
    match cpq_peek_max ctx_cmp tb contexts with Some c => cc_relev c | None => f_zero end.
  (** The keys of some steps under a quota, and of some pairs of a step and a key. *)
  Definition tallies (c : quota) (l : list tstep) : N :=
    foldr (fun st n => tally c (tp_sq st) (sq_keys (tp_sq st)) + n) 0 l.
  Definition counted (c : quota) (l : list (tstep * match_key_id)) : N :=
    foldr (fun sk n => one (under_quota c (tp_sq sk.1) sk.2) + n) 0 l.
  Lemma tallies_app c l l' : tallies c (l ++ l') = tallies c l + tallies c l'.
  Proof. induction l as [|st l IH]; cbn [app tallies foldr]; [done|]. fold (tallies c (l ++ l')). rewrite IH. unfold tallies. lia. Qed.
  Lemma counted_app c l l' : counted c (l ++ l') = counted c l + counted c l'.
  Proof. induction l as [|st l IH]; cbn [app counted foldr]; [done|]. fold (counted c (l ++ l')). rewrite IH. unfold counted. lia. Qed.
  Lemma counted_map c st ks : counted c (map (pair st) ks) = tally c (tp_sq st) ks.
  Proof. induction ks as [|k ks IH]; cbn [map counted foldr fst snd]; [done|]. fold (counted c (map (pair st) ks)). by rewrite IH, tally_cons. Qed.
  Record gathered (cache : gmap N (list match_entry)) (contexts : cpq coalesce_context)
      (s s' : gather_state) (popped last : list tstep) : Prop := {
    gd_steps : hp_items (gt_steps s) ≡ₚ popped ++ last ++ hp_items (gt_steps s');
    gd_chunk : gt_chunk s' = gt_chunk s ++ List.filter not_single popped;
    gd_keys : exists new sks, gt_keys s' = gt_keys s ++ new /\
      Forall2 (fun sk kf => sk.1 ∈ popped /\ fetches sk.1 sk.2 kf) sks new /\
      forall c, q_get c (gt_quotas s) + counted c sks <= q_get c (gt_quotas s');
    gd_keyed : keyed (gt_keys s) (gt_unique s) -> keyed (gt_keys s') (gt_unique s') /\
      forall pre st post kpre k kpost, popped = pre ++ st :: post -> sq_keys (tp_sq st) = kpre ++ k :: kpost ->
        is_single st = true \/ cache !! mki_id k = None ->
        (mki_id k, is_single st) ∈ gt_unique s' \/ passed_over (best_of contexts) st k \/
        exists c, under_quota c (tp_sq st) k = true /\
          quota_limit c <= q_get c (gt_quotas s) + tallies c pre + tally c (tp_sq st) kpre;
    gd_quotas : forall c, q_get c (gt_quotas s') <= q_get c (gt_quotas s) + tallies c popped /\
      (q_get c (gt_quotas s) <= quota_limit c -> q_get c (gt_quotas s') <= quota_limit c);
    gd_last : if gt_complete s' then exists st m, last = [st] /\ cpq_max contexts <= cpq_len contexts /\
        cpq_peek_min ctx_cmp tb contexts = Some m /\ fleb (sn_max_relev (tp_node st)) (cc_relev m) = true /\
        (forall st', st' ∈ hp_items (gt_steps s') -> step_cmp st' st <> Gt)
      else last = [];
    gd_progress : hp_items (gt_steps s) <> [] -> gt_added s < chunk_size -> popped ++ last <> [];
    gd_few : N.of_nat (length (gt_chunk s)) <= gt_added s -> gt_complete s' = true -> (length (gt_chunk s') <= 7)%nat }.
  Lemma gd_keys_from cache contexts s s' popped last : gathered cache contexts s s' popped last ->
    exists new, gt_keys s' = gt_keys s ++ new /\ forall kf, kf ∈ new -> exists st k, st ∈ popped /\ fetches st k kf.
  Proof.
    intros [_ _ (new & sks & E & HF & _) _ _ _ _ _]. exists new. split; [done|]. intros kf Hkf.
    apply elem_of_list_lookup in Hkf as [i Hi]. destruct (Forall2_lookup_r _ _ _ _ _ HF Hi) as ([st k] & _ & H). by exists st, k.
  Qed.

  Lemma gather_ok cache contexts fuel : forall s s',
    gt_complete s = false -> gather p tb cache contexts fuel s = Ok s' ->
    exists popped last, gathered cache contexts s s' popped last.
  Proof.
    assert (HT : total_cmp step_cmp).
    { apply total_cmp_then; [apply (total_cmp_proj (fun a => sn_max_relev (tp_node a))), total_cmp_ord|].
      apply total_cmp_then; [apply (total_cmp_proj tp_prox), total_cmp_bool|].
      apply (total_cmp_proj (fun a => st_max_score (sq_store (tp_sq a)))), total_cmp_ord. }
    assert (Hstay : forall s s' last, gt_chunk s' = gt_chunk s -> gt_keys s' = gt_keys s -> gt_unique s' = gt_unique s ->
      gt_quotas s' = gt_quotas s -> hp_items (gt_steps s) ≡ₚ last ++ hp_items (gt_steps s') ->
      (if gt_complete s' then exists st m, last = [st] /\ cpq_max contexts <= cpq_len contexts /\
        cpq_peek_min ctx_cmp tb contexts = Some m /\ fleb (sn_max_relev (tp_node st)) (cc_relev m) = true /\
        (forall st', st' ∈ hp_items (gt_steps s') -> step_cmp st' st <> Gt) else last = []) ->
      (hp_items (gt_steps s) <> [] -> gt_added s < chunk_size -> last <> []) ->
      (gt_complete s' = true -> gt_added s < chunk_size) ->
      gathered cache contexts s s' [] last).
    { intros s s' last E1 E2 E3 E4 Hp Hl Hpr Hfw. split; cbn [app List.filter tallies foldr]; try done.
      - by rewrite app_nil_r.
      - exists [], []. rewrite app_nil_r. split; [done|]. split; [constructor|]. intros c. cbn. rewrite E4. lia.
      - intros Hk. rewrite E2, E3. split; [done|]. intros pre st post kpre k kpost E. by destruct pre.
      - intros c. rewrite E4. split; [lia|done].
      - intros Hle Hc. rewrite E1. specialize (Hfw Hc). unfold chunk_size in Hfw. lia. }
    induction fuel as [|fuel IH]; intros s s' Hc H; cbn [gather] in H; [done|].
    destruct (chunk_size <=? gt_added s) eqn:Ec.
    { injection H as <-. exists [], []. apply Hstay; try done.
      - by rewrite Hc.
      - intros _ Hlt. apply N.leb_le in Ec. lia.
      - by rewrite Hc. }
    apply N.leb_gt in Ec.
    destruct (hp_pop_max step_cmp tb (gt_steps s)) as [[st steps']|] eqn:Ep.
    2: { injection H as <-. exists [], [].
      assert (Hnil : hp_items (gt_steps s) = []).
      { destruct (hp_items (gt_steps s)) eqn:E; [done|].
        destruct (hp_pop_max_some step_cmp HT tb (gt_steps s)) as (? & ? & Hp); [by rewrite E|]. congruence. }
      apply Hstay; try done; by rewrite Hc. }
    destruct (hp_pop_max_ok step_cmp tb _ _ _ Ep) as [Hp Hmax].
    apply bind_Ok in H as (stop & Hstop & H). destruct stop.
    - injection H as <-. exists [], [st]. apply Hstay; cbn [gt_steps gt_chunk gt_keys gt_unique gt_complete gt_quotas]; try done.
      destruct (cpq_max contexts <=? cpq_len contexts) eqn:El; [|done].
      destruct (cpq_peek_min ctx_cmp tb contexts) as [m|] eqn:Em; [|done].
      exists st, m. split; [done|]. split; [by apply N.leb_le|]. split; [done|]. split; [by injection Hstop as ->|].
      intros st' Hst'. rewrite Forall_forall in Hmax. apply Hmax. rewrite Hp. by right.
    - apply bind_Ok in H as ([[[keys uniq] q] enq] & Hk & H). fold (best_of contexts) in Hk.
      apply gather_keys_ok in Hk as (new & nks & -> & Hsub & Hn & Hu & Hq & Hl); [|done].
      apply IH in H as (popped & last & [G1 G2 G3 G4 G5 G6 G7 G8]); [|done].
      cbn [gt_steps gt_chunk gt_keys gt_unique gt_complete gt_quotas gt_added] in *.
      exists (st :: popped), last. split; cbn [app List.filter].
      + by rewrite Hp, G1.
      + rewrite G2. unfold not_single. destruct (is_single st); cbn [negb]; [done|]. by rewrite <- app_assoc.
      + destruct G3 as (new' & sks & -> & HF' & Hq'). exists (new ++ new'), (map (pair st) nks ++ sks).
        rewrite app_assoc. split; [done|]. split; [apply Forall2_app|].
        * apply Forall2_fmap_l. eapply Forall2_impl; [exact Hn|]. intros k kf Hf. cbn [fst snd]. split; [by left|done].
        * eapply Forall2_impl; [exact HF'|]. intros [st' k] kf [H1 H2]. cbn [fst snd] in *. split; [by right|done].
        * intros c. rewrite counted_app, counted_map. specialize (Hq c). specialize (Hq' c). lia.
      + intros Hk0. destruct (Hu Hk0) as [Hk1 Hf1]. destruct (G4 Hk1) as [Hk2 Hf2]. split; [done|].
        intros pre st' post kpre k kpost E Ek Hor. destruct pre as [|st0 pre]; injection E as <- E.
        * destruct (Hf1 _ _ _ Ek Hor) as [Hin|[Hpo|(c & C1 & C2)]]; [left|by right; left|right; right].
          -- destruct (proj1 (proj2 Hk1 _ _) Hin) as (kf & Hkf & Hid & Hsg).
             apply (proj2 Hk2 (mki_id k) (is_single st)). exists kf. split; [|done]. destruct G3 as (new' & _ & -> & _). apply elem_of_app. by left.
          -- exists c. split; [done|]. cbn [tallies foldr]. lia.
        * destruct (Hf2 _ _ _ _ _ _ E Ek Hor) as [Hin|[Hpo|(c & C1 & C2)]]; [by left|by right; left|right; right].
          exists c. split; [done|]. cbn [tallies foldr]. fold (tallies c pre). specialize (Hq c). lia.
      + intros c. cbn [tallies foldr]. fold (tallies c popped). specialize (Hq c). destruct (G5 c) as [A1 A2]. split; [lia|].
        intros Hle. by apply A2, Hl.
      + exact G6.
      + done.
      + intros Hle. apply G8. destruct (is_single st); cbn [negb].
        * rewrite orb_false_r. destruct enq; lia.
        * rewrite orb_true_r, app_length. cbn [length]. lia.
  Qed.
End steps.

(** ** Phase 1: fetching *)
Lemma uniq_grids_sub seen l : uniq_grids seen l `sublist_of` l.
Proof.
  revert seen. induction l as [|g l IH]; intros seen; cbn [uniq_grids]; [done|].
  destruct (existsb _ seen); [by apply sublist_cons|by apply sublist_skip].
Qed.
Definition fast_contexts (p : profile) (sq : subquery) (o : match_opts) (pid : N) (out : list match_entry)
    (cs : list coalesce_context) : Prop :=
  forall c, c ∈ cs -> exists g e, g ∈ out /\ grid_to_coalesce_entry p g sq o pid = Ok e /\ c = single_context e.
Lemma tree_single_ok p sq o out pid cs :
  tree_coalesce_single p sq o out pid = Ok cs -> fast_contexts p sq o pid out cs.
Proof.
  unfold tree_coalesce_single. intros H. apply bind_Ok in H as (s & Hs & H). injection H as <-.
  apply single_loop_run in Hs as (pre & suf & es & -> & HF & ->). intros c Hc.
  apply elem_of_map in Hc as ([id e] & -> & Hin). rewrite elem_of_isort in Hin. apply elem_of_map_to_list in Hin.
  destruct (run_entries_from _ _ _ _ _ Hin) as [H|[He _]]; [unfold single_init in H; cbn [ss_coalesced] in H; by rewrite lookup_empty in H|].
  apply elem_of_list_lookup in He as [i He]. destruct (Forall2_lookup_r _ _ _ _ _ HF He) as (g & Hg & Hge).
  exists g, e. split; [apply elem_of_app; left; by eapply elem_of_list_lookup_2|]. done.
Qed.
Lemma fetch_key_ok p mtb tb k f :
  fetch_key p mtb tb k = Ok f ->
  match f with
  | FSingle q => kf_single k = true /\ exists out cs,
      streaming_get_matching p mtb tb (sq_store (kf_sq k)) (kf_key k) (kf_opts k) bigger_max = Ok out /\
      tree_coalesce_single p (kf_sq k) (kf_opts k) out (kf_id k) = Ok cs /\
      cpq_holds ctx_cmp max_contexts cs q
  | FMulti id data => kf_single k = false /\ id = kf_id k /\ exists out,
      streaming_get_matching p mtb tb (sq_store (kf_sq k)) (kf_key k) (kf_opts k) max_grids_per_phrase = Ok out /\
      data = uniq_grids [] (take_N max_grids_per_phrase out)
  end.
Proof.
  unfold fetch_key. destruct (kf_single k); intros H; apply bind_Ok in H as (out & Ho & H).
  - apply bind_Ok in H as (cs & Hcs & H). injection H as <-. split; [done|]. exists out, cs. split; [done|]. split; [done|].
    apply (push_all_holds tb max_contexts [] cs), cpq_new_holds.
  - injection H as <-. split; [done|]. split; [done|]. eauto.
Qed.

(** Storing what was fetched. *)
Definition pushed_of (ho_ : hash_oracle) (round : N) (ir : nat * fetched) : list coalesce_context :=
  match ir.2 with FSingle q => cpq_iter ho_ [6; round; N.of_nat ir.1] q | FMulti _ _ => [] end.
Lemma store_fetched_fold ho_ tb round irs : forall q cache q' cache',
  foldl (store_fetched ho_ tb round) (q, cache) irs = (q', cache') ->
  q' = cpq_push_all tb q (mjoin (map (pushed_of ho_ round) irs)) /\
  (forall id gs, cache' !! id = Some gs -> cache !! id = Some gs \/ exists i, (i, FMulti id gs) ∈ irs) /\
  (forall id, is_Some (cache !! id) \/ (exists i gs, (i, FMulti id gs) ∈ irs) -> is_Some (cache' !! id)).
Proof.
  induction irs as [|[i f] irs IH]; intros q cache q' cache' H; cbn [foldl] in H.
  - injection H as <- <-. split; [done|]. split; [by left|]. intros id [Hi|(i & gs & Hi)]; [done|by apply elem_of_nil in Hi].
  - destruct (store_fetched ho_ tb round (q, cache) (i, f)) as [q1 cache1] eqn:E.
    destruct (IH _ _ _ _ H) as (-> & H2 & H3). clear IH H. cbn [map].
    change (mjoin (?a :: ?b)) with (a ++ mjoin b). rewrite push_all_app. unfold pushed_of at 2. cbn [snd fst].
    unfold store_fetched in E. cbn [fst snd] in E. destruct f as [qs|id0 data]; injection E as <- <-.
    + split; [done|]. split.
      * intros id gs Hl. destruct (H2 _ _ Hl) as [?|[j Hj]]; [by left|right; exists j; by right].
      * intros id Hor. apply H3. destruct Hor as [?|(j & gs & Hj)]; [by left|].
        apply elem_of_cons in Hj as [[=]|Hj]. right. eauto.
    + split; [done|]. split.
      * intros id gs Hl. destruct (H2 _ _ Hl) as [Hins|[j Hj]]; [|right; exists j; by right].
        destruct (decide (id0 = id)) as [->|Hne].
        -- rewrite lookup_insert in Hins. injection Hins as ->. right. exists i. by left.
        -- rewrite lookup_insert_ne in Hins by done. by left.
      * intros id Hor. apply H3. destruct Hor as [Hs|(j & gs & Hj)].
        -- left. apply lookup_insert_is_Some'. by right.
        -- apply elem_of_cons in Hj as [[= -> -> ->]|Hj]; [|right; eauto]. left. apply lookup_insert_is_Some'. by left.
Qed.

(** ** Soundness *)
Section sound.
  Context (p : profile) (ho_ : hash_oracle) (mtb : merge_tb) (tb : tiebreak) (t : tree) (o : match_opts).
  Context (Hids : ids_name_keys (in_tree t)).

  Definition path (n : node) (chain : list subquery) : Prop :=
    descends (tree_get t) (t_root t) (rev chain) n.
  Record ctx_ok (chain : list subquery) (c : coalesce_context) : Prop := {
    co_stack : stack_of p mtb tb o chain (cc_entries c);
    co_mask : cc_mask c = all_masks (map sq_mask chain);
    co_relev : cc_relev c = sum_relev (cc_entries c) }.
  Record step_ok (chain : list subquery) (s : tstep) : Prop := {
    so_path : path (tp_node s) (tp_sq s :: chain);
    so_tree : in_tree t (tp_sq s);
    so_for : step_for p o (tp_node s) (tp_prev s) (tp_prev_zoom s) s;
    so_prev : match tp_prev s with
      | None => chain = []
      | Some prev => exists pm rest, chain = pm :: rest /\ tp_prev_zoom s = zoom_of pm /\ forall c, c ∈ prev -> ctx_ok chain c
      end }.
  Definition cache_ok (cache : gmap N (list match_entry)) : Prop :=
    forall id gs, cache !! id = Some gs -> exists pm k, in_tree t pm /\ k ∈ sq_keys pm /\ mki_id k = id /\
      forall g, g ∈ gs -> key_match p mtb tb o 100000 pm k g.
  Record final_ok (c : coalesce_context) (n : node) (chain : list subquery) : Prop := {
    fo_path : path n chain;
    fo_mask : cc_mask c = all_masks (map sq_mask chain);
    fo_kind :
      (exists pm e, chain = [pm] /\ sn_children n = [] /\ cc_entries c = [e] /\ level_entry p mtb tb o 80 pm e /\
         cc_relev c = e_relev e) \/
      ((exists pm, chain = [pm] /\ sn_children n <> []) \/ (2 <= length chain)%nat) /\
       stack_of p mtb tb o chain (cc_entries c) /\
       cc_relev c = (if ascending (cc_entries c) then fsub (sum_relev (cc_entries c)) (f_lit 1 100)
                     else sum_relev (cc_entries c)) }.
  Definition good_result (c : coalesce_context) : Prop := exists n chain, final_ok c n chain.

  Lemma cached_level st chain cache k grids g e :
    step_ok chain st -> cache_ok cache -> k ∈ sq_keys (tp_sq st) -> cache !! mki_id k = Some grids -> g ∈ grids ->
    grid_to_coalesce_entry p g (tp_sq st) (tp_opts st) (mki_id k) = Ok e -> level_entry p mtb tb o 100000 (tp_sq st) e.
  Proof.
    intros Hs Hc Hk Hg Hin He. destruct (Hc _ _ Hg) as (pm & k' & Hpm & Hk' & Hid & Hm).
    destruct (Hids (tp_sq st) pm k k' (so_tree _ _ Hs) Hpm Hk Hk' ltac:(done)) as (E1 & E2 & E3).
    exists k, g. split; [|by eapply to_entry_inv].
    destruct (Hm g Hin) as (ko & out & _ & (zo & Hz & Hko) & Hout & Hgo). exists ko, out. split; [done|].
    rewrite E1, E2. split; [|done]. exists zo. unfold zoom_of in *. rewrite E1, E3. done.
  Qed.

  Lemma scale_inside (z z' : N) scale :
    (let* d := usub p 16 z z' in ushl p 16 1 d) = Ok scale ->
    (p = Debug -> z' <= z /\ z - z' < 16) /\ (z' <= z -> z - z' < 16 -> scale = 2 ^ (z - z')).
  Proof.
    intros H. apply bind_Ok in H as (d & Hd & Hs). unfold usub in Hd. unfold ushl in Hs. split.
    - intros ->. destruct (z' <=? z) eqn:E; [|done]. injection Hd as <-. apply N.leb_le in E. split; [done|].
      destruct (z - z' <? 16) eqn:E2; [by apply N.ltb_lt|done].
    - intros Hle Hlt. rewrite (proj2 (N.leb_le _ _) Hle) in Hd. injection Hd as <-.
      rewrite (proj2 (N.ltb_lt _ _) Hlt) in Hs. assert (scale = N.shiftl 1 (z - z') mod 2 ^ 16) as -> by congruence. rewrite N.shiftl_1_l.
      apply N.mod_small, N.pow_lt_mono_r; lia.
  Qed.

  Lemma made_ok st chain cache scale css c :
    step_ok chain st -> cache_ok cache ->
    (let* d := usub p 16 (st_zoom (sq_store (tp_sq st))) (tp_prev_zoom st) in ushl p 16 1 d) = Ok scale ->
    keys_made p st scale cache (sq_keys (tp_sq st)) css -> c ∈ mjoin css -> ctx_ok (tp_sq st :: chain) c.
  Proof.
    intros Hs Hc Hscale Hm Hin. apply (keys_made_elem _ _ _ _ _ _ c Hm) in Hin as (k & grids & g & e & Hk & Hg & Hgin & He & Hgr).
    pose proof (cached_level _ _ _ _ _ _ _ Hs Hc Hk Hg Hgin He) as Hlev.
    pose proof (to_entry_inv _ _ _ _ _ _ He) as (Een & _ & _ & Emask & _).
    unfold grown in Hgr. pose proof (so_prev _ _ Hs) as Hprev. destruct (tp_prev st) as [prev|].
    - destruct Hprev as (pm & rest & -> & Hz & Hcs). apply elem_of_map in Hgr as (parent & -> & Hpar).
      apply elem_of_filter in Hpar as [Hpar Hcell]. destruct (Hcs _ Hpar) as [Hst Hma Hre].
      unfold at_cell, ctx_cell in Hcell.
      inversion Hst as [pm0 e' Hl E1 E2|pm0 e' pm1 e1 pms es Hl Hi Hst' E1 E2].
      + subst. rewrite <- E2 in Hcell. apply andb_prop in Hcell as [Hx Hy]. apply N.eqb_eq in Hx, Hy. split.
        * cbn [grow cc_entries]. rewrite <- E2. constructor; [done| |by rewrite E2].
          destruct (scale_inside _ _ _ Hscale) as [S1 S2]. rewrite Hz in S1, S2. split; [done|].
          intros Hle Hlt. unfold e_cell. rewrite Een. cbn [fst snd ge_x ge_y]. rewrite (S2 Hle Hlt) in Hx, Hy. done.
        * cbn [grow cc_mask map]. rewrite Hma. cbn [map all_masks foldr]. apply N.lor_comm.
        * cbn [grow cc_relev cc_entries]. rewrite Hre, <- E2. done.
      + subst. rewrite <- E2 in Hcell. apply andb_prop in Hcell as [Hx Hy]. apply N.eqb_eq in Hx, Hy. split.
        * cbn [grow cc_entries]. rewrite <- E2. constructor; [done| |by rewrite E2].
          destruct (scale_inside _ _ _ Hscale) as [S1 S2]. rewrite Hz in S1, S2. split; [done|].
          intros Hle Hlt. unfold e_cell. rewrite Een. cbn [fst snd ge_x ge_y]. rewrite (S2 Hle Hlt) in Hx, Hy. done.
        * cbn [grow cc_mask map]. rewrite Hma. cbn [map all_masks foldr]. apply N.lor_comm.
        * cbn [grow cc_relev cc_entries]. rewrite Hre, <- E2. done.
    - subst chain. apply elem_of_list_singleton in Hgr as ->. split; cbn [base_context cc_entries cc_mask cc_relev map].
      + by constructor.
      + cbn. by rewrite N.lor_0_r.
      + done.
  Qed.

  Lemma penalize_fields c : cc_entries c <> [] ->
    cc_entries (penalize c) = cc_entries c /\ cc_mask (penalize c) = cc_mask c /\
    cc_relev (penalize c) = (if ascending (cc_entries c) then fsub (cc_relev c) (f_lit 1 100) else cc_relev c).
  Proof.
    intros Hne. unfold penalize, ascending. destruct c as [m r es]. cbn [cc_entries cc_mask cc_relev] in *.
    destruct es as [|e0 [|e1 es]]; [done|done|]. by destruct (ce_mask e1 <? ce_mask e0).
  Qed.
  Lemma stack_of_length chain es : stack_of p mtb tb o chain es -> length es = length chain /\ es <> [].
  Proof. intros H. induction H as [|pm e pm' e' pms es Hl Hi H [IH _]]; [done|]. split; [cbn in *; lia|done]. Qed.

  Lemma penalize_ok st chain c :
    step_ok chain st -> is_single st = false -> ctx_ok (tp_sq st :: chain) c -> good_result (penalize c).
  Proof.
    intros Hs Hns [H1 H2 H3]. destruct (stack_of_length _ _ H1) as [Hl Hne].
    destruct (penalize_fields c Hne) as (P1 & P2 & P3). exists (tp_node st), (tp_sq st :: chain).
    split; [apply (so_path _ _ Hs)|by rewrite P2|]. right. rewrite P1, P3, H3. split; [|done].
    unfold is_single, is_leaf in Hns. pose proof (so_prev _ _ Hs) as Hp. destruct (tp_prev st).
    - destruct Hp as (pm & rest & -> & _). right. cbn [length]. lia.
    - subst chain. left. exists (tp_sq st). split; [done|]. by destruct (sn_children (tp_node st)).
  Qed.

  Lemma child_ok st chain c prev i n :
    step_ok chain st -> i ∈ sn_children (tp_node st) -> tree_get t i = Some n ->
    (forall d, d ∈ prev -> ctx_ok (tp_sq st :: chain) d) ->
    step_for p o n (Some prev) (st_zoom (sq_store (tp_sq st))) c -> step_ok (tp_sq st :: chain) c.
  Proof.
    intros Hs Hi Hn Hprev Hc. pose proof (sf_node _ _ _ _ _ _ Hc) as E. split.
    - unfold path. rewrite E. cbn [rev]. change (rev chain ++ [tp_sq st]) with (rev (tp_sq st :: chain)).
      eapply descends_snoc; [apply (so_path _ _ Hs)|exact Hi|exact Hn|by apply (sf_pm _ _ _ _ _ _ Hc)].
    - exists i, n. split; [done|apply (sf_pm _ _ _ _ _ _ Hc)].
    - rewrite E. rewrite (sf_prev _ _ _ _ _ _ Hc), (sf_zoom _ _ _ _ _ _ Hc). exact Hc.
    - rewrite (sf_prev _ _ _ _ _ _ Hc). exists (tp_sq st), chain. split; [done|]. split; [|done].
      apply (sf_zoom _ _ _ _ _ _ Hc).
  Qed.

  (** The queue of results holds the good contexts pushed so far. *)
  Definition results_ok (q : cpq coalesce_context) : Prop :=
    exists l, cpq_holds ctx_cmp tree_max_contexts l q /\ forall c, c ∈ l -> good_result c.
  Lemma results_push q l : results_ok q -> (forall c, c ∈ l -> good_result c) -> results_ok (cpq_push_all tb q l).
  Proof.
    intros (l0 & Hh & Hg) Hl. exists (l0 ++ l). split; [by apply push_all_holds|].
    intros c Hc. apply elem_of_app in Hc as [?|?]; auto.
  Qed.
  Definition state_ok (s : tree_state) : Prop :=
    results_ok (tr_contexts s) /\ cache_ok (tr_cache s) /\
    forall st, st ∈ hp_items (tr_steps s) -> exists chain, step_ok chain st.

  Lemma fold_hp_push l (h : heap tstep) : hp_items (foldl hp_push h l) = hp_items h ++ l.
  Proof.
    revert h. induction l as [|a l IH]; intros h; cbn [foldl]; [by rewrite app_nil_r|].
    rewrite IH. cbn [hp_push hp_items]. by rewrite <- app_assoc.
  Qed.
  Lemma fold_steps (rs : list (list coalesce_context * list tstep)) (h : heap tstep) :
    hp_items (foldl (fun h r => foldl hp_push h r.2) h rs) = hp_items h ++ mjoin (map snd rs).
  Proof.
    revert h. induction rs as [|r rs IH]; intros h; cbn [foldl map]; [cbn; by rewrite app_nil_r|].
    rewrite IH, fold_hp_push. by rewrite <- app_assoc.
  Qed.
  Lemma fold_contexts (rs : list (list coalesce_context * list tstep)) (q : cpq coalesce_context) :
    foldl (fun q r => cpq_push_all tb q r.1) q rs = cpq_push_all tb q (mjoin (map fst rs)).
  Proof.
    revert q. induction rs as [|r rs IH]; intros q; cbn [foldl map]; [done|].
    change (mjoin (?a :: ?b)) with (a ++ mjoin b). by rewrite IH, push_all_app.
  Qed.

  (** One round, taken apart. *)
  Record rounded (round : N) (s s' : tree_state) (complete : bool) (g : gather_state) (popped last : list tstep)
      (fs : list fetched) (rs : list (list coalesce_context * list tstep)) : Prop := {
    rd_gather : gathered p tb (tr_cache s) (tr_contexts s)
      (GatherState (tr_steps s) [] [] [] (tr_quotas s) 0 false) g popped last;
    rd_complete : complete = gt_complete g;
    rd_fetch : Forall2 (fun k f => fetch_key p mtb tb k = Ok f) (gt_keys g) fs;
    rd_run : Forall2 (fun st r => exists site, run_step p ho_ tb t o (tr_cache s') site st = Ok r)
      (List.filter not_single popped) rs;
    rd_contexts : tr_contexts s' = cpq_push_all tb (tr_contexts s)
      (mjoin (map (pushed_of ho_ round) (combine (seq 0 (length fs)) fs)) ++ mjoin (map fst rs));
    rd_steps : hp_items (tr_steps s') = hp_items (gt_steps g) ++ mjoin (map snd rs);
    rd_quotas : tr_quotas s' = gt_quotas g;
    rd_cache : (forall id gs, tr_cache s' !! id = Some gs -> tr_cache s !! id = Some gs \/ FMulti id gs ∈ fs) /\
      (forall id, is_Some (tr_cache s !! id) \/ (exists gs, FMulti id gs ∈ fs) -> is_Some (tr_cache s' !! id)) }.
  Lemma tree_round_ok round s s' complete :
    tree_round p ho_ mtb tb t o round s = Ok (s', complete) ->
    exists g popped last fs rs, rounded round s s' complete g popped last fs rs.
  Proof.
    unfold tree_round. intros H. apply bind_Ok in H as (g & Hg & H).
    apply gather_ok in Hg as (popped & last & Hg); [|done].
    apply bind_Ok in H as (fs & Hfs & H).
    destruct (foldl (store_fetched ho_ tb round) (tr_contexts s, tr_cache s) (combine (seq 0 (length fs)) fs))
      as [q cache] eqn:Ef.
    apply bind_Ok in H as (rs & Hrs & H). injection H as <- <-.
    apply res_mapM_Ok in Hfs, Hrs. apply store_fetched_fold in Ef as (-> & C1 & C2).
    exists g, popped, last, fs, rs. split; cbn [tr_contexts tr_steps tr_cache]; try done.
    - pose proof (gd_chunk _ _ _ _ _ _ _ _ Hg) as Ec. cbn [gt_chunk app] in Ec. rewrite <- Ec.
      apply Forall2_same_length_lookup_2.
      { pose proof (Forall2_length _ _ _ Hrs) as Hl. rewrite combine_length, seq_length in Hl. lia. }
      intros i st r Hst Hr. destruct (Forall2_lookup_r _ _ _ _ _ Hrs Hr) as ([j st'] & Hj & Hrun).
      assert (st' = st).
      { pose proof (combine_seq_snd (gt_chunk g) 0) as Es.
        assert (Hm : map snd (combine (seq 0 (length (gt_chunk g))) (gt_chunk g)) !! i = Some st')
          by (rewrite list_lookup_fmap, Hj; done). rewrite Es in Hm. congruence. }
      subst st'. cbn [fst snd] in Hrun. eauto.
    - by rewrite fold_contexts, push_all_app.
    - apply fold_steps.
    - split.
      + intros id gs Hl. destruct (C1 _ _ Hl) as [?|[i Hi]]; [by left|right]. by eapply elem_of_combine_r.
      + intros id Hor. apply C2. destruct Hor as [?|[gs Hgs]]; [by left|right].
        apply elem_of_list_lookup in Hgs as [i Hi]. exists i, gs. apply combine_seq_elem. exists i. done.
  Qed.

  Lemma round_sound round s s' complete :
    state_ok s -> tree_round p ho_ mtb tb t o round s = Ok (s', complete) -> state_ok s'.
  Proof.
    intros (R & C & S) H. apply tree_round_ok in H as (g & popped & last & fs & rs & [G Hc HF Hrun Hctx Hst _ [C1 C2]]).
    pose proof (gd_steps _ _ _ _ _ _ _ _ G) as Hp. cbn [gt_steps] in Hp.
    assert (Hpop : forall st, st ∈ popped -> exists chain, step_ok chain st).
    { intros st Hin. apply S. rewrite Hp. apply elem_of_app. by left. }
    assert (Hkf : forall kf, kf ∈ gt_keys g -> exists st k, st ∈ popped /\ fetches p st k kf).
    { destruct (gd_keys_from _ _ _ _ _ _ _ _ G) as (new & E & Hn). cbn [gt_keys app] in E. rewrite E. exact Hn. }
    assert (Cache : cache_ok (tr_cache s')).
    { intros id gs Hl. destruct (C1 _ _ Hl) as [Hold|Hnew]; [by apply C|].
      apply elem_of_list_lookup in Hnew as [i Hi]. destruct (Forall2_lookup_r _ _ _ _ _ HF Hi) as (kf & Hkfi & Hf).
      apply fetch_key_ok in Hf as (_ & -> & out & Hout & ->).
      destruct (Hkf kf ltac:(by eapply elem_of_list_lookup_2)) as (st & k & Hin & (K1 & K2 & K3 & K4 & K5 & K6)).
      destruct (Hpop st Hin) as (chain & Hok). exists (tp_sq st), k. split; [apply (so_tree _ _ Hok)|]. split; [done|].
      split; [done|]. intros g0 Hg0. rewrite K3, K4 in Hout. exists (kf_opts kf), out. split; [done|]. split.
      - exists (tp_opts st). split; [apply (sf_opts _ _ _ _ _ _ (so_for _ _ Hok))|done].
      - split; [exact Hout|]. eapply elem_of_sublist; [eapply elem_of_sublist; [exact Hg0|apply uniq_grids_sub]|apply take_N_sub]. }
    assert (Hrs : forall r, r ∈ rs -> (forall c, c ∈ r.1 -> good_result c) /\
      forall st, st ∈ r.2 -> exists chain, step_ok chain st).
    { intros [out next] Hr. apply elem_of_list_lookup in Hr as [i Hi].
      destruct (Forall2_lookup_r _ _ _ _ _ Hrun Hi) as (st & Hsti & site & Hrn). cbn [fst snd].
      apply elem_of_list_lookup_2 in Hsti. apply elem_of_filter in Hsti as [Hin Hns].
      destruct (Hpop st Hin) as (chain & Hok). apply run_step_ok in Hrn as (scale & css & sel & [N1 N2 (outs & N3 & ->) -> [N5 N4] _]).
      assert (Hmade : forall c, c ∈ mjoin css -> ctx_ok (tp_sq st :: chain) c) by (intros c Hcin; by eapply made_ok).
      split.
      - intros c Hcin. apply elem_of_mjoin in Hcin as (out & Hcin & Hout).
        apply elem_of_list_lookup in Hout as [j Hj]. destruct (Forall2_lookup_r _ _ _ _ _ N3 Hj) as (cs & Hcs & Hb).
        apply (best_40_in _ _ _ Hb) in Hcin. apply elem_of_map in Hcin as (d & -> & Hd).
        eapply penalize_ok; [exact Hok| |].
        + unfold not_single in Hns. by destruct (is_single st).
        + apply Hmade. apply elem_of_mjoin. exists cs. split; [done|]. by eapply elem_of_list_lookup_2.
      - intros st' Hst'. apply elem_of_map in Hst' as ([j s1] & -> & Hin1). cbn [snd].
        destruct (N4 _ _ Hin1) as (n & Hn & Hfor). exists (tp_sq st :: chain).
        eapply child_ok; [exact Hok| |exact Hn|exact Hmade|exact Hfor].
        eapply elem_of_sublist; [|exact N5]. apply elem_of_map. by exists (j, s1). }
    split; [|split].
    - rewrite Hctx. apply results_push; [done|]. intros c Hc0. apply elem_of_app in Hc0 as [Hc0|Hc0].
      + apply elem_of_mjoin in Hc0 as (l & Hcl & Hl). apply elem_of_map in Hl as ([j f] & -> & Hjf).
        unfold pushed_of in Hcl. cbn [fst snd] in Hcl. destruct f as [q|]; [|by apply elem_of_nil in Hcl].
        apply elem_of_combine_r in Hjf. apply elem_of_list_lookup in Hjf as [i Hi].
        destruct (Forall2_lookup_r _ _ _ _ _ HF Hi) as (kf & Hkfi & Hf).
        apply fetch_key_ok in Hf as (Hsing & out & cs & Hout & Hcs & Hq).
        rewrite cpq_iter_perm in Hcl. apply (holds_in _ _ _ _ Hq) in Hcl.
        destruct (tree_single_ok _ _ _ _ _ _ Hcs c Hcl) as (g0 & e & Hg0 & He & ->).
        destruct (Hkf kf ltac:(by eapply elem_of_list_lookup_2)) as (st & k & Hin & (K1 & K2 & K3 & K4 & K5 & K6)).
        destruct (Hpop st Hin) as (chain & Hok). rewrite K5 in Hsing. unfold is_single in Hsing.
        pose proof (so_prev _ _ Hok) as Hpr. destruct (tp_prev st); [done|]. subst chain.
        unfold is_leaf in Hsing. exists (tp_node st), [tp_sq st].
        pose proof (to_entry_inv _ _ _ _ _ _ He) as Hte.
        split; [apply (so_path _ _ Hok)| |left].
        * cbn [single_context cc_mask map all_masks foldr]. destruct Hte as (_ & _ & _ & Em & _).
          rewrite N.lor_0_r, Em. by rewrite K3.
        * exists (tp_sq st), e. split; [done|]. split; [by destruct (sn_children (tp_node st))|]. split; [done|].
          split; [|done]. exists k, g0. rewrite K3 in Hte, Hout. rewrite K2 in Hte. split; [|done].
          exists (kf_opts kf), out. split; [done|]. split; [|rewrite <- K4; done].
          exists (tp_opts st). split; [apply (sf_opts _ _ _ _ _ _ (so_for _ _ Hok))|done].
      + apply elem_of_mjoin in Hc0 as (l & Hcl & Hl). apply elem_of_map in Hl as (r & -> & Hr).
        by apply (proj1 (Hrs r Hr)).
    - done.
    - intros st. rewrite Hst, elem_of_app. intros [Hin|Hin].
      + apply S. rewrite Hp. rewrite !elem_of_app. by right; right.
      + apply elem_of_mjoin in Hin as (l & Hcl & Hl). apply elem_of_map in Hl as (r & -> & Hr).
        by apply (proj2 (Hrs r Hr)).
  Qed.

  Lemma loop_inv (P : tree_state -> Prop) :
    (forall round s s' complete, P s -> tree_round p ho_ mtb tb t o round s = Ok (s', complete) -> P s') ->
    forall fuel s s', P s -> tree_loop p ho_ mtb tb t o fuel s = Ok s' -> P s'.
  Proof.
    intros HP. induction fuel as [|fuel IH]; intros s s' Hs H; cbn [tree_loop] in H; [done|].
    destruct (hp_items (tr_steps s)); [by injection H as <-|].
    apply bind_Ok in H as ([s1 complete] & H1 & H). pose proof (HP _ _ _ _ Hs H1) as Hs1.
    destruct complete; [by injection H as <-|by eapply IH].
  Qed.

  Lemma first_ok steps :
    res_foldl (first_step p t o) hp_empty (sn_children (t_root t)) = Ok steps ->
    state_ok (TreeState (cpq_new tree_max_contexts) steps ∅ (Quotas 0 0 0 0 0)).
  Proof.
    intros H. apply first_steps_ok in H as (sel & E & [S1 S2] & _). split; [|split].
    - exists []. split; [apply cpq_new_holds|]. intros c Hc. by apply elem_of_nil in Hc.
    - intros id gs. cbn [tr_cache]. by rewrite lookup_empty.
    - cbn [tr_steps]. rewrite E. cbn [hp_empty hp_items app]. intros st Hst.
      apply elem_of_map in Hst as ([i s1] & -> & Hin). cbn [snd]. destruct (S2 _ _ Hin) as (n & Hn & Hf).
      exists []. pose proof (sf_node _ _ _ _ _ _ Hf) as En. split.
      + unfold path. cbn [rev app]. rewrite En.
        eapply (descends_snoc _ (t_root t) [] (t_root t)); [constructor| |exact Hn|apply (sf_pm _ _ _ _ _ _ Hf)].
        eapply elem_of_sublist; [|exact S1]. apply elem_of_map. by exists (i, s1).
      + exists i, n. split; [done|apply (sf_pm _ _ _ _ _ _ Hf)].
      + rewrite En, (sf_prev _ _ _ _ _ _ Hf), (sf_zoom _ _ _ _ _ _ Hf). exact Hf.
      + by rewrite (sf_prev _ _ _ _ _ _ Hf).
  Qed.

  Lemma tree_coalesce_sound fuel out :
    tree_coalesce p ho_ mtb tb fuel t o = Ok out -> forall c, c ∈ out -> good_result c.
  Proof.
    unfold tree_coalesce. intros H c Hc. apply bind_Ok in H as (u & _ & H). apply bind_Ok in H as (steps & Hs & H).
    apply bind_Ok in H as (s & Hl & H). injection H as <-.
    apply (loop_inv state_ok round_sound) in Hl as ((l & Hh & Hg) & _); [|by apply first_ok].
    apply Hg. eapply holds_in; [exact Hh|]. unfold cpq_into_desc in Hc.
    destruct (hp_into_desc_ok ctx_cmp total_cmp_ctx tb (cpq_heap (tr_contexts s))) as [Hp _].
    by rewrite Hp in Hc.
  Qed.
End sound.

(** The shape of the result: at most 800, best first. *)
Lemma tree_coalesce_shape p ho_ mtb tb fuel t o out :
  tree_coalesce p ho_ mtb tb fuel t o = Ok out ->
  N.of_nat (length out) <= tree_max_contexts /\ StronglySorted (fun a b => ctx_cmp b a <> Gt) out.
Proof.
  unfold tree_coalesce. intros H. apply bind_Ok in H as (u & _ & H). apply bind_Ok in H as (steps & Hs & H).
  apply bind_Ok in H as (s & Hl & H). injection H as <-.
  assert (Hq : exists l, cpq_holds ctx_cmp tree_max_contexts l (tr_contexts s)).
  { eapply (loop_inv p ho_ mtb tb t o (fun s => exists l, cpq_holds ctx_cmp tree_max_contexts l (tr_contexts s))); [| |exact Hl]; [|exists []; apply cpq_new_holds].
    intros round s0 s1 complete [l Hl0] Hr. apply tree_round_ok in Hr as (g & popped & last & fs & rs & R).
    rewrite (rd_contexts _ _ _ _ _ _ _ _ _ _ _ _ _ _ _ R). eexists. by apply push_all_holds. }
  destruct Hq as (l & Hmax & dropped & H1 & H2 & H3).
  destruct (hp_into_desc_ok ctx_cmp total_cmp_ctx tb (cpq_heap (tr_contexts s))) as [Hp Hsort].
  split; [|exact Hsort]. unfold cpq_into_desc. rewrite (Permutation_length Hp). lia.
Qed.
