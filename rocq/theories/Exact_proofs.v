(** tree_coalesce returns only stacks, and each once. *)
From Verif Require Import Prelude Lists F64 Heap Common Builder Store Query Spatial Coalesce Stackable Tree.
From Verif Require Import Cmp_proofs Queue_proofs Coalesce_proofs Multi_proofs Spec_coalesce Spec_stack Spec_tree Spec_quota Quota_proofs
  Tree_proofs Term_proofs Spec_complete Props_coalesce Complete_proofs Spec_exact Sibling_proofs.
From Coq Require Import ZifyBool.
Local Open Scope N_scope.

(** ** Lists *)
Lemma nodup_mjoin_rel {A B} (R : A -> B -> Prop) (tags : list B) (css : list (list A)) :
  (forall a x y, R a x -> R a y -> x = y) ->
  Forall2 (fun t cs => NoDup cs /\ forall a, a ∈ cs -> R a t) tags css -> NoDup tags -> NoDup (mjoin css).
Proof.
  intros HR HF. induction HF as [|t cs tags css [H1 H2] HF IH]; intros Hn; [constructor|].
  apply NoDup_cons in Hn as [Hnt Hn]. change (mjoin (cs :: css)) with (cs ++ mjoin css). apply NoDup_app.
  split; [done|]. split; [|by apply IH]. intros a Ha Hj. apply H2 in Ha. apply elem_of_mjoin in Hj as (cs' & Hac & Hcs).
  apply elem_of_list_lookup in Hcs as [i Hi]. destruct (Forall2_lookup_r _ _ _ _ _ HF Hi) as (t' & Ht & _ & H').
  apply H' in Hac. rewrite (HR _ _ _ Ha Hac) in Hnt. apply Hnt. by eapply elem_of_list_lookup_2.
Qed.
Lemma nodup_map_inj {A B} (f : A -> B) (l : list A) x y : NoDup (map f l) -> x ∈ l -> y ∈ l -> f x = f y -> x = y.
Proof.
  induction l as [|a l IH]; cbn [map]; intros Hn Hx Hy E; [by apply elem_of_nil in Hx|].
  apply NoDup_cons in Hn as [H1 H2]. apply elem_of_cons in Hx as [->|Hx]; apply elem_of_cons in Hy as [->|Hy]; [done| | |by apply IH].
  - exfalso. apply H1. rewrite E. apply elem_of_map. by exists y.
  - exfalso. apply H1. rewrite <- E. apply elem_of_map. by exists x.
Qed.
Lemma forall2_sub {A B} (R : A -> B -> Prop) k' k : k' `sublist_of` k -> forall l, Forall2 R k l -> NoDup l ->
  exists l', Forall2 R k' l' /\ NoDup l' /\ forall b, b ∈ l' -> b ∈ l.
Proof.
  intros Hs. induction Hs as [|a k' k Hs IH|a k' k Hs IH]; intros l HF Hn.
  - inversion HF. subst. exists []. split; [constructor|]. split; [constructor|done].
  - inversion HF as [|? b ? l0 Hab HF0]. subst. apply NoDup_cons in Hn as [N1 N2]. destruct (IH _ HF0 N2) as (l' & H1 & H2 & H3).
    exists (b :: l'). split; [by constructor|]. split; [constructor; [by intros ?%H3|done]|].
    intros b' Hb. apply elem_of_cons in Hb as [->|Hb]; [by left|right; auto].
  - inversion HF as [|? b ? l0 Hab HF0]. subst. apply NoDup_cons in Hn as [N1 N2]. destruct (IH _ HF0 N2) as (l' & H1 & H2 & H3).
    exists l'. split; [done|]. split; [done|]. intros b' Hb. right. auto.
Qed.
Lemma submseteq_nodup {A} (l k : list A) : l ⊆+ k -> NoDup k -> NoDup l.
Proof. intros H Hn. apply submseteq_Permutation in H as [m E]. rewrite E in Hn. by apply NoDup_app in Hn as (? & _). Qed.
Lemma filter_sub {A} (f : A -> bool) (l : list A) : List.filter f l `sublist_of` l.
Proof. induction l as [|a l IH]; cbn [List.filter]; [done|]. destruct (f a); by constructor. Qed.
Lemma map_filter {A B} (g : A -> B) (f : B -> bool) (l : list A) :
  map g (List.filter (fun a => f (g a)) l) = List.filter f (map g l).
Proof. induction l as [|a l IH]; cbn [List.filter map]; [done|]. destruct (f (g a)); cbn [map]; by rewrite IH. Qed.

(** ** Branches *)
(** None of the lists ends with another. *)
Definition apart {A} (l : list (list A)) : Prop := NoDup l /\ forall x y, x ∈ l -> y ∈ l -> x `suffix_of` y -> x = y.
Lemma apart_sub {A} (l k : list (list A)) : l ⊆+ k -> apart k -> apart l.
Proof.
  intros H [H1 H2]. split; [by eapply submseteq_nodup|]. intros x y Hx Hy.
  apply H2; by eapply elem_of_submseteq.
Qed.
Lemma suffix_longer {A} (a : A) (x y : list A) : a :: x `suffix_of` y -> x `suffix_of` y.
Proof. intros [k ->]. exists (k ++ [a]). by rewrite <- app_assoc. Qed.
Lemma suffix_len {A} (a : A) (x : list A) : ~ a :: x `suffix_of` x.
Proof. intros H. apply suffix_length in H. cbn in H. lia. Qed.
Lemma suffix_tail {A} (x : list A) (b : A) (y : list A) : x `suffix_of` b :: y -> x = b :: y \/ x `suffix_of` y.
Proof. intros [[|c k] E]; [by left|right]. injection E as _ ->. by exists k. Qed.
Lemma apart_step {A} (pop rest : list (list A)) (css : list (list (list A))) :
  apart (pop ++ rest) -> Forall2 (fun x cs => NoDup cs /\ forall c, c ∈ cs -> exists a, c = a :: x) pop css ->
  apart (rest ++ mjoin css).
Proof.
  intros [Hn Hs] HF.
  assert (Hel : forall c, c ∈ mjoin css -> exists x a, x ∈ pop /\ c = a :: x).
  { intros c Hc. apply elem_of_mjoin in Hc as (cs & Hc & Hcs). apply elem_of_list_lookup in Hcs as [i Hi].
    destruct (Forall2_lookup_r _ _ _ _ _ HF Hi) as (x & Hx & _ & H). destruct (H c Hc) as [a ->].
    exists x, a. split; [by eapply elem_of_list_lookup_2|done]. }
  assert (Hp : forall x y, x ∈ pop -> y ∈ pop -> x `suffix_of` y -> x = y).
  { intros x y Hx Hy. apply Hs; apply elem_of_app; by left. }
  apply NoDup_app in Hn as (N1 & N2 & N3).
  assert (Hrx : forall r x, r ∈ rest -> x ∈ pop -> ~ r `suffix_of` x /\ ~ x `suffix_of` r).
  { intros r x Hr Hx. split; intros Hsf; apply (N2 x Hx);
      [rewrite <- (Hs r x)|rewrite (Hs x r)]; try done; apply elem_of_app; auto. }
  split.
  - apply NoDup_app. split; [done|]. split.
    + intros r Hr Hc. apply Hel in Hc as (x & a & Hx & ->). apply (proj2 (Hrx _ _ Hr Hx)). by exists [a].
    + eapply (nodup_mjoin_tag (fun c : list A => List.tl c) pop); [|done]. eapply Forall2_impl; [exact HF|].
      intros x cs [H1 H2]. split; [done|]. intros c Hc. by destruct (H2 c Hc) as [a ->].
  - intros x y Hx Hy Hsf. apply elem_of_app in Hx as [Hx|Hx]; apply elem_of_app in Hy as [Hy|Hy].
    + apply Hs; [apply elem_of_app; by right..|done].
    + exfalso. apply Hel in Hy as (y0 & b & Hy & ->). apply suffix_tail in Hsf as [->|Hsf].
      * apply (proj2 (Hrx _ _ Hx Hy)). by exists [b].
      * by apply (proj1 (Hrx _ _ Hx Hy)).
    + exfalso. apply Hel in Hx as (x0 & a & Hx & ->). apply suffix_longer in Hsf. by apply (proj2 (Hrx _ _ Hy Hx)).
    + apply Hel in Hx as (x0 & a & Hx & ->). apply Hel in Hy as (y0 & b & Hy & ->).
      apply suffix_tail in Hsf as [?|Hsf]; [done|]. exfalso. pose proof (suffix_longer _ _ _ Hsf) as Hsf'.
      rewrite (Hp _ _ Hx Hy Hsf') in Hsf. by apply suffix_len in Hsf.
Qed.

(** ** The fast path *)
Lemma tree_single_once p sq o out pid cs :
  tree_coalesce_single p sq o out pid = Ok cs -> NoDup (map cc_entries cs).
Proof.
  unfold tree_coalesce_single. intros H. apply bind_Ok in H as (s & Hs & H). injection H as <-.
  apply single_loop_run in Hs as (pre & suf & es & -> & HF & ->). rewrite List.map_map.
  eapply nodup_perm_map; [apply isort_perm|].
  apply NoDup_fmap_2_strong; [|apply NoDup_map_to_list].
  intros [id e] [id' e'] H1 H2 E. cbn in E. injection E as ->. apply elem_of_map_to_list in H1, H2.
  destruct (run_entries_from _ _ _ _ _ H1) as [H|[_ ->]]; [unfold single_init in H; cbn [ss_coalesced] in H; by rewrite lookup_empty in H|].
  destruct (run_entries_from _ _ _ _ _ H2) as [H|[_ ->]]; [unfold single_init in H; cbn [ss_coalesced] in H; by rewrite lookup_empty in H|].
  done.
Qed.

Section exact.
  Context (p : profile) (ho_ : hash_oracle) (mtb : merge_tb) (tb : tiebreak) (t : tree) (o : match_opts).
  Context (Hids : ids_name_keys (in_tree t)) (Hdist : forall pm, in_tree t pm -> ids_distinct pm)
    (Hzoom : zooms_nested t).
  Notation nstack := (node_stack p mtb tb o t).
  Notation step_cok := (step_cok p mtb tb t o).
  Notation cache_exact := (cache_exact p mtb tb t o).

  (** What is returned for one key of a leaf of the first level. *)
  Definition leaf_made (c : coalesce_context) : Prop :=
    exists i n pm k ko ms cs, i ∈ sn_children (t_root t) /\ tree_get t i = Some n /\ sn_pm n = Some pm /\ sn_children n = [] /\
      k ∈ sq_keys pm /\ key_opts p o pm k ko /\ streaming_get_matching p mtb tb (sq_store pm) (mki_key k) ko 80 = Ok ms /\
      tree_coalesce_single p pm ko ms (mki_id k) = Ok cs /\ c ∈ cs.
  Lemma leaf_made_result c : leaf_made c -> leaf_result p mtb tb o t c.
  Proof using.
    clear. intros (i & n & pm & k & ko & ms & cs & Hi & Hn & Hpm & Hl & Hk & Hko & Hms & Hcs & Hc).
    destruct (tree_single_ok _ _ _ _ _ _ Hcs c Hc) as (g & e & Hg & He & ->).
    exists i, n, pm, k, g, e. do 4 (split; [done|]). split; [by exists ko, ms|]. split; [by eapply entry_of_inv|].
    apply to_entry_inv in He as (_ & _ & _ & Em & _). unfold single_context. by rewrite Em.
  Qed.
  Definition exact (c : coalesce_context) : Prop := stack_result p mtb tb o t c \/ leaf_made c.
  (** The subqueries that the entries come from. *)
  Definition backed (es : list coalesce_entry) (P : list subquery) : Prop :=
    Forall2 (fun pm e => in_tree t pm /\ exists k, k ∈ sq_keys pm /\ mki_id k = ce_phrasematch_id e) P es.
  Lemma backed_unique es P P' : own_ids (in_tree t) -> backed es P -> backed es P' -> P = P'.
  Proof.
    intros Ho H. revert P'. induction H as [|pm e P es (T1 & k & K1 & K2) H IH]; intros P' H'; inversion H' as [|pm' ? P0 ? (T2 & k' & K3 & K4) H0]; [done|].
    subst. f_equal; [|by apply IH]. eapply Ho; [exact T1|exact T2|exact K1|exact K3|congruence].
  Qed.
  Lemma nstack_backed n chain es : nstack n chain es -> backed es chain.
  Proof.
    intros H. induction H as [i n pm e Hi Hn Hpm (k & g & (_ & _ & _ & Hk & _) & (_ & _ & _ & _ & _ & _ & E & _))
      |n' pm' e' pms es i n pm e Hns IH Hi Hn Hpm (k & g & (_ & _ & _ & Hk & _) & (_ & _ & _ & _ & _ & _ & E & _)) _ _].
    - constructor; [|apply List.Forall2_nil]. split; [by exists i, n|]. by exists k.
    - constructor; [|exact IH]. split; [by exists i, n|]. by exists k.
  Qed.

  (** ** One step *)
  Definition branch (x : tstep * list subquery) : list subquery := tp_sq x.1 :: x.2.
  Record step_made (x : tstep * list subquery) (r : list coalesce_context * list tstep) : Prop := {
    sm_out : forall c, c ∈ r.1 -> exists es, c = stack_context (branch x) es /\ nstack (tp_node x.1) (branch x) es;
    sm_once : NoDup (map cc_entries r.1);
    sm_next : forall s1, s1 ∈ r.2 -> step_cok (branch x) s1;
    sm_apart : siblings_apart t -> NoDup (map tp_sq r.2) }.
  Lemma cok_node chain st : step_cok chain st -> exists i, tree_get t i = Some (tp_node st).
  Proof.
    intros [_ H]. destruct (tp_prev st); [destruct H as (_ & n' & i & _ & H & _)|destruct H as (i & _ & H)]; eauto.
  Qed.
  Lemma best_sub css outs :
    Forall2 (fun cs out => best_40 (map penalize cs) out) css outs -> mjoin outs ⊆+ map penalize (mjoin css).
  Proof.
    intros H. induction H as [|cs out css outs (q & (_ & dropped & Q1 & _) & Hp) H IH]; [done|].
    change (mjoin (?a :: ?b)) with (a ++ mjoin b). rewrite List.map_app. apply submseteq_app; [|done].
    rewrite Q1, Hp. by apply submseteq_inserts_r.
  Qed.
  Lemma sel_apart n sel : siblings_apart t -> n = t_root t \/ (exists i, tree_get t i = Some n) ->
    map fst sel `sublist_of` sn_children n ->
    (forall i s1, (i, s1) ∈ sel -> exists c, tree_get t i = Some c /\ sn_pm c = Some (tp_sq s1)) ->
    NoDup (map tp_sq (map snd sel)).
  Proof.
    intros Hs Hn Hsub Hsel. destruct (Hs n Hn) as (l & Hnd & HF).
    destruct (forall2_sub _ _ _ Hsub _ HF Hnd) as (l' & HF' & Hnd' & _).
    assert (E : map tp_sq (map snd sel) = l').
    { clear Hsub HF Hnd Hnd' l. revert l' HF'. induction sel as [|[i s1] sel IH]; intros l' HF'; cbn [map fst snd] in *; inversion HF' as [|? pm ? l0 H1 H2]; [done|].
      subst. f_equal; [|by apply IH; [intros; apply Hsel; by right|]]. destruct (Hsel i s1 ltac:(by left)) as (c & Hc & Hpm).
      apply H1 in Hc. congruence. }
    by rewrite E.
  Qed.
  Lemma run_made cache site x r :
    step_cok x.2 x.1 -> cache_exact cache -> run_step p ho_ tb t o cache site x.1 = Ok r -> step_made x r.
  Proof.
    destruct x as [st chain]. cbn [fst snd]. intros Hok Cache H. destruct r as [out next].
    apply run_step_ok in H as (scale & css & sel & [N1 N2 (outs & N3 & ->) -> [N5 N4] _]).
    assert (Hj : forall i s1, (i, s1) ∈ sel -> i ∈ sn_children (tp_node st)).
    { intros i s1 Hin. eapply elem_of_sublist; [|exact N5]. apply elem_of_map. by exists (i, s1). }
    pose proof (best_sub _ _ N3) as Hsub.
    split; unfold branch; cbn [fst snd].
    - intros c Hc. apply (elem_of_submseteq _ _ _ Hc) in Hsub. apply elem_of_map in Hsub as (d & -> & Hd).
      destruct (made_stack _ _ _ _ _ Hids Hzoom _ _ _ _ _ _ Hok Cache N1 N2 Hd) as (es & -> & Hns). exists es. split; [|done].
      apply penalize_raw. apply nstack_head in Hns as (_ & _ & _ & ? & ? & _ & _ & _ & -> & _). done.
    - eapply submseteq_nodup; [apply fmap_submseteq; exact Hsub|].
      change (NoDup (map cc_entries (map penalize (mjoin css)))). rewrite List.map_map. erewrite map_ext.
      + eapply made_nodup; [exact Hdist|exact Hok|exact Cache|exact N2].
      + intros d. by apply penalize_inj.
    - intros s1 Hs1. apply elem_of_map in Hs1 as ([i s2] & -> & Hin). cbn [snd]. destruct (N4 _ _ Hin) as (n & Hn & Hfor).
      eapply child_cok; [exact Hids|exact Hdist|exact Hzoom|exact Hok|exact Cache|exact N1|exact N2|by eapply Hj|exact Hn|exact Hfor].
    - intros Hs. apply (sel_apart (tp_node st)); [done|right; by eapply cok_node|exact N5|].
      intros i s1 Hin. destruct (N4 _ _ Hin) as (n & Hn & Hfor). exists n. split; [done|]. apply (sf_pm _ _ _ _ _ _ Hfor).
  Qed.
  Lemma made_exact x r : step_cok x.2 x.1 -> is_single x.1 = false -> step_made x r -> forall c, c ∈ r.1 -> exact c.
  Proof.
    intros Hok Hns Hm c Hc. destruct (sm_out _ _ Hm c Hc) as (es & -> & Hst). left. exists (tp_node x.1), (branch x), es.
    split; [done|]. split; [|done]. unfold is_single, is_leaf in Hns. pose proof (so_prev _ _ _ _ _ _ _ (sc_ok _ _ _ _ _ _ _ Hok)) as Hp.
    destruct (tp_prev x.1).
    - destruct Hp as (pm & rest & E & _). left. unfold branch. rewrite E. cbn [length]. lia.
    - right. by destruct (sn_children (tp_node x.1)).
  Qed.

  (** ** Rounds *)
  Record xstate (H : list (tstep * list subquery)) (cache : gmap N (list match_entry)) (L : list coalesce_context)
      (q : cpq coalesce_context) : Prop := {
    xs_holds : cpq_holds ctx_cmp tree_max_contexts L q;
    xs_cache : cache_exact cache;
    xs_steps : forall x, x ∈ H -> step_cok x.2 x.1;
    xs_exact : forall c, c ∈ L -> exact c;
    xs_once : own_ids (in_tree t) -> siblings_apart t ->
      apart (map branch H) /\ NoDup (map cc_entries L) /\
      forall c, c ∈ L -> exists P, backed (cc_entries c) P /\ forall x, x ∈ H -> ~ branch x `suffix_of` P }.
  Definition xinv (s : tree_state) : Prop :=
    exists H L, map fst H = hp_items (tr_steps s) /\ xstate H (tr_cache s) L (tr_contexts s).

  (** What is fetched for the leaves of the first level. *)
  Lemma fetched_made (popped : list tstep) keys round fs :
    (forall st, st ∈ popped -> exists chain, step_cok chain st) ->
    (forall kf, kf ∈ keys -> exists st k, st ∈ popped /\ fetches p st k kf) ->
    NoDup (map (fun kf => (kf_id kf, kf_single kf)) keys) ->
    Forall2 (fun k f => fetch_key p mtb tb k = Ok f) keys fs ->
    let A := mjoin (map (pushed_of ho_ round) (combine (seq 0 (length fs)) fs)) in
    NoDup (map cc_entries A) /\
    forall c, c ∈ A -> leaf_made c /\
      exists st, st ∈ popped /\ is_single st = true /\ tp_prev st = None /\ backed (cc_entries c) [tp_sq st].
  Proof.
    intros Hpop Hkf Hnd HF A.
    assert (HF' : Forall2 (fun kf l => NoDup (map cc_entries l) /\ forall c, c ∈ l ->
      kf_single kf = true /\ ce_phrasematch_id <$> head (cc_entries c) = Some (kf_id kf) /\
      exists out e g cs, streaming_get_matching p mtb tb (sq_store (kf_sq kf)) (kf_key kf) (kf_opts kf) 80 = Ok out /\ g ∈ out /\
        tree_coalesce_single p (kf_sq kf) (kf_opts kf) out (kf_id kf) = Ok cs /\ c ∈ cs /\
        grid_to_coalesce_entry p g (kf_sq kf) (kf_opts kf) (kf_id kf) = Ok e /\ c = single_context e)
      keys (map (pushed_of ho_ round) (combine (seq 0 (length fs)) fs))).
    { rewrite Forall2_fmap_r. apply Forall2_same_length_lookup_2.
      { rewrite combine_length, seq_length. rewrite (Forall2_length _ _ _ HF). lia. }
      intros i kf [j f] Hki Hf.
      assert (Hfi : fs !! i = Some f).
      { pose proof (combine_seq_snd fs 0) as Es.
        assert (Hm : map snd (combine (seq 0 (length fs)) fs) !! i = Some f) by (rewrite list_lookup_fmap, Hf; done). by rewrite Es in Hm. }
      pose proof (Forall2_lookup_lr _ _ _ _ _ _ HF Hki Hfi) as Hk. apply fetch_key_ok in Hk. unfold pushed_of. cbn [fst snd].
      destruct f as [q|]; [|split; [constructor|intros c Hc; by apply elem_of_nil in Hc]].
      destruct Hk as (Hs & out & cs & Ho & Hcs & Hq). split.
      - eapply nodup_perm_map; [apply cpq_iter_perm|]. destruct Hq as (_ & dropped & Q1 & _).
        pose proof (tree_single_once _ _ _ _ _ _ Hcs) as Hn. eapply nodup_perm_map in Hn; [|symmetry; exact Q1].
        rewrite List.map_app in Hn. by apply NoDup_app in Hn as (? & _).
      - intros c Hc. change (c ∈ cpq_iter ho_ [6; round; N.of_nat j] q) in Hc. rewrite cpq_iter_perm in Hc. apply (holds_in _ _ _ _ Hq) in Hc.
        destruct (tree_single_ok _ _ _ _ _ _ Hcs c Hc) as (g0 & e & Hg0 & He & ->).
        split; [done|]. split; [|exists out, e, g0, cs; done].
        apply to_entry_inv in He as (_ & _ & _ & _ & _ & _ & E & _). cbn. by rewrite E. }
    clear HF. split.
    - unfold A. rewrite map_mjoin.
      apply (nodup_mjoin_tag (fun l : list coalesce_entry => (ce_phrasematch_id <$> head l, true))
        (map (fun ib : N * bool => (Some ib.1, ib.2)) (map (fun kf => (kf_id kf, kf_single kf)) keys))).
      + rewrite !Forall2_fmap_l. rewrite Forall2_fmap_r. eapply Forall2_impl; [exact HF'|]. intros kf l [H1 H2]. cbn beta.
        split; [done|]. intros es Hes. apply elem_of_map in Hes as (c & -> & Hc). destruct (H2 c Hc) as (-> & -> & _). done.
      + apply NoDup_fmap_2; [|done]. intros [a b] [a' b'] H. cbn in H. by injection H as -> ->.
    - intros c Hc. apply elem_of_mjoin in Hc as (l & Hc & Hl). apply elem_of_list_lookup in Hl as [i Hi].
      destruct (Forall2_lookup_r _ _ _ _ _ HF' Hi) as (kf & Hki & _ & H). destruct (H c Hc) as (Hsing & _ & out & e & g & cs & Ho & Hg & Hcs & Hccs & He & ->).
      destruct (Hkf kf ltac:(by eapply elem_of_list_lookup_2)) as (st & k & Hin & (K1 & K2 & K3 & K4 & K5 & K6)).
      destruct (Hpop st Hin) as (chain & Hok0). pose proof Hok0 as [Hok Hpr]. rewrite K5 in Hsing.
      pose proof Hsing as Hsing'. unfold is_single in Hsing. pose proof (so_prev _ _ _ _ _ _ _ Hok) as Hp0.
      destruct (tp_prev st) eqn:Epr; [done|]. subst chain. unfold is_leaf in Hsing. destruct Hpr as (j & Hj & Hn).
      rewrite K3, K2 in He. pose proof (to_entry_inv _ _ _ _ _ _ He) as (_ & _ & _ & Em & _ & _ & Eid & _).
      split.
      + rewrite K3, K4 in Ho. rewrite K3, K2 in Hcs.
        exists j, (tp_node st), (tp_sq st), k, (kf_opts kf), out, cs. split; [done|]. split; [done|]. split; [apply (sf_pm _ _ _ _ _ _ (so_for _ _ _ _ _ _ _ Hok))|].
        split; [by destruct (sn_children (tp_node st))|]. split; [done|]. split; [|done].
        exists (tp_opts st). split; [apply (sf_opts _ _ _ _ _ _ (so_for _ _ _ _ _ _ _ Hok))|done].
      + exists st. split; [done|]. split; [done|]. split; [done|]. cbn [single_context cc_entries]. constructor; [|apply List.Forall2_nil].
        split; [apply (so_tree _ _ _ _ _ _ _ Hok)|]. exists k. by rewrite Eid.
  Qed.

  Lemma apart_inj (H : list (tstep * list subquery)) x y :
    apart (map branch H) -> x ∈ H -> y ∈ H -> branch x `suffix_of` branch y -> x = y.
  Proof.
    intros [H1 H2] Hx Hy Hs. apply (nodup_map_inj branch H); [done..|]. apply H2; [| |done]; apply elem_of_map; eauto.
  Qed.
  Lemma zip_fst (l : list (tstep * list subquery)) (rs : list (list coalesce_context * list tstep)) : length l = length rs ->
    map fst (mjoin (zip_with (fun x r => map (fun s1 => (s1, branch x)) r.2) l rs)) = mjoin (map snd rs).
  Proof.
    revert rs. induction l as [|x l IH]; intros [|r rs] Hl; cbn [zip_with map] in *; [done|done|done|].
    change (mjoin (?a :: ?b)) with (a ++ mjoin b). rewrite List.map_app, IH by (cbn in Hl; lia). f_equal.
    rewrite List.map_map. apply map_id.
  Qed.

  Lemma round_exact round s s' complete :
    xinv s -> tree_round p ho_ mtb tb t o round s = Ok (s', complete) -> xinv s'.
  Proof.
    intros (H & L & EH & [Hq Hc Hsteps Hex Honce]) Hr.
    apply tree_round_ok in Hr as (g & popped & last & fs & rs & [Gd Hcomp HF Hrun Hctx Hst Hqs [C1 C2]]).
    pose proof (gd_steps _ _ _ _ _ _ _ _ Gd) as Hp. cbn [gt_steps] in Hp.
    assert (Hsplit : exists Hpop Hlast Hrest, H ≡ₚ Hpop ++ Hlast ++ Hrest /\ map fst Hpop = popped /\
      map fst Hlast = last /\ map fst Hrest = hp_items (gt_steps g)).
    { rewrite <- EH in Hp. symmetry in Hp. apply Permutation_map_inv in Hp as (H' & E & Hperm). symmetry in E. apply map_eq_app in E as (Hpop & H1 & -> & <- & E).
      apply map_eq_app in E as (Hlast & Hrest & -> & <- & <-). by exists Hpop, Hlast, Hrest. }
    destruct Hsplit as (Hpop & Hlast & Hrest & HH & <- & <- & Erest).
    assert (Hin1 : forall x, x ∈ Hpop -> x ∈ H) by (intros x Hx; rewrite HH, !elem_of_app; auto).
    assert (Hin2 : forall x, x ∈ Hrest -> x ∈ H) by (intros x Hx; rewrite HH, !elem_of_app; auto).
    assert (Hpc : forall st, st ∈ map fst Hpop -> exists chain, (st, chain) ∈ Hpop /\ step_cok chain st).
    { intros st Hin. apply elem_of_map in Hin as ([st' chain] & -> & Hx). exists chain. split; [done|]. by apply (Hsteps (st', chain)), Hin1. }
    assert (Hkf : forall kf, kf ∈ gt_keys g -> exists st k, st ∈ map fst Hpop /\ fetches p st k kf).
    { destruct (gd_keys_from _ _ _ _ _ _ _ _ Gd) as (new & E & Hn). cbn [gt_keys app] in E. rewrite E. exact Hn. }
    destruct (gd_keyed _ _ _ _ _ _ _ _ Gd) as [[Hknd _] _].
    { cbn [gt_keys gt_unique]. split; [constructor|]. intros id b. split; [intros Hb; by apply elem_of_nil in Hb|].
      intros (kf & Hb & _). by apply elem_of_nil in Hb. }
    assert (Cache : cache_exact (tr_cache s')).
    { intros id gs Hl. destruct (C1 _ _ Hl) as [Hold|Hnew]; [by apply Hc|].
      apply elem_of_list_lookup in Hnew as [i Hi]. destruct (Forall2_lookup_r _ _ _ _ _ HF Hi) as (kf & Hkfi & Hf).
      apply fetch_key_ok in Hf as (_ & -> & out & Hout & ->).
      destruct (Hkf kf ltac:(by eapply elem_of_list_lookup_2)) as (st & k & Hin & (K1 & K2 & K3 & K4 & K5 & K6)).
      destruct (Hpc st Hin) as (chain & _ & [Hok _]). exists (tp_sq st), k, (kf_opts kf), out.
      split; [apply (so_tree _ _ _ _ _ _ _ Hok)|]. split; [done|]. split; [done|]. split.
      - exists (tp_opts st). split; [apply (sf_opts _ _ _ _ _ _ (so_for _ _ _ _ _ _ _ Hok))|done].
      - rewrite K3, K4 in Hout. done. }
    destruct (fetched_made (map fst Hpop) (gt_keys g) round fs) as [A1 A2]; [|done|done|done|].
    { intros st Hin. destruct (Hpc st Hin) as (chain & _ & ?). by exists chain. }
    set (A := mjoin (map (pushed_of ho_ round) (combine (seq 0 (length fs)) fs))) in *.
    set (Hns := List.filter (fun x : tstep * list subquery => not_single x.1) Hpop).
    assert (Hin3 : forall x, x ∈ Hns -> x ∈ Hpop /\ is_single x.1 = false).
    { intros x Hx. apply elem_of_filter in Hx as [H1 H2]. split; [done|]. unfold not_single in H2. by destruct (is_single x.1). }
    assert (Hmade : Forall2 step_made Hns rs).
    { unfold Hns in *. rewrite <- (map_filter fst not_single) in Hrun. rewrite Forall2_fmap_l in Hrun.
      apply Forall2_same_length_lookup_2; [by eapply Forall2_length|]. intros i x r Hx Hr.
      destruct (Forall2_lookup_lr _ _ _ _ _ _ Hrun Hx Hr) as (site & Hrn). cbn beta in Hrn.
      eapply run_made; [|exact Cache|exact Hrn]. apply Hsteps, Hin1, Hin3. by eapply elem_of_list_lookup_2. }
    set (B := mjoin (map fst rs)) in *.
    assert (HB : forall c, c ∈ B -> exists x r, x ∈ Hns /\ step_made x r /\ c ∈ r.1).
    { intros c Hcin. apply elem_of_mjoin in Hcin as (l & Hcl & Hl). apply elem_of_map in Hl as (r & -> & Hr).
      apply elem_of_list_lookup in Hr as [i Hi]. destruct (Forall2_lookup_r _ _ _ _ _ Hmade Hi) as (x & Hx & Hm).
      exists x, r. split; [by eapply elem_of_list_lookup_2|done]. }
    set (kids := mjoin (zip_with (fun x r => map (fun s1 => (s1, branch x)) r.2) Hns rs)).
    assert (Hkids : forall y, y ∈ kids -> exists x r s1, x ∈ Hns /\ step_made x r /\ s1 ∈ r.2 /\ y = (s1, branch x)).
    { intros y Hy. apply elem_of_mjoin in Hy as (l & Hy & Hl). apply elem_of_lookup_zip_with in Hl as (i & x & r & -> & Hx & Hr).
      apply elem_of_map in Hy as (s1 & -> & Hs1). exists x, r, s1. split; [by eapply elem_of_list_lookup_2|].
      split; [exact (Forall2_lookup_lr _ _ _ _ _ _ Hmade Hx Hr)|done]. }
    exists (Hrest ++ kids), (L ++ (A ++ B)). split.
    { rewrite List.map_app, Erest, Hst. f_equal. unfold kids. rewrite zip_fst; [done|]. by eapply Forall2_length. }
    split.
    - rewrite Hctx. by apply push_all_holds.
    - done.
    - intros y Hy. apply elem_of_app in Hy as [Hy|Hy]; [by apply Hsteps, Hin2|].
      apply Hkids in Hy as (x & r & s1 & Hx & Hm & Hs1 & ->). cbn [fst snd]. exact (sm_next _ _ Hm _ Hs1).
    - intros c Hcin. rewrite !elem_of_app in Hcin. destruct Hcin as [Hcin|[Hcin|Hcin]]; [by apply Hex|right; by apply A2|].
      apply HB in Hcin as (x & r & Hx & Hm & Hcr). eapply made_exact; [|by apply Hin3|exact Hm|done]. by apply Hsteps, Hin1, Hin3.
    - intros Hown Hsib. destruct (Honce Hown Hsib) as (O1 & O2 & O3).
      assert (Hapart : apart (map branch (Hpop ++ Hlast ++ Hrest))).
      { eapply apart_sub; [|exact O1]. apply Permutation_submseteq. by rewrite HH. }
      assert (HndH : NoDup (Hpop ++ Hlast ++ Hrest)) by (eapply nodup_map; exact (proj1 Hapart)).
      (* the branch of each new context *)
      assert (HAB : forall c, c ∈ A ++ B -> exists x, x ∈ Hpop /\ backed (cc_entries c) (branch x)).
      { intros c Hcin. apply elem_of_app in Hcin as [Hcin|Hcin].
        - destruct (A2 c Hcin) as (_ & st & Hin & _ & Hpr & Hb). destruct (Hpc st Hin) as (chain & Hx & [Hok _]).
          pose proof (so_prev _ _ _ _ _ _ _ Hok) as Hp0. rewrite Hpr in Hp0. subst chain. exists (st, []). done.
        - apply HB in Hcin as (x & r & Hx & Hm & Hcr). destruct (sm_out _ _ Hm c Hcr) as (es & -> & Hns0). exists x.
          split; [by apply Hin3|]. cbn [stack_context cc_entries]. by eapply nstack_backed. }
      split; [|split].
      + rewrite List.map_app. unfold kids. rewrite map_mjoin. apply (apart_step (map branch Hns)).
        * rewrite <- List.map_app. eapply apart_sub; [|exact Hapart]. apply fmap_submseteq, submseteq_app.
          -- apply sublist_submseteq, filter_sub.
          -- by apply submseteq_inserts_l.
        * rewrite Forall2_fmap_l, Forall2_fmap_r. clear - Hmade Hsib. induction Hmade as [|x r Hns rs Hm Hmade IH]; cbn [zip_with]; [apply List.Forall2_nil|].
          constructor; [|exact IH]. unfold compose. rewrite List.map_map. cbn [branch fst snd]. split.
          -- rewrite <- (List.map_map tp_sq (fun pm => pm :: branch x)). apply NoDup_fmap_2; [intros a b E; by injection E|].
             exact (sm_apart _ _ Hm Hsib).
          -- intros c Hc. apply elem_of_map in Hc as (s1 & -> & _). by exists (tp_sq s1).
      + rewrite !List.map_app. apply NoDup_app. split; [done|]. split.
        { intros es Hes Hes'. rewrite <- List.map_app in Hes'. apply elem_of_map in Hes as (c & -> & Hcin). apply elem_of_map in Hes' as (d & E & Hd).
          destruct (O3 c Hcin) as (P & HP & Hno). destruct (HAB d Hd) as (x & Hx & Hb). rewrite <- E in Hb.
          apply (Hno x (Hin1 _ Hx)). by rewrite (backed_unique _ _ _ Hown HP Hb). }
        apply NoDup_app. split; [done|]. split.
        { intros es Hes Hes'. apply elem_of_map in Hes as (c & -> & Hcin). apply elem_of_map in Hes' as (d & E & Hd).
          destruct (A2 c Hcin) as (_ & st & Hin & Hsg & Hpr & Hb). destruct (Hpc st Hin) as (chain & Hx & [Hok _]).
          pose proof (so_prev _ _ _ _ _ _ _ Hok) as Hp0. rewrite Hpr in Hp0. subst chain.
          apply HB in Hd as (y & r & Hy & Hm & Hcr). destruct (sm_out _ _ Hm d Hcr) as (es & -> & Hns0). cbn [stack_context cc_entries] in E.
          apply nstack_backed in Hns0. rewrite <- E in Hns0. pose proof (backed_unique _ _ _ Hown Hb Hns0) as Eb.
          destruct (Hin3 y Hy) as [Hy1 Hy2]. assert (Exy : (st, []) = y).
          { apply (apart_inj H); [done|by apply Hin1..|]. rewrite <- Eb. done. }
          subst y. cbn [fst] in Hy2. congruence. }
        unfold B. rewrite map_mjoin. apply (nodup_mjoin_rel backed (map branch Hns)).
        * intros es P P'. by apply backed_unique.
        * rewrite Forall2_fmap_l. rewrite !Forall2_fmap_r. eapply Forall2_impl; [exact Hmade|]. intros x r Hm. cbn beta.
          split; [exact (sm_once _ _ Hm)|]. intros es Hes. apply elem_of_map in Hes as (c & -> & Hcin).
          destruct (sm_out _ _ Hm c Hcin) as (es & -> & Hns0). by eapply nstack_backed.
        * rewrite List.map_app in Hapart. destruct Hapart as [Hn _]. apply NoDup_app in Hn as (Hn & _). by apply nodup_filter.
      + intros c Hcin. apply elem_of_app in Hcin as [Hcin|Hcin].
        * destruct (O3 c Hcin) as (P & HP & Hno). exists P. split; [done|]. intros y Hy. apply elem_of_app in Hy as [Hy|Hy]; [by apply Hno, Hin2|].
          apply Hkids in Hy as (x & r & s1 & Hx & _ & _ & ->). cbn [branch fst snd]. intros Hs. apply suffix_longer in Hs.
          by apply (Hno x (Hin1 _ (proj1 (Hin3 _ Hx)))).
        * destruct (HAB c Hcin) as (x & Hx & Hb). exists (branch x). split; [done|]. intros y Hy Hs. apply elem_of_app in Hy as [Hy|Hy].
          -- pose proof (apart_inj H y x O1 (Hin2 _ Hy) (Hin1 _ Hx) Hs) as ->. apply NoDup_app in HndH as (_ & Hd & _).
             apply (Hd x Hx). apply elem_of_app. by right.
          -- apply Hkids in Hy as (z & r & s1 & Hz & _ & _ & ->). cbn [branch fst snd] in Hs. fold (branch z) in Hs. pose proof (suffix_longer _ _ _ Hs) as Hs'.
             pose proof (apart_inj H z x O1 (Hin1 _ (proj1 (Hin3 _ Hz))) (Hin1 _ Hx) Hs') as ->. by apply suffix_len in Hs.
  Qed.

  Lemma first_exact steps :
    res_foldl (first_step p t o) hp_empty (sn_children (t_root t)) = Ok steps ->
    xinv (TreeState (cpq_new tree_max_contexts) steps ∅ (Quotas 0 0 0 0 0)).
  Proof.
    intros H. pose proof (first_ok p mtb tb t o steps H) as (_ & _ & Hok). cbn [tr_steps] in Hok.
    apply first_steps_ok in H as (sel & E & [S1 S2] & _). cbn [hp_empty hp_items app] in E.
    exists (map (fun st => (st, [])) (hp_items steps)), []. split; [rewrite List.map_map; apply map_id|]. split.
    - apply cpq_new_holds.
    - intros id gs. cbn [tr_cache]. by rewrite lookup_empty.
    - intros x Hx. apply elem_of_map in Hx as (st & -> & Hin). cbn [fst snd]. pose proof Hin as Hin'. rewrite E in Hin.
      apply elem_of_map in Hin as ([i s1] & -> & Hin). cbn [snd] in *. destruct (S2 _ _ Hin) as (n & Hn & Hf).
      pose proof (sf_prev _ _ _ _ _ _ Hf) as Hpr. destruct (Hok s1 Hin') as (chain & Hs).
      pose proof (so_prev _ _ _ _ _ _ _ Hs) as Hso. rewrite Hpr in Hso. subst chain. split; [done|]. rewrite Hpr.
      exists i. rewrite (sf_node _ _ _ _ _ _ Hf). split; [|done]. eapply elem_of_sublist; [|exact S1].
      apply elem_of_map. by exists (i, s1).
    - intros c Hc. by apply elem_of_nil in Hc.
    - intros _ Hsib. split; [|split; [constructor|intros c Hc; by apply elem_of_nil in Hc]]. rewrite List.map_map. cbn [branch fst snd]. split.
      + rewrite <- (List.map_map tp_sq (fun pm => [pm])). apply NoDup_fmap_2; [intros a b Eab; by injection Eab|]. rewrite E.
        apply (sel_apart (t_root t)); [done|by left|exact S1|]. intros i s1 Hin. destruct (S2 _ _ Hin) as (n & Hn & Hf).
        exists n. split; [done|]. apply (sf_pm _ _ _ _ _ _ Hf).
      + intros x y Hx Hy [k Ek]. apply elem_of_map in Hx as (a & -> & _), Hy as (b & -> & _).
        destruct k as [|c k]; [by symmetry|]. apply (f_equal length) in Ek. rewrite app_length in Ek. cbn in Ek. lia.
  Qed.

  Lemma tree_exact fuel out : tree_coalesce p ho_ mtb tb fuel t o = Ok out ->
    (forall c, c ∈ out -> exact c) /\
    (own_ids (in_tree t) -> siblings_apart t -> NoDup (map cc_entries out)).
  Proof.
    unfold tree_coalesce. intros H. apply bind_Ok in H as (u & _ & H). apply bind_Ok in H as (steps & Hs & H).
    apply bind_Ok in H as (s & Hl & H). injection H as <-.
    apply (loop_inv p ho_ mtb tb t o xinv round_exact) in Hl as (H & L & _ & [(_ & dropped & Q1 & _) _ _ Hex Honce]); [|by apply first_exact].
    destruct (hp_into_desc_ok ctx_cmp total_cmp_ctx tb (cpq_heap (tr_contexts s))) as [Hp _].
    fold (cpq_into_desc ctx_cmp tb (tr_contexts s)) in Hp. split.
    - intros c Hc. rewrite Hp in Hc. apply Hex. rewrite Q1. apply elem_of_app. by left.
    - intros Hown Hsib. destruct (Honce Hown Hsib) as (_ & Hn & _). eapply nodup_perm_map; [exact Hp|].
      eapply nodup_perm_map in Hn; [|symmetry; exact Q1]. rewrite List.map_app in Hn. by apply NoDup_app in Hn as (? & _).
  Qed.
End exact.

Lemma own_ids_name (S : subquery -> Prop) : (forall pm, S pm -> ids_distinct pm) -> own_ids S -> ids_name_keys S.
Proof.
  intros Hd Ho pm1 pm2 k1 k2 H1 H2 K1 K2 E. pose proof (Ho _ _ _ _ H1 H2 K1 K2 E) as <-. split; [done|].
  assert (k1 = k2) as <-; [|done]. by apply (nodup_map_inj mki_id (sq_keys pm1)); [apply Hd|..].
Qed.
