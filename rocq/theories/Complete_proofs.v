(** What tree_coalesce does not miss. *)
From Verif Require Import Prelude Lists F64 Heap Common Builder Store Query Spatial Coalesce Stackable Tree.
From Verif Require Import Cmp_proofs Queue_proofs Coalesce_proofs Multi_proofs Spec_coalesce Spec_stack Spec_tree Spec_quota Quota_proofs Tree_proofs
  Term_proofs Spec_complete Props_coalesce.
From Coq Require Import ZifyBool.
Local Open Scope N_scope.

(** ** Lists *)
Lemma nodup_mjoin_tag {A B} (f : A -> B) (tags : list B) (css : list (list A)) :
  Forall2 (fun t cs => NoDup cs /\ forall a, a ∈ cs -> f a = t) tags css -> NoDup tags -> NoDup (mjoin css).
Proof.
  intros HF. induction HF as [|t cs tags css [H1 H2] HF IH]; intros Hn; [constructor|].
  apply NoDup_cons in Hn as [Hnt Hn]. change (mjoin (cs :: css)) with (cs ++ mjoin css). apply NoDup_app.
  split; [done|]. split; [|by apply IH]. intros a Ha Hj. apply H2 in Ha. apply elem_of_mjoin in Hj as (cs' & Hac & Hcs).
  apply elem_of_list_lookup in Hcs as [i Hi]. destruct (Forall2_lookup_r _ _ _ _ _ HF Hi) as (t' & Ht & _ & H').
  apply H' in Hac. subst. apply Hnt. by eapply elem_of_list_lookup_2.
Qed.
Lemma map_mjoin {A B} (f : A -> B) (css : list (list A)) : map f (mjoin css) = mjoin (map (map f) css).
Proof.
  induction css as [|cs css IH]; [done|]. cbn [map]. change (mjoin (?a :: ?b)) with (a ++ mjoin b).
  by rewrite List.map_app, IH.
Qed.
Lemma nodup_map {A B} (f : A -> B) (l : list A) : NoDup (map f l) -> NoDup l.
Proof. apply NoDup_fmap_1. Qed.
Lemma nodup_perm_map {A B} (f : A -> B) (l l' : list A) : l ≡ₚ l' -> NoDup (map f l') -> NoDup (map f l).
Proof. intros Hp. by rewrite Hp. Qed.
Lemma nodup_filter {A B} (f : A -> B) (P : A -> bool) (l : list A) : NoDup (map f l) -> NoDup (map f (List.filter P l)).
Proof.
  induction l as [|a l IH]; cbn [map List.filter]; [done|]. intros H. apply NoDup_cons in H as [H1 H2].
  destruct (P a); cbn [map]; [|by apply IH]. apply NoDup_cons. split; [|by apply IH].
  intros Hin. apply H1. apply elem_of_map in Hin as (b & E & Hb). apply elem_of_filter in Hb as [Hb _].
  apply elem_of_map. by exists b.
Qed.

Lemma take_N_lookup {A} (l : list A) : forall n i a,
  take_N n l !! i = Some a <-> l !! i = Some a /\ N.of_nat i < n.
Proof.
  induction l as [|b l IH]; intros n i a; cbn [take_N].
  - rewrite lookup_nil. split; [done|by intros [? _]].
  - destruct (n =? 0) eqn:E.
    + rewrite lookup_nil. split; [done|intros [_ H]; lia].
    + destruct i as [|i]; cbn [lookup list_lookup].
      * split; [intros ->; split; [done|lia]|by intros [? _]].
      * change (list_lookup i (take_N (n - 1) l)) with (take_N (n - 1) l !! i).
        change (list_lookup i l) with (l !! i). rewrite IH. split; intros [H1 H2]; (split; [done|lia]).
Qed.

(** ** One grid per cell and feature *)
Definition seen_in (seen : list (N * N * N)) (k : N * N * N) : bool :=
  existsb (fun k' : N * N * N => bool_decide (k = k')) seen.
Lemma seen_in_true seen k : seen_in seen k = true <-> k ∈ seen.
Proof.
  unfold seen_in. rewrite existsb_exists. split.
  - intros (k' & Hin & H). apply bool_decide_eq_true in H. subst. by apply elem_of_list_In.
  - intros H. exists k. split; [by apply elem_of_list_In|]. by apply bool_decide_eq_true.
Qed.
Lemma uniq_grids_spec l : forall seen g,
  g ∈ uniq_grids seen l <-> exists i, l !! i = Some g /\ spot g ∉ seen /\ forall j g', (j < i)%nat -> l !! j = Some g' -> spot g' <> spot g.
Proof.
  induction l as [|a l IH]; intros seen g; cbn [uniq_grids].
  - split; [intros H; by apply elem_of_nil in H|intros (i & H & _); by rewrite lookup_nil in H].
  - fold (spot a). fold (seen_in seen (spot a)). destruct (seen_in seen (spot a)) eqn:E.
    + apply seen_in_true in E. rewrite IH. split.
      * intros (i & H1 & H2 & H3). exists (S i). split; [done|]. split; [done|]. intros [|j] g' Hj Hg'.
        -- cbn in Hg'. injection Hg' as ->. intros Es. rewrite Es in E. done.
        -- eapply H3; [|exact Hg']. lia.
      * intros ([|i] & H1 & H2 & H3); cbn in H1.
        -- injection H1 as ->. done.
        -- exists i. split; [done|]. split; [done|]. intros j g' Hj Hg'. apply (H3 (S j)); [lia|done].
    + rewrite elem_of_cons, IH. assert (Hns : spot a ∉ seen) by (rewrite <- seen_in_true; by rewrite E). split.
      * intros [->|(i & H1 & H2 & H3)].
        -- exists 0%nat. split; [done|]. split; [done|]. intros j g' Hj. lia.
        -- apply not_elem_of_cons in H2 as [H2 H2']. exists (S i). split; [done|]. split; [done|].
           intros [|j] g' Hj Hg'; [cbn in Hg'; injection Hg' as ->; by apply not_eq_sym|]. eapply H3; [|exact Hg']. lia.
      * intros ([|i] & H1 & H2 & H3); cbn in H1.
        -- injection H1 as ->. by left.
        -- right. exists i. split; [done|]. split.
           ++ apply not_elem_of_cons. split; [|done]. apply not_eq_sym, (H3 0%nat a); [lia|done].
           ++ intros j g' Hj Hg'. apply (H3 (S j)); [lia|done].
Qed.
Lemma uniq_grids_nodup l : forall seen, NoDup (map spot (uniq_grids seen l)).
Proof.
  induction l as [|a l IH]; intros seen; cbn [uniq_grids]; [constructor|]. destruct (existsb _ seen); [apply IH|].
  cbn [map]. apply NoDup_cons. split; [|apply IH]. intros Hin. apply elem_of_map in Hin as (g & E & Hg).
  apply uniq_grids_spec in Hg as (_ & _ & Hg & _). apply Hg. rewrite <- E. by left.
Qed.

(** ** Entries *)
Lemma entry_of_inv p g pm zo k e : grid_to_coalesce_entry p g pm zo (mki_id k) = Ok e -> entry_of pm k g e.
Proof.
  intros H. by eapply to_entry_inv.
Qed.
Lemma entry_of_unique pm k g e e' : entry_of pm k g e -> entry_of pm k g e' -> e = e'.
Proof.
  destruct e, e'. intros (A1 & A2 & A3 & A4 & A5 & A6 & A7 & A8) (B1 & B2 & B3 & B4 & B5 & B6 & B7 & B8).
  simpl in *. congruence.
Qed.

(** ** The least element of a full queue only grows *)
Lemma push_floor tb q a m :
  cpq_max q <= cpq_len q -> (forall d, d ∈ hp_items (cpq_heap q) -> ctx_cmp m d <> Gt) ->
  let q' := (cpq_push ctx_cmp tb q a).1 in
  cpq_max q' <= cpq_len q' /\ (forall d, d ∈ hp_items (cpq_heap q') -> ctx_cmp m d <> Gt).
Proof.
  intros Hf Hm. cbv zeta. unfold cpq_push. unfold cpq_len in Hf. rewrite (proj2 (N.leb_le _ _) Hf).
  destruct (hp_peek_min ctx_cmp tb (cpq_heap q)) as [m'|] eqn:Em; [|done].
  destruct (hp_peek_min_ok ctx_cmp tb _ _ Em) as [Hin _].
  destruct (ctx_cmp a m') eqn:Ea; [done|done|]. cbn [fst].
  destruct (hp_replace_min_ok ctx_cmp total_cmp_ctx tb (cpq_heap q) a) as (m1 & rest & P1 & P2 & _ & Em').
  { intros E. rewrite E in Hin. by apply elem_of_nil in Hin. }
  assert (m1 = m') as -> by congruence. split.
  - unfold cpq_len, hp_len in *. cbn [cpq_max cpq_heap]. rewrite (Permutation_length P2).
    rewrite (Permutation_length P1) in Hf. exact Hf.
  - cbn [cpq_heap]. intros d Hd. rewrite P2 in Hd. apply elem_of_cons in Hd as [->|Hd].
    + eapply (tc_trans _ total_cmp_ctx); [by apply Hm|]. by rewrite (tc_anti _ total_cmp_ctx a m'), Ea.
    + apply Hm. rewrite P1. by right.
Qed.
Lemma push_all_floor tb l m : forall q,
  cpq_max q <= cpq_len q -> (forall d, d ∈ hp_items (cpq_heap q) -> ctx_cmp m d <> Gt) ->
  let q' := cpq_push_all tb q l in
  cpq_max q' <= cpq_len q' /\ (forall d, d ∈ hp_items (cpq_heap q') -> ctx_cmp m d <> Gt).
Proof.
  induction l as [|a l IH]; intros q H1 H2; [done|]. cbv zeta. unfold cpq_push_all in *. cbn [foldl].
  destruct (push_floor tb q a m H1 H2) as [H3 H4]. by apply IH.
Qed.
Lemma ctx_cmp_relev c d : cc_entries c <> [] -> cc_entries d <> [] -> ctx_cmp c d <> Gt -> ord_cmp (cc_relev c) (cc_relev d) <> Gt.
Proof.
  intros Hc Hd. unfold ctx_cmp. destruct (cc_entries c); [done|]. destruct (cc_entries d); [done|].
  unfold cmp_then. by destruct (ord_cmp (cc_relev c) (cc_relev d)).
Qed.
Lemma fleb_ord a b : fleb a b = true -> ord_cmp a b <> Gt.
Proof. unfold fleb, SFleb, ord_cmp. destruct (SFcompare a b) as [[]|]; done. Qed.
Lemma step_cmp_relev a b : step_cmp a b <> Gt -> ord_cmp (sn_max_relev (tp_node a)) (sn_max_relev (tp_node b)) <> Gt.
Proof. unfold step_cmp, cmp_then. by destruct (ord_cmp (sn_max_relev (tp_node a)) (sn_max_relev (tp_node b))). Qed.

Section complete.
  Context (p : profile) (ho_ : hash_oracle) (mtb : merge_tb) (tb : tiebreak) (t : tree) (o : match_opts).
  Context (Hids : ids_name_keys (in_tree t)) (Hdist : forall pm, in_tree t pm -> ids_distinct pm)
    (Hzoom : zooms_nested t) (Hbox : boxes_cover p mtb tb o t).
  Notation nstack := (node_stack p mtb tb o t).

  (** The context of a stack before the penalty. *)
  Definition raw (chain : list subquery) (es : list coalesce_entry) : coalesce_context :=
    CoalesceContext (all_masks (map sq_mask chain)) (sum_relev es) es.
  Lemma penalize_raw chain es : es <> [] -> penalize (raw chain es) = stack_context chain es.
  Proof.
    intros Hne. destruct es as [|e0 [|e1 es]]; [done|done|]. unfold penalize, raw, stack_context, ascending.
    cbn [cc_entries cc_mask cc_relev]. by destruct (ce_mask e1 <? ce_mask e0).
  Qed.
  Lemma nstack_head n chain es : nstack n chain es ->
    exists i pm rest e es', tree_get t i = Some n /\ sn_pm n = Some pm /\ chain = pm :: rest /\ es = e :: es' /\
      stack_entry p mtb tb o pm e.
  Proof. intros H. destruct H; eauto 10. Qed.
  Lemma nstack_tree n pm rest es : nstack n (pm :: rest) es -> in_tree t pm /\ sn_pm n = Some pm.
  Proof.
    intros H. apply nstack_head in H as (i & pm' & rest' & e & es' & H1 & H2 & E & _). injection E as <- <-.
    split; [by exists i, n|done].
  Qed.
  Lemma nstack_zoom n' pm' rest es i n pm :
    nstack n' (pm' :: rest) es -> i ∈ sn_children n' -> tree_get t i = Some n -> sn_pm n = Some pm ->
    zoom_of pm' <= zoom_of pm /\ zoom_of pm - zoom_of pm' < 16.
  Proof.
    intros H Hi Hn Hpm. apply nstack_head in H as (j & pm0 & rest' & e & es' & H1 & H2 & E & _). injection E as <- <-.
    exact (Hzoom _ _ _ _ _ _ H1 H2 Hi Hn Hpm).
  Qed.

  (** ** The cache *)
  Definition cache_exact (cache : gmap N (list match_entry)) : Prop :=
    forall id gs, cache !! id = Some gs -> exists pm k ko out, in_tree t pm /\ k ∈ sq_keys pm /\ mki_id k = id /\
      key_opts p o pm k ko /\
      streaming_get_matching p mtb tb (sq_store pm) (mki_key k) ko 100000 = Ok out /\
      gs = uniq_grids [] (take_N 100000 out).
  Lemma key_opts_unique pm k ko ko' : key_opts p o pm k ko -> key_opts p o pm k ko' -> ko = ko'.
  Proof. intros (z & H1 & H2) (z' & H1' & H2'). rewrite H1 in H1'. injection H1' as <-. congruence. Qed.
  Lemma cached_first cache pm k gs g :
    cache_exact cache -> in_tree t pm -> k ∈ sq_keys pm -> cache !! mki_id k = Some gs ->
    (g ∈ gs <-> first_match p mtb tb o pm k g).
  Proof.
    intros Hc Hpm Hk Hg. destruct (Hc _ _ Hg) as (pm' & k' & ko & out & Hpm' & Hk' & Hid & Hko & Hout & ->).
    destruct (Hids pm pm' k k' Hpm Hpm' Hk Hk' ltac:(done)) as (E1 & E2 & E3).
    assert (Hko0 : key_opts p o pm k ko).
    { destruct Hko as (z & Hz & Hz'). exists z. unfold zoom_of in *. by rewrite E1, E3. }
    rewrite <- E1, <- E2 in Hout. rewrite uniq_grids_spec. split.
    - intros (i & H1 & _ & H3). apply take_N_lookup in H1 as [H1 H2]. exists ko, out, i. do 4 (split; [done|]). split; [done|].
      intros j g' Hj Hg'. apply (H3 j g' Hj). apply take_N_lookup. split; [done|]. lia.
    - intros (ko' & out' & i & _ & Hko' & Hout' & H1 & H2 & H3).
      assert (ko' = ko) as -> by by eapply key_opts_unique. assert (out' = out) as -> by congruence.
      exists i. split; [by apply take_N_lookup|]. split; [apply not_elem_of_nil|].
      intros j g' Hj Hg'. apply take_N_lookup in Hg' as [Hg' _]. by eapply H3.
  Qed.

  (** ** Steps *)
  Record step_cok (chain : list subquery) (s : tstep) : Prop := {
    sc_ok : step_ok p mtb tb t o chain s;
    sc_prev : match tp_prev s with
      | None => exists i, i ∈ sn_children (t_root t) /\ tree_get t i = Some (tp_node s)
      | Some prev => NoDup (map cc_entries prev) /\
          exists n' i, i ∈ sn_children n' /\ tree_get t i = Some (tp_node s) /\
            forall c, c ∈ prev -> exists es, c = raw chain es /\ nstack n' chain es
      end }.

  (** A stack whose outer part is in the contexts of a step. *)
  Definition fits (s : tstep) (chain : list subquery) (es : list coalesce_entry) : Prop :=
    match tp_prev s with
    | None => exists e, es = [e]
    | Some prev => exists e es', es = e :: es' /\ raw chain es' ∈ prev
    end.

  Lemma raw_one pm e : raw [pm] [e] = CoalesceContext (sq_mask pm) (e_relev e) [e].
  Proof. unfold raw. cbn. by rewrite N.lor_0_r. Qed.
  Lemma raw_more pm pm' rest e e' es :
    raw (pm :: pm' :: rest) (e :: e' :: es) =
    CoalesceContext (N.lor (cc_mask (raw (pm' :: rest) (e' :: es))) (sq_mask pm))
      (fadd (cc_relev (raw (pm' :: rest) (e' :: es))) (e_relev e)) (e :: cc_entries (raw (pm' :: rest) (e' :: es))).
  Proof.
    unfold raw. cbn [cc_mask cc_relev cc_entries map]. f_equal. cbn [all_masks foldr]. apply N.lor_comm.
  Qed.

  (** What a step makes from an entry. *)
  Lemma grown_stack chain st scale k g e c :
    step_cok chain st ->
    (let* d := usub p 16 (st_zoom (sq_store (tp_sq st))) (tp_prev_zoom st) in ushl p 16 1 d) = Ok scale ->
    first_match p mtb tb o (tp_sq st) k g -> entry_of (tp_sq st) k g e -> c ∈ grown st scale g e ->
    exists es, c = raw (tp_sq st :: chain) (e :: es) /\ nstack (tp_node st) (tp_sq st :: chain) (e :: es).
  Proof.
    intros [Hok Hprev] Hscale Hfm Heo Hc. unfold grown in Hc. pose proof (so_prev _ _ _ _ _ _ _ Hok) as Hso.
    assert (Hse : stack_entry p mtb tb o (tp_sq st) e) by by exists k, g.
    pose proof (sf_pm _ _ _ _ _ _ (so_for _ _ _ _ _ _ _ Hok)) as Hpm.
    pose proof Heo as (Een & _).
    destruct (tp_prev st) as [prev|].
    - destruct Hso as (pm' & rest & -> & Hz & _). destruct Hprev as (_ & n' & i & Hi & Hn & Hall).
      apply elem_of_map in Hc as (parent & -> & Hpar). apply elem_of_filter in Hpar as [Hpar Hcell].
      destruct (Hall _ Hpar) as (es & -> & Hns). pose proof (nstack_head _ _ _ Hns) as (_ & _ & _ & e' & es' & _ & _ & _ & -> & _).
      exists (e' :: es'). unfold grow. rewrite raw_more. split; [done|].
      destruct (nstack_zoom _ _ _ _ _ _ _ Hns Hi Hn Hpm) as [Z1 Z2].
      destruct (scale_inside _ _ _ _ Hscale) as [_ S2]. rewrite Hz in S2. rewrite (S2 Z1 Z2) in Hcell.
      unfold at_cell, ctx_cell, raw in Hcell. cbn [cc_entries] in Hcell. apply andb_prop in Hcell as [Hx Hy].
      apply N.eqb_eq in Hx, Hy.
      eapply ns_more; [exact Hns|exact Hi|exact Hn|exact Hpm|exact Hse| |]; unfold e_cell; rewrite Een; cbn [fst snd ge_x ge_y].
      + exact Hx.
      + exact Hy.
    - subst chain. destruct Hprev as (i & Hi & Hn). apply elem_of_list_singleton in Hc as ->. exists [].
      unfold base_context. rewrite raw_one. split; [done|]. by eapply ns_one.
  Qed.

  Lemma stack_grown chain st scale k g e es :
    step_cok chain st ->
    (let* d := usub p 16 (st_zoom (sq_store (tp_sq st))) (tp_prev_zoom st) in ushl p 16 1 d) = Ok scale ->
    entry_of (tp_sq st) k g e -> fits st chain (e :: es) -> nstack (tp_node st) (tp_sq st :: chain) (e :: es) ->
    raw (tp_sq st :: chain) (e :: es) ∈ grown st scale g e.
  Proof.
    intros [Hok _] Hscale (Een & _) Hfit Hns. unfold fits in Hfit. unfold grown.
    pose proof (so_prev _ _ _ _ _ _ _ Hok) as Hso.
    destruct (tp_prev st) as [prev|].
    - destruct Hfit as (e0 & es' & [= <- <-] & Hin). destruct Hso as (pm' & rest & -> & Hz & _).
      inversion Hns as [|n' pm0 e' pms es0 i n pm1 e1 Hns' Hi Hn Hpm Hse Hx Hy E1 E2 E3]. subst.
      destruct (nstack_zoom _ _ _ _ _ _ _ Hns' Hi Hn Hpm) as [Z1 Z2].
      destruct (scale_inside _ _ _ _ Hscale) as [_ S2]. rewrite Hz in S2. rewrite (S2 Z1 Z2).
      apply elem_of_map. exists (raw (pm' :: rest) (e' :: es0)). split; [by rewrite raw_more|].
      apply elem_of_filter. split; [done|]. unfold at_cell, ctx_cell, raw. cbn [cc_entries].
      unfold e_cell in Hx, Hy. rewrite Een in Hx, Hy. cbn [fst snd ge_x ge_y] in Hx, Hy.
      unfold zoom_of in *. rewrite Hx, Hy. by rewrite !N.eqb_refl.
    - subst chain. destruct Hfit as (e0 & [= <- ->]). rewrite raw_one. by left.
  Qed.

  (** The contexts of a step. *)
  Lemma made_stack chain st cache scale css c :
    step_cok chain st -> cache_exact cache ->
    (let* d := usub p 16 (st_zoom (sq_store (tp_sq st))) (tp_prev_zoom st) in ushl p 16 1 d) = Ok scale ->
    keys_made p st scale cache (sq_keys (tp_sq st)) css -> c ∈ mjoin css ->
    exists es, c = raw (tp_sq st :: chain) es /\ nstack (tp_node st) (tp_sq st :: chain) es.
  Proof.
    intros Hst Hc Hs Hm Hin. apply (keys_made_elem _ _ _ _ _ _ c Hm) in Hin as (k & grids & g & e & Hk & Hg & Hgin & He & Hgr).
    apply entry_of_inv in He. apply (cached_first _ _ _ _ g Hc (so_tree _ _ _ _ _ _ _ (sc_ok _ _ Hst)) Hk Hg) in Hgin.
    destruct (grown_stack _ _ _ _ _ _ _ Hst Hs Hgin He Hgr) as (es & -> & Hns). eauto.
  Qed.

  Lemma combine_fst {A B} (l : list A) (l' : list B) : length l = length l' -> map fst (combine l l') = l.
  Proof.
    revert l'. induction l as [|a l IH]; intros [|b l'] H; cbn in *; [done|done|done|]. f_equal. apply IH. lia.
  Qed.
  Lemma key_made_nodup chain st scale cache k grids cs :
    step_cok chain st -> cache_exact cache -> k ∈ sq_keys (tp_sq st) -> cache !! mki_id k = Some grids ->
    key_made p st scale (mki_id k) grids cs ->
    NoDup (map cc_entries cs) /\ forall c, c ∈ cs -> ce_phrasematch_id <$> head (cc_entries c) = Some (mki_id k).
  Proof.
    intros Hst Hc Hk Hg Hm. destruct (Hc _ _ Hg) as (_ & _ & _ & out & _ & _ & _ & _ & _ & Hgs).
    split.
    - destruct Hm as (es & css & F1 & F2 & ->). rewrite map_mjoin.
      apply (nodup_mjoin_tag
        (fun l : list coalesce_entry => (fun e => (ge_x (ce_entry e), ge_y (ce_entry e), ge_id (ce_entry e))) <$> head l)
        (map (fun ge : match_entry * coalesce_entry => Some (spot ge.1)) (combine grids es))).
      + rewrite Forall2_fmap_l, Forall2_fmap_r.
        apply Forall2_same_length_lookup_2; [by eapply Forall2_length|].
        intros i [g e] cs0 Hge Hcs. cbn [fst]. pose proof (Forall2_lookup_lr _ _ _ _ _ _ F2 Hge Hcs) as Hp. cbn [fst snd] in Hp.
        assert (He : grid_to_coalesce_entry p g (tp_sq st) (tp_opts st) (mki_id k) = Ok e).
        { clear - F1 Hge. revert i Hge. induction F1 as [|g0 e0 grids es H F1 IH]; intros [|i] Hge; [done|done| |].
          - cbn in Hge. injection Hge as <- <-. done.
          - cbn in Hge. by eapply IH. }
        apply entry_of_inv in He as (Een & _). split.
        * eapply nodup_perm_map; [exact Hp|]. unfold grown. pose proof (sc_prev _ _ Hst) as Hpr.
          destruct (tp_prev st) as [prev|]; [|cbn [map]; apply NoDup_singleton].
          destruct Hpr as [Hnd _]. rewrite List.map_map. cbn [grow cc_entries].
          rewrite <- (List.map_map cc_entries (cons e)). apply NoDup_fmap_2; [intros a b H; by injection H|].
          by apply nodup_filter.
        * intros l Hl. apply elem_of_map in Hl as (c & -> & Hcin). rewrite Hp in Hcin. unfold spot.
          assert (Hh : head (cc_entries c) = Some e).
          { unfold grown in Hcin. destruct (tp_prev st).
            - apply elem_of_map in Hcin as (parent & -> & _). done.
            - apply elem_of_list_singleton in Hcin as ->. done. }
          rewrite Hh. cbn. by rewrite Een.
      + rewrite <- (List.map_map fst (fun g => Some (spot g))).
        rewrite combine_fst by by eapply Forall2_length.
        rewrite <- (List.map_map spot Some). apply NoDup_fmap_2; [apply _|]. rewrite Hgs. apply uniq_grids_nodup.
    - intros c Hcin. apply (key_made_elem _ _ _ _ _ _ c Hm) in Hcin as (g & e & _ & He & Hgr).
      apply to_entry_inv in He as (_ & _ & _ & _ & _ & _ & Hid & _). unfold grown in Hgr. destruct (tp_prev st).
      + apply elem_of_map in Hgr as (parent & -> & _). cbn. by rewrite Hid.
      + apply elem_of_list_singleton in Hgr as ->. cbn. by rewrite Hid.
  Qed.
  Lemma made_nodup chain st cache scale css :
    step_cok chain st -> cache_exact cache -> keys_made p st scale cache (sq_keys (tp_sq st)) css ->
    NoDup (map cc_entries (mjoin css)).
  Proof.
    intros Hst Hc Hm. rewrite map_mjoin.
    apply (nodup_mjoin_tag (fun l : list coalesce_entry => ce_phrasematch_id <$> head l)
      (map (fun k => Some (mki_id k)) (sq_keys (tp_sq st)))).
    - rewrite Forall2_fmap_l, Forall2_fmap_r. apply Forall2_same_length_lookup_2; [by eapply Forall2_length|].
      intros i k cs Hk Hcs. pose proof (Forall2_lookup_lr _ _ _ _ _ _ Hm Hk Hcs) as Hkm. cbn beta in Hkm.
      apply elem_of_list_lookup_2 in Hk. destruct (cache !! mki_id k) as [grids|] eqn:Eg.
      + destruct (key_made_nodup _ _ _ _ _ _ _ Hst Hc Hk Eg Hkm) as [H1 H2]. split; [done|].
        intros l Hl. apply elem_of_map in Hl as (c & -> & Hcin). by apply H2.
      + subst cs. split; [constructor|]. intros l Hl. by apply elem_of_nil in Hl.
    - rewrite <- (List.map_map mki_id Some). apply NoDup_fmap_2; [apply _|].
      apply Hdist, (so_tree _ _ _ _ _ _ _ (sc_ok _ _ Hst)).
  Qed.

  (** ** Phase 2 for a step *)
  Definition handled (L : list coalesce_context) (n : node) (chain : list subquery) (es : list coalesce_entry) : Prop :=
    stack_context chain es ∈ L \/ key_crowded p mtb tb o t n chain es.
  Lemma handled_mono L L' n chain es : (forall c, c ∈ L -> c ∈ L') -> handled L n chain es -> handled L' n chain es.
  Proof. intros HL [H|H]; [left; by apply HL|by right]. Qed.

  Lemma penalize_inj c : cc_entries (penalize c) = cc_entries c.
  Proof. clear. unfold penalize. destruct c as [m r [|e0 [|e1 es]]]; cbn [cc_entries]; [done|done|]. by destruct (_ <? _). Qed.
  Lemma run_handled chain st cache scale css outs es :
    step_cok chain st -> cache_exact cache ->
    (let* d := usub p 16 (st_zoom (sq_store (tp_sq st))) (tp_prev_zoom st) in ushl p 16 1 d) = Ok scale ->
    keys_made p st scale cache (sq_keys (tp_sq st)) css ->
    Forall2 (fun cs out => best_40 (map penalize cs) out) css outs ->
    (forall k, k ∈ sq_keys (tp_sq st) -> Some (mki_id k) = ce_phrasematch_id <$> head es -> is_Some (cache !! mki_id k)) ->
    fits st chain es -> nstack (tp_node st) (tp_sq st :: chain) es ->
    raw (tp_sq st :: chain) es ∈ mjoin css /\ handled (mjoin outs) (tp_node st) (tp_sq st :: chain) es.
  Proof.
    intros Hst Hc Hs Hm Ho Hfree Hfit Hns.
    pose proof (nstack_head _ _ _ Hns) as (_ & pm & rest & e & es' & _ & _ & [= <- <-] & -> & (k & g & Hfm & Heo)).
    pose proof Hfm as (_ & _ & _ & Hk & _).
    destruct (Hfree k Hk) as [grids Hg].
    { cbn. destruct Heo as (_ & _ & _ & _ & _ & _ & -> & _). done. }
    apply (cached_first _ _ _ _ g Hc (so_tree _ _ _ _ _ _ _ (sc_ok _ _ Hst)) Hk Hg) in Hfm.
    pose proof Hk as Hk'. apply elem_of_list_lookup in Hk' as [j Hj].
    destruct (Forall2_lookup_l _ _ _ _ _ Hm Hj) as (cs & Hcs & Hkm). cbn beta in Hkm. rewrite Hg in Hkm.
    assert (Hraw : raw (tp_sq st :: chain) (e :: es') ∈ cs).
    { apply (key_made_elem _ _ _ _ _ _ _ Hkm).
      destruct Hkm as (es0 & css0 & F1 & _). apply elem_of_list_lookup in Hfm as [i Hi].
      destruct (Forall2_lookup_l _ _ _ _ _ F1 Hi) as (e1 & _ & He1). pose proof (entry_of_inv _ _ _ _ _ _ He1) as Heo1.
      assert (e1 = e) as -> by by eapply entry_of_unique. exists g, e. split; [by eapply elem_of_list_lookup_2|]. split; [done|].
      by eapply stack_grown. }
    split; [apply elem_of_mjoin; exists cs; split; [done|by eapply elem_of_list_lookup_2]|].
    destruct (Forall2_lookup_l _ _ _ _ _ Ho Hcs) as (out & Hout & q & (_ & dropped & Q1 & Q2 & Q3) & Hperm).
    assert (Hin : stack_context (tp_sq st :: chain) (e :: es') ∈ map penalize cs).
    { apply elem_of_map. exists (raw (tp_sq st :: chain) (e :: es')). split; [by rewrite penalize_raw|done]. }
    destruct (key_made_nodup _ _ _ _ _ _ _ Hst Hc Hk Hg Hkm) as [Hnd Hpid].
    assert (Hnd' : NoDup (map cc_entries (map penalize cs))).
    { rewrite List.map_map. erewrite map_ext; [exact Hnd|]. intros c. by apply penalize_inj. }
    rewrite Q1 in Hin. apply elem_of_app in Hin as [Hin|Hdr].
    - left. rewrite <- Hperm in Hin. apply elem_of_mjoin. exists out. split; [done|by eapply elem_of_list_lookup_2].
    - right. exists (map cc_entries (hp_items (cpq_heap q))).
      rewrite Q1, List.map_app in Hnd'. apply NoDup_app in Hnd' as (N1 & N2 & _). split; [done|]. split.
      { rewrite map_length. pose proof (Permutation_length Q1) as Hl. rewrite app_length in Hl.
        assert (0 < length dropped)%nat by (destruct dropped; [by apply elem_of_nil in Hdr|cbn; lia]).
        unfold max_contexts in Q2. lia. }
      intros es1 Hes1. pose proof Hes1 as Hes1'. apply elem_of_map in Hes1 as (d & -> & Hd).
      assert (Hdp : d ∈ map penalize cs) by (rewrite Q1; apply elem_of_app; by left).
      apply elem_of_map in Hdp as (d0 & -> & Hd0). rewrite penalize_inj in *.
      assert (Hd0j : d0 ∈ mjoin css) by (apply elem_of_mjoin; exists cs; split; [done|by eapply elem_of_list_lookup_2]).
      destruct (made_stack _ _ _ _ _ _ Hst Hc Hs Hm Hd0j) as (es1 & -> & Hns1). cbn [raw cc_entries] in *.
      split; [done|]. split.
      { transitivity (Some (mki_id k)); [exact (Hpid _ Hd0)|]. cbn. destruct Heo as (_ & _ & _ & _ & _ & _ & -> & _). done. }
      split.
      { intros ->. apply (N2 _ Hes1'). apply elem_of_map. eexists. split; [|exact Hdr]. done. }
      assert (Hne : es1 <> []) by (apply nstack_head in Hns1 as (_ & _ & _ & ? & ? & _ & _ & _ & -> & _); done).
      rewrite penalize_raw in Hd by done. apply cmp_listed_before; [done|done|]. by apply Q3.
  Qed.

  (** The step for a child. *)
  Lemma box_hit chain st state es n' i n pm pm' rest e :
    tp_sq st :: chain = pm' :: rest -> raw (pm' :: rest) es ∈ state ->
    nstack n' (pm' :: rest) es -> i ∈ sn_children n' -> tree_get t i = Some n -> sn_pm n = Some pm ->
    nstack n (pm :: pm' :: rest) (e :: es) ->
    box_hits p state (st_zoom (sq_store pm')) pm.
  Proof.
    intros _ Hraw Hns' Hi Hn Hpm Hns boxes Hb.
    inversion Hns as [|n0 pm0 e' pms es0 i0 n1 pm1 e1 Hns0 Hi0 Hn0 Hpm0 Hse Hx Hy E1 E2 E3]. subst.
    destruct (nstack_zoom _ _ _ _ _ _ _ Hns' Hi Hn Hpm) as [Z1 Z2]. unfold zoom_of in *.
    destruct (Hbox pm e (proj1 (nstack_tree _ _ _ _ Hns)) Hse) as (b & Hbin & [Bx0 Bx1] & [By0 By1]).
    apply existsb_exists.
    assert (Hany : forall b', bb_x0 b' <= (e_cell e').1 <= bb_x1 b' -> bb_y0 b' <= (e_cell e').2 <= bb_y1 b' ->
      bush_any state b' = true).
    { intros b' [X0 X1] [Y0 Y1]. unfold bush_any. apply existsb_exists. eexists. split; [apply elem_of_list_In, Hraw|].
      unfold ctx_cell, raw, cell_in. cbn [cc_entries]. unfold e_cell in *. cbn [fst snd] in *. lia. }
    destruct (st_zoom (sq_store pm) =? st_zoom (sq_store pm')) eqn:Ez.
    - apply N.eqb_eq in Ez. injection Hb as <-. exists b. split; [by apply elem_of_list_In|].
      rewrite Ez, N.sub_diag in Hx, Hy. change (2 ^ 0) with 1 in Hx, Hy. rewrite N.div_1_r in Hx, Hy. apply Hany; lia.
    - apply N.eqb_neq in Ez. apply res_mapM_Ok in Hb. apply elem_of_list_lookup in Hbin as [j Hj].
      destruct (Forall2_lookup_l _ _ _ _ _ Hb Hj) as (b' & Hb' & Hadj). exists b'.
      split; [apply elem_of_list_In; by eapply elem_of_list_lookup_2|].
      unfold adjust_bbox_zoom in Hadj. rewrite (proj2 (N.ltb_lt (st_zoom (sq_store pm')) (st_zoom (sq_store pm)))) in Hadj by lia.
      unfold ushr in Hadj. rewrite (proj2 (N.ltb_lt _ 16) Z2) in Hadj. cbn [res_bind] in Hadj.
      injection Hadj as <-. apply Hany; cbn [bb_x0 bb_x1 bb_y0 bb_y1]; rewrite !N.shiftr_div_pow2; rewrite <- ?Hx, <- ?Hy;
        split; apply N.div_le_mono; try done; by apply N.pow_nonzero.
  Qed.

  (** ** Rounds *)
  (** A stack that a step still to be done will lead to. *)
  Inductive pending (H : list tstep) : node -> list subquery -> list coalesce_entry -> Prop :=
    | pend_here st chain es : st ∈ H -> step_cok chain st -> fits st chain es ->
        pending H (tp_node st) (tp_sq st :: chain) es
    | pend_up n' chain es i n pm e : pending H n' chain es -> nstack n' chain es ->
        i ∈ sn_children n' -> tree_get t i = Some n -> pending H n (pm :: chain) (e :: es).

  (** ** Quotas *)
  Context (G : gmap N N) (full : quota -> Prop).
  Context (Hfull : forall c, full c \/ (arena_tiles G (t_arena t) /\
    tiles G 0 (sn_children (t_root t)) (am_next (t_arena t)) /\ tree_uses c t <= quota_limit c)).
  Definition upto (c : quota) (i : N) : N := uses_before c t (N.to_nat i).
  Lemma uses_snoc c m : uses_before c t (S m) =
    uses_before c t m + match tree_get t (N.of_nat m) with Some n => node_uses c n | None => 0 end.
  Proof.
    unfold uses_before. rewrite seq_S. cbn [Nat.add].
    generalize (seq 0 m) as l. induction l as [|i l IH]; cbn [app foldr]; [lia|]. rewrite IH. lia.
  Qed.
  Lemma upto_mono c a b : a <= b -> upto c a <= upto c b.
  Proof.
    intros H. unfold upto. assert (Hab : (N.to_nat a <= N.to_nat b)%nat) by lia. revert Hab.
    generalize (N.to_nat a) (N.to_nat b). intros m m' Hm. induction Hm as [|m' Hm IH]; [done|]. rewrite uses_snoc. lia.
  Qed.
  Lemma upto_own c i n : tree_get t i = Some n -> upto c i + node_uses c n <= upto c (i + 1).
  Proof.
    intros Hi. unfold upto. replace (N.to_nat (i + 1)) with (S (N.to_nat i)) by lia. rewrite uses_snoc, N2Nat.id, Hi. lia.
  Qed.
  Lemma tally_app c pm ks ks' : tally c pm (ks ++ ks') = tally c pm ks + tally c pm ks'.
  Proof. unfold tally. rewrite List.filter_app, app_length. lia. Qed.
  Lemma owns_tallies c l : (forall st, st ∈ l -> exists chain, step_cok chain st) -> owns (node_uses c) l = tallies c l.
  Proof.
    induction l as [|st l IH]; intros H; cbn [owns tallies foldr]; [done|]. fold (owns (node_uses c) l). fold (tallies c l).
    rewrite IH by (intros; apply H; by right). destruct (H st ltac:(by left)) as (chain & [Hok _]).
    unfold node_uses. by rewrite (sf_pm _ _ _ _ _ _ (so_for _ _ _ _ _ _ _ Hok)).
  Qed.
  Notation heavier c := (heavy t G (upto c)).

  (** Nothing of the first list is more relevant than everything in the second. *)
  Definition at_least (L L' : list coalesce_context) : Prop :=
    forall d, d ∈ L -> exists d', d' ∈ L' /\ ord_cmp (cc_relev d) (cc_relev d') <> Gt.
  Definition barred (L : list coalesce_context) (n : node) (chain : list subquery) (es : list coalesce_entry) : Prop :=
    passed_by L n chain es \/ quota_hit full chain es.
  Lemma barred_mono L L' n chain es : at_least L L' -> barred L n chain es -> barred L' n chain es.
  Proof.
    intros HL [(pm & rest & e & es' & k & b & r & H1 & H2 & H3 & H4 & H5 & H6 & H7 & H8 & H9)|H]; [left|by right].
    exists pm, rest, e, es', k, b, r. do 7 (split; [done|]). split; [|done].
    destruct H8 as [?|(d & Hd & Hle)]; [by left|right]. destruct (HL d Hd) as (d' & Hd' & Hle'). exists d'. split; [done|].
    by eapply (tc_trans _ total_cmp_ord).
  Qed.
  Lemma barred_up L n' chain es i n pm e :
    i ∈ sn_children n' -> barred L n' chain es -> barred L n (pm :: chain) (e :: es).
  Proof.
    intros Hi [(? & ? & ? & ? & ? & ? & ? & _ & _ & _ & _ & _ & _ & H & _)|(j & pm' & e' & k & c & H)].
    - rewrite H in Hi. by apply elem_of_nil in Hi.
    - right. by exists (S j), pm', e', k, c.
  Qed.

  Record cstate (H : list tstep) (cache : gmap N (list match_entry)) (L : list coalesce_context)
      (q : cpq coalesce_context) (qs : quotas) : Prop := {
    cs_holds : cpq_holds ctx_cmp tree_max_contexts L q;
    cs_cache : cache_exact cache;
    cs_steps : forall st, st ∈ H -> exists chain, step_cok chain st;
    cs_quota : forall c, full c \/ exists W, heavier c H W /\ q_get c qs + W <= quota_limit c;
    cs_all : forall n chain es, nstack n chain es -> stacked n chain ->
      handled L n chain es \/ pending H n chain es \/ barred (hp_items (cpq_heap q)) n chain es }.

  Lemma child_cok chain st cache scale css i n s1 :
    step_cok chain st -> cache_exact cache ->
    (let* d := usub p 16 (st_zoom (sq_store (tp_sq st))) (tp_prev_zoom st) in ushl p 16 1 d) = Ok scale ->
    keys_made p st scale cache (sq_keys (tp_sq st)) css ->
    i ∈ sn_children (tp_node st) -> tree_get t i = Some n ->
    step_for p o n (Some (mjoin css)) (st_zoom (sq_store (tp_sq st))) s1 -> step_cok (tp_sq st :: chain) s1.
  Proof.
    intros Hok Cache N1 N2 Hi Hn Hfor. split.
    - eapply child_ok; [exact (sc_ok _ _ Hok)|exact Hi|exact Hn| |exact Hfor].
      intros d Hd. eapply made_ok; [exact Hids|exact (sc_ok _ _ Hok)| |exact N1|exact N2|exact Hd].
      intros id gs Hg. destruct (Cache _ _ Hg) as (pm & k & ko & out0 & X1 & X2 & X3 & X4 & X5 & ->). exists pm, k.
      split; [done|]. split; [done|]. split; [done|]. intros g0 Hg0. exists ko, out0. split; [done|]. split; [done|]. split; [done|].
      eapply elem_of_sublist; [eapply elem_of_sublist; [exact Hg0|apply uniq_grids_sub]|apply take_N_sub].
    - rewrite (sf_prev _ _ _ _ _ _ Hfor). split; [by eapply made_nodup|]. exists (tp_node st), i.
      split; [done|]. rewrite (sf_node _ _ _ _ _ _ Hfor). split; [done|]. intros c Hcin. by eapply made_stack.
  Qed.

  Lemma good_entries c : good_result p mtb tb t o c -> cc_entries c <> [].
  Proof.
    intros (n & chain & [_ _ [(pm & e & _ & _ & -> & _)|(_ & Hs & _)]]); [done|].
    by apply stack_of_length in Hs as [_ Hs].
  Qed.
  Lemma ok_entries s d : state_ok p mtb tb t o s -> d ∈ hp_items (cpq_heap (tr_contexts s)) -> cc_entries d <> [].
  Proof.
    intros ((l & Hh & Hg) & _) Hd. apply good_entries, Hg. by eapply holds_in.
  Qed.
  Lemma kept_at_least s s' L l :
    state_ok p mtb tb t o s -> state_ok p mtb tb t o s' -> cpq_holds ctx_cmp tree_max_contexts L (tr_contexts s) ->
    tr_contexts s' = cpq_push_all tb (tr_contexts s) l ->
    at_least (hp_items (cpq_heap (tr_contexts s))) (hp_items (cpq_heap (tr_contexts s'))).
  Proof.
    intros Hok Hok' Hh E d Hd. pose proof (holds_in _ _ _ _ Hh Hd) as HdL.
    apply (push_all_holds tb _ _ l) in Hh. rewrite <- E in Hh. destruct Hh as (_ & dropped & Q1 & Q2 & Q3).
    assert (Hin : d ∈ L ++ l) by (apply elem_of_app; by left). rewrite Q1 in Hin. apply elem_of_app in Hin as [Hin|Hin].
    - exists d. split; [done|]. by rewrite (tc_refl _ total_cmp_ord).
    - destruct (hp_items (cpq_heap (tr_contexts s'))) as [|d' items] eqn:Eit.
      + exfalso. pose proof (Permutation_length Q1) as Hl. cbn [app length] in Hl, Q2.
        assert (0 < length dropped)%nat by (destruct dropped; [by apply elem_of_nil in Hin|cbn; lia]).
        unfold tree_max_contexts, max_contexts in Q2. lia.
      + exists d'. split; [by left|]. apply ctx_cmp_relev; [by apply (ok_entries s)| |apply Q3; [done|by left]].
        apply (ok_entries s'); [done|]. rewrite Eit. by left.
  Qed.

  Lemma round_complete round s s' complete L :
    cstate (hp_items (tr_steps s)) (tr_cache s) L (tr_contexts s) (tr_quotas s) ->
    state_ok p mtb tb t o s -> state_ok p mtb tb t o s' ->
    tree_round p ho_ mtb tb t o round s = Ok (s', complete) ->
    exists L' last rest new busy, cstate (last ++ hp_items (tr_steps s')) (tr_cache s') L' (tr_contexts s') (tr_quotas s') /\
      hp_items (tr_steps s') = rest ++ new /\ (forall st, st ∈ new -> tp_prev st <> None /\
        exists b i, b ∈ busy /\ i ∈ sn_children (tp_node b) /\ tree_get t i = Some (tp_node st)) /\
      (forall b, b ∈ busy -> exists chain, step_cok chain b) /\ (complete = true -> (length busy <= 7)%nat) /\
      if complete then exists st m, last = [st] /\ cpq_max (tr_contexts s) <= cpq_len (tr_contexts s) /\
          cpq_peek_min ctx_cmp tb (tr_contexts s) = Some m /\ fleb (sn_max_relev (tp_node st)) (cc_relev m) = true /\
          (forall st', st' ∈ rest -> step_cmp st' st <> Gt) /\ exists l, tr_contexts s' = cpq_push_all tb (tr_contexts s) l
      else last = [].
  Proof.
    intros [Hq Hc Hsteps Hquota Hall] Hsok Hsok' H.
    apply tree_round_ok in H as (g & popped & last & fs & rs & [Gd Hcomp HF Hrun Hctx Hst Hqs [C1 C2]]).
    pose proof (gd_steps _ _ _ _ _ _ _ _ Gd) as Hp. cbn [gt_steps] in Hp.
    assert (Hpop : forall st, st ∈ popped -> exists chain, step_cok chain st).
    { intros st Hin. apply Hsteps. rewrite Hp. apply elem_of_app. by left. }
    assert (Hkf : forall kf, kf ∈ gt_keys g -> exists st k, st ∈ popped /\ fetches p st k kf).
    { destruct (gd_keys_from _ _ _ _ _ _ _ _ Gd) as (new & E & Hn). cbn [gt_keys app] in E. rewrite E. exact Hn. }
    destruct (gd_keyed _ _ _ _ _ _ _ _ Gd) as [[_ Hkeyed] Hfree].
    { cbn [gt_keys gt_unique]. split; [constructor|]. intros id b. split; [intros Hb; by apply elem_of_nil in Hb|].
      intros (kf & Hb & _). by apply elem_of_nil in Hb. }
    assert (Cache : cache_exact (tr_cache s')).
    { intros id gs Hl. destruct (C1 _ _ Hl) as [Hold|Hnew]; [by apply Hc|].
      apply elem_of_list_lookup in Hnew as [i Hi]. destruct (Forall2_lookup_r _ _ _ _ _ HF Hi) as (kf & Hkfi & Hf).
      apply fetch_key_ok in Hf as (_ & -> & out & Hout & ->).
      destruct (Hkf kf ltac:(by eapply elem_of_list_lookup_2)) as (st & k & Hin & (K1 & K2 & K3 & K4 & K5 & K6)).
      destruct (Hpop st Hin) as (chain & [Hok _]). exists (tp_sq st), k, (kf_opts kf), out.
      split; [apply (so_tree _ _ _ _ _ _ _ Hok)|]. split; [done|]. split; [done|]. split.
      - exists (tp_opts st). split; [apply (sf_opts _ _ _ _ _ _ (so_for _ _ _ _ _ _ _ Hok))|done].
      - rewrite K3, K4 in Hout. done. }
    assert (Hweight : forall c, full c \/ exists W1 W2 W', heavier c popped W1 /\ heavier c (last ++ hp_items (gt_steps g)) W2 /\
      heavier c (mjoin (map snd rs)) W' /\ W' + tallies c popped <= W1 /\ q_get c (tr_quotas s) + (W1 + W2) <= quota_limit c).
    { intros c. destruct (Hfull c) as [?|(HG & _ & _)]; [by left|]. destruct (Hquota c) as [?|(W & HW & Hle)]; [by left|right].
      apply (heavy_perm _ _ _ _ _ Hp), heavy_app_inv in HW as (W1 & W2 & H1 & H2 & ->).
      destruct (runs_light p ho_ tb t o G HG (upto c) (node_uses c) (upto_mono c) (upto_own c) _ _ _ _ Hrun H1) as (W' & HW' & Hle').
      rewrite (owns_tallies c popped Hpop) in Hle'. exists W1, W2, W'. done. }
    assert (Hcached : forall st k, st ∈ popped -> is_single st = false -> k ∈ sq_keys (tp_sq st) ->
      is_Some (tr_cache s' !! mki_id k) \/ passed_over (best_of tb (tr_contexts s)) st k \/
      exists c, under_quota c (tp_sq st) k = true /\ full c).
    { intros st k Hin Hns Hk. destruct (tr_cache s !! mki_id k) eqn:Ek; [left; apply C2; by left; eexists|].
      pose proof Hin as Hin'. pose proof Hk as Hk'.
      apply elem_of_list_split in Hin' as (pre & post & Epop). apply elem_of_list_split in Hk' as (kpre & kpost & Eks).
      destruct (Hfree _ _ _ _ _ _ Epop Eks ltac:(by right)) as [Hun|[Hpo|(c & U1 & U2)]]; [left; apply C2; right|by right; left|right; right].
      - rewrite Hns in Hun. apply Hkeyed in Hun as (kf & Hkfin & Hid & Hsg). apply elem_of_list_lookup in Hkfin as [i Hi].
        destruct (Forall2_lookup_l _ _ _ _ _ HF Hi) as (f & Hf & Hfk). apply elem_of_list_lookup_2 in Hf.
        apply fetch_key_ok in Hfk. destruct f as [q|id data]; [destruct Hfk as [Hs1 _]; congruence|].
        destruct Hfk as (_ & -> & _). rewrite Hid in Hf. by exists data.
      - exists c. split; [done|]. destruct (Hweight c) as [?|(W1 & W2 & W' & H1 & _ & _ & Hle1 & Hle2)]; [done|exfalso].
        cbn [gt_quotas] in U2. rewrite Epop, tallies_app in Hle1. cbn [tallies foldr] in Hle1. rewrite Eks, tally_app, tally_cons, U1 in Hle1.
        cbn [one] in Hle1. fold (tallies c pre) in Hle1. lia. }
    set (L' := L ++ (mjoin (map (pushed_of ho_ round) (combine (seq 0 (length fs)) fs)) ++ mjoin (map fst rs))).
    assert (HL : forall c, c ∈ L -> c ∈ L') by (intros c Hin; apply elem_of_app; by left).
    exists L', last, (hp_items (gt_steps g)), (mjoin (map snd rs)), (List.filter not_single popped).
    assert (Hnew : forall st', st' ∈ mjoin (map snd rs) -> (tp_prev st' <> None /\
      exists b i, b ∈ List.filter not_single popped /\ i ∈ sn_children (tp_node b) /\ tree_get t i = Some (tp_node st')) /\
      exists chain, step_cok chain st').
    { intros st' Hst'. apply elem_of_mjoin in Hst' as (l & Hl & Hr). apply elem_of_map in Hr as ([out next] & -> & Hr).
      cbn [snd] in Hl. apply elem_of_list_lookup in Hr as [i Hi].
      destruct (Forall2_lookup_r _ _ _ _ _ Hrun Hi) as (st & Hsti & site & Hrn).
      apply elem_of_list_lookup_2 in Hsti. pose proof Hsti as Hbusy. apply elem_of_filter in Hsti as [Hin Hns].
      destruct (Hpop st Hin) as (chain & Hok). apply run_step_ok in Hrn as (scale & css & sel & [N1 N2 N3 -> [N5 N4] _]).
      apply elem_of_map in Hl as ([j s1] & -> & Hin1). cbn [snd].
      destruct (N4 _ _ Hin1) as (n & Hn & Hfor). rewrite (sf_prev _ _ _ _ _ _ Hfor).
      assert (Hj : j ∈ sn_children (tp_node st)).
      { eapply elem_of_sublist; [|exact N5]. apply elem_of_map. by exists (j, s1). }
      split; [split; [done|]; exists st, j; by rewrite (sf_node _ _ _ _ _ _ Hfor)|].
      exists (tp_sq st :: chain). by eapply child_cok. }
    split; [split|].
    - rewrite Hctx. by apply push_all_holds.
    - done.
    - intros st Hin. rewrite Hst in Hin. rewrite !elem_of_app in Hin. destruct Hin as [Hin|[Hin|Hin]].
      + apply Hsteps. rewrite Hp. rewrite !elem_of_app. by right; left.
      + apply Hsteps. rewrite Hp. rewrite !elem_of_app. by right; right.
      + by apply Hnew.
    - intros c. destruct (Hweight c) as [?|(W1 & W2 & W' & H1 & H2 & HW' & Hle1 & Hle2)]; [by left|right].
      exists (W2 + W'). split; [rewrite Hst, app_assoc; by apply heavy_app|].
      pose proof (proj1 (gd_quotas _ _ _ _ _ _ _ _ Gd c)) as Hgq. cbn [gt_quotas] in Hgq. rewrite Hqs. lia.
    - intros n chain es Hns Hel. destruct (Hall n chain es Hns Hel) as [Hh|[Hpend|Hb]];
        [left; by eapply handled_mono| |right; right; eapply barred_mono; [exact (kept_at_least _ _ _ _ Hsok Hsok' Hq Hctx)|done]].
      set (H' := last ++ hp_items (tr_steps s')).
      enough (HPhi : pending H' n chain es \/ (handled L' n chain es /\
        forall i c pm e, i ∈ sn_children n -> tree_get t i = Some c -> nstack c (pm :: chain) (e :: es) ->
          pending H' c (pm :: chain) (e :: es)) \/ barred (hp_items (cpq_heap (tr_contexts s'))) n chain es).
      { destruct HPhi as [?|[[? _]|?]]; [by right; left|by left|by right; right]. }
      clear Hall. revert Hns Hel. induction Hpend as [st chain es Hin Hok Hfit|n' chain es i n pm e Hpend IH Hns' Hi Hn]; intros Hns Hel.
      + rewrite Hp in Hin. apply elem_of_app in Hin as [Hin|Hin].
        2: { left. apply pend_here; [|done|done]. unfold H'. rewrite Hst, !elem_of_app. apply elem_of_app in Hin as [?|?]; auto. }
        right. destruct (is_single st) eqn:Es.
        { exfalso. unfold is_single, is_leaf in Es. pose proof (so_prev _ _ _ _ _ _ _ (sc_ok _ _ Hok)) as Hpr.
          destruct (tp_prev st); [done|]. subst chain. destruct Hel as [Hel|Hel]; [cbn in Hel; lia|].
          by destruct (sn_children (tp_node st)). }
        assert (Hf : st ∈ List.filter not_single popped) by (apply elem_of_filter; split; [done|]; unfold not_single; by rewrite Es).
        apply elem_of_list_lookup in Hf as [j Hj]. destruct (Forall2_lookup_l _ _ _ _ _ Hrun Hj) as ([out next] & Hr & site & Hrn).
        apply elem_of_list_lookup_2 in Hr.
        apply run_step_ok in Hrn as (scale & css & sel & [N1 N2 (outs & N3 & ->) -> [N5 N4] N6]).
        destruct (nstack_head _ _ _ Hns) as (_ & pm0 & rest0 & e0 & es0 & _ & _ & [= <- <-] & Ees & (k0 & g0 & (_ & _ & _ & Hk0 & _) & (_ & _ & _ & _ & _ & _ & Hid0 & _))).
        destruct (Hcached st k0 Hin Es Hk0) as [Hca|[(P1 & P2 & P3 & P4)|(c & U1 & U2)]].
        2: { right. left. unfold fits in Hfit.
          pose proof (so_for _ _ _ _ _ _ _ (sc_ok _ _ Hok)) as Hfor. unfold is_single in Es.
          destruct (tp_prev st) as [prev|] eqn:Epr; [|by rewrite P3 in Es]. destruct Hfit as (e1 & es1 & -> & Hin1). injection Ees as <- <-.
          destruct (sf_possible _ _ _ _ _ _ Hfor prev eq_refl) as (r & Er & Hrel).
          exists (tp_sq st), chain, e1, es1, k0, (best_of tb (tr_contexts s)), r. do 2 (split; [done|]). split; [done|].
          split; [by rewrite Hid0|]. split; [done|]. split; [done|].
          split; [unfold is_leaf in P3; by destruct (sn_children (tp_node st))|]. split.
          { unfold best_of. destruct (cpq_peek_max ctx_cmp tb (tr_contexts s)) as [d|] eqn:Ed; [right|by left].
            eapply kept_at_least; [exact Hsok|exact Hsok'|exact Hq|exact Hctx|].
            unfold cpq_peek_max, hp_peek_max in Ed. destruct (hp_max_idx ctx_cmp tb _); [|done]. by eapply elem_of_list_lookup_2. }
          split; [apply (Hrel _ Hin1)|]. by rewrite <- Er. }
        2: { right. right. exists 0%nat, (tp_sq st), e0, k0, c. rewrite Ees. by rewrite Hid0. }
        left.
        destruct (run_handled chain st (tr_cache s') scale css outs es Hok Cache N1 N2 N3) as [Hraw Hh]; [|done|done|].
        { intros k Hk Hid. rewrite Ees in Hid. cbn in Hid. rewrite Hid0 in Hid. injection Hid as ->. done. }
        split.
        * eapply handled_mono; [|exact Hh]. intros c Hcin. unfold L'. rewrite !elem_of_app. right. right.
          apply elem_of_mjoin. exists (mjoin outs). split; [done|]. apply elem_of_map. by exists (mjoin outs, map snd sel).
        * intros i c pm e Hi Hcget Hnsc. pose proof (proj2 (nstack_tree _ _ _ _ Hnsc)) as Hpm.
          destruct (N6 ltac:(intros E; rewrite E in Hraw; by apply elem_of_nil in Hraw) i c pm Hi Hcget Hpm) as [s1 Hs1].
          { by eapply (box_hit chain st). }
          destruct (N4 _ _ Hs1) as (n0 & Hn0 & Hfor). assert (n0 = c) as -> by congruence.
          assert (Hin1 : s1 ∈ mjoin (map snd rs)).
          { apply elem_of_mjoin. exists (map snd sel). split; [apply elem_of_map; by exists (i, s1)|].
            apply elem_of_map. by exists (mjoin outs, map snd sel). }
          rewrite <- (sf_node _ _ _ _ _ _ Hfor).
          assert (pm = tp_sq s1) as ->.
          { pose proof (sf_pm _ _ _ _ _ _ Hfor). congruence. }
          apply pend_here.
          -- unfold H'. rewrite Hst, !elem_of_app. auto.
          -- by eapply child_cok.
          -- unfold fits. rewrite (sf_prev _ _ _ _ _ _ Hfor). eauto.
      + assert (Hel' : stacked n' chain) by (right; intros E; rewrite E in Hi; by apply elem_of_nil in Hi).
        destruct (IH Hns' Hel') as [HP|[[_ HC]|HB]]; [left; by eapply pend_up|left; by eapply HC|right; right; by eapply barred_up].
    - split; [exact Hst|]. split; [intros st Hin; by apply Hnew|].
      split; [intros b Hb; apply elem_of_filter in Hb as [Hb _]; by apply Hpop|].
      split.
      { intros Hc1. pose proof (gd_few _ _ _ _ _ _ _ _ Gd) as Hfew. rewrite (gd_chunk _ _ _ _ _ _ _ _ Gd) in Hfew.
        cbn [gt_chunk gt_added app length] in Hfew. apply Hfew; [done|congruence]. }
      pose proof (gd_last _ _ _ _ _ _ _ _ Gd) as Hlast. rewrite Hcomp. destruct (gt_complete g); [|exact Hlast].
      destruct Hlast as (st & m & -> & L1 & L2 & L3 & L4). exists st, m. split; [done|]. split; [done|]. split; [done|].
      split; [done|]. split; [done|]. eexists. exact Hctx.
  Qed.

  (** ** The whole search *)
  Definition bounded_by (q : cpq coalesce_context) (st : tstep) : Prop :=
    forall d, d ∈ hp_items (cpq_heap q) -> ord_cmp (sn_max_relev (tp_node st)) (cc_relev d) <> Gt.
  Definition stop_reached (q : cpq coalesce_context) (H : list tstep) : Prop :=
    cpq_max q <= cpq_len q /\ (exists st, st ∈ H /\ bounded_by q st) /\
    forall st, st ∈ H -> tp_prev st = None -> bounded_by q st.
  (** [B] are the nodes of the last steps taken. *)
  Definition stop_at (B : list node) (q : cpq coalesce_context) (H : list tstep) : Prop :=
    cpq_max q <= cpq_len q /\ (exists st, st ∈ H /\ bounded_by q st) /\
    forall st, st ∈ H -> bounded_by q st \/ (tp_prev st <> None /\
      exists b i, b ∈ B /\ i ∈ sn_children b /\ tree_get t i = Some (tp_node st)).
  Lemma cok_get chain st : step_cok chain st -> exists i, tree_get t i = Some (tp_node st).
  Proof.
    intros [_ Hpr]. destruct (tp_prev st).
    - destruct Hpr as (_ & n' & i & _ & Hi & _). eauto.
    - destruct Hpr as (i & _ & Hi). eauto.
  Qed.

  Lemma loop_complete fuel : forall s s' L,
    cstate (hp_items (tr_steps s)) (tr_cache s) L (tr_contexts s) (tr_quotas s) -> state_ok p mtb tb t o s ->
    tree_loop p ho_ mtb tb t o fuel s = Ok s' ->
    state_ok p mtb tb t o s' /\ exists L' H' B, cstate H' (tr_cache s') L' (tr_contexts s') (tr_quotas s') /\
      (length B <= 7)%nat /\ (forall b, b ∈ B -> exists i, tree_get t i = Some b) /\
      (H' = [] \/ stop_at B (tr_contexts s') H').
  Proof.
    induction fuel as [|fuel IH]; intros s s' L Hc Hok H; cbn [tree_loop] in H; [done|].
    destruct (hp_items (tr_steps s)) as [|st0 sts] eqn:Es.
    { injection H as <-. split; [done|]. exists L, [], []. split; [done|]. split; [cbn; lia|]. split; [intros b Hb; by apply elem_of_nil in Hb|]. by left. }
    rewrite <- Es in Hc. apply bind_Ok in H as ([s1 complete] & H1 & H).
    pose proof (round_sound _ _ _ _ _ _ Hids _ _ _ _ Hok H1) as Hok1.
    destruct (round_complete _ _ _ _ _ Hc Hok Hok1 H1) as (L' & last & rest & new & busy & Hc1 & Er & Hnew & Hbusy & Hfew & Hcomp).
    destruct complete.
    - injection H as <-. split; [done|]. exists L', (last ++ hp_items (tr_steps s1)), (map tp_node busy). split; [done|].
      split; [rewrite map_length; by apply Hfew|].
      split; [intros b Hb; apply elem_of_map in Hb as (st & -> & Hb); destruct (Hbusy st Hb) as [chain Hck]; by eapply cok_get|]. right.
      destruct Hcomp as (st & m & -> & M1 & M2 & M3 & M4 & l & El).
      destruct (hp_peek_min_ok ctx_cmp tb _ _ M2) as [Hm Hmin]. rewrite Forall_forall in Hmin.
      destruct (push_all_floor tb l m (tr_contexts s) M1 Hmin) as [F1 F2]. rewrite <- El in F1, F2.
      assert (Hb : bounded_by (tr_contexts s1) st).
      { intros d Hd. eapply (tc_trans _ total_cmp_ord); [by apply fleb_ord|]. apply ctx_cmp_relev; [|by eapply ok_entries|by apply F2].
        exact (ok_entries _ _ Hok Hm). }
      split; [done|]. split; [exists st; split; [by left|done]|].
      intros st' Hst'. cbn [app] in Hst'. apply elem_of_cons in Hst' as [->|Hst']; [by left|].
      rewrite Er in Hst'. apply elem_of_app in Hst' as [Hst'|Hst'].
      2: { right. destruct (Hnew _ Hst') as (Hpr & b & i & Hbb & Hi & Hget). split; [done|]. exists (tp_node b), i.
        split; [apply elem_of_map; by exists b|done]. }
      left. intros d Hd. eapply (tc_trans _ total_cmp_ord); [|by apply Hb]. apply step_cmp_relev. by apply M4.
    - subst last. cbn [app] in Hc1. by eapply IH.
  Qed.

  Lemma first_complete steps :
    res_foldl (first_step p t o) hp_empty (sn_children (t_root t)) = Ok steps ->
    cstate (hp_items steps) ∅ [] (cpq_new tree_max_contexts) (Quotas 0 0 0 0 0).
  Proof.
    intros H. pose proof (first_ok p mtb tb t o steps H) as (_ & _ & Hok). cbn [tr_steps] in Hok.
    apply first_steps_ok in H as (sel & E & [S1 S2] & S3). cbn [hp_empty hp_items app] in E.
    assert (Hst : forall i s1, (i, s1) ∈ sel -> step_cok [] s1 /\ tp_prev s1 = None).
    { intros i s1 Hin. destruct (S2 _ _ Hin) as (n & Hn & Hf). pose proof (sf_prev _ _ _ _ _ _ Hf) as Hpr. split; [|done].
      destruct (Hok s1) as (chain & Hs). { rewrite E. apply elem_of_map. by exists (i, s1). }
      pose proof (so_prev _ _ _ _ _ _ _ Hs) as Hso. rewrite Hpr in Hso. subst chain. split; [done|]. rewrite Hpr.
      exists i. rewrite (sf_node _ _ _ _ _ _ Hf). split; [|done]. eapply elem_of_sublist; [|exact S1].
      apply elem_of_map. by exists (i, s1). }
    split.
    - apply cpq_new_holds.
    - intros id gs. by rewrite lookup_empty.
    - intros st Hin. rewrite E in Hin. apply elem_of_map in Hin as ([i s1] & -> & Hin). cbn [snd]. exists [].
      by apply (Hst i).
    - intros c. destruct (Hfull c) as [?|(HG & Ht & Hle)]; [by left|right].
      destruct (heavy_sel p t o G (upto c) (upto_mono c) _ _ _ _ _ _ (conj S1 S2) Ht) as (W & HW & HWle).
      exists W. rewrite E. split; [exact HW|]. destruct c; cbn [q_get q_letter q_word q_word_hz q_hz_range q_hz]; unfold upto, tree_uses in *; lia.
    - intros n chain es Hns _. right. left.
      induction Hns as [i n pm e Hi Hn Hpm Hse|n' pm' e' pms es i n pm e Hns IH Hi Hn Hpm Hse Hx Hy].
      + destruct (S3 i n Hi Hn) as [s1 Hs1]. destruct (S2 _ _ Hs1) as (n0 & Hn0 & Hf).
        assert (n0 = n) as -> by congruence. destruct (Hst _ _ Hs1) as [Hck Hpr].
        assert (pm = tp_sq s1) as -> by (pose proof (sf_pm _ _ _ _ _ _ Hf); congruence).
        rewrite <- (sf_node _ _ _ _ _ _ Hf). apply pend_here; [|done|].
        * rewrite E. apply elem_of_map. by exists (i, s1).
        * unfold fits. rewrite Hpr. eauto.
      + by eapply pend_up.
  Qed.

  Lemma pending_some H n chain es : pending H n chain es -> H <> [].
  Proof. intros HP. induction HP as [st chain es Hin|]; [|done]. intros ->. by apply elem_of_nil in Hin. Qed.

  Lemma nstack_descends n chain es : nstack n chain es -> descends (tree_get t) (t_root t) (rev chain) n.
  Proof.
    intros H. induction H as [i n pm e Hi Hn Hpm He|n' pm' e' pms es i n pm e H IH Hi Hn Hpm He Hx Hy]; cbn [rev app].
    - econstructor; [exact Hi|exact Hn|exact Hpm|constructor].
    - cbn [rev] in IH. by eapply descends_snoc.
  Qed.
  (** A stack still to be looked at when the search is stopped. *)
  Lemma pending_cut B q H n chain es : stop_at B q H -> pending H n chain es -> nstack n chain es ->
    (exists i m, tree_get t i = Some m /\ leads_to t m n chain /\ forall d, d ∈ hp_items (cpq_heap q) -> ord_cmp (sn_max_relev m) (cc_relev d) <> Gt) \/
    (exists m, m ∈ B /\ below t m n chain).
  Proof.
    intros (_ & _ & Hstop) HP. induction HP as [st chain es Hin Hok Hfit|n' chain es i n pm e HP IH Hns' Hi Hn]; intros Hns.
    - destruct (Hstop st Hin) as [Hb|(Hpr & b & i & HbB & Hi & Hget)].
      + left. destruct (cok_get _ _ Hok) as [i Hi]. exists i, (tp_node st). split; [done|]. split; [|done]. exists (rev chain ++ [tp_sq st]), []. split; [by destruct (rev chain)|].
        split; [by rewrite app_nil_r|constructor].
      + right. exists b. split; [done|]. exists (rev chain), (tp_sq st), []. split.
        { pose proof (so_prev _ _ _ _ _ _ _ (sc_ok _ _ Hok)) as Hso. destruct (tp_prev st); [|done].
          destruct Hso as (pm & rest & -> & _). cbn [rev]. by destruct (rev rest). }
        split; [done|]. econstructor; [exact Hi|exact Hget| |constructor].
        by destruct (nstack_head _ _ _ Hns) as (_ & pm0 & rest0 & e0 & es0 & _ & Hpm & [= <- <-] & _).
    - destruct (nstack_head _ _ _ Hns) as (_ & pm0 & rest0 & e0 & es0 & _ & Hpm & [= <- <-] & _).
      destruct (IH Hns') as [(i' & m & Hgm & (pre & ext & P1 & P2 & P3) & Hm)|(m & Hm & (pre & pm1 & ext & P1 & P2 & P3))]; [left|right].
      + exists i', m. split; [done|]. split; [|done]. exists pre, (ext ++ [pm]). cbn [rev]. rewrite P2, <- app_assoc. split; [done|]. split; [done|].
        by eapply descends_snoc.
      + exists m. split; [done|]. exists pre, pm1, (ext ++ [pm]). cbn [rev]. rewrite P2, <- app_assoc. split; [done|]. split; [done|].
        change (pm1 :: ext ++ [pm]) with ((pm1 :: ext) ++ [pm]). by eapply descends_snoc.
  Qed.

  Lemma tree_complete_cut fuel out :
    tree_coalesce p ho_ mtb tb fuel t o = Ok out ->
    exists B, (length B <= 7)%nat /\ (forall b, b ∈ B -> exists i, tree_get t i = Some b) /\
    forall n chain es, nstack n chain es -> stacked n chain ->
    stack_context chain es ∈ out \/ crowded_out 800 out (stack_context chain es) \/
    key_crowded p mtb tb o t n chain es \/ (cut_off t B n chain out /\ stopped_early t n chain out) \/
    passed_by out n chain es \/ quota_hit full chain es.
  Proof.
    intros H. unfold tree_coalesce in H. apply bind_Ok in H as (u & _ & H). apply bind_Ok in H as (steps & Hs & H).
    apply bind_Ok in H as (s & Hl & H). injection H as <-.
    destruct (loop_complete _ (TreeState (cpq_new tree_max_contexts) steps ∅ (Quotas 0 0 0 0 0)) _ [] (first_complete _ Hs)
      (first_ok _ mtb tb _ _ _ Hs) Hl) as (Hok & L & H & B & Hc & HB1 & HB2 & Hend).
    exists B. split; [done|]. split; [done|]. intros n chain es Hns Hel.
    destruct (hp_into_desc_ok ctx_cmp total_cmp_ctx tb (cpq_heap (tr_contexts s))) as [Hp _].
    fold (cpq_into_desc ctx_cmp tb (tr_contexts s)) in Hp.
    destruct (cs_holds _ _ _ _ _ Hc) as (Hmax & dropped & Q1 & Q2 & Q3).
    assert (Hlen : cpq_max (tr_contexts s) <= cpq_len (tr_contexts s) -> length (cpq_into_desc ctx_cmp tb (tr_contexts s)) = 800%nat).
    { intros Hle. rewrite (Permutation_length Hp). unfold cpq_len, hp_len in Hle. rewrite Hmax in Hle.
      change tree_max_contexts with 800 in *. lia. }
    destruct (cs_all _ _ _ _ _ Hc _ _ _ Hns Hel) as [[Hin|Hk]|[Hpend|Hbar]].
    - rewrite Q1 in Hin. apply elem_of_app in Hin as [Hin|Hdr]; [left; by rewrite Hp|]. right. left.
      assert (Hd0 : (0 < length dropped)%nat) by (destruct dropped; [by apply elem_of_nil in Hdr|cbn; lia]).
      pose proof (Permutation_length Q1) as Hlq. rewrite app_length in Hlq.
      split; [apply Hlen; unfold cpq_len, hp_len; rewrite Hmax; change tree_max_contexts with 800 in *; lia|].
      intros d Hd. rewrite Hp in Hd. apply cmp_listed_before; [by eapply ok_entries| |by apply Q3].
      apply nstack_head in Hns as (_ & _ & _ & ? & ? & _ & _ & _ & -> & _). done.
    - by right; right; left.
    - right. right. right. left. destruct Hend as [->|Hstop]; [by apply pending_some in Hpend|].
      pose proof (pending_cut _ _ _ _ _ _ Hstop Hpend Hns) as Hcut. destruct Hstop as (E1 & (st & Hst & Hb) & _).
      assert (Hno : forall m, (forall d, d ∈ hp_items (cpq_heap (tr_contexts s)) -> ord_cmp (sn_max_relev m) (cc_relev d) <> Gt) ->
        promises_no_more m (cpq_into_desc ctx_cmp tb (tr_contexts s))).
      { intros m Hm d Hd. rewrite Hp in Hd. by apply Hm. }
      split.
      { split; [by apply Hlen|]. destruct Hcut as [(i & m & Hm0 & Hm1 & Hm2)|?]; [left|by right]. exists i, m. split; [done|]. split; [done|]. by apply Hno. }
      split; [by apply Hlen|].
      destruct (decide (length chain = 1%nat)) as [E|E].
      + destruct Hcut as [(_ & m & _ & (pre & ext & P1 & P2 & P3) & Hm)|(m & _ & (pre & pm & ext & P1 & P2 & _))];
          apply (f_equal length) in P2; rewrite rev_length, app_length in P2; cbn [length] in P2; destruct pre as [|? pre]; try done; cbn [length] in P2; [|lia].
        destruct ext; [|cbn [length] in P2; lia]. inversion P3; subst.
        destruct (nstack_head _ _ _ Hns) as (i & _ & _ & _ & _ & Hi & _). exists i, n. split; [done|]. split; [done|]. by apply Hno.
      + destruct (cs_steps _ _ _ _ _ Hc st Hst) as (chain' & Hck). destruct (cok_get _ _ Hck) as [i Hi].
        exists i, (tp_node st). split; [done|]. split; [done|]. by apply Hno.
    - right. right. right. right. eapply barred_mono; [|exact Hbar]. intros d Hd. exists d.
      split; [by rewrite Hp|by rewrite (tc_refl _ total_cmp_ord)].
  Qed.
  Lemma tree_complete_quota fuel out n chain es :
    tree_coalesce p ho_ mtb tb fuel t o = Ok out ->
    nstack n chain es -> stacked n chain ->
    stack_context chain es ∈ out \/ crowded_out 800 out (stack_context chain es) \/
    key_crowded p mtb tb o t n chain es \/ stopped_early t n chain out \/
    passed_by out n chain es \/ quota_hit full chain es.
  Proof.
    intros H Hns Hel. destruct (tree_complete_cut _ _ H) as (B & _ & _ & HB).
    destruct (HB n chain es Hns Hel) as [?|[?|[?|[[_ ?]|?]]]]; auto 6.
  Qed.
End complete.

Lemma unlimited_spans pm k : unlimited pm k -> one_word pm k = false.
Proof.
  intros [Hr _]. unfold one_word, spans. destruct (mk_phrase (mki_key k)) as [x|s e]; [done|].
  destruct (Hr s e eq_refl) as [[H1 H2]|H1].
  - rewrite (proj2 (N.leb_le s e) H1). assert ((1 <? e - s) = false) as -> by lia. done.
  - apply N.eqb_neq in H1. rewrite H1. apply andb_false_r.
Qed.
Lemma unlimited_quota pm k c : unlimited pm k -> under_quota c pm k = false.
Proof.
  intros Hu. assert (Hf : far_reaching pm k = false).
  { unfold far_reaching, high_zoom. destruct (14 <=? zoom_of pm) eqn:Ez; [|done]. apply N.leb_le in Ez.
    by rewrite (proj2 Hu Ez). }
  destruct c; cbn [under_quota]; rewrite ?Hf, ?(unlimited_spans _ _ Hu), ?andb_false_r; done.
Qed.
Lemma tree_complete p ho_ mtb tb t o :
  ids_name_keys (in_tree t) -> (forall pm, in_tree t pm -> ids_distinct pm) -> zooms_nested t -> boxes_cover p mtb tb o t ->
  forall fuel out n chain es,
  tree_coalesce p ho_ mtb tb fuel t o = Ok out ->
  node_stack p mtb tb o t n chain es -> free_stack chain es -> stacked n chain ->
  stack_context chain es ∈ out \/ crowded_out 800 out (stack_context chain es) \/
  key_crowded p mtb tb o t n chain es \/ stopped_early t n chain out.
Proof.
  intros Hids Hdist Hzoom Hbox fuel out n chain es H Hns Hfs Hel.
  destruct (tree_complete_quota p ho_ mtb tb t o Hids Hdist Hzoom Hbox ∅ (fun _ => True) ltac:(by left) _ _ _ _ _ H Hns Hel)
    as [?|[?|[?|[?|[Hpb|Hqh]]]]]; auto; exfalso.
  - destruct Hpb as (pm & rest & e & es' & k & b & r & -> & -> & Hk & Hid & Ho & _).
    inversion Hfs as [|? ? ? ? Hu _]. subst. by rewrite (unlimited_spans _ _ (Hu k Hk Hid)) in Ho.
  - destruct Hqh as (i & pm & e & k & c & Hpm & He & Hk & Hid & Hu & _).
    pose proof (Forall2_lookup_lr _ _ _ _ _ _ Hfs Hpm He) as Hf. by rewrite (unlimited_quota _ _ _ (Hf k Hk Hid)) in Hu.
Qed.
