(** Property C101: for one subquery the two searches agree. *)
From Verif Require Import Prelude Lists F64 Heap Common Builder Spatial Store Spec Spec_match Query Coalesce Stackable Tree
  Cmp_proofs Queue_proofs Coalesce_proofs Multi_proofs Flat_proofs Spec_coalesce Tree_proofs Complete_proofs Props_coalesce Leaf_proofs Props_float Bound_proofs Agree_proofs Props_match Examples Spec_level Level_proofs Props_level Spec_agree.
From Coq Require Import Sorting.Sorted.
From Coq Require Import ZifyBool.
Local Open Scope N_scope.

(** ** The tree of one subquery *)
Lemma stack_one sq : N.testbit (sq_nonoverlap sq) 129 = false ->
  let t := stackable [sq] in
  sn_pm (t_root t) = None /\ sn_children (t_root t) = [0] /\ am_next (t_arena t) = 1 /\
  tree_get t 0 = Some (child_node root_node sq (fadd f_zero (sq_weight sq))).
Proof.
  intros Hb. unfold stackable, make_bins. cbn -[child_node arena_add root_node can_stack is_full]. unfold can_stack. cbn [sn_mask sn_idx root_node]. unfold bit_in. rewrite N.land_0_l, Hb.
  cbn -[child_node fadd ord_cmp fltb]. unfold attach, arena_add, is_full. cbn -[child_node fadd ord_cmp fltb lookup insert].
  destruct (ord_lt _ _); cbn -[child_node fadd ord_cmp fltb lookup insert]; unfold tree_get; cbn -[child_node fadd ord_cmp fltb lookup insert]; rewrite lookup_insert; done.
Qed.

(** ** The search over that tree *)
Lemma pop_one {A} (cmp : A -> A -> comparison) tb a : total_cmp cmp ->
  hp_pop_max cmp tb (hp_push hp_empty a) = Some (a, hp_remove (hp_push hp_empty a) 0).
Proof.
  intros H. destruct (hp_pop_max_some cmp H tb (hp_push hp_empty a)) as (x & h & E); [done|].
  unfold hp_pop_max in *. destruct (hp_max_idx cmp tb (hp_push hp_empty a)) as [i|]; [|done].
  cbn [hp_push hp_empty hp_items app] in *. destruct i as [|i]; [done|]. by rewrite lookup_cons, lookup_nil in E.
Qed.
Lemma pop_none {A} (cmp : A -> A -> comparison) tb h : hp_items h = [] -> hp_pop_max cmp tb h = None.
Proof. intros E. unfold hp_pop_max, hp_max_idx, pick. rewrite E. cbn. by rewrite lookup_nil. Qed.
Lemma peek_none {A} (cmp : A -> A -> comparison) tb n : cpq_peek_max cmp tb (cpq_new n) = None.
Proof. unfold cpq_peek_max, hp_peek_max, hp_max_idx, pick. cbn. by rewrite lookup_nil. Qed.

Lemma total_cmp_step : total_cmp step_cmp.
Proof.
  apply total_cmp_then; [apply (total_cmp_proj (fun s => sn_max_relev (tp_node s))), total_cmp_ord|].
  apply total_cmp_then; [apply (total_cmp_proj tp_prox), total_cmp_bool|apply (total_cmp_proj (fun s => st_max_score (sq_store (tp_sq s)))), total_cmp_ord].
Qed.
Lemma fleb_zero w : fltb f_zero w = true -> fleb w (fmul f_075 f_zero) = false.
Proof. replace (fmul f_075 f_zero) with f_zero by (vm_compute; reflexivity). unfold fltb, fleb, SFltb, SFleb, SFcompare, f_zero. by destruct w as [[]|[]| |[] ? ?]. Qed.

Section one.
  Context (p : profile) (ho_ : hash_oracle) (mtb : merge_tb) (tb : tiebreak) (sq : subquery) (k : match_key_id) (o : match_opts).
  Context (Hk : sq_keys sq = [k]) (Hn : mki_nearby k = false) (Hr : ordered_phrase (mk_phrase (mki_key k))) (Hw : fltb f_zero (sq_weight sq) = true).
  Context (n : node) (Hleaf : sn_children n = []) (prox : bool).
  Notation st := (TStep n sq None 0 o (sq_weight sq) prox).
  Lemma gather_one : exists q' h, hp_items h = [] /\
    gather p tb ∅ (cpq_new tree_max_contexts) 2 (GatherState (hp_push hp_empty st) [] [] [] (Quotas 0 0 0 0 0) 0 false) =
    Ok (GatherState h [] [KFetch (mki_id k) sq (mki_key k) o true] [(mki_id k, true)] q' 1 false).
  Proof.
    cbn [gather gt_added gt_steps gt_chunk gt_keys gt_unique gt_quotas].
    replace (chunk_size <=? 0) with false by done. rewrite (pop_one step_cmp tb _ total_cmp_step). cbn iota beta.
    replace (cpq_max (cpq_new tree_max_contexts) <=? cpq_len (@cpq_new coalesce_context tree_max_contexts)) with false by done. cbn [res_bind].
    rewrite peek_none. cbn [tp_sq]. rewrite Hk. cbn [res_foldl].
    assert (Es : is_single st = true) by (unfold is_single, is_leaf; cbn; by rewrite Hleaf).
    assert (Eg : exists q', gather_key p ∅ f_zero st ([], [], Quotas 0 0 0 0 0, false) k = Ok ([KFetch (mki_id k) sq (mki_key k) o true], [(mki_id k, true)], q', true)).
    { unfold gather_key. rewrite Es. cbn [orb]. rewrite Hn. cbn [res_bind tp_opts].
      assert (Ei : exists b, key_is_range p (mki_key k) = Ok b).
      { unfold key_is_range. unfold ordered_phrase in Hr. destruct (mk_phrase (mki_key k)); [by eexists|]. unfold usub. apply N.leb_le in Hr. rewrite Hr. by eexists. }
      destruct Ei as [b ->]. cbn [res_bind key_known existsb]. unfold admit_key. cbn [tp_possible tp_sq]. rewrite (fleb_zero _ Hw), andb_false_r.
      unfold q_and, q_when. rewrite Hn. cbn [negb]. rewrite !andb_true_r.
      destruct (b && (count_ones (sq_mask sq) =? 1)), (mki_length k =? 1), (might_be_slow (sq_store sq)), b; cbn; by eexists. }
    destruct Eg as [q' Eg]. rewrite Eg. cbn [res_bind fst snd]. rewrite Es. cbn [negb orb].
    replace (chunk_size <=? 0 + 1) with false by done.
    exists q', (hp_remove (hp_push hp_empty st) 0). split; [done|]. by rewrite (pop_none _ _ (hp_remove (hp_push hp_empty st) 0) eq_refl).
  Qed.
  Lemma round_one t r : exists q' h, hp_items h = [] /\
    tree_round p ho_ mtb tb t o r (TreeState (cpq_new tree_max_contexts) (hp_push hp_empty st) ∅ (Quotas 0 0 0 0 0)) =
    let* ms := streaming_get_matching p mtb tb (sq_store sq) (mki_key k) o bigger_max in
    let* cs := tree_coalesce_single p sq o ms (mki_id k) in
    Ok (TreeState (cpq_push_all tb (cpq_new tree_max_contexts) (cpq_iter ho_ [6; r; 0] (cpq_push_all tb (cpq_new max_contexts) cs))) h ∅ q', false).
  Proof.
    destruct gather_one as (q' & h & Eh & Eg). exists q', h. split; [done|]. unfold tree_round. cbn [tr_cache tr_contexts tr_steps tr_quotas].
    change (S (length (hp_items (hp_push hp_empty st)))) with 2%nat. rewrite Eg. cbn [res_bind gt_keys res_mapM]. unfold fetch_key at 1. cbn [kf_single kf_sq kf_key kf_opts kf_id].
    destruct (streaming_get_matching p mtb tb (sq_store sq) (mki_key k) o bigger_max) as [ms| | |]; cbn [res_bind]; try done.
    destruct (tree_coalesce_single p sq o ms (mki_id k)) as [cs| | |]; cbn [res_bind]; done.
  Qed.
End one.
Lemma tree_one p ho_ mtb tb sq k o :
  sq_keys sq = [k] -> mki_nearby k = false -> ordered_phrase (mk_phrase (mki_key k)) -> fltb f_zero (sq_weight sq) = true ->
  N.testbit (sq_nonoverlap sq) 129 = false -> mo_zoom o = st_zoom (sq_store sq) ->
  tree_coalesce p ho_ mtb tb (tree_fuel (stackable [sq])) (stackable [sq]) o =
  let* ms := streaming_get_matching p mtb tb (sq_store sq) (mki_key k) o bigger_max in
  let* cs := tree_coalesce_single p sq o ms (mki_id k) in
  Ok (cpq_into_desc ctx_cmp tb (cpq_push_all tb (cpq_new tree_max_contexts) (cpq_iter ho_ [6; 1; 0] (cpq_push_all tb (cpq_new max_contexts) cs)))).
Proof.
  intros Hk Hn Hr Hw Hb Hz. destruct (stack_one sq Hb) as (Hpm & Hch & Hnx & Hget). cbn zeta in *.
  unfold tree_fuel. rewrite Hnx. change (S (N.to_nat 1)) with 2%nat. set (t := stackable [sq]) in *.
  unfold tree_coalesce. rewrite Hpm, Hch. unfold debug_assert. replace (match p with Debug => if true then Ok () else Panic | Release => Ok () end) with (@Ok unit ()) by (by destruct p).
  cbn [res_bind res_foldl first_step]. unfold first_step. rewrite Hget. set (n := child_node _ _ _) in *. change (sn_pm n) with (Some sq). cbn iota beta.
  unfold make_step. change (sn_pm n) with (Some sq). cbn iota beta. rewrite Hz, N.eqb_refl. cbn [res_bind]. cbv zeta.
  match goal with |- context [TStep n sq None 0 o (sq_weight sq) ?x] => set (prox := x) end.
  destruct (round_one p ho_ mtb tb sq k o Hk Hn Hr Hw n eq_refl prox t 1) as (q' & h & Eh & E).
  change (tree_loop p ho_ mtb tb t o 2 ?s) with (match hp_items (tr_steps s) with [] => Ok s | _ => let* (s', complete) := tree_round p ho_ mtb tb t o 1 s in if (complete : bool) then Ok s' else tree_loop p ho_ mtb tb t o 1 s' end).
  cbn [tr_steps hp_items hp_push hp_empty app]. change (Heap [?x] [HPush ?x]) with (hp_push hp_empty x). rewrite E.
  destruct (streaming_get_matching p mtb tb (sq_store sq) (mki_key k) o bigger_max) as [ms| | |]; cbn [res_bind]; try done.
  destruct (tree_coalesce_single p sq o ms (mki_id k)) as [cs| | |]; cbn [res_bind]; try done.
  cbn [tree_loop tr_steps]. by rewrite Eh.
Qed.

(** ** Phrasematch ids *)
Notation pid := entry_with_pid.
Definition pid_state (n : N) (s : single_state) : single_state :=
  SingleState (ss_max_relev s) (ss_prev_id s) (ss_prev_relev s) (ss_prev_scoredist s) (ss_min_scoredist s) (ss_count s) (pid n <$> ss_coalesced s).
Lemma conv_pid p g sq o n : grid_to_coalesce_entry p g sq o n = res_map (pid n) (grid_to_coalesce_entry p g sq o 0).
Proof. unfold grid_to_coalesce_entry. destruct (debug_assert _ _); cbn [res_bind res_map]; try done. by destruct (uadd _ _ _ _). Qed.
Lemma insert_pid n m e : coalesced_insert (pid n <$> m) (pid n e) = pid n <$> coalesced_insert m e.
Proof.
  unfold coalesced_insert. cbn zeta. rewrite lookup_fmap. change (ge_id (ce_entry (pid n e))) with (ge_id (ce_entry e)).
  destruct (m !! ge_id (ce_entry e)) as [old|]; cbn [fmap option_fmap option_map]; [|by rewrite fmap_insert].
  cbn [pid ce_scoredist ce_entry]. destruct (_ && _); [by rewrite fmap_insert|done].
Qed.
Lemma body_pid n hp s e : single_body hp (pid_state n s) (pid n e) =
  match single_body hp s e with Continue s' => Continue (pid_state n s') | Break s' => Break (pid_state n s') end.
Proof.
  unfold single_body. cbn [pid_state ss_max_relev ss_prev_id ss_prev_relev ss_prev_scoredist ss_min_scoredist ss_count ss_coalesced pid ce_entry ce_scoredist]. rewrite insert_pid.
  destruct (_ && _); [done|]. destruct (_ && _); [done|]. destruct (_ && _); [done|]. destruct (fleb _ _); [done|]. by destruct (_ && _).
Qed.
Lemma loop_pid p sq o n ms : forall s, single_loop p sq o n ms (pid_state n s) = res_map (pid_state n) (single_loop p sq o 0 ms s).
Proof.
  induction ms as [|g ms IH]; intros s; cbn [single_loop]; [done|]. rewrite conv_pid.
  destruct (grid_to_coalesce_entry p g sq o 0) as [e| | |]; cbn [res_map res_bind]; try done. rewrite body_pid. destruct (single_body _ s e); [apply IH|done].
Qed.
Lemma cmp_pid n a b : ctx_cmp (with_pid n a) (with_pid n b) = ctx_cmp a b.
Proof. unfold ctx_cmp. cbn [with_pid cc_entries cc_relev]. by destruct (cc_entries a), (cc_entries b). Qed.
Lemma drop_pid n cs : forall top, until_drop_from top (map (with_pid n) cs) = map (with_pid n) (until_drop_from top cs).
Proof. induction cs as [|c cs IH]; intros top; cbn [map until_drop_from]; [done|]. cbn [with_pid cc_relev]. destruct (fleb _ _); [done|]. cbn [map]. f_equal. apply IH. Qed.

(** ** The top of a list without ties *)
Lemma top_unique {A} (cmp : A -> A -> comparison) n l out dropped S : total_cmp cmp -> (forall a b, a ∈ l -> b ∈ l -> cmp a b = Eq -> a = b) ->
  l ≡ₚ out ++ dropped -> N.of_nat (length out) = N.min n (N.of_nat (length l)) -> StronglySorted (fun a b => cmp b a <> Gt) out ->
  (forall d k, d ∈ dropped -> k ∈ out -> cmp d k <> Gt) -> S ≡ₚ l -> StronglySorted (fun a b => cmp b a <> Gt) S -> out = take_N n S.
Proof.
  intros H Hanti Hp Hlen Hs Hd HS HSs.
  assert (E : S = out ++ isort (desc_by cmp) dropped).
  { apply (sorted_perm_unique (fun a b => cmp b a <> Gt)); [| done | |].
    - intros a b Ha Hb H1 H2. rewrite HS in Ha, Hb. apply Hanti; [done..|]. rewrite (tc_anti _ H a b) in H1. by destruct (cmp a b).
    - apply StronglySorted_app. split; [done|]. split; [by apply isort_desc|]. intros a b Ha Hb. apply Hd; [|done]. by rewrite elem_of_isort in Hb.
    - rewrite HS, Hp. apply Permutation_app_head. symmetry. apply isort_perm. }
  rewrite E. pose proof (Permutation_length Hp) as Hl. rewrite app_length in Hl.
  destruct (decide (n <= N.of_nat (length l))) as [Hn|Hn].
  - assert (Hn' : N.of_nat (length out) = n) by lia. clear - Hn'. revert n Hn'. induction out as [|a out IH]; intros n Hn; cbn [app take_N].
    + cbn in Hn. subst n. by destruct (isort _ _).
    + cbn [length] in Hn. destruct (n =? 0) eqn:E; [lia|]. f_equal. apply IH. lia.
  - assert (length dropped = 0%nat) by lia. destruct dropped; [|done]. cbn [isort]. rewrite app_nil_r. symmetry. apply take_N_all. lia.
Qed.
Lemma filter_drop top cs : forall seen out, out + N.of_nat (length cs) <= max_contexts -> (forall c, c ∈ cs -> exists e, cc_entries c = [e] /\ ce_tmp_id e ∉ seen) ->
  NoDup (map (fun c => map ce_tmp_id (cc_entries c)) cs) -> coalesce_filter top seen out cs = until_drop_from top cs.
Proof.
  induction cs as [|c cs IH]; intros seen out Hl Hc Hnd; cbn [coalesce_filter until_drop_from]; [done|]. cbn [length] in Hl.
  replace (max_contexts <=? out) with false by lia. change f_025 with (f_lit 25 100). destruct (fleb _ _); [done|].
  destruct (Hc c) as (e & Ee & He); [by left|]. rewrite Ee. assert (Ex : existsb (N.eqb (ce_tmp_id e)) seen = false).
  { apply not_true_is_false. intros Hx. apply existsb_exists in Hx as (x & Hx & Ex). apply N.eqb_eq in Ex. subst x. apply He. by apply elem_of_list_In. }
  rewrite Ex. f_equal. cbn [map] in Hnd. apply NoDup_cons in Hnd as [Hn Hnd]. rewrite Ee in Hn. apply IH; [lia| |done].
  intros d Hdd. destruct (Hc d) as (e' & Ee' & He'); [by right|]. exists e'. split; [done|]. intros [E|Hin]%elem_of_cons; [|done].
  apply Hn. apply elem_of_map. exists d. split; [|done]. rewrite Ee'. cbn. by rewrite E.
Qed.

Lemma take_map {A B} (f : A -> B) l : forall n, take_N n (map f l) = map f (take_N n l).
Proof. induction l as [|a l IH]; intros n; cbn [map take_N]; [done|]. destruct (n =? 0); [done|]. cbn [map]. f_equal. apply IH. Qed.
Lemma uadd_cancel p a b c r : uadd p 32 a b = Ok r -> uadd p 32 a c = Ok r -> b < 2 ^ 32 -> c < 2 ^ 32 -> b = c.
Proof.
  assert (H : forall b, uadd p 32 a b = Ok r -> r = (a + b) mod 2 ^ 32).
  { intros x. unfold uadd. destruct (a + x <? 2 ^ 32) eqn:E; [intros [= <-]; symmetry; apply N.mod_small; lia|]. destruct p; [done|]. by intros [= <-]. }
  intros Hb Hc Lb Lc. apply H in Hb, Hc. rewrite Hb in Hc.
  pose proof (N.div_mod (a + b) (2 ^ 32) ltac:(done)) as Eb. pose proof (N.div_mod (a + c) (2 ^ 32) ltac:(done)) as Ec. rewrite <- Hc in Ec.
  set (q1 := (a + b) / 2 ^ 32) in *. set (q2 := (a + c) / 2 ^ 32) in *. clearbody q1 q2. set (M := 2 ^ 32) in *. assert (q1 = q2) by (clearbody M; nia). subst q2. lia.
Qed.

(** ** Both searches on one subquery *)
Lemma agree_both :
  forall p ho1 ho2 mtb tb sq k o,
  sq_keys sq = [k] -> mki_nearby k = false -> ordered_phrase (mk_phrase (mki_key k)) -> fltb f_zero (sq_weight sq) = true ->
  N.testbit (sq_nonoverlap sq) 129 = false -> mo_zoom o = st_zoom (sq_store sq) ->
  (forall ms g, streaming_get_matching p mtb tb (sq_store sq) (mki_key k) o 80 = Ok ms -> g ∈ ms -> ge_id (me_entry g) < 2 ^ 32) ->
  res_map (map (with_pid (mki_id k))) (coalesce p ho1 mtb tb [sq] o) = res_map until_drop (stack_and_coalesce p ho2 mtb tb [sq] o) /\
  (forall ms es, streaming_get_matching p mtb tb (sq_store sq) (mki_key k) o bigger_max = Ok ms ->
    Forall2 (fun g e => grid_to_coalesce_entry p g sq o 0 = Ok e) ms es ->
    stack_and_coalesce p ho2 mtb tb [sq] o = Ok (map (with_pid (mki_id k)) (single_pre ho1 o es))).
Proof.
  intros p ho1 ho2 mtb tb sq k o Hk Hn Hr Hw Hb Hz Hids. change 80 with bigger_max in Hids.
  unfold stack_and_coalesce, collapse_phrasematches. cbn [res_foldl collapse_add res_bind].
  rewrite (tree_one p ho2 mtb tb sq k o Hk Hn Hr Hw Hb Hz). unfold coalesce, coalesce_single, first_key. rewrite Hk. cbn [res_bind].
  destruct (streaming_get_matching p mtb tb (sq_store sq) (mki_key k) o bigger_max) as [ms| | |]; cbn [res_bind res_map]; try (split; [done|]; intros ? ? [=]; done).
  specialize (Hids ms). unfold tree_coalesce_single. 
  assert (Ei : single_init = pid_state (mki_id k) single_init) by (unfold pid_state, single_init; cbn; by rewrite fmap_empty).
  assert (Elp : single_loop p sq o (mki_id k) ms single_init = res_map (pid_state (mki_id k)) (single_loop p sq o 0 ms single_init)) by (rewrite Ei at 1; apply loop_pid).
  rewrite !Elp. clear Elp.
  destruct (single_loop p sq o 0 ms single_init) as [s| | |] eqn:El; cbn [res_bind res_map];
    try (split; [done|]; intros ms' es' [= <-] HF'; rewrite (single_loop_ok _ _ _ _ _ _ _ HF') in El; done).
  cbn [pid_state ss_coalesced]. set (n := mki_id k). set (m := ss_coalesced s).
  pose proof El as El'. apply single_loop_run in El as (pre & suf & es & -> & HF & Es).
  assert (Hm : forall id e, m !! id = Some e -> ge_id (ce_entry e) = id /\ exists g, g ∈ pre /\ grid_to_coalesce_entry p g sq o 0 = Ok e).
  { intros id e He. unfold m in He. rewrite Es in He. apply run_entries_from in He as [He|[He ->]]; [unfold single_init in He; cbn [ss_coalesced] in He; by rewrite lookup_empty in He|]. split; [done|].
    apply elem_of_list_lookup in He as [i Hi]. destruct (Forall2_lookup_r _ _ _ _ _ HF Hi) as (g & Hg & Ec). exists g. split; [by eapply elem_of_list_lookup_2|done]. }
  set (C0 := map (fun ie : N * coalesce_entry => single_context ie.2) (hash_iter ho1 [3] m)).
  set (cs := map (fun ie : N * coalesce_entry => single_context ie.2) (isort _ (map_to_list (pid n <$> m)))).
  assert (Hcs : cs ≡ₚ map (with_pid n) C0).
  { unfold cs, C0, hash_iter. rewrite List.map_map. transitivity (map (fun ie : N * coalesce_entry => single_context ie.2) (map_to_list (pid n <$> m))); [apply Permutation_map, isort_perm|].
    transitivity (map (fun ie : N * coalesce_entry => with_pid n (single_context ie.2)) (map_to_list m)); [|apply Permutation_map; symmetry; apply (ho_perm ho1)].
    change (map (fun ie : N * coalesce_entry => with_pid n (single_context ie.2)) (map_to_list m)) with (map (fun ie : N * coalesce_entry => single_context (pid n ie.2)) (map_to_list m)).
    etrans; [apply Permutation_map, map_to_list_fmap|]. change (prod_map id (pid n) <$> map_to_list m) with (map (prod_map id (pid n)) (map_to_list m)). by rewrite List.map_map. }
  assert (HC0 : forall c, c ∈ C0 -> exists e g, c = single_context e /\ g ∈ pre /\ grid_to_coalesce_entry p g sq o 0 = Ok e /\ m !! ge_id (ce_entry e) = Some e).
  { intros c Hc. apply elem_of_map in Hc as ([id e] & -> & Hc). unfold hash_iter in Hc. rewrite (ho_perm ho1) in Hc. apply elem_of_map_to_list in Hc.
    destruct (Hm id e Hc) as (Eid & g & Hg & Ec). exists e, g. rewrite Eid. done. }
  assert (Hidx : forall e g, grid_to_coalesce_entry p g sq o 0 = Ok e -> ce_idx e = sq_idx sq /\ ge_id (ce_entry e) = ge_id (me_entry g) /\ uadd p 32 (as_u32 (N.shiftl (sq_idx sq) 25)) (ge_id (me_entry g)) = Ok (ce_tmp_id e)).
  { intros e g Ec. unfold grid_to_coalesce_entry in Ec. apply bind_Ok in Ec as (_ & _ & Ec). apply bind_Ok in Ec as (tmp & Et & Ec). injection Ec as <-. done. }
  assert (Hone : forall a b, a ∈ C0 -> b ∈ C0 -> single_cmp a b = ctx_cmp a b).
  { intros a b Ha Hb'. apply single_cmp_ctx. intros ea ra eb rb Ea Eb. destruct (HC0 a Ha) as (e & g & -> & _ & Ec & _), (HC0 b Hb') as (e' & g' & -> & _ & Ec' & _).
    injection Ea as <- <-. injection Eb as <- <-. destruct (Hidx _ _ Ec) as [-> _]. destruct (Hidx _ _ Ec') as [-> _]. done. }
  assert (Hanti : forall a b, a ∈ C0 -> b ∈ C0 -> ctx_cmp a b = Eq -> a = b).
  { intros a b Ha Hb' E. destruct (HC0 a Ha) as (e & g & -> & _ & _ & Ea), (HC0 b Hb') as (e' & g' & -> & _ & _ & Eb). unfold ctx_cmp, single_context, cmp_then in E. cbn [cc_entries cc_relev] in E.
    destruct (ord_cmp _ _); try done. destruct (ord_cmp _ _); try done. destruct (N.compare _ _); try done. destruct (N.compare (ge_x _) _); try done. destruct (N.compare (ge_y _) _); try done.
    apply N.compare_eq in E. rewrite E in Ea. congruence. }
  set (F := take_N max_contexts (isort (desc_by single_cmp) C0)).
  set (T := cpq_into_desc ctx_cmp tb _).
  assert (HT : T = map (with_pid n) F).
  { destruct (push_all_holds tb max_contexts [] cs (cpq_new max_contexts) (cpq_new_holds ctx_cmp _)) as (_ & dropped & P1 & P2 & P3). cbn [app] in P1, P2.
    set (q1 := cpq_push_all tb (cpq_new max_contexts) cs) in *. set (it := cpq_iter ho2 _ q1) in *. pose proof (cpq_iter_perm ho2 [6; 1; 0] q1) as Pi. fold it in Pi.
    destruct (push_all_holds tb tree_max_contexts [] it (cpq_new tree_max_contexts) (cpq_new_holds ctx_cmp _)) as (_ & dropped2 & Q1 & Q2 & _). cbn [app] in Q1, Q2.
    destruct (hp_into_desc_ok ctx_cmp total_cmp_ctx tb (cpq_heap (cpq_push_all tb (cpq_new tree_max_contexts) it))) as [Ho Hs]. fold (cpq_into_desc ctx_cmp tb (cpq_push_all tb (cpq_new tree_max_contexts) it)) in Ho, Hs. fold T in Ho, Hs.
    assert (Hd2 : dropped2 = []).
    { pose proof (Permutation_length Q1) as L1. rewrite app_length in L1. pose proof (Permutation_length Pi) as L2. assert (E40 : max_contexts = 40) by reflexivity. assert (E800 : tree_max_contexts = 800) by reflexivity. destruct dropped2; [done|]. cbn [length] in L1. lia. }
    subst dropped2. rewrite app_nil_r in Q1.
    assert (HTp : T ≡ₚ hp_items (cpq_heap q1)) by (by rewrite Ho, <- Q1).
    rewrite (top_unique ctx_cmp max_contexts cs T dropped (map (with_pid n) (isort (desc_by single_cmp) C0))).
    - unfold F. apply take_map.
    - exact total_cmp_ctx.
    - intros a b Ha Hb' E. rewrite Hcs in Ha, Hb'. apply elem_of_map in Ha as (a0 & -> & Ha), Hb' as (b0 & -> & Hb'). rewrite cmp_pid in E. f_equal. by apply Hanti.
    - by rewrite HTp.
    - rewrite (Permutation_length HTp). exact P2.
    - exact Hs.
    - intros d c Hd Hc. apply P3; [done|]. by rewrite <- HTp.
    - rewrite Hcs. apply Permutation_map, isort_perm.
    - apply StronglySorted_map. apply (StronglySorted_impl_in (fun a b => single_cmp b a <> Gt)); [|apply isort_desc, total_cmp_single].
      intros a b Ha Hb'. rewrite elem_of_isort in Ha, Hb'. rewrite cmp_pid. by rewrite Hone. }
  assert (Htmp : NoDup (map (fun c => map ce_tmp_id (cc_entries c)) F)).
  { assert (Hn0 : NoDup (map (fun c => map ce_tmp_id (cc_entries c)) C0)).
    { unfold C0. rewrite List.map_map. apply NoDup_fmap_2_strong; [|unfold hash_iter; rewrite (ho_perm ho1); apply NoDup_map_to_list].
      intros [i e] [i' e'] Hi Hi' E. unfold hash_iter in Hi, Hi'. rewrite (ho_perm ho1) in Hi, Hi'. apply elem_of_map_to_list in Hi, Hi'. cbn in E.
      destruct (Hm i e Hi) as (<- & g & Hg & Ec), (Hm i' e' Hi') as (<- & g' & Hg' & Ec'). destruct (Hidx _ _ Ec) as (_ & Eid & Et), (Hidx _ _ Ec') as (_ & Eid' & Et').
      assert (Eg : ge_id (me_entry g) = ge_id (me_entry g')).
      { injection E as E. rewrite <- E in Et'. eapply uadd_cancel; [exact Et|exact Et'| |]; (apply Hids; [done|]; apply elem_of_app; by left). }
      rewrite Eid, Eid', Eg in *. congruence. }
    unfold F. rewrite <- take_map. eapply NoDup_sublist; [apply take_N_sub|].
    apply (nodup_perm_map (fun c => map ce_tmp_id (cc_entries c)) (isort (desc_by single_cmp) C0) C0); [apply isort_perm|exact Hn0]. }
  assert (HF' : forall top, coalesce_filter top [] 0 F = until_drop_from top F).
  { intros top. apply filter_drop; [|  |done].
    - unfold F. rewrite take_N_length. lia.
    - intros c Hc. eapply elem_of_sublist in Hc; [|apply take_N_sub]. rewrite elem_of_isort in Hc. destruct (HC0 c Hc) as (e & g & -> & _). exists e. split; [done|]. apply not_elem_of_nil. }
  cbn [res_map]. rewrite HT. split.
  2: { intros ms' es' [= <-] HF2. rewrite (single_loop_ok _ _ _ _ _ _ _ HF2) in El'. f_equal. f_equal. unfold F, C0, m, single_pre, map_contexts.
       apply (f_equal (fun x => match x with Ok y => y | _ => s end)) in El'. by rewrite El'. }
  clearbody F. destruct F as [|c F]; [done|]. cbn [res_map]. f_equal. rewrite HF'. unfold until_drop. cbn [map].
  change (with_pid n c :: map (with_pid n) F) with (map (with_pid n) (c :: F)). by rewrite drop_pid.
Qed.
Theorem C101_agree :
  forall p ho1 ho2 mtb tb sq k o,
  sq_keys sq = [k] -> mki_nearby k = false -> ordered_phrase (mk_phrase (mki_key k)) -> fltb f_zero (sq_weight sq) = true ->
  N.testbit (sq_nonoverlap sq) 129 = false -> mo_zoom o = st_zoom (sq_store sq) ->
  (forall ms g, streaming_get_matching p mtb tb (sq_store sq) (mki_key k) o 80 = Ok ms -> g ∈ ms -> ge_id (me_entry g) < 2 ^ 32) ->
  res_map (map (with_pid (mki_id k))) (coalesce p ho1 mtb tb [sq] o) = res_map until_drop (stack_and_coalesce p ho2 mtb tb [sq] o).
Proof. intros. by apply agree_both. Qed.
Print Assumptions C101_agree.

(** ** Where nothing is cut off *)
(** What the loop keeps when no later match is a quarter above an earlier one: all within a quarter of the greatest seen. *)
Definition near_top (s : single_state) : Prop :=
  amount (ss_max_relev s) /\
  forall id f, ss_coalesced s !! id = Some f -> amount (e_relev f) /\ ord_cmp (e_relev f) (ss_max_relev s) <> Gt /\ fleb f_025 (fsub (ss_max_relev s) (e_relev f)) = false.
Definition no_rise (a b : coalesce_entry) : Prop := fleb f_025 (fsub (e_relev b) (e_relev a)) = false.
Lemma run_near hp es : forall s, near_top s -> (forall e, e ∈ es -> amount (e_relev e)) -> StronglySorted no_rise es ->
  (forall id f e, ss_coalesced s !! id = Some f -> e ∈ es -> no_rise f e) -> near_top (run_entries hp es s).
Proof.
  induction es as [|e es IH]; intros s Hs Hpos Hdesc Hle; cbn [run_entries]; [done|].
  apply StronglySorted_inv in Hdesc as [Hdesc Hall]. rewrite Forall_forall in Hall.
  assert (He : amount (e_relev e)) by (apply Hpos; by left).
  assert (Hpos' : forall d, d ∈ es -> amount (e_relev d)) by (intros d Hd; apply Hpos; by right).
  assert (Hle' : forall id f d, ss_coalesced s !! id = Some f -> d ∈ es -> no_rise f d) by (intros id f d Hf Hd; apply (Hle id f d Hf); by right).
  unfold single_body. cbn zeta. destruct (_ && _); [by apply IH|]. destruct (_ && _); [by apply IH|]. destruct (_ && _); [done|].
  destruct (fleb f_025 (fsub (ss_max_relev s) (ge_relev (ce_entry e)))) eqn:Ef; [done|].
  set (mr := if fltb _ _ then _ else _). set (m := coalesced_insert _ e).
  assert (Hm : forall id f, m !! id = Some f -> f = e \/ ss_coalesced s !! id = Some f).
  { intros i g. unfold m, coalesced_insert. cbn zeta. assert (Hi : <[ge_id (ce_entry e):=e]> (ss_coalesced s) !! i = Some g -> g = e \/ ss_coalesced s !! i = Some g).
    { intros H. apply lookup_insert_Some in H as [[_ <-]|[_ H]]; [by left|by right]. }
    destruct (ss_coalesced s !! ge_id (ce_entry e)); [|done]. destruct (_ && _); [done|by right]. }
  destruct Hs as [Hmax Hin].
  assert (Hnew : forall a b c d n, near_top (SingleState mr a b c d n m)).
  { intros a b c d n. unfold near_top. cbn [ss_max_relev ss_coalesced]. unfold mr. fold (e_relev e) in Ef |- *.
    destruct (fltb (ss_max_relev s) (e_relev e)) eqn:El.
    - split; [exact He|]. intros id f Hf. apply Hm in Hf as [->|Hf]; [split; [done|]; split; [by rewrite (tc_refl _ total_cmp_ord)|by apply self_sub]|].
      destruct (Hin id f Hf) as (F1 & F2 & F3). split; [done|]. split; [|apply (Hle id f e Hf); by left].
      eapply (tc_trans _ total_cmp_ord); [exact F2|]. unfold fltb, SFltb in El. unfold ord_cmp. destruct (SFcompare _ _) as [[]|]; done.
    - split; [exact Hmax|]. intros id f Hf. apply Hm in Hf as [->|Hf]; [|by apply (Hin id)]. split; [done|]. split; [|done].
      by apply not_lt_le. }
  destruct (_ && _); [by apply Hnew|]. apply IH; [by apply Hnew|done|done|]. cbn [ss_coalesced]. intros id f d Hf Hd. apply Hm in Hf as [->|Hf]; [by apply Hall|by apply (Hle' id)].
Qed.

Lemma drop_none top cs : (forall c, c ∈ cs -> fleb f_025 (fsub top (cc_relev c)) = false) -> until_drop_from top cs = cs.
Proof.
  induction cs as [|c cs IH]; intros H; cbn [until_drop_from]; [done|]. change (f_lit 25 100) with f_025. rewrite H by (by left). f_equal. apply IH. intros d Hd. apply H. by right.
Qed.
Lemma pre_whole ho o es : (forall e, e ∈ es -> amount (e_relev e)) -> StronglySorted no_rise es -> until_drop (single_pre ho o es) = single_pre ho o es.
Proof.
  intros Hp Hd. assert (Hn : near_top (run_entries (has_prox o) es single_init)).
  { apply run_near; [|done|done|].
    - split; [by vm_compute|]. intros id f Hf. unfold single_init in Hf. cbn [ss_coalesced] in Hf. by rewrite lookup_empty in Hf.
    - intros id f e Hf. unfold single_init in Hf. cbn [ss_coalesced] in Hf. by rewrite lookup_empty in Hf. }
  destruct Hn as [Hmax Hin]. unfold single_pre. set (s := run_entries _ _ _) in *. set (C := map_contexts ho (ss_coalesced s)).
  assert (HC : forall c, c ∈ isort (desc_by single_cmp) C -> amount (cc_relev c) /\ ord_cmp (cc_relev c) (ss_max_relev s) <> Gt /\ fleb f_025 (fsub (ss_max_relev s) (cc_relev c)) = false).
  { intros c Hc. rewrite elem_of_isort in Hc. apply elem_of_map_contexts in Hc as (i & e & He & ->). by apply (Hin i e). }
  destruct (isort (desc_by single_cmp) C) as [|h L] eqn:E; [done|].
  change max_contexts with 40. cbn [take_N N.eqb]. set (L' := take_N _ L). unfold until_drop. apply drop_none.
  destruct (HC h) as (H1 & H2 & _); [by left|].
  intros c Hc. destruct (HC c) as (C1 & _ & C3); [apply elem_of_cons in Hc as [->|Hc]; [by left|]; right; eapply elem_of_sublist; [exact Hc|apply take_N_sub]|].
  eapply sub_below; [exact H1|exact Hmax|exact C1|exact H2|exact C3].
Qed.
Lemma no_rises out es (sq : subquery) p o pid opts radius : amount (sq_weight sq) -> (forall g, g ∈ out -> ge_relev (me_entry g) ∈ shares) ->
  StronglySorted (may_follow opts radius) out -> (mo_prox opts = None /\ StronglySorted at_least_as_good out) \/ fleb (sq_weight sq) (f_of_N 6) = true ->
  Forall2 (fun g e => grid_to_coalesce_entry p g sq o pid = Ok e) out es -> (forall e, e ∈ es -> amount (e_relev e)) /\ StronglySorted no_rise es.
Proof.
  intros Hw Hsh Hs Hor HF.
  assert (Hre : forall g e, grid_to_coalesce_entry p g sq o pid = Ok e -> e_relev e = fmul (ge_relev (me_entry g)) (sq_weight sq)).
  { intros g e Ec. unfold grid_to_coalesce_entry in Ec. apply bind_Ok in Ec as (_ & _ & Ec). apply bind_Ok in Ec as (tmp & Et & Ec). injection Ec as <-. done. }
  induction HF as [|g e out es Hc HF IH]; [split; [intros e He; by apply elem_of_nil in He|constructor]|].
  apply StronglySorted_inv in Hs as [Hs Hall]. rewrite Forall_forall in Hall. destruct IH as [I1 I2]; [intros a Ha; apply Hsh; by right|done| |].
  { destruct Hor as [[H1 H2]|H1]; [left|by right]. apply StronglySorted_inv in H2 as [H2 _]. done. }
  split.
  - intros a [->|Ha]%elem_of_cons; [|by apply I1]. rewrite (Hre _ _ Hc). apply share_amount; [apply Hsh; by left|done].
  - constructor; [done|]. apply Forall_forall. intros d Hd. apply elem_of_list_lookup in Hd as [i Hi]. destruct (Forall2_lookup_r _ _ _ _ _ HF Hi) as (g' & Hg' & Hc').
    apply elem_of_list_lookup_2 in Hg'. unfold no_rise. rewrite (Hre _ _ Hc), (Hre _ _ Hc'). apply pair_close; [apply Hsh; by left|apply Hsh; by right|done|].
    destruct Hor as [[_ H2]|H2].
    + left. apply StronglySorted_inv in H2 as [_ H2]. rewrite Forall_forall in H2. specialize (H2 _ Hg'). unfold at_least_as_good in H2. by destruct (ord_cmp _ _).
    + destruct (Hall _ Hg') as [H3|(H3 & _)]; [by left|]. right. split; [exact H3|exact H2].
Qed.
Theorem C101_exact :
  forall p ho1 ho2 mtb tb o ops sq k opts,
  history_ok ops -> built o ops (sq_store sq) -> opts_ok p opts (st_radius (sq_store sq)) -> query_ok ops (mk_phrase (mki_key k)) ->
  sq_keys sq = [k] -> mki_nearby k = false -> ordered_phrase (mk_phrase (mki_key k)) -> amount (sq_weight sq) -> fltb f_zero (sq_weight sq) = true ->
  N.testbit (sq_nonoverlap sq) 129 = false -> mo_zoom opts = st_zoom (sq_store sq) -> mo_prox opts = None \/ fleb (sq_weight sq) (f_of_N 6) = true ->
  exists cs, coalesce p ho1 mtb tb [sq] opts = Ok cs /\ stack_and_coalesce p ho2 mtb tb [sq] opts = Ok (map (with_pid (mki_id k)) cs).
Proof.
  intros p ho1 ho2 mtb tb o ops sq k opts Hh Hb Ho Hq Hk Hn Hr Ha Hw Ht Hz Hp.
  destruct (C11_limited p mtb tb o ops (sq_store sq) (mki_key k) opts bigger_max Hh Hb Ho Hq ltac:(vm_compute; done)) as (out & Hout & Hel & _).
  assert (Hid : forall g, g ∈ out -> ge_id (me_entry g) < 2 ^ 25).
  { intros g Hg. apply Hel in Hg as (key & es & e & _ & _ & _ & _ & ->). cbn. eapply N.lt_trans; [apply N.mod_lt; done|done]. }
  destruct (convert_all p sq opts 0 out Hz Hid) as [es HF].
  pose proof (C102_levels p mtb tb o ops (sq_store sq) (mki_key k) opts bigger_max out Hh Hb Ho Hq ltac:(by vm_compute) Hout) as Hlev.
  destruct (no_rises out es sq p opts 0 opts (st_radius (sq_store sq)) Ha ltac:(intros g Hg; by eapply matched_share) Hlev) as [Hpos Hdesc]; [|exact HF|].
  { destruct Hp as [Hp|Hp]; [left|by right]. split; [done|]. eapply C17_order; [exact Hh|exact Hb|exact Ho|exact Hq|exact Hp| |exact Hout]; by vm_compute. }
  destruct (agree_both p ho1 ho2 mtb tb sq k opts Hk Hn Hr Hw Ht Hz) as [Hboth Htree].
  { change 80 with bigger_max. intros ms g Hms Hg. assert (ms = out) as -> by congruence. eapply N.lt_trans; [by apply Hid|done]. }
  rewrite (Htree out es Hout HF) in Hboth |- *. cbn [res_map] in Hboth. destruct (coalesce p ho1 mtb tb [sq] opts) as [cs| | |]; cbn [res_map] in Hboth; try done.
  exists cs. split; [done|]. f_equal. apply (f_equal (fun x => match x with Ok y => y | _ => [] end)) in Hboth. unfold res_map in Hboth. cbn [res_bind] in Hboth. rewrite Hboth.
  pose proof (pre_whole ho1 opts es Hpos Hdesc) as E. destruct (single_pre ho1 opts es) as [|c l]; [done|]. unfold until_drop in E |- *. cbn [map]. change (with_pid (mki_id k) c :: map (with_pid (mki_id k)) l) with (map (with_pid (mki_id k)) (c :: l)). rewrite drop_pid. change (cc_relev (with_pid (mki_id k) c)) with (cc_relev c). by rewrite E.
Qed.
Print Assumptions C101_exact.

(** Refuted with proximity: a far match is found first, penalised for its language, and then a near one without the penalty.
    Under a weight of 8 they are more than a quarter apart; one search keeps both and the other drops the first. *)
Definition near_key : match_key_id := MatchKeyWithId (MatchKey (Exact 1) 2) false 0 0.
Definition layer_near (w : f64) : subquery := Subquery (layer_store ops_near 6) 0 0 w 1 [near_key].
Definition ids_of (r : res (list coalesce_context)) : list (list N) :=
  map (fun c => map (fun e => ge_id (ce_entry e)) (cc_entries c)) (ok_list r).
Theorem C101_proximity_refuted :
  exists o ops sq k opts cs ts,
    history_ok ops /\ built o ops (sq_store sq) /\ opts_ok Debug opts (st_radius (sq_store sq)) /\ query_ok ops (mk_phrase (mki_key k)) /\
    sq_keys sq = [k] /\ mki_nearby k = false /\ ordered_phrase (mk_phrase (mki_key k)) /\ amount (sq_weight sq) /\ fltb f_zero (sq_weight sq) = true /\
    N.testbit (sq_nonoverlap sq) 129 = false /\ mo_zoom opts = st_zoom (sq_store sq) /\
    coalesce Debug id_oracle first_mtb first_tb [sq] opts = Ok cs /\ stack_and_coalesce Debug id_oracle first_mtb first_tb [sq] opts = Ok ts /\
    length cs = 1%nat /\ length ts = 2%nat.
Proof.
  set (opts := near_opts).
  exists id_oracle, ops_near, (layer_near (f_of_N 8)), near_key, opts,
    (ok_list (coalesce Debug id_oracle first_mtb first_tb [layer_near (f_of_N 8)] opts)),
    (ok_list (stack_and_coalesce Debug id_oracle first_mtb first_tb [layer_near (f_of_N 8)] opts)).
  split; [apply history_okb_ok; vm_compute; done|]. split; [apply built_run; vm_compute; reflexivity|].
  split; [split; [done|]; cbn; split; [lia|split; [lia|vm_compute; done]]|]. split; [vm_compute; reflexivity|].
  do 3 (split; [done|]). split; [by vm_compute|]. do 3 (split; [by vm_compute|]).
  split; [apply ok_list_ok; vm_compute; done|]. split; [apply ok_list_ok; vm_compute; done|]. split; vm_compute; reflexivity.
Qed.
Print Assumptions C101_proximity_refuted.

(** The hypotheses are met, and both searches find the two features. *)
Example C101_ex :
  let opts := MatchOpts None None 6 in let sq := layer_c in let k := MatchKeyWithId (MatchKey (Exact 1) 1) false 0 0 in
  history_ok ops_c /\ built id_oracle ops_c (sq_store sq) /\ opts_ok Debug opts (st_radius (sq_store sq)) /\ query_ok ops_c (mk_phrase (mki_key k)) /\
  sq_keys sq = [k] /\ mki_nearby k = false /\ ordered_phrase (mk_phrase (mki_key k)) /\ amount (sq_weight sq) /\ fltb f_zero (sq_weight sq) = true /\
  N.testbit (sq_nonoverlap sq) 129 = false /\ mo_zoom opts = st_zoom (sq_store sq) /\ fleb (sq_weight sq) (f_of_N 6) = true /\
  (forall ms g, streaming_get_matching Debug first_mtb first_tb (sq_store sq) (mki_key k) opts 80 = Ok ms -> g ∈ ms -> ge_id (me_entry g) < 2 ^ 32) /\
  ids_of (coalesce Debug id_oracle first_mtb first_tb [sq] opts) = [[7]; [5]] /\
  ids_of (stack_and_coalesce Debug rev_oracle first_mtb first_tb [sq] opts) = [[7]; [5]].
Proof.
  cbn zeta. split; [apply history_okb_ok; vm_compute; done|]. split; [apply built_run; vm_compute; reflexivity|].
  split; [split; [done|]; done|]. split; [vm_compute; reflexivity|].
  do 3 (split; [done|]). split; [by vm_compute|]. do 4 (split; [by vm_compute|]).
  split. { intros ms g H Hg. vm_compute in H. injection H as <-. rewrite !elem_of_cons, elem_of_nil in Hg. destruct Hg as [->|[->|[->|[]]]]; vm_compute; done. }
  split; vm_compute; reflexivity.
Qed.
