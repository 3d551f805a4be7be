(** Properties C38 and C40-C45: the bounded queue and the flat coalesce. *)
From Verif Require Import Prelude Lists F64 Heap Common Morton Format Builder Spatial Store Spec Spec_match
  Query Coalesce Cmp_proofs Queue_proofs Float_proofs Spec_coalesce Coalesce_proofs Multi_proofs
  Examples Props_match Props_zoom.
From Coq Require Import Sorting.Sorted.
From Coq Require Import ZifyBool.
Local Open Scope N_scope.

(** ** C38 Bounded priority queue *)
(** For any total preorder, capacity, sequence of pushes and tie-breaking: the queue
    holds min(n, number of pushes) elements, lists them in descending order, and
    nothing that was dropped is greater than anything kept. *)
Theorem C38_top_n :
  forall A (cmp : A -> A -> comparison) (tb : tiebreak) (n : N) (l : list A), total_cmp cmp ->
  let out := cpq_into_desc cmp tb (foldl (fun q a => (cpq_push cmp tb q a).1) (cpq_new n) l) in
  exists dropped, l ≡ₚ out ++ dropped /\
    N.of_nat (length out) = N.min n (N.of_nat (length l)) /\
    StronglySorted (fun a b => cmp b a <> Gt) out /\
    forall d k, d ∈ dropped -> k ∈ out -> cmp d k <> Gt.
Proof.
  intros A cmp tb n l H out.
  destruct (cpq_pushes_hold cmp H tb n [] l (cpq_new n) (cpq_new_holds cmp n)) as (_ & dropped & Hp & Hl & Hd).
  destruct (hp_into_desc_ok cmp H tb
    (cpq_heap (foldl (fun q a => (cpq_push cmp tb q a).1) (cpq_new n) l))) as [Hout Hs].
  fold (cpq_into_desc cmp tb (foldl (fun q a => (cpq_push cmp tb q a).1) (cpq_new n) l)) in Hout, Hs.
  fold out in Hout, Hs. exists dropped. cbn [app] in Hp, Hl. split; [by rewrite Hout|].
  split; [by rewrite (Permutation_length Hout)|]. split; [done|].
  intros d k Hdd Hk. apply Hd; [done|]. by rewrite <- Hout.
Qed.
Print Assumptions C38_top_n.
(** The order on contexts is such an order. *)
Theorem C38_contexts : total_cmp ctx_cmp.
Proof. exact total_cmp_ctx. Qed.
Print Assumptions C38_contexts.
Example C38_ex :
  let push q a := (cpq_push N.compare last_tb q a).1 in
  cpq_into_desc N.compare last_tb (foldl push (cpq_new 3) [4; 9; 1; 9; 7; 2]) = [9; 9; 7] /\
  total_cmp N.compare.
Proof. split; [vm_compute; reflexivity|apply total_cmp_N]. Qed.

(** ** C40 coalesce result shape *)
Lemma cmp_listed_before a b :
  cc_entries a <> [] -> cc_entries b <> [] -> ctx_cmp b a <> Gt -> listed_before a b.
Proof.
  intros Ha Hb H. unfold ctx_cmp in H.
  destruct (cc_entries a) as [|ea ra] eqn:Ea; [done|]. destruct (cc_entries b) as [|eb rb] eqn:Eb; [done|].
  exists ea, ra, eb, rb. split; [done|]. split; [done|]. unfold e_cell, e_id. cbn [fst snd first_difference].
  unfold cmp_then in H. cbn [first_difference].
  destruct (ord_cmp (cc_relev b) (cc_relev a)); try done.
  destruct (ord_cmp (ce_scoredist eb) (ce_scoredist ea)); try done.
  destruct (N.compare (ce_idx ea) (ce_idx eb)); try done.
  destruct (N.compare (ge_x (ce_entry eb)) (ge_x (ce_entry ea))); try done.
  destruct (N.compare (ge_y (ce_entry eb)) (ge_y (ce_entry ea))); try done.
  by destruct (N.compare (ge_id (ce_entry eb)) (ge_id (ce_entry ea))).
Qed.
Lemma single_cmp_ctx a b :
  (forall ea ra eb rb, cc_entries a = ea :: ra -> cc_entries b = eb :: rb -> ce_idx ea = ce_idx eb) ->
  single_cmp a b = ctx_cmp a b.
Proof.
  intros H. unfold single_cmp, ctx_cmp. destruct (cc_entries a) as [|ea ra], (cc_entries b) as [|eb rb]; try done.
  rewrite (H ea ra eb rb eq_refl eq_refl), N.compare_refl. done.
Qed.
Lemma StronglySorted_impl_in {A} (R S : A -> A -> Prop) l :
  (forall a b, a ∈ l -> b ∈ l -> R a b -> S a b) -> StronglySorted R l -> StronglySorted S l.
Proof.
  intros H HS. induction HS as [|a l HS IH HF]; constructor.
  - apply IH. intros x y Hx Hy. apply H; by right.
  - rewrite Forall_forall in *. intros y Hy. apply H; [by left|by right|by apply HF].
Qed.

Lemma single_pre_entries p sq o pid ho pre es c :
  Forall2 (fun g e => grid_to_coalesce_entry p g sq o pid = Ok e) pre es ->
  c ∈ single_pre ho o es -> exists e g, c = single_context e /\ e ∈ es /\ g ∈ pre /\
    grid_to_coalesce_entry p g sq o pid = Ok e.
Proof.
  intros HF Hc. unfold single_pre in Hc. eapply elem_of_sublist in Hc; [|apply take_N_sub].
  rewrite elem_of_isort in Hc. apply elem_of_map_contexts in Hc as (id & e & Hm & ->).
  apply run_entries_from in Hm as [Hm|[He _]]; [cbn [ss_coalesced single_init] in Hm; by rewrite lookup_empty in Hm|].
  apply elem_of_list_lookup in He as [i Hi]. destruct (Forall2_lookup_r _ _ _ _ _ HF Hi) as (g & Hg & Hto).
  exists e, g. split; [done|]. split; [by eapply elem_of_list_lookup_2|]. split; [by eapply elem_of_list_lookup_2|done].
Qed.

Theorem C40_shape :
  forall p ho mtb tb stack o cs, coalesce p ho mtb tb stack o = Ok cs ->
  N.of_nat (length cs) <= 40 /\
  StronglySorted listed_before cs /\
  (forall best c, head cs = Some best -> c ∈ cs ->
     fleb (f_lit 25 100) (fsub (cc_relev best) (cc_relev c)) = false) /\
  NoDup (map first_tmp cs) /\
  (forall c, c ∈ cs -> cc_entries c <> []).
Proof.
  intros p ho mtb tb stack o cs H.
  assert (Hsort : exists pre, StronglySorted (fun a b => ctx_cmp b a <> Gt) pre /\
    cs = match pre with [] => [] | c :: _ => coalesce_filter (cc_relev c) [] 0 pre end).
  { destruct stack as [|sq [|sq' stack]].
    - done.
    - apply coalesce_one in H as (k & ks & out & pre & suf & es & _ & _ & _ & HF & ->).
      exists (single_pre ho o es). split; [|done].
      assert (HS : StronglySorted (fun a b => single_cmp b a <> Gt) (single_pre ho o es)).
      { unfold single_pre. eapply StronglySorted_sublist; [apply take_N_sub|]. apply isort_desc, total_cmp_single. }
      eapply StronglySorted_impl_in; [|exact HS]. intros a b Ha Hb Hab. rewrite <- single_cmp_ctx; [done|].
      intros ea ra eb rb Ea Eb.
      destruct (single_pre_entries _ _ _ _ _ _ _ _ HF Ha) as (e1 & g1 & -> & _ & _ & H1).
      destruct (single_pre_entries _ _ _ _ _ _ _ _ HF Hb) as (e2 & g2 & -> & _ & _ & H2).
      cbn in Ea, Eb. injection Ea as -> _. injection Eb as -> _.
      apply to_entry_inv in H1 as (_ & _ & -> & _). apply to_entry_inv in H2 as (_ & _ & -> & _). done.
    - unfold coalesce in H. apply bind_Ok in H as (pre & Hm & H). exists pre. split.
      + unfold coalesce_multi in Hm. apply bind_Ok in Hm as ([s zo] & _ & Hm). cbn beta iota in Hm. injection Hm as <-.
        apply isort_desc, total_cmp_ctx.
      + by destruct pre; injection H as <-. }
  clear H. destruct Hsort as (pre & HS & ->). destruct pre as [|c pre].
  { split; [cbn; lia|]. split; [apply SSorted_nil|]. split; [done|]. split; [apply NoDup_nil_2|].
    intros c Hc. by apply elem_of_nil in Hc. }
  set (out := coalesce_filter (cc_relev c) [] 0 (c :: pre)).
  assert (Hne : forall d, d ∈ out -> cc_entries d <> []) by (intros d Hd; by eapply coalesce_filter_nonempty).
  split; [|split; [|split; [|split]]].
  - pose proof (coalesce_filter_len (cc_relev c) (c :: pre) [] 0 ltac:(done)) as Hl. fold out in Hl.
    unfold max_contexts in Hl. lia.
  - eapply StronglySorted_impl_in; [|eapply StronglySorted_sublist; [apply coalesce_filter_sub|exact HS]].
    intros a b Ha Hb. apply cmp_listed_before; by apply Hne.
  - intros best d Hb Hd. assert (Hbc : best = c).
    { unfold out in Hb. cbn [coalesce_filter] in Hb. destruct (max_contexts <=? 0) eqn:E; [done|].
      destruct (fleb f_025 _); [done|]. destruct (cc_entries c); [done|]. cbn in Hb. by injection Hb as <-. }
    subst best. by eapply coalesce_filter_window.
  - apply coalesce_filter_nodup.
  - exact Hne.
Qed.
Print Assumptions C40_shape.

(** Layers used by the examples. *)
Definition layer_ops (phrase : N) (es : list grid_entry) : list op := [OpInsert (phrase, 1) es].
Definition layer_store (ops : list op) (zoom : N) : store :=
  open_store (ex_db id_oracle ops) zoom 0 (f_of_N 40) [BBox 0 0 16383 16383] f_one.
Definition layer (ops : list op) (zoom idx mask : N) (weight : f64) : subquery :=
  Subquery (layer_store ops zoom) idx 0 weight mask [MatchKeyWithId (MatchKey (Exact 1) 1) false idx 0].
Definition ops_a : list op :=
  layer_ops 1 [GridEntry f_one 1 1 1 1 0; GridEntry f_one 1 2 2 2 0; GridEntry f_one 1 1 1 5 0].
Definition ops_b : list op :=
  layer_ops 1 [GridEntry f_one 3 3 3 1 0; GridEntry f_one 3 4 4 2 0; GridEntry (f_lit 6 10) 1 3 3 3 0].
Definition layer_a : subquery := layer ops_a 5 0 2 (f_lit 1 2).
Definition layer_b : subquery := layer ops_b 6 1 1 (f_lit 1 2).
Definition summary (r : res (list coalesce_context)) : option (list (N * list (N * N))) :=
  match r with
  | Ok cs => Some (map (fun c => (cc_mask c, map (fun e => (ce_idx e, e_id e)) (cc_entries c))) cs)
  | _ => None
  end.
Example C40_ex :
  summary (coalesce Debug rev_oracle first_mtb last_tb [layer_b; layer_a] (MatchOpts None None 6)) =
    Some [(3, [(1, 2); (0, 2)]); (3, [(1, 1); (0, 5)]); (3, [(1, 3); (0, 5)])].
Proof. vm_compute. reflexivity. Qed.

(** ** C41 Temporary ids *)
(** For 24-bit ids the temporary id is that of (layer index modulo 128, id): it never
    overflows, and is unique among the first 128 layers. *)
Theorem C41_tmp_id :
  forall p o sq1 sq2 g1 g2 pid1 pid2 e1 e2,
  ge_id (me_entry g1) < 2 ^ 24 -> ge_id (me_entry g2) < 2 ^ 24 ->
  grid_to_coalesce_entry p g1 sq1 o pid1 = Ok e1 -> grid_to_coalesce_entry p g2 sq2 o pid2 = Ok e2 ->
  (ce_tmp_id e1 = ce_tmp_id e2 <-> sq_idx sq1 mod 128 = sq_idx sq2 mod 128 /\ e_id e1 = e_id e2).
Proof.
  intros p o sq1 sq2 g1 g2 pid1 pid2 e1 e2 H1 H2 E1 E2. unfold grid_to_coalesce_entry in *.
  rewrite tmp_ok in E1, E2 by (change (2 ^ 25) with 33554432; change (2 ^ 24) with 16777216 in *; lia).
  apply bind_Ok in E1 as (? & _ & E1). apply bind_Ok in E2 as (? & _ & E2). cbn [res_bind] in E1, E2.
  injection E1 as <-. injection E2 as <-. unfold e_id. cbn [ce_tmp_id ce_entry ge_id].
  change (2 ^ 25) with 33554432. change (2 ^ 24) with 16777216 in *.
  generalize (sq_idx sq1 mod 128), (sq_idx sq2 mod 128). intros a b. split; [|by intros [-> ->]]. lia.
Qed.
Print Assumptions C41_tmp_id.
Theorem C41_unique :
  forall p o sq1 sq2 g1 g2 pid1 pid2 e1 e2,
  ge_id (me_entry g1) < 2 ^ 24 -> ge_id (me_entry g2) < 2 ^ 24 -> sq_idx sq1 < 128 -> sq_idx sq2 < 128 ->
  grid_to_coalesce_entry p g1 sq1 o pid1 = Ok e1 -> grid_to_coalesce_entry p g2 sq2 o pid2 = Ok e2 ->
  ce_tmp_id e1 = ce_tmp_id e2 -> ce_idx e1 = ce_idx e2 /\ e_id e1 = e_id e2.
Proof.
  intros p o sq1 sq2 g1 g2 pid1 pid2 e1 e2 H1 H2 I1 I2 E1 E2 Ht.
  apply (C41_tmp_id p o sq1 sq2 g1 g2 pid1 pid2 e1 e2 H1 H2 E1 E2) in Ht as [Hi Hd]. split; [|done].
  rewrite !N.mod_small in Hi by done.
  apply to_entry_inv in E1 as (_ & _ & -> & _). by apply to_entry_inv in E2 as (_ & _ & -> & _).
Qed.
Print Assumptions C41_unique.
(** Layers 0 and 128: two different features share a temporary id, and one of them is
    dropped from a coalesce. *)
Theorem C41_collision_refuted :
  exists sq1 sq2, sq_idx sq1 = 0 /\ sq_idx sq2 = 128 /\
    (forall g pid o, mo_zoom o = st_zoom (sq_store sq1) -> st_zoom (sq_store sq1) = st_zoom (sq_store sq2) ->
       ge_id (me_entry g) < 2 ^ 24 ->
       exists e1 e2, grid_to_coalesce_entry Debug g sq1 o pid = Ok e1 /\
                     grid_to_coalesce_entry Debug g sq2 o pid = Ok e2 /\ ce_tmp_id e1 = ce_tmp_id e2) /\
    summary (coalesce Debug id_oracle first_mtb first_tb [sq1; sq2] (MatchOpts None None 6)) =
      Some [(1, [(0, 7)])].
Proof.
  exists (layer (layer_ops 1 [GridEntry f_one 1 1 1 7 0]) 6 0 1 (f_lit 1 2)),
         (layer (layer_ops 1 [GridEntry f_one 1 9 9 7 0]) 6 128 2 (f_lit 1 2)).
  split; [done|]. split; [done|]. split; [|vm_compute; reflexivity].
  intros g pid o Hz Hzz Hid.
  match goal with |- context [grid_to_coalesce_entry Debug g ?a o pid = Ok _ /\ grid_to_coalesce_entry Debug g ?b o pid = Ok _ /\ _] =>
    destruct (to_entry_ok Debug g a o pid) as (e1 & E1 & _ & T1); [done|change (2 ^ 25) with 33554432; change (2 ^ 24) with 16777216 in *; lia|];
    destruct (to_entry_ok Debug g b o pid) as (e2 & E2 & _ & T2); [done|change (2 ^ 25) with 33554432; change (2 ^ 24) with 16777216 in *; lia|]
  end.
  exists e1, e2. split; [done|]. split; [done|]. rewrite T1, T2. done.
Qed.
Print Assumptions C41_collision_refuted.
Example C41_ex :
  exists e1 e2, grid_to_coalesce_entry Debug (MatchEntry (GridEntry f_one 1 1 1 7 0) true f_zero f_zero) layer_a (MatchOpts None None 5) 0 = Ok e1 /\
  grid_to_coalesce_entry Debug (MatchEntry (GridEntry f_one 1 1 1 7 0) true f_zero f_zero) (layer ops_a 5 3 2 f_one) (MatchOpts None None 5) 0 = Ok e2 /\
  ce_tmp_id e1 = 7 /\ ce_tmp_id e2 = 3 * 2 ^ 25 + 7.
Proof. do 2 eexists. split; [vm_compute; reflexivity|]. split; [vm_compute; reflexivity|]. vm_compute. done. Qed.

(** ** C42 One layer: every feature's best match *)
Definition weighted (sq : subquery) (g : match_entry) : f64 := fmul (ge_relev (me_entry g)) (sq_weight sq).
Definition one_entry (sq : subquery) (g : match_entry) (c : coalesce_context) : Prop :=
  exists e, cc_entries c = [e] /\ to_entry sq 0 g e /\ cc_mask c = sq_mask sq /\ cc_relev c = weighted sq g.

Lemma coalesce_one_context p sq o g e :
  grid_to_coalesce_entry p g sq o 0 = Ok e -> one_entry sq g (single_context e).
Proof.
  intros H%to_entry_inv. exists e. split; [done|]. split; [done|].
  destruct H as (He & _ & _ & Hm & _). unfold single_context. cbn. rewrite He, Hm. done.
Qed.

(** Every context is one match of the layer's first key, unchanged but for the weight. *)
Theorem C42_backed :
  forall p ho mtb tb sq o cs, coalesce p ho mtb tb [sq] o = Ok cs ->
  exists k ks out, sq_keys sq = k :: ks /\
    streaming_get_matching p mtb tb (sq_store sq) (mki_key k) o 80 = Ok out /\
    forall c, c ∈ cs -> exists g, g ∈ out /\ one_entry sq g c.
Proof.
  intros p ho mtb tb sq o cs H.
  apply coalesce_one in H as (k & ks & out & pre & suf & es & Hk & Hs & -> & HF & ->).
  exists k, ks, (pre ++ suf). split; [done|]. split; [exact Hs|]. intros c Hc.
  assert (Hin : c ∈ single_pre ho o es).
  { destruct (single_pre ho o es) as [|c0 l]; [by apply elem_of_nil in Hc|].
    eapply elem_of_sublist; [exact Hc|apply coalesce_filter_sub]. }
  destruct (single_pre_entries _ _ _ _ _ _ _ _ HF Hin) as (e & g & -> & _ & Hg & He).
  exists g. split; [apply elem_of_app; by left|]. by eapply coalesce_one_context.
Qed.
Print Assumptions C42_backed.

(** On a store written by a history the call succeeds, and what is returned was stored. *)
Theorem C42_stored :
  forall p ho mtb tb o ops sq k ks opts,
  history_ok ops -> built o ops (sq_store sq) -> opts_ok p opts (st_radius (sq_store sq)) ->
  sq_keys sq = k :: ks -> query_ok ops (mk_phrase (mki_key k)) -> mo_zoom opts = st_zoom (sq_store sq) ->
  exists cs, coalesce p ho mtb tb [sq] opts = Ok cs /\
    forall c, c ∈ cs -> exists m, should_match ops (mki_key k) opts (st_radius (sq_store sq)) m /\ one_entry sq m c.
Proof.
  intros p ho mtb tb o ops sq k ks opts Hh Hb Ho Hk Hq Hz.
  destruct (C11_limited p mtb tb o ops (sq_store sq) (mki_key k) opts bigger_max Hh Hb Ho Hq ltac:(vm_compute; done))
    as (out & Hout & Hel & _).
  destruct (convert_all p sq opts 0 out Hz) as [es HF].
  { intros g Hg. apply Hel in Hg as (key & es & e & _ & _ & _ & _ & ->). cbn.
    eapply N.lt_trans; [apply N.mod_lt; done|done]. }
  pose proof (coalesce_one_ok p ho mtb tb sq opts k ks out es Hk Hout HF) as Hc.
  eexists. split; [exact Hc|]. intros c Hin.
  destruct (C42_backed _ _ _ _ _ _ _ Hc) as (k' & ks' & out' & Hk' & Hout' & Hback).
  assert (k' = k) by congruence. subst k'. change 80 with bigger_max in Hout'.
  assert (out' = out) by congruence. subst out'.
  destruct (Hback c Hin) as (g & Hg & Hone). exists g. split; [by apply Hel|done].
Qed.
Print Assumptions C42_stored.

(** The weighted relevances of the matches lie within 0.25 of each other and of 0. *)
Definition close_relevances (sq : subquery) (out : list match_entry) : Prop :=
  forall g, g ∈ out -> fleb (f_lit 25 100) (fsub f_zero (weighted sq g)) = false /\
    forall g', g' ∈ out -> fleb (f_lit 25 100) (fsub (weighted sq g) (weighted sq g')) = false.

Section one_layer.
  Context (p : profile) (ho : hash_oracle) (mtb : merge_tb) (tb : tiebreak) (sq : subquery) (o : match_opts).
  Context (k : match_key_id) (ks : list match_key_id) (out : list match_entry).
  Context (Hk : sq_keys sq = k :: ks) (Hz : mo_zoom o = st_zoom (sq_store sq)).
  Context (Hout : streaming_get_matching p mtb tb (sq_store sq) (mki_key k) o 80 = Ok out).
  Context (Hlen : N.of_nat (length out) <= 80) (Hid : forall g, g ∈ out -> ge_id (me_entry g) < 2 ^ 24).
  Context (Hw : close_relevances sq out).

  Lemma one_layer_run : exists es cs,
    coalesce p ho mtb tb [sq] o = Ok cs /\ cs = single_pre ho o es /\
    Forall2 (fun g e => grid_to_coalesce_entry p g sq o 0 = Ok e) out es /\
    single_inv es (run_entries (has_prox o) es single_init) /\
    (forall id f, ss_coalesced (run_entries (has_prox o) es single_init) !! id = Some f -> f ∈ es /\ id = e_id f) /\
    ((forall d, d ∈ es -> f_is_nan (e_relev d) = false /\ f_is_nan (ce_scoredist d) = false) ->
     relev_desc es -> best_inv es (run_entries (has_prox o) es single_init)).
  Proof using All.
    assert (Hid' : forall g, g ∈ out -> ge_id (me_entry g) < 2 ^ 25).
    { intros g Hg. specialize (Hid g Hg). change (2 ^ 25) with 33554432. change (2 ^ 24) with 16777216 in *. lia. }
    destruct (convert_all p sq o 0 out Hz Hid') as [es HF].
    assert (Hes : forall e, e ∈ es -> exists g, g ∈ out /\ e_relev e = weighted sq g /\ e_id e = ge_id (me_entry g) /\
      ce_tmp_id e = (sq_idx sq mod 128) * 2 ^ 25 + e_id e).
    { intros e [i Hi]%elem_of_list_lookup. destruct (Forall2_lookup_r _ _ _ _ _ HF Hi) as (g & Hg & Hto).
      apply elem_of_list_lookup_2 in Hg. exists g. split; [done|].
      destruct (to_entry_ok p g sq o 0 Hz (Hid' g Hg)) as (e' & He' & (Hee & _) & Ht).
      assert (e' = e) by congruence. subst e'. unfold e_relev, e_id. rewrite Ht, Hee. done. }
    assert (Hwin : in_window es).
    { split.
      - intros e He. destruct (Hes e He) as (g & Hg & -> & _). exact (proj1 (Hw g Hg)).
      - intros e e' He He'. destruct (Hes e He) as (g & Hg & -> & _). destruct (Hes e' He') as (g' & Hg' & -> & _).
        exact (proj2 (Hw g Hg) g' Hg'). }
    assert (Hl : N.of_nat (length ([] ++ es)) <= bigger_max).
    { cbn [app]. rewrite <- (Forall2_length _ _ _ HF). exact Hlen. }
    destruct (run_entries_inv (has_prox o) es [] single_init single_inv_init Hl Hwin) as [Hinv Hbest].
    { intros id f Hf. cbn [ss_coalesced single_init] in Hf. by rewrite lookup_empty in Hf. }
    cbn [app] in Hinv, Hbest. set (m := ss_coalesced (run_entries (has_prox o) es single_init)).
    assert (Hfrom : forall id f, m !! id = Some f -> f ∈ es /\ id = e_id f).
    { intros id f Hf. unfold m in Hf. apply run_entries_from in Hf as [Hf|Hf]; [|done].
      cbn [ss_coalesced single_init] in Hf. by rewrite lookup_empty in Hf. }
    exists es, (single_pre ho o es). split; [|split; [done|split; [done|split; [done|split; [done|]]]]].
    - rewrite (coalesce_one_ok p ho mtb tb sq o k ks out es Hk Hout HF). f_equal.
      assert (Hin : forall c, c ∈ single_pre ho o es -> exists e, c = single_context e /\ e ∈ es).
      { intros c Hc. unfold single_pre in Hc. eapply elem_of_sublist in Hc; [|apply take_N_sub].
        rewrite elem_of_isort in Hc. apply elem_of_map_contexts in Hc as (id & e & Hm & ->).
        exists e. split; [done|]. by apply Hfrom in Hm as [? _]. }
      destruct (single_pre ho o es) as [|c0 l] eqn:Epre; [done|].
      destruct (Hin c0 ltac:(by left)) as (e0 & Ec0 & He0).
      apply coalesce_filter_id.
      + rewrite <- Epre. unfold single_pre. rewrite take_N_length. lia.
      + intros d Hd. destruct (Hin d Hd) as (e & -> & _). exists e, []. split; [done|]. apply not_elem_of_nil.
      + intros d Hd. destruct (Hin d Hd) as (e & -> & He). subst c0. cbn. by apply Hwin.
      + rewrite <- Epre. eapply NoDup_sublist.
        * apply fmap_sublist. apply take_N_sub.
        * change (NoDup (map first_tmp (isort (desc_by single_cmp) (map_contexts ho m)))).
          rewrite isort_perm. apply (map_contexts_nodup ho m ((sq_idx sq mod 128) * 2 ^ 25)).
          intros id e He. apply Hfrom in He as [He ->]. by destruct (Hes e He) as (_ & _ & _ & _ & ->).
    - intros Hn Hd. apply Hbest; [|done|done]. intros e f He. by apply elem_of_nil in He.
  Qed.

  (** No feature is lost, unless 40 others are returned. *)
  Lemma one_layer_complete : exists cs, coalesce p ho mtb tb [sq] o = Ok cs /\
    forall g, g ∈ out -> ge_id (me_entry g) <> 0 \/ fltb f_zero (me_scoredist g) = true ->
      N.of_nat (length cs) = 40 \/
      exists c g', c ∈ cs /\ g' ∈ out /\ one_entry sq g' c /\ ge_id (me_entry g') = ge_id (me_entry g).
  Proof using All.
    destruct one_layer_run as (es & cs & Hc & -> & HF & Hinv & Hfrom & _).
    exists (single_pre ho o es). split; [done|]. intros g Hg Hg0.
    apply elem_of_list_lookup in Hg as [i Hi].
    destruct (Forall2_lookup_l _ _ _ _ _ HF Hi) as (e & He & Hto). pose proof (to_entry_inv _ _ _ _ _ _ Hto) as (Hee & _ & _ & _ & _ & Hsd & _).
    apply elem_of_list_lookup_2 in He.
    destruct (si_all _ _ Hinv e He) as [f Hf].
    { unfold e_id. rewrite Hee, Hsd. exact Hg0. }
    pose proof (Hfrom _ _ Hf) as [Hfe Hfid].
    set (m := ss_coalesced (run_entries (has_prox o) es single_init)) in *.
    destruct (N.le_gt_cases (N.of_nat (size m)) max_contexts) as [Hle|Hgt].
    - right. unfold single_pre. rewrite take_N_all.
      2:{ rewrite (Permutation_length (isort_perm _ _)), map_contexts_length. exact Hle. }
      apply elem_of_list_lookup in Hfe as [j Hj]. destruct (Forall2_lookup_r _ _ _ _ _ HF Hj) as (g' & Hg' & Hto').
      exists (single_context f), g'. split; [|split; [by eapply elem_of_list_lookup_2|split; [by eapply coalesce_one_context|]]].
      + rewrite elem_of_isort. apply elem_of_map_contexts. eauto.
      + apply to_entry_inv in Hto' as (Hfe' & _). unfold e_id in Hfid. rewrite Hee, Hfe' in Hfid. cbn in Hfid. done.
    - left. unfold single_pre. rewrite take_N_length, (Permutation_length (isort_perm _ _)), map_contexts_length.
      fold m. change max_contexts with 40 in *. lia.
  Qed.

  (** And each is represented by a best match. *)
  Lemma one_layer_best cs c g g' :
    coalesce p ho mtb tb [sq] o = Ok cs ->
    (forall g, g ∈ out -> f_is_nan (weighted sq g) = false /\ f_is_nan (me_scoredist g) = false) ->
    StronglySorted (fun a b => ord_cmp (weighted sq b) (weighted sq a) <> Gt) out ->
    c ∈ cs -> g ∈ out -> ge_id (me_entry g) <> 0 ->
    one_entry sq g' c -> ge_id (me_entry g') = ge_id (me_entry g) ->
    ~ (ord_cmp (weighted sq g') (weighted sq g) <> Gt /\ ord_cmp (me_scoredist g') (me_scoredist g) = Lt).
  Proof using All.
    intros Hcs Hn Hd Hc Hg Hg0 Hone Hids.
    destruct one_layer_run as (es & cs' & Hc' & -> & HF & Hinv & Hfrom & Hbest).
    assert (cs = single_pre ho o es) by congruence. subst cs.
    assert (Hent : forall i g e, out !! i = Some g -> es !! i = Some e ->
      e_relev e = weighted sq g /\ ce_scoredist e = me_scoredist g /\ e_id e = ge_id (me_entry g)).
    { intros i a e Ha He. pose proof (Forall2_lookup_lr _ _ _ _ _ _ HF Ha He) as Ht. cbn in Ht.
      apply to_entry_inv in Ht as (Hee & _ & _ & _ & _ & Hsd & _). unfold e_relev, e_id. rewrite Hee, Hsd. done. }
    assert (Hb : best_inv es (run_entries (has_prox o) es single_init)).
    { apply Hbest.
      - intros d [i Hi]%elem_of_list_lookup. destruct (Forall2_lookup_r _ _ _ _ _ HF Hi) as (a & Ha & _).
        destruct (Hent i a d Ha Hi) as (-> & -> & _). apply Hn. by eapply elem_of_list_lookup_2.
      - unfold relev_desc. clear - HF Hd Hent. revert es HF Hent. induction Hd as [|a l Hd IH Ha]; intros es HF Hent.
        + inversion HF. constructor.
        + inversion HF as [|? e ? es' He HF']; subst. constructor.
          * apply IH; [done|]. intros i b d Hb Hd'. apply (Hent (S i) b d Hb Hd').
          * rewrite Forall_forall. intros d [i Hi]%elem_of_list_lookup.
            destruct (Forall2_lookup_r _ _ _ _ _ HF' Hi) as (b & Hb & _).
            destruct (Hent O a e eq_refl eq_refl) as (-> & _). destruct (Hent (S i) b d Hb Hi) as (-> & _).
            rewrite Forall_forall in Ha. apply Ha. by eapply elem_of_list_lookup_2. }
    unfold single_pre in Hc. eapply elem_of_sublist in Hc; [|apply take_N_sub].
    rewrite elem_of_isort in Hc. apply elem_of_map_contexts in Hc as (id & f & Hf & ->).
    destruct Hone as (f' & Ef' & (Hfe & _ & _ & _ & _ & Hfsd & _) & _). cbn in Ef'. injection Ef' as <-.
    pose proof (Hfrom _ _ Hf) as [_ Hidf].
    apply elem_of_list_lookup in Hg as [i Hi]. destruct (Forall2_lookup_l _ _ _ _ _ HF Hi) as (e & He & _).
    destruct (Hent i g e Hi He) as (Hre & Hse & Hie).
    assert (Hfid : e_id f = ge_id (me_entry g')) by (unfold e_id; rewrite Hfe; done).
    assert (Hfre : e_relev f = weighted sq g') by (unfold e_relev; rewrite Hfe; done).
    specialize (Hb e f (elem_of_list_lookup_2 _ _ _ He)). rewrite Hie, Hre, Hse, Hfre, Hfsd in Hb. apply Hb; [done|].
    by rewrite <- Hids, <- Hfid, <- Hidf.
  Qed.
End one_layer.

Theorem C42_complete :
  forall p ho mtb tb sq o k ks out,
  sq_keys sq = k :: ks -> mo_zoom o = st_zoom (sq_store sq) ->
  streaming_get_matching p mtb tb (sq_store sq) (mki_key k) o 80 = Ok out ->
  N.of_nat (length out) <= 80 -> (forall g, g ∈ out -> ge_id (me_entry g) < 2 ^ 24) -> close_relevances sq out ->
  exists cs, coalesce p ho mtb tb [sq] o = Ok cs /\
  forall g, g ∈ out -> ge_id (me_entry g) <> 0 \/ fltb f_zero (me_scoredist g) = true ->
    N.of_nat (length cs) = 40 \/
    exists c g', c ∈ cs /\ g' ∈ out /\ one_entry sq g' c /\ ge_id (me_entry g') = ge_id (me_entry g).
Proof. intros p ho mtb tb sq o k ks out. by apply one_layer_complete. Qed.
Print Assumptions C42_complete.
Theorem C42_best :
  forall p ho mtb tb sq o k ks out cs c g g',
  sq_keys sq = k :: ks -> mo_zoom o = st_zoom (sq_store sq) ->
  streaming_get_matching p mtb tb (sq_store sq) (mki_key k) o 80 = Ok out ->
  N.of_nat (length out) <= 80 -> (forall g, g ∈ out -> ge_id (me_entry g) < 2 ^ 24) -> close_relevances sq out ->
  coalesce p ho mtb tb [sq] o = Ok cs ->
  (forall g, g ∈ out -> f_is_nan (weighted sq g) = false /\ f_is_nan (me_scoredist g) = false) ->
  StronglySorted (fun a b => ord_cmp (weighted sq b) (weighted sq a) <> Gt) out ->
  c ∈ cs -> g ∈ out -> ge_id (me_entry g) <> 0 ->
  one_entry sq g' c -> ge_id (me_entry g') = ge_id (me_entry g) ->
  ~ (ord_cmp (weighted sq g') (weighted sq g) <> Gt /\ ord_cmp (me_scoredist g') (me_scoredist g) = Lt).
Proof. intros p ho mtb tb sq o k ks out cs c g g' **. by eapply one_layer_best. Qed.
Print Assumptions C42_best.

(** A layer with three matches, two of them of the same feature: the better is kept. *)
Definition ops_c : list op :=
  layer_ops 1 [GridEntry f_one 1 1 1 5 0; GridEntry f_one 3 2 2 7 0; GridEntry f_one 6 3 3 7 0].
Definition layer_c : subquery := layer ops_c 6 0 1 f_one.
Definition close_relevancesb (sq : subquery) (out : list match_entry) : bool :=
  forallb (fun g => negb (fleb (f_lit 25 100) (fsub f_zero (weighted sq g))) &&
    forallb (fun g' => negb (fleb (f_lit 25 100) (fsub (weighted sq g) (weighted sq g')))) out) out.
Lemma forallb_in {A} (f : A -> bool) l : forallb f l = true -> forall a, a ∈ l -> f a = true.
Proof. intros H a Ha. rewrite forallb_forall in H. apply H. by apply elem_of_list_In. Qed.
Lemma close_relevancesb_ok sq out : close_relevancesb sq out = true -> close_relevances sq out.
Proof.
  intros H g Hg. apply (forallb_in _ _ H) in Hg. apply andb_prop in Hg as [H1 H2]. split; [by apply negb_true_iff|].
  intros g' Hg'. apply (forallb_in _ _ H2) in Hg'. by apply negb_true_iff.
Qed.
Fixpoint sortedb {A} (f : A -> A -> bool) (l : list A) : bool :=
  match l with [] => true | a :: l' => forallb (f a) l' && sortedb f l' end.
Lemma sortedb_ok {A} (f : A -> A -> bool) (R : A -> A -> Prop) l :
  (forall a b, f a b = true -> R a b) -> sortedb f l = true -> StronglySorted R l.
Proof.
  intros Hf. induction l as [|a l IH]; cbn; [constructor|]. intros [H1 H2]%andb_prop. constructor; [by apply IH|].
  apply Forall_forall. intros b Hb. apply Hf. by apply (forallb_in _ _ H1).
Qed.
Definition ok_list {A} (r : res (list A)) : list A := match r with Ok l => l | _ => [] end.
Lemma ok_list_ok {A} (r : res (list A)) : match r with Ok _ => True | _ => False end -> r = Ok (ok_list r).
Proof. by destruct r. Qed.
Definition c42_out : list match_entry :=
  ok_list (streaming_get_matching Debug first_mtb first_tb (sq_store layer_c) (MatchKey (Exact 1) 1) (MatchOpts None None 6) 80).
Example C42_ex :
  history_ok ops_c /\ built id_oracle ops_c (sq_store layer_c) /\
  streaming_get_matching Debug first_mtb first_tb (sq_store layer_c) (MatchKey (Exact 1) 1) (MatchOpts None None 6) 80 = Ok c42_out /\
  length c42_out = 3%nat /\ close_relevances layer_c c42_out /\
  (forall g, g ∈ c42_out -> ge_id (me_entry g) < 2 ^ 24 /\ f_is_nan (weighted layer_c g) = false /\ f_is_nan (me_scoredist g) = false) /\
  StronglySorted (fun a b => ord_cmp (weighted layer_c b) (weighted layer_c a) <> Gt) c42_out /\
  map (fun c => map (fun e => (e_id e, ge_score (ce_entry e))) (cc_entries c))
    (ok_list (coalesce Debug id_oracle first_mtb first_tb [layer_c] (MatchOpts None None 6))) = [[(7, 6)]; [(5, 1)]].
Proof.
  split; [apply history_okb_ok; vm_compute; reflexivity|].
  split; [change (sq_store layer_c) with (layer_store ops_c 6); unfold layer_store; apply built_run; vm_compute; reflexivity|].
  split; [unfold c42_out; apply ok_list_ok; vm_compute; exact I|].
  split; [vm_compute; reflexivity|].
  split; [apply close_relevancesb_ok; vm_compute; reflexivity|].
  split.
  { intros g Hg.
    assert (H : forallb (fun g => (ge_id (me_entry g) <? 2 ^ 24) && negb (f_is_nan (weighted layer_c g)) && negb (f_is_nan (me_scoredist g))) c42_out = true)
      by (vm_compute; reflexivity).
    apply (forallb_in _ _ H) in Hg. apply andb_prop in Hg as [[H1 H2]%andb_prop H3].
    apply N.ltb_lt in H1. apply negb_true_iff in H2, H3. split; [exact H1|]. split; [exact H2|exact H3]. }
  split; [|vm_compute; reflexivity].
  apply (sortedb_ok (fun a b => match ord_cmp (weighted layer_c b) (weighted layer_c a) with Gt => false | _ => true end)).
  - intros a b. by destruct (ord_cmp _ _).
  - vm_compute. reflexivity.
Qed.

(** ** C43 Feature id 0 *)
(** Refuted: a match of feature 0 with scoredist 0 is dropped when it comes first; the
    same match with another id is returned. *)
Theorem C43_id_0_refuted :
  exists sq0 sq1 o,
    (exists e0 e1, sq_store sq0 = layer_store (layer_ops 1 [e0]) 6 /\ sq_store sq1 = layer_store (layer_ops 1 [e1]) 6 /\
       ge_id e0 = 0 /\ e1 = GridEntry (ge_relev e0) (ge_score e0) (ge_x e0) (ge_y e0) 1 (ge_hash e0)) /\
    coalesce Debug id_oracle first_mtb first_tb [sq0] o = Ok [] /\
    summary (coalesce Debug id_oracle first_mtb first_tb [sq1] o) = Some [(1, [(0, 1)])].
Proof.
  exists (layer (layer_ops 1 [GridEntry f_one 0 1 1 0 0]) 6 0 1 f_one),
         (layer (layer_ops 1 [GridEntry f_one 0 1 1 1 0]) 6 0 1 f_one), (MatchOpts None None 6).
  split; [do 2 eexists; split; [reflexivity|]; split; [reflexivity|]; done|].
  split; vm_compute; reflexivity.
Qed.
Print Assumptions C43_id_0_refuted.

(** ** C44 Multi-layer contexts are consistent *)
(** [e] is a match of a layer of zoom at most [z], and its tile contains that of [e0]. *)
Definition lies_under (p : profile) (mtb : merge_tb) (tb : tiebreak) (stack : list subquery) (o : match_opts)
    (z : N) (e0 e : coalesce_entry) : Prop :=
  exists z', entry_from p mtb tb stack o e z' /\ z' <= z /\
    (e_cell e0).1 / 2 ^ (z - z') = (e_cell e).1 /\ (e_cell e0).2 / 2 ^ (z - z') = (e_cell e).2.
Theorem C44_contexts :
  forall p ho mtb tb stack o cs c,
  (2 <= length stack)%nat -> (forall sq, sq ∈ stack -> sq_mask sq <> 0) ->
  (forall a b, a ∈ stack -> b ∈ stack -> st_zoom (sq_store a) - st_zoom (sq_store b) < 16) ->
  coalesce p ho mtb tb stack o = Ok cs -> c ∈ cs ->
  exists z e0 es total, cc_entries c = e0 :: es /\
    entry_from p mtb tb stack o e0 z /\
    (forall e, e ∈ es -> lies_under p mtb tb stack o z e0 e) /\
    disjoint_masks (map ce_mask (e0 :: es)) /\ cc_mask c = all_masks (map ce_mask (e0 :: es)) /\
    accumulates (lies_under p mtb tb stack o z e0) (e0 :: es) total /\
    (cc_relev c = total \/
     cc_relev c = fsub total (f_lit 1 100) /\
     (es = [] \/ exists e1 rest, es = e1 :: rest /\ ce_mask e1 < ce_mask e0)).
Proof.
  intros p ho mtb tb stack o cs c Hlen Hmask Hz H Hc.
  assert (Hm : exists pre, coalesce_multi p ho mtb tb stack o = Ok pre /\ c ∈ pre).
  { destruct stack as [|s1 [|s2 st]]; [cbn in Hlen; lia|cbn in Hlen; lia|].
    unfold coalesce in H. apply bind_Ok in H as (pre & Hp & H). exists pre. split; [done|].
    destruct pre as [|c0 pre]; [injection H as <-; by apply elem_of_nil in Hc|].
    assert (E : cs = coalesce_filter (cc_relev c0) [] 0 (c0 :: pre)) by congruence. subst cs.
    eapply elem_of_sublist; [exact Hc|apply coalesce_filter_sub]. }
  destruct Hm as (pre & Hp & Hin). pose proof (coalesce_multi_good p ho mtb tb stack o pre Hmask Hz Hp) as HF.
  rewrite Forall_forall in HF. destruct (HF c Hin) as (z & [(e0 & es & Ee & [G1 G2 G3 G4 G5])|(e0 & es & t & Ee & [G1 G2 G3 G4 G5] & Hr)]).
  all: rewrite Forall_forall in G2.
  all: assert (Hn : forall e, nested (entry_from p mtb tb stack o) z e0 e -> lies_under p mtb tb stack o z e0 e)
    by (intros e (z' & Hf & Hle & Ha); exists z'; unfold ancestor in Ha; by rewrite <- Ha).
  all: apply (accumulates_impl _ _ Hn) in G5.
  - exists z, e0, es, (cc_relev c). split; [done|]. split; [done|]. split; [|split; [done|split; [done|split; [done|by left]]]].
    intros e He. by apply Hn, G2.
  - exists z, e0, es, t. split; [done|]. split; [done|]. split; [|split; [done|split; [done|split; [done|]]]].
    + intros e He. by apply Hn, G2.
    + rewrite Hr. unfold last_penalty. destruct es as [|e1 es]; [right; split; [done|by left]|].
      destruct (ce_mask e1 <? ce_mask e0) eqn:E; [|by left]. right. split; [done|]. right. exists e1, es. split; [done|lia].
Qed.
Print Assumptions C44_contexts.
(** The entries were stored: [layer_match] in terms of the histories. *)
Theorem C44_stored :
  forall p mtb tb stack o e z,
  entry_from p mtb tb stack o e z ->
  (forall sq, sq ∈ stack -> exists ho ops k ks, history_ok ops /\ built ho ops (sq_store sq) /\
     sq_keys sq = k :: ks /\ query_ok ops (mk_phrase (mki_key k)) /\
     forall zo, adjust_to_zoom p o (st_zoom (sq_store sq)) = Ok zo -> opts_ok p zo (st_radius (sq_store sq))) ->
  exists sq ho ops k ks zo m, sq ∈ stack /\ built ho ops (sq_store sq) /\ sq_keys sq = k :: ks /\
    st_zoom (sq_store sq) = z /\ adjust_to_zoom p o z = Ok zo /\
    should_match ops (mki_key k) zo (st_radius (sq_store sq)) m /\ to_entry sq 0 m e.
Proof.
  intros p mtb tb stack o e z (sq & g & Hsq & Hzm & (k & ks & zo & out & Hk & Ha & Hs & Hg) & Hto) Hst.
  destruct (Hst sq Hsq) as (ho & ops & k' & ks' & Hh & Hb & Hk' & Hq & Ho).
  assert (k' = k) by congruence. subst k'.
  destruct (C11_limited p mtb tb ho ops (sq_store sq) (mki_key k) zo max_grids_per_phrase Hh Hb (Ho zo Ha) Hq ltac:(vm_compute; done))
    as (out' & Hs' & Hel & _).
  assert (out' = out) by congruence. subst out'.
  exists sq, ho, ops, k, ks, zo, g. rewrite <- Hzm. repeat (split; [done|]). split; [by apply Hel|done].
Qed.
Print Assumptions C44_stored.
Example C44_ex :
  let stack := [layer_b; layer_a] in
  (forall sq, sq ∈ stack -> sq_mask sq <> 0) /\
  (forall a b, a ∈ stack -> b ∈ stack -> st_zoom (sq_store a) - st_zoom (sq_store b) < 16) /\
  length (ok_list (coalesce Debug rev_oracle first_mtb last_tb stack (MatchOpts None None 6))) = 3%nat.
Proof.
  intros stack.
  assert (H : forallb (fun a => negb (sq_mask a =? 0) && forallb (fun b => st_zoom (sq_store a) - st_zoom (sq_store b) <? 16) stack) stack = true)
    by (vm_compute; reflexivity).
  split; [|split; [|vm_compute; reflexivity]].
  - intros sq Hsq. apply (forallb_in _ _ H) in Hsq. apply andb_prop in Hsq as [H1 _]. apply negb_true_iff, N.eqb_neq in H1. exact H1.
  - intros a b Ha Hb. apply (forallb_in _ _ H) in Ha. apply andb_prop in Ha as [_ H1].
    apply (forallb_in _ _ H1) in Hb. apply N.ltb_lt in Hb. exact Hb.
Qed.
(** The hypothesis on masks is needed: an entry of mask 0 replaces the very match that
    the context was built for, leaving a context whose mask no entry has. *)
Definition layer_0 : subquery := layer ops_a 5 0 0 (f_lit 1 2).
Definition layer_2 : subquery := layer ops_b 6 1 2 (f_lit 1 2).
Theorem C44_mask_0_refuted :
  exists cs c, coalesce Debug id_oracle first_mtb first_tb [layer_0; layer_2] (MatchOpts None None 6) = Ok cs /\
    c ∈ cs /\ cc_mask c = 2 /\ forall e, e ∈ cc_entries c -> ce_mask e = 0 /\ ce_idx e = sq_idx layer_0.
Proof.
  assert (H : existsb (fun c => (cc_mask c =? 2) && forallb (fun e => (ce_mask e =? 0) && (ce_idx e =? 0)) (cc_entries c))
    (ok_list (coalesce Debug id_oracle first_mtb first_tb [layer_0; layer_2] (MatchOpts None None 6))) = true)
    by (vm_compute; reflexivity).
  apply existsb_exists in H as (c & Hc & H). apply elem_of_list_In in Hc. apply andb_prop in H as [H1 H2].
  eexists _, c. split; [apply ok_list_ok; vm_compute; exact I|]. split; [exact Hc|]. apply N.eqb_eq in H1. split; [exact H1|].
  intros e He. apply (forallb_in _ _ H2) in He. apply andb_prop in He as [H3 H4]. apply N.eqb_eq in H3, H4.
  split; [exact H3|exact H4].
Qed.
Print Assumptions C44_mask_0_refuted.

(** ** C45 The empty stack *)
(** coalesce of no subquery does not return: it panics. *)
Theorem C45_empty_refuted :
  forall p ho mtb tb o, coalesce p ho mtb tb [] o = Panic.
Proof. done. Qed.
Print Assumptions C45_empty_refuted.
