(** Properties C78 and C79: the bindings of the phrase set, and indexing with its ids. *)
From Verif Require Import Prelude Lists F64 Heap Common Morton Format Builder Spatial Store Spec Spec_match
  Builder_proofs Bits_proofs Finish_proofs Store_proofs Order_proofs Bins_proofs History_proofs Query_proofs
  Durable_proofs Native Spec_native Native_proofs Fuzzy Spec_fuzzy Examples Props_storage Props_match Props_builder Props_native.
From Coq Require Import Sorting.Sorted.
From Coq Require Import ZifyBool.
Local Open Scope N_scope.

(** ** C78 The phrase set from JavaScript *)
Lemma exactly_of_N n : n < 2 ^ 53 -> exactly (f_of_N n) n.
Proof.
  intros Hn. destruct n as [|m]; [done|]. destruct (f_of_N_pos_exact m Hn) as (k & _ & ->). cbn [exactly].
  rewrite N.succ_pos_spec, N.succ_pred.
  - rewrite N.shiftl_mul_pow2. replace (Z.to_N (- - Z.of_N k)) with k by lia.
    replace (Z.to_N (- Z.of_N k)) with 0 by lia. lia.
  - rewrite N.shiftl_mul_pow2. assert (2 ^ k <> 0) by (apply N.pow_nonzero; done). nia.
Qed.
Lemma to_buffer_ok {F} ids : N.of_nat (length ids) < 2 ^ 30 -> @to_buffer F ids = Ok (FzBuffer ids).
Proof.
  intros H. unfold to_buffer. rewrite N.mod_small by lia. rewrite N.div_mul by lia. by rewrite N.eqb_refl.
Qed.
Lemma to_buffer_panic {F} ids : 2 ^ 30 <= N.of_nat (length ids) -> @to_buffer F ids = Panic.
Proof.
  intros H. unfold to_buffer. destruct (N.eqb_spec ((N.of_nat (length ids) * 4) mod 2 ^ 32 / 4) (N.of_nat (length ids))) as [E|]; [|done].
  exfalso. assert ((N.of_nat (length ids) * 4) mod 2 ^ 32 / 4 < 2 ^ 30); [|lia].
  apply N.div_lt_upper_bound; [done|]. pose proof (N.mod_lt (N.of_nat (length ids) * 4) (2 ^ 32) ltac:(done)). lia.
Qed.

Section crate.
Context (pc : phrase_crate).
Lemma fz_run_app (s : fz_state pc) cs1 cs2 :
  fz_run pc s (cs1 ++ cs2) =
  ((fz_run pc s cs1).1 ++ (fz_run pc (fz_run pc s cs1).2 cs2).1, (fz_run pc (fz_run pc s cs1).2 cs2).2).
Proof.
  revert s. induction cs1 as [|c cs1 IH]; intros s; cbn [app fz_run].
  - cbn [fst snd app]. by destruct (fz_run pc s cs2).
  - destruct (fz_step pc s c) as [r s1]. rewrite IH. destruct (fz_run pc s1 cs1) as [rs s2]. done.
Qed.
Lemma fz_run_closed (f : pc_files pc) cs : fz_run pc (None, f) cs = (replicate (length cs) Err, (None, f)).
Proof.
  induction cs as [|c cs IH]; [done|]. cbn [fz_run length replicate].
  assert (E : fz_step pc (None, f) c = (Err, (None, f))) by (by destruct c as [[?|]|[?|]|]).
  rewrite E, IH. done.
Qed.
Lemma fz_run_open (f : pc_files pc) cs : forall b,
  (forall b ph id b', pc_insert pc b ph = (Ok id, b') -> id < 2 ^ 32) -> FzFinish pc ∉ cs ->
  exists rs b', phrase_calls pc b cs rs b' /\ fz_run pc (Some b, f) cs = (rs, (Some b', f)).
Proof.
  intros b Hid. revert b. induction cs as [|c cs IH]; intros b Hn.
  - exists [], b. split; [constructor|done].
  - apply not_elem_of_cons in Hn as [Hc Hn].
    destruct c as [[ph|]|[ws|]|]; [..|done]; cbn [fz_run fz_step fst snd].
    + destruct (pc_insert pc b ph) as [r b1] eqn:E. destruct (IH b1 Hn) as (rs & b' & Hp & Hr).
      rewrite Hr. eexists _, b'. split; [|reflexivity]. eapply calls_insert; [exact E| |exact Hp].
      destruct r as [id| | |]; cbn [res_bind answered]; try done. exists (f_of_N id). split; [done|].
      apply exactly_of_N. specialize (Hid _ _ _ _ E). lia.
    + destruct (IH b Hn) as (rs & b' & Hp & Hr). rewrite Hr. eexists _, b'. split; [|reflexivity].
      apply calls_bad; [by left|done].
    + destruct (pc_load pc b ws) as [r b1] eqn:E. destruct (IH b1 Hn) as (rs & b' & Hp & Hr).
      rewrite Hr. eexists _, b'. split; [|reflexivity]. eapply calls_load; [exact E| |exact Hp].
      by destruct r.
    + destruct (IH b Hn) as (rs & b' & Hp & Hr). rewrite Hr. eexists _, b'. split; [|reflexivity].
      apply calls_bad; [by right|done].
Qed.
End crate.

(** The life of a phrase set builder. Its ids are of type [u32]. *)
Theorem C78_session :
  forall pc b f before after,
  (forall b ph id b', pc_insert pc b ph = (Ok id, b') -> id < 2 ^ 32) -> FzFinish pc ∉ before ->
  exists rs b', phrase_calls pc b before rs b' /\
    fz_run pc (Some b, f) before = (rs, (Some b', f)) /\
    forall r f', pc_finish pc b' f = (r, f') ->
    exists out, fz_run pc (Some b, f) (before ++ FzFinish pc :: after) =
                  (rs ++ out :: replicate (length after) Err, (None, f')) /\
      (forall ids, r = Ok ids -> out = if N.of_nat (length ids) <? 2 ^ 30 then Ok (FzBuffer ids) else Panic) /\
      ((forall ids, r <> Ok ids) -> answered (fun _ _ => False) r out).
Proof.
  intros pc b f before after Hid Hn. destruct (fz_run_open pc f before b Hid Hn) as (rs & b' & Hp & Hr).
  exists rs, b'. split; [done|]. split; [done|]. intros r f' Hf.
  exists (let* ids := r in to_buffer ids). split.
  - rewrite fz_run_app, Hr. cbn [fst snd fz_run fz_step]. rewrite Hf, fz_run_closed. done.
  - split.
    + intros ids ->. cbn [res_bind]. destruct (N.ltb_spec (N.of_nat (length ids)) (2 ^ 30)).
      * by apply to_buffer_ok.
      * by apply to_buffer_panic.
    + intros Hb. destruct r as [ids| | |]; try done. by destruct (Hb ids).
Qed.
Print Assumptions C78_session.

(** Distances and ids are converted like Rust's [as]: saturating, NaN to 0. *)
Theorem C78_queries :
  forall pc f ph phs e wd w pd d, as_uint (2 ^ 8 - 1) wd w -> as_uint (2 ^ 8 - 1) pd d ->
  fz_match pc f (Some ph) (JsNumber wd) (JsNumber pd) (Some e) = res_map FzFound (pc_match pc f ph w d e) /\
  fz_windows pc f (Some ph) (JsNumber wd) (JsNumber pd) (Some e) = res_map FzFound (pc_windows pc f ph w d e) /\
  fz_multi pc f (Some phs) (JsNumber wd) (JsNumber pd) = res_map FzFound (pc_multi pc f phs w d) /\
  fz_contains pc f (Some ph) (Some e) = res_map FzBoolean (pc_contains pc f ph e) /\
  forall v id, as_uint (2 ^ 32 - 1) v id ->
    fz_by_id pc f (JsNumber v) = res_map (fun r => match r with Some ws => FzPhrase ws | None => FzUndefined end) (pc_by_id pc f id).
Proof.
  intros pc f ph phs e wd w pd d Hw Hd. apply cast_uint_iff in Hw, Hd. change (2 ^ 8 - 1) with u8_max in *.
  unfold fz_match, fz_windows, fz_multi, fz_contains, fz_by_id. cbn [given as_number res_bind]. rewrite <- Hw, <- Hd.
  split; [by destruct (pc_match _ _ _ _ _ _)|]. split; [by destruct (pc_windows _ _ _ _ _ _)|].
  split; [by destruct (pc_multi _ _ _ _ _)|]. split; [by destruct (pc_contains _ _ _ _)|].
  intros v id Hv. apply cast_uint_iff in Hv. change (2 ^ 32 - 1) with u32_max in *. cbn [given as_number res_bind]. rewrite <- Hv.
  by destruct (pc_by_id _ _ _).
Qed.
Print Assumptions C78_queries.
(** Anything else throws, and the crate is not asked. *)
Theorem C78_rejects :
  forall pc f ph phs e wd pd,
  (ph = None \/ e = None -> fz_contains pc f ph e = Err) /\
  (ph = None \/ e = None \/ (forall x, wd <> JsNumber x) \/ (forall x, pd <> JsNumber x) ->
     fz_match pc f ph wd pd e = Err /\ fz_windows pc f ph wd pd e = Err) /\
  (phs = None \/ (forall x, wd <> JsNumber x) \/ (forall x, pd <> JsNumber x) -> fz_multi pc f phs wd pd = Err) /\
  ((forall x, wd <> JsNumber x) -> fz_by_id pc f wd = Err /\ forall p, fz_bins pc p f wd = Err).
Proof.
  intros pc f ph phs e wd pd.
  assert (Hnum : forall v, (forall x, v <> JsNumber x) -> as_number v = Err).
  { intros v Hv. destruct v as [x| | | | |]; try done. by destruct (Hv x). }
  assert (Htot : forall v, (exists x, as_number v = Ok x) \/ as_number v = Err).
  { intros v. destruct v; try (by right). left. by eexists. }
  unfold fz_contains, fz_match, fz_windows, fz_multi, fz_by_id, fz_bins. split; [|split; [|split]].
  - intros [E|E]; subst; [done|]. by destruct ph.
  - intros H. destruct ph as [ph|]; [|done]. cbn [given res_bind].
    destruct (Htot wd) as [[x Hx]|Hx]; rewrite Hx; [|done]. cbn [res_bind].
    destruct (Htot pd) as [[y Hy]|Hy]; rewrite Hy; [|done]. cbn [res_bind].
    destruct e as [e|]; [|done]. exfalso. destruct H as [?|[?|[H|H]]]; try done; apply Hnum in H; congruence.
  - intros H. destruct phs as [phs|]; [|done]. cbn [given res_bind].
    destruct (Htot wd) as [[x Hx]|Hx]; rewrite Hx; [|done]. cbn [res_bind].
    destruct (Htot pd) as [[y Hy]|Hy]; rewrite Hy; [|done]. cbn [res_bind].
    exfalso. destruct H as [?|[H|H]]; try done; apply Hnum in H; congruence.
  - intros H. rewrite (Hnum _ H). done.
Qed.
Print Assumptions C78_rejects.

Lemma bare_ids_ok p bins : bins_apart bins -> bare_ids p bins = Ok (bin_starts bins).
Proof.
  intros [_ Hall]. unfold bare_ids, bin_starts.
  assert (E : map (fun b : N * N => b.1 mod 2 ^ 32) bins = map fst bins).
  { apply map_ext_in. intros b Hb. apply elem_of_list_In in Hb. rewrite Forall_forall in Hall.
    destruct (Hall b Hb). apply N.mod_small. lia. }
  rewrite E. destruct (last bins) as [b|] eqn:El; [|by rewrite app_nil_r].
  assert (Hb : b ∈ bins).
  { apply last_Some in El as [l' ->]. apply elem_of_app. right. apply elem_of_list_here. }
  rewrite Forall_forall in Hall. destruct (Hall b Hb) as [_ Hb2]. rewrite (N.mod_small b.2) by lia.
  unfold uadd. destruct (N.ltb_spec (b.2 + 1) (2 ^ 32)); [done|lia].
Qed.
Lemma bin_starts_sorted bins : bins_apart bins -> StronglySorted (fun a b => a < b) (bin_starts bins).
Proof.
  intros [Hs Hall]. induction bins as [|a bins IH]; [constructor|].
  apply StronglySorted_inv in Hs as [Hs Ha]. apply Forall_cons in Hall as [Ha' Hall].
  unfold bin_starts in *. cbn [map app]. destruct bins as [|b bins].
  - cbn. repeat constructor. lia.
  - change (last (a :: b :: bins)) with (last (b :: bins)). constructor; [by apply IH|].
    rewrite Forall_forall in Ha, Hall. apply Forall_forall. intros x Hx. apply elem_of_app in Hx as [Hx|Hx].
    + apply elem_of_map in Hx as (c & -> & Hc). specialize (Ha c Hc). lia.
    + destruct (last (b :: bins)) as [c|] eqn:El; [|by apply elem_of_nil in Hx].
      apply elem_of_list_singleton in Hx as ->. apply last_Some in El as [l' El].
      assert (Hc : c ∈ b :: bins) by (rewrite El; apply elem_of_app; right; apply elem_of_list_here).
      specialize (Ha c Hc). specialize (Hall c Hc). lia.
Qed.
Lemma bin_starts_length bins : (length (bin_starts bins) <= S (length bins))%nat.
Proof. unfold bin_starts. rewrite app_length, map_length. destruct (last bins); cbn [length]; lia. Qed.

(** getPrefixBins gives the boundaries that load_bin_boundaries is meant for. *)
Theorem C78_bins :
  forall pc p f size n bins, as_uint (2 ^ 64 - 1) size n -> pc_bins pc f n = Ok bins ->
  bins_apart bins -> N.of_nat (length bins) < 2 ^ 30 - 1 ->
  fz_bins pc p f (JsNumber size) = Ok (FzBuffer (bin_starts bins)) /\
  StronglySorted (fun a b => a < b) (bin_starts bins).
Proof.
  intros pc p f size n bins Hn Hb Hbins Hlen. split; [|by apply bin_starts_sorted].
  apply cast_uint_iff in Hn. change (2 ^ 64 - 1) with usize_max in *. unfold fz_bins. cbn [as_number res_bind].
  rewrite <- Hn, Hb. cbn [res_bind]. rewrite bare_ids_ok by done. cbn [res_bind]. apply to_buffer_ok.
  pose proof (bin_starts_length bins). lia.
Qed.
Print Assumptions C78_bins.

(** A crate that sorts its phrases backwards; its sets are read as two bins. *)
Definition toy_crate : phrase_crate :=
  PhraseCrate (list (list bytes)) unit (list (list bytes)) unit N
    (fun b ph => (Ok (N.of_nat (length b)), b ++ [ph]))
    (fun b _ => (Ok tt, b))
    (fun b _ => (Ok (rev (map N.of_nat (seq 0 (length b)))), rev b))
    (fun f ph _ => Ok (bool_decide (ph ∈ f)))
    (fun _ _ w d _ => Ok (w * 1000 + d))
    (fun _ _ w d _ => Ok (w * 1000 + d))
    (fun _ _ w d => Ok (w * 1000 + d))
    (fun f id => Ok (f !! N.to_nat id))
    (fun f _ => Ok [(0, 2); (3, 4)]).
Definition toy_calls : list (fz_call toy_crate) :=
  map (fun n => FzInsert toy_crate (Some [[n]])) [10; 11; 12; 13; 14].
Example C78_ex :
  fz_run toy_crate (Some [], []) (toy_calls ++ [FzInsert toy_crate None; FzLoad toy_crate (Some [tt]); FzFinish toy_crate] ++ toy_calls) =
    (map (fun n => Ok (FzNumber (f_of_N n))) [0; 1; 2; 3; 4] ++
       [Err; Ok FzUndefined; Ok (FzBuffer [4; 3; 2; 1; 0]); Err; Err; Err; Err; Err],
     (None, [[[14]]; [[13]]; [[12]]; [[11]]; [[10]]])) /\
  fz_match toy_crate [] (Some []) (JsNumber (f_of_N 1)) (JsNumber (f_of_N 300)) (Some tt) = Ok (FzFound 1255) /\
  fz_bins toy_crate Debug [] (JsNumber (f_of_N 3)) = Ok (FzBuffer [0; 3; 5]) /\
  fz_by_id toy_crate [[[14]]; [[13]]] (JsNumber (f_of_N 1)) = Ok (FzPhrase [[13]]).
Proof. vm_compute. done. Qed.
Lemma toy_bins_apart : bins_apart [(0, 2); (3, 4)].
Proof. split; repeat constructor; cbn [fst snd]; lia. Qed.
Example C78_bins_ex :
  fz_bins toy_crate Release [] (JsNumber (f_of_N 3)) = Ok (FzBuffer (bin_starts [(0, 2); (3, 4)])).
Proof.
  apply (C78_bins toy_crate Release [] (f_of_N 3) 3); [by apply cast_uint_iff|done|exact toy_bins_apart|done].
Qed.
(** Finding: a set with 2^30 ids or more is written and its builder is gone, but the
    caller does not get the id map without which the grids cannot be renumbered. *)
Definition full_crate : phrase_crate :=
  PhraseCrate unit unit bool unit unit
    (fun b _ => (Ok 0, b)) (fun b _ => (Ok tt, b)) (fun _ _ => (Ok (repeat 0 (N.to_nat (2 ^ 30))), true))
    (fun _ _ _ => Err) (fun _ _ _ _ _ => Err) (fun _ _ _ _ _ => Err) (fun _ _ _ _ => Err) (fun _ _ => Err) (fun _ _ => Err).
Theorem C78_map_refuted :
  exists pc b f ids f', pc_finish pc b f = (Ok ids, f') /\ f' <> f /\
    fz_run pc (Some b, f) [FzFinish pc] = ([Panic], (None, f')).
Proof.
  exists full_crate, tt, false, (repeat 0 (N.to_nat (2 ^ 30))), true. split; [done|]. split; [done|].
  destruct (C78_session full_crate tt false [] []) as (rs & b' & Hp & _ & H).
  { intros b ph id b' E. cbn [full_crate pc_insert] in E. assert (id = 0) by congruence. subst. done. }
  { apply not_elem_of_nil. }
  destruct (H (Ok (repeat 0 (N.to_nat (2 ^ 30)))) true eq_refl) as (out & Hr & Hout & _).
  specialize (Hout _ eq_refl). rewrite repeat_length, N2Nat.id, N.ltb_irrefl in Hout. subst out.
  inversion Hp; subst. exact Hr.
Qed.
Print Assumptions C78_map_refuted.
(** Finding: a last bin that ends with the id 2^32-1 stops a debug build; a release
    build gives boundaries that are not ascending. *)
Theorem C78_last_refuted :
  bare_ids Debug [(0, 9); (10, 2 ^ 32 - 1)] = Panic /\ bare_ids Release [(0, 9); (10, 2 ^ 32 - 1)] = Ok [0; 10; 0].
Proof. vm_compute. done. Qed.
Print Assumptions C78_last_refuted.

(** ** C79 Indexing with the phrase set's ids *)
Lemma written_dom ops k : is_Some (written ops !! k) <-> exists o, o ∈ ops /\ op_key o = Some k.
Proof.
  rewrite <- run_dom. pose proof (run_rel ops k) as Hr.
  destruct (b_data (run ops) !! k), (written ops !! k); try done; by split; intros [? ?].
Qed.
Lemma written_snoc ops o : written (ops ++ [o]) = written_step (written ops) o.
Proof. unfold written. by rewrite foldl_app. Qed.
Lemma written_map_op f ops :
  (forall k1 k2, is_Some (written ops !! k1) -> is_Some (written ops !! k2) -> f k1 = f k2 -> k1 = k2) ->
  forall k' v, written (map (map_op f) ops) !! k' = Some v <-> exists k, written ops !! k = Some v /\ f k = k'.
Proof.
  intros Hinj.
  assert (Hinj' : forall o1 o2 k1 k2, o1 ∈ ops -> o2 ∈ ops -> op_key o1 = Some k1 -> op_key o2 = Some k2 ->
    f k1 = f k2 -> k1 = k2).
  { intros o1 o2 k1 k2 H1 H2 E1 E2. apply Hinj; apply written_dom; eauto. }
  clear Hinj. induction ops as [|o ops IH] using rev_ind.
  - intros k' v. unfold written. cbn [map foldl]. rewrite lookup_empty. split; [done|].
    intros (k & H & _). by rewrite lookup_empty in H.
  - assert (IH' : forall k' v, written (map (map_op f) ops) !! k' = Some v <-> exists k, written ops !! k = Some v /\ f k = k').
    { apply IH. intros o1 o2 k1 k2 H1 H2. apply Hinj'; apply elem_of_app; by left. }
    clear IH. rename IH' into IH. rewrite List.map_app. cbn [map]. rewrite !written_snoc.
    assert (Hlook : forall k0, op_key o = Some k0 -> written (map (map_op f) ops) !! f k0 = written ops !! k0).
    { intros k0 Hk0. destruct (written ops !! k0) as [v|] eqn:E; [apply IH; eauto|].
      destruct (written (map (map_op f) ops) !! f k0) as [v|] eqn:E'; [|done].
      apply IH in E' as (k & Hk & Ef). assert (is_Some (written ops !! k)) as Hs by eauto.
      apply written_dom in Hs as (o1 & Hin1 & Ho1).
      assert (k = k0) as ->; [|congruence].
      apply (Hinj' o1 o); [apply elem_of_app; by left|apply elem_of_app; right; left|done..]. }
    assert (Hins : forall k0 es, op_key o = Some k0 ->
      written_step (written ops) o = <[k0 := es]> (written ops) ->
      written_step (written (map (map_op f) ops)) (map_op f o) = <[f k0 := es]> (written (map (map_op f) ops)) ->
      forall k' v, written_step (written (map (map_op f) ops)) (map_op f o) !! k' = Some v <->
        exists k, written_step (written ops) o !! k = Some v /\ f k = k').
    { intros k0 es Hk0 E1 E2 k' v. rewrite E1, E2. rewrite lookup_insert_Some, IH. split.
      - intros [[<- <-]|[Hne (k & Hk & <-)]]; [exists k0; by rewrite lookup_insert|].
        exists k. rewrite lookup_insert_ne by congruence. done.
      - intros (k & [[<- <-]|[Hne Hk]]%lookup_insert_Some & <-); [by left|].
        right. split; [|eauto]. intros Ef. apply Hne. symmetry.
        assert (is_Some (written ops !! k)) as Hs by eauto.
        apply written_dom in Hs as (o1 & Hin1 & Ho1).
        apply (Hinj' o1 o); [apply elem_of_app; by left|apply elem_of_app; right; left|done..]. }
    destruct o as [k0 es|k0 es|k0 r s i h cs|bs]; cbn [map_op].
    + eapply Hins; [done|reflexivity|reflexivity].
    + eapply Hins; [done|reflexivity|]. cbn [written_step map_op]. by rewrite (Hlook k0).
    + eapply Hins; [done|reflexivity|]. cbn [written_step map_op]. by rewrite (Hlook k0).
    + exact IH.
Qed.

Lemma renumber_inj ops ids b' : renumber (run ops) ids = (Ok tt, b') ->
  forall k1 k2, is_Some (written ops !! k1) -> is_Some (written ops !! k2) -> final_key ids k1 = final_key ids k2 -> k1 = k2.
Proof.
  intros H. assert (E : (renumber (run ops) ids).1 = Ok tt) by (by rewrite H).
  apply C26_success in E as [H1 H2]. intros k1 k2 Hk1 Hk2 E.
  pose proof (H1 _ Hk1) as L1. pose proof (H1 _ Hk2) as L2. apply lookup_lt_is_Some in L1 as [n1 L1], L2 as [n2 L2].
  unfold final_key in E. rewrite L1, L2 in E. cbn [default] in E. apply pair_equal_spec in E as [E1 E2].
  specialize (H2 k1 k2 Hk1 Hk2). rewrite L1, L2 in H2. destruct k1, k2. cbn [fst snd] in *. f_equal; [|done].
  apply H2; [|done]. f_equal. exact E1.
Qed.
Lemma renumbered ops ids b' : renumber (run ops) ids = (Ok tt, b') ->
  (forall k, is_Some (written ops !! k) -> ids !! N.to_nat k.1 = Some (final_key ids k).1) /\
  forall k' es, written (with_final_ids ids ops) !! k' = Some es <->
    exists k, written ops !! k = Some es /\ final_key ids k = k'.
Proof.
  intros H. assert (E : (renumber (run ops) ids).1 = Ok tt) by (by rewrite H).
  apply C26_success in E as [H1 H2]. split.
  - intros k Hk. apply H1, lookup_lt_is_Some in Hk as [n Hn]. unfold final_key. by rewrite Hn.
  - apply written_map_op. by eapply renumber_inj.
Qed.
Lemma final_size (ids : list N) (m m' : gmap (N * N) (list grid_entry)) :
  (forall k1 k2, is_Some (m !! k1) -> is_Some (m !! k2) -> final_key ids k1 = final_key ids k2 -> k1 = k2) ->
  (forall k' es, m' !! k' = Some es <-> exists k, m !! k = Some es /\ final_key ids k = k') ->
  size m' = size m.
Proof.
  intros Hinj Hm. change (length (map_to_list m') = length (map_to_list m)).
  rewrite <- (map_length (fun kv => (final_key ids kv.1, kv.2)) (map_to_list m)). apply Permutation_length.
  apply NoDup_Permutation; [apply NoDup_map_to_list| |].
  - assert (Hin : forall k v, (k, v) ∈ map_to_list m -> is_Some (m !! k)) by (intros k v Hk; apply elem_of_map_to_list in Hk; eauto).
    pose proof (NoDup_map_to_list m) as Hnd. induction Hnd as [|[k v] l Hk Hnd IH]; [constructor|].
    cbn [map fst snd]. constructor; [|apply IH; intros; eapply Hin; right; done].
    intros H. apply elem_of_map in H as ([k0 v0] & E & H0). cbn [fst snd] in E. apply pair_equal_spec in E as [E1 ->].
    apply Hinj in E1; [subst; done|eapply Hin; left|eapply Hin; right; exact H0].
  - intros [k v]. rewrite elem_of_map_to_list, Hm. split.
    + intros (k0 & Hk0 & <-). apply elem_of_map. exists (k0, v). split; [done|]. by apply elem_of_map_to_list.
    + intros H. apply elem_of_map in H as ([k0 v0] & E & H0). cbn [fst snd] in E. apply pair_equal_spec in E as [-> ->].
      exists k0. split; [|done]. by apply elem_of_map_to_list.
Qed.
Lemma history_final ops ids b' bounds : history_ok ops -> renumber (run ops) ids = (Ok tt, b') ->
  Forall (fun n => n < 2 ^ 32 - 1) ids -> Forall (fun n => n < 2 ^ 32) bounds ->
  history_ok (with_final_ids ids ops ++ [OpBounds bounds]).
Proof.
  intros [Hops Hw] H Hids Hb. destruct (renumbered _ _ _ H) as [Hfin Hwr]. split.
  - apply Forall_app. split; [|by constructor].
    apply Forall_forall. intros x Hx. apply elem_of_map in Hx as (y & -> & Hy).
    rewrite Forall_forall in Hops. specialize (Hops y Hy).
    assert (Hky : forall k0, op_key y = Some k0 -> key_ok k0 -> key_ok (final_key ids k0)).
    { intros k0 Ho [_ Hl]. unfold final_key, key_ok. cbn [fst snd]. split; [|done].
      destruct (ids !! N.to_nat k0.1) as [n|] eqn:En; cbn [default]; [|done].
      rewrite Forall_forall in Hids. apply elem_of_list_lookup_2, Hids in En. unfold id. lia. }
    destruct y as [k0 es0|k0 es0|k0 r0 s0 i h cs|bs]; cbn [map_op op_ok] in *; [..|done];
      (destruct Hops as [H1 H2]; split; [by apply Hky|done]).
  - intros k es Hk. rewrite written_snoc in Hk. cbn [written_step] in Hk.
    apply Hwr in Hk as (k0 & Hk0 & <-). destruct (Hw k0 es Hk0) as [_ Hlen]. split; [|done].
    pose proof (Hfin k0 ltac:(eauto)) as En. rewrite Forall_forall in Hids. by apply elem_of_list_lookup_2, Hids in En.
Qed.
Lemma loaded_snoc ops bounds : loaded (ops ++ [OpBounds bounds]) = bounds.
Proof. unfold loaded. by rewrite foldl_app. Qed.

(** Grids inserted under the ids that insert() gave, then renumbered with the map that
    finish() of the phrase set gave, bin boundaries loaded, and finished: the store is the
    one that the accepted calls with the final ids would have written. *)
Theorem C79_session :
  forall o calls ids bounds d rs zoom type_id radius bboxes max_score,
  JsFinish ∉ calls -> (forall ids, JsRenumber ids ∉ calls) ->
  js_run o (Some builder_new, ∅) (calls ++ [JsRenumber (Some ids); JsBounds (Some bounds); JsFinish]) =
    (rs ++ [Ok tt; Ok tt; Ok tt], (None, d)) ->
  exists ops b', accepted calls ops /\ renumber (run ops) ids = (Ok tt, b') /\
    built o (with_final_ids ids ops ++ [OpBounds bounds]) (open_store d zoom type_id radius bboxes max_score).
Proof.
  intros o calls ids bounds d rs zoom type_id radius bboxes max_score Hf Hr H.
  destruct (js_run_open o ∅ calls builder_new Hf) as (rs0 & b & Hp & Hrun).
  destruct (performs_ops _ _ _ _ Hp Hr) as (ops & Ha & ->). change (foldl apply_op builder_new ops) with (run ops) in *.
  rewrite js_run_app, Hrun in H. cbn [fst snd] in H. rewrite !js_run_cons in H.
  cbn [js_run js_step js_edit fst snd] in H.
  destruct (renumber (run ops) ids) as [r b'] eqn:En. cbn [js_step js_edit fst snd] in H.
  destruct (finish o (load_bin_boundaries b' bounds) ∅) as [d'| | |] eqn:Ef; cbn [fst snd] in H;
    apply pair_equal_spec in H as [H1 H2]; cbn [fst snd] in H1;
    apply app_inj_2 in H1 as [_ H1]; try done; try (exfalso; congruence).
  assert (r = Ok tt) by congruence. subst r.
  exists ops, b'. split; [done|]. split; [done|].
  exists d', zoom, type_id, radius, bboxes, max_score. split; [|congruence].
  rewrite run_snoc, <- (C25_relabel _ _ _ En). exact Ef.
Qed.
Print Assumptions C79_session.

(** A query on final ids finds exactly the entries written under the temporary ids that
    the map takes to a selected id; for ranges this includes those answered from bins. *)
Theorem C79_query :
  forall p mtb tb o ops ids b' bins s k opts max,
  history_ok ops -> renumber (run ops) ids = (Ok tt, b') ->
  Forall (fun n => n < 2 ^ 32 - 1) ids -> bins_apart bins ->
  (forall fin, fin ∈ ids -> exists bin, bin ∈ bins /\ bin.1 <= fin <= bin.2) ->
  built o (with_final_ids ids ops ++ [OpBounds (bin_starts bins)]) s ->
  (forall gid l, N.of_nat (length (bin_entries (with_final_ids ids ops ++ [OpBounds (bin_starts bins)]) gid l)) <= 2 ^ 27) ->
  opts_ok p opts (st_radius s) ->
  match mk_phrase k with Exact id => id < 2 ^ 32 - 1 | Range a b => a < 2 ^ 32 end ->
  1 <= max -> N.of_nat (size (written ops)) <= max ->
  exists out, streaming_get_matching p mtb tb s k opts max = Ok out /\
    forall m, m ∈ out <-> indexed_match ids ops k opts (st_radius s) m.
Proof.
  intros p mtb tb o ops ids b' bins s k opts max Hh Hren Hids Hbins Hcov Hb Hsize Ho Hk Hmax Hsz.
  destruct (renumbered _ _ _ Hren) as [Hfin Hwr].
  pose proof (bin_starts_sorted _ Hbins) as Hsorted.
  assert (Hrange : Forall (fun n => n < 2 ^ 32) (bin_starts bins)).
  { destruct Hbins as [_ Hall]. rewrite Forall_forall in Hall. apply Forall_forall. intros x Hx.
    apply elem_of_app in Hx as [Hx|Hx].
    - apply elem_of_map in Hx as (b & -> & Hb'). specialize (Hall b Hb'). lia.
    - destruct (last bins) as [b|] eqn:El; [|by apply elem_of_nil in Hx].
      apply elem_of_list_singleton in Hx as ->. apply last_Some in El as [l' ->].
      specialize (Hall b ltac:(apply elem_of_app; right; apply elem_of_list_here)). lia. }
  set (fops := with_final_ids ids ops ++ [OpBounds (bin_starts bins)]) in *.
  assert (Hwf : written fops = written (with_final_ids ids ops)) by (unfold fops; by rewrite written_snoc).
  assert (Hl : loaded fops = bin_starts bins) by (unfold fops; apply loaded_snoc).
  assert (Hbk : bins_ok fops).
  { split; [by rewrite Hl|]. split; [|done]. intros k0 es Hk0. rewrite Hwf in Hk0.
    apply Hwr in Hk0 as (k1 & Hk1 & <-). pose proof (Hfin k1 ltac:(eauto)) as En.
    apply elem_of_list_lookup_2, Hcov in En as (bin & Hin & Hlo & _). rewrite Hl. unfold bin_starts.
    destruct bins as [|b0 bins]; [by apply elem_of_nil in Hin|]. exists b0.1. split; [done|].
    apply elem_of_cons in Hin as [->|Hin]; [done|]. destruct Hbins as [Hs Hall].
    apply StronglySorted_inv in Hs as [_ Hs]. rewrite Forall_forall in Hs. specialize (Hs bin Hin).
    apply Forall_cons in Hall as [Hb0 _]. lia. }
  assert (Hsize' : size (written fops) = size (written ops)).
  { rewrite Hwf. apply (final_size ids); [by eapply renumber_inj|done]. }
  destruct (C11_selects p mtb tb o fops s k opts max) as (out & Hrun & Hout); try done.
  - eapply history_final; done.
  - unfold query_ok. destruct (mk_phrase k); [done|]. split; [done|]. intros _ _. exact Hbk.
  - by rewrite Hsize'.
  - exists out. split; [done|]. intros m. rewrite Hout. unfold should_match, indexed_match. rewrite Hwf. split.
    + intros (key & es & e & Hw & Hsel & He & Hbox & ->). apply Hwr in Hw as (k0 & Hk0 & <-).
      exists k0.1, k0.2, (final_key ids k0).1, es, e. rewrite <- surjective_pairing. split; [done|].
      split; [apply Hfin; eauto|]. done.
    + intros (tmp & lang & fin & es & e & Hw & Hf & Hsel & He & Hbox & ->).
      exists (fin, lang), es, e. split; [|done]. apply Hwr. exists (tmp, lang). split; [done|].
      unfold final_key. cbn [fst snd]. by rewrite Hf.
Qed.
Print Assumptions C79_query.
(** A number given by insert(), used as the phrase id of a key, is the id it was. *)
Theorem C79_key :
  forall v id lang key, exactly v id -> id < 2 ^ 32 ->
  as_key (JsKey (JsNumber v) lang) key <-> key.1 = id /\ as_langs lang key.2.
Proof.
  intros v id lang key He Hid. unfold as_key. cbn [jk_phrase jk_lang].
  assert (Hu : as_uint (2 ^ 32 - 1) v id).
  { destruct v as [s|s| |[|] m e]; try done; cbn [exactly] in He.
    - subst. constructor.
    - replace id with (N.min (2 ^ 32 - 1) id) by lia. constructor. unfold integer_part. rewrite <- He.
      assert (2 ^ Z.to_N (- e) <> 0) by (apply N.pow_nonzero; done). nia. }
  apply cast_uint_iff in Hu. split.
  - intros (v' & E & H1 & H2). assert (v' = v) by congruence. subst v'. apply cast_uint_iff in H1. split; [congruence|done].
  - intros [H1 H2]. exists v. split; [done|]. split; [|done]. apply cast_uint_iff. congruence.
Qed.
Print Assumptions C79_key.

(** The phrases of the toy crate, with grids for four of them. *)
Definition toy_key (n : N) (lang : jsval) : js_key := JsKey (JsNumber (f_of_N n)) lang.
Definition toy_grids : list js_call :=
  [ JsInsert (toy_key 1 JsNull) (Some [ex_e1; ex_e2]);
    JsAppend (toy_key 0 (JsArray [JsNumber (f_of_N 1)])) (Some [ex_e2]);
    JsAppend (JsKey JsNull JsNull) (Some [ex_e2]);
    JsInsert (toy_key 3 JsNull) (Some [ex_e3]);
    JsCompact (toy_key 4 JsNull) (JsNumber f_one) (JsNumber (f_of_N 3)) (JsNumber (f_of_N 9)) (JsNumber f_zero) (Some [(1, 2)]) ].
Definition toy_ops : list op :=
  [ OpInsert (1, u128_max) [ex_e1; ex_e2]; OpAppend (0, 2) [ex_e2]; OpInsert (3, u128_max) [ex_e3];
    OpCompact (4, u128_max) f_one 3 9 0 [(1, 2)] ].
Definition toy_run : list (res unit) * js_state :=
  js_run id_oracle (Some builder_new, ∅)
    (toy_grids ++ [JsRenumber (Some [4; 3; 2; 1; 0]); JsBounds (Some [0; 3; 5]); JsFinish]).
Definition toy_final : list op := with_final_ids [4; 3; 2; 1; 0] toy_ops ++ [OpBounds (bin_starts [(0, 2); (3, 4)])].
Definition toy_store : store := open_store toy_run.2.2 14 0 (f_of_N 400) [BBox 0 0 16383 16383] f_one.
Example C79_session_ex :
  JsFinish ∉ toy_grids /\ (forall ids, JsRenumber ids ∉ toy_grids) /\
  toy_run = ([Ok tt; Ok tt; Err; Ok tt; Ok tt] ++ [Ok tt; Ok tt; Ok tt], (None, ex_db id_oracle toy_final)) /\
  accepted toy_grids toy_ops.
Proof.
  split; [unfold toy_grids; set_solver|]. split; [intros ids; unfold toy_grids; set_solver|].
  split; [vm_compute; reflexivity|].
  unfold toy_grids, toy_ops.
  apply acc_op; [constructor; apply to_key_iff; vm_compute; reflexivity|].
  apply acc_op; [constructor; apply to_key_iff; vm_compute; reflexivity|].
  apply acc_skip; [intros o H; inversion H; subst; by match goal with H : as_key _ _ |- _ => destruct H as (? & ? & _) end|].
  apply acc_op; [constructor; apply to_key_iff; vm_compute; reflexivity|].
  apply acc_op; [constructor; [apply to_key_iff|apply cast_uint_iff..]; vm_compute; reflexivity|]. constructor.
Qed.
(** The first bin, ids 0 to 2, holds the phrases inserted as 2, 3 and 4. *)
Example C79_query_ex :
  exists out, streaming_get_matching Debug first_mtb first_tb toy_store (MatchKey (Range 0 3) 1) ex_plain_opts 10 = Ok out /\
    (forall m, m ∈ out <-> indexed_match [4; 3; 2; 1; 0] toy_ops (MatchKey (Range 0 3) 1) ex_plain_opts (st_radius toy_store) m) /\
    map xy_id out = [(60000, 5, 9); (1, 2, 9)].
Proof.
  destruct (C79_query Debug first_mtb first_tb id_oracle toy_ops [4; 3; 2; 1; 0] (renumber (run toy_ops) [4; 3; 2; 1; 0]).2
              [(0, 2); (3, 4)] toy_store (MatchKey (Range 0 3) 1) ex_plain_opts 10) as (out & Hr & Hout).
  - apply history_okb_ok. vm_compute. done.
  - vm_compute. reflexivity.
  - repeat constructor; lia.
  - exact toy_bins_apart.
  - intros fin Hfin. rewrite !elem_of_cons, elem_of_nil in Hfin.
    destruct (decide (fin <= 2)); [exists (0, 2)|exists (3, 4)]; rewrite !elem_of_cons; cbn [fst snd]; split; try lia; auto.
  - apply built_run. vm_compute. reflexivity.
  - intros gid l. fold toy_final. unfold bin_entries.
    assert (Hle : forall f (L : list ((N * N) * list grid_entry)),
        (length (mjoin (map snd (List.filter f L))) <= length (mjoin (map snd L)))%nat).
    { intros f. induction L as [|x L IH]; [done|].
      assert (E1 : mjoin (map snd (x :: L)) = x.2 ++ mjoin (map snd L)) by done.
      rewrite E1, app_length. cbn [List.filter]. destruct (f x); [|lia].
      assert (E2 : mjoin (map snd (x :: List.filter f L)) = x.2 ++ mjoin (map snd (List.filter f L))) by done.
      rewrite E2, app_length. lia. }
    assert (E : length (mjoin (map snd (map_to_list (written toy_final)))) = 5%nat) by (vm_compute; reflexivity).
    match goal with |- context [List.filter ?f _] => specialize (Hle f (map_to_list (written toy_final))) end.
    rewrite E in Hle. lia.
  - done.
  - cbn. lia.
  - lia.
  - vm_compute. discriminate.
  - exists out. split; [exact Hr|]. split; [exact Hout|].
    assert (E : res_map (map xy_id) (streaming_get_matching Debug first_mtb first_tb toy_store (MatchKey (Range 0 3) 1) ex_plain_opts 10)
                = Ok [(60000, 5, 9); (1, 2, 9)]) by (vm_compute; reflexivity).
    rewrite Hr in E. unfold res_map in E. cbn [res_bind] in E. congruence.
Qed.
