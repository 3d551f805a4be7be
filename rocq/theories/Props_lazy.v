(** Theorem C92: matches are handed out one by one, and stopping early changes nothing. *)
From Verif Require Import Prelude Lists F64 Heap Common Morton Format Builder Spatial Store Lazy Spec Spec_match Spec_lazy
  Store_proofs Lazy_proofs Examples Props_match.
Local Open Scope N_scope.

(** What the model computes at once is what the iterator of the source returns, call by
    call, for every store and every limit. *)
Theorem C92_answers :
  forall p mtb tb s k o max out,
  streaming_get_matching p mtb tb s k o max = Ok out ->
  exists st, lz_open p mtb tb s k o max = Ok st /\ forall n, lz_calls tb n st = Ok (handed_out out n).
Proof.
  intros p mtb tb s k o max out. unfold streaming_get_matching, lz_open. intros H.
  apply bind_Ok in H as ([[st en] marker] & -> & H). cbn [res_bind]. apply bind_Ok in H as (recs & -> & H). cbn [res_bind].
  apply bind_Ok in H as (q & Eq & H). injection H as <-.
  destruct (records_answer p mtb tb s k o max recs hp_empty [] q Eq) as (ends & E & Hs); [split; [done|constructor]|].
  exists (q, ends). split; [exact E|]. intros n. by apply calls_drain.
Qed.
Print Assumptions C92_answers.

(** In a store built by calls of the builder no call of next() fails, whatever the limit. *)
Theorem C92_built :
  forall p mtb tb o ops s k opts max,
  history_ok ops -> built o ops s -> opts_ok p opts (st_radius s) -> query_ok ops (mk_phrase k) -> 1 <= max ->
  exists st out, lz_open p mtb tb s k opts max = Ok st /\ streaming_get_matching p mtb tb s k opts max = Ok out /\
    (forall n, lz_calls tb n st = Ok (handed_out out n)) /\
    forall m, m ∈ out -> should_match ops k opts (st_radius s) m.
Proof.
  intros p mtb tb o ops s k opts max Hh Hb Ho Hq Hmax.
  destruct (C11_limited p mtb tb o ops s k opts max Hh Hb Ho Hq Hmax) as (out & E & Hs & _).
  destruct (C92_answers _ _ _ _ _ _ _ _ E) as (st & E' & Hc). by exists st, out.
Qed.
Print Assumptions C92_built.

Lemma take_matching_sub k m l : forall recs, take_matching k m l = Ok recs -> recs `prefix_of` l.
Proof.
  induction l as [|kv l IH]; intros recs H; cbn [take_matching] in H; [injection H as <-; done|].
  destruct (matches_key k m kv.1) as [[]| | |]; try done.
  - apply bind_Ok in H as (rest & E & H). injection H as <-. by apply prefix_cons, IH.
  - injection H as <-. apply prefix_nil.
Qed.
Lemma list_filter_le {A} (f : A -> bool) l : (length (List.filter f l) <= length l)%nat.
Proof. induction l as [|a l IH]; [done|]. cbn. destruct (f a); cbn; lia. Qed.
Lemma fetched_sub (d : gmap (list N) (list N)) start k m recs : take_matching k m (db_iter_from d start) = Ok recs ->
  (length recs <= size d)%nat /\ forall kv, kv ∈ recs -> kv ∈ map_to_list d.
Proof.
  intros H. apply take_matching_sub in H. unfold db_iter_from, db_iter in H.
  pose proof (isort_perm (fun a b : bytes * bytes => bytes_leb a.1 b.1) (map_to_list d)) as Hp.
  set (l := isort _ _) in *. split.
  - apply prefix_length in H. etrans; [exact H|]. etrans; [apply list_filter_le|].
    apply Permutation_length in Hp. by rewrite Hp.
  - intros kv Hkv. destruct H as [t E]. rewrite <- Hp.
    assert (Hin : kv ∈ recs ++ t) by (apply elem_of_app; by left). rewrite <- E in Hin.
    apply elem_of_list_In, filter_In in Hin as [Hin _]. by apply elem_of_list_In.
Qed.

(** The other way round, for any database, whoever wrote it, and also for a radius that is
    NaN: if the iterator can be made and no call of next() ever fails, the model has an
    answer. The limit has to leave room for all records; a record that is dropped is not
    looked at beyond its first match. *)
Theorem C92_never_fails :
  forall p mtb tb s k o max st,
  of_bytes s -> point_ok o (st_radius s) -> N.of_nat (size (st_db s)) <= max ->
  lz_open p mtb tb s k o max = Ok st -> (forall n, exists ms, lz_calls tb n st = Ok ms) ->
  exists out, streaming_get_matching p mtb tb s k o max = Ok out.
Proof.
  intros p mtb tb s k o max [q ends] Hb Ho Hmax. unfold streaming_get_matching, lz_open. intros H Hc.
  apply bind_Ok in H as ([[st en] marker] & -> & H). cbn [res_bind]. apply bind_Ok in H as (recs & Er & H). rewrite Er. cbn [res_bind].
  destruct (fetched_sub _ _ _ _ _ Er) as [Hlen Hsub].
  destruct (records_push p mtb tb s k o max Hb Ho recs hp_empty [] q ends) as (Hl & _ & Hall); [change (hp_len hp_empty) with 0; lia|exact Hsub|done|exact H|].
  destruct (Hc (S (queue_size q))) as [ms Ems]. rewrite Hall; [by eexists|].
  exact (calls_exhaust tb _ q ends ms Hl (Nat.lt_succ_diag_r _) Ems).
Qed.
Print Assumptions C92_never_fails.

(** So the two agree. *)
Theorem C92_exact :
  forall p mtb tb s k o max out,
  of_bytes s -> point_ok o (st_radius s) -> N.of_nat (size (st_db s)) <= max ->
  streaming_get_matching p mtb tb s k o max = Ok out <->
  exists st, lz_open p mtb tb s k o max = Ok st /\ forall n, lz_calls tb n st = Ok (handed_out out n).
Proof.
  intros p mtb tb s k o max out Hb Ho Hmax. split; [apply C92_answers|]. intros (st & E & Hc).
  destruct (C92_never_fails p mtb tb s k o max st Hb Ho Hmax E) as [out' E']; [intros n; by eexists|].
  destruct (C92_answers _ _ _ _ _ _ _ _ E') as (st' & E1 & Hc'). rewrite E1 in E. injection E as ->.
  enough (out' = out) as -> by exact E'.
  set (n := (length out + length out')%nat). pose proof (Hc n) as H1. rewrite (Hc' n) in H1. injection H1 as H1.
  assert (Hget : forall l : list match_entry, (length l <= n)%nat -> omap id (handed_out l n) = l).
  { intros l Hl. unfold handed_out. rewrite omap_app, take_ge by done. assert (Hn : forall j, omap id (replicate j (None : option match_entry)) = []) by (by induction j).
    rewrite Hn, app_nil_r. clear. induction l as [|a l IH]; [done|]. cbn. by f_equal. }
  rewrite <- (Hget out), <- (Hget out') by lia. by rewrite H1.
Qed.
Print Assumptions C92_exact.

(** ** What stopping early hides *)
(** A radius that is not a number: the relevance 1 has a single score and is not compared,
    the relevance 0.8 has two. *)
Definition z_ops : list op :=
  [OpInsert (1, 1) [GridEntry f_one 1 1 1 1 0; GridEntry f_one 1 2 2 2 0; GridEntry f_08 1 3 3 3 0; GridEntry f_08 2 4 4 4 0];
   OpInsert (2, 1) [GridEntry f_one 1 5 5 5 0]].
Definition z_store : store := open_store (ex_db id_oracle z_ops) 14 0 S754_nan [BBox 0 0 16383 16383] f_one.
Definition z_opts : match_opts := MatchOpts None (Some (1, 1)) 14.
Definition z_key : match_key := MatchKey (Range 1 3) 1.
(** The iterator after one call of next(), if it did not fail. *)
Definition z_st (max : N) : lz_state :=
  match lz_open Debug first_mtb first_tb z_store z_key z_opts max with Ok st => st | _ => (hp_empty, []) end.
Lemma z_open max : max = 1 \/ max = 9 -> lz_open Debug first_mtb first_tb z_store z_key z_opts max = Ok (z_st max).
Proof. intros [->| ->]; vm_compute; reflexivity. Qed.
Lemma z_eager max : max = 1 \/ max = 9 -> streaming_get_matching Debug first_mtb first_tb z_store z_key z_opts max = Panic.
Proof. intros [->| ->]; vm_compute; reflexivity. Qed.
Lemma z_bytes : of_bytes z_store.
Proof.
  intros key v H. apply elem_of_map_to_list in H.
  assert (Hall : forallb (fun kv : list N * list N => forallb (fun b => b <? 256) kv.2) (map_to_list (st_db z_store)) = true) by (vm_compute; reflexivity).
  rewrite forallb_forall in Hall. apply elem_of_list_In in H. specialize (Hall _ H). cbn [snd] in Hall.
  rewrite forallb_forall in Hall. apply Forall_forall. intros b Hb. apply N.ltb_lt, Hall. by apply elem_of_list_In.
Qed.
Lemma z_point : point_ok z_opts (st_radius z_store).
Proof. split; [split; reflexivity|exact I]. Qed.

(** Computing everything fails; asking for items one by one yields two of them before
    a call fails. *)
Theorem C92_early_refuted :
  exists p mtb tb s k o max st ms, of_bytes s /\ point_ok o (st_radius s) /\ N.of_nat (size (st_db s)) <= max /\
    streaming_get_matching p mtb tb s k o max = Panic /\ lz_open p mtb tb s k o max = Ok st /\
    lz_calls tb 2 st = Ok ms /\ map (fun m => ge_id ∘ me_entry <$> m) ms = [Some 5; Some 1] /\ lz_calls tb 3 st = Panic.
Proof.
  exists Debug, first_mtb, first_tb, z_store, z_key, z_opts, 9, (z_st 9).
  destruct (lz_calls first_tb 2 (z_st 9)) as [ms| | |] eqn:E; try (vm_compute in E; discriminate E). exists ms.
  split; [exact z_bytes|]. split; [exact z_point|]. split; [apply N.leb_le; vm_compute; reflexivity|].
  split; [apply z_eager; by right|]. split; [apply z_open; by right|]. split; [reflexivity|].
  vm_compute in E. injection E as <-. split; vm_compute; reflexivity.
Qed.
Print Assumptions C92_early_refuted.

(** With a limit of one the record that would fail is dropped: no call ever fails, and
    computing everything still does. *)
Theorem C92_dropped_refuted :
  exists p mtb tb s k o st m, of_bytes s /\ point_ok o (st_radius s) /\
    streaming_get_matching p mtb tb s k o 1 = Panic /\ lz_open p mtb tb s k o 1 = Ok st /\
    forall n, lz_calls tb n st = Ok (handed_out [m] n).
Proof.
  destruct (lz_next first_tb (z_st 1)) as [[[m|] st']| | |] eqn:E; try (vm_compute in E; discriminate E).
  exists Debug, first_mtb, first_tb, z_store, z_key, z_opts, (z_st 1), m.
  split; [exact z_bytes|]. split; [exact z_point|].
  split; [apply z_eager; by left|]. split; [apply z_open; by left|].
  intros [|n]; [reflexivity|]. rewrite handed_out_cons, handed_out_nil. cbn [lz_calls]. rewrite E. cbn [res_bind]. destruct st' as [q ends].
  rewrite (calls_none first_tb q ends n); [reflexivity|].
  vm_compute in E. injection E as _ <- _. vm_compute. reflexivity.
Qed.
Print Assumptions C92_dropped_refuted.

(** ** An example *)
(** Two keys with three matches: they are handed out one by one, then there are none. *)
Definition ly_ops : list op :=
  [OpInsert (1, 1) [GridEntry f_one 1 1 1 1 0; GridEntry f_08 2 4 4 4 0]; OpInsert (2, 1) [GridEntry f_one 1 5 5 5 0]].
Definition ly_store : store := ex_store ly_ops.
Example C92_ex :
  history_ok ly_ops /\ built id_oracle ly_ops ly_store /\ opts_ok Debug z_opts (st_radius ly_store) /\
  query_ok ly_ops (mk_phrase z_key) /\ of_bytes ly_store /\ point_ok z_opts (st_radius ly_store) /\ N.of_nat (size (st_db ly_store)) <= 9 /\
  exists st ms, lz_open Debug first_mtb first_tb ly_store z_key z_opts 9 = Ok st /\ lz_calls first_tb 5 st = Ok ms /\
    map (fun m => ge_id ∘ me_entry <$> m) ms = [Some 1; Some 5; Some 4; None; None].
Proof.
  split; [apply history_okb_ok; vm_compute; reflexivity|]. split; [apply built_run; vm_compute; reflexivity|].
  split; [vm_compute; done|]. split; [split; [reflexivity|intros H; by apply elem_of_nil in H]|].
  split.
  { intros key v H. apply elem_of_map_to_list in H.
    assert (Hall : forallb (fun kv : list N * list N => forallb (fun b => b <? 256) kv.2) (map_to_list (st_db ly_store)) = true) by (vm_compute; reflexivity).
    rewrite forallb_forall in Hall. apply elem_of_list_In in H. specialize (Hall _ H). cbn [snd] in Hall.
    rewrite forallb_forall in Hall. apply Forall_forall. intros b Hb. apply N.ltb_lt, Hall. by apply elem_of_list_In. }
  split; [vm_compute; done|]. split; [apply N.leb_le; vm_compute; reflexivity|].
  exists (match lz_open Debug first_mtb first_tb ly_store z_key z_opts 9 with Ok st => st | _ => (hp_empty, []) end). eexists.
  split; [vm_compute; reflexivity|]. split; vm_compute; reflexivity.
Qed.
