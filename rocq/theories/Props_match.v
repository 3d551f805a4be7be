(** Properties C11-C13, C17-C22 and C24: what matching queries return. *)
From Verif Require Import Prelude Lists F64 Heap Common Morton Format Builder Spatial Store Spec Spec_match
  Finish_proofs Store_proofs Order_proofs Bins_proofs History_proofs Cmp_proofs Merge_proofs Float_proofs
  Match_proofs Query_proofs Binquery_proofs Examples.
From Coq Require Import Sorting.Sorted.
From Coq Require Import ZifyBool.
Local Open Scope N_scope.

(** The data of a match that do not depend on the language of the query. *)
Definition payload (m : match_entry) : N * N * N * N * N * f64 * f64 :=
  (ge_score (me_entry m), ge_x (me_entry m), ge_y (me_entry m), ge_id (me_entry m), ge_hash (me_entry m),
   me_distance m, me_scoredist m).

(** ** C11 Exact and range lookups select exactly the requested phrases *)
(** With room for all records: the matches are those of the entries written under a
    selected phrase id, inside the box when there is one. Language and proximity
    filter nothing. *)
Theorem C11_selects :
  forall p mtb tb o ops s k opts max,
  history_ok ops -> built o ops s -> opts_ok p opts (st_radius s) -> query_ok ops (mk_phrase k) ->
  1 <= max -> N.of_nat (size (written ops)) <= max ->
  exists out, streaming_get_matching p mtb tb s k opts max = Ok out /\
    forall m, m ∈ out <-> should_match ops k opts (st_radius s) m.
Proof.
  intros p mtb tb o ops s k opts max Hh Hb Ho Hq Hmax Hsz.
  destruct (query_streams p mtb tb o ops s k opts Hh Hb Ho Hq) as (ess & Hel & Hlen & _ & Hrun).
  destruct (q_run_all tb max ess ltac:(lia) Hmax) as (q & Hq' & Hp & _).
  exists (drain_queue tb (queue_size q) q). rewrite Hrun, Hq'. split; [done|].
  intros m. rewrite Hp. apply Hel.
Qed.
Print Assumptions C11_selects.
(** With any limit: only such matches are returned, and when some are missing there
    are at least [max] others. *)
Theorem C11_limited :
  forall p mtb tb o ops s k opts max,
  history_ok ops -> built o ops s -> opts_ok p opts (st_radius s) -> query_ok ops (mk_phrase k) -> 1 <= max ->
  exists out, streaming_get_matching p mtb tb s k opts max = Ok out /\
    (forall m, m ∈ out -> should_match ops k opts (st_radius s) m) /\
    (forall m, should_match ops k opts (st_radius s) m -> m ∉ out -> max <= N.of_nat (length out)).
Proof.
  intros p mtb tb o ops s k opts max Hh Hb Ho Hq Hmax.
  destruct (query_streams p mtb tb o ops s k opts Hh Hb Ho Hq) as (ess & Hel & Hlen & _ & Hrun).
  destruct (q_run_some tb max ess Hmax) as (q & rest & Hq' & Hp & Hr).
  exists (drain_queue tb (queue_size q) q). rewrite Hrun, Hq'. split; [done|]. split.
  - intros m Hm. apply Hel. rewrite Hp. apply elem_of_app. by left.
  - intros m Hm Hn. apply Hel in Hm. rewrite Hp in Hm. apply elem_of_app in Hm as [Hm|Hm]; [done|].
    apply Hr. intros ->. by apply elem_of_nil in Hm.
Qed.
Print Assumptions C11_limited.
(** Answered from the individual records (no bins), with multiplicities: the matches
    are exactly those of the entries listed by iter(), one each. *)
Theorem C11_multiset :
  forall p mtb tb o ops s k opts max kvs,
  history_ok ops -> built o ops s -> opts_ok p opts (st_radius s) ->
  query_ok ops (mk_phrase k) -> ~ bin_query ops (mk_phrase k) ->
  1 <= max -> N.of_nat (size (written ops)) <= max -> iter s = Ok kvs ->
  exists out, streaming_get_matching p mtb tb s k opts max = Ok out /\
    out ≡ₚ expected_matches k opts (st_radius s) kvs.
Proof.
  intros p mtb tb o ops s k opts max kvs Hh Hb Ho Hq Hbq Hmax Hsz Hi.
  destruct (plain_streams p mtb tb o ops s k opts kvs Hh Hb Ho (plain_query_ok o ops s _ Hh Hb Hq Hbq) Hi)
    as (ess & HF & Hrun).
  assert (Hlen : (length ess <= size (written ops))%nat).
  { rewrite <- (Forall2_length _ _ _ HF). etransitivity; [apply filter_length_le|].
    by destruct (iter_written o ops s kvs Hh Hb Hi) as (_ & _ & ?). }
  destruct (q_run_all tb max ess ltac:(lia) Hmax) as (q & Hq' & Hp & _).
  exists (drain_queue tb (queue_size q) q). rewrite Hrun, Hq'. split; [done|].
  rewrite Hp. exact (forall2_perm_mjoin _ _ _ _ HF).
Qed.
Print Assumptions C11_multiset.

(** A query on the example store: phrases 1 and 2, answered from single records. *)
Definition ex_key : match_key := MatchKey (Range 1 3) 1.
Definition ex_bin_key : match_key := MatchKey (Range 0 5) 1.
Definition ex_plain_opts : match_opts := MatchOpts None None 14.
Definition ex_near_opts : match_opts := MatchOpts (Some (BBox 0 0 100 100)) (Some (3, 6)) 14.
Definition ex_query (k : match_key) (o : match_opts) (max : N) : res (list match_entry) :=
  streaming_get_matching Debug first_mtb first_tb (ex_store ex_ops) k o max.
Definition xy_id (m : match_entry) : N * N * N := (ge_x (me_entry m), ge_y (me_entry m), ge_id (me_entry m)).
Lemma ex_plain_opts_ok p r : opts_ok p ex_plain_opts r.
Proof. done. Qed.
Lemma ex_near_opts_ok : opts_ok Debug ex_near_opts (st_radius (ex_store ex_ops)).
Proof.
  split; [right; vm_compute; discriminate|].
  cbn [mo_prox ex_near_opts fst snd]. split; [lia|]. split; [lia|]. vm_compute. done.
Qed.
Lemma ex_bins_ok : bins_ok ex_ops.
Proof.
  split; [|split].
  - change (loaded ex_ops) with [0; 2; 5]. repeat constructor.
  - intros k es _. exists 0. split; [done|lia].
  - intros gid l. unfold bin_entries.
    assert (H : forall f, N.of_nat (length (mjoin (map snd (List.filter f (map_to_list (written ex_ops)))))) <= 2 ^ 27).
    { intros f. assert (Hle : forall L : list ((N * N) * list grid_entry),
        (length (mjoin (map snd (List.filter f L))) <= length (mjoin (map snd L)))%nat).
      { induction L as [|x L IH]; [done|].
        assert (E1 : mjoin (map snd (x :: L)) = x.2 ++ mjoin (map snd L)) by done.
        rewrite E1, app_length. cbn [List.filter]. destruct (f x); [|lia].
        assert (E2 : mjoin (map snd (x :: List.filter f L)) = x.2 ++ mjoin (map snd (List.filter f L))) by done.
        rewrite E2, app_length. lia. }
      specialize (Hle (map_to_list (written ex_ops))).
      assert (E : length (mjoin (map snd (map_to_list (written ex_ops)))) = 8%nat) by (vm_compute; reflexivity).
      rewrite E in Hle. lia. }
    apply H.
Qed.
Lemma ex_query_ok : query_ok ex_ops (mk_phrase ex_key) /\ ~ bin_query ex_ops (mk_phrase ex_key).
Proof.
  split; [split; [lia|]|]; cbn.
  - intros _ _. exact ex_bins_ok.
  - change (loaded ex_ops) with [0; 2; 5]. intros [H _].
    rewrite !elem_of_cons, elem_of_nil in H. lia.
Qed.
Example C11_ex :
  history_ok ex_ops /\ built id_oracle ex_ops (ex_store ex_ops) /\
  opts_ok Debug ex_plain_opts (st_radius (ex_store ex_ops)) /\
  query_ok ex_ops (mk_phrase ex_key) /\ ~ bin_query ex_ops (mk_phrase ex_key) /\
  N.of_nat (size (written ex_ops)) <= 100 /\
  res_map (map xy_id) (ex_query ex_key ex_plain_opts 100) =
    Ok [(60000, 5, 9); (3, 5, 11); (3, 6, 11); (3, 6, 11)].
Proof.
  split; [exact ex_ops_ok|]. split; [exact ex_built|]. split; [done|].
  split; [apply ex_query_ok|]. split; [apply ex_query_ok|].
  split; [vm_compute; discriminate|]. vm_compute. reflexivity.
Qed.

(** ** C12 Language flag *)
(** Every match comes from an entry written under a selected key, and its flag says
    whether that key is for all languages or shares a language with the query. *)
Theorem C12_flag :
  forall p mtb tb o ops s k opts max out m,
  history_ok ops -> built o ops s -> opts_ok p opts (st_radius s) -> query_ok ops (mk_phrase k) ->
  1 <= max ->
  streaming_get_matching p mtb tb s k opts max = Ok out -> m ∈ out ->
  exists key es e, written ops !! key = Some es /\ phrase_sel (mk_phrase k) key.1 = true /\ e ∈ es /\
    (ge_score (me_entry m), ge_x (me_entry m), ge_y (me_entry m), ge_id (me_entry m), ge_hash (me_entry m))
      = (ge_score e, ge_x e, ge_y e, ge_id e mod 2 ^ 24, ge_hash e) /\
    (me_lang m = true <-> key.2 = 2 ^ 128 - 1 \/ exists i, N.testbit (mk_lang k) i = true /\ N.testbit key.2 i = true).
Proof.
  intros p mtb tb o ops s k opts max out m Hh Hb Ho Hq Hmax Hr Hm.
  destruct (C11_limited p mtb tb o ops s k opts max Hh Hb Ho Hq Hmax) as (out' & Hr' & Hel & _).
  assert (out' = out) by congruence. subst out'.
  apply Hel in Hm as (key & es & e & Hw & Hsel & He & _ & ->).
  exists key, es, e. split; [done|]. split; [done|]. split; [done|]. split; [done|].
  cbn [query_match me_lang]. unfold lang_sel.
  rewrite orb_true_iff, N.eqb_eq, negb_true_iff, N.eqb_neq. split.
  - intros [H|H]; [by left|]. right.
    destruct (N.eq_dec (N.land (mk_lang k) key.2) 0) as [|Hne]; [done|].
    exists (N.log2 (N.land (mk_lang k) key.2)).
    pose proof (N.bit_log2 _ Hne) as Hbit. rewrite N.land_spec in Hbit.
    by apply andb_prop in Hbit.
  - intros [H|(i & H1 & H2)]; [by left|]. right. intros E.
    assert (Hbit : N.testbit (N.land (mk_lang k) key.2) i = true) by (rewrite N.land_spec, H1, H2; done).
    rewrite E in Hbit. by rewrite N.bits_0 in Hbit.
Qed.
Print Assumptions C12_flag.
(** The language of the query changes flags and relevances only. *)
Theorem C12_never_filters :
  forall p mtb tb o ops s ph l1 l2 opts max out1 out2 m,
  history_ok ops -> built o ops s -> opts_ok p opts (st_radius s) -> query_ok ops ph ->
  1 <= max -> N.of_nat (size (written ops)) <= max ->
  streaming_get_matching p mtb tb s (MatchKey ph l1) opts max = Ok out1 ->
  streaming_get_matching p mtb tb s (MatchKey ph l2) opts max = Ok out2 ->
  m ∈ out1 -> exists m', m' ∈ out2 /\ payload m' = payload m.
Proof.
  intros p mtb tb o ops s ph l1 l2 opts max out1 out2 m Hh Hb Ho Hq Hmax Hsz H1 H2 Hm.
  destruct (C11_selects p mtb tb o ops s (MatchKey ph l1) opts max Hh Hb Ho Hq Hmax Hsz) as (o1 & R1 & E1).
  destruct (C11_selects p mtb tb o ops s (MatchKey ph l2) opts max Hh Hb Ho Hq Hmax Hsz) as (o2 & R2 & E2).
  assert (o1 = out1) by congruence. assert (o2 = out2) by congruence. subst o1 o2.
  apply E1 in Hm as (key & es & e & Hw & Hsel & He & Hbox & ->).
  exists (query_match opts (st_radius s) (lang_sel l2 key.2) (snap e)). split; [|done].
  apply E2. exists key, es, e. done.
Qed.
Print Assumptions C12_never_filters.
Example C12_ex :
  res_map (map me_lang) (ex_query (MatchKey (Exact 1) 2) ex_plain_opts 100) = Ok [false; false; false] /\
  res_map (map me_lang) (ex_query (MatchKey (Exact 1) 3) ex_plain_opts 100) = Ok [true; true; true] /\
  res_map (map me_lang) (ex_query (MatchKey (Exact 2) 0) ex_plain_opts 100) = Ok [true].
Proof. vm_compute. done. Qed.

(** ** C13 Language penalty *)
Definition within_radius (o : match_opts) (radius : f64) (m : match_entry) : bool :=
  match mo_prox o with
  | None => false
  | Some _ => fleb (me_distance m) (proximity_radius (mo_zoom o) radius)
  end.
Lemma level_times_one r : fmul (snap_relev r) f_one = snap_relev r.
Proof.
  unfold snap_relev, relev_levels. cbn [List.find].
  repeat match goal with |- context [feqb r ?l] => destruct (feqb r l) end; vm_compute; reflexivity.
Qed.
Theorem C13_penalty :
  forall p mtb tb o ops s k opts max out m,
  history_ok ops -> built o ops s -> opts_ok p opts (st_radius s) -> query_ok ops (mk_phrase k) ->
  1 <= max ->
  streaming_get_matching p mtb tb s k opts max = Ok out -> m ∈ out ->
  exists key es e, written ops !! key = Some es /\ phrase_sel (mk_phrase k) key.1 = true /\ e ∈ es /\
    (ge_x (me_entry m), ge_y (me_entry m)) = (ge_x e, ge_y e) /\
    ge_relev (me_entry m) =
      if me_lang m || within_radius opts (st_radius s) m
      then snap_relev (ge_relev e)
      else fmul (snap_relev (ge_relev e)) (f_lit 96 100).
Proof.
  intros p mtb tb o ops s k opts max out m Hh Hb Ho Hq Hmax Hr Hm.
  destruct (C11_limited p mtb tb o ops s k opts max Hh Hb Ho Hq Hmax) as (out' & Hr' & Hel & _).
  assert (out' = out) by congruence. subst out'.
  apply Hel in Hm as (key & es & e & Hw & Hsel & He & _ & ->).
  exists key, es, e. split; [done|]. split; [done|]. split; [done|]. split; [done|].
  cbn [query_match me_lang me_entry ge_relev].
  assert (E : query_nearby opts (st_radius s) (snap e) =
              within_radius opts (st_radius s) (query_match opts (st_radius s) (lang_sel (mk_lang k) key.2) (snap e))).
  { unfold query_nearby, within_radius. cbn [query_match me_distance]. by destruct (mo_prox opts). }
  rewrite E. cbn [snap ge_relev]. destruct (_ || _); [apply level_times_one|done].
Qed.
Print Assumptions C13_penalty.
Example C13_ex :
  res_map (map (fun m => (xy_id m, ge_relev (me_entry m))))
    (ex_query (MatchKey (Exact 1) 2) (MatchOpts None (Some (3, 6)) 14) 100) =
    Ok [((3, 5, 11), f_one); ((60000, 5, 9), fmul f_one (f_lit 96 100)); ((3, 6, 11), f_lit 4 10)].
Proof. vm_compute. done. Qed.

(** ** C14, C15 at the level of queries *)
Theorem C14_query :
  forall p mtb tb o ops s k b prox zoom max out1 out2,
  history_ok ops -> built o ops s ->
  opts_ok p (MatchOpts (Some b) prox zoom) (st_radius s) -> query_ok ops (mk_phrase k) ->
  1 <= max -> N.of_nat (size (written ops)) <= max ->
  streaming_get_matching p mtb tb s k (MatchOpts (Some b) prox zoom) max = Ok out1 ->
  streaming_get_matching p mtb tb s k (MatchOpts None prox zoom) max = Ok out2 ->
  forall m, m ∈ out1 <-> m ∈ out2 /\
    bb_x0 b <= ge_x (me_entry m) <= bb_x1 b /\ bb_y0 b <= ge_y (me_entry m) <= bb_y1 b.
Proof.
  intros p mtb tb o ops s k b prox zoom max out1 out2 Hh Hb Ho Hq Hmax Hsz H1 H2 m.
  assert (Ho' : opts_ok p (MatchOpts None prox zoom) (st_radius s)) by (destruct Ho; done).
  destruct (C11_selects p mtb tb o ops s k _ max Hh Hb Ho Hq Hmax Hsz) as (o1 & R1 & E1).
  destruct (C11_selects p mtb tb o ops s k _ max Hh Hb Ho' Hq Hmax Hsz) as (o2 & R2 & E2).
  assert (o1 = out1) by congruence. assert (o2 = out2) by congruence. subst o1 o2.
  rewrite E1, E2. unfold should_match. cbn [mo_bbox box_sel]. split.
  - intros (key & es & e & Hw & Hsel & He & Hbox & ->). split; [by exists key, es, e|].
    cbn [query_match me_entry ge_x ge_y snap]. lia.
  - intros [(key & es & e & Hw & Hsel & He & _ & ->) Hbox]. exists key, es, e.
    split; [done|]. split; [done|]. split; [done|]. split; [|done].
    cbn [query_match me_entry ge_x ge_y snap] in Hbox. lia.
Qed.
Print Assumptions C14_query.
(** The stored data of a match. *)
Definition stored_data (m : match_entry) : N * N * N * N * N :=
  (ge_score (me_entry m), ge_x (me_entry m), ge_y (me_entry m), ge_id (me_entry m), ge_hash (me_entry m)).
Lemma map_mjoin_stored (ls : list (list match_entry)) :
  map stored_data (mjoin ls) = mjoin (map (map stored_data) ls).
Proof.
  induction ls as [|a ls IH]; [done|].
  assert (E : mjoin (a :: ls) = a ++ mjoin ls) by done.
  assert (E' : mjoin (map (map stored_data) (a :: ls)) = map stored_data a ++ mjoin (map (map stored_data) ls)) by done.
  by rewrite E, E', List.map_app, IH.
Qed.
Lemma expected_stored k b p1 p2 zoom radius kvs :
  map stored_data (expected_matches k (MatchOpts b p1 zoom) radius kvs) =
  map stored_data (expected_matches k (MatchOpts b p2 zoom) radius kvs).
Proof.
  unfold expected_matches. rewrite !map_mjoin_stored, !List.map_map. f_equal. apply map_ext. intros kv.
  unfold record_matches. rewrite !List.map_map. apply map_ext. done.
Qed.
Theorem C15_query :
  forall p mtb tb o ops s k b pt zoom max out1 out2,
  history_ok ops -> built o ops s ->
  opts_ok p (MatchOpts b (Some pt) zoom) (st_radius s) ->
  query_ok ops (mk_phrase k) -> ~ bin_query ops (mk_phrase k) ->
  1 <= max -> N.of_nat (size (written ops)) <= max ->
  streaming_get_matching p mtb tb s k (MatchOpts b (Some pt) zoom) max = Ok out1 ->
  streaming_get_matching p mtb tb s k (MatchOpts b None zoom) max = Ok out2 ->
  map stored_data out1 ≡ₚ map stored_data out2.
Proof.
  intros p mtb tb o ops s k b pt zoom max out1 out2 Hh Hb Ho Hq Hbq Hmax Hsz H1 H2.
  assert (Ho' : opts_ok p (MatchOpts b None zoom) (st_radius s)) by (destruct Ho; done).
  destruct (built_iter o ops s Hh Hb) as (kvs & Hi & _).
  destruct (C11_multiset p mtb tb o ops s k _ max kvs Hh Hb Ho Hq Hbq Hmax Hsz Hi) as (o1 & R1 & E1).
  destruct (C11_multiset p mtb tb o ops s k _ max kvs Hh Hb Ho' Hq Hbq Hmax Hsz Hi) as (o2 & R2 & E2).
  assert (o1 = out1) by congruence. assert (o2 = out2) by congruence. subst o1 o2.
  rewrite E1, E2. rewrite (expected_stored k b (Some pt) None zoom). done.
Qed.
Print Assumptions C15_query.
Example C14_C15_query_ex :
  opts_ok Debug ex_near_opts (st_radius (ex_store ex_ops)) /\
  res_map (map xy_id) (ex_query ex_key ex_near_opts 100) =
    Ok [(3, 5, 11); (3, 6, 11); (3, 6, 11)] /\
  res_map (map xy_id) (ex_query ex_key (MatchOpts None (Some (3, 6)) 14) 100) =
    Ok [(3, 5, 11); (60000, 5, 9); (3, 6, 11); (3, 6, 11)].
Proof. split; [exact ex_near_opts_ok|]. vm_compute. done. Qed.

(** ** C17 Result order without proximity *)
Lemma desc_good a b : desc key_cmp a b -> at_least_as_good a b.
Proof.
  unfold desc, key_cmp, at_least_as_good, cmp_then. by destruct (ord_cmp _ _).
Qed.
Theorem C17_order :
  forall p mtb tb o ops s k opts max out,
  history_ok ops -> built o ops s -> opts_ok p opts (st_radius s) -> query_ok ops (mk_phrase k) ->
  mo_prox opts = None -> 1 <= max ->
  streaming_get_matching p mtb tb s k opts max = Ok out ->
  StronglySorted at_least_as_good out.
Proof.
  intros p mtb tb o ops s k opts max out Hh Hb Ho Hq Hprox Hmax Hr.
  destruct (query_streams p mtb tb o ops s k opts Hh Hb Ho Hq) as (ess & Hel & Hlen & Hs & Hrun).
  destruct (q_run_top tb max ess Hmax (Hs Hprox)) as (q & rest & Hq' & Hsort & _).
  rewrite Hrun, Hq' in Hr. cbn [res_bind] in Hr. injection Hr as <-.
  eapply StronglySorted_impl; [|exact Hsort]. intros a b _ _. apply desc_good.
Qed.
Print Assumptions C17_order.
Example C17_ex :
  res_map (map (fun m => (ge_relev (me_entry m), me_scoredist m))) (ex_query ex_bin_key ex_plain_opts 100) =
  Ok [(f_one, f_of_N 7); (f_one, f_of_N 7);
      (fmul (f_lit 8 10) (f_lit 96 100), f_of_N 3); (fmul (f_lit 8 10) (f_lit 96 100), f_of_N 3);
      (f_lit 4 10, f_of_N 15); (f_lit 4 10, f_of_N 15)].
Proof. vm_compute. done. Qed.

(** ** C18 Result order with proximity *)
(** Refuted: cells are visited by the distance of their Z-order values, so that a
    nearer cell may come after a farther one. *)
Definition ex_prox_ops : list op :=
  [OpInsert (1, 1) [GridEntry f_one 7 7 7 1 1; GridEntry f_one 7 11 11 2 1; GridEntry f_one 7 8 9 3 1]].
Theorem C18_order_refuted :
  exists ops s k opts out,
    history_ok ops /\ built id_oracle ops s /\ opts_ok Debug opts (st_radius s) /\ query_ok ops (mk_phrase k) /\
    streaming_get_matching Debug first_mtb first_tb s k opts 10 = Ok out /\
    ~ StronglySorted at_least_as_good out.
Proof.
  set (k := MatchKey (Exact 1) 1). set (opts := MatchOpts None (Some (8, 8)) 14).
  destruct (streaming_get_matching Debug first_mtb first_tb (ex_store ex_prox_ops) k opts 10) as [out| | |] eqn:E;
    try (vm_compute in E; discriminate).
  exists ex_prox_ops, (ex_store ex_prox_ops), k, opts, out.
  split; [apply history_okb_ok; vm_compute; done|].
  split; [apply built_run; vm_compute; reflexivity|].
  split; [split; [done|]; cbn; split; [lia|split; [lia|vm_compute; done]]|].
  split; [vm_compute; reflexivity|]. split; [done|].
  vm_compute in E. injection E as <-. intros H.
  inversion H as [|? ? H1 _]; subst. inversion H1 as [|? ? _ H2]; subst. inversion H2 as [|? ? H3 _]; subst.
  vm_compute in H3. congruence.
Qed.
Print Assumptions C18_order_refuted.

(** ** C19 max_values keeps the best *)
(** Nothing that was left out is better than one of the first [max] results. *)
Theorem C19_best :
  forall p mtb tb o ops s k opts max,
  history_ok ops -> built o ops s -> opts_ok p opts (st_radius s) -> query_ok ops (mk_phrase k) ->
  mo_prox opts = None -> 1 <= max ->
  exists out rest, streaming_get_matching p mtb tb s k opts max = Ok out /\
    (forall m, m ∈ out ++ rest <-> should_match ops k opts (st_radius s) m) /\
    (rest <> [] -> max <= N.of_nat (length out)) /\
    forall a b, a ∈ take (N.to_nat max) out -> b ∈ rest -> at_least_as_good a b.
Proof.
  intros p mtb tb o ops s k opts max Hh Hb Ho Hq Hprox Hmax.
  destruct (query_streams p mtb tb o ops s k opts Hh Hb Ho Hq) as (ess & Hel & Hlen & Hs & Hrun).
  destruct (q_run_top tb max ess Hmax (Hs Hprox)) as (q & rest & Hq' & Hsort & Hp & Hfull & Htop).
  exists (drain_queue tb (queue_size q) q), rest. rewrite Hrun, Hq'. split; [done|].
  split; [intros m; rewrite <- Hp; apply Hel|]. split; [done|].
  intros a b Ha Hb'. apply desc_good. by apply Htop.
Qed.
Print Assumptions C19_best.
(** The first [max] results have, position by position, the relevance and scoredist
    of the results of the same query without an effective limit. *)
Theorem C19_prefix :
  forall p mtb tb o ops s k opts max max' out full,
  history_ok ops -> built o ops s -> opts_ok p opts (st_radius s) -> query_ok ops (mk_phrase k) ->
  mo_prox opts = None -> 1 <= max -> 1 <= max' -> N.of_nat (size (written ops)) <= max' ->
  streaming_get_matching p mtb tb s k opts max = Ok out ->
  streaming_get_matching p mtb tb s k opts max' = Ok full ->
  Forall2 same_rank (take (N.to_nat max) out) (take (N.to_nat max) full).
Proof.
  intros p mtb tb o ops s k opts max max' out full Hh Hb Ho Hq Hprox Hmax Hmax' Hsz H1 H2.
  destruct (query_streams p mtb tb o ops s k opts Hh Hb Ho Hq) as (ess & Hel & Hlen & Hs & Hrun).
  destruct (q_run_top tb max ess Hmax (Hs Hprox)) as (q & rest & Hq' & Hsort & Hp & Hfull & Htop).
  destruct (q_run_all tb max' ess ltac:(lia) Hmax') as (q2 & Hq2 & Hp2 & _).
  destruct (q_run_top tb max' ess Hmax' (Hs Hprox)) as (q3 & rest3 & Hq3 & Hsort3 & _).
  rewrite Hq2 in Hq3. injection Hq3 as <-.
  rewrite Hrun, Hq' in H1. rewrite Hrun, Hq2 in H2. cbn [res_bind] in H1, H2.
  injection H1 as <-. injection H2 as <-.
  assert (E : map rank (take (N.to_nat max) (drain_queue tb (queue_size q) q)) =
              map rank (take (N.to_nat max) (drain_queue tb (queue_size q2) q2))).
  { apply (top_ranks _ _ rest); [done|done|by rewrite Hp2|intros Hr; specialize (Hfull Hr); lia|done]. }
  revert E. generalize (take (N.to_nat max) (drain_queue tb (queue_size q) q)) as l1,
    (take (N.to_nat max) (drain_queue tb (queue_size q2) q2)) as l2.
  induction l1 as [|a l1 IH]; intros [|b l2] E; simpl in E; try done.
  apply (f_equal head) in E as E1. apply (f_equal tail) in E as E2. simpl in E1, E2.
  constructor; [|by apply IH]. apply rank_same. congruence.
Qed.
Print Assumptions C19_prefix.
Example C19_ex :
  res_map (map xy_id) (ex_query (MatchKey (Range 1 5) 1) ex_plain_opts 1) = Ok [(60000, 5, 9); (3, 5, 11); (3, 6, 11)] /\
  res_map (map xy_id) (ex_query (MatchKey (Range 1 5) 1) ex_plain_opts 2) =
    Ok [(60000, 5, 9); (3, 5, 11); (2, 2, 7); (1, 1, 7); (3, 6, 11)].
Proof. vm_compute. done. Qed.

(** ** C20 max_values = 0 is not usable *)
(** Without any match the result is empty; otherwise the query panics. *)
Theorem C20_zero :
  forall p mtb tb o ops s k opts,
  history_ok ops -> built o ops s -> opts_ok p opts (st_radius s) -> query_ok ops (mk_phrase k) ->
  ((forall m, ~ should_match ops k opts (st_radius s) m) -> streaming_get_matching p mtb tb s k opts 0 = Ok []) /\
  (forall m, should_match ops k opts (st_radius s) m -> streaming_get_matching p mtb tb s k opts 0 = Panic).
Proof.
  intros p mtb tb o ops s k opts Hh Hb Ho Hq.
  destruct (query_streams p mtb tb o ops s k opts Hh Hb Ho Hq) as (ess & Hel & _ & _ & Hrun).
  rewrite Hrun. split.
  - intros Hn. assert (Hall : Forall (fun es => es = []) ess).
    { apply Forall_forall. intros es Hes. destruct es as [|m es]; [done|].
      destruct (Hn m). apply Hel, elem_of_mjoin. exists (m :: es). split; [left|done]. }
    clear -Hall. induction Hall as [|es ess -> H IH]; [done|]. cbn [res_foldl q_push res_bind]. exact IH.
  - intros m Hm. apply Hel, elem_of_mjoin in Hm as (es & Hm & Hes). clear -Hm Hes.
    assert (E : res_foldl (q_push tb 0) hp_empty ess = Panic).
    { induction ess as [|es' ess IH]; [by apply elem_of_nil in Hes|].
      cbn [res_foldl]. destruct es' as [|m' es'].
      - cbn [q_push res_bind]. apply IH. apply elem_of_cons in Hes as [->|Hes]; [by apply elem_of_nil in Hm|done].
      - cbn [q_push]. unfold hp_peek_min, hp_min_idx, pick, min_idxs, hp_empty, hp_len. cbn [hp_items length].
        simpl. done. }
    by rewrite E.
Qed.
Print Assumptions C20_zero.
Theorem C20_zero_refuted :
  exists ops s k opts, history_ok ops /\ built id_oracle ops s /\ opts_ok Debug opts (st_radius s) /\
    query_ok ops (mk_phrase k) /\ streaming_get_matching Debug first_mtb first_tb s k opts 0 = Panic.
Proof.
  exists ex_ops, (ex_store ex_ops), ex_key, ex_plain_opts.
  split; [exact ex_ops_ok|]. split; [exact ex_built|]. split; [done|]. split; [apply ex_query_ok|].
  vm_compute. reflexivity.
Qed.
Print Assumptions C20_zero_refuted.

(** ** C21 Prefix bins are transparent *)
(** The same history with and without boundaries: the query answered from bins and
    the one answered from single records find the same matches. *)
Theorem C21_transparent :
  forall p mtb tb o o' ops s s' k opts max out out',
  history_ok ops -> bins_ok ops -> built o ops s -> built o' (ops ++ [OpBounds []]) s' ->
  st_radius s = st_radius s' -> opts_ok p opts (st_radius s) -> query_ok ops (mk_phrase k) ->
  1 <= max -> N.of_nat (size (written ops)) <= max ->
  streaming_get_matching p mtb tb s k opts max = Ok out ->
  streaming_get_matching p mtb tb s' k opts max = Ok out' ->
  forall m, m ∈ out <-> m ∈ out'.
Proof.
  intros p mtb tb o o' ops s s' k opts max out out' Hh Hbins Hb Hb' Hrad Ho Hq Hmax Hsz H1 H2 m.
  assert (Hw : written (ops ++ [OpBounds []]) = written ops) by (unfold written; rewrite foldl_app; done).
  assert (Hh' : history_ok (ops ++ [OpBounds []])).
  { destruct Hh as [Hops Hwr]. split; [apply Forall_app; split; [done|]; repeat constructor|].
    rewrite Hw. done. }
  assert (Hq' : query_ok (ops ++ [OpBounds []]) (mk_phrase k)).
  { destruct (mk_phrase k) as [|a b]; [done|]. destruct Hq as [Hq _]. split; [done|].
    unfold loaded. rewrite foldl_app. cbn [foldl]. intros H. by apply elem_of_nil in H. }
  assert (Ho' : opts_ok p opts (st_radius s')) by by rewrite <- Hrad.
  destruct (C11_selects p mtb tb o ops s k opts max Hh Hb Ho Hq Hmax Hsz) as (o1 & R1 & E1).
  destruct (C11_selects p mtb tb o' _ s' k opts max Hh' Hb' Ho' Hq' Hmax) as (o2 & R2 & E2).
  { by rewrite Hw. }
  assert (o1 = out) by congruence. assert (o2 = out') by congruence. subst o1 o2.
  rewrite E1, E2. unfold should_match. by rewrite Hw, Hrad.
Qed.
Print Assumptions C21_transparent.
Example C21_ex :
  bins_ok ex_ops /\ bin_query ex_ops (mk_phrase ex_bin_key) /\
  res_map (map xy_id) (ex_query ex_bin_key ex_plain_opts 100) =
    Ok [(60000, 5, 9); (3, 5, 11); (2, 2, 7); (1, 1, 7); (3, 6, 11); (3, 6, 11)].
Proof.
  split; [exact ex_bins_ok|]. split; [|vm_compute; reflexivity].
  change (loaded ex_ops) with [0; 2; 5]. cbn. change (loaded ex_ops) with [0; 2; 5].
  rewrite !elem_of_cons. tauto.
Qed.

(** ** C22 First-bin leak *)
(** Refuted: phrase 1 lies below the first boundary and is found in the range 5..9. *)
Definition leak_ops : list op := [OpInsert (1, 1) [ex_e1]; OpBounds [5; 9]].
Theorem C22_leak_refuted :
  exists ops s k opts out m, history_ok ops /\ built id_oracle ops s /\
    StronglySorted (fun a b => a < b) (loaded ops) /\
    streaming_get_matching Debug first_mtb first_tb s k opts 10 = Ok out /\ m ∈ out /\
    ~ should_match ops k opts (st_radius s) m.
Proof.
  exists leak_ops, (ex_store leak_ops), (MatchKey (Range 5 9) 1), ex_plain_opts.
  eexists [_], _. split; [apply history_okb_ok; vm_compute; done|].
  split; [apply built_run; vm_compute; reflexivity|].
  split; [repeat constructor|]. split; [vm_compute; reflexivity|]. split; [left|].
  intros (key & es & e & Hw & Hsel & _). unfold written, leak_ops in Hw. cbn [foldl written_step] in Hw.
  apply lookup_insert_Some in Hw as [[<- _]|[_ Hw]]; [done|]. by rewrite lookup_empty in Hw.
Qed.
Print Assumptions C22_leak_refuted.
(** Increasing boundaries with the first one at 0 (what the callers load): whatever
    the limit, a range query returns nothing from outside its range. *)
Theorem C22_zero_first :
  forall p mtb tb o ops s a b lang opts max out m,
  history_ok ops -> built o ops s -> opts_ok p opts (st_radius s) ->
  head (loaded ops) = Some 0 -> StronglySorted (fun x y => x < y) (loaded ops) ->
  (forall gid l, N.of_nat (length (bin_entries ops gid l)) <= 2 ^ 27) ->
  a < 2 ^ 32 -> 1 <= max ->
  streaming_get_matching p mtb tb s (MatchKey (Range a b) lang) opts max = Ok out -> m ∈ out ->
  exists key es e, written ops !! key = Some es /\ a <= key.1 < b /\ e ∈ es /\
    stored_data m = (ge_score e, ge_x e, ge_y e, ge_id e mod 2 ^ 24, ge_hash e).
Proof.
  intros p mtb tb o ops s a b lang opts max out m Hh Hb Ho Hz Hs Hsz Ha Hmax Hr Hm.
  assert (Hq : query_ok ops (mk_phrase (MatchKey (Range a b) lang))).
  { split; [done|]. intros _ _. split; [done|]. split; [|done]. intros k es _. exists 0. split; [done|lia]. }
  destruct (C11_limited p mtb tb o ops s _ opts max Hh Hb Ho Hq Hmax) as (out' & Hr' & Hel & _).
  assert (out' = out) by congruence. subst out'.
  apply Hel in Hm as (key & es & e & Hw & Hsel & He & _ & ->). cbn [mk_phrase phrase_sel] in Hsel.
  exists key, es, e. split; [done|]. split; [lia|]. done.
Qed.
Print Assumptions C22_zero_first.
Example C22_ex : head (loaded ex_ops) = Some 0 /\ StronglySorted (fun x y => x < y) (loaded ex_ops).
Proof. split; [done|]. apply ex_bins_ok. Qed.

(** ** C24 Lookup at the maximum phrase id *)
Theorem C24_max_id :
  forall mtb tb o ops s lang opts max, history_ok ops -> built o ops s ->
  streaming_get_matching Debug mtb tb s (MatchKey (Exact (2 ^ 32 - 1)) lang) opts max = Panic /\
  streaming_get_matching Release mtb tb s (MatchKey (Exact (2 ^ 32 - 1)) lang) opts max = Ok [].
Proof.
  intros mtb tb o ops s lang opts max Hh Hb. split; [done|].
  unfold streaming_get_matching. cbn [mk_phrase mk_lang].
  change (fetch_range Release s (Exact (2 ^ 32 - 1))) with (Ok (2 ^ 32 - 1, 0, SinglePhrase)).
  cbn [res_bind].
  destruct Hb as (d & z & t & r & bb & ms & Hf & ->). cbn [open_store st_db].
  rewrite range_records; [|intros k v; apply (finish_key_form o (run ops)); [apply run_keys_ok; by destruct Hh|done]|lia].
  rewrite filter_none; [done|]. intros [kb v] Hin. apply elem_db_iter in Hin.
  unfold range_sel. cbn [fst].
  destruct (finish_key_form o (run ops) d kb v (run_keys_ok ops (proj1 Hh)) Hf Hin) as [(m & key & [Hk _] & ->)| ->].
  - rewrite matches_key_write by done. destruct (_ =? _); [|done]. unfold gk_phrase. lia.
  - by rewrite matches_key_bounds.
Qed.
Print Assumptions C24_max_id.
Theorem C24_max_id_refuted :
  exists s k opts max, built id_oracle ex_ops s /\ mk_phrase k = Exact (2 ^ 32 - 1) /\
    streaming_get_matching Debug first_mtb first_tb s k opts max = Panic.
Proof.
  exists (ex_store ex_ops), (MatchKey (Exact (2 ^ 32 - 1)) 1), ex_plain_opts, 1.
  split; [exact ex_built|]. split; [done|]. vm_compute. reflexivity.
Qed.
Print Assumptions C24_max_id_refuted.
