(** Properties C25-C29: renumbering, interrupted writes, rewriting a directory. *)
From Verif Require Import Prelude Lists F64 Heap Common Morton Format Builder Spatial Store Spec Spec_match
  Builder_proofs Bits_proofs Finish_proofs Store_proofs Order_proofs Bins_proofs History_proofs Query_proofs
  Durable_proofs Examples.
From Coq Require Import Sorting.Sorted.
From Coq Require Import ZifyBool.
Local Open Scope N_scope.

(** The final phrase id for a temporary one, and the same calls made with final ids. *)
Definition final_key (ids : list N) (k : N * N) : N * N := (default 0 (ids !! N.to_nat k.1), k.2).
Definition with_final_ids (ids : list N) (ops : list op) : list op := map (map_op (final_key ids)) ops.

(** ** C25 renumber is a relabelling *)
(** After a successful renumber the builder is the one that the same calls with the
    final ids would have produced; so every property of histories applies to it. *)
Theorem C25_relabel :
  forall ops ids b', renumber (run ops) ids = (Ok tt, b') -> b' = run (with_final_ids ids ops).
Proof.
  intros ops ids b' H. destruct (renumber_spec _ _ _ _ H) as (Hb & _ & Hiff & Hdata).
  destruct (proj1 Hiff eq_refl) as [Hdef Hinj]. specialize (Hdata eq_refl).
  assert (Hfin : forall k, is_Some (b_data (run ops) !! k) -> new_key ids k = Some (final_key ids k)).
  { intros k Hk. destruct (Hdef k Hk) as [k' Hk']. unfold new_key, final_key in *.
    destruct (ids !! N.to_nat k.1); done. }
  destruct (run_map_op (final_key ids) ops) as [Hb2 Hd2].
  { intros k1 k2 H1 H2 E. apply Hinj; [done|done|]. rewrite (Hfin k1 H1), (Hfin k2 H2). by f_equal. }
  apply builder_eq; [by rewrite Hb|].
  intros k v. rewrite Hdata. unfold with_final_ids. rewrite Hd2. split; intros (k0 & H1 & H2); exists k0; (split; [done|]).
  - rewrite Hfin in H2 by eauto. congruence.
  - rewrite Hfin by eauto. congruence.
Qed.
Print Assumptions C25_relabel.
(** The same, read off the finished stores: what get() returned under the temporary id
    is returned under the final id. *)
Theorem C25_get :
  forall o o' ops ids b' s s' k,
  history_ok ops -> renumber (run ops) ids = (Ok tt, b') -> Forall (fun n => n < 2 ^ 32 - 1) ids ->
  built o ops s -> built o' (with_final_ids ids ops) s' -> key_ok k ->
  is_Some (written ops !! k) -> get s' (final_key ids k) = get s k.
Proof.
  intros o o' ops ids b' s s' k Hh H Hids Hb Hb' Hk [es Hes].
  destruct (renumber_spec _ _ _ _ H) as (_ & _ & Hiff & Hdata).
  destruct (proj1 Hiff eq_refl) as [Hdef Hinj]. specialize (Hdata eq_refl).
  pose proof (C25_relabel _ _ _ H) as Hrel. rewrite Hrel in Hdata.
  pose proof (run_rel ops k) as Hr. rewrite Hes in Hr.
  destruct (b_data (run ops) !! k) as [be|] eqn:Ebe; [|done].
  destruct (Hdef k ltac:(eauto)) as [k' Hk'].
  assert (Ek : k' = final_key ids k).
  { unfold new_key, final_key in *. destruct (ids !! N.to_nat k.1); [|done]. simpl in *. congruence. }
  assert (Hk1 : key_ok (final_key ids k)).
  { unfold final_key, key_ok in *. cbn [fst snd]. split; [|by destruct Hk].
    unfold new_key in Hk'. destruct (ids !! N.to_nat k.1) as [n|] eqn:En; [|done].
    rewrite Forall_forall in Hids. apply elem_of_list_lookup_2, Hids in En. cbn [default]. simpl. lia. }
  assert (Ebe' : b_data (run (with_final_ids ids ops)) !! final_key ids k = Some be).
  { apply Hdata. exists k. split; [done|]. by rewrite <- Ek. }
  destruct Hb as (d & z & t & r & bb & ms & Hf & ->). destruct Hb' as (d' & z' & t' & r' & bb' & ms' & Hf' & ->).
  assert (Hok : data_keys_ok (run ops)) by (apply run_keys_ok; by destruct Hh).
  assert (Hok' : data_keys_ok (run (with_final_ids ids ops))).
  { split.
    - intros k0 be0 H0. apply Hdata in H0 as (k1 & H1 & E1). destruct Hok as [Hok _]. pose proof (Hok _ _ H1) as Hk0.
      unfold new_key in E1. destruct (ids !! N.to_nat k1.1) as [n|] eqn:En; [|done].
      injection E1 as <-. unfold key_ok in *. cbn [fst snd]. split; [|by destruct Hk0].
      rewrite Forall_forall in Hids. apply elem_of_list_lookup_2, Hids in En. lia.
    - apply run_bounds_ok. apply Forall_forall. intros x Hx. apply elem_of_map in Hx as (y & -> & Hy).
      destruct Hh as [Hops Hwr]. rewrite Forall_forall in Hops. specialize (Hops y Hy).
      assert (Hky : forall k0, op_key y = Some k0 -> key_ok k0 -> key_ok (final_key ids k0)).
      { intros k0 Ho [_ Hl]. unfold final_key, key_ok. cbn [fst snd]. split; [|done].
        destruct (ids !! N.to_nat k0.1) as [n|] eqn:En; cbn [default]; [|done].
        rewrite Forall_forall in Hids. apply elem_of_list_lookup_2, Hids in En. unfold id. lia. }
      destruct y as [k0 es0|k0 es0|k0 r0 s0 i h cs|bs]; cbn [map_op op_ok] in *; [..|done];
        (destruct Hops as [H1 H2]; split; [by apply Hky|done]). }
  unfold get, open_store. cbn [st_db].
  rewrite (finish_single_lookup o (run ops) ∅ d k Hok Hk Hf), Ebe.
  rewrite (finish_single_lookup o' _ ∅ d' _ Hok' Hk1 Hf'), Ebe'. done.
Qed.
Print Assumptions C25_get.
Example C25_ex :
  (renumber (run ex_ops) [9; 7; 8; 6; 0]).1 = Ok tt /\
  with_final_ids [9; 7; 8; 6; 0] ex_ops =
    [ OpInsert (7, 1) [ex_e1; ex_e2]; OpAppend (7, 1) [ex_e1; ex_e3]; OpAppend (8, u128_max) [ex_e2];
      OpBounds [0; 2; 5]; OpCompact (0, 0) (f_lit 8 10) 3 7 1 [(1, 1); (2, 2); (1, 1)]; OpInsert (8, 6) [] ] /\
  get (ex_store (with_final_ids [9; 7; 8; 6; 0] ex_ops)) (7, 1) = get (ex_store ex_ops) (1, 1).
Proof. vm_compute. done. Qed.

(** ** C26 renumber success condition *)
Theorem C26_success :
  forall ops ids,
  (renumber (run ops) ids).1 = Ok tt <->
  (forall k, is_Some (written ops !! k) -> (N.to_nat k.1 < length ids)%nat) /\
  (forall k1 k2, is_Some (written ops !! k1) -> is_Some (written ops !! k2) ->
     ids !! N.to_nat k1.1 = ids !! N.to_nat k2.1 -> k1.2 = k2.2 -> k1.1 = k2.1).
Proof.
  intros ops ids. destruct (renumber (run ops) ids) as [r b'] eqn:E. cbn [fst].
  destruct (renumber_spec _ _ _ _ E) as (_ & _ & Hiff & _). rewrite Hiff.
  assert (Hdom : forall k, is_Some (b_data (run ops) !! k) <-> is_Some (written ops !! k)).
  { intros k. pose proof (run_rel ops k) as Hr.
    destruct (b_data (run ops) !! k), (written ops !! k); try done; by split; intros [? ?]. }
  assert (Hnew : forall k, is_Some (new_key ids k) <-> (N.to_nat k.1 < length ids)%nat).
  { intros k. unfold new_key. rewrite <- lookup_lt_is_Some.
    destruct (ids !! N.to_nat k.1); split; try done; by intros [? ?]. }
  split; intros [H1 H2].
  - assert (H1' : forall k, is_Some (written ops !! k) -> (N.to_nat k.1 < length ids)%nat).
    { intros k Hk. apply Hnew, H1, Hdom, Hk. }
    split; [done|]. intros k1 k2 Hk1 Hk2 Ei El.
    assert (E12 : k1 = k2); [|by rewrite E12]. apply H2; [by apply Hdom|by apply Hdom|].
    unfold new_key. rewrite Ei, El. done.
  - split.
    + intros k Hk. apply Hnew, H1, Hdom, Hk.
    + intros k1 k2 Hk1 Hk2 Ek. apply Hdom in Hk1, Hk2.
      pose proof (H1 k1 Hk1) as L1. pose proof (H1 k2 Hk2) as L2.
      apply Hnew in L1, L2. unfold new_key in *.
      destruct (ids !! N.to_nat k1.1) as [n1|] eqn:E1; [|by destruct L1].
      destruct (ids !! N.to_nat k2.1) as [n2|] eqn:E2; [|by destruct L2].
      injection Ek as -> El. destruct k1 as [a1 l1], k2 as [a2 l2]. cbn [fst snd] in *.
      assert (a1 = a2) as ->; [|by rewrite El].
      apply (H2 (a1, l1) (a2, l2)); [done|done|cbn [fst]; congruence|done].
Qed.
Print Assumptions C26_success.
(** It never panics or diverges. *)
Theorem C26_no_panic :
  forall b ids, (renumber b ids).1 = Ok tt \/ (renumber b ids).1 = Err.
Proof.
  intros b ids. destruct (renumber b ids) as [r b'] eqn:E. by destruct (renumber_spec _ _ _ _ E) as (_ & ? & _).
Qed.
Print Assumptions C26_no_panic.
Example C26_ex :
  (renumber (run ex_ops) [0; 1; 2; 3]).1 = Err /\ (renumber (run ex_ops) [0; 1; 2; 3; 4]).1 = Ok tt /\
  (renumber (run ex_ops) [0; 1; 1; 1; 1]).1 = Ok tt /\
  (renumber (run [OpInsert (0, 1) [ex_e1]; OpInsert (1, 1) [ex_e2]]) [3; 3]).1 = Err.
Proof. vm_compute. done. Qed.

(** ** C27 renumber failure atomicity *)
(** Refuted: after the error the builder no longer holds the entries. *)
Theorem C27_not_atomic_refuted :
  exists ops ids b', history_ok ops /\ renumber (run ops) ids = (Err, b') /\
    is_Some (b_data (run ops) !! (4, 0)) /\ b_data b' !! (4, 0) = None /\ b_data b' !! (1, 1) = None.
Proof.
  exists ex_ops, [9; 7; 8; 6], (renumber (run ex_ops) [9; 7; 8; 6]).2. split; [exact ex_ops_ok|].
  split; [|split; [apply run_dom; eexists; split; [do 4 right; left|done]|split; vm_compute; done]].
  assert (E : (renumber (run ex_ops) [9; 7; 8; 6]).1 = Err) by (vm_compute; reflexivity).
  destruct (renumber (run ex_ops) [9; 7; 8; 6]). cbn [fst snd] in *. by subst.
Qed.
Print Assumptions C27_not_atomic_refuted.
(** What is left after any renumber is at most what was moved: each remaining record is
    one of the old records under its new key, and the boundaries are kept. *)
Lemma renumber_loop_sub ids old : forall data r data',
  renumber_loop ids old data = (r, data') ->
  forall k' v, data' !! k' = Some v ->
    data !! k' = Some v \/ exists k, (k, v) ∈ old /\ new_key ids k = Some k'.
Proof.
  induction old as [|[k v] old IH]; intros data r data' H k' v' Hk'; cbn [renumber_loop] in H.
  - apply pair_equal_spec in H as [_ <-]. by left.
  - unfold gk_phrase, gk_lang in H. destruct (ids !! N.to_nat k.1) as [n|] eqn:En.
    2: { apply pair_equal_spec in H as [_ <-]. by left. }
    destruct (data !! (n, k.2)) eqn:Ed; [apply pair_equal_spec in H as [_ <-]; by left|].
    destruct (IH _ _ _ H k' v' Hk') as [[[<- <-]|[_ ?]]%lookup_insert_Some|(k0 & Hin & E)].
    + right. exists k. split; [left|]. unfold new_key. by rewrite En.
    + by left.
    + right. exists k0. split; [by right|done].
Qed.
Theorem C27_remainder :
  forall b ids r b', renumber b ids = (r, b') ->
  b_bounds b' = b_bounds b /\
  forall n l be, b_data b' !! (n, l) = Some be ->
    exists i, b_data b !! (i, l) = Some be /\ ids !! N.to_nat i = Some n.
Proof.
  intros b ids r b' H. destruct (renumber_spec _ _ _ _ H) as (Hb & _). split; [done|].
  intros n l be Hbe. unfold renumber in H.
  destruct (renumber_loop ids (btree_iter (b_data b)) ∅) as [r0 data] eqn:E.
  apply pair_equal_spec in H as [_ <-]. cbn [b_data] in Hbe.
  destruct (renumber_loop_sub _ _ _ _ _ E _ _ Hbe) as [H|([i l0] & Hin & Hk)]; [by rewrite lookup_empty in H|].
  apply elem_btree_iter in Hin. unfold new_key in Hk. cbn [fst snd] in Hk.
  destruct (ids !! N.to_nat i) as [n0|] eqn:En; [|done]. injection Hk as -> ->. eauto.
Qed.
Print Assumptions C27_remainder.

(** ** C28 Crash while writing *)
(** After any number of the database writes of finish() into an empty directory, short
    of all of them: the opened directory behaves, for every read operation, like the
    store of the history restricted to the keys whose records were written, without
    boundaries. In particular no bin is consulted, and every present record is complete. *)
Theorem C28_crash :
  forall o ops puts n z t r bb ms,
  history_ok ops -> finish_puts o (run ops) = Ok puts -> (n < length puts)%nat ->
  let s := open_store (apply_puts (take n puts) ∅) z t r bb ms in
  exists (P : N * N -> bool) s',
    built o (restrict P ops) s' /\ history_ok (restrict P ops) /\ st_radius s' = st_radius s /\
    (forall key, key_ok key -> get s key = get s' key) /\ keys s = keys s' /\ iter s = iter s' /\
    forall p mtb tb k opts max, query_start_ok (mk_phrase k) ->
      streaming_get_matching p mtb tb s k opts max = streaming_get_matching p mtb tb s' k opts max.
Proof.
  intros o ops puts n z t r bb ms Hh Hp Hn s.
  destruct (crash_store o ops puts n z t r bb ms Hh Hp Hn) as (_ & s' & H).
  exists (present puts n), s'. done.
Qed.
Print Assumptions C28_crash.
(** A record is either missing or equal to that of the complete store, and once written
    it stays; all writes together give the complete store. *)
Theorem C28_records :
  forall o ops puts d n m z t r bb ms k,
  history_ok ops -> finish_puts o (run ops) = Ok puts -> finish o (run ops) ∅ = Ok d -> key_ok k ->
  let crashed i := open_store (apply_puts (take i puts) ∅) z t r bb ms in
  let full := open_store d z t r bb ms in
  (get (crashed n) k = Ok None \/ get (crashed n) k = get full k) /\
  ((n <= m)%nat -> get (crashed n) k <> Ok None -> get (crashed m) k = get (crashed n) k) /\
  crashed (length puts) = full.
Proof.
  intros o ops puts d n m z t r bb ms k Hh Hp Hd Hk crashed full.
  assert (Hok : data_keys_ok (run ops)) by (apply run_keys_ok; by destruct Hh).
  assert (Ed : apply_puts puts ∅ = d).
  { unfold finish in Hd. rewrite Hp in Hd. cbn [res_bind] in Hd. by injection Hd. }
  assert (Hfull : get full k = match b_data (run ops) !! k with
    | Some be => let* es := decode_value (enc be) in Ok (Some es) | None => Ok None end).
  { unfold get, full, open_store. cbn [st_db]. rewrite (finish_single_lookup o _ ∅ d k Hok Hk Hd).
    destruct (b_data (run ops) !! k); [done|]. by rewrite lookup_empty. }
  assert (Hcr : forall i, get (crashed i) k = if present puts i k then get full k else Ok None).
  { intros i. rewrite Hfull. unfold get, crashed, open_store. cbn [st_db].
    rewrite (crash_single o (run ops) puts i k Hok Hk Hp). destruct (present puts i k); [|done].
    by destruct (b_data (run ops) !! k). }
  split; [|split].
  - rewrite Hcr. destruct (present puts n k); auto.
  - intros Hnm. rewrite !Hcr. destruct (present puts n k) eqn:E; [|done]. intros _.
    assert (present puts m k = true) as ->; [|done].
    apply present_spec in E as [v Hv]. apply present_spec. exists v.
    apply elem_of_list_lookup in Hv as [i Hi]. apply lookup_take_Some in Hi as [Hi Hlt].
    apply elem_of_list_lookup. exists i. apply lookup_take_Some. split; [done|lia].
  - unfold crashed, full. by rewrite firstn_all, Ed.
Qed.
Print Assumptions C28_records.
(** Every prefix leaves the boundaries unset. *)
Theorem C28_no_bins :
  forall o ops puts n z t r bb ms,
  history_ok ops -> finish_puts o (run ops) = Ok puts -> (n < length puts)%nat ->
  st_bounds (open_store (apply_puts (take n puts) ∅) z t r bb ms) = [].
Proof. intros o ops puts n z t r bb ms Hh Hp Hn. by apply (crash_store o ops puts n z t r bb ms Hh Hp Hn). Qed.
Print Assumptions C28_no_bins.
Definition ex_puts : list (list N * list N) :=
  match finish_puts id_oracle (run ex_ops) with Ok p => p | _ => [] end.
Example C28_ex :
  finish_puts id_oracle (run ex_ops) = Ok ex_puts /\ length ex_puts = 9%nat /\
  (let s := open_store (apply_puts (take 3 ex_puts) ∅) 14 0 (f_of_N 400) [] f_one in
   keys s = Ok [(1, 1); (2, 6)] /\ get s (1, 1) = get (ex_store ex_ops) (1, 1) /\
   get s (4, 0) = Ok None).
Proof. vm_compute. done. Qed.

(** ** C29 Rebuilding over an existing directory *)
(** What a get() finds after a second history is written over the first. *)
Theorem C29_overlay :
  forall o o' ops1 ops2 d1 d2 d12 z t r bb ms k,
  history_ok ops1 -> history_ok ops2 -> key_ok k ->
  finish o (run ops1) ∅ = Ok d1 -> finish o' (run ops2) d1 = Ok d12 -> finish o' (run ops2) ∅ = Ok d2 ->
  get (open_store d12 z t r bb ms) k =
    match written ops2 !! k with
    | Some _ => get (open_store d2 z t r bb ms) k
    | None => get (open_store d1 z t r bb ms) k
    end.
Proof.
  intros o o' ops1 ops2 d1 d2 d12 z t r bb ms k H1 H2 Hk F1 F12 F2.
  assert (Hok : data_keys_ok (run ops2)) by (apply run_keys_ok; by destruct H2).
  unfold get, open_store. cbn [st_db].
  rewrite (finish_single_lookup o' (run ops2) d1 d12 k Hok Hk F12).
  rewrite (finish_single_lookup o' (run ops2) ∅ d2 k Hok Hk F2).
  pose proof (run_rel ops2 k) as Hr.
  destruct (b_data (run ops2) !! k), (written ops2 !! k); done.
Qed.
Print Assumptions C29_overlay.
(** The boundaries are those of the second history. *)
Theorem C29_bounds :
  forall o o' ops1 ops2 d1 d2 d12 z t r bb ms,
  finish o (run ops1) ∅ = Ok d1 -> finish o' (run ops2) d1 = Ok d12 -> finish o' (run ops2) ∅ = Ok d2 ->
  st_bounds (open_store d12 z t r bb ms) = st_bounds (open_store d2 z t r bb ms).
Proof.
  intros o o' ops1 ops2 d1 d2 d12 z t r bb ms F1 F12 F2.
  apply bind_Ok in F12 as (puts & Hp & E). injection E as <-.
  unfold finish in F2. rewrite Hp in F2. cbn [res_bind] in F2. injection F2 as <-.
  pose proof (finish_puts_groups o' _ puts Hp) as (labelled & Hl & ->).
  unfold open_store. cbn [st_bounds]. rewrite !apply_puts_app. unfold apply_puts at 1 3. cbn [foldl fst snd].
  by rewrite !lookup_insert.
Qed.
Print Assumptions C29_bounds.
Theorem C29_stale_refuted :
  exists ops1 ops2 d1 d12 k es,
    history_ok ops1 /\ history_ok ops2 /\ key_ok k /\
    finish id_oracle (run ops1) ∅ = Ok d1 /\ finish id_oracle (run ops2) d1 = Ok d12 /\
    written ops2 !! k = None /\ get (open_default d12) k = Ok (Some es) /\ es <> [].
Proof.
  destruct (finish id_oracle (run [OpInsert (7, 1) [ex_e1]]) (ex_db id_oracle ex_ops)) as [d12| | |] eqn:E.
  - exists ex_ops, [OpInsert (7, 1) [ex_e1]], (ex_db id_oracle ex_ops), d12, (4, 0).
    eexists. split; [exact ex_ops_ok|]. split; [apply history_okb_ok; vm_compute; done|].
    split; [by apply key_okb_ok|]. split; [vm_compute; reflexivity|]. split; [done|].
    split; [vm_compute; done|]. split.
    + vm_compute in E. injection E as <-. vm_compute. reflexivity.
    + done.
  - vm_compute in E. discriminate.
  - vm_compute in E. discriminate.
  - vm_compute in E. discriminate.
Qed.
Print Assumptions C29_stale_refuted.
