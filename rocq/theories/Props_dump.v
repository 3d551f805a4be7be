(** Property C80: dumping a store and loading the dump. *)
From Verif Require Import Prelude Lists F64 Heap Common Morton Format Builder Spatial Store Spec Spec_match
  Builder_proofs Bits_proofs Finish_proofs Store_proofs Order_proofs Bins_proofs History_proofs Query_proofs
  Binquery_proofs Durable_proofs Dump Examples Props_storage.
From Coq Require Import Sorting.Sorted.
From Coq Require Import ZifyBool.
Local Open Scope N_scope.

(** The load of a dump as a history of calls. *)
Definition load_ops (f : dump_file) : list op :=
  map (fun r : grid_key * list grid_entry => OpInsert r.1 r.2) f.1 ++ [OpBounds f.2].
Lemma load_run f : load_builder f = run (load_ops f).
Proof.
  unfold load_builder, load_ops. rewrite run_snoc. cbn [apply_op]. f_equal.
  unfold run. generalize builder_new. induction f.1 as [|r l IH]; intros b; [done|]. cbn [map foldl apply_op]. apply IH.
Qed.
Lemma written_inserts (l : list (grid_key * list grid_entry)) : NoDup (map fst l) ->
  forall k es, written (map (fun r : grid_key * list grid_entry => OpInsert r.1 r.2) l) !! k = Some es <-> (k, es) ∈ l.
Proof.
  induction l as [|[k0 es0] l IH] using rev_ind; intros Hnd k es.
  - cbn. rewrite lookup_empty. split; [done|]. intros H. by apply elem_of_nil in H.
  - rewrite List.map_app in Hnd. apply NoDup_app in Hnd as (Hnd & Hnin & _).
    rewrite List.map_app. unfold written. rewrite foldl_app. cbn [map foldl written_step fst snd].
    change (foldl written_step ∅ (map (fun r : grid_key * list grid_entry => OpInsert r.1 r.2) l))
      with (written (map (fun r : grid_key * list grid_entry => OpInsert r.1 r.2) l)).
    rewrite lookup_insert_Some, IH by done. rewrite elem_of_app, elem_of_list_singleton. split.
    + intros [[<- <-]|[_ H]]; [by right|by left].
    + intros [H|H]; [|apply pair_equal_spec in H as [-> ->]; by left]. right. split; [|done]. intros <-.
      apply (Hnin k0); [apply elem_of_map; exists (k0, es); done|]. cbn. apply elem_of_list_here.
Qed.
Lemma written_load f : NoDup (map fst f.1) -> forall k es, written (load_ops f) !! k = Some es <-> (k, es) ∈ f.1.
Proof.
  intros Hnd k es. rewrite <- written_inserts by done. unfold load_ops, written. by rewrite foldl_app.
Qed.

Lemma N_leb_total a b : N.leb a b = true \/ N.leb b a = true.
Proof. lia. Qed.
Lemma N_leb_trans a b c : N.leb a b = true -> N.leb b c = true -> N.leb a c = true.
Proof. lia. Qed.
Lemma sorted_set_elem o (l : list N) x : x ∈ isort N.leb (ho o [] N (nodup N.eq_dec l)) <-> x ∈ l.
Proof. rewrite elem_of_isort, (ho_perm o). rewrite !elem_of_list_In. apply nodup_In. Qed.
Lemma sorted_set_sorted o (l : list N) : StronglySorted (fun a b => a < b) (isort N.leb (ho o [] N (nodup N.eq_dec l))).
Proof.
  set (l' := isort N.leb _).
  assert (Hs : StronglySorted (fun a b => N.leb a b = true) l') by (apply isort_sorted; [exact N_leb_total|exact N_leb_trans]).
  assert (Hnd : NoDup l').
  { unfold l'. rewrite isort_perm, (ho_perm o). apply NoDup_ListNoDup. apply NoDup_nodup. }
  clearbody l'. induction Hs as [|a l1 Hs IH Ha]; [constructor|].
  apply NoDup_cons in Hnd as [Hn Hnd]. constructor; [by apply IH|].
  rewrite Forall_forall in *. intros x Hx. specialize (Ha x Hx). assert (x <> a) by (intros ->; done). lia.
Qed.
Lemma strict_unique (l1 l2 : list N) : StronglySorted (fun a b => a < b) l1 -> StronglySorted (fun a b => a < b) l2 ->
  (forall x, x ∈ l1 <-> x ∈ l2) -> l1 = l2.
Proof.
  intros H1 H2 He.
  assert (Hnd : forall l : list N, StronglySorted (fun a b => a < b) l -> NoDup l).
  { induction 1 as [|a l Hs IH Ha]; [constructor|]. constructor; [|done]. intros Hin. rewrite Forall_forall in Ha.
    specialize (Ha a Hin). lia. }
  apply (sorted_perm_unique (fun a b => a < b)); [intros; lia|done|done|].
  apply NoDup_Permutation; [by apply Hnd|by apply Hnd|done].
Qed.

(** What a dump holds. *)
Lemma dump_written o1 o ops d : history_ok ops -> finish o (run ops) ∅ = Ok d ->
  exists items, dump_db o1 d = Ok (items, isort N.leb (ho o1 [] N (nodup N.eq_dec (loaded ops)))) /\
    iter (open_default d) = Ok items /\ keys (open_default d) = Ok (map fst items) /\ NoDup (map fst items) /\
    (forall k es, (k, es) ∈ items <-> key_ok k /\ get (open_default d) k = Ok (Some es)) /\
    (forall k out, (k, out) ∈ items -> exists es, written ops !! k = Some es /\ NoDup out /\
       forall e, e ∈ out <-> exists e0, e0 ∈ es /\ e = snap e0) /\
    (forall k es, written ops !! k = Some es -> exists out, (k, out) ∈ items).
Proof.
  intros Hh Hf. assert (Hb : built o ops (open_default d)) by (by apply built_run).
  destruct (built_iter o ops _ Hh Hb) as (items & Hi & Hnd & Hk & Hel).
  destruct (built_keys o ops _ Hh Hb) as (ks & Hk' & _ & Hin & _ & Hok).
  assert (ks = map fst items) as -> by congruence. rewrite Forall_forall in Hok.
  exists items. unfold dump_db. rewrite Hi, (built_bounds o ops _ Hh Hb). split; [done|]. split; [done|]. split; [done|].
  split; [done|]. split; [|split].
  - intros k es. split.
    + intros H. assert (key_ok k) by (apply Hok, elem_of_map; by exists (k, es)). split; [done|]. by apply Hel.
    + intros [H1 H2]. by apply Hel.
  - intros k out H. assert (Hko : key_ok k) by (apply Hok, elem_of_map; by exists (k, out)).
    apply Hel in H; [|done]. pose proof (get_written o ops _ k Hh Hb Hko) as G.
    destruct (written ops !! k) as [es|]; [|congruence]. destruct G as (out' & G & Hn & He).
    assert (out' = out) by congruence. subst out'. eauto.
  - intros k es H. assert (Hk0 : k ∈ map fst items) by (apply Hin; eauto).
    apply elem_of_map in Hk0 as ([k' out] & -> & H0). eauto.
Qed.
Lemma entry_ok_snap e : entry_ok e -> entry_ok (snap e).
Proof.
  unfold entry_ok, snap. cbn [ge_score ge_x ge_y ge_id ge_hash]. intros (H1 & H2 & H3 & H4 & H5).
  repeat split; try done. pose proof (N.mod_lt (ge_id e) (2 ^ 24) ltac:(done)). lia.
Qed.
Lemma snap_snap e : snap (snap e) = snap e.
Proof.
  unfold snap. cbn [ge_relev ge_score ge_x ge_y ge_id ge_hash]. f_equal.
  - unfold snap_relev at 1. assert (H : snap_relev (ge_relev e) ∈ [f_lit 4 10; f_lit 6 10; f_lit 8 10; f_one]).
    { unfold snap_relev, relev_levels. cbn [List.find].
      destruct (feqb _ (f_lit 4 10)); [left|]. destruct (feqb _ (f_lit 6 10)); [right; left|].
      destruct (feqb _ (f_lit 8 10)); [do 2 right; left|]. do 3 right. left. }
    rewrite !elem_of_cons, elem_of_nil in H. destruct H as [E|[E|[E|[E|[]]]]]; rewrite E; vm_compute; done.
  - by rewrite N.mod_mod.
Qed.
Lemma history_load o1 ops o d items : history_ok ops -> finish o (run ops) ∅ = Ok d ->
  dump_db o1 d = Ok items -> history_ok (load_ops items) /\ Forall op_nonempty (load_ops items) /\
  same_entries (written ops) (written (load_ops items)).
Proof.
  intros Hh Hf Hd. destruct (dump_written o1 o ops d Hh Hf) as (its & Hd' & Hi & Hk & Hnd & Hel & Hout & Hin).
  assert (items = (its, isort N.leb (ho o1 [] N (nodup N.eq_dec (loaded ops))))) as -> by congruence. clear Hd.
  destruct Hh as [Hops Hw]. pose proof (written_all_ok _ Hops) as Hwo.
  assert (Hent : forall k out, (k, out) ∈ its -> key_ok k /\ Forall entry_ok out).
  { intros k out H. destruct (Hout _ _ H) as (es & Hes & _ & He). destruct (Hwo _ _ Hes) as [H1 H2]. split; [done|].
    apply Forall_forall. intros e Hin0. apply He in Hin0 as (e0 & He0 & ->). rewrite Forall_forall in H2.
    by apply entry_ok_snap, H2. }
  split; [split|split].
  - unfold load_ops. cbn [fst snd]. apply Forall_app. split.
    + apply Forall_forall. intros x Hx. apply elem_of_map in Hx as ([k out] & -> & H). by apply Hent.
    + constructor; [|done]. cbn [op_ok]. apply Forall_forall. intros b Hb. apply sorted_set_elem in Hb.
      rewrite <- run_bounds in Hb. pose proof (run_bounds_ok _ Hops) as H. rewrite Forall_forall in H. by apply H.
  - intros k out H. apply written_load in H; [|done]. cbn [fst] in H. destruct (Hout _ _ H) as (es & Hes & Hn & He).
    destruct (Hw _ _ Hes) as [H1 H2]. split; [done|].
    assert (Hsub : out ⊆+ map snap es).
    { apply NoDup_submseteq; [done|]. intros e He0. apply He in He0 as (e0 & ? & ->). apply elem_of_map. eauto. }
    apply submseteq_length in Hsub. rewrite map_length in Hsub. lia.
  - unfold load_ops. apply Forall_app. split; [|by repeat constructor].
    apply Forall_forall. intros x Hx. apply elem_of_map in Hx as (r & -> & _). done.
  - intros k. destruct (written ops !! k) as [es|] eqn:E.
    + destruct (Hin _ _ E) as [out Ho]. pose proof Ho as Hw2. apply (written_load (its, isort N.leb (ho o1 [] N (nodup N.eq_dec (loaded ops))))) in Hw2; [|done].
      rewrite Hw2. destruct (Hout _ _ Ho) as (es' & Hes' & _ & He). assert (es' = es) by congruence. subst es'.
      intros e. rewrite !elem_of_map. split.
      * intros (e0 & -> & H0). exists (snap e0). split; [by rewrite snap_snap|]. apply He. eauto.
      * intros (e1 & -> & H1). apply He in H1 as (e0 & H0 & ->). exists e0. by rewrite snap_snap.
    + destruct (written (load_ops _) !! k) as [out|] eqn:E2; [|done].
      apply (written_load (its, isort N.leb (ho o1 [] N (nodup N.eq_dec (loaded ops))))) in E2; [|done]. destruct (Hout _ _ E2) as (es & Hes & _). congruence.
Qed.

(** Loading a dump gives back the database byte for byte, whatever the hash orders, if
    the boundaries were ascending and no compact append was empty (see C04). *)
Theorem C80_identical :
  forall o o1 o2 ops d, history_ok ops -> Forall op_nonempty ops -> StronglySorted (fun a b => a < b) (loaded ops) ->
  finish o (run ops) ∅ = Ok d ->
  exists f, dump_db o1 d = Ok f /\ load_db o2 f ∅ = Ok d.
Proof.
  intros o o1 o2 ops d Hh Hne Hs Hf. destruct (dump_written o1 o ops d Hh Hf) as (its & Hd & _).
  destruct (history_load o1 ops o d _ Hh Hf Hd) as (Hh2 & Hne2 & Hsame). eexists. split; [exact Hd|].
  unfold load_db. rewrite load_run.
  rewrite <- (finish_same o o2 ops _ ∅ (proj1 Hh) Hne Hne2); [by rewrite Hf| |done].
  rewrite !run_bounds. unfold load_ops, loaded at 2. rewrite foldl_app. cbn [foldl snd].
  apply strict_unique; [done|apply sorted_set_sorted|]. intros x. by rewrite sorted_set_elem.
Qed.
Print Assumptions C80_identical.

Lemma get_same o1 o2 ops1 ops2 s1 s2 k :
  history_ok ops1 -> history_ok ops2 -> built o1 ops1 s1 -> built o2 ops2 s2 -> key_ok k ->
  same_entries (written ops1) (written ops2) -> get s1 k = get s2 k.
Proof.
  intros H1 H2 B1 B2 Hk He. specialize (He k).
  pose proof (get_written o1 ops1 s1 k H1 B1 Hk) as G1. pose proof (get_written o2 ops2 s2 k H2 B2 Hk) as G2.
  destruct (written ops1 !! k) as [es1|], (written ops2 !! k) as [es2|]; try done; [|congruence].
  destruct G1 as (out1 & G1 & N1 & E1). destruct G2 as (out2 & G2 & N2 & E2).
  pose proof (get_sorted o1 ops1 s1 k out1 H1 B1 Hk G1) as S1.
  pose proof (get_sorted o2 ops2 s2 k out2 H2 B2 Hk G2) as S2.
  rewrite G1, G2. do 2 f_equal.
  apply (sorted_perm_unique entry_before); [|done|done|].
  - intros a b _ _ Hab Hba. exfalso. exact (entry_before_asym _ _ Hab Hba).
  - apply NoDup_Permutation; [done..|]. intros e. rewrite E1, E2. setoid_rewrite elem_of_map in He.
    split; intros (e0 & Hin & ->).
    + destruct (proj1 (He (snap e0))) as (e1 & ? & ?); eauto.
    + destruct (proj2 (He (snap e0))) as (e1 & ? & ?); eauto.
Qed.
(** Whatever the boundaries and the calls: the loaded directory reads the same record
    by record, and its own dump is the same. *)
Theorem C80_stable :
  forall o o1 o2 ops d, history_ok ops -> finish o (run ops) ∅ = Ok d ->
  exists f d', dump_db o1 d = Ok f /\ load_db o2 f ∅ = Ok d' /\
    (forall k, key_ok k -> get (open_default d') k = get (open_default d) k) /\
    iter (open_default d') = iter (open_default d) /\
    forall o3, dump_db o3 d' = Ok f.
Proof.
  intros o o1 o2 ops d Hh Hf. destruct (dump_written o1 o ops d Hh Hf) as (its & Hd & Hi & Hk & Hnd & Hel & Hout & Hin).
  destruct (history_load o1 ops o d _ Hh Hf Hd) as (Hh2 & _ & Hsame).
  set (f := (its, isort N.leb (ho o1 [] N (nodup N.eq_dec (loaded ops))))) in *.
  destruct (history_finish o2 (load_ops f) ∅ Hh2) as [d' Hf'].
  exists f, d'. split; [done|]. split; [unfold load_db; by rewrite load_run, Hf'|].
  assert (B1 : built o ops (open_default d)) by (by apply built_run).
  assert (B2 : built o2 (load_ops f) (open_default d')) by (by apply built_run).
  assert (Hget : forall k, key_ok k -> get (open_default d') k = get (open_default d) k).
  { intros k Hko. symmetry. by apply (get_same o o2 ops (load_ops f)). }
  split; [done|].
  assert (Hiter : iter (open_default d') = iter (open_default d)).
  { destruct (dump_written o1 o2 (load_ops f) d' Hh2 Hf') as (its' & _ & Hi' & Hk' & Hnd' & Hel' & _ & _).
    rewrite Hi, Hi'. f_equal.
    destruct (built_keys _ _ _ Hh B1) as (ks & Hks & Hndk & Hkin & Hsk & Hokk).
    destruct (built_keys _ _ _ Hh2 B2) as (ks' & Hks' & Hndk' & Hkin' & Hsk' & Hokk').
    assert (ks = map fst its) as -> by congruence. assert (ks' = map fst its') as -> by congruence.
    assert (Hels : forall x, x ∈ its' <-> x ∈ its).
    { intros [k es]. rewrite Hel, Hel'. split; intros [H1 H2]; (split; [done|]); [by rewrite <- Hget|by rewrite Hget]. }
    apply (sorted_perm_unique (fun a b : grid_key * list grid_entry =>
             bytes_leb (write_key SinglePhrase a.1) (write_key SinglePhrase b.1) = true)).
    - intros [k1 es1] [k2 es2] H1 H2 Hab Hba. cbn [fst] in *.
      assert (Hk1 : key_ok k1) by (by apply Hel' in H1 as [? _]). assert (Hk2 : key_ok k2) by (by apply Hel' in H2 as [? _]).
      assert (E : write_key SinglePhrase k1 = write_key SinglePhrase k2) by (by apply bytes_leb_anti).
      apply write_key_inj in E as [_ <-]; [|done|done]. f_equal.
      apply Hel' in H1 as [_ H1], H2 as [_ H2]. congruence.
    - exact (StronglySorted_map_inv fst _ _ Hsk').
    - exact (StronglySorted_map_inv fst _ _ Hsk).
    - apply NoDup_Permutation; [by eapply NoDup_fmap_1|by eapply NoDup_fmap_1|done]. }
  split; [done|]. intros o3. destruct (dump_written o3 o2 (load_ops f) d' Hh2 Hf') as (its' & -> & Hi' & _).
  assert (its' = its) as -> by congruence.
  assert (El : loaded (load_ops f) = isort N.leb (ho o1 [] N (nodup N.eq_dec (loaded ops)))).
  { unfold load_ops, loaded at 1. rewrite foldl_app. done. }
  rewrite El. unfold f. f_equal. f_equal.
  apply strict_unique; [apply sorted_set_sorted|apply sorted_set_sorted|]. intros x. by rewrite !sorted_set_elem.
Qed.
Print Assumptions C80_stable.

(** Boundaries that are not ascending: the original puts both phrases into the bin 0 and
    finds phrase 6 in the range from 0 to 5. The loaded copy does not. *)
Definition dump_ops : list op :=
  [OpBounds [5; 0]; OpInsert (1, 1) [ex_e1]; OpInsert (6, 1) [ex_e2]].
Definition ok_or {A} (x : A) (r : res A) : A := match r with Ok a => a | _ => x end.
Definition dump_d := ok_or ∅ (finish id_oracle (run dump_ops) ∅).
Definition dump_f := ok_or ([], []) (dump_db id_oracle dump_d).
Definition dump_d' := ok_or ∅ (load_db id_oracle dump_f ∅).
Definition dump_ask (db : gmap (list N) (list N)) : res (list N) :=
  res_map (fun l => map (fun m : match_entry => ge_y (me_entry m)) l)
    (streaming_get_matching Debug first_mtb first_tb (open_default db) (MatchKey (Range 0 5) 1) (MatchOpts None None 14) 10).
Theorem C80_order_refuted :
  exists ops d f d', history_ok ops /\ finish id_oracle (run ops) ∅ = Ok d /\
    dump_db id_oracle d = Ok f /\ load_db id_oracle f ∅ = Ok d' /\
    dump_ask d = Ok [5; 6] /\ dump_ask d' = Ok [5].
Proof.
  exists dump_ops, dump_d, dump_f, dump_d'.
  split; [apply history_okb_ok; vm_compute; reflexivity|]. repeat split; vm_compute; reflexivity.
Qed.
Print Assumptions C80_order_refuted.

(** The hypotheses are met by the history of Examples.v: three keys, a relevance that is
    rounded and ids cut to 24 bits, boundaries 0, 2 and 5. *)
Example C80_example :
  history_ok ex_ops /\ Forall op_nonempty ex_ops /\ StronglySorted (fun a b => a < b) (loaded ex_ops) /\
  exists d f, finish id_oracle (run ex_ops) ∅ = Ok d /\ dump_db id_oracle d = Ok f /\ load_db id_oracle f ∅ = Ok d /\
    map (fun r : grid_key * list grid_entry => (r.1, length r.2)) f.1
      = [((1, 1), 3%nat); ((2, u128_max), 1%nat); ((2, 6), 0%nat); ((4, 0), 2%nat)] /\ f.2 = [0; 2; 5].
Proof.
  assert (H1 : history_ok ex_ops) by exact ex_ops_ok.
  assert (H2 : Forall op_nonempty ex_ops) by (repeat constructor; done).
  assert (H3 : StronglySorted (fun a b => a < b) (loaded ex_ops)) by (unfold loaded; cbn; repeat constructor).
  split; [done|]. split; [done|]. split; [done|].
  destruct (history_finish id_oracle ex_ops ∅ H1) as [d Hd]. destruct (C80_identical id_oracle id_oracle id_oracle ex_ops d) as (f & Hf & Hl); [done..|].
  exists d, f. split; [done|]. split; [done|]. split; [done|].
  assert (E : f = ok_or ([], []) (dump_db id_oracle (ok_or ∅ (finish id_oracle (run ex_ops) ∅)))) by (by rewrite Hd; cbn [ok_or]; rewrite Hf).
  rewrite E. split; vm_compute; reflexivity.
Qed.
