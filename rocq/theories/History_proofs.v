(** The storage properties at the level of histories of calls. *)
From Verif Require Import Prelude Lists F64 Common Morton Format Builder Store Spec Record_proofs
  Builder_proofs Bits_proofs Finish_proofs Store_proofs Order_proofs Unshared_proofs Size_proofs Bins_proofs.
From Coq Require Import Sorting.Sorted.
From Coq Require Import ZifyBool.

Lemma history_finish o ops d0 : history_ok ops -> exists d, finish o (run ops) d0 = Ok d.
Proof.
  intros [Hops Hw]. apply finish_terminates. intros k be Hbe.
  pose proof (run_rel ops k) as Hr. rewrite Hbe in Hr.
  destruct (written ops !! k) as [es|] eqn:E; [|done].
  destruct (Hw k es E) as [H _]. unfold gk_phrase, u32_max. lia.
Qed.

Lemma history_built o ops : history_ok ops -> exists s, built o ops s.
Proof.
  intros H. destruct (history_finish o ops ∅ H) as [d Hd].
  exists (open_default d). repeat eexists. exact Hd.
Qed.

Lemma history_decode ops k be es :
  history_ok ops -> b_data (run ops) !! k = Some be -> written ops !! k = Some es ->
  holds be es /\ Forall entry_ok es /\ key_ok k /\ be_semi be /\
  N.of_nat (length (enc be)) < 2 ^ 32 /\ decode_value (enc be) = Ok (record_of be).
Proof.
  intros [Hops Hw] Hbe He. pose proof (run_rel ops k) as Hr. rewrite Hbe, He in Hr.
  destruct (written_all_ok ops Hops k es He) as [Hk Hes].
  assert (Hsemi : be_semi be) by by eapply run_semi.
  assert (Hlen : N.of_nat (length (enc be)) < 2 ^ 32).
  { eapply holds_enc_size; [done|done|]. by destruct (Hw k es He). }
  split; [done|]. split; [done|]. split; [done|]. split; [done|]. split; [done|].
  apply decode_enc; [|done]. by eapply holds_wf.
Qed.

Lemma built_get o ops s k :
  history_ok ops -> built o ops s -> key_ok k ->
  match written ops !! k with
  | None => get s k = Ok None
  | Some es => exists be, b_data (run ops) !! k = Some be /\ holds be es /\ Forall entry_ok es /\
                 get s k = Ok (Some (record_of be))
  end.
Proof.
  intros Hh (d & z & t & r & bb & ms & Hf & ->) Hk. destruct (Hh) as [Hops _].
  pose proof (run_keys_ok ops Hops) as Hok.
  pose proof (finish_single_lookup o (run ops) ∅ d k Hok Hk Hf) as Hl.
  pose proof (run_rel ops k) as Hr. unfold get, open_store. cbn [st_db]. rewrite Hl.
  destruct (b_data (run ops) !! k) as [be|] eqn:E; destruct (written ops !! k) as [es|] eqn:Ew; try done.
  destruct (history_decode ops k be es Hh E Ew) as (? & ? & _ & _ & _ & Hd).
  exists be. rewrite Hd. done.
Qed.

(** C01 *)
Lemma get_written o ops s k :
  history_ok ops -> built o ops s -> key_ok k ->
  match written ops !! k with
  | None => get s k = Ok None
  | Some es => exists out, get s k = Ok (Some out) /\ NoDup out /\
                 forall e, e ∈ out <-> exists e0, e0 ∈ es /\ e = snap e0
  end.
Proof.
  intros Hh Hb Hk. pose proof (built_get o ops s k Hh Hb Hk) as H.
  destruct (written ops !! k) as [es|]; [|done].
  destruct H as (be & _ & Hholds & Hes & Hget). exists (record_of be). split; [done|].
  split; [by eapply record_NoDup|]. intros e. rewrite (record_elem be es e) by done.
  rewrite elem_of_map. naive_solver.
Qed.

(** C02 *)
Lemma get_sorted o ops s k out :
  history_ok ops -> built o ops s -> key_ok k -> get s k = Ok (Some out) ->
  StronglySorted entry_before out.
Proof.
  intros Hh Hb Hk Hg. pose proof (built_get o ops s k Hh Hb Hk) as H.
  destruct (written ops !! k) as [es|]; [|congruence].
  destruct H as (be & _ & Hholds & Hes & Hget). rewrite Hget in Hg.
  assert (E : out = record_of be) by congruence. rewrite E. by eapply record_sorted.
Qed.

(** ** keys and iter *)
Lemma keys_map d (l : list ((N * N) * gmap N (gmap N (list N)))) :
  single_records d = map single_put l -> (forall k be, (k, be) ∈ l -> key_ok k) ->
  res_mapM (fun kv => read_key kv.1) (single_records d) = Ok (map fst l).
Proof.
  intros -> H. rewrite res_mapM_map. apply res_mapM_pure. intros [k be] Hin.
  unfold single_put. cbn [fst]. apply read_key_write. by eapply H.
Qed.

Lemma built_records o ops s :
  history_ok ops -> built o ops s ->
  exists l : list ((N * N) * gmap N (gmap N (list N))),
    single_records (st_db s) = map single_put l /\
    (forall k be, (k, be) ∈ l <-> b_data (run ops) !! k = Some be) /\
    NoDup (map fst l) /\
    StronglySorted (fun a b => bytes_leb (write_key SinglePhrase a.1) (write_key SinglePhrase b.1) = true) l.
Proof.
  intros Hh (d & z & t & r & bb & ms & Hf & ->). destruct Hh as [Hops _].
  apply (finish_single_records o (run ops) d); [by apply run_keys_ok|done].
Qed.

Lemma built_keys o ops s :
  history_ok ops -> built o ops s ->
  exists ks, keys s = Ok ks /\ NoDup ks /\ (forall k, k ∈ ks <-> is_Some (written ops !! k)) /\
    StronglySorted (fun a b => bytes_leb (write_key SinglePhrase a) (write_key SinglePhrase b) = true) ks /\
    Forall key_ok ks.
Proof.
  intros Hh Hb. destruct (built_records o ops s Hh Hb) as (l & Hl & Hiff & Hnd & Hs).
  assert (Hkeys : forall k be, (k, be) ∈ l -> key_ok k).
  { intros k be Hin. apply Hiff in Hin. destruct Hh as [Hops _].
    by eapply run_keys_ok. }
  exists (map fst l). split; [by apply keys_map|]. split; [done|]. split; [|split].
  - intros k. rewrite elem_of_map. pose proof (run_rel ops k) as Hr. split.
    + intros ([k' be] & -> & Hin). cbn [fst]. apply Hiff in Hin. cbn [fst] in Hr. rewrite Hin in Hr.
      destruct (written ops !! k'); [eauto|done].
    + intros [es He]. rewrite He in Hr. destruct (b_data (run ops) !! k) as [be|] eqn:E; [|done].
      exists (k, be). split; [done|]. by apply Hiff.
  - apply StronglySorted_map. done.
  - apply Forall_forall. intros k Hk. apply elem_of_map in Hk as ([k' be] & -> & Hin). by eapply Hkeys.
Qed.

(** C06 *)
Lemma built_iter o ops s :
  history_ok ops -> built o ops s ->
  exists kvs, iter s = Ok kvs /\ NoDup (map fst kvs) /\
    keys s = Ok (map fst kvs) /\
    forall k es, key_ok k -> (k, es) ∈ kvs <-> get s k = Ok (Some es).
Proof.
  intros Hh Hb. destruct (built_records o ops s Hh Hb) as (l & Hl & Hiff & Hnd & Hs).
  assert (Hkeys : forall k be, (k, be) ∈ l -> key_ok k).
  { intros k be Hin. apply Hiff in Hin. destruct Hh as [Hops _].
    by eapply run_keys_ok. }
  assert (Hdec : forall k be, (k, be) ∈ l -> decode_value (enc be) = Ok (record_of be)).
  { intros k be Hin. apply Hiff in Hin. pose proof (run_rel ops k) as Hr. rewrite Hin in Hr.
    destruct (written ops !! k) as [es|] eqn:E; [|done].
    by destruct (history_decode ops k be es Hh Hin E) as (? & ? & ? & ? & ? & ?). }
  exists (map (fun it => (it.1, record_of it.2)) l). split; [|split; [|split]].
  - unfold iter. rewrite Hl, res_mapM_map. apply res_mapM_pure. intros [k be] Hin.
    unfold single_put. cbn [fst snd]. rewrite read_key_write by by eapply Hkeys.
    cbn [res_bind]. rewrite (Hdec _ _ Hin). done.
  - rewrite List.map_map. exact Hnd.
  - rewrite List.map_map. by apply keys_map.
  - intros k es Hk. pose proof (built_get o ops s k Hh Hb Hk) as Hg.
    rewrite elem_of_map. split.
    + intros ([k' be] & E & Hin). apply pair_equal_spec in E as [-> ->]. cbn [fst snd] in *.
      apply Hiff in Hin. pose proof (run_rel ops k') as Hr. rewrite Hin in Hr.
      destruct (written ops !! k') as [es|] eqn:E; [|done].
      destruct Hg as (be' & Hbe' & _ & _ & Hg). congruence.
    + intros Hget. destruct (written ops !! k) as [es'|]; [|congruence].
      destruct Hg as (be & Hbe & _ & _ & Hg). exists (k, be). cbn [fst snd].
      split; [congruence|]. by apply Hiff.
Qed.

(** C07 *)
Lemma built_keys_phrases o ops s ks :
  history_ok ops -> built o ops s -> keys s = Ok ks ->
  StronglySorted (fun a b => a.1 <= b.1) ks.
Proof.
  intros Hh Hb Hk. destruct (built_keys o ops s Hh Hb) as (ks' & Hk' & _ & _ & Hs & Hok).
  assert (ks' = ks) by congruence. subst ks'. rewrite Forall_forall in Hok.
  eapply StronglySorted_impl; [|exact Hs]. cbv beta. intros a b Ha Hb' Hle.
  apply bytes_leb_cmp in Hle. destruct (Hok a Ha) as [? _]. destruct (Hok b Hb') as [? _].
  rewrite write_key_cmp in Hle by done. rewrite N.compare_refl in Hle. unfold cmp_then, gk_phrase in Hle.
  destruct (N.compare_spec a.1 b.1); [lia|lia|done].
Qed.

(** C10 *)
Lemma history_sharing o site ops k be :
  history_ok ops -> b_data (run ops) !! k = Some be ->
  N.of_nat (length (get_encoded_value_unshared o site be)) < 2 ^ 32 ->
  exists es, decode_value (get_encoded_value o site be) = Ok es /\
             decode_value (get_encoded_value_unshared o site be) = Ok es.
Proof.
  intros Hh Hbe Hlen. pose proof (run_rel ops k) as Hr. rewrite Hbe in Hr.
  destruct (written ops !! k) as [es|] eqn:E; [|done].
  destruct (history_decode ops k be es Hh Hbe E) as (? & ? & ? & ? & Hsz & ?).
  destruct (sharing_unobservable o site be) as [Heq [es' Hes']].
  - by eapply holds_wf.
  - rewrite get_encoded_value_norm. exact Hsz.
  - done.
  - exists es'. split; [done|]. congruence.
Qed.

(** ** Scores above 15 *)
Lemma score_exact r s : s < 2 ^ 8 ->
  unpack_score (pack_rs r s) = s mod 16 /\
  unpack_relev (pack_rs r s) = relev_int_to_float (N.lor (relev_float_to_int r) (s / 16)).
Proof.
  intros Hs. unfold unpack_score, unpack_relev, pack_rs, as_u8.
  pose proof (relev_int_lt r) as Hr.
  assert (E : N.shiftl (relev_float_to_int r) 4 mod 2 ^ 8 = N.shiftl (relev_float_to_int r) 4).
  { apply N.mod_small. rewrite N.shiftl_mul_pow2. change (2 ^ 4) with 16. change (2 ^ 8) with 256. lia. }
  rewrite E. clear E. split.
  - change 15 with (N.ones 4). change 16 with (2 ^ 4). rewrite N.land_lor_distr_l.
    rewrite !N.land_ones. rewrite N.shiftl_mul_pow2, N.mod_mul by done. by rewrite N.lor_0_l.
  - rewrite N.shiftr_lor, N.shiftr_shiftl_l by done. rewrite N.sub_diag, N.shiftl_0_r.
    rewrite N.shiftr_div_pow2. done.
Qed.

Lemma fltb_asym a b : fltb a b = true -> fltb b a = true -> False.
Proof.
  unfold fltb, SFltb. intros H1 H2.
  destruct (SFcompare a b) as [[]|] eqn:E1; try done.
  destruct (SFcompare b a) as [[]|] eqn:E2; try done.
  destruct a as [sa|sa| |sa ma ea], b as [sb|sb| |sb mb eb]; simpl in *; try done;
    repeat match goal with s : bool |- _ => destruct s end; try done;
    destruct (ea ?= eb)%Z eqn:E; rewrite (Z.compare_antisym ea eb), E in E2; simpl in *; try done;
    pose proof (Pos.compare_cont_antisym ma mb Eq) as HA; simpl in HA; rewrite <- HA in E2;
    destruct (Pos.compare_cont Eq ma mb); done.
Qed.
Lemma lex2_asym {A B} (R : A -> A -> Prop) (S : B -> B -> Prop) a b :
  (forall x y, R x y -> R y x -> False) -> (forall x, ~ R x x) -> (forall x y, S x y -> S y x -> False) ->
  lex2 R S a b -> lex2 R S b a -> False.
Proof.
  unfold lex2. intros H1 H2 H3 [Ha|[Ha Ha']] [Hb|[Hb Hb']].
  - eauto.
  - rewrite Hb in Ha. eapply H2; eauto.
  - rewrite Ha in Hb. eapply H2; eauto.
  - eauto.
Qed.
Lemma entry_before_asym a b : entry_before a b -> entry_before b a -> False.
Proof.
  assert (HN : forall x y, gt_N x y -> gt_N y x -> False) by (unfold gt_N; intros; lia).
  assert (HI : forall x, ~ gt_N x x) by (unfold gt_N; intros x; lia).
  apply lex2_asym.
  - intros x y. unfold gt_f. intros H1 H2. eapply fltb_asym; eauto.
  - intros x. unfold gt_f. by rewrite fltb_irrefl.
  - intros x y. apply lex2_asym; [done|done|]. intros ? ?. apply lex2_asym; [done|done|].
    intros ? ?. by apply lex2_asym.
Qed.

(** ** Records in the range of the format *)
Definition rec_in_range (v : gmap N (gmap N (list N))) : Prop :=
  forall rs cells, v !! rs = Some cells -> rs < 2 ^ 8 /\
  forall z ids, cells !! z = Some ids -> z < 2 ^ 32 /\ Forall (fun x => x < 2 ^ 32) ids.
Lemma rec_in_range_wf v : rec_in_range v -> rec_wf (norm v).
Proof.
  intros H. apply Forall_forall. intros [rs cs] Hin. apply elem_norm in Hin as (cells & Hc & ->).
  destruct (H rs cells Hc) as [Hrs Hcells]. cbn [fst snd]. split; [exact Hrs|].
  apply Forall_forall. intros [z ids] Hin. apply elem_norm_cells in Hin as (raw & Hraw & ->).
  destruct (Hcells z raw Hraw) as [Hz Hids]. cbn [fst snd]. split; [done|].
  rewrite Forall_forall in *. intros x Hx. rewrite sort_ids_elem in Hx. by apply Hids.
Qed.
Definition rec_in_rangeb (v : gmap N (gmap N (list N))) : bool :=
  forallb (fun rc : N * gmap N (list N) => (rc.1 <? 2 ^ 8) &&
    forallb (fun zi : N * list N => (zi.1 <? 2 ^ 32) && forallb (fun x => x <? 2 ^ 32) zi.2)
            (map_to_list rc.2)) (map_to_list v).
Lemma rec_in_rangeb_ok v : rec_in_rangeb v = true -> rec_in_range v.
Proof.
  unfold rec_in_rangeb. rewrite List.forallb_forall. intros H rs cells Hrs.
  apply elem_of_map_to_list, elem_of_list_In, H in Hrs as [H1 H2]%andb_prop. cbn [fst snd] in *.
  split; [lia|]. rewrite List.forallb_forall in H2. intros z ids Hz.
  apply elem_of_map_to_list, elem_of_list_In, H2 in Hz as [H3 H4]%andb_prop. cbn [fst snd] in *.
  split; [lia|]. rewrite List.forallb_forall in H4. apply Forall_forall. intros x Hx.
  apply elem_of_list_In, H4 in Hx. lia.
Qed.
