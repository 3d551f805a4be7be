(** Properties C01-C10, C23 and C39: what is written is what is read. *)
From Verif Require Import Prelude Lists F64 Common Morton Format Builder Store Spec Format_proofs Record_proofs
  Builder_proofs Bits_proofs Finish_proofs Store_proofs Order_proofs Unshared_proofs Size_proofs
  Bins_proofs History_proofs Examples.
From Coq Require Import Sorting.Sorted.
From Coq Require Import ZifyBool.

(** ** C01 Store round trip *)
Theorem C01_store_round_trip :
  forall o ops s k, history_ok ops -> built o ops s -> key_ok k ->
  match written ops !! k with
  | None => get s k = Ok None
  | Some es => exists out, get s k = Ok (Some out) /\ NoDup out /\
                 forall e, e ∈ out <-> exists e0, e0 ∈ es /\ e = snap e0
  end.
Proof. exact get_written. Qed.
Print Assumptions C01_store_round_trip.
(** Every such history can be finished and opened. *)
Theorem C01_store_exists : forall o ops, history_ok ops -> exists s, built o ops s.
Proof. exact history_built. Qed.
Print Assumptions C01_store_exists.
Example C01_ex :
  history_ok ex_ops /\ built id_oracle ex_ops (ex_store ex_ops) /\ key_ok (1, 1) /\
  get (ex_store ex_ops) (1, 1) =
    Ok (Some [GridEntry f_one 7 60000 5 9 255; ex_e1; ex_e2]) /\
  get (ex_store ex_ops) (2, 6) = Ok (Some []) /\
  get (ex_store ex_ops) (2, 7) = Ok None.
Proof.
  split; [exact ex_ops_ok|]. split; [exact ex_built|]. split; [by apply key_okb_ok|].
  vm_compute. done.
Qed.

(** ** C02 Entry order returned by get *)
Theorem C02_get_sorted :
  forall o ops s k out, history_ok ops -> built o ops s -> key_ok k -> get s k = Ok (Some out) ->
  StronglySorted entry_before out.
Proof. exact get_sorted. Qed.
Print Assumptions C02_get_sorted.
(** The order is strict, so it determines the list: a history that writes the same
    entries, in whatever order, is read back as the same list. *)
Theorem C02_order_independent :
  forall o1 o2 ops1 ops2 s1 s2 k es1 es2,
  history_ok ops1 -> history_ok ops2 -> built o1 ops1 s1 -> built o2 ops2 s2 -> key_ok k ->
  written ops1 !! k = Some es1 -> written ops2 !! k = Some es2 ->
  (forall e, e ∈ es1 <-> e ∈ es2) ->
  get s1 k = get s2 k.
Proof.
  intros o1 o2 ops1 ops2 s1 s2 k es1 es2 H1 H2 B1 B2 Hk W1 W2 He.
  pose proof (get_written o1 ops1 s1 k H1 B1 Hk) as G1. rewrite W1 in G1.
  pose proof (get_written o2 ops2 s2 k H2 B2 Hk) as G2. rewrite W2 in G2.
  destruct G1 as (out1 & G1 & N1 & E1). destruct G2 as (out2 & G2 & N2 & E2).
  pose proof (get_sorted o1 ops1 s1 k out1 H1 B1 Hk G1) as S1.
  pose proof (get_sorted o2 ops2 s2 k out2 H2 B2 Hk G2) as S2.
  rewrite G1, G2. do 2 f_equal.
  apply (sorted_perm_unique entry_before); [|done|done|].
  - intros a b Ha Hb Hab Hba. exfalso.
    destruct (elem_of_list_lookup_1 _ _ Ha) as [i Hi]. destruct (elem_of_list_lookup_1 _ _ Hb) as [j Hj].
    destruct (lt_eq_lt_dec i j) as [[Hij|Hij]|Hij].
    + exact (entry_before_asym _ _ Hab Hba).
    + subst j. rewrite Hi in Hj. injection Hj as ->. exact (entry_before_irrefl _ Hab).
    + exact (entry_before_asym _ _ Hab Hba).
  - apply NoDup_Permutation; [done..|]. intros e. rewrite E1, E2.
    split; intros (e0 & Hin & ->); exists e0; (split; [by apply He|done]).
Qed.
Print Assumptions C02_order_independent.
Example C02_ex :
  entry_before (GridEntry f_one 7 60000 5 9 255) ex_e1 /\ entry_before ex_e1 ex_e2 /\
  ~ entry_before ex_e2 ex_e1 /\
  get (ex_store ex_ops) (1, 1) = get (ex_store ex_ops') (1, 1) /\
  written ex_ops !! (1, 1) <> written ex_ops' !! (1, 1).
Proof.
  split; [right; split; [done|]; right; split; [done|]; left; vm_compute; done|].
  split; [left; vm_compute; done|].
  split; [intros [H|[H _]]; vm_compute in H; discriminate|].
  split; [vm_compute; reflexivity|]. vm_compute. discriminate.
Qed.

(** ** C03 Score range *)
(** What any u8 score becomes. *)
Theorem C03_score_exact :
  forall r s, s < 2 ^ 8 ->
  unpack_score (pack_rs r s) = s mod 16 /\
  unpack_relev (pack_rs r s) = relev_int_to_float (N.lor (relev_float_to_int r) (s / 16)).
Proof. exact score_exact. Qed.
Print Assumptions C03_score_exact.
(** Scores up to 15 are preserved together with the relevance. *)
Theorem C03_score_safe :
  forall r s, s <= 15 ->
  unpack_score (pack_rs r s) = s /\ unpack_relev (pack_rs r s) = snap_relev r.
Proof. intros r s H. split; [by apply unpack_score_pack|by apply unpack_relev_pack]. Qed.
Print Assumptions C03_score_safe.
(** The claim for all u8 scores is false: 0.4 with score 16 is read back as 0.6 with score 0. *)
Theorem C03_score_refuted :
  exists ops s e, built id_oracle ops s /\ key_ok (1, 1) /\ ge_score e < 2 ^ 8 /\
    written ops !! (1, 1) = Some [e] /\
    get s (1, 1) <> Ok (Some [GridEntry (snap_relev (ge_relev e)) (ge_score e mod 16)
                                        (ge_x e) (ge_y e) (ge_id e) (ge_hash e)]).
Proof.
  set (e := GridEntry (f_lit 4 10) 16 3 5 11 2). set (ops := [OpInsert (1, 1) [e]]).
  exists ops, (ex_store ops), e. split; [apply built_run; vm_compute; reflexivity|].
  split; [by apply key_okb_ok|]. split; [vm_compute; reflexivity|].
  split; [vm_compute; reflexivity|]. vm_compute. discriminate.
Qed.
Print Assumptions C03_score_refuted.
Example C03_ex :
  pack_rs (f_lit 4 10) 15 = 15 /\ unpack_relev 15 = f_lit 4 10 /\
  pack_rs (f_lit 4 10) 16 = 16 /\ unpack_relev 16 = f_lit 6 10 /\ unpack_score 16 = 0.
Proof. vm_compute. done. Qed.

(** ** C04 Write order and hash order do not matter *)
Theorem C04_write_order :
  forall o1 o2 ops1 ops2 d,
  Forall op_ok ops1 -> Forall op_nonempty ops1 -> Forall op_nonempty ops2 ->
  b_bounds (run ops1) = b_bounds (run ops2) ->
  same_entries (written ops1) (written ops2) ->
  finish o1 (run ops1) d = finish o2 (run ops2) d.
Proof. exact finish_same. Qed.
Print Assumptions C04_write_order.
(** A compact append without coordinates leaves an empty score group behind, which is
    visible in the bytes; hence [op_nonempty]. *)
Theorem C04_empty_compact_refuted :
  exists ops1 ops2, same_entries (written ops1) (written ops2) /\ Forall op_ok ops1 /\
    finish id_oracle (run ops1) ∅ <> finish id_oracle (run ops2) ∅.
Proof.
  exists [OpInsert (1, 1) []], [OpCompact (1, 1) f_one 1 1 1 []]. split; [|split].
  - intros k. unfold written. cbn [foldl written_step]. rewrite lookup_empty. cbn [default from_option].
    unfold compact_entries. cbn [map app].
    destruct (decide (k = (1, 1))) as [->|Hne].
    + rewrite !lookup_insert. done.
    + rewrite !lookup_insert_ne by done. by rewrite lookup_empty.
  - repeat constructor.
  - intros E. apply (f_equal (fun r => match r with Ok d => map_to_list d | _ => [] end)) in E.
    vm_compute in E. discriminate.
Qed.
Print Assumptions C04_empty_compact_refuted.
Example C04_ex :
  Forall op_ok ex_ops /\ Forall op_nonempty ex_ops /\ Forall op_nonempty ex_ops' /\
  b_bounds (run ex_ops) = b_bounds (run ex_ops') /\
  same_entries (written ex_ops) (written ex_ops') /\
  map_to_list (ex_db id_oracle ex_ops) = map_to_list (ex_db rev_oracle ex_ops') /\
  length (map_to_list (ex_db id_oracle ex_ops)) = 9%nat.
Proof.
  split; [exact (proj1 ex_ops_ok)|]. split; [by repeat constructor|]. split; [by repeat constructor|].
  split; [vm_compute; reflexivity|].
  split; [apply entries_le_same; vm_compute; reflexivity|].
  vm_compute. done.
Qed.

(** ** C05 keys() enumerates exactly the written keys *)
Theorem C05_keys :
  forall o ops s, history_ok ops -> built o ops s ->
  exists ks, keys s = Ok ks /\ NoDup ks /\ forall k, k ∈ ks <-> is_Some (written ops !! k).
Proof.
  intros o ops s Hh Hb. destruct (built_keys o ops s Hh Hb) as (ks & ? & ? & ? & _). eauto.
Qed.
Print Assumptions C05_keys.
Example C05_ex :
  keys (ex_store ex_ops) = Ok [(1, 1); (2, u128_max); (2, 6); (4, 0)] /\
  length (map_to_list (st_db (ex_store ex_ops))) = 9%nat.
Proof. vm_compute. done. Qed.

(** ** C06 iter() agrees with get() *)
Theorem C06_iter :
  forall o ops s, history_ok ops -> built o ops s ->
  exists kvs, iter s = Ok kvs /\ NoDup (map fst kvs) /\ keys s = Ok (map fst kvs) /\
    forall k es, key_ok k -> (k, es) ∈ kvs <-> get s k = Ok (Some es).
Proof. exact built_iter. Qed.
Print Assumptions C06_iter.
Example C06_ex :
  iter (ex_store ex_ops) =
  Ok [((1, 1), [GridEntry f_one 7 60000 5 9 255; ex_e1; ex_e2]);
      ((2, u128_max), [ex_e2]); ((2, 6), []);
      ((4, 0), [GridEntry (f_lit 8 10) 3 2 2 7 1; GridEntry (f_lit 8 10) 3 1 1 7 1])].
Proof. vm_compute. reflexivity. Qed.

(** ** C07 Order of keys() *)
Theorem C07_phrases_ascending :
  forall o ops s ks, history_ok ops -> built o ops s -> keys s = Ok ks ->
  StronglySorted (fun a b => a.1 <= b.1) ks.
Proof. exact built_keys_phrases. Qed.
Print Assumptions C07_phrases_ascending.
(** Language sets of one phrase are not ascending: 256 is listed before 2. *)
Theorem C07_languages_refuted :
  exists ops s, history_ok ops /\ built id_oracle ops s /\
    keys s = Ok [(1, 256); (1, 2)] /\
    ~ StronglySorted (fun a b => a.1 < b.1 \/ (a.1 = b.1 /\ a.2 <= b.2)) [(1, 256); (1, 2)].
Proof.
  set (ops := [OpInsert (1, 2) [ex_e1]; OpInsert (1, 256) [ex_e1]]).
  exists ops, (ex_store ops). split; [apply history_okb_ok; vm_compute; reflexivity|].
  split; [apply built_run; vm_compute; reflexivity|]. split; [vm_compute; reflexivity|].
  intros H. inversion H as [|? ? _ H']; subst. inversion H' as [|? ? Hx _]; subst. cbn in Hx. lia.
Qed.
Print Assumptions C07_languages_refuted.

(** ** C08 Grid key encoding is injective and decodable *)
Theorem C08_key_injective :
  forall m m' k k', key_ok k -> key_ok k' -> write_key m k = write_key m' k' -> m = m' /\ k = k'.
Proof. exact write_key_inj. Qed.
Print Assumptions C08_key_injective.
Theorem C08_key_not_bounds : forall m k, write_key m k <> bounds_key.
Proof. exact write_key_bounds. Qed.
Print Assumptions C08_key_not_bounds.
Theorem C08_key_decodable : forall m k, key_ok k -> read_key (write_key m k) = Ok k.
Proof. exact read_key_write. Qed.
Print Assumptions C08_key_decodable.
Example C08_ex :
  key_ok (7, 0) /\ key_ok (7, u128_max) /\ key_ok (7, 2 ^ 64) /\
  write_key SinglePhrase (7, 0) = [0; 0; 0; 0; 7; 0] /\
  write_key SinglePhrase (7, u128_max) = [0; 0; 0; 0; 7] /\
  write_key PrefixBin (7, 2 ^ 64) = [1; 0; 0; 0; 7; 1; 0; 0; 0; 0; 0; 0; 0; 0].
Proof.
  split; [by apply key_okb_ok|]. split; [by apply key_okb_ok|]. split; [by apply key_okb_ok|].
  vm_compute. done.
Qed.

(** ** C09 Binary record format round trip *)
(** Each vector, written at the end of any buffer [w] and followed by any [post]. *)
Theorem C09_fixed_vec :
  forall w s post, N.of_nat (length s) < 2 ^ 32 -> Forall (fun v => v < 2 ^ 32) s ->
  let '(addr, w') := write_fixed_vec w s in read_fixed_vec (w' ++ post) addr = Ok s.
Proof.
  intros w s post H1 H2. cbn [write_fixed_vec].
  eapply (read_fixed_vec_ok _ w s post); [|done..]. unfold enc_fixed. by rewrite <- !app_assoc.
Qed.
Print Assumptions C09_fixed_vec.
Theorem C09_uniform_vec :
  forall w s post, N.of_nat (length s) < 2 ^ 32 ->
  Forall (fun c => c_coord c < 2 ^ 32 /\ c_ids c < 2 ^ 32) s ->
  let '(addr, w') := write_uniform_vec w s in read_uniform_vec (w' ++ post) addr = Ok s.
Proof.
  intros w s post H1 H2. cbn [write_uniform_vec].
  eapply (read_uniform_vec_ok _ w s post); [|done..]. unfold enc_uniform. by rewrite <- !app_assoc.
Qed.
Print Assumptions C09_uniform_vec.
Theorem C09_var_vec :
  forall w s post, N.of_nat (length s) < 2 ^ 32 ->
  Forall (fun r => rs_value r < 256 /\ rs_coords r < 2 ^ 32) s ->
  let '(addr, w') := write_var_vec w s in read_var_vec (w' ++ post) addr = Ok s.
Proof.
  intros w s post H1 H2. cbn [write_var_vec].
  eapply (read_var_vec_ok _ w s post); [|done..]. unfold enc_var. by rewrite <- !app_assoc.
Qed.
Print Assumptions C09_var_vec.
Theorem C09_root : forall w addr, addr < 2 ^ 32 -> read_root (write_root w addr) = Ok addr.
Proof. exact read_root_ok. Qed.
Print Assumptions C09_root.

(** A whole record: the groups in descending order of the relevance/score byte, in each
    the cells in descending order, in each the distinct ids in descending order. *)
Definition listing {A B} (P : A -> B -> Prop) (m : gmap N A) (l : list (N * B)) : Prop :=
  StronglySorted (fun a b => b.1 < a.1) l /\
  (forall k b, (k, b) ∈ l -> exists a, m !! k = Some a /\ P a b) /\
  (forall k a, m !! k = Some a -> exists b, (k, b) ∈ l /\ P a b).
Definition id_listing (raw ids : list N) : Prop :=
  StronglySorted (fun a b => b < a) ids /\ forall v, v ∈ ids <-> v ∈ raw.
Definition tree_of : gmap N (gmap N (list N)) -> list (N * list (N * list N)) -> Prop :=
  listing (listing id_listing).
Theorem C09_record :
  forall o site v, rec_in_range v -> N.of_nat (length (get_encoded_value o site v)) < 2 ^ 32 ->
  exists n, tree_of v n /\ reads (get_encoded_value o site v) n.
Proof.
  intros o site v Hr Hlen. exists (norm v). split.
  - split; [apply norm_sorted|]. split.
    + intros rs cs Hin. apply elem_norm in Hin as (cells & Hc & ->). exists cells. split; [done|].
      split; [apply norm_cells_sorted|]. split.
      * intros z ids Hin. apply elem_norm_cells in Hin as (raw & Hraw & ->). exists raw.
        split; [done|]. split; [apply sort_ids_sorted|]. intros; apply sort_ids_elem.
      * intros z raw Hraw. exists (sort_ids raw). split; [apply elem_norm_cells; eauto|].
        split; [apply sort_ids_sorted|]. intros; apply sort_ids_elem.
    + intros rs cells Hc. exists (norm_cells cells). split; [apply elem_norm; eauto|].
      split; [apply norm_cells_sorted|]. split.
      * intros z ids Hin. apply elem_norm_cells in Hin as (raw & Hraw & ->). exists raw.
        split; [done|]. split; [apply sort_ids_sorted|]. intros; apply sort_ids_elem.
      * intros z raw Hraw. exists (sort_ids raw). split; [apply elem_norm_cells; eauto|].
        split; [apply sort_ids_sorted|]. intros; apply sort_ids_elem.
  - rewrite get_encoded_value_norm in *. apply encode_record_reads; [|done].
    by apply rec_in_range_wf.
Qed.
Print Assumptions C09_record.
Example C09_ex :
  let v : gmap N (gmap N (list N)) :=
    {[ 55 := {[ 7 := [1; 9; 1]; 70000 := [300] ]}; 3 := {[ 7 := [9; 1] ]} ]} in
  let data := get_encoded_value id_oracle [] v in
  rec_in_range v /\ N.of_nat (length data) < 2 ^ 32 /\
  decode_value data = Ok (map unpack3
    [(55, 70000, 300); (55, 7, 9); (55, 7, 1); (3, 7, 9); (3, 7, 1)]).
Proof.
  cbv zeta. split; [|vm_compute; done]. apply rec_in_rangeb_ok. vm_compute. reflexivity.
Qed.

(** ** C10 Id-list sharing is unobservable *)
(** [get_encoded_value_unshared] writes every id list anew. *)
Theorem C10_sharing :
  forall o site ops k be, history_ok ops -> b_data (run ops) !! k = Some be ->
  N.of_nat (length (get_encoded_value_unshared o site be)) < 2 ^ 32 ->
  exists es, decode_value (get_encoded_value o site be) = Ok es /\
             decode_value (get_encoded_value_unshared o site be) = Ok es.
Proof. exact history_sharing. Qed.
Print Assumptions C10_sharing.
Example C10_ex :
  let be := default ∅ (b_data (run ex_ops') !! (4, 0)) in
  (length (get_encoded_value id_oracle [] be)
   < length (get_encoded_value_unshared id_oracle [] be))%nat /\
  decode_value (get_encoded_value id_oracle [] be)
  = Ok [GridEntry (f_lit 8 10) 3 2 2 7 1; GridEntry (f_lit 8 10) 3 1 1 7 1].
Proof. cbv zeta. split; [vm_compute; lia|vm_compute; reflexivity]. Qed.

(** ** C23 finish() terminates *)
Theorem C23_terminates :
  forall o b d, (forall k be, b_data b !! k = Some be -> gk_phrase k < 2 ^ 32 - 1) ->
  exists d', finish o b d = Ok d'.
Proof. exact finish_terminates. Qed.
Print Assumptions C23_terminates.
(** With phrase id 2^32-1 the loop never exits, whatever else the builder holds. *)
Theorem C23_refuted :
  forall o b d k be, Forall (fun x => x < 2 ^ 32) (b_bounds b) ->
  b_data b !! k = Some be -> gk_phrase k = 2 ^ 32 - 1 -> finish o b d = Diverge.
Proof. exact finish_diverges. Qed.
Print Assumptions C23_refuted.
(** The model's [Diverge] is reported exactly when no number of loop iterations is enough. *)
Theorem C23_diverge_is_nontermination :
  forall p s, bin_advance (bin_fuel s) p s = None <-> forall n, bin_advance n p s = None.
Proof. exact bin_advance_fuel. Qed.
Print Assumptions C23_diverge_is_nontermination.
Example C23_ex :
  finish id_oracle (run [OpInsert (u32_max, 1) [ex_e1]]) ∅ = Diverge /\
  (exists d, finish id_oracle (run [OpInsert (u32_max - 1, 1) [ex_e1]; OpBounds [u32_max]]) ∅ = Ok d).
Proof. split; [vm_compute; reflexivity|eexists; vm_compute; reflexivity]. Qed.

(** ** C39 Consecutive grouping *)
Theorem C39_eager_groupby :
  forall A K (key : A -> K) (eqb : K -> K -> bool) (l : list A),
  grouping key eqb l (eager_groupby key eqb l).
Proof. exact @eager_groupby_grouping. Qed.
Print Assumptions C39_eager_groupby.
Theorem C39_concat :
  forall A K (key : A -> K) (eqb : K -> K -> bool) (l : list A),
  mjoin (map snd (eager_groupby key eqb l)) = l.
Proof. intros. eapply grouping_concat, eager_groupby_grouping. Qed.
Print Assumptions C39_concat.
Example C39_ex :
  eager_groupby (fun n => n / 10) N.eqb [1; 2; 11; 12; 3; 30]
  = [(0, [1; 2]); (1, [11; 12]); (0, [3]); (3, [30])].
Proof. vm_compute. reflexivity. Qed.
