(** Property C84: the bytes a record takes. *)
From Verif Require Import Prelude Lists F64 Heap Common Morton Format Format_proofs Builder Spatial Store Spec Spec_match
  Spec_disk Spec_space Spec_rebuild Bits_proofs Record_proofs Builder_proofs Finish_proofs Store_proofs Order_proofs
  Bins_proofs Size_proofs History_proofs Spatial_proofs Cmp_proofs Merge_proofs Match_proofs Query_proofs
  Binquery_proofs Durable_proofs Rebuild_proofs Disk_proofs Space_proofs Examples Props_storage Props_match Props_disk.
From Coq Require Import ZifyBool.
Local Open Scope N_scope.

Lemma enc_takes be groups :
  rec_wf (norm be) -> N.of_nat (length (enc be)) < 2 ^ 32 -> record_laid (enc be) groups -> takes (enc be) groups.
Proof.
  intros Hwf Hlen Hl. assert (groups = norm be) as ->.
  { eapply laid_unique; [exact Hlen|done|]. by apply encode_laid. }
  by apply encode_record_takes.
Qed.

Lemma value_form o ops s kb v :
  history_ok ops -> loaded ops = [] \/ bins_ok ops -> built o ops s ->
  st_db s !! kb = Some v -> kb <> bounds_name ->
  exists be, v = enc be /\ rec_wf (norm be) /\ how_many (enc be) < 2 ^ 32.
Proof.
  intros Hh Hbins (d & z & t & r & bb & ms & Hf & ->) Hv Hkb. cbn [open_store st_db] in Hv.
  destruct (Hh) as [Hops _]. pose proof (run_keys_ok ops Hops) as Hok.
  pose proof (finish_key_form o (run ops) d kb v Hok Hf Hv) as [(m & k & Hk & ->)| ->]; [|done].
  destruct m.
  - rewrite (finish_single_lookup o (run ops) ∅ d k Hok Hk Hf) in Hv.
    destruct (b_data (run ops) !! k) as [be|] eqn:Hbe; [|by rewrite lookup_empty in Hv].
    pose proof (run_rel ops k) as Hr. rewrite Hbe in Hr.
    destruct (written ops !! k) as [es|] eqn:Hw; [|done].
    destruct (history_decode ops k be es Hh Hbe Hw) as (H1 & H2 & _ & H4 & H5 & _).
    injection Hv as <-. exists be. split; [done|]. split; [by eapply holds_wf|done].
  - destruct k as [gid l]. destruct Hbins as [H0|Hbins].
    { by rewrite (no_bin_records o ops d gid l Hh H0 Hf Hk) in Hv. }
    destruct (bin_record o ops d gid l v Hh Hbins Hf Hk Hv) as (_ & be & -> & H1 & H2 & H3 & H4).
    by exists be.
Qed.

(** ** C84 *)
(** Every record of a finished directory, of a phrase or of a bin, takes exactly the bytes
    its parts need, equal id lists being stored once. *)
Theorem C84_size : forall o ops s kb v groups,
  history_ok ops -> loaded ops = [] \/ bins_ok ops -> built o ops s ->
  st_db s !! kb = Some v -> kb <> bounds_name -> record_laid v groups -> takes v groups.
Proof.
  intros o ops s kb v groups Hh Hbins Hb Hv Hkb. destruct (value_form o ops s kb v) as (be & -> & ? & ?); try done.
  by apply enc_takes.
Qed.
Print Assumptions C84_size.

Lemma leb_size_le n : n < 2 ^ 32 -> leb_size n <= 5.
Proof.
  intros H. unfold leb_size. assert (N.log2 n <= 31).
  { destruct (N.eq_dec n 0) as [->|]; [done|]. apply N.lt_succ_r. apply N.log2_lt_pow2; [lia|done]. }
  assert (N.log2 n / 7 <= 31 / 7) by (apply N.div_le_mono; lia). change (31 / 7) with 4 in *. lia.
Qed.
Lemma total_le {A} (f g : A -> N) l : (forall a, a ∈ l -> f a <= g a) -> total f l <= total g l.
Proof.
  induction l as [|a l IH]; intros H; [done|]. unfold total in *. cbn [fold_right].
  pose proof (H a ltac:(left)). pose proof (IH ltac:(intros; apply H; by right)). lia.
Qed.
Lemma takes_le v groups : how_many v < 2 ^ 32 -> takes v groups ->
  forall lists, NoDup lists -> (forall ids, ids ∈ lists <-> ids ∈ lists_of groups) ->
  how_many v <= 9 + total (fun ids => 5 + 4 * how_many ids) lists +
    total (fun g : N * list (N * list N) => 12 + 8 * how_many g.2) groups.
Proof.
  intros Hlen (ls & ws & addrs & H1 & H2 & H3 & H4 & E) lists Hnd Hl.
  assert (Hp : ls ≡ₚ lists).
  { apply NoDup_Permutation; [done|done|]. intros x. by rewrite H2, Hl. }
  assert (Ht : total (fun ids => 5 + 4 * how_many ids) ls = total (fun ids => 5 + 4 * how_many ids) lists).
  { clear -Hp. induction Hp; unfold total in *; cbn [fold_right] in *; lia. }
  rewrite <- Ht. clear Ht Hp Hl Hnd lists H1 H2.
  assert (HL : total (fun ids => leb_size (how_many ids) + 4 * how_many ids) ls <= total (fun ids => 5 + 4 * how_many ids) ls).
  { apply total_le. intros ids Hi. apply (total_ge (fun ids => leb_size (how_many ids) + 4 * how_many ids)) in Hi.
    cbn beta in Hi. pose proof (leb_size_le (how_many ids)). lia. }
  assert (HA : how_many groups <= total (fun a => 1 + leb_size a) addrs <= 6 * how_many groups).
  { assert (Ha : forall a, a ∈ addrs -> leb_size a <= 5).
    { intros a Ha. apply leb_size_le. apply elem_of_list_lookup_1 in Ha as [i Hi].
      destruct (Forall2_lookup_r _ _ _ _ _ H4 Hi) as (? & _ & ?). lia. }
    replace (how_many groups) with (how_many addrs)
      by (unfold how_many; f_equal; symmetry; by eapply Forall2_length).
    clear -Ha. induction addrs as [|a l IH]; [done|].
    pose proof (IH ltac:(intros; apply Ha; by right)). pose proof (Ha a ltac:(left)).
    unfold how_many, total in *. cbn [length fold_right]. lia. }
  assert (HG : total (fun gw : (N * list (N * list N)) * N =>
               leb_size (how_many gw.1.2) + 1 + how_many gw.1.2 * gw.2) (zip groups ws) + 6 * how_many groups
    <= total (fun g : N * list (N * list N) => 12 + 8 * how_many g.2) groups).
  { assert (Hc : forall g, g ∈ zip groups ws -> how_many g.1.2 < 2 ^ 32).
    { intros [g w] Hi. assert (5 <= w).
      { pose proof (elem_of_zip_r _ _ _ _ Hi) as Hw. apply elem_of_list_lookup_1 in Hw as [i Hw].
        destruct (Forall2_lookup_r _ _ _ _ _ H3 Hw) as (? & _ & ?). lia. }
      apply (total_ge (fun gw : (N * list (N * list N)) * N =>
               leb_size (how_many gw.1.2) + 1 + how_many gw.1.2 * gw.2)) in Hi.
      cbn beta iota zeta in Hi. cbn [fst snd] in *. nia. }
    clear -H3 Hc. induction H3 as [|g w groups ws Hw H3 IH]; [done|].
    pose proof (IH ltac:(intros; apply Hc; by right)) as IH'. clear IH.
    pose proof (leb_size_le _ (Hc (g, w) ltac:(left))) as H5. cbn [fst snd] in H5.
    unfold how_many, total in *. cbn [length zip zip_with fold_right fst snd]. nia. }
  assert (leb_size (how_many groups) <= 5) by (apply leb_size_le; lia).
  lia.
Qed.

(** In particular: at most 5 bytes and 4 for each id for each different id list, 8 bytes for
    each cell, 12 for each pair of relevance and score, and 9. *)
Theorem C84_bound : forall o ops s kb v groups lists,
  history_ok ops -> loaded ops = [] \/ bins_ok ops -> built o ops s ->
  st_db s !! kb = Some v -> kb <> bounds_name -> record_laid v groups ->
  NoDup lists -> (forall ids, ids ∈ lists <-> ids ∈ lists_of groups) ->
  how_many v <= 9 + total (fun ids => 5 + 4 * how_many ids) lists +
    total (fun g : N * list (N * list N) => 12 + 8 * how_many g.2) groups.
Proof.
  intros o ops s kb v groups lists Hh Hbins Hb Hv Hkb Hl Hnd Hls.
  destruct (value_form o ops s kb v) as (be & -> & Hwf & Hlen); try done.
  apply takes_le; [done| |done|done]. by apply enc_takes.
Qed.
Print Assumptions C84_bound.

(** Four cells in two groups with the same three ids: the ids stand once, 46 bytes. *)
Definition flat_ops : list op :=
  [OpInsert (7, 0) (mjoin (map (fun i => [GridEntry f_one 7 3 5 i 2; GridEntry f_one 7 3 6 i 2; GridEntry f_one 7 4 6 i 2;
                                          GridEntry f_06 1 9 9 i 2]) [11; 12; 13]))].
Definition flat_groups : list (N * list (N * list N)) :=
  let ids := [13 * 256 + 2; 12 * 256 + 2; 11 * 256 + 2] in
  [(16 * 3 + 7, [(56, ids); (45, ids); (39, ids)]); (16 * 1 + 1, [(195, ids)])].
Example C84_ex :
  history_ok flat_ops /\ loaded flat_ops = [] /\ built id_oracle flat_ops (ex_store flat_ops) /\
  exists v, st_db (ex_store flat_ops) !! [0; 0; 0; 0; 7; 0] = Some v /\ [0; 0; 0; 0; 7; 0] <> bounds_name /\
    record_laid v flat_groups /\ takes v flat_groups /\ how_many v = 46 /\
    46 = (1 + 4 * 3) + ((1 + 1 + 3 * 5) + (1 + 1 + 1 * 5)) + 1 + (2 + 2) + 4.
Proof.
  assert (Hh : history_ok flat_ops) by (apply history_okb_ok; vm_compute; reflexivity).
  assert (Hb : built id_oracle flat_ops (ex_store flat_ops)) by (apply built_run; vm_compute; reflexivity).
  assert (Hv : st_db (ex_store flat_ops) !! [0; 0; 0; 0; 7; 0] = Some (encode_record flat_groups)) by (vm_compute; reflexivity).
  assert (Hl : record_laid (encode_record flat_groups) flat_groups).
  { apply encode_laid; [|vm_compute; reflexivity]. repeat (constructor || split). }
  split; [done|]. split; [done|]. split; [done|]. exists (encode_record flat_groups).
  split; [done|]. split; [done|]. split; [done|]. split; [|split; vm_compute; reflexivity].
  apply (C84_size id_oracle flat_ops (ex_store flat_ops) [0; 0; 0; 0; 7; 0]); [done|by left|done..].
Qed.
