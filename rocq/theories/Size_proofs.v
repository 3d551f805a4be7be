(** A bound on the size of a record in terms of the number of its entries. *)
From Verif Require Import Prelude Lists F64 Common Morton Format Format_proofs Builder Store
  Record_proofs Spec Bits_proofs Builder_proofs Finish_proofs Store_proofs.
Local Open Scope nat_scope.

Lemma varint_enc_length f n : length (varint_enc f n) <= S f.
Proof.
  revert n. induction f as [|f IH]; intros n; cbn [varint_enc]; destruct (_ <? _)%N; simpl; try lia.
  specialize (IH (n / 128)%N). lia.
Qed.
Lemma encode_var_length n : length (encode_var n) <= 10.
Proof. apply varint_enc_length. Qed.
Lemma mjoin_length_le {A} (cs : list (list A)) k :
  Forall (fun c => length c <= k) cs -> length (mjoin cs) <= k * length cs.
Proof. induction 1; simpl; [lia|]. rewrite app_length. lia. Qed.
Lemma enc_fixed_le s : length (enc_fixed s) <= 10 + 4 * length s.
Proof.
  unfold enc_fixed, vec_len_prefix. rewrite app_length.
  pose proof (encode_var_length (N.of_nat (length s))).
  pose proof (mjoin_length_le (map (le_bytes 4) s) 4) as H2. rewrite map_length in H2.
  assert (length (mjoin (map (le_bytes 4) s)) <= 4 * length s); [|lia].
  apply H2. apply Forall_forall. intros c (v & -> & _)%elem_of_map. by rewrite le_bytes_length.
Qed.
Lemma enc_uniform_le s : length (enc_uniform s) <= 11 + 8 * length s.
Proof.
  unfold enc_uniform, vec_len_prefix. rewrite !app_length. simpl.
  pose proof (encode_var_length (N.of_nat (length s))).
  pose proof (mjoin_length_le (map (write_coord (uniform_rec_size s)) s) 8) as H2. rewrite map_length in H2.
  assert (length (mjoin (map (write_coord (uniform_rec_size s)) s)) <= 8 * length s); [|lia].
  apply H2. apply Forall_forall. intros c (v & -> & _)%elem_of_map.
  unfold write_coord. rewrite app_length, le_bytes_length.
  pose proof (firstn_le_length (N.to_nat (uniform_rec_size s - 4)) (le_bytes 4 (as_u32 (c_ids v)))).
  pose proof (firstn_length (N.to_nat (uniform_rec_size s - 4)) (le_bytes 4 (as_u32 (c_ids v)))) as E.
  rewrite le_bytes_length in E. unfold take in *. lia.
Qed.
Lemma enc_var_le s : length (enc_var s) <= 10 + 11 * length s.
Proof.
  unfold enc_var, vec_len_prefix. rewrite !app_length.
  pose proof (encode_var_length (N.of_nat (length s))).
  pose proof (mjoin_length_le (map write_relev_score s) 11) as H2. rewrite map_length in H2.
  assert (length (mjoin (map write_relev_score s)) <= 11 * length s); [|lia].
  apply H2. apply Forall_forall. intros c (v & -> & _)%elem_of_map.
  unfold write_relev_score. simpl. pose proof (encode_var_length (rs_coords v)). lia.
Qed.

(** Total number of ids, of cells and of groups. *)
Definition cells_ids (cs : list (N * list N)) : nat := sum_list (map (fun c => length c.2) cs).
Definition rec_ids (n : list (N * list (N * list N))) : nat := sum_list (map (fun g => cells_ids g.2) n).
Definition rec_cells (n : list (N * list (N * list N))) : nat := sum_list (map (fun g => length g.2) n).

Lemma enc_cells_size l : forall w tbl coords w1 tbl1 coords1,
  foldl enc_cell (w, tbl, coords) l = (w1, tbl1, coords1) ->
  length w1 <= length w + 10 * length l + 4 * cells_ids l /\
  length coords1 = length coords + length l.
Proof.
  induction l as [|[z ids] l IH]; intros w tbl coords w1 tbl1 coords1 E; simpl in E.
  - injection E as -> -> ->. simpl. lia.
  - unfold cells_ids. simpl. fold (cells_ids l). pose proof (enc_fixed_le ids).
    destruct (tbl !! ids); apply IH in E as [E1 E2]; rewrite app_length in *; simpl in *;
      rewrite ?app_length in *; lia.
Qed.
Lemma enc_groups_size n : forall w tbl rss w1 tbl1 rss1,
  foldl enc_group (w, tbl, rss) n = (w1, tbl1, rss1) ->
  length w1 <= length w + 11 * length n + 18 * rec_cells n + 4 * rec_ids n /\
  length rss1 = length rss + length n.
Proof.
  induction n as [|[r cells] n IH]; intros w tbl rss w1 tbl1 rss1 E; cbn [foldl] in E.
  - injection E as -> -> ->. simpl. lia.
  - unfold rec_cells, rec_ids. simpl. fold (rec_cells n) (rec_ids n).
    unfold enc_group in E at 2. cbn [fst snd] in E.
    destruct (foldl enc_cell (w, tbl, []) cells) as [[w2 tbl2] coords] eqn:Ec.
    apply enc_cells_size in Ec as [C1 C2]. simpl in C2.
    apply IH in E as [E1 E2]. rewrite app_length in E1, E2. simpl in E2.
    pose proof (enc_uniform_le coords). lia.
Qed.
Lemma encode_record_size n :
  length (encode_record n) <= 14 + 22 * length n + 18 * rec_cells n + 4 * rec_ids n.
Proof.
  unfold encode_record. destruct (foldl enc_group _ n) as [[w tbl] rss] eqn:E.
  apply enc_groups_size in E as [E1 E2]. unfold write_root. rewrite !app_length, le_bytes_length.
  pose proof (enc_var_le rss). simpl in *. lia.
Qed.

Lemma rec_ids_triples n : rec_ids n = length (rec_triples n).
Proof.
  unfold rec_ids, rec_triples. induction n as [|[r cs] n IH]; simpl; [done|].
  rewrite app_length, IH. f_equal. unfold cells_ids.
  clear. induction cs as [|[z ids] cs IH]; simpl; [done|]. by rewrite app_length, map_length, IH.
Qed.
Lemma rec_cells_ids n :
  (forall r cs z ids, (r, cs) ∈ n -> (z, ids) ∈ cs -> ids <> []) -> rec_cells n <= rec_ids n.
Proof.
  unfold rec_cells, rec_ids. induction n as [|[r cs] n IH]; intros H; simpl; [lia|].
  assert (length cs <= cells_ids cs).
  { assert (Hc : forall z ids, (z, ids) ∈ cs -> ids <> []) by (intros z ids; apply (H r cs); left).
    clear -Hc. unfold cells_ids. induction cs as [|[z ids] cs IH]; simpl; [lia|].
    assert (ids <> []) by (apply (Hc z); left).
    assert (length cs <= sum_list (map (λ c : N * list N, length c.2) cs)).
    { apply IH. intros z' ids' Hin. apply (Hc z'). by right. }
    destruct ids; [done|]. simpl. lia. }
  assert (sum_list (map (λ g : N * list (N * list N), length g.2) n)
          <= sum_list (map (λ g : N * list (N * list N), cells_ids g.2) n)); [|lia].
  apply IH. intros r' cs' z ids Hin. apply (H r' cs'). by right.
Qed.

Lemma NoDup_incl_length {A} (l l' : list A) : NoDup l -> (forall x, x ∈ l -> x ∈ l') -> length l <= length l'.
Proof. intros Hnd H. apply submseteq_length. by apply NoDup_submseteq. Qed.

Lemma triple_before_irrefl a : ~ triple_before a a.
Proof. unfold triple_before, lex2, gt_N. intros H. lia. Qed.

Theorem enc_size be (l : list (N * N * N)) :
  be_semi be -> (forall rs z v, be_has be rs z v -> (rs, z, v) ∈ l) ->
  length (enc be) <= 14 + 22 * 256 + 22 * length l.
Proof.
  intros Hs Hl. unfold enc. pose proof (encode_record_size (norm be)) as Hsize.
  assert (Hg : length (norm be) <= 256).
  { assert (Hnd : NoDup (map (fun g : N * list (N * list N) => N.to_nat g.1) (norm be))).
    { eapply (StronglySorted_NoDup (fun a b => b < a)); [intros; lia|].
      apply StronglySorted_map. eapply StronglySorted_impl; [|apply norm_sorted].
      simpl. intros. lia. }
    rewrite <- (map_length (fun g : N * list (N * list N) => N.to_nat g.1)).
    rewrite <- (seq_length 256 0). apply NoDup_incl_length; [done|].
    intros x ([rs cs] & -> & Hin)%elem_of_map. apply elem_norm in Hin as (cells & Hc & _).
    apply Hs in Hc as [_ Hr]. apply elem_of_seq. simpl in *. change (2 ^ 8)%N with 256%N in Hr. lia. }
  assert (Hids : rec_ids (norm be) <= length l).
  { rewrite rec_ids_triples. apply NoDup_incl_length.
    - eapply StronglySorted_NoDup; [apply triple_before_irrefl|apply rec_triples_sorted].
    - intros [[rs z] v] H%elem_rec_triples. auto. }
  assert (Hcells : rec_cells (norm be) <= rec_ids (norm be)).
  { apply rec_cells_ids. intros r cs z ids H1 H2.
    apply elem_norm in H1 as (cells & Hc & ->). apply elem_norm_cells in H2 as (raw & Hz & ->).
    apply Hs in Hc as [Hf _]. apply Hf in Hz. destruct raw as [|v raw]; [done|].
    intros E. assert (Hv : v ∈ sort_ids (v :: raw)) by (rewrite sort_ids_elem; left).
    rewrite E in Hv. by apply elem_of_nil in Hv. }
  lia.
Qed.

Lemma holds_enc_size be es :
  be_semi be -> holds be es -> (N.of_nat (length es) <= 2 ^ 27)%N ->
  (N.of_nat (length (enc be)) < 2 ^ 32)%N.
Proof.
  intros Hs Hh Hlen. pose proof (enc_size be (map packed es) Hs) as H.
  rewrite map_length in H.
  assert (H' : length (enc be) <= 14 + 22 * 256 + 22 * length es).
  { apply H. intros rs z v Hhas. apply Hh in Hhas as (e & He & <-). apply elem_of_map. eauto. }
  change (2 ^ 27)%N with 134217728%N in Hlen. change (2 ^ 32)%N with 4294967296%N.
  assert (N.of_nat (length (enc be)) <= 14 + 22 * 256 + 22 * N.of_nat (length es))%N by lia. lia.
Qed.
