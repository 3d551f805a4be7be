(** Bit-level facts: the Z-order code, packed ids and relevance/score bytes, and
    the key codec. *)
From Verif Require Import Prelude Lists F64 Common Morton Format Format_proofs Builder Store Spec.
Local Open Scope N_scope.

(** ** Z-order code *)
Lemma spread_double n : spread (2 * n) = 4 * spread n.
Proof. destruct n; reflexivity. Qed.
Lemma spread_succ_double n : spread (2 * n + 1) = 4 * spread n + 1.
Proof. destruct n; reflexivity. Qed.

Lemma testbit_4mul m i : N.testbit (4 * m) (N.succ (N.succ i)) = N.testbit m i.
Proof.
  replace (4 * m) with (2 * (2 * m)) by lia.
  by rewrite N.testbit_even_succ, N.testbit_even_succ by lia.
Qed.
Lemma testbit_4mul1 m i : N.testbit (4 * m + 1) (N.succ (N.succ i)) = N.testbit m i.
Proof.
  replace (4 * m + 1) with (2 * (2 * m) + 1) by lia.
  by rewrite N.testbit_odd_succ, N.testbit_even_succ by lia.
Qed.

Lemma spread_even_bit n i : N.testbit (spread n) (2 * i) = N.testbit n i.
Proof.
  revert i. induction n as [|n IH|n IH] using N.binary_ind; intros i; rewrite ?N.double_spec, ?N.succ_double_spec.
  - change (spread 0) with 0. by rewrite !N.bits_0.
  - rewrite spread_double. destruct i as [|i] using N.peano_ind.
    + change (2 * 0) with 0.
      replace (4 * spread n) with (2 * (2 * spread n)) by lia. by rewrite !N.testbit_even_0.
    + replace (2 * N.succ i) with (N.succ (N.succ (2 * i))) by lia.
      rewrite testbit_4mul, IH, N.testbit_even_succ by lia. done.
  - rewrite spread_succ_double. destruct i as [|i] using N.peano_ind.
    + change (2 * 0) with 0.
      replace (4 * spread n) with (2 * (2 * spread n)) by lia. by rewrite !N.testbit_odd_0.
    + replace (2 * N.succ i) with (N.succ (N.succ (2 * i))) by lia.
      rewrite testbit_4mul1, IH, N.testbit_odd_succ by lia. done.
Qed.
Lemma spread_odd_bit n i : N.testbit (spread n) (2 * i + 1) = false.
Proof.
  revert i. induction n as [|n IH|n IH] using N.binary_ind; intros i; rewrite ?N.double_spec, ?N.succ_double_spec.
  - change (spread 0) with 0. by rewrite !N.bits_0.
  - rewrite spread_double. destruct i as [|i] using N.peano_ind.
    + replace (2 * 0 + 1) with (N.succ 0) by lia.
      replace (4 * spread n) with (2 * (2 * spread n)) by lia.
      by rewrite N.testbit_even_succ, N.testbit_even_0 by lia.
    + replace (2 * N.succ i + 1) with (N.succ (N.succ (2 * i + 1))) by lia.
      by rewrite testbit_4mul, IH.
  - rewrite spread_succ_double. destruct i as [|i] using N.peano_ind.
    + replace (2 * 0 + 1) with (N.succ 0) by lia.
      replace (4 * spread n) with (2 * (2 * spread n)) by lia.
      by rewrite N.testbit_odd_succ, N.testbit_even_0 by lia.
    + replace (2 * N.succ i + 1) with (N.succ (N.succ (2 * i + 1))) by lia.
      by rewrite testbit_4mul1, IH.
Qed.

Lemma even_or_odd n : exists i, n = 2 * i \/ n = 2 * i + 1.
Proof. destruct (N.Even_or_Odd n) as [[i ->]|[i ->]]; exists i; [by left|by right]. Qed.

Lemma interleave_lor x y : interleave x y = N.lor (spread x) (N.shiftl (spread y) 1).
Proof.
  unfold interleave. rewrite N.shiftl_mul_pow2, N.mul_comm. change (2 ^ 1) with 2.
  rewrite N.add_nocarry_lxor, N.lxor_lor; [done|..].
  all: apply N.bits_inj; intros n; rewrite N.land_spec, N.bits_0.
  all: destruct (even_or_odd n) as [i [->| ->]]; [|by rewrite spread_odd_bit].
  all: rewrite andb_false_iff; right; rewrite (N.mul_comm _ 2);
    destruct i as [|i] using N.peano_ind; [apply N.testbit_even_0|].
  all: replace (2 * N.succ i) with (N.succ (2 * i + 1)) by lia;
    rewrite N.testbit_even_succ by lia; apply spread_odd_bit.
Qed.

Theorem interleave_x_bit x y i : N.testbit (interleave x y) (2 * i) = N.testbit x i.
Proof.
  rewrite interleave_lor, N.lor_spec, spread_even_bit.
  destruct i as [|i] using N.peano_ind.
  - rewrite N.shiftl_spec_low by lia. by rewrite orb_false_r.
  - rewrite N.shiftl_spec_high' by lia.
    replace (2 * N.succ i - 1) with (2 * i + 1) by lia. by rewrite spread_odd_bit, orb_false_r.
Qed.
Theorem interleave_y_bit x y i : N.testbit (interleave x y) (2 * i + 1) = N.testbit y i.
Proof.
  rewrite interleave_lor, N.lor_spec, spread_odd_bit. rewrite N.shiftl_spec_high' by lia.
  replace (2 * i + 1 - 1) with (2 * i) by lia. by rewrite spread_even_bit.
Qed.

Lemma testbit_xO p j : N.testbit (N.pos (xO p)) (N.succ j) = N.testbit (N.pos p) j.
Proof. change (N.pos (xO p)) with (2 * N.pos p). by rewrite N.testbit_even_succ by lia. Qed.
Lemma testbit_xI p j : N.testbit (N.pos (xI p)) (N.succ j) = N.testbit (N.pos p) j.
Proof. change (N.pos (xI p)) with (2 * N.pos p + 1). by rewrite N.testbit_odd_succ by lia. Qed.
Lemma testbit_1 j : N.testbit 1 (N.succ j) = false.
Proof. change 1 with (2 * 0 + 1). rewrite N.testbit_odd_succ by lia. apply N.bits_0. Qed.

Lemma evens_pos_bit : forall p i, N.testbit (evens_pos p) i = N.testbit (Npos p) (2 * i).
Proof.
  fix IH 1. intros p i. destruct p as [[q|q|]|[q|q|]|].
  all: destruct i as [|i] using N.peano_ind;
    [|replace (2 * N.succ i) with (N.succ (N.succ (2 * i))) by lia].
  all: cbn [evens_pos]; rewrite ?N.double_spec, ?N.succ_double_spec.
  all: try (rewrite N.testbit_odd_succ by lia); try (rewrite N.testbit_even_succ by lia).
  all: rewrite ?testbit_xO, ?testbit_xI, ?testbit_1, ?N.bits_0, ?testbit_xO, ?testbit_xI, ?testbit_1.
  all: try reflexivity; try apply IH.
  all: change (2 * 0) with 0; rewrite ?N.testbit_odd_0, ?N.testbit_even_0; reflexivity.
Qed.
Lemma evens_bit n i : N.testbit (evens n) i = N.testbit n (2 * i).
Proof. destruct n; [done|]. apply evens_pos_bit. Qed.

Lemma div2_bit n i : N.testbit (N.div2 n) i = N.testbit n (i + 1).
Proof. by rewrite N.div2_spec, N.shiftr_spec by lia. Qed.

Theorem deinterleave_interleave x y : deinterleave (interleave x y) = (x, y).
Proof.
  unfold deinterleave. f_equal; apply N.bits_inj; intros i; rewrite evens_bit.
  - apply interleave_x_bit.
  - rewrite div2_bit. apply interleave_y_bit.
Qed.
Theorem interleave_deinterleave c : let '(x, y) := deinterleave c in interleave x y = c.
Proof.
  unfold deinterleave. apply N.bits_inj. intros n. destruct (even_or_odd n) as [i [->| ->]].
  - by rewrite interleave_x_bit, evens_bit.
  - by rewrite interleave_y_bit, evens_bit, div2_bit.
Qed.

Lemma lt_pow2_bits n k : n < 2 ^ k <-> forall i, k <= i -> N.testbit n i = false.
Proof.
  split.
  - intros H i Hi. destruct (N.eq_dec n 0) as [->|Hn]; [apply N.bits_0|].
    apply N.bits_above_log2. apply N.lt_le_trans with k; [|done]. apply N.log2_lt_pow2; lia.
  - intros H. destruct (N.eq_dec n 0) as [->|Hn]; [apply N.neq_0_lt_0, N.pow_nonzero; lia|].
    apply N.log2_lt_pow2; [lia|]. destruct (N.lt_ge_cases (N.log2 n) k) as [?|Hge]; [done|].
    specialize (H _ Hge). by rewrite N.bit_log2 in H.
Qed.

Lemma interleave_lt x y k : x < 2 ^ k -> y < 2 ^ k -> interleave x y < 2 ^ (2 * k).
Proof.
  rewrite !lt_pow2_bits. intros Hx Hy n Hn. destruct (even_or_odd n) as [i [->| ->]].
  - rewrite interleave_x_bit. apply Hx. lia.
  - rewrite interleave_y_bit. apply Hy. lia.
Qed.
Lemma deinterleave_lt c k :
  c < 2 ^ (2 * k) -> (deinterleave c).1 < 2 ^ k /\ (deinterleave c).2 < 2 ^ k.
Proof.
  rewrite !lt_pow2_bits. intros H. split; intros i Hi; simpl; rewrite evens_bit.
  - apply H. lia.
  - rewrite div2_bit. apply H. lia.
Qed.
Lemma interleave_inj x y x' y' : interleave x y = interleave x' y' -> x = x' /\ y = y'.
Proof.
  intros H. apply (f_equal deinterleave) in H. rewrite !deinterleave_interleave in H.
  by injection H.
Qed.

(** ** Packing *)
Lemma lor_low a b k : b < 2 ^ k -> N.lor (a * 2 ^ k) b = a * 2 ^ k + b.
Proof.
  intros Hb. rewrite <- N.shiftl_mul_pow2.
  rewrite N.add_nocarry_lxor, N.lxor_lor; [done|..].
  all: apply N.bits_inj; intros n; rewrite N.land_spec, N.bits_0.
  all: destruct (N.lt_ge_cases n k); [by rewrite N.shiftl_spec_low|].
  all: rewrite lt_pow2_bits in Hb; rewrite (Hb n) by done; apply andb_false_r.
Qed.
Lemma land_ones_low a b k : b < 2 ^ k -> N.land (a * 2 ^ k + b) (2 ^ k - 1) = b.
Proof.
  intros Hb. replace (2 ^ k - 1) with (N.ones k) by (rewrite N.ones_equiv; lia).
  rewrite N.land_ones, N.add_comm, N.mod_add, N.mod_small; [done|done|]. apply N.pow_nonzero. lia.
Qed.
Lemma shiftr_low a b k : b < 2 ^ k -> N.shiftr (a * 2 ^ k + b) k = a.
Proof.
  intros Hb. rewrite N.shiftr_div_pow2, N.add_comm, N.div_add, N.div_small; [done|done|].
  apply N.pow_nonzero. lia.
Qed.

Lemma relev_int_lt r : relev_float_to_int r <= 3.
Proof. unfold relev_float_to_int. repeat case_match; lia. Qed.
Lemma pack_rs_add r s : s <= 15 -> pack_rs r s = relev_float_to_int r * 2 ^ 4 + s.
Proof.
  intros Hs. pose proof (relev_int_lt r). unfold pack_rs, as_u8.
  rewrite N.shiftl_mul_pow2, N.mod_small by (change (2 ^ 4) with 16; change (2 ^ 8) with 256; lia).
  apply lor_low. change (2 ^ 4) with 16. lia.
Qed.
Lemma pack_id_add i h : h < 2 ^ 8 -> pack_id i h = (i mod 2 ^ 24) * 2 ^ 8 + h.
Proof.
  intros Hh. unfold pack_id, as_u32. rewrite N.shiftl_mul_pow2.
  change (2 ^ 32) with (2 ^ 24 * 2 ^ 8). rewrite N.mul_mod_distr_r by done. by apply lor_low.
Qed.
Lemma pack_rs_lt r s : s <= 15 -> pack_rs r s < 2 ^ 8.
Proof.
  intros H. rewrite pack_rs_add by done. pose proof (relev_int_lt r).
  change (2 ^ 4) with 16. change (2 ^ 8) with 256. lia.
Qed.
Lemma pack_id_lt i h : h < 2 ^ 8 -> pack_id i h < 2 ^ 32.
Proof.
  intros H. rewrite pack_id_add by done. pose proof (N.mod_lt i (2 ^ 24) ltac:(done)).
  change (2 ^ 24) with 16777216 in *. change (2 ^ 8) with 256 in *. change (2 ^ 32) with 4294967296.
  lia.
Qed.

Lemma unpack_relev_int r : relev_int_to_float (relev_float_to_int r) = snap_relev r.
Proof.
  unfold relev_float_to_int, snap_relev, relev_levels. simpl List.find.
  fold f_04 f_06 f_08. repeat case_match; reflexivity.
Qed.
Lemma unpack_relev_pack r s : s <= 15 -> unpack_relev (pack_rs r s) = snap_relev r.
Proof.
  intros H. unfold unpack_relev. rewrite pack_rs_add by done. rewrite shiftr_low.
  - apply unpack_relev_int.
  - change (2 ^ 4) with 16. lia.
Qed.
Lemma unpack_score_pack r s : s <= 15 -> unpack_score (pack_rs r s) = s.
Proof.
  intros H. unfold unpack_score. rewrite pack_rs_add by done. apply (land_ones_low _ _ 4).
  change (2 ^ 4) with 16. lia.
Qed.
Lemma unpack_id_pack i h : h < 2 ^ 8 -> unpack_id (pack_id i h) = i mod 2 ^ 24.
Proof. intros H. unfold unpack_id. rewrite pack_id_add by done. by apply shiftr_low. Qed.
Lemma unpack_hash_pack i h : h < 2 ^ 8 -> unpack_hash (pack_id i h) = h.
Proof.
  intros H. unfold unpack_hash. rewrite pack_id_add by done. by apply (land_ones_low _ _ 8).
Qed.

(** ** Big-endian bytes *)
Lemma be_bytes_length n v : length (be_bytes n v) = n.
Proof. unfold be_bytes. by rewrite rev_length, le_bytes_length. Qed.
Lemma be_bytes_byte n v : Forall (fun b => b < 256) (be_bytes n v).
Proof. unfold be_bytes. apply List.Forall_rev, le_bytes_byte. Qed.
Lemma be_value_be_bytes n v : v < 256 ^ N.of_nat n -> be_value (be_bytes n v) = v.
Proof. intros H. unfold be_value, be_bytes. rewrite rev_involutive. by apply le_value_le_bytes. Qed.
Lemma be_bytes_inj n v w :
  v < 256 ^ N.of_nat n -> w < 256 ^ N.of_nat n -> be_bytes n v = be_bytes n w -> v = w.
Proof. intros Hv Hw E. by rewrite <- (be_value_be_bytes n v), E, be_value_be_bytes. Qed.

Lemma le_value_app a b : le_value (a ++ b) = le_value a + 256 ^ N.of_nat (length a) * le_value b.
Proof.
  induction a as [|x a IH]; cbn [le_value app length].
  - change (256 ^ N.of_nat 0) with 1. lia.
  - rewrite IH. rewrite Nat2N.inj_succ, N.pow_succ_r'. lia.
Qed.
Lemma le_value_lt s : Forall (fun b => b < 256) s -> le_value s < 256 ^ N.of_nat (length s).
Proof.
  induction 1 as [|b s Hb Hs IH]; cbn [le_value length]; [done|].
  rewrite Nat2N.inj_succ, N.pow_succ_r'. lia.
Qed.
Lemma be_value_app a b : be_value (a ++ b) = be_value a * 256 ^ N.of_nat (length b) + be_value b.
Proof. unfold be_value. rewrite rev_app_distr, le_value_app, rev_length. lia. Qed.
Lemma be_value_cons0 s : be_value (0 :: s) = be_value s.
Proof. change (0 :: s) with ([0] ++ s). rewrite be_value_app. change (be_value [0]) with 0. lia. Qed.
Lemma be_value_zeros k s : be_value (replicate k 0 ++ s) = be_value s.
Proof. induction k as [|k IH]; [done|]. simpl. by rewrite be_value_cons0. Qed.
Lemma be_value_skip s : be_value (skip_while (fun b => b =? 0) s) = be_value s.
Proof.
  induction s as [|b s IH]; cbn [skip_while]; [done|]. destruct (b =? 0) eqn:E; [|done].
  apply N.eqb_eq in E as ->. by rewrite be_value_cons0.
Qed.
Lemma skip_while_length {A} f (s : list A) : (length (skip_while f s) <= length s)%nat.
Proof. induction s as [|b s IH]; simpl; [lia|]. destruct (f b); simpl; lia. Qed.

(** ** Keys *)
Lemma lang_bytes_length l : (length (lang_bytes l) <= 16)%nat.
Proof.
  pose proof (skip_while_length (fun b => b =? 0) (be_bytes 16 l)) as H. rewrite be_bytes_length in H.
  unfold lang_bytes. repeat case_match; cbn [length]; lia.
Qed.
Lemma lang_bytes_nil l : l < 2 ^ 128 -> lang_bytes l = [] <-> l = u128_max.
Proof.
  intros Hl. unfold lang_bytes. destruct (l =? u128_max) eqn:E1; [split; [intros; lia|done]|].
  apply N.eqb_neq in E1. split; [|done]. destruct (l =? 0) eqn:E2; [done|].
  intros H. apply (f_equal be_value) in H. rewrite be_value_skip, be_value_be_bytes in H by done.
  apply N.eqb_neq in E2. by rewrite H in E2.
Qed.
Lemma lang_bytes_value l : l < 2 ^ 128 -> l <> u128_max -> be_value (lang_bytes l) = l.
Proof.
  intros Hl Hne. unfold lang_bytes. destruct (l =? u128_max) eqn:E1; [lia|].
  destruct (l =? 0) eqn:E2; [apply N.eqb_eq in E2; by rewrite E2|].
  by rewrite be_value_skip, be_value_be_bytes.
Qed.
Lemma read_lang_bytes l : l < 2 ^ 128 -> l <> u128_max -> read_lang (lang_bytes l) = Ok l.
Proof.
  intros Hl Hne. unfold read_lang. pose proof (lang_bytes_length l) as HL.
  replace (16 <? length (lang_bytes l))%nat with false by (symmetry; apply Nat.ltb_ge; lia).
  rewrite be_value_zeros. by rewrite lang_bytes_value.
Qed.

Lemma write_key_split m k : write_key m k = [marker_byte m] ++ be_bytes 4 (gk_phrase k) ++ lang_bytes (gk_lang k).
Proof. done. Qed.
Lemma write_key_drop5 m k : slice_from (write_key m k) 5 = Ok (lang_bytes (gk_lang k)).
Proof.
  rewrite write_key_split, app_assoc. eapply slice_from_app'; [done|].
  by rewrite app_length, be_bytes_length.
Qed.
Lemma read_key_phrase_write m k :
  gk_phrase k < 2 ^ 32 -> read_key_phrase (write_key m k) = Ok (gk_phrase k).
Proof.
  intros H. unfold read_key_phrase. rewrite write_key_split.
  rewrite (slice_from_app' _ [marker_byte m] (be_bytes 4 (gk_phrase k) ++ lang_bytes (gk_lang k)))
    by done. cbn [res_bind].
  rewrite app_length, be_bytes_length.
  replace (4 + length (lang_bytes (gk_lang k)) <? 4)%nat with false
    by (symmetry; apply Nat.ltb_ge; lia).
  rewrite take_app_alt by by rewrite be_bytes_length. by rewrite be_value_be_bytes.
Qed.
Lemma read_key_write m k : key_ok k -> read_key (write_key m k) = Ok k.
Proof.
  intros [H1 H2]. unfold read_key. rewrite read_key_phrase_write by done. cbn [res_bind].
  rewrite write_key_drop5. cbn [res_bind]. destruct k as [ph l]; unfold gk_phrase, gk_lang in *; simpl in *.
  destruct (lang_bytes l) as [|b bs] eqn:E.
  - apply lang_bytes_nil in E as ->; done.
  - rewrite <- E. rewrite read_lang_bytes; [done|done|]. intros ->. apply (lang_bytes_nil u128_max) in H2.
    rewrite E in H2. by destruct H2 as [_ H2]; specialize (H2 eq_refl).
Qed.
Theorem write_key_inj m m' k k' :
  key_ok k -> key_ok k' -> write_key m k = write_key m' k' -> m = m' /\ k = k'.
Proof.
  intros H H' E. split.
  - apply (f_equal head) in E. destruct m, m'; done.
  - apply (f_equal read_key) in E. rewrite !read_key_write in E by done. congruence.
Qed.
Lemma write_key_bounds m k : write_key m k <> bounds_key.
Proof. intros E. apply (f_equal head) in E. by destruct m. Qed.
