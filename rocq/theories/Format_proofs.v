(** Reading back what the writers of [Format] produce. *)
From Verif Require Import Prelude Lists Format.
Local Open Scope N_scope.

Lemma le_bytes_length n v : length (le_bytes n v) = n.
Proof. revert v. induction n; intros v; simpl; [done|]. by rewrite IHn. Qed.

Lemma le_bytes_byte n v : Forall (fun b => b < 256) (le_bytes n v).
Proof.
  revert v. induction n; intros v; simpl; constructor; [|auto].
  apply N.mod_lt. lia.
Qed.

Lemma le_value_le_bytes n v : v < 256 ^ N.of_nat n -> le_value (le_bytes n v) = v.
Proof.
  revert v. induction n as [|n IH]; intros v Hv; cbn [le_bytes le_value].
  - change (256 ^ N.of_nat 0) with 1 in Hv. lia.
  - rewrite IH.
    + rewrite N.add_comm. symmetry. apply N.div_mod. lia.
    + rewrite Nat2N.inj_succ, N.pow_succ_r' in Hv. apply N.div_lt_upper_bound; lia.
Qed.

Lemma take_le_bytes k n v : (k <= n)%nat -> take k (le_bytes n v) = le_bytes k v.
Proof.
  revert n v. induction k as [|k IH]; intros n v Hk; [done|].
  destruct n as [|n]; [lia|]. simpl. rewrite IH by lia. done.
Qed.

Lemma le_bytes_inj n v w :
  v < 256 ^ N.of_nat n -> w < 256 ^ N.of_nat n -> le_bytes n v = le_bytes n w -> v = w.
Proof. intros Hv Hw E. rewrite <- (le_value_le_bytes n v), E by done. by apply le_value_le_bytes. Qed.

(** ** Varints *)
Lemma varint_enc_nonempty f n : varint_enc f n <> [].
Proof. destruct f; simpl; destruct (n <? 128); done. Qed.

Lemma varint_dec_enc f n rest :
  n < 128 ^ N.succ (N.of_nat f) ->
  varint_dec f (varint_enc f n ++ rest) = (n, length (varint_enc f n)).
Proof.
  revert n. induction f as [|f IH]; intros n Hn; cbn [varint_enc].
  - change (128 ^ N.succ (N.of_nat 0)) with 128 in Hn.
    destruct (N.ltb_spec n 128); [|lia]. simpl. destruct (N.ltb_spec n 128); [done|lia].
  - destruct (N.ltb_spec n 128) as [Hlt|Hge].
    + simpl. destruct (N.ltb_spec n 128); [done|lia].
    + cbn [app varint_dec].
      pose proof (N.le_0_l (n mod 128)).
      replace (n mod 128 + 128 <? 128) with false by (symmetry; apply N.ltb_ge; lia).
      rewrite IH.
      * cbn [length]. f_equal.
        rewrite N.add_mod, N.mod_same, N.add_0_r, !N.mod_mod by lia.
        rewrite N.add_comm. symmetry. apply N.div_mod. lia.
      * rewrite Nat2N.inj_succ, N.pow_succ_r' in Hn. apply N.div_lt_upper_bound; lia.
Qed.

Lemma decode_encode_var n rest :
  n < 2 ^ 32 -> decode_var (encode_var n ++ rest) = (n, length (encode_var n)).
Proof.
  intros Hn. unfold decode_var, encode_var, as_u32. rewrite (N.mod_small n) by done.
  rewrite varint_dec_enc.
  - rewrite N.mod_small by done. done.
  - eapply N.lt_trans; [exact Hn|]. vm_compute. done.
Qed.

Lemma encode_var_nonempty n : (1 <= length (encode_var n))%nat.
Proof.
  unfold encode_var. pose proof (varint_enc_nonempty 9 (as_u32 n)).
  destruct (varint_enc 9 (as_u32 n)); simpl in *; [done|lia].
Qed.

(** ** Slices *)
Lemma slice_mid {A} (pre mid post : list A) :
  slice (pre ++ mid ++ post) (length pre) (length mid) = Ok mid.
Proof.
  unfold slice. rewrite !app_length. destruct (_ <=? _)%nat eqn:E.
  - rewrite drop_app, take_app. done.
  - apply Nat.leb_gt in E. lia.
Qed.
Lemma slice_mid' {A} (data pre mid post : list A) off n :
  data = pre ++ mid ++ post -> off = length pre -> n = length mid ->
  slice data off n = Ok mid.
Proof. intros -> -> ->. apply slice_mid. Qed.
Lemma slice_from_app {A} (pre post : list A) :
  slice_from (pre ++ post) (length pre) = Ok post.
Proof.
  unfold slice_from. rewrite app_length. destruct (_ <=? _)%nat eqn:E.
  - by rewrite drop_app.
  - apply Nat.leb_gt in E. lia.
Qed.
Lemma slice_from_app' {A} (data pre post : list A) off :
  data = pre ++ post -> off = length pre -> slice_from data off = Ok post.
Proof. intros -> ->. apply slice_from_app. Qed.
Lemma index_app {A} (pre : list A) a post : index (pre ++ a :: post) (length pre) = Ok a.
Proof. unfold index. rewrite list_lookup_middle by done. done. Qed.

Lemma res_mapM_seq {B} (f : nat -> res B) (s : list B) :
  (forall i x, s !! i = Some x -> f i = Ok x) -> res_mapM f (seq 0 (length s)) = Ok s.
Proof.
  intros H. apply res_mapM_Ok. apply Forall2_same_length_lookup. split.
  - by rewrite seq_length.
  - intros i x y Hx Hy. apply lookup_seq in Hx as [-> _]. by apply H.
Qed.

Lemma split_chunk {A} (cs : list (list A)) k i c :
  Forall (fun c => length c = k) cs -> cs !! i = Some c ->
  exists a b, mjoin cs = a ++ c ++ b /\ length a = (i * k)%nat.
Proof.
  revert i. induction cs as [|d cs IH]; intros i Hk Hi; [done|].
  inversion Hk as [|? ? Hd Hk']; subst. destruct i as [|i]; simpl in *.
  - injection Hi as ->. by exists [], (mjoin cs).
  - destruct (IH i Hk' Hi) as (a & b & E & Ha). exists (d ++ a), b. rewrite E.
    rewrite <- app_assoc. split; [done|]. rewrite app_length, Ha. done.
Qed.

(** ** Vector headers *)
Lemma read_vec_header_ok {A} (data pre : bytes) (s : list A) post addr :
  data = pre ++ vec_len_prefix s ++ post -> addr = N.of_nat (length pre) ->
  N.of_nat (length s) < 2 ^ 32 ->
  read_vec_header data addr = Ok (length s, (length pre + length (vec_len_prefix s))%nat).
Proof.
  intros -> -> Hs. unfold read_vec_header. rewrite Nat2N.id, slice_from_app.
  cbn [res_bind]. unfold vec_len_prefix. rewrite decode_encode_var by done.
  by rewrite Nat2N.id.
Qed.

(** ** Fixed vectors *)
Definition enc_fixed (s : list N) : bytes := vec_len_prefix s ++ mjoin (map (le_bytes 4) s).

Lemma read_fixed_vec_ok data pre s post addr :
  data = pre ++ enc_fixed s ++ post -> addr = N.of_nat (length pre) ->
  N.of_nat (length s) < 2 ^ 32 -> Forall (fun v => v < 2 ^ 32) s ->
  read_fixed_vec data addr = Ok s.
Proof.
  intros Hd Ha Hlen Hs. unfold read_fixed_vec, enc_fixed in *.
  erewrite (read_vec_header_ok (A := N)); [|rewrite Hd, <- app_assoc; done|done|done].
  cbn [res_bind]. apply res_mapM_seq. intros i x Hx.
  destruct (split_chunk (map (le_bytes 4) s) 4 i (le_bytes 4 x)) as (a & b & E & Hl).
  { apply Forall_forall. intros c (v & -> & _)%elem_of_map. apply le_bytes_length. }
  { change (map (le_bytes 4) s) with (le_bytes 4 <$> s). by rewrite list_lookup_fmap, Hx. }
  erewrite (slice_mid' data (pre ++ vec_len_prefix s ++ a) (le_bytes 4 x) (b ++ post)).
  - cbn [res_bind]. rewrite le_value_le_bytes; [done|].
    rewrite Forall_forall in Hs. apply Hs. by eapply elem_of_list_lookup_2.
  - rewrite Hd, E. by rewrite <- !app_assoc.
  - rewrite !app_length. lia.
  - by rewrite le_bytes_length.
Qed.

(** ** Uniform vectors of coordinates *)
Definition coord_ok (c : coord) : Prop := c_coord c < 2 ^ 32 /\ c_ids c < 2 ^ 32.
Definition enc_uniform (s : list coord) : bytes :=
  vec_len_prefix s ++ [as_u8 (uniform_rec_size s)] ++
  mjoin (map (write_coord (uniform_rec_size s)) s).

Lemma coord_min_size_spec c :
  c_ids c < 2 ^ 32 -> 5 <= coord_min_size c <= 8 /\ c_ids c < 256 ^ (coord_min_size c - 4).
Proof.
  intros H. unfold coord_min_size.
  repeat case_match; (split; [lia|]);
    repeat match goal with H : (_ <=? _) = true |- _ => apply N.leb_le in H end;
    match goal with |- _ < ?x => let y := eval vm_compute in x in change x with y end; lia.
Qed.

Lemma max_ge l : forall x, x ∈ l -> x <= fold_right N.max 0 l.
Proof.
  induction l as [|a l IH]; intros x Hx; simpl; [by apply elem_of_nil in Hx|].
  apply elem_of_cons in Hx as [->|Hx]; [lia|]. specialize (IH _ Hx). lia.
Qed.
Lemma max_le l b : (forall x, x ∈ l -> x <= b) -> fold_right N.max 0 l <= b.
Proof.
  induction l as [|a l IH]; intros H; simpl; [lia|].
  apply N.max_lub; [apply H; left|]. apply IH. intros. apply H. by right.
Qed.

Lemma uniform_rec_size_spec s c :
  Forall coord_ok s -> c ∈ s ->
  5 <= uniform_rec_size s <= 8 /\ c_ids c < 256 ^ (uniform_rec_size s - 4).
Proof.
  intros Hs Hc. rewrite Forall_forall in Hs.
  assert (E : uniform_rec_size s = fold_right N.max 0 (map coord_min_size s)).
  { destruct s; [by apply elem_of_nil in Hc|done]. }
  rewrite E. pose proof (coord_min_size_spec c (proj2 (Hs c Hc))) as [H1 H2].
  assert (H3 : coord_min_size c <= fold_right N.max 0 (map coord_min_size s)).
  { apply max_ge. apply elem_of_map. eauto. }
  assert (H4 : fold_right N.max 0 (map coord_min_size s) <= 8).
  { apply max_le. intros x (d & -> & Hd)%elem_of_map.
    pose proof (coord_min_size_spec d (proj2 (Hs d Hd))) as [??]. lia. }
  split; [lia|]. eapply N.lt_le_trans; [exact H2|]. apply N.pow_le_mono_r; lia.
Qed.

Lemma write_coord_eq size c :
  c_coord c < 2 ^ 32 -> c_ids c < 2 ^ 32 -> 4 <= size <= 8 ->
  write_coord size c = le_bytes 4 (c_coord c) ++ le_bytes (N.to_nat (size - 4)) (c_ids c).
Proof.
  intros H1 H2 H3. unfold write_coord, as_u32. rewrite !N.mod_small by done.
  rewrite take_le_bytes by lia. done.
Qed.

Lemma read_coord_ok data pre c size post :
  coord_ok c -> 5 <= size <= 8 -> c_ids c < 256 ^ (size - 4) ->
  data = pre ++ write_coord size c ++ post ->
  read_coord data (N.to_nat size) (length pre) = Ok c.
Proof.
  intros [H1 H2] H3 H4 Hd. unfold read_coord. rewrite write_coord_eq in Hd by (done || lia).
  erewrite (slice_mid' data pre (le_bytes 4 (c_coord c)));
    [|rewrite Hd, <- app_assoc; done|done|by rewrite le_bytes_length].
  cbn [res_bind].
  replace (N.to_nat size <? 4)%nat with false by (symmetry; apply Nat.ltb_ge; lia).
  replace (8 <? N.to_nat size)%nat with false by (symmetry; apply Nat.ltb_ge; lia).
  cbn [orb].
  erewrite (slice_mid' data (pre ++ le_bytes 4 (c_coord c))
                       (le_bytes (N.to_nat (size - 4)) (c_ids c)) post).
  - cbn [res_bind]. rewrite !le_value_le_bytes; [by destruct c|by rewrite N2Nat.id|done].
  - rewrite Hd. by rewrite <- !app_assoc.
  - rewrite app_length, le_bytes_length. lia.
  - rewrite le_bytes_length. lia.
Qed.

Lemma read_uniform_vec_ok data pre s post addr :
  data = pre ++ enc_uniform s ++ post -> addr = N.of_nat (length pre) ->
  N.of_nat (length s) < 2 ^ 32 -> Forall coord_ok s ->
  read_uniform_vec data addr = Ok s.
Proof.
  intros Hd Ha Hlen Hs. unfold read_uniform_vec, enc_uniform in *.
  erewrite (read_vec_header_ok (A := coord)); [|rewrite Hd, <- app_assoc; done|done|done].
  cbn [res_bind].
  assert (Hi : index data (length pre + length (vec_len_prefix s))
               = Ok (as_u8 (uniform_rec_size s))).
  { rewrite <- app_length, Hd. rewrite <- !app_assoc. rewrite app_assoc.
    apply index_app. }
  rewrite Hi. cbn [res_bind]. apply res_mapM_seq. intros i c Hc.
  pose proof (elem_of_list_lookup_2 _ _ _ Hc) as Hin.
  pose proof (uniform_rec_size_spec s c Hs Hin) as [Hsz Hid].
  assert (Hu8 : as_u8 (uniform_rec_size s) = uniform_rec_size s).
  { unfold as_u8. apply N.mod_small. change (2 ^ 8) with 256. lia. }
  rewrite Hu8.
  set (size := uniform_rec_size s) in *.
  destruct (split_chunk (map (write_coord size) s) (N.to_nat size) i (write_coord size c))
    as (a & b & E & Hl).
  { apply Forall_forall. intros x (v & -> & Hv)%elem_of_map.
    rewrite Forall_forall in Hs. destruct (Hs v Hv).
    rewrite write_coord_eq by (done || lia). rewrite app_length, !le_bytes_length. lia. }
  { change (map (write_coord size) s) with (write_coord size <$> s).
    by rewrite list_lookup_fmap, Hc. }
  replace (S (length pre + length (vec_len_prefix s)) + i * N.to_nat size)%nat
    with (length (pre ++ vec_len_prefix s ++ [as_u8 size] ++ a)).
  - eapply read_coord_ok; [|exact Hsz|exact Hid|].
    + rewrite Forall_forall in Hs. by apply Hs.
    + rewrite Hd, E. by rewrite <- !app_assoc.
  - rewrite !app_length. simpl. lia.
Qed.

(** ** Variable vectors *)
Definition rs_ok (r : relev_score) : Prop := rs_value r < 256 /\ rs_coords r < 2 ^ 32.
Definition enc_var (s : list relev_score) : bytes :=
  vec_len_prefix s ++ mjoin (map write_relev_score s).

Lemma read_var_items_ok data pre s post :
  data = pre ++ mjoin (map write_relev_score s) ++ post -> Forall rs_ok s ->
  read_var_items data (length pre) (length s) = Ok s.
Proof.
  revert pre. induction s as [|r s IH]; intros pre Hd Hs; [done|].
  inversion Hs as [|? ? [Hv Hc] Hs']; clear Hs.
  cbn [length read_var_items]. unfold read_relev_score.
  cbn [map mjoin list_join] in Hd. unfold write_relev_score in Hd at 1.
  assert (Hi : index data (length pre) = Ok (rs_value r)).
  { rewrite Hd. simpl. apply index_app. }
  rewrite Hi. cbn [res_bind].
  erewrite (slice_from_app' data (pre ++ [rs_value r])
    (encode_var (rs_coords r) ++ mjoin (map write_relev_score s) ++ post)).
  2: { rewrite Hd. simpl. rewrite <- !app_assoc. done. }
  2: { rewrite app_length. done. }
  cbn [res_bind]. rewrite decode_encode_var by done. cbn [res_bind].
  replace (length pre + (1 + length (encode_var (rs_coords r))))%nat
    with (length (pre ++ rs_value r :: encode_var (rs_coords r))).
  - rewrite IH; [by destruct r| |done]. rewrite Hd. simpl. rewrite <- !app_assoc. done.
  - rewrite app_length. simpl. lia.
Qed.

Lemma read_var_vec_ok data pre s post addr :
  data = pre ++ enc_var s ++ post -> addr = N.of_nat (length pre) ->
  N.of_nat (length s) < 2 ^ 32 -> Forall rs_ok s ->
  read_var_vec data addr = Ok s.
Proof.
  intros Hd Ha Hlen Hs. unfold read_var_vec, enc_var in *.
  erewrite (read_vec_header_ok (A := relev_score)); [|rewrite Hd, <- app_assoc; done|done|done].
  cbn [res_bind]. rewrite <- app_length. eapply read_var_items_ok; [|done].
  rewrite Hd. by rewrite <- !app_assoc.
Qed.

(** ** Root *)
Lemma read_root_ok w addr : addr < 2 ^ 32 -> read_root (write_root w addr) = Ok addr.
Proof.
  intros H. unfold read_root, write_root, as_u32. rewrite N.mod_small by done.
  rewrite app_length, le_bytes_length.
  replace (length w + 4 <? 4)%nat with false by (symmetry; apply Nat.ltb_ge; lia).
  erewrite (slice_mid' _ w (le_bytes 4 addr) []).
  - cbn [res_bind]. by rewrite le_value_le_bytes.
  - by rewrite app_nil_r.
  - lia.
  - by rewrite le_bytes_length.
Qed.
