(** Towards C83: the writer and the readers against the layout of [Spec_disk]. *)
From Verif Require Import Prelude Lists F64 Heap Common Morton Format Format_proofs Builder Store Spec Spec_match
  Spec_disk Spec_rebuild Bits_proofs Record_proofs Builder_proofs Finish_proofs Store_proofs Order_proofs
  Bins_proofs Size_proofs History_proofs Query_proofs Binquery_proofs Rebuild_proofs.
From Coq Require Import Sorting.Sorted.
From Coq Require Import ZifyBool.
Local Open Scope N_scope.

(** ** Numbers *)
Lemma little_spec n v bs : little n v bs -> v < 256 ^ N.of_nat n /\ bs = le_bytes n v.
Proof.
  induction 1 as [|n v b bs Hb H [IH1 IH2]]; [done|]. cbn [le_bytes].
  rewrite Nat2N.inj_succ, N.pow_succ_r'. split; [lia|].
  rewrite (N.mul_comm 256 v), N.mod_add, N.mod_small by lia.
  rewrite N.div_add, N.div_small by lia. by rewrite N.add_0_l, <- IH2.
Qed.
Lemma le_bytes_little n v : v < 256 ^ N.of_nat n -> little n v (le_bytes n v).
Proof.
  revert v. induction n as [|n IH]; intros v Hv.
  - change (256 ^ N.of_nat 0) with 1 in Hv. replace v with 0 by lia. constructor.
  - rewrite Nat2N.inj_succ, N.pow_succ_r' in Hv. cbn [le_bytes].
    rewrite (N.div_mod' v 256) at 1. rewrite N.add_comm. constructor; [apply N.mod_lt; lia|].
    apply IH. apply N.div_lt_upper_bound; lia.
Qed.
Lemma little_value bs : Forall (fun b => b < 256) bs -> little (length bs) (le_value bs) bs.
Proof. induction 1; cbn [length le_value]; by constructor. Qed.
Lemma little_le_value n v bs : little n v bs -> le_value bs = v /\ length bs = n.
Proof. induction 1 as [|n v b bs Hb H [<- <-]]; done. Qed.

Lemma leb128_enc f v : v < 128 ^ N.succ (N.of_nat f) -> leb128 v (varint_enc f v).
Proof.
  revert v. induction f as [|f IH]; intros v Hv.
  - change (128 ^ N.succ (N.of_nat 0)) with 128 in Hv. cbn. replace (v <? 128) with true by lia. by constructor.
  - cbn [varint_enc]. destruct (v <? 128) eqn:E; [constructor; lia|].
    rewrite (N.div_mod' v 128) at 1. rewrite N.add_comm.
    rewrite Nat2N.inj_succ, N.pow_succ_r' in Hv. constructor; [apply N.mod_lt; lia| |].
    + assert (1 <= v / 128) by (apply N.div_le_lower_bound; lia). lia.
    + apply IH. apply N.div_lt_upper_bound; lia.
Qed.
Lemma leb128_unique v bs : leb128 v bs -> forall f, v < 128 ^ N.succ (N.of_nat f) -> bs = varint_enc f v.
Proof.
  induction 1 as [v Hv|b v bs Hb Hv H IH]; intros f Hf.
  - destruct f; cbn [varint_enc]; by replace (v <? 128) with true by lia.
  - destruct f as [|f].
    { change (128 ^ N.succ (N.of_nat 0)) with 128 in Hf. lia. }
    rewrite Nat2N.inj_succ, N.pow_succ_r' in Hf.
    cbn [varint_enc]. replace (b + 128 * v <? 128) with false by lia.
    rewrite (N.mul_comm 128 v), N.mod_add, N.mod_small by lia.
    rewrite N.div_add, N.div_small by lia. rewrite N.add_0_l. f_equal. apply IH. lia.
Qed.
Lemma pow_128_10 : 2 ^ 32 < 128 ^ N.succ (N.of_nat 9).
Proof. by vm_compute. Qed.
Lemma encode_var_leb v : v < 2 ^ 32 -> leb128 v (encode_var v).
Proof.
  intros H. unfold encode_var, as_u32. rewrite N.mod_small by done. apply leb128_enc.
  pose proof pow_128_10. lia.
Qed.
Lemma leb_encode_var v bs : leb128 v bs -> v < 2 ^ 32 -> bs = encode_var v.
Proof.
  intros H Hv. unfold encode_var, as_u32. rewrite N.mod_small by done. apply leb128_unique; [done|].
  pose proof pow_128_10. lia.
Qed.

(** ** Lists *)
Lemma each_map {A} (P : A -> list N -> Prop) f (xs : list A) bs :
  (forall x p, x ∈ xs -> P x p -> p = f x) -> each P xs bs -> bs = mjoin (map f xs).
Proof.
  intros Hf (parts & HF & ->). revert Hf. induction HF as [|x p xs parts Hp HF IH]; intros Hf; [done|].
  cbn [map]. rewrite (Hf x p) by (done || left). cbn. f_equal. apply IH. intros y q Hy. apply Hf. by right.
Qed.
Lemma map_each {A} (P : A -> list N -> Prop) f (xs : list A) :
  (forall x, x ∈ xs -> P x (f x)) -> each P xs (mjoin (map f xs)).
Proof.
  intros H. exists (map f xs). split; [|done].
  induction xs as [|x xs IH]; cbn [map]; constructor; [apply H; left|]. apply IH. intros y Hy. apply H. by right.
Qed.
Lemma each_all {A} (P : A -> list N -> Prop) (Q : A -> Prop) (xs : list A) bs :
  (forall x p, P x p -> Q x) -> each P xs bs -> Forall Q xs.
Proof. intros H (parts & HF & _). induction HF; constructor; eauto. Qed.
Lemma stands_bound data addr bs : stands data addr bs -> addr + N.of_nat (length bs) <= N.of_nat (length data).
Proof. intros (pre & post & -> & <-). rewrite !app_length. lia. Qed.

(** ** Id lists *)
Lemma ids_has data addr ids :
  N.of_nat (length data) < 2 ^ 32 -> ids_laid data addr ids ->
  has_fixed data addr ids /\ Forall (fun v => v < 2 ^ 32) ids.
Proof.
  intros Hlen (len & body & Hs & Hl & He).
  assert (Hb : body = mjoin (map (le_bytes 4) ids)).
  { eapply each_map; [|exact He]. intros x p _ H. by apply little_spec in H as [_ ?]. }
  assert (Hids : Forall (fun v => v < 2 ^ 32) ids).
  { eapply each_all; [|exact He]. intros x p H. by apply little_spec in H as [? _]. }
  assert (Hn : N.of_nat (length ids) < 2 ^ 32).
  { apply stands_bound in Hs. rewrite app_length in Hs.
    assert (1 * length (map (le_bytes 4) ids) <= length body)%nat as H.
    { rewrite Hb. apply mjoin_length_ge. apply Forall_forall. intros c (v & -> & _)%elem_of_map. rewrite le_bytes_length. lia. }
    rewrite map_length in H. lia. }
  apply leb_encode_var in Hl; [|done]. split; [|done].
  destruct Hs as (pre & post & -> & <-). exists pre, post. split; [|done].
  unfold enc_fixed, vec_len_prefix. by rewrite <- Hl, <- Hb.
Qed.
Lemma has_ids data addr ids :
  N.of_nat (length data) < 2 ^ 32 -> has_fixed data addr ids -> Forall (fun v => v < 2 ^ 32) ids ->
  ids_laid data addr ids.
Proof.
  intros Hlen (pre & post & Hd & ->) Hids. pose proof (enc_fixed_length ids) as Hi.
  exists (vec_len_prefix ids), (mjoin (map (le_bytes 4) ids)). split; [|split].
  - exists pre, post. done.
  - apply encode_var_leb. rewrite Hd, !app_length in Hlen. lia.
  - apply map_each. rewrite Forall_forall in Hids. intros x Hx. apply le_bytes_little. by apply Hids.
Qed.

(** ** Cells *)
Definition as_coord (za : N * N) : coord := Coord za.1 za.2.
Definition as_item (c : coord) : N * N := (c_coord c, c_ids c).
Lemma coord_item l : map as_coord (map as_item l) = l.
Proof. rewrite List.map_map. rewrite <- (List.map_id l) at 2. apply List.map_ext. by intros []. Qed.
Lemma width_size items w :
  Forall (fun za : N * N => za.2 < 2 ^ 32) items -> width_of items w -> w = uniform_rec_size (map as_coord items).
Proof.
  intros Hit [[-> ->]|(Hne & Hw & Hfit & Hmin)]; [done|]. destruct items as [|za0 items0]; [done|]. clear Hne.
  set (items := za0 :: items0) in *. change (uniform_rec_size (map as_coord items)) with
    (fold_right N.max 0 (map coord_min_size (map as_coord items))).
  rewrite Forall_forall in Hit. apply N.le_antisymm.
  - assert (Hz : exists za, za ∈ items /\ w <= coord_min_size (as_coord za)).
    { destruct Hmin as [->|(za & Hza & Hge)].
      - exists za0. split; [left|]. pose proof (coord_min_size_spec (as_coord za0)) as H.
        destruct H as [H _]; [apply Hit; left|]. lia.
      - exists za. split; [done|]. unfold coord_min_size. cbn [as_coord c_ids].
        assert (w = 5 \/ w = 6 \/ w = 7 \/ w = 8) as [E|[E|[E|E]]] by lia; rewrite E in Hge.
        all: repeat case_match; try lia.
        all: change (256 ^ (6 - 5)) with 256 in Hge || change (256 ^ (7 - 5)) with 65536 in Hge ||
             change (256 ^ (8 - 5)) with 16777216 in Hge; lia. }
    destruct Hz as (za & Hza & Hle). etransitivity; [exact Hle|]. apply max_ge.
    apply elem_of_map. exists (as_coord za). split; [done|]. apply elem_of_map. eauto.
  - apply max_le. intros x (c & -> & Hc)%elem_of_map. apply elem_of_map in Hc as (za & -> & Hza).
    specialize (Hfit za Hza). unfold coord_min_size. cbn [as_coord c_ids].
    assert (w = 5 \/ w = 6 \/ w = 7 \/ w = 8) as [E|[E|[E|E]]] by lia; rewrite E in Hfit.
    all: change (256 ^ (5 - 4)) with 256 in Hfit || change (256 ^ (6 - 4)) with 65536 in Hfit ||
         change (256 ^ (7 - 4)) with 16777216 in Hfit || change (256 ^ (8 - 4)) with 4294967296 in Hfit.
    all: repeat case_match; lia.
Qed.
Lemma size_width cs : Forall coord_ok cs -> width_of (map as_item cs) (uniform_rec_size cs).
Proof.
  intros Hok. destruct cs as [|c0 cs0]; [by left|]. right. split; [done|].
  set (cs := c0 :: cs0) in *. assert (H0 : c0 ∈ cs) by left.
  split; [by apply (uniform_rec_size_spec cs c0)|]. split.
  { intros za (c & -> & Hc)%elem_of_map. cbn [as_item snd]. by apply uniform_rec_size_spec. }
  change (uniform_rec_size cs) with (fold_right N.max 0 (map coord_min_size cs)).
  assert (Hmax : exists c, c ∈ cs /\ fold_right N.max 0 (map coord_min_size cs) = coord_min_size c).
  { clear -H0. unfold cs. clear. revert c0. induction cs0 as [|c1 cs1 IH]; intros c0.
    - exists c0. split; [left|]. cbn. lia.
    - destruct (IH c1) as (c & Hc & E). cbn [map fold_right] in *.
      destruct (N.max_spec (coord_min_size c0) (N.max (coord_min_size c1) (fold_right N.max 0 (map coord_min_size cs1))))
        as [[_ Em]|[_ Em]].
      + exists c. split; [by right|]. by rewrite Em, E.
      + exists c0. split; [left|]. done. }
  destruct Hmax as (c & Hc & ->).
  assert (Hcase : coord_min_size c = 5 \/ 256 ^ (coord_min_size c - 5) <= c_ids c).
  { unfold coord_min_size. destruct (c_ids c <=? 255) eqn:E1; [by left|right].
    destruct (c_ids c <=? 65535) eqn:E2; [change (256 ^ (4 + 2 - 5)) with 256; lia|].
    destruct (c_ids c <=? 16777215) eqn:E3; [change (256 ^ (4 + 3 - 5)) with 65536; lia|].
    change (256 ^ (4 + 4 - 5)) with 16777216. lia. }
  destruct Hcase as [H|H]; [by left|right]. exists (as_item c). split; [|done]. apply elem_of_map. eauto.
Qed.
Lemma as_u8_size cs : Forall coord_ok cs -> as_u8 (uniform_rec_size cs) = uniform_rec_size cs.
Proof.
  intros H. unfold as_u8. apply N.mod_small. destruct cs as [|c cs]; [done|].
  destruct (uniform_rec_size_spec (c :: cs) c H ltac:(left)) as [? _]. lia.
Qed.

Definition cell_part (za : N * N) (w : N) (bs : list N) : Prop :=
  exists z a, bs = z ++ a /\ little 4 za.1 z /\ little (N.to_nat (w - 4)) za.2 a.
Lemma cells_has data addr cells :
  N.of_nat (length data) < 2 ^ 32 -> cells_laid data addr cells ->
  exists coords, has_uniform data addr coords /\ cells_ok data coords cells /\
    Forall (fun c : N * list N => c.1 < 2 ^ 32 /\ Forall (fun v => v < 2 ^ 32) c.2) cells.
Proof.
  intros Hlen (items & len & w & body & Hs & Hl & Hw & He & HF).
  assert (Hz : Forall (fun za : N * N => za.1 < 2 ^ 32) items).
  { eapply each_all; [|exact He]. intros za p (z & a & _ & H & _). by apply little_spec in H as [? _]. }
  assert (Hz2 : Forall (fun za : N * N => za.2 < 2 ^ 32) items).
  { clear -HF Hlen. induction HF as [|c za cells items [_ H] HF IH]; constructor; [|done].
    apply (ids_has _ _ _ Hlen) in H as [(pre & post & E & ->) _]. rewrite E, !app_length in Hlen. lia. }
  pose proof (width_size items w Hz2 Hw) as Ew.
  assert (Hok : Forall coord_ok (map as_coord items)).
  { apply Forall_forall. rewrite Forall_forall in Hz, Hz2. intros c (za & -> & Hza)%elem_of_map. split; [by apply Hz|by apply Hz2]. }
  assert (Hb : body = mjoin (map (write_coord w) (map as_coord items))).
  { rewrite List.map_map. eapply each_map; [|exact He]. rewrite Forall_forall in Hz, Hz2.
    intros za p Hza (z & a & -> & H1 & H2). apply little_spec in H1 as [_ ->], H2 as [_ ->].
    assert (5 <= w <= 8) as Hw58.
    { destruct Hw as [[-> _]|(_ & ? & _)]; [by apply elem_of_nil in Hza|done]. }
    rewrite write_coord_eq; [done|by apply Hz|by apply Hz2|lia]. }
  assert (Hn : length cells = length items) by (by eapply Forall2_length).
  assert (Hn32 : N.of_nat (length items) < 2 ^ 32).
  { apply stands_bound in Hs. rewrite app_length in Hs. cbn [length] in Hs.
    assert (1 * length (map (write_coord w) (map as_coord items)) <= length body)%nat as H.
    { rewrite Hb. apply mjoin_length_ge. apply Forall_forall. intros c (v & -> & _)%elem_of_map.
      unfold write_coord. rewrite app_length, le_bytes_length. lia. }
    rewrite !map_length in H. lia. }
  rewrite Hn in Hl. apply leb_encode_var in Hl; [|done].
  exists (map as_coord items). split; [|split].
  - destruct Hs as (pre & post & -> & <-). exists pre, post. split; [|done].
    unfold enc_uniform, vec_len_prefix. rewrite map_length, <- Hl, as_u8_size by done. rewrite <- Ew, <- Hb.
    by rewrite <- !app_assoc.
  - unfold cells_ok. clear -HF Hlen. induction HF as [|c za cells items [E H] HF IH]; cbn [map]; constructor; [|done].
    split; [by rewrite E|]. by apply (ids_has _ _ _ Hlen) in H as [? _].
  - clear -HF Hz Hlen. induction HF as [|c za cells items [E H] HF IH]; constructor.
    + inversion Hz; subst. split; [by rewrite E|]. by apply (ids_has _ _ _ Hlen) in H as [_ ?].
    + inversion Hz; subst. by apply IH.
Qed.
Lemma has_cells data addr coords cells :
  N.of_nat (length data) < 2 ^ 32 -> has_uniform data addr coords -> cells_ok data coords cells ->
  Forall (fun c : N * list N => c.1 < 2 ^ 32 /\ Forall (fun v => v < 2 ^ 32) c.2) cells ->
  cells_laid data addr cells.
Proof.
  intros Hlen (pre & post & Hd & ->) Hc Hwf. pose proof (enc_uniform_length coords) as Hi.
  assert (Hok : Forall coord_ok coords).
  { clear -Hc Hwf Hlen. induction Hc as [|c [z ids] coords cells [E H] Hc IH]; constructor.
    - inversion Hwf as [|? ? [? ?]]; subst. cbn [fst snd] in *. split; [lia|].
      by apply (has_fixed_reads data (c_ids c) ids).
    - inversion Hwf; subst. by apply IH. }
  assert (Hn : length coords = length cells) by (by eapply Forall2_length).
  exists (map as_item coords), (vec_len_prefix coords), (uniform_rec_size coords),
    (mjoin (map (write_coord (uniform_rec_size coords)) coords)).
  split; [|split; [|split; [|split]]].
  - exists pre, post. split; [|done]. rewrite Hd. unfold enc_uniform. rewrite as_u8_size by done.
    by rewrite <- !app_assoc.
  - unfold vec_len_prefix. rewrite <- Hn. apply encode_var_leb. rewrite Hd, !app_length in Hlen. lia.
  - by apply size_width.
  - rewrite <- (coord_item coords) at 3. rewrite List.map_map. apply map_each. intros za Hza.
    apply elem_of_map in Hza as (c & -> & Hin).
    destruct (uniform_rec_size_spec coords c Hok Hin) as [Hr Hlt].
    assert (Hco : coord_ok c) by (rewrite Forall_forall in Hok; by apply Hok). destruct Hco as [H1 H2].
    exists (le_bytes 4 (c_coord c)), (le_bytes (N.to_nat (uniform_rec_size coords - 4)) (c_ids c)).
    split; [|split].
    + apply (write_coord_eq _ (as_coord (as_item c))); [done|done|lia].
    + by apply le_bytes_little.
    + apply le_bytes_little. by rewrite N2Nat.id.
  - clear -Hc Hwf Hlen. induction Hc as [|c [z ids] coords cells [E H] Hc IH]; cbn [map]; constructor.
    + inversion Hwf as [|? ? [? ?]]; subst. cbn [fst snd] in *. split; [done|]. by apply has_ids.
    + inversion Hwf; subst. by apply IH.
Qed.

(** ** Records *)
Definition has_var (data : bytes) (off : N) (rss : list relev_score) : Prop :=
  exists pre post, data = pre ++ enc_var rss ++ post /\ off = N.of_nat (length pre).
Definition as_rs (ga : N * N) : relev_score := RelevScore ga.1 ga.2.
Definition rs_item (r : relev_score) : N * N := (rs_value r, rs_coords r).
Lemma rs_items l : map as_rs (map rs_item l) = l.
Proof. rewrite List.map_map. rewrite <- (List.map_id l) at 2. apply List.map_ext. by intros []. Qed.

Lemma record_has data n :
  N.of_nat (length data) < 2 ^ 32 -> record_laid data n ->
  exists front root rss, data = front ++ le_bytes 4 root /\ root < 2 ^ 32 /\
    has_var data root rss /\ groups_ok data rss n /\ rec_wf n.
Proof.
  intros Hlen (front & last4 & root & items & len & body & Hd & Hr & Hs & Hl & He & HF).
  apply little_spec in Hr as [Hr ->]. exists front, root, (map as_rs items).
  assert (Hg : Forall (fun ga : N * N => ga.1 < 256) items).
  { eapply each_all; [|exact He]. by intros ga p (a & _ & ? & _). }
  assert (Hg2 : Forall (fun ga : N * N => ga.2 < 2 ^ 32) items).
  { clear -HF Hlen. induction HF as [|c za cells items [_ H] HF IH]; constructor; [|done].
    apply (cells_has _ _ _ Hlen) in H as (coords & (pre & post & E & ->) & _). rewrite E, !app_length in Hlen. lia. }
  assert (Hb : body = mjoin (map write_relev_score (map as_rs items))).
  { rewrite List.map_map. eapply each_map; [|exact He]. rewrite Forall_forall in Hg2.
    intros ga p Hga (a & -> & _ & H). apply leb_encode_var in H as ->; [done|]. by apply Hg2. }
  assert (Hn : length n = length items) by (by eapply Forall2_length).
  assert (Hn32 : N.of_nat (length items) < 2 ^ 32).
  { apply stands_bound in Hs. rewrite app_length in Hs.
    assert (1 * length (map write_relev_score (map as_rs items)) <= length body)%nat as H.
    { rewrite Hb. apply mjoin_length_ge. apply Forall_forall. intros c (v & -> & _)%elem_of_map.
      unfold write_relev_score. cbn [length]. lia. }
    rewrite !map_length in H. lia. }
  rewrite Hn in Hl. apply leb_encode_var in Hl; [|done].
  split; [done|]. split; [done|]. split; [|split].
  - destruct Hs as (pre & post & E & <-). exists pre, post. split; [|done].
    rewrite E at 1. unfold enc_var, vec_len_prefix. by rewrite map_length, <- Hl, <- Hb.
  - clear -HF Hlen. induction HF as [|c za cells items [E H] HF IH]; cbn [map]; constructor; [|done].
    split; [by rewrite E|]. apply (cells_has _ _ _ Hlen) in H as (coords & ? & ? & _). by exists coords.
  - unfold rec_wf. clear -HF Hg Hlen. induction HF as [|c za cells items [E H] HF IH]; constructor.
    + inversion Hg; subst. split; [by rewrite E|]. by apply (cells_has _ _ _ Hlen) in H as (coords & _ & _ & ?).
    + inversion Hg; subst. by apply IH.
Qed.
Lemma has_record data front root rss n :
  N.of_nat (length data) < 2 ^ 32 -> data = front ++ le_bytes 4 root -> root < 2 ^ 32 ->
  has_var data root rss -> groups_ok data rss n -> rec_wf n -> record_laid data n.
Proof.
  intros Hlen Hd Hr (pre & post & Hv & Ero) Hg Hwf. pose proof (enc_var_length rss) as Hi.
  exists front, (le_bytes 4 root), root, (map rs_item rss), (vec_len_prefix rss), (mjoin (map write_relev_score rss)).
  assert (Hn : length rss = length n) by (by eapply Forall2_length).
  assert (Hrs : Forall rs_ok rss).
  { clear -Hg Hwf Hlen. unfold rec_wf in Hwf. induction Hg as [|r [g cells] rss n (E & cs & Hu & Hc) Hg IH]; constructor.
    - inversion Hwf as [|? ? [? ?]]; subst. cbn [fst snd] in *. split; [lia|].
      destruct Hu as (pre & post & Ed & ->). rewrite Ed, !app_length in Hlen. lia.
    - inversion Hwf; subst. by apply IH. }
  split; [done|]. split; [by apply le_bytes_little|]. split; [|split; [|split]].
  - exists pre, post. done.
  - unfold vec_len_prefix. rewrite <- Hn. apply encode_var_leb. rewrite Hv, !app_length in Hlen. lia.
  - rewrite <- (rs_items rss) at 2. rewrite List.map_map. apply map_each. intros ga Hga.
    apply elem_of_map in Hga as (r & -> & Hin). rewrite Forall_forall in Hrs. destruct (Hrs r Hin) as [H1 H2].
    exists (encode_var (rs_coords r)). split; [done|]. split; [done|]. by apply encode_var_leb.
  - clear -Hg Hwf Hlen. unfold rec_wf in Hwf. induction Hg as [|r [g cells] rss n (E & cs & Hu & Hc) Hg IH]; cbn [map]; constructor.
    + inversion Hwf as [|? ? [? ?]]; subst. cbn [fst snd] in *. split; [done|]. by eapply has_cells.
    + inversion Hwf; subst. by apply IH.
Qed.

Lemma laid_reads data n : N.of_nat (length data) < 2 ^ 32 -> record_laid data n -> reads data n.
Proof.
  intros Hlen H. destruct (record_has data n Hlen H) as (front & root & rss & Hd & Hr & Hv & Hg & Hwf). clear H.
  assert (Hgr : reads_groups data rss n /\ Forall rs_ok rss).
  { clear Hd Hr Hv. unfold rec_wf in Hwf.
    induction Hg as [|rs [r cells] rss n (Hv & cs & Hu & Hc) Hg IH]; [split; constructor|].
    inversion Hwf as [|? ? [Hr Hcells] Hwf']; clear Hwf; subst. simpl in *.
    destruct (IH Hwf') as [IH1 IH2].
    assert (Hcs : Forall coord_ok cs /\ reads_cells data cs cells).
    { clear Hu. induction Hc as [|c [z ids] cs cells [Hz Hf] Hc IHc]; [split; constructor|].
      inversion Hcells as [|? ? [Hz1 Hids] Hcells']; clear Hcells; subst. simpl in *.
      destruct (IHc Hcells') as [IHc1 IHc2].
      destruct (has_fixed_reads data (c_ids c) ids Hf Hlen Hids) as [Ho Hrd].
      split; constructor; try done. split; [lia|done]. }
    destruct Hcs as [Hcs1 Hcs2].
    destruct (has_uniform_reads data (rs_coords rs) cs Hu Hlen Hcs1) as [Ho Hrd].
    split; constructor; try done.
    - split; [done|]. eauto.
    - split; [lia|done]. }
  destruct Hgr as [Hg1 Hg2]. exists root, rss. split; [|split; [|done]].
  - rewrite Hd. pose proof (read_root_ok front root Hr) as H. unfold write_root, as_u32 in H.
    by rewrite N.mod_small in H.
  - destruct Hv as (pre & post & Hv & ->). pose proof (enc_var_length rss) as Hi.
    eapply read_var_vec_ok; [exact Hv|done| |done]. rewrite Hv, !app_length in Hlen. lia.
Qed.
Lemma encode_laid n : rec_wf n -> N.of_nat (length (encode_record n)) < 2 ^ 32 -> record_laid (encode_record n) n.
Proof.
  intros Hwf Hlen. unfold encode_record in *.
  destruct (foldl enc_group ([], ∅, []) n) as [[w tbl] rss] eqn:E.
  apply (enc_groups_ok n [] ∅ [] []) in E; [|by intros ? ? ?%lookup_empty_Some|constructor].
  unfold write_root in *. assert (Hw : N.of_nat (length w) < 2 ^ 32) by (rewrite !app_length in Hlen; lia).
  unfold as_u32 in *. rewrite N.mod_small in * by done.
  eapply (has_record _ (w ++ enc_var rss) (N.of_nat (length w)) rss); [done|done|done| |by rewrite <- app_assoc; apply groups_ok_app|done].
  exists w, (le_bytes 4 (N.of_nat (length w))). by rewrite <- app_assoc.
Qed.

(** ** Keys *)
Lemma little_zeros n v bs : little n v bs -> forall m, le_bytes (n + m) v = bs ++ replicate m 0.
Proof.
  induction 1 as [|n v b bs Hb H IH]; intros m.
  - cbn [Nat.add app]. induction m as [|m IH]; [done|]. cbn [le_bytes replicate]. change (0 mod 256) with 0.
    change (0 / 256) with 0. by rewrite IH.
  - cbn [Nat.add le_bytes app]. rewrite (N.mul_comm 256 v), N.mod_add, N.mod_small by lia.
    rewrite N.div_add, N.div_small by lia. by rewrite N.add_0_l, IH.
Qed.
Lemma skip_zeros m (bs : list N) : head bs <> Some 0 -> skip_while (fun b => b =? 0) (replicate m 0 ++ bs) = bs.
Proof.
  intros H. induction m as [|m IH]; [|done]. cbn [replicate app]. destruct bs as [|b bs]; [done|].
  cbn [skip_while]. destruct (b =? 0) eqn:E; [|done]. apply N.eqb_eq in E. subst. by cbn in H.
Qed.
Lemma rev_zeros m : rev (replicate m 0) = replicate m 0.
Proof.
  induction m as [|m IH]; [done|]. cbn [replicate rev]. rewrite IH. clear IH.
  induction m as [|m IH]; [done|]. cbn [replicate app]. by rewrite IH.
Qed.
Lemma little_bytes n v bs : little n v bs -> Forall (fun b => b < 256) bs.
Proof. induction 1; by constructor. Qed.
Lemma big_nonempty_head bs l : big (length bs) l bs -> head bs <> Some 0 -> bs <> [] -> 256 ^ (N.of_nat (length bs) - 1) <= l.
Proof.
  unfold big. intros H Hh Hne. apply little_le_value in H as [H _].
  destruct bs as [|b bs]; [done|]. cbn [rev length] in *. rewrite <- H. cbn in Hh.
  replace (N.of_nat (S (length bs)) - 1) with (N.of_nat (length bs)) by lia.
  assert (Hv : forall a c, le_value (a ++ [c]) = le_value a + 256 ^ N.of_nat (length a) * c).
  { clear. intros a c. induction a as [|x a IH]; cbn [app le_value length]; [change (256 ^ N.of_nat 0) with 1; lia|].
    rewrite IH, Nat2N.inj_succ, N.pow_succ_r'. lia. }
  rewrite Hv, rev_length. assert (1 <= b) by (assert (b <> 0) by congruence; lia). nia.
Qed.
Lemma lang_laid_bytes l bs : l < 2 ^ 128 -> lang_laid l bs <-> bs = lang_bytes l.
Proof.
  intros Hl. unfold lang_bytes, lang_laid. change (2 ^ 128 - 1) with u128_max. destruct (l =? u128_max) eqn:E1.
  { apply N.eqb_eq in E1. split; [intros [[_ ->]|[H _]]; [done|by destruct (H E1)]|]. intros ->. by left. }
  apply N.eqb_neq in E1. destruct (l =? 0) eqn:E2.
  - apply N.eqb_eq in E2 as ->. split.
    + intros [[H _]|(_ & Hb & Hne & H0)]; [by destruct (E1 H)|]. destruct (decide (head bs = Some 0)) as [Hh|Hh]; [by apply H0|].
      pose proof (big_nonempty_head bs 0 Hb Hh Hne) as H.
      assert (0 < 256 ^ (N.of_nat (length bs) - 1)) by (apply N.neq_0_lt_0, N.pow_nonzero; done). lia.
    + intros ->. right. split; [done|]. split; [|done]. apply (little_byte 0 0 0 []); [done|constructor].
  - apply N.eqb_neq in E2. split.
    + intros [[H _]|(_ & Hb & Hne & H0)]; [by destruct (E1 H)|].
      assert (Hh : head bs <> Some 0).
      { intros H. apply H0 in H as ->. apply little_le_value in Hb as [Hb _]. by cbn in Hb. }
      pose proof (big_nonempty_head bs l Hb Hh Hne) as Hp.
      assert (Hlen : (length bs <= 16)%nat).
      { destruct (decide (length bs <= 16)%nat) as [|Hgt]; [done|exfalso].
        assert (256 ^ 16 <= 256 ^ (N.of_nat (length bs) - 1)) by (apply N.pow_le_mono_r; lia).
        change (2 ^ 128) with (256 ^ 16) in Hl. lia. }
      unfold be_bytes. replace 16%nat with (length bs + (16 - length bs))%nat by lia.
      rewrite (little_zeros _ _ _ Hb), rev_app_distr, rev_involutive.
      assert (Hr : rev (replicate (16 - length bs) 0) = replicate (16 - length bs) 0) by (apply rev_zeros).
      rewrite Hr. symmetry. by apply skip_zeros.
    + intros ->. right. split; [done|]. set (bs := skip_while _ _).
      assert (Hv : be_value bs = l).
      { unfold bs. rewrite be_value_skip, be_value_be_bytes; [done|]. exact Hl. }
      assert (HF : Forall (fun b => b < 256) bs).
      { unfold bs. generalize (be_bytes_byte 16 l). generalize (be_bytes 16 l). clear. intros r H.
        induction H as [|b r Hb H IH]; cbn [skip_while]; [constructor|]. destruct (b =? 0); [exact IH|]. by constructor. }
      split; [|split].
      * unfold big. rewrite <- Hv. unfold be_value. rewrite <- (rev_length bs). apply little_value. by apply List.Forall_rev.
      * intros E. rewrite E in Hv. by cbn in Hv.
      * intros Hh. exfalso. revert Hh. unfold bs. generalize (be_bytes 16 l). intros r.
        induction r as [|b r IH]; cbn [skip_while]; [done|]. destruct (b =? 0) eqn:E; [done|]. cbn. intros [= ->]. done.
Qed.
