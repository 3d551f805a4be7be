(** A phrase record as a list, and the proof that the encoder of [Builder] depends
    only on that list and that the readers of [Format] recover it. *)
From Verif Require Import Prelude Lists F64 Common Morton Format Format_proofs Builder.
Local Open Scope N_scope.

(** Groups (packed relevance/score) -> cells -> packed ids, all in the order in
    which they are stored. *)
Notation rec_list := (list (N * list (N * list N))) (only parsing).

Definition norm_cells (m : gmap N (list N)) : list (N * list N) :=
  map (fun c : N * list N => (c.1, sort_ids c.2)) (isort desc_key (map_to_list m)).
Definition norm (be : gmap N (gmap N (list N))) : rec_list :=
  map (fun g : N * gmap N (list N) => (g.1, norm_cells g.2)) (isort desc_key (map_to_list be)).

(** ** The sort by key makes the hash order irrelevant *)
Lemma desc_key_total {V} (a b : N * V) : desc_key a b = true \/ desc_key b a = true.
Proof. unfold desc_key. lia. Qed.
Lemma desc_key_trans {V} (a b c : N * V) :
  desc_key a b = true -> desc_key b c = true -> desc_key a c = true.
Proof. unfold desc_key. lia. Qed.

Lemma desc_key_anti {V} (l : list (N * V)) a b :
  NoDup (l.*1) -> a ∈ l -> b ∈ l -> desc_key a b = true -> desc_key b a = true -> a = b.
Proof.
  unfold desc_key. intros Hnd Ha Hb H1 H2. assert (E : a.1 = b.1) by lia.
  destruct a as [k v], b as [k' v']; simpl in *; subst k'.
  f_equal. apply elem_of_list_lookup in Ha as (i & Hi), Hb as (j & Hj).
  assert (i = j) as <-.
  { eapply NoDup_lookup; [exact Hnd|..]; rewrite list_lookup_fmap.
    - by rewrite Hi.
    - by rewrite Hj. }
  congruence.
Qed.

Lemma isort_desc_perm {V} (l1 l2 : list (N * V)) :
  NoDup (l1.*1) -> l1 ≡ₚ l2 -> isort desc_key l1 = isort desc_key l2.
Proof.
  intros Hnd HP. apply (sorted_perm_unique (fun a b => desc_key a b = true)).
  - intros a b Ha Hb. apply (desc_key_anti l1); [done|..]; by apply elem_of_isort in Ha, Hb.
  - apply isort_sorted; [apply desc_key_total|apply desc_key_trans].
  - apply isort_sorted; [apply desc_key_total|apply desc_key_trans].
  - by rewrite !isort_perm.
Qed.

Lemma isort_hash_iter {V} (o : hash_oracle) site (m : gmap N V) :
  isort desc_key (hash_iter o site m) = isort desc_key (map_to_list m).
Proof.
  apply isort_desc_perm; [|apply ho_perm].
  unfold hash_iter. rewrite (ho_perm o). apply NoDup_fst_map_to_list.
Qed.

(** ** The encoder on lists *)
Definition enc_cell (st : bytes * id_table * list coord) (c : N * list N)
  : bytes * id_table * list coord :=
  let '(w, tbl, coords) := st in
  match tbl !! c.2 with
  | Some off => (w, tbl, coords ++ [Coord c.1 off])
  | None => (w ++ enc_fixed c.2, <[c.2 := N.of_nat (length w)]> tbl,
             coords ++ [Coord c.1 (N.of_nat (length w))])
  end.
Definition enc_group (st : bytes * id_table * list relev_score) (g : N * list (N * list N))
  : bytes * id_table * list relev_score :=
  let '(w, tbl, rss) := st in
  let '(w1, tbl1, coords) := foldl enc_cell (w, tbl, []) g.2 in
  (w1 ++ enc_uniform coords, tbl1, rss ++ [RelevScore g.1 (N.of_nat (length w1))]).
Definition encode_record (n : rec_list) : bytes :=
  let '(w, _, rss) := foldl enc_group ([], ∅, []) n in
  write_root (w ++ enc_var rss) (N.of_nat (length w)).

Lemma foldl_encode_cell st l :
  foldl encode_cell st l = foldl enc_cell st (map (fun c : N * list N => (c.1, sort_ids c.2)) l).
Proof.
  revert st. induction l as [|c l IH]; intros [[w tbl] coords]; simpl; [done|].
  apply IH.
Qed.

Lemma foldl_encode_group o site st l :
  foldl (encode_group o site) st l
  = foldl enc_group st (map (fun g : N * gmap N (list N) => (g.1, norm_cells g.2)) l).
Proof.
  revert st. induction l as [|g l IH]; intros [[w tbl] rss]; simpl; [done|].
  rewrite IH. f_equal. unfold encode_group, enc_group, norm_cells. simpl.
  rewrite isort_hash_iter, foldl_encode_cell.
  destruct (foldl enc_cell _ _) as [[w1 tbl1] coords].
  unfold write_uniform_vec, enc_uniform. done.
Qed.

Lemma get_encoded_value_norm o site v : get_encoded_value o site v = encode_record (norm v).
Proof.
  unfold get_encoded_value, encode_record, norm. rewrite isort_hash_iter, foldl_encode_group.
  destruct (foldl enc_group _ _) as [[w tbl] rss]. unfold write_var_vec, enc_var. done.
Qed.

(** ** Reading back *)
Definition rec_wf (n : rec_list) : Prop :=
  Forall (fun g : N * list (N * list N) =>
    g.1 < 256 /\
    Forall (fun c : N * list N => c.1 < 2 ^ 32 /\ Forall (fun v => v < 2 ^ 32) c.2) g.2) n.

(** What the readers see in [data]. *)
Definition reads_cells (data : bytes) (coords : list coord) (cells : list (N * list N)) : Prop :=
  Forall2 (fun c (zi : N * list N) =>
    c_coord c = zi.1 /\ read_fixed_vec data (c_ids c) = Ok zi.2) coords cells.
Definition reads_groups (data : bytes) (rss : list relev_score) (n : rec_list) : Prop :=
  Forall2 (fun rs (g : N * list (N * list N)) =>
    rs_value rs = g.1 /\
    exists coords, read_uniform_vec data (rs_coords rs) = Ok coords /\
                   reads_cells data coords g.2) rss n.
Definition reads (data : bytes) (n : rec_list) : Prop :=
  exists root rss, read_root data = Ok root /\ read_var_vec data root = Ok rss /\
                   reads_groups data rss n.

Definition has_fixed (w : bytes) (off : N) (ids : list N) : Prop :=
  exists pre post, w = pre ++ enc_fixed ids ++ post /\ off = N.of_nat (length pre).
Definition has_uniform (w : bytes) (off : N) (coords : list coord) : Prop :=
  exists pre post, w = pre ++ enc_uniform coords ++ post /\ off = N.of_nat (length pre).
Lemma has_fixed_app w w' off ids : has_fixed w off ids -> has_fixed (w ++ w') off ids.
Proof. intros (pre & post & -> & ->). exists pre, (post ++ w'). by rewrite <- !app_assoc. Qed.
Lemma has_uniform_app w w' off cs : has_uniform w off cs -> has_uniform (w ++ w') off cs.
Proof. intros (pre & post & -> & ->). exists pre, (post ++ w'). by rewrite <- !app_assoc. Qed.

Definition tbl_ok (w : bytes) (tbl : id_table) : Prop :=
  forall ids off, tbl !! ids = Some off -> has_fixed w off ids.
Definition cells_ok (w : bytes) (coords : list coord) (cells : list (N * list N)) : Prop :=
  Forall2 (fun c (zi : N * list N) => c_coord c = zi.1 /\ has_fixed w (c_ids c) zi.2) coords cells.
Definition groups_ok (w : bytes) (rss : list relev_score) (n : rec_list) : Prop :=
  Forall2 (fun rs (g : N * list (N * list N)) =>
    rs_value rs = g.1 /\
    exists coords, has_uniform w (rs_coords rs) coords /\ cells_ok w coords g.2) rss n.

Lemma tbl_ok_app w w' tbl : tbl_ok w tbl -> tbl_ok (w ++ w') tbl.
Proof. intros H ids off Hi. by apply has_fixed_app, H. Qed.
Lemma cells_ok_app w w' cs l : cells_ok w cs l -> cells_ok (w ++ w') cs l.
Proof. intros H. eapply Forall2_impl; [exact H|]. intros ? ? [? ?]. eauto using has_fixed_app. Qed.
Lemma groups_ok_app w w' rss n : groups_ok w rss n -> groups_ok (w ++ w') rss n.
Proof.
  intros H. eapply Forall2_impl; [exact H|]. intros ? ? (? & cs & ? & ?). split; [done|].
  exists cs. eauto using has_uniform_app, cells_ok_app.
Qed.

Lemma enc_cells_ok l : forall w tbl coords dn w1 tbl1 coords1,
  tbl_ok w tbl -> cells_ok w coords dn ->
  foldl enc_cell (w, tbl, coords) l = (w1, tbl1, coords1) ->
  tbl_ok w1 tbl1 /\ cells_ok w1 coords1 (dn ++ l) /\ exists w', w1 = w ++ w'.
Proof.
  induction l as [|[z ids] l IH]; intros w tbl coords dn w1 tbl1 coords1 Ht Hc E; simpl in E.
  - injection E as -> -> ->. rewrite app_nil_r. split; [done|]. split; [done|].
    exists []. by rewrite app_nil_r.
  - destruct (tbl !! ids) as [off|] eqn:Et.
    + destruct (IH w tbl (coords ++ [Coord z off]) (dn ++ [(z, ids)]) w1 tbl1 coords1)
        as (H1 & H2 & H3); [done| |done|].
      * apply Forall2_app; [done|]. constructor; [|constructor]. simpl. eauto.
      * rewrite <- app_assoc in H2. eauto.
    + destruct (IH (w ++ enc_fixed ids) (<[ids := N.of_nat (length w)]> tbl)
                   (coords ++ [Coord z (N.of_nat (length w))]) (dn ++ [(z, ids)]) w1 tbl1 coords1)
        as (H1 & H2 & (w' & ->)); [| |done|].
      * intros ids' off Hi. apply lookup_insert_Some in Hi as [[<- <-]|[_ Hi]].
        -- exists w, []. by rewrite app_nil_r.
        -- by apply has_fixed_app, Ht.
      * apply Forall2_app; [by apply cells_ok_app|]. constructor; [|constructor].
        split; [done|]. exists w, []. by rewrite app_nil_r.
      * rewrite <- (app_assoc dn) in H2. split; [done|]. split; [done|].
        exists (enc_fixed ids ++ w'). by rewrite <- app_assoc.
Qed.

Lemma enc_groups_ok n : forall w tbl rss dn w1 tbl1 rss1,
  tbl_ok w tbl -> groups_ok w rss dn ->
  foldl enc_group (w, tbl, rss) n = (w1, tbl1, rss1) ->
  groups_ok w1 rss1 (dn ++ n).
Proof.
  induction n as [|[r cells] n IH]; intros w tbl rss dn w1 tbl1 rss1 Ht Hg E; cbn [foldl] in E.
  - injection E as -> -> ->. by rewrite app_nil_r.
  - unfold enc_group in E at 2. cbn [fst snd] in E.
    destruct (foldl enc_cell (w, tbl, []) cells) as [[w2 tbl2] coords] eqn:Ec.
    destruct (enc_cells_ok cells w tbl [] [] w2 tbl2 coords) as (H1 & H2 & (w' & ->));
      [done|constructor|done|].
    apply (IH _ _ _ (dn ++ [(r, cells)])) in E.
    + by rewrite <- app_assoc in E.
    + by apply tbl_ok_app.
    + apply Forall2_app; [by apply groups_ok_app, groups_ok_app|].
      constructor; [|constructor]. split; [done|]. exists coords. split.
      * exists (w ++ w'), []. by rewrite app_nil_r.
      * by apply cells_ok_app.
Qed.

Lemma mjoin_length_ge {A} (cs : list (list A)) k :
  Forall (fun c => k <= length c)%nat cs -> (k * length cs <= length (mjoin cs))%nat.
Proof. induction 1; simpl; [lia|]. rewrite app_length. lia. Qed.

Lemma enc_fixed_length s : (length s <= length (enc_fixed s))%nat.
Proof.
  unfold enc_fixed. rewrite app_length.
  pose proof (mjoin_length_ge (map (le_bytes 4) s) 1) as H. rewrite map_length in H.
  assert (1 * length s <= length (mjoin (map (le_bytes 4) s)))%nat; [|lia].
  apply H. apply Forall_forall. intros c (v & -> & _)%elem_of_map. rewrite le_bytes_length. lia.
Qed.
Lemma enc_uniform_length s : (length s <= length (enc_uniform s))%nat.
Proof.
  unfold enc_uniform. rewrite !app_length.
  pose proof (mjoin_length_ge (map (write_coord (uniform_rec_size s)) s) 1) as H.
  rewrite map_length in H.
  assert (1 * length s <= length (mjoin (map (write_coord (uniform_rec_size s)) s)))%nat; [|lia].
  apply H. apply Forall_forall. intros c (v & -> & _)%elem_of_map.
  unfold write_coord. rewrite app_length, le_bytes_length. lia.
Qed.
Lemma enc_var_length s : (length s <= length (enc_var s))%nat.
Proof.
  unfold enc_var. rewrite !app_length.
  pose proof (mjoin_length_ge (map write_relev_score s) 1) as H.
  rewrite map_length in H.
  assert (1 * length s <= length (mjoin (map write_relev_score s)))%nat; [|lia].
  apply H. apply Forall_forall. intros c (v & -> & _)%elem_of_map.
  unfold write_relev_score. simpl. lia.
Qed.

Lemma has_fixed_reads data off ids :
  has_fixed data off ids -> N.of_nat (length data) < 2 ^ 32 -> Forall (fun v => v < 2 ^ 32) ids ->
  off < 2 ^ 32 /\ read_fixed_vec data off = Ok ids.
Proof.
  intros (pre & post & Hd & ->) Hl Hv. pose proof (enc_fixed_length ids) as Hi.
  assert (HL : length data = (length pre + (length (enc_fixed ids) + length post))%nat).
  { rewrite Hd. rewrite !app_length. done. }
  split; [lia|]. eapply read_fixed_vec_ok; eauto. lia.
Qed.
Lemma has_uniform_reads data off cs :
  has_uniform data off cs -> N.of_nat (length data) < 2 ^ 32 -> Forall coord_ok cs ->
  off < 2 ^ 32 /\ read_uniform_vec data off = Ok cs.
Proof.
  intros (pre & post & Hd & ->) Hl Hv. pose proof (enc_uniform_length cs) as Hi.
  assert (HL : length data = (length pre + (length (enc_uniform cs) + length post))%nat).
  { rewrite Hd. rewrite !app_length. done. }
  split; [lia|]. eapply read_uniform_vec_ok; eauto. lia.
Qed.

Lemma groups_ok_reads w rss n :
  groups_ok w rss n -> rec_wf n ->
  N.of_nat (length (write_root (w ++ enc_var rss) (N.of_nat (length w)))) < 2 ^ 32 ->
  reads (write_root (w ++ enc_var rss) (N.of_nat (length w))) n.
Proof.
  intros E Hwf. set (data := write_root (w ++ enc_var rss) (N.of_nat (length w))).
  intros Hlen.
  assert (Hdata : exists post, data = w ++ enc_var rss ++ post).
  { exists (le_bytes 4 (as_u32 (N.of_nat (length w)))). unfold data, write_root.
    by rewrite <- app_assoc. }
  destruct Hdata as [post Hdata].
  assert (HL : length data = (length w + (length (enc_var rss) + length post))%nat).
  { rewrite Hdata, !app_length. done. }
  pose proof (enc_var_length rss) as Hrl.
  assert (Hg : reads_groups data rss n /\ Forall rs_ok rss).
  { assert (Hg : groups_ok data rss n) by (rewrite Hdata; by apply groups_ok_app).
    clear E Hrl HL Hdata. clearbody data. unfold rec_wf in Hwf.
    induction Hg as [|rs [r cells] rss n (Hv & cs & Hu & Hc) Hg IH]; [split; constructor|].
    inversion Hwf as [|? ? [Hr Hcells] Hwf']; clear Hwf; subst. simpl in *.
    destruct (IH Hwf') as [IH1 IH2].
    assert (Hcs : Forall coord_ok cs /\ reads_cells data cs cells).
    { clear Hu. induction Hc as [|c [z ids] cs cells [Hz Hf] Hc IHc]; [split; constructor|].
      inversion Hcells as [|? ? [Hz1 Hids] Hcells']; clear Hcells; subst. simpl in *.
      destruct (IHc Hcells') as [IHc1 IHc2].
      destruct (has_fixed_reads data (c_ids c) ids Hf Hlen Hids) as [Ho Hrd].
      split; constructor; try done. split; [lia|done]. }
    destruct Hcs as [Hcs1 Hcs2].
    destruct (has_uniform_reads data (rs_coords rs) cs Hu Hlen Hcs1) as [Ho Hrd].
    split; constructor; try done.
    - split; [done|]. eauto.
    - split; [lia|done]. }
  destruct Hg as [Hg1 Hg2].
  exists (N.of_nat (length w)), rss. split; [|split; [|done]].
  - apply read_root_ok. lia.
  - eapply read_var_vec_ok; [exact Hdata|done|lia|done].
Qed.

Theorem encode_record_reads n :
  rec_wf n -> N.of_nat (length (encode_record n)) < 2 ^ 32 -> reads (encode_record n) n.
Proof.
  intros Hwf. unfold encode_record.
  destruct (foldl enc_group ([], ∅, []) n) as [[w tbl] rss] eqn:E.
  apply (enc_groups_ok n [] ∅ [] []) in E; [|by intros ? ? ?%lookup_empty_Some|constructor].
  by apply groups_ok_reads.
Qed.
