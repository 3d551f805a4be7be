(** Lemmas for Props_space.v: the lengths of the parts of a record. *)
From Verif Require Import Prelude Lists F64 Common Morton Format Format_proofs Builder Store Spec Spec_disk Spec_space
  Record_proofs Disk_proofs.
From Coq Require Import ZifyBool.
Local Open Scope N_scope.

Lemma total_app {A} (f : A -> N) l l' : total f (l ++ l') = total f l + total f l'.
Proof. induction l as [|a l IH]; cbn [app total fold_right]; [done|]. unfold total in *. rewrite IH. lia. Qed.
Lemma total_ge {A} (f : A -> N) l a : a ∈ l -> f a <= total f l.
Proof. induction 1 as [a l|a b l H IH]; unfold total in *; cbn [fold_right]; lia. Qed.
Lemma total_ext {A} (f g : A -> N) l : (forall a, a ∈ l -> f a = g a) -> total f l = total g l.
Proof.
  induction l as [|a l IH]; intros H; [done|]. unfold total in *. cbn [fold_right].
  rewrite IH by (intros; apply H; by right). by rewrite (H a) by left.
Qed.

Lemma leb128_size v bs : leb128 v bs -> how_many bs = leb_size v.
Proof.
  unfold how_many, leb_size. induction 1 as [v H|b v bs Hb Hv H IH]; cbn [length].
  - assert (N.log2 v < 7).
    { destruct (N.eq_dec v 0) as [->|]; [done|]. apply N.log2_lt_pow2; [lia|]. done. }
    rewrite N.div_small by done. done.
  - assert (E : N.log2 (b + 128 * v) = N.log2 v + 7).
    { apply N.log2_unique; [lia|]. assert (Hl := N.log2_spec v ltac:(lia)).
      rewrite <- N.add_succ_l, !N.pow_add_r. change (2 ^ 7) with 128. nia. }
    rewrite E. rewrite Nat2N.inj_succ, IH. change (N.log2 v + 7) with (N.log2 v + 1 * 7).
    rewrite N.div_add by done. lia.
Qed.
Definition var_size (n : N) : N := how_many (encode_var n).
Lemma var_size_leb n : n < 2 ^ 32 -> var_size n = leb_size n.
Proof. intros H. by apply leb128_size, encode_var_leb. Qed.

Lemma le_bytes_length n v : length (le_bytes n v) = n.
Proof. revert v. induction n as [|n IH]; intros v; cbn [le_bytes length]; [done|]. by rewrite IH. Qed.
Lemma how_many_app {A} (l l' : list A) : how_many (l ++ l') = how_many l + how_many l'.
Proof. unfold how_many. rewrite app_length. lia. Qed.

Lemma mjoin_length {A} (f : A -> list N) k l :
  (forall a, a ∈ l -> how_many (f a) = k) -> how_many (mjoin (map f l)) = k * how_many l.
Proof.
  induction l as [|a l IH]; intros H; [cbn; lia|].
  change (mjoin (map f (a :: l))) with (f a ++ mjoin (map f l)).
  rewrite how_many_app, IH by (intros; apply H; by right). rewrite (H a) by left.
  unfold how_many. cbn [length]. lia.
Qed.
Lemma enc_fixed_size ids : how_many (enc_fixed ids) = var_size (how_many ids) + 4 * how_many ids.
Proof.
  unfold enc_fixed, vec_len_prefix. rewrite how_many_app. f_equal.
  apply mjoin_length. intros a _. unfold how_many. by rewrite le_bytes_length.
Qed.
Lemma rec_size_range cs : cs <> [] -> 5 <= uniform_rec_size cs <= 8.
Proof.
  intros Hne. destruct cs as [|c cs]; [done|]. clear Hne. unfold uniform_rec_size.
  assert (Hm : forall c, 5 <= coord_min_size c <= 8) by (intros; unfold coord_min_size; repeat case_match; lia).
  assert (Hle : forall l, fold_right N.max 0 (map coord_min_size l) <= 8).
  { induction l as [|a l IH]; cbn [map fold_right]; [lia|]. pose proof (Hm a). lia. }
  cbn [map fold_right]. pose proof (Hm c). pose proof (Hle cs). lia.
Qed.
Lemma enc_uniform_size cs :
  exists w, 5 <= w <= 8 /\ how_many (enc_uniform cs) = var_size (how_many cs) + 1 + how_many cs * w.
Proof.
  destruct (decide (cs = [])) as [->|Hne].
  { exists 5. split; [lia|]. reflexivity. }
  pose proof (rec_size_range cs Hne) as Hr. exists (uniform_rec_size cs). split; [done|].
  unfold enc_uniform, vec_len_prefix. rewrite !how_many_app.
  rewrite (mjoin_length _ (uniform_rec_size cs)).
  - fold (how_many cs). fold (var_size (how_many cs)). change (how_many [as_u8 (uniform_rec_size cs)]) with 1. lia.
  - intros c _. unfold how_many, write_coord. rewrite app_length, take_length, !le_bytes_length. lia.
Qed.
Lemma enc_var_size rss :
  how_many (enc_var rss) = var_size (how_many rss) + total (fun a => 1 + var_size a) (map rs_coords rss).
Proof.
  unfold enc_var, vec_len_prefix. rewrite how_many_app. f_equal.
  induction rss as [|r rss IH]; [done|].
  change (mjoin (map write_relev_score (r :: rss))) with (write_relev_score r ++ mjoin (map write_relev_score rss)).
  rewrite how_many_app, IH. unfold total. cbn [map fold_right]. f_equal.
  unfold write_relev_score, how_many, var_size, how_many. cbn [length]. lia.
Qed.

Definition list_size (ids : list N) : N := var_size (how_many ids) + 4 * how_many ids.
Lemma tbl_insert (tbl : id_table) ids a :
  <[ids := a]> tbl !! ids = Some a /\ forall x, x <> ids -> <[ids := a]> tbl !! x = tbl !! x.
Proof. split; [apply lookup_insert|]. intros x Hx. by apply lookup_insert_ne. Qed.
Lemma enc_cells_lists l : forall w tbl coords w1 tbl1 coords1,
  foldl enc_cell (w, tbl, coords) l = (w1, tbl1, coords1) ->
  exists new, NoDup new /\
    (forall ids, ids ∈ new <-> ids ∈ map snd l /\ tbl !! ids = None) /\
    (forall ids, is_Some (tbl1 !! ids) <-> is_Some (tbl !! ids) \/ ids ∈ map snd l) /\
    how_many w1 = how_many w + total list_size new /\ length coords1 = (length coords + length l)%nat.
Proof.
  induction l as [|[z ids] l IH]; intros w tbl coords w1 tbl1 coords1 E; cbn [foldl map snd] in *.
  - injection E as -> -> ->. exists []. split; [constructor|]. split; [|split; [|split]].
    + intros ids. split; [by intros ?%elem_of_nil|]. by intros [?%elem_of_nil _].
    + intros ids. split; [by left|]. by intros [|?%elem_of_nil].
    + cbn. lia.
    + cbn [length]. lia.
  - unfold enc_cell in E at 2. cbn [fst snd] in E. destruct (tbl !! ids) as [off|] eqn:Et.
    + apply IH in E as (new & H1 & H2 & H3 & H4 & H5). exists new. split; [done|]. split; [|split; [|split]].
      * intros x. rewrite H2, elem_of_cons. split; [naive_solver|]. intros [[->|?] ?]; [congruence|done].
      * intros x. rewrite H3, elem_of_cons. split; [naive_solver|]. intros [?|[->|?]]; [by left| |by right].
        left. by rewrite Et.
      * done.
      * rewrite H5, app_length. cbn [length]. lia.
    + apply IH in E as (new & H1 & H2 & H3 & H4 & H5). exists (ids :: new).
      pose proof (tbl_insert tbl ids (N.of_nat (length w))) as [Hi1 Hi2]. split; [|split; [|split; [|split]]].
      * constructor; [|done]. rewrite H2. intros [_ H]. by rewrite Hi1 in H.
      * intros x. rewrite !elem_of_cons, H2. destruct (decide (x = ids)) as [->|Hx].
        -- split; [intros _; split; [by left|done]|by left].
        -- rewrite Hi2 by done. naive_solver.
      * intros x. rewrite H3, elem_of_cons. destruct (decide (x = ids)) as [->|Hx].
        -- rewrite Hi1. split; [by right; left|]. intros _. left. eauto.
        -- rewrite Hi2 by done. naive_solver.
      * rewrite H4, how_many_app, enc_fixed_size. unfold total, list_size. cbn [fold_right]. lia.
      * rewrite H5, app_length. cbn [length]. lia.
Qed.

Definition group_size (gw : (N * list (N * list N)) * N) : N :=
  var_size (how_many gw.1.2) + 1 + how_many gw.1.2 * gw.2.
Lemma enc_groups_lists n : forall w tbl rss w1 tbl1 rss1,
  foldl enc_group (w, tbl, rss) n = (w1, tbl1, rss1) ->
  exists new widths addrs, NoDup new /\
    (forall ids, ids ∈ new <-> ids ∈ lists_of n /\ tbl !! ids = None) /\
    Forall2 (fun _ w => 5 <= w <= 8) n widths /\
    Forall2 (fun _ a => a < how_many w1) n addrs /\
    map rs_coords rss1 = map rs_coords rss ++ addrs /\
    how_many w1 = how_many w + total list_size new + total group_size (zip n widths).
Proof.
  induction n as [|[r cells] n IH]; intros w tbl rss w1 tbl1 rss1 E; cbn [foldl] in E.
  - injection E as -> -> ->. exists [], [], []. split; [constructor|]. split; [|split; [constructor|split; [constructor|split]]].
    + intros ids. split; [by intros ?%elem_of_nil|]. by intros [?%elem_of_nil _].
    + by rewrite app_nil_r.
    + cbn. lia.
  - unfold enc_group in E at 2. cbn [fst snd] in E.
    destruct (foldl enc_cell (w, tbl, []) cells) as [[w2 tbl2] coords] eqn:Ec.
    apply enc_cells_lists in Ec as (new & H1 & H2 & H3 & H4 & H5). cbn [length] in H5.
    destruct (enc_uniform_size coords) as (wd & Hw & Hu).
    apply IH in E as (new' & ws & addrs & G1 & G2 & G3 & G4 & G5 & G6).
    exists (new ++ new'), (wd :: ws), (how_many w2 :: addrs).
    assert (Hc : how_many coords = how_many cells) by (unfold how_many; lia). rewrite Hc in Hu.
    assert (Hlt : how_many w2 < how_many w1).
    { rewrite G6, how_many_app, Hu. lia. }
    split; [|split; [|split; [|split; [|split]]]].
    + apply NoDup_app. split; [done|]. split; [|done]. intros x Hx Hx'. apply H2 in Hx as [Hx _].
      apply G2 in Hx' as [_ Hx']. assert (is_Some (tbl2 !! x)) as [? ?] by (apply H3; by right). congruence.
    + intros x. rewrite elem_of_app, H2, G2. change (lists_of ((r, cells) :: n)) with (map snd cells ++ lists_of n).
      rewrite elem_of_app. pose proof (H3 x) as Hx. destruct (tbl !! x) eqn:Ex, (tbl2 !! x) eqn:E2.
      * naive_solver.
      * exfalso. assert (is_Some (@None N)) as [? ?] by (apply Hx; left; eauto). done.
      * assert (x ∈ map snd cells) by (destruct Hx as [[[? ?]|?] _]; [eauto|done|done]). naive_solver.
      * assert (~ x ∈ map snd cells) by (intros ?; assert (is_Some (@None N)) as [? ?] by (apply Hx; by right); done).
        naive_solver.
    + by constructor.
    + by constructor.
    + rewrite G5. rewrite List.map_app. cbn [map rs_coords]. by rewrite <- app_assoc.
    + rewrite G6, how_many_app, H4, total_app, Hu.
      change (total group_size (zip ((r, cells) :: n) (wd :: ws)))
        with (group_size ((r, cells), wd) + total group_size (zip n ws)).
      change (group_size ((r, cells), wd)) with (var_size (how_many cells) + 1 + how_many cells * wd). lia.
Qed.

Lemma encode_record_takes n : how_many (encode_record n) < 2 ^ 32 -> takes (encode_record n) n.
Proof.
  unfold encode_record. destruct (foldl enc_group ([], ∅, []) n) as [[w tbl] rss] eqn:E. intros Hlen.
  apply enc_groups_lists in E as (new & ws & addrs & H1 & H2 & H3 & H4 & H5 & H6).
  assert (Hroot : how_many (write_root (w ++ enc_var rss) (N.of_nat (length w)))
                  = how_many w + how_many (enc_var rss) + 4).
  { unfold write_root. rewrite !how_many_app. unfold how_many at 3. rewrite le_bytes_length. lia. }
  exists new, ws, addrs. rewrite Hroot in *. rewrite enc_var_size in *. cbn [map app] in H5. rewrite H5 in *.
  assert (Hn : how_many rss = how_many n).
  { unfold how_many. f_equal. rewrite <- (map_length rs_coords), H5. symmetry. by eapply Forall2_length. }
  rewrite Hn in *. change (how_many []) with 0 in H6.
  split; [done|]. split; [|split; [done|split]].
  - intros ids. rewrite H2. assert ((∅ : id_table) !! ids = None) as He by apply lookup_empty. naive_solver.
  - eapply Forall2_impl; [exact H4|]. cbn. intros. lia.
  - assert (HA : total (fun a => 1 + var_size a) addrs = total (fun a => 1 + leb_size a) addrs).
    { apply total_ext. intros a Ha. f_equal. apply var_size_leb.
      apply (elem_of_list_lookup_1) in Ha as [i Hi]. destruct (Forall2_lookup_r _ _ _ _ _ H4 Hi) as (? & _ & ?). lia. }
    assert (HG : total group_size (zip n ws) = total (fun gw : (N * list (N * list N)) * N =>
               leb_size (how_many gw.1.2) + 1 + how_many gw.1.2 * gw.2) (zip n ws)).
    { apply total_ext. intros [g wd] Hg. unfold group_size. cbn [fst snd]. rewrite var_size_leb; [done|].
      pose proof (total_ge group_size _ _ Hg) as Hb. unfold group_size at 1 in Hb. cbn [fst snd] in Hb.
      assert (5 <= wd).
      { apply elem_of_zip_r in Hg. apply elem_of_list_lookup_1 in Hg as [i Hi].
        destruct (Forall2_lookup_r _ _ _ _ _ H3 Hi) as (? & _ & ?). lia. }
      nia. }
    assert (HL : total list_size new = total (fun ids => leb_size (how_many ids) + 4 * how_many ids) new).
    { apply total_ext. intros ids Hi. unfold list_size. rewrite var_size_leb; [done|].
      pose proof (total_ge list_size _ _ Hi) as Hb. unfold list_size at 1 in Hb. lia. }
    rewrite <- HA, <- HG, <- HL, H6. rewrite <- var_size_leb; [lia|].
    assert (how_many n <= total (fun a => 1 + var_size a) addrs).
    { replace (how_many n) with (how_many addrs) by (unfold how_many; f_equal; symmetry; by eapply Forall2_length).
      clear. induction addrs as [|a l IH]; unfold how_many, total in *; cbn [length fold_right]; lia. }
    lia.
Qed.

(** Two readings of the same bytes are the same. *)
Lemma reads_unique data n n' : reads data n -> reads data n' -> n = n'.
Proof.
  intros (root & rss & Hr & Hv & Hg) (root' & rss' & Hr' & Hv' & Hg').
  assert (root' = root) as -> by congruence. assert (rss' = rss) as -> by congruence. clear -Hg Hg'.
  revert n' Hg'. induction Hg as [|r [g cells] rss n (E & cs & Hu & Hc) Hg IH]; intros n' Hg'; inversion Hg'; subst; [done|].
  f_equal; [|by apply IH]. destruct y as [g' cells']. destruct H1 as (E' & cs' & Hu' & Hc'). cbn [fst snd] in *.
  assert (cs' = cs) as -> by congruence. f_equal; [congruence|]. clear -Hc Hc'. revert cells' Hc'.
  induction Hc as [|c [z ids] cs cells [Ez Ei] Hc IH]; intros cells' Hc'; inversion Hc'; subst; [done|].
  f_equal; [|by apply IH]. destruct y as [z' ids']. destruct H1 as [Ez' Ei']. cbn [fst snd] in *.
  f_equal; congruence.
Qed.
Lemma laid_unique data n n' :
  N.of_nat (length data) < 2 ^ 32 -> record_laid data n -> record_laid data n' -> n = n'.
Proof. intros Hl H H'. eapply reads_unique; by apply laid_reads. Qed.
