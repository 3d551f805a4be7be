(** A reference encoder that writes every id list anew, and the proof that the
    sharing of the real encoder cannot be observed by the readers. *)
From Verif Require Import Prelude Lists F64 Common Morton Format Format_proofs Builder Store
  Record_proofs Spec Bits_proofs Builder_proofs Finish_proofs Store_proofs.
Local Open Scope N_scope.

(** get_encoded_value without the table of id lists already written. *)
Definition encode_cell_unshared (st : bytes * list coord) (c : N * list N) : bytes * list coord :=
  let '(off, w') := write_fixed_vec st.1 (sort_ids c.2) in
  (w', st.2 ++ [Coord c.1 off]).
Definition encode_group_unshared (o : hash_oracle) (site : list N)
    (st : bytes * list relev_score) (g : N * gmap N (list N)) : bytes * list relev_score :=
  let '(w1, coords) :=
    foldl encode_cell_unshared (st.1, []) (isort desc_key (hash_iter o (g.1 :: site) g.2)) in
  let '(off, w2) := write_uniform_vec w1 coords in
  (w2, st.2 ++ [RelevScore g.1 off]).
Definition get_encoded_value_unshared (o : hash_oracle) (site : list N)
    (value : gmap N (gmap N (list N))) : bytes :=
  let '(w, rss) := foldl (encode_group_unshared o site) ([], [])
                         (isort desc_key (hash_iter o site value)) in
  let '(addr, w1) := write_var_vec w rss in
  write_root w1 addr.

Definition enc_cell_u (st : bytes * list coord) (c : N * list N) : bytes * list coord :=
  (st.1 ++ enc_fixed c.2, st.2 ++ [Coord c.1 (N.of_nat (length st.1))]).
Definition enc_group_u (st : bytes * list relev_score) (g : N * list (N * list N))
  : bytes * list relev_score :=
  let '(w1, coords) := foldl enc_cell_u (st.1, []) g.2 in
  (w1 ++ enc_uniform coords, st.2 ++ [RelevScore g.1 (N.of_nat (length w1))]).
Definition encode_record_u (n : list (N * list (N * list N))) : bytes :=
  let '(w, rss) := foldl enc_group_u ([], []) n in
  write_root (w ++ enc_var rss) (N.of_nat (length w)).

Lemma foldl_encode_cell_u st l :
  foldl encode_cell_unshared st l
  = foldl enc_cell_u st (map (fun c : N * list N => (c.1, sort_ids c.2)) l).
Proof. revert st. induction l as [|c l IH]; intros [w coords]; simpl; [done|]. apply IH. Qed.
Lemma foldl_encode_group_u o site st l :
  foldl (encode_group_unshared o site) st l
  = foldl enc_group_u st (map (fun g : N * gmap N (list N) => (g.1, norm_cells g.2)) l).
Proof.
  revert st. induction l as [|g l IH]; intros [w rss]; simpl; [done|].
  rewrite IH. f_equal. unfold encode_group_unshared, enc_group_u, norm_cells. simpl.
  rewrite isort_hash_iter, foldl_encode_cell_u.
  destruct (foldl enc_cell_u _ _) as [w1 coords]. done.
Qed.
Lemma get_encoded_value_u_norm o site v : get_encoded_value_unshared o site v = encode_record_u (norm v).
Proof.
  unfold get_encoded_value_unshared, encode_record_u, norm.
  rewrite isort_hash_iter, foldl_encode_group_u.
  destruct (foldl enc_group_u _ _) as [w rss]. done.
Qed.

Lemma enc_cells_u_ok l : forall w coords dn w1 coords1,
  cells_ok w coords dn -> foldl enc_cell_u (w, coords) l = (w1, coords1) ->
  cells_ok w1 coords1 (dn ++ l) /\ exists w', w1 = w ++ w'.
Proof.
  induction l as [|[z ids] l IH]; intros w coords dn w1 coords1 Hc E; simpl in E.
  - injection E as -> ->. rewrite app_nil_r. split; [done|]. exists []. by rewrite app_nil_r.
  - unfold enc_cell_u in E at 2. cbn [fst snd] in E.
    destruct (IH (w ++ enc_fixed ids) (coords ++ [Coord z (N.of_nat (length w))]) (dn ++ [(z, ids)]) w1 coords1)
      as (H2 & (w' & ->)); [|done|].
    + apply Forall2_app; [by apply cells_ok_app|]. constructor; [|constructor].
      split; [done|]. exists w, []. by rewrite app_nil_r.
    + rewrite <- (app_assoc dn) in H2. split; [done|].
      exists (enc_fixed ids ++ w'). by rewrite <- app_assoc.
Qed.
Lemma enc_groups_u_ok n : forall w rss dn w1 rss1,
  groups_ok w rss dn -> foldl enc_group_u (w, rss) n = (w1, rss1) -> groups_ok w1 rss1 (dn ++ n).
Proof.
  induction n as [|[r cells] n IH]; intros w rss dn w1 rss1 Hg E; cbn [foldl] in E.
  - injection E as -> ->. by rewrite app_nil_r.
  - unfold enc_group_u in E at 2. cbn [fst snd] in E.
    destruct (foldl enc_cell_u (w, []) cells) as [w2 coords] eqn:Ec.
    destruct (enc_cells_u_ok cells w [] [] w2 coords) as (H2 & (w' & ->)); [constructor|done|].
    apply (IH _ _ (dn ++ [(r, cells)])) in E.
    + by rewrite <- app_assoc in E.
    + apply Forall2_app; [by apply groups_ok_app, groups_ok_app|].
      constructor; [|constructor]. split; [done|]. exists coords. split.
      * exists (w ++ w'), []. by rewrite app_nil_r.
      * by apply cells_ok_app.
Qed.

Lemma encode_record_u_reads n :
  rec_wf n -> N.of_nat (length (encode_record_u n)) < 2 ^ 32 -> reads (encode_record_u n) n.
Proof.
  intros Hwf. unfold encode_record_u.
  destruct (foldl enc_group_u ([], []) n) as [w rss] eqn:E.
  apply (enc_groups_u_ok n [] [] []) in E; [|constructor]. by apply groups_ok_reads.
Qed.

Lemma sharing_unobservable o site v :
  rec_wf (norm v) ->
  N.of_nat (length (get_encoded_value o site v)) < 2 ^ 32 ->
  N.of_nat (length (get_encoded_value_unshared o site v)) < 2 ^ 32 ->
  decode_value (get_encoded_value o site v) = decode_value (get_encoded_value_unshared o site v) /\
  exists es, decode_value (get_encoded_value o site v) = Ok es.
Proof.
  intros Hwf. rewrite get_encoded_value_norm, get_encoded_value_u_norm. intros H1 H2.
  rewrite (decode_reads _ _ (encode_record_reads _ Hwf H1)),
          (decode_reads _ _ (encode_record_u_reads _ Hwf H2)). eauto.
Qed.
