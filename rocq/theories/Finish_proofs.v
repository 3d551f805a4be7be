(** What the builder holds after a history of calls, and what [finish] writes. *)
From Verif Require Import Prelude Lists F64 Common Morton Format Format_proofs Builder Store
  Record_proofs Spec Bits_proofs Builder_proofs.
Local Open Scope N_scope.

(** ** Histories *)
(** The entry map holds exactly the packed form of the entries [es]. *)
Definition holds (be : gmap N (gmap N (list N))) (es : list grid_entry) : Prop :=
  forall rs z v, be_has be rs z v <-> exists e, e ∈ es /\ packed e = (rs, z, v).

Lemma be_has_empty rs z v : ~ be_has ∅ rs z v.
Proof. intros (c & i & H & _). by rewrite lookup_empty in H. Qed.
Lemma holds_nil : holds ∅ [].
Proof.
  intros rs z v. split; [intros H; by apply be_has_empty in H|]. intros (e & H & _).
  by apply elem_of_nil in H.
Qed.
Lemma holds_extend be es vs : holds be es -> holds (extend_entries be vs) (es ++ vs).
Proof.
  intros H rs z v. rewrite extend_entries_has, (H rs z v). setoid_rewrite elem_of_app. naive_solver.
Qed.

Definition compact_cells (i h : N) (cells : gmap N (list N)) (coords : list (N * N)) :=
  foldl (fun cells (xy : N * N) =>
    partial_alter (extend_cell [pack_id i h]) (interleave xy.1 xy.2) cells) cells coords.
Lemma compact_cells_has i h coords : forall cells z v,
  cells_has (compact_cells i h cells coords) z v <->
  cells_has cells z v \/ (v = pack_id i h /\ exists xy, xy ∈ coords /\ z = interleave xy.1 xy.2).
Proof.
  induction coords as [|xy coords IH]; intros cells z v; unfold compact_cells; simpl.
  - split; [by left|]. intros [?|[_ (? & H & _)]]; [done|]. by apply elem_of_nil in H.
  - fold (compact_cells i h (partial_alter (extend_cell [pack_id i h]) (interleave xy.1 xy.2) cells) coords).
    rewrite IH, cells_has_alter.
    assert (HE : v ∈ default [] (extend_cell [pack_id i h] (cells !! interleave xy.1 xy.2)) <->
                 cells_has cells (interleave xy.1 xy.2) v \/ v = pack_id i h).
    { unfold cells_has, extend_cell. destruct (cells !! interleave xy.1 xy.2) as [ids|] eqn:E; simpl.
      - rewrite elem_of_app, elem_of_list_singleton. split; [|naive_solver].
        intros [?|?]; [left; eauto|by right].
      - rewrite elem_of_list_singleton. naive_solver. }
    setoid_rewrite elem_of_cons. rewrite HE. destruct (decide (z = interleave xy.1 xy.2)) as [->|Hne].
    + naive_solver.
    + naive_solver.
Qed.
Lemma compact_cells_full i h coords : forall cells,
  cells_full cells -> cells_full (compact_cells i h cells coords).
Proof.
  induction coords as [|xy coords IH]; intros cells Hc; unfold compact_cells; simpl; [done|].
  apply IH. apply cells_full_alter; [done|]. unfold extend_cell. intros ids.
  destruct (cells !! _); intros [= <-]; [|done]. by destruct l.
Qed.

Lemma holds_compact be es r s i h cs :
  holds be es ->
  holds (<[pack_rs r s := compact_cells i h (default ∅ (be !! pack_rs r s)) cs]> be)
        (es ++ compact_entries r s i h cs).
Proof.
  intros H rs z v. rewrite be_has_default.
  transitivity (be_has be rs z v \/
    exists e, e ∈ compact_entries r s i h cs /\ packed e = (rs, z, v)).
  2: { rewrite (H rs z v). setoid_rewrite elem_of_app. naive_solver. }
  assert (HC : (exists e, e ∈ compact_entries r s i h cs /\ packed e = (rs, z, v)) <->
               rs = pack_rs r s /\ v = pack_id i h /\ exists xy, xy ∈ cs /\ z = interleave xy.1 xy.2).
  { unfold compact_entries, packed. split.
    - intros (e & (xy & -> & Hxy)%elem_of_map & [= <- <- <-]). simpl. eauto 6.
    - intros (-> & -> & xy & Hxy & ->). exists (GridEntry r s xy.1 xy.2 i h).
      split; [|done]. apply elem_of_map. by exists xy. }
  rewrite HC. clear HC. destruct (decide (rs = pack_rs r s)) as [->|Hne].
  - rewrite lookup_insert. simpl. rewrite compact_cells_has, <- be_has_default. naive_solver.
  - rewrite lookup_insert_ne by done. rewrite <- be_has_default. naive_solver.
Qed.

(** The builder and the written entries agree. *)
Definition data_rel (data : gmap (N * N) (gmap N (gmap N (list N))))
    (w : gmap (N * N) (list grid_entry)) : Prop :=
  forall k, match data !! k, w !! k with
            | Some be, Some es => holds be es
            | None, None => True
            | _, _ => False
            end.

Lemma data_rel_insert data w k be es :
  data_rel data w -> holds be es -> data_rel (<[k := be]> data) (<[k := es]> w).
Proof.
  intros H Hh k'. destruct (decide (k' = k)) as [->|Hne].
  - by rewrite !lookup_insert.
  - rewrite !lookup_insert_ne by done. apply H.
Qed.
Lemma data_rel_default data w k :
  data_rel data w -> holds (default ∅ (data !! k)) (default [] (w !! k)).
Proof. intros H. specialize (H k). do 2 case_match; simpl; try done. apply holds_nil. Qed.

Lemma apply_op_rel b w o :
  data_rel (b_data b) w -> data_rel (b_data (apply_op b o)) (written_step w o).
Proof.
  intros H. destruct o as [k es|k es|k r s i h cs|bs]; simpl; [..|done]; apply data_rel_insert; try done.
  - apply (holds_extend ∅ []), holds_nil.
  - by apply holds_extend, data_rel_default.
  - by apply holds_compact, data_rel_default.
Qed.
Theorem run_rel ops : data_rel (b_data (run ops)) (written ops).
Proof.
  unfold run, written. induction ops as [|o ops IH] using rev_ind.
  - intros k. unfold builder_new. cbn [foldl b_data]. by rewrite !lookup_empty.
  - rewrite !foldl_app. simpl. by apply apply_op_rel.
Qed.

(** Ranges. *)
Definition written_ok (w : gmap (N * N) (list grid_entry)) : Prop :=
  forall k es, w !! k = Some es -> key_ok k /\ Forall entry_ok es.
Lemma written_step_ok w o : written_ok w -> op_ok o -> written_ok (written_step w o).
Proof.
  intros Hw Ho. assert (Hd : forall k, Forall entry_ok (default [] (w !! k))).
  { intros k. destruct (w !! k) eqn:E; simpl; [|constructor]. by apply Hw in E as [_ ?]. }
  assert (Hk : forall k es, key_ok k -> Forall entry_ok es -> written_ok (<[k := es]> w)).
  { intros k es Hk Hes k' es' [[<- <-]|[_ ?]]%lookup_insert_Some; eauto. }
  destruct o as [k es|k es|k r s i h cs|bs]; simpl in *; [..|done].
  - destruct Ho. by apply Hk.
  - destruct Ho. apply Hk; [done|]. by apply Forall_app.
  - destruct Ho as (H1 & H2 & H3 & H4 & H5). apply Hk; [done|]. apply Forall_app. split; [done|].
    unfold compact_entries. apply Forall_forall. intros e (xy & -> & Hxy)%elem_of_map.
    rewrite Forall_forall in H5. apply H5 in Hxy as [Hx Hy].
    split_and!; done.
Qed.
Lemma written_all_ok ops : Forall op_ok ops -> written_ok (written ops).
Proof.
  unfold written. induction ops as [|o ops IH] using rev_ind; intros H.
  - intros k es. cbn [foldl]. by rewrite lookup_empty.
  - apply Forall_app in H as [H1 H2]. rewrite foldl_app. simpl.
    apply written_step_ok; [by apply IH|]. by inversion H2.
Qed.
Lemma run_bounds_ok ops : Forall op_ok ops -> Forall (fun b => b < 2 ^ 32) (b_bounds (run ops)).
Proof.
  unfold run. induction ops as [|o ops IH] using rev_ind; intros H; [constructor|].
  apply Forall_app in H as [H1 H2]. rewrite foldl_app. simpl. inversion H2; subst.
  destruct o; simpl; auto.
Qed.

(** Every group number is a byte and no cell is empty. *)
Definition be_semi (be : gmap N (gmap N (list N))) : Prop :=
  forall rs cells, be !! rs = Some cells -> cells_full cells /\ rs < 2 ^ 8.
Lemma be_semi_empty : be_semi ∅.
Proof. intros ? ? ?%lookup_empty_Some. done. Qed.
Lemma extend_group_semi be g :
  g.1 < 2 ^ 8 -> be_semi be -> be_semi (extend_group be g).
Proof.
  intros Hg Hb rs cells. unfold extend_group. destruct (decide (rs = g.1)) as [->|Hne].
  - rewrite lookup_partial_alter. intros [= <-]. split; [|done].
    apply foldl_extend_cells_full.
    + apply Forall_forall. intros [k vs] Hin.
      by apply (group_consec_key _ N.eqb g.2 k vs eqb_eq_N) in Hin as [? _].
    + destruct (be !! g.1) as [cells|] eqn:E; simpl; [|apply cells_full_empty].
      by apply Hb in E as [? _].
  - rewrite lookup_partial_alter_ne by done. apply Hb.
Qed.
Lemma extend_entries_semi be vs :
  Forall entry_ok vs -> be_semi be -> be_semi (extend_entries be vs).
Proof.
  intros Hv Hb. unfold extend_entries.
  set (key := fun v0 : grid_entry => pack_rs (ge_relev v0) (ge_score v0)).
  pose proof (eager_groupby_grouping key N.eqb vs) as HG.
  assert (Hne : Forall (fun g => g.1 < 2 ^ 8) (eager_groupby key N.eqb vs)).
  { apply Forall_forall. intros [k g] Hin.
    destruct (grouping_elem _ _ _ _ _ _ HG Hin) as (a & run & -> & -> & _ & Hi).
    simpl. apply pack_rs_lt. rewrite Forall_forall in Hv. apply Hv, Hi. left. }
  clear HG. revert be Hb. induction Hne as [|g gs Hg Hgs IH]; intros be Hb; simpl; [done|].
  apply IH. by apply extend_group_semi.
Qed.
Definition data_semi (data : gmap (N * N) (gmap N (gmap N (list N)))) : Prop :=
  forall k be, data !! k = Some be -> be_semi be.
Lemma apply_op_semi b o : op_ok o -> data_semi (b_data b) -> data_semi (b_data (apply_op b o)).
Proof.
  intros Ho Hb. assert (Hd : forall k, be_semi (default ∅ (b_data b !! k))).
  { intros k. destruct (b_data b !! k) eqn:E; simpl; [by eapply Hb|apply be_semi_empty]. }
  destruct o as [k es|k es|k r s i h cs|bs]; simpl in *; [..|done];
    intros k' be [[<- <-]|[_ ?]]%lookup_insert_Some; eauto; destruct Ho as [_ Ho].
  - by apply extend_entries_semi, be_semi_empty.
  - by apply extend_entries_semi.
  - specialize (Hd k). set (be := default ∅ (b_data b !! k)) in *.
    intros rs cells [[<- <-]|[_ ?]]%lookup_insert_Some; [|eauto].
    fold (compact_cells i h (default ∅ (be !! pack_rs r s)) cs). split; [|apply pack_rs_lt; tauto].
    apply compact_cells_full. destruct (be !! pack_rs r s) eqn:E; simpl; [|apply cells_full_empty].
    by apply Hd in E as [? _].
Qed.
Lemma run_semi ops : Forall op_ok ops -> data_semi (b_data (run ops)).
Proof.
  unfold run. induction ops as [|o ops IH] using rev_ind; intros H.
  - intros k be. unfold builder_new. cbn [foldl b_data]. by rewrite lookup_empty.
  - apply Forall_app in H as [H1 H2]. rewrite foldl_app. simpl. inversion H2; subst.
    apply apply_op_semi; auto.
Qed.

(** Histories that leave no empty cell behind: a compact append of no coordinate
    would create an empty group. *)
Definition op_nonempty (o : op) : Prop :=
  match o with OpCompact _ _ _ _ _ cs => cs <> [] | _ => True end.
Definition data_full (data : gmap (N * N) (gmap N (gmap N (list N)))) : Prop :=
  forall k be, data !! k = Some be -> be_full be.
Lemma apply_op_full b o :
  op_nonempty o -> data_full (b_data b) -> data_full (b_data (apply_op b o)).
Proof.
  intros Ho Hb. assert (Hd : forall k, be_full (default ∅ (b_data b !! k))).
  { intros k. destruct (b_data b !! k) eqn:E; simpl; [by eapply Hb|apply be_full_empty]. }
  destruct o as [k es|k es|k r s i h cs|bs]; simpl; [..|done];
    intros k' be [[<- <-]|[_ ?]]%lookup_insert_Some; eauto.
  - apply extend_entries_full, be_full_empty.
  - by apply extend_entries_full.
  - specialize (Hd k). set (be := default ∅ (b_data b !! k)) in *.
    intros rs cells [[<- <-]|[_ ?]]%lookup_insert_Some; [|eauto].
    fold (compact_cells i h (default ∅ (be !! pack_rs r s)) cs). split.
    + destruct cs as [|xy cs]; [done|].
      apply (cells_has_nonempty _ (interleave xy.1 xy.2) (pack_id i h)).
      apply compact_cells_has. right. split; [done|]. exists xy. split; [left|done].
    + apply compact_cells_full. destruct (be !! pack_rs r s) eqn:E; simpl; [|apply cells_full_empty].
      by apply Hd in E as [_ ?].
Qed.
Lemma run_full ops : Forall op_nonempty ops -> data_full (b_data (run ops)).
Proof.
  unfold run. induction ops as [|o ops IH] using rev_ind; intros H.
  - intros k be. unfold builder_new. cbn [foldl b_data]. by rewrite lookup_empty.
  - apply Forall_app in H as [H1 H2]. rewrite foldl_app. simpl. inversion H2; subst.
    apply apply_op_full; auto.
Qed.

(** ** Copying entries into a bin *)
Lemma copy_cells_list_has (l : list (N * list N)) : forall d z v,
  cells_has (foldl (fun d (zv : N * list N) =>
     partial_alter (fun old => Some (default [] old ++ zv.2)) zv.1 d) d l) z v <->
  cells_has d z v \/ exists zv, zv ∈ l /\ zv.1 = z /\ v ∈ zv.2.
Proof.
  induction l as [|[z0 vs] l IH]; intros d z v; simpl.
  - split; [by left|]. intros [?|(? & H & _)]; [done|]. by apply elem_of_nil in H.
  - rewrite IH, cells_has_alter. simpl. rewrite elem_of_app.
    assert (HE : v ∈ default [] (d !! z0) <-> cells_has d z0 v).
    { unfold cells_has. destruct (d !! z0) eqn:E; simpl; [naive_solver|].
      split; [by intros ?%elem_of_nil|naive_solver]. }
    rewrite HE. split.
    + intros [[[-> [H|H]]|[_ H]]|(zv & H & Hz & Hv)].
      * by left.
      * right. exists (z0, vs). split; [left|done].
      * by left.
      * right. exists zv. split; [by right|done].
    + intros [H|(zv & H & Hz & Hv)].
      * left. destruct (decide (z = z0)) as [->|Hne]; auto.
      * apply elem_of_cons in H as [->|H]; simpl in *; subst; [left; left; auto|].
        right. exists zv. done.
Qed.
Lemma elem_hash_iter {K V} `{Countable K} o site (m : gmap K V) k v :
  (k, v) ∈ hash_iter o site m <-> m !! k = Some v.
Proof. unfold hash_iter. rewrite (ho_perm o site). apply elem_of_map_to_list. Qed.
Lemma copy_cells_has o site dst src z v :
  cells_has (copy_cells o site dst src) z v <-> cells_has dst z v \/ cells_has src z v.
Proof.
  unfold copy_cells. rewrite copy_cells_list_has. f_equiv. unfold cells_has. split.
  - intros ([z' vs] & H & <- & Hv). apply elem_hash_iter in H. eauto.
  - intros (ids & H & Hv). exists (z, ids). split; [by apply elem_hash_iter|done].
Qed.
Lemma copy_cells_full o site dst src :
  cells_full dst -> cells_full src -> cells_full (copy_cells o site dst src).
Proof.
  intros Hd Hs. unfold copy_cells.
  assert (Hl : Forall (fun zv : N * list N => zv.2 <> []) (hash_iter o site src)).
  { apply Forall_forall. intros [z vs] H%elem_hash_iter. by apply Hs in H. }
  revert dst Hd. induction Hl as [|zv l Hz Hl IH]; intros dst Hd; simpl; [done|].
  apply IH. apply cells_full_alter; [done|]. intros ids [= <-]. destruct zv as [z [|v vs]]; [done|].
  simpl. by destruct (default [] (dst !! z)).
Qed.

Lemma copy_entries_list_has o site (l : list (N * gmap N (list N))) : forall d rs z v,
  be_has (foldl (fun d (rv : N * gmap N (list N)) =>
    partial_alter (fun old => Some (copy_cells o (rv.1 :: site) (default ∅ old) rv.2)) rv.1 d) d l)
    rs z v <->
  be_has d rs z v \/ exists rv, rv ∈ l /\ rv.1 = rs /\ cells_has rv.2 z v.
Proof.
  induction l as [|[r0 vs] l IH]; intros d rs z v; simpl.
  - split; [by left|]. intros [?|(? & H & _)]; [done|]. by apply elem_of_nil in H.
  - rewrite IH. rewrite !be_has_default.
    assert (HC : (exists rv : N * gmap N (list N), rv ∈ (r0, vs) :: l /\ rv.1 = rs /\ cells_has rv.2 z v)
      <-> (rs = r0 /\ cells_has vs z v) \/ (exists rv, rv ∈ l /\ rv.1 = rs /\ cells_has rv.2 z v)).
    { setoid_rewrite elem_of_cons. split.
      - intros (rv & [->|H] & <- & Hv); [by left|right; eauto].
      - intros [[-> H]|(rv & H & Hv)]; [exists (r0, vs); auto|exists rv; auto]. }
    rewrite HC. clear HC. destruct (decide (rs = r0)) as [->|Hne].
    + rewrite lookup_partial_alter. simpl. rewrite copy_cells_has. tauto.
    + rewrite lookup_partial_alter_ne by done. tauto.
Qed.
Lemma copy_entries_has o site src dst rs z v :
  be_has (copy_entries o site src dst) rs z v <-> be_has dst rs z v \/ be_has src rs z v.
Proof.
  unfold copy_entries. rewrite copy_entries_list_has. f_equiv. rewrite be_has_alt. split.
  - intros ([z' vs] & H & <- & Hv). apply elem_hash_iter in H. eauto.
  - intros (cells & H & Hv). exists (rs, cells). split; [by apply elem_hash_iter|done].
Qed.
Lemma copy_entries_full o site src dst :
  be_full src -> be_full dst -> be_full (copy_entries o site src dst).
Proof.
  intros Hs Hd. unfold copy_entries.
  assert (Hl : Forall (fun rv : N * gmap N (list N) => rv.2 <> ∅ /\ cells_full rv.2)
                      (hash_iter o site src)).
  { apply Forall_forall. intros [z vs] H%elem_hash_iter. by apply Hs in H. }
  revert dst Hd. induction Hl as [|rv l [Hne Hf] Hl IH]; intros dst Hd; simpl; [done|].
  apply IH. intros rs cells. destruct (decide (rs = rv.1)) as [->|Hr].
  - rewrite lookup_partial_alter. intros [= <-]. split.
    + apply map_choose in Hne as (z & ids & Hz). pose proof (Hf _ _ Hz) as Hids.
      destruct ids as [|v ids]; [done|].
      apply (cells_has_nonempty _ z v). apply copy_cells_has. right.
      exists (v :: ids). split; [done|left].
    + apply copy_cells_full; [|done]. destruct (dst !! rv.1) eqn:E; simpl; [|apply cells_full_empty].
      by apply Hd in E as [_ ?].
  - rewrite lookup_partial_alter_ne by done. apply Hd.
Qed.

Lemma copy_entries_semi o site src dst :
  be_semi src -> be_semi dst -> be_semi (copy_entries o site src dst).
Proof.
  intros Hs Hd. unfold copy_entries.
  assert (Hl : Forall (fun rv : N * gmap N (list N) => cells_full rv.2 /\ rv.1 < 2 ^ 8)
                      (hash_iter o site src)).
  { apply Forall_forall. intros [z vs] H%elem_hash_iter. by apply Hs in H. }
  revert dst Hd. induction Hl as [|rv l [Hf Hr] Hl IH]; intros dst Hd; simpl; [done|].
  apply IH. intros rs cells. destruct (decide (rs = rv.1)) as [->|Hne].
  - rewrite lookup_partial_alter. intros [= <-]. split; [|done].
    apply copy_cells_full; [|done]. destruct (dst !! rv.1) eqn:E; simpl; [|apply cells_full_empty].
    by apply Hd in E as [? _].
  - rewrite lookup_partial_alter_ne by done. apply Hd.
Qed.

(** ** The writes of [finish] *)
Notation bent := (gmap N (gmap N (list N))) (only parsing).
Definition enc (be : bent) : bytes := encode_record (norm be).
Definition single_put (it : (N * N) * bent) : bytes * bytes :=
  (write_key SinglePhrase it.1, enc it.2).

(** The merged entry of language set [l] over a list of items. *)
Record merged_ok (its : list ((N * N) * bent)) (langs : gmap N bent) : Prop := {
  mo_dom : forall l, is_Some (langs !! l) <-> exists it, it ∈ its /\ gk_lang it.1 = l;
  mo_has : forall l rs z v,
    be_has (default ∅ (langs !! l)) rs z v <->
    exists it, it ∈ its /\ gk_lang it.1 = l /\ be_has it.2 rs z v;
  mo_semi : (forall it, it ∈ its -> be_semi it.2) ->
            forall l be, langs !! l = Some be -> be_semi be;
  mo_full : (forall it, it ∈ its -> be_full it.2) ->
            forall l be, langs !! l = Some be -> be_full be }.

Lemma group_fold o its : forall puts0 langs0 dn,
  merged_ok dn langs0 ->
  let '(puts, langs) := foldl (group_item o) (puts0, langs0) its in
  puts = puts0 ++ map single_put its /\ merged_ok (dn ++ its) langs.
Proof.
  induction its as [|[k be] its IH]; intros puts0 langs0 dn H; cbn [foldl].
  - split; [by rewrite app_nil_r|]. by rewrite app_nil_r.
  - specialize (IH (puts0 ++ [single_put (k, be)])
      (<[gk_lang k := copy_entries o (0 :: write_key SinglePhrase k) be
                        (default ∅ (langs0 !! gk_lang k))]> langs0) (dn ++ [(k, be)])).
    unfold group_item at 2. rewrite get_encoded_value_norm.
    change (single_put (k, be)) with (write_key SinglePhrase k, encode_record (norm be)) in IH.
    destruct (foldl (group_item o) _ its) as [puts langs].
    destruct IH as [-> IH].
    + destruct H as [H1 H2 H2' H3]. split.
      * intros l. setoid_rewrite elem_of_app. setoid_rewrite elem_of_list_singleton.
        destruct (decide (l = gk_lang k)) as [->|Hne].
        -- rewrite lookup_insert. split; [intros _; exists (k, be); split; [by right|done]|by eauto].
        -- rewrite lookup_insert_ne by done. rewrite H1. naive_solver.
      * intros l rs z v. setoid_rewrite elem_of_app. setoid_rewrite elem_of_list_singleton.
        destruct (decide (l = gk_lang k)) as [->|Hne].
        -- rewrite lookup_insert. simpl. rewrite copy_entries_has, H2. naive_solver.
        -- rewrite lookup_insert_ne by done. rewrite H2. naive_solver.
      * intros Hf l be'. setoid_rewrite elem_of_app in Hf.
        intros [[<- <-]|[_ Hl]]%lookup_insert_Some.
        -- apply copy_entries_semi; [apply (Hf (k, be)); right; by left|].
           destruct (langs0 !! gk_lang k) eqn:E; simpl; [|apply be_semi_empty].
           eapply H2'; [|exact E]. intros. apply Hf. by left.
        -- eapply H2'; [|exact Hl]. intros. apply Hf. by left.
      * intros Hf l be'. setoid_rewrite elem_of_app in Hf.
        intros [[<- <-]|[_ Hl]]%lookup_insert_Some.
        -- apply copy_entries_full; [apply (Hf (k, be)); right; by left|].
           destruct (langs0 !! gk_lang k) eqn:E; simpl; [|apply be_full_empty].
           eapply H3; [|exact E]. intros. apply Hf. by left.
        -- eapply H3; [|exact Hl]. intros. apply Hf. by left.
    + split; [by rewrite <- app_assoc|]. by rewrite <- app_assoc in IH.
Qed.
Lemma merged_ok_nil : merged_ok [] ∅.
Proof.
  split.
  - intros l. rewrite lookup_empty. split; [by intros [? ?]|]. intros (? & H & _).
    by apply elem_of_nil in H.
  - intros. rewrite lookup_empty. simpl. split; [by intros ?%be_has_empty|].
    intros (? & H & _). by apply elem_of_nil in H.
  - intros _ l be. by rewrite lookup_empty.
  - intros _ l be. by rewrite lookup_empty.
Qed.

(** A bin record of group [g] (with its bin number and labelled items). *)
Definition bin_put (gid : N) (its : list ((N * N) * bent)) (kv : bytes * bytes) : Prop :=
  exists l be langs, merged_ok its langs /\ langs !! l = Some be /\
    kv = (write_key PrefixBin (gid, l), enc be).

Lemma elem_group_puts o g kv :
  kv ∈ group_puts o g ->
  (exists it, it ∈ map snd g.2 /\ kv = single_put it) \/
  (exists gid, g.1 = Some gid /\ bin_put gid (map snd g.2) kv).
Proof.
  unfold group_puts. pose proof (group_fold o (map snd g.2) [] ∅ [] merged_ok_nil) as H.
  destruct (foldl _ _ _) as [puts langs]. destruct H as [-> H].
  rewrite elem_of_app. intros [Hkv|Hkv].
  - left. apply elem_of_map in Hkv as (it & -> & Hit). eauto.
  - right. destruct g.1 as [gid|]; [|by apply elem_of_nil in Hkv].
    exists gid. split; [done|]. apply elem_of_map in Hkv as ([l be] & -> & Hl).
    apply elem_hash_iter in Hl. exists l, be, langs. split; [done|]. split; [done|].
    cbn [fst snd]. by rewrite get_encoded_value_norm.
Qed.
Lemma group_puts_single o g it : it ∈ map snd g.2 -> single_put it ∈ group_puts o g.
Proof.
  intros Hit. unfold group_puts.
  pose proof (group_fold o (map snd g.2) [] ∅ [] merged_ok_nil) as H.
  destruct (foldl _ _ _) as [puts langs]. destruct H as [-> H].
  apply elem_of_app. left. simpl. apply elem_of_map. eauto.
Qed.
Lemma group_puts_bin o g gid it :
  g.1 = Some gid -> it ∈ map snd g.2 ->
  exists v, (write_key PrefixBin (gid, gk_lang it.1), v) ∈ group_puts o g.
Proof.
  intros Hg Hit. unfold group_puts.
  pose proof (group_fold o (map snd g.2) [] ∅ [] merged_ok_nil) as H.
  destruct (foldl _ _ _) as [puts langs]. destruct H as [-> H]. rewrite Hg.
  destruct (proj2 (mo_dom _ _ H (gk_lang it.1))) as [be Hbe]; [eauto|].
  eexists. apply elem_of_app. right. apply elem_of_map. exists (gk_lang it.1, be).
  split; [reflexivity|]. by apply elem_hash_iter.
Qed.

Lemma bin_label_snd {V} (items : list ((N * N) * V)) : forall s labelled,
  bin_label items s = Ok labelled -> map snd labelled = items.
Proof.
  induction items as [|it items IH]; intros s labelled; cbn [bin_label]; [by intros [= <-]|].
  destruct (bin_advance _ _ _) as [s'|]; [|done].
  intros (rest & Hr & [= <-])%bind_Ok. simpl. f_equal. eauto.
Qed.

Lemma elem_btree_iter {V} (m : gmap (N * N) V) k v : (k, v) ∈ btree_iter m <-> m !! k = Some v.
Proof. unfold btree_iter. rewrite elem_of_isort. apply elem_of_map_to_list. Qed.

Definition finish_groups (b : builder) labelled :=
  bin_label (btree_iter (b_data b)) (bin_init (b_bounds b)) = Ok labelled.

Lemma finish_puts_groups o b puts :
  finish_puts o b = Ok puts ->
  exists labelled, finish_groups b labelled /\
    puts = mjoin (map (group_puts o) (eager_groupby fst option_N_eqb labelled)) ++
           [(bounds_key, mjoin (map (le_bytes 4) (b_bounds b)))].
Proof. unfold finish_puts. intros (labelled & H & [= <-])%bind_Ok. eauto. Qed.

Lemma finish_elem o b puts kv :
  finish_puts o b = Ok puts -> kv ∈ puts ->
  (exists k be, b_data b !! k = Some be /\ kv = single_put (k, be)) \/
  (exists gid g labelled, finish_groups b labelled /\
     (Some gid, g) ∈ eager_groupby fst option_N_eqb labelled /\ bin_put gid (map snd g) kv) \/
  kv = (bounds_key, mjoin (map (le_bytes 4) (b_bounds b))).
Proof.
  intros (labelled & Hl & ->)%finish_puts_groups. rewrite elem_of_app, elem_of_list_singleton.
  intros [Hkv|Hkv]; [|by auto].
  apply elem_of_mjoin in Hkv as (l & Hkv & ([lab g] & -> & Hg)%elem_of_map).
  apply elem_group_puts in Hkv as [(it & Hit & ->)|(gid & Hgid & Hb)].
  - left. destruct it as [k be]. exists k, be. split; [|done].
    apply elem_btree_iter. rewrite <- (bin_label_snd _ _ _ Hl).
    apply elem_of_map in Hit as (x & E & Hx). apply elem_of_map. exists x. split; [done|].
    eapply grouping_in; [apply (eager_groupby_grouping fst option_N_eqb)|]. eauto.
  - right. left. simpl in *. subst lab. eauto 8.
Qed.
Lemma finish_single o b puts k be :
  finish_puts o b = Ok puts -> b_data b !! k = Some be -> single_put (k, be) ∈ puts.
Proof.
  intros (labelled & Hl & ->)%finish_puts_groups Hk. apply elem_of_app. left.
  apply elem_btree_iter in Hk. rewrite <- (bin_label_snd _ _ _ Hl) in Hk.
  apply elem_of_map in Hk as (x & E & Hx).
  apply (grouping_in fst option_N_eqb _ _ _ (eager_groupby_grouping fst option_N_eqb _)) in Hx
    as (lab & g & Hg & Hx).
  apply elem_of_mjoin. exists (group_puts o (lab, g)). split.
  - apply group_puts_single. apply elem_of_map. eauto.
  - apply elem_of_map. eauto.
Qed.

(** ** Database writes *)
Lemma apply_puts_app p1 p2 d : apply_puts (p1 ++ p2) d = apply_puts p2 (apply_puts p1 d).
Proof. unfold apply_puts. apply foldl_app. Qed.
Lemma apply_puts_none (puts : list (list N * list N)) : forall (d : gmap (list N) (list N)) k,
  (forall kv, kv ∈ puts -> kv.1 <> k) -> apply_puts puts d !! k = d !! k.
Proof.
  induction puts as [|kv puts IH]; intros d k H; [done|]. simpl.
  rewrite IH by (intros; apply H; by right). rewrite lookup_insert_ne; [done|]. apply H. left.
Qed.
Lemma apply_puts_some (puts : list (list N * list N)) : forall (d : gmap (list N) (list N)) k v,
  apply_puts puts d !! k = Some v -> (k, v) ∈ puts \/ d !! k = Some v.
Proof.
  induction puts as [|[k0 v0] puts IH]; intros d k v H; [by right|]. simpl in H.
  apply IH in H as [H|[[<- <-]|[_ H]]%lookup_insert_Some].
  - left. by right.
  - left. left.
  - by right.
Qed.
Lemma apply_puts_in (puts : list (list N * list N)) : forall (d : gmap (list N) (list N)) k v,
  (k, v) ∈ puts -> exists v', apply_puts puts d !! k = Some v' /\ (k, v') ∈ puts.
Proof.
  induction puts as [|[k0 v0] puts IH]; intros d k v H; [by apply elem_of_nil in H|].
  destruct (decide (Exists (fun kv => kv.1 = k) puts)) as [HE|HE].
  - apply Exists_exists in HE as ([k1 v1] & Hin & E). simpl in E. subst k1.
    destruct (IH (<[k0 := v0]> d) k v1 Hin) as (v' & H1 & H2). exists v'. split; [done|]. by right.
  - assert (Hn : forall kv, kv ∈ puts -> kv.1 <> k).
    { intros kv Hkv E. apply HE, Exists_exists. eauto. }
    apply elem_of_cons in H as [[= -> ->]|H]; [|by apply Hn in H].
    exists v0. simpl. rewrite apply_puts_none by done. rewrite lookup_insert. split; [done|left].
Qed.
Lemma apply_puts_unique (puts : list (list N * list N)) (d : gmap (list N) (list N)) k v :
  (k, v) ∈ puts -> (forall v', (k, v') ∈ puts -> v' = v) -> apply_puts puts d !! k = Some v.
Proof.
  intros H Hu. destruct (apply_puts_in puts d k v H) as (v' & H1 & H2). rewrite H1. by rewrite (Hu v' H2).
Qed.

(** Keys of the builder in range. *)
Definition data_keys_ok (b : builder) : Prop :=
  (forall k be, b_data b !! k = Some be -> key_ok k) /\ Forall (fun x => x < 2 ^ 32) (b_bounds b).

Lemma bin_put_key gid its kv :
  bin_put gid its kv -> exists l, kv.1 = write_key PrefixBin (gid, l) /\
    exists it, it ∈ its /\ gk_lang it.1 = l.
Proof.
  intros (l & be & langs & Hm & Hl & ->). exists l. split; [done|]. apply (mo_dom _ _ Hm). eauto.
Qed.

Lemma finish_single_lookup o b d d' k :
  data_keys_ok b -> key_ok k -> finish o b d = Ok d' ->
  d' !! write_key SinglePhrase k =
    match b_data b !! k with
    | Some be => Some (enc be)
    | None => d !! write_key SinglePhrase k
    end.
Proof.
  intros [Hk Hb] Hok (puts & Hp & [= <-])%bind_Ok.
  assert (Hinv : forall v, (write_key SinglePhrase k, v) ∈ puts ->
                 exists be, b_data b !! k = Some be /\ v = enc be).
  { intros v Hv. apply (finish_elem o b puts _ Hp) in Hv as [(k' & be & Hd & E)|[H|E]].
    - apply pair_equal_spec in E as [E ->]. cbn [fst snd] in *.
      pose proof (Hk _ _ Hd) as Hk'. destruct (write_key_inj _ _ _ _ Hok Hk' E) as [_ <-]. eauto.
    - destruct H as (gid & g & labelled & _ & _ & Hbp). apply bin_put_key in Hbp as (l & E & _).
      apply (f_equal head) in E. done.
    - apply pair_equal_spec in E as [E _]. by apply write_key_bounds in E. }
  destruct (b_data b !! k) as [be|] eqn:E.
  - apply apply_puts_unique.
    + by apply (finish_single o b puts k be).
    + intros v' Hv'. destruct (Hinv v' Hv') as (be' & E' & ->). congruence.
  - apply apply_puts_none. intros [k1 v1] H1 E1. simpl in E1. subst k1.
    destruct (Hinv v1 H1) as (be' & E' & _). congruence.
Qed.

Lemma run_keys_ok ops : Forall op_ok ops -> data_keys_ok (run ops).
Proof.
  intros H. split; [|by apply run_bounds_ok]. intros k be Hk.
  pose proof (run_rel ops k) as Hr. rewrite Hk in Hr.
  destruct (written ops !! k) as [es|] eqn:E; [|done].
  by apply (written_all_ok ops H) in E as [? _].
Qed.
