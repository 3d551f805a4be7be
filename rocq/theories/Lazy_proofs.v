(** Asking for one item at a time, compared with computing them all. *)
From Verif Require Import Prelude Lists F64 Heap Common Morton Format Bits_proofs Format_proofs Spatial Store Lazy Float_proofs Match_proofs Cmp_proofs Merge_proofs Spec Spec_match Spec_lazy.
Local Open Scope nat_scope.

(** ** Traces and results *)
(** A trace and the result of computing everything. *)
Definition settles {A} (m : res (list A)) (t : trace A) : Prop :=
  match m, t with
  | Ok l, (l', Ok _) => l = l'
  | Err, (_, Err) | Panic, (_, Panic) | Diverge, (_, Diverge) => True
  | _, _ => False
  end.
Lemma settles_Ok {A} (l : list A) t : settles (Ok l) t -> t = (l, Ok tt).
Proof. destruct t as [l' [[]| | |]]; cbn; by intros <- || done. Qed.
Lemma settles_inv {A} (m : res (list A)) l : settles m (l, Ok tt) -> m = Ok l.
Proof. destruct m; cbn; by intros -> || done. Qed.

Lemma flat_settles {A B} (f : A -> res (list B)) g l : forall e,
  (forall a, a ∈ l -> settles (f a) (g a)) ->
  match res_mapM f l with
  | Ok ls => tr_flat g l e = (mjoin ls, e)
  | m => settles (let* ls := m in Ok (mjoin ls)) (tr_flat g l e)
  end.
Proof.
  induction l as [|a l IH]; intros e H; [done|]. cbn [res_mapM tr_flat].
  pose proof (H a ltac:(left)) as Ha. specialize (IH e (fun x Hx => H x (elem_of_list_further _ _ _ Hx))).
  destruct (f a) as [b| | |]; cbn [res_bind].
  - apply settles_Ok in Ha as ->. destruct (res_mapM f l) as [ls| | |]; cbn [res_bind] in *; [by rewrite IH|..];
      destruct (tr_flat g l e) as [out [?| | |]]; done.
  - destruct (g a) as [? [?| | |]]; done.
  - destruct (g a) as [? [?| | |]]; done.
  - destruct (g a) as [? [?| | |]]; done.
Qed.

(** ** The merge *)
Definition nan (s : scored) : Prop := f_is_nan (sc_dist s) = true.
(** All or none of the elements are NaN. *)
Definition uniform (ss : list (list scored)) : Prop :=
  (forall s, s ∈ mjoin ss -> nan s) \/ (forall s, s ∈ mjoin ss -> ~ nan s).

Lemma nonempty_insert (ss : list (list scored)) i a s :
  ss !! i = Some (a :: s) -> length (List.filter nonempty (<[i:=s]> ss)) <= length (List.filter nonempty ss).
Proof.
  revert i. induction ss as [|x ss IH]; intros [|i] H; try done.
  - injection H as ->. cbn. destruct s; cbn; lia.
  - change (<[S i:=s]> (x :: ss)) with (x :: <[i:=s]> ss). specialize (IH i H). cbn [List.filter]. destruct (nonempty x); cbn [length]; lia.
Qed.
Lemma insert_sub (ss : list (list scored)) i a s x :
  ss !! i = Some (a :: s) -> x ∈ mjoin (<[i:=s]> ss) -> x ∈ mjoin ss.
Proof.
  intros H Hx. apply elem_of_mjoin in Hx as (l & Hx & Hl). apply elem_of_list_lookup in Hl as [j Hj].
  apply elem_of_mjoin. destruct (decide (i = j)) as [<-|Hne].
  - rewrite list_lookup_insert in Hj by by eapply lookup_lt_Some. injection Hj as <-.
    exists (a :: s). split; [by right|]. by eapply elem_of_list_lookup_2.
  - rewrite list_lookup_insert_ne in Hj by done. exists l. split; [done|]. by eapply elem_of_list_lookup_2.
Qed.
Lemma head_in (ss : list (list scored)) l a s : l ∈ ss -> l = a :: s -> a ∈ mjoin ss.
Proof. intros Hl ->. apply elem_of_mjoin. exists (a :: s). split; [by left|done]. Qed.

Definition quiet (ss : list (list scored)) : Prop :=
  length (List.filter nonempty ss) <= 1 \/ forall s, s ∈ mjoin ss -> ~ nan s.
Lemma quiet_compare ss : quiet ss -> compare_panics ss = false.
Proof.
  unfold compare_panics. intros [H|H].
  - destruct (List.filter nonempty ss) as [|? [|? ?]]; cbn in H; [done..|lia].
  - destruct (List.filter nonempty ss) as [|? [|? ?]]; [done..|]. apply not_true_is_false. intros E.
    apply List.existsb_exists in E as ([|a s] & Hl & E); [done|]. apply elem_of_list_In in Hl.
    by apply (H a); [eapply head_in|].
Qed.
Lemma quiet_insert ss i a s : ss !! i = Some (a :: s) -> quiet ss -> quiet (<[i:=s]> ss).
Proof.
  intros Hi [H|H].
  - left. pose proof (nonempty_insert ss i a s Hi). lia.
  - right. intros x Hx. apply H. by eapply insert_sub.
Qed.
Lemma kmerge_loop_quiet tb : forall fuel ss, quiet ss ->
  lz_kmerge_loop fuel tb ss = (kmerge_loop scoredist_before fuel tb ss, Ok tt).
Proof.
  induction fuel as [|f IH]; intros ss Hq; [done|]. cbn [lz_kmerge_loop kmerge_loop].
  destruct (_ !! (tb (S f) mod _)) as [i|]; [|done]. destruct (ss !! i) as [[|a s]|] eqn:E; [done| |done].
  pose proof (quiet_insert _ _ _ _ E Hq) as Hq'. rewrite (quiet_compare _ Hq'). by rewrite (IH _ Hq').
Qed.
Lemma kmerge_panics_quiet ss : kmerge_panics ss = false -> quiet ss.
Proof.
  unfold kmerge_panics. intros H. destruct (List.filter nonempty ss) as [|l [|l' ls]] eqn:E.
  - left. rewrite E. cbn. lia.
  - left. rewrite E. cbn. lia.
  - right. intros s Hs Hn. apply elem_of_mjoin in Hs as (l0 & Hs & Hl).
    apply not_true_iff_false in H. apply H. apply List.existsb_exists. exists l0. split; [by apply elem_of_list_In|].
    apply List.existsb_exists. exists s. split; [by apply elem_of_list_In|done].
Qed.
Lemma kmerge_settles tb ss : uniform ss ->
  if kmerge_panics ss then lz_kmerge tb ss = ([], Panic) else lz_kmerge tb ss = (kmerge scoredist_before tb ss, Ok tt).
Proof.
  intros Hu. destruct (kmerge_panics ss) eqn:E.
  - unfold lz_kmerge. replace (compare_panics ss) with true; [done|]. symmetry. unfold compare_panics. unfold kmerge_panics in E.
    destruct (List.filter nonempty ss) as [|l [|l' ls]] eqn:Ef; try done.
    apply List.existsb_exists in E as (l0 & Hl & E). apply List.existsb_exists in E as (s & Hs & E).
    destruct Hu as [Hu|Hu].
    + apply List.existsb_exists. assert (Hin : In l (List.filter nonempty ss)) by (rewrite Ef; by left).
      apply filter_In in Hin as [Hin Hne]. destruct l as [|a l]; [done|]. exists (a :: l). split; [done|].
      apply Hu. eapply head_in; [by apply elem_of_list_In|done].
    + destruct (Hu s); [|done]. apply elem_of_mjoin. exists l0. by split; apply elem_of_list_In.
  - apply kmerge_panics_quiet in E. unfold lz_kmerge. rewrite (quiet_compare _ E). by rewrite kmerge_loop_quiet.
Qed.
(** Without the assumption, one direction remains. *)
Lemma kmerge_answers tb ss : kmerge_panics ss = false -> lz_kmerge tb ss = (kmerge scoredist_before tb ss, Ok tt).
Proof.
  intros E. apply kmerge_panics_quiet in E. unfold lz_kmerge. rewrite (quiet_compare _ E). by rewrite kmerge_loop_quiet.
Qed.

(** ** One record *)
Lemma cell_settles value relev lang s :
  settles (let* ids := read_fixed_vec value (sc_ids s) in Ok (map (mk_match relev lang s) ids)) (lz_cell value relev lang s).
Proof. unfold lz_cell. by destruct (read_fixed_vec value (sc_ids s)). Qed.

Lemma group_answers p tb value o lang radius g out :
  decode_relev_group p tb value o lang radius g = Ok out -> lz_group p tb value o lang radius g = (out, Ok tt).
Proof.
  unfold decode_relev_group, lz_group. intros H. apply bind_Ok in H as (ss & E & H). rewrite E.
  destruct (kmerge_panics ss) eqn:Ek; [done|]. apply bind_Ok in H as (ms & Em & H). injection H as <-.
  rewrite (kmerge_answers tb ss Ek).
  pose proof (flat_settles _ _ (kmerge scoredist_before tb ss) (Ok tt) (fun s _ => cell_settles value g.1 lang s)) as Hf.
  by rewrite Em in Hf.
Qed.
Lemma decode_answers p tb value o lang radius out :
  decode_matching_value p tb value o lang radius = Ok out -> lz_decode p tb value o lang radius = Ok (out, Ok tt).
Proof.
  unfold decode_matching_value, lz_decode. intros H. apply bind_Ok in H as (root & -> & H). cbn [res_bind].
  apply bind_Ok in H as (rss & -> & H). cbn [res_bind]. apply bind_Ok in H as (ls & E & H). injection H as <-. f_equal.
  revert ls E. induction (eager_groupby _ _ rss) as [|g gs IH]; intros ls E.
  - by injection E as <-.
  - cbn [res_mapM] in E. apply bind_Ok in E as (l & El & E). apply bind_Ok in E as (ls' & E' & E). injection E as <-.
    cbn [tr_flat]. rewrite (group_answers _ _ _ _ _ _ _ _ El), (IH _ E'). done.
Qed.

(** ** All or none of the distances are NaN *)
Lemma mapM_in {A B} (f : A -> res B) l bs b : res_mapM f l = Ok bs -> b ∈ bs -> exists a, a ∈ l /\ f a = Ok b.
Proof.
  intros H Hb. apply res_mapM_Ok in H. apply elem_of_list_lookup in Hb as [i Hi].
  destruct (Forall2_lookup_r _ _ _ _ _ H Hi) as (a & Ha & E). exists a. split; [by eapply elem_of_list_lookup_2|done].
Qed.
Lemma get_all_sub coords idxs cs c : get_all coords idxs = Ok cs -> c ∈ cs -> c ∈ coords.
Proof.
  unfold get_all. intros H Hc. destruct (mapM_in _ _ _ _ H Hc) as (i & _ & E).
  unfold index in E. destruct (coords !! i) as [c'|] eqn:Ei; [|done]. injection E as <-. by eapply elem_of_list_lookup_2.
Qed.
Lemma merge_by_sub {A} (f : A -> A -> bool) : forall l1 l2 a, a ∈ merge_by f l1 l2 -> a ∈ l1 \/ a ∈ l2.
Proof.
  induction l1 as [|x l1 IH]; intros l2 a H.
  - right. by destruct l2.
  - induction l2 as [|y l2 IH2]; [by left|]. cbn in H. destruct (f x y).
    + apply elem_of_cons in H as [->|H]; [left; by left|]. destruct (IH _ _ H) as [?|?]; [left; by right|by right].
    + apply elem_of_cons in H as [->|H]; [right; by left|]. destruct (IH2 H) as [?|?]; [by left|right; by right].
Qed.
Lemma or_none_Ok {A B} (m : res A) (k : A -> res (option B)) r :
  or_none m k = Ok r -> r = None \/ exists a, m = Ok a /\ k a = Ok r.
Proof. destruct m; cbn; intros H; try done; [right; eauto|left; congruence]. Qed.
Lemma select_sub p o coords sel c : select_coords p o coords = Ok sel -> c ∈ sel -> c ∈ coords.
Proof.
  unfold select_coords. intros H Hc. apply bind_Ok in H as (r & H & E). injection E as <-.
  destruct r as [sel|]; [|by apply elem_of_nil in Hc]. cbn [default] in Hc.
  destruct (mo_bbox o) as [b|], (mo_prox o) as [pt|].
  - unfold bbox_proximity_filter in H. apply bind_Ok in H as ([[s e]|] & _ & H); [|done].
    destruct (length coords =? 0); [done|]. apply or_none_Ok in H as [?|(mid & _ & H)]; [done|].
    apply bind_Ok in H as (hd & Eh & H). apply bind_Ok in H as (tl & Et & H). injection H as <-.
    apply merge_by_sub in Hc as [Hc|Hc]; apply elem_of_list_In, filter_In in Hc as [Hc _]; apply elem_of_list_In in Hc;
      [exact (get_all_sub _ _ _ _ Eh Hc)|exact (get_all_sub _ _ _ _ Et Hc)].
  - unfold bbox_filter in H. destruct (length coords =? 0); [done|]. apply bind_Ok in H as ([[s e]|] & _ & H); [|done].
    apply bind_Ok in H as (cs & E & H). injection H as <-.
    apply elem_of_list_In, filter_In in Hc as [Hc _]. apply elem_of_list_In in Hc. by eapply get_all_sub.
  - unfold proximity in H. destruct (length coords =? 0); [done|]. apply or_none_Ok in H as [?|(mid & _ & H)]; [done|].
    apply bind_Ok in H as (hd & Eh & H). apply bind_Ok in H as (tl & Et & H). injection H as <-.
    apply merge_by_sub in Hc as [Hc|Hc]; [exact (get_all_sub _ _ _ _ Eh Hc)|exact (get_all_sub _ _ _ _ Et Hc)].
  - by injection H as <-.
Qed.
Lemma coord_small value addr coords c :
  Forall (fun b => b < 256)%N value -> read_uniform_vec value addr = Ok coords -> c ∈ coords -> (c_coord c < 2 ^ 32)%N.
Proof.
  intros Hv H Hc. unfold read_uniform_vec in H. apply bind_Ok in H as ([len st] & _ & H).
  apply bind_Ok in H as (sz & _ & H). destruct (mapM_in _ _ _ _ H Hc) as (i & _ & E).
  unfold read_coord in E. apply bind_Ok in E as (cb & Ecb & E). destruct (_ || _); [done|].
  apply bind_Ok in E as (pb & _ & E). injection E as <-. cbn [c_coord].
  unfold slice in Ecb. destruct (_ <=? _)%nat; [|done]. injection Ecb as <-.
  match goal with |- (le_value ?l < _)%N => set (bs := l) end.
  assert (Hb : Forall (fun b => b < 256)%N bs) by (by apply Forall_take, Forall_drop).
  assert (Hl : length bs <= 4) by apply firstn_le_length.
  pose proof (le_value_lt bs Hb) as Hlt. eapply N.lt_le_trans; [exact Hlt|].
  change (2 ^ 32)%N with (256 ^ 4)%N. apply N.pow_le_mono_r; lia.
Qed.

(** The cell gets NaN exactly when the radius in tiles is NaN. *)
Definition radius_nan (o : match_opts) (radius : f64) : bool :=
  match mo_prox o with Some _ => f_is_nan (proximity_radius (N.max 6 (mo_zoom o)) radius) | None => false end.
Lemma cell_nan o radius score c : point_ok o radius -> (c_coord c < 2 ^ 32)%N ->
  f_is_nan (sc_dist (score_cell o radius score c)) = radius_nan o radius.
Proof.
  intros Ho Hc. unfold score_cell, radius_nan. destruct (deinterleave_lt (c_coord c) 16 Hc) as [Hx Hy].
  destruct (deinterleave (c_coord c)) as [x y]. cbn [fst snd] in *. unfold point_ok in Ho.
  destruct (mo_prox o) as [[px py]|]; [|apply f_of_N_not_nan]. destruct Ho as [[Hpx Hpy] Hr]. cbn [fst snd sc_dist] in *.
  destruct (f_is_nan (proximity_radius (N.max 6 (mo_zoom o)) radius)) eqn:E.
  - unfold scoredist. rewrite radius_max. destruct (proximity_radius _ _); try done.
    set (d := if fltb _ f_one then _ else _). change (fadd _ f_one) with (score_factor score).
    destruct (score_factor_finite score) as (m & e & ->).
    assert (fdiv d S754_nan = S754_nan) as -> by (by destruct d). done.
  - apply scoredist_not_nan; [by apply tile_dist_pos|]. rewrite radius_max. unfold f_finite. by destruct (proximity_radius _ _).
Qed.

Section bytes.
  Context (p : profile) (tb : merge_tb) (value : bytes) (o : match_opts) (lang : bool) (radius : f64).
  Hypothesis Hv : Forall (fun b => b < 256)%N value.
  Hypothesis Ho : point_ok o radius.

  Lemma streams_uniform rss ss :
    res_mapM (fun rs =>
      let* coords := read_uniform_vec value (rs_coords rs) in
      let* sel := select_coords p o coords in
      Ok (map (score_cell o radius (unpack_score (rs_value rs))) sel)) rss = Ok ss -> uniform ss.
  Proof.
    intros H. assert (Hall : forall s, s ∈ mjoin ss -> f_is_nan (sc_dist s) = radius_nan o radius).
    { intros s Hs. apply elem_of_mjoin in Hs as (l & Hs & Hl). destruct (mapM_in _ _ _ _ H Hl) as (rs & _ & E).
      apply bind_Ok in E as (coords & Ec & E). apply bind_Ok in E as (sel & Es & E). injection E as <-.
      apply elem_of_map in Hs as (c & -> & Hc). apply cell_nan; [done|]. eapply coord_small; [done|exact Ec|]. by eapply select_sub. }
    unfold uniform, nan. destruct (radius_nan o radius); [left|right]; intros s Hs; by rewrite (Hall s Hs).
  Qed.
  Lemma group_settles g : settles (decode_relev_group p tb value o lang radius g) (lz_group p tb value o lang radius g).
  Proof.
    unfold decode_relev_group, lz_group. pose proof (streams_uniform g.2) as Hu.
    destruct (res_mapM _ g.2) as [ss| | |]; try done. cbn [res_bind]. specialize (Hu ss eq_refl).
    pose proof (kmerge_settles tb ss Hu) as Hk. destruct (kmerge_panics ss); rewrite Hk; [done|].
    pose proof (flat_settles _ _ (kmerge scoredist_before tb ss) (Ok tt) (fun s _ => cell_settles value g.1 lang s)) as Hf.
    destruct (res_mapM _ (kmerge _ _ _)) as [ls| | |]; [by rewrite Hf|done..].
  Qed.
  Lemma decode_settles :
    match lz_decode p tb value o lang radius with
    | Ok t => settles (decode_matching_value p tb value o lang radius) t
    | m => decode_matching_value p tb value o lang radius = let* _ := m in Ok []
    end.
  Proof.
    unfold decode_matching_value, lz_decode. destruct (read_root value) as [root| | |]; try done. cbn [res_bind].
    destruct (read_var_vec value root) as [rss| | |]; try done. cbn [res_bind].
    pose proof (flat_settles _ _ (eager_groupby (fun rs => unpack_relev (rs_value rs)) feqb rss) (Ok tt) (fun g _ => group_settles g)) as Hf.
    destruct (res_mapM _ _) as [ls| | |]; [by rewrite Hf|done..].
  Qed.
End bytes.

(** ** The iterator *)
Lemma handed_out_nil n : handed_out [] n = replicate n None.
Proof. unfold handed_out. rewrite take_nil. cbn [length map app]. by rewrite Nat.sub_0_r. Qed.
Lemma handed_out_cons e out n : handed_out (e :: out) (S n) = Some e :: handed_out out n.
Proof. done. Qed.

Definition sound (st : lz_state) : Prop := length st.2 = length (hp_items st.1) /\ Forall (eq (Ok tt)) st.2.

Lemma size_replace q i e e' rest : hp_items q !! i = Some (e, e' :: rest) ->
  queue_size q = S (queue_size (hp_replace q i (e', rest))).
Proof.
  intros Ha. rewrite !queue_size_streams.
  assert (Hs : streams q !! i = Some (e :: e' :: rest)) by (unfold streams; by rewrite list_lookup_fmap, Ha).
  pose proof (mjoin_insert (streams q) i e (e' :: rest) Hs) as Hp.
  assert (Hs' : <[i:=e' :: rest]> (streams q) = streams (hp_replace q i (e', rest))).
  { unfold streams. cbn [hp_replace hp_items]. symmetry. exact (list_fmap_insert stream_of (hp_items q) i (e', rest)). }
  rewrite Hs' in Hp. apply Permutation_length in Hp. exact Hp.
Qed.
Lemma size_remove q i e : hp_items q !! i = Some (e, []) -> queue_size q = S (queue_size (hp_remove q i)).
Proof.
  intros Ha. rewrite !queue_size_streams.
  assert (Hs : streams q !! i = Some [e]) by (unfold streams; by rewrite list_lookup_fmap, Ha).
  pose proof (mjoin_insert (streams q) i e [] Hs) as Hp.
  assert (Hs' : mjoin (<[i:=[]]> (streams q)) = mjoin (streams (hp_remove q i))).
  { unfold streams. cbn [hp_remove hp_items]. clear. revert i.
    induction (hp_items q) as [|x l IH]; intros [|i]; simpl; [done..|]. by rewrite IH. }
  rewrite Hs' in Hp. apply Permutation_length in Hp. exact Hp.
Qed.
Lemma no_max_idx tb q : hp_max_idx queue_cmp tb q = None -> hp_items q = [].
Proof.
  intros H. destruct (hp_items q) as [|a l] eqn:E; [done|].
  destruct (hp_max_idx_some queue_cmp total_cmp_queue tb q) as [i Hi]; congruence.
Qed.

Lemma calls_none tb q ends n : hp_max_idx queue_cmp tb q = None -> lz_calls tb n (q, ends) = Ok (replicate n None).
Proof. intros H. induction n as [|n IH]; [done|]. cbn [lz_calls lz_next]. rewrite H. cbn [res_bind]. rewrite IH. done. Qed.
Lemma length_delete_lt {A} (l : list A) i : i < length l -> length (delete i l) = length l - 1.
Proof. intros H. apply lookup_lt_is_Some in H as [a Ha]. rewrite delete_take_drop, app_length, take_length, drop_length. apply lookup_lt_Some in Ha. lia. Qed.
Lemma calls_drain tb : forall fuel q ends, queue_size q <= fuel -> sound (q, ends) ->
  forall n, lz_calls tb n (q, ends) = Ok (handed_out (drain_queue tb fuel q) n).
Proof.
  induction fuel as [|fuel IH]; intros q ends Hf [Hl He] n.
  - cbn [drain_queue]. rewrite handed_out_nil. apply calls_none.
    destruct (hp_max_idx queue_cmp tb q) as [i|] eqn:E; [|done]. apply hp_max_idx_ok in E as ([e [|e' rest]] & Ha & _).
    + pose proof (size_remove _ _ _ Ha). lia.
    + pose proof (size_replace _ _ _ _ _ Ha). lia.
  - destruct n as [|n]; [done|]. cbn [drain_queue]. destruct (hp_max_idx queue_cmp tb q) as [i|] eqn:E.
    + pose proof E as E'. apply hp_max_idx_ok in E' as ([e [|e' rest]] & Ha & _); rewrite Ha; rewrite handed_out_cons.
      * pose proof (size_remove _ _ _ Ha) as Hsz. cbn [lz_calls lz_next]. rewrite E, Ha.
        cbn [fst snd] in Hl, He. assert (Hi : i < length ends) by (rewrite Hl; by eapply lookup_lt_Some).
        apply lookup_lt_is_Some in Hi as [r Hr]. rewrite Hr. rewrite Forall_lookup in He. pose proof (He _ _ Hr) as <-.
        cbn [res_bind]. rewrite (IH (hp_remove q i) (delete i ends)); [done|lia|]. split.
        -- cbn [fst snd hp_remove hp_items]. assert (i < length ends) by by eapply lookup_lt_Some.
           rewrite !length_delete_lt; [by rewrite Hl|by eapply lookup_lt_Some|done].
        -- cbn [snd]. apply Forall_delete. by apply Forall_lookup.
      * pose proof (size_replace _ _ _ _ _ Ha) as Hsz. cbn [lz_calls lz_next]. rewrite E, Ha. cbn [res_bind].
        rewrite (IH (hp_replace q i (e', rest)) ends); [done|lia|]. split; [|done].
        cbn [fst snd hp_replace hp_items]. rewrite insert_length. done.
    + rewrite handed_out_nil. by apply calls_none.
Qed.

Section query.
  Context (p : profile) (mtb : merge_tb) (tb : tiebreak) (s : store) (k : match_key) (o : match_opts) (max : N).

  Lemma record_answers q ends kv q' : queue_record p mtb tb s k o max q kv = Ok q' -> sound (q, ends) ->
    exists ends', lz_record p mtb tb s k o max (q, ends) kv = Ok (q', ends') /\ sound (q', ends').
  Proof.
    unfold queue_record, lz_record. intros H [Hl He]. cbn [fst snd] in Hl, He.
    apply bind_Ok in H as (lang & -> & H). cbn [res_bind]. apply bind_Ok in H as (es & Ed & H).
    rewrite (decode_answers _ _ _ _ _ _ _ Ed). cbn [res_bind]. destruct es as [|e es]; [injection H as <-; by exists ends|].
    destruct (max <=? hp_len q)%N.
    - unfold hp_peek_min in H. destruct (hp_min_idx queue_cmp tb q) as [i|] eqn:Ei; [|done].
      destruct (hp_items q !! i) as [w|] eqn:Ew; [|done].
      destruct (queue_cmp w (e, es)); injection H as <-; [by exists ends| |by exists ends].
      unfold hp_replace_min. rewrite Ei. exists (<[i:=Ok tt]> ends). split; [done|]. split; cbn [fst snd hp_replace hp_items].
      + by rewrite !insert_length.
      + by apply Forall_insert.
    - injection H as <-. exists (ends ++ [Ok tt]). split; [done|]. split; cbn [fst snd hp_push hp_items].
      + rewrite !app_length. cbn. lia.
      + apply Forall_app. split; [done|by constructor].
  Qed.
  Lemma records_answer recs : forall q ends q', res_foldl (queue_record p mtb tb s k o max) q recs = Ok q' -> sound (q, ends) ->
    exists ends', res_foldl (lz_record p mtb tb s k o max) (q, ends) recs = Ok (q', ends') /\ sound (q', ends').
  Proof.
    induction recs as [|kv recs IH]; intros q ends q' H Hs.
    - injection H as <-. by exists ends.
    - cbn [res_foldl] in *. apply bind_Ok in H as (q1 & E1 & H). destruct (record_answers _ _ _ _ E1 Hs) as (ends1 & -> & Hs1).
      cbn [res_bind]. by apply IH.
  Qed.

  (** The other direction: no call fails. *)
  Context (Hb : forall key v, st_db s !! key = Some v -> Forall (fun b => b < 256)%N v).
  Context (Ho : point_ok o (st_radius s)).

  Lemma record_push q ends kv q' ends' : (hp_len q < max)%N -> kv ∈ map_to_list (st_db s) ->
    length ends = length (hp_items q) ->
    lz_record p mtb tb s k o max (q, ends) kv = Ok (q', ends') ->
    (hp_len q' <= hp_len q + 1)%N /\ length ends' = length (hp_items q') /\ (exists more, ends' = ends ++ more) /\
    (Forall (eq (Ok tt)) ends' -> queue_record p mtb tb s k o max q kv = Ok q').
  Proof.
    intros Hmax Hkv Hl. unfold lz_record, queue_record. destruct kv as [key v].
    apply elem_of_map_to_list in Hkv. specialize (Hb key v Hkv). cbn [fst snd].
    destruct (match matches_language k key with Ok b => Ok b | Diverge => Diverge | _ => Panic end) as [lang| | |]; try done. cbn [res_bind].
    pose proof (decode_settles p mtb v o lang (st_radius s) Hb Ho) as Hd.
    destruct (lz_decode p mtb v o lang (st_radius s)) as [[es r]| | |]; try done. cbn [res_bind].
    assert (E : (max <=? hp_len q)%N = false) by (apply N.leb_gt; lia). rewrite E.
    destruct es as [|e es].
    - destruct r as [[]| | |]; try done. intros H. injection H as <- <-. apply settles_inv in Hd. rewrite Hd.
      split; [lia|]. split; [done|]. split; [exists []; by rewrite app_nil_r|done].
    - intros H. injection H as <- <-. split; [unfold hp_len; cbn [hp_push hp_items]; rewrite app_length; cbn; lia|].
      split; [cbn [hp_push hp_items]; rewrite !app_length; cbn; lia|]. split; [by exists [r]|].
      intros Hall. apply Forall_app in Hall as [_ Hr]. inversion Hr as [|? ? <- _]. apply settles_inv in Hd. rewrite Hd. done.
  Qed.
  Lemma records_push recs : forall q ends q' ends', (hp_len q + N.of_nat (length recs) <= max)%N ->
    (forall kv, kv ∈ recs -> kv ∈ map_to_list (st_db s)) -> length ends = length (hp_items q) ->
    res_foldl (lz_record p mtb tb s k o max) (q, ends) recs = Ok (q', ends') ->
    length ends' = length (hp_items q') /\ (exists more, ends' = ends ++ more) /\
    (Forall (eq (Ok tt)) ends' -> res_foldl (queue_record p mtb tb s k o max) q recs = Ok q').
  Proof.
    induction recs as [|kv recs IH]; intros q ends q' ends' Hmax Hin Hl H.
    - injection H as <- <-. split; [done|]. split; [exists []; by rewrite app_nil_r|done].
    - cbn [res_foldl length] in *. apply bind_Ok in H as ([q1 ends1] & E1 & H).
      destruct (record_push q ends kv q1 ends1) as (H1 & H2 & [more1 H3] & H4); [lia|apply Hin; left|done|done|].
      destruct (IH q1 ends1 q' ends') as (I1 & [more I2] & I3); [lia|intros x Hx; apply Hin; by right|done|done|].
      split; [done|]. split; [exists (more1 ++ more); rewrite I2, H3; by rewrite app_assoc|].
      intros Hall. rewrite H4; [cbn [res_bind]; by apply I3|]. rewrite I2 in Hall. by apply Forall_app in Hall as [? _].
  Qed.
End query.

(** Enough calls, none of which fails: every iterator in the heap was exhausted. *)
Lemma calls_exhaust tb : forall n q ends ms, length ends = length (hp_items q) -> queue_size q < n ->
  lz_calls tb n (q, ends) = Ok ms -> Forall (eq (Ok tt)) ends.
Proof.
  induction n as [|n IH]; intros q ends ms Hl Hn H; [lia|]. cbn [lz_calls] in H. apply bind_Ok in H as ([m [q1 ends1]] & E & H).
  apply bind_Ok in H as (ms' & E' & _). cbn [lz_next] in E. destruct (hp_max_idx queue_cmp tb q) as [i|] eqn:Ei.
  - pose proof Ei as Ea. apply hp_max_idx_ok in Ea as ([e [|e' rest]] & Ha & _); rewrite Ha in E.
    + assert (Hi : i < length ends) by (rewrite Hl; by eapply lookup_lt_Some).
      pose proof Hi as Hi'. apply lookup_lt_is_Some in Hi' as [r Hr]. rewrite Hr in E. destruct r as [[]| | |]; try done.
      injection E as <- <- <-. pose proof (size_remove _ _ _ Ha). apply (IH (hp_remove q i)) in E'; [|cbn [hp_remove hp_items];
        rewrite !length_delete_lt; [by rewrite Hl|by eapply lookup_lt_Some|done]|lia].
      rewrite (delete_take_drop ends i) in E'. rewrite <- (take_drop_middle ends i (Ok tt) Hr).
      apply Forall_app in E' as [? ?]. apply Forall_app. split; [done|]. by constructor.
    + injection E as <- <- <-. pose proof (size_replace _ _ _ _ _ Ha). apply (IH _ ends) in E'; [done| |lia].
      cbn [hp_replace hp_items]. by rewrite insert_length.
  - apply no_max_idx in Ei. rewrite Ei in Hl. destruct ends; [constructor|done].
Qed.
