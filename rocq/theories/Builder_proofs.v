(** Content of the builder, in terms of the written entries. *)
From Verif Require Import Prelude Lists F64 Common Morton Format Format_proofs Builder Record_proofs Spec.
Local Open Scope N_scope.

(** ** Eager grouping (common.rs somewhat_eager_groupby) *)
Section groupby.
  Context {A K : Type} (key : A -> K) (eqb : K -> K -> bool).

  (** [gb_loop] started inside a run whose first element is [a]. *)
  Lemma gb_loop_run it : forall a run,
    Forall (fun b => eqb (key a) (key b) = true) run ->
    (gb_loop key eqb it (Some (key a)) (a :: run)
       = (Some (key a, a :: run ++ it), GbState [] (Some (key a)) [] true) /\
     Forall (fun b => eqb (key a) (key b) = true) it) \/
    (exists pre b post,
       it = pre ++ b :: post /\
       Forall (fun b => eqb (key a) (key b) = true) pre /\
       eqb (key a) (key b) = false /\
       gb_loop key eqb it (Some (key a)) (a :: run)
       = (Some (key a, a :: run ++ pre), GbState post (Some (key b)) [b] false)).
  Proof.
    induction it as [|c it IH]; intros a run Hrun; simpl.
    - left. rewrite app_nil_r. split; [done|constructor].
    - destruct (eqb (key a) (key c)) eqn:E; simpl.
      + destruct (IH a (run ++ [c])) as [[H1 H2]|(pre & b & post & H1 & H2 & H3 & H4)].
        { apply Forall_app. split; [done|]. by constructor. }
        * left. rewrite H1. rewrite <- app_assoc. split; [done|]. by constructor.
        * right. exists (c :: pre), b, post. subst it. split; [done|]. split; [by constructor|].
          split; [done|]. rewrite H4. rewrite <- app_assoc. done.
      + right. exists [], c, it. rewrite app_nil_r. done.
  Qed.

  Lemma gb_collect_done fuel s : gb_done s = true -> gb_collect key eqb fuel s = [].
  Proof. intros H. destruct fuel; simpl; [done|]. unfold gb_next. by rewrite H. Qed.

  Lemma gb_collect_grouping fuel : forall a it,
    (length it < fuel)%nat ->
    grouping key eqb (a :: it)
      (gb_collect key eqb fuel (GbState it (Some (key a)) [a] false)).
  Proof.
    induction fuel as [|fuel IH]; intros a it Hf; [lia|].
    cbn [gb_collect]. unfold gb_next. cbn [gb_done gb_it gb_curr gb_run].
    destruct (gb_loop_run it a []) as [[H1 H2]|(pre & b & post & -> & H2 & H3 & H4)];
      [constructor|..].
    - rewrite H1. rewrite gb_collect_done by done. simpl. by constructor.
    - rewrite H4. simpl. constructor; [done|done|]. apply IH.
      rewrite app_length in Hf. simpl in Hf. lia.
  Qed.

  Lemma eager_groupby_grouping l : grouping key eqb l (eager_groupby key eqb l).
  Proof.
    destruct l as [|a l].
    - vm_compute. constructor.
    - unfold eager_groupby.
      assert (E : gb_collect key eqb (S (length (a :: l))) (GbState (a :: l) None [] false)
              = gb_collect key eqb (S (length (a :: l))) (GbState l (Some (key a)) [a] false)).
      { cbn [gb_collect]. unfold gb_next. simpl. done. }
      rewrite E. apply gb_collect_grouping. simpl. lia.
  Qed.
End groupby.

Lemma grouping_concat {A K} (key : A -> K) eqb l gs :
  grouping key eqb l gs -> mjoin (map snd gs) = l.
Proof.
  induction 1 as [|a run H|a run b l gs H H1 H2 IH]; simpl; [done|by rewrite app_nil_r|].
  f_equal. f_equal. exact IH.
Qed.
Lemma grouping_elem {A K} (key : A -> K) eqb l gs k g :
  grouping key eqb l gs -> (k, g) ∈ gs ->
  exists a run, g = a :: run /\ k = key a /\
    Forall (fun b => eqb (key a) (key b) = true) run /\ forall x, x ∈ g -> x ∈ l.
Proof.
  induction 1 as [|a run H|a run b l gs H H1 H2 IH]; intros Hin.
  - by apply elem_of_nil in Hin.
  - apply elem_of_list_singleton in Hin. injection Hin as -> ->. exists a, run. eauto.
  - apply elem_of_cons in Hin as [Hin|Hin].
    + injection Hin as -> ->. exists a, run. repeat split; [done..|].
      intros x. rewrite !elem_of_cons, elem_of_app. tauto.
    + destruct (IH Hin) as (a' & run' & -> & -> & H3 & H4). exists a', run'.
      repeat split; [done..|]. intros x Hx. right. apply elem_of_app. right. by apply H4.
Qed.
Lemma grouping_key_eq {A K} (key : A -> K) eqb l gs k g x :
  (forall a b, eqb a b = true <-> a = b) ->
  grouping key eqb l gs -> (k, g) ∈ gs -> x ∈ g -> key x = k.
Proof.
  intros He Hg Hin Hx. destruct (grouping_elem _ _ _ _ _ _ Hg Hin) as (a & run & -> & -> & H & _).
  apply elem_of_cons in Hx as [->|Hx]; [done|]. rewrite Forall_forall in H.
  symmetry. apply He, H, Hx.
Qed.
Lemma grouping_in {A K} (key : A -> K) eqb l gs x :
  grouping key eqb l gs -> x ∈ l <-> exists k g, (k, g) ∈ gs /\ x ∈ g.
Proof.
  intros Hg. rewrite <- (grouping_concat _ _ _ _ Hg) at 1. rewrite elem_of_mjoin. split.
  - intros (g & Hx & ([k g'] & -> & Hin)%elem_of_map). eauto.
  - intros (k & g & Hin & Hx). exists g. split; [done|]. apply elem_of_map. by exists (k, g).
Qed.

(** ** Content of an entry map *)
Notation bent := (gmap N (gmap N (list N))) (only parsing).
Definition be_has (be : bent) (rs z v : N) : Prop :=
  exists cells ids, be !! rs = Some cells /\ cells !! z = Some ids /\ v ∈ ids.
Definition cells_has (cells : gmap N (list N)) (z v : N) : Prop :=
  exists ids, cells !! z = Some ids /\ v ∈ ids.
(** No empty group and no empty cell. *)
Definition cells_full (cells : gmap N (list N)) : Prop :=
  forall z ids, cells !! z = Some ids -> ids <> [].
Definition be_full (be : bent) : Prop :=
  forall rs cells, be !! rs = Some cells -> cells <> ∅ /\ cells_full cells.

Lemma be_has_alt be rs z v :
  be_has be rs z v <-> exists cells, be !! rs = Some cells /\ cells_has cells z v.
Proof. unfold be_has, cells_has. naive_solver. Qed.

Lemma be_has_default be rs z v : be_has be rs z v <-> cells_has (default ∅ (be !! rs)) z v.
Proof.
  rewrite be_has_alt. destruct (be !! rs) as [cells|]; simpl; [naive_solver|].
  split; [naive_solver|]. intros (ids & H & _). by rewrite lookup_empty in H.
Qed.

(** Packed form of a written entry. *)
Definition packed (e : grid_entry) : N * N * N :=
  (pack_rs (ge_relev e) (ge_score e), interleave (ge_x e) (ge_y e), pack_id (ge_id e) (ge_hash e)).

Lemma cells_has_alter f cells z z' v :
  cells_has (partial_alter f z' cells) z v <->
  (z = z' /\ v ∈ default [] (f (cells !! z'))) \/ (z <> z' /\ cells_has cells z v).
Proof.
  unfold cells_has. destruct (decide (z = z')) as [->|Hne].
  - rewrite lookup_partial_alter. split.
    + intros (ids & E & Hv). left. rewrite E. done.
    + intros [[_ Hv]|[? _]]; [|done]. destruct (f (cells !! z')) as [ids|]; simpl in *.
      * eauto.
      * by apply elem_of_nil in Hv.
  - rewrite lookup_partial_alter_ne by done. naive_solver.
Qed.

Lemma extend_cells_has cells z' (vs : list grid_entry) z v :
  cells_has (extend_cells cells (z', vs)) z v <->
  cells_has cells z v \/ (z = z' /\ exists e, e ∈ vs /\ v = pack_id (ge_id e) (ge_hash e)).
Proof.
  unfold extend_cells. rewrite cells_has_alter. simpl.
  set (P := v ∈ map (fun v0 => pack_id (ge_id v0) (ge_hash v0)) vs).
  assert (HP : P <-> exists e, e ∈ vs /\ v = pack_id (ge_id e) (ge_hash e)).
  { unfold P. rewrite elem_of_map. naive_solver. }
  destruct (decide (z = z')) as [->|Hne].
  - unfold cells_has. destruct (cells !! z') as [old|] eqn:E; simpl.
    + rewrite elem_of_app. rewrite <- HP. naive_solver.
    + rewrite <- HP. naive_solver.
  - rewrite <- HP. naive_solver.
Qed.

Lemma foldl_extend_cells_has gs : forall cells z v,
  cells_has (foldl extend_cells cells gs) z v <->
  cells_has cells z v \/
  exists g e, g ∈ gs /\ e ∈ g.2 /\ z = g.1 /\ v = pack_id (ge_id e) (ge_hash e).
Proof.
  induction gs as [|[z' vs] gs IH]; intros cells z v; simpl.
  - split; [by left|]. intros [?|(? & ? & H & _)]; [done|]. by apply elem_of_nil in H.
  - rewrite IH, extend_cells_has. split.
    + intros [[?|[-> (e & He & ->)]]|(g & e & H1 & H2 & H3 & H4)]; [by left|right..].
      * exists (z', vs), e. split; [left|]. done.
      * exists g, e. split; [by right|]. done.
    + intros [?|(g & e & H1 & H2 & H3 & H4)]; [left; by left|].
      apply elem_of_cons in H1 as [->|H1].
      * left. right. simpl in *. eauto.
      * right. exists g, e. done.
Qed.

Lemma eqb_eq_N a b : (a =? b) = true <-> a = b.
Proof. apply N.eqb_eq. Qed.

Lemma elem_of_mjoin_groups (key : grid_entry -> N) vs e :
  e ∈ mjoin (map snd (group_consec key N.eqb vs)) <-> e ∈ vs.
Proof. by rewrite group_consec_concat. Qed.

Lemma extend_group_has be rs' (vs : list grid_entry) rs z v :
  be_has (extend_group be (rs', vs)) rs z v <->
  be_has be rs z v \/
  (rs = rs' /\ exists e, e ∈ vs /\ z = interleave (ge_x e) (ge_y e) /\
                         v = pack_id (ge_id e) (ge_hash e)).
Proof.
  unfold extend_group. simpl. rewrite !be_has_default.
  destruct (decide (rs = rs')) as [->|Hne].
  - rewrite lookup_partial_alter. simpl. rewrite foldl_extend_cells_has.
    set (key := fun v0 : grid_entry => interleave (ge_x v0) (ge_y v0)).
    assert (HG : forall e, (exists g, g ∈ group_consec key N.eqb vs /\ e ∈ g.2) <-> e ∈ vs).
    { intros e. rewrite <- (elem_of_mjoin_groups key vs e). rewrite elem_of_mjoin.
      split.
      - intros ([k g] & H1 & H2). exists g. split; [done|]. apply elem_of_map. by exists (k, g).
      - intros (g & Hx & ([k g'] & -> & Hin)%elem_of_map). eauto. }
    split.
    + intros [?|(g & e & H1 & H2 & -> & ->)]; [by left|right]. split; [done|].
      exists e. split; [apply HG; eauto|]. split; [|done]. destruct g as [k g]; simpl in *.
      destruct (group_consec_key key N.eqb vs k g eqb_eq_N H1) as [_ H]. symmetry. by apply H.
    + intros [?|[_ (e & He & -> & ->)]]; [by left|right].
      apply HG in He as ([k g] & Hg & He). exists (k, g), e. split; [done|]. split; [done|].
      split; [|done]. simpl. destruct (group_consec_key key N.eqb vs k g eqb_eq_N Hg) as [_ H].
      by apply H.
  - rewrite lookup_partial_alter_ne by done. naive_solver.
Qed.

Lemma foldl_extend_group_has gs : forall be rs z v,
  be_has (foldl extend_group be gs) rs z v <->
  be_has be rs z v \/
  exists g e, g ∈ gs /\ e ∈ g.2 /\ rs = g.1 /\ z = interleave (ge_x e) (ge_y e) /\
              v = pack_id (ge_id e) (ge_hash e).
Proof.
  induction gs as [|[rs' vs] gs IH]; intros be rs z v; simpl.
  - split; [by left|]. intros [?|(? & ? & H & _)]; [done|]. by apply elem_of_nil in H.
  - rewrite IH, extend_group_has. split.
    + intros [[?|[-> (e & He & H1 & H2)]]|(g & e & H1 & H2 & H3)]; [by left|right..].
      * exists (rs', vs), e. split; [left|]. done.
      * exists g, e. split; [by right|]. done.
    + intros [?|(g & e & H1 & H2 & H3)]; [left; by left|].
      apply elem_of_cons in H1 as [->|H1].
      * left. right. simpl in *. naive_solver.
      * right. exists g, e. done.
Qed.

Lemma extend_entries_has be vs rs z v :
  be_has (extend_entries be vs) rs z v <->
  be_has be rs z v \/ exists e, e ∈ vs /\ packed e = (rs, z, v).
Proof.
  unfold extend_entries. rewrite foldl_extend_group_has.
  set (key := fun v0 : grid_entry => pack_rs (ge_relev v0) (ge_score v0)).
  pose proof (eager_groupby_grouping key N.eqb vs) as HG.
  split; (intros [?|H]; [by left|right]).
  - destruct H as ([k g] & e & H1 & H2 & -> & -> & ->). simpl in *. exists e.
    split; [apply (grouping_in _ _ _ _ _ HG); eauto|]. unfold packed.
    pose proof (grouping_key_eq _ _ _ _ _ _ _ eqb_eq_N HG H1 H2) as E. by rewrite <- E.
  - destruct H as (e & He & [= <- <- <-]).
    apply (grouping_in _ _ _ _ _ HG) in He as (k & g & Hg & He).
    exists (k, g), e. split; [done|]. split; [done|]. split; [|done].
    apply (grouping_key_eq _ _ _ _ _ _ _ eqb_eq_N HG Hg He).
Qed.

(** ** Fullness *)
Lemma cells_full_alter f cells z :
  cells_full cells -> (forall ids, f (cells !! z) = Some ids -> ids <> []) ->
  cells_full (partial_alter f z cells).
Proof.
  intros Hc Hf z' ids. destruct (decide (z' = z)) as [->|Hne].
  - rewrite lookup_partial_alter. apply Hf.
  - rewrite lookup_partial_alter_ne by done. apply Hc.
Qed.
Lemma cells_full_empty : cells_full ∅.
Proof. intros z ids. by rewrite lookup_empty. Qed.
Lemma be_full_empty : be_full ∅.
Proof. intros z ids. by rewrite lookup_empty. Qed.

Lemma extend_cells_full cells g :
  g.2 <> [] -> cells_full cells -> cells_full (extend_cells cells g).
Proof.
  intros Hg Hc. apply cells_full_alter; [done|]. intros ids. unfold extend_cell.
  destruct (cells !! g.1) as [old|] eqn:E; intros [= <-].
  - apply Hc in E. by destruct old.
  - destruct g as [z [|e es]]; done.
Qed.
Lemma foldl_extend_cells_full gs : forall cells,
  Forall (fun g => g.2 <> []) gs -> cells_full cells -> cells_full (foldl extend_cells cells gs).
Proof.
  induction gs as [|g gs IH]; intros cells Hg Hc; simpl; [done|].
  inversion Hg; subst. apply IH; [done|]. by apply extend_cells_full.
Qed.
Lemma cells_has_nonempty cells z v : cells_has cells z v -> cells <> ∅.
Proof. intros (ids & H & _) ->. by rewrite lookup_empty in H. Qed.

Lemma extend_group_full be g : g.2 <> [] -> be_full be -> be_full (extend_group be g).
Proof.
  intros Hg Hb rs cells. unfold extend_group. destruct (decide (rs = g.1)) as [->|Hne].
  - rewrite lookup_partial_alter. intros [= <-].
    set (key := fun v0 : grid_entry => interleave (ge_x v0) (ge_y v0)). split.
    + destruct g as [r [|e es]]; [done|]. simpl.
      set (old := default ∅ _).
      assert (H : e ∈ mjoin (map snd (group_consec key N.eqb (e :: es)))).
      { rewrite group_consec_concat. left. }
      apply elem_of_mjoin in H as (g & Hx & ([k g'] & -> & Hin)%elem_of_map).
      apply (cells_has_nonempty _ k (pack_id (ge_id e) (ge_hash e))).
      apply foldl_extend_cells_has. right. exists (k, g'), e. done.
    + apply foldl_extend_cells_full.
      * apply Forall_forall. intros [k vs] Hin.
        by apply (group_consec_key key N.eqb g.2 k vs eqb_eq_N) in Hin as [? _].
      * destruct (be !! g.1) as [cells|] eqn:E; simpl; [|apply cells_full_empty].
        by apply Hb in E as [_ ?].
  - rewrite lookup_partial_alter_ne by done. apply Hb.
Qed.
Lemma extend_entries_full be vs : be_full be -> be_full (extend_entries be vs).
Proof.
  intros Hb. unfold extend_entries.
  set (key := fun v0 : grid_entry => pack_rs (ge_relev v0) (ge_score v0)).
  pose proof (eager_groupby_grouping key N.eqb vs) as HG.
  assert (Hne : Forall (fun g => g.2 <> []) (eager_groupby key N.eqb vs)).
  { apply Forall_forall. intros [k g] Hin.
    destruct (grouping_elem _ _ _ _ _ _ HG Hin) as (a & run & -> & _). done. }
  clear HG. revert be Hb. induction Hne as [|g gs Hg Hgs IH]; intros be Hb; simpl; [done|].
  apply IH. by apply extend_group_full.
Qed.

(** ** The record list determines and is determined by the content *)
Definition lookup_sorted_map {V} (m : gmap N V) := isort desc_key (map_to_list m).
Lemma elem_sorted_map {V} (m : gmap N V) k v :
  (k, v) ∈ isort desc_key (map_to_list m) <-> m !! k = Some v.
Proof. rewrite elem_of_isort. apply elem_of_map_to_list. Qed.
Lemma sorted_map_strict {V} (m : gmap N V) :
  StronglySorted (fun a b => b.1 < a.1) (isort desc_key (map_to_list m)).
Proof.
  pose proof (isort_sorted desc_key desc_key_total desc_key_trans (map_to_list m)) as H.
  assert (Hnd : NoDup ((isort desc_key (map_to_list m)).*1)).
  { rewrite isort_perm. apply NoDup_fst_map_to_list. }
  induction H as [|a l H IH Ha]; [constructor|]. inversion Hnd as [|? ? Hn Hnd']; subst.
  constructor; [by apply IH|]. rewrite Forall_forall in *. intros b Hb.
  specialize (Ha b Hb). unfold desc_key in Ha. assert (a.1 <> b.1); [|lia].
  intros E. apply Hn. rewrite E. by apply elem_of_list_fmap_1.
Qed.

Lemma elem_norm_cells m z ids :
  (z, ids) ∈ norm_cells m <-> exists raw, m !! z = Some raw /\ ids = sort_ids raw.
Proof.
  unfold norm_cells. rewrite elem_of_map. split.
  - intros ([z' raw] & [= -> ->] & H%elem_sorted_map). eauto.
  - intros (raw & H & ->). exists (z, raw). split; [done|]. by apply elem_sorted_map.
Qed.
Lemma elem_norm be rs cs :
  (rs, cs) ∈ norm be <-> exists cells, be !! rs = Some cells /\ cs = norm_cells cells.
Proof.
  unfold norm. rewrite elem_of_map. split.
  - intros ([z' raw] & [= -> ->] & H%elem_sorted_map). eauto.
  - intros (raw & H & ->). exists (rs, raw). split; [done|]. by apply elem_sorted_map.
Qed.
Lemma norm_cells_sorted m : StronglySorted (fun a b => b.1 < a.1) (norm_cells m).
Proof. apply StronglySorted_map. apply sorted_map_strict. Qed.
Lemma norm_sorted be : StronglySorted (fun a b => b.1 < a.1) (norm be).
Proof. apply StronglySorted_map. apply sorted_map_strict. Qed.

Lemma sort_ids_elem l v : v ∈ sort_ids l <-> v ∈ l.
Proof.
  unfold sort_ids. rewrite dedup_elem; [apply elem_of_isort|]. intros a b. apply N.eqb_eq.
Qed.
Lemma sort_ids_sorted l : StronglySorted (fun a b => b < a) (sort_ids l).
Proof. apply dedup_sorted. apply isort_sorted; intros; lia. Qed.
Lemma sort_ids_ext l1 l2 : (forall v, v ∈ l1 <-> v ∈ l2) -> sort_ids l1 = sort_ids l2.
Proof.
  intros H. apply sorted_gt_unique; [apply sort_ids_sorted..|]. intros x.
  rewrite !sort_ids_elem. apply H.
Qed.

Lemma sorted_fst_unique {V} (l1 l2 : list (N * V)) :
  StronglySorted (fun a b => b.1 < a.1) l1 -> StronglySorted (fun a b => b.1 < a.1) l2 ->
  (forall x, x ∈ l1 <-> x ∈ l2) -> l1 = l2.
Proof.
  intros H1 H2 H. apply (sorted_perm_unique (fun a b => b.1 < a.1)); [intros; lia|done|done|].
  apply NoDup_Permutation; [| |done];
    eapply (StronglySorted_NoDup (fun a b : N * V => b.1 < a.1)); eauto; intros a; lia.
Qed.

Lemma norm_cells_ext m1 m2 :
  cells_full m1 -> cells_full m2 -> (forall z v, cells_has m1 z v <-> cells_has m2 z v) ->
  norm_cells m1 = norm_cells m2.
Proof.
  assert (Hgo : forall m1 m2, cells_full m1 ->
    (forall z v, cells_has m1 z v <-> cells_has m2 z v) ->
    forall x, x ∈ norm_cells m1 -> x ∈ norm_cells m2).
  { intros n1 n2 H1 H [z ids] (raw & Hz & ->)%elem_norm_cells. apply elem_norm_cells.
    pose proof (H1 _ _ Hz) as Hne. destruct raw as [|v raw]; [done|].
    destruct (proj1 (H z v)) as (raw2 & Hz2 & Hv2); [by exists (v :: raw); split; [|left]|].
    exists raw2. split; [done|]. apply sort_ids_ext. intros w. split; intros Hw.
    - destruct (proj1 (H z w)) as (raw2' & Hz2' & Hw'); [by exists (v :: raw)|]. congruence.
    - destruct (proj2 (H z w)) as (raw2' & Hz2' & Hw'); [by exists raw2|]. congruence. }
  intros H1 H2 H. apply sorted_fst_unique; [apply norm_cells_sorted..|]. intros x.
  split; apply Hgo; try done; intros; by rewrite ?H.
Qed.

Lemma norm_ext be1 be2 :
  be_full be1 -> be_full be2 -> (forall rs z v, be_has be1 rs z v <-> be_has be2 rs z v) ->
  norm be1 = norm be2.
Proof.
  assert (Hgo : forall be1 be2, be_full be1 -> be_full be2 ->
    (forall rs z v, be_has be1 rs z v <-> be_has be2 rs z v) ->
    forall x, x ∈ norm be1 -> x ∈ norm be2).
  { intros b1 b2 H1 H2 H [rs cs] (c1 & Hc1 & ->)%elem_norm. apply elem_norm.
    destruct (H1 _ _ Hc1) as [Hne Hf1].
    apply map_choose in Hne as (z & ids & Hz). pose proof (Hf1 _ _ Hz) as Hids.
    destruct ids as [|v ids]; [done|].
    destruct (proj1 (H rs z v)) as (c2 & ids2 & Hc2 & _).
    { exists c1, (v :: ids). split; [done|]. split; [done|left]. }
    exists c2. split; [done|]. destruct (H2 _ _ Hc2) as [_ Hf2].
    apply norm_cells_ext; [done|done|]. intros z' v'.
    specialize (H rs z' v'). rewrite !be_has_default, Hc1, Hc2 in H. exact H. }
  intros H1 H2 H. apply sorted_fst_unique; [apply norm_sorted..|]. intros x.
  split; apply Hgo; try done; intros; by rewrite ?H.
Qed.

(** The triples of a record, in stored order. *)
Definition rec_triples (n : list (N * list (N * list N))) : list (N * N * N) :=
  mjoin (map (fun g : N * list (N * list N) =>
    mjoin (map (fun c : N * list N => map (fun v => (g.1, c.1, v)) c.2) g.2)) n).

Lemma elem_rec_triples be rs z v : (rs, z, v) ∈ rec_triples (norm be) <-> be_has be rs z v.
Proof.
  unfold rec_triples. rewrite elem_of_mjoin. split.
  - intros (l & Hl & ([rs' cs] & -> & (cells & Hc & ->)%elem_norm)%elem_of_map). simpl in *.
    apply elem_of_mjoin in Hl as (l & Hl & ([z' ids] & -> & (raw & Hr & ->)%elem_norm_cells)%elem_of_map).
    apply elem_of_map in Hl as (v' & [= -> -> ->] & Hv). simpl in *.
    rewrite sort_ids_elem in Hv. exists cells, raw. split_and!; assumption.
  - intros (cells & raw & Hc & Hr & Hv). eexists. split; [|apply elem_of_map; exists (rs, norm_cells cells)].
    2: { split; [reflexivity|]. apply elem_norm. eauto. }
    simpl. apply elem_of_mjoin. eexists. split; [|apply elem_of_map; exists (z, sort_ids raw)].
    2: { split; [reflexivity|]. apply elem_norm_cells. eauto. }
    simpl. apply elem_of_map. exists v. split; [done|]. by rewrite sort_ids_elem.
Qed.

Definition triple_before (a b : N * N * N) : Prop :=
  lex2 (lex2 gt_N gt_N) gt_N a b.

Lemma StronglySorted_mjoin_map {A B} (f : A -> list B) (R : B -> B -> Prop) (S : A -> A -> Prop) l :
  (forall a b x y, S a b -> x ∈ f a -> y ∈ f b -> R x y) ->
  (forall a, a ∈ l -> StronglySorted R (f a)) ->
  StronglySorted S l -> StronglySorted R (mjoin (map f l)).
Proof.
  intros HR Hf H. induction H as [|a l H IH Ha]; simpl; [constructor|].
  apply StronglySorted_app. split; [apply Hf; left|]. split; [apply IH; intros; apply Hf; by right|].
  intros x y Hx (l' & Hy & (b & -> & Hb)%elem_of_map)%elem_of_mjoin.
  rewrite Forall_forall in Ha. eauto.
Qed.

Lemma rec_triples_sorted be : StronglySorted triple_before (rec_triples (norm be)).
Proof.
  unfold rec_triples. eapply StronglySorted_mjoin_map; [| |apply norm_sorted].
  - intros [r1 c1] [r2 c2] x y H Hx Hy. simpl in *.
    apply elem_of_mjoin in Hx as (l & Hl & ([z' ids] & -> & _)%elem_of_map).
    apply elem_of_map in Hl as (v' & -> & Hv).
    apply elem_of_mjoin in Hy as (l & Hl & ([z'' ids'] & -> & _)%elem_of_map).
    apply elem_of_map in Hl as (v'' & -> & Hv'). left. left. exact H.
  - intros [rs cs] (cells & Hc & ->)%elem_norm. simpl.
    eapply StronglySorted_mjoin_map; [| |apply norm_cells_sorted].
    + intros [z1 i1] [z2 i2] x y H Hx Hy. simpl in *.
      apply elem_of_map in Hx as (v' & -> & Hv). apply elem_of_map in Hy as (v'' & -> & Hv').
      left. right. split; [done|]. exact H.
    + intros [z ids] (raw & Hr & ->)%elem_norm_cells. simpl.
      apply StronglySorted_map. eapply StronglySorted_impl; [|apply sort_ids_sorted].
      intros a b _ _ H. right. split; [done|]. exact H.
Qed.
