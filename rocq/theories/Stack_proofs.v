(** Lemmas on the stacking tree: bins, the arena, soundness and completeness. *)
From Verif Require Import Prelude Lists F64 Common Store Query Stackable Cmp_proofs Float_proofs
  Spec_coalesce Coalesce_proofs Multi_proofs Spec_stack.
From Coq Require Import Sorting.Sorted.
From Coq Require Import ZifyBool.
Local Open Scope N_scope.

(** ** Bins *)
Definition bins_wf (pms : list subquery) (bins : list pm_bin) : Prop :=
  (forall b pm, b ∈ bins -> pm ∈ pb_pms b -> pm ∈ pms) /\
  StronglySorted (fun b1 b2 => forall p1 p2, p1 ∈ pb_pms b1 -> p2 ∈ pb_pms b2 -> type_of p1 < type_of p2) bins.
(** The bins with their types. *)
Definition keyed_wf (pms : list subquery) (m : list (N * pm_bin)) : Prop :=
  StronglySorted N.lt (map fst m) /\
  (forall t b pm, (t, b) ∈ m -> pm ∈ pb_pms b -> type_of pm = t /\ pm ∈ pms) /\
  (forall pm, pm ∈ pms -> exists b, (type_of pm, b) ∈ m /\ pm ∈ pb_pms b).

Lemma bin_add_keys pm m t : t ∈ map fst (bin_add pm m) <-> t = type_of pm \/ t ∈ map fst m.
Proof.
  induction m as [|[t' b] m IH].
  - cbn. rewrite elem_of_list_singleton, elem_of_nil. unfold type_of. naive_solver.
  - cbn [bin_add]. fold (type_of pm). destruct (N.compare_spec (type_of pm) t') as [->|H|H].
    + change (map fst ((t', ?x) :: m)) with (t' :: map fst m). cbn [map fst]. rewrite !elem_of_cons. naive_solver.
    + cbn [map fst]. rewrite !elem_of_cons. naive_solver.
    + cbn [map fst]. rewrite !elem_of_cons, IH. naive_solver.
Qed.
Lemma bin_add_wf pms pm m : keyed_wf pms m -> keyed_wf (pms ++ [pm]) (bin_add pm m).
Proof.
  intros (Hs & Hin & Hall). split; [|split].
  - clear Hin Hall. induction m as [|[t' b] m IH]; [cbn; repeat constructor|].
    cbn [map fst] in Hs. apply StronglySorted_inv in Hs as [Hs HF]. cbn [bin_add]. fold (type_of pm).
    destruct (N.compare_spec (type_of pm) t') as [E|H|H].
    + cbn [map fst]. by constructor.
    + cbn [map fst]. constructor; [by constructor|]. constructor; [done|].
      eapply Forall_impl; [exact HF|]. intros x Hx. lia.
    + cbn [map fst]. constructor; [by apply IH|]. rewrite Forall_forall in *. intros x Hx.
      apply bin_add_keys in Hx as [->|Hx]; [done|by apply HF].
  - assert (H : forall t b q, (t, b) ∈ bin_add pm m -> q ∈ pb_pms b -> (q = pm /\ t = type_of pm) \/
        exists b0, (t, b0) ∈ m /\ q ∈ pb_pms b0).
    { clear. induction m as [|[t' b'] m IH]; intros t b q Htb Hq; cbn [bin_add] in Htb; fold (type_of pm) in Htb.
      - apply elem_of_list_singleton in Htb. injection Htb as -> ->. cbn in Hq. apply elem_of_list_singleton in Hq. by left.
      - destruct (N.compare_spec (type_of pm) t') as [E|H|H].
        + apply elem_of_cons in Htb as [[= -> ->]|Htb]; [|right; exists b; split; [by right|done]].
          cbn [pb_pms] in Hq. apply elem_of_app in Hq as [Hq|Hq].
          * right. exists b'. split; [by left|done].
          * apply elem_of_list_singleton in Hq. by left.
        + apply elem_of_cons in Htb as [[= -> ->]|Htb]; [|right; exists b; done].
          cbn in Hq. apply elem_of_list_singleton in Hq. by left.
        + apply elem_of_cons in Htb as [[= -> ->]|Htb]; [right; exists b'; split; [by left|done]|].
          destruct (IH t b q Htb Hq) as [?|(b0 & ? & ?)]; [by left|]. right. exists b0. split; [by right|done]. }
    intros t b q Htb Hq. destruct (H t b q Htb Hq) as [[-> ->]|(b0 & Hb0 & Hq0)].
    + split; [done|]. apply elem_of_app. right. by left.
    + destruct (Hin t b0 q Hb0 Hq0) as [? ?]. split; [done|]. apply elem_of_app. by left.
  - assert (Hnew : exists b, (type_of pm, b) ∈ bin_add pm m /\ pm ∈ pb_pms b).
    { clear. induction m as [|[t' b'] m IH]; cbn [bin_add]; fold (type_of pm).
      - eexists. split; [by left|]. cbn. by left.
      - destruct (N.compare_spec (type_of pm) t') as [->|H|H].
        + eexists. split; [by left|]. cbn [pb_pms]. apply elem_of_app. right. by left.
        + eexists. split; [by left|]. cbn. by left.
        + destruct IH as (b & ? & ?). exists b. split; [by right|done]. }
    assert (Hold : forall t b q, (t, b) ∈ m -> q ∈ pb_pms b -> exists b', (t, b') ∈ bin_add pm m /\ q ∈ pb_pms b').
    { clear. induction m as [|[t' b'] m IH]; intros t b q Htb Hq; [by apply elem_of_nil in Htb|].
      cbn [bin_add]; fold (type_of pm). destruct (N.compare_spec (type_of pm) t') as [E|H|H].
      - apply elem_of_cons in Htb as [[= -> ->]|Htb].
        + eexists. split; [by left|]. cbn [pb_pms]. apply elem_of_app. by left.
        + exists b. split; [by right|done].
      - exists b. split; [by right|done].
      - apply elem_of_cons in Htb as [[= -> ->]|Htb].
        + exists b'. split; [by left|done].
        + destruct (IH t b q Htb Hq) as (b0 & ? & ?). exists b0. split; [by right|done]. }
    intros q Hq. apply elem_of_app in Hq as [Hq|Hq].
    + destruct (Hall q Hq) as (b & Hb & Hqb). by eapply Hold.
    + apply elem_of_list_singleton in Hq as ->. exact Hnew.
Qed.
Lemma bins_keyed pms : keyed_wf pms (foldl (fun m pm => bin_add pm m) [] pms).
Proof.
  induction pms as [|pm pms IH] using rev_ind.
  - split; [constructor|]. split; intros *; by intros ?%elem_of_nil.
  - rewrite foldl_snoc. by apply bin_add_wf.
Qed.

Lemma set_after_pms bins : map pb_pms (set_after bins).1 = map pb_pms bins.
Proof.
  induction bins as [|b bins IH]; [done|]. cbn [set_after]. destruct (set_after bins) as [out sum] eqn:E.
  cbn [fst map pb_pms] in *. by rewrite IH.
Qed.
Lemma make_bins_pms pms :
  map pb_pms (make_bins pms) = map (fun tb : N * pm_bin => isort pm_leb (pb_pms tb.2)) (foldl (fun m pm => bin_add pm m) [] pms).
Proof. unfold make_bins. rewrite set_after_pms, List.map_map. done. Qed.

(** A chain that takes its members from successive bins. *)
Fixpoint from_bins (bins : list (list subquery)) (chain : list subquery) : Prop :=
  match chain with
  | [] => True
  | pm :: rest => exists bs1 b bs2, bins = bs1 ++ b :: bs2 /\ pm ∈ b /\ from_bins bs2 rest
  end.

Lemma keyed_from_bins pms m chain :
  keyed_wf pms m -> (forall pm, pm ∈ chain -> pm ∈ pms) ->
  StronglySorted (fun a b => type_of a < type_of b) chain ->
  from_bins (map (fun tb : N * pm_bin => isort pm_leb (pb_pms tb.2)) m) chain.
Proof.
  intros (Hs & Hin & Hall) Hc Hsc.
  assert (H : forall pm, pm ∈ chain -> exists b, (type_of pm, b) ∈ m /\ pm ∈ pb_pms b) by (intros; by apply Hall, Hc).
  clear Hall Hc Hin pms. revert m Hs H. induction Hsc as [|pm chain Hsc IH HF]; intros m Hs H; [done|].
  destruct (H pm ltac:(by left)) as (b & Hb & Hpm). apply elem_of_list_split in Hb as (m1 & m2 & ->).
  cbn [from_bins]. rewrite List.map_app. cbn [map]. eexists _, _, _. split; [reflexivity|].
  split; [by rewrite elem_of_isort|]. apply IH.
  - rewrite List.map_app in Hs. cbn [map] in Hs. clear - Hs. induction (map fst m1) as [|x l IHl]; cbn in Hs.
    + by apply StronglySorted_inv in Hs as [? _].
    + apply StronglySorted_inv in Hs as [? _]. by apply IHl.
  - intros q Hq. destruct (H q ltac:(by right)) as (b' & Hb' & Hqb). exists b'. split; [|done].
    rewrite Forall_forall in HF. specialize (HF q Hq).
    apply elem_of_app in Hb' as [Hb'|Hb'].
    + exfalso. rewrite List.map_app in Hs. cbn [map fst] in Hs.
      assert (Hlt : type_of q < type_of pm).
      { assert (Hq1 : type_of q ∈ map fst m1) by (apply elem_of_map; by exists (type_of q, b')).
        clear - Hs Hq1. induction (map fst m1) as [|x l IHl]; [by apply elem_of_nil in Hq1|]. cbn in Hs.
        apply StronglySorted_inv in Hs as [Hs HF]. apply elem_of_cons in Hq1 as [->|Hq1]; [|by apply IHl].
        rewrite Forall_forall in HF. apply HF, elem_of_app. right. by left. }
      lia.
    + apply elem_of_cons in Hb' as [[= E _]|Hb']; [lia|done].
Qed.

Lemma make_bins_wf pms : bins_wf pms (make_bins pms).
Proof.
  pose proof (bins_keyed pms) as (Hs & Hin & _). pose proof (make_bins_pms pms) as Hp.
  set (m := foldl (fun m pm => bin_add pm m) [] pms) in *. clearbody m. set (bins := make_bins pms) in *. clearbody bins.
  split.
  - intros b pm Hb Hpm.
    assert (Hb' : pb_pms b ∈ map pb_pms bins) by (apply elem_of_map; eauto).
    rewrite Hp in Hb'. apply elem_of_map in Hb' as ([t b0] & E & Hb0). rewrite E, elem_of_isort in Hpm.
    by destruct (Hin t b0 pm Hb0 Hpm).
  - assert (H : StronglySorted (fun l1 l2 => forall p1 p2, p1 ∈ l1 -> p2 ∈ l2 -> type_of p1 < type_of p2) (map pb_pms bins)).
    { rewrite Hp. clear Hp. induction m as [|[t b] m IH]; [constructor|]. cbn [map] in Hs.
      apply StronglySorted_inv in Hs as [Hs HF]. cbn [map]. constructor.
      - apply IH; [done|]. intros t' b' pm Ht. apply Hin. by right.
      - rewrite Forall_forall in HF. rewrite Forall_forall. intros l Hl. apply elem_of_map in Hl as ([t' b'] & -> & Hb').
        intros p1 p2. cbn [snd]. rewrite !elem_of_isort. intros H1 H2.
        destruct (Hin t b p1 ltac:(by left) H1) as [-> _]. destruct (Hin t' b' p2 ltac:(by right) H2) as [-> _].
        apply (HF t'). apply elem_of_map. by exists (t', b'). }
    clear - H. induction bins as [|b bins IH]; [constructor|]. cbn [map] in H.
    apply StronglySorted_inv in H as [H HF]. constructor; [by apply IH|].
    rewrite Forall_forall in HF. rewrite Forall_forall. intros b' Hb'. apply HF. apply elem_of_map. eauto.
Qed.

(** ** Adding to the arena *)
Lemma arena_add_full a n : is_full a = true -> is_full (arena_add a n).2 = true.
Proof.
  intros Hf. unfold arena_add. rewrite Hf. cbn [andb]. destruct (ord_lt (sn_max_relev n) (am_min a)) eqn:E; [done|].
  unfold is_full in *. destruct (am_leaves a <? am_soft_max a) eqn:E1; [lia|].
  generalize dependent (if is_leaf n then 1 else 0). intros leaf.
  destruct (ord_lt (am_min a) (sn_max_relev n)).
  2:{ cbn [snd am_soft_max am_leaves]. lia. }
  cbn [am_relev]. destruct (relev_find (am_min a) (relev_add (sn_max_relev n) leaf (am_next a) (am_relev a))) as [[c idxs]|] eqn:Ef.
  2:{ cbn [snd am_soft_max am_leaves]. lia. }
  cbn [snd am_leaves am_soft_max]. destruct (am_soft_max a <=? am_leaves a + leaf - c) eqn:Es.
  2:{ cbn [snd am_soft_max am_leaves]. lia. }
  unfold cull_min. cbn [am_min am_relev am_leaves am_nodes am_soft_max]. rewrite Ef. cbn [am_soft_max am_leaves]. exact Es.
Qed.
Lemma arena_add_next a n : am_next a <= am_next (arena_add a n).2 <= am_next a + 1.
Proof.
  unfold arena_add. destruct (_ && _); [cbn; lia|]. destruct (am_leaves a <? am_soft_max a).
  - destruct (ord_lt _ _); cbn; lia.
  - destruct (ord_lt _ _); [|cbn; lia]. destruct (relev_find _ _) as [[c l]|]; [|cbn; lia].
    destruct (_ <=? _); [|cbn; lia]. unfold cull_min. cbn [am_min am_relev]. destruct (relev_find _ _) as [[c' l']|]; cbn; lia.
Qed.
Lemma arena_add_soft a n : am_soft_max (arena_add a n).2 = am_soft_max a.
Proof.
  unfold arena_add. destruct (_ && _); [done|]. destruct (am_leaves a <? am_soft_max a).
  - by destruct (ord_lt _ _).
  - destruct (ord_lt _ _); [|done]. destruct (relev_find _ _) as [[c l]|]; [|done].
    destruct (_ <=? _); [|done]. unfold cull_min. cbn [am_min am_relev]. by destruct (relev_find _ _) as [[c' l']|].
Qed.
Lemma arena_add_some a n i a' : arena_add a n = (Some i, a') ->
  i = am_next a /\ am_next a' = am_next a + 1 /\
  forall j c, am_nodes a' !! j = Some c -> (j = i /\ c = n) \/ (am_nodes a !! j = Some c).
Proof.
  assert (Hd : forall idxs (m : gmap N node) j c, foldl (fun m i => delete i m) m idxs !! j = Some c -> m !! j = Some c).
  { induction idxs as [|x idxs IH]; intros m j c H; [done|]. cbn [foldl] in H. apply IH in H.
    by apply lookup_delete_Some in H as [_ ?]. }
  assert (Hi : forall j c, <[am_next a := n]> (am_nodes a) !! j = Some c ->
    (j = am_next a /\ c = n) \/ am_nodes a !! j = Some c).
  { intros j c [[-> ->]|[_ ?]]%lookup_insert_Some; [by left|by right]. }
  unfold arena_add. destruct (_ && _); [done|]. destruct (am_leaves a <? am_soft_max a).
  { intros [= <- <-]. destruct (ord_lt _ _); (split; [done|]; split; [done|]; apply Hi). }
  destruct (ord_lt _ _).
  2:{ intros [= <- <-]. split; [done|]. split; [done|]. apply Hi. }
  destruct (relev_find _ _) as [[c0 l0]|].
  2:{ intros [= <- <-]. split; [done|]. split; [done|]. apply Hi. }
  intros [= <- <-]. split; [done|]. destruct (_ <=? _); [|split; [done|apply Hi]].
  unfold cull_min. cbn [am_min am_relev am_nodes am_leaves am_next].
  destruct (relev_find _ _) as [[c1 l1]|]; cbn [am_nodes am_next]; (split; [done|]).
  - intros j c H%Hd. by apply Hi.
  - apply Hi.
Qed.
Lemma arena_add_none a n a' : arena_add a n = (None, a') -> a' = a.
Proof.
  unfold arena_add. destruct (_ && _); [by intros [= <-]|]. destruct (am_leaves a <? am_soft_max a); [done|].
  destruct (ord_lt _ _); [|done]. by destruct (relev_find _ _) as [[c0 l0]|].
Qed.
(** Below the limit nothing is refused and nothing is lost. *)
Lemma arena_add_room a n : is_full a = false ->
  exists a', arena_add a n = (Some (am_next a), a') /\ am_nodes a' = <[am_next a := n]> (am_nodes a).
Proof.
  intros Hf. unfold arena_add. rewrite Hf. cbn [andb]. unfold is_full in Hf.
  destruct (am_leaves a <? am_soft_max a) eqn:E; [|lia]. eexists. split; [reflexivity|]. by destruct (ord_lt _ _).
Qed.
Lemma arena_add_leaves a n : am_leaves (arena_add a n).2 <= am_leaves a + (am_next (arena_add a n).2 - am_next a).
Proof.
  unfold arena_add. destruct (_ && _); [cbn; lia|].
  assert (Hl : (if is_leaf n then 1 else 0) <= 1) by (destruct (is_leaf n); lia).
  destruct (am_leaves a <? am_soft_max a).
  - destruct (ord_lt _ _); cbn; lia.
  - destruct (ord_lt _ _); [|cbn; lia]. destruct (relev_find _ _) as [[c l]|]; [|cbn; lia].
    destruct (_ <=? _); [|cbn; lia]. unfold cull_min. cbn [am_min am_relev]. destruct (relev_find _ _) as [[c' l']|]; cbn; lia.
Qed.

(** ** Soundness *)
Lemma legal_nil pms : legal pms [].
Proof. split; [intros pm H; by apply elem_of_nil in H|]. split; [constructor|]. split; [exact I|exact I]. Qed.

Definition last_idx (chain : list subquery) : N := match last chain with Some pm => sq_idx pm | None => root_idx end.
Lemma not_excluded_app prev chain pm :
  not_excluded prev (chain ++ [pm]) <->
  not_excluded prev chain /\ N.testbit (sq_nonoverlap pm) (match last chain with Some q => sq_idx q | None => prev end) = false.
Proof.
  revert prev. induction chain as [|q chain IH]; intros prev.
  - cbn. naive_solver.
  - cbn [app not_excluded]. rewrite IH. destruct chain as [|q' chain]; [cbn; naive_solver|].
    change (last (q :: q' :: chain)) with (last (q' :: chain)).
    destruct (last (q' :: chain)) as [x|] eqn:E; [naive_solver|]. apply last_None in E. done.
Qed.
Lemma legal_snoc pms chain pm :
  legal pms chain -> pm ∈ pms -> (forall q, q ∈ chain -> type_of q < type_of pm) ->
  N.land (all_masks (map sq_mask chain)) (sq_mask pm) = 0 ->
  N.testbit (sq_nonoverlap pm) (last_idx chain) = false ->
  legal pms (chain ++ [pm]).
Proof.
  intros (H1 & H2 & H3 & H4) Hpm Ht Hm He. split; [|split; [|split]].
  - intros q Hq. apply elem_of_app in Hq as [Hq|Hq]; [by apply H1|]. by apply elem_of_list_singleton in Hq as ->.
  - apply StronglySorted_app. split; [done|]. split; [by repeat constructor|]. intros a b Ha Hb.
    apply elem_of_list_singleton in Hb as ->. by apply Ht.
  - rewrite List.map_app. apply disjoint_masks_app. done.
  - apply not_excluded_app. done.
Qed.
Lemma sum_weights_snoc chain pm : sum_weights (chain ++ [pm]) = fadd (sum_weights chain) (sq_weight pm).
Proof. unfold sum_weights. by rewrite foldl_snoc. Qed.

Section sound.
  Context (pms : list subquery).
  Notation ghost := (gmap N (list subquery * f64)%type).
  (** What is fixed when a node is created. *)
  Record static (chain : list subquery) (n : node) : Prop := {
    st_pm : sn_pm n = last chain;
    st_mask : sn_mask n = all_masks (map sq_mask chain);
    st_bmask : sn_bmask n = all_masks (map sq_nonoverlap chain);
    st_idx : sn_idx n = last_idx chain;
    st_z : sn_zoom n = match last chain with Some pm => st_zoom (sq_store pm) | None => 0 end }.
  (** No accumulated weight is NaN. *)
  Definition no_nan : Prop := forall chain, legal pms chain -> f_is_nan (sum_weights chain) = false.
  Record node_ok (L : ghost) (chain : list subquery) (n : node) : Prop := {
    no_static : static chain n;
    no_legal : legal pms chain;
    no_max : exists ext, legal pms (chain ++ ext) /\ sn_max_relev n = sum_weights (chain ++ ext);
    no_own : no_nan -> ord_cmp (sum_weights chain) (sn_max_relev n) <> Gt;
    no_kids : forall j, j ∈ sn_children n -> exists pm r, L !! j = Some (chain ++ [pm], r) /\
      (no_nan -> ord_cmp r (sn_max_relev n) <> Gt);
    no_next : sn_children n <> [] -> exists pm, legal pms (chain ++ [pm]) }.
  Record arena_ok (L : ghost) (a : arena) : Prop := {
    ao_dom : forall i, is_Some (L !! i) -> i < am_next a;
    ao_node : forall i n, am_nodes a !! i = Some n ->
      exists chain, chain <> [] /\ L !! i = Some (chain, sn_max_relev n) /\ node_ok L chain n /\
        forall j, j ∈ sn_children n -> j < i }.

  Lemma node_ok_mono L L' chain n : L ⊆ L' -> node_ok L chain n -> node_ok L' chain n.
  Proof.
    intros HL [H1 H2 H3 H4 H5 H6]. split; [done..| |done]. intros j Hj. destruct (H5 j Hj) as (pm & r & Hl & Hr).
    exists pm, r. split; [|done]. by eapply lookup_weaken.
  Qed.

  Lemma max_step r r' : f_is_nan r = false -> f_is_nan r' = false ->
    let m := if fltb r r' then r' else r in ord_cmp r m <> Gt /\ ord_cmp r' m <> Gt.
  Proof.
    intros Hr Hr'. cbn zeta. pose proof total_cmp_ord as HT. destruct (fltb r r') eqn:E.
    - apply fltb_ord in E; [|done|done]. rewrite E. split; [done|]. by rewrite (tc_refl _ HT).
    - split; [by rewrite (tc_refl _ HT)|]. intros Hgt. apply (tc_gt_lt _ HT) in Hgt. apply fltb_ord in Hgt; [|done|done]. congruence.
  Qed.

  Lemma attach_ok L a chain n child pm n' a' :
    arena_ok L a -> node_ok L chain n -> node_ok L (chain ++ [pm]) child ->
    (forall j, j ∈ sn_children child -> j < am_next a) ->
    attach n child a = (n', a') ->
    exists L', L ⊆ L' /\ arena_ok L' a' /\ node_ok L' chain n' /\
      am_next a <= am_next a' /\
      (forall j, j ∈ sn_children n' -> j ∈ sn_children n \/ j < am_next a') /\
      sn_idx n' = sn_idx n /\ sn_mask n' = sn_mask n.
  Proof.
    intros Ha Hn Hc Hcj H. unfold attach in H. destruct (arena_add a child) as [[i|] a1] eqn:E.
    2:{ injection H as <- <-. apply arena_add_none in E as ->. exists L. split; [done|]. split; [done|]. split; [done|].
        split; [lia|]. split; [by left|done]. }
    apply arena_add_some in E as (Hi & Hnext & Hnodes). injection H as <- <-.
    set (L' := <[i := (chain ++ [pm], sn_max_relev child)]> L).
    assert (Hfresh : L !! i = None).
    { destruct (L !! i) eqn:El; [|done]. exfalso. pose proof (ao_dom _ _ Ha i ltac:(eauto)). lia. }
    assert (HL : L ⊆ L') by (by apply insert_subseteq).
    exists L'. split; [done|]. split; [|split; [|split; [lia|split; [|done]]]].
    - split.
      + intros j Hj. unfold L' in Hj. apply lookup_insert_is_Some in Hj as [<-|[_ Hj]]; [lia|].
        pose proof (ao_dom _ _ Ha j Hj). lia.
      + intros j c Hj. destruct (Hnodes j c Hj) as [[-> ->]|Hold].
        * exists (chain ++ [pm]). split; [by destruct chain|]. split; [unfold L'; by rewrite lookup_insert|].
          split; [by eapply node_ok_mono|]. intros k Hk. specialize (Hcj k Hk). lia.
        * destruct (ao_node _ _ Ha j c Hold) as (ch & Hne & Hl & Hok & Hlt). exists ch. split; [done|].
          split; [by eapply lookup_weaken|]. split; [by eapply node_ok_mono|done].
    - pose proof (node_ok_mono _ _ _ _ HL Hn) as [H1 H2 H3 H4 H5 H6].
      assert (Hnan : no_nan -> f_is_nan (sn_max_relev n) = false /\ f_is_nan (sn_max_relev child) = false).
      { intros Hno. destruct H3 as (ext & Hl & ->). destruct (no_max _ _ _ Hc) as (ext' & Hl' & ->). split; by apply Hno. }
      split; cbn [sn_max_relev sn_children].
      + destruct H1. by split.
      + done.
      + destruct (fltb (sn_max_relev n) (sn_max_relev child)); [|done].
        destruct (no_max _ _ _ Hc) as (ext' & Hl' & He). exists ([pm] ++ ext'). rewrite app_assoc. done.
      + intros Hno. destruct (Hnan Hno) as [N1 N2]. eapply (tc_trans _ total_cmp_ord); [by apply H4|].
        by apply (max_step _ _ N1 N2).
      + intros j Hj. apply elem_of_app in Hj as [Hj|Hj].
        * destruct (H5 j Hj) as (q & r & Hl & Hr). exists q, r. split; [done|]. intros Hno.
          destruct (Hnan Hno) as [N1 N2]. eapply (tc_trans _ total_cmp_ord); [by apply Hr|]. by apply (max_step _ _ N1 N2).
        * apply elem_of_list_singleton in Hj as ->. exists pm, (sn_max_relev child). split; [unfold L'; by rewrite lookup_insert|].
          intros Hno. destruct (Hnan Hno) as [N1 N2]. by apply (max_step _ _ N1 N2).
      + intros _. exists pm. apply (no_legal _ _ _ Hc).
    - intros j Hj. cbn [sn_children] in Hj. apply elem_of_app in Hj as [Hj|Hj]; [by left|].
      apply elem_of_list_singleton in Hj as ->. right. lia.
  Qed.

  Lemma visit_sound bins : forall chain n a L n' a',
    bins_wf pms bins -> (forall q b pm, q ∈ chain -> b ∈ bins -> pm ∈ pb_pms b -> type_of q < type_of pm) ->
    arena_ok L a -> node_ok L chain n -> (forall j, j ∈ sn_children n -> j < am_next a) ->
    visit bins (sum_weights chain) n a = (n', a') ->
    exists L', L ⊆ L' /\ arena_ok L' a' /\ node_ok L' chain n' /\ am_next a <= am_next a' /\
      (forall j, j ∈ sn_children n' -> j < am_next a').
  Proof.
    induction bins as [|b rest IH]; intros chain n a L n' a' [Hin Hsort] Habove Ha Hn Hj H; cbn [visit] in H.
    { injection H as <- <-. exists L. split; [done|]. split; [done|]. split; [done|]. split; [lia|done]. }
    match type of H with (let '(_, _) := foldl ?f _ _ in _) = _ => set (F := f) in H end.
    apply StronglySorted_inv in Hsort as [Hsort HF]. rewrite Forall_forall in HF.
    assert (Hrest : bins_wf pms rest).
    { split; [|done]. intros b' pm Hb'. apply Hin. by right. }
    assert (Hloop : forall l n a L n1 a1, (forall pm, pm ∈ l -> pm ∈ pb_pms b) ->
      arena_ok L a -> node_ok L chain n -> (forall j, j ∈ sn_children n -> j < am_next a) ->
      foldl F (n, a) l = (n1, a1) ->
      exists L', L ⊆ L' /\ arena_ok L' a1 /\ node_ok L' chain n1 /\ am_next a <= am_next a1 /\
        (forall j, j ∈ sn_children n1 -> j < am_next a1)).
    { clear n a L n' a' Ha Hn Hj H. induction l as [|pm l IHl]; intros n a L n1 a1 Hl Ha Hn Hj H; cbn [foldl] in H.
      { injection H as <- <-. exists L. split; [done|]. split; [done|]. split; [done|]. split; [lia|done]. }
      assert (Hl' : forall q, q ∈ l -> q ∈ pb_pms b) by (intros q Hq; apply Hl; by right).
      assert (Hpm : pm ∈ pb_pms b) by (apply Hl; by left).
      unfold F at 2 in H. destruct (can_stack n pm) eqn:Ecan; [|by eapply IHl].
      destruct (is_full a && fltb _ _); [by eapply IHl|].
      unfold can_stack in Ecan. apply andb_prop in Ecan as [Em%N.eqb_eq Ex%negb_true_iff]. unfold bit_in in Ex.
      pose proof (no_static _ _ _ Hn) as [S1 S2 S3 S4 S5].
      assert (Hlegal : legal pms (chain ++ [pm])).
      { apply legal_snoc.
        - by destruct Hn.
        - apply (Hin b); [by left|done].
        - intros q Hq. apply (Habove q b); [done|by left|done].
        - by rewrite <- S2.
        - by rewrite <- S4. }
      rewrite <- sum_weights_snoc in H.
      destruct (visit rest (sum_weights (chain ++ [pm])) (child_node n pm (sum_weights (chain ++ [pm]))) a) as [child a2] eqn:Ev.
      assert (Hchild : node_ok L (chain ++ [pm]) (child_node n pm (sum_weights (chain ++ [pm])))).
      { split; cbn [child_node sn_max_relev sn_children].
        - split; cbn [child_node sn_pm sn_mask sn_bmask sn_idx sn_zoom].
          + by rewrite last_snoc.
          + rewrite List.map_app, all_masks_app. cbn. by rewrite N.lor_0_r, S2, N.lor_comm.
          + rewrite List.map_app, all_masks_app. cbn. by rewrite N.lor_0_r, S3.
          + unfold last_idx. by rewrite last_snoc.
          + by rewrite last_snoc.
        - done.
        - exists []. by rewrite app_nil_r.
        - intros _. by rewrite (tc_refl _ total_cmp_ord).
        - intros j Hjj. by apply elem_of_nil in Hjj.
        - done. }
      destruct (IH (chain ++ [pm]) (child_node n pm (sum_weights (chain ++ [pm]))) a L child a2) as (L2 & HL2 & Ha2 & Hc2 & Hn2 & Hj2); [done| |done|done| |done|].
      { intros q b' pm' Hq Hb' Hpm'. apply elem_of_app in Hq as [Hq|Hq].
        - apply (Habove q b'); [done|by right|done].
        - apply elem_of_list_singleton in Hq as ->. by apply (HF b' Hb'). }
      { intros j Hjj. by apply elem_of_nil in Hjj. }
      destruct (attach n child a2) as [n3 a3] eqn:Ea.
      destruct (attach_ok L2 a2 chain n child pm n3 a3) as (L3 & HL3 & Ha3 & Hn3 & Hnx3 & Hj3 & _);
        [done|by eapply node_ok_mono|done|done|done|].
      destruct (IHl n3 a3 L3 n1 a1) as (L4 & HL4 & Ha4 & Hn4 & Hnx4 & Hj4); [done|done|done| |done|].
      { intros j Hjj. destruct (Hj3 j Hjj) as [Hold|?]; [|done]. specialize (Hj j Hold). lia. }
      exists L4. split; [by etransitivity; [exact HL2|etransitivity]|]. split; [done|]. split; [done|]. split; [lia|done]. }
    destruct (foldl F (n, a) (pb_pms b)) as [n1 a1] eqn:E.
    destruct (Hloop (pb_pms b) n a L n1 a1) as (L1 & HL1 & Ha1 & Hn1 & Hnx1 & Hj1); [done..|].
    destruct (IH chain n1 a1 L1 n' a') as (L2 & HL2 & Ha2 & Hn2 & Hnx2 & Hj2); [done| |done|done|done|done|].
    { intros q b' pm Hq Hb'. apply Habove; [done|by right]. }
    exists L2. split; [by etransitivity|]. split; [done|]. split; [done|]. split; [lia|done].
  Qed.

  Lemma stackable_sound : exists L, arena_ok L (t_arena (stackable pms)) /\ node_ok L [] (t_root (stackable pms)).
  Proof.
    unfold stackable. destruct (visit (make_bins pms) f_zero root_node arena_new) as [root a] eqn:E.
    destruct (visit_sound (make_bins pms) [] root_node arena_new ∅ root a) as (L & _ & Ha & Hn & _).
    - apply make_bins_wf.
    - intros q b pm Hq. by apply elem_of_nil in Hq.
    - split.
      + intros i [x Hx]. by rewrite lookup_empty in Hx.
      + intros i n Hi. cbn [arena_new am_nodes] in Hi. by rewrite lookup_empty in Hi.
    - split; try done.
      + apply legal_nil.
      + exists []. split; [apply legal_nil|done].
      + intros j Hj. by apply elem_of_nil in Hj.
    - intros j Hj. by apply elem_of_nil in Hj.
    - done.
    - eauto.
  Qed.

  Lemma descends_ok L a n chain m :
    arena_ok L a -> descends (fun i => am_nodes a !! i) n chain m ->
    forall pre, node_ok L pre n -> node_ok L (pre ++ chain) m.
  Proof.
    intros Ha Hd. induction Hd as [n|n i c pm rest m Hi Hc Hpm Hd IH]; intros pre Hn; [by rewrite app_nil_r|].
    destruct (no_kids _ _ _ Hn i Hi) as (q & r & Hl & _).
    destruct (ao_node _ _ Ha i c Hc) as (ch & Hne & Hl' & Hok & _).
    assert (E : ch = pre ++ [q]) by congruence. subst ch.
    assert (q = pm).
    { pose proof (st_pm _ _ (no_static _ _ _ Hok)) as Hs. rewrite last_snoc in Hs. congruence. }
    subst q. replace (pre ++ pm :: rest) with ((pre ++ [pm]) ++ rest) by (by rewrite <- app_assoc). by apply IH.
  Qed.
End sound.

(** ** Completeness below the limit *)
Fixpoint stack_ok (mask idx : N) (chain : list subquery) : Prop :=
  match chain with
  | [] => True
  | pm :: rest => N.land mask (sq_mask pm) = 0 /\ N.testbit (sq_nonoverlap pm) idx = false /\
                  stack_ok (N.lor (sq_mask pm) mask) (sq_idx pm) rest
  end.
Lemma stack_ok_legal mask idx chain :
  stack_ok mask idx chain <->
  Forall (fun m => N.land mask m = 0) (map sq_mask chain) /\ disjoint_masks (map sq_mask chain) /\ not_excluded idx chain.
Proof.
  revert mask idx. induction chain as [|pm chain IH]; intros mask idx.
  - cbn. split; [|done]. intros _. split; [constructor|done].
  - cbn [stack_ok map disjoint_masks not_excluded]. rewrite IH, Forall_cons.
    assert (E : Forall (fun m => N.land (N.lor (sq_mask pm) mask) m = 0) (map sq_mask chain) <->
      Forall (fun m' => N.land (sq_mask pm) m' = 0) (map sq_mask chain) /\ Forall (fun m => N.land mask m = 0) (map sq_mask chain)).
    { rewrite <- Forall_and. apply Forall_iff. intros m. by rewrite N.land_lor_distr_l, N.lor_eq_0_iff. }
    rewrite E. naive_solver.
Qed.

Lemma descends_mono (get get' : N -> option node) n chain m :
  (forall i c, get i = Some c -> get' i = Some c) -> descends get n chain m -> descends get' n chain m.
Proof.
  intros H Hd. induction Hd as [n|n i c pm rest m Hi Hc Hpm Hd IH]; [constructor|].
  by econstructor; [exact Hi|apply H; exact Hc|exact Hpm|].
Qed.
Lemma descends_kids get n n' chain m :
  (forall j, j ∈ sn_children n -> j ∈ sn_children n') -> chain <> [] ->
  descends get n chain m -> descends get n' chain m.
Proof.
  intros H Hne Hd. destruct Hd as [n|n i c pm rest m Hi Hc Hpm Hd]; [done|].
  by econstructor; [apply H; exact Hi|exact Hc|exact Hpm|].
Qed.

Lemma attach_full n c a : is_full a = true -> is_full (attach n c a).2 = true.
Proof.
  intros Hf. unfold attach. pose proof (arena_add_full a c Hf) as H. by destruct (arena_add a c) as [[i|] a'].
Qed.
Lemma visit_full bins : forall r n a, is_full a = true -> is_full (visit bins r n a).2 = true.
Proof.
  induction bins as [|b rest IH]; intros r n a Hf; cbn [visit]; [done|].
  match goal with |- context [foldl ?f _ _] => set (F := f) end.
  assert (Hl : forall l na, is_full na.2 = true -> is_full (foldl F na l).2 = true).
  { induction l as [|pm l IHl]; intros [n0 a0] H0; [done|]. cbn [foldl]. apply IHl. cbn [snd] in H0.
    unfold F. destruct (can_stack n0 pm); [|done]. destruct (_ && _); [done|].
    destruct (visit rest _ _ a0) as [child a1] eqn:E.
    assert (H1 : is_full a1 = true).
    { change a1 with ((child, a1).2). rewrite <- E. by apply IH. }
    by apply attach_full. }
  specialize (Hl (pb_pms b) (n, a) Hf). destruct (foldl F (n, a) (pb_pms b)) as [n1 a1]. by apply IH.
Qed.

Definition fresh_ok (a : arena) : Prop := forall i, is_Some (am_nodes a !! i) -> i < am_next a.
Definition grows (a a' : arena) : Prop :=
  fresh_ok a' /\ (forall i c, am_nodes a !! i = Some c -> am_nodes a' !! i = Some c).
Definition same_node (n n' : node) : Prop :=
  sn_pm n' = sn_pm n /\ sn_mask n' = sn_mask n /\ sn_idx n' = sn_idx n /\ (forall j, j ∈ sn_children n -> j ∈ sn_children n').
Definition at_ (a : arena) : N -> option node := fun i => am_nodes a !! i.

Lemma attach_room n c a n' a' :
  fresh_ok a -> is_full a = false -> attach n c a = (n', a') ->
  grows a a' /\ same_node n n' /\ exists i, i ∈ sn_children n' /\ am_nodes a' !! i = Some c.
Proof.
  intros Hf Hroom H. unfold attach in H. destruct (arena_add_room a c Hroom) as (a1 & E & Hn). rewrite E in H.
  pose proof (arena_add_some _ _ _ _ E) as (_ & Hnext & _). injection H as <- <-.
  split; [split|split].
  - intros i Hi. rewrite Hn in Hi. apply lookup_insert_is_Some in Hi as [<-|[_ Hi]]; [lia|]. specialize (Hf i Hi). lia.
  - intros i d Hd. rewrite Hn. rewrite lookup_insert_ne; [done|]. intros <-. specialize (Hf _ ltac:(by eexists)). lia.
  - split; [done|]. split; [done|]. split; [done|]. intros j Hj. cbn. apply elem_of_app. by left.
  - exists (am_next a). split; [cbn; apply elem_of_app; right; by left|]. rewrite Hn. by rewrite lookup_insert.
Qed.

Lemma visit_complete bins : forall r n a n' a',
  fresh_ok a -> visit bins r n a = (n', a') -> is_full a' = false ->
  grows a a' /\ same_node n n' /\
  forall chain, chain <> [] -> from_bins (map pb_pms bins) chain -> stack_ok (sn_mask n) (sn_idx n) chain ->
    exists m, descends (at_ a') n' chain m.
Proof.
  induction bins as [|b rest IH]; intros r n a n' a' Hf H Hroom; cbn [visit] in H.
  { injection H as <- <-. split; [by split|]. split; [done|]. intros [|pm c] Hne Hfrom; [done|].
    cbn in Hfrom. destruct Hfrom as ([|] & ? & ? & E & _); done. }
  match type of H with (let '(_, _) := foldl ?f _ _ in _) = _ => set (F := f) in H end.
  assert (Hloop : forall l n a n1 a1, fresh_ok a -> foldl F (n, a) l = (n1, a1) -> is_full a1 = false ->
    grows a a1 /\ same_node n n1 /\
    forall pm chain, pm ∈ l -> from_bins (map pb_pms rest) chain -> stack_ok (sn_mask n) (sn_idx n) (pm :: chain) ->
      exists m, descends (at_ a1) n1 (pm :: chain) m).
  { clear n a n' a' Hf H Hroom. induction l as [|pm l IHl]; intros n a n1 a1 Hf H Hroom; cbn [foldl] in H.
    { injection H as <- <-. split; [by split|]. split; [done|]. intros pm chain Hpm. by apply elem_of_nil in Hpm. }
    assert (Hmono : forall l na, is_full na.2 = true -> is_full (foldl F na l).2 = true).
    { clear. induction l as [|pm l IHl]; intros [n0 a0] H0; [done|]. cbn [foldl]. apply IHl. cbn [snd] in H0.
      unfold F. destruct (can_stack n0 pm); [|done]. destruct (_ && _); [done|].
      destruct (visit rest _ _ a0) as [child a1] eqn:E. apply attach_full.
      change a1 with ((child, a1).2). rewrite <- E. by apply visit_full. }
    pose proof (Hmono (pm :: l) (n, a)) as Hfl. cbn [foldl snd] in Hfl. rewrite H in Hfl. cbn [snd] in Hfl.
    unfold F at 2 in H. destruct (can_stack n pm) eqn:Ecan.
    2:{ destruct (IHl _ _ _ _ Hf H Hroom) as (G & S & C). split; [done|]. split; [done|].
        intros q chain Hq Hfrom Hs. apply elem_of_cons in Hq as [->|Hq]; [|by apply C].
        exfalso. cbn [stack_ok] in Hs. destruct Hs as (Hm & Hx & _). unfold can_stack, bit_in in Ecan.
        rewrite Hm, Hx in Ecan. done. }
    assert (Hna : is_full a = false).
    { destruct (is_full a) eqn:Ea; [|done]. specialize (Hfl eq_refl). congruence. }
    rewrite Hna in H. cbn [andb] in H.
    destruct (visit rest (fadd r (sq_weight pm)) (child_node n pm (fadd r (sq_weight pm))) a) as [child a2] eqn:Ev.
    destruct (attach n child a2) as [n3 a3] eqn:Ea.
    assert (H3 : is_full a3 = false).
    { destruct (is_full a3) eqn:E3; [|done]. specialize (Hmono l (n3, a3) E3). rewrite H in Hmono. cbn [snd] in Hmono. congruence. }
    assert (H2 : is_full a2 = false).
    { destruct (is_full a2) eqn:E2; [|done]. pose proof (attach_full n child a2 E2) as Hx. rewrite Ea in Hx. cbn [snd] in Hx. congruence. }
    destruct (IH _ _ _ _ _ Hf Ev H2) as ([F2 G2] & (P1 & P2 & P3 & P4) & C2).
    destruct (attach_room n child a2 n3 a3 F2 H2 Ea) as ([F3 G3] & (Q1 & Q2 & Q3 & Q4) & (i & Hi & Hci)).
    destruct (IHl n3 a3 n1 a1 F3 H Hroom) as ([F4 G4] & (R1 & R2 & R3 & R4) & C4).
    split; [split; [done|]; intros j c Hj; by apply G4, G3, G2|].
    split; [split; [congruence|split; [congruence|split; [congruence|]]]; intros j Hj; by apply R4, Q4|].
    intros q chain Hq Hfrom Hs. apply elem_of_cons in Hq as [->|Hq].
    2:{ apply C4; [done|done|]. by rewrite Q2, Q3. }
    cbn [stack_ok] in Hs. destruct Hs as (Hm & Hx & Hs).
    assert (Hd : exists m, descends (at_ a2) child chain m).
    { destruct chain as [|q' chain]; [exists child; constructor|]. by apply C2. }
    destruct Hd as (m & Hd). exists m. apply (desc_child _ n1 i child pm).
    - by apply R4.
    - unfold at_. by apply G4.
    - rewrite P1. done.
    - eapply descends_mono; [|exact Hd]. intros j c Hj. unfold at_ in *. by apply G4, G3. }
  destruct (foldl F (n, a) (pb_pms b)) as [n1 a1] eqn:E.
  assert (H1 : is_full a1 = false).
  { destruct (is_full a1) eqn:E1; [|done]. pose proof (visit_full rest r n1 a1 E1) as Hx. rewrite H in Hx. cbn [snd] in Hx. congruence. }
  destruct (Hloop _ _ _ _ _ Hf E H1) as ([F1 G1] & (P1 & P2 & P3 & P4) & C1).
  destruct (IH _ _ _ _ _ F1 H Hroom) as ([F2 G2] & (Q1 & Q2 & Q3 & Q4) & C2).
  split; [split; [done|]; intros j c Hj; by apply G2, G1|].
  split; [split; [congruence|split; [congruence|split; [congruence|]]]; intros j Hj; by apply Q4, P4|].
  intros [|pm chain] Hne Hfrom Hs; [done|]. cbn [from_bins map] in Hfrom.
  destruct Hfrom as ([|b0 bs1] & b' & bs2 & Eb & Hpm & Hfrom); cbn in Eb; injection Eb as <- Eb.
  - subst bs2. destruct (C1 pm chain Hpm Hfrom Hs) as (m & Hd). exists m.
    eapply descends_kids; [exact Q4|done|]. eapply descends_mono; [|exact Hd]. intros j c Hj. unfold at_ in *. by apply G2.
  - apply C2; [done| |by rewrite P2, P3]. cbn [from_bins]. exists bs1, b', bs2. done.
Qed.

Lemma legal_from_bins pms chain : legal pms chain ->
  from_bins (map pb_pms (make_bins pms)) chain /\ stack_ok 0 root_idx chain.
Proof.
  intros (H1 & H2 & H3 & H4). split.
  - rewrite make_bins_pms. eapply keyed_from_bins; [apply bins_keyed|done|done].
  - apply stack_ok_legal. split; [|done]. apply Forall_forall. intros m _. apply N.land_0_l.
Qed.

(** ** Counting *)
Fixpoint chains_from (bins : list (list subquery)) (mask idx : N) : list (list subquery) :=
  match bins with
  | [] => []
  | b :: rest =>
      mjoin (map (fun pm => if (N.land mask (sq_mask pm) =? 0) && negb (N.testbit (sq_nonoverlap pm) idx)
                            then [pm] :: map (cons pm) (chains_from rest (N.lor (sq_mask pm) mask) (sq_idx pm))
                            else []) b) ++ chains_from rest mask idx
  end.
Lemma attach_next n c a : am_next (attach n c a).2 <= am_next a + 1 /\ am_leaves (attach n c a).2 + am_next a <= am_leaves a + am_next (attach n c a).2.
Proof.
  unfold attach. pose proof (arena_add_next a c) as H. pose proof (arena_add_leaves a c) as H'.
  destruct (arena_add a c) as [[i|] a']; cbn [snd] in *; lia.
Qed.
Lemma attach_same n c a : sn_mask (attach n c a).1 = sn_mask n /\ sn_idx (attach n c a).1 = sn_idx n.
Proof. unfold attach. by destruct (arena_add a c) as [[i|] a']. Qed.
Lemma visit_count bins : forall r n a n' a', visit bins r n a = (n', a') ->
  am_next a' <= am_next a + N.of_nat (length (chains_from (map pb_pms bins) (sn_mask n) (sn_idx n))) /\
  am_leaves a' + am_next a <= am_leaves a + am_next a' /\ sn_mask n' = sn_mask n /\ sn_idx n' = sn_idx n.
Proof.
  induction bins as [|b rest IH]; intros r n a n' a' H; cbn [visit] in H.
  { injection H as <- <-. cbn. lia. }
  match type of H with (let '(_, _) := foldl ?f _ _ in _) = _ => set (F := f) in H end.
  cbn [map chains_from]. set (G := fun pm => if _ && _ then _ else _).
  assert (Hloop : forall l n0 a n1 a1, sn_mask n0 = sn_mask n -> sn_idx n0 = sn_idx n -> foldl F (n0, a) l = (n1, a1) ->
    am_next a1 <= am_next a + N.of_nat (length (mjoin (map G l))) /\ am_leaves a1 + am_next a <= am_leaves a + am_next a1 /\
    sn_mask n1 = sn_mask n /\ sn_idx n1 = sn_idx n).
  { clear a n' a' H. induction l as [|pm l IHl]; intros n0 a n1 a1 Em Ei H; cbn [foldl] in H.
    { injection H as <- <-. cbn. lia. }
    change (mjoin (map G (pm :: l))) with (G pm ++ mjoin (map G l)). rewrite app_length.
    unfold F at 2 in H. destruct (can_stack n0 pm) eqn:Ecan.
    2:{ destruct (IHl _ _ _ _ Em Ei H) as (? & ? & ? & ?). lia. }
    destruct (_ && _).
    { destruct (IHl _ _ _ _ Em Ei H) as (? & ? & ? & ?). lia. }
    destruct (visit rest _ (child_node n0 pm _) a) as [child a2] eqn:Ev.
    destruct (attach n0 child a2) as [n3 a3] eqn:Ea.
    pose proof (attach_next n0 child a2) as [A1 A2]. pose proof (attach_same n0 child a2) as [A3 A4].
    rewrite Ea in A1, A2, A3, A4. cbn [fst snd] in *.
    destruct (IH _ _ _ _ _ Ev) as (B1 & B2 & _). cbn [child_node sn_mask sn_idx] in B1.
    destruct (IHl n3 a3 n1 a1) as (C1 & C2 & C3 & C4); [congruence|congruence|done|].
    unfold can_stack, bit_in in Ecan. rewrite Em, Ei in Ecan. rewrite Em in B1.
    unfold G at 1. rewrite Ecan. cbn [length]. rewrite List.map_length. lia. }
  destruct (foldl F (n, a) (pb_pms b)) as [n1 a1] eqn:E.
  destruct (Hloop _ _ _ _ _ eq_refl eq_refl E) as (A1 & A2 & A3 & A4).
  destruct (IH _ _ _ _ _ H) as (B1 & B2 & B3 & B4). rewrite app_length. rewrite A3, A4 in B1. lia || (split; [lia|]; split; [lia|]; split; congruence).
Qed.

Lemma chains_from_ok bins : forall mask idx chain, chain ∈ chains_from bins mask idx ->
  chain <> [] /\ from_bins bins chain /\ stack_ok mask idx chain.
Proof.
  induction bins as [|b rest IH]; intros mask idx chain H; cbn [chains_from] in H; [by apply elem_of_nil in H|].
  apply elem_of_app in H as [H|H].
  - apply elem_of_mjoin in H as (l & Hc & Hl). apply elem_of_map in Hl as (pm & -> & Hpm).
    destruct (_ && _) eqn:E; [|by apply elem_of_nil in Hc]. apply andb_prop in E as [E1%N.eqb_eq E2%negb_true_iff].
    apply elem_of_cons in Hc as [->|Hc].
    + split; [done|]. split; [|done]. exists [], b, rest. done.
    + apply elem_of_map in Hc as (c & -> & Hc). apply IH in Hc as (_ & H1 & H2). split; [done|]. split; [|done].
      exists [], b, rest. done.
  - apply IH in H as (H0 & H1 & H2). split; [done|]. split; [|done]. destruct chain as [|pm c]; [done|].
    destruct H1 as (bs1 & b' & bs2 & -> & Hpm & H1). exists (b :: bs1), b', bs2. done.
Qed.
Lemma NoDup_mjoin_map {A B} (f : A -> list B) l :
  NoDup l -> (forall a, a ∈ l -> NoDup (f a)) ->
  (forall a b x, a ∈ l -> b ∈ l -> x ∈ f a -> x ∈ f b -> a = b) -> NoDup (mjoin (map f l)).
Proof.
  intros Hl. induction Hl as [|a l Ha Hl IH]; intros Hf Hd; [constructor|].
  change (mjoin (map f (a :: l))) with (f a ++ mjoin (map f l)). apply NoDup_app. split; [apply Hf; by left|]. split.
  - intros x Hx Hx'. apply elem_of_mjoin in Hx' as (y & Hy & Hm). apply elem_of_map in Hm as (b & -> & Hb).
    assert (a = b) as -> by (eapply Hd; [by left|by right|exact Hx|exact Hy]). done.
  - apply IH; [intros; apply Hf; by right|]. intros b c x Hb Hc. apply Hd; by right.
Qed.
Lemma chains_from_nodup bins : forall mask idx,
  Forall NoDup bins ->
  StronglySorted (fun b1 b2 => forall p1 p2, p1 ∈ b1 -> p2 ∈ b2 -> type_of p1 < type_of p2) bins ->
  NoDup (chains_from bins mask idx).
Proof.
  induction bins as [|b rest IH]; intros mask idx Hn Hs; cbn [chains_from]; [constructor|].
  apply Forall_cons in Hn as [Hb Hn]. apply StronglySorted_inv in Hs as [Hs HF]. rewrite Forall_forall in HF.
  assert (Hhead : forall pm c, c ∈ (if (N.land mask (sq_mask pm) =? 0) && negb (N.testbit (sq_nonoverlap pm) idx)
                            then [pm] :: map (cons pm) (chains_from rest (N.lor (sq_mask pm) mask) (sq_idx pm))
                            else []) -> head c = Some pm).
  { intros pm c Hc. destruct (_ && _); [|by apply elem_of_nil in Hc]. apply elem_of_cons in Hc as [->|Hc]; [done|].
    apply elem_of_map in Hc as (c' & -> & _). done. }
  apply NoDup_app. split; [|split; [|by apply IH]].
  - apply NoDup_mjoin_map; [done| |].
    + intros pm _. destruct (_ && _); [|constructor]. constructor.
      * intros Hc. apply elem_of_map in Hc as (c & [= <-] & Hc). apply chains_from_ok in Hc as [? _]. done.
      * apply NoDup_fmap_2; [intros c c' [= ->]; done|]. by apply IH.
    + intros p1 p2 c _ _ H1 H2. apply Hhead in H1, H2. congruence.
  - intros c Hc Hc'. apply elem_of_mjoin in Hc as (l & Hc & Hl). apply elem_of_map in Hl as (pm & -> & Hpm).
    apply Hhead in Hc. apply chains_from_ok in Hc' as (_ & H1 & _). destruct c as [|q c]; [done|]. injection Hc as ->.
    destruct H1 as (bs1 & b' & bs2 & -> & Hpm' & _).
    assert (Hb' : b' ∈ bs1 ++ b' :: bs2) by (apply elem_of_app; right; by left).
    specialize (HF b' Hb' pm pm Hpm Hpm'). lia.
Qed.
Lemma bin_add_nodup pms pm m :
  keyed_wf pms m -> pm ∉ pms -> (forall t b, (t, b) ∈ m -> NoDup (pb_pms b)) ->
  forall t b, (t, b) ∈ bin_add pm m -> NoDup (pb_pms b).
Proof.
  intros (_ & Hin & _) Hpm Hn. induction m as [|[t' b'] m IH]; intros t b Hb; cbn [bin_add] in Hb; fold (type_of pm) in Hb.
  - apply elem_of_list_singleton in Hb. injection Hb as -> ->. cbn. apply NoDup_singleton.
  - destruct (N.compare_spec (type_of pm) t') as [E|H|H].
    + apply elem_of_cons in Hb as [[= -> ->]|Hb]; [|apply (Hn t); by right]. cbn [pb_pms]. apply NoDup_app.
      split; [apply (Hn t'); by left|]. split; [|apply NoDup_singleton].
      intros x Hx Hx'. apply elem_of_list_singleton in Hx' as ->. apply Hpm. by apply (Hin t' b' pm ltac:(by left)).
    + apply elem_of_cons in Hb as [[= -> ->]|Hb]; [cbn; apply NoDup_singleton|by apply (Hn t)].
    + apply elem_of_cons in Hb as [[= -> ->]|Hb]; [apply (Hn t'); by left|]. eapply IH; [| |exact Hb].
      * intros t0 b0 q Hq. apply Hin. by right.
      * intros t0 b0 Hb0. apply (Hn t0). by right.
Qed.
Lemma make_bins_nodup pms : NoDup pms -> Forall NoDup (map pb_pms (make_bins pms)).
Proof.
  intros Hn. rewrite make_bins_pms.
  assert (H : forall t b, (t, b) ∈ foldl (fun m pm => bin_add pm m) [] pms -> NoDup (pb_pms b)).
  { induction pms as [|pm pms IH] using rev_ind; [intros t b Hb; by apply elem_of_nil in Hb|].
    apply NoDup_app in Hn as (Hn & Hd & _). rewrite foldl_snoc. apply (bin_add_nodup pms); [apply bins_keyed| |by apply IH].
    intros Hpm. apply (Hd pm Hpm). by left. }
  apply Forall_forall. intros l Hl. apply elem_of_map in Hl as ([t b] & -> & Hb). cbn [snd]. rewrite isort_perm. by apply (H t).
Qed.
Lemma chains_from_legal pms chain :
  chain ∈ chains_from (map pb_pms (make_bins pms)) 0 root_idx -> legal pms chain.
Proof.
  intros H. apply chains_from_ok in H as (_ & Hfrom & Hs). apply stack_ok_legal in Hs as (_ & H3 & H4).
  pose proof (make_bins_wf pms) as [Hin Hsort].
  assert (Hin' : forall l pm, l ∈ map pb_pms (make_bins pms) -> pm ∈ l -> pm ∈ pms).
  { intros l pm Hl Hpm. apply elem_of_map in Hl as (b & -> & Hb). by eapply Hin. }
  assert (Hsort' : StronglySorted (fun b1 b2 => forall p1 p2, p1 ∈ b1 -> p2 ∈ b2 -> type_of p1 < type_of p2) (map pb_pms (make_bins pms))).
  { clear - Hsort. induction Hsort as [|b bins Hs IH HF]; cbn [map]; constructor; [done|].
    rewrite Forall_forall in HF. rewrite Forall_forall. intros l Hl. apply elem_of_map in Hl as (b' & -> & Hb'). by apply HF. }
  clear Hin Hsort. set (bins := map pb_pms (make_bins pms)) in *. clearbody bins.
  assert (Hc : (forall pm, pm ∈ chain -> exists l, l ∈ bins /\ pm ∈ l) /\ StronglySorted (fun a b => type_of a < type_of b) chain).
  { clear H3 H4 Hin'. revert bins Hsort' Hfrom. induction chain as [|pm chain IH]; intros bins Hsort Hfrom.
    - split; [intros pm Hpm; by apply elem_of_nil in Hpm|constructor].
    - destruct Hfrom as (bs1 & b & bs2 & -> & Hpm & Hfrom).
      apply StronglySorted_app in Hsort as (_ & Hsort & _). apply StronglySorted_inv in Hsort as [Hsort HF].
      rewrite Forall_forall in HF. destruct (IH bs2 Hsort Hfrom) as [I1 I2]. split.
      + intros q Hq. apply elem_of_cons in Hq as [->|Hq].
        * exists b. split; [|done]. apply elem_of_app. right. by left.
        * destruct (I1 q Hq) as (l & Hl & Hql). exists l. split; [|done]. apply elem_of_app. right. by right.
      + constructor; [done|]. apply Forall_forall. intros q Hq. destruct (I1 q Hq) as (l & Hl & Hql). by apply (HF l). }
  destruct Hc as [C1 C2]. split; [|split; [done|split; [done|done]]].
  intros pm Hpm. destruct (C1 pm Hpm) as (l & Hl & Hpl). by eapply Hin'.
Qed.
Lemma chains_from_all bins : forall mask idx chain,
  chain <> [] -> from_bins bins chain -> stack_ok mask idx chain -> chain ∈ chains_from bins mask idx.
Proof.
  induction bins as [|b rest IH]; intros mask idx [|pm chain] Hne Hfrom Hs; try done.
  - destruct Hfrom as ([|] & ? & ? & E & _); done.
  - cbn [chains_from]. destruct Hfrom as ([|b0 bs1] & b' & bs2 & Eb & Hpm & Hfrom); cbn in Eb; injection Eb as <- Eb; apply elem_of_app.
    + left. subst bs2. destruct Hs as (Hm & Hx & Hs). apply elem_of_mjoin. eexists. split; [|apply elem_of_map; exists pm; done].
      rewrite Hm, Hx. cbn [N.eqb negb andb]. destruct chain as [|q chain]; [by left|]. right. apply elem_of_map.
      exists (q :: chain). split; [done|]. by apply IH.
    + right. apply IH; [done| |done]. exists bs1, b', bs2. done.
Qed.
(** All the stacks that may be built, without repetition if the subqueries are. *)
Definition all_chains (pms : list subquery) : list (list subquery) :=
  chains_from (map pb_pms (make_bins pms)) 0 root_idx.
Lemma all_chains_ok pms chain : chain ∈ all_chains pms <-> chain <> [] /\ legal pms chain.
Proof.
  split.
  - intros H. split; [by apply chains_from_ok in H as [? _]|by apply chains_from_legal].
  - intros [Hne H]. apply legal_from_bins in H as [H1 H2]. by apply chains_from_all.
Qed.
Lemma all_chains_nodup pms : NoDup pms -> NoDup (all_chains pms).
Proof.
  intros H. apply chains_from_nodup; [by apply make_bins_nodup|].
  pose proof (make_bins_wf pms) as [_ Hs]. induction Hs as [|b bins Hs IH HF]; cbn [map]; constructor; [done|].
  rewrite Forall_forall in HF. rewrite Forall_forall. intros l Hl. apply elem_of_map in Hl as (b' & -> & Hb'). by apply HF.
Qed.
Lemma stackable_room pms : N.of_nat (length (all_chains pms)) < leaf_soft_max -> is_full (t_arena (stackable pms)) = false.
Proof.
  intros H. unfold stackable. destruct (visit (make_bins pms) f_zero root_node arena_new) as [root a] eqn:E. cbn [t_arena].
  pose proof (visit_count _ _ _ _ _ _ E) as (H1 & H2 & _). cbn [root_node sn_mask sn_idx arena_new am_next am_leaves] in H1, H2.
  change 129 with root_idx in H1. fold (all_chains pms) in H1.
  assert (Es : forall bins r n a, am_soft_max (visit bins r n a).2 = am_soft_max a).
  { clear. induction bins as [|b rest IH]; intros r n a; cbn [visit]; [done|].
    match goal with |- context [foldl ?f _ _] => set (F := f) end.
    assert (Hl : forall l na, am_soft_max (foldl F na l).2 = am_soft_max na.2).
    { induction l as [|pm l IHl]; intros [n0 a0]; [done|]. cbn [foldl]. rewrite IHl. cbn [snd].
      unfold F. destruct (can_stack n0 pm); [|done]. destruct (_ && _); [done|].
      destruct (visit rest _ _ a0) as [child a1] eqn:E. unfold attach. pose proof (arena_add_soft a1 child) as Hs.
      destruct (arena_add a1 child) as [[i|] a2]; cbn [snd] in *; rewrite Hs; change a1 with ((child, a1).2); rewrite <- E; apply IH. }
    specialize (Hl (pb_pms b) (n, a)). destruct (foldl F (n, a) (pb_pms b)) as [n1 a1]. rewrite IH. exact Hl. }
  specialize (Es (make_bins pms) f_zero root_node arena_new). rewrite E in Es. cbn [snd arena_new am_soft_max] in Es.
  unfold is_full. rewrite Es. apply N.leb_gt. lia.
Qed.
Lemma stackable_complete pms chain : is_full (t_arena (stackable pms)) = false -> legal pms chain ->
  exists n, descends (tree_get (stackable pms)) (t_root (stackable pms)) chain n.
Proof.
  intros Hroom Hl. destruct chain as [|pm chain]; [eexists; constructor|].
  unfold stackable in *. destruct (visit (make_bins pms) f_zero root_node arena_new) as [root a] eqn:E. cbn [t_root t_arena] in *.
  assert (Hf0 : fresh_ok arena_new) by (intros i [x Hx]; cbn [arena_new am_nodes] in Hx; by rewrite lookup_empty in Hx).
  destruct (visit_complete _ _ _ _ _ _ Hf0 E Hroom) as (_ & _ & Hc).
  apply legal_from_bins in Hl as [H1 H2]. apply Hc; done.
Qed.
