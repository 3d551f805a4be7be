(** Lemmas on the stacking tree beyond the limit: what is lost, what is reachable, how many leaves are kept. *)
From Verif Require Import Prelude Lists F64 Common Store Query Stackable Cmp_proofs Float_proofs
  Spec_coalesce Coalesce_proofs Multi_proofs Spec_stack Stack_proofs Arena_proofs.
From Coq Require Import Sorting.Sorted.
From Coq Require Import ZifyBool.
Local Open Scope N_scope.

(** ** Arenas over time *)
Definition lost (a : arena) (x : f64) : Prop := is_full a = true /\ ord_cmp x (am_min a) = Lt.
Record later (a a' : arena) : Prop := {
  lt_next : am_next a <= am_next a';
  lt_soft : am_soft_max a' = am_soft_max a;
  lt_full : is_full a = true -> is_full a' = true /\ ord_cmp (am_min a) (am_min a') <> Gt;
  lt_old : forall i m, am_nodes a !! i = Some m -> am_nodes a' !! i = Some m \/ lost a' (sn_max_relev m) }.
Lemma lost_later a a' x : later a a' -> lost a x -> lost a' x.
Proof.
  intros H [Hf Hx]. destruct (lt_full _ _ H Hf) as [Hf' Hm]. split; [done|]. by eapply (tc_lt_le_trans _ total_cmp_ord).
Qed.
Lemma lost_le a x y : lost a x -> ord_cmp y x <> Gt -> lost a y.
Proof.
  intros [Hf Hx] Hy. pose proof total_cmp_ord as HT. split; [done|].
  destruct (ord_cmp y x) eqn:E; [by rewrite (tc_eq_l _ HT _ _ _ E)| |done].
  eapply (tc_lt_le_trans _ HT); [exact E|]. by rewrite Hx.
Qed.
Lemma kept_not_lost a i m : arena_inv a -> am_nodes a !! i = Some m -> lost a (sn_max_relev m) -> False.
Proof.
  intros Ha Hm [_ Hx]. pose proof (ai_least _ Ha i m Hm) as H. apply (tc_gt_lt _ total_cmp_ord) in Hx. done.
Qed.
Lemma later_refl a : later a a.
Proof.
  split; [lia|done| |].
  - intros H. split; [done|]. by rewrite (tc_refl _ total_cmp_ord).
  - intros i m Hm. by left.
Qed.
Lemma later_trans a b c : later a b -> later b c -> later a c.
Proof.
  intros H1 H2. split.
  - pose proof (lt_next _ _ H1). pose proof (lt_next _ _ H2). lia.
  - by rewrite (lt_soft _ _ H2), (lt_soft _ _ H1).
  - intros Hf. destruct (lt_full _ _ H1 Hf) as [Hf1 Hm1]. destruct (lt_full _ _ H2 Hf1) as [Hf2 Hm2]. split; [done|].
    by eapply (tc_trans _ total_cmp_ord).
  - intros i m Hm. destruct (lt_old _ _ H1 i m Hm) as [Hm'|Hl]; [by apply (lt_old _ _ H2)|]. right. by eapply lost_later.
Qed.
Lemma later_add a n o a' : arena_add a n = (o, a') -> add_ok a n o a' -> later a a'.
Proof.
  intros E H. split.
  - pose proof (arena_add_next a n) as Hx. rewrite E in Hx. cbn [snd] in Hx. lia.
  - apply (ad_soft _ _ _ _ H).
  - apply (ad_full _ _ _ _ H).
  - apply (ad_old _ _ _ _ H).
Qed.

Section best.
  Context (pms : list subquery).
  Context (Hfin : forall chain, legal pms chain -> ord_cmp (sum_weights chain) f_max <> Gt).
  Notation ghost := (gmap N (list subquery * f64)%type).
  Notation node_ok := (node_ok pms).
  Notation arena_ok := (arena_ok pms).
  Lemma fin_no_nan : no_nan pms.
  Proof.
    intros chain H. apply Hfin in H. destruct (sum_weights chain); done.
  Qed.

  (** ** Paths over time *)
  Lemma kid_max L a chain n j m : arena_ok L a -> node_ok L chain n -> j ∈ sn_children n ->
    am_nodes a !! j = Some m -> ord_cmp (sn_max_relev m) (sn_max_relev n) <> Gt.
  Proof.
    intros Ha Hn Hj Hm. destruct (no_kids _ _ _ _ Hn j Hj) as (q & r & Hl & Hr).
    destruct (ao_node _ _ _ Ha j m Hm) as (ch & _ & Hl' & _). assert (r = sn_max_relev m) as -> by congruence.
    apply Hr, fin_no_nan.
  Qed.
  Lemma kid_ok L a chain n j c pm : arena_ok L a -> node_ok L chain n -> j ∈ sn_children n ->
    am_nodes a !! j = Some c -> sn_pm c = Some pm -> node_ok L (chain ++ [pm]) c.
  Proof.
    intros Ha Hn Hj Hc Hpm. apply (descends_ok pms L a n [pm] c Ha); [|done].
    econstructor; [exact Hj|exact Hc|exact Hpm|constructor].
  Qed.
  Lemma desc_max L a n chain m : arena_ok L a -> descends (at_ a) n chain m ->
    forall pre, node_ok L pre n -> ord_cmp (sn_max_relev m) (sn_max_relev n) <> Gt.
  Proof.
    intros Ha Hd. induction Hd as [n|n i c pm rest m Hi Hc Hpm Hd IH]; intros pre Hn.
    - by rewrite (tc_refl _ total_cmp_ord).
    - eapply (tc_trans _ total_cmp_ord); [|by eapply kid_max].
      apply (IH (pre ++ [pm])). by eapply kid_ok.
  Qed.
  Lemma desc_later L a a' n chain m : arena_ok L a -> later a a' -> descends (at_ a) n chain m ->
    forall pre, node_ok L pre n -> chain <> [] -> descends (at_ a') n chain m \/ lost a' (sn_max_relev m).
  Proof.
    intros Ha Hl Hd. induction Hd as [n|n i c pm rest m Hi Hc Hpm Hd IH]; intros pre Hn Hne; [done|].
    assert (Hok : node_ok L (pre ++ [pm]) c) by (by eapply kid_ok).
    destruct (lt_old _ _ Hl i c Hc) as [Hc'|Hlost].
    - destruct rest as [|q rest].
      + inversion Hd; subst. left. econstructor; [exact Hi|exact Hc'|exact Hpm|constructor].
      + destruct (IH (pre ++ [pm]) Hok) as [Hd'|?]; [done| |by right]. left.
        by econstructor; [exact Hi|exact Hc'|exact Hpm|].
    - right. eapply lost_le; [exact Hlost|]. by eapply desc_max.
  Qed.

  (** A chain below [pre] is there, or lost. *)
  Definition present (a : arena) (n : node) (pre chain : list subquery) : Prop :=
    (exists m, descends (at_ a) n chain m) \/ lost a (sum_weights (pre ++ chain)).
  Lemma present_later L a a' n pre chain : arena_ok L a -> node_ok L pre n -> later a a' ->
    present a n pre chain -> present a' n pre chain.
  Proof.
    intros Ha Hn Hl [(m & Hd)|H]; [|right; by eapply lost_later].
    destruct chain as [|q chain]; [left; exists n; constructor|].
    destruct (desc_later L a a' n _ m Ha Hl Hd pre Hn) as [Hd'|H]; [done|left; eauto|]. right.
    eapply lost_le; [exact H|]. pose proof (descends_ok pms L a n _ m Ha Hd pre Hn) as Hok.
    apply (no_own _ _ _ _ Hok), fin_no_nan.
  Qed.
  Lemma present_kids a n n' pre chain : (forall j, j ∈ sn_children n -> j ∈ sn_children n') ->
    present a n pre chain -> present a n' pre chain.
  Proof.
    intros H [(m & Hd)|Hl]; [|by right]. left. destruct chain as [|q chain]; [exists n'; constructor|].
    exists m. by eapply descends_kids.
  Qed.

  (** ** What a part of the construction does *)
  Definition bound_ok : Prop := forall b pm pre ext, b ∈ make_bins pms -> pm ∈ pb_pms b ->
    legal pms (pre ++ pm :: ext) ->
    ord_cmp (sum_weights (pre ++ pm :: ext)) (fadd (sum_weights (pre ++ [pm])) (pb_after b)) <> Gt.
  Definition grow_ok : Prop := forall chain pm, legal pms (chain ++ [pm]) ->
    ord_cmp (sum_weights chain) (sum_weights (chain ++ [pm])) = Lt.
  Definition leaf_at (a : arena) (x : f64) : Prop :=
    exists j m, am_nodes a !! j = Some m /\ is_leaf m = true /\ ord_cmp x (sn_max_relev m) = Eq.
  Definition leafy (a : arena) (n : node) : Prop :=
    is_leaf n = true \/ leaf_at a (sn_max_relev n) \/ lost a (sn_max_relev n).
  Record visited (T : list subquery -> Prop) (L : ghost) (chain : list subquery) (n : node) (a : arena)
      (L' : ghost) (n' : node) (a' : arena) : Prop := {
    v_sub : L ⊆ L';
    v_arena : arena_ok L' a';
    v_inv : arena_inv a';
    v_node : node_ok L' chain n';
    v_later : later a a';
    v_kids : forall j, j ∈ sn_children n' -> j < am_next a';
    v_same : same_node n n';
    v_leafmax : is_leaf n' = true -> sn_max_relev n' = sum_weights chain;
    v_reach : forall i m, am_nodes a' !! i = Some m ->
      am_nodes a !! i = Some m \/ exists ext, ext <> [] /\ descends (at_ a') n' ext m;
    v_best : bound_ok -> forall ext, T ext -> stack_ok (sn_mask n) (sn_idx n) ext -> legal pms (chain ++ ext) ->
      present a' n' chain ext;
    v_lively : grow_ok -> lively a -> leafy a n -> lively a' /\ leafy a' n' }.

  Lemma visited_here (T : list subquery -> Prop) L chain n a :
    arena_ok L a -> arena_inv a -> node_ok L chain n -> (forall j, j ∈ sn_children n -> j < am_next a) ->
    (is_leaf n = true -> sn_max_relev n = sum_weights chain) ->
    (bound_ok -> forall ext, T ext -> stack_ok (sn_mask n) (sn_idx n) ext -> legal pms (chain ++ ext) -> present a n chain ext) ->
    visited T L chain n a L n a.
  Proof.
    intros H1 H2 H3 H4 H5 H6. split; try done.
    - apply later_refl.
    - intros i m Hm. by left.
  Qed.
  Lemma visited_weaken (T T' : list subquery -> Prop) L chain n a L' n' a' :
    (forall ext, T' ext -> T ext) -> visited T L chain n a L' n' a' -> visited T' L chain n a L' n' a'.
  Proof. intros H []. split; try done. intros Hb ext HT. by apply v_best0; [|apply H]. Qed.
  Lemma leafy_later a a' n : arena_inv a' -> later a a' -> leafy a n -> leafy a' n.
  Proof.
    intros Ha H [?|[(j & m & Hj & Hm & He)|Hl]]; [by left| |].
    - destruct (lt_old _ _ H j m Hj) as [Hj'|Hl].
      + right. left. exists j, m. done.
      + right. right. eapply lost_le; [exact Hl|]. by rewrite He.
    - right. right. by eapply lost_later.
  Qed.
  Lemma visited_comp (T1 T2 : list subquery -> Prop) L chain n a L1 n1 a1 L2 n2 a2 :
    visited T1 L chain n a L1 n1 a1 -> visited T2 L1 chain n1 a1 L2 n2 a2 ->
    visited (fun ext => T1 ext \/ T2 ext) L chain n a L2 n2 a2.
  Proof.
    intros V1 V2. pose proof (v_same _ _ _ _ _ _ _ _ V1) as (P1 & P2 & P3 & P4).
    pose proof (v_same _ _ _ _ _ _ _ _ V2) as (Q1 & Q2 & Q3 & Q4). split.
    - etransitivity; [apply (v_sub _ _ _ _ _ _ _ _ V1)|apply (v_sub _ _ _ _ _ _ _ _ V2)].
    - apply (v_arena _ _ _ _ _ _ _ _ V2).
    - apply (v_inv _ _ _ _ _ _ _ _ V2).
    - apply (v_node _ _ _ _ _ _ _ _ V2).
    - eapply later_trans; [apply (v_later _ _ _ _ _ _ _ _ V1)|apply (v_later _ _ _ _ _ _ _ _ V2)].
    - apply (v_kids _ _ _ _ _ _ _ _ V2).
    - split; [congruence|]. split; [congruence|]. split; [congruence|]. intros j Hj. by apply Q4, P4.
    - apply (v_leafmax _ _ _ _ _ _ _ _ V2).
    - intros i m Hm. destruct (v_reach _ _ _ _ _ _ _ _ V2 i m Hm) as [Hm1|?]; [|by right].
      destruct (v_reach _ _ _ _ _ _ _ _ V1 i m Hm1) as [?|(ext & Hne & Hd)]; [by left|]. right. exists ext. split; [done|].
      destruct (desc_later L1 a1 a2 n1 ext m (v_arena _ _ _ _ _ _ _ _ V1) (v_later _ _ _ _ _ _ _ _ V2) Hd chain
        (v_node _ _ _ _ _ _ _ _ V1) Hne) as [Hd'|Hl].
      + by eapply descends_kids.
      + exfalso. eapply kept_not_lost; [apply (v_inv _ _ _ _ _ _ _ _ V2)|exact Hm|exact Hl].
    - intros Hb ext [HT|HT] Hs Hleg.
      + eapply present_kids; [exact Q4|]. eapply present_later; [apply (v_arena _ _ _ _ _ _ _ _ V1)|
          apply (v_node _ _ _ _ _ _ _ _ V1)|apply (v_later _ _ _ _ _ _ _ _ V2)|]. by apply (v_best _ _ _ _ _ _ _ _ V1).
      + apply (v_best _ _ _ _ _ _ _ _ V2); [done|done| |done]. by rewrite P2, P3.
    - intros Hg Hv Hl. destruct (v_lively _ _ _ _ _ _ _ _ V1 Hg Hv Hl) as [Hv1 Hl1].
      by apply (v_lively _ _ _ _ _ _ _ _ V2).
  Qed.

  Lemma attach_visited L chain n a child pm n' a' (T : list subquery -> Prop) :
    0 < am_soft_max a ->
    arena_ok L a -> arena_inv a -> node_ok L chain n -> (forall j, j ∈ sn_children n -> j < am_next a) ->
    (is_leaf n = true -> sn_max_relev n = sum_weights chain) ->
    node_ok L (chain ++ [pm]) child -> (forall j, j ∈ sn_children child -> j < am_next a) ->
    attach n child a = (n', a') ->
    (bound_ok -> forall ext, T ext -> stack_ok (N.lor (sq_mask pm) (sn_mask n)) (sq_idx pm) ext ->
       legal pms (chain ++ pm :: ext) -> present a child (chain ++ [pm]) ext) ->
    exists L', L ⊆ L' /\ arena_ok L' a' /\ arena_inv a' /\ node_ok L' chain n' /\ later a a' /\
      (forall j, j ∈ sn_children n' -> j < am_next a') /\ same_node n n' /\
      (is_leaf n' = true -> sn_max_relev n' = sum_weights chain) /\
      (forall i m ext, am_nodes a' !! i = Some m -> descends (at_ a) child ext m -> ext <> [] ->
         exists ext', ext' <> [] /\ descends (at_ a') n' ext' m) /\
      (forall i m, am_nodes a' !! i = Some m -> am_nodes a !! i = Some m \/ exists ext', ext' <> [] /\ descends (at_ a') n' ext' m) /\
      (bound_ok -> forall ext, T ext -> stack_ok (sn_mask n) (sn_idx n) (pm :: ext) -> legal pms (chain ++ pm :: ext) ->
         present a' n' chain (pm :: ext)) /\
      (grow_ok -> lively a -> leafy a n -> leafy a child -> lively a' /\ leafy a' n').
  Proof.
    intros Hpos Ha Hinv Hn Hj Hmax Hc Hcj H HT. pose proof total_cmp_ord as HTc.
    destruct (attach_ok pms L a chain n child pm n' a' Ha Hn Hc Hcj H) as (L' & HL & Ha' & Hn' & Hnext & Hj' & Ei & Em).
    exists L'. split; [done|]. split; [done|].
    assert (Hcf : ord_cmp (sn_max_relev child) f_max <> Gt).
    { destruct (no_max _ _ _ _ Hc) as (ext & Hl & ->). by apply Hfin. }
    assert (Hpm : sn_pm child = Some pm).
    { rewrite (st_pm _ _ (no_static _ _ _ _ Hc)). by rewrite last_snoc. }
    assert (Hjj : forall j, j ∈ sn_children n' -> j < am_next a').
    { intros j Hjn. destruct (Hj' j Hjn) as [Ho|?]; [|done]. specialize (Hj j Ho). lia. }
    unfold attach in H. destruct (arena_add a child) as [o a1] eqn:Eadd.
    pose proof (arena_add_ok a child o a1 Hinv Hcf Eadd) as Hok. pose proof (later_add _ _ _ _ Eadd Hok) as Hlater.
    destruct o as [i|].
    - injection H as En Ea. subst a1. destruct (ad_some _ _ _ _ Hok i eq_refl) as [-> Hi].
      assert (Hin : am_next a ∈ sn_children n') by (rewrite <- En; cbn [sn_children]; apply elem_of_app; right; by left).
      assert (Hkids : forall j, j ∈ sn_children n -> j ∈ sn_children n').
      { intros j Hjn. rewrite <- En. cbn [sn_children]. apply elem_of_app. by left. }
      assert (Hup : forall ext m, descends (at_ a) child ext m ->
        descends (at_ a') n' (pm :: ext) m \/ (ext <> [] /\ lost a' (sn_max_relev m))).
      { intros [|q ext] m Hd.
        - inversion Hd; subst. left. econstructor; [exact Hin|exact Hi|done|constructor].
        - destruct (desc_later L a a' child _ m Ha Hlater Hd (chain ++ [pm]) Hc) as [Hd'|Hl]; [done| |by right].
          left. by econstructor; [exact Hin|exact Hi|done|]. }
      split; [apply (ad_inv _ _ _ _ Hok)|]. split; [done|]. split; [done|]. split; [done|]. split.
      { rewrite <- En. split; [done|]. split; [done|]. split; [done|]. rewrite En. exact Hkids. }
      split.
      { rewrite <- En. unfold is_leaf. cbn [sn_children]. by destruct (sn_children n). }
      split; [|split; [|split]].
      + intros j m ext Hm Hd Hne. destruct (Hup ext m Hd) as [Hd'|[_ Hl]]; [exists (pm :: ext); done|].
        exfalso. by eapply kept_not_lost; [apply (ad_inv _ _ _ _ Hok)| |].
      + intros j m Hm. destruct (ad_new _ _ _ _ Hok j m Hm) as [?|[[= <-] ->]]; [by left|]. right. exists [pm].
        split; [done|]. econstructor; [exact Hin|exact Hi|done|constructor].
      + intros Hb ext Hext (Hm & Hx & Hs) Hleg. destruct (HT Hb ext Hext Hs Hleg) as [(m & Hd)|Hl].
        * destruct (Hup ext m Hd) as [Hd'|[Hne Hl]]; [left; eauto|]. right.
          eapply lost_le; [exact Hl|]. pose proof (descends_ok pms L a child _ m Ha Hd _ Hc) as Hokm.
          rewrite <- app_assoc in Hokm. apply (no_own _ _ _ _ Hokm), fin_no_nan.
        * right. rewrite <- app_assoc in Hl. by eapply lost_later.
      + intros Hg Hv Hln Hlc.
        assert (Hcl : is_leaf child = true \/ leaf_at a (sn_max_relev child)).
        { destruct Hlc as [?|[?|[Hf Hx]]]; [by left|by right|]. exfalso. unfold arena_add in Eadd.
          rewrite Hf in Eadd. unfold ord_lt in Eadd at 1. rewrite Hx in Eadd. done. }
        split.
        * eapply arena_add_lively; [exact Hinv|exact Hpos|exact Hv|exact Hcf|exact Eadd|]. left.
          destruct Hcl as [?|(j & m & Hjm & Hm & He)]; [by left|]. right. exists j, m. done.
        * assert (Hlc' : leaf_at a' (sn_max_relev child)).
          { destruct Hcl as [Hcl|(j & m & Hjm & Hm & He)].
            - exists (am_next a), child. split; [done|]. split; [done|]. apply (tc_refl _ HTc).
            - exists j, m. split; [|done]. destruct (lt_old _ _ Hlater j m Hjm) as [?|Hl]; [done|]. exfalso.
              eapply kept_not_lost; [apply (ad_inv _ _ _ _ Hok)|exact Hi|]. eapply lost_le; [exact Hl|]. by rewrite He. }
          assert (Emax : sn_max_relev n' = if fltb (sn_max_relev n) (sn_max_relev child) then sn_max_relev child else sn_max_relev n)
            by (rewrite <- En; done).
          destruct (fltb (sn_max_relev n) (sn_max_relev child)) eqn:Efl.
          -- right. left. rewrite Emax. done.
          -- destruct Hln as [Hleaf|Hln].
             ++ exfalso. specialize (Hmax Hleaf).
                assert (Hlt : ord_cmp (sn_max_relev n) (sn_max_relev child) = Lt).
                { rewrite Hmax. eapply (tc_lt_le_trans _ HTc); [apply (Hg chain pm)|].
                  - apply (no_legal _ _ _ _ Hc).
                  - apply (no_own _ _ _ _ Hc), fin_no_nan. }
                apply fltb_ord in Hlt; [congruence| |].
                ** destruct (no_max _ _ _ _ Hn) as (e & He & ->). by apply fin_no_nan.
                ** destruct (no_max _ _ _ _ Hc) as (e & He & ->). by apply fin_no_nan.
             ++ unfold leafy. rewrite Emax. right.
                destruct (leafy_later a a' n (ad_inv _ _ _ _ Hok) Hlater (or_intror Hln)) as [Hl|?]; [|done].
                destruct Hln as [(j & m & Hjm & Hm & He)|Hln].
                ** destruct (lt_old _ _ Hlater j m Hjm) as [Hj''|Hl''].
                   --- left. exists j, m. done.
                   --- right. eapply lost_le; [exact Hl''|]. by rewrite He.
                ** right. by eapply lost_later.
    - injection H as <- <-. destruct (ad_none _ _ _ _ Hok eq_refl) as (-> & Hf & Hx).
      split; [done|]. split; [done|]. split; [done|]. split; [done|]. split; [done|]. split; [done|].
      split; [|split; [|split]].
      + intros j m ext Hm Hd Hne. exfalso. eapply kept_not_lost; [exact Hinv|exact Hm|].
        eapply lost_le; [split; [exact Hf|exact Hx]|]. exact (desc_max L a child ext m Ha Hd (chain ++ [pm]) Hc).
      + intros j m Hm. by left.
      + intros Hb ext Hext (Hm & Hx' & Hs) Hleg. right. destruct (HT Hb ext Hext Hs Hleg) as [(m & Hd)|Hl].
        * eapply lost_le; [split; [exact Hf|exact Hx]|]. eapply (tc_trans _ HTc); [|exact (desc_max L a child ext m Ha Hd (chain ++ [pm]) Hc)].
          pose proof (descends_ok pms L a child _ m Ha Hd _ Hc) as Hokm.
          rewrite <- app_assoc in Hokm. apply (no_own _ _ _ _ Hokm), fin_no_nan.
        * by rewrite <- app_assoc in Hl.
      + done.
  Qed.

  Lemma fltb_lt x y : fltb x y = true -> ord_cmp x y = Lt.
  Proof.
    intros H. assert (Hx : f_is_nan x = false) by (destruct x; done).
    assert (Hy : f_is_nan y = false) by (destruct y; [done|done|destruct x as [| | |[]]; done|done]).
    by apply fltb_ord.
  Qed.

  Lemma visit_visited bins : forall chain n a L n' a',
    0 < am_soft_max a ->
    bins_wf pms bins -> (forall b, b ∈ bins -> b ∈ make_bins pms) ->
    (forall q b pm, q ∈ chain -> b ∈ bins -> pm ∈ pb_pms b -> type_of q < type_of pm) ->
    arena_ok L a -> arena_inv a -> node_ok L chain n -> (forall j, j ∈ sn_children n -> j < am_next a) ->
    (is_leaf n = true -> sn_max_relev n = sum_weights chain) ->
    visit bins (sum_weights chain) n a = (n', a') ->
    exists L', visited (fun ext => from_bins (map pb_pms bins) ext) L chain n a L' n' a'.
  Proof.
    induction bins as [|b rest IH]; intros chain n a L n' a' Hpos [Hin Hsort] Hsub Habove Ha Hinv Hn Hj Hmax H; cbn [visit] in H.
    { injection H as <- <-. exists L. apply visited_here; [done..|]. intros Hb [|q ext] Hext Hs Hleg.
      - left. exists n. constructor.
      - destruct Hext as ([|] & ? & ? & E & _); done. }
    match type of H with (let '(_, _) := foldl ?f _ _ in _) = _ => set (F := f) in H end.
    apply StronglySorted_inv in Hsort as [Hsort HF]. rewrite Forall_forall in HF.
    assert (Hrest : bins_wf pms rest).
    { split; [|done]. intros b' pm Hb'. apply Hin. by right. }
    assert (Hloop : forall l n a L n1 a1, 0 < am_soft_max a -> (forall pm, pm ∈ l -> pm ∈ pb_pms b) ->
      arena_ok L a -> arena_inv a -> node_ok L chain n -> (forall j, j ∈ sn_children n -> j < am_next a) ->
      (is_leaf n = true -> sn_max_relev n = sum_weights chain) ->
      foldl F (n, a) l = (n1, a1) ->
      exists L', visited (fun ext => exists pm ext', ext = pm :: ext' /\ pm ∈ l /\ from_bins (map pb_pms rest) ext') L chain n a L' n1 a1).
    { clear n a L n' a' Hpos Ha Hinv Hn Hj Hmax H. induction l as [|pm l IHl]; intros n a L n1 a1 Hpos Hl Ha Hinv Hn Hj Hmax H; cbn [foldl] in H.
      { injection H as <- <-. exists L. apply visited_here; [done..|]. intros _ ext (q & ext' & _ & Hq & _). by apply elem_of_nil in Hq. }
      assert (Hl' : forall q, q ∈ l -> q ∈ pb_pms b) by (intros q Hq; apply Hl; by right).
      assert (Hpm : pm ∈ pb_pms b) by (apply Hl; by left).
      set (T1 := fun ext => exists ext', ext = pm :: ext' /\ from_bins (map pb_pms rest) ext').
      assert (Hstep : exists L1 n1' a1', F (n, a) pm = (n1', a1') /\ visited T1 L chain n a L1 n1' a1').
      { unfold F. destruct (can_stack n pm) eqn:Ecan.
        2:{ exists L, n, a. split; [done|]. apply visited_here; [done..|]. intros _ ext (ext' & -> & _) (Hm & Hx & _).
            exfalso. unfold can_stack, bit_in in Ecan. rewrite Hm, Hx in Ecan. done. }
        destruct (is_full a && fltb _ _) eqn:Eprune.
        { apply andb_prop in Eprune as [Ef Ep]. exists L, n, a. split; [done|]. apply visited_here; [done..|].
          intros Hb ext (ext' & -> & _) Hs Hleg. right. rewrite <- sum_weights_snoc in Ep. apply fltb_lt in Ep.
          eapply lost_le; [split; [exact Ef|exact Ep]|]. apply Hb; [apply Hsub; by left|done|done]. }
        unfold can_stack in Ecan. apply andb_prop in Ecan as [Em%N.eqb_eq Ex%negb_true_iff]. unfold bit_in in Ex.
        pose proof (no_static _ _ _ _ Hn) as [S1 S2 S3 S4 S5].
        assert (Hlegal : legal pms (chain ++ [pm])).
        { apply legal_snoc.
          - by destruct Hn.
          - apply (Hin b); [by left|done].
          - intros q Hq. apply (Habove q b); [done|by left|done].
          - by rewrite <- S2.
          - by rewrite <- S4. }
        rewrite <- sum_weights_snoc.
        destruct (visit rest (sum_weights (chain ++ [pm])) (child_node n pm (sum_weights (chain ++ [pm]))) a) as [child a2] eqn:Ev.
        assert (Hchild : node_ok L (chain ++ [pm]) (child_node n pm (sum_weights (chain ++ [pm])))).
        { split; cbn [child_node sn_max_relev sn_children].
          - split; cbn [child_node sn_pm sn_mask sn_bmask sn_idx sn_zoom].
            + by rewrite last_snoc.
            + rewrite List.map_app, all_masks_app. cbn. by rewrite N.lor_0_r, S2, N.lor_comm.
            + rewrite List.map_app, all_masks_app. cbn. by rewrite N.lor_0_r, S3.
            + unfold last_idx. by rewrite last_snoc.
            + by rewrite last_snoc.
          - done.
          - exists []. by rewrite app_nil_r.
          - intros _. by rewrite (tc_refl _ total_cmp_ord).
          - intros j Hjj. by apply elem_of_nil in Hjj.
          - done. }
        destruct (IH (chain ++ [pm]) (child_node n pm (sum_weights (chain ++ [pm]))) a L child a2) as (L2 & V2); [done|done| | |done|done|done| |done|done|].
        { intros b' Hb'. apply Hsub. by right. }
        { intros q b' pm' Hq Hb' Hpm'. apply elem_of_app in Hq as [Hq|Hq].
          - apply (Habove q b'); [done|by right|done].
          - apply elem_of_list_singleton in Hq as ->. by apply (HF b' Hb'). }
        { intros j Hjj. by apply elem_of_nil in Hjj. }
        destruct (attach n child a2) as [n3 a3] eqn:Ea.
        pose proof (v_later _ _ _ _ _ _ _ _ V2) as Hl2.
        destruct (attach_visited L2 chain n a2 child pm n3 a3 (fun ext => from_bins (map pb_pms rest) ext))
          as (L3 & A1 & A2 & A3 & A4 & A5 & A6 & A7 & A8 & A9 & A10 & A11 & A12).
        - by rewrite (lt_soft _ _ Hl2).
        - apply (v_arena _ _ _ _ _ _ _ _ V2).
        - apply (v_inv _ _ _ _ _ _ _ _ V2).
        - eapply node_ok_mono; [apply (v_sub _ _ _ _ _ _ _ _ V2)|done].
        - intros j Hjj. specialize (Hj j Hjj). pose proof (lt_next _ _ Hl2). lia.
        - done.
        - apply (v_node _ _ _ _ _ _ _ _ V2).
        - apply (v_kids _ _ _ _ _ _ _ _ V2).
        - done.
        - intros Hb ext Hext Hs Hleg. apply (v_best _ _ _ _ _ _ _ _ V2 Hb ext Hext).
          + exact Hs.
          + by rewrite <- app_assoc.
        - exists L3, n3, a3. split; [done|]. split.
          + etransitivity; [apply (v_sub _ _ _ _ _ _ _ _ V2)|exact A1].
          + done.
          + done.
          + done.
          + by eapply later_trans.
          + done.
          + done.
          + done.
          + intros i m Hm. destruct (A10 i m Hm) as [Hm2|?]; [|by right].
            destruct (v_reach _ _ _ _ _ _ _ _ V2 i m Hm2) as [?|(ext & Hne & Hd)]; [by left|]. right. by eapply A9.
          + intros Hb ext (ext' & -> & Hext) Hs Hleg. by apply A11.
          + intros Hg Hv Hln. destruct (v_lively _ _ _ _ _ _ _ _ V2 Hg Hv) as [Hv2 Hc2]; [by left|].
            apply A12; [done|done| |done]. eapply leafy_later; [apply (v_inv _ _ _ _ _ _ _ _ V2)|exact Hl2|done]. }
      destruct Hstep as (L1 & n1' & a1' & E1 & V1). rewrite E1 in H.
      destruct (IHl n1' a1' L1 n1 a1) as (L2 & V2).
      - rewrite (lt_soft _ _ (v_later _ _ _ _ _ _ _ _ V1)). done.
      - done.
      - apply (v_arena _ _ _ _ _ _ _ _ V1).
      - apply (v_inv _ _ _ _ _ _ _ _ V1).
      - apply (v_node _ _ _ _ _ _ _ _ V1).
      - apply (v_kids _ _ _ _ _ _ _ _ V1).
      - apply (v_leafmax _ _ _ _ _ _ _ _ V1).
      - done.
      - exists L2. eapply visited_weaken; [|exact (visited_comp _ _ _ _ _ _ _ _ _ _ _ _ V1 V2)].
        intros ext (q & ext' & -> & Hq & Hext). apply elem_of_cons in Hq as [->|Hq]; [left; exists ext'; done|].
        right. exists q, ext'. done. }
    destruct (foldl F (n, a) (pb_pms b)) as [n1 a1] eqn:E.
    destruct (Hloop (pb_pms b) n a L n1 a1) as (L1 & V1); [done..|].
    destruct (IH chain n1 a1 L1 n' a') as (L2 & V2).
    - rewrite (lt_soft _ _ (v_later _ _ _ _ _ _ _ _ V1)). done.
    - done.
    - intros b' Hb'. apply Hsub. by right.
    - intros q b' pm Hq Hb'. apply Habove; [done|by right].
    - apply (v_arena _ _ _ _ _ _ _ _ V1).
    - apply (v_inv _ _ _ _ _ _ _ _ V1).
    - apply (v_node _ _ _ _ _ _ _ _ V1).
    - apply (v_kids _ _ _ _ _ _ _ _ V1).
    - apply (v_leafmax _ _ _ _ _ _ _ _ V1).
    - done.
    - exists L2. eapply visited_weaken; [|exact (visited_comp _ _ _ _ _ _ _ _ _ _ _ _ V1 V2)].
      intros [|q ext] Hext; [by right|]. cbn [from_bins map] in Hext.
      destruct Hext as ([|b0 bs1] & b' & bs2 & Eb & Hq & Hext); cbn in Eb; injection Eb as <- Eb.
      + left. subst bs2. exists q, ext. done.
      + right. exists bs1, b', bs2. done.
  Qed.

  Lemma stackable_visited : exists L',
    visited (fun ext => from_bins (map pb_pms (make_bins pms)) ext) ∅ [] root_node arena_new L'
      (t_root (stackable pms)) (t_arena (stackable pms)).
  Proof.
    unfold stackable. destruct (visit (make_bins pms) f_zero root_node arena_new) as [root a] eqn:E. cbn [t_root t_arena].
    eapply (visit_visited (make_bins pms) [] root_node arena_new ∅ root a).
    - done.
    - apply make_bins_wf.
    - done.
    - intros q b pm Hq. by apply elem_of_nil in Hq.
    - split.
      + intros i [x Hx]. by rewrite lookup_empty in Hx.
      + intros i n Hi. cbn [arena_new am_nodes] in Hi. by rewrite lookup_empty in Hi.
    - apply (arena_inv_new leaf_soft_max).
    - split; try done.
      + apply legal_nil.
      + exists []. split; [apply legal_nil|done].
      + intros j Hj. by apply elem_of_nil in Hj.
    - intros j Hj. by apply elem_of_nil in Hj.
    - done.
    - done.
  Qed.
End best.

(** ** The estimate used for pruning *)
Lemma top_weight_snoc pms pm t :
  top_weight (pms ++ [pm]) t =
  if (type_of pm =? t) && fltb (top_weight pms t) (sq_weight pm) then sq_weight pm else top_weight pms t.
Proof. unfold top_weight. by rewrite foldl_snoc. Qed.
Lemma top_weight_none pms t : (forall pm, pm ∈ pms -> type_of pm <> t) -> top_weight pms t = f_zero.
Proof.
  induction pms as [|pm pms IH] using rev_ind; intros H; [done|]. rewrite top_weight_snoc.
  assert (Hpm : type_of pm <> t) by (apply H, elem_of_app; right; by left). apply N.eqb_neq in Hpm. rewrite Hpm. cbn [andb].
  apply IH. intros q Hq. apply H, elem_of_app. by left.
Qed.
Lemma bin_add_max pms pm m :
  keyed_wf pms m -> (forall t b, (t, b) ∈ m -> pb_max b = top_weight pms t) ->
  forall t b, (t, b) ∈ bin_add pm m -> pb_max b = top_weight (pms ++ [pm]) t.
Proof.
  intros (Hs & Hin & Hall) Hm t b. rewrite top_weight_snoc.
  assert (Hnone : type_of pm ∉ map fst m -> top_weight pms (type_of pm) = f_zero).
  { intros Hn. apply top_weight_none. intros q Hq E. destruct (Hall q Hq) as (b0 & Hb0 & _). apply Hn.
    rewrite <- E. apply elem_of_map. by exists (type_of q, b0). }
  clear Hin Hall. induction m as [|[t' b'] m IH]; cbn [bin_add]; fold (type_of pm).
  - intros Hb. apply elem_of_list_singleton in Hb. injection Hb as -> ->. rewrite N.eqb_refl. cbn [andb pb_max].
    rewrite Hnone; [done|]. cbn. intros Hx. by apply elem_of_nil in Hx.
  - cbn [map fst] in Hs. apply StronglySorted_inv in Hs as [Hs HF]. rewrite Forall_forall in HF.
    destruct (N.compare_spec (type_of pm) t') as [E|H|H]; intros Hb; apply elem_of_cons in Hb as [[= -> ->]|Hb].
    + subst t'. rewrite N.eqb_refl. cbn [andb pb_max]. by rewrite (Hm _ b') by (by left).
    + assert (Ht : t ∈ map fst m) by (apply elem_of_map; by exists (t, b)). specialize (HF t Ht).
      assert (E' : (type_of pm =? t) = false) by (apply N.eqb_neq; lia). rewrite E'. apply Hm. by right.
    + rewrite N.eqb_refl. cbn [andb pb_max]. rewrite Hnone; [done|]. cbn [map fst]. intros Hx.
      apply elem_of_cons in Hx as [Hx|Hx]; [lia|]. specialize (HF _ Hx). lia.
    + assert (Ht : t = t' \/ t ∈ map fst m).
      { apply elem_of_cons in Hb as [[= -> _]|Hb]; [by left|]. right. apply elem_of_map. by exists (t, b). }
      assert (E' : (type_of pm =? t) = false).
      { apply N.eqb_neq. destruct Ht as [->|Ht]; [lia|]. specialize (HF t Ht). lia. }
      rewrite E'. by apply Hm.
    + assert (E' : (type_of pm =? t') = false) by (apply N.eqb_neq; lia). rewrite E'. apply Hm. by left.
    + apply IH; [done| | |done].
      * intros t0 b0 Hb0. apply Hm. by right.
      * intros Hn. apply Hnone. cbn [map fst]. intros Hx. apply elem_of_cons in Hx as [Hx|Hx]; [lia|done].
Qed.
Lemma bins_max pms t b : (t, b) ∈ foldl (fun m pm => bin_add pm m) [] pms -> pb_max b = top_weight pms t.
Proof.
  revert t b. induction pms as [|pm pms IH] using rev_ind; intros t b Hb; [by apply elem_of_nil in Hb|].
  rewrite foldl_snoc in Hb. eapply bin_add_max; [apply bins_keyed|exact IH|exact Hb].
Qed.
Lemma set_after_ok (f : pm_bin -> list subquery) (m : list (N * pm_bin)) :
  let r := set_after (map (fun tb : N * pm_bin => PmBin (f tb.2) (pb_max tb.2) (pb_after tb.2)) m) in
  r.2 = foldl (fun acc (tb : N * pm_bin) => fadd acc (pb_max tb.2)) f_zero (rev m) /\
  forall b, b ∈ r.1 -> exists m1 t b0 m2, m = m1 ++ (t, b0) :: m2 /\ pb_pms b = f b0 /\
    pb_after b = foldl (fun acc (tb : N * pm_bin) => fadd acc (pb_max tb.2)) f_zero (rev m2).
Proof.
  induction m as [|[t b0] m IH]; cbn zeta in *.
  - split; [done|]. intros b Hb. by apply elem_of_nil in Hb.
  - cbn [map set_after snd]. destruct (set_after _) as [out sum]. cbn [fst snd pb_pms pb_max] in *. destruct IH as [-> IH]. split.
    + cbn [rev]. by rewrite foldl_snoc.
    + intros b Hb. apply elem_of_cons in Hb as [->|Hb].
      * exists [], t, b0, m. done.
      * destruct (IH b Hb) as (m1 & t1 & b1 & m2 & -> & H1 & H2). exists ((t, b0) :: m1), t1, b1, m2. done.
Qed.
Lemma bins_keys pms t : t ∈ map fst (foldl (fun m pm => bin_add pm m) [] pms) <-> exists pm, pm ∈ pms /\ type_of pm = t.
Proof.
  induction pms as [|pm pms IH] using rev_ind.
  - cbn. split; [intros H; by apply elem_of_nil in H|]. intros (pm & H & _). by apply elem_of_nil in H.
  - rewrite foldl_snoc, bin_add_keys, IH. split.
    + intros [->|(q & Hq & E)]; [exists pm; split; [apply elem_of_app; right; by left|done]|].
      exists q. split; [apply elem_of_app; by left|done].
    + intros (q & Hq & E). apply elem_of_app in Hq as [Hq|Hq]; [right; eauto|]. apply elem_of_list_singleton in Hq as ->. by left.
Qed.
Lemma estimates_bound pms : estimates_hold pms -> bound_ok pms.
Proof.
  intros He b pm pre ext Hb Hpm Hl. unfold make_bins in Hb.
  pose proof (bins_keyed pms) as (Hs & Hin & Hall). pose proof (bins_max pms) as Hmax. pose proof (bins_keys pms) as Hkeys.
  set (m := foldl (fun m pm => bin_add pm m) [] pms) in *. clearbody m.
  destruct (set_after_ok (fun b => isort pm_leb (pb_pms b)) m) as [_ Ha]. cbn zeta in Ha.
  destruct (Ha b Hb) as (m1 & t & b0 & m2 & Em & Ep & Eaf). rewrite Ep, elem_of_isort in Hpm.
  assert (Hb0 : (t, b0) ∈ m) by (rewrite Em; apply elem_of_app; right; by left).
  destruct (Hin t b0 pm Hb0 Hpm) as [Et _].
  assert (Eb : pb_after b = best_after pms (map fst (rev m2))).
  { rewrite Eaf. unfold best_after. assert (Hm2 : forall t b, (t, b) ∈ rev m2 -> pb_max b = top_weight pms t).
    { intros t1 b1 H1. apply Hmax. rewrite Em. apply elem_of_app. right. right. by rewrite elem_of_list_In, <- in_rev, <- elem_of_list_In in H1. }
    clear - Hm2. generalize f_zero. induction (rev m2) as [|[t1 b1] l IH]; intros acc; [done|]. cbn [foldl map fst snd].
    rewrite (Hm2 t1 b1) by (by left). apply IH. intros t2 b2 H2. apply Hm2. by right. }
  rewrite Eb. apply He; [done|]. rewrite Em, List.map_app in Hs. cbn [map fst] in Hs.
  apply StronglySorted_app in Hs as (_ & Hs & Hcross). apply StronglySorted_inv in Hs as [Hs HF]. rewrite Forall_forall in HF.
  rewrite Et. split.
  - rewrite List.map_rev. clear - Hs. induction Hs as [|x l Hs IH HF]; [constructor|]. cbn [rev].
    apply StronglySorted_app. split; [done|]. split; [repeat constructor|]. intros y z Hy Hz.
    apply elem_of_list_singleton in Hz as ->. rewrite Forall_forall in HF. apply HF.
    by rewrite elem_of_list_In, <- in_rev, <- elem_of_list_In in Hy.
  - intros t'. assert (Hrev : t' ∈ map fst (rev m2) <-> t' ∈ map fst m2).
    { rewrite List.map_rev, !elem_of_list_In, <- in_rev. done. }
    rewrite Hrev. split.
    + intros Ht'. split; [by apply HF|]. apply Hkeys. rewrite Em, List.map_app. apply elem_of_app. right. by right.
    + intros [Hlt Hq]. apply Hkeys in Hq. rewrite Em, List.map_app in Hq. cbn [map fst] in Hq.
      apply elem_of_app in Hq as [Hq|Hq].
      * specialize (Hcross t' t Hq ltac:(by left)). lia.
      * apply elem_of_cons in Hq as [->|Hq]; [lia|done].
Qed.
