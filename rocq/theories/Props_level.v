(** Property C102: only the language penalty is out of order. *)
From Verif Require Import Prelude Lists F64 Heap Common Builder Spatial Store Spec Spec_match Query
  Cmp_proofs Builder_proofs Merge_proofs Level_proofs Props_match Props_coalesce Examples Spec_level.
From Coq Require Import Sorting.Sorted.
From Coq Require Import ZifyBool.
Local Open Scope N_scope.

Lemma snap_cases r : snap_relev r = f_lit 4 10 \/ snap_relev r = f_lit 6 10 \/ snap_relev r = f_lit 8 10 \/ snap_relev r = f_one.
Proof.
  unfold snap_relev, relev_levels. cbn [List.find].
  repeat match goal with |- context [feqb r ?l] => destruct (feqb r l) end; auto.
Qed.
Lemma level_table ra rb (pa pb : bool) : let x := if pa then snap_relev ra else fmul (snap_relev ra) (f_lit 96 100) in let y := if pb then snap_relev rb else fmul (snap_relev rb) (f_lit 96 100) in
  N.compare (level_of y) (level_of x) <> Gt -> ord_cmp y x <> Gt \/ (x = fmul y (f_lit 96 100) /\ pa = false /\ pb = true).
Proof.
  assert (H : forall a b (pa pb : bool), In a [f_lit 4 10; f_lit 6 10; f_lit 8 10; f_one] -> In b [f_lit 4 10; f_lit 6 10; f_lit 8 10; f_one] ->
    let x := if pa then a else fmul a (f_lit 96 100) in let y := if pb then b else fmul b (f_lit 96 100) in
    N.compare (level_of y) (level_of x) <> Gt -> ord_cmp y x <> Gt \/ (x = fmul y (f_lit 96 100) /\ pa = false /\ pb = true)).
  { intros a b qa qb Ha Hb x y. 
    destruct Ha as [<-|[<-|[<-|[<-|[]]]]], Hb as [<-|[<-|[<-|[<-|[]]]]], qa, qb; subst x y; vm_compute; intros Hc;
      first [exfalso; apply Hc; reflexivity|left; discriminate|right; split; [reflexivity|split; reflexivity]]. }
  intros x y. apply H.
  - destruct (snap_cases ra) as [->|[->|[->| ->]]]; [left; reflexivity|right; left; reflexivity|right; right; left; reflexivity|right; right; right; left; reflexivity].
  - destruct (snap_cases rb) as [->|[->|[->| ->]]]; [left; reflexivity|right; left; reflexivity|right; right; left; reflexivity|right; right; right; left; reflexivity].
Qed.
Theorem C102_levels :
  forall p mtb tb o ops s k opts max out,
  history_ok ops -> built o ops s -> opts_ok p opts (st_radius s) -> query_ok ops (mk_phrase k) -> 1 <= max ->
  streaming_get_matching p mtb tb s k opts max = Ok out -> StronglySorted (may_follow opts (st_radius s)) out.
Proof.
  intros p mtb tb o ops s k opts max out Hh Hb Ho Hq Hmax Hr. pose proof (stream_levels p mtb tb o ops s k opts max out Hh Hb Hq Hr) as Hs.
  assert (Hrel : forall m, m ∈ out -> exists r, ge_relev (me_entry m) = if me_lang m || within_radius opts (st_radius s) m then snap_relev r else fmul (snap_relev r) (f_lit 96 100)).
  { intros m Hm. destruct (C13_penalty p mtb tb o ops s k opts max out m Hh Hb Ho Hq Hmax Hr Hm) as (_ & _ & e & _ & _ & _ & _ & E). by exists (ge_relev e). }
  clear Hr. induction Hs as [|a l Hs IH Hall]; [constructor|]. constructor; [apply IH; intros m Hm; apply Hrel; by right|].
  rewrite Forall_forall in Hall |- *. intros b Hb'. specialize (Hall b Hb').
  destruct (Hrel a ltac:(by left)) as (ra & Ea), (Hrel b ltac:(by right)) as (rb & Eb).
  unfold desc, level_cmp in Hall. unfold may_follow. cbn zeta. fold (within_radius opts (st_radius s) a) (within_radius opts (st_radius s) b).
  pose proof (level_table ra rb (me_lang a || within_radius opts (st_radius s) a) (me_lang b || within_radius opts (st_radius s) b)) as T. cbn zeta in T. rewrite <- Ea, <- Eb in T.
  destruct (T Hall) as [T1|(T1 & T2 & T3)]; [left; exact T1|right]. split; [exact T1|]. apply orb_false_iff in T2 as [T2 T4]. apply orb_true_iff in T3. split; [exact T2|]. split; [exact T4|exact T3].
Qed.
Print Assumptions C102_levels.

(** The exception happens: a far match of a high score comes first, penalised; the near one is not. So the relevances themselves do not go down. *)
Definition ops_near : list op := layer_ops 1 [GridEntry f_one 7 1 1 1 0; GridEntry f_one 0 40 40 2 0].
Definition near_opts : match_opts := MatchOpts None (Some (40, 40)) 6.
Lemma ops_near_ok : history_ok ops_near /\ built id_oracle ops_near (layer_store ops_near 6) /\ opts_ok Debug near_opts (st_radius (layer_store ops_near 6)) /\ query_ok ops_near (Exact 1).
Proof.
  split; [apply history_okb_ok; vm_compute; done|]. split; [apply built_run; vm_compute; reflexivity|].
  split; [split; [done|]; cbn; split; [lia|split; [lia|vm_compute; done]]|]. vm_compute; reflexivity.
Qed.
Definition near_out : list match_entry := ok_list (streaming_get_matching Debug first_mtb first_tb (layer_store ops_near 6) (MatchKey (Exact 1) 2) near_opts 80).
Theorem C102_relevance_refuted :
  exists ops s k opts out, history_ok ops /\ built id_oracle ops s /\ opts_ok Debug opts (st_radius s) /\ query_ok ops (mk_phrase k) /\
    streaming_get_matching Debug first_mtb first_tb s k opts 80 = Ok out /\
    ~ StronglySorted (fun a b => ord_cmp (ge_relev (me_entry b)) (ge_relev (me_entry a)) <> Gt) out.
Proof.
  destruct ops_near_ok as (H1 & H2 & H3 & H4). exists ops_near, (layer_store ops_near 6), (MatchKey (Exact 1) 2), near_opts, near_out.
  split; [exact H1|]. split; [exact H2|]. split; [exact H3|]. split; [exact H4|]. split; [apply ok_list_ok; vm_compute; done|].
  intros H. assert (E : match near_out with a :: b :: _ => ord_cmp (ge_relev (me_entry b)) (ge_relev (me_entry a)) = Gt | _ => False end) by (vm_compute; reflexivity).
  destruct near_out as [|a [|b l]]; [exact E|exact E|]. apply StronglySorted_inv in H as [_ H]. rewrite Forall_forall in H. apply (H b); [by left|exact E].
Qed.
Print Assumptions C102_relevance_refuted.
Example C102_ex :
  history_ok ops_near /\ built id_oracle ops_near (layer_store ops_near 6) /\ opts_ok Debug near_opts (st_radius (layer_store ops_near 6)) /\ query_ok ops_near (Exact 1) /\
  streaming_get_matching Debug first_mtb first_tb (layer_store ops_near 6) (MatchKey (Exact 1) 2) near_opts 80 = Ok near_out /\
  map (fun m => (ge_id (me_entry m), me_lang m, fltb (ge_relev (me_entry m)) f_one)) near_out = [(1, false, true); (2, false, false)].
Proof.
  destruct ops_near_ok as (H1 & H2 & H3 & H4). do 4 (split; [assumption|]). split; [apply ok_list_ok; vm_compute; done|]. vm_compute; reflexivity.
Qed.
