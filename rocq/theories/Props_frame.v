(** Property C85: what is not asked for does not show in an answer. *)
From Verif Require Import Prelude Lists F64 Heap Common Morton Format Builder Spatial Store Query Spec Spec_match Spec_frame
  Finish_proofs Order_proofs History_proofs Merge_proofs Query_proofs Binquery_proofs Durable_proofs Rebuild_proofs Frame_proofs
  Props_rebuild Examples.
From Coq Require Import Sorting.Sorted.
Local Open Scope N_scope.

(** Two stores of the same radius, whatever else they hold, give the same list for a query,
    in the same order, when the calls for the phrases of the query wrote the same entries. *)
Theorem C85_frame :
  forall o o' ops ops' s s' q,
  history_ok ops -> history_ok ops' -> no_empty_compact ops -> no_empty_compact ops' ->
  built o ops s -> built o' ops' s' -> st_radius s = st_radius s' ->
  query_ok ops (mk_phrase q) -> query_ok ops' (mk_phrase q) ->
  same_source (mk_phrase q) ops ops' -> agree_on (mk_phrase q) ops ops' ->
  forall p mtb tb opts max,
    streaming_get_matching p mtb tb s q opts max = streaming_get_matching p mtb tb s' q opts max.
Proof.
  intros o o' ops ops' s s' q Hh Hh' Ne%nonempty_ops Ne'%nonempty_ops Hb Hb' Hr Hq Hq' Hsrc Ha p mtb tb opts max.
  pose proof (built_bounds o ops s Hh Hb) as B. pose proof (built_bounds o' ops' s' Hh' Hb') as B'.
  pose proof Hb as (d & z & t & r & bb & ms & Hf & Es). pose proof Hb' as (d' & z' & t' & r' & bb' & ms' & Hf' & Es').
  assert (Ed : st_db s = d) by by rewrite Es. assert (Ed' : st_db s' = d') by by rewrite Es'.
  assert (F : db_form (st_db s)).
  { rewrite Ed. intros k v. apply (finish_key_form o (run ops) d k v (run_keys_ok ops (proj1 Hh)) Hf). }
  assert (F' : db_form (st_db s')).
  { rewrite Ed'. intros k v. apply (finish_key_form o' (run ops') d' k v (run_keys_ok ops' (proj1 Hh')) Hf'). }
  destruct (bin_query_dec ops (mk_phrase q)) as [Hbin|Hn].
  - destruct (mk_phrase q) as [id|a b] eqn:Eq; [done|]. destruct Hbin as [Hst Hen].
    destruct Hsrc as [El|[Hn _]]; [|by destruct Hn].
    pose proof Hst as Hst'. pose proof Hen as Hen'. rewrite El in Hst', Hen'.
    destruct Hq as [Hlt Hok]. destruct Hq' as [_ Hok'].
    assert (G : forall s0, st_bounds s0 = loaded ops -> fetch_range p s0 (mk_phrase q) = Ok (a, b, PrefixBin)).
    { intros s0 E. rewrite Eq. unfold fetch_range. rewrite E.
      by rewrite (proj2 (existsb_elem a _) Hst), (proj2 (existsb_elem b _) Hen). }
    apply (same_range s s' p q a b PrefixBin F F' Hr); [by apply G|apply G; congruence|done|].
    intros [gid l] Hk Hg. rewrite Ed, Ed'. by apply (bin_agree o o' a b ops ops' d d' gid l); auto.
  - assert (Hn' : ~ bin_query ops' (mk_phrase q)).
    { destruct Hsrc as [El|[_ Hs]]; [|destruct (mk_phrase q); simpl in *; tauto].
      destruct (mk_phrase q); simpl in *; [done|]. by rewrite <- El. }
    pose proof (plain_query_ok o ops s _ Hh Hb Hq Hn) as Hp. pose proof (plain_query_ok o' ops' s' _ Hh' Hb' Hq' Hn') as Hp'.
    destruct (fetch_plain p s _ Hp) as (st & en & E & Hst & Hsel).
    assert (E' : fetch_range p s' (mk_phrase q) = Ok (st, en, SinglePhrase)).
    { destruct (mk_phrase q) as [id|a b] eqn:Eq; [exact E|]. unfold fetch_range in *.
      assert (X : forall s0, plain_query s0 (Range a b) -> existsb (N.eqb a) (st_bounds s0) && existsb (N.eqb b) (st_bounds s0) = false).
      { intros s0 [_ H]. apply not_true_is_false. intros Y. apply andb_true_iff in Y as [Y1%existsb_elem Y2%existsb_elem]. tauto. }
      rewrite (X s Hp) in E. by rewrite (X s' Hp'). }
    apply (same_range s s' p q st en SinglePhrase F F' Hr E E' Hst).
    intros key Hk Hg. rewrite Ed, Ed'. apply (single_agree o o' (mk_phrase q) ops ops' d d' key); try done. by rewrite <- Hsel.
Qed.
Print Assumptions C85_frame.

(** So a store is as good as the one of the calls that concern the query alone. *)
Definition concerned (q : match_key) (ops : list op) : list op :=
  restrict (fun k => phrase_sel (mk_phrase q) k.1) ops ++ [OpBounds (loaded ops)].
Lemma concerned_written q ops k :
  written (concerned q ops) !! k = if phrase_sel (mk_phrase q) k.1 then written ops !! k else None.
Proof.
  unfold concerned, written at 1. rewrite foldl_app. cbn [foldl written_step].
  apply (written_restrict (fun k => phrase_sel (mk_phrase q) k.1)).
Qed.
Lemma concerned_loaded q ops : loaded (concerned q ops) = loaded ops.
Proof. unfold concerned, loaded at 1. by rewrite foldl_app. Qed.
Lemma loaded_ok ops : Forall op_ok ops -> op_ok (OpBounds (loaded ops)).
Proof.
  intros H. unfold loaded. cbn. assert (Hn : Forall (fun b => b < 2 ^ 32) ([] : list N)) by constructor.
  revert Hn. generalize ([] : list N). induction H as [|x ops Hx H IH]; intros l Hl; [done|]. cbn [foldl]. apply IH.
  by destruct x.
Qed.
Lemma mjoin_submseteq (l1 l2 : list (list grid_entry)) : l1 ⊆+ l2 -> (length (mjoin l1) <= length (mjoin l2))%nat.
Proof.
  intros H. induction H as [|x l1 l2 H IH|x y l|x l1 l2 H IH|l1 l2 l3 H1 IH1 H2 IH2]; try done;
    repeat change (mjoin (?a :: ?b)) with (a ++ mjoin b); rewrite ?app_length; lia.
Qed.
Lemma concerned_query_ok q ops : query_ok ops (mk_phrase q) -> query_ok (concerned q ops) (mk_phrase q).
Proof.
  assert (G : bins_ok ops -> bins_ok (concerned q ops)).
  { intros (H1 & H2 & H3). unfold bins_ok. rewrite concerned_loaded. split; [done|]. split.
    - intros k es. rewrite concerned_written. destruct (phrase_sel _ _); [apply H2|done].
    - intros gid l. specialize (H3 gid l). etransitivity; [|exact H3].
      apply N2Z.inj_le. rewrite !nat_N_Z. apply inj_le. unfold bin_entries. rewrite concerned_loaded.
      apply mjoin_submseteq. apply (fmap_submseteq snd). apply NoDup_submseteq.
      + apply NoDup_ListNoDup. apply List.NoDup_filter. apply NoDup_ListNoDup. apply NoDup_map_to_list.
      + intros [k es] Hin. apply elem_of_filter in Hin as [Hin Hc]. apply elem_of_filter. split; [|done].
        apply elem_of_map_to_list in Hin. apply elem_of_map_to_list. rewrite concerned_written in Hin.
        by destruct (phrase_sel _ _). }
  destruct (mk_phrase q) as [id|a b]; cbn [query_ok]; [done|]. intros [H1 H2]. rewrite concerned_loaded. auto.
Qed.
Theorem C85_least :
  forall o o' ops s s' q,
  history_ok ops -> no_empty_compact ops -> query_ok ops (mk_phrase q) ->
  built o ops s -> built o' (concerned q ops) s' -> st_radius s = st_radius s' ->
  forall p mtb tb opts max,
    streaming_get_matching p mtb tb s q opts max = streaming_get_matching p mtb tb s' q opts max.
Proof.
  intros o o' ops s s' q Hh Hne Hq Hb Hb' Hr.
  apply (C85_frame o o' ops (concerned q ops) s s' q Hh); try done.
  - split.
    + unfold concerned. apply Forall_app. split; [apply (history_restrict _ ops Hh)|].
      constructor; [|constructor]. apply loaded_ok, Hh.
    + intros k es. rewrite concerned_written. destruct (phrase_sel _ _); [apply Hh|done].
  - intros k r sc i h Hin. unfold concerned, restrict in Hin. rewrite !elem_of_app, !elem_of_list_singleton in Hin.
    destruct Hin as [[Hin|Hin]|Hin]; [|done|done]. apply elem_of_filter in Hin as [Hin _]. by eapply Hne.
  - by apply concerned_query_ok.
  - left. symmetry. apply concerned_loaded.
  - intros k Hk. rewrite concerned_written, Hk. by destruct (written ops !! k).
Qed.
Print Assumptions C85_least.

(** Two histories that agree on the phrases from 1 to 4 and on little else, and a query that
    is answered from bins: the hypotheses hold and the answer is not empty. *)
Definition fr_1 : list op :=
  [OpInsert (7, 1) [ex_e2]; OpBounds [0; 5; 9]; OpInsert (1, 1) [ex_e1; ex_e2]; OpAppend (8, 3) [ex_e1]].
Definition fr_2 : list op :=
  [OpBounds [0; 5; 9]; OpAppend (1, 1) [ex_e2]; OpAppend (1, 1) [ex_e1]; OpAppend (1, 1) [ex_e2]; OpInsert (6, 2) [ex_e1]].
Lemma fr_agree : agree_on (Range 0 5) fr_1 fr_2.
Proof.
  intros k Hk. destruct (decide (k = (1, 1))) as [->|Hn].
  - assert (E1 : written fr_1 !! (1, 1) = Some [ex_e1; ex_e2]) by (vm_compute; reflexivity).
    assert (E2 : written fr_2 !! (1, 1) = Some [ex_e2; ex_e1; ex_e2]) by (vm_compute; reflexivity).
    rewrite E1, E2. intros e. cbn [map]. rewrite !elem_of_cons. tauto.
  - unfold fr_1, fr_2, written. cbn [foldl written_step].
    assert (k <> (7, 1)) by (intros ->; done). assert (k <> (8, 3)) by (intros ->; done). assert (k <> (6, 2)) by (intros ->; done).
    by rewrite !lookup_insert_ne by congruence.
Qed.
Example C85_ex :
  let q := MatchKey (Range 0 5) 1 in
  history_ok fr_1 /\ history_ok fr_2 /\ no_empty_compact fr_1 /\ no_empty_compact fr_2 /\
  query_ok fr_1 (mk_phrase q) /\ query_ok fr_2 (mk_phrase q) /\
  same_source (mk_phrase q) fr_1 fr_2 /\ agree_on (mk_phrase q) fr_1 fr_2 /\ ~ from_singles fr_1 (mk_phrase q) /\
  rb_ask (ex_db id_oracle fr_1) (Range 0 5) = [5; 6] /\ rb_ask (ex_db id_oracle fr_2) (Range 0 5) = [5; 6].
Proof.
  intros q.
  assert (B : bins_ok fr_1 /\ bins_ok fr_2).
  { split; (apply rb_bins; [unfold loaded; cbn; repeat constructor|vm_compute; reflexivity|apply N.leb_le; vm_compute; reflexivity]). }
  split; [apply history_okb_ok; vm_compute; reflexivity|]. split; [apply history_okb_ok; vm_compute; reflexivity|].
  split; [intros k r s i h; unfold fr_1; set_solver|]. split; [intros k r s i h; unfold fr_2; set_solver|].
  split; [split; [done|intros; apply B]|]. split; [split; [done|intros; apply B]|].
  split; [left; reflexivity|]. split; [apply fr_agree|]. split; [|split; vm_compute; reflexivity].
  intros H. apply H. split; cbn; set_solver.
Qed.
