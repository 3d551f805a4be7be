(** Property C87: phrase ids are names, of which only the order counts. *)
From Verif Require Import Prelude Lists F64 Heap Common Morton Format Builder Spatial Store Query Coalesce Stackable Tree
  Spec Spec_match Spec_frame Spec_twin Spec_relabel Bits_proofs Finish_proofs Order_proofs History_proofs Merge_proofs
  Query_proofs Binquery_proofs Durable_proofs Rebuild_proofs Frame_proofs Relabel_proofs Twin_proofs
  Props_builder Props_rebuild Props_fuzzy Props_frame Props_twin Examples.
From Coq Require Import Sorting.Sorted ZifyBool.
Local Open Scope N_scope.

(** Two stores that hold the same under other names, in the same order of names, give the
    same list to queries that ask for it by these names. *)
Theorem C87_query :
  forall f o o' ops ops' s s' q q',
  history_ok ops -> history_ok ops' -> no_empty_compact ops -> no_empty_compact ops' ->
  built o ops s -> built o' ops' s' -> st_radius s = st_radius s' ->
  query_ok ops (mk_phrase q) -> query_ok ops' (mk_phrase q') ->
  from_singles ops (mk_phrase q) -> from_singles ops' (mk_phrase q') -> renames f q q' ops ops' ->
  forall p mtb tb opts max,
    streaming_get_matching p mtb tb s q opts max = streaming_get_matching p mtb tb s' q' opts max.
Proof.
  intros f o o' ops ops' s s' q q' Hh Hh' Ne%nonempty_ops Ne'%nonempty_ops Hb Hb' Hr Hq Hq' Hs Hs' Hrn p mtb tb opts max.
  pose proof Hb as (d & z & t & r & bb & ms & Hf & Es). pose proof Hb' as (d' & z' & t' & r' & bb' & ms' & Hf' & Es').
  assert (Ed : st_db s = d) by by rewrite Es. assert (Ed' : st_db s' = d') by by rewrite Es'.
  assert (Hn : ~ bin_query ops (mk_phrase q)) by (destruct (mk_phrase q); simpl in *; tauto).
  assert (Hn' : ~ bin_query ops' (mk_phrase q')) by (destruct (mk_phrase q'); simpl in *; tauto).
  pose proof (plain_query_ok o ops s _ Hh Hb Hq Hn) as Hp. pose proof (plain_query_ok o' ops' s' _ Hh' Hb' Hq' Hn') as Hp'.
  destruct (fetch_plain p s _ Hp) as (st & en & E & Hst & Hsel).
  destruct (fetch_plain p s' _ Hp') as (st' & en' & E' & Hst' & Hsel').
  apply (same_records p mtb tb s s' q q' opts max st en SinglePhrase st' en' SinglePhrase); try done.
  - rewrite Ed. by apply (form ops o d).
  - rewrite Ed'. by apply (form ops' o' d').
  - rewrite Ed, Ed'. by apply (renamed_same f q q' ops ops' o o' d d').
Qed.
Print Assumptions C87_query.

(** Renumbering, seen by a search: what was found under a temporary id is found, in the
    same order, under the final id, if the final id was given to no other phrase. *)
Theorem C87_renumber :
  forall o o' ops ids b' s s' x fin lang,
  history_ok ops -> no_empty_compact ops -> renumber (run ops) ids = (Ok tt, b') ->
  Forall (fun n => n < 2 ^ 32 - 1) ids -> built o ops s -> built o' (with_final_ids ids ops) s' -> st_radius s = st_radius s' ->
  x < 2 ^ 32 - 1 -> ids !! N.to_nat x = Some fin ->
  (forall y l, is_Some (written ops !! (y, l)) -> ids !! N.to_nat y = Some fin -> y = x) ->
  forall p mtb tb opts max,
    streaming_get_matching p mtb tb s (MatchKey (Exact x) lang) opts max =
    streaming_get_matching p mtb tb s' (MatchKey (Exact fin) lang) opts max.
Proof.
  intros o o' ops ids b' s s' x fin lang Hh Hne Hren Hids Hb Hb' Hr Hx Hfin Huniq.
  destruct (renumbered _ _ _ Hren) as [Hfk Hwr].
  assert (Hfl : fin < 2 ^ 32 - 1).
  { rewrite Forall_forall in Hids. apply Hids. by eapply elem_of_list_lookup_2. }
  apply (C87_query (fun _ => fin) o o' ops (with_final_ids ids ops)); try done.
  - assert (H0 : history_ok (with_final_ids ids ops ++ [OpBounds []])) by (eapply history_final; done).
    destruct H0 as [H0 H1]. apply Forall_app in H0 as [H0 _]. split; [done|]. intros k es Hk. apply (H1 k es).
    by rewrite written_snoc.
  - intros k r sc i h Hin. unfold with_final_ids in Hin. apply elem_of_map in Hin as (op & E & Hin).
    destruct op as [? ?|? ?|k0 r0 s0 i0 h0 cs|?]; try done. cbn in E. injection E as _ _ _ _ _ E. subst cs. by eapply Hne.
  - split; [constructor|unfold in_order]; cbn [mk_phrase mk_lang phrase_sel].
    + intros y l es Hy%N.eqb_eq Hw. subst y. split; [lia|]. exists es. split; [|done].
      apply Hwr. exists (x, l). split; [done|]. unfold final_key. cbn [fst snd]. by rewrite Hfin.
    + intros y l es' Hy%N.eqb_eq Hw. subst y. apply Hwr in Hw as ([y l0] & Hw & E).
      assert (Hsome : is_Some (written ops !! (y, l0))) by eauto.
      pose proof (Hfk _ Hsome) as Hl. rewrite E in Hl. cbn [fst] in Hl.
      assert (y = x) as -> by (by eapply Huniq). assert (l0 = l) as -> by (unfold final_key in E; cbn in E; congruence).
      exists x, es'. split; [done|]. split; [lia|done].
    + done.
    + intros y y' l l' Hy%N.eqb_eq Hy'%N.eqb_eq. lia.
Qed.
Print Assumptions C87_renumber.

(** The same for requests. *)
Definition subquery_alike (K : match_key_id -> match_key_id -> Prop) (a b : subquery) : Prop :=
  (sq_idx a, sq_nonoverlap a, sq_weight a, sq_mask a) = (sq_idx b, sq_nonoverlap b, sq_weight b, sq_mask b) /\
  length (sq_keys a) = length (sq_keys b) /\
  same_options (sq_store a) (sq_store b) /\ st_radius (sq_store a) = st_radius (sq_store b) /\
  exists ho1 ho2 ops ops', history_ok ops /\ history_ok ops' /\ no_empty_compact ops /\ no_empty_compact ops' /\
    built ho1 ops (sq_store a) /\ built ho2 ops' (sq_store b) /\
    forall k k', K k k' -> (forall p, same_use p k k') /\ alike ops ops' (mki_key k) (mki_key k').
Lemma alike_twin p mtb tb K a b : subquery_alike K a b -> Forall2 K (sq_keys a) (sq_keys b) -> twin p mtb tb K a b.
Proof.
  intros (E & _ & Ho & Hr & ho1 & ho2 & ops & ops' & H1 & H2 & H3 & H4 & H5 & H6 & H) HK. injection E as E1 E2 E3 E4.
  constructor; try done.
  - intros k k' Hk. by apply H.
  - intros k k' o n Hk. destruct (H k k' Hk) as [_ (Q1 & Q2 & [(Eq & Hs & Ha)|(S1 & S2 & f & Hf)])].
    + rewrite Eq in *. by apply (C85_frame ho1 ho2 ops ops').
    + by apply (C87_query f ho1 ho2 ops ops').
Qed.
Theorem C87_request :
  forall pms pms',
  (Forall2 (fun a b => subquery_alike (at_once a b) a b) pms pms' ->
     forall p ho_ mtb tb o, coalesce p ho_ mtb tb pms o = coalesce p ho_ mtb tb pms' o) /\
  (Forall2 (fun a b => subquery_alike (asked pms pms' (sq_idx a)) a b) pms pms' ->
     forall p ho_ mtb tb o, by_order tb ->
       stack_and_coalesce p ho_ mtb tb pms o = stack_and_coalesce p ho_ mtb tb pms' o).
Proof.
  assert (Hk : forall K a b, subquery_alike K a b -> length (sq_keys a) = length (sq_keys b)) by (intros K a b (_ & E & _); done).
  intros pms pms'. split.
  - intros H p ho_ mtb tb o. apply C86_flat. eapply Forall2_impl; [exact H|]. intros a b Hab.
    apply alike_twin; [exact Hab|]. eapply at_once_all, Hk, Hab.
  - intros H p ho_ mtb tb o Htb. apply C86_tree; [done|]. apply Forall2_same_length_lookup.
    split; [by eapply Forall2_length|]. intros i a b Ha Hb.
    pose proof (Forall2_lookup_lr _ _ _ _ _ _ H Ha Hb) as Hab.
    apply alike_twin; [exact Hab|]. eapply Forall2_impl; [eapply at_once_all, Hk, Hab|]. intros k k' Hkk. by exists i, a, b.
Qed.
Print Assumptions C87_request.

(** Phrases 1 and 3 in a store, 11 and 20 in another; the queries ask for other languages
    too, but the sets that occur are met by both or by neither. *)
Definition rl_1 : list op :=
  [OpInsert (1, 1) [ex_e1; ex_e2]; OpAppend (3, 4) [ex_e1]; OpInsert (9, 1) [ex_e2]].
Definition rl_2 : list op :=
  [OpAppend (20, 4) [ex_e1]; OpAppend (11, 1) [ex_e2]; OpAppend (11, 1) [ex_e1]; OpInsert (2, 1) [ex_e1]].
Definition rl_name (x : N) : N := if x =? 1 then 11 else 20.
Definition rl_q1 : match_key := MatchKey (Range 0 9) 1.
Definition rl_q2 : match_key := MatchKey (Range 10 30) 3.
Lemma rl_written_1 x l es : written rl_1 !! (x, l) = Some es ->
  (x, l, es) = (1, 1, [ex_e1; ex_e2]) \/ (x, l, es) = (3, 4, [ex_e1]) \/ (x, l, es) = (9, 1, [ex_e2]).
Proof.
  intros H. destruct (decide ((x, l) = (9, 1))) as [E|E1]; [|destruct (decide ((x, l) = (3, 4))) as [E|E2];
    [|destruct (decide ((x, l) = (1, 1))) as [E|E3]]].
  4: { unfold rl_1, written in H. cbn [foldl written_step] in H.
       rewrite !lookup_insert_ne in H by congruence. by rewrite lookup_empty in H. }
  all: injection E as -> ->; vm_compute in H; injection H as <-; auto.
Qed.
Lemma rl_written_2 x l es : written rl_2 !! (x, l) = Some es ->
  (x, l, es) = (11, 1, [ex_e2; ex_e1]) \/ (x, l, es) = (20, 4, [ex_e1]) \/ (x, l, es) = (2, 1, [ex_e1]).
Proof.
  intros H. destruct (decide ((x, l) = (2, 1))) as [E|E1]; [|destruct (decide ((x, l) = (20, 4))) as [E|E2];
    [|destruct (decide ((x, l) = (11, 1))) as [E|E3]]].
  4: { unfold rl_2, written in H. cbn [foldl written_step] in H.
       rewrite !lookup_insert_ne in H by congruence. by rewrite lookup_empty in H. }
  all: injection E as -> ->; vm_compute in H; injection H as <-; auto.
Qed.
Lemma rl_renames : renames rl_name rl_q1 rl_q2 rl_1 rl_2.
Proof.
  split; [constructor|].
  - intros x l es Hx Hw. apply rl_written_1 in Hw as [E|[E|E]]; injection E as -> -> ->; [| |done]; (split; [done|]).
    + exists [ex_e2; ex_e1]. split; [vm_compute; reflexivity|]. intros e. cbn [map]. rewrite !elem_of_cons. tauto.
    + exists [ex_e1]. split; [vm_compute; reflexivity|done].
  - intros x l es Hx Hw. apply rl_written_2 in Hw as [E|[E|E]]; injection E as -> -> ->; [| |done].
    + exists 1, [ex_e1; ex_e2]. split; [done|]. split; [done|vm_compute; reflexivity].
    + exists 3, [ex_e1]. split; [done|]. split; [done|vm_compute; reflexivity].
  - intros x l Hx [es Hw]. apply rl_written_1 in Hw as [E|[E|E]]; injection E as -> -> ->; done.
  - intros x x' l l' Hx Hx' [es Hw] [es' Hw'] Hlt.
    apply rl_written_1 in Hw as [E|[E|E]]; injection E as -> -> ->; try done;
    apply rl_written_1 in Hw' as [E|[E|E]]; injection E as -> -> ->; try done.
Qed.
Definition rl_a (ops : list op) (q : match_key) : subquery :=
  Subquery (tw_store ops 1) 1 0 (f_lit 5 10) 1 [MatchKeyWithId q false 1 5].
Lemma rl_ok : history_ok rl_1 /\ history_ok rl_2 /\ no_empty_compact rl_1 /\ no_empty_compact rl_2 /\
  built id_oracle rl_1 (tw_store rl_1 1) /\ built id_oracle rl_2 (tw_store rl_2 1).
Proof.
  split; [apply history_okb_ok; vm_compute; done|]. split; [apply history_okb_ok; vm_compute; done|].
  split; [intros k r s i h H; unfold rl_1, rl_2 in H; rewrite !elem_of_cons, elem_of_nil in H; naive_solver|].
  split; [intros k r s i h H; unfold rl_1, rl_2 in H; rewrite !elem_of_cons, elem_of_nil in H; naive_solver|].
  split; apply built_run; vm_compute; reflexivity.
Qed.
Lemma rl_alike : alike rl_1 rl_2 rl_q1 rl_q2.
Proof.
  split; [split; [done|]; intros H; by apply elem_of_nil in H|]. split; [split; [done|]; intros H; by apply elem_of_nil in H|].
  right. split; [intros [H _]; by apply elem_of_nil in H|]. split; [intros [H _]; by apply elem_of_nil in H|].
  exists rl_name. exact rl_renames.
Qed.
Example C87_ex :
  let pms := [rl_a rl_1 rl_q1] in let pms' := [rl_a rl_2 rl_q2] in
  Forall2 (fun a b => subquery_alike (at_once a b) a b) pms pms' /\
  Forall2 (fun a b => subquery_alike (asked pms pms' (sq_idx a)) a b) pms pms' /\
  (exists m ms, streaming_get_matching Debug first_mtb first_tb (tw_store rl_1 1) rl_q1 tw_opts0 10 = Ok (m :: ms) /\
     length ms = 2%nat) /\
  tw_out (coalesce Debug id_oracle first_mtb first_tb pms tw_opts0) <> [].
Proof.
  assert (HK : forall K : match_key_id -> match_key_id -> Prop, (forall k k', K k k' -> mki_key k = rl_q1 /\ mki_key k' = rl_q2 /\ forall p, same_use p k k') ->
    subquery_alike K (rl_a rl_1 rl_q1) (rl_a rl_2 rl_q2)).
  { intros K HK. split; [done|]. split; [done|]. split; [done|]. split; [done|]. exists id_oracle, id_oracle, rl_1, rl_2.
    destruct rl_ok as (H1 & H2 & H3 & H4 & H5 & H6). do 6 (split; [done|]). intros k k' Hk.
    destruct (HK k k' Hk) as (-> & -> & Hu). split; [done|]. exact rl_alike. }
  assert (Hone : forall k k', at_once (rl_a rl_1 rl_q1) (rl_a rl_2 rl_q2) k k' ->
     mki_key k = rl_q1 /\ mki_key k' = rl_q2 /\ forall p, same_use p k k').
  { intros k k' ([|n] & Hk & Hk'); [|done]. injection Hk as <-. injection Hk' as <-.
    split; [done|]. split; [done|]. intros p. split; [done|]. split; [done|]. split; [done|]. by destruct p. }
  intros pms pms'. split; [|split; [|split]].
  - constructor; [|constructor]. by apply HK.
  - constructor; [|constructor]. apply HK. intros k k' (n & a & b & Ha & Hb & _ & Hab).
    destruct n as [|n]; [|done]. injection Ha as <-. injection Hb as <-. by apply Hone.
  - destruct (streaming_get_matching Debug first_mtb first_tb (tw_store rl_1 1) rl_q1 tw_opts0 10) as [[|m ms]| | |] eqn:E;
      vm_compute in E; try discriminate. exists m, ms. split; [done|]. injection E as <- <-. done.
  - vm_compute. discriminate.
Qed.
Example C87_renumber_ex :
  let ids := [7; 30; 8; 2; 5; 5; 5; 5; 5; 4] in
  exists b', renumber (run rl_1) ids = (Ok tt, b') /\ Forall (fun n => n < 2 ^ 32 - 1) ids /\
    built id_oracle (with_final_ids ids rl_1) (tw_store (with_final_ids ids rl_1) 1) /\ ids !! N.to_nat 3 = Some 2 /\
    (forall y l, is_Some (written rl_1 !! (y, l)) -> ids !! N.to_nat y = Some 2 -> y = 3).
Proof.
  intros ids. exists (renumber (run rl_1) ids).2. split; [vm_compute; reflexivity|].
  split; [repeat constructor; vm_compute; reflexivity|]. split; [apply built_run; vm_compute; reflexivity|].
  split; [reflexivity|]. intros y l [es Hw] Hy. apply rl_written_1 in Hw as [E|[E|E]]; injection E as -> -> ->; done.
Qed.

(** The order of the names counts when records are dropped: of two records that begin
    with entries that differ in the phrase hash alone the one with the smaller name is kept. *)
Definition rl_e3 : grid_entry := GridEntry f_one 7 3 5 11 3.
Definition rl_3 : list op := [OpInsert (1, 1) [ex_e1]; OpInsert (2, 1) [rl_e3]].
Definition rl_4 : list op := [OpInsert (2, 1) [ex_e1]; OpInsert (1, 1) [rl_e3]].
Theorem C87_order_refuted :
  exists f ops ops' s s' q, history_ok ops /\ history_ok ops' /\ no_empty_compact ops /\ no_empty_compact ops' /\
    built id_oracle ops s /\ built id_oracle ops' s' /\ st_radius s = st_radius s' /\
    query_ok ops (mk_phrase q) /\ query_ok ops' (mk_phrase q) /\
    from_singles ops (mk_phrase q) /\ from_singles ops' (mk_phrase q) /\ same_content f q q ops ops' /\
    exists p mtb tb opts max,
      streaming_get_matching p mtb tb s q opts max <> streaming_get_matching p mtb tb s' q opts max.
Proof.
  assert (W : forall ops e1 e2 x l es, ops = [OpInsert (1, 1) [e1]; OpInsert (2, 1) [e2]] \/ ops = [OpInsert (2, 1) [e2]; OpInsert (1, 1) [e1]] ->
    written ops !! (x, l) = Some es -> (x, l, es) = (1, 1, [e1]) \/ (x, l, es) = (2, 1, [e2])).
  { intros ops e1 e2 x l es Ho H. destruct (decide ((x, l) = (1, 1))) as [E|E1]; [|destruct (decide ((x, l) = (2, 1))) as [E|E2]].
    - injection E as -> ->. left. destruct Ho as [-> | ->]; unfold written in H; cbn [foldl written_step] in H;
        rewrite ?lookup_insert in H; [rewrite lookup_insert_ne in H by done; rewrite lookup_insert in H|]; by injection H as <-.
    - injection E as -> ->. right. destruct Ho as [-> | ->]; unfold written in H; cbn [foldl written_step] in H;
        rewrite ?lookup_insert in H; [|rewrite lookup_insert_ne in H by done; rewrite lookup_insert in H]; by injection H as <-.
    - exfalso. destruct Ho as [-> | ->]; unfold written in H; cbn [foldl written_step] in H;
        rewrite !lookup_insert_ne in H by congruence; by rewrite lookup_empty in H. }
  exists (fun x => 3 - x), rl_3, rl_4, (tw_store rl_3 1), (tw_store rl_4 1), (MatchKey (Range 0 9) 1).
  split; [apply history_okb_ok; vm_compute; done|]. split; [apply history_okb_ok; vm_compute; done|].
  split; [intros k r s i h H; unfold rl_3, rl_4 in H; rewrite !elem_of_cons, elem_of_nil in H; naive_solver|].
  split; [intros k r s i h H; unfold rl_3, rl_4 in H; rewrite !elem_of_cons, elem_of_nil in H; naive_solver|].
  split; [apply built_run; vm_compute; reflexivity|]. split; [apply built_run; vm_compute; reflexivity|]. split; [done|].
  split; [split; [done|]; intros H; by apply elem_of_nil in H|]. split; [split; [done|]; intros H; by apply elem_of_nil in H|].
  split; [intros [H _]; by apply elem_of_nil in H|]. split; [intros [H _]; by apply elem_of_nil in H|]. split.
  - constructor; [| |done].
    + intros x l es _ Hw. apply (W rl_3 ex_e1 rl_e3 x l es ltac:(by left)) in Hw.
      destruct Hw as [E|E]; injection E as -> -> ->; (split; [done|]); [exists [ex_e1]|exists [rl_e3]]; (split; [vm_compute; reflexivity|done]).
    + intros x l es _ Hw. apply (W rl_4 rl_e3 ex_e1 x l es ltac:(by right)) in Hw.
      destruct Hw as [E|E]; injection E as -> -> ->; [exists 2, [rl_e3]|exists 1, [ex_e1]]; (split; [done|]); (split; [done|vm_compute; reflexivity]).
  - exists Debug, first_mtb, first_tb, tw_opts0, 1. vm_compute. discriminate.
Qed.
Print Assumptions C87_order_refuted.
