(** Property C90: a query is a merge of what its records hold. *)
From Verif Require Import Prelude Lists F64 Heap Common Spatial Builder Store Spec Spec_match Spec_frame Spec_merge
  Cmp_proofs Queue_proofs Merge_proofs Match_proofs Query_proofs Binquery_proofs Store_proofs History_proofs Examples Props_match.
From Coq Require Import ZifyBool Sorting.Sorted.
Local Open Scope N_scope.

Lemma beats_cmp a b : beats a b <-> match_cmp a b = Gt.
Proof.
  unfold beats, match_cmp, cmp_then. cbn zeta.
  destruct (ord_cmp (ge_relev (me_entry a)) (ge_relev (me_entry b))).
  2, 3: split; [intros [?|[? _]]; congruence|auto; congruence].
  destruct (ord_cmp (me_scoredist a) (me_scoredist b)).
  2, 3: split; [intros [?|[_ [?|[? _]]]]; congruence|auto; congruence].
  destruct (me_lang a), (me_lang b); cbn [cmp_bool].
  2, 3: split; [|auto 10; congruence]; intros [?|[_ [?|[_ [[? ?]|[? _]]]]]]; congruence.
  all: destruct (N.compare_spec (ge_x (me_entry a)) (ge_x (me_entry b)));
    [destruct (N.compare_spec (ge_y (me_entry a)) (ge_y (me_entry b)));
      [destruct (N.compare_spec (ge_id (me_entry a)) (ge_id (me_entry b)))|..]|..].
  all: split; [|auto 20; congruence]; intros [?|[_ [?|[_ [[? ?]|[_ [?|[? [?|[? ?]]]]]]]]]]; try congruence; lia.
Qed.
Lemma not_beats a b : ~ beats a b <-> match_cmp a b <> Gt.
Proof. by rewrite beats_cmp. Qed.
Lemma tied_cmp a b : tied a b <-> match_cmp a b = Eq.
Proof.
  unfold tied. rewrite !not_beats. split.
  - intros [H1 H2]. destruct (match_cmp a b) eqn:E; [done| |done]. apply (tc_gt_lt _ total_cmp_match) in E as ?. done.
  - intros E. rewrite E. split; [done|]. apply (tc_eq_sym _ total_cmp_match) in E. by rewrite E.
Qed.

(** ** The queue is a merge *)
Lemma merges_perm ss ss' out : ss ≡ₚ ss' -> merges ss out -> merges ss' out.
Proof.
  intros Hp H. destruct H as [ss Hs|ss a s rest out Hss Hb H].
  - constructor. intros l Hl. apply Hs. by rewrite Hp.
  - econstructor; [by rewrite <- Hp| |exact H]. intros b t Hin. apply (Hb b t). by rewrite Hp.
Qed.
Lemma merges_nil ss out : merges ss out -> merges ([] :: ss) out.
Proof.
  induction 1 as [ss Hs|ss a s rest out Hss Hb H IH].
  - constructor. intros l Hl. apply elem_of_cons in Hl as [->|Hl]; [done|by apply Hs].
  - apply (merge_take _ a s ([] :: rest)).
    + rewrite Hss. apply Permutation_swap.
    + intros b t Hin. apply elem_of_cons in Hin as [?|Hin]; [done|by apply (Hb b t)].
    + eapply merges_perm; [apply Permutation_swap|exact IH].
Qed.
Lemma delete_insert_list {A} (l : list A) i x : delete i (<[i := x]> l) = delete i l.
Proof. revert i. induction l as [|y l IH]; intros [|i]; simpl; [done..|]. by rewrite IH. Qed.
Lemma drain_merges tb fuel : forall q,
  (length (mjoin (streams q)) <= fuel)%nat -> merges (streams q) (drain_queue tb fuel q).
Proof.
  induction fuel as [|fuel IH]; intros q Hl; cbn [drain_queue].
  - constructor. intros l Hin. destruct l as [|a l]; [done|exfalso]. assert (Ha : a ∈ mjoin (streams q)) by (apply elem_of_mjoin; exists (a :: l); split; [left|done]).
    destruct (mjoin (streams q)); [by apply elem_of_nil in Ha|simpl in Hl; lia].
  - destruct (hp_max_idx queue_cmp tb q) as [i|] eqn:Hi.
    2:{ destruct (decide (hp_items q = [])) as [E|E]; [|by destruct (hp_max_idx_some queue_cmp total_cmp_queue tb q E) as [i Hi']; congruence].
        unfold streams. rewrite E. constructor. intros l H. by apply elem_of_nil in H. }
    destruct (hp_max_idx_ok queue_cmp tb q i Hi) as ([e rest] & Ha & Hmax). rewrite Ha.
    assert (Hs : streams q !! i = Some (e :: rest)).
    { unfold streams. rewrite list_lookup_fmap, Ha. done. }
    assert (Hb : forall b t, b :: t ∈ streams q -> ~ beats b e).
    { intros b t Hin. apply elem_of_list_fmap in Hin as ([b' t'] & E & Hin). injection E as <- <-.
      rewrite Forall_forall in Hmax. apply not_beats. exact (Hmax (b, t) Hin). }
    pose proof (mjoin_insert (streams q) i e rest Hs) as Hp.
    pose proof (delete_Permutation _ _ _ Hs) as Hd.
    destruct rest as [|e' rest].
    + apply (merge_take _ e [] (delete i (streams q))); [done..|].
      assert (Hs' : delete i (streams q) = streams (hp_remove q i)).
      { unfold streams. cbn [hp_remove hp_items]. clear. revert i.
        induction (hp_items q) as [|x l IH]; intros [|i]; simpl; [done..|]. by rewrite IH. }
      rewrite Hs'. assert (Hj : mjoin (<[i:=[]]> (streams q)) = mjoin (streams (hp_remove q i))).
      { rewrite <- Hs'. clear. revert i. induction (streams q) as [|x l IH]; intros [|i]; simpl; [done..|]. by rewrite IH. }
      rewrite Hj in Hp. assert (Hl' : (length (mjoin (streams (hp_remove q i))) <= fuel)%nat) by (apply Permutation_length in Hp; simpl in Hp; lia).
      apply merges_nil. by apply IH.
    + apply (merge_take _ e (e' :: rest) (delete i (streams q))); [done..|].
      assert (Hs' : <[i:=e' :: rest]> (streams q) = streams (hp_replace q i (e', rest))).
      { unfold streams. cbn [hp_replace hp_items]. symmetry. exact (list_fmap_insert stream_of (hp_items q) i (e', rest)). }
      rewrite Hs' in Hp. assert (Hl' : (length (mjoin (streams (hp_replace q i (e', rest)))) <= fuel)%nat) by (apply Permutation_length in Hp; simpl in Hp; lia).
      apply (merges_perm (streams (hp_replace q i (e', rest)))); [|by apply IH]. rewrite <- Hs'.
      assert (Hin : <[i:=e' :: rest]> (streams q) !! i = Some (e' :: rest)) by (apply list_lookup_insert; by eapply lookup_lt_Some).
      rewrite (delete_Permutation _ _ _ Hin). rewrite delete_insert_list. done.
Qed.

(** Without a limit in the way, and with. *)
Lemma run_merges tb max ess : 1 <= max ->
  exists q kept dropped, res_foldl (q_push tb max) hp_empty ess = Ok q /\ best_begun max ess kept dropped /\
    merges kept (drain_queue tb (queue_size q) q).
Proof.
  intros Hmax. destruct (q_fold_inv tb max ess Hmax hp_empty [] [] (queue_inv_empty max)) as (q & dropped & E & Hp & Hlen & Hfull & Hle).
  exists q, (streams q), dropped. split; [done|]. split; [|by apply drain_merges; rewrite queue_size_streams].
  assert (El : N.of_nat (length (streams q)) = hp_len q) by (unfold streams, hp_len; by rewrite map_length).
  split; [exact Hp|]. rewrite El. split; [done|]. split; [done|]. intros a s b t Ha Hb. apply not_beats. by eapply Hle.
Qed.

(** ** What is determined *)
(** No two of the matches are tied. *)
Definition no_ties (l : list match_entry) : Prop := NoDup l /\ forall a b, a ∈ l -> b ∈ l -> tied a b -> a = b.
Lemma no_ties_perm l l' : l ≡ₚ l' -> no_ties l -> no_ties l'.
Proof. intros Hp [H1 H2]. split; [by rewrite <- Hp|]. intros a b Ha Hb. apply H2; by rewrite Hp. Qed.
Lemma same_stream (ss : list (list match_entry)) a s s' : NoDup (mjoin ss) -> a :: s ∈ ss -> a :: s' ∈ ss -> s = s'.
Proof.
  induction ss as [|l ss IH]; intros Hnd H H'; [by apply elem_of_nil in H|].
  change (mjoin (l :: ss)) with (l ++ mjoin ss) in Hnd. apply NoDup_app in Hnd as (_ & Hd & Hnd).
  apply elem_of_cons in H as [<-|H]; apply elem_of_cons in H' as [E|H'].
  - congruence.
  - exfalso. apply (Hd a); [left|]. apply elem_of_mjoin. exists (a :: s'). split; [left|done].
  - subst l. exfalso. apply (Hd a); [left|]. apply elem_of_mjoin. exists (a :: s). split; [left|done].
  - by apply IH.
Qed.
Lemma mjoin_elem_head (ss : list (list match_entry)) a s : a :: s ∈ ss -> a ∈ mjoin ss.
Proof. intros H. apply elem_of_mjoin. exists (a :: s). split; [left|done]. Qed.
Lemma mjoin_cons_perm (ss rest : list (list match_entry)) a s : ss ≡ₚ (a :: s) :: rest -> mjoin ss ≡ₚ a :: mjoin (s :: rest).
Proof. intros H. by rewrite (mjoin_perm _ _ H). Qed.
Lemma merges_inv ss out : merges ss out -> (forall l, l ∈ ss -> l = []) /\ out = [] \/
  exists a s rest out', out = a :: out' /\ ss ≡ₚ (a :: s) :: rest /\ (forall b t, b :: t ∈ ss -> ~ beats b a) /\ merges (s :: rest) out'.
Proof. intros [ss' Hs|ss' a s rest out' Hss Hb H]; [by left|right]. by exists a, s, rest, out'. Qed.
Lemma front_perm {A} (x : A) U C D rest rest' : rest' ≡ₚ rest ++ D -> rest ≡ₚ U ++ C -> x :: rest' ≡ₚ U ++ (x :: C) ++ D.
Proof. intros -> ->. rewrite <- app_assoc. by rewrite Permutation_middle. Qed.
(** The streams [D] begin with something that the streams [U] beat: as long as one of [U] is
    left, the merge with [D] is that without. *)
Lemma merges_prefix n : forall U C D out full,
  (n <= length U)%nat -> (forall l, l ∈ U -> l <> []) ->
  (forall a s b t, a :: s ∈ D -> b :: t ∈ U -> beats b a) ->
  no_ties (mjoin (U ++ C ++ D)) -> merges (U ++ C) out -> merges (U ++ C ++ D) full -> take n out = take n full.
Proof.
  induction n as [|n IH]; intros U C D out full Hn Hne Hbeat Hties Ho Hf; [done|].
  destruct U as [|u U]; [simpl in Hn; lia|]. destruct u as [|u us]; [by destruct (Hne []); [left|]|].
  set (US := (u :: us) :: U) in *.
  assert (Hu : u :: us ∈ US) by left.
  apply merges_inv in Ho as [[Hs _]|(a & s & rest & out' & -> & Hss & Hb & Ho)]; [exfalso; by specialize (Hs (u :: us) ltac:(apply elem_of_app; by left))|].
  remember (US ++ C ++ D) as all eqn:Eall.
  apply merges_inv in Hf as [[Hs _]|(a' & s' & rest' & full' & -> & Hss' & Hb' & Hf)]; [exfalso; specialize (Hs (u :: us)); rewrite Eall in Hs; by specialize (Hs ltac:(apply elem_of_app; by left))|].
  assert (Ha : a :: s ∈ US ++ C) by (rewrite Hss; left). assert (Ha' : a' :: s' ∈ all) by (rewrite Hss'; left).
  assert (Haall : a :: s ∈ all) by (rewrite Eall, app_assoc; apply elem_of_app; by left).
  assert (Ha'' : a' :: s' ∈ US ++ C).
  { rewrite Eall, app_assoc in Ha'. apply elem_of_app in Ha' as [?|HD]; [done|exfalso].
    apply (Hb' u us); [rewrite Eall; apply elem_of_app; by left|]. by eapply Hbeat. }
  assert (a = a') as <-.
  { apply Hties; [by eapply mjoin_elem_head..|]. split; [by eapply Hb'|by eapply Hb]. }
  assert (s = s') as <- by (eapply same_stream; [apply Hties|done..]).
  cbn [take]. f_equal.
  assert (Hrest : rest' ≡ₚ rest ++ D).
  { apply (Permutation_cons_inv (a := a :: s)). rewrite <- Hss', Eall, app_assoc, Hss. done. }
  assert (Hties' : no_ties (mjoin (s :: rest'))).
  { destruct (no_ties_perm _ _ (mjoin_cons_perm _ _ _ _ Hss') Hties) as [N1 N2]. split; [by inversion N1|].
    intros x y Hx Hy. apply N2; by right. }
  apply elem_of_app in Ha as [Ha|Ha].
  - apply elem_of_Permutation in Ha as [U' HU].
    assert (Hr : rest ≡ₚ U' ++ C). { apply (Permutation_cons_inv (a := a :: s)). rewrite <- Hss, HU. done. }
    apply (IH U' (s :: C) D).
    + apply Permutation_length in HU. simpl in HU, Hn. unfold US in HU. simpl in HU. lia.
    + intros l Hl. apply Hne. rewrite HU. by right.
    + intros x xs y ys Hx Hy. eapply Hbeat; [exact Hx|]. rewrite HU. right. exact Hy.
    + eapply no_ties_perm; [|exact Hties']. apply mjoin_perm. by apply (front_perm _ _ _ _ rest).
    + eapply merges_perm; [|exact Ho]. rewrite Hr. by rewrite Permutation_middle.
    + eapply merges_perm; [|exact Hf]. by apply (front_perm _ _ _ _ rest).
  - apply elem_of_Permutation in Ha as [C' HC].
    assert (Hr : rest ≡ₚ US ++ C'). { apply (Permutation_cons_inv (a := a :: s)). rewrite <- Hss, HC. by rewrite Permutation_middle. }
    apply (IH US (s :: C') D).
    + unfold US in *. simpl in *. lia.
    + done.
    + done.
    + eapply no_ties_perm; [|exact Hties']. apply mjoin_perm. by apply (front_perm _ _ _ _ rest).
    + eapply merges_perm; [|exact Ho]. rewrite Hr. by rewrite Permutation_middle.
    + eapply merges_perm; [|exact Hf]. by apply (front_perm _ _ _ _ rest).
Qed.
Lemma merges_unique : forall ss out out', no_ties (mjoin ss) -> merges ss out -> merges ss out' -> out = out'.
Proof.
  intros ss out out' Ht H. revert out' Ht. induction H as [ss Hs|ss a s rest out Hss Hb H IH]; intros out' Ht H'.
  - apply merges_inv in H' as [[_ ->]|(a & s & rest & out & -> & Hss & Hb & H)]; [done|]. exfalso. assert (Ha : a :: s ∈ ss) by (rewrite Hss; left). by specialize (Hs _ Ha).
  - apply merges_inv in H' as [[Hs _]|(a' & s' & rest' & out'' & -> & Hss' & Hb' & H')].
    { exfalso. assert (Ha : a :: s ∈ ss) by (rewrite Hss; left). by specialize (Hs _ Ha). }
    assert (Ha : a :: s ∈ ss) by (rewrite Hss; left). assert (Ha' : a' :: s' ∈ ss) by (rewrite Hss'; left).
    assert (a = a') as <-. { apply Ht; [by eapply mjoin_elem_head..|]. split; [by eapply Hb'|by eapply Hb]. }
    assert (s = s') as <- by (eapply same_stream; [apply Ht|done..]). f_equal.
    assert (Hr : rest' ≡ₚ rest) by (apply (Permutation_cons_inv (a := a :: s)); by rewrite <- Hss, <- Hss').
    apply IH; [|by eapply merges_perm; [|exact H']; rewrite Hr].
    destruct (no_ties_perm _ _ (mjoin_cons_perm _ _ _ _ Hss) Ht) as [N1 N2]. split; [by inversion N1|]. intros x y Hx Hy. apply N2; by right.
Qed.

(** ** C90 A query is a merge of what its records hold *)
(** Answered from the individual records: there is one list for each selected record, with its
    matches and no others, the same for every limit and every way of breaking ties. The query
    keeps the [max] lists that begin best, and merges them. *)
Theorem C90_merge :
  forall p mtb o ops s k opts kvs,
  history_ok ops -> built o ops s -> opts_ok p opts (st_radius s) ->
  query_ok ops (mk_phrase k) -> ~ bin_query ops (mk_phrase k) -> iter s = Ok kvs ->
  exists ess,
    Forall2 (fun kv es => es ≡ₚ record_matches k opts (st_radius s) kv)
      (List.filter (fun kv => phrase_sel (mk_phrase k) kv.1.1) kvs) ess /\
    forall tb max, 1 <= max -> exists kept dropped out,
      best_begun max ess kept dropped /\ streaming_get_matching p mtb tb s k opts max = Ok out /\ merges kept out.
Proof.
  intros p mtb o ops s k opts kvs Hh Hb Ho Hq Hbq Hi.
  destruct (plain_streams_all p mtb o ops s k opts kvs Hh Hb Ho (plain_query_ok o ops s _ Hh Hb Hq Hbq) Hi) as (ess & HF & Hrun).
  exists ess. split.
  - eapply Forall2_impl; [exact HF|]. by intros kv es [H _].
  - intros tb max Hmax. destruct (run_merges tb max ess Hmax) as (q & kept & dropped & E & Hbest & Hm).
    exists kept, dropped, (drain_queue tb (queue_size q) q). rewrite Hrun, E. done.
Qed.
Print Assumptions C90_merge.

Lemma streams_merge p mtb o ops s k opts :
  history_ok ops -> built o ops s -> opts_ok p opts (st_radius s) -> query_ok ops (mk_phrase k) ->
  exists ess, (length ess <= size (written ops))%nat /\
    forall tb max out, 1 <= max -> streaming_get_matching p mtb tb s k opts max = Ok out ->
      exists kept dropped, best_begun max ess kept dropped /\ merges kept out.
Proof.
  intros Hh Hb Ho Hq. destruct (query_streams_all p mtb o ops s k opts Hh Hb Ho Hq) as (ess & _ & Hl & _ & Hrun).
  exists ess. split; [done|]. intros tb max out Hmax E.
  destruct (run_merges tb max ess Hmax) as (q & kept & dropped & Eq & Hbest & Hm).
  rewrite Hrun, Eq in E. cbn [res_bind] in E. injection E as <-. eauto.
Qed.
Lemma best_all max ess kept dropped : N.of_nat (length ess) <= max -> best_begun max ess kept dropped -> dropped = [].
Proof.
  intros Hl (Hp & _ & Hfull & _). destruct dropped as [|d ds]; [done|exfalso]. specialize (Hfull ltac:(done)).
  apply Permutation_length in Hp. rewrite app_length in Hp. simpl in Hp.
  pose proof (filter_length_le (fun l : list match_entry => match l with [] => false | _ => true end) ess). lia.
Qed.
Lemma best_begun_nonempty max ess kept dropped l : best_begun max ess kept dropped -> l ∈ kept -> l <> [].
Proof.
  intros (Hp & _) Hl ->. assert (H : [] ∈ kept ++ dropped) by (apply elem_of_app; by left). rewrite Hp in H.
  apply elem_of_list_In, filter_In in H as [_ H]. done.
Qed.
Lemma merges_join ss out : merges ss out -> out ≡ₚ mjoin ss.
Proof.
  induction 1 as [ss Hs|ss a s rest out Hss Hb H IH].
  - induction ss as [|l ss IH]; [done|]. assert (l = []) as -> by (apply Hs; left). apply IH. intros l Hl. apply Hs. by right.
  - rewrite (mjoin_cons_perm _ _ _ _ Hss). by constructor.
Qed.

(** What comes first depends neither on the limit nor on how ties are broken, up to a tie:
    bins or not, proximity point or not. *)
Theorem C90_first :
  forall p mtb tb tb' o ops s k opts max max' out out',
  history_ok ops -> built o ops s -> opts_ok p opts (st_radius s) -> query_ok ops (mk_phrase k) ->
  1 <= max -> 1 <= max' ->
  streaming_get_matching p mtb tb s k opts max = Ok out ->
  streaming_get_matching p mtb tb' s k opts max' = Ok out' ->
  match out, out' with a :: _, a' :: _ => tied a a' | [], [] => True | _, _ => False end.
Proof.
  intros p mtb tb tb' o ops s k opts max max' out out' Hh Hb Ho Hq H1 H1' E E'.
  destruct (streams_merge p mtb o ops s k opts Hh Hb Ho Hq) as (ess & _ & Hrun).
  destruct (Hrun tb max out H1 E) as (kept & dropped & Hbest & Hm).
  destruct (Hrun tb' max' out' H1' E') as (kept' & dropped' & Hbest' & Hm'). clear E E' Hrun.
  assert (Hkey : forall max out kept dropped, 1 <= max -> best_begun max ess kept dropped -> merges kept out ->
    match out with a :: _ => (exists s, a :: s ∈ ess) /\ forall b t, b :: t ∈ ess -> ~ beats b a
    | [] => forall b t, b :: t ∈ ess -> False end).
  { clear. intros max out kept dropped Hmax Hbest Hm. pose proof Hbest as (Hp & Hlen & Hfull & Hbeat).
    assert (Hin : forall b t, b :: t ∈ ess <-> b :: t ∈ kept \/ b :: t ∈ dropped).
    { intros b t. rewrite <- elem_of_app, Hp, !elem_of_list_In, filter_In. tauto. }
    apply merges_inv in Hm as [[Hs ->]|(a & s & rest & out' & -> & Hss & Hb & _)].
    - intros b t H. apply Hin in H as [H|H]; [by specialize (Hs _ H)|].
      destruct kept as [|l kept]; [|destruct (best_begun_nonempty _ _ _ _ l Hbest ltac:(left)); apply Hs; left].
      assert (N.of_nat (length (@nil (list match_entry))) = max) by (apply Hfull; by intros ->; apply elem_of_nil in H). simpl in *. lia.
    - assert (Ha : a :: s ∈ kept) by (rewrite Hss; left). split; [exists s; apply Hin; by left|].
      intros b t H. apply Hin in H as [H|H]; [by eapply Hb|by eapply Hbeat]. }
  pose proof (Hkey _ _ _ _ H1 Hbest Hm) as K. pose proof (Hkey _ _ _ _ H1' Hbest' Hm') as K'.
  destruct out as [|a out], out' as [|a' out']; [done|..].
  - destruct K' as [[t H] _]. by eapply K.
  - destruct K as [[t H] _]. by eapply K'.
  - destruct K as [[t H] K], K' as [[t' H'] K']. split; [by eapply K'|by eapply K].
Qed.
Print Assumptions C90_first.

(** If no two matches are tied, the limit does not change the beginning, as long as itself:
    bins or not, proximity point or not, and whatever breaks ties. *)
Theorem C90_prefix :
  forall p mtb tb tb' o ops s k opts max max' out full,
  history_ok ops -> built o ops s -> opts_ok p opts (st_radius s) -> query_ok ops (mk_phrase k) ->
  1 <= max -> 1 <= max' -> N.of_nat (size (written ops)) <= max' ->
  streaming_get_matching p mtb tb s k opts max = Ok out ->
  streaming_get_matching p mtb tb' s k opts max' = Ok full ->
  NoDup full -> (forall a b, a ∈ full -> b ∈ full -> tied a b -> a = b) ->
  take (N.to_nat max) out = take (N.to_nat max) full.
Proof.
  intros p mtb tb tb' o ops s k opts max max' out full Hh Hb Ho Hq H1 H1' Hsz E E' Hnd Hties.
  destruct (streams_merge p mtb o ops s k opts Hh Hb Ho Hq) as (ess & Hlen & Hrun).
  destruct (Hrun tb max out H1 E) as (kept & dropped & Hbest & Hm).
  destruct (Hrun tb' max' full H1' E') as (all & none & Hbest' & Hm'). clear E E' Hrun.
  assert (none = []) as -> by (apply (best_all max' ess all); [lia|done]).
  assert (Hall : all ≡ₚ kept ++ dropped).
  { destruct Hbest as (Hp & _), Hbest' as (Hp' & _). rewrite app_nil_r in Hp'. by rewrite Hp, Hp'. }
  apply (merges_perm _ _ _ Hall) in Hm'.
  assert (Hnt : no_ties (mjoin (kept ++ dropped))) by (apply (no_ties_perm full); [by apply merges_join|by split]).
  destruct (decide (dropped = [])) as [->|Hd].
  { rewrite app_nil_r in *. f_equal. by eapply merges_unique. }
  assert (Hk : N.of_nat (length kept) = max) by (destruct Hbest as (_ & _ & Hf & _); by apply Hf).
  apply (merges_prefix _ kept [] dropped).
  - lia.
  - intros l. by apply (best_begun_nonempty max ess kept dropped).
  - intros a t b u Ha Hb'. destruct Hbest as (_ & _ & _ & Hbeat). specialize (Hbeat a t b u Ha Hb').
    assert (Hab : a <> b).
    { intros ->. destruct Hnt as [Hn _]. rewrite mjoin_app2 in Hn. apply NoDup_app in Hn as (_ & Hn & _).
      apply (Hn b); by eapply mjoin_elem_head. }
    apply beats_cmp. destruct (match_cmp b a) eqn:Ec; [| |done]; exfalso.
    + apply Hab. symmetry. apply Hnt; [eapply mjoin_elem_head; apply elem_of_app; eauto..|by apply tied_cmp].
    + apply Hbeat, beats_cmp. by apply (tc_gt_lt _ total_cmp_match).
  - done.
  - by rewrite app_nil_r.
  - done.
Qed.
Print Assumptions C90_prefix.

(** Refuted: that the matches left out by a limit are no better than those returned. With a
    proximity point a record is measured by the match that comes first in its own order, the
    nearest by Z-order value, and may be dropped though it also holds the best match of all. *)
Definition ex_drop_ops : list op :=
  [OpInsert (1, 1) [GridEntry f_one 7 7 7 1 1; GridEntry f_one 7 11 11 2 1];
   OpInsert (2, 1) [GridEntry f_one 7 10 10 3 1]].
Definition ex_drop_key : match_key := MatchKey (Range 1 3) 1.
Definition ex_drop_opts : match_opts := MatchOpts None (Some (8, 8)) 14.
Definition beatsb (a b : match_entry) : bool := match match_cmp a b with Gt => true | _ => false end.
Lemma beatsb_ok a b : beatsb a b = true <-> beats a b.
Proof. rewrite beats_cmp. unfold beatsb. destruct (match_cmp a b); split; congruence. Qed.
Lemma ex_drop_ok : history_ok ex_drop_ops /\ built id_oracle ex_drop_ops (ex_store ex_drop_ops) /\
  opts_ok Debug ex_drop_opts (st_radius (ex_store ex_drop_ops)) /\ query_ok ex_drop_ops (mk_phrase ex_drop_key).
Proof.
  split; [apply history_okb_ok; vm_compute; done|].
  split; [apply built_run; vm_compute; reflexivity|].
  split; [split; [done|]; cbn; split; [lia|split; [lia|vm_compute; done]]|].
  cbn. split; [lia|]. change (loaded ex_drop_ops) with (@nil N). intros H. by apply elem_of_nil in H.
Qed.
Definition ok_list {A} (r : res (list A)) : list A := match r with Ok l => l | _ => [] end.
Definition ex_drop_run (max : N) : list match_entry :=
  ok_list (streaming_get_matching Debug first_mtb first_tb (ex_store ex_drop_ops) ex_drop_key ex_drop_opts max).
Lemma ex_drop_run1 : streaming_get_matching Debug first_mtb first_tb (ex_store ex_drop_ops) ex_drop_key ex_drop_opts 1 = Ok (ex_drop_run 1).
Proof. vm_compute. reflexivity. Qed.
Lemma ex_drop_run10 : streaming_get_matching Debug first_mtb first_tb (ex_store ex_drop_ops) ex_drop_key ex_drop_opts 10 = Ok (ex_drop_run 10).
Proof. vm_compute. reflexivity. Qed.
Lemma ex_drop_full : exists a b c, ex_drop_run 10 = [a; b; c] /\ ex_drop_run 1 = [a] /\ beats c a /\ c <> a /\
  map xy_id [a; b; c] = [(10, 10, 3); (11, 11, 2); (7, 7, 1)] /\ match_cmp a b = Gt /\ match_cmp c b = Gt.
Proof.
  destruct (ex_drop_run 10) as [|a [|b [|c [|? ?]]]] eqn:E; try (vm_compute in E; discriminate).
  exists a, b, c. vm_compute in E. injection E as <- <- <-. split; [done|]. split; [vm_compute; reflexivity|].
  split; [apply beatsb_ok; vm_compute; done|]. split; [discriminate|]. split; [done|]. split; vm_compute; done.
Qed.
Theorem C90_best_refuted :
  exists ops s k opts out full m,
    history_ok ops /\ built id_oracle ops s /\ opts_ok Debug opts (st_radius s) /\ query_ok ops (mk_phrase k) /\
    streaming_get_matching Debug first_mtb first_tb s k opts 1 = Ok out /\
    streaming_get_matching Debug first_mtb first_tb s k opts 10 = Ok full /\
    m ∈ full /\ m ∉ out /\ out <> [] /\ forall a, a ∈ out -> beats m a.
Proof.
  destruct ex_drop_full as (a & b & c & E & E' & Hb & Hne & _). destruct ex_drop_ok as (H1 & H2 & H3 & H4).
  exists ex_drop_ops, (ex_store ex_drop_ops), ex_drop_key, ex_drop_opts, (ex_drop_run 1), (ex_drop_run 10), c.
  split; [exact H1|]. split; [exact H2|]. split; [exact H3|]. split; [exact H4|].
  split; [exact ex_drop_run1|]. split; [exact ex_drop_run10|]. rewrite E, E'. clear -Hb Hne.
  split; [rewrite !elem_of_cons; auto|]. split; [by rewrite elem_of_list_singleton|]. split; [done|].
  intros x Hx. by apply elem_of_list_singleton in Hx as ->.
Qed.
Print Assumptions C90_best_refuted.

(** The three matches of that store, no two tied: the limit of one returns the first. *)
Example C90_ex :
  history_ok ex_drop_ops /\ built id_oracle ex_drop_ops (ex_store ex_drop_ops) /\
  opts_ok Debug ex_drop_opts (st_radius (ex_store ex_drop_ops)) /\ query_ok ex_drop_ops (mk_phrase ex_drop_key) /\
  ~ bin_query ex_drop_ops (mk_phrase ex_drop_key) /\
  (exists kvs, iter (ex_store ex_drop_ops) = Ok kvs /\ map fst kvs = [(1, 1); (2, 1)]) /\
  exists out full,
    streaming_get_matching Debug first_mtb first_tb (ex_store ex_drop_ops) ex_drop_key ex_drop_opts 1 = Ok out /\
    streaming_get_matching Debug first_mtb first_tb (ex_store ex_drop_ops) ex_drop_key ex_drop_opts 10 = Ok full /\
    map xy_id out = [(10, 10, 3)] /\ map xy_id full = [(10, 10, 3); (11, 11, 2); (7, 7, 1)] /\
    NoDup full /\ (forall a b, a ∈ full -> b ∈ full -> tied a b -> a = b).
Proof.
  destruct ex_drop_ok as (H1 & H2 & H3 & H4). split; [exact H1|]. split; [exact H2|]. split; [exact H3|]. split; [exact H4|].
  clear H1 H2 H3 H4. split.
  { change (loaded ex_drop_ops) with (@nil N). intros [H _]. by apply elem_of_nil in H. }
  split.
  { destruct (iter (ex_store ex_drop_ops)) as [kvs| | |] eqn:Ei; try (vm_compute in Ei; discriminate).
    exists kvs. split; [done|]. vm_compute in Ei. by injection Ei as <-. }
  exists (ex_drop_run 1), (ex_drop_run 10). split; [exact ex_drop_run1|]. split; [exact ex_drop_run10|].
  destruct ex_drop_full as (a & b & c & E & E' & Hb & Hne & Hid & Hab & Hcb). rewrite E, E'. clear E E'.
  apply beats_cmp in Hb. split; [cbn [map] in Hid |- *; congruence|]. split; [done|]. split.
  - assert (Hbne : b <> a /\ b <> c) by (split; intros ->; rewrite (tc_refl _ total_cmp_match) in *; discriminate).
    destruct Hbne. apply NoDup_cons; split; [rewrite !elem_of_cons, elem_of_nil; intros [?|[?|[]]]; congruence|].
    apply NoDup_cons; split; [rewrite elem_of_list_singleton; congruence|]. apply NoDup_singleton.
  - apply (tc_gt_lt _ total_cmp_match) in Hb as Hb', Hab as Hab', Hcb as Hcb'.
    intros x y Hx Hy Ht. apply tied_cmp in Ht. rewrite !elem_of_cons, elem_of_nil in Hx. rewrite !elem_of_cons, elem_of_nil in Hy.
    destruct Hx as [->|[->|[->|[]]]], Hy as [->|[->|[->|[]]]]; congruence.
Qed.
