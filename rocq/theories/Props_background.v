(** Property C96: requests in the background. *)
From Verif Require Import Prelude Lists F64 Heap Common Builder Store Spec Query Coalesce Stackable Tree Native Spec_native Native_proofs Spec_js Props_js
  Spec_coalesce Spec_ground Spec_end Props_ground Props_end Examples Session Spec_session Session_proofs Props_session Spec_flatend Spec_program Props_program
  Background Spec_background.
Local Open Scope N_scope.

Section background.
Context (p : profile) (ho : hash_oracle) (mtb : merge_tb) (tb : tiebreak).
Notation step := (bg_step p ho mtb tb).
Notation brun := (bg_run p ho mtb tb).
Definition owed (s : bg_state) : list nat := map fst (bg_waiting s) ++ map fst (bg_ready s).
Definition sound (s : bg_state) : Prop := NoDup (owed s) /\ forall n, n ∈ owed s -> (n < bg_count s)%nat.

Lemma owed_step s e s1 : step s e s1 -> sound s ->
  sound s1 /\ (bg_count s <= bg_count s1)%nat /\
  match e with
  | EvAsk _ _ _ _ (Ok n) => n = bg_count s /\ forall m, m ∈ owed s1 <-> m = n \/ m ∈ owed s
  | EvCallback n _ => n ∈ owed s /\ n ∉ owed s1 /\ forall m, m ∈ owed s <-> m = n \/ m ∈ owed s1
  | _ => forall m, m ∈ owed s1 <-> m ∈ owed s
  end.
Proof.
  intros H [Hn Hlt].
  assert (Hsame : forall s', owed s' ≡ₚ owed s -> bg_count s' = bg_count s -> sound s' /\ forall m, m ∈ owed s' <-> m ∈ owed s).
  { intros s' Hp Hc. split; [|intros m; by rewrite Hp]. split; [by rewrite Hp|]. intros m. rewrite Hp, Hc. apply Hlt. }
  destruct H as [s a r w Ha H|s stacked js o cb H|s stacked js o cb t H|s n t r bef aft Hw Hr _ _|s n r bef aft Hw].
  - destruct (Hsame (BgState w (bg_count s) (bg_waiting s) (bg_ready s))) as [? ?]; try done.
  - done.
  - assert (Hp : owed (BgState (bg_world s) (S (bg_count s)) (bg_waiting s ++ [(bg_count s, t)]) (bg_ready s)) ≡ₚ bg_count s :: owed s).
    { unfold owed. cbn [bg_waiting bg_ready]. rewrite List.map_app. cbn [map]. rewrite <- (assoc_L (++)). cbn. by rewrite Permutation_middle. }
    split; [|split; [cbn; lia|split; [done|intros m; by rewrite Hp, elem_of_cons]]]. split.
    + rewrite Hp. constructor; [|done]. intros Hin. apply Hlt in Hin. lia.
    + intros m. rewrite Hp, elem_of_cons. cbn [bg_count]. intros [->|Hm]; [lia|]. apply Hlt in Hm. lia.
  - destruct (Hsame (BgState (bg_world s) (bg_count s) (bef ++ aft) (bg_ready s ++ [(n, r)]))) as [? ?]; try done.
    unfold owed. cbn [bg_waiting bg_ready]. rewrite Hw, !List.map_app. cbn [map]. solve_Permutation.
  - assert (Hp : owed s ≡ₚ n :: owed (BgState (bg_world s) (bg_count s) (bg_waiting s) (bef ++ aft))).
    { unfold owed. cbn [bg_waiting bg_ready]. rewrite Hw, !List.map_app. cbn [map]. solve_Permutation. }
    rewrite Hp in Hn. apply NoDup_cons in Hn as [Hn1 Hn2]. split; [split; [done|]|].
    + intros m Hm. apply Hlt. rewrite Hp. by right.
    + split; [cbn; lia|]. split; [rewrite Hp; by left|]. split; [done|]. intros m. by rewrite Hp, elem_of_cons.
Qed.
Lemma owed_run s es s' : brun s es s' -> sound s -> sound s' /\ (bg_count s <= bg_count s')%nat.
Proof.
  induction 1 as [s|s e s1 es s2 Hs Hr IH]; intros Hso; [done|]. destruct (owed_step _ _ _ Hs Hso) as (H1 & H2 & _).
  destruct (IH H1) as [H3 H4]. split; [done|lia].
Qed.

(** Where an answer comes from. *)
Lemma called_from s es s' : brun s es s' -> sound s -> forall n r, called n es = Some r ->
  (bg_count s <= n)%nat \/ (n, r) ∈ bg_ready s \/ exists t, (n, t) ∈ bg_waiting s /\ perform p ho mtb tb t = r.
Proof.
  induction 1 as [s|s e s1 es s2 Hs Hr IH]; intros Hso n r Hc; [done|].
  destruct (owed_step _ _ _ Hs Hso) as (Hso1 & Hcount & _). specialize (IH Hso1 n r).
  destruct Hs as [s a r' w Ha H|s stacked js o cb H|s stacked js o cb t H|s m t r' bef aft Hw Hp _ _|s m r' bef aft Hw]; cbn [called] in Hc;
    cbn [bg_count bg_ready bg_waiting] in IH.
  - by apply IH.
  - by apply IH.
  - destruct (IH Hc) as [Hle|[Hin|(t' & Hin & E)]]; [left; lia|by right; left|].
    apply elem_of_app in Hin as [Hin|Hin]; [right; right; by exists t'|]. apply elem_of_list_singleton in Hin. injection Hin as -> _. by left.
  - destruct (IH Hc) as [Hle|[Hin|(t' & Hin & E)]]; [by left| |].
    + apply elem_of_app in Hin as [Hin|Hin]; [by right; left|]. apply elem_of_list_singleton in Hin. injection Hin as -> ->.
      right. right. exists t. split; [rewrite Hw; apply elem_of_app; right; by left|done].
    + right. right. exists t'. split; [|done]. rewrite Hw. apply elem_of_app in Hin as [Hin|Hin]; apply elem_of_app; [by left|right; by right].
  - destruct (decide (n = m)) as [->|Hne].
    + injection Hc as ->. right. left. rewrite Hw. apply elem_of_app. right. by left.
    + destruct (IH Hc) as [Hle|[Hin|(t' & Hin & E)]]; [by left| |right; right; by exists t'].
      right. left. rewrite Hw. apply elem_of_app in Hin as [Hin|Hin]; apply elem_of_app; [by left|right; by right].
Qed.
Lemma waiting_one s n t t' : sound s -> (n, t) ∈ bg_waiting s -> (n, t') ∈ bg_waiting s -> t = t'.
Proof.
  intros [Hn _] H1 H2. apply NoDup_app in Hn as (Hn & _ & _). apply elem_of_list_lookup in H1 as [i Hi]. apply elem_of_list_lookup in H2 as [j Hj].
  assert (i = j) as ->; [|congruence]. eapply NoDup_lookup; [exact Hn| |]; rewrite list_lookup_fmap; [rewrite Hi|rewrite Hj]; done.
Qed.
Lemma called_waiting s es s' n t r : brun s es s' -> sound s -> (n, t) ∈ bg_waiting s -> called n es = Some r -> perform p ho mtb tb t = r.
Proof.
  intros Hr Hso Hin Hc. pose proof Hso as [Hn Hlt].
  assert (Ho : n ∈ map fst (bg_waiting s)) by (apply elem_of_map; exists (n, t); done).
  destruct (called_from _ _ _ Hr Hso n r Hc) as [Hle|[Hin'|(t' & Hin' & E)]].
  - assert (n < bg_count s)%nat; [|lia]. apply Hlt. apply elem_of_app. by left.
  - exfalso. apply NoDup_app in Hn as (_ & Hd & _). apply (Hd n Ho). apply elem_of_map. by exists (n, r).
  - by rewrite (waiting_one s n t t').
Qed.

Lemma prepare_request w stacked js o t : prepare w stacked js o true = Ok t ->
  js_does p ho mtb tb w (Request stacked js o) = (OutContexts (perform p ho mtb tb t), w).
Proof.
  intros H. unfold prepare in H. apply bind_Ok in H as (js' & E1 & H). apply bind_Ok in H as (pms & E2 & H). apply bind_Ok in H as (o' & E3 & H).
  injection H as <-. cbn [js_does]. rewrite E1. cbn [res_bind]. unfold js_stack_and_coalesce, js_coalesce, perform. cbn [tk_stacked tk_subqueries tk_opts].
  rewrite E2, E3. by destruct stacked.
Qed.
Lemma prepare_cb w stacked js o cb t : prepare w stacked js o cb = Ok t -> cb = true.
Proof.
  intros H. unfold prepare in H. apply bind_Ok in H as (js' & E1 & H). apply bind_Ok in H as (pms & E2 & H). apply bind_Ok in H as (o' & E3 & H).
  by destruct cb.
Qed.
Lemma prepare_throws w stacked js o : prepare w stacked js o true = Err -> js_does p ho mtb tb w (Request stacked js o) = (OutContexts Err, w).
Proof.
  intros H. unfold prepare in H. cbn [js_does]. destruct (res_mapM (on_store w) js) as [js'| | |]; cbn [res_bind] in *; try done.
  unfold js_stack_and_coalesce, js_coalesce. destruct (deserialize_phrasesubq js') as [pms| | |]; cbn [res_bind] in *; try (by destruct stacked); try done.
  destruct (given o) as [o'| | |]; cbn [res_bind] in *; try (by destruct stacked); done.
Qed.
Lemma refines s es s' : brun s es s' -> sound s ->
  js_session p ho mtb tb (bg_world s) (map fst (deeds_of es)) = (map snd (deeds_of es), bg_world s').
Proof.
  induction 1 as [s|s e s1 es s2 Hs Hr IH]; intros Hso; [done|]. destruct (owed_step _ _ _ Hs Hso) as (Hso1 & _). specialize (IH Hso1).
  destruct Hs as [s a r w Ha H|s stacked js o cb H|s stacked js o cb t H|s m t r bef aft Hw Hp _ _|s m r bef aft Hw]; cbn [deeds_of];
    cbn [bg_world] in IH; try exact IH.
  - cbn [map fst snd js_session]. rewrite H. cbv zeta iota beta. by rewrite IH.
  - destruct cb; [|exact IH]. cbn [map fst snd js_session]. rewrite (prepare_throws _ _ _ _ H). by rewrite IH.
  - destruct (called (bg_count s) es) as [r|] eqn:Ec; [|exact IH]. rewrite (prepare_cb _ _ _ _ _ _ H) in H.
    cbn [map fst snd js_session]. rewrite (prepare_request _ _ _ _ _ H).
    rewrite (called_waiting _ _ _ (bg_count s) t r Hr Hso1); [by rewrite IH| |done]. cbn [bg_waiting]. apply elem_of_app. right. by left.
Qed.
End background.

Lemma sound_start : sound bg_start.
Proof. split; [constructor|]. intros n Hn. by apply elem_of_nil in Hn. Qed.

(** Whatever the order in which requests are worked on and answered, what the program sees is
    what a program sees that waits for each answer. *)
Theorem C96_refines :
  forall p ho mtb tb es s, bg_run p ho mtb tb bg_start es s ->
  js_session p ho mtb tb js_start (map fst (deeds_of es)) = (map snd (deeds_of es), bg_world s).
Proof. intros p ho mtb tb es s H. exact (refines p ho mtb tb bg_start es s H sound_start). Qed.
Print Assumptions C96_refines.

Lemma run_app p ho mtb tb s es1 es2 s' : bg_run p ho mtb tb s (es1 ++ es2) s' ->
  exists s1, bg_run p ho mtb tb s es1 s1 /\ bg_run p ho mtb tb s1 es2 s'.
Proof.
  revert s. induction es1 as [|e es1 IH]; intros s H; [exists s; split; [constructor|done]|].
  inversion H as [|? ? s0 ? ? Hs Hr]; subst. destruct (IH s0 Hr) as (s1 & H1 & H2). exists s1. split; [by econstructor|done].
Qed.
Lemma run_snoc p ho mtb tb s es1 s1 es2 s' : bg_run p ho mtb tb s es1 s1 -> bg_run p ho mtb tb s1 es2 s' -> bg_run p ho mtb tb s (es1 ++ es2) s'.
Proof. induction 1 as [|s e s0 es s1 Hs Hr IH]; intros H; [done|]. cbn. econstructor; [done|by apply IH]. Qed.
Lemma called_in n r es : called n es = Some r -> EvCallback n r ∈ es.
Proof.
  induction es as [|e es IH]; intros H; [done|]. destruct e as [a r'|st js o cb r'|m|m r']; cbn [called] in H; try (right; by apply IH).
  destruct (decide (n = m)) as [->|Hne]; [injection H as ->; by left|right; by apply IH].
Qed.
Lemma called_some n r es : EvCallback n r ∈ es -> exists r', called n es = Some r'.
Proof.
  induction es as [|e es IH]; intros H; [by apply elem_of_nil in H|].
  apply elem_of_cons in H as [<-|H]; [cbn; rewrite decide_True by done; by eexists|].
  destruct (IH H) as [r' Hr']. destruct e as [a r0|st js o cb r0|m|m r0]; cbn [called]; try (by exists r').
  destruct (decide (n = m)); [by eexists|by exists r'].
Qed.

(** No request is answered before it was made. *)
Lemma not_called_again p ho mtb tb s es s' n : bg_run p ho mtb tb s es s' -> sound s -> n ∉ owed s ->
  (forall st js o cb, EvAsk st js o cb (Ok n) ∉ es) -> forall r, EvCallback n r ∉ es.
Proof.
  induction 1 as [s|s e s1 es s2 Hs Hr IH]; intros Hso Hn Hask r Hin; [by apply elem_of_nil in Hin|].
  destruct (owed_step _ _ _ _ _ _ _ Hs Hso) as (Hso1 & _ & He).
  assert (Hask' : forall st js o cb, EvAsk st js o cb (Ok n) ∉ es) by (intros st js o cb H; apply (Hask st js o cb); by right).
  apply elem_of_cons in Hin as [<-|Hin]; [by destruct He as [? _]|].
  apply (IH Hso1) with (r := r); [|done|done]. destruct e as [a r0|st js o cb [m| | |]|m|m r0]; try (by rewrite He).
  - destruct He as [E He]. rewrite He. intros [->|H]; [|done]. apply (Hask st js o cb). by left.
  - destruct He as (_ & _ & He). intros H. apply Hn. apply He. by right.
Qed.
Lemma asked_later p ho mtb tb s es s' : bg_run p ho mtb tb s es s' -> sound s ->
  forall st js o cb n, EvAsk st js o cb (Ok n) ∈ es -> (bg_count s <= n)%nat.
Proof.
  induction 1 as [s|s e s1 es s2 Hs Hr IH]; intros Hso st js o cb n Hin; [by apply elem_of_nil in Hin|].
  destruct (owed_step _ _ _ _ _ _ _ Hs Hso) as (Hso1 & Hc & He). apply elem_of_cons in Hin as [<-|Hin]; [destruct He as [-> _]; lia|].
  specialize (IH Hso1 _ _ _ _ _ Hin). lia.
Qed.
(** Each callback belongs to one request made before, and is called once. *)
Theorem C96_once :
  forall p ho mtb tb es1 n r es2 s, bg_run p ho mtb tb bg_start (es1 ++ EvCallback n r :: es2) s ->
  (exists st js o before after, es1 = before ++ EvAsk st js o true (Ok n) :: after /\
     forall st' js' o' cb', EvAsk st' js' o' cb' (Ok n) ∉ before ++ after ++ es2) /\
  forall r', EvCallback n r' ∉ es1 /\ EvCallback n r' ∉ es2.
Proof.
  intros p ho mtb tb es1 n r es2 s H. apply run_app in H as (s1 & H1 & H2). destruct (owed_run _ _ _ _ _ _ _ H1 sound_start) as [Hs1 _].
  inversion H2 as [|? ? s2 ? ? Hst Hr2]; subst. destruct (owed_step _ _ _ _ _ _ _ Hst Hs1) as (Hs2 & Hc2 & Hin & Hnot & _).
  assert (Hlt : (n < bg_count s1)%nat) by (by apply Hs1).
  assert (Hno2 : forall st js o cb, EvAsk st js o cb (Ok n) ∉ es2).
  { intros st js o cb Ha. pose proof (asked_later _ _ _ _ _ _ _ Hr2 Hs2 _ _ _ _ _ Ha). lia. }
  assert (Hsplit : exists st js o cb before after, es1 = before ++ EvAsk st js o cb (Ok n) :: after).
  { clear -H1 Hin. assert (Hg : forall s, bg_run p ho mtb tb s es1 s1 -> sound s -> n ∉ owed s -> exists st js o cb, EvAsk st js o cb (Ok n) ∈ es1).
    { clear H1. intros s H. induction H as [s|s e s0 es s1 Hs Hr IH]; intros Hso Hn; [done|].
      destruct (owed_step _ _ _ _ _ _ _ Hs Hso) as (Hso1 & _ & He).
      assert (Hd : n ∉ owed s0 \/ exists st js o cb, e = EvAsk st js o cb (Ok n)).
      { destruct e as [a r0|st js o cb [m| | |]|m|m r0]; try (left; by rewrite He).
        - destruct He as [E He]. destruct (decide (n = m)) as [->|Hne]; [right; by eexists _, _, _, _|left]. rewrite He. by intros [?|?].
        - destruct He as (_ & _ & He). left. intros Hx. apply Hn. apply He. by right. }
      destruct Hd as [Hd|(st & js & o & cb & ->)]; [|exists st, js, o, cb; by left].
      destruct (IH Hin Hso1 Hd) as (st & js & o & cb & Ha). exists st, js, o, cb. by right. }
    destruct (Hg bg_start H1 sound_start) as (st & js & o & cb & Ha); [by intros ?%elem_of_nil|].
    apply elem_of_list_split in Ha as (before & after & ->). by exists st, js, o, cb, before, after. }
  destruct Hsplit as (st & js & o & cb & before & after & ->). apply run_app in H1 as (s3 & H3 & H4).
  destruct (owed_run _ _ _ _ _ _ _ H3 sound_start) as [Hs3 _]. inversion H4 as [|? ? s4 ? ? Hst4 Hr4]; subst.
  destruct (owed_step _ _ _ _ _ _ _ Hst4 Hs3) as (Hs4 & Hc4 & En & _).
  assert (Hcb : cb = true) by (inversion Hst4; subst; by eapply prepare_cb). subst cb.
  assert (E4 : bg_count s4 = S (bg_count s3)) by (by inversion Hst4).
  assert (Hbef : forall st' js' o' cb', EvAsk st' js' o' cb' (Ok n) ∉ before).
  { intros st' js' o' cb' Ha. apply elem_of_list_split in Ha as (b1 & b2 & ->). apply run_app in H3 as (s5 & H5 & H6).
    destruct (owed_run _ _ _ _ _ _ _ H5 sound_start) as [Hs5 _]. inversion H6 as [|? ? s6 ? ? Hst6 Hr6]; subst.
    destruct (owed_step _ _ _ _ _ _ _ Hst6 Hs5) as (Hs6 & _ & E6 & _). assert (bg_count s6 = S (bg_count s5)) by (by inversion Hst6).
    destruct (owed_run _ _ _ _ _ _ _ Hr6 Hs6) as [_ Hle]. lia. }
  assert (Haft : forall st' js' o' cb', EvAsk st' js' o' cb' (Ok n) ∉ after).
  { intros st' js' o' cb' Ha. pose proof (asked_later _ _ _ _ _ _ _ Hr4 Hs4 _ _ _ _ _ Ha). lia. }
  split.
  - exists st, js, o, before, after. split; [done|]. intros st' js' o' cb' Ha. apply elem_of_app in Ha as [Ha|Ha]; [by eapply Hbef|].
    apply elem_of_app in Ha as [Ha|Ha]; [by eapply Haft|by eapply Hno2].
  - intros r'. split; [|by eapply not_called_again]. intros Ha. apply elem_of_app in Ha as [Ha|Ha].
    + eapply (not_called_again _ _ _ _ _ _ _ n H3 sound_start); [by intros ?%elem_of_nil|exact Hbef|exact Ha].
    + apply elem_of_cons in Ha as [Ha|Ha]; [discriminate Ha|]. apply elem_of_list_split in Ha as (b1 & b2 & ->).
      apply run_app in Hr4 as (s5 & H5 & H6). destruct (owed_run _ _ _ _ _ _ _ H5 Hs4) as [Hs5 _]. inversion H6 as [|? ? s6 ? ? Hst6 Hr6]; subst.
      destruct (owed_step _ _ _ _ _ _ _ Hst6 Hs5) as (Hs6 & _ & _ & Hn6 & _).
      assert (Hgone : forall es s0, bg_run p ho mtb tb s0 es s1 -> sound s0 -> (forall st' js' o' cb', EvAsk st' js' o' cb' (Ok (bg_count s3)) ∉ es) ->
        bg_count s3 ∉ owed s0 -> bg_count s3 ∉ owed s1).
      { clear. intros es s0 H. induction H as [s|s e s0 es s1 Hs Hr IH]; intros Hso Hask Hn; [done|].
        destruct (owed_step _ _ _ _ _ _ _ Hs Hso) as (Hso1 & _ & He). apply IH; [done|intros st' js' o' cb' Ha; apply (Hask st' js' o' cb'); by right|].
        destruct e as [a r0|st js o cb [m| | |]|m|m r0]; try (by rewrite He).
        - destruct He as [E He]. rewrite He. intros [Hm|?]; [|done]. apply (Hask st js o cb). rewrite Hm. by left.
        - destruct He as (_ & _ & He). intros Hx. apply Hn. apply He. by right. }
      apply (Hgone b2 s6); [done|done| |done|done]. intros st' js' o' cb' Ha. apply (Haft st' js' o' cb'). apply elem_of_app. right. by right.
Qed.
Print Assumptions C96_once.

Lemma callback_one p ho mtb tb es s n r r' : bg_run p ho mtb tb bg_start es s -> EvCallback n r ∈ es -> EvCallback n r' ∈ es -> r = r'.
Proof.
  intros H H1 H2. apply elem_of_list_split in H1 as (e1 & e2 & ->). destruct (C96_once _ _ _ _ _ _ _ _ _ H) as (_ & Hno). destruct (Hno r') as [N1 N2].
  apply elem_of_app in H2 as [H2|H2]; [done|]. apply elem_of_cons in H2 as [H2|H2]; [by injection H2|done].
Qed.
Lemma called_iff p ho mtb tb es1 es2 s n r : bg_run p ho mtb tb bg_start (es1 ++ es2) s -> EvCallback n r ∈ es2 -> called n es2 = Some r.
Proof.
  intros H Hr. destruct (called_some n r es2 Hr) as [r' E]. rewrite E. f_equal. symmetry.
  eapply callback_one; [exact H| |]; apply elem_of_app; right; [exact Hr|by apply called_in].
Qed.
(** A callback is called with what the request, had it been answered at once, would have returned
    at the moment it was made. *)
Theorem C96_at_once :
  forall p ho mtb tb es1 st js o cb n es2 s r,
  bg_run p ho mtb tb bg_start (es1 ++ EvAsk st js o cb (Ok n) :: es2) s -> EvCallback n r ∈ es2 ->
  exists w, js_session p ho mtb tb js_start (map fst (deeds_of es1)) = (map snd (deeds_of es1), w) /\
    js_does p ho mtb tb w (Request st js o) = (OutContexts r, w).
Proof.
  intros p ho mtb tb es1 st js o cb n es2 s r H Hr.
  assert (Hc : called n es2 = Some r).
  { apply (called_iff p ho mtb tb (es1 ++ [EvAsk st js o cb (Ok n)]) es2 s); [|done]. by rewrite <- (assoc_L (++)). }
  apply run_app in H as (s1 & H1 & H2). destruct (owed_run _ _ _ _ _ _ _ H1 sound_start) as [Hs1 _].
  inversion H2 as [|? ? s2 ? ? Hst Hr2]; subst. destruct (owed_step _ _ _ _ _ _ _ Hst Hs1) as (Hs2 & _).
  inversion Hst as [| |? ? ? ? ? t Hp| |]; subst. rewrite (prepare_cb _ _ _ _ _ _ Hp) in Hp.
  exists (bg_world s1). split; [by apply C96_refines|]. rewrite (prepare_request _ _ _ _ _ _ _ _ _ Hp). f_equal. f_equal.
  eapply (called_waiting _ _ _ _ _ _ _ (bg_count s1) t r Hr2 Hs2); [|done]. cbn [bg_waiting]. apply elem_of_app. right. by left.
Qed.
Print Assumptions C96_at_once.

(** When nothing is left to do, every request that did not throw has been answered. *)
Theorem C96_settled :
  forall p ho mtb tb es s st js o cb n, bg_run p ho mtb tb bg_start es s -> settled s -> EvAsk st js o cb (Ok n) ∈ es ->
  exists r, EvCallback n r ∈ es.
Proof.
  intros p ho mtb tb es s st js o cb n H [Hq1 Hq2] Ha. apply elem_of_list_split in Ha as (e1 & e2 & ->). apply run_app in H as (s1 & H1 & H2).
  destruct (owed_run _ _ _ _ _ _ _ H1 sound_start) as [Hs1 _]. inversion H2 as [|? ? s2 ? ? Hst Hr2]; subst.
  destruct (owed_step _ _ _ _ _ _ _ Hst Hs1) as (Hs2 & _ & _ & Ho).
  assert (Hg : forall s0 es, bg_run p ho mtb tb s0 es s -> sound s0 -> n ∈ owed s0 -> n ∈ owed s \/ exists r, EvCallback n r ∈ es).
  { clear. intros s0 es H. induction H as [s|s e s0 es s1 Hs Hr IH]; intros Hso Hn; [by left|].
    destruct (owed_step _ _ _ _ _ _ _ Hs Hso) as (Hso1 & _ & He).
    assert (Hd : n ∈ owed s0 \/ exists r, e = EvCallback n r).
    { destruct e as [a r0|st js o cb [m| | |]|m|m r0]; try (left; by rewrite He).
      - left. apply He. by right.
      - destruct He as (_ & _ & He). apply He in Hn as [->|Hn]; [right; by exists r0|by left]. }
    destruct Hd as [Hd|[r ->]]; [|right; exists r; by left]. destruct (IH Hso1 Hd) as [?|[r Hin]]; [by left|]. right. exists r. by right. }
  destruct (Hg s2 e2 Hr2 Hs2) as [Hx|[r Hx]]; [apply Ho; by left| |].
  - unfold owed in Hx. rewrite Hq1, Hq2 in Hx. by apply elem_of_nil in Hx.
  - exists r. apply elem_of_app. right. by right.
Qed.
Print Assumptions C96_settled.

(** If no request panics, workers and callbacks alone come to an end, in whatever order they run,
    and then nothing is left to do. *)
Definition to_do (s : bg_state) : nat := (2 * length (bg_waiting s) + length (bg_ready s))%nat.
Theorem C96_progress :
  forall p ho mtb tb s, (forall n t, (n, t) ∈ bg_waiting s -> perform p ho mtb tb t <> Panic /\ perform p ho mtb tb t <> Diverge) ->
  (forall es s', bg_run p ho mtb tb s es s' -> Forall in_background es ->
     (length es <= to_do s)%nat /\ (settled s' \/ exists e s'', in_background e /\ bg_step p ho mtb tb s' e s'')) /\
  exists es s', bg_run p ho mtb tb s es s' /\ Forall in_background es /\ settled s'.
Proof.
  intros p ho mtb tb.
  set (fine := fun s => forall n t, (n, t) ∈ bg_waiting s -> perform p ho mtb tb t <> Panic /\ perform p ho mtb tb t <> Diverge).
  assert (Hstep : forall s e s', bg_step p ho mtb tb s e s' -> in_background e -> fine s -> fine s' /\ (S (to_do s') = to_do s)).
  { intros s e s' H Hb Hf. destruct H as [s a r w Ha H|s stacked js o cb H|s stacked js o cb t H|s m t r bef aft Hw Hp _ _|s m r bef aft Hw]; try done.
    - split.
      + intros n t' Hin. cbn [bg_waiting] in Hin. apply (Hf n t'). rewrite Hw. apply elem_of_app in Hin as [Hin|Hin]; apply elem_of_app; [by left|right; by right].
      + unfold to_do. cbn [bg_waiting bg_ready]. rewrite Hw, !app_length. cbn [length]. lia.
    - split; [exact Hf|]. unfold to_do. cbn [bg_waiting bg_ready]. rewrite Hw, !app_length. cbn [length]. lia. }
  assert (Hnext : forall s, fine s -> settled s \/ exists e s'', in_background e /\ bg_step p ho mtb tb s e s'').
  { intros s Hf. destruct (bg_ready s) as [|[m r] rest] eqn:Er.
    - destruct (bg_waiting s) as [|[m t] rest] eqn:Ew; [by left|]. right. destruct (Hf m t) as [F1 F2]; [rewrite Ew; by left|].
      exists (EvWork m), (BgState (bg_world s) (bg_count s) ([] ++ rest) (bg_ready s ++ [(m, perform p ho mtb tb t)])). split; [done|].
      by eapply (st_work p ho mtb tb s m t _ [] rest).
    - right. exists (EvCallback m r), (BgState (bg_world s) (bg_count s) (bg_waiting s) ([] ++ rest)). split; [done|].
      by apply (st_callback p ho mtb tb s m r [] rest). }
  intros s Hf. split.
  - intros es s' H. induction H as [s|s e s1 es s2 Hs Hr IH]; intros Hb; [split; [cbn; lia|by apply Hnext]|].
    inversion Hb as [|? ? Hb1 Hb2]; subst. destruct (Hstep _ _ _ Hs Hb1 Hf) as [Hf1 E]. destruct (IH Hf1 Hb2) as [Hle Hx]. split; [cbn [length]; lia|done].
  - remember (to_do s) as k eqn:Ek. revert s Hf Ek. induction k as [|k IH]; intros s Hf Ek; destruct (Hnext s Hf) as [Hq|(e & s1 & Hb & Hs)].
    1, 3: exists [], s; split; [constructor|split; [constructor|done]].
    + destruct (Hstep _ _ _ Hs Hb Hf) as [_ E]. lia.
    + destruct (Hstep _ _ _ Hs Hb Hf) as [Hf1 E]. destruct (IH s1 Hf1) as (es & s' & H1 & H2 & H3); [lia|].
      exists (e :: es), s'. split; [by econstructor|]. split; [by constructor|done].
Qed.
Print Assumptions C96_progress.

Lemma deeds_later es1 es2 d : d ∈ deeds_of es2 -> d ∈ deeds_of (es1 ++ es2).
Proof.
  intros H. induction es1 as [|e es1 IH]; [done|]. cbn [app]. destruct e as [a r|st js o cb [m| | |]|m|m r]; cbn [deeds_of]; try exact IH; try (by right).
  - destruct (called m (es1 ++ es2)); [by right|exact IH].
  - destruct cb; [by right|exact IH].
  - destruct cb; [by right|exact IH].
  - destruct cb; [by right|exact IH].
Qed.
Lemma zip_map_fst_snd {A B} (l : list (A * B)) : zip (map fst l) (map snd l) = l.
Proof. induction l as [|[a b] l IH]; [done|]. cbn. f_equal. exact IH. Qed.
Lemma answered_deed p ho mtb tb es s st js o cb n r : bg_run p ho mtb tb bg_start es s ->
  EvAsk st js o cb (Ok n) ∈ es -> EvCallback n r ∈ es -> (Request st js o, OutContexts r) ∈ deeds_of es.
Proof.
  intros H Ha Hr. apply elem_of_list_split in Ha as (e1 & e2 & ->). apply deeds_later. cbn [deeds_of].
  assert (Hr2 : EvCallback n r ∈ e2).
  { apply elem_of_app in Hr as [Hr|Hr]; [|apply elem_of_cons in Hr as [Hr|Hr]; [discriminate Hr|done]].
    apply elem_of_list_split in Hr as (b1 & b2 & ->). rewrite <- (assoc_L (++)) in H. cbn [app] in H.
    destruct (C96_once _ _ _ _ _ _ _ _ _ H) as ((st' & js' & o' & b & a & -> & Hno) & _). exfalso.
    apply (Hno st js o cb). rewrite !elem_of_app, elem_of_cons. right. right. right. by left. }
  assert (Hc : called n e2 = Some r).
  { apply (called_iff p ho mtb tb (e1 ++ [EvAsk st js o cb (Ok n)]) e2 s); [|done]. by rewrite <- (assoc_L (++)). }
  rewrite Hc. by left.
Qed.

(** So C95 holds for the answers that callbacks are called with. *)
Theorem C96_coalesce :
  forall p ho mtb tb es s js o cb n out c,
  bg_run p ho mtb tb bg_start es s -> let l := deeds_of es in
  builders_apart l -> no_renumber l -> EvAsk false js (Some o) cb (Ok n) ∈ es -> EvCallback n (Ok out) ∈ es -> sane o ->
  (forall x, x ∈ js -> asks_in_range l x /\ jp_mask x.2 <> Some 0) ->
  (forall x f so, js = [x] -> opened l x.1 f so -> mo_zoom o = opt_zoom so) -> c ∈ out ->
  exists first rest,
    Forall2 (fun xw e => xw.1 ∈ js /\ program_asked l o xw.1 xw.2 /\ js_flat_result xw.1.2 xw.2 e) (first :: rest) (cc_entries c) /\
    (forall xw, xw ∈ rest -> program_inside l first xw) /\ disjoint_masks (map ce_mask (cc_entries c)).
Proof.
  intros p ho mtb tb es s js o cb n out c H l Hap Hren Ha Hr. pose proof (answered_deed _ _ _ _ _ _ _ _ _ _ _ _ H Ha Hr) as Hd. fold l in Hd.
  pose proof (C95_coalesce p ho mtb tb _ _ _ js o out c (C96_refines _ _ _ _ _ _ H)) as HC. rewrite zip_map_fst_snd in HC. fold l in HC. by apply HC.
Qed.
Print Assumptions C96_coalesce.
Theorem C96_stack :
  forall p ho mtb tb es s js o cb n out c,
  bg_run p ho mtb tb bg_start es s -> let l := deeds_of es in
  builders_apart l -> no_renumber l -> EvAsk true js (Some o) cb (Ok n) ∈ es -> EvCallback n (Ok out) ∈ es -> sane o ->
  NoDup (map (fun x => jp_id x.2) js) -> program_groups js -> program_types l js -> (forall x, x ∈ js -> asks_in_range l x) -> c ∈ out ->
  exists xs ws, program_stack l o xs ws /\ (forall x, x ∈ xs -> x ∈ js) /\ program_legal l xs /\
    Forall2 (fun xw e => js_result xw.1.2 xw.2 e) (zip xs ws) (cc_entries c).
Proof.
  intros p ho mtb tb es s js o cb n out c H l Hap Hren Ha Hr. pose proof (answered_deed _ _ _ _ _ _ _ _ _ _ _ _ H Ha Hr) as Hd. fold l in Hd.
  pose proof (C95_stack p ho mtb tb _ _ _ js o out c (C96_refines _ _ _ _ _ _ H)) as HC. rewrite zip_map_fst_snd in HC. fold l in HC. by apply HC.
Qed.
Print Assumptions C96_stack.

(** ** An example *)
(** The program of [C95_ex], with its two requests in the background: the second is answered
    first, and a builder is made in between. A third request has no callback. *)
Lemma run_dos p ho mtb tb l : forall w c wt rd, forallb (fun a => negb (is_request a)) l = true ->
  bg_run p ho mtb tb (BgState w c wt rd) (zip_with EvDo l (js_session p ho mtb tb w l).1) (BgState (js_session p ho mtb tb w l).2 c wt rd).
Proof.
  induction l as [|a l IH]; intros w c wt rd H; [constructor|]. cbn [forallb] in H. apply andb_true_iff in H as [H1 H2]. cbn [js_session].
  destruct (js_does p ho mtb tb w a) as [r w1] eqn:E. specialize (IH w1 c wt rd H2). destruct (js_session p ho mtb tb w1 l) as [rs w2]. cbn [fst snd zip_with] in *.
  econstructor; [|exact IH]. apply (st_do p ho mtb tb (BgState w c wt rd) a r w1); [by apply negb_true_iff|done].
Qed.
Definition b_pre : list js_do := take 15 z_l.
Definition b_events : list bg_event :=
  zip_with EvDo b_pre (take 15 z_outs) ++
  [ EvAsk true z_js (Some g_opts) true (Ok 0%nat); EvAsk false z_js (Some g_opts) true (Ok 1%nat); EvAsk false z_js (Some g_opts) false Err;
    EvWork 1; EvDo (NewBuilder (Some 3)) (OutObject (Ok 4%nat)); EvCallback 1 (Ok z_flat); EvWork 0; EvCallback 0 (Ok z_stacked) ].
Definition b_world : js_world := (js_session Debug id_oracle first_mtb last_tb js_start b_pre).2.
Definition b_task (stacked : bool) : bg_task :=
  match prepare b_world stacked z_js (Some g_opts) true with Ok t => t | _ => BgTask stacked [] g_opts end.
Definition b_end : bg_state := BgState (World (w_dirs b_world) (w_objs b_world ++ [ABuilder 3 (Some builder_new)])) 2 [] [].
Example C96_ex :
  bg_run Debug id_oracle first_mtb last_tb bg_start b_events b_end /\ settled b_end /\
  deeds_of b_events = zip z_l z_outs ++ [(NewBuilder (Some 3), OutObject (Ok 4%nat))] /\
  (exists s es, bg_run Debug id_oracle first_mtb last_tb bg_start es s /\ length (bg_waiting s) = 2%nat /\
     forall n t, (n, t) ∈ bg_waiting s -> perform Debug id_oracle first_mtb last_tb t <> Panic /\ perform Debug id_oracle first_mtb last_tb t <> Diverge).
Proof.
  assert (Hprep : forall st, prepare b_world st z_js (Some g_opts) true = Ok (b_task st)).
  { intros st. assert (match prepare b_world st z_js (Some g_opts) true with Ok _ => true | _ => false end = true) as H by (destruct st; vm_compute; reflexivity).
    unfold b_task. by destruct (prepare b_world st z_js (Some g_opts) true). }
  assert (Hcb : prepare b_world false z_js (Some g_opts) false = Err) by (vm_compute; reflexivity).
  assert (Hp0 : perform Debug id_oracle first_mtb last_tb (b_task true) = Ok z_stacked) by (vm_compute; reflexivity).
  assert (Hp1 : perform Debug id_oracle first_mtb last_tb (b_task false) = Ok z_flat) by (vm_compute; reflexivity).
  assert (Hdos : bg_run Debug id_oracle first_mtb last_tb bg_start (zip_with EvDo b_pre (take 15 z_outs)) (BgState b_world 0 [] [])).
  { replace (take 15 z_outs) with (js_session Debug id_oracle first_mtb last_tb js_start b_pre).1 by (vm_compute; reflexivity).
    apply run_dos. vm_compute. reflexivity. }
  assert (Hlen : length (w_objs b_world) = 4%nat) by (vm_compute; reflexivity).
  set (s2 := BgState b_world 2 [(0%nat, b_task true); (1%nat, b_task false)] []).
  assert (Hask : bg_run Debug id_oracle first_mtb last_tb (BgState b_world 0 [] [])
    [EvAsk true z_js (Some g_opts) true (Ok 0%nat); EvAsk false z_js (Some g_opts) true (Ok 1%nat)] s2).
  { eapply run_more; [exact (st_ask _ _ _ _ (BgState b_world 0 [] []) true z_js (Some g_opts) true _ (Hprep true))|].
    eapply run_more; [exact (st_ask _ _ _ _ (BgState b_world 1 [(0%nat, b_task true)] []) false z_js (Some g_opts) true _ (Hprep false))|]. constructor. }
  split; [|split; [split; reflexivity|split; [reflexivity|]]].
  - unfold b_events. eapply run_snoc; [exact Hdos|].
    change ([EvAsk true z_js (Some g_opts) true (Ok 0%nat); EvAsk false z_js (Some g_opts) true (Ok 1%nat); EvAsk false z_js (Some g_opts) false Err;
      EvWork 1; EvDo (NewBuilder (Some 3)) (OutObject (Ok 4%nat)); EvCallback 1 (Ok z_flat); EvWork 0; EvCallback 0 (Ok z_stacked)])
      with ([EvAsk true z_js (Some g_opts) true (Ok 0%nat); EvAsk false z_js (Some g_opts) true (Ok 1%nat)] ++
        [EvAsk false z_js (Some g_opts) false Err; EvWork 1; EvDo (NewBuilder (Some 3)) (OutObject (Ok 4%nat)); EvCallback 1 (Ok z_flat); EvWork 0; EvCallback 0 (Ok z_stacked)]).
    eapply run_snoc; [exact Hask|].
    eapply run_more; [exact (st_throw _ _ _ _ s2 _ _ _ _ Hcb)|].
    eapply run_more; [exact (st_work _ _ _ _ s2 1 (b_task false) (Ok z_flat) [(0%nat, b_task true)] [] eq_refl Hp1 ltac:(discriminate) ltac:(discriminate))|].
    eapply run_more; [eapply (st_do _ _ _ _ _ (NewBuilder (Some 3))); [reflexivity|]; cbn [js_does js_make bg_world s2]; unfold js_make; rewrite Hlen; reflexivity|].
    eapply run_more; [eapply (st_callback _ _ _ _ _ _ _ [] []); reflexivity|].
    eapply run_more; [eapply (st_work _ _ _ _ _ 0 (b_task true) (Ok z_stacked) [] []); [reflexivity|exact Hp0|discriminate|discriminate]|].
    eapply run_more; [eapply (st_callback _ _ _ _ _ _ _ [] []); reflexivity|]. constructor.
  - exists s2. eexists. split; [eapply run_snoc; [exact Hdos|exact Hask]|]. split; [done|]. intros n t Ht. cbn [bg_waiting s2] in Ht.
    rewrite !elem_of_cons, elem_of_nil in Ht. destruct Ht as [E|[E|[]]]; apply (f_equal snd) in E; cbn [snd] in E; rewrite E; [rewrite Hp0|rewrite Hp1]; split; discriminate.
Qed.
(** Answers need not come in the order of the requests. *)
Theorem C96_order_refuted :
  exists es s i j n m a b st st' js js' o o', bg_run Debug id_oracle first_mtb last_tb bg_start es s /\
    es !! i = Some (EvAsk st js o true (Ok n)) /\ es !! (i + 1)%nat = Some (EvAsk st' js' o' true (Ok m)) /\
    es !! j = Some (EvCallback n a) /\ es !! (j - 2)%nat = Some (EvCallback m b).
Proof.
  exists b_events, b_end, 15%nat, 22%nat, 0%nat, 1%nat. do 8 eexists. split; [apply C96_ex|].
  repeat (split; [reflexivity|]). reflexivity.
Qed.
Print Assumptions C96_order_refuted.
