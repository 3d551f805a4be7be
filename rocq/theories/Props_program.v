(** Property C95: whole programs. *)
From Verif Require Import Prelude Lists F64 Heap Common Builder Spatial Store Spec Spec_match Query Coalesce Stackable Tree Native Spec_native Native_proofs
  Examples Props_storage Props_native Spec_js Props_zoom Spec_coalesce Spec_ground Props_ground Spec_end Props_end Session Spec_session Session_proofs Props_session
  Spec_flatend Props_flatend Spec_program.
From Coq Require Import ZifyBool.
Local Open Scope N_scope.

Section program.
Context (p : profile) (ho : hash_oracle) (mtb : merge_tb) (tb : tiebreak).
Notation does := (js_does p ho mtb tb).
Notation session := (js_session p ho mtb tb).

(** A deed, in its place. *)
Lemma deed_split w l a r : (a, r) ∈ zip l (session w l).1 ->
  exists l1 l2, l = l1 ++ a :: l2 /\ (does (session w l1).2 a).1 = r.
Proof.
  revert w. induction l as [|b l IH]; intros w Hin; [by apply elem_of_nil in Hin|]. rewrite session_cons in Hin. cbn [fst zip] in Hin.
  apply elem_of_cons in Hin as [E|Hin].
  - injection E as -> ->. by exists [], l.
  - destruct (IH _ Hin) as (l1 & l2 & -> & Hr). exists (b :: l1), l2. split; [done|]. rewrite session_cons. done.
Qed.
Lemma zip_session_app w l1 l2 :
  zip (l1 ++ l2) (session w (l1 ++ l2)).1 = zip l1 (session w l1).1 ++ zip l2 (session (session w l1).2 l2).1.
Proof. rewrite session_app. cbn [fst]. apply zip_with_app. by rewrite session_length. Qed.

(** Every builder was made. *)
Lemma builder_made l : forall w i f b, w_objs (session w l).2 !! i = Some (ABuilder f b) ->
  (exists b0, w_objs w !! i = Some (ABuilder f b0)) \/ (NewBuilder (Some f), OutObject (Ok i)) ∈ zip l (session w l).1.
Proof.
  induction l as [|a l IH]; intros w i f b H; [left; by exists b|]. rewrite session_cons in H |- *. cbn [fst snd zip] in *.
  destruct (IH _ _ _ _ H) as [[b1 H1]|Hin]; [|right; by right].
  destruct a as [[f'|]|i' c|[f'|] o|i' k|i'|i'|st js o]; cbn [js_does js_make fst snd w_objs] in H1 |- *; try (left; by exists b1).
  - apply lookup_app_Some in H1 as [H1|[Hle H1]]; [left; by exists b1|]. apply list_lookup_singleton_Some in H1 as [Hi E].
    right. injection E as -> _. assert (length (w_objs w) = i) as -> by lia. by left.
  - left. destruct (w_objs w !! i') as [[f' b'| |]|] eqn:E; try (by exists b1). destruct (js_step _ _ _) as [r [b'' d]]. cbn [snd w_objs] in H1.
    destruct (decide (i' = i)) as [->|Hne].
    + rewrite list_lookup_insert in H1 by (by eapply lookup_lt_Some). injection H1 as <- _. by exists b'.
    + rewrite list_lookup_insert_ne in H1 by done. by exists b1.
  - left. destruct (w_dirs w !! f') as [d|]; [|by exists b1]. destruct (js_open d o); try (by exists b1). cbn [js_make snd w_objs] in H1.
    apply lookup_app_Some in H1 as [H1|[Hle H1]]; [by exists b1|]. by apply list_lookup_singleton_Some in H1 as [_ ?].
  - left. destruct (w_objs w !! i') as [[f' b'|s|]|] eqn:E; try (by exists b1). cbn [js_make snd w_objs] in H1.
    apply lookup_app_Some in H1 as [H1|[Hle H1]]; [by exists b1|]. by apply list_lookup_singleton_Some in H1 as [_ ?].
  - left. destruct (w_objs w !! i') as [[f' b'|s|l']|] eqn:E; try (by exists b1). destruct (js_keys_next l') as [r l'']. cbn [snd w_objs] in H1.
    destruct (decide (i' = i)) as [->|Hne].
    + rewrite list_lookup_insert in H1 by (by eapply lookup_lt_Some). discriminate H1.
    + rewrite list_lookup_insert_ne in H1 by done. by exists b1.
Qed.
Lemma calls_app i l l' : calls_on i (l ++ l') = calls_on i l ++ calls_on i l'.
Proof. unfold calls_on. apply omap_app. Qed.

(** A store that was opened holds what filled its directory. *)
Lemma store_filled l f so h : let l' := zip l (session js_start l).1 in
  builders_apart l' -> no_renumber l' -> opened l' h f so ->
  exists s cs, w_objs (session js_start l).2 !! h = Some (AStore s) /\ has_settings s so /\ filled l' f cs /\ indexed cs s.
Proof.
  intros l' Hap Hren Hop. unfold l', opened in Hop. destruct (deed_split _ _ _ _ Hop) as (la & lb & El & Hr).
  pose proof Hr as Hr'. cbn [js_does] in Hr'.
  destruct (w_dirs (session js_start la).2 !! f) as [d|] eqn:Ed; [|discriminate Hr'].
  destruct (dir_written p ho mtb tb js_start la f d Ed (lookup_empty f)) as (i & b & Hi & _).
  destruct (builder_made la js_start i f b Hi) as [[b0 H0]|Hmade]; [cbn in H0; discriminate H0|].
  destruct (deed_split _ _ _ _ Hmade) as (l1 & l2 & Ela & Hi'). cbn [js_does js_make fst] in Hi'. injection Hi' as Hi'. subst la.
  set (w1 := (session js_start l1).2) in *.
  set (w2 := (session js_start (l1 ++ NewBuilder (Some f) :: l2)).2) in *.
  assert (Ew2 : (session w1 (NewBuilder (Some f) :: l2)).2 = w2) by (unfold w2; by rewrite session_app).
  set (w3 := (session js_start l).2).
  assert (Ew3 : (session w2 (NewStore (Some f) so :: lb)).2 = w3) by (unfold w3; rewrite El, session_app; done).
  set (rs2 := (session (does w1 (NewBuilder (Some f))).2 l2).1).
  set (rs3 := (session (does w2 (NewStore (Some f) so)).2 lb).1).
  assert (H2 : session w1 (NewBuilder (Some f) :: l2) = (OutObject (Ok (length (w_objs w1))) :: rs2, w2)).
  { rewrite <- Ew2, session_cons. done. }
  assert (H3 : session w2 (NewStore (Some f) so :: lb) = (OutObject (Ok h) :: rs3, w3)).
  { rewrite <- Ew3, session_cons, Hr. done. }
  assert (Hon : only_builder w3 f (length (w_objs w1))).
  { intros i' b' H'. destruct (builder_made l js_start i' f b' H') as [[b0 H0]|Hm]; [cbn in H0; discriminate H0|].
    rewrite Hi'. eapply (Hap f); [exact Hm|]. unfold l'. rewrite El. rewrite zip_session_app. apply elem_of_app. by left. }
  destruct (C93_whole p ho mtb tb l1 (session js_start l1).1 w1 f l2 rs2 w2 so lb rs3 w3 h) as (cs & rest & Ecs & Hcs & Hall); try done.
  { apply surjective_pairing. }
  assert (Hz : l' = zip l1 (session js_start l1).1 ++ (NewBuilder (Some f), OutObject (Ok i)) :: zip l2 rs2 ++ (NewStore (Some f) so, OutObject (Ok h)) :: zip lb rs3).
  { unfold l'. rewrite El, <- app_assoc, zip_session_app. f_equal. fold w1. rewrite session_app. cbn [fst].
    rewrite H2. cbn [fst snd]. rewrite H3. cbn [fst app zip]. rewrite Hi'. f_equal. unfold rs2. rewrite zip_with_app by (by rewrite session_length). done. }
  rewrite Hi' in Ecs.
  assert (Hr0 : forall ids, JsRenumber ids ∉ cs).
  { intros ids Hin. assert (Hc : JsRenumber ids ∈ map fst (calls_on i (zip l2 rs2))) by (rewrite Ecs; apply elem_of_app; by left).
    apply elem_of_map in Hc as ([c r] & E & Hc). cbn [fst] in E. subst c. unfold calls_on in Hc. apply elem_of_list_omap in Hc as ([a o] & Ha & E).
    destruct a; try discriminate E. destruct o as [r'| | | |]; try discriminate E. cbn [call_on] in E.
    destruct (decide (i = obj)) as [->|]; [|discriminate E]. injection E as -> ->.
    apply (Hren obj ids (OutDone r)). rewrite Hz. apply elem_of_app. right. right. apply elem_of_app. by left. }
  destruct (Hall Hr0) as (s & Hs & Hidx & _). exists s, cs. split; [done|].
  assert (Hset : has_settings s so).
  { destruct (C93_store p ho mtb tb w2 f so lb h rs3 w3 H3) as (d' & s' & _ & Hopen & Hs' & _).
    assert (s' = s) as -> by congruence. destruct so as [| |o]; cbn [js_open] in Hopen; [|discriminate Hopen|]; injection Hopen as <-; by cbn. }
  split; [done|]. split; [|done]. rewrite Hz. eexists i, _, _, _. split; [reflexivity|]. split; [|done].
  rewrite calls_app, map_app, Ecs, <- app_assoc. cbn [app]. reflexivity.
Qed.

(** Every store was opened. *)
Lemma store_made l : forall w i s, w_objs (session w l).2 !! i = Some (AStore s) ->
  w_objs w !! i = Some (AStore s) \/ exists f so, (NewStore (Some f) so, OutObject (Ok i)) ∈ zip l (session w l).1.
Proof.
  induction l as [|a l IH]; intros w i s H; [by left|]. rewrite session_cons in H |- *. cbn [fst snd zip] in *.
  destruct (IH _ _ _ H) as [H1|(f & so & Hin)]; [|right; exists f, so; by right].
  destruct a as [[f'|]|i' c|[f'|] o|i' k|i'|i'|st js o]; cbn [js_does js_make fst snd w_objs] in H1 |- *; try (by left).
  - apply lookup_app_Some in H1 as [H1|[Hle H1]]; [by left|]. by apply list_lookup_singleton_Some in H1 as [_ ?].
  - left. destruct (w_objs w !! i') as [[f' b'| |]|] eqn:E; try done. destruct (js_step _ _ _) as [r [b'' d]]. cbn [snd w_objs] in H1.
    destruct (decide (i' = i)) as [->|Hne].
    + rewrite list_lookup_insert in H1 by (by eapply lookup_lt_Some). discriminate H1.
    + by rewrite list_lookup_insert_ne in H1.
  - destruct (w_dirs w !! f') as [d|]; [|by left]. destruct (js_open d o) as [s'| | |]; try (by left). cbn [js_make fst snd w_objs] in H1 |- *.
    apply lookup_app_Some in H1 as [H1|[Hle H1]]; [by left|]. apply list_lookup_singleton_Some in H1 as [Hi _].
    right. exists f', o. assert (length (w_objs w) = i) as -> by lia. by left.
  - left. destruct (w_objs w !! i') as [[f' b'|s'|]|] eqn:E; try done. cbn [js_make snd w_objs] in H1.
    apply lookup_app_Some in H1 as [H1|[Hle H1]]; [done|]. by apply list_lookup_singleton_Some in H1 as [_ ?].
  - left. destruct (w_objs w !! i') as [[f' b'|s'|l']|] eqn:E; try done. destruct (js_keys_next l') as [r l'']. cbn [snd w_objs] in H1.
    destruct (decide (i' = i)) as [->|Hne].
    + rewrite list_lookup_insert in H1 by (by eapply lookup_lt_Some). discriminate H1.
    + by rewrite list_lookup_insert_ne in H1.
Qed.
Lemma get_asked l : forall w h k r, (GetKey h k, OutEntries (Ok r)) ∈ zip l (session w l).1 ->
  exists s, w_objs (session w l).2 !! h = Some (AStore s) /\ js_get s k = Ok r.
Proof.
  intros w h k r Hin. destruct (deed_split _ _ _ _ Hin) as (l1 & l2 & -> & Hr). cbn [js_does fst] in Hr.
  destruct (w_objs (session w l1).2 !! h) as [[f b|s|it]|] eqn:E; try discriminate Hr. injection Hr as Hr. exists s. split; [|done].
  rewrite session_app. cbn [snd]. by apply store_stays.
Qed.
End program.

(** ** C95 Whole programs *)
Theorem C95_store :
  forall p ho mtb tb l rs w f so h,
  js_session p ho mtb tb js_start l = (rs, w) -> builders_apart (zip l rs) -> no_renumber (zip l rs) -> opened (zip l rs) h f so ->
  exists s cs, w_objs w !! h = Some (AStore s) /\ has_settings s so /\ filled (zip l rs) f cs /\ indexed cs s.
Proof.
  intros p ho mtb tb l rs w f so h H. pose proof (store_filled p ho mtb tb l f so h) as HH. cbv zeta in HH. by rewrite H in HH.
Qed.
Print Assumptions C95_store.

(** get() answers with what the calls that filled the directory wrote. *)
Lemma get_indexed cs s ops k key r : indexed cs s -> accepted cs ops -> history_ok ops -> as_key k key -> js_get s k = Ok r ->
  match r with
  | Some out => NoDup out /\ forall e, e ∈ out <-> exists w, js_holds cs key w /\ e = snap w
  | None => forall w, ~ js_holds cs key w
  end.
Proof.
  intros (o & rs & d & z & t & ra & bb & ms & Hf & Hren & Hrun & Hlast & ->) Ha Hh Hk H.
  destruct (C56_built o cs d z t ra bb ms Hf Hren) as (ops' & Ha' & Hb); [by rewrite Hrun|by rewrite Hrun|].
  pose proof (accepted_one cs ops ops' Ha Ha') as <-. unfold js_get in H. pose proof Hk as Hk'. apply to_key_iff in Hk'. rewrite Hk' in H. cbn [res_bind] in H.
  pose proof (C01_store_round_trip o ops _ key Hh Hb (as_key_ok k key Hk)) as Hg.
  pose proof (fun w => C89_written cs ops key w Ha) as Hw.
  destruct (written ops !! key) as [es|] eqn:Ew.
  - destruct Hg as (out & Hg & Hnd & Hm). rewrite Hg in H. injection H as <-. split; [done|]. intros e. rewrite Hm. split.
    + intros (e0 & He0 & ->). exists e0. split; [|done]. apply Hw. by exists es.
    + intros (w & Hw' & ->). exists w. split; [|done]. apply Hw in Hw' as (es' & [= <-] & ?). done.
  - rewrite Hg in H. injection H as <-. intros w Hw'. apply Hw in Hw' as (es & E & _). discriminate E.
Qed.
Theorem C95_get :
  forall p ho mtb tb l rs w h k key r,
  js_session p ho mtb tb js_start l = (rs, w) -> builders_apart (zip l rs) -> no_renumber (zip l rs) ->
  (GetKey h k, OutEntries (Ok r)) ∈ zip l rs -> as_key k key ->
  exists f so cs, opened (zip l rs) h f so /\ filled (zip l rs) f cs /\
    forall ops, accepted cs ops -> history_ok ops ->
    match r with
    | Some out => NoDup out /\ forall e, e ∈ out <-> exists w, js_holds cs key w /\ e = snap w
    | None => forall w, ~ js_holds cs key w
    end.
Proof.
  intros p ho mtb tb l rs w h k key r H Hap Hren Hin Hk.
  pose proof (get_asked p ho mtb tb l js_start h k r) as Hg. rewrite H in Hg. destruct (Hg Hin) as (s & Hs & Hr).
  pose proof (store_made p ho mtb tb l js_start h s) as Hm. rewrite H in Hm. destruct (Hm Hs) as [Hm'|(f & so & Hop)]; [cbn in Hm'; discriminate Hm'|].
  destruct (C95_store p ho mtb tb l rs w f so h H Hap Hren Hop) as (s' & cs & Hs' & _ & Hfi & Hidx). cbn [fst snd] in *. assert (s' = s) as -> by congruence.
  exists f, so, cs. split; [done|]. split; [done|]. intros ops Ha Hh. by eapply get_indexed.
Qed.
Print Assumptions C95_get.

(** ** Requests *)
Fixpoint jsval_eqb (a b : jsval) : bool :=
  match a, b with
  | JsNumber x, JsNumber y => bool_decide (x = y)
  | JsBoolean x, JsBoolean y => bool_decide (x = y)
  | JsNull, JsNull | JsUndefined, JsUndefined | JsOther, JsOther => true
  | JsArray l, JsArray l' =>
      (fix go (l l' : list jsval) : bool :=
         match l, l' with [], [] => true | x :: l, y :: l' => jsval_eqb x y && go l l' | _, _ => false end) l l'
  | _, _ => false
  end.
Lemma jsval_eqb_ok : forall a b, jsval_eqb a b = true <-> a = b.
Proof.
  fix IH 1. intros a b. destruct a as [x|x| | |l|]; destruct b as [y|y| | |l'|]; cbn [jsval_eqb];
    try (split; [discriminate|discriminate]); try done; try (rewrite bool_decide_eq_true; split; congruence).
  transitivity (l = l'); [|split; congruence]. revert l'. induction l as [|x l IHl]; intros [|y l']; try (split; discriminate); [done|].
  rewrite andb_true_iff, IH, IHl. split; [intros [-> ->]; done|intros E; by injection E as -> ->].
Qed.
#[local] Instance jsval_eq_dec : EqDecision jsval.
Proof. intros a b. destruct (jsval_eqb a b) eqn:E; [left; by apply jsval_eqb_ok|right]. intros ->. assert (jsval_eqb b b = true) by (by apply jsval_eqb_ok). congruence. Defined.
#[local] Instance match_phrase_eq_dec : EqDecision match_phrase.
Proof. solve_decision. Defined.
#[local] Instance bbox_eq_dec : EqDecision bbox.
Proof. solve_decision. Defined.
#[local] Instance store_eq_dec : EqDecision store.
Proof. solve_decision. Defined.
#[local] Instance js_phrasematch_eq_dec : EqDecision js_phrasematch.
Proof. solve_decision. Defined.
Lemma choose {A B} `{EqDecision A} (x0 : B) (P : A -> B -> Prop) (l : list A) : (forall a, a ∈ l -> exists b, P a b) ->
  exists g, forall a, a ∈ l -> P a (g a).
Proof.
  induction l as [|a l IH]; intros Hp; [exists (fun _ => x0); intros a Ha; by apply elem_of_nil in Ha|].
  destruct (Hp a) as [b Hb]; [by left|]. destruct IH as [g Hg]; [intros c Hc; apply Hp; by right|].
  exists (fun c => if decide (c = a) then b else g c). intros c Hc. destruct (decide (c = a)) as [->|Hn]; [done|].
  apply Hg. by apply elem_of_cons in Hc as [?|?].
Qed.

Section request.
Context (p : profile) (ho : hash_oracle) (mtb : merge_tb) (tb : tiebreak) (l : list js_do) (rs : list js_out) (w : js_world).
Context (Hrun : js_session p ho mtb tb js_start l = (rs, w)) (Hap : builders_apart (zip l rs)) (Hren : no_renumber (zip l rs)).
Notation L := (zip l rs).
(** A converted object stands for an object of the request, with the calls that filled its store. *)
Definition backs (js : list (nat * js_phrasematch)) (j : js_phrasematch) (b : (nat * js_phrasematch) * (N * opts_arg * list js_call)) : Prop :=
  let x := b.1 in let f := b.2.1.1 in let so := b.2.1.2 in let cs := b.2.2 in
  x ∈ js /\ js_same_but_store x.2 j /\ w_objs w !! x.1 = Some (AStore (jp_store j)) /\
  opened L x.1 f so /\ filled L f cs /\ has_settings (jp_store j) so /\ indexed cs (jp_store j).
Lemma settings_zoom s so : has_settings s so -> st_zoom s = opt_zoom so /\ st_type_id s = opt_type so /\ st_radius s = opt_radius so.
Proof. destruct so as [| |o]; cbn; [|done|]; intros (-> & -> & -> & _); done. Qed.
Lemma converted_backs js js' : Forall2 (fun x j => js_same_but_store x.2 j /\ w_objs w !! x.1 = Some (AStore (jp_store j))) js js' ->
  forall j, j ∈ js' -> exists b, backs js j b.
Proof.
  intros HF j Hj. apply elem_of_list_lookup in Hj as [n Hn]. destruct (Forall2_lookup_r _ _ _ _ _ HF Hn) as (x & Hx & Hsame & Hs).
  pose proof (store_made p ho mtb tb l js_start x.1 (jp_store j)) as Hm. rewrite Hrun in Hm.
  destruct (Hm Hs) as [Hm'|(f & so & Hop)]; [cbn in Hm'; discriminate Hm'|].
  destruct (C95_store p ho mtb tb l rs w f so x.1 Hrun Hap Hren Hop) as (s & cs & Hs' & Hset & Hfi & Hidx).
  assert (s = jp_store j) as -> by congruence.
  exists (x, (f, so, cs)). split; [by eapply elem_of_list_lookup_2|]. done.
Qed.
Lemma backs_opened js j b f so : backs js j b -> opened L b.1.1 f so -> has_settings (jp_store j) so.
Proof.
  intros (_ & _ & Hs & _) Hop. destruct (C95_store p ho mtb tb l rs w f so b.1.1 Hrun Hap Hren Hop) as (s & cs & Hs' & Hset & _).
  by assert (s = jp_store j) as -> by congruence.
Qed.
Lemma backs_ready js j b : backs js j b -> asks_in_range L b.1 -> ready b.2.2 j.
Proof.
  intros (_ & Hsame & _ & Hop & Hfi & Hset & Hidx) Hr. destruct (Hr _ _ _ Hop Hfi) as (Ho & Hz & Hra).
  destruct (settings_zoom _ _ Hset) as (Ez & _ & Er). destruct Hsame as (_ & _ & Eph & _). split; [done|]. rewrite Ez, Er, Eph. done.
Qed.
Lemma backs_asked js j b o v : backs js j b -> js_asked b.2.2 o j v -> program_asked L o b.1 v.
Proof.
  intros (_ & Hsame & _ & Hop & Hfi & Hset & Hidx) [(key & ph & Hh & Hph & Hsel) Hin].
  destruct (settings_zoom _ _ Hset) as (Ez & _). destruct Hsame as (_ & _ & Eph & _).
  exists b.2.1.1, b.2.1.2, b.2.2, key, ph. rewrite <- Eph, <- Ez. done.
Qed.
Lemma backs_wanted js j b o v : backs js j b -> js_wanted b.2.2 o j v -> program_wanted L o b.1 v.
Proof.
  intros Hb (Hk & Hin & Hn). split; [eapply backs_asked; [exact Hb|by split]|]. destruct Hb as (_ & Hsame & _ & Hop & _ & Hset & _).
  destruct (settings_zoom _ _ Hset) as (Ez & _). destruct Hsame as (_ & _ & _ & _ & _ & _ & En & _). intros E. rewrite <- En in E.
  exists b.2.1.1, b.2.1.2. split; [done|]. rewrite <- Ez. by apply Hn.
Qed.
End request.
Lemma sorted_lookup {A} (R : A -> A -> Prop) l : StronglySorted R l -> forall i k a b, (i < k)%nat -> l !! i = Some a -> l !! k = Some b -> R a b.
Proof.
  induction 1 as [|x l Hl IH Hx]; intros i k a b Hlt Ha Hb; [by rewrite lookup_nil in Ha|].
  destruct k as [|k]; [lia|]. destruct i as [|i]; [|by eapply (IH i k); [lia| |]].
  injection Ha as <-. rewrite Forall_forall in Hx. apply Hx. by eapply elem_of_list_lookup_2.
Qed.

(** coalesce: every entry of a result was written by a call of the program, for the object it
    belongs to. *)
Theorem C95_coalesce :
  forall p ho mtb tb l rs w js o out c,
  js_session p ho mtb tb js_start l = (rs, w) -> builders_apart (zip l rs) -> no_renumber (zip l rs) ->
  (Request false js (Some o), OutContexts (Ok out)) ∈ zip l rs -> sane o ->
  (forall x, x ∈ js -> asks_in_range (zip l rs) x /\ jp_mask x.2 <> Some 0) ->
  (forall x f so, js = [x] -> opened (zip l rs) x.1 f so -> mo_zoom o = opt_zoom so) -> c ∈ out ->
  exists first rest,
    Forall2 (fun xw e => xw.1 ∈ js /\ program_asked (zip l rs) o xw.1 xw.2 /\ js_flat_result xw.1.2 xw.2 e) (first :: rest) (cc_entries c) /\
    (forall xw, xw ∈ rest -> program_inside (zip l rs) first xw) /\ disjoint_masks (map ce_mask (cc_entries c)).
Proof.
  intros p ho mtb tb l rs w js o out c H Hap Hren Hin Hs Hr Hone Hc.
  destruct (C93_request p ho mtb tb js_start l rs w false js (Some o) out H Hin) as (js' & HF & Hco).
  destruct (choose ((0%nat, JsPhrasematch (open_default ∅) None None None JsNull None None JsNull None 0), (0, NoOpts, [])) (backs l rs w js) js'
              (converted_backs p ho mtb tb l rs w H Hap Hren js js' HF)) as [g Hg].
  assert (Hrdy : forall j, j ∈ js' -> ready (g j).2.2 j /\ jp_mask j <> Some 0).
  { intros j Hj. pose proof (Hg j Hj) as Hb. assert (Hx : (g j).1 ∈ js) by apply Hb. destruct (Hr _ Hx) as [Ha Hm].
    split; [by eapply backs_ready|]. destruct Hb as (_ & (_ & Em & _) & _). by rewrite Em. }
  destruct (C94_sound p ho mtb tb js' o out c (fun j => (g j).2.2) Hs Hrdy) as (first & rest & HF' & Hins & Hdis); [|done|done|].
  { intros j ->. assert (Hj : j ∈ [j]) by (by left). pose proof (Hg j Hj) as (Hx & _ & _ & Hop & _ & Hset & _).
    inversion HF as [|x ? js0 ? Hxj Hnil E1 E2]; subst. inversion Hnil; subst. apply elem_of_list_singleton in Hx.
    unfold js_zoom. destruct (settings_zoom _ _ Hset) as [-> _]. rewrite Hx in Hop. by eapply Hone. }
  set (up := fun jw : js_phrasematch * grid_entry => ((g jw.1).1, jw.2)).
  assert (Hmem : forall jw, jw ∈ first :: rest -> jw.1 ∈ js').
  { intros jw Hjw. apply elem_of_list_lookup in Hjw as [n Hn]. destruct (Forall2_lookup_l _ _ _ _ _ HF' Hn) as (e & _ & Hj & _). done. }
  exists (up first), (map up rest). split; [|split; [|done]].
  - change (up first :: map up rest) with (map up (first :: rest)). apply Forall2_fmap_l. eapply Forall2_impl; [exact HF'|].
    intros [j v] e (Hj & Hask & Hres). cbn [fst snd] in *. pose proof (Hg j Hj) as Hb. unfold up. cbn [fst snd].
    split; [apply Hb|]. split; [by eapply backs_asked|].
    destruct Hb as (_ & (Ew & Em & _ & _ & _ & Ei & _) & _). unfold js_flat_result in Hres. rewrite Ew, Em, Ei in Hres. exact Hres.
  - intros xw Hxw. apply elem_of_map in Hxw as (jw & -> & Hjw). destruct (Hins jw Hjw) as (Hz & Hx & Hy).
    assert (Hj1 : first.1 ∈ js') by (apply Hmem; by left). assert (Hj2 : jw.1 ∈ js') by (apply Hmem; by right).
    pose proof (Hg _ Hj1) as (_ & _ & _ & Hop1 & _ & Hset1 & _). pose proof (Hg _ Hj2) as (_ & _ & _ & Hop2 & _ & Hset2 & _).
    destruct (settings_zoom _ _ Hset1) as [E1 _]. destruct (settings_zoom _ _ Hset2) as [E2 _]. unfold js_zoom in *. rewrite E1, E2 in *.
    by exists (g first.1).2.1.1, (g jw.1).2.1.1, (g first.1).2.1.2, (g jw.1).2.1.2.
Qed.
Print Assumptions C95_coalesce.

(** stackAndCoalesce likewise, for stacks of objects. *)
Theorem C95_stack :
  forall p ho mtb tb l rs w js o out c,
  js_session p ho mtb tb js_start l = (rs, w) -> builders_apart (zip l rs) -> no_renumber (zip l rs) ->
  (Request true js (Some o), OutContexts (Ok out)) ∈ zip l rs -> sane o ->
  NoDup (map (fun x => jp_id x.2) js) -> program_groups js -> program_types (zip l rs) js ->
  (forall x, x ∈ js -> asks_in_range (zip l rs) x) -> c ∈ out ->
  exists xs ws, program_stack (zip l rs) o xs ws /\ (forall x, x ∈ xs -> x ∈ js) /\ program_legal (zip l rs) xs /\
    Forall2 (fun xw e => js_result xw.1.2 xw.2 e) (zip xs ws) (cc_entries c).
Proof.
  intros p ho mtb tb l rs w js o out c H Hap Hren Hin Hs Hnd Hgr Hty Hr Hc.
  destruct (C93_request p ho mtb tb js_start l rs w true js (Some o) out H Hin) as (js' & HF & Hco).
  destruct (choose ((0%nat, JsPhrasematch (open_default ∅) None None None JsNull None None JsNull None 0), (0, NoOpts, [])) (backs l rs w js) js'
              (converted_backs p ho mtb tb l rs w H Hap Hren js js' HF)) as [g Hg].
  assert (Eid : map jp_id js' = map (fun x => jp_id x.2) js).
  { clear -HF. induction HF as [|x j js js' [(_ & _ & _ & _ & E & _) _] _ IH]; [done|]. cbn. by rewrite E, IH. }
  destruct (C89_sound p ho mtb tb js' o out c (fun j => (g j).2.2)) as (jch & ws & Hst & Hsub & Hleg & HF'); try done.
  - by rewrite Eid.
  - intros a b Ha Hb Ht. pose proof (Hg a Ha) as (Xa & Sa & Oa & _). pose proof (Hg b Hb) as (Xb & Sb & Ob & _).
    destruct Sa as (A1 & A2 & _ & _ & _ & A3 & _ & A4 & _). destruct Sb as (B1 & B2 & _ & _ & _ & B3 & _ & B4 & _).
    destruct (Hgr (g a).1 (g b).1 Xa Xb) as (E & Ew & En). { unfold js_together in *. by rewrite <- A1, <- A2, <- A3, <- B1, <- B2, <- B3. }
    rewrite A1, B1, A4, B4. split; [|done]. rewrite E in Oa. congruence.
  - intros a b Ha Hb Hlt. pose proof (Hg a Ha) as (Xa & _ & _ & Oa & _ & Sa & _). pose proof (Hg b Hb) as (Xb & _ & _ & Ob & _ & Sb & _).
    destruct (settings_zoom _ _ Sa) as (-> & Ea & _). destruct (settings_zoom _ _ Sb) as (-> & Eb & _). rewrite Ea, Eb in Hlt. exact (Hty _ _ _ _ _ _ Xa Xb Oa Ob Hlt).
  - intros j Hj. pose proof (Hg j Hj) as Hb. eapply backs_ready; [exact Hb|]. apply Hr, Hb.
  - exists (map (fun j => (g j).1) jch), ws. split; [|split; [|split]].
    + destruct Hleg as (Hsort & _). clear HF'. induction Hst as [j v Hw|j v j' v' jl vl Hst IH Hw Ha].
      * constructor. eapply backs_wanted; [|exact Hw]. apply Hg, Hsub. by left.
      * cbn [map]. constructor.
        -- inversion Hsort; subst. apply IH; [|done]. intros y Hy. apply Hsub. by right.
        -- eapply backs_wanted; [|exact Hw]. apply Hg, Hsub. by left.
        -- pose proof (Hsub j ltac:(by left)) as Hj. pose proof (Hsub j' ltac:(by right; left)) as Hj'.
           pose proof (Hg j Hj) as (X1 & _ & _ & O1 & _ & S1 & _). pose proof (Hg j' Hj') as (X2 & _ & _ & O2 & _ & S2 & _).
           destruct (settings_zoom _ _ S1) as (E1 & T1 & _). destruct (settings_zoom _ _ S2) as (E2 & T2 & _). rewrite E1, E2 in Ha.
           exists (g j).2.1.1, (g j').2.1.1, (g j).2.1.2, (g j').2.1.2. split; [done|]. split; [done|].
           split; [|unfold ancestor in Ha; by injection Ha]. inversion Hsort as [|? ? _ Hall]; subst. inversion Hall as [|? ? Hlt _]; subst. rewrite T1, T2 in Hlt.
           by destruct (Hty _ _ _ _ _ _ X2 X1 O2 O1 Hlt).
    + intros x Hx. apply elem_of_map in Hx as (j & -> & Hj). apply Hg. by apply Hsub.
    + destruct Hleg as (Hsort & Hmask & Hex).
      assert (Hat : forall i x, map (fun j => (g j).1) jch !! i = Some x -> exists j, jch !! i = Some j /\ x = (g j).1 /\ j ∈ js').
      { intros i x Hx. rewrite list_lookup_fmap in Hx. apply fmap_Some in Hx as (j & Hj & ->). exists j. split; [done|]. split; [done|].
        apply Hsub. by eapply elem_of_list_lookup_2. }
      split; [|split].
      * intros i k x y f fy so to Hlt Hx Hy Ox Oy. destruct (Hat i x Hx) as (a & Ha & -> & Hina). destruct (Hat k y Hy) as (b & Hb & -> & Hinb).
        pose proof (backs_opened p ho mtb tb l rs w H Hap Hren js a (g a) f so (Hg a Hina) Ox) as Sa.
        pose proof (backs_opened p ho mtb tb l rs w H Hap Hren js b (g b) fy to (Hg b Hinb) Oy) as Sb.
        destruct (settings_zoom _ _ Sa) as (_ & <- & _). destruct (settings_zoom _ _ Sb) as (_ & <- & _). exact (sorted_lookup _ _ Hsort i k a b Hlt Ha Hb).
      * intros i k x y mx my Hne Hx Hy Mx My. destruct (Hat i x Hx) as (a & Ha & -> & Hina). destruct (Hat k y Hy) as (b & Hb & -> & Hinb).
        pose proof (Hg a Hina) as (_ & (_ & Ea & _) & _). pose proof (Hg b Hinb) as (_ & (_ & Eb & _) & _). rewrite <- Ea in Mx. rewrite <- Eb in My.
        by eapply (Hmask i k).
      * intros i x y non idx Hx Hy Nx Iy. destruct (Hat i x Hx) as (a & Ha & -> & Hina). destruct (Hat (S i) y Hy) as (b & Hb & -> & Hinb).
        pose proof (Hg a Hina) as (_ & (_ & _ & _ & _ & _ & _ & _ & Ea & _) & _). pose proof (Hg b Hinb) as (_ & (_ & _ & _ & _ & _ & Eb & _) & _).
        rewrite <- Ea in Nx. rewrite <- Eb in Iy. by eapply (Hex i).
    + clear Hst Hleg. revert ws HF'. generalize (cc_entries c). induction jch as [|j jl IH]; intros es ws HF'; [inversion HF'; constructor|].
      destruct ws as [|v ws]; [inversion HF'; constructor|]. cbn [zip zip_with map] in *. inversion HF' as [|? e ? es' Hres Hrest]; subst. constructor.
      * cbn [fst snd] in *. pose proof (Hg j (Hsub j ltac:(by left))) as (_ & Hsame & _). destruct Hsame as (Ew & Em & _ & _ & Eid' & Ei & _).
        unfold js_result in Hres. rewrite Ew, Em, Ei, Eid' in Hres. exact Hres.
      * apply IH; [|done]. intros y Hy. apply Hsub. by right.
Qed.
Print Assumptions C95_stack.

(** ** An example *)
(** Two builders filled in turn by calls of all kinds, some of which fail; a store is asked for a
    key, and both kinds of request are made. *)
Definition z_opts (zoom type : N) : opts_arg := GivenOpts (StoreOpts zoom type (f_of_N 40) [BBox 0 0 16383 16383] f_one).
Definition z_js : list (nat * js_phrasematch) := [(3%nat, e_b); (2%nat, e_a)].
Definition z_l : list js_do :=
  [ NewBuilder (Some 1); CallBuilder 0 (JsInsert e_key (Some [GridEntry f_one 1 2 2 9 0])); NewBuilder (Some 2);
    CallBuilder 1 (JsAppend e_key (Some [GridEntry f_one 3 3 3 1 0])); CallBuilder 0 (JsInsert e_key None);
    CallBuilder 1 (JsAppend (JsKey JsNull JsNull) (Some []));
    CallBuilder 0 (JsInsert e_key (Some [GridEntry f_one 1 1 1 1 0; GridEntry f_one 1 2 2 2 0; GridEntry f_one 1 1 1 5 0]));
    CallBuilder 1 (JsCompact e_key (JsNumber f_one) (JsNumber (f_of_N 3)) (JsNumber (f_of_N 2)) (JsNumber f_zero) (Some [(4, 4); (9, 9)]));
    CallBuilder 1 JsFinish; CallBuilder 0 (JsBounds (Some [1; 7])); CallBuilder 0 JsFinish;
    CallBuilder 1 (JsInsert e_key (Some [GridEntry f_one 1 2 2 9 0]));
    NewStore (Some 1) (z_opts 5 1); NewStore (Some 2) (z_opts 6 2); GetKey 2 e_key;
    Request true z_js (Some g_opts); Request false z_js (Some g_opts) ].
Definition z_run : list js_out * js_world := js_session Debug id_oracle first_mtb last_tb js_start z_l.
Definition z_outs : list js_out := Eval vm_compute in z_run.1.
Notation z_d := (zip z_l z_outs).
Definition z_contexts (o : js_out) : list coalesce_context := match o with OutContexts (Ok cs) => cs | _ => [] end.
Definition z_stacked : list coalesce_context := Eval vm_compute in z_contexts (default (OutObject Err) (z_outs !! 15%nat)).
Definition z_flat : list coalesce_context := Eval vm_compute in z_contexts (default (OutObject Err) (z_outs !! 16%nat)).
Lemma z_opened h f so : opened z_d h f so -> (h = 2%nat /\ f = 1 /\ so = z_opts 5 1) \/ (h = 3%nat /\ f = 2 /\ so = z_opts 6 2).
Proof.
  intros H. unfold opened in H. cbn [zip zip_with z_l z_outs] in H.
  repeat (apply elem_of_cons in H as [H|H]; [try discriminate H|]); [| |by apply elem_of_nil in H].
  - left. injection H as -> -> ->. done.
  - right. injection H as -> -> ->. done.
Qed.
Lemma z_builders f i : (NewBuilder (Some f), OutObject (Ok i)) ∈ z_d -> (f = 1 /\ i = 0%nat) \/ (f = 2 /\ i = 1%nat).
Proof.
  intros H. cbn [zip zip_with z_l z_outs] in H.
  repeat (apply elem_of_cons in H as [H|H]; [try discriminate H|]); [| |by apply elem_of_nil in H].
  - left. injection H as -> ->. done.
  - right. injection H as -> ->. done.
Qed.
Fixpoint before_finish (cs : list js_call) : list js_call :=
  match cs with [] => [] | JsFinish :: _ => [] | c :: cs => c :: before_finish cs end.
Lemma before_finish_ok cs rest : JsFinish ∉ cs -> before_finish (cs ++ JsFinish :: rest) = cs.
Proof.
  induction cs as [|c cs IH]; intros H; [done|]. apply not_elem_of_cons in H as [Hc H].
  destruct c; cbn [app before_finish]; try (by rewrite IH). done.
Qed.
Lemma z_filled f cs : filled z_d f cs -> (f = 1 /\ cs = e_calls_a) \/ (f = 2 /\ cs = e_calls_b).
Proof.
  intros (i & l1 & l2 & rest & E & Hc & Hn). apply (f_equal before_finish) in Hc. rewrite before_finish_ok in Hc by done. subst cs.
  cbn [zip zip_with z_l z_outs] in E.
  destruct l1 as [|d l1]; [injection E as <- <- <-; left; split; [done|vm_compute; reflexivity]|]. injection E as _ E.
  destruct l1 as [|d' l1]; [discriminate E|]. injection E as _ E.
  destruct l1 as [|d'' l1]; [injection E as <- <- <-; right; split; [done|vm_compute; reflexivity]|]. injection E as _ E.
  do 14 (destruct l1 as [|? l1]; [discriminate E|injection E as _ E]). by destruct l1.
Qed.
Lemma z_in_range x : x ∈ z_js -> asks_in_range z_d x.
Proof.
  intros Hx f so cs Ho Hf. unfold z_js in Hx. rewrite !elem_of_cons, elem_of_nil in Hx. destruct Hx as [->|[->|[]]].
  - destruct (z_opened _ _ _ Ho) as [(E & _)|(_ & -> & ->)]; [discriminate E|].
    destruct (z_filled _ _ Hf) as [[E _]|[_ ->]]; [discriminate E|]. destruct (e_ready e_b) as (_ & H1 & H2 & H3); [set_solver|]. done.
  - destruct (z_opened _ _ _ Ho) as [(_ & -> & ->)|(E & _)]; [|discriminate E].
    destruct (z_filled _ _ Hf) as [[_ ->]|[E _]]; [|discriminate E]. destruct (e_ready e_a) as (_ & H1 & H2 & H3); [set_solver|]. done.
Qed.
Example C95_ex :
  js_session Debug id_oracle first_mtb last_tb js_start z_l = (z_outs, z_run.2) /\ builders_apart z_d /\ no_renumber z_d /\
  opened z_d 2 1 (z_opts 5 1) /\ opened z_d 3 2 (z_opts 6 2) /\ filled z_d 1 e_calls_a /\ filled z_d 2 e_calls_b /\
  (GetKey 2 e_key, OutEntries (Ok (Some [GridEntry f_one 1 2 2 2 0; GridEntry f_one 1 1 1 5 0; GridEntry f_one 1 1 1 1 0]))) ∈ z_d /\
  as_key e_key (1, 1) /\ accepted e_calls_a (omap to_op e_calls_a) /\ history_ok (omap to_op e_calls_a) /\
  (Request true z_js (Some g_opts), OutContexts (Ok z_stacked)) ∈ z_d /\ (Request false z_js (Some g_opts), OutContexts (Ok z_flat)) ∈ z_d /\
  sane g_opts /\ NoDup (map (fun x => jp_id x.2) z_js) /\ program_groups z_js /\ program_types z_d z_js /\
  (forall x, x ∈ z_js -> asks_in_range z_d x /\ jp_mask x.2 <> Some 0) /\
  (forall x f so, z_js = [x] -> opened z_d x.1 f so -> mo_zoom g_opts = opt_zoom so) /\
  map (fun c => map (fun e => (ce_idx e, e_cell e)) (cc_entries c)) z_stacked = [[(1, (4, 4)); (0, (2, 2))]; [(1, (4, 4))]; [(0, (2, 2))]] /\
  map (fun c => map (fun e => (ce_idx e, e_cell e)) (cc_entries c)) z_flat = [[(1, (4, 4)); (0, (2, 2))]].
Proof.
  split. { change (js_session Debug id_oracle first_mtb last_tb js_start z_l) with z_run. rewrite (surjective_pairing z_run). f_equal. }
  split. { intros f i j Hi Hj. apply z_builders in Hi, Hj. destruct Hi as [[-> ->]|[-> ->]], Hj as [[E ->]|[E ->]]; try done. }
  split. { intros i ids r H. cbn [zip zip_with z_l z_outs] in H. repeat (apply elem_of_cons in H as [H|H]; [discriminate H|]). by apply elem_of_nil in H. }
  split; [do 12 right; left|]. split; [do 13 right; left|].
  split. { eexists 0%nat, [], _, _. split; [reflexivity|]. split; [vm_compute; reflexivity|]. set_solver. }
  split. { eexists 1%nat, (take 2 z_d), _, _. split; [reflexivity|]. split; [vm_compute; reflexivity|]. set_solver. }
  split; [do 14 right; left|]. split; [apply to_key_iff; vm_compute; reflexivity|]. split; [by apply accepted_iff|].
  split; [apply history_okb_ok; vm_compute; reflexivity|]. split; [do 15 right; left|]. split; [do 16 right; left|].
  split; [exact g_sane|]. split; [apply (bool_decide_eq_true_1 _); vm_compute; reflexivity|]. split.
  { intros x y Hx Hy (_ & H & _). unfold z_js in Hx, Hy. rewrite !elem_of_cons, elem_of_nil in Hx. rewrite !elem_of_cons, elem_of_nil in Hy.
    destruct Hx as [->|[->|[]]], Hy as [->|[->|[]]]; try discriminate H.
    all: split; [reflexivity|]; split; [reflexivity|]; intros la lb Ea Eb; cbn in Ea, Eb; assert (la = lb) as -> by congruence; done. }
  split. { intros x y f g so to _ _ Ox Oy. destruct (z_opened _ _ _ Ox) as [(_ & _ & ->)|(_ & _ & ->)], (z_opened _ _ _ Oy) as [(_ & _ & ->)|(_ & _ & ->)]; cbn; lia. }
  split. { intros x Hx. split; [by apply z_in_range|]. unfold z_js in Hx. rewrite !elem_of_cons, elem_of_nil in Hx. by destruct Hx as [->|[->|[]]]. }
  split; [intros x f so E; discriminate E|]. split; vm_compute; reflexivity.
Qed.
