(** Property C93: a program that uses many objects in any order. *)
From Verif Require Import Prelude Lists F64 Heap Common Builder Store Spec Query Coalesce Stackable Tree Native Spec_native Native_proofs
  Examples Props_storage Props_native Spec_js Spec_end Props_end Session Spec_session Session_proofs.
From Coq Require Import ZifyBool.
Local Open Scope N_scope.

(** ** C93 Objects do not disturb each other *)
(** A builder that has its directory to itself: whatever else the program does in between,
    its calls have the outcomes they would have if they were the whole program, and the
    directory holds what they write. *)
Theorem C93_builder :
  forall p ho mtb tb w f l rs w',
  js_session p ho mtb tb w (NewBuilder (Some f) :: l) = (OutObject (Ok (length (w_objs w))) :: rs, w') ->
  only_builder w' f (length (w_objs w)) ->
  let cr := calls_on (length (w_objs w)) (zip l rs) in
  exists b d, js_run ho (Some builder_new, default ∅ (w_dirs w !! f)) (map fst cr) = (map snd cr, (b, d)) /\
    w_objs w' !! length (w_objs w) = Some (ABuilder f b) /\ default ∅ (w_dirs w' !! f) = d /\
    (is_Some (w_dirs w' !! f) <-> is_Some (w_dirs w !! f) \/ (JsFinish, Ok tt) ∈ cr).
Proof.
  intros p ho mtb tb w f l rs w' H Hon. rewrite session_cons in H. cbn [js_does js_make fst snd] in H. injection H as <- Hw.
  apply (builder_alone p ho mtb tb l (World (w_dirs w) (w_objs w ++ [ABuilder f (Some builder_new)])) _ f (Some builder_new) w'); [|done|done].
  cbn [w_objs]. by rewrite lookup_app_r, Nat.sub_diag by lia.
Qed.
Print Assumptions C93_builder.

(** A store is what it was when it was opened: get() gives the same answer whenever it is
    called. A directory on which no finish() succeeded cannot be opened. *)
Theorem C93_store :
  forall p ho mtb tb w f so l i rs w',
  js_session p ho mtb tb w (NewStore (Some f) so :: l) = (OutObject (Ok i) :: rs, w') ->
  exists d s, w_dirs w !! f = Some d /\ js_open d so = Ok s /\ w_objs w' !! i = Some (AStore s) /\
    forall k r, (GetKey i k, r) ∈ zip l rs -> r = OutEntries (js_get s k).
Proof.
  intros p ho mtb tb w f so l i rs w' H. rewrite session_cons in H. cbn [js_does] in H.
  destruct (w_dirs w !! f) as [d|]; [|by injection H]. destruct (js_open d so) as [s| | |] eqn:Es; try (by injection H).
  cbn [js_make fst snd] in H. injection H as <- <- <-. exists d, s. split; [done|]. split; [done|].
  assert (E : w_objs (World (w_dirs w) (w_objs w ++ [AStore s])) !! length (w_objs w) = Some (AStore s)).
  { cbn [w_objs]. by rewrite lookup_app_r, Nat.sub_diag by lia. }
  split; [by apply store_stays|]. intros k r. by apply store_gets.
Qed.
Print Assumptions C93_store.
Theorem C93_missing :
  forall p ho mtb tb l rs w f so r w',
  js_session p ho mtb tb js_start l = (rs, w) ->
  (forall i b, w_objs w !! i = Some (ABuilder f b) -> (CallBuilder i JsFinish, OutDone (Ok tt)) ∉ zip l rs) ->
  js_does p ho mtb tb w (NewStore (Some f) so) = (r, w') -> r = OutObject Err /\ w' = w.
Proof.
  intros p ho mtb tb l rs w f so r w' Hs Hn H. cbn [js_does] in H. destruct (w_dirs w !! f) as [d|] eqn:E; [|by injection H].
  exfalso. pose proof (dir_written p ho mtb tb js_start l f d) as Hd. rewrite Hs in Hd. cbn [fst snd] in Hd.
  destruct Hd as (i & b & Hi & Hin); [done|apply lookup_empty|]. by apply (Hn i b).
Qed.
Print Assumptions C93_missing.

(** A store is opened on what its directory holds, with the options given. It opens whenever
    there is something to open and the options are of the right type. *)
Theorem C93_options :
  forall p ho mtb tb w f so r w',
  js_does p ho mtb tb w (NewStore (Some f) so) = (r, w') ->
  (exists d s, w_dirs w !! f = Some d /\ so <> BadOpts /\ r = OutObject (Ok (length (w_objs w))) /\
     w_dirs w' = w_dirs w /\ w_objs w' = w_objs w ++ [AStore s] /\ st_db s = d /\ has_settings s so) \/
  ((w_dirs w !! f = None \/ so = BadOpts) /\ r = OutObject Err /\ w' = w).
Proof.
  intros p ho mtb tb w f so r w' H. cbn [js_does] in H.
  destruct (w_dirs w !! f) as [d|]; [|injection H as <- <-; right; auto].
  destruct so as [| |o]; cbn [js_open js_make] in H; injection H as <- <-.
  - left. eexists d, _. split; [done|]. split; [done|]. split; [done|]. split; [done|]. split; [done|]. by split.
  - right. auto.
  - left. eexists d, _. split; [done|]. split; [done|]. split; [done|]. split; [done|]. split; [done|]. by split.
Qed.
Print Assumptions C93_options.

(** What is asked of the wrong object throws and changes nothing. *)
Theorem C93_wrong :
  forall p ho mtb tb w a r w',
  js_does p ho mtb tb w a = (r, w') -> wrong_object w a -> js_threw r /\ w' = w.
Proof.
  intros p ho mtb tb w a r w' H Hw. unfold js_threw. destruct a as [df|i c|df so|i k|i|i|st js o]; cbn [wrong_object] in Hw; try done.
  - cbn [js_does] in H. destruct (w_objs w !! i) as [[f b|s|l]|]; [exfalso; eauto|..]; injection H as <- <-; auto.
  - cbn [js_does] in H. unfold is_store in Hw. destruct (w_objs w !! i) as [[f b|s|l]|]; [|exfalso; eauto|..]; injection H as <- <-; auto 10.
  - cbn [js_does] in H. unfold is_store in Hw. destruct (w_objs w !! i) as [[f b|s|l]|]; [|exfalso; eauto|..]; injection H as <- <-; auto 10.
  - cbn [js_does] in H. destruct (w_objs w !! i) as [[f b|s|l]|]; [| |exfalso; eauto|]; injection H as <- <-; auto 10.
  - destruct Hw as (x & Hx & Hs). cbn [js_does] in H. injection H as <- <-. split; [|done]. do 4 right. f_equal.
    assert (res_mapM (on_store w) js = Err) as ->; [|done]. induction js as [|y js IH]; [by apply elem_of_nil in Hx|]. cbn [res_mapM].
    assert (Hy : (exists j, on_store w y = Ok j) \/ on_store w y = Err).
    { unfold on_store. destruct (w_objs w !! y.1) as [[f b|s|l]|]; eauto. }
    destruct Hy as [[j Hj]|Hj]; rewrite Hj; [|done]. cbn [res_bind].
    apply elem_of_cons in Hx as [->|Hx]; [|by rewrite IH]. exfalso. apply Hs. unfold is_store. unfold on_store in Hj.
    destruct (w_objs w !! y.1) as [[f b|s|l]|]; [discriminate Hj|eauto|discriminate Hj..].
Qed.
Print Assumptions C93_wrong.

(** An iterator hands out the keys of its store, one at each call, whatever happens in between. *)
Theorem C93_keys :
  forall p ho mtb tb w h l i rs w',
  js_session p ho mtb tb w (NewIterator h :: l) = (OutObject (Ok i) :: rs, w') ->
  exists s, w_objs w !! h = Some (AStore s) /\
    let outs := nexts_on i (zip l rs) in outs = js_keys_take (length outs) (js_keys s).
Proof.
  intros p ho mtb tb w h l i rs w' H. rewrite session_cons in H. cbn [js_does] in H.
  destruct (w_objs w !! h) as [[f b|s|r]|] eqn:E; try (by injection H). cbn [js_make fst snd] in H. injection H as <- <- <-.
  exists s. split; [done|]. eapply iterator_alone. cbn [w_objs]. by rewrite lookup_app_r, Nat.sub_diag by lia.
Qed.
Print Assumptions C93_keys.

(** A request sees the stores of its objects. *)
Definition js_same_but_store (j j' : js_phrasematch) : Prop :=
  jp_weight j' = jp_weight j /\ jp_mask j' = jp_mask j /\ jp_phrase j' = jp_phrase j /\ jp_lang j' = jp_lang j /\ jp_id j' = jp_id j /\
  jp_idx j' = jp_idx j /\ jp_nearby j' = jp_nearby j /\ jp_nonoverlap j' = jp_nonoverlap j /\ jp_length j' = jp_length j.
Theorem C93_request :
  forall p ho mtb tb w l rs w' stacked js o out,
  js_session p ho mtb tb w l = (rs, w') -> (Request stacked js o, OutContexts (Ok out)) ∈ zip l rs ->
  exists js', Forall2 (fun x j => js_same_but_store x.2 j /\ w_objs w' !! x.1 = Some (AStore (jp_store j))) js js' /\
    (if stacked then js_stack_and_coalesce p ho mtb tb js' o else js_coalesce p ho mtb tb js' o) = Ok out.
Proof.
  intros p ho mtb tb w l rs w' stacked js o out H Hin. assert (rs = (js_session p ho mtb tb w l).1) as -> by (by rewrite H).
  assert (w' = (js_session p ho mtb tb w l).2) as -> by (by rewrite H). clear H. revert w Hin.
  induction l as [|a l IH]; intros w Hin; [by apply elem_of_nil in Hin|]. rewrite session_cons in Hin |- *. cbn [fst snd zip] in *.
  apply elem_of_cons in Hin as [E|Hin]; [|by apply IH].
  injection E as <- E. cbn [js_does fst snd] in E |- *. injection E as E. symmetry in E. apply bind_Ok in E as (js' & Hjs & E).
  exists js'. split; [|done]. apply res_mapM_Ok in Hjs. eapply Forall2_impl; [exact Hjs|]. intros x j Hx. unfold on_store in Hx.
  destruct (w_objs w !! x.1) as [[f b|s|r]|] eqn:Ex; try discriminate Hx. injection Hx as <-. split; [done|]. cbn [jp_store].
  by apply store_stays.
Qed.
Print Assumptions C93_request.

(** ** From the constructor of the builder to the answers of the store *)
Lemma first_finish (cs : list js_call) : JsFinish ∈ cs -> exists a b, cs = a ++ JsFinish :: b /\ JsFinish ∉ a.
Proof.
  induction cs as [|c cs IH]; intros H; [by apply elem_of_nil in H|].
  assert (c = JsFinish \/ c <> JsFinish) as [->|Hc] by (destruct c; auto; right; discriminate).
  - exists [], cs. split; [done|]. apply not_elem_of_nil.
  - apply elem_of_cons in H as [?|H]; [congruence|]. destruct (IH H) as (a & b & -> & Ha). exists (c :: a), b. split; [done|].
    rewrite elem_of_cons. intros [?|?]; congruence.
Qed.
Lemma performs_length b cs rs b' : performs b cs rs b' -> length rs = length cs.
Proof. induction 1; cbn; congruence. Qed.
Lemma zip_fst_snd {A B} (l : list (A * B)) : zip (map fst l) (map snd l) = l.
Proof. induction l as [|[a b] l IH]; [done|]. cbn. by rewrite IH. Qed.
Lemma as_key_ok k key : as_key k key -> key_ok key.
Proof.
  intros (v & _ & Hu & Hl). split.
  - inversion Hu; cbn in *; lia.
  - inversion Hl; subst; lia.
Qed.

(** In a program that starts from nothing: a store that could be opened on the directory of
    a builder that has it to itself holds what was written by the calls on that builder
    before its first finish(); get() answers accordingly at any time after. *)
Theorem C93_whole :
  forall p ho mtb tb l1 rs1 w1 f l2 rs2 w2 so l3 rs3 w3 h,
  let i := length (w_objs w1) in
  js_session p ho mtb tb js_start l1 = (rs1, w1) ->
  js_session p ho mtb tb w1 (NewBuilder (Some f) :: l2) = (OutObject (Ok i) :: rs2, w2) ->
  js_session p ho mtb tb w2 (NewStore (Some f) so :: l3) = (OutObject (Ok h) :: rs3, w3) ->
  only_builder w3 f i ->
  exists cs rest, map fst (calls_on i (zip l2 rs2)) = cs ++ JsFinish :: rest /\ JsFinish ∉ cs /\
    ((forall ids, JsRenumber ids ∉ cs) ->
     exists s, w_objs w3 !! h = Some (AStore s) /\ indexed cs s /\
       forall ops k key r, accepted cs ops -> history_ok ops -> as_key k key -> (GetKey h k, r) ∈ zip l3 rs3 ->
         (exists out, r = OutEntries (Ok (Some out)) /\ NoDup out /\
            forall e, e ∈ out <-> exists w, js_holds cs key w /\ e = snap w) \/
         (r = OutEntries (Ok None) /\ forall w, ~ js_holds cs key w)).
Proof.
  intros p ho mtb tb l1 rs1 w1 f l2 rs2 w2 so l3 rs3 w3 h i H1 H2 H3 Hon.
  assert (Hkeep : forall x b, w_objs w2 !! x = Some (ABuilder f b) -> x = i).
  { intros x b Hx. destruct (builder_stays p ho mtb tb w2 (NewStore (Some f) so :: l3) x f b Hx) as [b' Hb']. rewrite H3 in Hb'. by apply (Hon x b'). }
  assert (Hnone : w_dirs w1 !! f = None).
  { destruct (w_dirs w1 !! f) as [d|] eqn:E; [|done]. exfalso.
    pose proof (dir_written p ho mtb tb js_start l1 f d) as Hd. rewrite H1 in Hd. cbn [fst snd] in Hd.
    destruct Hd as (x & b & Hx & _); [done|apply lookup_empty|].
    destruct (builder_stays p ho mtb tb w1 (NewBuilder (Some f) :: l2) x f b Hx) as [b' Hb']. rewrite H2 in Hb'. cbn [snd] in Hb'.
    pose proof (Hkeep x b' Hb') as ->. apply lookup_lt_Some in Hx. unfold i in Hx. lia. }
  destruct (C93_builder p ho mtb tb w1 f l2 rs2 w2 H2 Hkeep) as (b & d & Hrun & Hb & Hd & Hsome). fold i in Hrun, Hb, Hsome.
  set (cr := calls_on i (zip l2 rs2)) in *. rewrite Hnone in Hrun, Hsome. change (default ∅ None) with (∅ : gmap (list N) (list N)) in Hrun.
  destruct (C93_store p ho mtb tb w2 f so l3 h rs3 w3 H3) as (d' & s & Ed & Hopen & Hs & Hget).
  rewrite Ed in Hd. assert (d' = d) as -> by exact Hd. clear Hd.
  assert (Hfin : (JsFinish, Ok tt) ∈ cr).
  { destruct Hsome as [Hsome _]. destruct Hsome as [[? ?]|?]; [by eexists|done|done]. }
  destruct (first_finish (map fst cr)) as (cs & rest & Ecs & Hcs).
  { apply elem_of_list_In. change JsFinish with (fst (JsFinish, Ok tt : res unit)). apply List.in_map. by apply elem_of_list_In. }
  exists cs, rest. split; [done|]. split; [done|]. intros Hren.
  rewrite Ecs in Hrun.
  destruct (C56_lifecycle ho builder_new ∅ cs rest Hcs) as (rs & b' & Hp & _ & Hok & Hbad).
  pose proof (performs_length _ _ _ _ Hp) as Hlen.
  destruct (finish ho b' ∅) as [d1| | |] eqn:Ef.
  2-4: exfalso; destruct Hbad as (r & Hr & Hb'); [done|]; rewrite Hb' in Hrun; injection Hrun as Hrs _ _;
    rewrite <- (zip_fst_snd cr), Ecs, <- Hrs, zip_with_app in Hfin by done; cbn [zip] in Hfin;
    apply elem_of_app in Hfin as [Hf|Hf];
    [apply elem_of_zip_l in Hf; done|];
    apply elem_of_cons in Hf as [Hf|Hf]; [injection Hf as Hf; congruence|];
    apply elem_of_zip_r, elem_of_replicate in Hf as [? _]; congruence.
  rewrite (Hok d1 eq_refl) in Hrun. injection Hrun as _ _ Ed1. rewrite <- Ed1 in Hopen. clear Hbad Hok.
  assert (Hidx : indexed cs s /\ exists z t ra bb ms, s = open_store d1 z t ra bb ms).
  { destruct (C56_lifecycle ho builder_new ∅ cs [] Hcs) as (rs' & b1 & Hp' & Hr1 & Hok' & _).
    destruct (C56_lifecycle ho builder_new ∅ cs rest Hcs) as (rs'' & b2 & Hp'' & Hr2 & _ & _).
    assert (Efin : finish ho b1 ∅ = Ok d1).
    { pose proof (js_run_open ho ∅ cs builder_new Hcs) as (rx & bx & _ & Hx). rewrite Hr1 in Hx.
      assert (b' = b1) as <-; [|done]. clear - Hp Hp'. revert rs' b1 Hp'. induction Hp as [b0|b0 c o0 cs0 rs0 b'0 Ho HP IH|b0 ids cs0 rs0 b'0 HP IH|b0 c cs0 rs0 b'0 Hno Hni HP IH]; intros rs' b1 Hp'.
      - by inversion Hp'.
      - inversion Hp' as [|b2 c2 o2 cs2 rs2 b3 Ho2 HP2|b2 ids2 cs2 rs2 b3 HP2|b2 c2 cs2 rs2 b3 Hno2 _ HP2]; subst.
        + assert (o0 = o2) as <- by (apply to_op_ok in Ho, Ho2; congruence). by eapply IH.
        + inversion Ho.
        + exfalso. by apply (Hno2 o0).
      - inversion Hp' as [|b2 c2 o2 cs2 rs2 b3 Ho2 HP2|b2 ids2 cs2 rs2 b3 HP2|b2 c2 cs2 rs2 b3 _ Hno2 HP2]; subst.
        + inversion Ho2.
        + by eapply IH.
        + exfalso. by apply (Hno2 ids).
      - inversion Hp' as [|b2 c2 o2 cs2 rs2 b3 Ho2 HP2|b2 ids2 cs2 rs2 b3 HP2|b2 c2 cs2 rs2 b3 Hno2 _ HP2]; subst.
        + exfalso. by apply (Hno o2).
        + exfalso. by apply (Hni ids2).
        + by eapply IH. }
    assert (exists z t ra bb ms, s = open_store d1 z t ra bb ms) as Hz.
    { destruct so as [| |so]; cbn [js_open] in Hopen; [|discriminate Hopen|]; injection Hopen as <-; unfold open_default; by repeat eexists. }
    split; [|done]. destruct Hz as (z & t & ra & bb & ms & ->).
    exists ho, (rs' ++ [Ok tt]), d1, z, t, ra, bb, ms. split; [done|]. split; [done|]. split; [by apply Hok'|]. by rewrite last_snoc. }
  destruct Hidx as [Hidx _]. exists s. split; [done|]. split; [done|].
  intros ops k key r Ha Hh Hk Hin. pose proof (Hget k r Hin) as ->. unfold js_get. pose proof Hk as Hk'. apply to_key_iff in Hk'. rewrite Hk'. cbn [res_bind].
  destruct Hidx as (o & rsx & dx & z & t & ra & bb & ms & _ & _ & Hrx & Hlx & ->).
  destruct (C56_built o cs dx z t ra bb ms Hcs Hren) as (ops' & Ha' & Hbu); [by rewrite Hrx|by rewrite Hrx|].
  pose proof (accepted_one cs ops ops' Ha Ha') as <-.
  pose proof (C01_store_round_trip o ops _ key Hh Hbu (as_key_ok k key Hk)) as Hg.
  pose proof (fun w => C89_written cs ops key w Ha) as Hw.
  destruct (written ops !! key) as [es|] eqn:Ew.
  - left. destruct Hg as (out & -> & Hnd & Hm). exists out. split; [done|]. split; [done|]. intros e. rewrite Hm. split.
    + intros (e0 & He0 & ->). exists e0. split; [|done]. apply Hw. by exists es.
    + intros (w & Hw' & ->). exists w. split; [|done]. apply Hw in Hw' as (es' & [= <-] & ?). done.
  - right. rewrite Hg. split; [done|]. intros w Hw'. apply Hw in Hw' as (es & E & _). discriminate E.
Qed.
Print Assumptions C93_whole.

(** Two builders at work in turn, a store that is opened too early, and one that is opened
    while the other builder is still at work. *)
Definition n_e (i : N) : grid_entry := GridEntry f_one 1 2 3 i 0.
Definition n_l1 : list js_do := [NewBuilder (Some 2); NewBuilder None].
Definition n_l2 : list js_do :=
  [ CallBuilder 0 (JsInsert e_key (Some [n_e 5])); CallBuilder 1 (JsInsert e_key (Some [n_e 6])); NewStore (Some 1) NoOpts;
    CallBuilder 0 (JsAppend e_key (Some [n_e 7])); CallBuilder 1 (JsInsert e_key (Some [n_e 8]));
    CallBuilder 1 (JsAppend e_key (Some [n_e 9])); CallBuilder 1 JsFinish; CallBuilder 1 (JsAppend e_key (Some [n_e 4])) ].
Definition n_opts : opts_arg := GivenOpts (StoreOpts 14 0 f_one [] f_one).
Definition n_l3 : list js_do :=
  [ GetKey 2 e_key; CallBuilder 0 JsFinish; NewIterator 2; NextKey 3; GetKey 2 e_key; NewStore (Some 2) NoOpts; GetKey 4 e_key;
    NextKey 3; GetKey 1 e_key ].
Notation n_run := (js_session Debug id_oracle first_mtb first_tb).
Definition n_w1 : js_world := (n_run js_start n_l1).2.
Definition n_w2 : js_world := (n_run n_w1 (NewBuilder (Some 1) :: n_l2)).2.
Definition n_w3 : js_world := (n_run n_w2 (NewStore (Some 1) n_opts :: n_l3)).2.
Definition n_outs2 : list js_out :=
  [OutDone (Ok tt); OutDone (Ok tt); OutObject Err; OutDone (Ok tt); OutDone (Ok tt); OutDone (Ok tt); OutDone (Ok tt); OutDone Err].
Definition n_outs3 : list js_out :=
  [ OutEntries (Ok (Some [n_e 9; n_e 8])); OutDone (Ok tt); OutObject (Ok 3%nat);
    OutNext (Ok (JsValue f_one (JsArray [JsNumber f_zero]))); OutEntries (Ok (Some [n_e 9; n_e 8])); OutObject (Ok 4%nat);
    OutEntries (Ok (Some [n_e 7; n_e 5])); OutNext (Ok JsDone); OutEntries Err ].
Example C93_ex :
  n_run js_start n_l1 = ([OutObject (Ok 0%nat); OutObject Err], n_w1) /\
  n_run n_w1 (NewBuilder (Some 1) :: n_l2) = (OutObject (Ok 1%nat) :: n_outs2, n_w2) /\ length (w_objs n_w1) = 1%nat /\
  n_run n_w2 (NewStore (Some 1) n_opts :: n_l3) = (OutObject (Ok 2%nat) :: n_outs3, n_w3) /\
  only_builder n_w3 1 1 /\
  calls_on 1 (zip n_l2 n_outs2) =
    [ (JsInsert e_key (Some [n_e 6]), Ok tt); (JsInsert e_key (Some [n_e 8]), Ok tt); (JsAppend e_key (Some [n_e 9]), Ok tt);
      (JsFinish, Ok tt); (JsAppend e_key (Some [n_e 4]), Err) ].
Proof.
  split; [|split; [|split; [|split; [|split]]]].
  - rewrite (surjective_pairing (n_run js_start n_l1)). f_equal.
  - rewrite (surjective_pairing (n_run n_w1 _)). f_equal; vm_compute; reflexivity.
  - reflexivity.
  - rewrite (surjective_pairing (n_run n_w2 _)). f_equal; vm_compute; reflexivity.
  - intros i b H. assert (E : map (fun x => match x with ABuilder f _ => Some f | _ => None end) (w_objs n_w3) = [Some 2; Some 1; None; None; None])
      by (vm_compute; reflexivity).
    pose proof (f_equal (fun l => l !! i) E) as Ei. cbn beta in Ei. rewrite list_lookup_fmap in Ei.
    change (option_map) with (@fmap option _ js_object (option N)) in Ei. rewrite H in Ei. cbn in Ei.
    do 5 (destruct i as [|i]; [cbn in Ei; congruence|]). destruct i; discriminate Ei.
  - vm_compute. reflexivity.
Qed.

(** The stores of the example have the options they were opened with; builders answer no get(). *)
Example C93_settings_ex :
  (exists s, w_objs n_w3 !! 2%nat = Some (AStore s) /\ has_settings s n_opts) /\
  (exists s, w_objs n_w3 !! 4%nat = Some (AStore s) /\ has_settings s NoOpts) /\
  wrong_object n_w3 (GetKey 1 e_key) /\ (n_run n_w3 [GetKey 1 e_key; NextKey 2; CallBuilder 2 JsFinish]).1 = [OutEntries Err; OutNext Err; OutDone Err].
Proof.
  split; [|split; [|split]].
  - eexists. split; [vm_compute; reflexivity|]. vm_compute. repeat split.
  - eexists. split; [vm_compute; reflexivity|]. vm_compute. repeat split.
  - intros [s Hs]. vm_compute in Hs. discriminate Hs.
  - vm_compute. reflexivity.
Qed.
