(** Property C97: programs within range do not crash. *)
From Verif Require Import Prelude Lists F64 Heap Common Builder Spatial Store Spec Spec_match Query Coalesce Stackable Spec_stack Tree Spec_tree Native Spec_native Native_proofs
  Bins_proofs History_proofs Examples Props_storage Props_builder Props_native Spec_js Props_js Props_zoom Spec_total Props_total Props_flat Spec_coalesce Spec_ground Props_ground Spec_end Props_end
  Session Spec_session Session_proofs Props_session Spec_flatend Props_flatend Spec_program Props_program Background Spec_background Props_background Spec_safe.
From Coq Require Import ZifyBool.
Local Open Scope N_scope.

Section safe.
Context (p : profile) (ho : hash_oracle) (mtb : merge_tb) (tb : tiebreak).
Notation does := (js_does p ho mtb tb).
Notation session := (js_session p ho mtb tb).

(** What an open builder holds. *)
Lemma builder_holds l : forall w i f b0 f' b, w_objs w !! i = Some (ABuilder f b0) -> w_objs (session w l).2 !! i = Some (ABuilder f' (Some b)) ->
  let cs := map fst (calls_on i (zip l (session w l).1)) in
  f' = f /\ JsFinish ∉ cs /\ exists b1, b0 = Some b1 /\ exists rs, performs b1 cs rs b.
Proof.
  induction l as [|a l IH]; intros w i f b0 f' b H0 H cs.
  - cbn in H. assert (E : Some (ABuilder f b0) = Some (ABuilder f' (Some b))) by congruence. injection E as -> ->. split; [done|].
    split; [by intros ?%elem_of_nil|]. exists b. split; [done|]. exists []. constructor.
  - unfold cs in *. clear cs. rewrite session_cons in H |- *. cbn [fst snd zip] in *. destruct (is_call a i) as [[c ->]|Hne].
    + pose proof (does_builder p ho mtb tb w (CallBuilder i c) i f b0 H0 eq_refl) as E. cbv zeta in E. rewrite E in H |- *. cbn [fst snd zip] in *.
      set (r := js_step ho (b0, default ∅ (w_dirs w !! f)) c) in *.
      assert (Hi : w_objs (World (match r.1, c with Ok _, JsFinish => <[f := r.2.2]> (w_dirs w) | _, _ => w_dirs w end)
                                     (<[i := ABuilder f r.2.1]> (w_objs w))) !! i = Some (ABuilder f r.2.1)).
      { cbn [w_objs]. apply list_lookup_insert. by eapply lookup_lt_Some. }
      destruct (IH _ _ _ _ _ _ Hi H) as (-> & Hf & b1 & E1 & rs & Hp). unfold calls_on in *. cbn [omap list_omap call_on map]. rewrite decide_True by done.
      cbn [map fst]. destruct b0 as [b2|]; [|discriminate E1].
      assert (Hc : c <> JsFinish).
      { intros ->. unfold r in E1. cbn [js_step fst snd] in E1. destruct (finish ho b2 _); discriminate E1. }
      assert (Er : r.2.1 = Some (js_edit b2 c).2).
      { unfold r, js_step. cbn [fst snd]. destruct c; try done; by destruct (js_edit b2 _). }
      rewrite Er in E1. injection E1 as E1. split; [done|]. split; [rewrite not_elem_of_cons; by split|]. exists b2. split; [done|].
      destruct (js_run_open ho ∅ [c] b2) as (rs1 & b3 & Hp1 & Hr1); [rewrite not_elem_of_cons; split; [done|by intros ?%elem_of_nil]|].
      rewrite js_run_cons in Hr1. cbn [js_run fst snd] in Hr1. apply (f_equal (fun x => x.2.1)) in Hr1. cbn [fst snd] in Hr1.
      assert (E3 : (js_step ho (Some b2, ∅) c).2.1 = Some (js_edit b2 c).2) by (unfold js_step; cbn [fst snd]; destruct c; try done; by destruct (js_edit b2 _)).
      assert (b3 = b1) as -> by congruence.
      clear -Hp1 Hp. inversion Hp1 as [|? ? o ? ? ? Hs Hn|? ids ? ? ? Hn|? ? ? ? ? Hno Hni Hn]; subst; inversion Hn; subst.
      * eexists. by eapply perf_op.
      * eexists. by apply perf_renumber.
      * eexists. by apply perf_bad.
    + assert (Hi : w_objs (does w a).2 !! i = Some (ABuilder f b0)).
      { apply does_other; [done| |by intros _ ?]. intros c ->. exfalso. apply Hne. by exists c. }
      destruct (IH _ _ _ _ _ _ Hi H) as (-> & Hf & HH). unfold calls_on in *. cbn [omap list_omap].
      assert (call_on i (a, (does w a).1) = None) as ->; [|by split].
      destruct a; try done. cbn [call_on]. destruct ((does w (CallBuilder obj c)).1); try done. rewrite decide_False; [done|]. intros <-. apply Hne. by exists c.
Qed.

(** Every iterator was made on a store, and hands out its records. *)
Lemma iterator_made l : forall w i r, w_objs (session w l).2 !! i = Some (AnIterator r) ->
  (exists r0, w_objs w !! i = Some (AnIterator r0) /\ r `suffix_of` r0) \/
  exists h s, w_objs (session w l).2 !! h = Some (AStore s) /\ r `suffix_of` js_keys s.
Proof.
  induction l as [|a l IH]; intros w i r H; [left; by exists r|]. rewrite session_cons in H |- *. cbn [fst snd] in *.
  destruct (IH _ _ _ H) as [(r1 & H1 & Hs)|Hin]; [|right; exact Hin].
  destruct a as [[f'|]|i' c|[f'|] o|i' k|i'|i'|st js o]; cbn [js_does js_make fst snd w_objs] in H1; try (left; by exists r1).
  - apply lookup_app_Some in H1 as [H1|[Hle H1]]; [left; by exists r1|]. by apply list_lookup_singleton_Some in H1 as [_ ?].
  - left. destruct (w_objs w !! i') as [[f' b'| |]|] eqn:E; try (by exists r1). destruct (js_step _ _ _) as [r' [b'' d]]. cbn [snd w_objs] in H1.
    destruct (decide (i' = i)) as [->|Hne].
    + rewrite list_lookup_insert in H1 by (by eapply lookup_lt_Some). discriminate H1.
    + rewrite list_lookup_insert_ne in H1 by done. by exists r1.
  - left. destruct (w_dirs w !! f') as [d|]; [|by exists r1]. destruct (js_open d o); try (by exists r1). cbn [js_make snd w_objs] in H1.
    apply lookup_app_Some in H1 as [H1|[Hle H1]]; [by exists r1|]. by apply list_lookup_singleton_Some in H1 as [_ ?].
  - destruct (w_objs w !! i') as [[f' b'|s|]|] eqn:E; try (left; by exists r1). cbn [js_make snd w_objs] in H1.
    apply lookup_app_Some in H1 as [H1|[Hle H1]]; [left; by exists r1|]. apply list_lookup_singleton_Some in H1 as [_ Er]. injection Er as Er.
    right. exists i', s. split; [|by rewrite Er]. apply store_stays. apply does_other; [done|by intros|by intros].
  - left. destruct (w_objs w !! i') as [[f' b'|s|l']|] eqn:E; try (by exists r1). destruct (js_keys_next l') as [r' l''] eqn:En. cbn [snd w_objs] in H1.
    destruct (decide (i' = i)) as [->|Hne].
    + rewrite list_lookup_insert in H1 by (by eapply lookup_lt_Some). injection H1 as ->. exists l'. split; [done|].
      destruct l' as [|k l']; cbn [js_keys_next] in En; apply (f_equal snd) in En; cbn [snd] in En; subst; [done|]. by apply suffix_cons_r.
    + rewrite list_lookup_insert_ne in H1 by done. by exists r1.
Qed.
Lemma keys_read s ho' ops rest : history_ok ops -> built ho' ops s -> rest `suffix_of` js_keys s -> succeeds (js_keys_next rest).1.
Proof.
  intros Hh Hb [pre E]. destruct rest as [|r rest]; [by eexists|]. cbn [js_keys_next fst].
  destruct (built_keys ho' ops s Hh Hb) as (ks & Hk & _). change (keys s) with (res_mapM (fun kv : bytes * bytes => read_key kv.1) (js_keys s)) in Hk.
  apply res_mapM_Ok in Hk. assert (Hr : js_keys s !! length pre = Some r) by (by rewrite E, lookup_app_r, Nat.sub_diag by lia).
  destruct (Forall2_lookup_l _ _ _ _ _ Hk Hr) as (k & _ & ->). by eexists.
Qed.
End safe.

#[local] Existing Instance js_phrasematch_eq_dec.
Section inrange.
Context (p : profile) (ho : hash_oracle) (mtb : merge_tb) (tb : tiebreak) (l : list js_do) (rs : list js_out) (w : js_world).
Context (Hrun : js_session p ho mtb tb js_start l = (rs, w)).
Notation L := (zip l rs).
Context (Hap : builders_apart L) (Hren : no_renumber L) (Hfill : fills_in_range L).

Lemma indexed_built cs s ops : indexed cs s -> accepted cs ops -> exists ho', built ho' ops s.
Proof.
  intros (o & rs' & d & z & t & ra & bb & ms & Hf & Hre & Hr & Hlast & ->) Ha.
  destruct (C56_built o cs d z t ra bb ms Hf Hre) as (ops' & Ha' & Hb); [by rewrite Hr|by rewrite Hr|].
  pose proof (accepted_one cs ops ops' Ha Ha') as <-. by exists o.
Qed.
Lemma store_built h s : w_objs w !! h = Some (AStore s) -> exists ops ho', history_ok ops /\ built ho' ops s.
Proof.
  intros Hs. pose proof (store_made p ho mtb tb l js_start h s) as Hm. rewrite Hrun in Hm. destruct (Hm Hs) as [Hm'|(f & so & Hop)]; [cbn in Hm'; discriminate Hm'|].
  destruct (C95_store p ho mtb tb l rs w f so h Hrun Hap Hren Hop) as (s' & cs & Hs' & _ & Hfi & Hidx). cbn [fst snd] in *. assert (s' = s) as -> by congruence.
  destruct (indexed_built cs s (omap to_op cs) Hidx) as [ho' Hb]; [by apply accepted_iff|]. exists (omap to_op cs), ho'. split; [|done].
  eapply Hfill; [exact Hfi|by apply accepted_iff].
Qed.

(** A request that can be converted is answered. *)
Lemma request_answered w1 st js js' pms o :
  (forall i s, w_objs w1 !! i = Some (AStore s) -> w_objs w !! i = Some (AStore s)) ->
  request_in_range p L st js o -> res_mapM (on_store w1) js = Ok js' -> deserialize_phrasesubq js' = Ok pms ->
  exists out, (if st then stack_and_coalesce p ho mtb tb pms o else coalesce p ho mtb tb pms o) = Ok out.
Proof.
  intros Hsub [Hr Hrest] Hjs Hpms.
  assert (HF : Forall2 (fun x j => js_same_but_store x.2 j /\ w_objs w !! x.1 = Some (AStore (jp_store j))) js js').
  { apply res_mapM_Ok in Hjs. eapply Forall2_impl; [exact Hjs|]. intros x j Hx. unfold on_store in Hx.
    destruct (w_objs w1 !! x.1) as [[f b|s|r]|] eqn:Ex; try discriminate Hx. injection Hx as <-. split; [done|]. cbn [jp_store]. by apply Hsub. }
  destruct (choose ((0%nat, JsPhrasematch (open_default ∅) None None None JsNull None None JsNull None 0), (0, NoOpts, [])) (backs l rs w js) js'
              (converted_backs p ho mtb tb l rs w Hrun Hap Hren js js' HF)) as [g Hg].
  apply C63_converted in Hpms.
  assert (Hat : forall pm, pm ∈ pms -> exists j, j ∈ js' /\ as_subquery j pm).
  { intros pm Hpm. apply elem_of_list_lookup in Hpm as [n Hn]. destruct (Forall2_lookup_r _ _ _ _ _ Hpms Hn) as (j & Hj & Has).
    exists j. split; [by eapply elem_of_list_lookup_2|done]. }
  assert (Hready : forall j, j ∈ js' -> ready (g j).2.2 j).
  { intros j Hj. pose proof (Hg j Hj) as Hb. eapply backs_ready; [exact Hb|]. apply Hr, Hb. }
  assert (Hans : forall pm, pm ∈ pms -> answerable pm).
  { intros pm Hpm. destruct (Hat pm Hpm) as (j & Hj & Es & _ & _ & _ & _ & k & Ek & Hk). destruct (Hready j Hj) as (Hidx & Hops & Hz & Hra).
    split; [by rewrite Ek|]. split; [unfold finite_tiles; by rewrite Es|]. intros k' Hk'. rewrite Ek in Hk'. apply elem_of_list_singleton in Hk' as ->.
    set (ops := omap to_op (g j).2.2). assert (Ha : accepted (g j).2.2 ops) by (by apply accepted_iff). destruct (Hops ops Ha) as [Hh Hq].
    destruct (indexed_built _ _ _ Hidx Ha) as [ho' Hb]. exists ho', ops. split; [done|]. rewrite Es. split; [done|]. apply Hq. apply Hk. }
  assert (Hset : forall pm j, j ∈ js' -> as_subquery j pm -> zoom_of pm = opt_zoom (g j).2.1.2 /\ type_of pm = opt_type (g j).2.1.2 /\ zoom_of pm <= 15).
  { intros pm j Hj (Es & _). pose proof (Hg j Hj) as (_ & _ & _ & _ & _ & Hse & _). destruct (settings_zoom _ _ Hse) as (Ez & Et & _).
    destruct (Hready j Hj) as (_ & _ & Hz & _). unfold zoom_of, type_of. rewrite Es. done. }
  destruct st.
  - destruct Hrest as [Hgr Hc]. apply C65_whole; [done| |].
    + destruct (js_native js' pms Hpms) as (_ & _ & Hag). apply Hag.
      intros a b Ha Hb Ht. pose proof (Hg a Ha) as (Xa & Sa & Oa & _). pose proof (Hg b Hb) as (Xb & Sb & Ob & _).
      destruct Sa as (A1 & A2 & _ & _ & _ & A3 & _ & A4 & _). destruct Sb as (B1 & B2 & _ & _ & _ & B3 & _ & B4 & _).
      destruct (Hgr (g a).1 (g b).1 Xa Xb) as (E & Ew & En). { unfold js_together in *. by rewrite <- A1, <- A2, <- A3, <- B1, <- B2, <- B3. }
      rewrite A1, B1, A4, B4. split; [|done]. rewrite E in Oa. congruence.
    + destruct Hc as [Hc|((C1 & C2 & C3) & Cty & Crg & Cnear)]; [by left|]. right. constructor; try done.
      * intros pm Hpm. destruct (Hat pm Hpm) as (j & Hj & Has). by apply (Hset pm j).
      * intros pm pm' Hpm Hpm' Hlt. destruct (Hat pm Hpm) as (j & Hj & Has). destruct (Hat pm' Hpm') as (j' & Hj' & Has').
        destruct (Hset pm j Hj Has) as (-> & Et & _). destruct (Hset pm' j' Hj' Has') as (-> & Et' & _). rewrite Et, Et' in Hlt.
        pose proof (Hg j Hj) as (X & _ & _ & O & _). pose proof (Hg j' Hj') as (X' & _ & _ & O' & _). exact (Cty _ _ _ _ _ _ X X' O O' Hlt).
      * intros pm k a b Hpm Hk E. destruct (Hat pm Hpm) as (j & Hj & _ & _ & _ & _ & _ & k' & Ek & Hk'). rewrite Ek in Hk. apply elem_of_list_singleton in Hk as ->.
        pose proof (Hg j Hj) as (X & (_ & _ & Eph & _) & _). eapply (Crg _ a b X). rewrite <- Eph. destruct Hk' as (-> & _). by rewrite E.
      * intros pm k pt b Hpm Hk Hn Hpt Hb. destruct (Hat pm Hpm) as (j & Hj & _ & _ & _ & _ & _ & k' & Ek & Hk'). rewrite Ek in Hk. apply elem_of_list_singleton in Hk as ->.
        pose proof (Hg j Hj) as (X & (_ & _ & _ & _ & _ & _ & En & _) & _). eapply (Cnear _ pt b X); [|done|done]. rewrite <- En. destruct Hk' as (_ & _ & Hfl & _).
        rewrite Hn in Hfl. by inversion Hfl.
  - destruct Hrest as (Hne & Hone & Hc).
    assert (Hne' : pms <> []).
    { intros ->. inversion Hpms; subst. inversion HF; subst. done. }
    assert (Hown : own_zoom o pms).
    { intros pm ->. inversion Hpms as [|j ? js0 ? Has Hnil E1 E2]; subst. inversion Hnil; subst. inversion HF as [|x ? jl ? Hx Hn' E1 E2]; subst. inversion Hn'; subst.
      assert (Hj : j ∈ [j]) by (by left). destruct (Hset pm j Hj Has) as (-> & _). pose proof (Hg j Hj) as (X & _ & _ & O & _).
      apply elem_of_list_singleton in X. rewrite X in O. by eapply Hone. }
    destruct Hc as [[-> Hp]|(C1 & C2 & C3)]; [by apply C66_release|]. apply C66_careful; try done. constructor; try done.
    intros pm Hpm. destruct (Hat pm Hpm) as (j & Hj & Has). by apply (Hset pm j).
Qed.
Lemma request_converted w1 js : (exists js', res_mapM (on_store w1) js = Ok js') \/ res_mapM (on_store w1) js = Err.
Proof.
  induction js as [|x js IH]; [left; by exists []|]. cbn [res_mapM].
  assert (Hx : (exists j, on_store w1 x = Ok j) \/ on_store w1 x = Err).
  { unfold on_store. destruct (w_objs w1 !! x.1) as [[f b|s|r]|]; eauto. }
  destruct Hx as [[j ->]| ->]; cbn [res_bind]; [|by right]. destruct IH as [[js' ->]| ->]; cbn [res_bind]; [left; by eexists|by right].
Qed.
Lemma request_safe w1 st js o : (forall i s, w_objs w1 !! i = Some (AStore s) -> w_objs w !! i = Some (AStore s)) ->
  (forall o', o = Some o' -> request_in_range p L st js o') -> ~ crashed (js_does p ho mtb tb w1 (Request st js o)).1.
Proof.
  intros Hsub Hr. cbn [js_does fst crashed]. destruct (request_converted w1 js) as [[js' Hjs]|Hjs]; rewrite Hjs; cbn [res_bind]; [|by intros [?|?]].
  unfold js_stack_and_coalesce, js_coalesce. destruct (deserialize_total js') as [[pms Hp]|Hp]; rewrite Hp; cbn [res_bind]; [|destruct st; by intros [?|?]].
  destruct o as [o|]; cbn [given res_bind]; [|destruct st; by intros [?|?]].
  destruct (request_answered w1 st js js' pms o Hsub (Hr o eq_refl) Hjs Hp) as [out Ho]. destruct st; rewrite Ho; by intros [?|?].
Qed.
End inrange.

Section steps.
Context (p : profile) (ho : hash_oracle) (mtb : merge_tb) (tb : tiebreak).
Notation does := (js_does p ho mtb tb).
Notation session := (js_session p ho mtb tb).
Lemma deed_place w l before a r after : zip l (session w l).1 = before ++ (a, r) :: after ->
  exists l1 l2, l = l1 ++ a :: l2 /\ before = zip l1 (session w l1).1 /\ r = (does (session w l1).2 a).1.
Proof.
  revert w before. induction l as [|b l IH]; intros w before E; [by destruct before|]. rewrite session_cons in E. cbn [fst zip zip_with] in E.
  destruct before as [|d before].
  - injection E as -> <- _. by exists [], l.
  - injection E as <- E. destruct (IH _ _ E) as (l1 & l2 & -> & -> & Hr). exists (b :: l1), l2. split; [done|]. rewrite session_cons. done.
Qed.
Lemma made_object w l f i : (NewBuilder (Some f), OutObject (Ok i)) ∈ zip l (session w l).1 ->
  exists l1 l2, l = l1 ++ NewBuilder (Some f) :: l2 /\ i = length (w_objs (session w l1).2) /\
    w_objs (does (session w l1).2 (NewBuilder (Some f))).2 !! i = Some (ABuilder f (Some builder_new)).
Proof.
  intros H. destruct (deed_split p ho mtb tb w l _ _ H) as (l1 & l2 & -> & E). exists l1, l2. split; [done|]. cbn [js_does js_make fst] in E. injection E as E.
  split; [done|]. cbn [js_does js_make snd w_objs]. by rewrite <- E, lookup_app_r, Nat.sub_diag by lia.
Qed.
Lemma builder_open l : forall w i f b0, w_objs w !! i = Some (ABuilder f (Some b0)) -> (forall r, (CallBuilder i JsFinish, r) ∉ zip l (session w l).1) ->
  exists b, w_objs (session w l).2 !! i = Some (ABuilder f (Some b)).
Proof.
  induction l as [|a l IH]; intros w i f b0 H0 Hn; [by exists b0|]. rewrite session_cons in Hn |- *. cbn [fst snd zip] in *.
  assert (Hn' : forall r, (CallBuilder i JsFinish, r) ∉ zip l (session (does w a).2 l).1) by (intros r Hr; apply (Hn r); by right).
  destruct (is_call a i) as [[c ->]|Hne].
  - assert (Hc : c <> JsFinish) by (intros ->; eapply Hn; by left).
    pose proof (does_builder p ho mtb tb w (CallBuilder i c) i f (Some b0) H0 eq_refl) as E. cbv zeta in E. rewrite E in Hn' |- *. cbn [snd] in *.
    assert (E3 : (js_step ho (Some b0, default ∅ (w_dirs w !! f)) c).2.1 = Some (js_edit b0 c).2).
    { unfold js_step; cbn [fst snd]; destruct c; try done; by destruct (js_edit b0 _). }
    eapply IH; [|exact Hn']. cbn [w_objs]. rewrite E3. apply list_lookup_insert. by eapply lookup_lt_Some.
  - eapply IH; [|exact Hn']. apply does_other; [done| |by intros _ ?]. intros c ->. exfalso. apply Hne. by exists c.
Qed.
Lemma iterator_stays l : forall w i r0, w_objs w !! i = Some (AnIterator r0) -> exists r, w_objs (session w l).2 !! i = Some (AnIterator r).
Proof.
  induction l as [|a l IH]; intros w i r0 Hi; [by exists r0|]. rewrite session_cons. cbn [snd]. destruct (is_next a i) as [->|Hne].
  - cbn [js_does]. rewrite Hi. destruct (js_keys_next r0) as [r r1]. cbn [snd]. eapply (IH _ _ r1). cbn. apply list_lookup_insert. by eapply lookup_lt_Some.
  - eapply IH. apply does_other; [done|by intros|by intros].
Qed.
Lemma dir_stays l : forall w f, is_Some (w_dirs w !! f) -> is_Some (w_dirs (session w l).2 !! f).
Proof.
  induction l as [|a l IH]; intros w f H; [done|]. rewrite session_cons. cbn [snd]. apply IH.
  destruct a as [[f'|]|i' c|[f'|] o|i' k|i'|i'|st js o]; cbn [js_does]; try done.
  - destruct (w_objs w !! i') as [[f' b'| |]|]; try done. destruct (js_step _ _ _) as [r [b'' d]]. cbn [snd w_dirs]. destruct r as [[]| | |]; try done.
    destruct c; try done. destruct (decide (f' = f)) as [->|Hne]; [rewrite lookup_insert; by eexists|by rewrite lookup_insert_ne].
  - destruct (w_dirs w !! f') as [d|]; [|done]. by destruct (js_open d o).
  - by destruct (w_objs w !! i') as [[]|].
  - destruct (w_objs w !! i') as [[]|]; try done. by destruct (js_keys_next rest).
Qed.
Lemma dir_made l f i b : w_objs (session js_start l).2 !! i = Some (ABuilder f b) -> (CallBuilder i JsFinish, OutDone (Ok tt)) ∈ zip l (session js_start l).1 ->
  is_Some (w_dirs (session js_start l).2 !! f).
Proof.
  intros Hi H. destruct (deed_split p ho mtb tb _ l _ _ H) as (l1 & l2 & -> & E). rewrite session_app in Hi |- *. cbn [snd] in *.
  rewrite session_cons in Hi |- *. cbn [snd] in *. apply dir_stays. set (w1 := (session js_start l1).2) in *.
  cbn [js_does] in E |- *. destruct (w_objs w1 !! i) as [[f' b'| |]|] eqn:Ei; try discriminate E.
  destruct (builder_stays p ho mtb tb w1 (CallBuilder i JsFinish :: l2) i f' b' Ei) as [b2 Hb2]. rewrite session_cons in Hb2. cbn [snd] in Hb2.
  assert (f' = f) as -> by congruence. destruct (js_step _ _ _) as [r [b'' d]]. cbn [fst snd w_dirs] in *. injection E as ->.
  rewrite lookup_insert. by eexists.
Qed.
End steps.

Section whole.
Context (p : profile) (ho : hash_oracle) (mtb : merge_tb) (tb : tiebreak) (l : list js_do) (rs : list js_out) (w : js_world).
Context (Hrun : js_session p ho mtb tb js_start l = (rs, w)).
Notation L := (zip l rs).
Notation session := (js_session p ho mtb tb).
Context (Hin : in_range p L).

Lemma stores_stay l1 l2 i s : l = l1 ++ l2 -> w_objs (session js_start l1).2 !! i = Some (AStore s) -> w_objs w !! i = Some (AStore s).
Proof.
  intros E H. assert (w = (session js_start l).2) as -> by (by rewrite Hrun). rewrite E, session_app. cbn [snd]. by apply store_stays.
Qed.
(** An open builder can be finished. *)
Lemma finish_ok l1 i l2 f b : l = l1 ++ CallBuilder i JsFinish :: l2 -> w_objs (session js_start l1).2 !! i = Some (ABuilder f (Some b)) ->
  forall d, exists d', finish ho b d = Ok d'.
Proof.
  intros El Hi d. destruct Hin as [Hap Hren Hfill _].
  destruct (builder_made p ho mtb tb l1 js_start i f (Some b) Hi) as [[b0 H0]|Hm]; [cbn in H0; discriminate H0|].
  destruct (made_object p ho mtb tb js_start l1 f i Hm) as (la & lb & E1 & Ei & Hnew).
  set (wa := (session js_start la).2) in *. set (wb := (js_does p ho mtb tb wa (NewBuilder (Some f))).2) in *.
  assert (Hi' : w_objs (session wb lb).2 !! i = Some (ABuilder f (Some b))).
  { rewrite E1, session_app in Hi. cbn [snd] in Hi. rewrite session_cons in Hi. exact Hi. }
  destruct (builder_holds p ho mtb tb lb wb i f (Some builder_new) f b Hnew Hi') as (_ & Hnf & b1 & Eb & rs1 & Hp). injection Eb as <-.
  set (cs := map fst (calls_on i (zip lb (session wb lb).1))) in *.
  set (w1 := (session js_start l1).2) in *.
  assert (EL : L = zip la (session js_start la).1 ++ (NewBuilder (Some f), OutObject (Ok i)) :: zip lb (session wb lb).1 ++
                   (CallBuilder i JsFinish, (js_does p ho mtb tb w1 (CallBuilder i JsFinish)).1) ::
                   zip l2 (session (js_does p ho mtb tb w1 (CallBuilder i JsFinish)).2 l2).1).
  { assert (rs = (session js_start l).1) as -> by (by rewrite Hrun). rewrite El, zip_session_app. fold w1. rewrite (session_cons p ho mtb tb w1). cbn [fst zip zip_with].
    rewrite E1, zip_session_app, <- (assoc_L (++)). f_equal. fold wa. rewrite session_cons. fold wb. cbn [fst app zip zip_with js_does js_make]. rewrite <- Ei. done. }
  assert (Hfi : filled L f cs).
  {
    eexists i, _, _, _. split; [exact EL|]. split; [|exact Hnf]. rewrite calls_app, List.map_app. fold cs. f_equal.
    pose proof (does_builder p ho mtb tb w1 (CallBuilder i JsFinish) i f (Some b) Hi eq_refl) as Ed. cbv zeta in Ed. rewrite Ed. cbn [fst snd].
    unfold calls_on at 1. cbn [omap list_omap call_on]. rewrite decide_True by done. cbn [map fst]. reflexivity. }
  assert (Hnr : forall ids, JsRenumber ids ∉ cs).
  { intros ids Hc. unfold cs in Hc. apply elem_of_map in Hc as ([c r] & E & Hc). cbn [fst] in E. subst c. unfold calls_on in Hc. apply elem_of_list_omap in Hc as ([a o] & Ha & E).
    destruct a; try discriminate E. destruct o as [r'| | | |]; try discriminate E. cbn [call_on] in E.
    destruct (decide (i = obj)) as [Eo|]; [|discriminate E]. injection E as -> ->.
    apply (Hren obj ids (OutDone r)). rewrite EL. apply elem_of_app. right. right. apply elem_of_app. by left. }
  destruct (performs_ops _ _ _ _ Hp Hnr) as (ops & Ha & ->). change (foldl apply_op builder_new ops) with (run ops).
  apply history_finish. by eapply Hfill.
Qed.
Lemma call_safe l1 i c l2 : l = l1 ++ CallBuilder i c :: l2 -> ~ crashed (js_does p ho mtb tb (session js_start l1).2 (CallBuilder i c)).1.
Proof.
  intros El. cbn [js_does]. destruct (w_objs (session js_start l1).2 !! i) as [[f b|s|r]|] eqn:E; try (by intros [?|?]).
  destruct b as [b|]; [|by intros [?|?]].
  assert (c = JsFinish \/ c <> JsFinish) as [->|Hc] by (destruct c; auto; right; discriminate).
  - cbn [js_step fst snd]. destruct (finish_ok l1 i l2 f b El E (default ∅ (w_dirs (session js_start l1).2 !! f))) as [d' Hd]. rewrite Hd. by intros [?|?].
  - assert (Es : (js_step ho (Some b, default ∅ (w_dirs (session js_start l1).2 !! f)) c).1 = (js_edit b c).1).
    { unfold js_step; cbn [fst snd]; destruct c; try done; by destruct (js_edit b _). }
    destruct (js_step _ _ _) as [r [b' d]]. cbn [fst] in *. subst r. cbn [crashed].
    assert (Hr : (exists ids, c = JsRenumber ids) \/ forall ids, c <> JsRenumber ids) by (destruct c; eauto; right; discriminate).
    destruct Hr as [[[ids|] ->]|Hr]; cbn [js_edit fst].
    + destruct (C26_no_panic b ids) as [-> | ->]; by intros [?|?].
    + by intros [?|?].
    + destruct (js_edit_ok b c Hc Hr) as [(o & _ & ->)|(_ & ->)]; by intros [?|?].
Qed.
End whole.

(** ** C97 Programs within range *)
(** Nothing that a program within range does ends the process or hangs. *)
Theorem C97_safe :
  forall p ho mtb tb l rs w, js_session p ho mtb tb js_start l = (rs, w) -> in_range p (zip l rs) ->
  forall a r, (a, r) ∈ zip l rs -> ~ crashed r.
Proof.
  intros p ho mtb tb l rs w Hrun Hin a r Ha. assert (Ers : rs = (js_session p ho mtb tb js_start l).1) by (by rewrite Hrun).
  pose proof Ha as Ha'. rewrite Ers in Ha'. destruct (deed_split p ho mtb tb js_start l a r Ha') as (l1 & l2 & El & <-).
  destruct Hin as [Hap Hren Hfill Hreq] eqn:EH. clear EH.
  pose proof (fun i s => stores_stay p ho mtb tb l rs w Hrun l1 _ i s El) as Hst. set (w1 := (js_session p ho mtb tb js_start l1).2) in *.
  destruct a as [[f|]|i c|[f|] o|i k|i|i|st js o]; try (by intros [?|?]).
  - by apply (call_safe p ho mtb tb l rs w Hrun Hin l1 i c l2).
  - cbn [js_does]. destruct (w_dirs w1 !! f) as [d|]; [|by intros [?|?]]. destruct (js_open d o); by intros [?|?].
  - cbn [js_does fst crashed]. destruct (w_objs w1 !! i) as [[f b|s|r]|] eqn:E; try (by intros [?|?]).
    destruct (store_built p ho mtb tb l rs w Hrun Hap Hren Hfill i s (Hst i s E)) as (ops & ho' & Hh & Hb). unfold js_get.
    destruct (to_key_total k) as [[key Hk]|Hk]; rewrite Hk; cbn [res_bind]; [|by intros [?|?]].
    assert (Hko : key_ok key) by (apply (as_key_ok k); by apply to_key_iff).
    pose proof (C01_store_round_trip ho' ops s key Hh Hb Hko) as Hg. destruct (written ops !! key); [destruct Hg as (out & -> & _)|rewrite Hg]; by intros [?|?].
  - cbn [js_does]. destruct (w_objs w1 !! i) as [[f b|s|r]|] eqn:E; by intros [?|?].
  - cbn [js_does]. destruct (w_objs w1 !! i) as [[f b|s|r]|] eqn:E; try (by intros [?|?]).
    destruct (iterator_made p ho mtb tb l1 js_start i r E) as [(r0 & H0 & _)|(h & s & Hs & Hsuf)]; [cbn in H0; discriminate H0|].
    destruct (store_built p ho mtb tb l rs w Hrun Hap Hren Hfill h s (Hst h s Hs)) as (ops & ho' & Hh & Hb).
    destruct (keys_read s ho' ops r Hh Hb Hsuf) as [v Hv]. destruct (js_keys_next r) as [r' l']. cbn [fst] in *. subst r'. by intros [?|?].
  - apply (request_safe p ho mtb tb l rs w Hrun Hap Hren w1 st js o Hst). intros o' ->. by eapply Hreq.
Qed.
Print Assumptions C97_safe.

(** Everything that makes sense succeeds. *)
Theorem C97_succeeds :
  forall p ho mtb tb l rs w before a r after, js_session p ho mtb tb js_start l = (rs, w) -> in_range p (zip l rs) ->
  zip l rs = before ++ (a, r) :: after -> sensible before a -> succeeded r.
Proof.
  intros p ho mtb tb l rs w before a r after Hrun Hin EL Hsen. assert (Ers : rs = (js_session p ho mtb tb js_start l).1) by (by rewrite Hrun).
  assert (Ha : (a, r) ∈ zip l rs) by (rewrite EL; apply elem_of_app; right; by left).
  rewrite Ers in EL. destruct (deed_place p ho mtb tb js_start l before a r after EL) as (l1 & l2 & El & Eb & ->). clear EL.
  destruct Hin as [Hap Hren Hfill Hreq] eqn:EH. clear EH.
  pose proof (fun i s => stores_stay p ho mtb tb l rs w Hrun l1 _ i s El) as Hst. set (w1 := (js_session p ho mtb tb js_start l1).2) in *.
  assert (Hopen : forall f i, (NewBuilder (Some f), OutObject (Ok i)) ∈ before -> (forall r, (CallBuilder i JsFinish, r) ∉ before) ->
            exists b, w_objs w1 !! i = Some (ABuilder f (Some b))).
  { intros f i Hm Hnf. rewrite Eb in Hm. destruct (made_object p ho mtb tb js_start l1 f i Hm) as (la & lb & E1 & Ei & Hnew).
    assert (Ew : w1 = (js_session p ho mtb tb (js_does p ho mtb tb (js_session p ho mtb tb js_start la).2 (NewBuilder (Some f))).2 lb).2).
    { unfold w1. rewrite E1, session_app. cbn [snd]. by rewrite session_cons. }
    rewrite Ew. eapply builder_open; [exact Hnew|]. intros r Hr. apply (Hnf r). rewrite Eb, E1, zip_session_app. apply elem_of_app. right.
    rewrite session_cons. cbn [fst zip zip_with]. by right. }
  assert (Hstore : forall h f so, opened before h f so -> exists s, w_objs w1 !! h = Some (AStore s)).
  { intros h f so Ho. unfold opened in Ho. rewrite Eb in Ho. destruct (deed_split p ho mtb tb js_start l1 _ _ Ho) as (la & lb & E1 & Hr).
    cbn [js_does] in Hr. destruct (w_dirs (js_session p ho mtb tb js_start la).2 !! f) as [d|] eqn:Ed; [|discriminate Hr].
    destruct (js_open d so) as [s| | |] eqn:Eo; try discriminate Hr. cbn [js_make fst] in Hr. injection Hr as Hr. exists s.
    unfold w1. rewrite E1, session_app. cbn [snd]. rewrite session_cons. cbn [snd]. apply store_stays. cbn [js_does]. rewrite Ed, Eo. cbn [js_make snd w_objs].
    by rewrite <- Hr, lookup_app_r, Nat.sub_diag by lia. }
  destruct Hsen as [f|f i c op Hm Hnf Hst'|f i Hm Hnf|f i so Hm Hfin Hso|h f so k key Ho Hk|h f so Ho|h i Hm|st js o Hjs].
  - by eexists.
  - destruct (Hopen f i Hm Hnf) as [b Hb]. cbn [js_does]. rewrite Hb.
    assert (Hc : c <> JsFinish /\ forall ids, c <> JsRenumber ids) by (inversion Hst'; split; discriminate). destruct Hc as [Hc Hr].
    assert (Es : (js_step ho (Some b, default ∅ (w_dirs w1 !! f)) c).1 = (js_edit b c).1).
    { unfold js_step; cbn [fst snd]; destruct c; try done; by destruct (js_edit b _). }
    destruct (js_step _ _ _) as [r' [b' d]]. cbn [fst] in *. subst r'. destruct (js_edit_ok b c Hc Hr) as [(o & _ & ->)|(Hno & _)]; [by eexists|].
    by destruct (Hno op).
  - destruct (Hopen f i Hm Hnf) as [b Hb]. cbn [js_does]. rewrite Hb. cbn [js_step fst snd].
    destruct (finish_ok p ho mtb tb l rs w Hrun Hin l1 i l2 f b El Hb (default ∅ (w_dirs w1 !! f))) as [d' ->]. by eexists.
  - rewrite Eb in Hm, Hfin. destruct (made_object p ho mtb tb js_start l1 f i Hm) as (la & lb & E1 & Ei & Hnew).
    destruct (builder_stays p ho mtb tb _ lb i f _ Hnew) as [b' Hb'].
    assert (Ew : w1 = (js_session p ho mtb tb (js_does p ho mtb tb (js_session p ho mtb tb js_start la).2 (NewBuilder (Some f))).2 lb).2).
    { unfold w1. rewrite E1, session_app. cbn [snd]. by rewrite session_cons. }
    rewrite <- Ew in Hb'. destruct (dir_made p ho mtb tb l1 f i b' Hb' Hfin) as [d Hd]. fold w1 in Hd. cbn [js_does]. rewrite Hd.
    destruct so as [| |o]; [by eexists|done|by eexists].
  - destruct (Hstore h f so Ho) as [s Hs]. cbn [js_does fst succeeded]. rewrite Hs. apply to_key_iff in Hk as Hk'. unfold js_get. rewrite Hk'. cbn [res_bind].
    destruct (store_built p ho mtb tb l rs w Hrun Hap Hren Hfill h s (Hst h s Hs)) as (ops & ho' & Hh & Hb).
    pose proof (C01_store_round_trip ho' ops s key Hh Hb (as_key_ok k key Hk)) as Hg. destruct (written ops !! key); [destruct Hg as (out & -> & _)|rewrite Hg]; by eexists.
  - destruct (Hstore h f so Ho) as [s Hs]. cbn [js_does]. rewrite Hs. by eexists.
  - rewrite Eb in Hm. destruct (deed_split p ho mtb tb js_start l1 _ _ Hm) as (la & lb & E1 & Hr).
    cbn [js_does] in Hr. destruct (w_objs (js_session p ho mtb tb js_start la).2 !! h) as [[f b|s|r]|] eqn:E; try discriminate Hr.
    cbn [js_make fst] in Hr. injection Hr as Hr.
    assert (Hi : exists r, w_objs w1 !! i = Some (AnIterator r)).
    { unfold w1. rewrite E1, session_app. cbn [snd]. rewrite session_cons. cbn [snd]. apply (iterator_stays p ho mtb tb lb _ i (js_keys s)). cbn [js_does].
      rewrite E. cbn [js_make snd w_objs]. by rewrite <- Hr, lookup_app_r, Nat.sub_diag by lia. }
    destruct Hi as [r Hi]. cbn [js_does]. rewrite Hi.
    destruct (iterator_made p ho mtb tb l1 js_start i r Hi) as [(r0 & H0 & _)|(h' & s' & Hs' & Hsuf)]; [cbn in H0; discriminate H0|].
    destruct (store_built p ho mtb tb l rs w Hrun Hap Hren Hfill h' s' (Hst h' s' Hs')) as (ops & ho' & Hh & Hb).
    destruct (keys_read s' ho' ops r Hh Hb Hsuf) as [v Hv]. destruct (js_keys_next r) as [r' l']. cbn [fst] in *. subst r'. by eexists.
  - assert (Hconv : exists js', res_mapM (on_store w1) js = Ok js' /\ forall j, j ∈ js' -> readable j).
    { clear -Hjs Hstore. induction js as [|x js IH]; [exists []; split; [done|]; by intros j ?%elem_of_nil|]. cbn [res_mapM].
      destruct (Hjs x) as (Hrd & f & so & Ho); [by left|]. destruct (Hstore _ _ _ Ho) as [s Hs]. unfold on_store at 1. rewrite Hs. cbn [res_bind].
      destruct IH as (js' & -> & Hj'); [intros y Hy; apply Hjs; by right|]. cbn [res_bind]. eexists. split; [done|].
      intros j Hj. apply elem_of_cons in Hj as [->|Hj]; [exact Hrd|by apply Hj']. }
    destruct Hconv as (js' & Hjs' & Hrd). destruct (proj2 (C63_accepted js') Hrd) as [pms Hp]. pose proof (Hreq _ _ _ _ Ha) as Hr.
    destruct (request_answered p ho mtb tb l rs w Hrun Hap Hren w1 st js js' pms o Hst Hr Hjs' Hp) as [out Ho].
    cbn [js_does fst succeeded]. rewrite Hjs'. cbn [res_bind]. unfold js_stack_and_coalesce, js_coalesce. rewrite Hp. cbn [res_bind given].
    exists out. by destruct st.
Qed.
Print Assumptions C97_succeeds.

(** ** In the background *)
Section tasks.
Context (p : profile) (ho : hash_oracle) (mtb : merge_tb) (tb : tiebreak).
Lemma bg_stores_stay s es s' : bg_run p ho mtb tb s es s' -> forall i x, w_objs (bg_world s) !! i = Some (AStore x) -> w_objs (bg_world s') !! i = Some (AStore x).
Proof.
  induction 1 as [s|s e s1 es s2 Hs Hr IH]; intros i x Hi; [done|]. apply IH. destruct Hs as [s a r w Ha H| | | |]; try done.
  cbn [bg_world]. assert (w = (js_does p ho mtb tb (bg_world s) a).2) as -> by (by rewrite H). apply does_other; [done|by intros|by intros].
Qed.
Lemma tasks_fine w s es s' : bg_run p ho mtb tb s es s' ->
  (forall st js o cb r, EvAsk st js (Some o) cb r ∈ es -> forall w1 t, (forall i x, w_objs w1 !! i = Some (AStore x) -> w_objs w !! i = Some (AStore x)) ->
     prepare w1 st js (Some o) cb = Ok t -> succeeds (perform p ho mtb tb t)) ->
  (forall i x, w_objs (bg_world s') !! i = Some (AStore x) -> w_objs w !! i = Some (AStore x)) ->
  (forall n t, (n, t) ∈ bg_waiting s -> succeeds (perform p ho mtb tb t)) -> (forall n r, (n, r) ∈ bg_ready s -> succeeds r) ->
  (forall n t, (n, t) ∈ bg_waiting s' -> succeeds (perform p ho mtb tb t)) /\ (forall n r, (n, r) ∈ bg_ready s' -> succeeds r) /\
  forall n r, EvCallback n r ∈ es -> succeeds r.
Proof.
  induction 1 as [s|s e s1 es s2 Hs Hr IH]; intros HK Hw Hwait Hready.
  - split; [done|]. split; [done|]. intros n r Hin. by apply elem_of_nil in Hin.
  - assert (HK' : forall st js o cb r, EvAsk st js (Some o) cb r ∈ es -> forall w1 t, (forall i x, w_objs w1 !! i = Some (AStore x) -> w_objs w !! i = Some (AStore x)) ->
       prepare w1 st js (Some o) cb = Ok t -> succeeds (perform p ho mtb tb t)) by (intros st js o cb r Hin; eapply HK; right; exact Hin).
    specialize (IH HK' Hw). pose proof (bg_stores_stay _ _ _ Hr) as Hstay.
    destruct Hs as [s a r w' Ha H|s st js o cb H|s st js o cb t H|s n t r bef aft E Hp _ _|s n r bef aft E].
    + destruct (IH Hwait Hready) as (A & B & C). split; [done|]. split; [done|]. intros n r' Hin. apply elem_of_cons in Hin as [Hin|Hin]; [discriminate Hin|by eapply C].
    + destruct (IH Hwait Hready) as (A & B & C). split; [done|]. split; [done|]. intros n r' Hin. apply elem_of_cons in Hin as [Hin|Hin]; [discriminate Hin|by eapply C].
    + destruct IH as (A & B & C); [|done|].
      * intros n t' Hin. cbn [bg_waiting] in Hin. apply elem_of_app in Hin as [Hin|Hin]; [by eapply Hwait|]. apply elem_of_list_singleton in Hin.
        apply (f_equal snd) in Hin. cbn [snd] in Hin. subst t'. destruct o as [o|].
        -- eapply HK; [by left| |exact H]. intros i x Hi. by apply Hw, Hstay.
        -- exfalso. unfold prepare in H. apply bind_Ok in H as (? & _ & H). apply bind_Ok in H as (? & _ & H). discriminate H.
      * split; [done|]. split; [done|]. intros n r' Hin. apply elem_of_cons in Hin as [Hin|Hin]; [discriminate Hin|by eapply C].
    + destruct IH as (A & B & C).
      * intros m t' Hin. cbn [bg_waiting] in Hin. apply (Hwait m). rewrite E. apply elem_of_app in Hin as [Hin|Hin]; apply elem_of_app; [by left|right; by right].
      * intros m r' Hin. cbn [bg_ready] in Hin. apply elem_of_app in Hin as [Hin|Hin]; [by eapply Hready|]. apply elem_of_list_singleton in Hin.
        apply (f_equal snd) in Hin. cbn [snd] in Hin. subst r' r. apply (Hwait n). rewrite E. apply elem_of_app. right. by left.
      * split; [done|]. split; [done|]. intros m r' Hin. apply elem_of_cons in Hin as [Hin|Hin]; [discriminate Hin|by eapply C].
    + destruct IH as (A & B & C); [exact Hwait| |].
      * intros m r' Hin. cbn [bg_ready] in Hin. apply (Hready m). rewrite E. apply elem_of_app in Hin as [Hin|Hin]; apply elem_of_app; [by left|right; by right].
      * split; [done|]. split; [done|]. intros m r' Hin. apply elem_of_cons in Hin as [Hin|Hin]; [|by eapply C].
        injection Hin as -> ->. apply (Hready n). rewrite E. apply elem_of_app. right. by left.
Qed.
End tasks.
(** With its requests in range too, answered or not, no worker panics: the work comes to an end
    however it is scheduled, and then every request that did not throw has been answered with
    results. *)
Theorem C97_background :
  forall p ho mtb tb es s, bg_run p ho mtb tb bg_start es s -> in_range p (deeds_of es) ->
  (forall st js o cb r, EvAsk st js (Some o) cb r ∈ es -> request_in_range p (deeds_of es) st js o) ->
  (forall n r, EvCallback n r ∈ es -> succeeds r) /\
  (forall es' s', bg_run p ho mtb tb s es' s' -> Forall in_background es' ->
     (length es' <= to_do s)%nat /\ (settled s' \/ exists e s'', in_background e /\ bg_step p ho mtb tb s' e s'') /\
     (settled s' -> forall st js o cb n, EvAsk st js o cb (Ok n) ∈ es -> exists out, EvCallback n (Ok out) ∈ es ++ es')) /\
  exists es' s', bg_run p ho mtb tb s es' s' /\ Forall in_background es' /\ settled s'.
Proof.
  intros p ho mtb tb es s H [Hap Hren Hfill _] Hask.
  pose proof (C96_refines _ _ _ _ _ _ H) as Href. pose proof (zip_map_fst_snd (deeds_of es)) as EL.
  destruct (tasks_fine p ho mtb tb (bg_world s) bg_start es s H) as (Hwait & Hready & Hcall).
  - intros st js o cb r Hin w1 t Hsub Hprep. pose proof (Hask _ _ _ _ _ Hin) as Hr.
    unfold prepare in Hprep. apply bind_Ok in Hprep as (js' & E1 & Hprep). apply bind_Ok in Hprep as (pms & E2 & Hprep). cbn [given res_bind] in Hprep.
    destruct cb; [|discriminate Hprep]. assert (Et : BgTask st pms o = t) by congruence. subst t. unfold perform. cbn [tk_stacked tk_subqueries tk_opts].
    rewrite <- EL in Hap, Hren, Hr. exact (request_answered p ho mtb tb _ _ _ Href Hap Hren w1 st js js' pms o Hsub Hr E1 E2).
  - done.
  - intros n t Hin. by apply elem_of_nil in Hin.
  - intros n r Hin. by apply elem_of_nil in Hin.
  - split; [done|].
    destruct (C96_progress p ho mtb tb s) as [Hprog Hend]. { intros n t Hin. destruct (Hwait n t Hin) as [out ->]. by split. }
    split; [|done]. intros es' s' H' Hbg. destruct (Hprog es' s' H' Hbg) as [Hlen Hnext]. split; [done|]. split; [done|].
    intros Hset st js o cb n Ha. pose proof (run_snoc _ _ _ _ _ _ _ _ _ H H') as Hall.
    destruct (C96_settled p ho mtb tb _ s' st js o cb n Hall Hset) as [r Hr]; [apply elem_of_app; by left|].
    assert (Hsr : succeeds r); [|destruct Hsr as [out ->]; by exists out].
    apply elem_of_app in Hr as [Hr|Hr]; [by eapply Hcall|].
    destruct (tasks_fine p ho mtb tb (bg_world s') s es' s' H') as (_ & _ & Hcall'); [|done|done|done|by eapply Hcall'].
    intros st' js' o' cb' r' Hin. rewrite Forall_forall in Hbg. by apply Hbg in Hin.
Qed.
Print Assumptions C97_background.

(** ** An example *)
(** The program of [C95_ex], in which some calls throw, is in range for a checked build. *)
Lemma z_request st : request_in_range Debug z_d st z_js g_opts.
Proof.
  assert (Hbox : box_careful g_opts) by (destruct g_sane as (A & B & C); by split).
  split; [exact z_in_range|]. destruct st.
  - split; [apply C95_ex|]. right. split; [done|]. split; [|split].
    + intros x y f g so to Hx Hy Ox Oy Hlt. destruct C95_ex as (_ & _ & _ & _ & _ & _ & _ & _ & _ & _ & _ & _ & _ & _ & _ & _ & Hty & _).
      by destruct (Hty x y f g so to Hx Hy Ox Oy Hlt).
    + intros x a b Hx E. unfold z_js in Hx. rewrite !elem_of_cons, elem_of_nil in Hx. destruct Hx as [->|[->|[]]]; cbn in E; try discriminate E; injection E as <- <-; lia.
    + intros x pt b Hx En Hpt Hb. unfold z_js in Hx. rewrite !elem_of_cons, elem_of_nil in Hx. destruct Hx as [->|[->|[]]]; cbn in En; try discriminate En.
      all: cbn in Hpt, Hb; injection Hpt as <-; injection Hb as <-; unfold in_box; cbn; lia.
  - split; [done|]. split; [by intros x f so E|by right].
Qed.
Lemma z_range : in_range Debug z_d.
Proof.
  destruct C95_ex as (_ & Hap & Hren & _). split; [done|done| |].
  - intros f cs ops Hf Ha. apply accepted_iff in Ha as ->. destruct (z_filled _ _ Hf) as [[_ ->]|[_ ->]]; apply history_okb_ok; vm_compute; reflexivity.
  - intros st js o r Hin. cbn [zip zip_with z_l z_outs] in Hin.
    repeat (apply elem_of_cons in Hin as [Hin|Hin]; [try discriminate Hin|]); [| |by apply elem_of_nil in Hin];
      assert (E : js = z_js /\ o = g_opts) by (split; congruence); destruct E as [-> ->]; apply z_request.
Qed.
Example C97_ex :
  js_session Debug id_oracle first_mtb last_tb js_start z_l = (z_outs, z_run.2) /\ in_range Debug z_d /\
  sensible (take 10 z_d) (CallBuilder 0 JsFinish) /\ sensible (take 15 z_d) (Request true z_js (Some g_opts)) /\
  (exists r, z_d !! 4%nat = Some (CallBuilder 0 (JsInsert e_key None), r) /\ ~ succeeded r) /\
  (exists s, bg_run Debug id_oracle first_mtb last_tb bg_start b_events s /\ deeds_of b_events = z_d ++ [(NewBuilder (Some 3), OutObject (Ok 4%nat))]).
Proof.
  split; [apply C95_ex|]. split; [exact z_range|]. split.
  { apply (sen_finish _ 1); [by left|]. intros r H. cbn [zip zip_with z_l z_outs take] in H.
    repeat (apply elem_of_cons in H as [H|H]; [discriminate H|]). by apply elem_of_nil in H. }
  split.
  { constructor. intros x Hx. unfold z_js in Hx. rewrite !elem_of_cons, elem_of_nil in Hx.
    assert (Hrd : readable x.2). { destruct Hx as [->|[->|[]]]; do 6 (split; [by eexists|]).
      - split; [right; by exists true|right; right; by exists [f_zero]].
      - split; by left. }
    split; [done|]. destruct Hx as [->|[->|[]]]; cbn [fst].
    - exists 2, (z_opts 6 2). do 13 right. left.
    - exists 1, (z_opts 5 1). do 12 right. left. }
  split. { exists (OutDone Err). split; [reflexivity|]. by intros [? ?]. }
  exists b_end. split; [apply C96_ex|]. reflexivity.
Qed.
(** Out of range a program can hang: a phrase id of 2^32 is converted to 2^32 - 1. *)
Theorem C97_range_refuted :
  exists l rs w, js_session Release id_oracle first_mtb last_tb js_start l = (rs, w) /\
    builders_apart (zip l rs) /\ no_renumber (zip l rs) /\ sensible (take 2 (zip l rs)) (CallBuilder 0 JsFinish) /\
    (CallBuilder 0 JsFinish, OutDone Diverge) ∈ zip l rs.
Proof.
  set (k := JsKey (JsNumber (f_of_N (2 ^ 32))) JsNull).
  set (l := [NewBuilder (Some 1); CallBuilder 0 (JsInsert k (Some [ex_e1])); CallBuilder 0 JsFinish]).
  exists l, [OutObject (Ok 0%nat); OutDone (Ok tt); OutDone Diverge], (js_session Release id_oracle first_mtb last_tb js_start l).2.
  split. { rewrite (surjective_pairing (js_session _ _ _ _ _ l)). f_equal. }
  split. { intros f i j Hi Hj. cbn [zip zip_with l] in Hi, Hj.
    apply elem_of_cons in Hi as [Hi|Hi]; [|repeat (apply elem_of_cons in Hi as [Hi|Hi]; [discriminate Hi|]); by apply elem_of_nil in Hi].
    apply elem_of_cons in Hj as [Hj|Hj]; [congruence|repeat (apply elem_of_cons in Hj as [Hj|Hj]; [discriminate Hj|]); by apply elem_of_nil in Hj]. }
  split. { intros i ids r H. cbn [zip zip_with l] in H. repeat (apply elem_of_cons in H as [H|H]; [discriminate H|]). by apply elem_of_nil in H. }
  split. { apply (sen_finish _ 1); [by left|]. intros r H. cbn [zip zip_with l take] in H.
    repeat (apply elem_of_cons in H as [H|H]; [discriminate H|]). by apply elem_of_nil in H. }
  do 2 right. left.
Qed.
Print Assumptions C97_range_refuted.
