(** Property C99: what a program indexed is found. *)
From Verif Require Import Prelude Lists F64 Heap Common Builder Spatial Store Spec Spec_match Query Coalesce Stackable Spec_stack Stack_proofs Multi_proofs Spatial_proofs Tree Spec_tree
  Native Spec_native Native_proofs Spec_js Props_js Props_zoom Props_native Examples Spec_coalesce Props_coalesce Props_stack Spec_complete Props_complete Spec_room Props_room Spec_ground Props_ground Props_found Spec_end Props_end
  Spec_flat Props_owed Props_layers Spec_flatend Props_flatend Session Spec_session Session_proofs Props_session Spec_program Props_program Spec_hash Props_hash Spec_index.
From Coq Require Import Sorting.Sorted.
From Coq Require Import ZifyBool.
Local Open Scope N_scope.

Section index.
Context (p : profile) (ho : hash_oracle) (mtb : merge_tb) (tb : tiebreak).
Notation does := (js_does p ho mtb tb).
Notation session := (js_session p ho mtb tb).

(** Every object is made once. *)
Lemma does_count w a : (length (w_objs w) <= length (w_objs (does w a).2))%nat /\
  forall i, (does w a).1 = OutObject (Ok i) -> i = length (w_objs w) /\ length (w_objs (does w a).2) = S i.
Proof.
  assert (Hm : forall x, (length (w_objs w) <= length (w_objs (js_make w x).2))%nat /\
    forall i, (js_make w x).1 = OutObject (Ok i) -> i = length (w_objs w) /\ length (w_objs (js_make w x).2) = S i).
  { intros x. cbn. rewrite app_length. cbn. split; [lia|]. intros i E. injection E as <-. lia. }
  destruct a as [[f|]|i c|[f|] o|i k|i|i|st js o]; cbn [js_does]; try done.
  - destruct (w_objs w !! i) as [[f b| |]|]; try done. destruct (js_step _ _ _) as [r [b' d]]. cbn [fst snd w_objs]. by rewrite insert_length.
  - destruct (w_dirs w !! f) as [d|]; [|done]. destruct (js_open d o); done || apply Hm.
  - destruct (w_objs w !! i) as [[f b|s|r]|]; done || apply Hm.
  - destruct (w_objs w !! i) as [[f b|s|r]|]; try done. destruct (js_keys_next r) as [q r']. cbn [fst snd w_objs]. by rewrite insert_length.
Qed.
Lemma session_count w l : (length (w_objs w) <= length (w_objs (session w l).2))%nat.
Proof. revert w. induction l as [|a l IH]; intros w; [done|]. rewrite session_cons. cbn [snd]. pose proof (IH (does w a).2). destruct (does_count w a). lia. Qed.
Lemma made_later w l n a i : zip l (session w l).1 !! n = Some (a, OutObject (Ok i)) -> (length (w_objs w) <= i)%nat.
Proof.
  revert w n. induction l as [|b l IH]; intros w n H; [done|]. rewrite session_cons in H. cbn [fst zip zip_with] in H. destruct (does_count w b) as [Hle Hi].
  destruct n as [|n]; cbn in H.
  - injection H as -> E. apply Hi in E. lia.
  - apply IH in H. lia.
Qed.
Lemma made_once w l n m a b i : zip l (session w l).1 !! n = Some (a, OutObject (Ok i)) -> zip l (session w l).1 !! m = Some (b, OutObject (Ok i)) -> n = m.
Proof.
  revert w n m. induction l as [|c l IH]; intros w n m Hn Hm; [done|]. rewrite session_cons in Hn, Hm. cbn [fst zip zip_with] in Hn, Hm. destruct (does_count w c) as [_ Hi].
  destruct n as [|n], m as [|m]; cbn in Hn, Hm; [done| | |f_equal; by eapply IH].
  - injection Hn as -> E. apply Hi in E as [-> E]. apply made_later in Hm. lia.
  - injection Hm as -> E. apply Hi in E as [-> E]. apply made_later in Hn. lia.
Qed.

Context (l : list js_do) (rs : list js_out) (w : js_world) (Hrun : session js_start l = (rs, w)).
Notation L := (zip l rs).
Lemma made_one n m a b i : L !! n = Some (a, OutObject (Ok i)) -> L !! m = Some (b, OutObject (Ok i)) -> n = m.
Proof. intros Hn Hm. pose proof (made_once js_start l n m a b i) as H. rewrite Hrun in H. by apply H. Qed.
Lemma opened_unique h f so f' so' : opened L h f so -> opened L h f' so' -> f = f' /\ so = so'.
Proof.
  intros Ho Ho'. apply elem_of_list_lookup in Ho as [n Hn], Ho' as [m Hm]. pose proof (made_one _ _ _ _ _ Hn Hm) as <-. split; congruence.
Qed.
Context (Hap : builders_apart L) (Hren : no_renumber L).
Lemma filled_unique f cs cs' : filled L f cs -> filled L f cs' -> cs = cs'.
Proof.
  intros (i & l1 & l2 & rest & E & Hc & Hn) (i' & l1' & l2' & rest' & E' & Hc' & Hn').
  assert (Hi : L !! length l1 = Some (NewBuilder (Some f), OutObject (Ok i))) by (rewrite E; by rewrite lookup_app_r, Nat.sub_diag by lia).
  assert (Hi' : L !! length l1' = Some (NewBuilder (Some f), OutObject (Ok i'))) by (rewrite E'; by rewrite lookup_app_r, Nat.sub_diag by lia).
  assert (i' = i) as ->. { eapply (Hap f); by eapply elem_of_list_lookup_2. }
  pose proof (made_one _ _ _ _ _ Hi Hi') as Hlen. rewrite E in E'. apply app_inj_1 in E' as [_ E']; [|done]. injection E' as <-.
  rewrite Hc in Hc'. apply (f_equal before_finish) in Hc'. by rewrite !before_finish_ok in Hc'.
Qed.

(** The objects of a request, as the program hands them over. *)
Definition stands_at (x : nat * js_phrasematch) (j : js_phrasematch) : Prop := js_same_but_store x.2 j /\ w_objs w !! x.1 = Some (AStore (jp_store j)).
Lemma asked_objects xs pms : asked_for w xs pms -> exists js, Forall2 stands_at xs js /\ Forall2 as_subquery js pms.
Proof.
  intros H. induction H as [|x pm xs pms (s & Hs & Has) H (js & H1 & H2)]; [exists []; by split|].
  eexists (_ :: js). split; constructor; [|exact H1|exact Has|exact H2]. by split.
Qed.
Lemma stands_unique x j j' : stands_at x j -> stands_at x j' -> j = j'.
Proof.
  intros [(A1 & A2 & A3 & A4 & A5 & A6 & A7 & A8 & A9) As] [(B1 & B2 & B3 & B4 & B5 & B6 & B7 & B8 & B9) Bs].
  destruct j, j'. cbn in *. assert (jp_store = jp_store0) as -> by congruence. congruence.
Qed.
Lemma stand_unique xs js js' : Forall2 stands_at xs js -> Forall2 stands_at xs js' -> js = js'.
Proof. revert js js'. induction xs as [|x xs IH]; intros js js' H H'; inversion H; inversion H'; subst; [done|]. f_equal; [by eapply stands_unique|by apply IH]. Qed.

Section chosen.
Context (js : list (nat * js_phrasematch)) (g : js_phrasematch -> (nat * js_phrasematch) * (N * opts_arg * list js_call)) (js' : list js_phrasematch).
Context (Hg : forall j, j ∈ js' -> backs l rs w js j (g j)).
Context (name : js_phrasematch -> option N) (Hname : forall x j, stands_at x j -> name j = name x.2) (Hnd : NoDup (map (fun x => name x.2) js)).
Lemma chosen_one x j : x ∈ js -> stands_at x j -> j ∈ js' -> (g j).1 = x.
Proof.
  intros Hx Hs Hj. destruct (Hg j Hj) as (Hx' & Hsame & Hst & _).
  assert (E : name (g j).1.2 = name x.2) by (rewrite <- (Hname _ _ Hs); symmetry; apply Hname; by split).
  apply elem_of_list_lookup in Hx as [n Hn], Hx' as [m Hm]. assert (m = n) as ->; [|congruence].
  apply (NoDup_lookup (map (fun x => name x.2) js) m n (name x.2)); [done| |]; rewrite list_lookup_fmap; [rewrite Hm|rewrite Hn]; cbn; congruence.
Qed.
Lemma asked_chosen o x j v : x ∈ js -> stands_at x j -> j ∈ js' -> program_asked L o x v -> js_asked (g j).2.2 o j v.
Proof.
  intros Hx Hs Hj (f & so & cs & key & ph & Hop & Hfi & Hh & Hph & Hsel & Hgr). pose proof (chosen_one x j Hx Hs Hj) as Ex.
  destruct (Hg j Hj) as (_ & Hsame & _ & Hop' & Hfi' & Hset & _). rewrite Ex in Hop'. destruct (opened_unique _ _ _ _ _ Hop Hop') as [-> ->].
  pose proof (filled_unique _ _ _ Hfi Hfi') as ->. destruct (settings_zoom _ _ Hset) as (Ez & _). destruct Hs as [(_ & _ & Eph & _) _].
  split; [exists key, ph; split; [done|]; by rewrite Eph|]. unfold js_in. by rewrite Ez.
Qed.
Lemma wanted_chosen o x j v : x ∈ js -> stands_at x j -> j ∈ js' -> program_wanted L o x v -> js_wanted (g j).2.2 o j v.
Proof.
  intros Hx Hs Hj [Hask Hnear]. destruct (asked_chosen o x j v Hx Hs Hj Hask) as [H1 H2]. split; [done|]. split; [done|].
  pose proof (chosen_one x j Hx Hs Hj) as Ex. destruct (Hg j Hj) as (_ & _ & _ & Hop' & _ & Hset & _). rewrite Ex in Hop'.
  destruct Hs as [(_ & _ & _ & _ & _ & _ & En & _) _]. rewrite En. intros E. destruct (Hnear E) as (f & so & Hop & Hpt).
  destruct (opened_unique _ _ _ _ _ Hop Hop') as [-> ->]. destruct (settings_zoom _ _ Hset) as (Ez & _). unfold js_near. by rewrite Ez.
Qed.
Lemma zoom_chosen x j f so : x ∈ js -> stands_at x j -> j ∈ js' -> opened L x.1 f so ->
  st_zoom (jp_store j) = opt_zoom so /\ st_type_id (jp_store j) = opt_type so /\ st_bboxes (jp_store j) = opt_bboxes so.
Proof.
  intros Hx Hs Hj Hop. pose proof (chosen_one x j Hx Hs Hj) as Ex. destruct (Hg j Hj) as (_ & _ & _ & Hop' & _ & Hset & _). rewrite Ex in Hop'.
  destruct (opened_unique _ _ _ _ _ Hop Hop') as [-> ->]. destruct (settings_zoom _ _ Hset) as (Ez & Et & _). split; [done|]. split; [done|].
  destruct (g j).2.1.2 as [| |so']; cbn in Hset |- *; [|done|]; apply Hset.
Qed.
Lemma opened_chosen x j : x ∈ js -> stands_at x j -> j ∈ js' -> exists f so, opened L x.1 f so.
Proof. intros Hx Hs Hj. rewrite <- (chosen_one x j Hx Hs Hj). destruct (Hg j Hj) as (_ & _ & _ & Hop & _). eauto. Qed.
End chosen.
End index.

Lemma permuted {A B} (R : A -> B -> Prop) l l' : l ≡ₚ l' -> forall m, Forall2 R l m -> exists m', Forall2 R l' m' /\ m ≡ₚ m'.
Proof.
  induction 1 as [|x l l' Hp IH|x y l|l l' l'' H1 IH1 H2 IH2]; intros m HF.
  - inversion HF; subst. by exists [].
  - inversion HF as [|? b ? m0 Hx HF']; subst. destruct (IH m0 HF') as (m' & Hm & Hp'). exists (b :: m'). split; [by constructor|by constructor].
  - inversion HF as [|? b ? m0 Hx HF']; subst. inversion HF' as [|? c ? m1 Hy HF'']; subst. exists (c :: b :: m1). split; [by repeat constructor|constructor].
  - destruct (IH1 m HF) as (m1 & F1 & P1). destruct (IH2 m1 F1) as (m2 & F2 & P2). exists m2. split; [done|by etrans].
Qed.
#[local] Existing Instance js_phrasematch_eq_dec.
Definition no_object : (nat * js_phrasematch) * (N * opts_arg * list js_call) :=
  ((0%nat, JsPhrasematch (open_default ∅) None None None JsNull None None JsNull None 0), (0, NoOpts, [])).

(** ** C99 *)
(** Below its limits, and if no two stacks are a quarter apart, coalesce() has a result for
    every entry that a call of the program wrote, that the request asks for, and that lies on
    what was written for the layers before it, or is of the last layer. *)
Theorem C99_coalesce :
  forall p ho mtb tb l rs w js ls layers o out i x v,
  js_session p ho mtb tb js_start l = (rs, w) -> builders_apart (zip l rs) -> no_renumber (zip l rs) ->
  (Request false js (Some o), OutContexts (Ok out)) ∈ zip l rs -> sane o ->
  ls ≡ₚ js -> StronglySorted (program_layered (zip l rs)) ls -> (2 <= length ls)%nat -> NoDup (map (fun x => jp_idx x.2) ls) ->
  (forall x, x ∈ ls -> asks_in_range (zip l rs) x /\ jp_mask x.2 <> Some 0 /\ forall n, jp_idx x.2 = Some n -> n < 128) ->
  asked_for w ls layers -> (forall q, q ∈ layers -> first_short p mtb tb o 100000 q) -> close_stacks p mtb tb o layers -> (length out < 40)%nat ->
  ls !! i = Some x -> program_expected (zip l rs) o ls i v ->
  exists c e es, c ∈ out /\ cc_entries c = e :: es /\ jp_idx x.2 = Some (ce_idx e) /\ e_id e = ge_id v mod 2 ^ 24.
Proof.
  intros p ho mtb tb l rs w js ls layers o out i x v H Hap Hren Hin Hs Hp Hsort Hlen Hnd Hr Hask Hshort Hclose Hroom Hi He.
  destruct (C93_request p ho mtb tb js_start l rs w false js (Some o) out H Hin) as (js' & HF & Hco). change (Forall2 (stands_at w) js js') in HF.
  destruct (choose no_object (backs l rs w js) js' (converted_backs p ho mtb tb l rs w H Hap Hren js js' HF)) as [g Hg].
  destruct (asked_objects w ls layers Hask) as (ls' & HFl & Hsub).
  assert (Hperm : ls' ≡ₚ js').
  { symmetry in Hp. destruct (permuted _ _ _ Hp _ HF) as (m & Hm & Hpm). rewrite (stand_unique w ls ls' m HFl Hm). done. }
  assert (Hndj : NoDup (map (fun x => jp_idx x.2) js)).
  { eapply NoDup_Permutation_proper; [|exact Hnd]. symmetry. by apply (Permutation_map (fun x : nat * js_phrasematch => jp_idx x.2)). }
  assert (Hnm : forall x j, stands_at w x j -> jp_idx j = jp_idx x.2) by (intros y j [(_ & _ & _ & _ & _ & E & _) _]; done).
  assert (Hat : forall n y, ls !! n = Some y -> exists j, ls' !! n = Some j /\ stands_at w y j /\ y ∈ js /\ j ∈ js').
  { intros n y Hy. destruct (Forall2_lookup_l _ _ _ _ _ HFl Hy) as (j & Hj & Hyj). exists j. split; [done|]. split; [done|]. split.
    - rewrite <- Hp. by eapply elem_of_list_lookup_2.
    - rewrite <- Hperm. by eapply elem_of_list_lookup_2. }
  assert (Hback : forall n j, ls' !! n = Some j -> exists y, ls !! n = Some y /\ stands_at w y j /\ y ∈ js /\ j ∈ js').
  { intros n j Hj. destruct (Forall2_lookup_r _ _ _ _ _ HFl Hj) as (y & Hy & Hyj). exists y. destruct (Hat n y Hy) as (j' & Hj' & A & B & C).
    assert (j' = j) as -> by congruence. done. }
  assert (Hzoom : forall y j, stands_at w y j -> y ∈ js -> j ∈ js' -> exists f so, opened (zip l rs) y.1 f so /\ js_zoom j = opt_zoom so).
  { intros y j Hyj Hy Hj. destruct (opened_chosen l rs w js g js' Hg jp_idx Hnm Hndj y j Hy Hyj Hj) as (f & so & Hop). exists f, so. split; [done|].
    unfold js_zoom. by destruct (zoom_chosen p ho mtb tb l rs w H js g js' Hg jp_idx Hnm Hndj y j f so Hy Hyj Hj Hop) as [-> _]. }
  assert (Hasked : forall y j u, stands_at w y j -> y ∈ js -> j ∈ js' -> program_asked (zip l rs) o y u -> js_asked (g j).2.2 o j u).
  { intros y j u Hyj Hy Hj. exact (asked_chosen p ho mtb tb l rs w H Hap js g js' Hg jp_idx Hnm Hndj o y j u Hy Hyj Hj). }
  assert (Hinside : forall a b ja jb u u', stands_at w a ja -> a ∈ js -> ja ∈ js' -> stands_at w b jb -> b ∈ js -> jb ∈ js' ->
    program_inside (zip l rs) (a, u) (b, u') -> js_inside (ja, u) (jb, u')).
  { intros a b ja jb u u' Sa Xa Ja Sb Xb Jb (fa & fb & sa & sb & Oa & Ob & Hle & E1 & E2). cbn [fst snd] in *.
    destruct (zoom_chosen p ho mtb tb l rs w H js g js' Hg jp_idx Hnm Hndj a ja fa sa Xa Sa Ja Oa) as [Za _].
    destruct (zoom_chosen p ho mtb tb l rs w H js g js' Hg jp_idx Hnm Hndj b jb fb sb Xb Sb Jb Ob) as [Zb _].
    unfold js_inside, js_zoom. cbn [fst snd]. rewrite Za, Zb. done. }
  assert (Hstand : forall n u, program_standing (zip l rs) o ls n u -> js_standing (fun j => (g j).2.2) o ls' n u).
  { intros n u Hn. induction Hn as [y u Hy Hask0|n y u n' y' u' m m' Hlt Hy Hy' Hask0 Hn IH Hm Hm' Hmm Hins].
    - destruct (Hat _ _ Hy) as (j & Hj & A & B & C). eapply jsta_first; [exact Hj|]. by eapply Hasked.
    - destruct (Hat _ _ Hy) as (j & Hj & A & B & C). destruct (Hat _ _ Hy') as (j' & Hj' & A' & B' & C').
      eapply (jsta_on _ _ _ n j u n' j' u' m m'); try done.
      + by eapply Hasked.
      + destruct A as [(_ & E & _) _]. by rewrite E.
      + destruct A' as [(_ & E & _) _]. by rewrite E.
      + by eapply (Hinside y y'). }
  destruct (Hat i x Hi) as (j & Hj & Hxj & Hx & Hjin).
  destruct (C94_found p ho mtb tb js' ls' layers o out (fun j => (g j).2.2) i j v Hperm) as (c & e & es & Hc & Ee & Ei & Eid); try done.
  - clear -HFl Hsort Hp Hperm Hzoom. assert (Hxs : forall y, y ∈ ls -> y ∈ js) by (intros y Hy; by rewrite <- Hp).
    assert (Hjs : forall j, j ∈ ls' -> j ∈ js') by (intros j Hj; by rewrite <- Hperm). clear Hp Hperm.
    induction HFl as [|y j ls ls' Hyj HFl IH]; [constructor|]. inversion Hsort as [|? ? Hsort' Hall]; subst. constructor.
    { apply IH; [done| |]; [intros z Hz; apply Hxs; by right|intros z Hz; apply Hjs; by right]. }
    apply Forall_forall. intros j' Hj'. apply elem_of_list_lookup in Hj' as [n Hn]. destruct (Forall2_lookup_r _ _ _ _ _ HFl Hn) as (y' & Hy' & Hyj').
    rewrite Forall_forall in Hall. pose proof (Hall y' ltac:(by eapply elem_of_list_lookup_2)) as Hl.
    destruct (Hzoom y j Hyj) as (f & so & Hop & Ez); [apply Hxs; by left|apply Hjs; by left|].
    destruct (Hzoom y' j' Hyj') as (f' & so' & Hop' & Ez'); [apply Hxs; right; by eapply elem_of_list_lookup_2|apply Hjs; right; by eapply elem_of_list_lookup_2|].
    unfold js_layered. rewrite Ez, Ez'. destruct Hyj as [(_ & _ & _ & _ & _ & Ex & _) _], Hyj' as [(_ & _ & _ & _ & _ & Ex' & _) _]. rewrite Ex, Ex'. by apply (Hl f f').
  - by rewrite <- (Forall2_length _ _ _ HFl).
  - assert (E : map jp_idx ls' = map (fun x => jp_idx x.2) ls); [|by rewrite E].
    clear -HFl Hnm. induction HFl as [|y j ls ls' Hyj HFl IH]; [done|]. cbn. by rewrite IH, (Hnm y j).
  - intros j0 Hj0. apply elem_of_list_lookup in Hj0 as [n Hn]. destruct (Hback n j0 Hn) as (y & Hy & A & B & C).
    destruct (Hr y ltac:(by eapply elem_of_list_lookup_2)) as (R1 & R2 & R3). split; [|split].
    + eapply backs_ready; [by apply Hg|]. by rewrite (chosen_one l rs w js g js' Hg jp_idx Hnm Hndj y j0).
    + destruct A as [(_ & E & _) _]. by rewrite E.
    + by rewrite (Hnm y j0).
  - destruct He as [He|[Hl (y & Hy & Hask0)]]; [left; by apply Hstand|]. right. split; [by rewrite <- (Forall2_length _ _ _ HFl)|].
    destruct (Hat _ _ Hy) as (j0 & Hj0 & A & B & C). exists j0. split; [done|]. by eapply Hasked.
  - exists c, e, es. split; [done|]. split; [done|]. split; [|done]. by rewrite <- (Hnm x j).
Qed.
Print Assumptions C99_coalesce.

(** Objects that may be stacked stand for subqueries that may. *)
Lemma legal_from pms js chain : Forall2 as_subquery js chain -> js_legal js -> (forall q, q ∈ chain -> q ∈ pms) ->
  (forall j non, j ∈ js -> jp_nonoverlap j = Some non -> 129 ∉ non) -> legal pms (rev chain).
Proof.
  intros HF Hl Hin H129. split. { intros q Hq. apply Hin. apply elem_of_list_In, in_rev. by apply elem_of_list_In. }
  clear Hin. induction HF as [|j q js chain Hjq HF IH]; [split; [constructor|done]|].
  destruct Hl as (Hsort & Hmask & Hex). inversion Hsort as [|? ? Hsort' Hall]; subst.
  destruct IH as (I1 & I2 & I3).
  { split; [done|]. split.
    - intros i k a b ma mb Hne Ha Hb. apply (Hmask (S i) (S k)); [congruence|done|done].
    - intros i a b non idx Ha Hb. apply (Hex (S i) a b non idx); done. }
  { intros j' non Hj'. apply H129. by right. }
  pose proof Hjq as (Es & _ & Em & _ & (non & En & Hnon) & _). cbn [rev].
  assert (Hat : forall q', q' ∈ rev chain -> exists n j', js !! n = Some j' /\ as_subquery j' q').
  { intros q' Hq'. apply elem_of_list_In, in_rev, elem_of_list_In, elem_of_list_lookup in Hq' as [n Hn].
    destruct (Forall2_lookup_r _ _ _ _ _ HF Hn) as (j' & Hj' & Has). by exists n, j'. }
  split; [|split].
  - apply StronglySorted_app. split; [done|]. split; [repeat constructor|]. intros a b Ha Hb. apply elem_of_list_singleton in Hb as ->.
    destruct (Hat a Ha) as (n & j' & Hj' & (Es' & _)). rewrite Forall_forall in Hall. unfold type_of. rewrite Es, Es'. apply Hall. by eapply elem_of_list_lookup_2.
  - rewrite List.map_app. cbn [map]. apply disjoint_masks_app. split; [done|]. rewrite land_all_masks, Forall_forall. intros m Hm.
    apply elem_of_map in Hm as (a & -> & Ha). destruct (Hat a Ha) as (n & j' & Hj' & (_ & _ & Em' & _)). by apply (Hmask (S n) 0%nat j' j).
  - apply not_excluded_app. split; [done|]. destruct (N.testbit (sq_nonoverlap q) _) eqn:E; [exfalso|done]. apply Hnon in E.
    destruct HF as [|j1 q1 js1 chain1 Hj1 HF]; [apply (H129 j non); [by left|done|done]|]. cbn [rev] in E. rewrite last_snoc in E.
    destruct Hj1 as (_ & _ & _ & Ei & _). by apply (Hex 0%nat j j1 non (sq_idx q1)).
Qed.

(** A call of the program wrote each of the entries; the request asks for them; their objects
    may be stacked, the tile of each in the tile of the next. If the result is not full, no key
    has more than forty stacks and no answer of a store is cut off, then some result has
    entries of the same objects, in the same tiles, for the same features. *)
Theorem C99_stack :
  forall p ho mtb tb l rs w js o out pms xs ws chain,
  js_session p ho mtb tb js_start l = (rs, w) -> builders_apart (zip l rs) -> no_renumber (zip l rs) ->
  (Request true js (Some o), OutContexts (Ok out)) ∈ zip l rs -> sane o ->
  NoDup (map (fun x => jp_id x.2) js) -> program_groups js -> program_types (zip l rs) js -> free_of_129 js ->
  (forall x, x ∈ js -> asks_in_range (zip l rs) x /\ program_covers (zip l rs) x) ->
  asked_for w js pms -> (forall c, legal pms c -> ord_cmp (sum_weights c) f_max <> Gt) ->
  (forall cs, NoDup cs -> (forall c, c ∈ cs -> c <> [] /\ legal pms c) -> N.of_nat (length cs) < 2000) ->
  short_answers p mtb tb o pms -> (length out < 800)%nat ->
  program_stack (zip l rs) o xs ws -> (forall x, x ∈ xs -> x ∈ js /\ program_unlimited (zip l rs) x) ->
  program_legal (zip l rs) xs -> stackable_with (zip l rs) js xs -> asked_for w xs chain ->
  (forall id, at_most_40 (fun es => ce_phrasematch_id <$> head es = Some id /\
     exists chain', Forall2 alike chain chain' /\ (forall q, q ∈ chain' -> q ∈ pms) /\ nested_stack p mtb tb o chain' es)) ->
  exists c, c ∈ out /\
    Forall2 (fun xw e => jp_id xw.1.2 = Some (ce_phrasematch_id e) /\ e_cell e = (ge_x xw.2, ge_y xw.2) /\ e_id e = ge_id xw.2 mod 2 ^ 24)
      (zip xs ws) (cc_entries c).
Proof.
  intros p ho mtb tb l rs w js o out pms xs ws chain H Hap Hren Hin Hs Hnd Hgr Hty H129 Hr Hask Hfin Hfew Hshort Hlen Hst Hxs Hleg Hwith Hchain H40.
  destruct (C93_request p ho mtb tb js_start l rs w true js (Some o) out H Hin) as (js' & HF & Hco). change (Forall2 (stands_at w) js js') in HF.
  destruct (choose no_object (backs l rs w js) js' (converted_backs p ho mtb tb l rs w H Hap Hren js js' HF)) as [g Hg].
  assert (Hsub : Forall2 as_subquery js' pms).
  { destruct (asked_objects w js pms Hask) as (js1 & H1 & H2). by rewrite (stand_unique w js js' js1 HF H1). }
  destruct (asked_objects w xs chain Hchain) as (xs' & HFx & Hsubx).
  assert (Hnm : forall x j, stands_at w x j -> jp_id j = jp_id x.2) by (intros y j [(_ & _ & _ & _ & E & _) _]; done).
  assert (Hobj : forall y j, stands_at w y j -> y ∈ js -> j ∈ js').
  { intros y j Hyj Hy. apply elem_of_list_lookup in Hy as [n Hn]. destruct (Forall2_lookup_l _ _ _ _ _ HF Hn) as (j' & Hj' & Hyj').
    rewrite (stands_unique w y j j' Hyj Hyj'). by eapply elem_of_list_lookup_2. }
  assert (Hfrom : forall j, j ∈ js' -> exists y, y ∈ js /\ stands_at w y j).
  { intros j Hj. apply elem_of_list_lookup in Hj as [n Hn]. destruct (Forall2_lookup_r _ _ _ _ _ HF Hn) as (y & Hy & Hyj).
    exists y. split; [by eapply elem_of_list_lookup_2|done]. }
  assert (Hat : forall n j, xs' !! n = Some j -> exists y, xs !! n = Some y /\ stands_at w y j /\ y ∈ js /\ j ∈ js').
  { intros n j Hj. destruct (Forall2_lookup_r _ _ _ _ _ HFx Hj) as (y & Hy & Hyj). exists y. split; [done|]. split; [done|].
    assert (Hy' : y ∈ js) by (apply Hxs; by eapply elem_of_list_lookup_2). split; [done|by eapply Hobj]. }
  assert (Hzoom : forall y j, stands_at w y j -> y ∈ js -> exists f so, opened (zip l rs) y.1 f so /\
     st_zoom (jp_store j) = opt_zoom so /\ st_type_id (jp_store j) = opt_type so /\ st_bboxes (jp_store j) = opt_bboxes so).
  { intros y j Hyj Hy. pose proof (Hobj y j Hyj Hy) as Hj. destruct (opened_chosen l rs w js g js' Hg jp_id Hnm Hnd y j Hy Hyj Hj) as (f & so & Hop). exists f, so. split; [done|].
    exact (zoom_chosen p ho mtb tb l rs w H js g js' Hg jp_id Hnm Hnd y j f so Hy Hyj Hj Hop). }
  assert (Hjleg : forall ys ys', Forall2 (stands_at w) ys ys' -> (forall y, y ∈ ys -> y ∈ js) -> program_legal (zip l rs) ys -> js_legal ys').
  { intros ys ys' HFy Hin' (T & M & X).
    assert (Hat' : forall n j, ys' !! n = Some j -> exists y, ys !! n = Some y /\ stands_at w y j /\ y ∈ js).
    { intros n j Hj. destruct (Forall2_lookup_r _ _ _ _ _ HFy Hj) as (y & Hy & Hyj). exists y. split; [done|]. split; [done|]. apply Hin'. by eapply elem_of_list_lookup_2. }
    split; [|split].
    - assert (Hpair : forall i k a b, (i < k)%nat -> ys' !! i = Some a -> ys' !! k = Some b -> st_type_id (jp_store b) < st_type_id (jp_store a)).
      { intros i k a b Hlt Ha Hb. destruct (Hat' i a Ha) as (ya & A1 & A2 & A3). destruct (Hat' k b Hb) as (yb & B1 & B2 & B3).
        destruct (Hzoom ya a A2 A3) as (fa & sa & Oa & _ & -> & _). destruct (Hzoom yb b B2 B3) as (fb & sb & Ob & _ & -> & _). by eapply (T i k). }
      clear -Hpair. induction ys' as [|a ys' IH]; [constructor|]. constructor.
      + apply IH. intros i k x y Hlt Hx Hy. apply (Hpair (S i) (S k)); [lia|done|done].
      + apply Forall_forall. intros b Hb. apply elem_of_list_lookup in Hb as [n Hn]. apply (Hpair 0%nat (S n)); [lia|done|done].
    - intros i k a b ma mb Hne Ha Hb Ma Mb. destruct (Hat' i a Ha) as (ya & A1 & [(_ & E1 & _) _] & A3). destruct (Hat' k b Hb) as (yb & B1 & [(_ & E2 & _) _] & B3).
      apply (M i k ya yb); try done; congruence.
    - intros i a b non idx Ha Hb Na Ib. destruct (Hat' i a Ha) as (ya & A1 & [(_ & _ & _ & _ & _ & _ & _ & E1 & _) _] & A3).
      destruct (Hat' (S i) b Hb) as (yb & B1 & [(_ & _ & _ & _ & _ & E2 & _) _] & B3). apply (X i ya yb); try done; congruence. }
  assert (Hno : forall j non, j ∈ js' -> jp_nonoverlap j = Some non -> 129 ∉ non).
  { intros j non Hj E. destruct (Hfrom j Hj) as (y & Hy & [(_ & _ & _ & _ & _ & _ & _ & E1 & _) _]). apply (H129 y); [done|congruence]. }
  assert (Hsubq : forall ys qs, Forall2 as_subquery ys qs -> (forall j, j ∈ ys -> j ∈ js') -> forall q, q ∈ qs -> q ∈ pms).
  { intros ys qs HFq Hys q Hq. apply elem_of_list_lookup in Hq as [n Hn]. destruct (Forall2_lookup_r _ _ _ _ _ HFq Hn) as (j & Hj & Hjq).
    assert (Hj' : j ∈ js') by (apply Hys; by eapply elem_of_list_lookup_2). apply elem_of_list_lookup in Hj' as [m Hm].
    destruct (Forall2_lookup_l _ _ _ _ _ Hsub Hm) as (q' & Hq' & Hjq'). rewrite (C63_unique _ _ _ Hjq Hjq'). by eapply elem_of_list_lookup_2. }
  assert (Hxs' : forall j, j ∈ xs' -> j ∈ js') by (intros j Hj; apply elem_of_list_lookup in Hj as [n Hn]; by destruct (Hat n j Hn) as (y & _ & _ & _ & ?)).
  destruct (C89_found p ho mtb tb js' o out pms xs' ws chain (fun j => (g j).2.2)) as (c & Hc & HFc); try done.
  - assert (E : map jp_id js' = map (fun x => jp_id x.2) js); [|by rewrite E].
    clear -HF Hnm. induction HF as [|y j ls ls' Hyj HFl IH]; [done|]. cbn. by rewrite IH, (Hnm y j).
  - intros a b Ha Hb Ht. destruct (Hfrom a Ha) as (ya & Ya & Sa). destruct (Hfrom b Hb) as (yb & Yb & Sb).
    destruct Sa as [(A1 & A2 & _ & _ & _ & A3 & _ & A4 & _) Oa]. destruct Sb as [(B1 & B2 & _ & _ & _ & B3 & _ & B4 & _) Ob].
    destruct (Hgr ya yb Ya Yb) as (E & Ew & En). { unfold js_together in *. by rewrite <- A1, <- A2, <- A3, <- B1, <- B2, <- B3. }
    rewrite A1, B1, A4, B4. split; [|done]. rewrite E in Oa. congruence.
  - intros a b Ha Hb Hlt. destruct (Hfrom a Ha) as (ya & Ya & Sa). destruct (Hfrom b Hb) as (yb & Yb & Sb).
    destruct (Hzoom ya a Sa Ya) as (fa & sa & Oa & Za & Ta & _). destruct (Hzoom yb b Sb Yb) as (fb & sb & Ob & Zb & Tb & _).
    rewrite Za, Zb. rewrite Ta, Tb in Hlt. by eapply (Hty ya yb).
  - intros j Hj. destruct (Hfrom j Hj) as (y & Hy & Hyj). eapply backs_ready; [by apply Hg|]. rewrite (chosen_one l rs w js g js' Hg jp_id Hnm Hnd y j Hy Hyj Hj). by apply Hr.
  - intros j Hj key v Hh. destruct (Hfrom j Hj) as (y & Hy & Hyj). pose proof (chosen_one l rs w js g js' Hg jp_id Hnm Hnd y j Hy Hyj Hj) as Ex.
    destruct (Hg j Hj) as (_ & _ & _ & Hop & Hfi & _). rewrite Ex in Hop. destruct (Hr y Hy) as [_ Hcov].
    destruct (zoom_chosen p ho mtb tb l rs w H js g js' Hg jp_id Hnm Hnd y j _ _ Hy Hyj Hj Hop) as (_ & _ & ->). by eapply Hcov.
  - clear Hlen Hchain H40 Hleg Hwith Hsubx. revert xs' HFx Hat Hxs'. induction Hst as [y v Hw|y v y' v' ys vs Hst IH Hw Hins]; intros xs' HFx Hat Hxs'.
    + inversion HFx as [|? j ? ? Hyj Hnil]; subst. inversion Hnil; subst. constructor. destruct (Hat 0%nat j eq_refl) as (y0 & E & _ & Hy & Hj). injection E as <-.
      exact (wanted_chosen p ho mtb tb l rs w H Hap js g js' Hg jp_id Hnm Hnd o y j v Hy Hyj Hj Hw).
    + inversion HFx as [|? j ? xs1 Hyj HFx1]; subst. inversion HFx1 as [|? j' ? xs2 Hyj' HFx2]; subst.
      destruct (Hat 0%nat j eq_refl) as (y0 & E & _ & Hy & Hj). injection E as <-. destruct (Hat 1%nat j' eq_refl) as (y1 & E & _ & Hy' & Hj'). injection E as <-. constructor.
      * apply IH; [intros z Hz; apply Hxs; by right|done| |intros z Hz; apply Hxs'; by right]. intros n z Hz. destruct (Hat (S n) z Hz) as (u & Hu & R). by exists u.
      * exact (wanted_chosen p ho mtb tb l rs w H Hap js g js' Hg jp_id Hnm Hnd o y j v Hy Hyj Hj Hw).
      * destruct Hins as (fa & fb & sa & sb & Oa & Ob & Hle & E1 & E2). cbn [fst snd] in *.
        destruct (zoom_chosen p ho mtb tb l rs w H js g js' Hg jp_id Hnm Hnd y j fa sa Hy Hyj Hj Oa) as (-> & _).
        destruct (zoom_chosen p ho mtb tb l rs w H js g js' Hg jp_id Hnm Hnd y' j' fb sb Hy' Hyj' Hj' Ob) as (-> & _). unfold ancestor. cbn [fst snd]. by rewrite E1, E2.
  - intros j Hj. apply elem_of_list_lookup in Hj as [n Hn]. destruct (Hat n j Hn) as (y & Hy & Hyj & Hyjs & Hjjs). split; [done|].
    destruct (Hxs y ltac:(by eapply elem_of_list_lookup_2)) as [_ [U1 U2]]. destruct (Hzoom y j Hyj Hyjs) as (f & so & Hop & Hz & _).
    destruct Hyj as [(_ & Em & Eph & _ & _ & _ & En & _) _]. split; [rewrite Eph, Em; exact U1|]. rewrite Hz, En. exact (U2 f so Hop).
  - eapply (legal_from pms xs' chain); [done|by eapply Hjleg; [exact HFx|intros y Hy; by apply Hxs|]|by eapply Hsubq|]. intros j non Hj. by apply Hno, Hxs'.
  - destruct Hwith as [Hl|(y & Hy & Hyl)].
    + left. rewrite <- (Forall2_length _ _ _ Hsubx), <- (Forall2_length _ _ _ HFx). done.
    + right. pose proof Hy as Hy0. apply elem_of_list_lookup in Hy0 as [n Hn]. destruct (Forall2_lookup_l _ _ _ _ _ HF Hn) as (j & Hj & Hyj).
      destruct (Forall2_lookup_l _ _ _ _ _ Hsub Hj) as (q & Hq & Hjq). exists q. change (rev chain ++ [q]) with (rev (q :: chain)).
      assert (Hall : forall z, z ∈ j :: xs' -> z ∈ js'). { intros z Hz. apply elem_of_cons in Hz as [->|Hz]; [by eapply elem_of_list_lookup_2|by apply Hxs']. }
      eapply (legal_from pms (j :: xs') (q :: chain)).
      * by constructor.
      * eapply Hjleg; [by constructor; [exact Hyj|exact HFx]| |done]. intros z Hz. apply elem_of_cons in Hz as [->|Hz]; [done|by apply Hxs].
      * eapply Hsubq; [constructor; [exact Hjq|exact Hsubx]|done].
      * intros z non Hz. by apply Hno, Hall.
  - exists c. split; [done|]. clear -HFc HFx Hnm. revert ws HFc. generalize (cc_entries c). induction HFx as [|y j xs xs' Hyj HFx IH]; intros es ws HFc; [inversion HFc; constructor|].
    destruct ws as [|v ws]; [inversion HFc; constructor|]. cbn [zip zip_with] in *. inversion HFc as [|? e ? es' Hh Ht]; subst. constructor; [|by apply IH].
    cbn [fst snd] in *. by rewrite <- (Hnm y j).
Qed.
Print Assumptions C99_stack.

(** ** Examples *)
(** The layers of [C94_ex], written, opened and asked for by a program. *)
Definition i_opts (zoom : N) : opts_arg := GivenOpts (StoreOpts zoom 0 (f_of_N 40) [BBox 0 0 16383 16383] f_one).
Definition i_js : list (nat * js_phrasematch) := [(3%nat, y_b); (2%nat, y_a)].
Definition i_l : list js_do :=
  [ NewBuilder (Some 1); NewBuilder (Some 2); CallBuilder 1 (JsAppend e_key None); CallBuilder 0 (JsInsert e_key (Some [GridEntry f_one 1 0 0 8 0]));
    CallBuilder 0 JsFinish; CallBuilder 1 (JsInsert e_key (Some [GridEntry f_one 1 1 1 1 0; GridEntry f_one 2 60 60 2 0])); CallBuilder 1 JsFinish;
    NewStore (Some 1) (i_opts 5); NewStore (Some 2) (i_opts 6); Request false i_js (Some o_o) ].
Definition i_run : list js_out * js_world := js_session Debug id_oracle first_mtb first_tb js_start i_l.
Definition i_outs : list js_out := Eval vm_compute in i_run.1.
Notation i_d := (zip i_l i_outs).
Definition i_flat : list coalesce_context := Eval vm_compute in z_contexts (default (OutObject Err) (i_outs !! 9%nat)).
Definition converted_in (w : js_world) (js : list (nat * js_phrasematch)) : res (list subquery) :=
  let* js := res_mapM (on_store w) js in deserialize_phrasesubq js.
Lemma converted_in_ok w js : is_ok (converted_in w js) = true -> asked_for w js (ok_list (converted_in w js)).
Proof.
  unfold converted_in. intros H. destruct (res_mapM (on_store w) js) as [js'| | |] eqn:E1; try discriminate H. cbn [res_bind] in *.
  destruct (deserialize_phrasesubq js') as [pms| | |] eqn:E2; try discriminate H. by eapply (converted_asked w).
Qed.
Definition i_layers : list subquery := ok_list (converted_in i_run.2 [(2%nat, y_a); (3%nat, y_b)]).
Definition i_at (n : nat) : subquery := default l_a (i_layers !! n).
Lemma i_layers_eq : i_layers = [i_at 0; i_at 1].
Proof.
  assert (H : length i_layers = 2%nat) by (vm_compute; reflexivity). unfold i_at. by destruct i_layers as [|a [|b [|? ?]]].
Qed.
Lemma i_eighths : eighths Debug first_mtb first_tb i_layers o_o.
Proof.
  intros e z (sq & g & Hsq & _ & (k & ks & zo & out & Hk & Hzo & Hout & Hg) & (E & _ & _ & Em & _)).
  rewrite i_layers_eq, !elem_of_cons, elem_of_nil in Hsq. destruct Hsq as [->|[->|[]]].
  all: vm_compute in Hk; injection Hk as <- <-; vm_compute in Hzo; injection Hzo as <-; vm_compute in Hout; injection Hout as <-; vm_compute in Em.
  - apply elem_of_list_singleton in Hg as ->. unfold e_relev. rewrite E. split; [vm_compute; reflexivity|by left].
  - rewrite !elem_of_cons, elem_of_nil in Hg. unfold e_relev. rewrite E. destruct Hg as [->|[->|[]]]; (split; [vm_compute; reflexivity|by right]).
Qed.
Lemma i_opened h f so : opened i_d h f so -> (h = 2%nat /\ f = 1 /\ so = i_opts 5) \/ (h = 3%nat /\ f = 2 /\ so = i_opts 6).
Proof.
  intros H. unfold opened in H. cbn [zip zip_with i_l i_outs] in H.
  repeat (apply elem_of_cons in H as [H|H]; [try discriminate H|]); [| |by apply elem_of_nil in H].
  - left. injection H as -> -> ->. done.
  - right. injection H as -> -> ->. done.
Qed.
Lemma i_builders f i : (NewBuilder (Some f), OutObject (Ok i)) ∈ i_d -> (f = 1 /\ i = 0%nat) \/ (f = 2 /\ i = 1%nat).
Proof.
  intros H. cbn [zip zip_with i_l i_outs] in H.
  repeat (apply elem_of_cons in H as [H|H]; [try discriminate H|]); [| |by apply elem_of_nil in H].
  - left. injection H as -> ->. done.
  - right. injection H as -> ->. done.
Qed.
Lemma i_filled f cs : filled i_d f cs -> (f = 1 /\ cs = y_calls_a) \/ (f = 2 /\ cs = y_calls_b).
Proof.
  intros (i & l1 & l2 & rest & E & Hc & Hn). apply (f_equal before_finish) in Hc. rewrite before_finish_ok in Hc by done. subst cs.
  cbn [zip zip_with i_l i_outs] in E.
  destruct l1 as [|d l1]; [injection E as <- <- <-; left; split; [done|vm_compute; reflexivity]|]. injection E as _ E.
  destruct l1 as [|d' l1]; [injection E as <- <- <-; right; split; [done|vm_compute; reflexivity]|]. injection E as _ E.
  do 8 (destruct l1 as [|? l1]; [discriminate E|injection E as _ E]). by destruct l1.
Qed.
Lemma i_asked x w : (x = (2%nat, y_a) /\ w = GridEntry f_one 1 0 0 8 0) \/ (x = (3%nat, y_b) /\ w ∈ [y_w; y_w']) -> program_asked i_d o_o x w.
Proof.
  assert (Hk : as_key e_key (1, 1)) by (apply to_key_iff; vm_compute; reflexivity).
  intros [[-> ->]|[-> Hw]].
  - exists 1, (i_opts 5), y_calls_a, (1, 1), (Exact 1). split; [do 7 right; left|].
    split. { eexists 0%nat, [], _, _. split; [reflexivity|]. split; [vm_compute; reflexivity|]. set_solver. }
    split; [|split; [done|split; [done|intros b E; discriminate E]]].
    exists [], (JsInsert e_key (Some [GridEntry f_one 1 0 0 8 0])), []. split; [reflexivity|].
    split; [constructor; [done|by left]|]. intros k es H. by apply elem_of_nil in H.
  - exists 2, (i_opts 6), y_calls_b, (1, 1), (Exact 1). split; [do 8 right; left|].
    split. { eexists 1%nat, (take 1 i_d), _, _. split; [reflexivity|]. split; [vm_compute; reflexivity|]. set_solver. }
    split; [|split; [done|split; [done|intros b E; discriminate E]]].
    exists [JsAppend e_key None], (JsInsert e_key (Some [y_w; y_w'])), []. split; [reflexivity|].
    split; [by constructor|]. intros k es H. by apply elem_of_nil in H.
Qed.
Lemma i_in_range x : x ∈ i_js -> asks_in_range i_d x.
Proof.
  intros Hx f so cs Ho Hf. unfold i_js in Hx. rewrite !elem_of_cons, elem_of_nil in Hx. destruct Hx as [->|[->|[]]].
  - destruct (i_opened _ _ _ Ho) as [(E & _)|(_ & -> & ->)]; [discriminate E|].
    destruct (i_filled _ _ Hf) as [[E _]|[_ ->]]; [discriminate E|]. destruct (y_ready y_b) as (_ & H1 & H2 & H3); [set_solver|]. done.
  - destruct (i_opened _ _ _ Ho) as [(_ & -> & ->)|(E & _)]; [|discriminate E].
    destruct (i_filled _ _ Hf) as [[_ ->]|[E _]]; [|discriminate E]. destruct (y_ready y_a) as (_ & H1 & H2 & H3); [set_solver|]. done.
Qed.
Example C99_ex_coalesce :
  let ls := [(2%nat, y_a); (3%nat, y_b)] in
  js_session Debug id_oracle first_mtb first_tb js_start i_l = (i_outs, i_run.2) /\ builders_apart i_d /\ no_renumber i_d /\
  (Request false i_js (Some o_o), OutContexts (Ok i_flat)) ∈ i_d /\ sane o_o /\ ls ≡ₚ i_js /\ StronglySorted (program_layered i_d) ls /\
  NoDup (map (fun x => jp_idx x.2) ls) /\
  (forall x, x ∈ ls -> asks_in_range i_d x /\ jp_mask x.2 <> Some 0 /\ forall n, jp_idx x.2 = Some n -> n < 128) /\
  asked_for i_run.2 ls i_layers /\ (forall q, q ∈ i_layers -> first_short Debug first_mtb first_tb o_o 100000 q) /\
  close_stacks Debug first_mtb first_tb o_o i_layers /\
  program_standing i_d o_o ls 1 y_w /\ program_expected i_d o_o ls 1 y_w' /\
  map (fun c => map (fun e => (ce_idx e, e_id e)) (cc_entries c)) i_flat = [[(1, 1); (0, 8)]; [(0, 8)]; [(1, 2)]].
Proof.
  cbn zeta. split. { change (js_session Debug id_oracle first_mtb first_tb js_start i_l) with i_run. rewrite (surjective_pairing i_run). f_equal. }
  split. { intros f i j Hi Hj. apply i_builders in Hi, Hj. destruct Hi as [[-> ->]|[-> ->]], Hj as [[E ->]|[E ->]]; try done. }
  split. { intros i ids r H. cbn [zip zip_with i_l i_outs] in H. repeat (apply elem_of_cons in H as [H|H]; [discriminate H|]). by apply elem_of_nil in H. }
  split; [do 9 right; left|]. split; [split; [apply N.leb_le; reflexivity|]; by split|].
  split; [apply (Permutation_rev [(2%nat, y_a); (3%nat, y_b)])|]. split.
  { constructor; [repeat constructor|]. constructor; [|constructor]. intros f g so to Ha Hb.
    destruct (i_opened _ _ _ Ha) as [(_ & _ & ->)|(E & _)]; [|discriminate E]. destruct (i_opened _ _ _ Hb) as [(E & _)|(_ & _ & ->)]; [discriminate E|].
    left. apply N.ltb_lt. reflexivity. }
  split; [apply (bool_decide_eq_true_1 _); vm_compute; reflexivity|]. split.
  { intros x H. rewrite !elem_of_cons, elem_of_nil in H.
    destruct H as [->|[->|[]]]; (split; [apply i_in_range; repeat (first [by left|right])|]); (split; [done|]); intros n E; by injection E as <-. }
  split; [apply converted_in_ok; vm_compute; reflexivity|]. split.
  { intros q H. apply first_short_ok. rewrite i_layers_eq, !elem_of_cons, elem_of_nil in H. destruct H as [->|[->|[]]]; vm_compute; reflexivity. }
  split; [apply eighths_close, i_eighths|]. split; [|split; [|vm_compute; reflexivity]].
  - eapply (psta_on _ _ _ 1 (3%nat, y_b) _ 0 (2%nat, y_a) (GridEntry f_one 1 0 0 8 0) 2 1); try reflexivity.
    + lia.
    + apply i_asked. right. split; [done|by left].
    + eapply psta_first; [reflexivity|]. apply i_asked. by left.
    + exists 2, 1, (i_opts 6), (i_opts 5). split; [do 8 right; left|]. split; [do 7 right; left|]. split; [apply N.leb_le; reflexivity|]. split; reflexivity.
  - right. split; [reflexivity|]. exists (3%nat, y_b). split; [reflexivity|]. apply i_asked. right. split; [done|]. right. by left.
Qed.

(** The program of [C95_ex]: what it stacked is found. *)
Lemma z_opened_a : opened z_d 2 1 (z_opts 5 1). Proof. do 12 right. left. Qed.
Lemma z_opened_b : opened z_d 3 2 (z_opts 6 2). Proof. do 13 right. left. Qed.
Lemma z_held (x : nat * js_phrasematch) cs w f so : opened z_d x.1 f so -> filled z_d f cs ->
  (exists key ph, js_holds cs key w /\ jp_phrase x.2 = Some ph /\ phrase_sel ph key.1 = true) ->
  (forall b, mo_bbox g_opts = Some b -> shares_ground (mo_zoom g_opts) b (opt_zoom so) (ge_x w) (ge_y w)) -> program_asked z_d g_opts x w.
Proof. intros Ho Hf (key & ph & Hh & Hp & Hs) Hb. by exists f, so, cs, key, ph. Qed.
Lemma z_stack : program_stack z_d g_opts z_js [e_wb; e_wa].
Proof.
  destruct C95_ex as (_ & _ & _ & _ & _ & Fa & Fb & _).
  pose proof e_stack as He. inversion He as [|? ? ? ? ? ? He' Wb Ab]; subst. inversion He' as [? ? Wa|]; subst.
  destruct Wa as (Ha & Ia & Na), Wb as (Hb & Ib & Nb). constructor; [constructor| |].
  - split; [|intros E; discriminate E]. eapply z_held; [exact z_opened_a|exact Fa|exact Ha|exact Ia].
  - split; [eapply z_held; [exact z_opened_b|exact Fb|exact Hb|exact Ib]|]. intros E. exists 2, (z_opts 6 2). split; [exact z_opened_b|]. exact (Nb E).
  - exists 2, 1, (z_opts 6 2), (z_opts 5 1). split; [exact z_opened_b|]. split; [exact z_opened_a|]. split; [apply N.leb_le; reflexivity|]. split; reflexivity.
Qed.
Definition z_any : list coalesce_entry := mjoin (map (all_entries Debug first_mtb last_tb g_opts) h_pms).
Lemma z_forty chain : length chain = 2%nat ->
  forall id, at_most_40 (fun es => ce_phrasematch_id <$> head es = Some id /\
     exists chain', Forall2 alike chain chain' /\ (forall q, q ∈ chain' -> q ∈ h_pms) /\ nested_stack Debug first_mtb last_tb g_opts chain' es).
Proof.
  intros Hc id D Hnd HD. enough (length D <= length (products [z_any; z_any]))%nat.
  { assert (E : (length (products [z_any; z_any]) <= 40)%nat) by (apply Nat.leb_le; vm_compute; reflexivity). lia. }
  apply submseteq_length, NoDup_submseteq; [done|]. intros es Hes. destruct (HD es Hes) as (_ & chain' & Ha & Hin & Hns).
  apply Forall2_length in Ha. rewrite Hc in Ha. destruct chain' as [|a [|b [|? ?]]]; try discriminate Ha.
  apply nested_entries in Hns. change [z_any; z_any] with (map (fun _ : unit => z_any) [tt; tt]). apply products_ok.
  inversion Hns as [|? e1 ? es1 H1 Hns1]; subst. inversion Hns1 as [|? e2 ? es2 H2 Hns2]; subst. inversion Hns2; subst.
  constructor; [|constructor; [|constructor]]; apply elem_of_mjoin.
  - exists (all_entries Debug first_mtb last_tb g_opts a). split; [exact H1|]. apply elem_of_map. exists a. split; [reflexivity|]. apply Hin. by left.
  - exists (all_entries Debug first_mtb last_tb g_opts b). split; [exact H2|]. apply elem_of_map. exists b. split; [reflexivity|]. apply Hin. right. by left.
Qed.
Lemma z_legal : program_legal z_d z_js.
Proof.
  split; [|split].
  - intros i k x y f g so to Hlt Hx Hy Ox Oy. destruct i as [|i].
    2: { apply lookup_lt_Some in Hy. cbn in Hy. lia. }
    injection Hx as <-. destruct (z_opened _ _ _ Ox) as [(E & _)|(_ & _ & ->)]; [discriminate E|].
    destruct k as [|[|k]]; [lia| |done]. injection Hy as <-. destruct (z_opened _ _ _ Oy) as [(_ & _ & ->)|(E & _)]; [|discriminate E]. apply N.ltb_lt. reflexivity.
  - intros i k x y mx my Hne Hx Hy Mx My. destruct i as [|[|i]], k as [|[|k]]; try done; injection Hx as <-; injection Hy as <-; injection Mx as <-; injection My as <-; reflexivity.
  - intros i x y non idx Hx Hy Nx Iy. destruct i as [|[|i]]; [|done..]. injection Hx as <-. injection Nx as <-. intros H. by apply elem_of_nil in H.
Qed.
Example C99_ex_stack :
  js_session Debug id_oracle first_mtb last_tb js_start z_l = (z_outs, z_run.2) /\ builders_apart z_d /\ no_renumber z_d /\
  (Request true z_js (Some g_opts), OutContexts (Ok z_stacked)) ∈ z_d /\ sane g_opts /\
  NoDup (map (fun x => jp_id x.2) z_js) /\ program_groups z_js /\ program_types z_d z_js /\ free_of_129 z_js /\
  (forall x, x ∈ z_js -> asks_in_range z_d x /\ program_covers z_d x) /\
  asked_for z_run.2 z_js h_pms /\ (forall c, legal h_pms c -> ord_cmp (sum_weights c) f_max <> Gt) /\
  (forall cs, NoDup cs -> (forall c, c ∈ cs -> c <> [] /\ legal h_pms c) -> N.of_nat (length cs) < 2000) /\
  short_answers Debug first_mtb last_tb g_opts h_pms /\
  program_stack z_d g_opts z_js [e_wb; e_wa] /\ (forall x, x ∈ z_js -> x ∈ z_js /\ program_unlimited z_d x) /\
  program_legal z_d z_js /\ stackable_with z_d z_js z_js /\
  (forall id, at_most_40 (fun es => ce_phrasematch_id <$> head es = Some id /\
     exists chain', Forall2 alike h_pms chain' /\ (forall q, q ∈ chain' -> q ∈ h_pms) /\ nested_stack Debug first_mtb last_tb g_opts chain' es)) /\
  map (fun c => map (fun e => (ce_idx e, e_cell e)) (cc_entries c)) z_stacked = [[(1, (4, 4)); (0, (2, 2))]; [(1, (4, 4))]; [(0, (2, 2))]].
Proof.
  destruct C95_ex as (X1 & X2 & X3 & _ & _ & _ & _ & _ & _ & _ & _ & X4 & _ & X5 & X6 & X7 & X8 & X9 & _ & X10 & _).
  split; [exact X1|]. split; [exact X2|]. split; [exact X3|]. split; [exact X4|]. split; [exact X5|]. split; [exact X6|]. split; [exact X7|]. split; [exact X8|].
  split. { intros x non Hx E. unfold z_js in Hx. rewrite !elem_of_cons, elem_of_nil in Hx. destruct Hx as [->|[->|[]]]; injection E as <-; intros H; by apply elem_of_nil in H. }
  split.
  { intros x Hx. split; [by apply z_in_range|]. intros f so cs key w Ho Hf Hh. unfold z_js in Hx. rewrite !elem_of_cons, elem_of_nil in Hx. destruct Hx as [->|[->|[]]].
    - destruct (z_opened _ _ _ Ho) as [(E & _)|(_ & -> & ->)]; [discriminate E|]. destruct (z_filled _ _ Hf) as [[E _]|[_ ->]]; [discriminate E|].
      exact (e_covers e_b ltac:(by left) key w Hh).
    - destruct (z_opened _ _ _ Ho) as [(_ & -> & ->)|(E & _)]; [|discriminate E]. destruct (z_filled _ _ Hf) as [[_ ->]|[E _]]; [|discriminate E].
      exact (e_covers e_a ltac:(right; by left) key w Hh). }
  split; [apply C98_ex|].
  split; [apply (legal_all _ _ (fun c => not_gtb (sum_weights c) f_max)); [intros c; apply not_gtb_ok|vm_compute; reflexivity]|].
  split; [apply few_chains; apply N.ltb_lt; vm_compute; reflexivity|].
  split; [apply short_answers_ok; vm_compute; reflexivity|]. split; [exact z_stack|]. split.
  { intros x Hx. split; [done|]. unfold z_js in Hx. rewrite !elem_of_cons, elem_of_nil in Hx. split.
    - intros s e m E _. destruct Hx as [->|[->|[]]]; [|discriminate E]. injection E as <- <-. left. lia.
    - intros f so Ho Hz. destruct (z_opened _ _ _ Ho) as [(_ & _ & ->)|(_ & _ & ->)]; apply N.leb_le in Hz; discriminate Hz. }
  split; [exact z_legal|]. split; [left; apply Nat.leb_le; reflexivity|].
  split; [apply z_forty; vm_compute; reflexivity|exact X10].
Qed.
