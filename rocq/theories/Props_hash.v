(** Property C98: hash orders do not show in what a program does. *)
From Verif Require Import Prelude Lists F64 Heap Common Morton Format Format_proofs Builder Record_proofs Bits_proofs Builder_proofs Finish_proofs Order_proofs
  Spatial Store Spec Spec_match Query Coalesce Stackable Spec_stack Tree Spec_tree Native Spec_native Native_proofs Spec_js Props_js
  Examples Props_native Props_flat Spec_coalesce Spec_exact Spec_complete Props_complete Spec_exact Props_exact Props_ground Props_end Spec_room Props_room
  Props_coalesce Session Spec_session Session_proofs Props_session Spec_program Props_program Background Spec_hash.
From Coq Require Import ZifyBool.
Local Open Scope N_scope.

(** ** finish() *)
Section alter.
  Context {V : Type} (F : N -> option V -> V -> V).
  Notation step := (fun (d : gmap N V) (kv : N * V) => partial_alter (fun old => Some (F kv.1 old kv.2)) kv.1 d).
  Lemma alters_none l : forall d k, k ∉ l.*1 -> foldl step d l !! k = d !! k.
  Proof.
    induction l as [|[k' v] l IH]; intros d k Hk; [done|]. cbn [foldl fst snd]. rewrite fmap_cons, not_elem_of_cons in Hk. destruct Hk as [Hne Hk].
    rewrite IH by done. by rewrite lookup_partial_alter_ne.
  Qed.
  Lemma alters_some l : forall d k v, NoDup (l.*1) -> (k, v) ∈ l -> foldl step d l !! k = Some (F k (d !! k) v).
  Proof.
    induction l as [|[k' v'] l IH]; intros d k v Hn Hin; [by apply elem_of_nil in Hin|]. cbn [foldl fst snd].
    rewrite fmap_cons in Hn. apply NoDup_cons in Hn as [Hk Hn]. apply elem_of_cons in Hin as [E|Hin].
    - injection E as <- <-. rewrite alters_none by done. by rewrite lookup_partial_alter.
    - rewrite (IH _ k v) by done. rewrite lookup_partial_alter_ne; [done|]. intros ->. apply Hk. apply elem_of_list_fmap. by exists (k, v).
  Qed.
  Lemma alters_perm l l' d : NoDup (l.*1) -> l ≡ₚ l' -> foldl step d l = foldl step d l'.
  Proof.
    intros Hn Hp. assert (Hn' : NoDup (l'.*1)) by (by rewrite <- Hp). apply map_eq. intros k.
    destruct (decide (k ∈ l.*1)) as [Hk|Hk].
    - apply elem_of_list_fmap in Hk as ([k' v] & -> & Hin). cbn [fst]. rewrite (alters_some l d k' v) by done.
      rewrite (alters_some l' d k' v); [done|done|]. by rewrite <- Hp.
    - rewrite alters_none by done. rewrite alters_none; [done|]. by rewrite <- Hp.
  Qed.
End alter.
Lemma hash_perm {V} o1 o2 s1 s2 (m : gmap N V) : NoDup ((hash_iter o1 s1 m).*1) /\ hash_iter o1 s1 m ≡ₚ hash_iter o2 s2 m.
Proof. unfold hash_iter. rewrite !ho_perm. split; [apply NoDup_fst_map_to_list|done]. Qed.
Lemma copy_cells_hash o1 o2 s1 s2 dst src : copy_cells o1 s1 dst src = copy_cells o2 s2 dst src.
Proof. destruct (hash_perm o1 o2 s1 s2 src) as [Hn Hp]. exact (alters_perm (fun _ old v => default [] old ++ v) _ _ dst Hn Hp). Qed.
Lemma copy_entries_hash o1 o2 s1 s2 src dst : copy_entries o1 s1 src dst = copy_entries o2 s2 src dst.
Proof.
  destruct (hash_perm o1 o2 s1 s2 src) as [Hn Hp]. unfold copy_entries.
  rewrite (alters_perm (fun k old v => copy_cells o1 (k :: s1) (default ∅ old) v) _ _ dst Hn Hp).
  generalize (hash_iter o2 s2 src). intros l. clear. revert dst. induction l as [|[k v] l IH]; intros dst; [done|]. cbn [foldl fst snd].
  rewrite IH. f_equal. apply partial_alter_ext. intros x _. by rewrite (copy_cells_hash o1 o2 (k :: s1) (k :: s2)).
Qed.
Lemma group_items_hash o1 o2 its : forall st, foldl (group_item o1) st its = foldl (group_item o2) st its.
Proof.
  induction its as [|[k v] its IH]; intros [puts langs]; [done|]. cbn [foldl]. rewrite IH. f_equal. cbn [group_item].
  by rewrite !get_encoded_value_norm, (copy_entries_hash o1 o2 (0 :: write_key SinglePhrase k) (0 :: write_key SinglePhrase k)).
Qed.
Lemma lang_inj g l l' : l < 2 ^ 128 -> l' < 2 ^ 128 -> write_key PrefixBin (g, l) = write_key PrefixBin (g, l') -> l = l'.
Proof.
  intros H H' E. assert (E' : write_key PrefixBin (0, l) = write_key PrefixBin (0, l')).
  { unfold write_key in *. cbn [gk_phrase gk_lang fst snd] in *. apply (f_equal tail) in E. cbn [tail] in E. apply app_inv_head in E. by rewrite E. }
  apply write_key_inj in E' as [_ E']; [by injection E'|split; cbn; lia..].
Qed.
Lemma bin_puts_hash o1 o2 gid langs d : (forall l be, langs !! l = Some be -> l < 2 ^ 128) ->
  apply_puts (bin_puts o1 gid langs) d = apply_puts (bin_puts o2 gid langs) d.
Proof.
  intros Hl. assert (Hn : forall o, NoDup ((bin_puts o gid langs).*1)).
  { intros o. unfold bin_puts. change (map ?f ?l) with (f <$> l). rewrite <- list_fmap_compose.
    assert (E : (fst ∘ (fun lv : N * bent => (write_key PrefixBin (gid, lv.1),
      get_encoded_value o (1 :: write_key PrefixBin (gid, lv.1)) lv.2))) <$> hash_iter o [2; gid] langs
    = (fun l => write_key PrefixBin (gid, l)) <$> (hash_iter o [2; gid] langs).*1).
    { rewrite <- list_fmap_compose. done. }
    cbn zeta. rewrite E. clear E. destruct (hash_perm o o [2; gid] [2; gid] langs) as [Hnd _].
    assert (Hr : Forall (fun l => l < 2 ^ 128) ((hash_iter o [2; gid] langs).*1)).
    { apply Forall_forall. intros l Hin. apply elem_of_list_fmap in Hin as ([l' be] & -> & Hin).
      apply elem_hash_iter in Hin. simpl. eauto. }
    induction Hnd as [|l ls Hn Hnd IH]; [constructor|]. inversion Hr as [|? ? Hl1 Hr']; subst. rewrite fmap_cons. constructor; [|by apply IH].
    intros Hin. apply elem_of_list_fmap in Hin as (l' & E & Hin). rewrite Forall_forall in Hr'. pose proof (Hr' _ Hin) as Hl'.
    apply lang_inj in E as ->; done. }
  apply apply_puts_set; [apply Hn..|]. intros kv. by rewrite !bin_puts_elem.
Qed.
Lemma group_puts_hash o1 o2 g d : (forall x, x ∈ g.2 -> gk_lang x.2.1 < 2 ^ 128) ->
  apply_puts (group_puts o1 g) d = apply_puts (group_puts o2 g) d.
Proof.
  intros Hl. unfold group_puts. rewrite (group_items_hash o1 o2). pose proof (group_fold o2 (map snd g.2) [] ∅ [] merged_ok_nil) as H.
  destruct (foldl (group_item o2) _ _) as [puts langs]. destruct H as [_ Hm]. rewrite !apply_puts_app. destruct g.1 as [gid|]; [|done].
  apply bin_puts_hash. intros l be Hlk. destruct (proj1 (mo_dom _ _ Hm l)) as (it & Hit & <-); [eauto|].
  apply elem_of_map in Hit as (x & -> & Hx). by apply Hl.
Qed.
Definition langs_small (b : builder) : Prop := forall k be, b_data b !! k = Some be -> gk_lang k < 2 ^ 128.
(** finish() writes the same whatever the hash orders. *)
Lemma finish_hash o1 o2 b d : langs_small b -> finish o1 b d = finish o2 b d.
Proof.
  intros Hb. unfold finish, finish_puts. destruct (bin_label _ _) as [lab| | |] eqn:E; try done. cbn [res_bind]. f_equal.
  rewrite !apply_puts_app. f_equal.
  assert (Hgs : Forall (fun g : option N * list (option N * ((N * N) * bent)) => forall x, x ∈ g.2 -> gk_lang x.2.1 < 2 ^ 128) (eager_groupby fst option_N_eqb lab)).
  { apply Forall_forall. intros [la g] Hg. destruct (grouping_elem _ _ _ _ _ _ (eager_groupby_grouping fst option_N_eqb lab) Hg) as (a & run & -> & -> & Hrun & Hin).
    intros x Hx. apply Hin in Hx. assert (Hx' : x.2 ∈ btree_iter (b_data b)) by (rewrite <- (bin_label_snd _ _ _ E); apply elem_of_map; eauto).
    destruct x as [lx [k be]]. apply elem_btree_iter, Hb in Hx'. done. }
  revert d. induction Hgs as [|g gs Hg Hgs IH]; intros d; [done|]. cbn [map mjoin list_join]. rewrite !apply_puts_app.
  rewrite (group_puts_hash o1 o2 g d Hg). apply IH.
Qed.

(** ** The builders of a program hold language sets of 128 bits *)
Definition langs_in (w : js_world) : Prop := forall i f b, w_objs w !! i = Some (ABuilder f (Some b)) -> langs_small b.
Lemma small_insert b key v bs : langs_small b -> gk_lang key < 2 ^ 128 -> langs_small (Builder (<[key := v]> (b_data b)) bs).
Proof. intros Hb Hk k be H. cbn [b_data] in H. apply lookup_insert_Some in H as [[<- _]|[_ H]]; [done|]. by eapply Hb. Qed.
Lemma renumber_small ids old : forall data, (forall kv, kv ∈ old -> gk_lang kv.1 < 2 ^ 128) -> (forall k be, data !! k = Some be -> gk_lang k < 2 ^ 128) ->
  forall k be, (renumber_loop ids old data).2 !! k = Some be -> gk_lang k < 2 ^ 128.
Proof.
  induction old as [|[key v] old IH]; intros data Ho Hd; [exact Hd|]. cbn [renumber_loop]. destruct (ids !! _) as [id|]; [|exact Hd].
  destruct (data !! (id, gk_lang key)); [exact Hd|]. apply IH; [intros kv H; apply Ho; by right|].
  intros k be H. apply lookup_insert_Some in H as [[<- _]|[_ H]]; [|by eapply Hd]. exact (Ho (key, v) (elem_of_list_here _ _)).
Qed.
Lemma key_small k key : to_key k = Ok key -> gk_lang key < 2 ^ 128.
Proof. intros H. apply to_key_iff, as_key_ok in H. apply H. Qed.
Lemma edit_small b c : langs_small b -> langs_small (js_edit b c).2.
Proof.
  intros Hb. destruct c as [k vs|k vs|k relev score id hash cs|[ids|]|[bs|]|]; cbn [js_edit]; try done.
  - destruct vs as [vs|]; cbn [given res_bind]; [|done]. destruct (to_key k) as [key| | |] eqn:E; try done. cbn [res_bind snd]. apply small_insert; [done|by eapply key_small].
  - destruct vs as [vs|]; cbn [given res_bind]; [|done]. destruct (to_key k) as [key| | |] eqn:E; try done. cbn [res_bind snd]. apply small_insert; [done|by eapply key_small].
  - destruct (to_key k) as [key| | |] eqn:E; try done. cbn [res_bind]. destruct (as_number relev); try done. cbn [res_bind]. destruct (as_number score); try done.
    cbn [res_bind]. destruct (as_number id); try done. cbn [res_bind]. destruct (as_number hash); try done. cbn [res_bind]. destruct (given cs); try done.
    cbn [res_bind snd]. apply small_insert; [done|by eapply key_small].
  - unfold renumber. pose proof (renumber_small ids (btree_iter (b_data b)) ∅) as H. destruct (renumber_loop _ _ _) as [r data]. cbn [snd] in *.
    intros k be Hk. cbn [b_data] in Hk. eapply H; [| |exact Hk]; [|intros ? ? E; by rewrite lookup_empty in E].
    intros [k' v] Hin. apply elem_btree_iter in Hin. by eapply Hb.
Qed.
Lemma new_small : langs_small builder_new.
Proof. intros k be H. cbn in H. by rewrite lookup_empty in H. Qed.
Lemma step_hash o1 o2 b d c : (forall b', b = Some b' -> langs_small b') -> js_step o1 (b, d) c = js_step o2 (b, d) c.
Proof.
  intros Hb. unfold js_step. cbn [fst snd]. destruct b as [b|]; [|done]. destruct c; try done. by rewrite (finish_hash o1 o2 b d (Hb b eq_refl)).
Qed.
Lemma step_small o b d c b' : (forall b0, b = Some b0 -> langs_small b0) -> (js_step o (b, d) c).2.1 = Some b' -> langs_small b'.
Proof.
  intros Hb H. unfold js_step in H. cbn [fst snd] in H. destruct b as [b|]; [|done]. specialize (Hb b eq_refl).
  pose proof (edit_small b c Hb) as He. destruct c; try (destruct (js_edit b _) as [r b1]; cbn [fst snd] in *; injection H as <-; exact He).
  by destruct (finish o b d).
Qed.
Section hash.
Context (p : profile) (mtb : merge_tb) (tb : tiebreak).
Lemma make_small w x : langs_in w -> (forall f b, x = ABuilder f (Some b) -> langs_small b) -> langs_in (js_make w x).2.
Proof.
  intros Hw Hx i f b H. cbn [js_make snd w_objs] in H. apply lookup_app_Some in H as [H|[_ H]]; [by eapply Hw|].
  apply list_lookup_singleton_Some in H as [_ H]. by eapply Hx.
Qed.
Lemma does_small ho w a : langs_in w -> langs_in (js_does p ho mtb tb w a).2.
Proof.
  intros Hw. destruct a as [[f|]|i c|[f|] o|i k|i|i|st js o]; cbn [js_does]; try done.
  - apply make_small; [done|]. intros ? b E. injection E as _ <-. apply new_small.
  - destruct (w_objs w !! i) as [[f b| |]|] eqn:E; try done. pose proof (step_small ho b (default ∅ (w_dirs w !! f)) c) as Hs.
    destruct (js_step _ _ _) as [r [b' d]]. cbn [fst snd] in *. intros j g b1 H. cbn [w_objs] in H.
    apply list_lookup_insert_Some in H as [(-> & H & _)|[_ H]]; [|by eapply Hw]. assert (b' = Some b1) as -> by congruence.
    apply Hs; [|done]. intros b0 ->. by eapply Hw.
  - destruct (w_dirs w !! f) as [d|]; [|done]. destruct (js_open d o); try done. by apply make_small.
  - destruct (w_objs w !! i) as [[f b|s|l]|]; try done. by apply make_small.
  - destruct (w_objs w !! i) as [[f b|s|l]|] eqn:E; try done. destruct (js_keys_next l) as [r l']. intros j g b H. cbn [snd w_objs] in H.
    apply list_lookup_insert_Some in H as [(-> & H & _)|[_ H]]; [discriminate H|by eapply Hw].
Qed.
(** A step that is not a request does not show the hash orders, and no step leaves a trace of them. *)
Lemma does_hash o1 o2 w a : langs_in w ->
  (js_does p o1 mtb tb w a).2 = (js_does p o2 mtb tb w a).2 /\
  (is_request a = false -> (js_does p o1 mtb tb w a).1 = (js_does p o2 mtb tb w a).1).
Proof.
  intros Hw. destruct a as [[f|]|i c|[f|] o|i k|i|i|st js o]; cbn [js_does]; try done.
  destruct (w_objs w !! i) as [[f b| |]|] eqn:E; try done. rewrite (step_hash o1 o2); [done|]. intros b' ->. by eapply Hw.
Qed.
Lemma steps_cons w ho a l : steps p mtb tb w ((ho, a) :: l) =
  ((js_does p ho mtb tb w a).1 :: (steps p mtb tb (js_does p ho mtb tb w a).2 l).1, (steps p mtb tb (js_does p ho mtb tb w a).2 l).2).
Proof. cbn [steps]. destruct (js_does p ho mtb tb w a) as [r w1]. cbn [fst snd]. by destruct (steps p mtb tb w1 l). Qed.
Lemma steps_session ho0 l : forall w, langs_in w -> (steps p mtb tb w l).2 = (js_session p ho0 mtb tb w (map snd l)).2.
Proof.
  induction l as [|[ho a] l IH]; intros w Hw; [done|]. rewrite steps_cons. cbn [map snd]. rewrite session_cons. cbn [snd].
  rewrite IH by (by apply does_small). by rewrite (proj1 (does_hash ho ho0 w a Hw)).
Qed.
Lemma steps_at ho0 l : forall w n ho a, langs_in w -> l !! n = Some (ho, a) ->
  langs_in (js_session p ho0 mtb tb w (take n (map snd l))).2 /\
  (steps p mtb tb w l).1 !! n = Some (js_does p ho mtb tb (js_session p ho0 mtb tb w (take n (map snd l))).2 a).1.
Proof.
  induction l as [|[h b] l IH]; intros w n ho a Hw Hn; [done|]. rewrite steps_cons. destruct n as [|n].
  - injection Hn as -> ->. done.
  - cbn [fst map snd take]. rewrite session_cons. cbn [fst snd lookup list_lookup]. rewrite (proj1 (does_hash h ho0 w b Hw)).
    apply IH; [by apply does_small|done].
Qed.
Lemma steps_length l : forall w, length (steps p mtb tb w l).1 = length l.
Proof. induction l as [|[ho a] l IH]; intros w; [done|]. rewrite steps_cons. cbn. by rewrite IH. Qed.
Lemma start_small : langs_in js_start.
Proof. by intros i f b H. Qed.
(** What is asked for. *)
Lemma converted_asked w w' js js' pms : (forall i s, w_objs w !! i = Some (AStore s) -> w_objs w' !! i = Some (AStore s)) ->
  res_mapM (on_store w) js = Ok js' -> deserialize_phrasesubq js' = Ok pms -> asked_for w' js pms.
Proof.
  intros Hsub Hjs Hp. apply res_mapM_Ok in Hjs. apply C63_converted in Hp. unfold asked_for. revert pms Hp.
  induction Hjs as [|x j js js' Hx Hjs IH]; intros pms Hp; inversion Hp as [|? pm ? pms' H1 H2]; subst; [constructor|]. constructor; [|by apply IH].
  unfold on_store in Hx. destruct (w_objs w !! x.1) as [[f b|s|r]|] eqn:E; try discriminate Hx. injection Hx as <-. exists s. split; [by apply Hsub|done].
Qed.
Lemma opened_zoom ho l rs w i s : js_session p ho mtb tb js_start l = (rs, w) -> w_objs w !! i = Some (AStore s) ->
  exists f so, opened (zip l rs) i f so /\ st_zoom s = opt_zoom so.
Proof.
  intros H Hs. pose proof (store_made p ho mtb tb l js_start i s) as Hm. rewrite H in Hm. destruct (Hm Hs) as [Hm'|(f & so & Hop)]; [by cbn in Hm'|].
  exists f, so. split; [done|]. cbn [fst] in Hop. assert (Hop' : (NewStore (Some f) so, OutObject (Ok i)) ∈ zip l (js_session p ho mtb tb js_start l).1) by (by rewrite H).
  destruct (deed_split p ho mtb tb js_start l _ _ Hop') as (l1 & l2 & -> & Hr). rewrite session_app in H. apply (f_equal snd) in H as Hw. cbn [snd] in Hw. rewrite session_cons in Hw. cbn [snd] in Hw.
  destruct (C93_store p ho mtb tb (js_session p ho mtb tb js_start l1).2 f so l2 i
    (js_session p ho mtb tb (js_does p ho mtb tb (js_session p ho mtb tb js_start l1).2 (NewStore (Some f) so)).2 l2).1 w) as (d' & s' & _ & Hopen & Hs' & _).
  { rewrite session_cons, Hr, Hw. reflexivity. }
  assert (s' = s) as -> by congruence. destruct so as [| |o]; cbn [js_open] in Hopen; [|discriminate Hopen|]; injection Hopen as <-; done.
Qed.
End hash.

(** ** C98 *)
(** Whatever the hash orders met by the steps of a program, it leaves the same objects and
    directories, and every step that is not a request has the same outcome. *)
Theorem C98_world :
  forall p mtb tb l1 l2 rs1 rs2 w1 w2, map snd l1 = map snd l2 ->
  steps p mtb tb js_start l1 = (rs1, w1) -> steps p mtb tb js_start l2 = (rs2, w2) ->
  w1 = w2 /\ forall n a r1 r2, map snd l1 !! n = Some a -> rs1 !! n = Some r1 -> rs2 !! n = Some r2 ->
    (forall st js o, a <> Request st js o) -> r1 = r2.
Proof.
  intros p mtb tb l1 l2 rs1 rs2 w1 w2 El H1 H2. split.
  - pose proof (steps_session p mtb tb id_oracle l1 js_start start_small) as E1. pose proof (steps_session p mtb tb id_oracle l2 js_start start_small) as E2.
    rewrite H1 in E1. rewrite H2 in E2. rewrite El in E1. cbn [snd] in *. congruence.
  - intros n a r1 r2 Ha Hr1 Hr2 Hn. pose proof Ha as Ha2. rewrite El in Ha2. rewrite list_lookup_fmap in Ha, Ha2.
    destruct (l1 !! n) as [[o1 a1]|] eqn:En1; [|done]. destruct (l2 !! n) as [[o2 a2]|] eqn:En2; [|done]. cbn in Ha, Ha2. injection Ha as ->. injection Ha2 as ->.
    destruct (steps_at p mtb tb id_oracle l1 js_start n o1 a start_small En1) as [Hw E1]. destruct (steps_at p mtb tb id_oracle l2 js_start n o2 a start_small En2) as [_ E2].
    rewrite H1 in E1. rewrite H2 in E2. cbn [fst] in E1, E2. rewrite <- El in E2. rewrite Hr1 in E1. rewrite Hr2 in E2.
    rewrite (proj2 (does_hash p mtb tb o1 o2 _ a Hw)) in E1; [congruence|]. destruct a; try done. by destruct (Hn stacked js o).
Qed.
Print Assumptions C98_world.

(** A request of coalesce() has the same outcome. *)
Section request.
Context (p : profile) (mtb : merge_tb) (tb : tiebreak) (l1 l2 : list (hash_oracle * js_do)) (rs1 rs2 : list js_out) (w1 w2 : js_world).
Context (El : map snd l1 = map snd l2) (H1 : steps p mtb tb js_start l1 = (rs1, w1)) (H2 : steps p mtb tb js_start l2 = (rs2, w2)).
Lemma request_at n st js o r1 r2 : map snd l1 !! n = Some (Request st js o) -> rs1 !! n = Some r1 -> rs2 !! n = Some r2 ->
  exists w o1 o2, (forall i s, w_objs w !! i = Some (AStore s) -> w_objs w1 !! i = Some (AStore s)) /\
    r1 = (js_does p o1 mtb tb w (Request st js o)).1 /\ r2 = (js_does p o2 mtb tb w (Request st js o)).1.
Proof.
  intros Ha Hr1 Hr2. pose proof Ha as Ha2. rewrite El in Ha2. pose proof Ha as Ha0. rewrite list_lookup_fmap in Ha, Ha2.
  destruct (l1 !! n) as [[o1 a1]|] eqn:En1; [|done]. destruct (l2 !! n) as [[o2 a2]|] eqn:En2; [|done]. cbn in Ha, Ha2. injection Ha as ->. injection Ha2 as ->.
  destruct (steps_at p mtb tb id_oracle l1 js_start n o1 _ start_small En1) as [_ E1]. destruct (steps_at p mtb tb id_oracle l2 js_start n o2 _ start_small En2) as [_ E2].
  rewrite H1 in E1. rewrite H2 in E2. cbn [fst] in E1, E2. rewrite <- El in E2. rewrite Hr1 in E1. rewrite Hr2 in E2.
  exists (js_session p id_oracle mtb tb js_start (take n (map snd l1))).2, o1, o2. split; [|split; congruence].
  intros i s Hs. pose proof (steps_session p mtb tb id_oracle l1 js_start start_small) as E. rewrite H1 in E. cbn [snd] in E. rewrite E.
  rewrite <- (take_drop n (map snd l1)) at 1. rewrite session_app. cbn [snd]. by apply store_stays.
Qed.
Lemma zoom_opened i s : w_objs w1 !! i = Some (AStore s) -> exists f so, opened (zip (map snd l1) rs1) i f so /\ st_zoom s = opt_zoom so.
Proof.
  intros Hs. pose proof (steps_session p mtb tb id_oracle l1 js_start start_small) as E. rewrite H1 in E. cbn [snd] in E. rewrite E in Hs.
  destruct (js_session p id_oracle mtb tb js_start (map snd l1)) as [rs0 w0] eqn:E0. cbn [snd] in *.
  destruct (opened_zoom p mtb tb id_oracle (map snd l1) rs0 w0 i s E0 Hs) as (f & so & Hop & Hz). exists f, so. split; [|done].
  apply elem_of_list_lookup in Hop as [n Hn]. apply lookup_zip_with_Some in Hn as (a & r & Er & Ha & Hr). injection Er as <- <-.
  rewrite list_lookup_fmap in Ha. destruct (l1 !! n) as [[o1 a1]|] eqn:En1; [|done]. cbn in Ha. injection Ha as ->.
  destruct (steps_at p mtb tb id_oracle l1 js_start n o1 _ start_small En1) as [Hw E1]. rewrite H1 in E1. cbn [fst] in E1.
  assert (E2 : (steps p mtb tb js_start (map (fun a => (id_oracle, a)) (map snd l1))).1 = rs0).
  { clear -E0. assert (G : forall l w, steps p mtb tb w (map (fun a => (id_oracle, a)) l) = js_session p id_oracle mtb tb w l).
    { induction l as [|a l IH]; intros w; [done|]. cbn [map steps js_session]. destruct (js_does _ _ _ _ _ _) as [r w']. by rewrite IH. }
    by rewrite G, E0. }
  assert (En2 : map (fun a : js_do => (id_oracle, a)) (map snd l1) !! n = Some (id_oracle, NewStore (Some f) so)).
  { rewrite list_lookup_fmap. rewrite list_lookup_fmap. by rewrite En1. }
  destruct (steps_at p mtb tb id_oracle _ js_start n _ _ start_small En2) as [_ E3]. rewrite E2 in E3.
  rewrite List.map_map in E3. cbn [snd] in E3. rewrite List.map_id in E3.
  apply elem_of_list_lookup. exists n. apply lookup_zip_with_Some. exists (NewStore (Some f) so), (OutObject (Ok i)). split; [done|]. split.
  - rewrite list_lookup_fmap. by rewrite En1.
  - rewrite E1. rewrite Hr in E3. rewrite (proj2 (does_hash p mtb tb o1 id_oracle _ (NewStore (Some f) so) Hw) eq_refl). congruence.
Qed.
End request.
Theorem C98_coalesce :
  forall p mtb tb l1 l2 rs1 rs2 w1 w2 n js o r1 r2, map snd l1 = map snd l2 ->
  steps p mtb tb js_start l1 = (rs1, w1) -> steps p mtb tb js_start l2 = (rs2, w2) ->
  map snd l1 !! n = Some (Request false js o) -> rs1 !! n = Some r1 -> rs2 !! n = Some r2 ->
  layers_fit (zip (map snd l1) rs1) js -> r1 = r2.
Proof.
  intros p mtb tb l1 l2 rs1 rs2 w1 w2 n js o r1 r2 El H1 H2 Ha Hr1 Hr2 [Hm Hz].
  destruct (request_at p mtb tb l1 l2 rs1 rs2 w1 w2 El H1 H2 n false js o r1 r2 Ha Hr1 Hr2) as (w & o1 & o2 & Hsub & -> & ->). cbn [js_does fst].
  f_equal. destruct (res_mapM (on_store w) js) as [js'| | |] eqn:Ejs; try done. cbn [res_bind]. unfold js_coalesce.
  destruct (deserialize_phrasesubq js') as [pms| | |] eqn:Ep; try done. cbn [res_bind]. destruct (given o) as [o'| | |]; try done. cbn [res_bind].
  pose proof (converted_asked w w1 js js' pms Hsub Ejs Ep) as Hask.
  assert (Hat : forall pm, pm ∈ pms -> exists x s f so, x ∈ js /\ w_objs w1 !! x.1 = Some (AStore s) /\ jp_mask x.2 = Some (sq_mask pm) /\ jp_idx x.2 = Some (sq_idx pm) /\
     opened (zip (map snd l1) rs1) x.1 f so /\ zoom_of pm = opt_zoom so).
  { intros pm Hpm. apply elem_of_list_lookup in Hpm as [m Hn]. destruct (Forall2_lookup_r _ _ _ _ _ Hask Hn) as (x & Hx & s & Hs & Has).
    destruct (zoom_opened p mtb tb l1 rs1 w1 H1 x.1 s Hs) as (f & so & Hop & Ez). exists x, s, f, so. destruct Has as (E1 & _ & E2 & E3 & _). cbn in E1, E2, E3.
    split; [by eapply elem_of_list_lookup_2|]. do 3 (split; [done|]). split; [done|]. unfold zoom_of. by rewrite E1. }
  apply C67_hash_order.
  - intros a Ha0. destruct (Hat a Ha0) as (x & s & f & so & Hx & _ & Em & _). specialize (Hm x Hx). congruence.
  - intros a b Ha0 Hb0. destruct (Hat a Ha0) as (x & s & f & so & Hx & _ & _ & Ei & Hop & ->). destruct (Hat b Hb0) as (y & t & g & to & Hy & _ & _ & Ej & Hop' & ->).
    by apply (Hz x y f g so to).
  - intros a b Ha0 Hb0 E. destruct (Hat a Ha0) as (x & s & f & so & Hx & _ & _ & Ei & Hop & ->). destruct (Hat b Hb0) as (y & t & g & to & Hy & _ & _ & Ej & Hop' & ->).
    apply (Hz x y f g so to); try done. congruence.
Qed.
Print Assumptions C98_coalesce.

(** The results of stackAndCoalesce() are the same up to their order, when they are not cut off. *)
Theorem C98_stacked :
  forall p mtb tb l1 l2 rs1 rs2 w1 w2 n js o out1 out2 pms groups, map snd l1 = map snd l2 ->
  steps p mtb tb js_start l1 = (rs1, w1) -> steps p mtb tb js_start l2 = (rs2, w2) ->
  map snd l1 !! n = Some (Request true js (Some o)) -> rs1 !! n = Some (OutContexts (Ok out1)) -> rs2 !! n = Some (OutContexts (Ok out2)) ->
  asked_for w1 js pms -> collapse_phrasematches pms = Ok groups ->
  fit_for_C60 p mtb tb groups o -> own_ids (fun pm => pm ∈ groups) -> roomy p mtb tb o groups ->
  (length out1 < 800)%nat -> out1 ≡ₚ out2.
Proof.
  intros p mtb tb l1 l2 rs1 rs2 w1 w2 n js o out1 out2 pms groups El H1 H2 Ha Hr1 Hr2 Hask Hg Hfit Hown Hroom Hlen.
  destruct (request_at p mtb tb l1 l2 rs1 rs2 w1 w2 El H1 H2 n true js (Some o) _ _ Ha Hr1 Hr2) as (w & o1 & o2 & Hsub & E1 & E2). cbn [js_does fst] in E1, E2.
  injection E1 as E1. injection E2 as E2. symmetry in E1, E2. apply bind_Ok in E1 as (js1 & Hjs1 & E1). apply bind_Ok in E2 as (js2 & Hjs2 & E2).
  assert (js2 = js1) as -> by congruence. apply bind_Ok in E1 as (pms1 & Hp1 & E1). apply bind_Ok in E2 as (pms2 & Hp2 & E2).
  assert (pms2 = pms1) as -> by congruence. cbn [given res_bind] in E1, E2.
  pose proof (converted_asked w w1 js js1 pms1 Hsub Hjs1 Hp1) as Hask1.
  assert (pms1 = pms) as ->.
  { clear -Hask Hask1. unfold asked_for in *. revert pms1 Hask1. induction Hask as [|x pm js pms (s & Hs & Has) Hask IH]; intros pms1 Hask1;
      inversion Hask1 as [|? pm1 ? pms1' (s1 & Hs1 & Has1) Hask1']; subst; [done|]. f_equal; [|by apply IH].
    assert (s1 = s) as -> by congruence. by eapply C63_unique. }
  by eapply C72_request.
Qed.
Print Assumptions C98_stacked.

(** The program of [C95_ex], with one hash order in every other step and another in the rest. *)
Fixpoint alternate (a b : hash_oracle) (l : list js_do) : list (hash_oracle * js_do) :=
  match l with [] => [] | x :: l' => (a, x) :: alternate b a l' end.
Definition h_run : list js_out * js_world := steps Debug first_mtb last_tb js_start (alternate rev_oracle id_oracle z_l).
Definition h_outs : list js_out := Eval vm_compute in h_run.1.
Definition h_pms : list subquery :=
  match (let* js := res_mapM (on_store z_run.2) z_js in deserialize_phrasesubq js) with Ok pms => pms | _ => [] end.
Definition h_groups : list subquery := ok_list (collapse_phrasematches h_pms).
Lemma session_steps p ho mtb tb l : forall w, steps p mtb tb w (map (fun a => (ho, a)) l) = js_session p ho mtb tb w l.
Proof. induction l as [|a l IH]; intros w; [done|]. cbn [map steps js_session]. destruct (js_does _ _ _ _ _ _) as [r w']. by rewrite IH. Qed.
Definition is_ok {A} (r : res A) : bool := match r with Ok _ => true | _ => false end.
Example C98_ex :
  steps Debug first_mtb last_tb js_start (map (fun a => (id_oracle, a)) z_l) = (z_outs, z_run.2) /\
  steps Debug first_mtb last_tb js_start (alternate rev_oracle id_oracle z_l) = (h_outs, h_run.2) /\
  map snd (map (fun a => (id_oracle, a)) z_l) = map snd (alternate rev_oracle id_oracle z_l) /\
  z_l !! 15%nat = Some (Request true z_js (Some g_opts)) /\ z_l !! 16%nat = Some (Request false z_js (Some g_opts)) /\
  layers_fit z_d z_js /\ asked_for z_run.2 z_js h_pms /\ collapse_phrasematches h_pms = Ok h_groups /\ length h_groups = 2%nat /\
  fit_for_C60 Debug first_mtb last_tb h_groups g_opts /\ own_ids (fun pm => pm ∈ h_groups) /\ roomy Debug first_mtb last_tb g_opts h_groups /\
  z_outs !! 15%nat = Some (OutContexts (Ok z_stacked)) /\ length z_stacked = 3%nat.
Proof.
  split. { rewrite session_steps. apply C95_ex. }
  split. { change (steps Debug first_mtb last_tb js_start (alternate rev_oracle id_oracle z_l)) with h_run. rewrite (surjective_pairing h_run). f_equal. }
  split; [reflexivity|]. split; [reflexivity|]. split; [reflexivity|]. split.
  { split.
    - intros x Hx. unfold z_js in Hx. rewrite !elem_of_cons, elem_of_nil in Hx. by destruct Hx as [->|[->|[]]].
    - intros x y f g so to Hx Hy Ox Oy. unfold z_js in Hx, Hy. rewrite !elem_of_cons, elem_of_nil in Hx. rewrite !elem_of_cons, elem_of_nil in Hy.
      destruct (z_opened _ _ _ Ox) as [(E & _ & ->)|(E & _ & ->)], (z_opened _ _ _ Oy) as [(E' & _ & ->)|(E' & _ & ->)]; (split; [cbn; lia|]); try done;
        destruct Hx as [->|[->|[]]], Hy as [->|[->|[]]]; try discriminate E; try discriminate E'; intros H; discriminate H. }
  split.
  { unfold h_pms. destruct (res_mapM (on_store z_run.2) z_js) as [js'| | |] eqn:Ejs;
      [|exfalso; apply (f_equal is_ok) in Ejs; vm_compute in Ejs; discriminate Ejs..]. cbn [res_bind].
    destruct (deserialize_phrasesubq js') as [pms| | |] eqn:Ep.
    2-4: exfalso; assert (X : is_ok (let* js := res_mapM (on_store z_run.2) z_js in deserialize_phrasesubq js) = true) by (vm_compute; reflexivity);
      rewrite Ejs in X; cbn [res_bind] in X; rewrite Ep in X; discriminate X.
    by eapply (converted_asked z_run.2). }
  split; [unfold h_groups; apply ok_list_ok; vm_compute; exact I|]. split; [vm_compute; reflexivity|].
  split; [apply fit_ok; vm_compute; reflexivity|]. split; [apply own_ids_ok; vm_compute; repeat constructor; set_solver|].
  split; [apply roomy_ok; vm_compute; reflexivity|]. split; reflexivity.
Qed.
