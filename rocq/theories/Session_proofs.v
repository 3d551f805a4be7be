From Verif Require Import Prelude Lists F64 Heap Common Builder Store Query Coalesce Stackable Tree Native Session Spec_session.
Local Open Scope N_scope.

Section session.
Context (p : profile) (ho : hash_oracle) (mtb : merge_tb) (tb : tiebreak).
Notation does := (js_does p ho mtb tb).
Notation session := (js_session p ho mtb tb).

Lemma session_cons w a l : session w (a :: l) =
  ((does w a).1 :: (session (does w a).2 l).1, (session (does w a).2 l).2).
Proof. cbn [js_session]. destruct (does w a) as [r w1]. cbn [fst snd]. by destruct (session w1 l). Qed.
Lemma session_app w l l' : session w (l ++ l') =
  ((session w l).1 ++ (session (session w l).2 l').1, (session (session w l).2 l').2).
Proof.
  revert w. induction l as [|a l IH]; intros w.
  - cbn [app js_session fst snd]. by destruct (session w l').
  - cbn [app]. rewrite !session_cons, IH. reflexivity.
Qed.
Lemma session_length w l : length (session w l).1 = length l.
Proof. revert w. induction l as [|a l IH]; intros w; [done|]. rewrite session_cons. cbn. by rewrite IH. Qed.

Lemma is_call a i : (exists c, a = CallBuilder i c) \/ ~ exists c, a = CallBuilder i c.
Proof.
  destruct a as [| i' c | | | | |]; try (right; intros [? ?]; discriminate).
  destruct (decide (i' = i)) as [->|Hne]; [left; by eexists|]. right. intros [? E]. congruence.
Qed.
Lemma is_next a i : a = NextKey i \/ a <> NextKey i.
Proof. destruct a as [| | | | |i'|]; try (by right). destruct (decide (i' = i)) as [->|Hne]; [by left|right; congruence]. Qed.
(** What a step does to an object that exists. *)
Lemma does_builder w a i f b : w_objs w !! i = Some (ABuilder f b) ->
  match a with
  | CallBuilder i' c => i' = i ->
      let r := js_step ho (b, default ∅ (w_dirs w !! f)) c in
      does w a = (OutDone r.1, World (match r.1, c with Ok _, JsFinish => <[f := r.2.2]> (w_dirs w) | _, _ => w_dirs w end)
                                     (<[i := ABuilder f r.2.1]> (w_objs w)))
  | _ => True
  end.
Proof.
  intros H. destruct a; try done. intros ->. cbn [js_does]. rewrite H. by destruct (js_step _ _ _) as [r [b' d]].
Qed.
Lemma make_old w x i y : w_objs w !! i = Some y -> w_objs (js_make w x).2 !! i = Some y.
Proof. intros H. cbn. by apply lookup_app_l_Some. Qed.
Lemma insert_other (l : list js_object) i j x y : i <> j -> l !! j = Some y -> <[i := x]> l !! j = Some y.
Proof. intros Hn H. by rewrite list_lookup_insert_ne. Qed.

(** A step leaves alone what it is not addressed to. *)
Lemma does_other w a i x : w_objs w !! i = Some x ->
  (forall c, a = CallBuilder i c -> forall f b, x <> ABuilder f b) -> (a = NextKey i -> forall l, x <> AnIterator l) ->
  w_objs (does w a).2 !! i = Some x.
Proof.
  intros H Hc Hn. destruct a as [[f|]|i' c|[f|] o|i' k|i'|i'|st js o]; cbn [js_does]; try done.
  - by apply make_old.
  - destruct (w_objs w !! i') as [[f b| |]|] eqn:E; try done. destruct (js_step _ _ _) as [r [b' d]]. cbn [snd w_objs].
    destruct (decide (i' = i)) as [->|Hne]; [|by apply insert_other]. exfalso.
    apply (Hc c eq_refl f b). congruence.
  - destruct (w_dirs w !! f) as [d|]; [|done]. destruct (js_open d o); try done. by apply make_old.
  - destruct (w_objs w !! i') as [[f b|s|]|] eqn:E; try done. by apply make_old.
  - destruct (w_objs w !! i') as [[f b|s|l]|] eqn:E; try done. destruct (js_keys_next l) as [r l']. cbn [snd w_objs].
    destruct (decide (i' = i)) as [->|Hne]; [|by apply insert_other]. exfalso. apply (Hn eq_refl l). congruence.
Qed.
(** Builders stay builders of their directory, stores stay what they are. *)
Lemma does_builder_stays w a i f b : w_objs w !! i = Some (ABuilder f b) -> exists b', w_objs (does w a).2 !! i = Some (ABuilder f b').
Proof.
  intros H. destruct (is_call a i) as [[c ->]|Hne].
  - pose proof (does_builder w (CallBuilder i c) i f b H eq_refl) as ->. cbn [snd w_objs].
    rewrite list_lookup_insert; [by eexists|]. by eapply lookup_lt_Some.
  - exists b. apply does_other; [done| |]. { intros c ->. exfalso. apply Hne. by exists c. } by intros _ l.
Qed.
Lemma builder_stays w l i f b : w_objs w !! i = Some (ABuilder f b) -> exists b', w_objs (session w l).2 !! i = Some (ABuilder f b').
Proof.
  revert w b. induction l as [|a l IH]; intros w b H; [by exists b|]. rewrite session_cons. cbn [snd].
  destruct (does_builder_stays w a i f b H) as [b' H']. by apply (IH _ b').
Qed.
Lemma store_stays w l i s : w_objs w !! i = Some (AStore s) -> w_objs (session w l).2 !! i = Some (AStore s).
Proof.
  revert w. induction l as [|a l IH]; intros w H; [done|]. rewrite session_cons. cbn [snd]. apply IH.
  apply does_other; [done|by intros|by intros].
Qed.
Lemma store_gets w l i s k r : w_objs w !! i = Some (AStore s) -> (GetKey i k, r) ∈ zip l (session w l).1 -> r = OutEntries (js_get s k).
Proof.
  revert w. induction l as [|a l IH]; intros w H Hin; [by apply elem_of_nil in Hin|]. rewrite session_cons in Hin. cbn [fst zip] in Hin.
  apply elem_of_cons in Hin as [E|Hin].
  - injection E as <- ->. cbn [js_does fst]. by rewrite H.
  - eapply IH; [|exact Hin]. apply does_other; [done|by intros|by intros].
Qed.

(** A directory changes only when a builder on it finishes. *)
Lemma does_dir w a f : w_dirs (does w a).2 !! f = w_dirs w !! f \/
  exists i b, a = CallBuilder i JsFinish /\ w_objs w !! i = Some (ABuilder f b) /\ (does w a).1 = OutDone (Ok tt).
Proof.
  destruct a as [[f'|]|i' c|[f'|] o|i' k|i'|i'|st js o]; cbn [js_does]; try (by left).
  - destruct (w_objs w !! i') as [[f' b| |]|] eqn:E; try (by left). destruct (js_step _ _ _) as [r [b' d]]. cbn [snd fst w_dirs].
    destruct r as [[]| | |]; try (by left). destruct c; try (by left).
    destruct (decide (f' = f)) as [->|Hne]; [|left; by rewrite lookup_insert_ne]. right. by exists i', b.
  - left. destruct (w_dirs w !! f') as [d|]; [|done]. by destruct (js_open d o).
  - left. by destruct (w_objs w !! i') as [[? ?|?|?]|].
  - left. destruct (w_objs w !! i') as [[? ?|?|l]|]; try done. by destruct (js_keys_next l).
Qed.
Lemma dir_written w l f d : w_dirs (session w l).2 !! f = Some d -> w_dirs w !! f = None ->
  exists i b, w_objs (session w l).2 !! i = Some (ABuilder f b) /\ (CallBuilder i JsFinish, OutDone (Ok tt)) ∈ zip l (session w l).1.
Proof.
  revert w. induction l as [|a l IH]; intros w H Hn; [cbn in H; congruence|]. rewrite session_cons in H |- *. cbn [fst snd zip] in *.
  destruct (w_dirs (does w a).2 !! f) as [d'|] eqn:E.
  - destruct (does_dir w a f) as [Ed|(i & b & -> & Hi & Hr)]; [congruence|].
    destruct (does_builder_stays w (CallBuilder i JsFinish) i f b Hi) as [b1 H1].
    destruct (builder_stays _ l i f b1 H1) as [b2 H2]. exists i, b2. split; [done|]. rewrite Hr. by left.
  - destruct (IH _ H E) as (i & b & Hi & Hin). exists i, b. split; [done|]. by right.
Qed.

(** The calls on a builder that has its directory to itself. *)
Lemma builder_alone l : forall w i f b w', w_objs w !! i = Some (ABuilder f b) -> (session w l).2 = w' -> only_builder w' f i ->
  let cr := calls_on i (zip l (session w l).1) in
  exists b' d, js_run ho (b, default ∅ (w_dirs w !! f)) (map fst cr) = (map snd cr, (b', d)) /\
    w_objs w' !! i = Some (ABuilder f b') /\ default ∅ (w_dirs w' !! f) = d /\
    (is_Some (w_dirs w' !! f) <-> is_Some (w_dirs w !! f) \/ (JsFinish, Ok tt) ∈ cr).
Proof.
  induction l as [|a l IH]; intros w i f b w' Hi Hw Hon cr.
  - cbn in Hw, cr. subst w' cr. exists b, (default ∅ (w_dirs w !! f)). split; [done|]. split; [done|]. split; [done|].
    split; [by left|]. intros [?|H]; [done|]. by apply elem_of_nil in H.
  - rewrite session_cons in Hw. cbn [snd] in Hw. subst cr. rewrite session_cons. cbn [fst zip].
    destruct (is_call a i) as [[c ->]|Hne].
    + pose proof (does_builder w (CallBuilder i c) i f b Hi eq_refl) as E. cbn zeta in E.
      set (r := js_step ho (b, default ∅ (w_dirs w !! f)) c) in *.
      set (w1 := (does w (CallBuilder i c)).2) in *.
      assert (Hi1 : w_objs w1 !! i = Some (ABuilder f r.2.1)).
      { unfold w1. rewrite E. cbn [snd w_objs]. apply list_lookup_insert. by eapply lookup_lt_Some. }
      assert (Hr : (does w (CallBuilder i c)).1 = OutDone r.1) by (by rewrite E).
      assert (Hd : default ∅ (w_dirs w1 !! f) = r.2.2).
      { unfold w1. rewrite E. cbn [snd w_dirs]. unfold r. unfold js_step. cbn [fst snd]. destruct b as [b|].
        - destruct c; try (destruct (js_edit b _) as [[[]| | |] b1]; reflexivity). destruct (finish ho b _) eqn:Ef; cbn [fst snd]; try reflexivity.
          by rewrite lookup_insert.
        - cbn [fst snd]. by destruct c. }
      assert (Hs : is_Some (w_dirs w1 !! f) <-> is_Some (w_dirs w !! f) \/ (c = JsFinish /\ r.1 = Ok tt)).
      { unfold w1. rewrite E. cbn [snd w_dirs]. destruct r.1 as [[]| | |] eqn:Er; try (by split; [left|intros [?|[_ ?]]]).
        destruct c; try (by split; [left|intros [?|[? _]]]). rewrite lookup_insert. split; [by right|]. by eexists. }
      destruct (IH w1 i f r.2.1 w' Hi1 Hw Hon) as (b' & d & Hrun & Hi' & Hd' & Hs'). exists b', d.
      rewrite Hr. unfold calls_on. cbn [omap list_omap call_on]. rewrite decide_True by done. cbn [map fst snd].
      split; [|split; [done|split; [done|]]].
      * cbn [js_run]. fold r. rewrite (surjective_pairing r). rewrite Hd in Hrun. rewrite (surjective_pairing r.2) in *. cbn [fst snd] in *.
        unfold calls_on in Hrun. by rewrite Hrun.
      * rewrite Hs', Hs, elem_of_cons. unfold calls_on.
        split; [intros [[?|[-> E']]|?]; [by left|right; left; by rewrite E'|by right; right]|].
        intros [?|[E'|?]]; [by left; left| |by right]. left; right. injection E' as <- <-. done.
    + assert (Hi1 : w_objs (does w a).2 !! i = Some (ABuilder f b)).
      { apply does_other; [done| |by intros _ ?]. intros c ->. exfalso. apply Hne. by exists c. }
      assert (Hc : call_on i (a, (does w a).1) = None).
      { destruct a; try done. cbn [call_on]. destruct ((does w (CallBuilder obj c)).1); try done. rewrite decide_False; [done|].
        intros <-. apply Hne. by exists c. }
      assert (Hd : w_dirs (does w a).2 !! f = w_dirs w !! f).
      { destruct (does_dir w a f) as [?|(i' & b' & -> & Hi' & _)]; [done|]. exfalso.
        destruct (does_builder_stays w (CallBuilder i' JsFinish) i' f b' Hi') as [b1 H1].
        destruct (builder_stays _ l i' f b1 H1) as [b2 H2]. rewrite Hw in H2. apply Hne. exists JsFinish. by rewrite (Hon _ _ H2). }
      destruct (IH (does w a).2 i f b w' Hi1 Hw Hon) as (b' & d & Hrun & Hi' & Hd' & Hs'). exists b', d.
      unfold calls_on. cbn [omap list_omap]. rewrite Hc. rewrite Hd in *. done.
Qed.

(** What an iterator hands out. *)
Lemma iterator_alone l : forall w i r0, w_objs w !! i = Some (AnIterator r0) ->
  let outs := nexts_on i (zip l (session w l).1) in outs = js_keys_take (length outs) r0.
Proof.
  induction l as [|a l IH]; intros w i r0 Hi; [done|]. cbv zeta. rewrite session_cons. cbn [fst zip].
  destruct (is_next a i) as [->|Hne].
  - cbn [js_does]. rewrite Hi. destruct (js_keys_next r0) as [r r1] eqn:E. cbn [fst snd].
    unfold nexts_on. cbn [omap list_omap next_on]. rewrite decide_True by done. cbn [length js_keys_take]. rewrite E. f_equal.
    apply IH. cbn. apply list_lookup_insert. by eapply lookup_lt_Some.
  - assert (Hc : next_on i (a, (does w a).1) = None).
    { destruct a; try done. cbn [next_on]. destruct ((does w (NextKey obj)).1); try done. rewrite decide_False; [done|]. intros <-. done. }
    unfold nexts_on. cbn [omap list_omap]. rewrite Hc. apply IH. apply does_other; [done|by intros|by intros].
Qed.
End session.
