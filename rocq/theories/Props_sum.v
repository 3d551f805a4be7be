(** Property C88: queries add up. *)
From Verif Require Import Prelude Lists F64 Heap Common Morton Spatial Builder Store Spec Spec_match Spec_frame Spec_sum
  Builder_proofs Query_proofs Store_proofs History_proofs Binquery_proofs Frame_proofs Examples Props_match.
From Coq Require Import ZifyBool Sorting.Sorted.
Local Open Scope N_scope.

(** The entries a query concerns, each with its key. *)
Definition listing (b : option bbox) (ph : match_phrase) (kvs : list ((N * N) * list grid_entry)) : list ((N * N) * grid_entry) :=
  mjoin (map (fun kv => map (pair kv.1) (List.filter (box_sel b) kv.2)) (List.filter (fun kv => phrase_sel ph kv.1.1) kvs)).
Lemma listed_matches l o r kvs ph :
  expected_matches (MatchKey ph l) o r kvs =
  map (fun x : (N * N) * grid_entry => query_match o r (lang_sel l x.1.2) x.2) (listing (mo_bbox o) ph kvs).
Proof.
  unfold expected_matches, listing. cbn [mk_phrase mk_lang]. induction (List.filter _ kvs) as [|kv L IH]; [done|].
  cbn [map]. change (mjoin (?a :: ?b)) with (a ++ mjoin b). rewrite List.map_app, <- IH. f_equal.
  unfold record_matches. rewrite List.map_map. done.
Qed.
Lemma elem_filter {A} (f : A -> bool) (l : list A) x : x ∈ List.filter f l <-> x ∈ l /\ f x = true.
Proof. rewrite !elem_of_list_In. apply filter_In. Qed.
Lemma box_snap b w : box_sel b (snap w) = box_sel b w.
Proof. done. Qed.
Lemma nodup_filter {A} (f : A -> bool) (l : list A) : NoDup l -> NoDup (List.filter f l).
Proof. rewrite !NoDup_ListNoDup. apply List.NoDup_filter. Qed.
Lemma nodup_mjoin {A} (ls : list (list A)) :
  (forall l, l ∈ ls -> NoDup l) -> (forall i j a b x, ls !! i = Some a -> ls !! j = Some b -> x ∈ a -> x ∈ b -> i = j) -> NoDup (mjoin ls).
Proof.
  induction ls as [|l ls IH]; intros H1 H2; [constructor|]. change (mjoin (l :: ls)) with (l ++ mjoin ls).
  apply NoDup_app. split; [apply H1; by left|]. split.
  - intros x Hx (l' & Hin & Hl')%elem_of_mjoin. apply elem_of_list_lookup in Hl' as [i Hi].
    discriminate (H2 O (S i) l l' x eq_refl Hi Hx Hin).
  - apply IH; [intros; apply H1; by right|]. intros i j a b x Ha Hb Hxa Hxb.
    assert (S i = S j); [|lia]. by eapply (H2 (S i) (S j)).
Qed.
Lemma listing_of p prox zoom max a : fair p prox zoom max a ->
  exists L, NoDup L /\ (forall k e, (k, e) ∈ L <-> concerns a k e) /\
    forall mtb tb lang out, from_singles (a_ops a) (a_phrase a) -> answer p mtb tb prox zoom max lang a out ->
      out ≡ₚ map (fun x : (N * N) * grid_entry =>
        query_match (MatchOpts (a_box a) prox zoom) (st_radius (a_store a)) (lang_sel lang x.1.2) x.2) L.
Proof.
  intros (Hh & [o Hb] & Ho & Hq & Hmax & Hsz).
  destruct (built_iter o _ _ Hh Hb) as (kvs & Hi & Hnd & Hkeys & Hget).
  destruct (built_keys o _ _ Hh Hb) as (ks & Hk & _ & Hks & _ & Hok).
  assert (ks = map fst kvs) by congruence. subst ks. rewrite Forall_forall in Hok.
  assert (Hrec : forall k out, (k, out) ∈ kvs -> NoDup out /\ exists es, written (a_ops a) !! k = Some es /\ forall e, e ∈ out <-> exists w, w ∈ es /\ e = snap w).
  { intros k out Hin. assert (Hkin : k ∈ map fst kvs) by (apply elem_of_map; exists (k, out); done).
    pose proof (Hok k Hkin) as Hkok. apply (Hget k out Hkok) in Hin.
    pose proof (get_written o _ _ k Hh Hb Hkok) as G. destruct (written (a_ops a) !! k) as [es|]; [|congruence].
    destruct G as (out' & G1 & G2 & G3). assert (out' = out) by congruence. subst out'. split; [done|]. by exists es. }
  exists (listing (a_box a) (a_phrase a) kvs). split; [|split].
  - apply nodup_mjoin.
    + intros l (kv & -> & Hin)%elem_of_map. apply elem_filter in Hin as [Hin _]. destruct kv as [k out]. destruct (Hrec k out Hin) as [Hn _].
      cbn [fst snd]. apply (NoDup_fmap_2 (pair k)). by apply nodup_filter.
    + intros i j l1 l2 x H1 H2 X1 X2. rewrite list_lookup_fmap in H1, H2.
      apply fmap_Some in H1 as (kv1 & L1 & ->), H2 as (kv2 & L2 & ->).
      apply elem_of_map in X1 as (e1 & -> & _), X2 as (e2 & E & _).
      assert (Hf : NoDup (map fst (List.filter (fun kv : (N * N) * list grid_entry => phrase_sel (a_phrase a) kv.1.1) kvs))).
      { clear -Hnd. induction kvs as [|kv kvs IH]; [constructor|]. cbn [map List.filter] in *. apply NoDup_cons in Hnd as [Hn Hnd].
        destruct (phrase_sel (a_phrase a) kv.1.1); [|by apply IH]. cbn [map]. apply NoDup_cons. split; [|by apply IH].
        intros (y & Ey & Hy)%elem_of_map. apply Hn. apply elem_filter in Hy as [Hy _]. apply elem_of_map. by exists y. }
      eapply (NoDup_lookup _ i j kv1.1 Hf); rewrite list_lookup_fmap; [by rewrite L1|]. rewrite L2. cbn. f_equal. congruence.
  - intros k e. unfold listing. rewrite elem_of_mjoin. split.
    + intros (l & X1 & X2). apply elem_of_map in X2 as (kv & -> & Hin).
      apply elem_of_map in X1 as (e' & E & He). apply elem_filter in Hin as [Hin Hph]. apply elem_filter in He as [He Hbox].
      destruct kv as [k' out]. cbn [fst snd] in *. assert (k' = k) by congruence. assert (e' = e) by congruence. subst k' e'.
      destruct (Hrec k out Hin) as (_ & es & Hw & Hes). apply Hes in He as (w & Hwin & ->). by exists es, w.
    + intros (es & w & Hw & Hin & -> & Hph & Hbox).
      assert (Hkin : k ∈ map fst kvs) by (apply Hks; by exists es). apply elem_of_map in Hkin as ((k' & out) & -> & Hkv). cbn [fst] in *.
      destruct (Hrec k' out Hkv) as (_ & es' & Hw' & Hes). assert (es' = es) by congruence. subst es'.
      assert (He : snap w ∈ out) by (apply Hes; by exists w).
      assert (G : (k', snap w) ∈ map (pair k') (List.filter (box_sel (a_box a)) out)).
      { apply elem_of_map. exists (snap w). split; [done|]. by apply elem_filter. }
      eexists. split; [exact G|].
      apply elem_of_map. exists (k', out). split; [done|]. by apply elem_filter.
  - intros mtb tb lang out Hs Ha.
    assert (Hn : ~ bin_query (a_ops a) (a_phrase a)) by (destruct (a_phrase a); simpl in *; tauto).
    destruct (C11_multiset p mtb tb o (a_ops a) (a_store a) (MatchKey (a_phrase a) lang) (MatchOpts (a_box a) prox zoom) max kvs Hh Hb Ho Hq Hn Hmax Hsz Hi) as (out' & H1 & H2).
    assert (out' = out) by (unfold answer in Ha; congruence). subst out'. rewrite H2, listed_matches. done.
Qed.
Lemma filter_map_swap {A B} (f : B -> bool) (g : A -> B) (l : list A) : List.filter f (map g l) = map g (List.filter (fun x => f (g x)) l).
Proof. induction l as [|x l IH]; [done|]. cbn. destruct (f (g x)); cbn; by rewrite IH. Qed.
Lemma filter_perm {A} (f : A -> bool) (l l' : list A) : l ≡ₚ l' -> List.filter f l ≡ₚ List.filter f l'.
Proof.
  induction 1 as [|x l l' H IH|x y l|l1 l2 l3 H1 IH1 H2 IH2]; cbn; [done| | |by etransitivity].
  - destruct (f x); [by constructor|done].
  - destruct (f x), (f y); try done. constructor.
Qed.
Lemma nodup_same_perm {A} (l l' : list A) : NoDup l -> NoDup l' -> (forall x, x ∈ l <-> x ∈ l') -> l ≡ₚ l'.
Proof. intros. by apply NoDup_Permutation. Qed.

(** ** C88 Queries add up *)
(** What the parts ask for together is what they answer together. *)
Theorem C88_union :
  forall p mtb tb prox zoom max lang whole parts out outs,
  fair p prox zoom max whole -> (forall a, a ∈ parts -> fair p prox zoom max a /\ st_radius (a_store a) = st_radius (a_store whole)) ->
  covered_by whole parts ->
  answer p mtb tb prox zoom max lang whole out -> Forall2 (answer p mtb tb prox zoom max lang) parts outs ->
  forall m, m ∈ out <-> m ∈ mjoin outs.
Proof.
  intros p mtb tb prox zoom max lang whole parts out outs Hw Hp Hc Ho Hos m.
  assert (Hel : forall a o', fair p prox zoom max a -> answer p mtb tb prox zoom max lang a o' -> forall m, m ∈ o' <->
    exists k e, concerns a k e /\ m = query_match (MatchOpts (a_box a) prox zoom) (st_radius (a_store a)) (lang_sel lang k.2) e).
  { intros a o' (Hh & [o Hb] & Hop & Hq & Hmax & Hsz) Ha m'.
    destruct (C11_selects p mtb tb o (a_ops a) (a_store a) (MatchKey (a_phrase a) lang) (MatchOpts (a_box a) prox zoom) max Hh Hb Hop Hq Hmax Hsz) as (o2 & R & E).
    assert (o2 = o') by (unfold answer in Ha; congruence). subst o2. rewrite E. split.
    - intros (key & es & e & W1 & W2 & W3 & W4 & ->). exists key, (snap e). split; [|done]. by exists es, e.
    - intros (k & e & (es & w & W1 & W2 & -> & W3 & W4) & ->). by exists k, es, w. }
  rewrite (Hel whole out Hw Ho). rewrite elem_of_mjoin. split.
  - intros (k & e & Hcon & ->). apply Hc in Hcon as (a & Hin & Hcon). apply elem_of_list_lookup in Hin as [i Hi].
    destruct (Forall2_lookup_l _ _ _ _ _ Hos Hi) as (o' & Ho' & Ha). destruct (Hp a) as [Hf Er]; [by eapply elem_of_list_lookup_2|].
    assert (G : query_match (MatchOpts (a_box whole) prox zoom) (st_radius (a_store whole)) (lang_sel lang k.2) e ∈ o').
    { apply (Hel a o' Hf Ha). exists k, e. split; [done|]. by rewrite Er. }
    exists o'. split; [exact G|]. by eapply elem_of_list_lookup_2.
  - intros (o' & Hm & Hin).
    apply elem_of_list_lookup in Hin as [i Hi]. destruct (Forall2_lookup_r _ _ _ _ _ Hos Hi) as (a & Ha' & Ha).
    assert (Hain : a ∈ parts) by (by eapply elem_of_list_lookup_2). destruct (Hp a Hain) as [Hf Er].
    apply (Hel a o' Hf Ha) in Hm as (k & e & Hcon & ->). exists k, e. split; [apply Hc; by exists a|]. by rewrite Er.
Qed.
Print Assumptions C88_union.
(** From single records, if no entry is asked for twice, the answer is the sum of the
    answers, counted with repetitions. *)
Theorem C88_sum :
  forall p mtb tb prox zoom max lang whole parts out outs,
  fair p prox zoom max whole -> from_singles (a_ops whole) (a_phrase whole) ->
  (forall a, a ∈ parts -> fair p prox zoom max a /\ from_singles (a_ops a) (a_phrase a) /\ st_radius (a_store a) = st_radius (a_store whole)) ->
  covered_by whole parts -> disjoint parts ->
  answer p mtb tb prox zoom max lang whole out -> Forall2 (answer p mtb tb prox zoom max lang) parts outs ->
  out ≡ₚ mjoin outs.
Proof.
  intros p mtb tb prox zoom max lang whole parts out outs Hw Hsw Hp Hc Hd Ho Hos.
  destruct (listing_of _ _ _ _ _ Hw) as (L & Hn & Hin & Hout). rewrite (Hout mtb tb lang out Hsw Ho).
  assert (HL : exists Ls, Forall2 (fun a l => NoDup l /\ forall k e, (k, e) ∈ l <-> concerns a k e) parts Ls /\
    mjoin outs ≡ₚ map (fun x : (N * N) * grid_entry =>
      query_match (MatchOpts (a_box whole) prox zoom) (st_radius (a_store whole)) (lang_sel lang x.1.2) x.2) (mjoin Ls)).
  { clear -Hp Hos. induction Hos as [|a o' parts outs Ha Hos IH]; [by exists []|].
    destruct IH as (Ls & F & P); [intros; apply Hp; by right|]. destruct (Hp a ltac:(by left)) as (Hf & Hs & Er).
    destruct (listing_of _ _ _ _ _ Hf) as (l & H1 & H2 & H3). exists (l :: Ls). split; [by constructor|].
    change (mjoin (?x :: ?y)) with (x ++ mjoin y). rewrite List.map_app. apply Permutation_app; [|done].
    rewrite (H3 mtb tb lang o' Hs Ha). by rewrite Er. }
  destruct HL as (Ls & F & ->). apply Permutation_map. apply nodup_same_perm; [done| |].
  - apply nodup_mjoin.
    + intros l Hl. apply elem_of_list_lookup in Hl as [i Hi]. by destruct (Forall2_lookup_r _ _ _ _ _ F Hi) as (a & _ & ? & _).
    + intros i j l1 l2 [k e] H1 H2 X1 X2. destruct (Forall2_lookup_r _ _ _ _ _ F H1) as (a & A1 & _ & A2), (Forall2_lookup_r _ _ _ _ _ F H2) as (b & B1 & _ & B2).
      eapply (Hd i j a b k e); [done|done|by apply A2|by apply B2].
  - intros [k e]. rewrite Hin, (Hc k e), elem_of_mjoin. split.
    + intros (a & Ha & Hcon). apply elem_of_list_lookup in Ha as [i Hi]. destruct (Forall2_lookup_l _ _ _ _ _ F Hi) as (l & Hl & _ & E).
      exists l. split; [by apply E|]. by eapply elem_of_list_lookup_2.
    + intros (l & He & Hl).
      apply elem_of_list_lookup in Hl as [i Hi]. destruct (Forall2_lookup_r _ _ _ _ _ F Hi) as (a & Ha & _ & E).
      exists a. split; [by eapply elem_of_list_lookup_2|by apply E].
Qed.
Print Assumptions C88_sum.

(** Phrases [a..b) asked for at once, or as [a..c) and [c..b). *)
Theorem C88_ranges :
  forall p mtb tb prox zoom max lang ops s bx a c b out out1 out2, a <= c <= b ->
  fair p prox zoom max (Asking ops s (Range a b) bx) -> fair p prox zoom max (Asking ops s (Range a c) bx) ->
  fair p prox zoom max (Asking ops s (Range c b) bx) ->
  answer p mtb tb prox zoom max lang (Asking ops s (Range a b) bx) out ->
  answer p mtb tb prox zoom max lang (Asking ops s (Range a c) bx) out1 ->
  answer p mtb tb prox zoom max lang (Asking ops s (Range c b) bx) out2 ->
  (forall m, m ∈ out <-> m ∈ out1 \/ m ∈ out2) /\
  (from_singles ops (Range a b) -> from_singles ops (Range a c) -> from_singles ops (Range c b) -> out ≡ₚ out1 ++ out2).
Proof.
  intros p mtb tb prox zoom max lang ops s bx a c b out out1 out2 Hab F F1 F2 A A1 A2.
  set (parts := [Asking ops s (Range a c) bx; Asking ops s (Range c b) bx]).
  assert (Hc : covered_by (Asking ops s (Range a b) bx) parts).
  { intros k e. split.
    - intros (es & w & H1 & H2 & H3 & H4 & H5). cbn in H1, H4, H5.
      destruct (decide (k.1 < c)); [exists (Asking ops s (Range a c) bx)|exists (Asking ops s (Range c b) bx)];
        (split; [set_solver|]); exists es, w; cbn; repeat (split; [done|]); split; [lia|done|lia|done].
    - intros (x & Hx & es & w & H1 & H2 & H3 & H4 & H5). exists es, w. unfold parts in Hx. rewrite !elem_of_cons, elem_of_nil in Hx.
      destruct Hx as [->|[->|[]]]; cbn in *; repeat (split; [done|]); split; [lia|done|lia|done]. }
  assert (HF : Forall2 (answer p mtb tb prox zoom max lang) parts [out1; out2]) by (constructor; [done|constructor; [done|constructor]]).
  assert (Hf : forall x, x ∈ parts -> fair p prox zoom max x /\ st_radius (a_store x) = st_radius s).
  { intros x Hx. unfold parts in Hx. rewrite !elem_of_cons, elem_of_nil in Hx. by destruct Hx as [->|[->|[]]]. }
  split.
  - intros m. rewrite (C88_union p mtb tb prox zoom max lang _ parts out [out1; out2] F Hf Hc A HF m).
    change (mjoin [out1; out2]) with (out1 ++ out2 ++ []). by rewrite app_nil_r, elem_of_app.
  - intros S S1 S2. rewrite (C88_sum p mtb tb prox zoom max lang _ parts out [out1; out2] F S); [| |done| |done|done].
    + change (mjoin [out1; out2]) with (out1 ++ out2 ++ []). by rewrite app_nil_r.
    + intros x Hx. unfold parts in Hx. rewrite !elem_of_cons, elem_of_nil in Hx. by destruct Hx as [->|[->|[]]].
    + intros i j x y k e Hi Hj (es & w & _ & _ & _ & X & _) (es' & w' & _ & _ & _ & Y & _). unfold parts in Hi, Hj.
      destruct i as [|[|i]], j as [|[|j]]; cbn in Hi, Hj; try discriminate; try done;
        injection Hi as <-; injection Hj as <-; cbn in X, Y; lia.
Qed.
Print Assumptions C88_ranges.
(** A box asked for at once, or cut in two between the columns [c] and [c + 1]. *)
Theorem C88_boxes :
  forall p mtb tb prox zoom max lang ops s ph x0 y0 x1 y1 c out out1 out2, x0 <= c < x1 ->
  fair p prox zoom max (Asking ops s ph (Some (BBox x0 y0 x1 y1))) ->
  fair p prox zoom max (Asking ops s ph (Some (BBox x0 y0 c y1))) ->
  fair p prox zoom max (Asking ops s ph (Some (BBox (c + 1) y0 x1 y1))) ->
  answer p mtb tb prox zoom max lang (Asking ops s ph (Some (BBox x0 y0 x1 y1))) out ->
  answer p mtb tb prox zoom max lang (Asking ops s ph (Some (BBox x0 y0 c y1))) out1 ->
  answer p mtb tb prox zoom max lang (Asking ops s ph (Some (BBox (c + 1) y0 x1 y1))) out2 ->
  (forall m, m ∈ out <-> m ∈ out1 \/ m ∈ out2) /\ (from_singles ops ph -> out ≡ₚ out1 ++ out2).
Proof.
  intros p mtb tb prox zoom max lang ops s ph x0 y0 x1 y1 c out out1 out2 Hab F F1 F2 A A1 A2.
  set (q1 := Asking ops s ph (Some (BBox x0 y0 c y1))) in *. set (q2 := Asking ops s ph (Some (BBox (c + 1) y0 x1 y1))) in *.
  assert (Hc : covered_by (Asking ops s ph (Some (BBox x0 y0 x1 y1))) [q1; q2]).
  { intros k e. split.
    - intros (es & w & H1 & H2 & H3 & H4 & H5). unfold a_ops, a_phrase, a_box, box_sel in H1, H4, H5. cbn [bb_x0 bb_y0 bb_x1 bb_y1] in H5.
      destruct (decide (ge_x w <= c)); [exists q1|exists q2];
        (split; [set_solver|]); exists es, w; cbn; repeat (split; [done|]); lia.
    - intros (x & Hx & es & w & H1 & H2 & H3 & H4 & H5). exists es, w. rewrite !elem_of_cons, elem_of_nil in Hx.
      destruct Hx as [->|[->|[]]]; cbn in *; repeat (split; [done|]); lia. }
  assert (HF : Forall2 (answer p mtb tb prox zoom max lang) [q1; q2] [out1; out2]) by (constructor; [done|constructor; [done|constructor]]).
  assert (Hf : forall x, x ∈ [q1; q2] -> fair p prox zoom max x /\ st_radius (a_store x) = st_radius s).
  { intros x Hx. rewrite !elem_of_cons, elem_of_nil in Hx. by destruct Hx as [->|[->|[]]]. }
  split.
  - intros m. rewrite (C88_union p mtb tb prox zoom max lang _ [q1; q2] out [out1; out2] F Hf Hc A HF m).
    change (mjoin [out1; out2]) with (out1 ++ out2 ++ []). by rewrite app_nil_r, elem_of_app.
  - intros S. rewrite (C88_sum p mtb tb prox zoom max lang _ [q1; q2] out [out1; out2] F S); [| |done| |done|done].
    + change (mjoin [out1; out2]) with (out1 ++ out2 ++ []). by rewrite app_nil_r.
    + intros x Hx. rewrite !elem_of_cons, elem_of_nil in Hx. by destruct Hx as [->|[->|[]]].
    + intros i j x y k e Hi Hj (es & w & _ & _ & Ex & _ & X) (es' & w' & _ & _ & Ey & _ & Y).
      assert (Ew : ge_x w = ge_x w') by (change (ge_x (snap w) = ge_x (snap w')); congruence).
      destruct i as [|[|i]], j as [|[|j]]; cbn in Hi, Hj; try discriminate; try done;
        injection Hi as <-; injection Hj as <-; unfold q1, q2, a_box, box_sel in X, Y; cbn [bb_x0 bb_y0 bb_x1 bb_y1] in X, Y; lia.
Qed.
Print Assumptions C88_boxes.
(** The answer within a box is the part of the answer without one that lies in it. *)
Theorem C88_filter :
  forall p mtb tb prox zoom max lang ops s ph b out all,
  fair p prox zoom max (Asking ops s ph (Some b)) -> fair p prox zoom max (Asking ops s ph None) ->
  answer p mtb tb prox zoom max lang (Asking ops s ph (Some b)) out ->
  answer p mtb tb prox zoom max lang (Asking ops s ph None) all ->
  (forall m, m ∈ out <-> m ∈ all /\ box_sel (Some b) (me_entry m) = true) /\
  (from_singles ops ph -> out ≡ₚ List.filter (fun m => box_sel (Some b) (me_entry m)) all).
Proof.
  intros p mtb tb prox zoom max lang ops s ph b out all F1 F2 A1 A2. split.
  - destruct F1 as (Hh & [o Hb] & Ho1 & Hq & Hmax & Hsz), F2 as (_ & _ & Ho2 & _). cbn [a_ops a_store a_phrase a_box] in *.
    destruct (C11_selects p mtb tb o ops s (MatchKey ph lang) (MatchOpts (Some b) prox zoom) max Hh Hb Ho1 Hq Hmax Hsz) as (o1 & R1 & E1).
    destruct (C11_selects p mtb tb o ops s (MatchKey ph lang) (MatchOpts None prox zoom) max Hh Hb Ho2 Hq Hmax Hsz) as (o2 & R2 & E2).
    assert (o1 = out) by (unfold answer in A1; cbn [a_ops a_store a_phrase a_box] in A1; congruence).
    assert (o2 = all) by (unfold answer in A2; cbn [a_ops a_store a_phrase a_box] in A2; congruence). subst o1 o2.
    intros m. rewrite E1, E2. split.
    + intros (key & es & e & W1 & W2 & W3 & W4 & ->). split; [by exists key, es, e|]. exact W4.
    + intros [(key & es & e & W1 & W2 & W3 & W4 & ->) Hbx]. by exists key, es, e.
  - intros S. destruct (listing_of _ _ _ _ _ F1) as (L1 & N1 & I1 & O1). destruct (listing_of _ _ _ _ _ F2) as (L2 & N2 & I2 & O2).
    rewrite (O1 mtb tb lang out S A1). rewrite (filter_perm _ _ _ (O2 mtb tb lang all S A2)).
    assert (E : L1 ≡ₚ List.filter (fun x => box_sel (Some b) x.2) L2).
    { apply nodup_same_perm; [done|by apply nodup_filter|]. intros [k e]. rewrite elem_filter, I1, I2. split.
      - intros (es & w & W1 & W2 & -> & W3 & W4). split; [|exact W4]. by exists es, w.
      - intros [(es & w & W1 & W2 & -> & W3 & W4) Hbx]. exists es, w. repeat (split; [done|]). exact Hbx. }
    rewrite E. clear. cbn [a_box a_store]. rewrite (filter_map_swap _ _ _). done.
Qed.
Print Assumptions C88_filter.
(** The data may be spread over several stores, each key in one of them. *)
Theorem C88_shards :
  forall p mtb tb prox zoom max lang whole parts out outs,
  fair p prox zoom max whole -> from_singles (a_ops whole) (a_phrase whole) ->
  (forall a, a ∈ parts -> fair p prox zoom max a /\ from_singles (a_ops a) (a_phrase a) /\
     st_radius (a_store a) = st_radius (a_store whole) /\ a_phrase a = a_phrase whole /\ a_box a = a_box whole) ->
  (forall k es, written (a_ops whole) !! k = Some es <-> exists a, a ∈ parts /\ written (a_ops a) !! k = Some es) ->
  (forall i j a b k, parts !! i = Some a -> parts !! j = Some b ->
     is_Some (written (a_ops a) !! k) -> is_Some (written (a_ops b) !! k) -> i = j) ->
  answer p mtb tb prox zoom max lang whole out -> Forall2 (answer p mtb tb prox zoom max lang) parts outs ->
  out ≡ₚ mjoin outs.
Proof.
  intros p mtb tb prox zoom max lang whole parts out outs F S Hp Hw Hd A As.
  apply (C88_sum p mtb tb prox zoom max lang whole parts); try done.
  - intros a Ha. by destruct (Hp a Ha) as (? & ? & ? & _).
  - intros k e. split.
    + intros (es & w & W1 & W2 & W3 & W4 & W5). apply Hw in W1 as (a & Ha & W1). exists a. split; [done|].
      destruct (Hp a Ha) as (_ & _ & _ & E1 & E2). exists es, w. by rewrite E1, E2.
    + intros (a & Ha & es & w & W1 & W2 & W3 & W4 & W5). destruct (Hp a Ha) as (_ & _ & _ & E1 & E2). rewrite E1 in W4. rewrite E2 in W5.
      exists es, w. split; [apply Hw; by exists a|done].
  - intros i j a b k e Hi Hj (es & w & W1 & _) (es' & w' & W1' & _). by eapply (Hd i j a b k).
Qed.
Print Assumptions C88_shards.

(** ** Examples *)
Fixpoint ascending (l : list N) : bool :=
  match l with a :: ((b :: _) as l') => (a <? b) && ascending l' | _ => true end.
Lemma ascending_ok l : ascending l = true -> Sorted N.lt l.
Proof.
  induction l as [|a l IH]; [constructor|]. destruct l as [|b l]; [repeat constructor|].
  intros H. cbn [ascending] in H. apply andb_prop in H as [H1 H2]. constructor; [by apply IH|]. constructor. lia.
Qed.
Definition bins_okb (ops : list op) : bool :=
  ascending (loaded ops) &&
  forallb (fun kv : (N * N) * list grid_entry => match loaded ops with [] => false | b :: _ => b <=? kv.1.1 end) (map_to_list (written ops)) &&
  (N.of_nat (length (mjoin (map snd (map_to_list (written ops))))) <=? 2 ^ 27).
Lemma bins_okb_ok ops : bins_okb ops = true -> bins_ok ops.
Proof.
  unfold bins_okb. intros [[H1 H2]%andb_prop H3]%andb_prop. split; [|split].
  - apply ascending_ok in H1. apply Sorted_StronglySorted; [|exact H1]. intros x y z. lia.
  - intros k es Hk. apply elem_of_map_to_list in Hk. rewrite forallb_forall in H2. apply elem_of_list_In in Hk.
    specialize (H2 _ Hk). cbn in H2. destruct (loaded ops) as [|b l]; [done|]. exists b. split; [done|lia].
  - intros gid l. unfold bin_entries. etransitivity; [|apply N.leb_le, H3]. generalize (map_to_list (written ops)).
    intros L. match goal with |- context [List.filter ?f L] => set (g := f) end.
    assert (length (mjoin (map snd (List.filter g L))) <= length (mjoin (map snd L)))%nat; [|lia].
    clear. induction L as [|x L IH]; [done|]. cbn [List.filter]. destruct (g x); cbn [map];
      repeat change (mjoin (?a :: ?b)) with (a ++ mjoin b); rewrite !app_length; lia.
Qed.
Definition fairb (p : profile) (prox : option (N * N)) (zoom max : N) (a : asking) : bool :=
  match prox with None => true | _ => false end &&
  history_okb (a_ops a) && match a_box a with None => true | Some b => interleave (bb_x0 b) (bb_y0 b) <=? interleave (bb_x1 b) (bb_y1 b) end &&
  match a_phrase a with Exact i => i <? 2 ^ 32 - 1 | Range x _ => (x <? 2 ^ 32) && bins_okb (a_ops a) end &&
  (1 <=? max) && (N.of_nat (size (written (a_ops a))) <=? max).
Lemma fairb_ok p prox zoom max a : fairb p prox zoom max a = true -> (exists o, built o (a_ops a) (a_store a)) -> fair p prox zoom max a.
Proof.
  unfold fairb. intros H Hb. destruct prox; [done|]. repeat (apply andb_prop in H as [H ?]). split; [by apply history_okb_ok|]. split; [done|].
  split; [split; [|done]; cbn; destruct (a_box a); [right; lia|done]|]. split; [|split; lia].
  unfold query_ok. destruct (a_phrase a); [lia|]. bool_facts. split; [done|]. intros _ _. by apply bins_okb_ok.
Qed.
(** An entry written for two phrases, and bins from 0 up to 5. *)
Definition sum_ops : list op :=
  [OpBounds [0; 5]; OpInsert (1, 1) [ex_e1; ex_e2]; OpInsert (2, 1) [ex_e1]; OpInsert (4, u128_max) [ex_e3]].
Definition sum_ask (ph : match_phrase) (b : option bbox) : asking := Asking sum_ops (ex_store sum_ops) ph b.
Lemma sum_built : exists o, built o sum_ops (ex_store sum_ops).
Proof. exists id_oracle. apply built_run. vm_compute. reflexivity. Qed.
Definition sum_answer (ph : match_phrase) (b : option bbox) : res (list (N * N * N)) :=
  res_map (map xy_id) (streaming_get_matching Debug first_mtb first_tb (ex_store sum_ops) (MatchKey ph 1) (MatchOpts b None 14) 100).
Example C88_ex :
  (forall ph b, ph ∈ [Range 1 5; Range 1 2; Range 2 5; Exact 1; Exact 2; Range 0 5] ->
     b ∈ [None; Some (BBox 0 0 100 100); Some (BBox 0 0 5 100); Some (BBox 6 0 100 100)] ->
     fair Debug None 14 100 (sum_ask ph b)) /\
  from_singles sum_ops (Range 1 5) /\ from_singles sum_ops (Range 1 2) /\ from_singles sum_ops (Range 2 5) /\
  sum_answer (Range 1 5) None = Ok [(60000, 5, 9); (3, 5, 11); (3, 5, 11); (3, 6, 11)] /\
  sum_answer (Range 1 2) None = Ok [(3, 5, 11); (3, 6, 11)] /\
  sum_answer (Range 2 5) None = Ok [(60000, 5, 9); (3, 5, 11)] /\
  sum_answer (Range 1 5) (Some (BBox 0 0 100 100)) = Ok [(3, 5, 11); (3, 5, 11); (3, 6, 11)].
Proof.
  split.
  { intros ph b Hph Hb. apply fairb_ok; [|exact sum_built]. rewrite !elem_of_cons, elem_of_nil in Hph. rewrite !elem_of_cons, elem_of_nil in Hb.
    destruct Hph as [->|[->|[->|[->|[->|[->|[]]]]]]]; destruct Hb as [->|[->|[->|[->|[]]]]]; vm_compute; reflexivity. }
  split; [intros [H _]; vm_compute in H; set_solver|]. split; [intros [H _]; vm_compute in H; set_solver|].
  split; [intros [H _]; vm_compute in H; set_solver|]. repeat split; vm_compute; reflexivity.
Qed.
(** Bins do not count: an entry written for two phrases of a bin comes twice from the single
    records and once from the bin. *)
Lemma sum_cover : covered_by (sum_ask (Range 0 5) None) [sum_ask (Range 1 2) None; sum_ask (Range 2 5) None].
Proof.
  assert (Hw : forall k es, written sum_ops !! k = Some es -> k.1 <> 0).
  { intros k es Hk E0. apply elem_of_map_to_list in Hk.
    assert (Hall : forallb (fun kv : (N * N) * list grid_entry => negb (kv.1.1 =? 0)) (map_to_list (written sum_ops)) = true) by (vm_compute; reflexivity).
    rewrite forallb_forall in Hall. apply elem_of_list_In in Hk. specialize (Hall _ Hk). cbn [fst] in Hall. lia. }
  intros k e. split.
  - intros (es & w & H1 & H2 & H3 & H4 & H5). pose proof (Hw _ _ H1). unfold sum_ask, a_phrase, phrase_sel in H4.
    destruct (decide (k.1 < 2)); [exists (sum_ask (Range 1 2) None)|exists (sum_ask (Range 2 5) None)];
      (split; [repeat constructor|]); exists es, w; (split; [exact H1|]); (split; [exact H2|]); (split; [exact H3|]);
      (split; [|exact H5]); unfold sum_ask, a_phrase, phrase_sel; lia.
  - intros (x & Hx & es & w & H1 & H2 & H3 & H4 & H5). rewrite !elem_of_cons, elem_of_nil in Hx.
    exists es, w. destruct Hx as [->|[->|[]]]; (split; [exact H1|]); (split; [exact H2|]); (split; [exact H3|]);
      (split; [|exact H5]); unfold sum_ask, a_phrase, phrase_sel in *; lia.
Qed.
Lemma sum_disjoint : disjoint [sum_ask (Range 1 2) None; sum_ask (Range 2 5) None].
Proof.
  intros i j x y k e Hi Hj (es & w & _ & _ & _ & X & _) (es' & w' & _ & _ & _ & Y & _).
  destruct i as [|[|i]], j as [|[|j]]; cbn in Hi, Hj; try discriminate Hi; try discriminate Hj; try reflexivity;
    (apply Some_inj in Hi; apply Some_inj in Hj; subst x y); unfold sum_ask, a_phrase, phrase_sel in X, Y; lia.
Qed.
Lemma sum_fair : fair Debug None 14 100 (sum_ask (Range 0 5) None) /\
  forall a, a ∈ [sum_ask (Range 1 2) None; sum_ask (Range 2 5) None] -> fair Debug None 14 100 a /\ a_store a = a_store (sum_ask (Range 0 5) None).
Proof.
  destruct C88_ex as (Hf & _). split; [apply Hf; repeat constructor|].
  intros a Ha. rewrite !elem_of_cons, elem_of_nil in Ha. destruct Ha as [->|[->|[]]]; (split; [apply Hf; repeat constructor|reflexivity]).
Qed.
Theorem C88_bins_refuted :
  exists whole parts out outs, fair Debug None 14 100 whole /\ (forall a, a ∈ parts -> fair Debug None 14 100 a /\ a_store a = a_store whole) /\
    covered_by whole parts /\ disjoint parts /\ answer Debug first_mtb first_tb None 14 100 1 whole out /\
    Forall2 (answer Debug first_mtb first_tb None 14 100 1) parts outs /\ length out = 3%nat /\ length (mjoin outs) = 4%nat.
Proof.
  exists (sum_ask (Range 0 5) None), [sum_ask (Range 1 2) None; sum_ask (Range 2 5) None].
  destruct (streaming_get_matching Debug first_mtb first_tb (ex_store sum_ops) (MatchKey (Range 0 5) 1) (MatchOpts None None 14) 100) as [out| | |] eqn:E;
    try (vm_compute in E; discriminate E).
  destruct (streaming_get_matching Debug first_mtb first_tb (ex_store sum_ops) (MatchKey (Range 1 2) 1) (MatchOpts None None 14) 100) as [out1| | |] eqn:E1;
    try (vm_compute in E1; discriminate E1).
  destruct (streaming_get_matching Debug first_mtb first_tb (ex_store sum_ops) (MatchKey (Range 2 5) 1) (MatchOpts None None 14) 100) as [out2| | |] eqn:E2;
    try (vm_compute in E2; discriminate E2).
  exists out, [out1; out2]. split; [exact (proj1 sum_fair)|]. split; [exact (proj2 sum_fair)|]. split; [exact sum_cover|]. split; [exact sum_disjoint|].
  split; [exact E|]. split; [constructor; [exact E1|constructor; [exact E2|constructor]]|].
  vm_compute in E, E1, E2. injection E as <-. injection E1 as <-. injection E2 as <-. split; reflexivity.
Qed.
Print Assumptions C88_bins_refuted.
