(** Selection and ordering of coordinates. *)
From Verif Require Import Prelude Lists F64 Common Morton Format Spatial Spec Format_proofs Bits_proofs.
From Coq Require Import Sorting.Sorted.
From Coq Require Import ZifyBool.
Local Open Scope nat_scope.

(** A record's coordinates are strictly descending. *)
Definition descending (coords : list coord) : Prop :=
  StronglySorted (fun a b => (c_coord b < c_coord a)%N) coords.

(** ** Z-order *)
Lemma spread_split a : spread a = (4 * spread (a / 2) + a mod 2)%N.
Proof.
  pose proof (N.div_mod a 2 ltac:(done)) as Ea. pose proof (N.mod_upper_bound a 2 ltac:(done)) as Hm.
  set (q := (a / 2)%N) in *. set (r := (a mod 2)%N) in *. clearbody q r. subst a.
  assert (Hr : (r = 0 \/ r = 1)%N) by lia.
  destruct Hr as [-> | ->]; [rewrite N.add_0_r, spread_double, N.add_0_r|rewrite spread_succ_double]; done.
Qed.
Lemma spread_mono a : forall b, (a < b)%N -> (spread a < spread b)%N.
Proof.
  induction a as [a IH] using (well_founded_induction N.lt_wf_0). intros b Hab.
  rewrite (spread_split a), (spread_split b).
  pose proof (N.div_mod a 2 ltac:(done)) as Ea. pose proof (N.div_mod b 2 ltac:(done)) as Eb.
  pose proof (N.mod_upper_bound a 2 ltac:(done)) as Ha. pose proof (N.mod_upper_bound b 2 ltac:(done)) as Hb.
  specialize (IH (a / 2)%N).
  set (qa := (a / 2)%N) in *. set (qb := (b / 2)%N) in *.
  set (ra := (a mod 2)%N) in *. set (rb := (b mod 2)%N) in *. clearbody qa qb ra rb.
  destruct (N.lt_trichotomy qa qb) as [Hlt|[Heq|Hgt]]; [|subst qb; lia|lia].
  destruct (N.eq_dec a 0) as [E0|Ha0].
  - assert (qa = 0%N) by lia. subst qa. assert (0 < spread qb)%N by (destruct qb; simpl; lia).
    change (spread 0) with 0%N. lia.
  - specialize (IH ltac:(lia) qb Hlt). lia.
Qed.
Lemma spread_mono_le a b : (a <= b)%N -> (spread a <= spread b)%N.
Proof.
  intros H. destruct (N.eq_dec a b) as [->|]; [lia|]. pose proof (spread_mono a b). lia.
Qed.
Lemma interleave_mono x y x' y' : (x <= x' -> y <= y' -> interleave x y <= interleave x' y')%N.
Proof.
  intros Hx Hy. unfold interleave. pose proof (spread_mono_le _ _ Hx). pose proof (spread_mono_le _ _ Hy). lia.
Qed.
Lemma interleave_mono_x x x' y : (x < x' -> interleave x y < interleave x' y)%N.
Proof. intros H. unfold interleave. pose proof (spread_mono _ _ H). lia. Qed.
Lemma interleave_mono_y x y y' : (y < y' -> interleave x y < interleave x y')%N.
Proof. intros H. unfold interleave. pose proof (spread_mono _ _ H). lia. Qed.

Lemma in_bbox_range b c :
  in_bbox b c = true ->
  (interleave (bb_x0 b) (bb_y0 b) <= c_coord c <= interleave (bb_x1 b) (bb_y1 b))%N.
Proof.
  unfold in_bbox. pose proof (interleave_deinterleave (c_coord c)) as H.
  destruct (deinterleave (c_coord c)) as [x y]. intros Hb.
  rewrite !andb_true_iff in Hb. destruct Hb as [[[H1 H2] H3] H4].
  rewrite <- H. split; apply interleave_mono; lia.
Qed.

(** ** Binary search *)
Lemma descending_lookup coords i j a b :
  descending coords -> coords !! i = Some a -> coords !! j = Some b -> i < j ->
  (c_coord b < c_coord a)%N.
Proof.
  intros Hd Hi Hj Hij. apply (StronglySorted_lookup _ _ _ _ _ _ Hd Hij Hi Hj).
Qed.

Lemma bsearch_loop_ok coords val : descending coords -> forall fuel off base size,
  size <= fuel -> 1 <= size -> off <= base -> base + size <= length coords ->
  (forall i c, off <= i -> i < base -> coords !! i = Some c -> (val <= c_coord c)%N) ->
  (off < base -> exists c, coords !! base = Some c /\ (val <= c_coord c)%N) ->
  (forall i c, base + size <= i -> coords !! i = Some c -> (c_coord c < val)%N) ->
  exists r, bsearch_loop fuel coords val base size = Ok r /\ off <= r < length coords /\
    (off < r -> exists c, coords !! r = Some c /\ (val <= c_coord c)%N) /\
    (forall i c, r < i -> coords !! i = Some c -> (c_coord c < val)%N).
Proof.
  intros Hd. induction fuel as [|fuel IH]; intros off base size Hf Hs Hoff Hlen H1 H2 H3; [lia|].
  cbn [bsearch_loop]. destruct (1 <? size) eqn:E1.
  - assert (Hhalf : 1 <= size / 2 < size).
    { pose proof (Nat.div_mod size 2 ltac:(done)). pose proof (Nat.mod_upper_bound size 2 ltac:(done)). lia. }
    set (half := size / 2) in *.
    destruct (lookup_lt_is_Some_2 coords (base + half)) as [c Hc]; [lia|].
    unfold index. rewrite Hc. cbn [res_bind].
    destruct (c_coord c <? val)%N eqn:Ec.
    + (* the answer is in the lower half; the model keeps [base] *)
      destruct (IH off base (size - half)) as (r & Hr); [lia|lia|lia|lia|done|done| |exists r; done].
      intros i c' Hi Hc'.
      assert (Hmid : base + half <= i \/ i < base + half) by lia.
      destruct Hmid as [Hmid|Hmid].
      * destruct (Nat.eq_dec i (base + half)) as [->|]; [congruence || (rewrite Hc in Hc'; injection Hc' as <-; lia)|].
        pose proof (descending_lookup _ _ _ _ _ Hd Hc Hc' ltac:(lia)). lia.
      * (* size - half > half means i = base + half - ... cannot happen *)
        exfalso. assert (size - half >= half) by
          (pose proof (Nat.div_mod size 2 ltac:(done)); pose proof (Nat.mod_upper_bound size 2 ltac:(done)); lia).
        lia.
    + destruct (IH off (base + half) (size - half)) as (r & Hr); [lia|lia|lia|lia| | | |exists r; done].
      * intros i c' Hi Hi' Hc'. 
        pose proof (descending_lookup _ _ _ _ _ Hd Hc' Hc ltac:(lia)). lia.
      * intros _. exists c. split; [done|lia].
      * intros i c' Hi Hc'. apply (H3 i c'); [lia|done].
  - assert (size = 1) by lia. subst size. exists base. split; [done|]. split; [lia|]. split; [done|].
    intros i c Hi Hc. apply (H3 i c); [lia|done].
Qed.

(** The result is the first position from [off] on whose value is at most [val], or
    the last position when there is none. *)
Lemma coord_binary_search_ok coords val off :
  descending coords -> off < length coords ->
  exists r, coord_binary_search coords val off = Ok r /\ off <= r < length coords /\
    (forall i c, off <= i -> i < r -> coords !! i = Some c -> (val < c_coord c)%N) /\
    ((exists c, coords !! r = Some c /\ (c_coord c <= val)%N) \/ r = length coords - 1).
Proof.
  intros Hd Hoff. unfold coord_binary_search.
  replace (length coords <=? off) with false by lia.
  destruct (bsearch_loop_ok coords val Hd (length coords - off) off off (length coords - off))
    as (b & Hb & Hr & Hge & Hlt); [lia|lia|lia|lia| |lia| |].
  { intros i c ? ?; lia. }
  { intros i c Hi Hc. apply lookup_lt_Some in Hc. lia. }
  rewrite Hb. cbn [res_bind].
  assert (Hbefore : forall i c, off <= i -> i < b -> coords !! i = Some c -> (val < c_coord c)%N).
  { intros i c Hi Hib Hc. destruct Hge as (cb & Hcb & Hvb); [lia|].
    pose proof (descending_lookup _ _ _ _ _ Hd Hc Hcb Hib). lia. }
  destruct (b =? length coords - 1) eqn:Elast.
  - assert (b = length coords - 1) by lia. exists b. split; [done|]. split; [lia|]. split; [done|]. by right.
  - destruct (lookup_lt_is_Some_2 coords b) as [c Hc]; [lia|]. unfold index. rewrite Hc. cbn [res_bind].
    destruct (c_coord c =? val)%N eqn:Eeq.
    + exists b. split; [done|]. split; [lia|]. split; [done|]. left. exists c. split; [done|lia].
    + destruct (val <? c_coord c)%N eqn:Egt.
      * exists (S b). split; [done|]. split; [lia|]. split.
        -- intros i c' Hi Hib Hc'. destruct (Nat.eq_dec i b) as [->|]; [|apply (Hbefore i); [lia|lia|done]].
           rewrite Hc in Hc'. injection Hc' as <-. lia.
        -- destruct (lookup_lt_is_Some_2 coords (S b)) as [c' Hc']; [lia|].
           left. exists c'. split; [done|]. pose proof (Hlt (S b) c' ltac:(lia) Hc'). lia.
      * exists b. split; [done|]. split; [lia|]. split; [done|]. left. exists c. split; [done|lia].
Qed.

(** ** Slices *)
Lemma get_all_seq coords s n : s + n <= length coords ->
  get_all coords (seq s n) = Ok (take n (drop s coords)).
Proof.
  unfold get_all. revert s. induction n as [|n IH]; intros s H; simpl; [done|].
  destruct (lookup_lt_is_Some_2 coords s) as [c Hc]; [lia|]. unfold index at 1. rewrite Hc. cbn [res_bind].
  rewrite IH by lia. cbn [res_bind]. rewrite (drop_S _ _ _ Hc). done.
Qed.
Lemma res_mapM_app {A B} (f : A -> res B) l1 l2 b1 b2 :
  res_mapM f l1 = Ok b1 -> res_mapM f l2 = Ok b2 -> res_mapM f (l1 ++ l2) = Ok (b1 ++ b2).
Proof. rewrite !res_mapM_Ok. apply Forall2_app. Qed.
Lemma res_mapM_rev {A B} (f : A -> res B) l bs :
  res_mapM f l = Ok bs -> res_mapM f (rev l) = Ok (rev bs).
Proof.
  rewrite !res_mapM_Ok. induction 1 as [|a b l bs Hab H IH]; simpl; [constructor|].
  apply Forall2_app; [done|]. by constructor.
Qed.
Lemma get_all_rev coords s n : s + n <= length coords ->
  get_all coords (rev (seq s n)) = Ok (rev (take n (drop s coords))).
Proof. intros H. apply res_mapM_rev. by apply get_all_seq. Qed.

Lemma filter_nil {A} (f : A -> bool) l : (forall x, x ∈ l -> f x = false) -> List.filter f l = [].
Proof.
  induction l as [|a l IH]; intros H; simpl; [done|]. rewrite (H a) by left.
  apply IH. intros; apply H. by right.
Qed.
Lemma filter_app' {A} (f : A -> bool) l1 l2 :
  List.filter f (l1 ++ l2) = List.filter f l1 ++ List.filter f l2.
Proof. induction l1 as [|a l1 IH]; simpl; [done|]. destruct (f a); simpl; by rewrite IH. Qed.
Lemma filter_rev' {A} (f : A -> bool) l : List.filter f (rev l) = rev (List.filter f l).
Proof.
  induction l as [|a l IH]; simpl; [done|]. rewrite filter_app', IH. simpl.
  destruct (f a); simpl; [done|by rewrite app_nil_r].
Qed.

(** Cutting out a range loses nothing when the rest is not selected. *)
Lemma filter_range {A} (f : A -> bool) (l : list A) s n :
  (forall i x, l !! i = Some x -> i < s \/ s + n <= i -> f x = false) ->
  List.filter f (take n (drop s l)) = List.filter f l.
Proof.
  intros H. rewrite <- (take_drop s l) at 2. rewrite <- (take_drop n (drop s l)) at 2.
  rewrite !filter_app'. rewrite (filter_nil f (take s l)).
  - rewrite (filter_nil f (drop n (drop s l))); [by rewrite app_nil_r|].
    intros x Hx. apply elem_of_list_lookup in Hx as [i Hi]. rewrite !lookup_drop in Hi.
    eapply H; [exact Hi|]. lia.
  - intros x Hx. apply elem_of_list_lookup in Hx as [i Hi].
    apply lookup_take_Some in Hi as [Hi Hl]. eapply H; [exact Hi|]. lia.
Qed.

(** ** Bounding box *)
Lemma bbox_range_ok p coords b :
  descending coords ->
  (p = Release \/ (interleave (bb_x0 b) (bb_y0 b) <= interleave (bb_x1 b) (bb_y1 b))%N) ->
  exists r, bbox_range p coords b = Ok r /\
  match r with
  | None => forall c, c ∈ coords -> in_bbox b c = false
  | Some (s, e) => s <= e < length coords /\
      forall i c, coords !! i = Some c -> i < s \/ e < i -> in_bbox b c = false
  end.
Proof.
  intros Hd Hp. unfold bbox_range.
  set (mn := interleave (bb_x0 b) (bb_y0 b)) in *. set (mx := interleave (bb_x1 b) (bb_y1 b)) in *.
  assert (Ha : debug_assert p (mn <=? mx)%N = Ok tt).
  { destruct Hp as [->|Hp]; [done|]. replace (mn <=? mx)%N with true by lia. by destruct p. }
  rewrite Ha. cbn [res_bind]. clear Ha Hp.
  assert (Hin : forall c, in_bbox b c = true -> (mn <= c_coord c <= mx)%N) by (intros; by apply in_bbox_range).
  destruct (length coords =? 0) eqn:E0.
  { exists None. split; [done|]. intros c Hc. destruct coords; [by apply elem_of_nil in Hc|simpl in E0; lia]. }
  destruct (lookup_lt_is_Some_2 coords 0) as [f Hf]; [lia|].
  destruct (lookup_lt_is_Some_2 coords (length coords - 1)) as [l Hl]; [lia|].
  assert (Hfirst : forall c, c ∈ coords -> (c_coord c <= c_coord f)%N).
  { intros c Hc. apply elem_of_list_lookup in Hc as [i Hi].
    destruct (Nat.eq_dec i 0) as [->|]; [rewrite Hf in Hi; injection Hi as <-; lia|].
    pose proof (descending_lookup _ _ _ _ _ Hd Hf Hi ltac:(lia)). lia. }
  assert (Hlast : forall c, c ∈ coords -> (c_coord l <= c_coord c)%N).
  { intros c Hc. apply elem_of_list_lookup in Hc as [i Hi]. pose proof (lookup_lt_Some _ _ _ Hi).
    destruct (Nat.eq_dec i (length coords - 1)) as [->|]; [rewrite Hl in Hi; injection Hi as <-; lia|].
    pose proof (descending_lookup _ _ _ _ _ Hd Hi Hl ltac:(lia)). lia. }
  unfold index at 1. rewrite Hf. cbn [res_bind].
  destruct (c_coord f <? mn)%N eqn:E1.
  { exists None. split; [done|]. intros c Hc. specialize (Hfirst c Hc).
    destruct (in_bbox b c) eqn:E; [|done]. apply Hin in E. lia. }
  unfold index at 1. rewrite Hl. cbn [res_bind].
  destruct (mx <? c_coord l)%N eqn:E2.
  { exists None. split; [done|]. intros c Hc. specialize (Hlast c Hc).
    destruct (in_bbox b c) eqn:E; [|done]. apply Hin in E. lia. }
  assert (Ha : debug_assert p (c_coord l <=? c_coord f)%N = Ok tt).
  { assert (c_coord l <= c_coord f)%N by (apply Hfirst; by eapply elem_of_list_lookup_2).
    replace (c_coord l <=? c_coord f)%N with true by lia. by destruct p. }
  rewrite Ha. cbn [res_bind]. clear Ha.
  destruct (coord_binary_search_ok coords mx 0 Hd ltac:(lia)) as (s & Hs & Hsr & Hsb & Hsa).
  rewrite Hs. cbn [or_none].
  destruct (coord_binary_search_ok coords mn s Hd ltac:(lia)) as (e & He & Her & Heb & Hea).
  rewrite He. cbn [or_none]. cbv zeta.
  replace (e =? length coords) with false by lia.
  assert (Ha : debug_assert p (s <=? e) = Ok tt).
  { replace (s <=? e) with true by lia. by destruct p. }
  rewrite Ha. cbn [res_bind]. exists (Some (s, e)). split; [done|]. split; [lia|].
  intros i c Hc Hi. destruct (in_bbox b c) eqn:E; [|done]. apply Hin in E.
  destruct Hi as [Hi|Hi].
  - specialize (Hsb i c ltac:(lia) Hi Hc). lia.
  - pose proof (lookup_lt_Some _ _ _ Hc).
    destruct Hea as [(ce & Hce & Hle)|Hend]; [|lia].
    pose proof (descending_lookup _ _ _ _ _ Hd Hce Hc Hi). lia.
Qed.

Lemma bbox_filter_exact p coords b :
  descending coords ->
  (p = Release \/ (interleave (bb_x0 b) (bb_y0 b) <= interleave (bb_x1 b) (bb_y1 b))%N) ->
  exists r, bbox_filter p coords b = Ok r /\ default [] r = List.filter (in_bbox b) coords.
Proof.
  intros Hd Hp. unfold bbox_filter. destruct (length coords =? 0) eqn:E0.
  { destruct coords; [|simpl in E0; lia]. exists None. done. }
  destruct (bbox_range_ok p coords b Hd Hp) as (r & -> & Hr). cbn [res_bind].
  destruct r as [[s e]|].
  - destruct Hr as [Hse Hr]. rewrite get_all_seq by lia. cbn [res_bind]. eexists. split; [done|].
    cbn [default from_option]. apply filter_range. intros i x Hx Hi. apply (Hr i x Hx). lia.
  - exists None. split; [done|]. symmetry. by apply filter_nil.
Qed.

(** ** Merging by distance *)
Section merge.
  Context {A : Type} (first : A -> A -> bool).
  Lemma merge_by_nil_l l2 : merge_by first [] l2 = l2.
  Proof. by destruct l2. Qed.
  Lemma merge_by_nil_r l1 : merge_by first l1 [] = l1.
  Proof. by destruct l1. Qed.
  Lemma merge_by_cons a l1 b l2 :
    merge_by first (a :: l1) (b :: l2) =
    if first a b then a :: merge_by first l1 (b :: l2) else b :: merge_by first (a :: l1) l2.
  Proof. done. Qed.
  Lemma merge_by_perm l1 : forall l2, merge_by first l1 l2 ≡ₚ l1 ++ l2.
  Proof.
    induction l1 as [|a l1 IH1]; intros l2; [by rewrite merge_by_nil_l|].
    induction l2 as [|b l2 IH2]; [by rewrite merge_by_nil_r, app_nil_r|].
    rewrite merge_by_cons. destruct (first a b).
    - simpl. f_equiv. apply IH1.
    - rewrite IH2. symmetry. simpl. rewrite <- Permutation_middle. constructor.
  Qed.
  Lemma merge_by_sorted (R : A -> A -> Prop) l1 :
    (forall a b, first a b = true -> R a b) -> (forall a b, first a b = false -> R b a) ->
    (forall a b c, R a b -> R b c -> R a c) ->
    StronglySorted R l1 -> forall l2, StronglySorted R l2 -> StronglySorted R (merge_by first l1 l2).
  Proof.
    intros Ht Hf Htr. induction 1 as [|a l1 H1 IH1 Ha]; intros l2 H2; [by rewrite merge_by_nil_l|].
    induction H2 as [|b l2 H2 IH2 Hb]; [rewrite merge_by_nil_r; by constructor|].
    rewrite merge_by_cons. destruct (first a b) eqn:E.
    - constructor; [apply IH1; by constructor|]. rewrite merge_by_perm.
      apply Forall_app. split; [done|]. constructor; [by apply Ht|].
      eapply Forall_impl; [exact Hb|]. intros x Hx. eapply Htr; [|exact Hx]. by apply Ht.
    - constructor; [exact IH2|]. rewrite merge_by_perm. simpl. constructor; [by apply Hf|].
      apply Forall_app. split; [|done]. eapply Forall_impl; [exact Ha|].
      intros x Hx. eapply Htr; [|exact Hx]. by apply Hf.
  Qed.
End merge.

Definition nearer (prox : N) (a b : coord) : Prop := (zdist prox a <= zdist prox b)%N.
Lemma closer_true prox a b : closer prox a b = true -> nearer prox a b.
Proof. unfold closer, nearer. lia. Qed.
Lemma closer_false prox a b : closer prox a b = false -> nearer prox b a.
Proof. unfold closer, nearer. lia. Qed.
Lemma nearer_trans prox a b c : nearer prox a b -> nearer prox b c -> nearer prox a c.
Proof. unfold nearer. lia. Qed.

Lemma StronglySorted_rev {A} (R : A -> A -> Prop) l :
  StronglySorted R l -> StronglySorted (fun a b => R b a) (rev l).
Proof.
  induction 1 as [|a l H IH Ha]; simpl; [constructor|].
  apply StronglySorted_app. split; [done|]. split; [repeat constructor|].
  intros x y Hx Hy. apply elem_of_list_singleton in Hy as ->.
  rewrite Forall_forall in Ha. apply Ha. rewrite elem_of_list_In in *. by apply in_rev.
Qed.
Lemma StronglySorted_take_drop {A} (R : A -> A -> Prop) l n s :
  StronglySorted R l -> StronglySorted R (take n (drop s l)).
Proof.
  intros H. rewrite <- (take_drop s l) in H. apply StronglySorted_app in H as (_ & H & _).
  rewrite <- (take_drop n (drop s l)) in H. by apply StronglySorted_app in H as (H & _ & _).
Qed.

Lemma head_sorted coords prox s n :
  descending coords ->
  (forall i c, i < s + n -> coords !! i = Some c -> (prox < c_coord c)%N) ->
  StronglySorted (nearer prox) (rev (take n (drop s coords))).
Proof.
  intros Hd H. pose proof (StronglySorted_rev _ _ (StronglySorted_take_drop _ _ n s Hd)) as HS.
  eapply StronglySorted_impl; [|exact HS]. cbv beta. intros a b Ha Hb Hab.
  assert (Hgt : forall x, x ∈ rev (take n (drop s coords)) -> (prox < c_coord x)%N).
  { intros x Hx. apply elem_of_list_In, in_rev, elem_of_list_In in Hx.
    apply elem_of_list_lookup in Hx as [i Hi]. apply lookup_take_Some in Hi as [Hi Hl].
    rewrite lookup_drop in Hi. apply (H (s + i) x); [lia|done]. }
  apply Hgt in Ha. apply Hgt in Hb. unfold nearer, zdist. lia.
Qed.
Lemma tail_sorted coords prox m n :
  descending coords -> m < length coords ->
  ((exists c, coords !! m = Some c /\ (c_coord c <= prox)%N) \/ m = length coords - 1) ->
  StronglySorted (nearer prox) (take n (drop m coords)).
Proof.
  intros Hd Hm [(c & Hc & Hle)|Hend].
  - eapply StronglySorted_impl; [|exact (StronglySorted_take_drop _ _ n m Hd)]. cbv beta.
    assert (Hgt : forall x, x ∈ take n (drop m coords) -> (c_coord x <= prox)%N).
    { intros x Hx. apply elem_of_list_lookup in Hx as [i Hi]. apply lookup_take_Some in Hi as [Hi Hl].
      rewrite lookup_drop in Hi. destruct (Nat.eq_dec i 0) as [->|].
      - rewrite Nat.add_0_r, Hc in Hi. injection Hi as <-. lia.
      - pose proof (descending_lookup _ _ _ _ _ Hd Hc Hi ltac:(lia)). lia. }
    intros a b Ha Hb Hab. apply Hgt in Ha. apply Hgt in Hb. unfold nearer, zdist. lia.
  - assert (Hlen : length (take n (drop m coords)) <= 1) by (rewrite take_length, drop_length; lia).
    destruct (take n (drop m coords)) as [|x [|y l]]; [constructor|repeat constructor|simpl in Hlen; lia].
Qed.

Lemma proximity_ok coords pt :
  descending coords ->
  exists r, proximity coords pt = Ok r /\ default [] r ≡ₚ coords /\
    StronglySorted (nearer (interleave pt.1 pt.2)) (default [] r).
Proof.
  intros Hd. unfold proximity. cbv zeta. set (prox := interleave pt.1 pt.2).
  destruct (length coords =? 0) eqn:E0.
  { destruct coords; [|simpl in E0; lia]. exists None. repeat split; constructor. }
  destruct (coord_binary_search_ok coords prox 0 Hd ltac:(lia)) as (m & -> & Hm & Hb & Ha).
  cbn [or_none]. rewrite get_all_rev by lia. cbn [res_bind]. rewrite get_all_seq by lia. cbn [res_bind].
  eexists. split; [done|]. cbn [default from_option]. split.
  - rewrite merge_by_perm. rewrite <- Permutation_rev. rewrite drop_0.
    rewrite (take_ge (drop m coords)) by (rewrite drop_length; lia). by rewrite take_drop.
  - apply merge_by_sorted.
    + apply closer_true. + apply closer_false. + apply nearer_trans.
    + apply head_sorted; [done|]. intros i c Hi Hc. apply (Hb i c); [lia|lia|done].
    + apply tail_sorted; [done|lia|done].
Qed.

Lemma bbox_proximity_ok p coords b pt :
  descending coords ->
  (p = Release \/ (interleave (bb_x0 b) (bb_y0 b) <= interleave (bb_x1 b) (bb_y1 b))%N) ->
  exists r, bbox_proximity_filter p coords b pt = Ok r /\
    default [] r ≡ₚ List.filter (in_bbox b) coords /\
    StronglySorted (nearer (interleave pt.1 pt.2)) (default [] r).
Proof.
  intros Hd Hp. unfold bbox_proximity_filter. cbv zeta.
  destruct (bbox_range_ok p coords b Hd Hp) as (r & -> & Hr). cbn [res_bind].
  destruct r as [[s e]|].
  2: { exists None. rewrite (filter_nil (in_bbox b) coords) by done. repeat split; constructor. }
  destruct Hr as [Hse Hr]. set (prox := interleave pt.1 pt.2).
  replace (length coords =? 0) with false by lia.
  destruct (coord_binary_search_ok coords prox 0 Hd ltac:(lia)) as (m & -> & Hm & Hb & Ha).
  cbn [or_none]. rewrite get_all_rev by lia. cbn [res_bind]. rewrite get_all_seq by lia. cbn [res_bind].
  eexists. split; [done|]. cbn [default from_option]. split.
  - rewrite merge_by_perm. rewrite filter_rev', <- Permutation_rev.
    rewrite <- (take_drop m coords) at 3. rewrite filter_app'.
    rewrite <- (filter_range (in_bbox b) (take m coords) s (m - s)).
    + rewrite <- (filter_range (in_bbox b) (drop m coords) 0 (S e - m)).
      * rewrite drop_0. apply Permutation_app; [|done].
        destruct (decide (s <= m)) as [Hsm|Hsm].
        -- rewrite (take_drop_commute coords (m - s) s). replace (s + (m - s)) with m by lia.
           rewrite (take_ge (drop s (take m coords))); [done|]. rewrite drop_length, take_length. lia.
        -- replace (m - s) with 0 by lia. by rewrite !take_0.
      * intros i x Hx Hi. rewrite lookup_drop in Hx. apply (Hr (m + i) x Hx). lia.
    + intros i x Hx Hi. apply lookup_take_Some in Hx as [Hx Hl]. apply (Hr i x Hx). lia.
  - apply merge_by_sorted.
    + apply closer_true. + apply closer_false. + apply nearer_trans.
    + apply StronglySorted_filter.
      destruct (decide (s <= m)) as [Hsm|Hsm].
      * apply head_sorted; [done|]. intros i c Hi Hc. apply (Hb i c); [lia|lia|done].
      * replace (m - s) with 0 by lia. rewrite take_0. constructor.
    + apply StronglySorted_filter. apply tail_sorted; [done|lia|done].
Qed.
