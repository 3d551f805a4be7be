(** The database written by [finish] depends only on the sets of entries written. *)
From Verif Require Import Prelude Lists F64 Common Morton Format Format_proofs Builder Store
  Record_proofs Spec Bits_proofs Builder_proofs Finish_proofs Store_proofs.
Local Open Scope N_scope.

(** ** Grouping respects element-wise relations that preserve the key *)
Section groupby_rel.
  Context {A B K : Type} (keyA : A -> K) (keyB : B -> K) (eqb : K -> K -> bool).
  Context (R : A -> B -> Prop) (HR : forall a b, R a b -> keyA a = keyB b).
  Definition grel (g : K * list A) (h : K * list B) : Prop := g.1 = h.1 /\ Forall2 R g.2 h.2.

  Lemma gb_loop_rel it it' : forall curr run run',
    Forall2 R it it' -> Forall2 R run run' ->
    let '(o, s) := gb_loop keyA eqb it curr run in
    let '(o', s') := gb_loop keyB eqb it' curr run' in
    match o, o' with
    | Some g, Some g' => grel g g'
    | None, None => True
    | _, _ => False
    end /\
    Forall2 R (gb_it s) (gb_it s') /\ gb_curr s = gb_curr s' /\
    Forall2 R (gb_run s) (gb_run s') /\ gb_done s = gb_done s'.
  Proof.
    revert it'. induction it as [|a it IH]; intros it' curr run run' Hit Hrun.
    - inversion Hit; subst. simpl. destruct curr; simpl; split_and!; done || constructor.
    - inversion Hit as [|? b ? it0 Hab Hit']; subst. simpl. rewrite <- (HR _ _ Hab).
      destruct curr as [o|].
      + destruct (eqb o (keyA a)); simpl.
        * apply IH; [done|]. apply Forall2_app; [done|]. by constructor.
        * split_and!; try done. repeat constructor; done.
      + apply IH; [done|]. apply Forall2_app; [done|]. by constructor.
  Qed.
  Lemma gb_collect_rel fuel : forall s s',
    Forall2 R (gb_it s) (gb_it s') -> gb_curr s = gb_curr s' ->
    Forall2 R (gb_run s) (gb_run s') -> gb_done s = gb_done s' ->
    Forall2 grel (gb_collect keyA eqb fuel s) (gb_collect keyB eqb fuel s').
  Proof.
    induction fuel as [|fuel IH]; intros s s' H1 H2 H3 H4; cbn [gb_collect]; [constructor|].
    unfold gb_next. rewrite <- H4. destruct (gb_done s) eqn:Ed; [constructor|].
    pose proof (gb_loop_rel (gb_it s) (gb_it s') (gb_curr s) _ _ H1 H3) as H. rewrite <- H2.
    destruct (gb_loop keyA eqb _ _ _) as [o t], (gb_loop keyB eqb _ _ _) as [o' t'].
    destruct H as (Ho & H5 & H6 & H7 & H8).
    destruct o, o'; try done. constructor; [done|]. by apply IH.
  Qed.
  Lemma eager_groupby_rel l l' :
    Forall2 R l l' -> Forall2 grel (eager_groupby keyA eqb l) (eager_groupby keyB eqb l').
  Proof.
    intros H. unfold eager_groupby. rewrite (Forall2_length _ _ _ H).
    apply gb_collect_rel; try done. constructor.
  Qed.
End groupby_rel.

Notation bent := (gmap N (gmap N (list N))) (only parsing).
Definition be_equiv (a b : bent) : Prop :=
  be_full a /\ be_full b /\ forall rs z v, be_has a rs z v <-> be_has b rs z v.
Definition item_equiv (a b : (N * N) * bent) : Prop := a.1 = b.1 /\ be_equiv a.2 b.2.

Lemma enc_equiv a b : be_equiv a b -> enc a = enc b.
Proof. intros (H1 & H2 & H). unfold enc. by rewrite (norm_ext a b). Qed.
Lemma single_put_equiv a b : item_equiv a b -> single_put a = single_put b.
Proof. intros [H1 H2]. unfold single_put. by rewrite H1, (enc_equiv _ _ H2). Qed.

(** Two lists of writes with pairwise different keys and the same elements have the
    same effect. *)
Lemma apply_puts_set (l1 l2 : list (list N * list N)) d :
  NoDup (l1.*1) -> NoDup (l2.*1) -> (forall x, x ∈ l1 <-> x ∈ l2) ->
  apply_puts l1 d = apply_puts l2 d.
Proof.
  intros H1 H2 H. apply map_eq. intros k.
  assert (Huniq : forall l : list (list N * list N), NoDup (l.*1) ->
            forall k v v', (k, v) ∈ l -> (k, v') ∈ l -> v = v').
  { intros l Hnd k0 v v' Hv Hv'. apply elem_of_list_lookup in Hv as (i & Hi), Hv' as (j & Hj).
    assert (i = j) as <-.
    { eapply NoDup_lookup; [exact Hnd|..]; rewrite list_lookup_fmap.
      - by rewrite Hi.
      - by rewrite Hj. }
    congruence. }
  destruct (decide (Exists (fun kv => kv.1 = k) l1)) as [HE|HE].
  - apply Exists_exists in HE as ([k1 v1] & Hin & E). simpl in E. subst k1.
    rewrite (apply_puts_unique l1 d k v1), (apply_puts_unique l2 d k v1); eauto.
    + by apply H.
    + intros. eapply (Huniq l2); eauto. by apply H.
  - rewrite !apply_puts_none; [done|..]; intros kv Hkv E; apply HE, Exists_exists;
      exists kv; split; try done. by apply H.
Qed.

Lemma merged_equiv its1 its2 langs1 langs2 :
  Forall2 item_equiv its1 its2 -> merged_ok its1 langs1 -> merged_ok its2 langs2 ->
  forall l, match langs1 !! l, langs2 !! l with
            | Some a, Some b => be_equiv a b
            | None, None => True
            | _, _ => False
            end.
Proof.
  intros HF M1 M2.
  assert (H12 : forall it, it ∈ its1 -> exists it', it' ∈ its2 /\ item_equiv it it').
  { intros it Hit. apply elem_of_list_lookup in Hit as (i & Hi).
    destruct (Forall2_lookup_l _ _ _ _ _ HF Hi) as (it' & Hi' & He). exists it'.
    split; [by eapply elem_of_list_lookup_2|done]. }
  assert (H21 : forall it, it ∈ its2 -> exists it', it' ∈ its1 /\ item_equiv it' it).
  { intros it Hit. apply elem_of_list_lookup in Hit as (i & Hi).
    destruct (Forall2_lookup_r _ _ _ _ _ HF Hi) as (it' & Hi' & He). exists it'.
    split; [by eapply elem_of_list_lookup_2|done]. }
  intros l.
  assert (Hdom : is_Some (langs1 !! l) <-> is_Some (langs2 !! l)).
  { rewrite (mo_dom _ _ M1), (mo_dom _ _ M2). split.
    - intros (it & Hit & E). destruct (H12 _ Hit) as (it' & Hit' & [E' _]). exists it'. by rewrite <- E'.
    - intros (it & Hit & E). destruct (H21 _ Hit) as (it' & Hit' & [E' _]). exists it'. by rewrite E'. }
  destruct (langs1 !! l) as [a|] eqn:E1, (langs2 !! l) as [b|] eqn:E2; try done.
  - split_and!.
    + eapply (mo_full _ _ M1); [|exact E1]. intros it Hit.
      destruct (H12 _ Hit) as (? & _ & _ & ? & _). done.
    + eapply (mo_full _ _ M2); [|exact E2]. intros it Hit.
      destruct (H21 _ Hit) as (? & _ & _ & _ & ? & _). done.
    + intros rs z v. pose proof (mo_has _ _ M1 l rs z v) as Q1. pose proof (mo_has _ _ M2 l rs z v) as Q2.
      rewrite E1 in Q1. rewrite E2 in Q2. simpl in *. rewrite Q1, Q2. split.
      * intros (it & Hit & E & Hb). destruct (H12 _ Hit) as (it' & Hit' & E' & _ & _ & HH).
        exists it'. rewrite <- E'. by rewrite <- HH.
      * intros (it & Hit & E & Hb). destruct (H21 _ Hit) as (it' & Hit' & E' & _ & _ & HH).
        exists it'. rewrite E'. by rewrite HH.
  - destruct Hdom as [Hdom _]. destruct Hdom; [by eexists|done].
  - destruct Hdom as [_ Hdom]. destruct Hdom; [by eexists|done].
Qed.

Definition bin_puts (o : hash_oracle) (gid : N) (langs : gmap N bent) : list (list N * list N) :=
  map (fun lv : N * bent =>
         let db_key := write_key PrefixBin (gid, lv.1) in
         (db_key, get_encoded_value o (1 :: db_key) lv.2))
      (hash_iter o [2; gid] langs).
Lemma bin_puts_elem o gid langs kv :
  kv ∈ bin_puts o gid langs <->
  exists l be, langs !! l = Some be /\ kv = (write_key PrefixBin (gid, l), enc be).
Proof.
  unfold bin_puts. rewrite elem_of_map. split.
  - intros ([l be] & -> & H%elem_hash_iter). exists l, be. split; [done|].
    cbn [fst snd]. by rewrite get_encoded_value_norm.
  - intros (l & be & H & ->). exists (l, be). split; [|by apply elem_hash_iter].
    cbn [fst snd]. by rewrite get_encoded_value_norm.
Qed.
Lemma bin_puts_NoDup o gid langs :
  gid < 2 ^ 32 -> (forall l be, langs !! l = Some be -> l < 2 ^ 128) ->
  NoDup ((bin_puts o gid langs).*1).
Proof.
  intros Hg Hl. unfold bin_puts.
  change (map ?f ?l) with (f <$> l). rewrite <- list_fmap_compose. cbn.
  assert (E : (fst ∘ (fun lv : N * bent => (write_key PrefixBin (gid, lv.1),
      get_encoded_value o (1 :: write_key PrefixBin (gid, lv.1)) lv.2))) <$> hash_iter o [2; gid] langs
    = (fun l => write_key PrefixBin (gid, l)) <$> (hash_iter o [2; gid] langs).*1).
  { rewrite <- list_fmap_compose. done. }
  rewrite E. clear E.
  assert (Hnd : NoDup ((hash_iter o [2; gid] langs).*1)).
  { unfold hash_iter. rewrite (ho_perm o). apply NoDup_fst_map_to_list. }
  assert (Hr : Forall (fun l => l < 2 ^ 128) ((hash_iter o [2; gid] langs).*1)).
  { apply Forall_forall. intros l Hin. apply elem_of_list_fmap in Hin as ([l' be] & -> & Hin).
    apply elem_hash_iter in Hin. simpl. eauto. }
  induction Hnd as [|l ls Hn Hnd IH]; simpl; [constructor|].
  inversion Hr as [|? ? Hl1 Hr']; subst. constructor; [|by apply IH].
  intros Hin. apply elem_of_list_fmap in Hin as (l' & E & Hin).
  rewrite Forall_forall in Hr'. pose proof (Hr' _ Hin) as Hl'. cbn beta in Hl'.
  assert (Hk : (gid, l) = (gid, l')).
  { eapply write_key_inj; [..|exact E]; split; done. }
  injection Hk as ->. done.
Qed.

Lemma group_puts_split o g :
  exists langs, merged_ok (map snd g.2) langs /\
    group_puts o g = map single_put (map snd g.2) ++
      match g.1 with None => [] | Some gid => bin_puts o gid langs end.
Proof.
  unfold group_puts. pose proof (group_fold o (map snd g.2) [] ∅ [] merged_ok_nil) as H.
  destruct (foldl _ _ _) as [puts langs]. destruct H as [-> H]. exists langs. split; [done|].
  done.
Qed.

Definition label_ok (g : option N * list (option N * ((N * N) * bent))) : Prop :=
  (forall gid, g.1 = Some gid -> gid < 2 ^ 32) /\
  (forall x, x ∈ g.2 -> gk_lang x.2.1 < 2 ^ 128).

Lemma group_puts_equiv o1 o2 g1 g2 d :
  g1.1 = g2.1 -> Forall2 (fun a b => a.1 = b.1 /\ item_equiv a.2 b.2) g1.2 g2.2 ->
  label_ok g1 ->
  apply_puts (group_puts o1 g1) d = apply_puts (group_puts o2 g2) d.
Proof.
  intros Hlab HF [Hok1 Hok2].
  assert (HI : Forall2 item_equiv (map snd g1.2) (map snd g2.2)).
  { clear -HF. induction HF as [|a b l l' [_ H] HF IH]; simpl; [constructor|]. by constructor. }
  destruct (group_puts_split o1 g1) as (langs1 & M1 & ->).
  destruct (group_puts_split o2 g2) as (langs2 & M2 & ->).
  rewrite !apply_puts_app. rewrite <- Hlab.
  assert (Hs : map single_put (map snd g1.2) = map single_put (map snd g2.2)).
  { clear -HI. induction HI; simpl; [done|]. f_equal; [by apply single_put_equiv|done]. }
  rewrite Hs. destruct g1.1 as [gid|] eqn:Eg; [|done].
  pose proof (merged_equiv _ _ _ _ HI M1 M2) as HM.
  assert (Hl1 : forall l be, langs1 !! l = Some be -> l < 2 ^ 128).
  { intros l be Hl. destruct (proj1 (mo_dom _ _ M1 l)) as (it & Hit & <-); [eauto|].
    apply elem_of_map in Hit as (x & -> & Hx). by apply Hok2. }
  assert (Hl2 : forall l be, langs2 !! l = Some be -> l < 2 ^ 128).
  { intros l be Hl. specialize (HM l). rewrite Hl in HM. destruct (langs1 !! l) eqn:E; [eauto|done]. }
  apply apply_puts_set; [by apply bin_puts_NoDup; [apply Hok1|]..|].
  intros kv. rewrite !bin_puts_elem. split; intros (l & be & Hl & ->); specialize (HM l); rewrite Hl in HM.
  - destruct (langs2 !! l) as [be'|] eqn:E; [|done]. exists l, be'. split; [done|]. by rewrite (enc_equiv be be').
  - destruct (langs1 !! l) as [be'|] eqn:E; [|done]. exists l, be'. split; [done|]. by rewrite (enc_equiv be' be).
Qed.

(** ** The sorted items *)
Lemma key_leb_total a b : key_leb a b = true \/ key_leb b a = true.
Proof.
  unfold key_leb, grid_key_cmp, cmp_then.
  rewrite (N.compare_antisym a.1 b.1), (N.compare_antisym a.2 b.2).
  destruct (N.compare a.1 b.1), (N.compare a.2 b.2); simpl; auto.
Qed.
Lemma key_leb_spec a b : key_leb a b = true <-> a.1 < b.1 \/ (a.1 = b.1 /\ a.2 <= b.2).
Proof.
  unfold key_leb, grid_key_cmp, cmp_then.
  destruct (N.compare_spec a.1 b.1), (N.compare_spec a.2 b.2); split; intros; try done; lia.
Qed.
Lemma key_leb_trans a b c : key_leb a b = true -> key_leb b c = true -> key_leb a c = true.
Proof. rewrite !key_leb_spec. lia. Qed.
Lemma key_leb_anti a b : key_leb a b = true -> key_leb b a = true -> a = b.
Proof. rewrite !key_leb_spec. destruct a, b; simpl. intros. f_equal; lia. Qed.

Lemma btree_iter_NoDup {V} (m : gmap (N * N) V) : NoDup ((btree_iter m).*1).
Proof. unfold btree_iter. rewrite isort_perm. apply NoDup_fst_map_to_list. Qed.
Lemma btree_iter_sorted {V} (m : gmap (N * N) V) :
  StronglySorted (fun a b => key_leb a.1 b.1 = true) (btree_iter m).
Proof.
  apply (isort_sorted (fun a b : (N * N) * V => key_leb a.1 b.1)).
  - intros. apply key_leb_total.
  - intros a b c. apply key_leb_trans.
Qed.

Lemma btree_iter_equiv {V W} (R : V -> W -> Prop) (m1 : gmap (N * N) V) (m2 : gmap (N * N) W) :
  (forall k, match m1 !! k, m2 !! k with
             | Some a, Some b => R a b | None, None => True | _, _ => False end) ->
  Forall2 (fun a b => a.1 = b.1 /\ R a.2 b.2) (btree_iter m1) (btree_iter m2).
Proof.
  intros H.
  assert (Hk : (btree_iter m1).*1 = (btree_iter m2).*1).
  { apply (sorted_perm_unique (fun a b => key_leb a b = true)).
    - intros a b _ _. apply key_leb_anti.
    - apply StronglySorted_map, btree_iter_sorted.
    - apply StronglySorted_map, btree_iter_sorted.
    - apply NoDup_Permutation; [apply btree_iter_NoDup..|]. intros k.
      rewrite !elem_of_list_fmap. specialize (H k). split; intros ([k' v] & -> & Hin);
        apply elem_btree_iter in Hin; simpl in *; rewrite Hin in H.
      + destruct (m2 !! k') as [w|] eqn:E; [|done]. exists (k', w). split; [done|]. by apply elem_btree_iter.
      + destruct (m1 !! k') as [w|] eqn:E; [|done]. exists (k', w). split; [done|]. by apply elem_btree_iter. }
  apply Forall2_same_length_lookup. split.
  { apply (f_equal length) in Hk. by rewrite !fmap_length in Hk. }
  intros i [k1 v1] [k2 v2] H1 H2.
  assert (E : k1 = k2).
  { assert (E1 : (btree_iter m1).*1 !! i = Some k1) by by rewrite list_lookup_fmap, H1.
    assert (E2 : (btree_iter m2).*1 !! i = Some k2) by by rewrite list_lookup_fmap, H2.
    rewrite Hk in E1. congruence. }
  subst k2. simpl. split; [done|]. apply elem_of_list_lookup_2, elem_btree_iter in H1, H2.
  specialize (H k1). by rewrite H1, H2 in H.
Qed.

Lemma bin_label_rel {V W} (R : V -> W -> Prop) (l1 : list ((N * N) * V)) (l2 : list ((N * N) * W)) :
  forall s, Forall2 (fun a b => a.1 = b.1 /\ R a.2 b.2) l1 l2 ->
  match bin_label l1 s, bin_label l2 s with
  | Ok a, Ok b => Forall2 (fun x y => x.1 = y.1 /\ x.2.1 = y.2.1 /\ R x.2.2 y.2.2) a b
  | Diverge, Diverge => True
  | _, _ => False
  end.
Proof.
  revert l2. induction l1 as [|a l1 IH]; intros l2 s H; inversion H as [|? b ? l2' [E HR] H']; subst.
  - simpl. constructor.
  - cbn [bin_label]. rewrite <- E. destruct (bin_advance _ _ _) as [s'|]; [|done].
    specialize (IH l2' s' H').
    destruct (bin_label l1 s'), (bin_label l2' s'); try done. cbn [res_bind]. constructor; [|done].
    done.
Qed.

Lemma bin_label_bounds {V} (l : list ((N * N) * V)) : forall s labelled (bounds : list N),
  (forall x, x ∈ bs_seq s -> x ∈ bounds) -> (forall c, bs_current s = Some c -> c ∈ bounds) ->
  bin_label l s = Ok labelled ->
  forall x gid, x ∈ labelled -> x.1 = Some gid -> gid ∈ bounds.
Proof.
  induction l as [|it l IH]; intros s labelled bounds H1 H2; cbn [bin_label].
  - intros [= <-] x gid Hx. by apply elem_of_nil in Hx.
  - destruct (bin_advance _ _ s) as [s'|] eqn:E; [|done].
    intros (rest & Hr & [= <-])%bind_Ok.
    assert (Hadv : (forall x, x ∈ bs_seq s' -> x ∈ bounds) /\
                   (forall c, bs_current s' = Some c -> c ∈ bounds)).
    { clear IH Hr. revert E H1 H2. generalize (bin_fuel s). intros fuel. revert s s'.
      induction fuel as [|fuel IH]; intros s s'; cbn [bin_advance].
      - destruct (_ <=? _); [done|]. intros [= ->]. done.
      - destruct (_ <=? _); [|intros [= ->]; done]. intros E H1 H2. eapply IH; [exact E|..].
        + unfold bin_step. simpl. intros x Hx. apply H1. destruct (bs_seq s); [done|]. by right.
        + unfold bin_step. simpl. intros c Hc. apply H1. destruct (bs_seq s); [done|].
          injection Hc as ->. left. }
    destruct Hadv as [A1 A2]. intros x gid Hx Hg. apply elem_of_cons in Hx as [->|Hx].
    + simpl in Hg. by apply A2.
    + eapply IH; [exact A1|exact A2|exact Hr|exact Hx|exact Hg].
Qed.

Lemma foldl_groups_equiv o1 o2 gs1 gs2 : forall d,
  Forall2 (fun g1 g2 => g1.1 = g2.1 /\
     Forall2 (fun a b : option N * ((N * N) * bent) => a.1 = b.1 /\ item_equiv a.2 b.2) g1.2 g2.2) gs1 gs2 ->
  Forall label_ok gs1 ->
  apply_puts (mjoin (map (group_puts o1) gs1)) d = apply_puts (mjoin (map (group_puts o2) gs2)) d.
Proof.
  intros d H Hok. revert d. induction H as [|g1 g2 gs1 gs2 [H1 H2] H IH]; intros d; cbn [map mjoin list_join]; [done|].
  inversion Hok; subst. rewrite !apply_puts_app. rewrite (group_puts_equiv o1 o2 g1 g2 d) by done.
  by apply IH.
Qed.

Theorem finish_equiv o1 o2 b1 b2 d :
  data_keys_ok b1 -> b_bounds b1 = b_bounds b2 ->
  (forall k, match b_data b1 !! k, b_data b2 !! k with
             | Some a, Some b => be_equiv a b | None, None => True | _, _ => False end) ->
  finish o1 b1 d = finish o2 b2 d.
Proof.
  intros Hok Hb Hd. unfold finish, finish_puts.
  pose proof (btree_iter_equiv be_equiv _ _ Hd) as HI.
  pose proof (bin_label_rel be_equiv _ _ (bin_init (b_bounds b1)) HI) as HL.
  rewrite <- Hb.
  destruct (bin_label (btree_iter (b_data b1)) (bin_init (b_bounds b1))) as [lab1| | |] eqn:E1,
           (bin_label (btree_iter (b_data b2)) (bin_init (b_bounds b1))) as [lab2| | |] eqn:E2; try done.
  cbn [res_bind]. f_equal. rewrite !apply_puts_app. f_equal.
  apply foldl_groups_equiv.
  - apply (eager_groupby_rel fst fst option_N_eqb
      (fun a b => a.1 = b.1 /\ item_equiv a.2 b.2)); [by intros ? ? [? _]|].
    eapply Forall2_impl; [exact HL|]. intros a b (H1 & H2 & H3). split; [done|]. by split.
  - apply Forall_forall. intros [lab g] Hg.
    pose proof (eager_groupby_grouping fst option_N_eqb lab1) as HG.
    destruct (grouping_elem _ _ _ _ _ _ HG Hg) as (a & run & -> & -> & Hrun & Hin).
    split; cbn [fst snd].
    + intros gid Hgid. destruct Hok as [_ Hb1]. rewrite Forall_forall in Hb1. apply Hb1.
      eapply (bin_label_bounds _ _ _ (b_bounds b1)); [..|exact E1|apply Hin; left|exact Hgid].
      * done.
      * done.
    + intros x Hx. apply Hin in Hx. destruct Hok as [Hk _].
      assert (Hx' : x.2 ∈ btree_iter (b_data b1)).
      { rewrite <- (bin_label_snd _ _ _ E1). apply elem_of_map. eauto. }
      destruct x as [lx [k be]]. simpl in *. apply elem_btree_iter, Hk in Hx' as [_ ?]. done.
Qed.

(** Histories that write the same sets of (packed) entries. *)
Definition same_entries (w1 w2 : gmap (N * N) (list grid_entry)) : Prop :=
  forall k, match w1 !! k, w2 !! k with
            | Some a, Some b => forall e, e ∈ map snap a <-> e ∈ map snap b
            | None, None => True
            | _, _ => False
            end.

Lemma relev_float_int_snap r : relev_float_to_int (snap_relev r) = relev_float_to_int r.
Proof.
  rewrite <- unpack_relev_int. pose proof (relev_int_lt r) as H.
  assert (Hc : relev_float_to_int r = 0 \/ relev_float_to_int r = 1 \/
               relev_float_to_int r = 2 \/ relev_float_to_int r = 3) by lia.
  destruct Hc as [->|[->|[->| ->]]]; vm_compute; done.
Qed.
Lemma packed_snap e : packed (snap e) = packed e.
Proof.
  unfold packed, snap. cbn [ge_relev ge_score ge_x ge_y ge_id ge_hash].
  unfold pack_rs. rewrite relev_float_int_snap. f_equal.
  unfold pack_id, as_u32. f_equal. rewrite !N.shiftl_mul_pow2.
  change (2 ^ 32) with (2 ^ 24 * 2 ^ 8). rewrite !N.mul_mod_distr_r by done.
  by rewrite N.mod_mod by done.
Qed.

Theorem finish_same o1 o2 ops1 ops2 d :
  Forall op_ok ops1 -> Forall op_nonempty ops1 -> Forall op_nonempty ops2 ->
  b_bounds (run ops1) = b_bounds (run ops2) ->
  same_entries (written ops1) (written ops2) ->
  finish o1 (run ops1) d = finish o2 (run ops2) d.
Proof.
  intros H1 N1 N2 Hb Hs. apply finish_equiv; [by apply run_keys_ok|done|].
  intros k. specialize (Hs k). pose proof (run_rel ops1 k) as R1. pose proof (run_rel ops2 k) as R2.
  pose proof (run_full ops1 N1 k) as F1. pose proof (run_full ops2 N2 k) as F2.
  destruct (b_data (run ops1) !! k) as [a|], (written ops1 !! k) as [es1|]; try done;
  destruct (b_data (run ops2) !! k) as [b|], (written ops2 !! k) as [es2|]; try done.
  split; [by apply F1|]. split; [by apply F2|]. intros rs z v. rewrite (R1 rs z v), (R2 rs z v). split.
  - intros (e & He & <-). assert (H : snap e ∈ map snap es2) by (apply Hs, elem_of_map; eauto).
    apply elem_of_map in H as (e' & E & He'). exists e'. split; [done|].
    by rewrite <- packed_snap, <- E, packed_snap.
  - intros (e & He & <-). assert (H : snap e ∈ map snap es1) by (apply Hs, elem_of_map; eauto).
    apply elem_of_map in H as (e' & E & He'). exists e'. split; [done|].
    by rewrite <- packed_snap, <- E, packed_snap.
Qed.
