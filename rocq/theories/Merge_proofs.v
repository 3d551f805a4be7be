(** Merging sorted streams: itertools' kmerge, and the bounded queue of streams of
    streaming_get_matching. *)
From Verif Require Import Prelude Lists F64 Heap Common Store Cmp_proofs.
From Coq Require Import Sorting.Sorted.
From Coq Require Import ZifyBool.

Lemma mjoin_insert {A} (ss : list (list A)) i a s :
  ss !! i = Some (a :: s) -> mjoin ss ≡ₚ a :: mjoin (<[i:=s]> ss).
Proof.
  revert i. induction ss as [|t ss IH]; intros [|i] H; simpl in *; [done..| |].
  - injection H as ->. done.
  - rewrite (IH i H). by rewrite Permutation_middle.
Qed.
Lemma mjoin_perm {A} (l1 l2 : list (list A)) : l1 ≡ₚ l2 -> mjoin l1 ≡ₚ mjoin l2.
Proof.
  induction 1 as [|x l1 l2 H IH|x y l|l1 l2 l3 H1 IH1 H2 IH2]; simpl; [done| | |].
  - by rewrite IH.
  - rewrite !(assoc_L (++)). by rewrite (comm (++) y x).
  - by rewrite IH1.
Qed.
Lemma sorted_perm_le {A} (R : A -> A -> Prop) a l :
  Forall (R a) l -> StronglySorted R l -> StronglySorted R (a :: l).
Proof. intros. by constructor. Qed.
Lemma Forall_insert_list {A} (P : A -> Prop) l i a : Forall P l -> P a -> Forall P (<[i:=a]> l).
Proof. intros. by apply Forall_insert. Qed.

(** ** kmerge *)
Definition desc {A} (cmp : A -> A -> comparison) (a b : A) : Prop := cmp b a <> Gt.
Definition gtb {A} (cmp : A -> A -> comparison) (a b : A) : bool :=
  match cmp a b with Gt => true | _ => false end.

Section kmerge.
  Context {A : Type} (cmp : A -> A -> comparison) (H : total_cmp cmp).

  Lemma head_ok_spec ss i :
    head_ok (gtb cmp) ss i = true <->
    exists a s, ss !! i = Some (a :: s) /\
      forall b t, b :: t ∈ ss -> cmp b a <> Gt.
  Proof.
    unfold head_ok. split.
    - destruct (ss !! i) as [[|a s]|]; [done| |done]. intros Hf. exists a, s. split; [done|].
      rewrite List.forallb_forall in Hf. intros b t Hin%elem_of_list_In%Hf. unfold gtb in Hin.
      by destruct (cmp b a).
    - intros (a & s & -> & Hf). apply List.forallb_forall. intros [|b t] Hin; [done|].
      apply elem_of_list_In, Hf in Hin. unfold gtb. by destruct (cmp b a).
  Qed.

  Lemma head_ok_exists ss : mjoin ss <> [] -> exists i, head_ok (gtb cmp) ss i = true.
  Proof.
    intros Hne.
    set (heads := omap (fun s : list A => head s) ss).
    assert (Hh : heads <> []).
    { unfold heads. clear -Hne. induction ss as [|[|a s] ss IH]; simpl in *; [done| |done]. by apply IH. }
    destruct (max_exists cmp H heads Hh) as (j & m & Hj & Hm).
    apply elem_of_list_lookup_2 in Hj. unfold heads in Hj. apply elem_of_list_omap in Hj as (s & Hs & Hhd).
    destruct s as [|a s]; [done|]. injection Hhd as ->.
    apply elem_of_list_lookup in Hs as [i Hi]. exists i. apply head_ok_spec. exists m, s.
    split; [done|]. intros b t Hin. rewrite Forall_forall in Hm. apply Hm.
    apply elem_of_list_omap. exists (b :: t). done.
  Qed.

  Lemma kmerge_step fuel tb ss :
    mjoin ss <> [] ->
    exists i a s, ss !! i = Some (a :: s) /\ (forall b t, b :: t ∈ ss -> cmp b a <> Gt) /\
      kmerge_loop (gtb cmp) (S fuel) tb ss = a :: kmerge_loop (gtb cmp) fuel tb (<[i:=s]> ss).
  Proof.
    intros Hne. cbn [kmerge_loop]. set (cands := List.filter _ _).
    assert (Hc : cands <> []).
    { destruct (head_ok_exists ss Hne) as [i Hi].
      assert (Hin : i ∈ cands).
      { apply elem_of_filter. split; [|done]. apply elem_of_seq.
        apply head_ok_spec in Hi as (a & s & Hs & _). apply lookup_lt_Some in Hs. lia. }
      intros E. rewrite E in Hin. by apply elem_of_nil in Hin. }
    destruct (cands !! _) as [i|] eqn:E.
    - apply elem_of_list_lookup_2 in E. apply elem_of_filter in E as [_ E].
      apply head_ok_spec in E as (a & s & Hs & Hmax). exists i, a, s. rewrite Hs. done.
    - apply lookup_ge_None_1 in E. exfalso.
      pose proof (Nat.mod_upper_bound (tb (S fuel)) (length cands)) as Hlt.
      destruct cands; [done|]. simpl length in *. lia.
  Qed.

  Lemma kmerge_loop_perm fuel : forall tb ss,
    (length (mjoin ss) <= fuel)%nat -> kmerge_loop (gtb cmp) fuel tb ss ≡ₚ mjoin ss.
  Proof.
    induction fuel as [|fuel IH]; intros tb ss Hl.
    - destruct (mjoin ss); [done|simpl in Hl; lia].
    - destruct (decide (mjoin ss = [])) as [E|E].
      + rewrite E. cbn [kmerge_loop].
        assert (Hnone : forall i a s, ss !! i = Some (a :: s) -> False).
        { intros i a s Hs. apply elem_of_list_lookup_2 in Hs. assert (Ha : a ∈ mjoin ss).
          { apply elem_of_mjoin. exists (a :: s). split; [left|done]. }
          rewrite E in Ha. by apply elem_of_nil in Ha. }
        destruct (_ !! _) as [i|]; [|done]. destruct (ss !! i) as [[|a s]|] eqn:Ei; [done| |done].
        by apply Hnone in Ei.
      + destruct (kmerge_step fuel tb ss E) as (i & a & s & Hi & _ & ->).
        pose proof (mjoin_insert ss i a s Hi) as Hp. rewrite Hp. constructor. apply IH.
        apply Permutation_length in Hp. simpl in Hp. lia.
  Qed.

  Lemma stream_heads ss :
    Forall (StronglySorted (desc cmp)) ss -> forall a,
    (forall b t, b :: t ∈ ss -> cmp b a <> Gt) -> Forall (desc cmp a) (mjoin ss).
  Proof.
    intros Hs a Ha. apply Forall_forall. intros x Hx. apply elem_of_mjoin in Hx as (l & Hx & Hl).
    rewrite Forall_forall in Hs. pose proof (Hs l Hl) as Hsl.
    destruct l as [|b t]; [by apply elem_of_nil in Hx|]. unfold desc.
    pose proof (Ha b t Hl) as Hb.
    apply elem_of_cons in Hx as [->|Hx]; [done|].
    inversion Hsl as [|? ? _ Hall]; subst. rewrite Forall_forall in Hall.
    eapply (tc_trans _ H); [by apply Hall|done].
  Qed.

  Lemma kmerge_loop_sorted fuel : forall tb ss,
    (length (mjoin ss) <= fuel)%nat -> Forall (StronglySorted (desc cmp)) ss ->
    StronglySorted (desc cmp) (kmerge_loop (gtb cmp) fuel tb ss).
  Proof.
    induction fuel as [|fuel IH]; intros tb ss Hl Hs.
    - constructor.
    - destruct (decide (mjoin ss = [])) as [E|E].
      + pose proof (kmerge_loop_perm (S fuel) tb ss Hl) as Hp. rewrite E in Hp.
        symmetry in Hp. apply Permutation_nil in Hp. rewrite Hp. constructor.
      + destruct (kmerge_step fuel tb ss E) as (i & a & s & Hi & Hmax & ->).
        pose proof (mjoin_insert ss i a s Hi) as Hp.
        assert (Hl' : (length (mjoin (<[i:=s]> ss)) <= fuel)%nat).
        { apply Permutation_length in Hp. simpl in Hp. lia. }
        assert (Hss : StronglySorted (desc cmp) s).
        { rewrite Forall_lookup in Hs. apply Hs in Hi. by inversion Hi. }
        assert (Hs' : Forall (StronglySorted (desc cmp)) (<[i:=s]> ss)) by by apply Forall_insert.
        constructor; [by apply IH|].
        rewrite (kmerge_loop_perm fuel tb _ Hl').
        pose proof (stream_heads ss Hs a Hmax) as Hall. rewrite Hp in Hall. by inversion Hall.
  Qed.
End kmerge.

Lemma kmerge_loop_ext {A} (f g : A -> A -> bool) fuel : forall tb ss,
  (forall a b, a ∈ mjoin ss -> b ∈ mjoin ss -> f a b = g a b) ->
  kmerge_loop f fuel tb ss = kmerge_loop g fuel tb ss.
Proof.
  induction fuel as [|fuel IH]; intros tb ss Hfg; [done|]. cbn [kmerge_loop].
  assert (Hc : List.filter (head_ok f ss) (seq 0 (length ss)) =
               List.filter (head_ok g ss) (seq 0 (length ss))).
  { apply List.filter_ext. intros i. unfold head_ok.
    destruct (ss !! i) as [[|a s]|] eqn:Ei; [done| |done].
    assert (Ha : a ∈ mjoin ss).
    { apply elem_of_mjoin. exists (a :: s). split; [left|by eapply elem_of_list_lookup_2]. }
    assert (Hgen : forall l : list (list A), (forall t, t ∈ l -> forall x, x ∈ t -> x ∈ mjoin ss) ->
      forallb (fun s0 => match s0 with [] => true | b :: _ => negb (f b a) end) l =
      forallb (fun s0 => match s0 with [] => true | b :: _ => negb (g b a) end) l).
    { induction l as [|t l IHl]; intros Hsub; [done|]. simpl. rewrite IHl by (intros; eapply Hsub; [by right|done]).
      f_equal. destruct t as [|b t]; [done|]. f_equal. apply Hfg; [|done]. eapply Hsub; [left|left]. }
    apply Hgen. intros t Ht x Hx. apply elem_of_mjoin. eauto. }
  rewrite Hc. destruct (_ !! _) as [i|]; [|done].
  destruct (ss !! i) as [[|a s]|] eqn:Ei; [done| |done]. f_equal. apply IH.
  pose proof (mjoin_insert ss i a s Ei) as Hp. intros x y Hx Hy. apply Hfg; rewrite Hp; by right.
Qed.

(** ** The queue of streams *)
Definition stream_of (q : match_entry * list match_entry) : list match_entry := q.1 :: q.2.
Definition streams (q : heap (match_entry * list match_entry)) : list (list match_entry) :=
  map stream_of (hp_items q).

(** The order of relevance then scoredist. *)
Definition key_cmp (a b : match_entry) : comparison :=
  ord_cmp (ge_relev (me_entry a)) (ge_relev (me_entry b)) <;>
  ord_cmp (me_scoredist a) (me_scoredist b).
Lemma total_cmp_key : total_cmp key_cmp.
Proof.
  apply total_cmp_then; [apply (total_cmp_proj (fun a => ge_relev (me_entry a))), total_cmp_ord|].
  apply (total_cmp_proj me_scoredist), total_cmp_ord.
Qed.
Lemma match_key_cmp a b : match_cmp a b <> Gt -> key_cmp a b <> Gt.
Proof.
  unfold match_cmp, key_cmp, cmp_then. destruct (ord_cmp _ _); [|done|done].
  by destruct (ord_cmp _ _).
Qed.

Lemma drain_perm tb fuel : forall q,
  (length (mjoin (streams q)) <= fuel)%nat -> drain_queue tb fuel q ≡ₚ mjoin (streams q).
Proof.
  induction fuel as [|fuel IH]; intros q Hl; cbn [drain_queue].
  - destruct (mjoin (streams q)); [done|simpl in Hl; lia].
  - destruct (decide (hp_items q = [])) as [E|E].
    + destruct (hp_max_idx queue_cmp tb q) as [i|] eqn:Ei.
      * apply hp_max_idx_ok in Ei as (a & Ha & _). by rewrite E in Ha.
      * unfold streams. rewrite E. done.
    + destruct (hp_max_idx_some queue_cmp total_cmp_queue tb q E) as [i Hi]. rewrite Hi.
      destruct (hp_max_idx_ok queue_cmp tb q i Hi) as ([e rest] & Ha & _). rewrite Ha.
      assert (Hs : streams q !! i = Some (e :: rest)).
      { unfold streams. rewrite list_lookup_fmap, Ha. done. }
      pose proof (mjoin_insert (streams q) i e rest Hs) as Hp.
      destruct rest as [|e' rest].
      * assert (Hs' : mjoin (<[i:=[]]> (streams q)) = mjoin (streams (hp_remove q i))).
        { unfold streams. cbn [hp_remove hp_items]. clear. revert i.
          induction (hp_items q) as [|x l IH]; intros [|i]; simpl; [done..|]. by rewrite IH. }
        rewrite Hs' in Hp. rewrite Hp. constructor. apply IH.
        apply Permutation_length in Hp. simpl in Hp. lia.
      * assert (Hs' : <[i:=e' :: rest]> (streams q) = streams (hp_replace q i (e', rest))).
        { unfold streams. cbn [hp_replace hp_items]. symmetry.
          exact (list_fmap_insert stream_of (hp_items q) i (e', rest)). }
        rewrite Hs' in Hp. rewrite Hp. constructor. apply IH.
        apply Permutation_length in Hp. simpl in Hp. lia.
Qed.

Lemma drain_sorted tb fuel : forall q,
  (length (mjoin (streams q)) <= fuel)%nat -> Forall (StronglySorted (desc key_cmp)) (streams q) ->
  StronglySorted (desc key_cmp) (drain_queue tb fuel q).
Proof.
  induction fuel as [|fuel IH]; intros q Hl Hsort.
  - constructor.
  - cbn [drain_queue]. destruct (hp_max_idx queue_cmp tb q) as [i|] eqn:Hi; [|constructor].
    destruct (hp_max_idx_ok queue_cmp tb q i Hi) as ([e rest] & Ha & Hmax). rewrite Ha.
    assert (Hs : streams q !! i = Some (e :: rest)).
    { unfold streams. rewrite list_lookup_fmap, Ha. done. }
    pose proof (mjoin_insert (streams q) i e rest Hs) as Hp.
    assert (Hall : Forall (desc key_cmp e) (mjoin (streams q))).
    { apply (stream_heads key_cmp total_cmp_key); [done|]. intros b t Hin.
      apply elem_of_list_fmap in Hin as ([b' t'] & E & Hin). injection E as <- <-.
      rewrite Forall_forall in Hmax. apply match_key_cmp. exact (Hmax (b, t) Hin). }
    rewrite Hp in Hall. inversion Hall as [|? ? _ Hall']; subst.
    assert (Hrest : StronglySorted (desc key_cmp) rest).
    { rewrite Forall_lookup in Hsort. apply Hsort in Hs. by inversion Hs. }
    destruct rest as [|e' rest].
    + assert (Hs' : mjoin (<[i:=[]]> (streams q)) = mjoin (streams (hp_remove q i))).
      { unfold streams. cbn [hp_remove hp_items]. clear. revert i.
        induction (hp_items q) as [|x l IH]; intros [|i]; simpl; [done..|]. by rewrite IH. }
      rewrite Hs' in Hp, Hall'.
      assert (Hl' : (length (mjoin (streams (hp_remove q i))) <= fuel)%nat)
        by (apply Permutation_length in Hp; simpl in Hp; lia).
      constructor; [|by rewrite (drain_perm tb fuel _ Hl')]. apply IH; [done|].
      unfold streams. cbn [hp_remove hp_items]. clear -Hsort. unfold streams in Hsort.
      rewrite Forall_forall in *. intros l Hin. apply elem_of_list_fmap in Hin as (x & -> & Hin).
      apply Hsort. apply elem_of_list_fmap. exists x. split; [done|].
      revert Hin. generalize (hp_items q) as it. clear. intros it. revert i.
      induction it as [|y it IH]; intros [|i] Hin; simpl in *; [by apply elem_of_nil in Hin..|by right|].
      apply elem_of_cons in Hin as [->|Hin]; [left|right; by eapply IH].
    + assert (Hs' : <[i:=e' :: rest]> (streams q) = streams (hp_replace q i (e', rest))).
      { unfold streams. cbn [hp_replace hp_items]. symmetry.
          exact (list_fmap_insert stream_of (hp_items q) i (e', rest)). }
      rewrite Hs' in Hp, Hall'.
      assert (Hl' : (length (mjoin (streams (hp_replace q i (e', rest)))) <= fuel)%nat)
        by (apply Permutation_length in Hp; simpl in Hp; lia).
      constructor; [|by rewrite (drain_perm tb fuel _ Hl')]. apply IH; [done|].
      rewrite <- Hs'. by apply Forall_insert.
Qed.

(** One step of the loop on an already decoded stream. *)
Definition q_push (tb : tiebreak) (max : N) (q : heap (match_entry * list match_entry))
    (es : list match_entry) : res (heap (match_entry * list match_entry)) :=
  match es with
  | [] => Ok q
  | e :: es' =>
      if max <=? hp_len q then
        match hp_peek_min queue_cmp tb q with
        | None => Panic
        | Some worst =>
            match queue_cmp worst (e, es') with
            | Lt => Ok (hp_replace_min queue_cmp tb q (e, es'))
            | _ => Ok q
            end
        end
      else Ok (hp_push q (e, es'))
  end.

Definition non_empty {A} (l : list A) : bool := match l with [] => false | _ => true end.
(** [dropped] are the streams not in the queue: there are some only when the queue
    is full, and none of them starts better than a queued stream. *)
Definition queue_inv (max : N) (q : heap (match_entry * list match_entry))
    (seen dropped : list (list match_entry)) : Prop :=
  streams q ++ dropped ≡ₚ List.filter non_empty seen /\
  hp_len q <= max /\
  (dropped <> [] -> hp_len q = max) /\
  (forall a s b t, a :: s ∈ dropped -> b :: t ∈ streams q -> match_cmp a b <> Gt).

Lemma elem_streams q b t : b :: t ∈ streams q <-> (b, t) ∈ hp_items q.
Proof.
  unfold streams. rewrite elem_of_list_fmap. split.
  - intros ([b' t'] & E & Hin). injection E as <- <-. done.
  - intros Hin. exists (b, t). done.
Qed.

Lemma q_push_inv tb max q seen dropped es :
  1 <= max -> queue_inv max q seen dropped ->
  exists q' dropped', q_push tb max q es = Ok q' /\ queue_inv max q' (seen ++ [es]) dropped'.
Proof.
  intros Hmax (Hp & Hlen & Hfull & Hle). destruct es as [|e es].
  - exists q, dropped. split; [done|]. split; [|done].
    rewrite List.filter_app. simpl. by rewrite app_nil_r.
  - cbn [q_push]. destruct (N.leb_spec max (hp_len q)) as [Hq|Hq].
    + assert (Hne : hp_items q <> []).
      { intros E. unfold hp_len in Hq. rewrite E in Hq. simpl in Hq. lia. }
      destruct (hp_replace_min_ok queue_cmp total_cmp_queue tb q (e, es) Hne)
        as ([m ms] & rest & Hp1 & Hp2 & Hmin & Hpk).
      rewrite Hpk.
      assert (Hst : streams q ≡ₚ (m :: ms) :: map stream_of rest) by (unfold streams; by rewrite Hp1).
      assert (Hminle : forall b t, b :: t ∈ streams q -> match_cmp m b <> Gt).
      { intros b t Hin. apply elem_streams in Hin. rewrite Forall_forall in Hmin.
        exact (Hmin _ Hin). }
      assert (Hfilt : List.filter non_empty (seen ++ [e :: es]) =
                      List.filter non_empty seen ++ [e :: es]) by by rewrite List.filter_app.
      destruct (queue_cmp (m, ms) (e, es)) eqn:Ec.
      * exists q, ((e :: es) :: dropped). split; [done|]. split; [|split; [done|split]].
        -- rewrite Hfilt, <- Hp. rewrite <- app_assoc. apply Permutation_app_head.
           apply Permutation_cons_append.
        -- intros _. lia.
        -- intros a s b t Ha Hb. apply elem_of_cons in Ha as [Ea|Ha]; [|by eapply Hle].
           injection Ea as -> ->. pose proof (Hminle b t Hb) as H1.
           unfold queue_cmp in Ec. cbn [fst] in Ec.
           apply (tc_eq_sym _ total_cmp_match) in Ec.
           rewrite (tc_eq_l _ total_cmp_match e m b Ec). done.
      * exists (hp_replace_min queue_cmp tb q (e, es)), ((m :: ms) :: dropped).
        split; [done|].
        assert (Hst' : streams (hp_replace_min queue_cmp tb q (e, es)) ≡ₚ (e :: es) :: map stream_of rest)
          by (unfold streams; by rewrite Hp2).
        assert (Hlen' : hp_len (hp_replace_min queue_cmp tb q (e, es)) = hp_len q).
        { unfold hp_len. apply Permutation_length in Hp1, Hp2. simpl in *. lia. }
        unfold queue_cmp in Ec. cbn [fst] in Ec.
        split; [|split; [lia|split; [lia|]]].
        -- rewrite Hfilt, <- Hp, Hst', Hst. rewrite <- Permutation_middle. simpl.
           constructor. apply Permutation_cons_append.
        -- intros a s b t Ha Hb. rewrite Hst' in Hb.
           assert (Hmb : match_cmp m b <> Gt).
           { apply elem_of_cons in Hb as [Eb|Hb]; [injection Eb as -> ->; by rewrite Ec|].
             apply (Hminle b t). rewrite Hst. by right. }
           apply elem_of_cons in Ha as [Ea|Ha]; [by injection Ea as -> ->|].
           apply (tc_trans _ total_cmp_match a m b); [|done].
           apply (Hle a s m ms Ha). rewrite Hst. left.
      * exists q, ((e :: es) :: dropped). split; [done|]. split; [|split; [done|split]].
        -- rewrite Hfilt, <- Hp. rewrite <- app_assoc. apply Permutation_app_head.
           apply Permutation_cons_append.
        -- intros _. lia.
        -- intros a s b t Ha Hb. apply elem_of_cons in Ha as [Ea|Ha]; [|by eapply Hle].
           injection Ea as -> ->. pose proof (Hminle b t Hb) as H1.
           unfold queue_cmp in Ec. cbn [fst] in Ec.
           apply (tc_gt_lt _ total_cmp_match) in Ec.
           apply (tc_trans _ total_cmp_match e m b); [by rewrite Ec|done].
    + exists (hp_push q (e, es)), dropped. split; [done|].
      assert (Hd : dropped = []).
      { destruct dropped as [|x d]; [done|]. exfalso. assert (hp_len q = max) by by apply Hfull. lia. }
      subst dropped.
      assert (Hst : streams (hp_push q (e, es)) = streams q ++ [e :: es]).
      { unfold streams. cbn [hp_push hp_items]. by rewrite map_app. }
      split; [|split; [|split; [done|]]].
      * rewrite Hst, List.filter_app, <- Hp. simpl. by rewrite !app_nil_r.
      * unfold hp_len in *. cbn [hp_push hp_items]. rewrite app_length. simpl length. lia.
      * intros a s b t Ha. by apply elem_of_nil in Ha.
Qed.

Lemma q_fold_inv tb max ess : 1 <= max -> forall q seen dropped,
  queue_inv max q seen dropped ->
  exists q' dropped', res_foldl (q_push tb max) q ess = Ok q' /\
    queue_inv max q' (seen ++ ess) dropped'.
Proof.
  intros Hmax. induction ess as [|es ess IH]; intros q seen dropped Hi.
  - exists q, dropped. rewrite app_nil_r. done.
  - destruct (q_push_inv tb max q seen dropped es Hmax Hi) as (q1 & d1 & E1 & Hi1).
    destruct (IH q1 (seen ++ [es]) d1 Hi1) as (q2 & d2 & E2 & Hi2).
    exists q2, d2. cbn [res_foldl]. rewrite E1. cbn [res_bind].
    rewrite <- app_assoc in Hi2. done.
Qed.
Lemma queue_inv_empty max : queue_inv max hp_empty [] [].
Proof.
  split; [done|]. split; [unfold hp_len; simpl; lia|]. split; [done|].
  intros a s b t Ha. by apply elem_of_nil in Ha.
Qed.

Lemma mjoin_non_empty {A} (l : list (list A)) : mjoin (List.filter non_empty l) = mjoin l.
Proof. induction l as [|[|a s] l IH]; simpl; [done|done|]. by rewrite IH. Qed.

Lemma queue_size_streams q : queue_size q = length (mjoin (streams q)).
Proof. done. Qed.

(** Everything is emitted when the queue never fills up. *)
Lemma q_run_all tb max ess :
  N.of_nat (length ess) <= max -> 1 <= max ->
  exists q, res_foldl (q_push tb max) hp_empty ess = Ok q /\
    drain_queue tb (queue_size q) q ≡ₚ mjoin ess /\
    streams q ≡ₚ List.filter non_empty ess.
Proof.
  intros Hn Hmax. destruct (q_fold_inv tb max ess Hmax hp_empty [] [] (queue_inv_empty max))
    as (q & dropped & E & Hp & Hlen & Hfull & _).
  exists q. split; [done|]. simpl in Hp.
  assert (Hd : dropped = []).
  { destruct dropped as [|x d]; [done|]. exfalso.
    assert (Hq : hp_len q = max) by by apply Hfull.
    apply Permutation_length in Hp. unfold streams in Hp. rewrite app_length, map_length in Hp.
    simpl in Hp. unfold hp_len in Hq.
    assert (length (List.filter non_empty ess) <= length ess)%nat.
    { clear. induction ess as [|[|a s] ess IH]; simpl; lia. }
    lia. }
  subst dropped. rewrite app_nil_r in Hp. split; [|done].
  rewrite drain_perm by by rewrite queue_size_streams.
  rewrite (mjoin_perm _ _ Hp). by rewrite mjoin_non_empty.
Qed.

(** Whatever the limit: the emitted matches are some of those of the records, and at
    least one match of each kept record is there. *)
Lemma q_run_some tb max ess : 1 <= max ->
  exists q rest, res_foldl (q_push tb max) hp_empty ess = Ok q /\
    mjoin ess ≡ₚ drain_queue tb (queue_size q) q ++ rest /\
    (rest <> [] -> max <= N.of_nat (length (drain_queue tb (queue_size q) q))).
Proof.
  intros Hmax. destruct (q_fold_inv tb max ess Hmax hp_empty [] [] (queue_inv_empty max))
    as (q & dropped & E & Hp & Hlen & Hfull & _).
  exists q, (mjoin dropped). split; [done|]. simpl in Hp.
  assert (Hd : drain_queue tb (queue_size q) q ≡ₚ mjoin (streams q)) by
    by rewrite drain_perm by by rewrite queue_size_streams.
  split.
  - rewrite Hd. rewrite <- (mjoin_non_empty ess), <- (mjoin_perm _ _ Hp). clear.
    induction (streams q) as [|a l IH]; [done|]. simpl. rewrite IH. by rewrite app_assoc.
  - intros Hr. assert (Hl : hp_len q = max) by (apply Hfull; intros ->; done).
    rewrite (Permutation_length Hd). rewrite <- Hl. unfold hp_len, streams. clear.
    induction (hp_items q) as [|[a s] l IH]; [simpl; lia|]. simpl. rewrite app_length. simpl in IH. lia.
Qed.

(** The first [max] emitted are best. *)
Lemma filter_length_sub {A} (f : A -> bool) (l1 l2 : list A) :
  l1 ⊆+ l2 -> (length (List.filter f l1) <= length (List.filter f l2))%nat.
Proof.
  induction 1 as [|x l1 l2 H IH|x y l|x l1 l2 H IH|l1 l2 l3 H1 IH1 H2 IH2]; simpl; try lia.
  - destruct (f x); simpl; lia.
  - destruct (f x), (f y); simpl; lia.
  - destruct (f x); simpl; lia.
Qed.
Lemma heads_submseteq (ss : list (match_entry * list match_entry)) :
  map fst ss ⊆+ mjoin (map stream_of ss).
Proof.
  induction ss as [|[e es] ss IH]; simpl; [constructor|].
  apply submseteq_skip. by apply submseteq_inserts_l.
Qed.
Lemma filter_all {A} (f : A -> bool) l : (forall x, x ∈ l -> f x = true) -> List.filter f l = l.
Proof.
  induction l as [|a l IH]; intros H; simpl; [done|]. rewrite H by left. f_equal. apply IH.
  intros; apply H; by right.
Qed.
Lemma filter_none {A} (f : A -> bool) l : (forall x, x ∈ l -> f x = false) -> List.filter f l = [].
Proof.
  induction l as [|a l IH]; intros H; simpl; [done|]. rewrite H by left. apply IH.
  intros; apply H; by right.
Qed.
Lemma filter_length_le {A} (f : A -> bool) l : (length (List.filter f l) <= length l)%nat.
Proof. induction l as [|a l IH]; simpl; [lia|]. destruct (f a); simpl; lia. Qed.

Lemma q_run_top tb max ess :
  1 <= max -> Forall (StronglySorted (desc key_cmp)) ess ->
  exists q rest, res_foldl (q_push tb max) hp_empty ess = Ok q /\
    let out := drain_queue tb (queue_size q) q in
    StronglySorted (desc key_cmp) out /\
    mjoin ess ≡ₚ out ++ rest /\
    (rest <> [] -> max <= N.of_nat (length out)) /\
    forall a b, a ∈ take (N.to_nat max) out -> b ∈ rest -> key_cmp b a <> Gt.
Proof.
  intros Hmax Hs. destruct (q_fold_inv tb max ess Hmax hp_empty [] [] (queue_inv_empty max))
    as (q & dropped & E & Hp & Hlen & Hfull & Hle).
  simpl in Hp. exists q, (mjoin dropped). split; [done|]. cbv zeta.
  assert (Hsub : forall s, s ∈ streams q ++ dropped -> StronglySorted (desc key_cmp) s).
  { intros s Hin. rewrite Hp in Hin. apply elem_of_filter in Hin as [Hin _].
    rewrite Forall_forall in Hs. auto. }
  pose proof (drain_perm tb (queue_size q) q ltac:(by rewrite queue_size_streams)) as Hdp.
  assert (Hsorted : StronglySorted (desc key_cmp) (drain_queue tb (queue_size q) q)).
  { apply drain_sorted; [by rewrite queue_size_streams|]. apply Forall_forall. intros s Hin.
    apply Hsub, elem_of_app. by left. }
  set (out := drain_queue tb (queue_size q) q) in *.
  split; [done|]. split; [|split].
  - rewrite Hdp. rewrite <- (mjoin_non_empty ess), <- (mjoin_perm _ _ Hp).
    clear. induction (streams q) as [|s l IH]; simpl; [done|]. by rewrite IH, app_assoc.
  - intros Hr. assert (Hd : dropped <> []) by (by destruct dropped).
    pose proof (Hfull Hd) as Hq. rewrite Hdp. unfold streams. unfold hp_len in Hq. rewrite <- Hq.
    pose proof (submseteq_length _ _ (heads_submseteq (hp_items q))) as Hl. rewrite map_length in Hl. lia.
  - intros a b Ha Hb Hgt.
    apply elem_of_mjoin in Hb as ([|h s] & Hb & Hd); [by apply elem_of_nil in Hb|].
    assert (Hq : hp_len q = max). { apply Hfull. intros ->. by apply elem_of_nil in Hd. }
    assert (Hbh : key_cmp b h <> Gt).
    { assert (Hss : StronglySorted (desc key_cmp) (h :: s)) by (apply Hsub, elem_of_app; by right).
      inversion Hss as [|? ? _ Hall]; subst. apply elem_of_cons in Hb as [->|Hb].
      - by rewrite (tc_refl _ total_cmp_key).
      - rewrite Forall_forall in Hall. by apply Hall. }
    apply elem_of_list_lookup in Ha as [i Hi]. apply lookup_take_Some in Hi as [Hi Hlt].
    set (f := fun x => match key_cmp x a with Gt => true | _ => false end).
    (* every queued stream starts better than [a] *)
    assert (Hheads : List.filter f (map fst (hp_items q)) = map fst (hp_items q)).
    { apply filter_all. intros x Hx. apply elem_of_map in Hx as ([x' t] & -> & Hx). cbn [fst].
      assert (Hhx : key_cmp h x' <> Gt).
      { apply match_key_cmp. apply (Hle h s x' t Hd). by apply elem_streams. }
      unfold f. apply (tc_gt_lt _ total_cmp_key) in Hgt.
      assert (Hax : key_cmp a x' = Lt).
      { apply (tc_lt_le_trans _ total_cmp_key a b x' Hgt).
        apply (tc_trans _ total_cmp_key b h x'); done. }
      apply (tc_gt_lt _ total_cmp_key) in Hax. by rewrite Hax. }
    pose proof (filter_length_sub f _ _ (heads_submseteq (hp_items q))) as Hcount.
    rewrite Hheads, map_length in Hcount.
    change (map stream_of (hp_items q)) with (streams q) in Hcount.
    assert (Hout : length (List.filter f (mjoin (streams q))) = length (List.filter f out)).
    { apply Permutation_length, filter_perm. by symmetry. }
    rewrite Hout in Hcount.
    rewrite <- (take_drop i out), List.filter_app, app_length in Hcount.
    rewrite (filter_none f (drop i out)) in Hcount.
    + simpl in Hcount. pose proof (filter_length_le f (take i out)) as Hl. rewrite take_length in Hl.
      unfold hp_len in Hq. lia.
    + intros x Hx. unfold f.
      assert (Hxa : key_cmp x a <> Gt); [|by destruct (key_cmp x a)].
      apply elem_of_list_lookup in Hx as [j Hj]. rewrite lookup_drop in Hj.
      destruct j as [|j].
      * rewrite Nat.add_0_r in Hj. assert (x = a) by congruence. subst x.
        by rewrite (tc_refl _ total_cmp_key).
      * apply (StronglySorted_lookup _ _ i (i + S j) a x Hsorted); [lia|done|done].
Qed.
