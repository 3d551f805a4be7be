(** Property C100: recorded requests are replayed as they were. *)
From stdpp Require Import strings.
From Coq Require Import Strings.String Strings.Ascii.
From Verif Require Import Prelude Lists F64 Common Builder Spatial Store Spec Spec_match Finish_proofs Query Coalesce Stackable Tree Dump History_proofs Props_dump Examples Replay Spec_replay.
From Coq Require Import Sorting.Sorted.
From Coq Require Import ZifyBool.
Local Open Scope N_scope.
#[local] Arguments String.append : simpl nomatch.

(** ** Names *)
Lemma length_app_s (a b : string) : String.length (a +:+ b) = (String.length a + String.length b)%nat.
Proof. induction a as [|x a IH]; [done|]. cbn [String.append String.length]. rewrite IH. reflexivity. Qed.
Lemma app_cancel (a b t : string) : (a +:+ t = b +:+ t)%string -> a = b.
Proof.
  revert b. induction a as [|x a IH]; intros [|y b] H; cbn in H; [done| | |].
  - apply (f_equal String.length) in H. cbn in H. rewrite length_app_s in H. lia.
  - apply (f_equal String.length) in H. cbn in H. rewrite length_app_s in H. lia.
  - injection H as -> H. f_equal. by apply IH.
Qed.
Lemma base_plain s : has_slash s = false -> base_name s = s.
Proof. destruct s; [done|]. cbn [base_name]. by intros ->. Qed.
Lemma has_slash_app a b : has_slash (a +:+ b) = has_slash a || has_slash b.
Proof. induction a as [|c a IH]; [done|]. cbn [has_slash String.append]. rewrite IH. by rewrite orb_assoc. Qed.
Lemma plain_slash s : plain s -> has_slash s = false.
Proof.
  induction s as [|c s IH]; [done|]. intros (_ & H & Hs). cbn [has_slash]. rewrite IH by done. rewrite orb_false_r.
  destruct (Ascii.eqb_spec c "/"%char); done.
Qed.
Lemma base_dir dir s : has_slash s = false -> base_name (dir +:+ "/" +:+ s)%string = s.
Proof.
  intros H. induction dir as [|c dir IH]; [cbn; by apply base_plain|].
  change ((String c dir +:+ "/" +:+ s)%string) with (String c (dir +:+ "/" +:+ s)%string). cbn [base_name].
  assert (E : has_slash (String c (dir +:+ "/" +:+ s)) = true); [|by rewrite E]. cbn [has_slash]. rewrite has_slash_app. cbn. by rewrite !orb_true_r.
Qed.
Lemma base_of path name : names path name -> base_name path = (name +:+ ".gridstore.rocksdb")%string.
Proof.
  intros [Hp H]. assert (Hs : has_slash (name +:+ ".gridstore.rocksdb") = false) by (rewrite has_slash_app, plain_slash by done; done).
  destruct H as [->|[dir ->]]; [by apply base_plain|by apply base_dir].
Qed.
(** Replacing replaces all occurrences, whatever the names. *)
Lemma prefix_app pat : forall s, String.prefix pat s = true <-> exists b, s = (pat +:+ b)%string.
Proof.
  induction pat as [|c pat IH]; intros s.
  - split; [intros _; by exists s|]. by destruct s.
  - destruct s as [|x s]; [split; [done|by intros [b H]]|]. cbn [String.prefix]. destruct (ascii_dec c x) as [->|Hne].
    + rewrite IH. split; intros [b H]; exists b; [by rewrite H|]. cbn [String.append] in H. by injection H.
    + split; [done|]. intros [b H]. cbn [String.append] in H. injection H as <- _. done.
Qed.
Lemma substring_all b : forall n, (String.length b <= n)%nat -> String.substring 0 n b = b.
Proof. induction b as [|c b IH]; intros [|n] H; cbn in *; try done; try lia. f_equal. apply IH. lia. Qed.
Lemma substring_rest pat b : forall n, (String.length b <= n)%nat -> String.substring (String.length pat) n (pat +:+ b) = b.
Proof. induction pat as [|c pat IH]; intros n H; [by apply substring_all|]. cbn [String.length String.append String.substring]. by apply IH. Qed.
Lemma replace_in_ok pat rep : pat <> EmptyString -> forall n s, (String.length s <= n)%nat -> replaced pat rep s (replace_in n pat rep s).
Proof.
  intros Hp. induction n as [|n IH]; intros s Hs.
  - destruct s; [|cbn in Hs; lia]. cbn. constructor. intros a b H. apply (f_equal String.length) in H. rewrite !length_app_s in H. destruct pat; [done|cbn in H; lia].
  - destruct s as [|c s].
    { cbn. constructor. intros a b H. apply (f_equal String.length) in H. rewrite !length_app_s in H. destruct pat; [done|cbn in H; lia]. }
    cbn [replace_in]. destruct (String.prefix pat (String c s)) eqn:E.
    + apply prefix_app in E as [b E]. assert (Hl : (String.length b <= n)%nat).
      { apply (f_equal String.length) in E. rewrite length_app_s in E. cbn in E, Hs. destruct pat; [done|cbn in E; lia]. }
      rewrite E, substring_rest by (rewrite length_app_s; lia). apply (once_more pat rep EmptyString b); [intros; cbn; lia|]. by apply IH.
    + assert (Hno : forall b, String c s <> (pat +:+ b)%string). { intros b H. assert (E' : String.prefix pat (String c s) = true) by (apply prefix_app; by exists b). congruence. }
      specialize (IH s ltac:(cbn in Hs; lia)). clear Hs E. generalize dependent (replace_in n pat rep s). intros u IH.
      destruct IH as [s Hn|a b t Hmin Ht].
      * constructor. intros [|x a] b H; [by eapply Hno|]. cbn [String.append] in H. injection H as _ H. by eapply Hn.
      * apply (once_more pat rep (String c a) b); [|done]. intros [|x a'] b' H; [by destruct (Hno b')|].
        cbn [String.append] in H. injection H as _ H. cbn. apply Hmin in H. lia.
Qed.
Lemma app_split (a b a' b' : string) : (a +:+ b = a' +:+ b')%string -> String.length a = String.length a' -> a = a' /\ b = b'.
Proof.
  revert a'. induction a as [|c a IH]; intros [|c' a'] H Hl; cbn in Hl; try done. cbn [String.append] in H. injection H as -> H.
  destruct (IH a' H ltac:(lia)) as [-> ->]. done.
Qed.
Theorem C100_replace :
  forall pat rep s t, pat <> EmptyString -> replaced pat rep s t <-> t = replace pat rep s.
Proof.
  intros pat rep s t Hp. split; [|intros ->; by apply replace_in_ok].
  assert (Hu : forall t', replaced pat rep s t' -> forall t, replaced pat rep s t -> t = t'); [|intros H; eapply Hu; [|exact H]; by apply replace_in_ok].
  intros t' H. induction H as [s Hn|a b t' Hmin Ht IH]; intros t2 H2; inversion H2 as [s' Hn' E1 E2|a2 b2 t3 Hmin2 Ht2 E1 E2]; subst; try done.
  - by destruct (Hn a2 b2).
  - by destruct (Hn' a b).
  - pose proof (Hmin _ _ (eq_sym E1)) as L1. pose proof (Hmin2 _ _ E1) as L2. destruct (app_split _ _ _ _ E1 ltac:(lia)) as [-> E].
    apply app_split in E as [_ ->]; [|done]. by rewrite (IH _ Ht2).
Qed.
Print Assumptions C100_replace.
Example C100_replace_ex : replace ".dat.lz4" ".rocksdb" "a.dat.lz4.dat.lz4.b" = "a.rocksdb.rocksdb.b"%string.
Proof. reflexivity. Qed.

(** A pattern that begins with a dot is not found in a plain name. *)
Lemma replace_plain pat rep name t : plain name -> (exists p, pat = String "."%char p) ->
  replace pat rep (name +:+ t) = (name +:+ replace pat rep t)%string.
Proof.
  intros Hn [p ->]. unfold replace. rewrite length_app_s. induction name as [|c name IH]; [done|].
  destruct Hn as (Hc & _ & Hn). cbn [String.append String.length Nat.add replace_in].
  destruct (String.prefix (String "." p) (String c (name +:+ t))) eqn:E; [|f_equal; by apply IH].
  cbn [String.prefix] in E. destruct (ascii_dec "."%char c) as [E'|]; [by destruct Hc|done].
Qed.
Lemma names_files path name : names path name ->
  datafile_of path = (name +:+ ".gridstore.dat.lz4")%string /\ splits_of (datafile_of path) = (name +:+ ".gridstore.splits.lz4")%string /\
  index_of (datafile_of path) = (name +:+ ".gridstore.rocksdb")%string.
Proof.
  intros H. pose proof H as [Hp _]. unfold datafile_of. rewrite (base_of _ _ H), replace_plain by (done || by eexists).
  change (replace ".rocksdb" ".dat.lz4" ".gridstore.rocksdb") with ".gridstore.dat.lz4"%string. split; [done|].
  unfold splits_of, index_of. by rewrite !replace_plain by (done || by eexists).
Qed.
Lemma names_unique path n n' : names path n -> names path n' -> n = n'.
Proof. intros H H'. apply base_of in H, H'. rewrite H in H'. by eapply app_cancel. Qed.

(** ** Fields *)
Lemma setbits l i : forall b, N.testbit (foldl N.setbit b l) i = true <-> N.testbit b i = true \/ i ∈ l.
Proof.
  induction l as [|n l IH]; intros b; cbn [foldl]; [rewrite elem_of_nil; tauto|].
  rewrite IH, N.setbit_iff, elem_of_cons. split; [intros [[->|?]|?]; tauto|intros [?|[->|?]]; tauto].
Qed.
Lemma bits_ok o l n : (forall i, N.testbit n i = true <-> i ∈ l) -> bits_of o l = n.
Proof.
  intros H. apply N.bits_inj. intros i. unfold bits_of. apply eq_true_iff_eq. rewrite setbits, H, N.bits_0. split.
  - intros [?|Hi]; [done|]. rewrite (ho_perm o) in Hi. apply elem_of_list_In, nodup_In in Hi. by apply elem_of_list_In.
  - intros Hi. right. rewrite (ho_perm o). apply elem_of_list_In, nodup_In. by apply elem_of_list_In.
Qed.

(** ** Reading the lines *)
Section lines.
Context {R Q : Type} (o : hash_oracle) (b : bucket R) (file : placeholder -> string) (boxes : placeholder -> res (list bbox)) (score : placeholder -> f64).
Context (rec : asked -> placeholder -> Prop) (X : list asked) (target : asked -> store) (I : indexes -> Prop) (present : asked -> indexes -> Prop).
Hypothesis Hpath : forall x h, rec x h -> ph_path h = x.1.
Hypothesis Hopen : forall x h ix, x ∈ X -> rec x h -> I ix -> exists ix' bb d,
  ensure_store o b ix (file h) = Ok ix' /\ boxes h = Ok bb /\ ix' !! index_of (file h) = Some d /\
  open_store d (ph_zoom h) (ph_type h) (ph_radius h) bb (score h) = target x /\
  I ix' /\ present x ix' /\ forall y, present y ix -> present y ix'.
Hypothesis Hsame : forall x y, x ∈ X -> y ∈ X -> x.1 = y.1 -> target x = target y /\ forall ix, present x ix -> present y ix.
Definition replayed (x : asked) : subquery := Subquery (target x) (sq_idx x.2) (sq_nonoverlap x.2) (sq_weight x.2) (sq_mask x.2) (sq_keys x.2).
Hypothesis Hfields : forall x h, rec x h -> subquery_of o (target x) h = replayed x.
Definition state_ok (st : gmap string store * indexes) : Prop :=
  I st.2 /\ forall x s, x ∈ X -> st.1 !! x.1 = Some s -> s = target x /\ present x st.2.
Lemma store_for_ok x h st : x ∈ X -> rec x h -> state_ok st -> exists st',
  store_for o b file boxes score st h = Ok (target x, st') /\ state_ok st' /\ present x st'.2 /\ forall y, present y st.2 -> present y st'.2.
Proof.
  intros Hx Hr [Hi Hst]. unfold store_for. rewrite (Hpath _ _ Hr). destruct (st.1 !! x.1) as [s|] eqn:E.
  - destruct (Hst x s Hx E) as [-> Hp]. by exists st.
  - destruct (Hopen x h st.2 Hx Hr Hi) as (ix' & bb & d & -> & -> & Hd & Ht & Hi' & Hp & Hm). cbn [res_bind]. rewrite Hd, Ht.
    eexists. split; [reflexivity|]. split; [|by split]. split; [done|]. intros y s Hy Hs. cbn [fst snd] in *.
    destruct (decide (y.1 = x.1)) as [Exy|Exy].
    + rewrite Exy, lookup_insert in Hs. injection Hs as <-. destruct (Hsame x y Hx Hy (eq_sym Exy)) as [-> Hpy]. split; [done|by apply Hpy].
    + rewrite lookup_insert_ne in Hs by done. destruct (Hst y s Hy Hs) as [-> Hpy]. split; [done|by apply Hm].
Qed.
Lemma stack_for_ok xs hs : forall st, Forall2 rec xs hs -> (forall x, x ∈ xs -> x ∈ X) -> state_ok st -> exists st',
  stack_for o b file boxes score st hs = Ok (map replayed xs, st') /\ state_ok st' /\ (forall x, x ∈ xs -> present x st'.2) /\
  forall y, present y st.2 -> present y st'.2.
Proof.
  intros st HF. revert st. induction HF as [|x h xs hs Hr HF IH]; intros st HX Hst.
  { exists st. split; [done|]. split; [done|]. split; [|done]. intros x Hx. by apply elem_of_nil in Hx. }
  destruct (store_for_ok x h st (HX x ltac:(by left)) Hr Hst) as (st1 & E1 & Hst1 & Hp1 & Hm1).
  destruct (IH st1 ltac:(intros y Hy; apply HX; by right) Hst1) as (st2 & E2 & Hst2 & Hp2 & Hm2).
  exists st2. cbn [stack_for]. rewrite E1. cbn [res_bind fst snd]. rewrite E2. cbn [res_bind fst snd]. rewrite (Hfields x h Hr). split; [done|]. split; [done|]. split.
  - intros y Hy. apply elem_of_cons in Hy as [->|Hy]; [by apply Hm2|by apply Hp2].
  - intros y Hy. by apply Hm2, Hm1.
Qed.
Lemma lines_ok (ls : list (option (list placeholder * Q))) : forall reqs st, records_of rec reqs ls -> (forall x, x ∈ all_asked reqs -> x ∈ X) -> state_ok st -> exists st',
  prepare_lines o b file boxes score st ls = Ok (map (fun r => (map replayed r.1, r.2)) reqs, st') /\ state_ok st' /\
  (forall x, x ∈ all_asked reqs -> present x st'.2) /\ forall y, present y st.2 -> present y st'.2.
Proof.
  induction ls as [|[[hs q]|] ls IH]; intros reqs st HF HX Hst.
  - inversion HF; subst. exists st. split; [done|]. split; [done|]. split; [|done]. intros x Hx. by apply elem_of_nil in Hx.
  - unfold records_of in HF. cbn in HF. inversion HF as [|[xs q'] ? reqs' ? [Hh Hq] HF']; subst. cbn [fst snd] in *. subst q'.
    destruct (stack_for_ok xs hs st Hh ltac:(intros x Hx; apply HX; unfold all_asked; cbn; apply elem_of_app; by left) Hst) as (st1 & E1 & Hst1 & Hp1 & Hm1).
    destruct (IH reqs' st1 HF' ltac:(intros x Hx; apply HX; unfold all_asked; cbn; apply elem_of_app; by right) Hst1) as (st2 & E2 & Hst2 & Hp2 & Hm2).
    exists st2. cbn [prepare_lines]. rewrite E1. cbn [res_bind fst snd]. rewrite E2. cbn [res_bind fst snd]. split; [done|]. split; [done|]. split.
    + intros y Hy. unfold all_asked in Hy. cbn in Hy. apply elem_of_app in Hy as [Hy|Hy]; [by apply Hm2, Hp1|by apply Hp2].
    + intros y Hy. by apply Hm2, Hm1.
  - by apply IH.
Qed.
End lines.

(** ** Requests *)
Lemma dumped_load {R : Type} (b : bucket R) name d o2 : dumped b name d -> exists f,
  bk_grids b !! (name +:+ ".gridstore.dat.lz4")%string = Some f.1 /\ bk_splits b !! (name +:+ ".gridstore.splits.lz4")%string = Some f.2 /\
  load_db o2 f ∅ = Ok d.
Proof.
  intros (o & o' & ops & f & Hh & Hne & Hs & Hf & Hd & Hg & Hsp). destruct (C80_identical o o' o2 ops d Hh Hne Hs Hf) as (f' & Hd' & Hl).
  assert (f' = f) as -> by congruence. by exists f.
Qed.
Lemma dumped_unique {R : Type} (b : bucket R) name d d' : dumped b name d -> dumped b name d' -> d = d'.
Proof.
  intros H H'. destruct (dumped_load b name d id_oracle H) as ([f1 f2] & A1 & A2 & A3). destruct (dumped_load b name d' id_oracle H') as ([g1 g2] & B1 & B2 & B3).
  cbn [fst snd] in *. congruence.
Qed.
Lemma ensure_dumped {R : Type} (b : bucket R) name d o2 ix path : names path name -> dumped b name d ->
  (forall d', ix !! (name +:+ ".gridstore.rocksdb")%string = Some d' -> d' = d) ->
  exists ix', ensure_store o2 b ix (datafile_of path) = Ok ix' /\ ix' !! (name +:+ ".gridstore.rocksdb")%string = Some d /\
    forall n, n <> (name +:+ ".gridstore.rocksdb")%string -> ix' !! n = ix !! n.
Proof.
  intros Hn Hd Hix. destruct (names_files _ _ Hn) as (E1 & E2 & E3). unfold ensure_store. rewrite E3.
  destruct (ix !! (name +:+ ".gridstore.rocksdb")%string) as [d'|] eqn:E.
  { exists ix. split; [done|]. split; [|done]. by rewrite E, (Hix d'). }
  destruct (dumped_load b name d o2 Hd) as ([g sp] & F1 & F2 & F3). cbn [fst snd] in *. unfold download.
  rewrite E2, E1. rewrite F1. cbn [res_bind]. rewrite F2. cbn [res_bind]. rewrite F3. cbn [res_bind].
  eexists. split; [reflexivity|]. split; [by rewrite lookup_insert|]. intros n Hne. by rewrite lookup_insert_ne.
Qed.

(** Let the bucket have the dumps of the stores and a recording of the requests. Then the
    requests that are prepared are the ones that were made, on stores with the same contents
    and settings. The indexes are there afterwards and no other directory is touched. *)
Theorem C100_replayed :
  forall o b ix name reqs ls,
  bk_requests b !! name = Some ls -> records_of recorded reqs ls ->
  (forall x, x ∈ all_asked reqs -> on_dump b x) -> one_store_per_path (all_asked reqs) -> fit_indexes (all_asked reqs) ix ->
  exists ix', prepare_phrasematches o b ix name = Ok (map (fun r => (map snd r.1, r.2)) reqs, ix') /\ all_indexes (all_asked reqs) ix' /\
    forall n, (forall x nm, x ∈ all_asked reqs -> names x.1 nm -> n <> (nm +:+ ".gridstore.rocksdb")%string) -> ix' !! n = ix !! n.
Proof.
  intros o b ix name reqs ls Hls Hrec Hdump Hone Hfit.
  assert (Hdb : forall x, x ∈ all_asked reqs -> exists nm, names x.1 nm /\ dumped b nm (st_db (sq_store x.2)) /\
    sq_store x.2 = open_store (st_db (sq_store x.2)) (st_zoom (sq_store x.2)) (st_type_id (sq_store x.2)) (st_radius (sq_store x.2)) (st_bboxes (sq_store x.2)) (st_max_score (sq_store x.2))).
  { intros x Hx. destruct (Hdump x Hx) as (nm & d & Hn & Hd & Hs). cbn zeta in Hs. exists nm. split; [done|].
    assert (E : st_db (sq_store x.2) = d) by (rewrite Hs; done). rewrite E. by split. }
  set (I := fun i : indexes => fit_indexes (all_asked reqs) i /\
    forall n, (forall x nm, x ∈ all_asked reqs -> names x.1 nm -> n <> (nm +:+ ".gridstore.rocksdb")%string) -> i !! n = ix !! n).
  set (present := fun (x : asked) (i : indexes) => forall nm, names x.1 nm -> i !! (nm +:+ ".gridstore.rocksdb")%string = Some (st_db (sq_store x.2))).
  destruct (lines_ok (Q := match_opts) o b (fun h => datafile_of (ph_path h)) (fun h => Ok (ph_bboxes h)) ph_max_score recorded (all_asked reqs) (fun x => sq_store x.2) I present) with (ls := ls) (reqs := reqs) (st := ((∅ : gmap string store), ix))
    as (st' & E & [[Hf' Hframe] _] & Hp & _); try done.
  - intros x h Hr. by destruct Hr as (E & _).
  - intros x h i Hx Hr [Hfi Hfr]. destruct (Hdb x Hx) as (nm & Hn & Hd & Hs). destruct Hr as (E1 & E2 & E3 & E4 & E5 & E6 & _).
    destruct (ensure_dumped b nm (st_db (sq_store x.2)) o i x.1 Hn Hd) as (i' & Ei & Hi' & Hfr').
    { intros d' Hd'. by eapply Hfi. }
    rewrite E1. exists i', (ph_bboxes h), (st_db (sq_store x.2)). split; [done|]. split; [done|]. destruct (names_files _ _ Hn) as (_ & _ & ->). split; [done|].
    split; [by rewrite E2, E3, E4, E5, E6|]. 
    assert (Hsame : forall y nm', y ∈ all_asked reqs -> names y.1 nm' -> (nm' +:+ ".gridstore.rocksdb")%string = (nm +:+ ".gridstore.rocksdb")%string -> st_db (sq_store y.2) = st_db (sq_store x.2)).
    { intros y nm' Hy Hn' En. apply app_cancel in En. subst nm'. destruct (Hdb y Hy) as (ny & Hny & Hdy & _). rewrite (names_unique _ _ _ Hny Hn') in Hdy. by eapply dumped_unique. }
    split; [split|split].
    + intros y nm' d' Hy Hn' Hl. destruct (decide ((nm' +:+ ".gridstore.rocksdb")%string = (nm +:+ ".gridstore.rocksdb")%string)) as [En|En].
      * rewrite En in Hl. rewrite (Hsame y nm' Hy Hn' En). congruence.
      * rewrite Hfr' in Hl by done. by eapply Hfi.
    + intros n Hnn. rewrite Hfr' by (exact (Hnn x nm Hx Hn)). by apply Hfr.
    + intros nm' Hn'. by rewrite (names_unique _ _ _ Hn' Hn).
    + intros y Hpy nm' Hn'. destruct (decide ((nm' +:+ ".gridstore.rocksdb")%string = (nm +:+ ".gridstore.rocksdb")%string)) as [En|En]; [|rewrite Hfr' by done; by apply Hpy].
      specialize (Hpy nm' Hn'). rewrite En in Hpy |- *. rewrite Hi'. f_equal. symmetry. exact (Hfi x nm _ Hx Hn Hpy).
  - intros x y Hx Hy Exy. pose proof (Hone x y Hx Hy Exy) as Es. split; [done|]. intros i Hi nm Hn. rewrite <- Es. apply Hi. by rewrite Exy.
  - intros x h (_ & _ & _ & _ & _ & _ & E1 & E2 & E3 & E4 & E5). unfold subquery_of, replayed. rewrite E1, E2, E3, E4, (bits_ok o _ _ E5). done.
  - exists st'.2. unfold prepare_phrasematches, download. rewrite Hls. cbn [res_bind]. rewrite E. cbn [res_bind fst snd]. split.
    + f_equal. f_equal. apply map_ext. intros r. f_equal. apply map_ext. intros x. unfold replayed. by destruct (x.2).
    + split; [|done]. intros x nm Hx Hn. by apply Hp.
Qed.
Print Assumptions C100_replayed.

(** So doing it again, in another process on the same machine, gives the same. *)
Theorem C100_again :
  forall o o' b ix name reqs ls,
  bk_requests b !! name = Some ls -> records_of recorded reqs ls ->
  (forall x, x ∈ all_asked reqs -> on_dump b x) -> one_store_per_path (all_asked reqs) -> fit_indexes (all_asked reqs) ix ->
  exists out ix', prepare_phrasematches o b ix name = Ok (out, ix') /\ prepare_phrasematches o' b ix' name = Ok (out, ix').
Proof.
  intros o o' b ix name reqs ls Hls Hrec Hdump Hone Hfit.
  destruct (C100_replayed o b ix name reqs ls Hls Hrec Hdump Hone Hfit) as (ix' & E & Hall & _).
  assert (Hfit' : fit_indexes (all_asked reqs) ix'). { intros x nm d Hx Hn Hd. rewrite (Hall x nm Hx Hn) in Hd. congruence. }
  destruct (C100_replayed o' b ix' name reqs ls Hls Hrec Hdump Hone Hfit') as (ix'' & E' & Hall' & Hfr).
  eexists _, ix'. split; [exact E|]. rewrite E'. f_equal. f_equal. apply map_eq. intros n.
  destruct (decide (n ∈ map (fun x => index_of (datafile_of x.1)) (all_asked reqs))) as [Hn|Hn].
  - apply elem_of_map in Hn as (x & -> & Hx). destruct (Hdump x Hx) as (nm & d & Hnm & _). destruct (names_files _ _ Hnm) as (_ & _ & ->).
    by rewrite (Hall x nm Hx Hnm), (Hall' x nm Hx Hnm).
  - apply Hfr. intros x nm Hx Hnm ->. apply Hn. apply elem_of_map. exists x. split; [|done]. by destruct (names_files _ _ Hnm) as (_ & _ & ->).
Qed.
Print Assumptions C100_again.

(** ** Stacking looks at stores only for type and zoom *)
Section stores.
Context (g : store -> store).
Hypothesis Hg : forall s, st_zoom (g s) = st_zoom s /\ st_type_id (g s) = st_type_id s.
Notation ws := (with_store g).
Definition bin_with (b : pm_bin) : pm_bin := PmBin (map ws (pb_pms b)) (pb_max b) (pb_after b).
Definition keyed_with (tb : N * pm_bin) : N * pm_bin := (tb.1, bin_with tb.2).
Lemma bin_add_with pm m : bin_add (ws pm) (map keyed_with m) = map keyed_with (bin_add pm m).
Proof.
  induction m as [|[t b] m IH]; cbn [bin_add map keyed_with with_store sq_store fst snd]; rewrite (proj2 (Hg _)); [done|].
  destruct (N.compare _ t); [|done|].
  - cbn [map]. f_equal. unfold keyed_with, bin_with. cbn. by rewrite List.map_app.
  - cbn [map]. f_equal. rewrite <- IH. done.
Qed.
Lemma isert_with x l : insert_sorted pm_leb (ws x) (map ws l) = map ws (insert_sorted pm_leb x l).
Proof. induction l as [|y l IH]; [done|]. cbn. change (pm_leb (ws x) (ws y)) with (pm_leb x y). destruct (pm_leb x y); [done|]. cbn. by rewrite IH. Qed.
Lemma isort_with l : isort pm_leb (map ws l) = map ws (isort pm_leb l).
Proof. induction l as [|x l IH]; [done|]. cbn. by rewrite IH, isert_with. Qed.
Lemma set_after_with bs : set_after (map bin_with bs) = (map bin_with (set_after bs).1, (set_after bs).2).
Proof. induction bs as [|b bs IH]; [done|]. cbn. rewrite IH. by destruct (set_after bs). Qed.
Lemma make_bins_with pms : make_bins (map ws pms) = map bin_with (make_bins pms).
Proof.
  unfold make_bins. assert (E : forall m, foldl (fun m pm => bin_add pm m) (map keyed_with m) (map ws pms) = map keyed_with (foldl (fun m pm => bin_add pm m) m pms)).
  { induction pms as [|pm pms IH]; intros m; [done|]. cbn [map foldl]. by rewrite bin_add_with, IH. }
  rewrite (E [] : foldl _ [] _ = _). rewrite List.map_map.
  erewrite (map_ext _ (fun tb => bin_with (PmBin (isort pm_leb (pb_pms tb.2)) (pb_max tb.2) (pb_after tb.2)))); [by rewrite <- (List.map_map _ bin_with), set_after_with|].
  intros [t b]. cbn. unfold bin_with. cbn. by rewrite isort_with.
Qed.
Notation nw := (node_with g).
Notation aw := (arena_with g).
Lemma cull_with a : cull_min (aw a) = aw (cull_min a).
Proof.
  unfold cull_min. cbn [am_min am_relev arena_with]. destruct (relev_find _ _) as [[count idxs]|]; [|done]. unfold arena_with. cbn. f_equal.
  generalize (am_nodes a). induction idxs as [|i idxs IH]; intros m; [done|]. cbn [foldl]. by rewrite <- fmap_delete, IH.
Qed.
Lemma arena_add_with a n : arena_add (aw a) (nw n) = ((arena_add a n).1, aw (arena_add a n).2).
Proof.
  unfold arena_add. change (is_full (aw a)) with (is_full a). change (is_leaf (nw n)) with (is_leaf n).
  cbn [sn_max_relev node_with am_min am_next am_relev am_leaves am_soft_max am_panicked am_nodes arena_with].
  destruct (is_full a && _); [done|]. destruct (am_leaves a <? am_soft_max a).
  - cbn [fst snd]. f_equal. destruct (ord_lt _ _); unfold arena_with; cbn; by rewrite fmap_insert.
  - destruct (ord_lt _ _); [|cbn [fst snd]; f_equal; unfold arena_with; cbn; by rewrite fmap_insert].
    destruct (relev_find _ _) as [[c ix]|]; cbn [fst snd]; [|f_equal; unfold arena_with; cbn; by rewrite fmap_insert].
    f_equal. rewrite <- fmap_insert. destruct (am_soft_max a <=? _); [|done]. by rewrite <- cull_with.
Qed.
Lemma attach_with n c a : attach (nw n) (nw c) (aw a) = (nw (attach n c a).1, aw (attach n c a).2).
Proof. unfold attach. rewrite arena_add_with. destruct (arena_add a c) as [[i|] a']; done. Qed.
Lemma visit_with bins : forall r n a, visit (map bin_with bins) r (nw n) (aw a) = (nw (visit bins r n a).1, aw (visit bins r n a).2).
Proof.
  induction bins as [|b bins IH]; intros r n a; [done|]. cbn [map visit].
  set (F := fun (bs : list pm_bin) (na : node * arena) (pm : subquery) => let '(n, a) := na in if can_stack n pm then
              let target := fadd r (sq_weight pm) in if is_full a && fltb (fadd target (pb_after b)) (am_min a) then (n, a)
              else let '(child, a1) := visit bs target (child_node n pm target) a in attach n child a1 else (n, a)).
  change (pb_after (bin_with b)) with (pb_after b). change (pb_pms (bin_with b)) with (map ws (pb_pms b)).
  assert (HF : forall l n a, foldl (F (map bin_with bins)) (nw n, aw a) (map ws l) = (nw (foldl (F bins) (n, a) l).1, aw (foldl (F bins) (n, a) l).2)).
  { induction l as [|pm l IHl]; intros n1 a1; [done|]. cbn [map foldl].
    assert (E : F (map bin_with bins) (nw n1, aw a1) (ws pm) = (nw (F bins (n1, a1) pm).1, aw (F bins (n1, a1) pm).2)).
    { unfold F. change (can_stack (nw n1) (ws pm)) with (can_stack n1 pm). destruct (can_stack n1 pm); [|done]. cbn zeta.
      change (sq_weight (ws pm)) with (sq_weight pm). change (is_full (aw a1)) with (is_full a1). change (am_min (aw a1)) with (am_min a1).
      destruct (is_full a1 && _); [done|].
      assert (Ec : child_node (nw n1) (ws pm) (fadd r (sq_weight pm)) = nw (child_node n1 pm (fadd r (sq_weight pm)))).
      { unfold child_node, node_with. cbn. by rewrite (proj1 (Hg _)). }
      rewrite Ec, IH. destruct (visit bins _ _ a1) as [c a2]. cbn [fst snd]. apply attach_with. }
    rewrite E, IHl. by destruct (F bins (n1, a1) pm). }
  specialize (HF (pb_pms b) n a). unfold F in HF. cbn [bin_with pb_pms pb_after]. rewrite HF. destruct (foldl _ (n, a) (pb_pms b)) as [n' a']. cbn [fst snd]. apply IH.
Qed.
Lemma collapse_add_with pm acc : collapse_add (ws pm) (map ws acc) = res_map (map ws) (collapse_add pm acc).
Proof.
  induction acc as [|q acc IH]; [done|]. cbn [map collapse_add]. change (same_group (ws pm) (ws q)) with (same_group pm q).
  destruct (same_group pm q).
  - change (first_key (ws pm)) with (first_key pm). by destruct (first_key pm).
  - rewrite IH. by destruct (collapse_add pm acc).
Qed.
Lemma collapse_with_from pms : forall acc, res_foldl (fun acc pm => collapse_add pm acc) (map ws acc) (map ws pms) =
  res_map (map ws) (res_foldl (fun acc pm => collapse_add pm acc) acc pms).
Proof.
  induction pms as [|pm pms IH]; intros acc; [done|]. cbn [map res_foldl]. rewrite collapse_add_with. destruct (collapse_add pm acc) as [acc'| | |]; try done. apply IH.
Qed.
End stores.

(** Take any other stores of the same types and zooms: the groups and the tree are the same,
    but for the stores in them. *)
Theorem C100_stores :
  forall g pms, (forall s, st_zoom (g s) = st_zoom s /\ st_type_id (g s) = st_type_id s) ->
  collapse_phrasematches (map (with_store g) pms) = res_map (map (with_store g)) (collapse_phrasematches pms) /\
  stackable (map (with_store g) pms) = tree_with g (stackable pms).
Proof.
  intros g pms Hg. split; [exact (collapse_with_from g pms [])|]. unfold stackable. rewrite (make_bins_with g Hg).
  change root_node with (node_with g root_node) at 1. assert (E : arena_new = arena_with g arena_new) by (unfold arena_with; cbn; by rewrite fmap_empty).
  rewrite E at 1. rewrite (visit_with g Hg). by destruct (visit _ _ _ _).
Qed.
Print Assumptions C100_stores.

(** The other tool opens all stores on the data of one index, with the types and zooms that
    were recorded. The trees are those of the requests that were made, but for the stores. *)
Definition one_name : string := "aa-country-both_wvus-fa5c865008-e06f993377".
Definition one_index : string := "aa-country-both_wvus-fa5c865008-e06f993377.gridstore.rocksdb".
Lemma one_named : names (one_name +:+ ".gridstore.rocksdb")%string one_name.
Proof. split; [repeat split; discriminate|by left]. Qed.
Lemma one_files : one_datafile = datafile_of (one_name +:+ ".gridstore.rocksdb")%string /\ index_of one_datafile = one_index.
Proof. split; vm_compute; reflexivity. Qed.
Lemma global_ok p z : z < 32 -> exists bb, global_bbox_for_zoom p z = Ok bb.
Proof.
  intros H. unfold global_bbox_for_zoom, ushl. pose proof H as H'. apply N.ltb_lt in H'. rewrite H'. cbn [res_bind].
  rewrite N.shiftl_1_l, N.mod_small by (by apply N.pow_lt_mono_r). unfold usub.
  assert (E : (1 <=? 2 ^ z) = true). { apply N.leb_le. pose proof (N.pow_nonzero 2 z ltac:(done)). lia. }
  rewrite E. cbn [res_bind]. by eexists.
Qed.
Definition stand_in (p : profile) (d : gmap (list N) (list N)) (s : store) : store :=
  open_store d (st_zoom s) (st_type_id s) (st_radius s) (ok_or [] (global_bbox_for_zoom p (st_zoom s))) f_one.
Theorem C100_stackable :
  forall p o b ix name reqs ls d,
  bk_requests b !! name = Some ls -> records_of partly_recorded reqs ls ->
  (forall x, x ∈ all_asked reqs -> st_zoom (sq_store x.2) < 32) -> one_store_per_path (all_asked reqs) ->
  dumped b one_name d -> (forall d', ix !! one_index = Some d' -> d' = d) ->
  exists g ix', (forall s, st_zoom (g s) = st_zoom s /\ st_type_id (g s) = st_type_id s /\ st_radius (g s) = st_radius s /\ st_db (g s) = d) /\
    prepare_stackable_phrasematches p o b ix name = Ok (map (fun r => map (fun x => with_store g x.2) r.1) reqs, ix') /\
    forall r groups, r ∈ reqs -> collapse_phrasematches (map snd r.1) = Ok groups ->
      exists groups', collapse_phrasematches (map (fun x => with_store g x.2) r.1) = Ok groups' /\ stackable groups' = tree_with g (stackable groups).
Proof.
  intros p o b ix name reqs ls d Hls Hrec Hz Hone Hd Hix. exists (stand_in p d). destruct one_files as [Ef Ei].
  set (I := fun i : gmap string (gmap (list N) (list N)) => forall d', i !! one_index = Some d' -> d' = d).
  destruct (lines_ok (Q := match_opts) o b (fun _ => one_datafile) (fun h => global_bbox_for_zoom p (ph_zoom h)) (fun _ => f_one) partly_recorded (all_asked reqs)
    (fun x => stand_in p d (sq_store x.2)) I (fun _ _ => True)) with (ls := ls) (reqs := reqs) (st := ((∅ : gmap string store), ix)) as (st' & E & _); try done.
  - intros x h Hr. by destruct Hr as (E & _).
  - intros x h i Hx (E1 & E2 & E3 & E4 & _) Hi. destruct (ensure_dumped b one_name d o i _ one_named Hd Hi) as (i' & Eq & Hi' & _). rewrite <- Ef in Eq.
    destruct (global_ok p (st_zoom (sq_store x.2)) (Hz x Hx)) as [bb Hbb]. exists i', bb, d. split; [done|]. rewrite E2. split; [done|]. rewrite Ei. split; [exact Hi'|].
    unfold stand_in. rewrite Hbb, E3, E4. split; [done|]. split; [|done]. intros d' Hd'. change one_index with (one_name +:+ ".gridstore.rocksdb")%string in Hd'. congruence.
  - intros x y Hx Hy Exy. by rewrite (Hone x y Hx Hy Exy).
  - intros x h (_ & _ & _ & _ & E1 & E2 & E3 & E4 & E5). unfold subquery_of, replayed. rewrite E1, E2, E3, E4, (bits_ok o _ _ E5). done.
  - exists st'.2. split; [done|]. split.
    + unfold prepare_stackable_phrasematches, download. rewrite Hls. cbn [res_bind]. rewrite E. cbn [res_bind fst snd]. by rewrite List.map_map.
    + intros r groups Hr Hc. rewrite <- (List.map_map snd (with_store (stand_in p d))). exists (map (with_store (stand_in p d)) groups).
      destruct (C100_stores (stand_in p d) (map snd r.1)) as [-> _]; [done|]. rewrite Hc. split; [done|]. by apply C100_stores.
Qed.
Print Assumptions C100_stackable.

(** ** Examples *)
Definition r_d : gmap (list N) (list N) := ok_or ∅ (finish id_oracle (run ex_ops) ∅).
Definition r_f : dump_file := ok_or ([], []) (dump_db id_oracle r_d).
Definition r_ops : list op := [OpInsert (1, 1) [ex_e1]].
Definition r_d2 : gmap (list N) (list N) := ok_or ∅ (finish id_oracle (run r_ops) ∅).
Definition r_f2 : dump_file := ok_or ([], []) (dump_db id_oracle r_d2).
Definition r_path (s : string) : string := ("/data/" +:+ s +:+ ".gridstore.rocksdb")%string.
Definition r_q (d : gmap (list N) (list N)) (zoom type idx : N) : subquery :=
  Subquery (open_store d zoom type (f_of_N 40) [BBox 0 0 63 63] f_one) idx 6 f_one (2 ^ idx) [MatchKeyWithId (MatchKey (Exact 1) 1) false idx 0].
Definition r_h (path : string) (zoom type idx : N) : placeholder :=
  Placeholder path zoom type (f_of_N 40) [BBox 0 0 63 63] f_one idx [2; 1; 2] f_one [MatchKeyWithId (MatchKey (Exact 1) 1) false idx 0] (2 ^ idx).
Definition r_o : match_opts := MatchOpts None None 6.
Definition r_reqs : list (list asked * match_opts) :=
  [([(r_path "us-place", r_q r_d 6 1 0); (r_path "us-region", r_q r_d2 6 0 3)], r_o); ([(r_path "us-place", r_q r_d 6 1 4)], r_o)].
Definition r_lines : list (option request) :=
  [Some ([r_h (r_path "us-place") 6 1 0; r_h (r_path "us-region") 6 0 3], r_o); None; Some ([r_h (r_path "us-place") 6 1 4], r_o)].
Definition r_bucket (ls : list (option request)) : bucket request :=
  Bucket (<["us-place.gridstore.dat.lz4" := r_f.1]> (<["us-region.gridstore.dat.lz4" := r_f2.1]> {[one_datafile := r_f2.1]}))
         (<["us-place.gridstore.splits.lz4" := r_f.2]> (<["us-region.gridstore.splits.lz4" := r_f2.2]> {[(one_name +:+ ".gridstore.splits.lz4")%string := r_f2.2]}))
         {["requests" := ls]}.
Lemma r_dumped ls : dumped (r_bucket ls) "us-place" r_d /\ dumped (r_bucket ls) "us-region" r_d2 /\ dumped (r_bucket ls) one_name r_d2.
Proof.
  assert (H1 : exists o o' ops f, history_ok ops /\ Forall op_nonempty ops /\ StronglySorted (fun a b => a < b) (loaded ops) /\ finish o (run ops) ∅ = Ok r_d /\ dump_db o' r_d = Ok f /\ f = r_f).
  { destruct C80_example as (A1 & A2 & A3 & d & f & A4 & A5 & _). exists id_oracle, id_oracle, ex_ops, f. unfold r_f, r_d. rewrite A4. cbn [ok_or]. rewrite A5. done. }
  assert (H2 : exists o o' ops f, history_ok ops /\ Forall op_nonempty ops /\ StronglySorted (fun a b => a < b) (loaded ops) /\ finish o (run ops) ∅ = Ok r_d2 /\ dump_db o' r_d2 = Ok f /\ f = r_f2).
  { assert (Hh : history_ok r_ops) by (apply history_okb_ok; vm_compute; reflexivity). assert (Hn : Forall op_nonempty r_ops) by (repeat constructor; done).
    assert (Hs : StronglySorted (fun a b => a < b) (loaded r_ops)) by constructor. destruct (history_finish id_oracle r_ops ∅ Hh) as [d A4].
    destruct (C80_identical id_oracle id_oracle id_oracle r_ops d Hh Hn Hs A4) as (f & A5 & _). exists id_oracle, id_oracle, r_ops, f. unfold r_f2, r_d2. rewrite A4. cbn [ok_or]. rewrite A5. done. }
  destruct H1 as (o & o' & ops & f & B1 & B2 & B3 & B4 & B5 & ->), H2 as (o1 & o1' & ops1 & f1 & D1 & D2 & D3 & D4 & D5 & ->).
  split; [|split]; [exists o, o', ops, r_f|exists o1, o1', ops1, r_f2..]; repeat (split; [done|]); split; reflexivity.
Qed.
Example C100_ex :
  let b := r_bucket r_lines in
  bk_requests b !! "requests"%string = Some r_lines /\ records_of recorded r_reqs r_lines /\ records_of partly_recorded r_reqs r_lines /\
  (forall x, x ∈ all_asked r_reqs -> on_dump b x) /\ (forall x, x ∈ all_asked r_reqs -> st_zoom (sq_store x.2) < 32) /\
  one_store_per_path (all_asked r_reqs) /\ fit_indexes (all_asked r_reqs) ∅ /\ dumped b one_name r_d2.
Proof.
  assert (Hbits : forall i, N.testbit 6 i = true <-> i ∈ [2; 1; 2]).
  { intros i. rewrite !elem_of_cons, elem_of_nil. change 6 with (N.setbit (N.setbit 0 2) 1). rewrite N.setbit_eqb, N.setbit_eqb, N.bits_0.
    rewrite orb_false_r, orb_true_iff, !N.eqb_eq. naive_solver. }
  assert (Hall : forall (P : asked -> Prop), P (r_path "us-place", r_q r_d 6 1 0) -> P (r_path "us-region", r_q r_d2 6 0 3) -> P (r_path "us-place", r_q r_d 6 1 4) ->
    forall x, x ∈ all_asked r_reqs -> P x).
  { intros P H1 H2 H3 x Hx. change (x ∈ [(r_path "us-place", r_q r_d 6 1 0); (r_path "us-region", r_q r_d2 6 0 3); (r_path "us-place", r_q r_d 6 1 4)]) in Hx.
    apply elem_of_cons in Hx as [->|Hx]; [exact H1|]. apply elem_of_cons in Hx as [->|Hx]; [exact H2|]. apply elem_of_cons in Hx as [->|Hx]; [exact H3|]. by apply elem_of_nil in Hx. }
  assert (Hname : forall n, plain n -> names (r_path n) n).
  { intros n Hn. split; [done|]. right. by exists "/data"%string. }
  destruct (r_dumped r_lines) as (D1 & D2 & D3).
  split; [reflexivity|]. split; [|split; [|split; [|split; [|split; [|split; [|exact D3]]]]]].
  - assert (H : forall path d zoom type i, recorded (path, r_q d zoom type i) (r_h path zoom type i)) by (intros; repeat (split; [reflexivity|]); exact Hbits).
    constructor; [split; [|reflexivity]|constructor; [split; [|reflexivity]|constructor]]; repeat (apply Forall2_cons; split; [apply H|]); constructor.
  - assert (H : forall path d zoom type i, partly_recorded (path, r_q d zoom type i) (r_h path zoom type i)) by (intros; repeat (split; [reflexivity|]); exact Hbits).
    constructor; [split; [|reflexivity]|constructor; [split; [|reflexivity]|constructor]]; repeat (apply Forall2_cons; split; [apply H|]); constructor.
  - apply Hall; [exists "us-place"%string, r_d|exists "us-region"%string, r_d2|exists "us-place"%string, r_d];
      (split; [apply Hname; repeat split; done|]; split; [assumption|]; reflexivity).
  - apply Hall; reflexivity.
  - intros x y Hx Hy. revert y Hy. revert x Hx.
    apply (Hall (fun x => forall y, y ∈ all_asked r_reqs -> x.1 = y.1 -> sq_store x.2 = sq_store y.2)).
    + apply (Hall (fun y => _ = y.1 -> _ = sq_store y.2)); intros E; first [reflexivity|discriminate E].
    + apply (Hall (fun y => _ = y.1 -> _ = sq_store y.2)); intros E; first [reflexivity|discriminate E].
    + apply (Hall (fun y => _ = y.1 -> _ = sq_store y.2)); intros E; first [reflexivity|discriminate E].
  - intros x name d _ _ H. by rewrite lookup_empty in H.
Qed.

(** The hypotheses that could go wrong in use. The store of a path is the one opened for the
    first subquery with it: a later one recorded with other settings (here a zoom of 5) is
    answered with the first one's. *)
Theorem C100_settings_refuted :
  exists b ix name ls, bk_requests b !! name = Some ls /\
    map (fun l => map ph_zoom l.1) (omap id ls) = [[6]; [5]] /\
    res_map (fun r => map (fun x => map (fun q => st_zoom (sq_store q)) x.1) r.1) (prepare_phrasematches id_oracle b ix name) = Ok [[6]; [6]].
Proof.
  exists (r_bucket [Some ([r_h (r_path "us-place") 6 1 0], r_o); Some ([r_h (r_path "us-place") 5 1 0], r_o)]), ∅, "requests"%string. eexists.
  split; [reflexivity|]. split; [reflexivity|]. vm_compute. reflexivity.
Qed.
Print Assumptions C100_settings_refuted.
(** And an index that is there is taken as it is, whatever it holds: after a load that was
    interrupted all later replays answer from the part that was written. *)
Definition r_part : gmap (list N) (list N) := apply_puts (take 1 (ok_or [] (finish_puts id_oracle (load_builder r_f)))) ∅.
Theorem C100_interrupted_refuted :
  exists b name path ix r ix', dumped b name r_d /\ names path name /\
    (exists n puts, finish_puts id_oracle (load_builder r_f) = Ok puts /\ ix = {[(name +:+ ".gridstore.rocksdb")%string := apply_puts (take n puts) ∅]}) /\
    prepare_phrasematches id_oracle b ix "requests" = Ok (r, ix') /\
    map (fun x => map (fun q => ok_or None (get (sq_store q) (4, 0))) x.1) r = [[None]] /\
    is_Some (ok_or None (get (open_store r_d 6 1 (f_of_N 40) [] f_one) (4, 0))).
Proof.
  set (b := r_bucket [Some ([r_h (r_path "us-place") 6 1 0], r_o)]). set (ix := {[("us-place" +:+ ".gridstore.rocksdb")%string := r_part]} : gmap string (gmap (list N) (list N))).
  exists b, "us-place"%string, (r_path "us-place"), ix.
  exists [([Subquery (open_store r_part 6 1 (f_of_N 40) [BBox 0 0 63 63] f_one) 0 6 f_one 1 [MatchKeyWithId (MatchKey (Exact 1) 1) false 0 0]], r_o)], ix.
  split; [apply r_dumped|]. split; [split; [repeat split; done|right; by exists "/data"%string]|]. split; [|split; [|split]].
  - exists 1%nat, (ok_or [] (finish_puts id_oracle (load_builder r_f))). split; [vm_compute; reflexivity|reflexivity].
  - reflexivity.
  - vm_compute. reflexivity.
  - vm_compute. by eexists.
Qed.
Print Assumptions C100_interrupted_refuted.
