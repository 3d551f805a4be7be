(** Proofs about the Node bindings and about collapsing. *)
From Verif Require Import Prelude Lists F64 Heap Common Builder Store Query Coalesce Stackable Tree Native
  Spec Spec_native Cmp_proofs Float_proofs Bits_proofs.
From Coq Require Import Sorting.Sorted.
From Coq Require Import ZifyBool.
Local Open Scope N_scope.

(** ** Numbers *)
Lemma cast_uint_ok max v : as_uint max v (cast_uint max v).
Proof.
  destruct v as [[]|[]| |[] m e]; try (constructor; fail). cbn [cast_uint].
  constructor. unfold integer_part. destruct e as [|k|k]; cbn [Z.opp Z.to_N].
  - rewrite N.shiftl_0_r. change (Z.to_N (- 0)) with 0. change (2 ^ 0) with 1. lia.
  - rewrite N.shiftl_mul_pow2. change (Z.to_N (- Z.pos k)) with 0. change (2 ^ 0) with 1. lia.
  - rewrite N.shiftr_div_pow2. change (Z.to_N (- Z.neg k)) with (N.pos k). change (2 ^ 0) with 1.
    pose proof (N.div_mod (N.pos m) (2 ^ N.pos k)) as H. pose proof (N.mod_lt (N.pos m) (2 ^ N.pos k)) as H'.
    assert (2 ^ N.pos k <> 0) by (apply N.pow_nonzero; done).
    specialize (H ltac:(done)). specialize (H' ltac:(done)).
    generalize dependent (N.pos m / 2 ^ N.pos k). generalize dependent (N.pos m mod 2 ^ N.pos k).
    generalize dependent (2 ^ N.pos k). intros. nia.
Qed.
Lemma integer_part_unique m e a b : integer_part m e a -> integer_part m e b -> a = b.
Proof.
  unfold integer_part. generalize (2 ^ Z.to_N (- e)), (N.pos m * 2 ^ Z.to_N e). intros d x [H1 H2] [H3 H4]. nia.
Qed.
Lemma as_uint_fun max v a b : as_uint max v a -> as_uint max v b -> a = b.
Proof.
  destruct 1 as [| | | | |m e n H]; inversion 1 as [| | | | |m' e' n' H']; subst; try done.
  f_equal. by eapply integer_part_unique.
Qed.
Lemma cast_uint_iff max v n : as_uint max v n <-> n = cast_uint max v.
Proof. split; [intros H; eapply as_uint_fun; [done|apply cast_uint_ok]|intros ->; apply cast_uint_ok]. Qed.

(** Integers below 2^53 are exact. *)
Lemma digits2_lt m k : N.pos m < 2 ^ N.of_nat k -> (Z.pos (digits2_pos m) <= Z.of_nat k)%Z.
Proof.
  revert k. induction m as [m IH|m IH|]; intros k Hm; destruct k as [|k]; try (change (2 ^ N.of_nat 0) with 1 in Hm; lia).
  - simpl digits2_pos. rewrite Nat2N.inj_succ, N.pow_succ_r' in Hm. specialize (IH k ltac:(lia)). lia.
  - simpl digits2_pos. rewrite Nat2N.inj_succ, N.pow_succ_r' in Hm. specialize (IH k ltac:(lia)). lia.
  - simpl digits2_pos. lia.
Qed.
Lemma digits2_shift k m : digits2_pos (shift_pos k m) = (digits2_pos m + k)%positive.
Proof.
  unfold shift_pos. revert m. induction k as [|k IH] using Pos.peano_ind; intros m; [simpl; lia|].
  rewrite Pos.iter_succ. simpl. rewrite IH. lia.
Qed.
Lemma shift_pos_N k m : N.pos (shift_pos k m) = N.shiftl (N.pos m) (N.pos k).
Proof. done. Qed.
Lemma pos_pred q : N.succ_pos (N.pred (N.pos q)) = q.
Proof.
  assert (N.pos (N.succ_pos (N.pred (N.pos q))) = N.pos q); [|congruence]. rewrite N.succ_pos_spec. apply N.succ_pred. done.
Qed.
Lemma round_aux_exact m e : Z.pos (digits2_pos m) = 53%Z -> (-1074 <= e <= 971)%Z ->
  binary_round_aux fprec femax false (Z.pos m) e loc_Exact = S754_finite false m e.
Proof.
  intros Hd He. unfold binary_round_aux, shr_fexp. cbn [Zdigits2 shr_record_of_loc].
  assert (E : (fexp fprec femax (Z.pos (digits2_pos m) + e) - e = 0)%Z).
  { rewrite Hd. unfold fexp, emin, fprec, femax. lia. }
  rewrite E. cbn [shr loc_of_shr_record shr_m shr_r shr_s round_nearest_even].
  cbn [Zdigits2]. rewrite E. cbn [shr shr_m].
  replace (e <=? femax - fprec)%Z with true; [done|]. unfold femax, fprec. lia.
Qed.
Lemma f_of_N_pos_exact m : N.pos m < 2 ^ 53 ->
  exists k, k <= 52 /\ f_of_N (N.pos m) = S754_finite false (N.succ_pos (N.pred (N.shiftl (N.pos m) k))) (- Z.of_N k).
Proof.
  intros Hm. pose proof (digits2_lt m 53 Hm) as Hd. unfold f_of_N. cbn [Z.of_N binary_normalize]. unfold binary_round.
  set (d := Z.pos (digits2_pos m)) in *.
  assert (E : fexp fprec femax (d + 0) = (d - 53)%Z) by (unfold fexp, emin, fprec, femax; lia).
  rewrite E. unfold shl_align. destruct (d - 53 - 0)%Z as [|q|q] eqn:Eq.
  - exists 0. split; [lia|]. rewrite N.shiftl_0_r, pos_pred, round_aux_exact by lia. done.
  - lia.
  - exists (N.pos q). split; [lia|]. rewrite round_aux_exact; [|rewrite digits2_shift; lia|lia].
    rewrite <- shift_pos_N, pos_pred. f_equal. lia.
Qed.
Lemma cast_of_N max n : n < 2 ^ 53 -> n <= max -> cast_uint max (f_of_N n) = n.
Proof.
  intros Hn Hm. destruct n as [|m]; [done|]. destruct (f_of_N_pos_exact m Hn) as (k & Hk & ->).
  cbn [cast_uint].
  assert (Hp : N.pos (N.succ_pos (N.pred (N.shiftl (N.pos m) k))) = N.shiftl (N.pos m) k).
  { rewrite N.succ_pos_spec. apply N.succ_pred. rewrite N.shiftl_mul_pow2.
    assert (2 ^ k <> 0) by (apply N.pow_nonzero; done). generalize dependent (2 ^ k). intros. nia. }
  rewrite Hp. destruct (- Z.of_N k)%Z eqn:E; try lia.
  - destruct k; [|lia]. rewrite !N.shiftl_0_r. lia.
  - replace (N.pos p) with k by lia. rewrite N.shiftr_shiftl_l, N.sub_diag, N.shiftl_0_r by lia. lia.
Qed.

(** ** Language sets *)
Lemma as_number_map vs : Forall2 (fun v x => as_number v = Ok x) (map JsNumber vs) vs.
Proof. induction vs; simpl; by constructor. Qed.
Lemma bit_lor_shift a l i : N.testbit (N.lor a (N.shiftl 1 l)) i = N.testbit a i || (i =? l).
Proof.
  rewrite N.lor_spec. f_equal. rewrite N.shiftl_1_l, N.pow2_bits_eqb. apply N.eqb_sym.
Qed.
Lemma add_langs_ok vs : forall a, a < 2 ^ 128 ->
  exists s, res_foldl add_lang a (map JsNumber vs) = Ok s /\ s < 2 ^ 128 /\
    forall l, l < 128 -> N.testbit s l = N.testbit a l || existsb (fun v => cast_uint usize_max v =? l) vs.
Proof.
  induction vs as [|v vs IH]; intros a Ha; cbn [map res_foldl existsb].
  - exists a. split; [done|]. split; [done|]. intros l _. by rewrite orb_false_r.
  - unfold add_lang at 1. cbn [as_number res_bind]. destruct (128 <=? cast_uint usize_max v) eqn:E; cbn [res_bind].
    + destruct (IH a Ha) as (s & Hs & Hb & H). exists s. split; [done|]. split; [done|]. intros l Hl. rewrite H by done.
      replace (cast_uint usize_max v =? l) with false by lia. done.
    + destruct (IH (N.lor a (N.shiftl 1 (cast_uint usize_max v)))) as (s & Hs & Hb & H).
      { apply lt_pow2_bits. intros i Hi. rewrite bit_lor_shift.
        replace (N.testbit a i) with false by (symmetry; by apply (proj1 (lt_pow2_bits a 128))). simpl. lia. }
      exists s. split; [done|]. split; [done|]. intros l Hl. rewrite H by done. rewrite bit_lor_shift.
      rewrite (N.eqb_sym l). by destruct (N.testbit a l), (cast_uint usize_max v =? l).
Qed.
Lemma langs_numbers vs : forall a s, res_foldl add_lang a vs = Ok s -> exists xs, vs = map JsNumber xs.
Proof.
  induction vs as [|v vs IH]; intros a s H; [by exists []|]. cbn [res_foldl] in H.
  apply bind_Ok in H as (a' & H1 & H2). destruct (IH _ _ H2) as (xs & ->).
  unfold add_lang in H1. destruct v as [x| | | | |]; try done. by exists (x :: xs).
Qed.
Lemma bits_eq a b n : a < 2 ^ n -> b < 2 ^ n -> (forall l, l < n -> N.testbit a l = N.testbit b l) -> a = b.
Proof.
  intros Ha Hb H. apply N.bits_inj. intros l. destruct (decide (l < n)) as [Hl|Hl]; [by apply H|].
  by rewrite (proj1 (lt_pow2_bits a n) Ha l), (proj1 (lt_pow2_bits b n) Hb l) by lia.
Qed.
Lemma existsb_lang vs l : existsb (fun v => cast_uint usize_max v =? l) vs = true <->
  exists v, v ∈ vs /\ as_uint (2 ^ 64 - 1) v l.
Proof.
  rewrite existsb_exists. split; intros (v & H1 & H2); exists v; rewrite elem_of_list_In in *.
  - split; [done|]. apply cast_uint_iff. change (2 ^ 64 - 1) with usize_max. lia.
  - split; [done|]. apply cast_uint_iff in H2. change (2 ^ 64 - 1) with usize_max in H2. lia.
Qed.
Lemma langs_iff v s : langarray_to_langset v = Ok s <-> as_langs v s.
Proof.
  split.
  - destruct v as [|?| | |vs|]; try done; intros H; cbn [langarray_to_langset] in H.
    + assert (s = u128_max) as -> by congruence. exact langs_null.
    + assert (s = u128_max) as -> by congruence. exact langs_undefined.
    + destruct (langs_numbers vs 0 s H) as (xs & ->).
      destruct (add_langs_ok xs 0 ltac:(lia)) as (s' & H' & Hb & Hl). assert (s' = s) by congruence. subst s'.
      constructor; [done|]. intros l Hlt. rewrite Hl, N.bits_0 by done. apply existsb_lang.
  - destruct 1 as [| |vs s Hb Hl]; [done|done|]. cbn [langarray_to_langset].
    destruct (add_langs_ok vs 0 ltac:(lia)) as (s' & H' & Hb' & Hl'). rewrite H'. f_equal.
    apply (bits_eq _ _ 128); [done|done|]. intros l Hlt. rewrite Hl', N.bits_0 by done. simpl.
    apply eq_iff_eq_true. by rewrite existsb_lang, Hl.
Qed.
(** Every value either stands for a set or is rejected. *)
Lemma langs_total v : (exists s, langarray_to_langset v = Ok s) \/ langarray_to_langset v = Err.
Proof.
  destruct v as [|?| | |vs|]; try (by right); try (left; by eexists). cbn [langarray_to_langset].
  generalize 0. induction vs as [|v vs IH]; intros a; [left; by eexists|]. cbn [res_foldl].
  unfold add_lang at 1 3. destruct v as [x| | | | |]; cbn [as_number res_bind]; try (by right).
  destruct (128 <=? _); cbn [res_bind]; apply IH.
Qed.

Lemma langarray_list s : langset_to_langarray s =
  JsArray (map JsNumber (map (fun j => f_of_N (N.of_nat j)) (List.filter (fun j => N.testbit s (N.of_nat j)) (seq 0 128)))).
Proof.
  unfold langset_to_langarray. rewrite List.map_map. do 2 f_equal. apply List.filter_ext. intros j.
  apply eq_iff_eq_true. rewrite negb_true_iff, N.eqb_neq, N.shiftl_1_l. split.
  - intros H. destruct (N.testbit s (N.of_nat j)) eqn:E; [done|]. exfalso. apply H.
    apply N.bits_inj_0. intros i. rewrite N.land_spec, N.pow2_bits_eqb.
    destruct (N.of_nat j =? i) eqn:Ei; [|by rewrite andb_false_r]. replace i with (N.of_nat j) by lia. by rewrite E.
  - intros H H0. apply (f_equal (fun x => N.testbit x (N.of_nat j))) in H0.
    rewrite N.land_spec, N.pow2_bits_eqb, N.eqb_refl, H, N.bits_0 in H0. done.
Qed.
Lemma seq_sorted n : forall a, StronglySorted N.lt (map N.of_nat (seq a n)).
Proof.
  induction n as [|n IH]; intros a; [constructor|]. cbn [seq map]. constructor; [apply IH|].
  apply List.Forall_forall. intros x Hx. apply List.in_map_iff in Hx as (j & <- & Hj). apply List.in_seq in Hj. lia.
Qed.
Lemma filter_map_nat (f : N -> bool) l :
  map N.of_nat (List.filter (fun j => f (N.of_nat j)) l) = List.filter f (map N.of_nat l).
Proof. induction l as [|j l IH]; [done|]. cbn [map List.filter]. destruct (f (N.of_nat j)); cbn [map]; by rewrite IH. Qed.
Lemma StronglySorted_List_filter {A} (R : A -> A -> Prop) (f : A -> bool) l :
  StronglySorted R l -> StronglySorted R (List.filter f l).
Proof.
  induction 1 as [|a l H IH Ha]; [constructor|]. cbn [List.filter]. destruct (f a); [|done]. constructor; [done|].
  rewrite List.Forall_forall in *. intros x Hx. apply List.filter_In in Hx as [? _]. auto.
Qed.
Lemma langarray_ok s : s < 2 ^ 128 -> exists ls, languages s ls /\
  langset_to_langarray s = JsArray (map JsNumber (map f_of_N ls)).
Proof.
  intros Hs. exists (List.filter (fun l => N.testbit s l) (map N.of_nat (seq 0 128))). split.
  - split; [apply StronglySorted_List_filter, seq_sorted|]. intros l. rewrite elem_of_list_In, List.filter_In.
    split; [by intros [_ ?]|]. intros H. split; [|done]. apply List.in_map_iff. exists (N.to_nat l). split; [lia|].
    apply List.in_seq. destruct (decide (l < 128)); [lia|]. rewrite (proj1 (lt_pow2_bits s 128) Hs l) in H by lia. done.
  - rewrite langarray_list. rewrite <- (filter_map_nat (fun l => N.testbit s l)), (List.map_map N.of_nat). done.
Qed.

Lemma lang_round_trip s : s < 2 ^ 128 -> langarray_to_langset (langset_to_langarray s) = Ok s.
Proof.
  intros Hs. destruct (langarray_ok s Hs) as (ls & [_ Hl] & ->). apply langs_iff. constructor; [done|].
  intros l Hlt. rewrite <- Hl. split.
  - intros H. exists (f_of_N l). split; [by apply elem_of_list_fmap_1|]. apply cast_uint_iff. symmetry. apply cast_of_N; lia.
  - intros (v & Hv & Hu). apply elem_of_list_fmap in Hv as (l' & -> & Hl'). apply cast_uint_iff in Hu.
    assert (l' < 128).
    { destruct (decide (l' < 128)); [done|]. apply Hl in Hl'. rewrite (proj1 (lt_pow2_bits s 128) Hs l') in Hl' by lia. done. }
    rewrite cast_of_N in Hu by lia. by subst.
Qed.

(** ** Keys and calls *)
Lemma to_key_iff k key : to_key k = Ok key <-> as_key k key.
Proof.
  unfold to_key, as_key. change (2 ^ 32 - 1) with u32_max. destruct key as [ph l]. split.
  - intros H. apply bind_Ok in H as (v & H1 & H). apply bind_Ok in H as (l' & H2 & H3).
    destruct (jk_phrase k) as [x| | | | |]; try done. exists x. split; [done|].
    assert (E : x = v) by (cbn in H1; congruence). assert (E2 : (cast_uint u32_max v, l') = (ph, l)) by congruence.
    apply pair_equal_spec in E2 as [E2 E3]. cbn [fst snd]. rewrite E, <- E2, <- E3. split; [apply cast_uint_ok|by apply langs_iff].
  - intros (v & E & H1 & H2). cbn [fst snd] in *. rewrite E. cbn [as_number res_bind].
    rewrite (proj2 (langs_iff _ _) H2). cbn [res_bind]. apply cast_uint_iff in H1. by rewrite H1.
Qed.
Lemma to_key_total k : (exists key, to_key k = Ok key) \/ to_key k = Err.
Proof.
  unfold to_key. destruct (jk_phrase k); cbn [as_number res_bind]; try (by right).
  destruct (langs_total (jk_lang k)) as [[s ->]| ->]; cbn [res_bind]; [left; by eexists|by right].
Qed.

(** A call that is not finish() nor renumber() either stands for a native call, which
    it makes, or is rejected. *)
Lemma js_edit_ok b c : c <> JsFinish -> (forall ids, c <> JsRenumber ids) ->
  (exists o, stands_for c o /\ js_edit b c = (Ok tt, apply_op b o)) \/
  ((forall o, ~ stands_for c o) /\ js_edit b c = (Err, b)).
Proof.
  intros Hf Hr. destruct c as [k vs|k vs|k relev score id hash cs|ids|bs|]; try done.
  - destruct vs as [vs|]; cbn [js_edit given res_bind]; [|right; split; [|done]; intros o H; inversion H].
    destruct (to_key_total k) as [[key E]|E]; rewrite E; cbn [res_bind].
    + left. exists (OpInsert key vs). split; [|done]. constructor. by apply to_key_iff.
    + right. split; [|done]. intros o H. inversion H; subst.
      match goal with H : as_key _ _ |- _ => apply to_key_iff in H end. congruence.
  - destruct vs as [vs|]; cbn [js_edit given res_bind]; [|right; split; [|done]; intros o H; inversion H].
    destruct (to_key_total k) as [[key E]|E]; rewrite E; cbn [res_bind].
    + left. exists (OpAppend key vs). split; [|done]. constructor. by apply to_key_iff.
    + right. split; [|done]. intros o H. inversion H; subst.
      match goal with H : as_key _ _ |- _ => apply to_key_iff in H end. congruence.
  - cbn [js_edit]. destruct (to_key_total k) as [[key E]|E]; rewrite E; cbn [res_bind].
    + destruct relev as [relev| | | | |], score as [score| | | | |], id as [id| | | | |], hash as [hash| | | | |];
        try (right; split; [intros o H; inversion H|done]).
      cbn [as_number res_bind]. destruct cs as [cs|]; cbn [given res_bind];
        [|right; split; [intros o H; inversion H|done]].
      left. exists (OpCompact key relev (cast_uint u8_max score) (cast_uint u32_max id) (cast_uint u8_max hash) cs).
      split; [|done]. constructor; [by apply to_key_iff|apply cast_uint_ok..].
    + right. split; [|done]. intros o H. inversion H; subst.
      match goal with H : as_key _ _ |- _ => apply to_key_iff in H end. congruence.
  - exfalso. by eapply Hr.
  - destruct bs as [bs|]; cbn [js_edit]; [|right; split; [intros o H; inversion H|done]].
    left. exists (OpBounds bs). split; [constructor|done].
Qed.
Lemma js_run_cons o s c cs :
  js_run o s (c :: cs) = ((js_step o s c).1 :: (js_run o (js_step o s c).2 cs).1, (js_run o (js_step o s c).2 cs).2).
Proof. cbn [js_run]. destruct (js_step o s c) as [r s1]. cbn [fst snd]. by destruct (js_run o s1 cs). Qed.
Lemma renumber_dec c : (exists ids, c = JsRenumber ids) \/ (forall ids, c <> JsRenumber ids).
Proof. destruct c; try (right; intros; discriminate). left. by eexists. Qed.
Lemma js_run_open o d cs : forall b, JsFinish ∉ cs ->
  exists rs b', performs b cs rs b' /\ js_run o (Some b, d) cs = (rs, (Some b', d)).
Proof.
  induction cs as [|c cs IH]; intros b Hc; [exists [], b; split; [constructor|done]|].
  apply not_elem_of_cons in Hc as [Hc1 Hc2]. rewrite js_run_cons.
  assert (Hs : js_step o (Some b, d) c = ((js_edit b c).1, (Some (js_edit b c).2, d))).
  { unfold js_step. cbn [fst snd]. destruct (js_edit b c) as [r b1] eqn:E. by destruct c. }
  rewrite Hs. cbn [fst snd]. destruct (IH (js_edit b c).2 Hc2) as (rs & b' & Hp & ->). cbn [fst snd].
  exists ((js_edit b c).1 :: rs), b'. split; [|done].
  destruct (renumber_dec c) as [(ids & ->)|Hr].
  - destruct ids as [ids|]; cbn [js_edit] in *; [by apply perf_renumber|].
    apply perf_bad; [intros o' H; inversion H|done|done].
  - destruct (js_edit_ok b c (not_eq_sym Hc1) Hr) as [(op & H1 & H2)|[H1 H2]]; rewrite H2 in *; cbn [fst snd] in *.
    + by eapply perf_op.
    + apply perf_bad; [done| |done]. intros ids. apply Hr.
Qed.
Lemma js_run_closed o d cs : js_run o (None, d) cs = (replicate (length cs) Err, (None, d)).
Proof. induction cs as [|c cs IH]; [done|]. rewrite js_run_cons. cbn [js_step fst snd]. by rewrite IH. Qed.
Lemma js_run_app o cs cs' : forall s,
  js_run o s (cs ++ cs') =
  ((js_run o s cs).1 ++ (js_run o (js_run o s cs).2 cs').1, (js_run o (js_run o s cs).2 cs').2).
Proof.
  induction cs as [|c cs IH]; intros s; [cbn [js_run app fst snd]; by destruct (js_run o s cs')|].
  rewrite <- app_comm_cons, !js_run_cons. cbn [fst snd]. by rewrite IH.
Qed.

(** ** Keys *)
Lemma js_keys_done n : js_keys_take n [] = replicate n (Ok JsDone).
Proof. induction n as [|n IH]; [done|]. cbn. by rewrite IH. Qed.
Definition js_value (k : grid_key) : js_next := JsValue (f_of_N (gk_phrase k)) (langset_to_langarray (gk_lang k)).
Lemma js_keys_all recs : forall ks n, res_mapM (fun kv : bytes * bytes => read_key kv.1) recs = Ok ks ->
  js_keys_take (length ks + n) recs = map (fun k => Ok (js_value k)) ks ++ replicate n (Ok JsDone).
Proof.
  induction recs as [|r recs IH]; intros ks n H; cbn [res_mapM] in H.
  - assert (ks = []) as -> by congruence. apply js_keys_done.
  - apply bind_Ok in H as (k & H1 & H). apply bind_Ok in H as (ks' & H2 & H3). assert (ks = k :: ks') as -> by congruence.
    cbn [length Nat.add js_keys_take js_keys_next]. rewrite H1. cbn [res_bind]. cbn [map app]. f_equal. by apply IH.
Qed.
Lemma js_key_back k : key_ok k -> to_key (JsKey (JsNumber (f_of_N (gk_phrase k))) (langset_to_langarray (gk_lang k))) = Ok k.
Proof.
  intros [H1 H2]. unfold to_key. cbn [jk_phrase jk_lang as_number res_bind]. rewrite lang_round_trip by done.
  cbn [res_bind]. rewrite cast_of_N; [by destruct k|unfold gk_phrase; lia|unfold gk_phrase, u32_max; lia].
Qed.

(** ** Collapsing *)
Lemma same_group_iff a b : same_group a b = true <-> together a b.
Proof.
  unfold same_group, together. destruct (ord_cmp (sq_weight a) (sq_weight b)); split; intros H.
  - apply andb_true_iff in H as [H1 H2]. split; [done|]. split; lia.
  - destruct H as (_ & H1 & H2). apply andb_true_iff. split; lia.
  - done.
  - by destruct H.
  - done.
  - by destruct H.
Qed.
(** The members of the group of [g]: their first keys, and the others. *)
Fixpoint split_group (g : subquery) (l : list subquery) : res (list match_key_id * list subquery) :=
  match l with
  | [] => Ok ([], [])
  | q :: l' =>
      if same_group q g then
        let* k := first_key q in let* r := split_group g l' in Ok (k :: r.1, r.2)
      else
        let* r := split_group g l' in Ok (r.1, q :: r.2)
  end.
Lemma split_group_keys g ks l : split_group (with_keys g ks) l = split_group g l.
Proof. induction l as [|q l IH]; [done|]. cbn [split_group]. by rewrite IH. Qed.
Definition or_panics {A} (r : res A) : Prop := (exists a, r = Ok a) \/ r = Panic.
Lemma first_key_or q : or_panics (first_key q).
Proof. unfold first_key. destruct (sq_keys q); [by right|left; by eexists]. Qed.
Lemma split_group_or g l : or_panics (split_group g l).
Proof.
  induction l as [|q l IH]; [left; by eexists|]. cbn [split_group].
  destruct (same_group q g).
  - destruct (first_key_or q) as [[k ->]| ->]; cbn [res_bind]; [|by right].
    destruct IH as [[r ->]| ->]; cbn [res_bind]; [left; by eexists|by right].
  - destruct IH as [[r ->]| ->]; cbn [res_bind]; [left; by eexists|by right].
Qed.
Lemma collapse_add_or q acc : or_panics (collapse_add q acc).
Proof.
  induction acc as [|g acc IH]; [left; by eexists|]. cbn [collapse_add]. destruct (same_group q g).
  - destruct (first_key_or q) as [[k ->]| ->]; cbn [res_bind]; [left; by eexists|by right].
  - destruct IH as [[r ->]| ->]; cbn [res_bind]; [left; by eexists|by right].
Qed.
Notation collapse_from := (res_foldl (fun acc pm => collapse_add pm acc)).
Lemma collapse_split l : forall g acc,
  collapse_from (g :: acc) l =
  (let* r := split_group g l in let* out := collapse_from acc r.2 in Ok (with_keys g (sq_keys g ++ r.1) :: out)).
Proof.
  induction l as [|q l IH]; intros g acc.
  - cbn. rewrite app_nil_r. by destruct g.
  - cbn [res_foldl split_group collapse_add]. destruct (same_group q g).
    + destruct (first_key_or q) as [[k ->]| ->]; cbn [res_bind]; [|done].
      fold (with_keys g (sq_keys g ++ [k])). rewrite IH, split_group_keys.
      destruct (split_group g l) as [r| | |]; cbn [res_bind fst snd]; try done.
      destruct (collapse_from acc r.2) as [out| | |]; cbn [res_bind]; try done. unfold with_keys.
      cbn [fst snd sq_keys sq_store sq_idx sq_nonoverlap sq_weight sq_mask]. by rewrite <- app_assoc.
    + destruct (collapse_add_or q acc) as [[acc' E]|E]; rewrite E; cbn [res_bind].
      * rewrite IH. destruct (split_group g l) as [r| | |]; cbn [res_bind]; try done. cbn [fst snd res_foldl].
        rewrite E. done.
      * destruct (split_group_or g l) as [[r ->]| ->]; cbn [res_bind]; [|done]. cbn [fst snd res_foldl]. by rewrite E.
Qed.
Lemma split_group_iff g l ks rest : split_group g l = Ok (ks, rest) <-> splits g l ks rest.
Proof.
  revert ks rest. induction l as [|q l IH]; intros ks rest; cbn [split_group].
  - split; [intros H; assert (ks = []) as -> by congruence; assert (rest = []) as -> by congruence; constructor|].
    inversion 1; by subst.
  - destruct (same_group q g) eqn:E.
    + apply same_group_iff in E. split.
      * intros H. apply bind_Ok in H as (k & H1 & H). apply bind_Ok in H as ([ks1 rest1] & H2 & H3). cbn [fst snd] in H3.
        assert (ks = k :: ks1) as -> by congruence. assert (rest = rest1) as -> by congruence.
        unfold first_key in H1. destruct (sq_keys q) as [|k' ks'] eqn:Ek; [done|].
        assert (k' = k) as -> by congruence. eapply split_same; [done|done|by apply IH].
      * inversion 1 as [|? k ks' ? ks1 ? H1 H2 H3|? ? ? ? H1]; subst; [|done].
        unfold first_key. rewrite H2. cbn [res_bind]. by rewrite (proj2 (IH _ _) H3).
    + assert (E' : ~ together q g) by (rewrite <- same_group_iff; congruence). split.
      * intros H. apply bind_Ok in H as ([ks1 rest1] & H2 & H3). cbn [fst snd] in H3.
        assert (ks = ks1) as -> by congruence. assert (rest = q :: rest1) as -> by congruence.
        apply split_other; [done|by apply IH].
      * inversion 1 as [|? k ks' ? ks1 ? H1 H2 H3|? ? ? ? H1 H2]; subst; [done|].
        by rewrite (proj2 (IH _ _) H2).
Qed.
Lemma splits_length g l ks rest : splits g l ks rest -> (length rest <= length l)%nat.
Proof. induction 1; cbn [length]; lia. Qed.
Lemma collapses_iff l out : collapse_phrasematches l = Ok out <-> collapses l out.
Proof.
  unfold collapse_phrasematches. revert out.
  induction l as [l IH] using (induction_ltof1 _ (@length subquery)); unfold ltof in IH; intros out.
  destruct l as [|pm l].
  - cbn. split; [intros H; assert (out = []) as -> by congruence; constructor|inversion 1; done].
  - change (collapse_from [] (pm :: l)) with (collapse_from [pm] l). rewrite collapse_split. split.
    + intros H. apply bind_Ok in H as ([ks rest] & H1 & H). apply bind_Ok in H as (out' & H2 & H3). cbn [fst snd] in *.
      apply split_group_iff in H1. pose proof (splits_length _ _ _ _ H1).
      assert (out = with_keys pm (sq_keys pm ++ ks) :: out') as -> by congruence.
      eapply coll_cons; [done|]. apply IH; [cbn [length]; lia|done].
    + inversion 1 as [|? ? ks rest out' H1 H2]; subst. pose proof (splits_length _ _ _ _ H1).
      apply split_group_iff in H1. rewrite H1. cbn [res_bind fst snd].
      apply IH in H2; [|cbn [length]; lia]. rewrite H2. done.
Qed.
Lemma collapse_or l : or_panics (collapse_phrasematches l).
Proof.
  unfold collapse_phrasematches. generalize (@nil subquery). induction l as [|q l IH]; intros acc; [left; by eexists|].
  cbn [res_foldl]. destruct (collapse_add_or q acc) as [[a ->]| ->]; cbn [res_bind]; [apply IH|by right].
Qed.
