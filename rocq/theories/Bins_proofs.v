(** The bin closure of finish: termination, and which bin a phrase falls into. *)
From Verif Require Import Prelude Lists F64 Common Builder Spec Builder_proofs Finish_proofs Order_proofs.
From Coq Require Import Sorting.Sorted.
From Coq Require Import ZifyBool.

(** The closure's state after passing the boundaries [pre]. *)
Definition state_at (pre seq : list N) : bin_state :=
  BinState seq (last pre) (default u32_max (head seq)).

Lemma bin_step_at pre b seq : bin_step (state_at pre (b :: seq)) = state_at (pre ++ [b]) seq.
Proof. unfold bin_step, state_at; simpl. by rewrite last_snoc. Qed.

Lemma bin_advance_at p : p < u32_max -> forall seq pre fuel,
  (length seq <= fuel)%nat ->
  bin_advance fuel p (state_at pre seq) =
  Some (state_at (pre ++ take_while (fun b => b <=? p) seq) (skip_while (fun b => b <=? p) seq)).
Proof.
  intros Hp. induction seq as [|b seq IH]; intros pre fuel Hf.
  - assert (E : (u32_max <=? p) = false) by lia.
    destruct fuel; cbn [bin_advance]; change (bs_next (state_at pre [])) with u32_max;
      rewrite E; cbn [take_while skip_while]; rewrite app_nil_r; done.
  - destruct fuel as [|fuel]; [simpl in Hf; lia|].
    cbn [bin_advance]. change (bs_next (state_at pre (b :: seq))) with b.
    cbn [take_while skip_while].
    destruct (b <=? p) eqn:E.
    + rewrite bin_step_at, IH by (simpl in Hf; lia). by rewrite <- app_assoc.
    + rewrite app_nil_r. done.
Qed.

Lemma bin_step_init b rest : bin_step (bin_init (b :: rest)) = state_at [b] rest.
Proof. done. Qed.
Lemma bin_step_init_nil : bin_step (bin_init []) = state_at [] [].
Proof. done. Qed.

Lemma take_while_le (p q : N) seq : p <= q ->
  take_while (fun b => b <=? q) seq =
  take_while (fun b => b <=? p) seq ++ take_while (fun b => b <=? q) (skip_while (fun b => b <=? p) seq).
Proof.
  intros H. induction seq as [|b seq IH]; simpl; [done|].
  destruct (b <=? p) eqn:E; simpl.
  - replace (b <=? q) with true by lia. by rewrite IH.
  - done.
Qed.
Lemma skip_while_le (p q : N) seq : p <= q ->
  skip_while (fun b => b <=? q) (skip_while (fun b => b <=? p) seq) = skip_while (fun b => b <=? q) seq.
Proof.
  intros H. induction seq as [|b seq IH]; simpl; [done|].
  destruct (b <=? p) eqn:E; simpl.
  - replace (b <=? q) with true by lia. done.
  - done.
Qed.

(** The bin of a phrase: the last boundary reached by it, at least the first. *)
Definition label_of (bounds : list N) (p : N) : option N :=
  match bounds with
  | [] => None
  | b :: rest => last (b :: take_while (fun b => b <=? p) rest)
  end.

Lemma bin_label_at {V} (b : list N) (rest : list N) (items : list ((N * N) * V)) : forall q,
  StronglySorted (fun a b => gk_phrase a.1 <= gk_phrase b.1) items ->
  Forall (fun it => q <= gk_phrase it.1 < u32_max) items ->
  bin_label items (state_at (b ++ take_while (fun b => b <=? q) rest) (skip_while (fun b => b <=? q) rest))
  = Ok (map (fun it => (last (b ++ take_while (fun b => b <=? gk_phrase it.1) rest), it)) items).
Proof.
  induction items as [|it items IH]; intros q Hs Hall; [done|].
  inversion Hs as [|? ? Hs' Hle]; subst. inversion Hall as [|? ? Hq Hall']; subst.
  cbn [bin_label map].
  rewrite bin_advance_at; [|lia|unfold bin_fuel; simpl; lia].
  rewrite <- app_assoc, <- take_while_le, skip_while_le by lia.
  rewrite IH; [done|done|].
  rewrite Forall_forall in *. intros x Hx. specialize (Hle x Hx). specialize (Hall' x Hx). lia.
Qed.

Lemma bin_label_spec {V} bounds (items : list ((N * N) * V)) :
  StronglySorted (fun a b => gk_phrase a.1 <= gk_phrase b.1) items ->
  Forall (fun it => gk_phrase it.1 < u32_max) items ->
  bin_label items (bin_init bounds) = Ok (map (fun it => (label_of bounds (gk_phrase it.1), it)) items).
Proof.
  intros Hs Hall. destruct items as [|it items]; [done|].
  inversion Hs as [|? ? Hs' Hle]; subst. inversion Hall as [|? ? Hq Hall']; subst.
  cbn [bin_label map]. set (p := gk_phrase it.1) in *.
  assert (Hrest : forall pre rest,
    bin_label items (state_at (pre ++ take_while (fun b => b <=? p) rest) (skip_while (fun b => b <=? p) rest))
    = Ok (map (fun it => (last (pre ++ take_while (fun b => b <=? gk_phrase it.1) rest), it)) items)).
  { intros. apply bin_label_at; [done|]. rewrite Forall_forall in *.
    intros x Hx. specialize (Hle x Hx). specialize (Hall' x Hx). lia. }
  assert (E : bin_advance (bin_fuel (bin_init bounds)) p (bin_init bounds)
              = bin_advance (S (length bounds)) p (bin_step (bin_init bounds))).
  { unfold bin_fuel. change (length (bs_seq (bin_init bounds))) with (length bounds). generalize (S (length bounds)). intros n.
    cbn [bin_advance]. replace (bs_next (bin_init bounds) <=? p) with true by (simpl; lia).
    simpl. done. }
  rewrite E. clear E.
  destruct bounds as [|b rest].
  - rewrite bin_step_init_nil. rewrite bin_advance_at by (simpl; lia).
    rewrite (Hrest [] []). done.
  - rewrite bin_step_init. rewrite bin_advance_at by (simpl; lia).
    rewrite (Hrest [b] rest). done.
Qed.

(** At phrase id 2^32-1 the loop never ends. *)
Lemma bin_step_next s : Forall (fun b => b <= u32_max) (bs_seq s) ->
  bs_next (bin_step s) <= u32_max /\ Forall (fun b => b <= u32_max) (bs_seq (bin_step s)).
Proof.
  destruct s as [seq cur nx]; simpl. intros H. destruct seq as [|a [|b seq]]; simpl.
  - split; [done|constructor].
  - split; [done|constructor].
  - inversion H as [|? ? ? H']; subst. inversion H'; subst. done.
Qed.
Lemma bin_advance_max fuel : forall s,
  bs_next s <= u32_max -> Forall (fun b => b <= u32_max) (bs_seq s) ->
  bin_advance fuel u32_max s = None.
Proof.
  induction fuel as [|fuel IH]; intros s Hn Hs; cbn [bin_advance];
    replace (bs_next s <=? u32_max) with true by lia; [done|].
  apply bin_step_next in Hs as [? ?]. by apply IH.
Qed.

(** Running out of [bin_fuel] means running out of any fuel. *)
Lemma bin_advance_fuel_gen p : forall n f s, (S (length (bs_seq s)) <= f)%nat -> (f <= n)%nat ->
  bin_advance f p s = None -> forall f', bin_advance f' p s = None.
Proof.
  intros n. induction n as [|n IH]; intros f s Hf Hn Hnone f'; [lia|].
  destruct f as [|f]; [lia|]. cbn [bin_advance] in Hnone.
  destruct (bs_next s <=? p) eqn:E; [|done].
  assert (Hc : forall s, bs_seq s = [] -> bs_next s = u32_max -> u32_max <= p ->
    forall f', bin_advance f' p s = None).
  { clear. intros s Hs Hn Hp f'. revert s Hs Hn. induction f' as [|f' IH]; intros s Hs Hn;
      cbn [bin_advance]; rewrite Hn; replace (u32_max <=? p) with true by lia; [done|].
    apply IH; unfold bin_step; rewrite Hs; done. }
  destruct (bs_seq s) as [|b seq] eqn:Es.
  - (* the sequence is exhausted *)
    assert (Hs1 : bs_seq (bin_step s) = [] /\ bs_next (bin_step s) = u32_max)
      by (unfold bin_step; rewrite Es; done).
    destruct (u32_max <=? p) eqn:Ep.
    + destruct f' as [|f']; cbn [bin_advance]; rewrite E; [done|]. apply Hc; [tauto|tauto|lia].
    + destruct f as [|f]; cbn [bin_advance] in Hnone;
        rewrite (proj2 Hs1), Ep in Hnone; done.
  - destruct f' as [|f']; cbn [bin_advance]; rewrite E; [done|].
    eapply (IH f); [|lia|done]. unfold bin_step; rewrite Es; simpl in *. lia.
Qed.
Lemma bin_advance_fuel p s :
  bin_advance (bin_fuel s) p s = None <-> forall f, bin_advance f p s = None.
Proof.
  split; [|intros H; apply H].
  intros H. eapply bin_advance_fuel_gen; [|reflexivity|exact H]. unfold bin_fuel; lia.
Qed.

(** ** finish terminates exactly when no key has phrase id 2^32-1 *)
Lemma btree_iter_phrases {V} (m : gmap (N * N) V) :
  StronglySorted (fun a b => gk_phrase a.1 <= gk_phrase b.1) (btree_iter m).
Proof.
  eapply StronglySorted_impl; [|apply btree_iter_sorted]. cbv beta.
  intros a b _ _ H. apply key_leb_spec in H. unfold gk_phrase. lia.
Qed.

Lemma finish_labels b :
  (forall k be, b_data b !! k = Some be -> gk_phrase k < u32_max) ->
  finish_groups b (map (fun it => (label_of (b_bounds b) (gk_phrase it.1), it)) (btree_iter (b_data b))).
Proof.
  intros H. unfold finish_groups. apply bin_label_spec; [apply btree_iter_phrases|].
  apply Forall_forall. intros [k be] Hin. apply elem_btree_iter in Hin. by eapply H.
Qed.

Lemma finish_terminates o b d :
  (forall k be, b_data b !! k = Some be -> gk_phrase k < u32_max) ->
  exists d', finish o b d = Ok d'.
Proof.
  intros H. apply finish_labels in H. unfold finish, finish_puts.
  rewrite H. cbn [res_bind]. eauto.
Qed.

Lemma bin_advance_inv p fuel : forall s s', Forall (fun b => b <= u32_max) (bs_seq s) ->
  bs_next s <= u32_max -> bin_advance fuel p s = Some s' ->
  Forall (fun b => b <= u32_max) (bs_seq s') /\ bs_next s' <= u32_max.
Proof.
  induction fuel as [|f IH]; intros s s' Hs Hn; cbn [bin_advance];
    destruct (bs_next s <=? p); try done; try (intros [= <-]; done).
  apply bin_step_next in Hs as [? ?]. by apply IH.
Qed.
Lemma bin_label_diverges {V} (items : list ((N * N) * V)) : forall s,
  Forall (fun b => b <= u32_max) (bs_seq s) -> bs_next s <= u32_max ->
  Exists (fun it => gk_phrase it.1 = u32_max) items -> bin_label items s = Diverge.
Proof.
  induction items as [|it items IH]; intros s Hs Hn Hex; [by inversion Hex|].
  cbn [bin_label]. inversion Hex as [? ? Heq|? ? Hex']; subst.
  - rewrite Heq. rewrite bin_advance_max by done. done.
  - destruct (bin_advance (bin_fuel s) (gk_phrase it.1) s) as [s'|] eqn:E; [|done].
    eapply bin_advance_inv in E as [? ?]; [|done..]. rewrite IH by done. done.
Qed.
Lemma finish_diverges o b d k be :
  Forall (fun x => x < 2 ^ 32) (b_bounds b) ->
  b_data b !! k = Some be -> gk_phrase k = u32_max -> finish o b d = Diverge.
Proof.
  intros Hb Hk Hp. unfold finish, finish_puts.
  rewrite bin_label_diverges; [done|..].
  - simpl. eapply Forall_impl; [exact Hb|]. unfold u32_max. simpl; lia.
  - simpl. unfold u32_max. lia.
  - apply Exists_exists. exists (k, be). split; [by apply elem_btree_iter|done].
Qed.
