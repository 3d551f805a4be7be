(** What asking for a key does to the quotas of tree_coalesce. *)
From Verif Require Import Prelude Lists F64 Heap Common Builder Store Query Spatial Coalesce Stackable Tree.
From Verif Require Import Coalesce_proofs Multi_proofs Spec_tree Spec_quota.
From Coq Require Import ZifyBool.
Local Open Scope N_scope.

Definition q_get (c : quota) (q : quotas) : N :=
  match c with OneLetter => q_letter q | OneWord => q_word q | OneWordHigh => q_word_hz q | HighRange => q_hz_range q | High => q_hz q end.
Lemma key_is_range_spans p k r : key_is_range p (mki_key k) = Ok r -> r = spans k.
Proof.
  unfold key_is_range, spans. destruct (mk_phrase (mki_key k)) as [x|s e]; [by intros [= <-]|].
  intros H. apply bind_Ok in H as (d & Hd & H). injection H as <-. unfold usub in Hd.
  destruct (s <=? e); [by injection Hd as <-|]. destruct p; [done|]. by injection Hd as <-.
Qed.
(** The shortcut for a leaf that promises too little. *)
Definition passed_over (best : f64) (st : tstep) (k : match_key_id) : Prop :=
  one_word (tp_sq st) k = true /\ high_zoom (tp_sq st) = true /\ is_leaf (tp_node st) = true /\
  fleb (tp_possible st) (fmul (f_lit 75 100) best) = true.
Definition one (b : bool) : N := if b then 1 else 0.
Lemma admit_key_ok known best st k q ok q' :
  admit_key (spans k) known best st k q = (ok, q') ->
  (forall c, q_get c q <= q_get c q' <= q_get c q + one (under_quota c (tp_sq st) k)) /\
  (forall c, q_get c q <= quota_limit c -> q_get c q' <= quota_limit c) /\
  (ok = true -> known = false -> forall c, under_quota c (tp_sq st) k = true -> q_get c q' = q_get c q + 1) /\
  (ok = false -> passed_over best st k \/ exists c, under_quota c (tp_sq st) k = true /\ quota_limit c <= q_get c q).
Proof.
  unfold admit_key. change (might_be_slow (sq_store (tp_sq st))) with (high_zoom (tp_sq st)).
  fold (one_word (tp_sq st) k).
  destruct (one_word (tp_sq st) k && high_zoom (tp_sq st) && is_leaf (tp_node st) && fleb (tp_possible st) (fmul f_075 best)) eqn:Es.
  - intros [= <- <-]. split; [intros c; split; [lia|destruct (under_quota c (tp_sq st) k); cbn; lia]|].
    split; [done|]. split; [done|]. intros _. left. apply andb_prop in Es as [Es E4]. apply andb_prop in Es as [Es E3].
    by apply andb_prop in Es as [E1 E2].
  - clear Es. fold (far_reaching (tp_sq st) k). unfold q_and, q_when, take_letter, take_word, take_word_hz, take_hz_range, take_hz, take_quota.
    cbn [q_letter q_word q_word_hz q_hz_range q_hz].
    unfold one_letter_quota, one_word_quota, one_word_hz_quota, all_hz_range_quota, all_hz_quota.
    destruct q as [n1 n2 n3 n4 n5]. cbn [q_letter q_word q_word_hz q_hz_range q_hz].
    intros H.
    assert (Hone : spans k = false -> one_word (tp_sq st) k = false) by (unfold one_word; by intros ->).
    assert (HL : forall c, quota_limit c <= q_get c (Quotas n1 n2 n3 n4 n5) \/ q_get c (Quotas n1 n2 n3 n4 n5) < quota_limit c) by (intros c; lia).
    pose proof (HL OneLetter) as L1. pose proof (HL OneWord) as L2. pose proof (HL OneWordHigh) as L3.
    pose proof (HL HighRange) as L4. pose proof (HL High) as L5. clear HL.
    cbn [q_get quota_limit q_letter q_word q_word_hz q_hz_range q_hz] in L1, L2, L3, L4, L5.
    destruct (one_word (tp_sq st) k) eqn:E1, known, (mki_length k =? 1) eqn:E2, (far_reaching (tp_sq st) k) eqn:E3, (spans k) eqn:E4;
      try (by specialize (Hone eq_refl)); cbn [andb negb] in H;
      repeat match type of H with context [?a <? ?b] => destruct (a <? b) eqn:? ; cbn [q_letter q_word q_word_hz q_hz_range q_hz] in H end;
      injection H as <- <-; cbn [q_letter q_word q_word_hz q_hz_range q_hz] in *;
      (split; [|split; [|split]];
      [ intros []; cbn [q_get under_quota q_letter q_word q_word_hz q_hz_range q_hz]; rewrite ?E1, ?E2, ?E3, ?E4; cbn [andb one]; lia
      | intros []; cbn [q_get quota_limit q_letter q_word q_word_hz q_hz_range q_hz]; lia
      | try (intros; discriminate); intros _ _; intros []; cbn [q_get under_quota q_letter q_word q_word_hz q_hz_range q_hz]; rewrite ?E1, ?E2, ?E3, ?E4; cbn [andb]; intros; try discriminate; lia
      | try (intros; discriminate); intros _; right;
        first [ exists OneLetter; cbn [q_get under_quota quota_limit q_letter]; rewrite ?E1, ?E2, ?E3, ?E4; split; [reflexivity|lia]
              | exists OneWord; cbn [q_get under_quota quota_limit q_word]; rewrite ?E1, ?E2, ?E3, ?E4; split; [reflexivity|lia]
              | exists OneWordHigh; cbn [q_get under_quota quota_limit q_word_hz]; rewrite ?E1, ?E2, ?E3, ?E4; split; [reflexivity|lia]
              | exists HighRange; cbn [q_get under_quota quota_limit q_hz_range]; rewrite ?E1, ?E2, ?E3, ?E4; split; [reflexivity|lia]
              | exists High; cbn [q_get under_quota quota_limit q_hz]; rewrite ?E1, ?E2, ?E3, ?E4; split; [reflexivity|lia] ]]).
Qed.

