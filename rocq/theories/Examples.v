(** Concrete data used by the Examples beside the property theorems. *)
From Verif Require Import Prelude F64 Heap Common Morton Format Builder Spatial Store Spec Order_proofs.

(** Two hash-map iteration orders. *)
Definition id_oracle : hash_oracle := HashOracle (fun _ _ l => l) (fun _ _ _ => reflexivity _).
Lemma rev_perm_oracle (site : list N) A (l : list A) : rev l ≡ₚ l.
Proof. symmetry. apply Permutation_rev. Qed.
Definition rev_oracle : hash_oracle := HashOracle (fun _ _ l => rev l) rev_perm_oracle.
Definition first_tb : tiebreak := fun _ _ => O.
Definition last_tb : tiebreak := fun _ log => length log.
Definition first_mtb : merge_tb := fun _ _ _ => O.

(** A history with three keys, a repeated entry, a shared id list, an id above
    2^24, an unusual relevance, a compact append and bin boundaries. *)
Definition ex_e1 : grid_entry := GridEntry f_one 7 3 5 11 2.
Definition ex_e2 : grid_entry := GridEntry (f_lit 4 10) 15 3 6 11 2.
Definition ex_e3 : grid_entry := GridEntry (f_lit 5 10) 7 60000 5 (2 ^ 24 + 9) 255.
Definition ex_ops : list op :=
  [ OpInsert (1, 1) [ex_e1; ex_e2];
    OpAppend (1, 1) [ex_e1; ex_e3];
    OpAppend (2, u128_max) [ex_e2];
    OpBounds [0; 2; 5];
    OpCompact (4, 0) (f_lit 8 10) 3 7 1 [(1, 1); (2, 2); (1, 1)];
    OpInsert (2, 6) [] ].
(** The same writes in another order and in other batches. *)
Definition ex_ops' : list op :=
  [ OpAppend (2, 6) [];
    OpAppend (4, 0) [GridEntry (f_lit 8 10) 3 2 2 7 1];
    OpInsert (1, 1) [ex_e3];
    OpCompact (4, 0) (f_lit 8 10) 3 7 1 [(1, 1)];
    OpAppend (1, 1) [ex_e2];
    OpAppend (1, 1) [ex_e1];
    OpBounds [0; 2; 5];
    OpInsert (2, u128_max) [ex_e2; ex_e2] ].

Definition ex_db (o : hash_oracle) (ops : list op) : gmap (list N) (list N) :=
  match finish o (run ops) ∅ with Ok d => d | _ => ∅ end.
Definition ex_store (ops : list op) : store :=
  open_store (ex_db id_oracle ops) 14 0 (f_of_N 400) [BBox 0 0 16383 16383] f_one.

(** A decision procedure for [history_ok]. *)
Definition entry_okb (e : grid_entry) : bool :=
  (ge_score e <=? 15) && (ge_x e <? 2 ^ 16) && (ge_y e <? 2 ^ 16) && (ge_id e <? 2 ^ 32) && (ge_hash e <? 2 ^ 8).
Definition key_okb (k : N * N) : bool := (k.1 <? 2 ^ 32) && (k.2 <? 2 ^ 128).
Definition op_okb (o : op) : bool :=
  match o with
  | OpInsert k es | OpAppend k es => key_okb k && forallb entry_okb es
  | OpCompact k _ s i h cs =>
      key_okb k && (s <=? 15) && (i <? 2 ^ 32) && (h <? 2 ^ 8) &&
      forallb (fun xy : N * N => (xy.1 <? 2 ^ 16) && (xy.2 <? 2 ^ 16)) cs
  | OpBounds bs => forallb (fun b => b <? 2 ^ 32) bs
  end.
Definition history_okb (ops : list op) : bool :=
  forallb op_okb ops &&
  forallb (fun kv : (N * N) * list grid_entry =>
             (kv.1.1 <? 2 ^ 32 - 1) && (N.of_nat (length kv.2) <=? 2 ^ 27))
          (map_to_list (written ops)).

Lemma forallb_Forall {A} (f : A -> bool) (P : A -> Prop) l :
  (forall a, f a = true -> P a) -> forallb f l = true -> Forall P l.
Proof.
  intros H. induction l as [|a l IH]; simpl; [constructor|].
  intros [? ?]%andb_prop. constructor; auto.
Qed.
Ltac bool_facts :=
  repeat match goal with
         | H : (_ && _) = true |- _ => apply andb_prop in H as [? ?]
         | H : (_ <=? _) = true |- _ => apply N.leb_le in H
         | H : (_ <? _) = true |- _ => apply N.ltb_lt in H
         end.
Lemma entry_okb_ok e : entry_okb e = true -> entry_ok e.
Proof. unfold entry_okb, entry_ok. intros H. bool_facts. repeat split; assumption. Qed.
Lemma key_okb_ok k : key_okb k = true -> key_ok k.
Proof. unfold key_okb, key_ok. intros H. bool_facts. repeat split; assumption. Qed.
Lemma op_okb_ok o : op_okb o = true -> op_ok o.
Proof.
  destruct o; cbn [op_okb op_ok]; intros H; bool_facts.
  - split; [by apply key_okb_ok|]. eapply forallb_Forall; [|done]. apply entry_okb_ok.
  - split; [by apply key_okb_ok|]. eapply forallb_Forall; [|done]. apply entry_okb_ok.
  - split; [by apply key_okb_ok|]. split; [done|]. split; [done|]. split; [done|].
    eapply forallb_Forall; [|eassumption]. intros a Ha. cbv beta in *. bool_facts. repeat split; assumption.
  - eapply forallb_Forall; [|eassumption]. intros a Ha. cbv beta in *. bool_facts. repeat split; assumption.
Qed.
Lemma history_okb_ok ops : history_okb ops = true -> history_ok ops.
Proof.
  unfold history_okb, history_ok. intros [H1 H2]%andb_prop. split.
  - eapply forallb_Forall; [|done]. apply op_okb_ok.
  - intros k es Hk. apply elem_of_map_to_list in Hk.
    apply (forallb_Forall _ (fun kv : (N * N) * list grid_entry =>
      kv.1.1 < 2 ^ 32 - 1 /\ N.of_nat (length kv.2) <= 2 ^ 27)) in H2.
    + rewrite Forall_forall in H2. apply (H2 (k, es) Hk).
    + intros a Ha. cbv beta in *. bool_facts. repeat split; assumption.
Qed.

Lemma built_run o ops d z t r bb ms :
  finish o (run ops) ∅ = Ok d -> built o ops (open_store d z t r bb ms).
Proof. intros H. repeat eexists. exact H. Qed.

Lemma ex_ops_ok : history_ok ex_ops.
Proof. apply history_okb_ok. vm_compute. done. Qed.
Lemma ex_ops'_ok : history_ok ex_ops'.
Proof. apply history_okb_ok. vm_compute. done. Qed.
Lemma ex_built : built id_oracle ex_ops (ex_store ex_ops).
Proof. apply built_run. vm_compute. reflexivity. Qed.

(** Deciding that two histories write the same entries. *)
Global Instance spec_float_eq_dec : EqDecision spec_float.
Proof. solve_decision. Defined.
Global Instance grid_entry_eq_dec : EqDecision grid_entry.
Proof. solve_decision. Defined.
Definition entries_subb (a b : list grid_entry) : bool :=
  forallb (fun e => bool_decide (snap e ∈ map snap b)) a.
Definition entries_le (w1 w2 : gmap (N * N) (list grid_entry)) : bool :=
  forallb (fun kv : (N * N) * list grid_entry =>
    match w2 !! kv.1 with
    | Some b => entries_subb kv.2 b && entries_subb b kv.2
    | None => false
    end) (map_to_list w1).
Lemma entries_subb_ok a b e : entries_subb a b = true -> e ∈ map snap a -> e ∈ map snap b.
Proof.
  unfold entries_subb. rewrite List.forallb_forall. intros H Hin.
  apply elem_of_list_fmap in Hin as (x & -> & Hx). apply elem_of_list_In, H in Hx.
  by apply bool_decide_eq_true in Hx.
Qed.
Lemma entries_le_ok w1 w2 k a : entries_le w1 w2 = true -> w1 !! k = Some a ->
  exists b, w2 !! k = Some b /\ forall e, e ∈ map snap a <-> e ∈ map snap b.
Proof.
  unfold entries_le. rewrite List.forallb_forall. intros H Hk.
  apply elem_of_map_to_list, elem_of_list_In, H in Hk. cbn [fst snd] in Hk.
  destruct (w2 !! k) as [b|]; [|done]. apply andb_prop in Hk as [H1 H2].
  exists b. split; [done|]. intros e. split; by apply entries_subb_ok.
Qed.
Lemma entries_le_same w1 w2 :
  entries_le w1 w2 = true -> entries_le w2 w1 = true -> same_entries w1 w2.
Proof.
  intros H1 H2 k. destruct (w1 !! k) as [a|] eqn:E1.
  - destruct (entries_le_ok _ _ _ _ H1 E1) as (b & -> & H). done.
  - destruct (w2 !! k) as [b|] eqn:E2; [|done].
    destruct (entries_le_ok _ _ _ _ H2 E2) as (a & E & _). congruence.
Qed.
