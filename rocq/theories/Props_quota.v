(** Property C61: the quotas of tree_coalesce. *)
From Verif Require Import Prelude Lists F64 Heap Common Builder Spatial Store Spec Spec_match Query Coalesce Stackable Tree
  Cmp_proofs Queue_proofs Spec_coalesce Coalesce_proofs Multi_proofs Spec_stack Stack_proofs Spec_tree Spec_quota Tree_proofs
  Limit_proofs Term_proofs Examples Props_match Props_coalesce Props_stack Props_tree Spec_complete Complete_proofs Props_complete.
From Coq Require Import ZifyBool.
Local Open Scope N_scope.

(** ** C61 Quotas *)
(** Whatever the tree: of the keys under a quota at most as many as the quota allows
    contribute to the result. *)
Theorem C61_limits :
  forall p ho mtb tb fuel t o out c D,
  tree_coalesce p ho mtb tb fuel t o = Ok out ->
  NoDup D ->
  (forall id, id ∈ D ->
    (exists d e, d ∈ out /\ e ∈ cc_entries d /\ ce_phrasematch_id e = id) /\
    (forall pm k, in_tree t pm -> k ∈ sq_keys pm -> mki_id k = id -> under_quota c pm k = true)) ->
  N.of_nat (length D) <= quota_limit c.
Proof.
  intros p ho mtb tb fuel t o out c D H Hnd HD. destruct (tree_fetched _ _ _ _ _ _ _ _ H) as (F & HF & Hc & Hout).
  etrans; [|apply (Hc c)]. apply counted_ids; [done|]. intros id Hid. destruct (HD id Hid) as [(d & e & Hd & He & <-) Hu].
  specialize (Hout d Hd e He). apply elem_of_map in Hout as (sk & E & Hsk). exists sk. split; [done|]. split; [done|].
  destruct (HF sk Hsk) as [H1 H2]. by apply (Hu _ _ H1 H2).
Qed.
Print Assumptions C61_limits.

(** The tree of some subqueries is ordered by zoom if they are. *)
Lemma stackable_zooms pms :
  (forall c, legal pms c -> ord_cmp (sum_weights c) f_max <> Gt) -> types_by_zoom pms -> zooms_nested (stackable pms).
Proof.
  intros Hfin Hzoom i n1 pm j m pm' Hi Hpm Hj Hm Hpm'.
  destruct (C49_reachable pms Hfin) as (_ & _ & Hreach). destruct (Hreach i n1 Hi) as (c1 & Hc1 & Hd1).
  assert (Hd2 : descends (tree_get (stackable pms)) (t_root (stackable pms)) (c1 ++ [pm']) m) by (by eapply descends_snoc).
  pose proof (C46_paths pms _ _ Hd1) as (_ & Hl1 & _). rewrite Hpm in Hl1. symmetry in Hl1.
  apply last_Some in Hl1 as [c0 ->]. rewrite <- app_assoc in Hd2. cbn [app] in Hd2.
  apply C46_paths in Hd2 as [(Hin & Hsort & _) _].
  apply Hzoom.
  + apply Hin. rewrite !elem_of_app, !elem_of_cons. auto.
  + apply Hin. rewrite !elem_of_app, !elem_of_cons. auto.
  + clear - Hsort. induction c0 as [|q c0 IH]; cbn [app] in Hsort.
    * inversion Hsort as [|a l _ Hf E]. subst. by inversion Hf.
    * apply IH. by inversion Hsort.
Qed.
(** The facts about the tree of some subqueries that completeness rests on. *)
Lemma stackable_fit p mtb tb pms o :
  (forall c, legal pms c -> ord_cmp (sum_weights c) f_max <> Gt) ->
  ids_name_keys (fun pm => pm ∈ pms) -> (forall pm, pm ∈ pms -> ids_distinct pm) -> types_by_zoom pms ->
  all_covered p mtb tb o pms ->
  ids_name_keys (in_tree (stackable pms)) /\ (forall pm, in_tree (stackable pms) pm -> ids_distinct pm) /\
  zooms_nested (stackable pms) /\ boxes_cover p mtb tb o (stackable pms).
Proof.
  intros Hfin Hids Hdist Hzoom Hcov. split; [|split; [|split]].
  - intros pm1 pm2 k1 k2 I1 I2. apply Hids; by apply in_tree_pms.
  - intros pm Hpm. by apply Hdist, in_tree_pms.
  - by apply stackable_zooms.
  - intros pm e Hpm He. apply Hcov; [by apply in_tree_pms|done].
Qed.

(** C60 without its restriction to keys that no quota applies to: a stack is returned, or
    missed for one of the reasons of C60, or because of the shortcut for autocomplete
    leaves, or because one of its keys is under a quota and the keys of the tree are too
    many for that quota. *)
Theorem C61_complete :
  forall p ho mtb tb fuel pms o out chain es,
  fit_for_C60 p mtb tb pms o ->
  tree_coalesce p ho mtb tb fuel (stackable pms) o = Ok out ->
  legal pms (rev chain) -> nested_stack p mtb tb o chain es ->
  ((2 <= length chain)%nat \/ exists pm, legal pms (rev chain ++ [pm])) ->
  exists n, descends (tree_get (stackable pms)) (t_root (stackable pms)) (rev chain) n /\
  (stack_context chain es ∈ out \/ crowded_out 800 out (stack_context chain es) \/
   crowded_key p mtb tb o chain es \/ stopped_early (stackable pms) n chain out \/
   passed_by out n chain es \/ quota_hit (fun c => quota_limit c < tree_uses c (stackable pms)) chain es).
Proof.
  intros p ho mtb tb fuel pms o out chain es (Hnd & Hfew & Hfin & Hids & Hdist & Hzoom & Hcov) H Hleg Hns Hst.
  assert (Hn : exists n, descends (tree_get (stackable pms)) (t_root (stackable pms)) (rev chain) n /\ stacked n chain).
  { destruct Hst as [Hlen|[pm Hpm]].
    - destruct (C47_complete pms Hnd Hfew _ Hleg) as [n Hn]. exists n. split; [done|by left].
    - destruct (C47_complete pms Hnd Hfew _ Hpm) as [m Hm]. apply descends_app in Hm as (n & Hn & Hm). exists n. split; [done|right].
      apply descends_one in Hm as (i & Hi & _). intros E. rewrite E in Hi. by apply elem_of_nil in Hi. }
  destruct Hn as (n & Hn & Hstk). exists n. split; [exact Hn|].
  destruct (stackable_fit p mtb tb pms o Hfin Hids Hdist Hzoom Hcov) as (F1 & F2 & F3 & F4).
  destruct (stackable_tiles pms) as (G & Ha & Ht).
  assert (Hfull : forall c, quota_limit c < tree_uses c (stackable pms) \/ (arena_tiles G (t_arena (stackable pms)) /\
    tiles G 0 (sn_children (t_root (stackable pms))) (am_next (t_arena (stackable pms))) /\ tree_uses c (stackable pms) <= quota_limit c)).
  { intros c. destruct (N.lt_ge_cases (quota_limit c) (tree_uses c (stackable pms))); [by left|by right]. }
  destruct (tree_complete_quota p ho mtb tb (stackable pms) o F1 F2 F3 F4 G _ Hfull fuel out n chain es H (nested_node _ _ _ _ _ _ _ Hns _ Hn) Hstk)
    as [?|[?|[(D & D1 & D2 & D3)|[?|[?|?]]]]]; auto 10.
  right. right. left. exists D. split; [done|]. split; [done|]. intros es' Hes. destruct (D3 es' Hes) as (X1 & X2 & X3 & X4).
  split; [by eapply node_nested|]. done.
Qed.
Print Assumptions C61_complete.

(** In particular nothing is missed when the keys fit into the quotas and the shortcut
    does not apply. *)
Theorem C61_all :
  forall p ho mtb tb fuel pms o out chain es,
  fit_for_C60 p mtb tb pms o ->
  tree_coalesce p ho mtb tb fuel (stackable pms) o = Ok out -> (length out < 800)%nat ->
  (forall c, tree_uses c (stackable pms) <= quota_limit c) ->
  legal pms (rev chain) -> nested_stack p mtb tb o chain es ->
  ((2 <= length chain)%nat \/ exists pm, legal pms (rev chain ++ [pm])) ->
  (forall pm k, pm ∈ chain -> k ∈ sq_keys pm -> one_word pm k && high_zoom pm = false) ->
  (forall D, NoDup D -> (forall es', es' ∈ D -> nested_stack p mtb tb o chain es' /\ es' <> es) -> (length D < 40)%nat) ->
  stack_context chain es ∈ out.
Proof.
  intros p ho mtb tb fuel pms o out chain es Hfit H Hlen Hq Hleg Hns Hst Hsc Hfew.
  destruct (C61_complete p ho mtb tb fuel pms o out chain es Hfit H Hleg Hns Hst)
    as (n & _ & [?|[[E _]|[(D & D1 & D2 & D3)|[[E _]|[Hp|(i & pm & e & k & c & _ & _ & _ & _ & _ & Hc)]]]]]); [done|lia| |lia| |].
  - specialize (Hfew D D1). enough (length D < 40)%nat by lia. apply Hfew. intros es' Hes. destruct (D3 es' Hes) as (? & _ & ? & _). done.
  - destruct Hp as (pm & rest & e & es' & k & b & r & -> & _ & Hk & _ & Hw & Hh & _).
    assert (Hin : pm ∈ pm :: rest) by (by left). pose proof (Hsc pm k Hin Hk) as E. by rewrite Hw, Hh in E.
  - specialize (Hq c). lia.
Qed.
Print Assumptions C61_all.

(** Entries of any of the keys. *)
Definition with_keys (pm : subquery) (ks : list match_key_id) : subquery :=
  Subquery (sq_store pm) (sq_idx pm) (sq_nonoverlap pm) (sq_weight pm) (sq_mask pm) ks.
Lemma stack_entry_keys p mtb tb o pm ks e :
  (forall k, k ∈ ks -> k ∈ sq_keys pm) -> stack_entry p mtb tb o (with_keys pm ks) e -> stack_entry p mtb tb o pm e.
Proof.
  intros Hks (k & g & (ko & l & i & Hk & R) & He). exists k, g. split; [|exact He]. exists ko, l, i. split; [by apply Hks|exact R].
Qed.

(** Nine autocomplete ranges of one letter below another layer. They are first looked up
    on their own, which uses up the quota for one letter; the stacks on the other layer
    are then not looked for, although they are the best and the result has room. *)
Definition q_key (i : nat) : match_key_id := MatchKeyWithId (MatchKey (Range 1 3) 1) false (N.of_nat i) 1.
Definition q_a : subquery := s_layer 2 20 2.
Definition q_b : subquery := with_keys (s_layer 3 21 1) (map q_key (seq 1 9)).
Definition q_all : list subquery := [q_a; q_b].
Definition q_es (i : nat) : list coalesce_entry :=
  [ex_entry Debug first_mtb first_tb t_opts (with_keys q_b [q_key i]) 0; ex_entry Debug first_mtb first_tb t_opts q_a 0].
Definition has_id (id : N) (out : list coalesce_context) : bool :=
  existsb (fun d => existsb (fun e => ce_phrasematch_id e =? id) (cc_entries d)) out.
Lemma room_no id x n :
  match x with Ok out => negb (has_id id out) && Nat.eqb (length out) n | _ => false end = true ->
  exists out, x = Ok out /\ has_id id out = false /\ length out = n.
Proof.
  destruct x as [out| | |]; try done. intros [H1 H2]%andb_prop. exists out. split; [done|].
  split; [by apply negb_true_iff|by apply Nat.eqb_eq].
Qed.
Lemma q_fit : fit_for_C60 Debug first_mtb first_tb q_all t_opts.
Proof. apply fit_ok. vm_compute. reflexivity. Qed.
Lemma q_legal : legal q_all [q_a; q_b].
Proof.
  split; [|split; [|split]].
  - intros pm Hpm. exact Hpm.
  - constructor; [constructor; constructor|]. constructor; [reflexivity|constructor].
  - unfold disjoint_masks. cbn. repeat constructor.
  - split; [reflexivity|]. split; [reflexivity|]. exact I.
Qed.
Lemma q_nested i : In i (seq 1 9) ->
  ex_entryb Debug first_mtb first_tb t_opts (with_keys q_b [q_key i]) 0 = true ->
  e_cell (ex_entry Debug first_mtb first_tb t_opts (with_keys q_b [q_key i]) 0) = (1, 1) ->
  nested_stack Debug first_mtb first_tb t_opts [q_b; q_a] (q_es i).
Proof.
  intros Hi He Hc. unfold q_es. apply nst_more; [apply nst_one| | |].
  - apply ex_entry_ok. vm_compute. reflexivity.
  - apply (stack_entry_keys _ _ _ _ q_b [q_key i]); [|by apply ex_entry_ok].
    intros k Hk. apply elem_of_list_singleton in Hk as ->. apply elem_of_map. exists i. split; [done|by apply elem_of_list_In].
  - rewrite Hc. vm_compute. reflexivity.
  - rewrite Hc. vm_compute. reflexivity.
Qed.
Lemma room_less x c n :
  match x with
  | Ok out => (Nat.eqb (length out) n) && forallb (fun d => match ord_cmp (cc_relev d) (cc_relev c) with Lt => true | _ => false end) out
  | _ => false
  end = true ->
  exists out, x = Ok out /\ length out = n /\ forall d, d ∈ out -> ord_cmp (cc_relev d) (cc_relev c) = Lt.
Proof.
  destruct x as [out| | |]; try done. intros [H1 H2]%andb_prop. exists out. split; [done|].
  split; [by apply Nat.eqb_eq|]. intros d Hd. apply (forallb_in _ _ H2) in Hd. by destruct (ord_cmp (cc_relev d) (cc_relev c)).
Qed.
Theorem C61_roomy_refuted :
  exists pms o chain es out,
  fit_for_C60 Debug first_mtb first_tb pms o /\ legal pms (rev chain) /\ length chain = 2%nat /\
  nested_stack Debug first_mtb first_tb o chain es /\
  tree_coalesce Debug id_oracle first_mtb first_tb 99 (stackable pms) o = Ok out /\
  length out = 9%nat /\ forall d, d ∈ out -> ord_cmp (cc_relev d) (cc_relev (stack_context chain es)) = Lt.
Proof.
  exists q_all, t_opts, [q_b; q_a], (q_es 1).
  destruct (room_less (tree_coalesce Debug id_oracle first_mtb first_tb 99 (stackable q_all) t_opts) (stack_context [q_b; q_a] (q_es 1)) 9)
    as (out & H1 & H2 & H3); [vm_compute; reflexivity|].
  exists out. split; [exact q_fit|]. split; [exact q_legal|]. split; [exact eq_refl|].
  split; [apply q_nested; [cbn; tauto|vm_compute; reflexivity|vm_compute; reflexivity]|].
  exact (conj H1 (conj H2 H3)).
Qed.
Print Assumptions C61_roomy_refuted.
(** With four of them, which the tree asks for twice, the quotas are kept and C61_all applies. *)
Definition q_b4 : subquery := with_keys q_b (map q_key (seq 1 4)).
Example C61_all_ex :
  fit_for_C60 Debug first_mtb first_tb [q_a; q_b4] t_opts /\
  (forall c, tree_uses c (stackable [q_a; q_b4]) <= quota_limit c) /\
  tree_uses OneLetter (stackable [q_a; q_b4]) = 8 /\
  (forall pm k, pm ∈ [q_b4; q_a] -> k ∈ sq_keys pm -> one_word pm k && high_zoom pm = false) /\
  under_quota OneLetter q_b4 (q_key 4) = true /\
  exists out, tree_coalesce Debug id_oracle first_mtb first_tb 99 (stackable [q_a; q_b4]) t_opts = Ok out /\ length out = 9%nat.
Proof.
  split; [apply fit_ok; vm_compute; reflexivity|]. split; [|split; [|split; [|split]]].
  - intros []; apply N.leb_le; vm_compute; reflexivity.
  - vm_compute. reflexivity.
  - intros pm k Hpm Hk.
    enough (H : forallb (fun pm => forallb (fun k => negb (one_word pm k && high_zoom pm)) (sq_keys pm)) [q_b4; q_a] = true).
    { apply (forallb_in _ _ H) in Hpm. apply (forallb_in _ _ Hpm) in Hk. by apply negb_true_iff in Hk. }
    vm_compute. reflexivity.
  - vm_compute. reflexivity.
  - destruct (room_no 99 (tree_coalesce Debug id_oracle first_mtb first_tb 99 (stackable [q_a; q_b4]) t_opts) 9) as (out & H1 & _ & H3);
      [vm_compute; reflexivity|]. exists out. exact (conj H1 H3).
Qed.
(** The eight keys that are looked up reach the limit of C61_limits. *)
Example C61_limits_ex :
  exists out, tree_coalesce Debug id_oracle first_mtb first_tb 99 (stackable q_all) t_opts = Ok out /\
  forall id, id ∈ map N.of_nat (seq 1 8) -> exists d e, d ∈ out /\ e ∈ cc_entries d /\ ce_phrasematch_id e = id.
Proof.
  assert (H : match tree_coalesce Debug id_oracle first_mtb first_tb 99 (stackable q_all) t_opts with
    | Ok out => forallb (fun id => has_id id out) (map N.of_nat (seq 1 8)) | _ => false end = true) by (vm_compute; reflexivity).
  destruct (tree_coalesce Debug id_oracle first_mtb first_tb 99 (stackable q_all) t_opts) as [out| | |]; try discriminate H.
  exists out. split; [exact eq_refl|]. intros id Hid. apply (forallb_in _ _ H) in Hid. apply existsb_exists in Hid as (d & Hd & Hid).
  apply existsb_exists in Hid as (e & He & Hid). exists d, e. split; [by apply elem_of_list_In|]. split; [by apply elem_of_list_In|lia].
Qed.

(** The shortcut: an autocomplete leaf of high zoom is not looked up once something of
    higher relevance was found, although the result has room. *)
Definition w_layer (zoom type idx mask : N) (w : f64) (ph : match_phrase) : subquery :=
  Subquery (open_store (ex_db id_oracle (layer_ops 1 [GridEntry f_one 1 1 1 1 0])) zoom type (f_of_N 40)
              [BBox 0 0 16383 16383] f_zero) idx 0 w mask [MatchKeyWithId (MatchKey ph 1) false (1000 + idx) 2].
Definition w_all : list subquery :=
  [w_layer 14 1 20 3 f_one (Exact 1); w_layer 14 2 21 2 (f_lit 2 10) (Exact 1); w_layer 14 3 22 1 (f_lit 2 10) (Range 1 3)].
Definition w_chain : list subquery := rev (drop 1 w_all).
Definition w_es : list coalesce_entry := map (fun pm => ex_entry Debug first_mtb first_tb t_opts pm 0) w_chain.
Lemma room_short x n :
  match x with Ok out => forallb (fun d => Nat.eqb (length (cc_entries d)) 1) out && Nat.eqb (length out) n | _ => false end = true ->
  exists out, x = Ok out /\ (forall d, d ∈ out -> length (cc_entries d) = 1%nat) /\ length out = n.
Proof.
  destruct x as [out| | |]; try done. intros [H1 H2]%andb_prop. exists out. split; [done|].
  split; [|by apply Nat.eqb_eq]. intros d Hd. apply (forallb_in _ _ H1) in Hd. by apply Nat.eqb_eq.
Qed.
Lemma w_fit : fit_for_C60 Debug first_mtb first_tb w_all t_opts.
Proof. apply fit_ok. vm_compute. reflexivity. Qed.
Lemma w_legal : legal w_all (rev w_chain).
Proof.
  split; [|split; [|split]].
  - intros pm Hpm. unfold w_chain in Hpm. rewrite rev_involutive in Hpm. by apply elem_of_list_further.
  - constructor; [constructor; constructor|]. constructor; [reflexivity|constructor].
  - unfold disjoint_masks. cbn. repeat constructor.
  - split; [reflexivity|]. split; [reflexivity|]. exact I.
Qed.
Lemma w_nested : nested_stack Debug first_mtb first_tb t_opts w_chain w_es.
Proof.
  unfold w_es, w_chain, w_all. cbn [drop rev app map]. apply nst_more; [apply nst_one| | |].
  - apply ex_entry_ok. vm_compute. reflexivity.
  - apply ex_entry_ok. vm_compute. reflexivity.
  - vm_compute. reflexivity.
  - vm_compute. reflexivity.
Qed.
Theorem C61_shortcut_refuted :
  exists pms o chain es out,
  fit_for_C60 Debug first_mtb first_tb pms o /\ legal pms (rev chain) /\ length chain = 2%nat /\
  nested_stack Debug first_mtb first_tb o chain es /\
  (forall c, tree_uses c (stackable pms) <= quota_limit c) /\
  tree_coalesce Debug id_oracle first_mtb first_tb 99 (stackable pms) o = Ok out /\
  length out = 3%nat /\ stack_context chain es ∉ out.
Proof.
  exists w_all, t_opts, w_chain, w_es.
  destruct (room_short (tree_coalesce Debug id_oracle first_mtb first_tb 99 (stackable w_all) t_opts) 3) as (out & H1 & H2 & H3);
    [vm_compute; reflexivity|].
  exists out. split; [exact w_fit|]. split; [exact w_legal|]. split; [exact eq_refl|]. split; [exact w_nested|].
  split; [intros []; apply N.leb_le; vm_compute; reflexivity|].
  split; [exact H1|]. split; [exact H3|]. intros H. discriminate (H2 _ H).
Qed.
Print Assumptions C61_shortcut_refuted.
