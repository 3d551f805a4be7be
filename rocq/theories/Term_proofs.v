(** Termination: which computations of the model never give [Diverge]. *)
From Verif Require Import Prelude Lists F64 Heap Common Morton Format Spatial Builder Store Query Coalesce Stackable Tree.
From Verif Require Import Cmp_proofs Queue_proofs Coalesce_proofs Spec_stack Stack_proofs Spec_tree Tree_proofs.
Local Open Scope N_scope.

Definition halts {A} (r : res A) : Prop := r <> Diverge.

Lemma halts_Ok {A} (a : A) : halts (Ok a). Proof. done. Qed.
Lemma halts_Err {A} : halts (@Err A). Proof. done. Qed.
Lemma halts_Panic {A} : halts (@Panic A). Proof. done. Qed.
Lemma halts_bind {A B} (m : res A) (k : A -> res B) :
  halts m -> (forall a, m = Ok a -> halts (k a)) -> halts (res_bind m k).
Proof. unfold halts. destruct m; cbn [res_bind]; intros H1 H2; [by apply H2|done|done|done]. Qed.
Lemma halts_mapM {A B} (f : A -> res B) l : (forall a, a ∈ l -> halts (f a)) -> halts (res_mapM f l).
Proof.
  induction l as [|a l IH]; intros H; cbn [res_mapM]; [done|]. apply halts_bind; [apply H; by left|]. intros b _.
  apply halts_bind; [|intros; done]. apply IH. intros x Hx. apply H. by right.
Qed.
Lemma halts_foldl {A S} (f : S -> A -> res S) l : forall s, (forall s a, a ∈ l -> halts (f s a)) -> halts (res_foldl f s l).
Proof.
  induction l as [|a l IH]; intros s H; cbn [res_foldl]; [done|]. apply halts_bind; [apply H; by left|]. intros b _.
  apply IH. intros s' x Hx. apply H. by right.
Qed.
Create HintDb halts.
Ltac halt1 :=
  match goal with
  | |- forall _, _ => intro
  | |- halts (Ok _) => apply halts_Ok
  | |- halts Err => apply halts_Err
  | |- halts Panic => apply halts_Panic
  | |- halts (res_bind _ _) => apply halts_bind; [|intros ? ?]
  | |- halts (res_mapM _ _) => apply halts_mapM; intros ? ?
  | |- halts (res_foldl _ _ _) => apply halts_foldl; intros ? ? ?
  | |- halts (match ?x with _ => _ end) => destruct x eqn:?
  | |- halts (let '(_, _) := ?x in _) => destruct x eqn:?
  | |- halts _ => solve [eauto with halts]
  end.
Ltac halt := repeat (cbn beta iota zeta; halt1).

Lemma halts_uadd p w a b : halts (uadd p w a b). Proof. unfold uadd. halt. Qed.
Lemma halts_usub p w a b : halts (usub p w a b). Proof. unfold usub. halt. Qed.
Lemma halts_umul p w a b : halts (umul p w a b). Proof. unfold umul. halt. Qed.
Lemma halts_ushl p w a b : halts (ushl p w a b). Proof. unfold ushl. halt. Qed.
Lemma halts_ushr p w a b : halts (ushr p w a b). Proof. unfold ushr. halt. Qed.
Lemma halts_index {A} (l : list A) i : halts (index l i). Proof. unfold index. halt. Qed.
Lemma halts_slice_from {A} (l : list A) i : halts (slice_from l i). Proof. unfold slice_from. halt. Qed.
Lemma halts_slice {A} (l : list A) i j : halts (slice l i j). Proof. unfold slice. halt. Qed.
Lemma halts_assert p b : halts (debug_assert p b). Proof. unfold debug_assert. halt. Qed.
Global Hint Resolve halts_uadd halts_usub halts_umul halts_ushl halts_ushr halts_index halts_slice_from halts_slice halts_assert : halts.

(** ** Decoding *)
Lemma halts_read_root d : halts (read_root d). Proof. unfold read_root. halt. Qed.
Lemma halts_vec_header d a : halts (read_vec_header d a). Proof. unfold read_vec_header. halt. Qed.
Global Hint Resolve halts_read_root halts_vec_header : halts.
Lemma halts_fixed_vec d a : halts (read_fixed_vec d a). Proof. unfold read_fixed_vec. halt. Qed.
Lemma halts_read_coord d s i : halts (read_coord d s i). Proof. unfold read_coord. halt. Qed.
Global Hint Resolve halts_fixed_vec halts_read_coord : halts.
Lemma halts_uniform_vec d a : halts (read_uniform_vec d a). Proof. unfold read_uniform_vec. halt. Qed.
Lemma halts_relev_score d i : halts (read_relev_score d i). Proof. unfold read_relev_score. halt. Qed.
Global Hint Resolve halts_uniform_vec halts_relev_score : halts.
Lemma halts_var_items d n : forall i, halts (read_var_items d i n).
Proof. induction n as [|n IH]; intros i; cbn [read_var_items]; halt. Qed.
Global Hint Resolve halts_var_items : halts.
Lemma halts_var_vec d a : halts (read_var_vec d a). Proof. unfold read_var_vec. halt. Qed.
Global Hint Resolve halts_var_vec : halts.

(** ** Selecting by area *)
Lemma halts_bsearch_loop coords val fuel : forall base size, (size <= fuel)%nat -> halts (bsearch_loop fuel coords val base size).
Proof.
  induction fuel as [|fuel IH]; intros base size Hle; cbn [bsearch_loop].
  - destruct (Nat.ltb_spec 1 size); [lia|]. halt.
  - destruct (Nat.ltb_spec 1 size) as [H|H]; [|halt]. apply halts_bind; [auto with halts|]. intros c _. apply IH.
    assert (size / 2 >= 1)%nat by (apply Nat.div_le_lower_bound; lia). lia.
Qed.
Lemma halts_search coords val off : halts (coord_binary_search coords val off).
Proof.
  unfold coord_binary_search. destruct (_ <=? _)%nat; [halt|]. cbn zeta.
  apply halts_bind; [by apply halts_bsearch_loop|]. halt.
Qed.
Lemma halts_or_none {A B} (m : res A) (k : A -> res (option B)) :
  halts m -> (forall a, halts (k a)) -> halts (or_none m k).
Proof. unfold halts. destruct m; cbn [or_none]; intros H1 H2; [by apply H2|done|done|done]. Qed.
Global Hint Resolve halts_search : halts.
Lemma halts_bbox_range p coords b : halts (bbox_range p coords b).
Proof.
  unfold bbox_range. halt. apply halts_or_none; [auto with halts|]. intros st.
  apply halts_or_none; [auto with halts|]. intros en. halt.
Qed.
Global Hint Resolve halts_bbox_range : halts.
Lemma halts_bbox_filter p coords b : halts (bbox_filter p coords b). Proof. unfold bbox_filter, get_all. halt. Qed.
Lemma halts_proximity coords pt : halts (proximity coords pt).
Proof.
  unfold proximity, get_all. cbn zeta. destruct (_ =? _)%nat; [halt|].
  apply halts_or_none; [auto with halts|]. intros mid. halt.
Qed.
Lemma halts_bbox_proximity p coords b pt : halts (bbox_proximity_filter p coords b pt).
Proof.
  unfold bbox_proximity_filter, get_all. apply halts_bind; [auto with halts|]. intros [[s e]|] _; [|halt].
  cbn zeta. destruct (_ =? _)%nat; [halt|]. apply halts_or_none; [auto with halts|]. intros mid. halt.
Qed.
Global Hint Resolve halts_bbox_filter halts_proximity halts_bbox_proximity : halts.
Lemma halts_select_coords p o coords : halts (select_coords p o coords). Proof. unfold select_coords. halt. Qed.
Global Hint Resolve halts_select_coords : halts.

(** ** The store *)
Lemma halts_relev_group p tb v o lang radius g : halts (decode_relev_group p tb v o lang radius g).
Proof. unfold decode_relev_group. halt. Qed.
Global Hint Resolve halts_relev_group : halts.
Lemma halts_matching_value p tb v o lang radius : halts (decode_matching_value p tb v o lang radius).
Proof. unfold decode_matching_value. halt. Qed.
Lemma halts_matches_key k m b : halts (matches_key k m b).
Proof. unfold matches_key, read_key_phrase. halt. Qed.
Lemma halts_matches_language k b : halts (matches_language k b).
Proof. unfold matches_language, read_lang. halt. Qed.
Global Hint Resolve halts_matching_value halts_matches_key halts_matches_language : halts.
Lemma halts_take_matching k m l : halts (take_matching k m l).
Proof.
  induction l as [|kv l IH]; cbn [take_matching]; [halt|]. pose proof (halts_matches_key k m kv.1) as H.
  destruct (matches_key k m kv.1) as [[]| | |]; try done. halt.
Qed.
Lemma halts_queue_record p mtb tb s k o n q kv : halts (queue_record p mtb tb s k o n q kv).
Proof.
  unfold queue_record. apply halts_bind; [|halt]. pose proof (halts_matches_language k kv.1) as H.
  by destruct (matches_language k kv.1).
Qed.
Lemma halts_fetch_range p s ph : halts (fetch_range p s ph). Proof. unfold fetch_range. halt. Qed.
Global Hint Resolve halts_take_matching halts_queue_record halts_fetch_range : halts.
Lemma halts_streaming p mtb tb s k o n : halts (streaming_get_matching p mtb tb s k o n).
Proof. unfold streaming_get_matching. halt. Qed.
Global Hint Resolve halts_streaming : halts.

(** ** Options *)
Lemma halts_adjust_bbox p b z z' : halts (adjust_bbox_zoom p b z z'). Proof. unfold adjust_bbox_zoom. halt. Qed.
Lemma halts_adjust_point p b z z' : halts (adjust_point_zoom p b z z'). Proof. unfold adjust_point_zoom. halt. Qed.
Global Hint Resolve halts_adjust_bbox halts_adjust_point : halts.
Lemma halts_adjust p o z : halts (adjust_to_zoom p o z). Proof. unfold adjust_to_zoom, res_option. halt. Qed.
Lemma halts_nearby p o : halts (with_nearby_only p o). Proof. unfold with_nearby_only. halt. Qed.
Global Hint Resolve halts_adjust halts_nearby : halts.

(** ** The pieces of one round *)
Lemma halts_to_entry p g sq o pid : halts (grid_to_coalesce_entry p g sq o pid).
Proof. unfold grid_to_coalesce_entry. halt. Qed.
Global Hint Resolve halts_to_entry : halts.
Lemma halts_single_loop p sq o pid l : forall s, halts (single_loop p sq o pid l s).
Proof. induction l as [|g l IH]; intros s; cbn [single_loop]; halt. Qed.
Global Hint Resolve halts_single_loop : halts.
Lemma halts_fetch_key p mtb tb k : halts (fetch_key p mtb tb k).
Proof. unfold fetch_key, tree_coalesce_single. halt. Qed.
Lemma halts_make_step p n prev z o r : halts (make_step p n prev z o r).
Proof. unfold make_step. halt. Qed.
Global Hint Resolve halts_fetch_key halts_make_step : halts.
Lemma halts_first_step p t o h i : halts (first_step p t o h i). Proof. unfold first_step. halt. Qed.
Lemma halts_child_step p t o st z r acc i : halts (child_step p t o st z r acc i). Proof. unfold child_step. halt. Qed.
Lemma halts_stack_on tb st e prev a i : halts (stack_on tb st e prev a i). Proof. unfold stack_on. halt. Qed.
Global Hint Resolve halts_first_step halts_child_step halts_stack_on : halts.
Lemma halts_stack_grid p ho_ tb site st sc k a ig : halts (stack_grid p ho_ tb site st sc k a ig).
Proof. unfold stack_grid. halt. Qed.
Global Hint Resolve halts_stack_grid : halts.
Lemma halts_stack_key p ho_ tb site cache st sc a ik : halts (stack_key p ho_ tb site cache st sc a ik).
Proof. unfold stack_key. halt. Qed.
Global Hint Resolve halts_stack_key : halts.
Lemma halts_run_step p ho_ tb t o cache site st : halts (run_step p ho_ tb t o cache site st).
Proof. unfold run_step. halt. Qed.
Lemma halts_gather_key p cache best st a k : halts (gather_key p cache best st a k).
Proof. unfold gather_key, key_is_range. halt. Qed.
Global Hint Resolve halts_run_step halts_gather_key : halts.
Lemma halts_gather p tb cache q fuel : forall s, (length (hp_items (gt_steps s)) < fuel)%nat -> halts (gather p tb cache q fuel s).
Proof.
  induction fuel as [|fuel IH]; intros s Hl; [lia|]. cbn [gather]. destruct (_ <=? _); [halt|].
  destruct (hp_pop_max step_cmp tb (gt_steps s)) as [[st steps']|] eqn:Ep; [|halt].
  destruct (hp_pop_max_ok step_cmp tb _ _ _ Ep) as [Hp _].
  apply halts_bind; [halt|]. intros stop _. destruct stop; [halt|]. cbn zeta.
  apply halts_bind; [halt|]. intros [[[keys uniq] qq] enq] _. apply IH. cbn [gt_steps].
  rewrite (Permutation_length Hp) in Hl. cbn [length] in Hl. lia.
Qed.
Lemma halts_round p ho_ mtb tb t o round s : halts (tree_round p ho_ mtb tb t o round s).
Proof.
  unfold tree_round. apply halts_bind; [apply halts_gather; cbn [gt_steps]; lia|]. intros g _. halt.
Qed.

(** ** Nodes are allocated in post-order *)
Section tiles.
  Notation ghost := (gmap N N).
  (** The subtrees of the children [cs] occupy disjoint intervals of indexes, in
      order, between [lo] and [hi]; [G] is where the interval of a node starts. *)
  Fixpoint tiles (G : ghost) (lo : N) (cs : list N) (hi : N) : Prop :=
    match cs with
    | [] => lo <= hi
    | j :: cs' => exists l, G !! j = Some l /\ lo <= l /\ l <= j /\ tiles G (j + 1) cs' hi
    end.
  Record arena_tiles (G : ghost) (a : arena) : Prop := {
    at_dom : forall i, is_Some (G !! i) -> i < am_next a;
    at_node : forall i n, am_nodes a !! i = Some n -> exists l, G !! i = Some l /\ tiles G l (sn_children n) i }.

  Lemma tiles_mono G G' lo cs hi : G ⊆ G' -> tiles G lo cs hi -> tiles G' lo cs hi.
  Proof.
    intros HG. revert lo. induction cs as [|j cs IH]; intros lo; cbn [tiles]; [done|].
    intros (l & H1 & H2 & H3 & H4). exists l. split; [by eapply lookup_weaken|]. auto.
  Qed.
  Lemma tiles_hi G lo cs hi hi' : hi <= hi' -> tiles G lo cs hi -> tiles G lo cs hi'.
  Proof.
    intros Hle. revert lo. induction cs as [|j cs IH]; intros lo; cbn [tiles]; [lia|].
    intros (l & H1 & H2 & H3 & H4). exists l. auto.
  Qed.
  Lemma tiles_le G lo cs hi : tiles G lo cs hi -> lo <= hi.
  Proof.
    revert lo. induction cs as [|j cs IH]; intros lo; cbn [tiles]; [done|]. intros (l & _ & ? & ? & H). apply IH in H. lia.
  Qed.
  Lemma tiles_snoc G lo cs hi i l : tiles G lo cs hi -> G !! i = Some l -> hi <= l -> l <= i -> tiles G lo (cs ++ [i]) (i + 1).
  Proof.
    intros Ht Hi Hl Hli. revert lo Ht. induction cs as [|j cs IH]; intros lo; cbn [tiles app].
    - intros Hlo. exists l. split; [done|]. lia.
    - intros (l' & H1 & H2 & H3 & H4). exists l'. auto.
  Qed.

  Lemma attach_tiles G a lo m n child n' a' :
    arena_tiles G a -> tiles G lo (sn_children n) m -> tiles G m (sn_children child) (am_next a) ->
    attach n child a = (n', a') ->
    exists G', G ⊆ G' /\ arena_tiles G' a' /\ tiles G' lo (sn_children n') (am_next a') /\ am_next a <= am_next a'.
  Proof.
    intros Ha Hn Hc H. pose proof (tiles_le _ _ _ _ Hc) as Hm. unfold attach in H.
    destruct (arena_add a child) as [[i|] a1] eqn:E.
    2:{ injection H as <- <-. apply arena_add_none in E as ->. exists G. split; [done|]. split; [done|].
        split; [by eapply tiles_hi|lia]. }
    apply arena_add_some in E as (Hi & Hnext & Hnodes). injection H as <- <-. cbn [sn_children].
    assert (Hfresh : G !! i = None).
    { destruct (G !! i) eqn:El; [|done]. exfalso. pose proof (at_dom _ _ Ha i ltac:(eauto)). lia. }
    assert (HG : G ⊆ <[i := m]> G) by (by apply insert_subseteq).
    exists (<[i := m]> G). split; [done|]. split; [|split; [|lia]].
    - split.
      + intros j Hj. apply lookup_insert_is_Some in Hj as [<-|[_ Hj]]; [lia|]. pose proof (at_dom _ _ Ha j Hj). lia.
      + intros j c Hj. destruct (Hnodes j c Hj) as [[-> ->]|Hold].
        * exists m. split; [by rewrite lookup_insert|]. subst i. by apply (tiles_mono G).
        * destruct (at_node _ _ Ha j c Hold) as (l & Hl & Ht). exists l. split; [by eapply lookup_weaken|by eapply tiles_mono].
    - assert (Hx : am_next a1 = i + 1) by lia. rewrite Hx.
      eapply tiles_snoc; [by eapply tiles_mono|by rewrite lookup_insert|done|lia].
  Qed.

  Lemma visit_tiles bins : forall r n a G lo n' a',
    arena_tiles G a -> tiles G lo (sn_children n) (am_next a) -> visit bins r n a = (n', a') ->
    exists G', G ⊆ G' /\ arena_tiles G' a' /\ tiles G' lo (sn_children n') (am_next a') /\ am_next a <= am_next a'.
  Proof.
    induction bins as [|b rest IH]; intros r n a G lo n' a' Ha Hn H; cbn [visit] in H.
    { injection H as <- <-. exists G. done. }
    match type of H with (let '(_, _) := foldl ?f _ _ in _) = _ => set (F := f) in H end.
    assert (Hloop : forall l n a G n1 a1, arena_tiles G a -> tiles G lo (sn_children n) (am_next a) -> foldl F (n, a) l = (n1, a1) ->
      exists G', G ⊆ G' /\ arena_tiles G' a1 /\ tiles G' lo (sn_children n1) (am_next a1) /\ am_next a <= am_next a1).
    { clear n a G n' a' Ha Hn H. induction l as [|pm l IHl]; intros n a G n1 a1 Ha Hn H; cbn [foldl] in H.
      { injection H as <- <-. exists G. done. }
      unfold F at 2 in H. destruct (can_stack n pm); [|by eapply IHl].
      destruct (is_full a && fltb _ _); [by eapply IHl|].
      destruct (visit rest (fadd r (sq_weight pm)) (child_node n pm (fadd r (sq_weight pm))) a) as [child a2] eqn:Ev.
      destruct (IH (fadd r (sq_weight pm)) (child_node n pm (fadd r (sq_weight pm))) a G (am_next a) child a2) as (G2 & HG2 & Ha2 & Hc2 & Hx2);
        [done|cbn [child_node sn_children tiles]; lia|done|].
      destruct (attach n child a2) as [n3 a3] eqn:Ea.
      destruct (attach_tiles G2 a2 lo (am_next a) n child n3 a3) as (G3 & HG3 & Ha3 & Hn3 & Hx3); [done|by eapply tiles_mono|done|done|].
      destruct (IHl n3 a3 G3 n1 a1) as (G4 & HG4 & Ha4 & Hn4 & Hx4); [done|done|done|].
      exists G4. split; [by etransitivity; [exact HG2|etransitivity]|]. split; [done|]. split; [done|]. lia. }
    destruct (foldl F (n, a) (pb_pms b)) as [n1 a1] eqn:E.
    destruct (Hloop (pb_pms b) n a G n1 a1) as (G1 & HG1 & Ha1 & Hn1 & Hx1); [done..|].
    destruct (IH r n1 a1 G1 lo n' a') as (G2 & HG2 & Ha2 & Hn2 & Hx2); [done..|].
    exists G2. split; [by etransitivity|]. split; [done|]. split; [done|]. lia.
  Qed.
  Lemma stackable_tiles pms : exists G, arena_tiles G (t_arena (stackable pms)) /\
    tiles G 0 (sn_children (t_root (stackable pms))) (am_next (t_arena (stackable pms))).
  Proof.
    unfold stackable. destruct (visit (make_bins pms) f_zero root_node arena_new) as [root a] eqn:E.
    destruct (visit_tiles (make_bins pms) f_zero root_node arena_new ∅ 0 root a) as (G & _ & Ha & Hn & _); [| |done|].
    - split.
      + intros i [x Hx]. by rewrite lookup_empty in Hx.
      + intros i n Hi. cbn [arena_new am_nodes] in Hi. by rewrite lookup_empty in Hi.
    - cbn. lia.
    - eauto.
  Qed.
End tiles.

(** ** The loop *)
Section loop.
  Context (p : profile) (ho_ : hash_oracle) (mtb : merge_tb) (tb : tiebreak) (t : tree) (o : match_opts).
  Context (G : gmap N N) (HG : arena_tiles G (t_arena t)).
  (** Nodes have a weight; [S i] is at least the weight of all nodes before [i]. *)
  Context (S : N -> N) (own : node -> N) (HSm : forall a b, a <= b -> S a <= S b)
    (HS : forall i n, tree_get t i = Some n -> S i + own n <= S (i + 1)).
  Definition weighs (st : tstep) (w : N) : Prop :=
    exists i l, tree_get t i = Some (tp_node st) /\ G !! i = Some l /\ S l + w = S (i + 1).
  Definition owns (l : list tstep) : N := foldr (fun st n => own (tp_node st) + n) 0 l.
  Inductive heavy : list tstep -> N -> Prop :=
    | heavy_nil : heavy [] 0
    | heavy_cons st l w W : weighs st w -> heavy l W -> heavy (st :: l) (w + W).
  Lemma heavy_app l1 l2 W1 W2 : heavy l1 W1 -> heavy l2 W2 -> heavy (l1 ++ l2) (W1 + W2).
  Proof. intros H. induction H as [|st l w W Hw H IH]; intros H2; [done|]. cbn [app]. rewrite <- N.add_assoc. constructor; auto. Qed.
  Lemma heavy_app_inv l1 l2 W : heavy (l1 ++ l2) W -> exists W1 W2, heavy l1 W1 /\ heavy l2 W2 /\ W = W1 + W2.
  Proof.
    revert W. induction l1 as [|st l1 IH]; intros W H; cbn [app] in H.
    - exists 0, W. split; [constructor|done].
    - inversion H as [|? ? w W0 Hw H0]; subst. destruct (IH _ H0) as (W1 & W2 & H1 & H2 & ->).
      exists (w + W1), W2. split; [by constructor|]. split; [done|lia].
  Qed.
  Lemma heavy_perm l1 l2 : l1 ≡ₚ l2 -> forall W, heavy l1 W -> heavy l2 W.
  Proof.
    intros Hp. induction Hp as [|st l1 l2 Hp IH|x y l|l1 l2 l3 H1 IH1 H2 IH2]; intros W H; [done| | |auto].
    - inversion H; subst. constructor; auto.
    - inversion H as [|? ? wx ? Hx H']; subst. inversion H' as [|? ? wy W2 Hy H'']; subst.
      replace (wx + (wy + W2)) with (wy + (wx + W2)) by lia. by repeat constructor.
  Qed.
  Lemma heavy_sel prev pz kids sel lo hi : steps_for p t o prev pz kids sel -> tiles G lo kids hi ->
    exists W, heavy (map snd sel) W /\ S lo + W <= S hi.
  Proof.
    intros [Hsub Hall]. revert lo hi sel Hsub Hall. induction kids as [|j kids IH]; intros lo hi sel Hsub Hall Ht.
    - apply sublist_nil_r in Hsub. destruct sel; [|done]. exists 0. split; [constructor|]. cbn in Ht. apply HSm in Ht. lia.
    - cbn [tiles] in Ht. destruct Ht as (l & Hl & H1 & H2 & Ht). apply sublist_cons_r in Hsub as [Hsub|(k' & E & Hsub)].
      + destruct (IH _ _ _ Hsub Hall Ht) as (W & HW & Hle). exists W. split; [done|].
        pose proof (HSm lo (j + 1) ltac:(lia)). lia.
      + destruct sel as [|[j' st] sel]; [done|]. cbn [map fst] in E. injection E as -> <-.
        destruct (IH (j + 1) hi sel) as (W & HW & Hle); [done|intros i s Hi; apply Hall; by right|done|].
        destruct (Hall j st ltac:(by left)) as (n & Hn & Hf). exists (S (j + 1) - S l + W). cbn [map snd].
        pose proof (HSm lo l H1). pose proof (HSm l (j + 1) ltac:(lia)). split; [|lia].
        constructor; [|done]. exists j, l. rewrite (sf_node _ _ _ _ _ _ Hf). split; [done|]. split; [done|]. lia.
  Qed.
  Lemma run_light cache site st out next w :
    run_step p ho_ tb t o cache site st = Ok (out, next) -> weighs st w -> exists W, heavy next W /\ W + own (tp_node st) <= w.
  Proof.
    intros H (i & l & Hi & Hl & E). apply run_step_ok in H as (scale & css & sel & R).
    rewrite (rn_next _ _ _ _ _ _ _ _ _ _ R).
    destruct (at_node _ _ HG i _ Hi) as (l' & Hl' & Ht). assert (l' = l) as -> by congruence.
    destruct (heavy_sel _ _ _ _ _ _ (rn_steps _ _ _ _ _ _ _ _ _ _ R) Ht) as (W & HW & Hle). exists W. split; [done|].
    pose proof (HS _ _ Hi). lia.
  Qed.
  Lemma runs_light cache popped : forall rs W,
    Forall2 (fun st r => exists site, run_step p ho_ tb t o cache site st = Ok r) (List.filter not_single popped) rs ->
    heavy popped W -> exists W', heavy (mjoin (map snd rs)) W' /\ W' + owns popped <= W.
  Proof.
    induction popped as [|st popped IH]; intros rs W HF HW; cbn [List.filter] in HF.
    - inversion HF; subst. inversion HW; subst. exists 0. split; [constructor|done].
    - inversion HW as [|? ? w W0 Hw HW0]; subst. destruct (not_single st).
      + inversion HF as [|? [out next] ? rs' [site Hr] HF']; subst. cbn [map snd].
        change (mjoin (?a :: ?b)) with (a ++ mjoin b). destruct (IH _ _ HF' HW0) as (W' & HW' & Hle).
        destruct (run_light _ _ _ _ _ _ Hr Hw) as (W1 & HW1 & Hle1). exists (W1 + W'). split; [by apply heavy_app|].
        cbn [owns foldr]. fold (owns popped). lia.
      + destruct (IH _ _ HF HW0) as (W' & HW' & Hle). exists W'. split; [done|]. cbn [owns foldr]. fold (owns popped).
        assert (own (tp_node st) <= w). { destruct Hw as (i & l & Hi & Hl & E). destruct (at_node _ _ HG i _ Hi) as (l' & Hl' & Ht).
          assert (l' = l) as -> by congruence. apply tiles_le, HSm in Ht. pose proof (HS _ _ Hi). lia. }
        lia.
  Qed.

End loop.

Section halting.
  Context (p : profile) (ho_ : hash_oracle) (mtb : merge_tb) (tb : tiebreak) (t : tree) (o : match_opts).
  Context (G : gmap N N) (HG : arena_tiles G (t_arena t)).
  Notation heavy := (heavy t G id).
  Lemma halts_loop fuel : forall s W, heavy (hp_items (tr_steps s)) W -> W < N.of_nat fuel ->
    halts (tree_loop p ho_ mtb tb t o fuel s).
  Proof.
    induction fuel as [|fuel IH]; intros s W HW Hlt; [lia|]. cbn [tree_loop].
    destruct (hp_items (tr_steps s)) as [|st0 items] eqn:Es; [done|]. rewrite <- Es in HW.
    apply halts_bind; [apply halts_round|]. intros [s' complete] Hr. cbn beta iota. destruct complete eqn:Ec; [done|]. subst.
    apply tree_round_ok in Hr as (g & popped & last & fs & rs & [Hg Hc HF Hrun Hctx Hst _ Hcache]).
    pose proof (gd_steps _ _ _ _ _ _ _ _ Hg) as Hp. pose proof (gd_last _ _ _ _ _ _ _ _ Hg) as Hlast.
    pose proof (gd_progress _ _ _ _ _ _ _ _ Hg) as Hprog. cbn [gt_steps gt_added] in Hp, Hprog.
    rewrite <- Hc in Hlast. subst last. cbn [app] in Hp. rewrite app_nil_r in Hprog.
    assert (Hne : popped <> []) by (apply Hprog; [by rewrite Es|done]).
    apply (heavy_perm _ _ _ _ _ Hp), heavy_app_inv in HW as (W1 & W2 & H1 & H2 & ->).
    destruct (runs_light p ho_ tb t o G HG id (fun _ => 1) ltac:(done) ltac:(unfold id; intros; lia) _ _ _ _ Hrun H1) as (W' & HW' & Hle).
    apply (IH s' (W2 + W')); [rewrite Hst; by apply heavy_app|]. destruct popped; [done|]. cbn [owns foldr] in Hle. lia.
  Qed.

  Lemma halts_tree_coalesce fuel :
    tiles G 0 (sn_children (t_root t)) (am_next (t_arena t)) -> (tree_fuel t <= fuel)%nat ->
    halts (tree_coalesce p ho_ mtb tb fuel t o).
  Proof.
    intros Ht Hf. unfold tree_coalesce. apply halts_bind; [auto with halts|]. intros _ _.
    apply halts_bind; [halt|]. intros steps Hs. apply halts_bind; [|done].
    apply first_steps_ok in Hs as (sel & E & Hsel & _).
    destruct (heavy_sel p t o G id ltac:(done) _ _ _ _ _ _ Hsel Ht) as (W & HW & Hle).
    apply (halts_loop fuel _ W); [cbn [tr_steps]; rewrite E; exact HW|]. unfold tree_fuel, id in *. lia.
  Qed.
End halting.
