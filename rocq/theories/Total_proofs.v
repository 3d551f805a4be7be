(** When tree_coalesce neither panics nor reports an error. *)
From Verif Require Import Prelude Lists F64 Heap Common Morton Format Spatial Builder Store Query Coalesce Stackable Tree.
From Verif Require Import Cmp_proofs Queue_proofs Coalesce_proofs Spec_stack Stack_proofs Spec_tree Tree_proofs.
From Coq Require Import ZifyBool.
Local Open Scope N_scope.

Definition safe {A} (r : res A) : Prop := r <> Panic /\ r <> Err.
Lemma safe_Ok {A} (a : A) : safe (Ok a). Proof. done. Qed.
Lemma safe_bind {A B} (m : res A) (k : A -> res B) : safe m -> (forall a, m = Ok a -> safe (k a)) -> safe (res_bind m k).
Proof. unfold safe. destruct m; cbn [res_bind]; intros [H1 H2] H3; [by apply H3|done|done|done]. Qed.
Lemma safe_mapM {A B} (f : A -> res B) l : (forall a, a ∈ l -> safe (f a)) -> safe (res_mapM f l).
Proof.
  induction l as [|a l IH]; intros H; cbn [res_mapM]; [done|]. apply safe_bind; [apply H; by left|]. intros b _.
  apply safe_bind; [|intros; done]. apply IH. intros x Hx. apply H. by right.
Qed.
(** With an invariant of the accumulator. *)
Lemma safe_foldl {A S} (I : S -> Prop) (f : S -> A -> res S) l : forall s, I s ->
  (forall s a, a ∈ l -> I s -> safe (f s a) /\ forall s', f s a = Ok s' -> I s') -> safe (res_foldl f s l).
Proof.
  induction l as [|a l IH]; intros s Hs H; cbn [res_foldl]; [done|].
  destruct (H s a ltac:(by left) Hs) as [H1 H2]. apply safe_bind; [done|]. intros s' Hs'. apply IH; [by apply H2|].
  intros s1 x Hx. apply H. by right.
Qed.
Lemma safe_exists {A} (r : res A) : safe r -> r <> Diverge -> exists a, r = Ok a.
Proof. intros [H1 H2] H3. destruct r; try done. by eexists. Qed.

(** Wrapping arithmetic always answers. *)
Lemma rel_uadd w a b : exists c, uadd Release w a b = Ok c. Proof. unfold uadd. by destruct (_ <? _); eexists. Qed.
Lemma rel_usub w a b : exists c, usub Release w a b = Ok c. Proof. unfold usub. by destruct (_ <=? _); eexists. Qed.
Lemma rel_umul w a b : exists c, umul Release w a b = Ok c. Proof. unfold umul. by destruct (_ <? _); eexists. Qed.
Lemma rel_ushl w a b : exists c, ushl Release w a b = Ok c. Proof. unfold ushl. by destruct (_ <? _); eexists. Qed.
Lemma rel_ushr w a b : exists c, ushr Release w a b = Ok c. Proof. unfold ushr. by destruct (_ <? _); eexists. Qed.
Ltac wraps :=
  repeat match goal with
  | |- context [uadd Release ?w ?a ?b] => let c := fresh in destruct (rel_uadd w a b) as [c ->]; cbn [res_bind]
  | |- context [usub Release ?w ?a ?b] => let c := fresh in destruct (rel_usub w a b) as [c ->]; cbn [res_bind]
  | |- context [umul Release ?w ?a ?b] => let c := fresh in destruct (rel_umul w a b) as [c ->]; cbn [res_bind]
  | |- context [ushl Release ?w ?a ?b] => let c := fresh in destruct (rel_ushl w a b) as [c ->]; cbn [res_bind]
  | |- context [ushr Release ?w ?a ?b] => let c := fresh in destruct (rel_ushr w a b) as [c ->]; cbn [res_bind]
  end.
Lemma adjust_zoom_eq p o z zo : adjust_to_zoom p o z = Ok zo -> mo_zoom zo = z.
Proof.
  unfold adjust_to_zoom. destruct (mo_zoom o =? z) eqn:E; [intros [= <-]; lia|].
  intros (? & _ & H)%bind_Ok. apply bind_Ok in H as (? & _ & H). by injection H as <-.
Qed.
Lemma nearby_zoom_eq p o o' : with_nearby_only p o = Ok o' -> mo_zoom o' = mo_zoom o.
Proof.
  unfold with_nearby_only. destruct (mo_prox o) as [[px py]|]; [|by intros [= <-]].
  intros (? & _ & H)%bind_Ok. apply bind_Ok in H as (? & _ & H). by injection H as <-.
Qed.

Section steps.
  Context (p : profile).
  Definition small_ids (l : list match_entry) : Prop := forall g, g ∈ l -> ge_id (me_entry g) < 2 ^ 25.
  Lemma entry_safe g sq o' id : mo_zoom o' = st_zoom (sq_store sq) -> ge_id (me_entry g) < 2 ^ 25 ->
    exists e, grid_to_coalesce_entry p g sq o' id = Ok e.
  Proof.
    intros Hz Hg. unfold grid_to_coalesce_entry. rewrite (proj2 (N.eqb_eq _ _) Hz). unfold debug_assert.
    assert (exists tmp, uadd p 32 (as_u32 (N.shiftl (sq_idx sq) 25)) (ge_id (me_entry g)) = Ok tmp) as [tmp Ht].
    { unfold uadd. destruct (_ <? _) eqn:E; [by eexists|]. destruct p; [|by eexists]. exfalso.
      unfold as_u32 in E. rewrite N.shiftl_mul_pow2 in E.
      assert (E1 : (sq_idx sq * 2 ^ 25) mod 2 ^ 32 = (sq_idx sq mod 2 ^ 7) * 2 ^ 25).
      { change (2 ^ 32) with (2 ^ 7 * 2 ^ 25). rewrite N.mul_mod_distr_r; [done|lia|lia]. }
      rewrite E1 in E. pose proof (N.mod_upper_bound (sq_idx sq) (2 ^ 7) ltac:(lia)) as E2.
      revert E E2. generalize (sq_idx sq mod 2 ^ 7). intros x E E2. change (2 ^ 7) with 128 in *.
      change (2 ^ 25) with 33554432 in *. change (2 ^ 32) with 4294967296 in *. lia. }
    rewrite Ht. destruct p; cbn [res_bind]; by eexists.
  Qed.
  Lemma single_safe sq o' id : mo_zoom o' = st_zoom (sq_store sq) -> forall grids s, small_ids grids -> safe (single_loop p sq o' id grids s).
  Proof.
    intros Hz. induction grids as [|g grids IH]; intros s Hg; cbn [single_loop]; [done|].
    destruct (entry_safe g sq o' id Hz) as [e He]; [apply Hg; by left|]. rewrite He. cbn [res_bind].
    destruct (single_body _ s e); [|done]. apply IH. intros x Hx. apply Hg. by right.
  Qed.
  Lemma usub_safe a b : (p = Debug -> b <= a) -> exists d, usub p 16 a b = Ok d /\ (p = Debug -> d = a - b).
  Proof.
    intros H. unfold usub. destruct (b <=? a) eqn:E; [by eexists|]. destruct p; [|by eexists]. specialize (H eq_refl). lia.
  Qed.
  Lemma ushl_safe k : (p = Debug -> k < 16) -> exists d, ushl p 16 1 k = Ok d.
  Proof.
    intros H. unfold ushl. destruct (k <? 16) eqn:E; [by eexists|]. destruct p; [|by eexists]. specialize (H eq_refl). lia.
  Qed.
  Lemma ushr_safe a k : (p = Debug -> k < 16) -> exists d, ushr p 16 a k = Ok d.
  Proof.
    intros H. unfold ushr. destruct (k <? 16) eqn:E; [by eexists|]. destruct p; [|by eexists]. specialize (H eq_refl). lia.
  Qed.
End steps.

Section total.
  Context (p : profile) (ho_ : hash_oracle) (mtb : merge_tb) (tb : tiebreak) (t : tree) (o : match_opts).
  (** What a subquery of the tree must allow. *)
  Definition pm_works (pm : subquery) : Prop :=
    (exists zo, adjust_to_zoom p o (zoom_of pm) = Ok zo) /\ (p = Debug -> zoom_of pm < 16) /\
    forall k, k ∈ sq_keys pm ->
      (exists b, key_is_range p (mki_key k) = Ok b) /\
      exists ko, key_opts p o pm k ko /\
        forall n, 1 <= n -> exists out, streaming_get_matching p mtb tb (sq_store pm) (mki_key k) ko n = Ok out /\ small_ids out.
  Context (Hroot : sn_pm (t_root t) = None).
  Context (Hpm : forall i n, tree_get t i = Some n -> exists pm, sn_pm n = Some pm /\ pm_works pm).
  Context (Hnest : forall i n pm j c pm', tree_get t i = Some n -> sn_pm n = Some pm -> j ∈ sn_children n ->
    tree_get t j = Some c -> sn_pm c = Some pm' -> p = Debug -> zoom_of pm <= zoom_of pm' /\ zoom_of pm' - zoom_of pm < 16).

  Record step_fine (st : tstep) : Prop := {
    sf_node : exists i, tree_get t i = Some (tp_node st);
    sf_pm : sn_pm (tp_node st) = Some (tp_sq st);
    sf_opts : adjust_to_zoom p o (zoom_of (tp_sq st)) = Ok (tp_opts st);
    sf_zoom : p = Debug -> tp_prev_zoom st <= zoom_of (tp_sq st) /\ zoom_of (tp_sq st) - tp_prev_zoom st < 16 }.
  Definition kf_fine (k : kfetch) : Prop :=
    mo_zoom (kf_opts k) = st_zoom (sq_store (kf_sq k)) /\
    forall n, 1 <= n -> exists out, streaming_get_matching p mtb tb (sq_store (kf_sq k)) (kf_key k) (kf_opts k) n = Ok out /\ small_ids out.
  Definition cache_fine (c : gmap N (list match_entry)) : Prop := forall id l, c !! id = Some l -> small_ids l.
  Lemma step_works st : step_fine st -> pm_works (tp_sq st).
  Proof. intros [[i Hi] H2 _ _]. destruct (Hpm i _ Hi) as (pm & E & H). assert (pm = tp_sq st) by congruence. by subst. Qed.

  Lemma make_step_fine n i prev pz possible : tree_get t i = Some n ->
    (forall pm, sn_pm n = Some pm -> p = Debug -> pz <= zoom_of pm /\ zoom_of pm - pz < 16) ->
    safe (make_step p n prev pz o possible) /\ forall st, make_step p n prev pz o possible = Ok st -> step_fine st.
  Proof.
    intros Hi Hz. unfold make_step. destruct (Hpm i n Hi) as (pm & E & (zo & Ho) & _). rewrite E.
    assert (Ho' : (if mo_zoom o =? st_zoom (sq_store pm) then Ok o else adjust_to_zoom p o (st_zoom (sq_store pm))) = Ok zo).
    { unfold zoom_of in Ho. destruct (mo_zoom o =? st_zoom (sq_store pm)) eqn:Ez; [|done]. unfold adjust_to_zoom in Ho. by rewrite Ez in Ho. }
    rewrite Ho'. cbn [res_bind]. split; [done|]. intros st H. injection H as <-.
    split; cbn [tp_node tp_sq tp_opts tp_prev_zoom]; [by exists i|done|done|by apply Hz].
  Qed.

  (** ** Gathering *)
  Lemma gather_key_fine cache best st keys uniq q enq k : step_fine st -> k ∈ sq_keys (tp_sq st) ->
    (forall x, x ∈ keys -> kf_fine x) ->
    safe (gather_key p cache best st (keys, uniq, q, enq) k) /\
    forall keys' uniq' q' enq', gather_key p cache best st (keys, uniq, q, enq) k = Ok (keys', uniq', q', enq') ->
      forall x, x ∈ keys' -> kf_fine x.
  Proof.
    intros Hst Hk Hkeys. unfold gather_key.
    destruct (is_single st || _); [|split; [done|]; intros ? ? ? ? H; by injection H as <- <- <- <-].
    destruct (step_works st Hst) as (_ & _ & Hw). destruct (Hw k Hk) as ([b Hb] & ko & (zo & Hz & Hko) & Hs).
    assert (zo = tp_opts st) as -> by (rewrite (sf_opts _ Hst) in Hz; congruence).
    rewrite Hko, Hb. cbn [res_bind]. destruct (admit_key _ _ _ _ _ _) as [ok q1].
    destruct (ok && _); (split; [done|]); intros ? ? ? ? H; injection H as <- <- <- <-; [|done].
    intros x Hx. apply elem_of_app in Hx as [Hx|Hx]; [by apply Hkeys|]. apply elem_of_list_singleton in Hx as ->.
    split; [|done]. cbn [kf_opts kf_sq]. pose proof (adjust_zoom_eq _ _ _ _ Hz) as Ez.
    destruct (mki_nearby k); [|by injection Hko as <-]. by rewrite (nearby_zoom_eq _ _ _ Hko), Ez.
  Qed.
  Lemma gather_keys_fine cache best st : step_fine st -> forall ks keys uniq q enq,
    (forall k, k ∈ ks -> k ∈ sq_keys (tp_sq st)) -> (forall x, x ∈ keys -> kf_fine x) ->
    safe (res_foldl (gather_key p cache best st) (keys, uniq, q, enq) ks) /\
    forall keys' uniq' q' enq', res_foldl (gather_key p cache best st) (keys, uniq, q, enq) ks = Ok (keys', uniq', q', enq') ->
      forall x, x ∈ keys' -> kf_fine x.
  Proof.
    intros Hst ks. induction ks as [|k ks IH]; intros keys uniq q enq Hin Hkeys; cbn [res_foldl].
    - split; [done|]. intros ? ? ? ? H. by injection H as <- <- <- <-.
    - destruct (gather_key_fine cache best st keys uniq q enq k Hst ltac:(apply Hin; by left) Hkeys) as [H1 H2].
      assert (Hks : forall k, k ∈ ks -> k ∈ sq_keys (tp_sq st)) by (intros x Hx; apply Hin; by right). split.
      + apply safe_bind; [done|]. intros [[[a b] c] d] E. apply IH; [done|by apply (H2 a b c d)].
      + intros a b c d E. apply bind_Ok in E as ([[[a1 b1] c1] d1] & E1 & E2).
        eapply (IH a1 b1 c1 d1); [done|by apply (H2 a1 b1 c1 d1)|exact E2].
  Qed.
  Definition gather_fine (s : gather_state) : Prop :=
    (forall st, st ∈ hp_items (gt_steps s) -> step_fine st) /\ (forall st, st ∈ gt_chunk s -> step_fine st) /\
    (forall k, k ∈ gt_keys s -> kf_fine k).
  Lemma gather_all_fine cache contexts : 0 < cpq_max contexts -> forall fuel s, gather_fine s ->
    safe (gather p tb cache contexts fuel s) /\ forall s', gather p tb cache contexts fuel s = Ok s' -> gather_fine s'.
  Proof.
    intros Hmax. induction fuel as [|fuel IH]; intros s Hs; cbn [gather]; [done|].
    destruct (chunk_size <=? gt_added s); [split; [done|]; intros s' H; by injection H as <-|].
    destruct (hp_pop_max step_cmp tb (gt_steps s)) as [[st steps']|] eqn:Ep; [|split; [done|]; intros s' H; by injection H as <-].
    apply hp_pop_max_ok in Ep as [Ep _]. destruct Hs as (Hs1 & Hs2 & Hs3).
    assert (Hst : step_fine st) by (apply Hs1; rewrite Ep; by left).
    assert (Hsteps : forall x, x ∈ hp_items steps' -> step_fine x) by (intros x Hx; apply Hs1; rewrite Ep; by right).
    assert (Hstop : exists b, (if cpq_max contexts <=? cpq_len contexts then
                 match cpq_peek_min ctx_cmp tb contexts with
                 | None => Panic
                 | Some m => Ok (fleb (sn_max_relev (tp_node st)) (cc_relev m))
                 end
               else Ok false) = Ok b).
    { destruct (cpq_max contexts <=? cpq_len contexts) eqn:E; [|by eexists].
      unfold cpq_peek_min, hp_peek_min. destruct (hp_min_idx_some ctx_cmp total_cmp_ctx tb (cpq_heap contexts)) as [i Hi].
      { intros E0. unfold cpq_len, hp_len in E. rewrite E0 in E. cbn in E. lia. }
      rewrite Hi. destruct (hp_min_idx_ok _ _ _ _ Hi) as (a & Ha & _). rewrite Ha. by eexists. }
    destruct Hstop as [b Hb]. rewrite Hb. cbn [res_bind]. destruct b.
    - split; [done|]. intros s' H. injection H as <-. split; [done|]. split; [done|done].
    - set (best := match cpq_peek_max ctx_cmp tb contexts with Some c => cc_relev c | None => f_zero end).
      destruct (gather_keys_fine cache best st Hst (sq_keys (tp_sq st)) (gt_keys s) (gt_unique s) (gt_quotas s) false
                  ltac:(done) Hs3) as [H1 H2].
      assert (Hgo : forall keys uniq q enq, res_foldl (gather_key p cache best st) (gt_keys s, gt_unique s, gt_quotas s, false) (sq_keys (tp_sq st))
          = Ok (keys, uniq, q, enq) ->
          gather_fine (GatherState steps' (if is_single st then gt_chunk s else gt_chunk s ++ [st]) keys uniq q
                         (if enq || negb (is_single st) then gt_added s + 1 else gt_added s) false)).
      { intros keys uniq q enq E. split; [done|]. split; [|by apply (H2 keys uniq q enq)]. cbn [gt_chunk].
        intros x Hx. destruct (is_single st); [by apply Hs2|]. apply elem_of_app in Hx as [Hx|Hx]; [by apply Hs2|].
        by apply elem_of_list_singleton in Hx as ->. }
      split.
      + apply safe_bind; [done|]. intros [[[keys uniq] q] enq] E. by apply IH, Hgo.
      + intros s' H. apply bind_Ok in H as ([[[keys uniq] q] enq] & E & H). eapply IH; [|exact H]. by apply Hgo.
  Qed.

  (** ** Fetching *)
  Definition fetched_fine (f : fetched) : Prop := match f with FSingle _ => True | FMulti _ l => small_ids l end.
  Lemma uniq_small l : forall seen, small_ids l -> small_ids (uniq_grids seen l).
  Proof.
    induction l as [|g l IH]; intros seen H; cbn [uniq_grids]; [done|]. cbn zeta.
    assert (Hl : small_ids l) by (intros x Hx; apply H; by right). destruct (existsb _ seen); [by apply IH|].
    intros x Hx. apply elem_of_cons in Hx as [->|Hx]; [apply H; by left|by eapply IH].
  Qed.
  Lemma take_small l : forall n, small_ids l -> small_ids (take_N n l).
  Proof.
    induction l as [|g l IH]; intros n H; cbn [take_N]; [done|].
    destruct (n =? 0); [intros x Hx; by apply elem_of_nil in Hx|]. intros x Hx.
    apply elem_of_cons in Hx as [->|Hx]; [apply H; by left|]. eapply IH; [|exact Hx]. intros y Hy. apply H. by right.
  Qed.
  Lemma fetch_fine k : kf_fine k -> safe (fetch_key p mtb tb k) /\ forall f, fetch_key p mtb tb k = Ok f -> fetched_fine f.
  Proof.
    intros [Hz Hs]. unfold fetch_key. destruct (kf_single k).
    - destruct (Hs bigger_max) as (out & Ho & Hsm); [done|]. rewrite Ho. cbn [res_bind]. unfold tree_coalesce_single. split.
      + apply safe_bind; [apply safe_bind; [by apply single_safe|done]|done].
      + intros f H. apply bind_Ok in H as (cs & _ & H). by injection H as <-.
    - destruct (Hs max_grids_per_phrase) as (out & Ho & Hsm); [done|]. rewrite Ho. cbn [res_bind]. split; [done|].
      intros f H. injection H as <-. cbn [fetched_fine]. by apply uniq_small, take_small.
  Qed.
  Lemma push_all_max l : forall q, cpq_max (cpq_push_all tb q l) = cpq_max q.
  Proof.
    induction l as [|c l IH]; intros q; [done|]. unfold cpq_push_all in *. cbn [foldl]. rewrite IH. unfold cpq_push.
    destruct (_ <=? _); [|done]. destruct (hp_peek_min _ _ _); [|done]. by destruct (ctx_cmp _ _).
  Qed.
  Lemma stored_fine round : forall fs q c, (forall f, f ∈ fs -> fetched_fine f.2) -> cache_fine c ->
    let r := foldl (store_fetched ho_ tb round) (q, c) fs in cpq_max r.1 = cpq_max q /\ cache_fine r.2.
  Proof.
    induction fs as [|[i f] fs IH]; intros q c Hf Hc; cbn zeta; cbn [foldl]; [done|].
    assert (Hfs : forall f, f ∈ fs -> fetched_fine f.2) by (intros x Hx; apply Hf; by right).
    pose proof (Hf (i, f) ltac:(by left)) as Hf0. cbn [snd] in Hf0. destruct f as [q'|id data]; cbn [store_fetched fst snd].
    - destruct (IH (cpq_push_all tb q (cpq_iter ho_ [6; round; N.of_nat i] q')) c Hfs Hc) as [H1 H2]. split; [|done].
      rewrite H1. apply push_all_max.
    - apply IH; [done|]. intros id' l Hl. destruct (decide (id = id')) as [<-|Hne].
      + rewrite lookup_insert in Hl. by injection Hl as <-.
      + rewrite lookup_insert_ne in Hl by done. by eapply Hc.
  Qed.

  (** ** One step *)
  Lemma stack_grid_safe site st scale id a gi g : step_fine st -> ge_id (me_entry g) < 2 ^ 25 ->
    safe (stack_grid p ho_ tb site st scale id a (gi, g)).
  Proof.
    intros Hst Hg. unfold stack_grid. destruct (entry_safe p g (tp_sq st) (tp_opts st) id) as [e He]; [|done|].
    { exact (adjust_zoom_eq _ _ _ _ (sf_opts _ Hst)). }
    rewrite He. cbn [res_bind]. destruct (tp_prev st) as [prev|]; [|done].
    apply (safe_foldl (fun _ => True)); [done|]. intros s i Hi _. split; [|done]. unfold stack_on.
    apply safe_bind; [|done]. unfold bush_exact in Hi.
    assert (Hi' : i ∈ List.filter (fun i => match prev !! i ≫= ctx_cell with
                           | Some (x', y') => (ge_x (me_entry g) / scale =? x') && (ge_y (me_entry g) / scale =? y')
                           | None => false end) (seq 0 (length prev))).
    { by rewrite (ho_perm ho_) in Hi. }
    apply elem_of_filter in Hi' as [Hi1 Hi2]. unfold index. by destruct (prev !! i).
  Qed.
  Lemma stack_key_safe cache site st scale a ik : cache_fine cache -> step_fine st -> safe (stack_key p ho_ tb site cache st scale a ik).
  Proof.
    intros Hc Hst. unfold stack_key. destruct a as [[relev out] state], ik as [ki k].
    destruct (cache !! mki_id k) as [grids|] eqn:E; [|done]. apply safe_bind; [|done].
    apply (safe_foldl (fun _ => True)); [done|]. intros s [gi g] Hg _. split; [|done]. apply stack_grid_safe; [done|].
    apply (Hc _ _ E). apply elem_of_list_In in Hg. apply List.in_combine_r in Hg. by apply elem_of_list_In.
  Qed.
  Lemma child_step_fine i n pm state relev acc j : tree_get t i = Some n -> sn_pm n = Some pm -> j ∈ sn_children n ->
    (forall st, st ∈ acc -> step_fine st) ->
    safe (child_step p t o state (zoom_of pm) relev acc j) /\
    forall acc', child_step p t o state (zoom_of pm) relev acc j = Ok acc' -> forall st, st ∈ acc' -> step_fine st.
  Proof.
    intros Hi Hn Hj Hacc. unfold child_step. destruct (tree_get t j) as [c|] eqn:Ec; [|split; [done|]; intros acc' H; by injection H as <-].
    destruct (Hpm j c Ec) as (pm' & Epm & Hw). rewrite Epm. fold (zoom_of pm').
    assert (Hz : p = Debug -> zoom_of pm <= zoom_of pm' /\ zoom_of pm' - zoom_of pm < 16) by exact (Hnest i n pm j c pm' Hi Hn Hj Ec Epm).
    assert (exists boxes, (if zoom_of pm' =? zoom_of pm then Ok (st_bboxes (sq_store pm'))
        else res_mapM (fun b => adjust_bbox_zoom p b (zoom_of pm') (zoom_of pm)) (st_bboxes (sq_store pm'))) = Ok boxes) as [boxes Hb].
    { destruct (zoom_of pm' =? zoom_of pm) eqn:E; [by eexists|]. 
      induction (st_bboxes (sq_store pm')) as [|b bs IH]; [by eexists|]. cbn [res_mapM].
      assert (exists b', adjust_bbox_zoom p b (zoom_of pm') (zoom_of pm) = Ok b') as [b' Hb'].
      { unfold adjust_bbox_zoom. destruct (zoom_of pm <? zoom_of pm') eqn:El.
        - destruct (ushr_safe p (bb_x0 b) (zoom_of pm' - zoom_of pm)) as [x0 ->]; [apply Hz|].
          destruct (ushr_safe p (bb_y0 b) (zoom_of pm' - zoom_of pm)) as [y0 ->]; [apply Hz|].
          destruct (ushr_safe p (bb_x1 b) (zoom_of pm' - zoom_of pm)) as [x1 ->]; [apply Hz|].
          destruct (ushr_safe p (bb_y1 b) (zoom_of pm' - zoom_of pm)) as [y1 ->]; [apply Hz|]. by eexists.
        - destruct p.
          + destruct (Hz eq_refl). lia.
          + wraps. by eexists. }
      rewrite Hb'. destruct IH as [bs' ->]. by eexists. }
    rewrite Hb. cbn [res_bind]. destruct (existsb _ boxes); [|split; [done|]; intros acc' H; by injection H as <-].
    destruct (make_step_fine c j (Some state) (zoom_of pm) (fadd relev (sq_weight pm')) Ec) as [H1 H2].
    { intros q Hq. assert (q = pm') as -> by congruence. done. }
    split; [by apply safe_bind|]. intros acc' H. apply bind_Ok in H as (s & Hs & H). injection H as <-.
    intros st Hst. apply elem_of_app in Hst as [Hst|Hst]; [by apply Hacc|]. apply elem_of_list_singleton in Hst as ->. by apply H2.
  Qed.
  Lemma run_step_fine cache site st : cache_fine cache -> step_fine st ->
    safe (run_step p ho_ tb t o cache site st) /\
    forall r, run_step p ho_ tb t o cache site st = Ok r -> forall x, x ∈ r.2 -> step_fine x.
  Proof.
    intros Hc Hst. unfold run_step. fold (zoom_of (tp_sq st)).
    destruct (usub_safe p (zoom_of (tp_sq st)) (tp_prev_zoom st)) as (d & Hd & Hd'); [apply (sf_zoom _ Hst)|]. rewrite Hd. cbn [res_bind].
    destruct (ushl_safe p d) as [scale Hscale]; [intros E; rewrite (Hd' E); by apply (sf_zoom _ Hst)|]. rewrite Hscale. cbn [res_bind].
    assert (Hf : safe (res_foldl (stack_key p ho_ tb site cache st scale) (f_zero, [], [])
       (combine (seq 0 (length (sq_keys (tp_sq st)))) (sq_keys (tp_sq st))))).
    { apply (safe_foldl (fun _ => True)); [done|]. intros s ik _ _. split; [|done]. by apply stack_key_safe. }
    destruct (sf_node _ Hst) as [i Hi].
    assert (Hkids : forall state relev l acc, (forall j, j ∈ l -> j ∈ sn_children (tp_node st)) -> (forall x, x ∈ acc -> step_fine x) ->
      safe (res_foldl (child_step p t o state (zoom_of (tp_sq st)) relev) acc l) /\
      forall next, res_foldl (child_step p t o state (zoom_of (tp_sq st)) relev) acc l = Ok next -> forall x, x ∈ next -> step_fine x).
    { intros state relev. induction l as [|j l IH]; intros acc Hl Hacc; cbn [res_foldl].
      - split; [done|]. intros next H. by injection H as <-.
      - destruct (child_step_fine i (tp_node st) (tp_sq st) state relev acc j Hi (sf_pm _ Hst) ltac:(apply Hl; by left) Hacc) as [H1 H2].
        assert (Hl' : forall j, j ∈ l -> j ∈ sn_children (tp_node st)) by (intros x Hx; apply Hl; by right). split.
        + apply safe_bind; [done|]. intros acc' E. apply IH; [done|by apply (H2 acc')].
        + intros next H. apply bind_Ok in H as (acc' & E & H). eapply (IH acc'); [done|by apply (H2 acc')|exact H]. }
    split.
    - apply safe_bind; [done|]. intros [[relev out] state] _. destruct state as [|c state]; [done|].
      apply safe_bind; [|done]. apply Hkids; [done|]. intros x Hx. by apply elem_of_nil in Hx.
    - intros r H. apply bind_Ok in H as ([[relev out] state] & _ & H). destruct state as [|c state].
      + injection H as <-. intros x Hx. by apply elem_of_nil in Hx.
      + apply bind_Ok in H as (next & Hn & H). injection H as <-. cbn [snd]. eapply Hkids; [| |exact Hn]; [done|].
        intros x Hx. by apply elem_of_nil in Hx.
  Qed.

  (** ** The loop *)
  Definition tree_fine (s : tree_state) : Prop :=
    0 < cpq_max (tr_contexts s) /\ (forall st, st ∈ hp_items (tr_steps s) -> step_fine st) /\ cache_fine (tr_cache s).
  Lemma combine_snd_in {A B} (l : list A) (l' : list B) x : x ∈ combine l l' -> x.2 ∈ l'.
  Proof. intros H. apply elem_of_list_In in H. destruct x as [a b]. apply List.in_combine_r in H. by apply elem_of_list_In. Qed.
  Lemma tree_round_fine round s : tree_fine s ->
    safe (tree_round p ho_ mtb tb t o round s) /\ forall r, tree_round p ho_ mtb tb t o round s = Ok r -> tree_fine r.1.
  Proof.
    intros (Hmax & Hsteps & Hcache). unfold tree_round.
    destruct (gather_all_fine (tr_cache s) (tr_contexts s) Hmax (S (length (hp_items (tr_steps s))))
      (GatherState (tr_steps s) [] [] [] (tr_quotas s) 0 false)) as [G1 G2].
    { split; [done|]. split; intros x Hx; by apply elem_of_nil in Hx. }
    assert (Hgo : forall g, gather_fine g -> safe (res_mapM (fetch_key p mtb tb) (gt_keys g)) /\
      forall fs, res_mapM (fetch_key p mtb tb) (gt_keys g) = Ok fs -> forall f, f ∈ fs -> fetched_fine f).
    { intros g (_ & _ & Hk). split; [apply safe_mapM; intros k Hk'; by apply fetch_fine, Hk|].
      intros fs Hfs f Hf. apply res_mapM_Ok in Hfs. apply elem_of_list_lookup in Hf as [i Hi].
      destruct (Forall2_lookup_r _ _ _ _ _ Hfs Hi) as (k & Hki & Hkf). eapply fetch_fine; [|exact Hkf]. apply Hk. by eapply elem_of_list_lookup_2. }
    assert (Hst : forall fs, (forall f, f ∈ fs -> fetched_fine f) ->
      let r := foldl (store_fetched ho_ tb round) (tr_contexts s, tr_cache s) (combine (seq 0 (length fs)) fs) in
      cpq_max r.1 = cpq_max (tr_contexts s) /\ cache_fine r.2).
    { intros fs Hfs. apply stored_fine; [|done]. intros f Hf. apply Hfs. by eapply combine_snd_in. }
    assert (Hrun : forall g cache, gather_fine g -> cache_fine cache ->
      let run := res_mapM (fun ic : nat * tstep => run_step p ho_ tb t o cache [round; N.of_nat ic.1] ic.2)
                      (combine (seq 0 (length (gt_chunk g))) (gt_chunk g)) in
      safe run /\ forall rs, run = Ok rs -> forall r x, r ∈ rs -> x ∈ r.2 -> step_fine x).
    { intros g cache (_ & Hch & _) Hc. cbn zeta. split.
      - apply safe_mapM. intros ic Hic. apply run_step_fine; [done|]. apply Hch. by eapply combine_snd_in.
      - intros rs Hrs r x Hr Hx. apply res_mapM_Ok in Hrs. apply elem_of_list_lookup in Hr as [i Hi].
        destruct (Forall2_lookup_r _ _ _ _ _ Hrs Hi) as (ic & Hic & Hrun). eapply run_step_fine; [exact Hc| |exact Hrun|exact Hx].
        apply Hch. eapply combine_snd_in. by eapply elem_of_list_lookup_2. }
    split.
    - apply safe_bind; [done|]. intros g Hg. specialize (G2 g Hg). destruct (Hgo g G2) as [F1 F2].
      apply safe_bind; [done|]. intros fs Hfs. specialize (F2 fs Hfs). specialize (Hst fs F2). cbn zeta in Hst.
      destruct (foldl _ _ _) as [contexts cache]. destruct Hst as [_ Hc]. cbn [snd] in Hc.
      apply safe_bind; [by apply (Hrun g cache)|done].
    - intros r H. apply bind_Ok in H as (g & Hg & H). specialize (G2 g Hg). destruct (Hgo g G2) as [F1 F2].
      apply bind_Ok in H as (fs & Hfs & H). specialize (F2 fs Hfs). specialize (Hst fs F2). cbn zeta in Hst.
      destruct (foldl _ _ _) as [contexts cache]. destruct Hst as [Hm Hc]. cbn [fst snd] in Hm, Hc.
      apply bind_Ok in H as (rs & Hrs & H). injection H as <-. cbn [fst]. split; [|split]; cbn [tr_contexts tr_steps tr_cache].
      + assert (Hf : forall (l : list (list coalesce_context * list tstep)) q,
          cpq_max (foldl (fun q (r : list coalesce_context * list tstep) => cpq_push_all tb q r.1) q l) = cpq_max q).
        { induction l as [|r l IH]; intros q; [done|]. cbn [foldl]. by rewrite IH, push_all_max. }
        rewrite Hf. lia.
      + pose proof (proj2 (Hrun g cache G2 Hc) rs Hrs) as Hr. destruct G2 as (Hgs & _ & _). clear -Hr Hgs.
        assert (Hpush : forall l (h : heap tstep), hp_items (foldl hp_push h l) = hp_items h ++ l).
        { induction l as [|x l IH]; intros h; cbn [foldl]; [by rewrite app_nil_r|]. rewrite IH. cbn [hp_push hp_items]. by rewrite <- app_assoc. }
        revert Hgs. generalize (gt_steps g). induction rs as [|r rs IH]; intros h Hh; cbn [foldl]; [done|].
        apply IH; [intros r' x Hr' Hx; apply (Hr r'); [by right|done]|]. rewrite Hpush. intros x Hx.
        apply elem_of_app in Hx as [Hx|Hx]; [by apply Hh|]. apply (Hr r); [by left|done].
      + done.
  Qed.
  Lemma tree_loop_safe fuel : forall s, tree_fine s -> safe (tree_loop p ho_ mtb tb t o fuel s).
  Proof.
    induction fuel as [|fuel IH]; intros s Hs; cbn [tree_loop]; [done|].
    destruct (hp_items (tr_steps s)); [done|]. destruct (tree_round_fine (N.of_nat fuel) s Hs) as [H1 H2].
    apply safe_bind; [done|]. intros [s' complete] E. destruct complete; [done|]. apply IH. exact (H2 _ E).
  Qed.
  Lemma tree_coalesce_safe fuel : safe (tree_coalesce p ho_ mtb tb fuel t o).
  Proof.
    unfold tree_coalesce. rewrite Hroot. apply safe_bind; [by destruct p|]. intros _ _.
    assert (Hf : forall l h, (forall x, x ∈ hp_items h -> step_fine x) ->
      safe (res_foldl (first_step p t o) h l) /\
      forall h', res_foldl (first_step p t o) h l = Ok h' -> forall x, x ∈ hp_items h' -> step_fine x).
    { induction l as [|i l IH]; intros h Hh; cbn [res_foldl]; [split; [done|]; intros h' H; by injection H as <-|].
      assert (Hs : safe (first_step p t o h i) /\ forall h', first_step p t o h i = Ok h' -> forall x, x ∈ hp_items h' -> step_fine x).
      { unfold first_step. destruct (tree_get t i) as [n|] eqn:E; [|split; [done|]; intros h' H; by injection H as <-].
        destruct (Hpm i n E) as (pm & En & (_ & Hz & _)). rewrite En.
        destruct (make_step_fine n i None 0 (sq_weight pm) E) as [H1 H2].
        { intros q Hq Hp. assert (q = pm) as -> by congruence. specialize (Hz Hp). lia. }
        split; [by apply safe_bind|]. intros h' H. apply bind_Ok in H as (s & Hs & H). injection H as <-.
        intros x Hx. cbn [hp_push hp_items] in Hx. apply elem_of_app in Hx as [Hx|Hx]; [by apply Hh|].
        apply elem_of_list_singleton in Hx as ->. by apply H2. }
      destruct Hs as [H1 H2]. split.
      - apply safe_bind; [done|]. intros h' E. apply IH. exact (H2 _ E).
      - intros h' H. apply bind_Ok in H as (h1 & E & H). eapply IH; [|exact H]. exact (H2 _ E). }
    destruct (Hf (sn_children (t_root t)) hp_empty) as [H1 H2]; [intros x Hx; by apply elem_of_nil in Hx|].
    apply safe_bind; [done|]. intros steps E. apply safe_bind; [|done]. apply tree_loop_safe. split; [done|]. split; [exact (H2 _ E)|].
    intros id l Hl. cbn [tr_cache] in Hl. by rewrite lookup_empty in Hl.
  Qed.
End total.
