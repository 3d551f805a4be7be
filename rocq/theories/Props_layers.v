(** Property C77: below its limits, coalesce finds what was written and is asked for. *)
From Verif Require Import Prelude Lists F64 Heap Common Morton Builder Spatial Store Spec Spec_match Spatial_proofs Query Coalesce Stackable Tree
  Spec_coalesce Coalesce_proofs Owed_proofs Props_owed Spec_stack Spec_tree Examples Props_match Props_coalesce
  Props_zoom Props_total Spec_complete Spec_leaf Spec_ground Props_ground Props_found Multi_proofs Spec_flat.
From Coq Require Import ZifyBool Sorting.Sorted.
Local Open Scope N_scope.

(** The same layer with its first key alone, not restricted to what is nearby. *)
Definition plain_layer (sq : subquery) (k : match_key_id) : subquery :=
  Subquery (sq_store sq) (sq_idx sq) (sq_nonoverlap sq) (sq_weight sq) (sq_mask sq)
    [MatchKeyWithId (mki_key k) false (mki_id k) (mki_length k)].
Lemma asked_match p mtb tb o sq w ops n : sane o -> written_by ops sq -> asked ops o sq w -> 1 <= n ->
  exists k ks zo out, sq_keys sq = k :: ks /\ adjust_to_zoom p o (zoom_of sq) = Ok zo /\
    streaming_get_matching p mtb tb (sq_store sq) (mki_key k) zo n = Ok out /\
    (N.of_nat (length out) < n -> exists m, m ∈ out /\ spot m = (ge_x w, ge_y w, ge_id w mod 2 ^ 24)).
Proof.
  intros Hs (W1 & W2 & W3 & W4 & W5) (k & ks & Hk & Hw & Hin) Hn.
  destruct (wanted_match p mtb tb o (plain_layer sq k) (MatchKeyWithId (mki_key k) false (mki_id k) (mki_length k)) w ops n Hs)
    as (ko & out & (zo & Hzo & Hko) & Hout & Hm); try done.
  - split; [done|]. split; [done|]. split; [done|]. split; [|done]. intros k' Hk'. apply elem_of_list_singleton in Hk' as ->.
    apply (W4 k). rewrite Hk. by left.
  - split; [by left|]. split; [exact Hw|]. done.
  - injection Hko as <-. exists k, ks, zo, out. done.
Qed.
Lemma take_all {A} n (l : list A) : N.of_nat (length l) < n -> take_N n l = l.
Proof. intros H. apply take_N_all. lia. Qed.
Lemma asked_looked p mtb tb o sq w ops : sane o -> written_by ops sq -> first_short p mtb tb o 100000 sq -> asked ops o sq w ->
  exists g, looked_at p mtb tb o sq g /\ spot g = (ge_x w, ge_y w, ge_id w mod 2 ^ 24).
Proof.
  intros Hs Hw Hf Ha. destruct (asked_match p mtb tb o sq w ops 100000 Hs Hw Ha ltac:(lia)) as (k & ks & zo & out & Hk & Hzo & Hout & Hm).
  pose proof (Hf k ks zo out Hk Hzo Hout) as Hlen. destruct (Hm Hlen) as (m & Hin & Hsp). exists m. split; [|done].
  exists k, ks, zo, out. split; [done|]. split; [done|]. split; [done|]. by rewrite take_all.
Qed.
Section flat.
  Context (p : profile) (mtb : merge_tb) (tb : tiebreak) (o : match_opts) (layers : list subquery) (calls : subquery -> list op).
  Hypothesis Hsane : sane o.
  Hypothesis Hw : forall sq, sq ∈ layers -> written_by (calls sq) sq.
  Hypothesis Hf : forall sq, sq ∈ layers -> first_short p mtb tb o 100000 sq.
  Lemma cell_of_spot g w : spot g = (ge_x w, ge_y w, ge_id w mod 2 ^ 24) -> g_cell g = (ge_x w, ge_y w).
  Proof. unfold spot, g_cell. by intros [= -> -> _]. Qed.
  Lemma standing_anchored i w : standing calls o layers i w ->
    exists g, anchored p mtb tb o layers i g /\ spot g = (ge_x w, ge_y w, ge_id w mod 2 ^ 24).
  Proof.
    induction 1 as [sq w Hi Ha|i sq w j sq' w' Hlt Hi Hj Ha _ (g' & Hg' & Hs') Hidx Hmask Hanc].
    - assert (Hin : sq ∈ layers) by by eapply elem_of_list_lookup_2.
      destruct (asked_looked p mtb tb o sq w (calls sq) Hsane (Hw _ Hin) (Hf _ Hin) Ha) as (g & Hg & Hs).
      exists g. split; [by eapply anchored_first|done].
    - assert (Hin : sq ∈ layers) by by eapply elem_of_list_lookup_2.
      destruct (asked_looked p mtb tb o sq w (calls sq) Hsane (Hw _ Hin) (Hf _ Hin) Ha) as (g & Hg & Hs).
      exists g. split; [|done]. eapply anchored_on; try done. by rewrite (cell_of_spot g w Hs), (cell_of_spot g' w' Hs').
  Qed.
  Lemma expected_owed i w : expected calls o layers i w ->
    exists g, owed p mtb tb o layers i g /\ spot g = (ge_x w, ge_y w, ge_id w mod 2 ^ 24).
  Proof.
    intros [H|(Hl & sq & Hi & Ha)].
    - destruct (standing_anchored i w H) as (g & Hg & Hs). exists g. split; [by left|done].
    - assert (Hin : sq ∈ layers) by by eapply elem_of_list_lookup_2.
      destruct (asked_looked p mtb tb o sq w (calls sq) Hsane (Hw _ Hin) (Hf _ Hin) Ha) as (g & Hg & Hs).
      exists g. split; [|done]. right. split; [done|]. by exists sq.
  Qed.
End flat.

(** ** C77 coalesce finds what was written *)
(** A stack led by an entry of the layer [sq] with the id of [w]. *)
Definition led_by (sq : subquery) (w : grid_entry) (c : coalesce_context) : Prop :=
  exists e es, cc_entries c = e :: es /\ ce_idx e = sq_idx sq /\ e_id e = ge_id w mod 2 ^ 24.
(** An entry that was written for a layer, and that lies on what was written for the
    layers before it (or is of the last layer), leads a result, or another entry of the
    same feature does, or a stack that it leads is too weak: it or a stack listed before it
    is a quarter or more below another stack. *)
Theorem C77_layers :
  forall p ho mtb tb stack layers o cs calls i sq w,
  layers ≡ₚ stack -> StronglySorted zoom_ordered layers -> (2 <= length layers)%nat ->
  (forall a, a ∈ layers -> sq_mask a <> 0 /\ sq_idx a < 128) ->
  (forall a b, a ∈ layers -> b ∈ layers -> sq_idx a = sq_idx b -> a = b) ->
  sane o -> (forall a, a ∈ layers -> written_by (calls a) a) -> (forall a, a ∈ layers -> first_short p mtb tb o 100000 a) ->
  coalesce p ho mtb tb stack o = Ok cs -> (length cs < 40)%nat ->
  layers !! i = Some sq -> expected calls o layers i w ->
  (exists c, c ∈ cs /\ led_by sq w c) \/
  (exists c, stacked p mtb tb layers o c /\ led_by sq w c /\ too_weak p mtb tb o layers c).
Proof.
  intros p ho mtb tb stack layers o cs calls i sq w Hp Hsort Hlen Hm Hid Hs Hw Hf H Hroom Hi He.
  assert (Hz : forall a b, a ∈ layers -> b ∈ layers -> st_zoom (sq_store a) - st_zoom (sq_store b) < 16).
  { intros a b Ha Hb. destruct (Hw a Ha) as (_ & _ & Z & _). unfold zoom_of in Z. lia. }
  destruct (expected_owed p mtb tb o layers calls Hs Hw Hf i w He) as (g & Hg & Hsp).
  destruct (C68_owed p ho mtb tb stack layers o cs i sq g Hp Hsort Hlen (fun a Ha => proj1 (Hm a Ha)) Hz Hid H Hi Hg)
    as (c & e & es & Ec & Hto & Hst & Hcase).
  assert (Hsq : sq ∈ layers) by by eapply elem_of_list_lookup_2.
  assert (Ee : e_id e = ge_id w mod 2 ^ 24).
  { destruct Hto as (E & _). unfold e_id. rewrite E. unfold spot in Hsp. by injection Hsp as _ _ ->. }
  pose proof Hto as (_ & _ & Eidx & _ & _ & _ & _ & Etmp).
  assert (Egid : ge_id (me_entry g) = ge_id w mod 2 ^ 24) by (unfold spot in Hsp; by injection Hsp as _ _ ->).
  assert (Hled : led_by sq w c) by by exists e, es.
  destruct Hcase as [Hc|[(d & Hd & Htmp & _)|[[Hl _]|Hweak]]].
  - left. by exists c.
  - left. exists d. split; [done|].
    assert (Hne : exists e' es', cc_entries d = e' :: es').
    { unfold first_tmp in Htmp. rewrite Ec in Htmp. destruct (cc_entries d) as [|e' es']; [done|]. by exists e', es'. }
    destruct Hne as (e' & es' & Ed). exists e', es'. split; [done|].
    destruct (C74_coalesce p ho mtb tb stack o cs d e' calls) as (sq' & k & ks & Hsq' & _ & (key & l & w' & _ & _ & _ & _ & _ & _ & Eid & _ & _ & Ei & _ & Et & _) & _); try done.
    { intros a Ha. rewrite <- Hp in Ha. split; [by apply Hm|by apply Hw]. }
    { intros a ->. apply Permutation_length in Hp. cbn in Hp. lia. }
    { rewrite Ed. by left. }
    rewrite <- Hp in Hsq'. unfold first_tmp in Htmp. rewrite Ec, Ed in Htmp. cbn in Htmp. injection Htmp as Htmp.
    rewrite Et, Etmp, Eid, Egid in Htmp. unfold e_id. rewrite Ei, Eid.
    destruct (Hm sq Hsq) as [_ Q1], (Hm sq' Hsq') as [_ Q2].
    assert (La : ge_id w' mod 2 ^ 24 < 2 ^ 24) by (by apply N.mod_lt). assert (Lb : ge_id w mod 2 ^ 24 < 2 ^ 24) by (by apply N.mod_lt).
    clear -Htmp La Lb Q1 Q2. revert Htmp La Lb. generalize (ge_id w' mod 2 ^ 24), (ge_id w mod 2 ^ 24). intros a b Htmp La Lb.
    change (2 ^ 24) with 16777216 in *. change (2 ^ 25) with 33554432 in *. change (2 ^ 32) with 4294967296 in *.
    rewrite !N.mod_small in Htmp by lia. lia.
  - lia.
  - right. by exists c.
Qed.
Print Assumptions C77_layers.
(** When all stacks are less than a quarter apart it is found. *)
Definition close_stacks (p : profile) (mtb : merge_tb) (tb : tiebreak) (o : match_opts) (layers : list subquery) : Prop :=
  forall c, stacked p mtb tb layers o c ->
    fltb (fsub f_zero (cc_relev c)) (f_lit 25 100) = true /\
    forall c', stacked p mtb tb layers o c' -> fltb (fsub (cc_relev c') (cc_relev c)) (f_lit 25 100) = true.
Theorem C77_found :
  forall p ho mtb tb stack layers o cs calls i sq w,
  layers ≡ₚ stack -> StronglySorted zoom_ordered layers -> (2 <= length layers)%nat ->
  (forall a, a ∈ layers -> sq_mask a <> 0 /\ sq_idx a < 128) ->
  (forall a b, a ∈ layers -> b ∈ layers -> sq_idx a = sq_idx b -> a = b) ->
  sane o -> (forall a, a ∈ layers -> written_by (calls a) a) -> (forall a, a ∈ layers -> first_short p mtb tb o 100000 a) ->
  close_stacks p mtb tb o layers ->
  coalesce p ho mtb tb stack o = Ok cs -> (length cs < 40)%nat ->
  layers !! i = Some sq -> expected calls o layers i w ->
  exists c, c ∈ cs /\ led_by sq w c.
Proof.
  intros p ho mtb tb stack layers o cs calls i sq w Hp Hsort Hlen Hm Hid Hs Hw Hf Hclose H Hroom Hi He.
  destruct (C77_layers p ho mtb tb stack layers o cs calls i sq w Hp Hsort Hlen Hm Hid Hs Hw Hf H Hroom Hi He)
    as [?|(c & Hc & _ & top & d & Htop & Hd & Hweak)]; [done|exfalso].
  assert (Hds : stacked p mtb tb layers o d) by (by destruct Hd as [->|[_ ?]]). destruct (Hclose d Hds) as [C1 C2].
  destruct Htop as [->|(c' & Hc' & ->)]; [by rewrite C1 in Hweak|]. by rewrite (C2 c' Hc') in Hweak.
Qed.
Print Assumptions C77_found.
(** One layer, at its own zoom: less than 80 records of similar relevance. *)
Theorem C77_one_layer :
  forall p ho mtb tb sq o calls w,
  sane o -> written_by (calls sq) sq -> mo_zoom o = zoom_of sq -> asked (calls sq) o sq w -> ge_id w mod 2 ^ 24 <> 0 ->
  first_short p mtb tb o 80 sq ->
  (forall k ks out, sq_keys sq = k :: ks -> streaming_get_matching p mtb tb (sq_store sq) (mki_key k) o 80 = Ok out -> close_relevances sq out) ->
  exists cs, coalesce p ho mtb tb [sq] o = Ok cs /\
  ((length cs < 40)%nat -> exists c e, c ∈ cs /\ cc_entries c = [e] /\ ce_idx e = sq_idx sq /\ e_id e = ge_id w mod 2 ^ 24).
Proof.
  intros p ho mtb tb sq o calls w Hs Hw Hz Ha Hid Hf Hclose.
  destruct (asked_match p mtb tb o sq w (calls sq) 80 Hs Hw Ha ltac:(lia)) as (k & ks & zo & out & Hk & Hzo & Hout & Hm).
  pose proof (Hf k ks zo out Hk Hzo Hout) as Hlen. unfold adjust_to_zoom in Hzo. rewrite Hz, N.eqb_refl in Hzo. injection Hzo as <-.
  destruct (Hm Hlen) as (m & Hin & Hsp). assert (Em : ge_id (me_entry m) = ge_id w mod 2 ^ 24) by (unfold spot in Hsp; by injection Hsp as _ _ ->).
  destruct (C42_complete p ho mtb tb sq o k ks out Hk Hz Hout) as (cs & Hcs & Hall); [lia| |by eapply Hclose|].
  { intros g Hg. pose proof Hw as (Hh & [ho' Hb] & Hzz & Hq & Hr).
    destruct (adjusted p o (zoom_of sq) o Hs Hzz) as (Ez & Ab & Ap); [unfold adjust_to_zoom; by rewrite Hz, N.eqb_refl|].
    pose proof (adjusted_ok o sq o Hs Hzz Ez Ap Hr) as Hok.
    assert (Hk' : k ∈ sq_keys sq) by (rewrite Hk; by left).
    pose proof (answer_written _ _ _ _ _ _ _ _ 80 _ _ Hh Hb Hok (Hq k Hk') ltac:(lia) Hout Hg) as (key & es & e & _ & _ & _ & _ & ->).
    cbn. by apply N.mod_lt. }
  exists cs. split; [done|]. intros Hroom. destruct (Hall m Hin) as [?|(c & g' & Hc & _ & (e & Ee & (Een & _ & Eidx & _) & _) & Eg)].
  - left. by rewrite Em.
  - lia.
  - exists c, e. split; [done|]. split; [done|]. split; [done|]. unfold e_id. rewrite Een. cbn. by rewrite Eg.
Qed.
Print Assumptions C77_one_layer.

(** Two layers of small weight: of the second one an entry inside the tile of the entry of
    the first one, and an entry elsewhere. *)
Definition l_a_ops : list op := layer_ops 1 [GridEntry f_one 1 0 0 8 0].
Definition l_b_ops : list op := layer_ops 1 [GridEntry f_one 1 1 1 1 0; GridEntry f_one 2 60 60 2 0].
Definition l_a : subquery := layer l_a_ops 5 0 1 (f_lit 1 8).
Definition l_b : subquery := layer l_b_ops 6 1 2 (f_lit 1 8).
Definition l_calls (sq : subquery) : list op := if sq_idx sq =? 0 then l_a_ops else l_b_ops.
Definition first_shortb (p : profile) (mtb : merge_tb) (tb : tiebreak) (o : match_opts) (n : N) (sq : subquery) : bool :=
  match sq_keys sq, adjust_to_zoom p o (zoom_of sq) with
  | k :: _, Ok zo => match streaming_get_matching p mtb tb (sq_store sq) (mki_key k) zo n with Ok out => N.of_nat (length out) <? n | _ => true end
  | _, _ => true
  end.
Lemma first_short_ok p mtb tb o n sq : first_shortb p mtb tb o n sq = true -> first_short p mtb tb o n sq.
Proof. unfold first_shortb. intros H k ks zo out Hk Hzo Hout. rewrite Hk, Hzo, Hout in H. by apply N.ltb_lt. Qed.
Definition f_8 : f64 := f_lit 1 8.
Lemma l_entry e z : entry_from Debug first_mtb first_tb [l_a; l_b] o_o e z -> e_relev e = f_8 /\ (ce_mask e = 1 \/ ce_mask e = 2).
Proof.
  intros (sq & g & Hsq & _ & (k & ks & zo & out & Hk & Hzo & Hout & Hg) & (E & _ & _ & Em & _)).
  rewrite !elem_of_cons, elem_of_nil in Hsq. destruct Hsq as [->|[->|[]]].
  all: injection Hk as <- <-; vm_compute in Hzo; injection Hzo as <-; vm_compute in Hout; injection Hout as <-.
  - apply elem_of_list_singleton in Hg as ->. unfold e_relev. rewrite E. split; [vm_compute; reflexivity|by left].
  - rewrite !elem_of_cons, elem_of_nil in Hg. unfold e_relev. rewrite E. destruct Hg as [->|[->|[]]]; (split; [vm_compute; reflexivity|by right]).
Qed.
Lemma l_acc (ok : coalesce_entry -> Prop) l r : (forall e, ok e -> e_relev e = f_8) -> accumulates ok l r ->
  (forall e, e ∈ l -> e_relev e = f_8) -> (length l = 1%nat -> r = f_8) /\ (length l = 2%nat -> r = fadd f_8 f_8).
Proof.
  intros Hok. induction 1 as [e|es t e He Ha IH|es t e e' Hne He He' _ Ha IH Hlt]; intros Hl.
  - split; [intros _; apply Hl; by left|done].
  - destruct IH as [IH1 IH2]; [intros; apply Hl, elem_of_app; by left|]. rewrite app_length. cbn.
    rewrite (Hok e He). split; [intros ?; assert (es = []) as -> by (by destruct es; [|cbn in *; lia]); inversion Ha as [|[]|[]]; congruence|].
    intros ?. by rewrite IH1 by lia.
  - rewrite (Hok e He), (Hok e' He') in Hlt. vm_compute in Hlt. discriminate.
Qed.
(** Layers whose entries have a relevance of one eighth and one of two words. *)
Definition eighths (p : profile) (mtb : merge_tb) (tb : tiebreak) (ls : list subquery) (o : match_opts) : Prop :=
  forall e z, entry_from p mtb tb ls o e z -> e_relev e = f_8 /\ (ce_mask e = 1 \/ ce_mask e = 2).
Lemma l_relev p mtb tb ls o c : eighths p mtb tb ls o -> stacked p mtb tb ls o c ->
  cc_relev c ∈ [f_8; fadd f_8 f_8; fsub f_8 f_001; fsub (fadd f_8 f_8) f_001].
Proof.
  intros Hl Hc. assert (Hn : forall z e0 e, nested (entry_from p mtb tb ls o) z e0 e ->
    e_relev e = f_8 /\ (ce_mask e = 1 \/ ce_mask e = 2)) by (intros z e0 e (z' & He & _); by apply (Hl e z')).
  assert (Hg : forall z e0 es m r, good_entries (entry_from p mtb tb ls o) z e0 es m r ->
    r = f_8 \/ r = fadd f_8 f_8).
  { intros z e0 es m r [G1 G2 G3 _ G5]. rewrite Forall_forall in G2.
    destruct (Hl e0 z G1) as [R0 M0].
    assert (Hlen : (length es <= 1)%nat).
    { destruct es as [|e1 [|e2 es]]; [cbn; lia|cbn; lia|exfalso].
      destruct (Hn z e0 e1 (G2 e1 ltac:(by left))) as [_ M1]. destruct (Hn z e0 e2 (G2 e2 ltac:(right; by left))) as [_ M2].
      cbn [map disjoint_masks] in G3. destruct G3 as (D1 & D2 & _). inversion D1 as [|? ? D3 D4]; subst. inversion D4 as [|? ? D5 _]; subst.
      inversion D2 as [|? ? D6 _]; subst.
      destruct M0 as [E0|E0], M1 as [E1|E1], M2 as [E2|E2]; rewrite E0, ?E1, ?E2 in *; done. }
    destruct (l_acc _ _ _ (fun e He => proj1 (Hn z e0 e He)) G5) as [A1 A2].
    { intros e He. apply elem_of_cons in He as [->|He]; [done|]. by apply (Hn z e0), G2. }
    cbn [length] in A1, A2. destruct es as [|e1 [|e2 es]]; [left; by apply A1|right; by apply A2|cbn in Hlen; lia]. }
  destruct Hc as (z & [(e0 & es & _ & G)|(e0 & es & r & _ & G & ->)]).
  - rewrite !elem_of_cons. destruct (Hg _ _ _ _ _ G) as [E|E]; rewrite E; tauto.
  - rewrite !elem_of_cons. unfold last_penalty. destruct (Hg _ _ _ _ _ G) as [E|E]; rewrite E; destruct es as [|e1 es]; try destruct (_ <? _); tauto.
Qed.
Lemma eighths_close p mtb tb ls o : eighths p mtb tb ls o -> close_stacks p mtb tb o ls.
Proof.
  intros Hl c Hc%(l_relev _ _ _ _ _ _ Hl). split.
  - rewrite !elem_of_cons, elem_of_nil in Hc. destruct Hc as [-> | [-> | [-> | [-> | [] ] ] ] ]; vm_compute; reflexivity.
  - intros c' Hc'%(l_relev _ _ _ _ _ _ Hl). rewrite !elem_of_cons, elem_of_nil in Hc, Hc'.
    destruct Hc as [-> | [-> | [-> | [-> | [] ] ] ] ], Hc' as [-> | [-> | [-> | [-> | [] ] ] ] ]; vm_compute; reflexivity.
Qed.
Lemma l_close : close_stacks Debug first_mtb first_tb o_o [l_a; l_b].
Proof. apply eighths_close. intros e z. apply l_entry. Qed.
Lemma l_written sq : sq ∈ [l_a; l_b] -> written_by (l_calls sq) sq.
Proof.
  intros H. repeat (apply elem_of_cons in H as [->|H]); [| |by apply elem_of_nil in H].
  all: split; [apply history_okb_ok; vm_compute; reflexivity|]; split; [exists id_oracle; apply built_run; vm_compute; reflexivity|].
  all: split; [apply N.leb_le; vm_compute; reflexivity|]; split; [|vm_compute; exact I].
  all: intros k Hk; apply elem_of_list_singleton in Hk as ->; apply N.ltb_lt; reflexivity.
Qed.
Example C77_ex :
  [l_a; l_b] ≡ₚ [l_b; l_a] /\ StronglySorted zoom_ordered [l_a; l_b] /\
  (forall a, a ∈ [l_a; l_b] -> sq_mask a <> 0 /\ sq_idx a < 128) /\
  (forall a b, a ∈ [l_a; l_b] -> b ∈ [l_a; l_b] -> sq_idx a = sq_idx b -> a = b) /\
  sane o_o /\ (forall a, a ∈ [l_a; l_b] -> written_by (l_calls a) a) /\
  (forall a, a ∈ [l_a; l_b] -> first_short Debug first_mtb first_tb o_o 100000 a) /\
  close_stacks Debug first_mtb first_tb o_o [l_a; l_b] /\
  standing l_calls o_o [l_a; l_b] 1 (GridEntry f_one 1 1 1 1 0) /\ expected l_calls o_o [l_a; l_b] 1 (GridEntry f_one 2 60 60 2 0) /\
  summary (coalesce Debug id_oracle first_mtb first_tb [l_b; l_a] o_o) = Some [(3, [(1, 1); (0, 8)]); (1, [(0, 8)]); (2, [(1, 2)])].
Proof.
  assert (Ha : forall sq w, sq ∈ [l_a; l_b] -> w ∈ written (l_calls sq) !!! (1, 1) -> asked (l_calls sq) o_o sq w).
  { intros sq w Hsq Hw. rewrite !elem_of_cons, elem_of_nil in Hsq.
    destruct Hsq as [->|[->|[]]]; (eexists _, []; split; [reflexivity|]; split; [|done]); exists (1, 1); eexists;
      (split; [vm_compute; reflexivity|]); (split; [reflexivity|]); vm_compute in Hw; exact Hw. }
  split; [apply (Permutation_rev [l_a; l_b])|]. split; [repeat constructor|].
  split; [intros a H; rewrite !elem_of_cons, elem_of_nil in H; destruct H as [->|[->|[]]]; done|].
  split; [intros a b H H'; rewrite !elem_of_cons, elem_of_nil in H, H'; destruct H as [->|[->|[]]], H' as [->|[->|[]]]; done|].
  split; [split; [apply N.leb_le; reflexivity|]; by split|]. split; [exact l_written|].
  split; [intros a H; apply first_short_ok; rewrite !elem_of_cons, elem_of_nil in H; destruct H as [->|[->|[]]]; vm_compute; reflexivity|].
  split; [exact l_close|]. split; [|split; [|vm_compute; reflexivity]].
  - eapply (standing_on _ _ _ 1 l_b _ 0 l_a (GridEntry f_one 1 0 0 8 0)); try done.
    + lia.
    + apply Ha; [right; left|]. apply (bool_decide_unpack _); vm_compute; exact I.
    + apply (standing_first _ _ _ l_a); [done|]. apply Ha; [left|]. apply (bool_decide_unpack _); vm_compute; exact I.
  - right. split; [done|]. exists l_b. split; [done|]. apply Ha; [right; left|]. apply (bool_decide_unpack _); vm_compute; exact I.
Qed.
(** The same layers with more weight: what stands alone is half as relevant as what stands
    on the other layer, and is not returned. *)
Theorem C77_alone_refuted :
  exists la lb w, (forall a, a ∈ [la; lb] -> written_by (l_calls a) a) /\ expected l_calls o_o [la; lb] 1 w /\
    (forall a, a ∈ [la; lb] -> first_short Debug first_mtb first_tb o_o 100000 a) /\
    exists cs, coalesce Debug id_oracle first_mtb first_tb [la; lb] o_o = Ok cs /\ (length cs < 40)%nat /\
      forall c, c ∈ cs -> ~ led_by lb w c.
Proof.
  exists (layer l_a_ops 5 0 1 (f_lit 1 2)), (layer l_b_ops 6 1 2 (f_lit 1 2)), (GridEntry f_one 2 60 60 2 0). split.
  { intros sq H. repeat (apply elem_of_cons in H as [->|H]); [| |by apply elem_of_nil in H].
    - exact (l_written l_a ltac:(left)).
    - exact (l_written l_b ltac:(right; left)). }
  split.
  { right. split; [done|]. eexists. split; [reflexivity|]. eexists _, []. split; [reflexivity|]. split; [|done].
    exists (1, 1). eexists. split; [vm_compute; reflexivity|]. split; [reflexivity|]. apply (bool_decide_unpack _); vm_compute; exact I. }
  split; [intros a H; apply first_short_ok; rewrite !elem_of_cons, elem_of_nil in H; destruct H as [->|[->|[]]]; vm_compute; reflexivity|].
  eexists. split; [vm_compute; reflexivity|]. split; [cbn; lia|]. intros c Hc (e & es & E1 & E2 & E3).
  apply elem_of_list_singleton in Hc as ->. injection E1 as <- <-. vm_compute in E3. discriminate E3.
Qed.
Print Assumptions C77_alone_refuted.
Example C77_one_ex :
  mo_zoom (MatchOpts None None 6) = zoom_of l_b /\ sane (MatchOpts None None 6) /\
  asked l_b_ops (MatchOpts None None 6) l_b (GridEntry f_one 2 60 60 2 0) /\
  first_short Debug first_mtb first_tb (MatchOpts None None 6) 80 l_b /\
  (forall k ks out, sq_keys l_b = k :: ks ->
     streaming_get_matching Debug first_mtb first_tb (sq_store l_b) (mki_key k) (MatchOpts None None 6) 80 = Ok out -> close_relevances l_b out) /\
  summary (coalesce Debug id_oracle first_mtb first_tb [l_b] (MatchOpts None None 6)) = Some [(2, [(1, 2)]); (2, [(1, 1)])].
Proof.
  split; [reflexivity|]. split; [split; [apply N.leb_le; reflexivity|]; by split|]. split.
  { eexists _, []. split; [reflexivity|]. split; [|done].
    exists (1, 1). eexists. split; [vm_compute; reflexivity|]. split; [reflexivity|]. apply (bool_decide_unpack _); vm_compute; exact I. }
  split; [apply first_short_ok; vm_compute; reflexivity|]. split; [|vm_compute; reflexivity].
  intros k ks out Hk H. injection Hk as <- <-. vm_compute in H. injection H as <-. apply close_relevancesb_ok. vm_compute. reflexivity.
Qed.
