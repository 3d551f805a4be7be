(** Property C81: what is found after a second history was written over a directory. *)
From Verif Require Import Prelude Lists F64 Heap Common Morton Format Builder Spatial Store Spec Spec_match Spec_rebuild
  Finish_proofs History_proofs Merge_proofs Query_proofs Binquery_proofs Rebuild_proofs Examples.
From Coq Require Import Sorting.Sorted.
Local Open Scope N_scope.

(** Answers from single records are those of a fresh directory, written by the calls of
    the first history on other keys and then by the second. *)
Theorem C81_records :
  forall o o' ops1 ops2 d1 d12 z t r bb ms,
  history_ok ops1 -> history_ok ops2 -> finish o (run ops1) ∅ = Ok d1 -> finish o' (run ops2) d1 = Ok d12 ->
  let s := open_store d12 z t r bb ms in
  st_bounds s = loaded ops2 /\
  (forall k, written (overlay ops1 ops2) !! k =
     match written ops2 !! k with Some es => Some es | None => written ops1 !! k end) /\
  exists s', built o' (overlay ops1 ops2) s' /\ history_ok (overlay ops1 ops2) /\ st_radius s' = st_radius s /\
    (forall key, key_ok key -> get s key = get s' key) /\ keys s = keys s' /\ iter s = iter s' /\
    forall p mtb tb k opts max, query_ok ops2 (mk_phrase k) -> ~ bin_query ops2 (mk_phrase k) ->
      streaming_get_matching p mtb tb s k opts max = streaming_get_matching p mtb tb s' k opts max.
Proof.
  intros o o' ops1 ops2 d1 d12 z t r bb ms H1 H2 F1 F12 s.
  destruct (overlay_store o o' ops1 ops2 d1 d12 z t r bb ms H1 H2 F1 F12) as (_ & Hb & H).
  split; [done|]. split; [intros k; apply written_overlay|]. exact H.
Qed.
Print Assumptions C81_records.

(** A range between two boundaries of the second history is answered from its bins and from
    bins of the first history that it did not replace, not from the records. *)
Theorem C81_ranges :
  forall p mtb tb o o' ops1 ops2 d1 d12 z t r bb ms k st en opts max,
  history_ok ops1 -> history_ok ops2 -> bins_ok ops1 \/ loaded ops1 = [] -> bins_ok ops2 ->
  finish o (run ops1) ∅ = Ok d1 -> finish o' (run ops2) d1 = Ok d12 ->
  mk_phrase k = Range st en -> st ∈ loaded ops2 -> en ∈ loaded ops2 -> opts_ok p opts r ->
  1 <= max -> N.of_nat (size (written ops1) + size (written ops2)) <= max ->
  exists out, streaming_get_matching p mtb tb (open_store d12 z t r bb ms) k opts max = Ok out /\
    forall m, m ∈ out <-> should_match ops2 k opts r m \/ stale_match ops1 ops2 k opts r m.
Proof.
  intros p mtb tb o o' ops1 ops2 d1 d12 z t r bb ms k st en opts max H1 H2 B1 B2 F1 F12 Eph Hst Hen Ho Hmax Hsz.
  destruct (overlay_bins p mtb tb o o' ops1 ops2 d1 d12 z t r bb ms k st en opts) as (ess & Hel & Hlen & Hrun); [done..|].
  destruct (q_run_all tb max ess ltac:(lia) Hmax) as (q & Hq' & Hp & _).
  exists (drain_queue tb (queue_size q) q). rewrite Hrun, Hq'. split; [done|].
  intros m. rewrite Hp. apply Hel.
Qed.
Print Assumptions C81_ranges.

(** If each bin of the first history, per language set, is written again, only entries of
    the second history are found. This covers a first history without boundaries. *)
Theorem C81_clean :
  forall p mtb tb o o' ops1 ops2 d1 d12 z t r bb ms k st en opts max,
  history_ok ops1 -> history_ok ops2 -> bins_ok ops1 \/ loaded ops1 = [] -> bins_ok ops2 ->
  (forall gid l, bin_used ops1 gid l -> bin_used ops2 gid l) ->
  finish o (run ops1) ∅ = Ok d1 -> finish o' (run ops2) d1 = Ok d12 ->
  mk_phrase k = Range st en -> st ∈ loaded ops2 -> en ∈ loaded ops2 -> opts_ok p opts r ->
  1 <= max -> N.of_nat (size (written ops1) + size (written ops2)) <= max ->
  exists out, streaming_get_matching p mtb tb (open_store d12 z t r bb ms) k opts max = Ok out /\
    forall m, m ∈ out <-> should_match ops2 k opts r m.
Proof.
  intros p mtb tb o o' ops1 ops2 d1 d12 z t r bb ms k st en opts max H1 H2 B1 B2 Hu F1 F12 Eph Hst Hen Ho Hmax Hsz.
  destruct (C81_ranges p mtb tb o o' ops1 ops2 d1 d12 z t r bb ms k st en opts max) as (out & Hout & Hel); [done..|].
  exists out. split; [done|]. intros m. rewrite Hel. split; [|by left]. intros [H|H]; [done|].
  destruct H as (key & es & gid & e & Hw & Hg & _ & Hn & _). exfalso. apply Hn, Hu. exists key, es. done.
Qed.
Print Assumptions C81_clean.

(** Range and single queries disagree: an entry that the query for its phrase finds is
    not found by the range, and the range finds an entry that no record holds. *)
Definition rb_ask (db : gmap (list N) (list N)) (ph : match_phrase) : list N :=
  match streaming_get_matching Debug first_mtb first_tb (open_default db) (MatchKey ph 1) (MatchOpts None None 14) 10 with
  | Ok l => map (fun m => ge_y (me_entry m)) l
  | _ => []
  end.
Definition rb_db (ops1 ops2 : list op) : gmap (list N) (list N) :=
  match finish id_oracle (run ops2) (ex_db id_oracle ops1) with Ok d => d | _ => ∅ end.
(** Written again with other phrases; and with other boundaries. *)
Definition rb_1 : list op := [OpInsert (1, 1) [ex_e1]; OpBounds [0; 5]].
Definition rb_2 : list op := [OpInsert (2, 1) [ex_e2]; OpBounds [0; 5]].
Definition rb_3 : list op := [OpInsert (1, 1) [ex_e1]; OpBounds [0; 1; 5]].
Definition rb_4 : list op := [OpInsert (1, 1) [ex_e2]; OpBounds [0; 5]].
Lemma rb_first (ops : list op) :
  forallb (fun kv : (N * N) * list grid_entry =>
    match head (loaded ops) with Some b => b <=? kv.1.1 | None => false end) (map_to_list (written ops)) = true ->
  forall k es, written ops !! k = Some es -> exists b, head (loaded ops) = Some b /\ b <= k.1.
Proof.
  intros H k es Hw. rewrite forallb_forall in H.
  specialize (H (k, es) ltac:(by apply elem_of_list_In, elem_of_map_to_list)). cbn [fst] in H.
  destruct (head (loaded ops)) as [b|]; [|done]. exists b. split; [done|]. by apply N.leb_le.
Qed.
Lemma bin_entries_le ops gid l :
  (length (bin_entries ops gid l) <= length (mjoin (map snd (map_to_list (written ops)))))%nat.
Proof.
  unfold bin_entries. induction (map_to_list (written ops)) as [|kv m IH]; [done|]. cbn [List.filter map].
  match goal with |- context [if ?c then _ else _] => destruct c end.
  - cbn [map]. change (mjoin (kv.2 :: ?a)) with (kv.2 ++ mjoin a). rewrite !app_length. lia.
  - change (mjoin (kv.2 :: ?a)) with (kv.2 ++ mjoin a). rewrite app_length. lia.
Qed.
Lemma rb_bins ops :
  StronglySorted (fun a b => a < b) (loaded ops) ->
  forallb (fun kv : (N * N) * list grid_entry =>
    match head (loaded ops) with Some b => b <=? kv.1.1 | None => false end) (map_to_list (written ops)) = true ->
  N.of_nat (length (mjoin (map snd (map_to_list (written ops))))) <= 2 ^ 27 -> bins_ok ops.
Proof.
  intros H1 H2 H3. split; [done|]. split; [by apply rb_first|]. intros gid l.
  pose proof (bin_entries_le ops gid l). lia.
Qed.
Theorem C81_disagree_refuted :
  exists ops1 ops2 ops3 ops4, history_ok ops1 /\ history_ok ops2 /\ history_ok ops3 /\ history_ok ops4 /\
    bins_ok ops1 /\ bins_ok ops2 /\ bins_ok ops3 /\ bins_ok ops4 /\
    rb_ask (rb_db ops1 ops2) (Exact 1) = [5] /\ rb_ask (rb_db ops1 ops2) (Range 0 5) = [6] /\
    iter (open_default (rb_db ops3 ops4)) = Ok [((1, 1), [ex_e2])] /\
    rb_ask (rb_db ops3 ops4) (Range 0 5) = [5; 6].
Proof.
  exists rb_1, rb_2, rb_3, rb_4.
  do 4 (split; [apply history_okb_ok; vm_compute; reflexivity|]).
  do 4 (split; [apply rb_bins; [unfold loaded; cbn; repeat constructor|vm_compute; reflexivity|apply N.leb_le; vm_compute; reflexivity]|]).
  repeat split; vm_compute; reflexivity.
Qed.
Print Assumptions C81_disagree_refuted.

(** The theorems applied to the second pair: the stale match is the one of the entry
    that was replaced. *)
Example C81_example :
  exists m, stale_match rb_3 rb_4 (MatchKey (Range 0 5) 1) (MatchOpts None None 14) f_one m /\
    ge_y (me_entry m) = 5 /\ ~ should_match rb_4 (MatchKey (Range 0 5) 1) (MatchOpts None None 14) f_one m.
Proof.
  eexists. split; [|split].
  - exists (1, 1), [ex_e1], 1, ex_e1. split; [vm_compute; reflexivity|]. split; [vm_compute; reflexivity|].
    split; [done|]. split; [|split; [apply elem_of_list_here|split; [done|reflexivity]]].
    intros (k & es & Hw & Hg & _). unfold rb_4, written in Hw. cbn [foldl written_step] in Hw.
    apply lookup_insert_Some in Hw as [[<- <-]|[_ Hw]]; [vm_compute in Hg; congruence|by rewrite lookup_empty in Hw].
  - vm_compute. reflexivity.
  - intros (k & es & e & Hw & _ & He & _ & E). unfold rb_4, written in Hw. cbn [foldl written_step] in Hw.
    apply lookup_insert_Some in Hw as [[<- <-]|[_ Hw]]; [|by rewrite lookup_empty in Hw].
    apply elem_of_list_singleton in He as ->. vm_compute in E. discriminate.
Qed.
(** [C81_clean] applies when the first pair is written again with its own boundaries. *)
Example C81_clean_example :
  (forall gid l, bin_used rb_1 gid l -> bin_used rb_2 gid l) /\
  rb_ask (rb_db rb_1 rb_2) (Range 0 5) = [6].
Proof.
  split; [|vm_compute; reflexivity]. intros gid l (k & es & Hw & Hg & El).
  unfold rb_1, written in Hw. cbn [foldl written_step] in Hw.
  apply lookup_insert_Some in Hw as [[<- <-]|[_ Hw]]; [|by rewrite lookup_empty in Hw].
  exists (2, 1), [ex_e2]. split; [vm_compute; reflexivity|]. split; [rewrite <- Hg; vm_compute; reflexivity|done].
Qed.
