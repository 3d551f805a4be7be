(** Specification vocabulary for how often tree_coalesce reads a store. *)
From Verif Require Import Prelude F64 Heap Common Builder Store Query Spatial Coalesce Stackable Tree.
Local Open Scope N_scope.

(** The reads of the main loop of tree_coalesce (rust-src/src/gridstore/coalesce.rs, 480-853) from a
    state on: in each round the keys that are handed to phase 1 (618-672), in order. The keys of a
    round that panics are counted, even those after the panic. *)
Fixpoint loop_reads (p : profile) (ho_ : hash_oracle) (mtb : merge_tb) (tb : tiebreak) (t : tree)
    (o : match_opts) (fuel : nat) (s : tree_state) : list kfetch :=
  match fuel with
  | O => []
  | S f =>
      match hp_items (tr_steps s) with
      | [] => []
      | _ =>
          match gather p tb (tr_cache s) (tr_contexts s) (S (length (hp_items (tr_steps s))))
                  (GatherState (tr_steps s) [] [] [] (tr_quotas s) 0 false) with
          | Ok g => gt_keys g ++
              match tree_round p ho_ mtb tb t o (N.of_nat f) s with
              | Ok (s', false) => loop_reads p ho_ mtb tb t o f s'
              | _ => []
              end
          | _ => []
          end
      end
  end.
(** The reads of tree_coalesce (451-863). *)
Definition reads (p : profile) (ho_ : hash_oracle) (mtb : merge_tb) (tb : tiebreak) (fuel : nat)
    (t : tree) (o : match_opts) : list kfetch :=
  match res_foldl (first_step p t o) hp_empty (sn_children (t_root t)) with
  | Ok steps => loop_reads p ho_ mtb tb t o fuel
                  (TreeState (cpq_new tree_max_contexts) steps ∅ (Quotas 0 0 0 0 0))
  | _ => []
  end.

(** The reads for stacking, and those for a subquery that is a result by itself. *)
Definition stacked (l : list kfetch) : list N := map kf_id (List.filter (fun k => negb (kf_single k)) l).
Definition alone (l : list kfetch) : list (N * subquery) :=
  map (fun k => (kf_id k, kf_sq k)) (List.filter kf_single l).
(** The keys of a subquery, with it. *)
Definition keys_of (sq : subquery) : list (N * subquery) := map (fun k => (mki_id k, sq)) (sq_keys sq).
(** The children of the root that have no children. *)
Definition lone_children (t : tree) : list subquery :=
  mjoin (map (fun i => match tree_get t i with
                       | Some n => match sn_pm n, sn_children n with Some sq, [] => [sq] | _, _ => [] end
                       | None => [] end) (sn_children (t_root t))).
