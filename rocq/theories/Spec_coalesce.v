(** Specification vocabulary for coalesce: entries, contexts, masks, relevance. *)
From Verif Require Import Prelude F64 Common Query.
Local Open Scope N_scope.

Definition e_id (e : coalesce_entry) : N := ge_id (ce_entry e).
Definition e_relev (e : coalesce_entry) : f64 := ge_relev (ce_entry e).
Definition e_cell (e : coalesce_entry) : N * N := (ge_x (ce_entry e), ge_y (ce_entry e)).
(** The temporary id of the first entry of a context. *)
Definition first_tmp (c : coalesce_context) : option N := ce_tmp_id <$> head (cc_entries c).

(** An entry that carries a match found for a layer: only the relevance is changed,
    by the layer's weight. *)
Definition to_entry (sq : subquery) (pid : N) (g : match_entry) (e : coalesce_entry) : Prop :=
  ce_entry e = GridEntry (fmul (ge_relev (me_entry g)) (sq_weight sq)) (ge_score (me_entry g))
                 (ge_x (me_entry g)) (ge_y (me_entry g)) (ge_id (me_entry g)) (ge_hash (me_entry g)) /\
  ce_lang e = me_lang g /\ ce_idx e = sq_idx sq /\ ce_mask e = sq_mask sq /\
  ce_distance e = me_distance g /\ ce_scoredist e = me_scoredist g /\ ce_phrasematch_id e = pid /\
  ce_tmp_id e = (sq_idx sq * 2 ^ 25 + ge_id (me_entry g)) mod 2 ^ 32.

(** Contexts are listed by decreasing relevance, then decreasing scoredist, then
    increasing layer index, then decreasing x, y and id of the first entry. *)
Fixpoint first_difference (l : list comparison) : comparison :=
  match l with
  | [] => Eq
  | Eq :: l' => first_difference l'
  | c :: _ => c
  end.
Definition listed_before (a b : coalesce_context) : Prop :=
  exists ea ra eb rb, cc_entries a = ea :: ra /\ cc_entries b = eb :: rb /\
    first_difference
      [ord_cmp (cc_relev b) (cc_relev a); ord_cmp (ce_scoredist eb) (ce_scoredist ea);
       N.compare (ce_idx ea) (ce_idx eb); N.compare (e_cell eb).1 (e_cell ea).1;
       N.compare (e_cell eb).2 (e_cell ea).2; N.compare (e_id eb) (e_id ea)] <> Gt.

(** Bits used by a list of masks; no bit used twice. *)
Definition all_masks (l : list N) : N := foldr N.lor 0 l.
Fixpoint disjoint_masks (l : list N) : Prop :=
  match l with
  | [] => True
  | m :: l' => Forall (fun m' => N.land m m' = 0) l' /\ disjoint_masks l'
  end.

(** The entries of a context, in order, and its total relevance: every entry adds its
    relevance; a better entry with the same mask replaces the last one ([ok]: one that may be
    stacked) by subtracting the old relevance and adding the new one. *)
Inductive accumulates (ok : coalesce_entry -> Prop) : list coalesce_entry -> f64 -> Prop :=
  | acc_one e : accumulates ok [e] (e_relev e)
  | acc_add es t e : ok e -> accumulates ok es t -> accumulates ok (es ++ [e]) (fadd t (e_relev e))
  | acc_swap es t e e' : es <> [] -> ok e -> ok e' -> ce_mask e = ce_mask e' -> accumulates ok (es ++ [e]) t ->
      fltb (e_relev e) (e_relev e') = true -> accumulates ok (es ++ [e']) (fadd (fsub t (e_relev e)) (e_relev e')).
