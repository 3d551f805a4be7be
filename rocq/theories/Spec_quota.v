(** Specification vocabulary for the quotas of tree_coalesce. *)
From Verif Require Import Prelude F64 Common Store Query Coalesce Stackable Spec_coalesce Spec_tree.
Local Open Scope N_scope.

(** A range of more than one phrase; the length of the range is a u32. *)
Definition spans (k : match_key_id) : bool :=
  match mk_phrase (mki_key k) with
  | Exact _ => false
  | Range s e => if s <=? e then 1 <? e - s else 1 <? (2 ^ 32 + e - s) mod 2 ^ 32
  end.
(** An autocomplete range for a single word. *)
Definition one_word (pm : subquery) (k : match_key_id) : bool := spans k && (count_ones (sq_mask pm) =? 1).
(** A key of a store of zoom 14 or more that is asked for everywhere. *)
Definition high_zoom (pm : subquery) : bool := 14 <=? zoom_of pm.
Definition far_reaching (pm : subquery) (k : match_key_id) : bool := high_zoom pm && negb (mki_nearby k).

(** The five quotas, their limits, and the keys they apply to. *)
Inductive quota := OneLetter | OneWord | OneWordHigh | HighRange | High.
Definition quota_limit (c : quota) : N :=
  match c with OneLetter => 8 | OneWord => 40 | OneWordHigh => 8 | HighRange => 40 | High => 600 end.
Definition under_quota (c : quota) (pm : subquery) (k : match_key_id) : bool :=
  match c with
  | OneLetter => one_word pm k && (mki_length k =? 1)
  | OneWord => one_word pm k
  | OneWordHigh => one_word pm k && far_reaching pm k
  | HighRange => spans k && far_reaching pm k
  | High => far_reaching pm k
  end.
(** How many of some keys of a subquery. *)
Definition tally (c : quota) (pm : subquery) (ks : list match_key_id) : N :=
  N.of_nat (length (List.filter (under_quota c pm) ks)).

(** How often the nodes of a tree ask for a key under a quota. *)
Definition node_uses (c : quota) (n : node) : N :=
  match sn_pm n with Some pm => tally c pm (sq_keys pm) | None => 0 end.
Definition uses_before (c : quota) (t : tree) (m : nat) : N :=
  foldr (fun i s => match tree_get t (N.of_nat i) with Some n => node_uses c n | None => 0 end + s) 0 (seq 0 m).
Definition tree_uses (c : quota) (t : tree) : N := uses_before c t (N.to_nat (am_next (t_arena t))).

(** The last entry of a stack is not looked for: it belongs to an autocomplete range for a
    single word in a store of high zoom, its node is a leaf, and what the node promises,
    with a relevance [r] not below that of the rest of the stack, is at most three quarters
    of a relevance [b] that was already found. *)
Definition passed_by (found : list coalesce_context) (n : node) (chain : list subquery) (es : list coalesce_entry) : Prop :=
  exists pm rest e es' k b r, chain = pm :: rest /\ es = e :: es' /\ k ∈ sq_keys pm /\ mki_id k = ce_phrasematch_id e /\
    one_word pm k = true /\ high_zoom pm = true /\ sn_children n = [] /\
    (b = f_zero \/ exists d, d ∈ found /\ ord_cmp b (cc_relev d) <> Gt) /\
    fltb r (sum_relev es') = false /\ fleb (fadd r (sq_weight pm)) (fmul (f_lit 75 100) b) = true.
(** A quota applies to a key of the stack, and is [full]. *)
Definition quota_hit (full : quota -> Prop) (chain : list subquery) (es : list coalesce_entry) : Prop :=
  exists i pm e k c, chain !! i = Some pm /\ es !! i = Some e /\ k ∈ sq_keys pm /\ mki_id k = ce_phrasematch_id e /\
    under_quota c pm k = true /\ full c.
