(** Model of /repo/rust-src/src/gridstore/stackable.rs. *)
From Verif Require Import Prelude F64 Common Store Query.

(** struct StackableNode, 14-23. Arena indexes are allocation numbers: a
    generational arena never hands out the same index twice. *)
Record node := Node {
  sn_pm : option subquery;
  sn_children : list N;
  sn_bmask : N;
  sn_mask : N;
  sn_idx : N;
  sn_max_relev : f64;
  sn_zoom : N }.

(** is_leaf, 26-28. *)
Definition is_leaf (n : node) : bool := match sn_children n with [] => true | _ => false end.

(** LEAF_SOFT_MAX, 50. *)
Definition leaf_soft_max : N := 2000.

(** struct ArenaManager, 52-61. [am_relev] is the HashMap keyed by relevance
    (equality of [OrderedFloat]); [am_next] is the next allocation number.
    [am_panicked] records that the [expect] at 109 failed. *)
Record arena := Arena {
  am_nodes : gmap N node;
  am_relev : list (f64 * (N * list N));
  am_min : f64;
  am_leaves : N;
  am_soft_max : N;
  am_next : N;
  am_panicked : bool }.

(** ArenaManager::new, 64-72. *)
Definition arena_new : arena := Arena ∅ [] f_max 0 leaf_soft_max 0 false.

(** is_full, 75-77. *)
Definition is_full (a : arena) : bool := am_soft_max a <=? am_leaves a.

Definition relev_is (r : f64) (b : f64 * (N * list N)) : bool :=
  match ord_cmp r b.1 with Eq => true | _ => false end.
(** [relev_map.entry(r).or_insert((0, []))] followed by the updates at 93-97. *)
Fixpoint relev_add (r : f64) (leaf : N) (idx : N) (m : list (f64 * (N * list N)))
  : list (f64 * (N * list N)) :=
  match m with
  | [] => [(r, (leaf, [idx]))]
  | b :: m' =>
      if relev_is r b then (b.1, (b.2.1 + leaf, b.2.2 ++ [idx])) :: m'
      else b :: relev_add r leaf idx m'
  end.
Definition relev_find (r : f64) (m : list (f64 * (N * list N))) : option (N * list N) :=
  snd <$> List.find (relev_is r) m.
Definition relev_remove (r : f64) (m : list (f64 * (N * list N))) : list (f64 * (N * list N)) :=
  List.filter (fun b => negb (relev_is r b)) m.
(** [relev_map.keys().min()], 132-133. *)
Definition relev_min (m : list (f64 * (N * list N))) : f64 :=
  match m with
  | [] => f_max
  | b :: m' =>
      fold_left (fun acc (c : f64 * (N * list N)) =>
                   match ord_cmp c.1 acc with Lt => c.1 | _ => acc end) m' b.1
  end.

(** cull_min, 124-134. *)
Definition cull_min (a : arena) : arena :=
  let '(nodes, relev, leaves) :=
    match relev_find (am_min a) (am_relev a) with
    | Some (count, idxs) =>
        (foldl (fun m i => delete i m) (am_nodes a) idxs,
         relev_remove (am_min a) (am_relev a), am_leaves a - count)
    | None => (am_nodes a, am_relev a, am_leaves a)
    end in
  Arena nodes relev (relev_min relev) leaves (am_soft_max a) (am_next a) (am_panicked a).

Definition ord_lt (a b : f64) : bool := match ord_cmp a b with Lt => true | _ => false end.

(** add, 79-122. *)
Definition arena_add (a : arena) (n : node) : option N * arena :=
  let r := sn_max_relev n in
  if is_full a && ord_lt r (am_min a) then (None, a)
  else
    let i := am_next a in
    let leaf := if is_leaf n then 1 else 0 in
    let a1 := Arena (<[i := n]> (am_nodes a)) (relev_add r leaf i (am_relev a))
                    (am_min a) (am_leaves a + leaf) (am_soft_max a) (i + 1) (am_panicked a) in
    if am_leaves a <? am_soft_max a then
      (Some i,
       if ord_lt r (am_min a)
       then Arena (am_nodes a1) (am_relev a1) r (am_leaves a1) (am_soft_max a1) (am_next a1)
                  (am_panicked a1)
       else a1)
    else if ord_lt (am_min a) r then
      match relev_find (am_min a) (am_relev a1) with
      | None =>
          (Some i, Arena (am_nodes a1) (am_relev a1) (am_min a1) (am_leaves a1)
                         (am_soft_max a1) (am_next a1) true)
      | Some (min_count, _) =>
          (Some i, if am_soft_max a <=? am_leaves a1 - min_count then cull_min a1 else a1)
      end
    else (Some i, a1).

(** struct StackableTree, 142-146. *)
Record tree := Tree { t_root : node; t_arena : arena }.
Definition tree_get (t : tree) (i : N) : option node := am_nodes (t_arena t) !! i.

(** struct PhrasematchBin, 148-152. *)
Record pm_bin := PmBin { pb_pms : list subquery; pb_max : f64; pb_after : f64 }.

(** 159-172: the BTreeMap of bins, kept in ascending type-id order. *)
Fixpoint bin_add (pm : subquery) (m : list (N * pm_bin)) : list (N * pm_bin) :=
  let t := st_type_id (sq_store pm) in
  let upd b := PmBin (pb_pms b ++ [pm])
                     (if fltb (pb_max b) (sq_weight pm) then sq_weight pm else pb_max b)
                     (pb_after b) in
  match m with
  | [] => [(t, upd (PmBin [] f_zero f_zero))]
  | (t', b) :: m' =>
      match N.compare t t' with
      | Lt => (t, upd (PmBin [] f_zero f_zero)) :: m
      | Eq => (t', upd b) :: m'
      | Gt => (t', b) :: bin_add pm m'
      end
  end.

(** 177: sort_by_key (Reverse(weight), idx). *)
Definition pm_leb (a b : subquery) : bool :=
  match ord_cmp (sq_weight b) (sq_weight a) <;> N.compare (sq_idx a) (sq_idx b) with
  | Gt => false | _ => true end.

(** 182-186: running sums from the last bin backwards. *)
Fixpoint set_after (bins : list pm_bin) : list pm_bin * f64 :=
  match bins with
  | [] => ([], f_zero)
  | b :: bins' =>
      let '(out, sum) := set_after bins' in
      (PmBin (pb_pms b) (pb_max b) sum :: out, fadd sum (pb_max b))
  end.
Definition make_bins (pms : list subquery) : list pm_bin :=
  let m := foldl (fun m pm => bin_add pm m) [] pms in
  (set_after (map (fun tb : N * pm_bin =>
                     PmBin (isort pm_leb (pb_pms tb.2)) (pb_max tb.2) (pb_after tb.2)) m)).1.

(** The acceptance test at 227-228. *)
Definition can_stack (n : node) (pm : subquery) : bool :=
  (N.land (sn_mask n) (sq_mask pm) =? 0) && negb (bit_in (sq_nonoverlap pm) (sn_idx n)).

(** The node created at 213-221 for a child, with the arguments at 240-250. *)
Definition child_node (n : node) (pm : subquery) (target_relev : f64) : node :=
  Node (Some pm) [] (N.lor (sn_bmask n) (sq_nonoverlap pm)) (N.lor (sq_mask pm) (sn_mask n))
       (sq_idx pm) target_relev (st_zoom (sq_store pm)).

(** 252-260. *)
Definition attach (n : node) (child : node) (a : arena) : node * arena :=
  match arena_add a child with
  | (Some i, a') =>
      (Node (sn_pm n) (sn_children n ++ [i]) (sn_bmask n) (sn_mask n) (sn_idx n)
            (if fltb (sn_max_relev n) (sn_max_relev child) then sn_max_relev child
             else sn_max_relev n)
            (sn_zoom n), a')
  | (None, a') => (n, a')
  end.

(** binned_stackable, 202-265: the loop of one node over the remaining bins. The
    recursive call for a child starts at the next bin. *)
Fixpoint visit (bins : list pm_bin) (relev_so_far : f64) (n : node) (a : arena) {struct bins}
  : node * arena :=
  match bins with
  | [] => (n, a)
  | b :: rest =>
      let '(n', a') :=
        foldl (fun (na : node * arena) (pm : subquery) =>
                 let '(n, a) := na in
                 if can_stack n pm then
                   let target := fadd relev_so_far (sq_weight pm) in
                   if is_full a && fltb (fadd target (pb_after b)) (am_min a) then (n, a)
                   else
                     let '(child, a1) := visit rest target (child_node n pm target) a in
                     attach n child a1
                 else (n, a))
              (n, a) (pb_pms b) in
      visit rest relev_so_far n' a'
  end.

(** stackable, 154-200. *)
Definition root_node : node := Node None [] 0 0 129 f_zero 0.
Definition stackable (pms : list subquery) : tree :=
  let '(root, a) := visit (make_bins pms) f_zero root_node arena_new in
  Tree root a.
