(** Model of /repo/rust-src/src/gridstore/spatial.rs. A [UniformVec<Coord>] is the
    list of its decoded elements; indices are [nat]. *)
From Verif Require Import Prelude F64 Common Morton Format.

(** The search loop of coord_binary_search, 168-175. The size strictly
    decreases, so a fuel of [size] is enough (see [bsearch_loop_fuel]). *)
Fixpoint bsearch_loop (fuel : nat) (coords : list coord) (val : N) (base size : nat)
  : res nat :=
  if (1 <? size)%nat then
    match fuel with
    | O => Diverge
    | S f =>
        let half := (size / 2)%nat in
        let mid := (base + half)%nat in
        let* c := index coords mid in
        bsearch_loop f coords val (if c_coord c <? val then base else mid) (size - half)
    end
  else Ok base.

(** coord_binary_search, 154-188. *)
Definition coord_binary_search (coords : list coord) (val : N) (offset : nat) : res nat :=
  let len := length coords in
  if (len <=? offset)%nat then Err
  else
    let size := (len - offset)%nat in
    let* base := bsearch_loop size coords val offset size in
    if (base =? len - 1)%nat then Ok base
    else
      let* c := index coords base in
      if c_coord c =? val then Ok base
      else Ok (if val <? c_coord c then S base else base).

(** bbox_range, 14-48. [None] is returned when the search reports an error. *)
Definition debug_assert (p : profile) (b : bool) : res unit :=
  match p, b with Debug, false => Panic | _, _ => Ok tt end.
Definition or_none {A B} (m : res A) (k : A -> res (option B)) : res (option B) :=
  match m with Err => Ok None | Ok a => k a | Panic => Panic | Diverge => Diverge end.
Definition bbox_range (p : profile) (coords : list coord) (b : bbox) : res (option (nat * nat)) :=
  let mn := interleave (bb_x0 b) (bb_y0 b) in
  let mx := interleave (bb_x1 b) (bb_y1 b) in
  let* _ := debug_assert p (mn <=? mx) in
  let len := length coords in
  if (len =? 0)%nat then Ok None
  else
    let* first := index coords 0 in
    if c_coord first <? mn then Ok None
    else
      let* last := index coords (len - 1) in
      if mx <? c_coord last then Ok None
      else
        let* _ := debug_assert p (c_coord last <=? c_coord first) in
        or_none (coord_binary_search coords mx 0) (fun start =>
        or_none (coord_binary_search coords mn start) (fun end_ =>
          let end_ := if (end_ =? len)%nat then (end_ - 1)%nat else end_ in
          let* _ := debug_assert p (start <=? end_)%nat in
          Ok (Some (start, end_)))).

(** The in-box test, 67 and 130. *)
Definition in_bbox (b : bbox) (c : coord) : bool :=
  let '(x, y) := deinterleave (c_coord c) in
  (bb_x0 b <=? x) && (x <=? bb_x1 b) && (bb_y0 b <=? y) && (y <=? bb_y1 b).

(** [coords.get(idx)] over a list of indices. *)
Definition get_all (coords : list coord) (idxs : list nat) : res (list coord) :=
  res_mapM (index coords) idxs.

(** bbox_filter, 55-73. *)
Definition bbox_filter (p : profile) (coords : list coord) (b : bbox)
  : res (option (list coord)) :=
  if (length coords =? 0)%nat then Ok None
  else
    let* r := bbox_range p coords b in
    match r with
    | None => Ok None
    | Some (s, e) =>
        let* cs := get_all coords (seq s (S e - s)) in
        Ok (Some (List.filter (in_bbox b) cs))
    end.

(** itertools' [merge_by]: take from the first list iff [is_first a b]. *)
Fixpoint merge_by {A} (is_first : A -> A -> bool) (l1 : list A) : list A -> list A :=
  fix inner (l2 : list A) : list A :=
    match l1, l2 with
    | [], _ => l2
    | _, [] => l1
    | a :: l1', b :: l2' =>
        if is_first a b then a :: merge_by is_first l1' l2
        else b :: inner l2'
    end.

(** Distance of Z-order values, 97-99: [i64] subtraction and [abs]. *)
Definition zdist (prox_pt : N) (c : coord) : N :=
  Z.abs_N (Z.of_N (c_coord c) - Z.of_N prox_pt).
Definition closer (prox_pt : N) (a b : coord) : bool := zdist prox_pt a <? zdist prox_pt b.

(** proximity, 79-104. *)
Definition proximity (coords : list coord) (pt : N * N) : res (option (list coord)) :=
  let prox_pt := interleave pt.1 pt.2 in
  let len := length coords in
  if (len =? 0)%nat then Ok None
  else
    or_none (coord_binary_search coords prox_pt 0) (fun mid =>
      let* head := get_all coords (rev (seq 0 mid)) in
      let* tail := get_all coords (seq mid (len - mid)) in
      Ok (Some (merge_by (closer prox_pt) head tail))).

(** bbox_proximity_filter, 110-145. *)
Definition bbox_proximity_filter (p : profile) (coords : list coord) (b : bbox) (pt : N * N)
  : res (option (list coord)) :=
  let* r := bbox_range p coords b in
  match r with
  | None => Ok None
  | Some (s, e) =>
      let prox_pt := interleave pt.1 pt.2 in
      if (length coords =? 0)%nat then Ok None
      else
        or_none (coord_binary_search coords prox_pt 0) (fun mid =>
          let* head := get_all coords (rev (seq s (mid - s))) in
          let* tail := get_all coords (seq mid (S e - mid)) in
          Ok (Some (merge_by (closer prox_pt)
                             (List.filter (in_bbox b) head) (List.filter (in_bbox b) tail))))
  end.

(** tile_dist, 459-463. *)
Definition tile_dist (px py gx gy : N) : f64 :=
  let dx := fsub (f_of_N px) (f_of_N gx) in
  let dy := fsub (f_of_N py) (f_of_N gy) in
  fsqrt (fadd (fmul dx dx) (fmul dy dy)).

(** TILES_PER_MILE_BY_ZOOM, 496-514. *)
Definition tiles_per_mile_table : list f64 :=
  [ f_lit 2740389912625401 1000000000000000000;
    f_lit 4110584868938102 1000000000000000000;
    f_lit 6165877303407152 1000000000000000000;
    f_lit 9248815955110727 1000000000000000000;
    f_lit 13873223932666092 1000000000000000000;
    f_lit 20809835898999138 1000000000000000000;
    f_lit 31214753848498707 1000000000000000000;
    f_lit 46822130772748057 1000000000000000000;
    f_lit 7023319615912209 100000000000000000;
    f_lit 10534979423868314 100000000000000000;
    f_lit 1580246913580247 10000000000000000;
    f_lit 23703703703703705 100000000000000000;
    f_lit 35555555555555557 100000000000000000;
    f_lit 5333333333333333 10000000000000000;
    f_lit 8 10;
    f_lit 12000000000000002 10000000000000000;
    f_lit 18000000000000003 10000000000000000 ].

(** [f64::powi] (compiler-rt's square-and-multiply). *)
Fixpoint powi_loop (a r : f64) (b : positive) : f64 :=
  match b with
  | xH => fmul r a
  | xO b' => powi_loop (fmul a a) r b'
  | xI b' => powi_loop (fmul a a) (fmul r a) b'
  end.
Definition powi (a : f64) (n : N) : f64 :=
  match n with N0 => f_one | Npos b => powi_loop a f_one b end.

(** tiles_per_mile_by_zoom, 485-520. *)
Definition tiles_per_mile (zoom : N) : f64 :=
  match tiles_per_mile_table !! N.to_nat zoom with
  | Some v => v
  | None => fmul f_08 (powi (f_lit 15 10) (zoom - 14))
  end.

(** proximity_radius, 539-543. *)
Definition proximity_radius (zoom : N) (radius : f64) : f64 :=
  fmul radius (tiles_per_mile zoom).

(** E_POW, 566-577. *)
Definition e_pow_table : list f64 :=
  [ f_one;
    f_lit 2718281828459045 1000000000000000;
    f_lit 738905609893065 100000000000000;
    f_lit 20085536923187668 1000000000000000;
    f_lit 54598150033144236 1000000000000000;
    f_lit 1484131591025766 10000000000000;
    f_lit 4034287934927351 10000000000000;
    f_lit 10966331584284585 10000000000000 ].
Definition e_pow (i : N) : f64 := default f_one (e_pow_table !! N.to_nat i).

(** scoredist, 579-599. *)
Definition scoredist (zoom : N) (distance : f64) (score : N) (radius : f64) : f64 :=
  let zoom := if zoom <? 6 then 6 else zoom in
  let score := if 7 <? score then 7 else score in
  let distance := if fltb distance f_one then f_08 else distance in
  let dist_ratio := fdiv distance (proximity_radius zoom radius) in
  let dist_ratio := if fgtb dist_ratio f_one then f_one else dist_ratio in
  fdiv (fadd (fdiv (fmul (f_of_N 6) (e_pow score)) (e_pow 7)) f_one) dist_ratio.

(** global_bbox_for_zoom, 631-636. *)
Definition global_bbox_for_zoom (p : profile) (zoom : N) : res (list bbox) :=
  let* one := ushl p 32 1 zoom in
  let* mx := usub p 32 one 1 in
  let mx := as_u16 mx in
  Ok [BBox 0 0 mx mx].
