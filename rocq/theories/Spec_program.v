(** Specification vocabulary: whole programs, from what they did and what came of it. *)
From Verif Require Import Prelude F64 Common Builder Spatial Store Spec Spec_match Query Coalesce Native Spec_native Spec_js Props_zoom
  Spec_ground Spec_end Session Spec_session.
Local Open Scope N_scope.

(** No two builders were made on one directory, and none was asked to renumber. *)
Definition builders_apart (l : list deed) : Prop :=
  forall f i j, (NewBuilder (Some f), OutObject (Ok i)) ∈ l -> (NewBuilder (Some f), OutObject (Ok j)) ∈ l -> i = j.
Definition no_renumber (l : list deed) : Prop := forall i ids r, (CallBuilder i (JsRenumber ids), r) ∉ l.
(** The store was opened on the directory with the options. *)
Definition opened (l : list deed) (h : nat) (f : N) (so : opts_arg) : Prop :=
  (NewStore (Some f) so, OutObject (Ok h)) ∈ l.
(** The calls on the builder of the directory, since it was made and before its first finish(). *)
Definition filled (l : list deed) (f : N) (cs : list js_call) : Prop :=
  exists i l1 l2 rest, l = l1 ++ (NewBuilder (Some f), OutObject (Ok i)) :: l2 /\
    map fst (calls_on i l2) = cs ++ JsFinish :: rest /\ JsFinish ∉ cs.
Definition opt_zoom (so : opts_arg) : N := match so with GivenOpts o => so_zoom o | _ => 6 end.
Definition opt_type (so : opts_arg) : N := match so with GivenOpts o => so_type o | _ => 0 end.
Definition opt_radius (so : opts_arg) : f64 := match so with GivenOpts o => so_radius o | _ => f_zero end.

(** A phrasematch object of a request, beside the object that is its store: the calls that
    filled the store are in range, the phrase can be looked up, zoom and radius are within
    bounds. *)
Definition asks_in_range (l : list deed) (x : nat * js_phrasematch) : Prop :=
  forall f so cs, opened l x.1 f so -> filled l f cs ->
  (forall ops, accepted cs ops -> history_ok ops /\ forall ph, jp_phrase x.2 = Some ph -> query_ok ops ph) /\
  opt_zoom so <= 15 /\
  match proximity_radius (N.max 6 (opt_zoom so)) (opt_radius so) with
  | S754_zero _ | S754_finite _ _ _ => True
  | _ => False
  end.
(** A call of the program wrote the entry, the object asks for it, and it lies where the
    options ask. *)
Definition program_asked (l : list deed) (o : match_opts) (x : nat * js_phrasematch) (w : grid_entry) : Prop :=
  exists f so cs key ph, opened l x.1 f so /\ filled l f cs /\ js_holds cs key w /\
    jp_phrase x.2 = Some ph /\ phrase_sel ph key.1 = true /\
    forall b, mo_bbox o = Some b -> shares_ground (mo_zoom o) b (opt_zoom so) (ge_x w) (ge_y w).
(** The tile of the one lies in the tile of the other. *)
Definition program_inside (l : list deed) (a b : (nat * js_phrasematch) * grid_entry) : Prop :=
  exists fa fb sa sb, opened l a.1.1 fa sa /\ opened l b.1.1 fb sb /\ opt_zoom sb <= opt_zoom sa /\
    ge_x a.2 / 2 ^ (opt_zoom sa - opt_zoom sb) = ge_x b.2 /\ ge_y a.2 / 2 ^ (opt_zoom sa - opt_zoom sb) = ge_y b.2.

(** The same for stackAndCoalesce, which heeds [nearby_only]. *)
Definition program_wanted (l : list deed) (o : match_opts) (x : nat * js_phrasematch) (w : grid_entry) : Prop :=
  program_asked l o x w /\
  (jp_nearby x.2 = JsBoolean true -> exists f so, opened l x.1 f so /\
     forall pt, mo_prox o = Some pt -> let z := opt_zoom so in let pt' := place (mo_zoom o) pt z in
       near (nearby_padding z) (ge_x w) pt'.1 /\ near (nearby_padding z) (ge_y w) pt'.2).
(** One entry for each object, the tile of each in the tile of the next. *)
Inductive program_stack (l : list deed) (o : match_opts) : list (nat * js_phrasematch) -> list grid_entry -> Prop :=
| prs_one x w : program_wanted l o x w -> program_stack l o [x] [w]
| prs_more x w y v xs ws :
    program_stack l o (y :: xs) (v :: ws) -> program_wanted l o x w -> program_inside l (x, w) (y, v) ->
    program_stack l o (x :: y :: xs) (w :: v :: ws).
(** Objects that may be stacked: their stores were opened with decreasing types, no two share a
    word of the query, and none excludes the index of the next. *)
Definition program_legal (l : list deed) (xs : list (nat * js_phrasematch)) : Prop :=
  (forall i k x y f g so to, (i < k)%nat -> xs !! i = Some x -> xs !! k = Some y -> opened l x.1 f so -> opened l y.1 g to ->
     opt_type to < opt_type so) /\
  (forall i k x y mx my, i <> k -> xs !! i = Some x -> xs !! k = Some y -> jp_mask x.2 = Some mx -> jp_mask y.2 = Some my -> N.land mx my = 0) /\
  forall i x y non idx, xs !! i = Some x -> xs !! S i = Some y -> jp_nonoverlap x.2 = Some non -> jp_idx y.2 = Some idx -> idx ∉ non.
(** Objects with equal weight, index and mask have one store and the same exclusions. *)
Definition program_groups (js : list (nat * js_phrasematch)) : Prop :=
  forall x y, x ∈ js -> y ∈ js -> js_together x.2 y.2 ->
    x.1 = y.1 /\ jp_weight x.2 = jp_weight y.2 /\
    forall la lb, jp_nonoverlap x.2 = Some la -> jp_nonoverlap y.2 = Some lb -> forall i, i ∈ la <-> i ∈ lb.
(** Stores of a higher type were opened with a higher zoom. *)
Definition program_types (l : list deed) (js : list (nat * js_phrasematch)) : Prop :=
  forall x y f g so to, x ∈ js -> y ∈ js -> opened l x.1 f so -> opened l y.1 g to -> opt_type so < opt_type to ->
    opt_zoom so <= opt_zoom to /\ opt_zoom to - opt_zoom so < 16.
