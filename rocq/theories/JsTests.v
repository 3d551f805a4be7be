(** Conformance tests of the model: assertions of /repo/tests/bindings/gridstore.js,
    evaluated on the model of the bindings. These are tests, not proofs. *)
From Verif Require Import Prelude F64 Heap Common Builder Store Query Coalesce Native Session Tests.
Local Open Scope N_scope.

Definition go (l : list js_do) : list js_out := (js_session Debug ho_id mtb0 tb0 js_start l).1.
Definition num (n : N) : jsval := JsNumber (f_of_N n).
Definition key (phrase : N) (langs : list N) : js_key := JsKey (num phrase) (JsArray (map num langs)).
Definition jskey (phrase : N) (langs : list N) : js_out := OutNext (Ok (JsValue (f_of_N phrase) (JsArray (map num langs)))).
Definition ge (relev : f64) (score x y id : N) : grid_entry := GridEntry relev score x y id 0.
Definition f_half : f64 := f_lit 5 10.
Definition done_ : js_out := OutDone (Ok tt).
Definition world (zoom : N) : list bbox := [BBox 0 0 (2 ^ zoom - 1) (2 ^ zoom - 1)].

(** 9-18 *)
Example builder_init : go [NewBuilder None; NewBuilder (Some 1)] = [OutObject Err; OutObject (Ok O)].
Proof. vm_compute. reflexivity. Qed.

(** 20-34. A relevance of 0.5 is kept as 1. *)
Example insert_test :
  go [ NewBuilder (Some 1); CallBuilder 0 (JsInsert (JsKey JsUndefined JsUndefined) None);
       CallBuilder 0 (JsInsert (key 0 [0]) (Some [ge f_half 2 0 0 0]));
       CallBuilder 0 (JsInsert (key 1 [0; 1; 2; 3]) (Some [ge (f_lit 6 10) 3 2 2 2])); CallBuilder 0 JsFinish;
       NewStore (Some 1) NoOpts; GetKey 1 (key 0 [0]); GetKey 1 (key 1 [0; 1; 2; 3]); GetKey 1 (key 3 [3]) ] =
  [ OutObject (Ok O); OutDone Err; done_; done_; done_; OutObject (Ok 1%nat);
    OutEntries (Ok (Some [ge f_one 2 0 0 0])); OutEntries (Ok (Some [ge (f_lit 6 10) 3 2 2 2])); OutEntries (Ok None) ].
Proof. vm_compute. reflexivity. Qed.

(** 36-49 *)
Example append_test :
  go [ NewBuilder (Some 1); CallBuilder 0 (JsAppend (JsKey JsUndefined JsUndefined) None);
       CallBuilder 0 (JsInsert (key 0 [0]) (Some [ge f_half 2 0 0 0]));
       CallBuilder 0 (JsAppend (key 1 [0; 2]) (Some [ge (f_lit 8 10) 3 2 2 2])); CallBuilder 0 JsFinish;
       NewStore (Some 1) NoOpts; NewIterator 1; NextKey 2; NextKey 2; NextKey 2 ] =
  [ OutObject (Ok O); OutDone Err; done_; done_; done_; OutObject (Ok 1%nat); OutObject (Ok 2%nat);
    jskey 0 [0]; jskey 1 [0; 2]; OutNext (Ok JsDone) ].
Proof. vm_compute. reflexivity. Qed.

(** 51-62 *)
Example compact_test :
  go [ NewBuilder (Some 1); CallBuilder 0 (JsInsert (key 0 [0]) (Some [ge f_one 1 0 0 0]));
       CallBuilder 0 (JsCompact (key 0 [0]) (num 1) (num 1) (num 0) (num 0) (Some [(1, 1)])); CallBuilder 0 JsFinish;
       NewStore (Some 1) NoOpts; NewIterator 1; NextKey 2; NextKey 2 ] =
  [ OutObject (Ok O); done_; done_; done_; OutObject (Ok 1%nat); OutObject (Ok 2%nat); jskey 0 [0]; OutNext (Ok JsDone) ].
Proof. vm_compute. reflexivity. Qed.

(** 64-88: finish() and the reader *)
Example finish_test :
  go [ NewBuilder (Some 1); CallBuilder 0 (JsInsert (key 0 [0]) (Some [ge f_half 2 0 0 0]));
       CallBuilder 0 (JsInsert (key 1 [0; 1; 2; 3]) (Some [ge (f_lit 8 10) 3 2 2 2])); NewStore (Some 1) NoOpts;
       CallBuilder 0 JsFinish; NewStore (Some 1) NoOpts; NewIterator 1; NextKey 2; NextKey 2; NextKey 2 ] =
  [ OutObject (Ok O); done_; done_; OutObject Err; done_; OutObject (Ok 1%nat); OutObject (Ok 2%nat);
    jskey 0 [0]; jskey 1 [0; 1; 2; 3]; OutNext (Ok JsDone) ].
Proof. vm_compute. reflexivity. Qed.

(** A phrasematch object with a range of phrases; the store is given with the request. *)
Definition pm (langs : list N) (start end_ idx mask id : N) (weight : f64) : js_phrasematch :=
  JsPhrasematch (open_default ∅) (Some weight) (Some mask) (Some (Range start end_)) (JsArray (map num langs)) (Some id) (Some idx)
    JsUndefined (Some []) 3.
Definition at_zoom (z : N) : option match_opts := Some (MatchOpts None None z).
Definition opts (zoom type : N) : opts_arg := GivenOpts (StoreOpts zoom type (f_of_N 200) (world zoom) f_one).

(** 90-217: what throws. There every request lacks the zoom of its options, and every
    object its id, so any of them throws for those reasons alone. Here one thing is
    missing at a time, and the last request, which lacks nothing, does not throw. *)
Definition lacking (field : nat) : js_phrasematch :=
  let o {A} (i : nat) (x : A) : option A := if Nat.eqb i field then None else Some x in
  JsPhrasematch (open_default ∅) (o 0%nat f_half) (o 1%nat 2) (o 2%nat (Range 1 2)) (JsArray [num 0]) (o 3%nat 0) (o 4%nat 2)
    JsUndefined (o 5%nat []) 3.
Definition threw (r : js_out) : bool := match r with OutContexts Err => true | _ => false end.
Example invalid_inputs :
  map threw (List.skipn 4 (go
    ([ NewBuilder (Some 1); CallBuilder 0 (JsInsert (key 1 [1]) (Some [ge f_one 1 2 2 1])); CallBuilder 0 JsFinish; NewStore (Some 1) NoOpts;
       Request false [] None; Request false [(1%nat, lacking 6)] None; Request false [(0%nat, lacking 6)] (at_zoom 6);
       Request false [(7%nat, lacking 6)] (at_zoom 6) ] ++
     map (fun i => Request false [(1%nat, lacking i)] (at_zoom 6)) (seq 0 7)))) =
  [ true; true; true; true; true; true; true; true; true; true; false ].
Proof. vm_compute. reflexivity. Qed.

(** 484-501: the object of that test, on the stacked path, is read without a throw. *)
Example deserialize_test :
  map threw (go
    [ NewBuilder (Some 1); CallBuilder 0 (JsInsert (key 1 [1]) (Some [ge f_one 1 1 1 1])); CallBuilder 0 JsFinish;
      NewStore (Some 1) (opts 14 0); Request true [(1%nat, pm [0] 0 3 0 14 1 f_one)] (at_zoom 14) ]) =
  [ false; false; false; false; false ].
Proof. vm_compute. reflexivity. Qed.

(** 219-270 *)
Definition contexts (l : list js_out) (n : nat) : list coalesce_context :=
  match l !! n with Some (OutContexts (Ok cs)) => cs | _ => [] end.
Example single_stack :
  let out := contexts (go [ NewBuilder (Some 1);
    CallBuilder 0 (JsInsert (key 1 [1]) (Some [ge f_one 1 2 2 1; ge f_one 1 2 0 2; ge f_one 1 0 0 3])); CallBuilder 0 JsFinish;
    NewStore (Some 1) (opts 14 0); Request false [(1%nat, pm [1] 1 3 1 1 0 f_one)] (at_zoom 14) ]) 4 in
  map cc_entries (take 1 out) = [[CoalesceEntry (ge f_one 1 2 2 1) true 1 33554433 1 f_zero f_one 0]] /\ length out = 3%nat.
Proof. vm_compute. split; reflexivity. Qed.

(** 272-338 *)
Example multi_stack :
  let out := contexts (go [ NewBuilder (Some 1); CallBuilder 0 (JsInsert (key 1 [1]) (Some [ge f_one 1 1 1 1])); CallBuilder 0 JsFinish;
    NewStore (Some 1) (opts 1 0);
    NewBuilder (Some 2); CallBuilder 2 (JsInsert (key 2 [1]) (Some [ge f_one 3 1 1 1; ge f_one 3 2 2 2])); CallBuilder 2 JsFinish;
    NewStore (Some 2) (opts 2 1);
    Request false [(1%nat, pm [1] 1 3 0 2 0 f_half); (3%nat, pm [1] 1 3 1 1 1 f_half)] (at_zoom 2) ]) 8 in
  map (fun c => (ce_entry <$> head (cc_entries c), length (cc_entries c))) (take 1 out) = [(Some (ge f_half 3 2 2 2), 2%nat)].
Proof. vm_compute. reflexivity. Qed.

(** 340-376: a language of 128 or more is ignored. *)
Example lang_set_128 :
  let out := contexts (go [ NewBuilder (Some 1); CallBuilder 0 (JsInsert (key 1 [1]) (Some [ge f_one 1 2 2 1])); CallBuilder 0 JsFinish;
    NewStore (Some 1) NoOpts; Request false [(1%nat, pm [128] 1 3 1 1 0 f_one)] (at_zoom 6) ]) 4 in
  map (fun c => (ce_lang <$> head (cc_entries c), cc_relev c)) out = [(Some false, f_lit 96 100)].
Proof. vm_compute. reflexivity. Qed.

(** 378-482, with 200 phrases instead of 5000 and three bins. As there, a range ends
    at its last phrase, which it therefore leaves out. *)
Definition many : list js_call :=
  map (fun i => let n := N.of_nat i in JsInsert (key n [1]) (Some [ge f_one 1 n 1 n])) (seq 0 200).
Example bin_boundaries :
  let r := go ([NewBuilder (Some 1); NewBuilder (Some 2)] ++ map (CallBuilder 0) many ++ map (CallBuilder 1) many ++
    [ CallBuilder 0 (JsBounds (Some [0; 70; 140; 200])); CallBuilder 0 JsFinish; CallBuilder 1 JsFinish;
      NewStore (Some 1) (opts 14 0); NewStore (Some 2) (opts 14 0) ] ++
    map (fun x => Request false [(x.1, pm [1] x.2.1 x.2.2 1 1 0 f_one)] (at_zoom 14))
      [(2%nat, (70, 139)); (3%nat, (70, 139)); (2%nat, (90, 110)); (3%nat, (90, 110))]) in
  let out i := contexts r (407 + i)%nat in
  out 0%nat = out 1%nat /\ out 2%nat = out 3%nat /\ length (out 0%nat) = 40%nat /\ length (out 2%nat) = 20%nat.
Proof. vm_compute. repeat split; reflexivity. Qed.
