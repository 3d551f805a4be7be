(** Specification of a second history written over a directory that is not empty. *)
From Verif Require Import Prelude F64 Common Morton Spatial Builder Store Spec Spec_match.
Local Open Scope N_scope.

(** The calls that account for the single records afterwards: those of the first history
    on keys that the second did not touch, then the second. *)
Definition overlay (ops1 ops2 : list op) : list op :=
  restrict (fun k => match written ops2 !! k with Some _ => false | None => true end) ops1 ++ ops2.

(** The second history wrote for a phrase of this bin under this language set. *)
Definition bin_used (ops : list op) (gid l : N) : Prop :=
  exists k es, written ops !! k = Some es /\ bin_of (loaded ops) k.1 = Some gid /\ k.2 = l.

(** A match that comes from a bin of the first history, left because the second did not
    write a bin under the same number and language set. *)
Definition stale_match (ops1 ops2 : list op) (k : match_key) (o : match_opts) (radius : f64)
    (m : match_entry) : Prop :=
  exists key es gid e, written ops1 !! key = Some es /\ bin_of (loaded ops1) key.1 = Some gid /\
    phrase_sel (mk_phrase k) gid = true /\ ~ bin_used ops2 gid key.2 /\
    e ∈ es /\ box_sel (mo_bbox o) e = true /\
    m = query_match o radius (lang_sel (mk_lang k) key.2) (snap e).
