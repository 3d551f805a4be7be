(** Specification vocabulary for the phrasematch objects of the Node bindings. *)
From Verif Require Import Prelude F64 Common Builder Store Query Native Spec_native.
Local Open Scope N_scope.

(** A flag that is off when it is left out. *)
Inductive as_flag : jsval -> bool -> Prop :=
| flag_left_out : as_flag JsUndefined false
| flag_given b : as_flag (JsBoolean b) b.
(** The key of a phrasematch object. *)
Definition as_match_key (j : js_phrasematch) (k : match_key_id) : Prop :=
  jp_phrase j = Some (mk_phrase (mki_key k)) /\ as_langs (jp_lang j) (mk_lang (mki_key k)) /\
  as_flag (jp_nearby j) (mki_nearby k) /\ jp_id j = Some (mki_id k) /\ mki_length k = jp_length j.
(** The subquery a phrasematch object stands for: it has the one key, and the indexes it
    may not be stacked with are those listed. *)
Definition as_subquery (j : js_phrasematch) (q : subquery) : Prop :=
  sq_store q = jp_store j /\ jp_weight j = Some (sq_weight q) /\ jp_mask j = Some (sq_mask q) /\
  jp_idx j = Some (sq_idx q) /\
  (exists l, jp_nonoverlap j = Some l /\ forall i, N.testbit (sq_nonoverlap q) i = true <-> i ∈ l) /\
  exists k, sq_keys q = [k] /\ as_match_key j k.

(** Every property that is read is there and of the right type. *)
Definition readable (j : js_phrasematch) : Prop :=
  is_Some (jp_weight j) /\ is_Some (jp_mask j) /\ is_Some (jp_phrase j) /\ is_Some (jp_id j) /\
  is_Some (jp_idx j) /\ is_Some (jp_nonoverlap j) /\
  (jp_nearby j = JsUndefined \/ exists b, jp_nearby j = JsBoolean b) /\
  (jp_lang j = JsNull \/ jp_lang j = JsUndefined \/ exists vs, jp_lang j = JsArray (map JsNumber vs)).

(** Objects that are put together: equal weight, index and mask. *)
Definition js_together (a b : js_phrasematch) : Prop :=
  (exists wa wb, jp_weight a = Some wa /\ jp_weight b = Some wb /\ ord_cmp wa wb = Eq) /\
  jp_idx a = jp_idx b /\ jp_mask a = jp_mask b.
(** They agree on what is taken from only one of them. *)
Definition js_groups_agree (js : list js_phrasematch) : Prop :=
  forall a b, a ∈ js -> b ∈ js -> js_together a b ->
    jp_store a = jp_store b /\ jp_weight a = jp_weight b /\
    forall la lb, jp_nonoverlap a = Some la -> jp_nonoverlap b = Some lb -> forall i, i ∈ la <-> i ∈ lb.
