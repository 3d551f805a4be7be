(** The layout of the directory on disk, written down without the writer and the readers:
    how keys, numbers, lists and records look as bytes. *)
From Verif Require Import Prelude F64 Common Spec Spec_match Spec_rebuild.
From Coq Require Import Sorting.Sorted Strings.String Strings.Ascii.
Local Open Scope N_scope.

(** ** Numbers *)
(** A number in a fixed number of bytes, the lowest byte first or the highest first. *)
Inductive little : nat -> N -> list N -> Prop :=
| little_nil : little 0 0 []
| little_byte n v b bs : b < 256 -> little n v bs -> little (S n) (b + 256 * v) (b :: bs).
Definition big (n : nat) (v : N) (bs : list N) : Prop := little n v (rev bs).
(** LEB128: seven bits per byte, the lowest first; all bytes but the last have 128 added.
    No byte is spent on leading zeros. *)
Inductive leb128 : N -> list N -> Prop :=
| leb_last v : v < 128 -> leb128 v [v]
| leb_more b v bs : b < 128 -> v <> 0 -> leb128 v bs -> leb128 (b + 128 * v) ((b + 128) :: bs).

(** ** Lists *)
Definition each {A} (P : A -> list N -> Prop) (xs : list A) (bs : list N) : Prop :=
  exists parts, Forall2 P xs parts /\ bs = mjoin parts.
(** [bs] stands in [data] at address [addr]. *)
Definition stands (data : list N) (addr : N) (bs : list N) : Prop :=
  exists pre post, data = pre ++ bs ++ post /\ N.of_nat (List.length pre) = addr.

(** ** Keys *)
(** A type byte, the phrase id in four bytes, and the language set in as few bytes as it
    takes, no bytes at all standing for all languages. *)
Definition lang_laid (l : N) (bs : list N) : Prop :=
  (l = 2 ^ 128 - 1 /\ bs = []) \/
  (l <> 2 ^ 128 - 1 /\ big (List.length bs) l bs /\ bs <> [] /\ (head bs = Some 0 -> bs = [0])).
Definition key_laid (type : N) (k : N * N) (bs : list N) : Prop :=
  exists phrase lang, bs = type :: phrase ++ lang /\ big 4 k.1 phrase /\ lang_laid k.2 lang.
(** The name under which the boundaries are kept. *)
Definition bounds_name : list N :=
  map N_of_ascii (list_ascii_of_string "~BOUNDS"%string).

(** ** Records *)
(** A list of ids: how many, then each in four bytes. *)
Definition ids_laid (data : list N) (addr : N) (ids : list N) : Prop :=
  exists len body, stands data addr (len ++ body) /\
    leb128 (N.of_nat (List.length ids)) len /\ each (little 4) ids body.
(** The width of an item of a list of cells: four bytes for the cell and one to four for
    the address of its ids, as few as all of the list can do with. *)
Definition width_of (items : list (N * N)) (w : N) : Prop :=
  (items = [] /\ w = 255) \/
  (items <> [] /\ 5 <= w <= 8 /\ (forall za, za ∈ items -> za.2 < 256 ^ (w - 4)) /\
   (w = 5 \/ exists za, za ∈ items /\ 256 ^ (w - 5) <= za.2)).
(** A list of cells: how many, the width, then for each cell its number and the address of
    its ids. *)
Definition cells_laid (data : list N) (addr : N) (cells : list (N * list N)) : Prop :=
  exists items len w body, stands data addr (len ++ w :: body) /\
    leb128 (N.of_nat (List.length cells)) len /\ width_of items w /\
    each (fun (za : N * N) bs => exists z a, bs = z ++ a /\ little 4 za.1 z /\ little (N.to_nat (w - 4)) za.2 a)
         items body /\
    Forall2 (fun (c : N * list N) (za : N * N) => c.1 = za.1 /\ ids_laid data za.2 c.2) cells items.
(** A record ends with the address, in four bytes, of its list of groups: how many, then
    for each its relevance and score in a byte and the address of its cells. *)
Definition record_laid (data : list N) (groups : list (N * list (N * list N))) : Prop :=
  exists front last4 root items len body, data = front ++ last4 /\ little 4 root last4 /\
    stands data root (len ++ body) /\ leb128 (N.of_nat (List.length groups)) len /\
    each (fun (ga : N * N) bs => exists a, bs = ga.1 :: a /\ ga.1 < 256 /\ leb128 ga.2 a) items body /\
    Forall2 (fun (g : N * list (N * list N)) (ga : N * N) => g.1 = ga.1 /\ cells_laid data ga.2 g.2) groups items.

(** Groups, cells and ids all stand in descending order, none twice. *)
Definition falling {A} (key : A -> N) : list A -> Prop := StronglySorted (fun a b => key b < key a).
Definition record_falls (groups : list (N * list (N * list N))) : Prop :=
  falling fst groups /\
  forall g cells, (g, cells) ∈ groups -> falling fst cells /\
    forall z ids, (z, ids) ∈ cells -> falling (fun i => i) ids.
(** What a record lists, in its order: group byte, cell number, id number. *)
Definition listed (groups : list (N * list (N * list N))) : list (N * N * N) :=
  mjoin (map (fun g : N * list (N * list N) =>
    mjoin (map (fun c : N * list N => map (fun i => (g.1, c.1, i)) c.2) g.2)) groups).

(** ** Entries *)
(** Relevance in bits 4 and 5 and score in bits 0 to 3 of the group byte; the cell number
    alternates the bits of x and y, from the lowest of x on; the id in bits 8 to 31 and the
    hash in bits 0 to 7 of the id number. *)
Definition relev_code (r : f64) : N :=
  if feqb r (f_lit 4 10) then 0 else if feqb r (f_lit 6 10) then 1 else if feqb r (f_lit 8 10) then 2 else 3.
Definition alternates (x y z : N) : Prop :=
  forall i, N.testbit z (2 * i) = N.testbit x i /\ N.testbit z (2 * i + 1) = N.testbit y i.
Definition codes (e : grid_entry) (t : N * N * N) : Prop :=
  t.1.1 = 16 * relev_code (ge_relev e) + ge_score e /\
  alternates (ge_x e) (ge_y e) t.1.2 /\
  t.2 = 256 * (ge_id e mod 2 ^ 24) + ge_hash e.
Definition relev_of (c : N) : f64 :=
  match c with 0 => f_lit 4 10 | 1 => f_lit 6 10 | 2 => f_lit 8 10 | _ => f_one end.
(** The entry that three numbers stand for. *)
Definition stands_for (t : N * N * N) (e : grid_entry) : Prop :=
  ge_relev e = relev_of (t.1.1 / 16) /\ ge_score e = t.1.1 mod 16 /\
  alternates (ge_x e) (ge_y e) t.1.2 /\
  ge_id e = t.2 / 256 /\ ge_hash e = t.2 mod 256.

(** A value in which the entries [es] are laid out, each once. *)
Definition value_laid (es : list grid_entry) (v : list N) : Prop :=
  exists groups, record_laid v groups /\ record_falls groups /\
    forall t, t ∈ listed groups <-> exists e, e ∈ es /\ codes e t.

(** ** The directory *)
(** Type 0 keys hold what was written for a phrase and language set; type 1 keys hold what
    was written for all phrases of a bin, under the bin's boundary; the boundaries stand
    under their name; there is nothing else. *)
Record directory_laid (ops : list op) (d : gmap (list N) (list N)) : Prop := {
  dl_phrase : forall k es, written ops !! k = Some es ->
    exists kb v, key_laid 0 k kb /\ d !! kb = Some v /\ value_laid es v;
  dl_bin : forall b l, bin_used ops b l ->
    exists kb v, key_laid 1 (b, l) kb /\ d !! kb = Some v /\ value_laid (bin_entries ops b l) v;
  dl_bounds : exists v, d !! bounds_name = Some v /\ each (little 4) (loaded ops) v;
  dl_only : forall kb v, d !! kb = Some v ->
    (exists k es, key_laid 0 k kb /\ written ops !! k = Some es) \/
    (exists b l, key_laid 1 (b, l) kb /\ bin_used ops b l) \/
    kb = bounds_name }.
