(** How many bytes a record of the directory takes. *)
From Verif Require Import Prelude Spec_disk.
Local Open Scope N_scope.

Definition total {A} (f : A -> N) (l : list A) : N := fold_right (fun a n => f a + n) 0 l.
(** A LEB128 number takes one byte for each seven bits it has. *)
Definition leb_size (n : N) : N := 1 + N.log2 n / 7.
Definition how_many {A} (l : list A) : N := N.of_nat (length l).
(** The id lists of a record, one for each group and cell. *)
Definition lists_of (groups : list (N * list (N * list N))) : list (list N) :=
  mjoin (map (fun g => map snd g.2) groups).

(** Four bytes for each id of each different id list; for each cell four bytes and one to
    four for the address of its ids; a byte and the address of the cells for each group;
    the numbers of ids, cells and groups, a width for each group, the final address; and
    nothing more. *)
Definition takes (v : list N) (groups : list (N * list (N * list N))) : Prop :=
  exists (lists : list (list N)) (widths addresses : list N),
    NoDup lists /\ (forall ids, ids ∈ lists <-> ids ∈ lists_of groups) /\
    Forall2 (fun _ w => 5 <= w <= 8) groups widths /\
    Forall2 (fun _ a => a < how_many v) groups addresses /\
    how_many v =
      total (fun ids => leb_size (how_many ids) + 4 * how_many ids) lists +
      total (fun gw : (N * list (N * list N)) * N =>
               leb_size (how_many gw.1.2) + 1 + how_many gw.1.2 * gw.2) (zip groups widths) +
      leb_size (how_many groups) + total (fun a => 1 + leb_size a) addresses + 4.
