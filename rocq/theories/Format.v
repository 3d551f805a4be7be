(** Model of /repo/rust-src/src/gridstore/gridstore_format.rs: the byte layout of
    a phrase record. Offsets ([usize]) are [N]; a [Writer] is its byte buffer. *)
From Verif Require Import Prelude.

(** integer-encoding crate, [VarInt] for [u32] (LEB128 through [u64]):
    at most ten bytes are produced or consumed. *)
Fixpoint varint_enc (fuel : nat) (n : N) : bytes :=
  if n <? 128 then [n]
  else match fuel with
       | O => [n mod 128]
       | S f => (n mod 128 + 128) :: varint_enc f (n / 128)
       end.
Definition encode_var (n : N) : bytes := varint_enc 9 (as_u32 n).

Fixpoint varint_dec (fuel : nat) (src : bytes) : N * nat :=
  match src with
  | [] => (0, 0%nat)
  | b :: src' =>
      if b <? 128 then (b, 1%nat)
      else match fuel with
           | O => (b mod 128, 1%nat)
           | S f => let '(v, n) := varint_dec f src' in (b mod 128 + 128 * v, S n)
           end
  end.
Definition decode_var (src : bytes) : N * nat :=
  let '(v, n) := varint_dec 9 src in (as_u32 v, n).

(** struct Coord, 426-430: a Z-order cell and the address of its id list. *)
Record coord := Coord { c_coord : N; c_ids : N }.
(** struct RelevScore, 405-408. *)
Record relev_score := RelevScore { rs_value : N; rs_coords : N }.

(** <Coord as UniformEncodable>::get_min_size, 434-441. *)
Definition coord_min_size (c : coord) : N :=
  if c_ids c <=? 255 then 4 + 1
  else if c_ids c <=? 65535 then 4 + 2
  else if c_ids c <=? 16777215 then 4 + 3
  else 4 + 4.

(** Coord::write_with_size_to, 443-446. *)
Definition write_coord (size : N) (c : coord) : bytes :=
  le_bytes 4 (as_u32 (c_coord c)) ++
  take (N.to_nat (size - 4)) (le_bytes 4 (as_u32 (c_ids c))).

(** RelevScore::write_to, 411-417. *)
Definition write_relev_score (r : relev_score) : bytes :=
  rs_value r :: encode_var (rs_coords r).

(** Length prefix shared by the three vector writers, e.g. 164-167. *)
Definition vec_len_prefix {A} (s : list A) : bytes := encode_var (N.of_nat (length s)).

(** Writer::write_fixed_vec::<u32>, 174-183; returns the offset and the buffer. *)
Definition write_fixed_vec (w : bytes) (s : list N) : N * bytes :=
  (N.of_nat (length w), w ++ vec_len_prefix s ++ mjoin (map (le_bytes 4) s)).

(** Writer::write_uniform_vec::<Coord>, 185-197. The [debug_assert] always
    holds: the record size is 5..8 or 255. *)
Definition uniform_rec_size (s : list coord) : N :=
  match s with
  | [] => 255
  | _ => fold_right N.max 0 (map coord_min_size s)
  end.
Definition write_uniform_vec (w : bytes) (s : list coord) : N * bytes :=
  (N.of_nat (length w),
   w ++ vec_len_prefix s ++ [as_u8 (uniform_rec_size s)] ++
   mjoin (map (write_coord (uniform_rec_size s)) s)).

(** Writer::write_var_vec::<RelevScore>, 163-172. *)
Definition write_var_vec (w : bytes) (s : list relev_score) : N * bytes :=
  (N.of_nat (length w), w ++ vec_len_prefix s ++ mjoin (map write_relev_score s)).

(** Writer::write_fixed_scalar of a PhraseRecord, 146-150 and 482-484. *)
Definition write_root (w : bytes) (addr : N) : bytes := w ++ le_bytes 4 (as_u32 addr).

(** Reader::read_root::<PhraseRecord>, 255-258, 475-477, 486-489, 101-104. *)
Definition read_root (data : bytes) : res N :=
  if (length data <? 4)%nat then Panic
  else let* bs := slice data (length data - 4) 4 in Ok (le_value bs).

(** The length/start computation of FixedVec::new, VarVec::new, UniformVec::new,
    e.g. 291-295. *)
Definition read_vec_header (data : bytes) (addr : N) : res (nat * nat) :=
  let* src := slice_from data (N.to_nat addr) in
  let '(len, len_len) := decode_var src in
  Ok (N.to_nat len, (N.to_nat addr + len_len)%nat).

(** FixedVec::<u32>, 290-315, and u32::read_fixed_from, 466-468: the vector's
    elements in order. *)
Definition read_fixed_vec (data : bytes) (addr : N) : res (list N) :=
  let* (len, start) := read_vec_header data addr in
  res_mapM (fun i => let* bs := slice data (start + i * 4) 4 in Ok (le_value bs))
           (seq 0 len).

(** Coord::read_with_size_from, 448-457. [size - 4] underflows for sizes
    below 4 and the copy into a 4-byte buffer panics for sizes above 8. *)
Definition read_coord (data : bytes) (size : nat) (off : nat) : res coord :=
  let* cb := slice data off 4 in
  if (size <? 4)%nat || (8 <? size)%nat then Panic
  else let* pb := slice data (off + 4) (size - 4) in
       Ok (Coord (le_value cb) (le_value pb)).

(** UniformVec::<Coord>, 378-403. *)
Definition read_uniform_vec (data : bytes) (addr : N) : res (list coord) :=
  let* (len, after_len) := read_vec_header data addr in
  let* rec_size := index data after_len in
  let start := S after_len in
  res_mapM (fun i => read_coord data (N.to_nat rec_size) (start + i * N.to_nat rec_size))
           (seq 0 len).

(** RelevScore::read_from, 419-423: the value and the number of bytes used. *)
Definition read_relev_score (data : bytes) (off : nat) : res (relev_score * nat) :=
  let* b := index data off in
  let* src := slice_from data (off + 1) in
  let '(addr, n) := decode_var src in
  Ok (RelevScore b addr, (1 + n)%nat).

(** VarVec::<RelevScore>::iter, 338-351. *)
Fixpoint read_var_items (data : bytes) (loc : nat) (n : nat) : res (list relev_score) :=
  match n with
  | O => Ok []
  | S n' =>
      let* (r, incr) := read_relev_score data loc in
      let* rs := read_var_items data (loc + incr) n' in
      Ok (r :: rs)
  end.
Definition read_var_vec (data : bytes) (addr : N) : res (list relev_score) :=
  let* (len, start) := read_vec_header data addr in
  read_var_items data start len.
