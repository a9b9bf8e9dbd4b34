(** Model of [ZcBufferIterator] (network/buffer/iterator/zc-buffer-iterator.h), the
    iterator of a zero-compressed buffer, whose data is a header, a run of zeros that
    is not stored, and a trailer stored right behind the header.
    [ConstZcBufferIterator] (iterator/const-zc-buffer-iterator.h) forwards the reading
    half to such an iterator (lines 143, 193-299) and is not modelled separately.

    As in [BufferIter], the storage is a list of bytes passed to and returned from each
    operation, a null [bytes_] is the empty list, and offsets are [size_t]. *)
From Verif Require Import Base BufferIter.

(** zc-buffer-iterator.h 374-403: the properties of an iterator. *)
Record ziter : Set := mk_ziter {
  zi_start : N; zi_zs : N; zi_ze : N; zi_end : N; zi_cursor : N
}.
Definition zi_set (it : ziter) (c : N) : ziter :=
  mk_ziter (zi_start it) (zi_zs it) (zi_ze it) (zi_end it) c.

(** zc-buffer-iterator.h 1353-1363: [CanMoveForward], [CanMoveBackward]. *)
Definition zi_can_forward (it : ziter) (n : N) : bool :=
  (w64 (zi_cursor it + n) <=? zi_end it)%N.
Definition zi_can_backward (it : ziter) (n : N) : bool :=
  (w64 (zi_start it + n) <=? zi_cursor it)%N.

(** zc-buffer-iterator.h 484-496, 1365-1377: [MoveForward], [MoveBackward] and, through
    them, [++], [--], [+=], [-=], [+], [-] (1408-1450, 1509-1523). *)
Definition zi_forward (it : ziter) (n : N) : outcome ziter :=
  if zi_can_forward it n then Done (zi_set it (w64 (zi_cursor it + n))) else AssertFail.
Definition zi_backward (it : ziter) (n : N) : outcome ziter :=
  if zi_can_backward it n then Done (zi_set it (wsub 64 (zi_cursor it) n)) else AssertFail.

(** zc-buffer-iterator.h 1395-1399: [InZeroArea]. *)
Definition zi_in_zero (it : ziter) : bool :=
  (zi_zs it <=? zi_cursor it)%N && (zi_cursor it <? zi_ze it)%N.

(** zc-buffer-iterator.h 1401-1406: [CrossZeroArea]. *)
Definition zi_cross (it : ziter) (n : N) : bool :=
  ((zi_cursor it <? zi_zs it)%N && (zi_zs it <? w64 (zi_cursor it + n))%N) ||
  ((zi_cursor it <? zi_ze it)%N && (zi_ze it <? w64 (zi_cursor it + n))%N).

(** The distance from a position behind the zero area to its place in the storage. *)
Definition zi_gamma (it : ziter) : N := wsub 64 (zi_ze it) (zi_zs it).

(** zc-buffer-iterator.h 498-514: [CursorToOffset]. *)
Definition zi_offset (it : ziter) : outcome N :=
  if zi_in_zero it then AssertFail
  else if (zi_cursor it <? zi_zs it)%N then Done (zi_cursor it)
  else Done (wsub 64 (zi_cursor it) (zi_gamma it)).

(** zc-buffer-iterator.h 1379-1386: [WritableCheck]. *)
Definition zi_writable (it : ziter) (n : N) : bool := zi_can_forward it n && negb (zi_cross it n).

(** The stores of an [InternalWrite] or [InternalFill] (zc-buffer-iterator.h 550-750,
    780-812): the bytes [b] one after the other at the offset of the cursor.  A loop of
    no stores touches nothing. *)
Definition zi_store (b : list N) (mem : list N) (it : ziter) : outcome (list N * ziter) :=
  if zi_writable it (N.of_nat (length b)) then
    let! off := zi_offset it in
    match b with
    | [] => Done (mem, it)
    | _ =>
        match mem_store mem (N.to_nat off) b with
        | Some mem' => Done (mem', zi_set it (w64 (zi_cursor it + N.of_nat (length b))))
        | None => UB
        end
    end
  else AssertFail.

(** zc-buffer-iterator.h 516-548 ([Write], [WriteL], [WriteB], [WriteInOrder]) and
    550-750: a value of [n] bytes through a union, its bytes kept or reversed. *)
Definition zi_write_int (host : endian) (o : order) (n : nat) (v : N)
                        (mem : list N) (it : ziter) : outcome (list N * ziter) :=
  let b := mem_bytes host n v in
  zi_store (if keep_endian host o then b else rev b) mem it.

(** zc-buffer-iterator.h 752-798: arrays of bytes. *)
Definition zi_write_bytes (host : endian) (o : order) (bs : list N)
                          (mem : list N) (it : ziter) : outcome (list N * ziter) :=
  zi_store (if keep_endian host o then bs else rev bs) mem it.

(** zc-buffer-iterator.h 800-812: [Fill]. *)
Definition zi_fill (v : N) (n : nat) (mem : list N) (it : ziter) : outcome (list N * ziter) :=
  zi_store (repeat v n) mem it.

(** zc-buffer-iterator.h 1077-1087: one byte, wherever the cursor is. *)
Definition zi_read_byte (mem : list N) (it : ziter) : outcome (N * ziter) :=
  let next := zi_set it (w64 (zi_cursor it + 1)) in
  if zi_in_zero it then Done (0%N, next)
  else
    let! off := zi_offset it in
    match nth_error mem (N.to_nat off) with Some b => Done (b, next) | None => UB end.
Fixpoint zi_read_cross (n : nat) (mem : list N) (it : ziter) : outcome (list N * ziter) :=
  match n with
  | O => Done ([], it)
  | S n =>
      let! (b, it) := zi_read_byte mem it in
      let! (bs, it) := zi_read_cross n mem it in
      Done (b :: bs, it)
  end.

(** Reading [n] bytes in a solid area, at an offset of the storage
    (zc-buffer-iterator.h 871-1075, 1315-1333). *)
Definition zi_read_solid (n : nat) (off : N) (mem : list N) (it : ziter) : outcome (list N * ziter) :=
  let next := zi_set it (w64 (zi_cursor it + N.of_nat n)) in
  match n with
  | O => Done ([], next)
  | _ =>
      match mem_load mem (N.to_nat off) n with
      | Some b => Done (b, next)
      | None => UB
      end
  end.

(** The bytes that a read of [n] bytes fetches, in the order of their positions, with
    the four cases of zc-buffer-iterator.h 835-869 and 1285-1313; crossing reads are the
    loops of 1096-1178, 1186-1265 and 1335-1351. *)
Definition zi_fetch (n : nat) (mem : list N) (it : ziter) : outcome (list N * ziter) :=
  if negb (zi_can_forward it (N.of_nat n)) then AssertFail
  else if (w64 (zi_cursor it + N.of_nat n) <=? zi_zs it)%N then
    zi_read_solid n (zi_cursor it) mem it
  else if (zi_ze it <=? zi_cursor it)%N then
    zi_read_solid n (wsub 64 (zi_cursor it) (zi_gamma it)) mem it
  else if (zi_zs it <=? zi_cursor it)%N && (w64 (zi_cursor it + N.of_nat n) <=? zi_ze it)%N then
    Done (repeat 0%N n, zi_set it (w64 (zi_cursor it + N.of_nat n)))
  else zi_read_cross n mem it.

(** zc-buffer-iterator.h 814-1265: [Read], [ReadL], [ReadB] of a value of [n] bytes
    (1, 2, 4 or 8; [float] and [double] as their bit patterns).  A single byte that
    crosses the zero area would be read by the functions of lines 1090-1095 and
    1180-1184, which look at no memory, and of which the second does not advance. *)
Definition zi_read_int (host : endian) (o : order) (n : nat)
                       (mem : list N) (it : ziter) : outcome (N * ziter) :=
  let cross :=
    negb (w64 (zi_cursor it + N.of_nat n) <=? zi_zs it)%N && negb (zi_ze it <=? zi_cursor it)%N &&
    negb ((zi_zs it <=? zi_cursor it)%N && (w64 (zi_cursor it + N.of_nat n) <=? zi_ze it)%N) in
  if negb (zi_can_forward it (N.of_nat n)) then AssertFail
  else if (n =? 1) && cross then
    Done (0%N, if keep_endian host o then zi_set it (w64 (zi_cursor it + 1)) else it)
  else
    let! (b, it) := zi_fetch n mem it in
    Done (of_mem_bytes host (if keep_endian host o then b else rev b), it).

(** zc-buffer-iterator.h 1267-1351: arrays of bytes; the result is the user's array. *)
Definition zi_read_bytes (host : endian) (o : order) (n : nat)
                         (mem : list N) (it : ziter) : outcome (list N * ziter) :=
  let! (b, it) := zi_fetch n mem it in
  Done (if keep_endian host o then b else rev b, it).

(** zc-buffer-iterator.h 1525-1532: difference of two iterators over the same bytes. *)
Definition zi_diff (a b : ziter) : Z :=
  let d := wsub 64 (zi_cursor a) (zi_cursor b) in
  if (d <? 2 ^ 63)%N then Z.of_N d else (Z.of_N d - 2 ^ 64)%Z.
