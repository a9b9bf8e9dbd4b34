(** Model of [BufferIterator]
    (network/buffer/iterator/buffer-iterator.h) and of the byte order helpers
    it relies on (utility/endian.h).

    The iterator holds a raw pointer [bytes_] to the first byte of a storage and
    three offsets.  The storage is modelled as a list of bytes [mem], passed to
    and returned from each operation; the iterator itself is the record [biter].
    A null [bytes_] is the empty storage. *)
From Verif Require Import Base.

(** buffer-iterator.h 337-355: the properties [start_], [end_], [cursor_]. *)
Record biter : Set := mk_biter { it_start : N; it_end : N; it_cursor : N }.

(** utility/endian.h 39-60 and the pre-defined tags; the order an access asks for. *)
Inductive order : Set := NativeOrder | LittleOrder | BigOrder.

(** utility/endian.h: [endian_traits<endian_t>::is_native]. *)
Definition is_native (host : endian) (o : order) : bool :=
  match o with
  | NativeOrder => true
  | LittleOrder => endian_eqb host LittleEndian
  | BigOrder => endian_eqb host BigEndian
  end.

(** buffer-iterator.h 48-62: [MakeEndianTag]; [true] is [KeepEndianTag]. *)
Definition keep_endian (host : endian) (o : order) : bool := is_native host o.

Definition set_cursor (it : biter) (c : N) : biter :=
  {| it_start := it_start it; it_end := it_end it; it_cursor := c |}.

(** buffer-iterator.h 1027-1031: [CanMoveForward]; the sum is a [size_t] and wraps. *)
Definition can_move_forward (it : biter) (n : N) : bool :=
  (w64 (it_cursor it + n) <=? it_end it)%N.

(** buffer-iterator.h 1033-1037: [CanMoveBackward]. *)
Definition can_move_backward (it : biter) (n : N) : bool :=
  (w64 (it_start it + n) <=? it_cursor it)%N.

(** buffer-iterator.h 426-431, 1039-1044: [MoveForward] with [ForwardCheck]
    (also [operator++], [operator+=], [operator+], 1067-1109, 1168-1174). *)
Definition move_forward (it : biter) (n : N) : outcome biter :=
  if can_move_forward it n then Done (set_cursor it (w64 (it_cursor it + n))) else AssertFail.

(** buffer-iterator.h 433-438, 1046-1051: [MoveBackward] with [BackwardCheck]
    (also [operator--], [operator-=], [operator-], 1082-1109, 1176-1182). *)
Definition move_backward (it : biter) (n : N) : outcome biter :=
  if can_move_backward it n then Done (set_cursor it (wsub 64 (it_cursor it) n)) else AssertFail.

(** buffer-iterator.h 440-472 ([Write], [WriteL], [WriteB], [WriteInOrder]),
    1053-1058 ([WritableCheck]), 474-674 ([InternalWrite] for 1, 2, 4 and 8
    byte values).  The unrolled byte stores of the C++ code are one store of
    the bytes [b] (kept or reversed) of the union.  [n] is [sizeof (T)].
    [float]/[double] are written through the same unions (535-573, 636-674):
    their value is represented by its bit pattern. *)
Definition write_int (host : endian) (o : order) (n : nat) (v : N)
                     (mem : list N) (it : biter) : outcome (list N * biter) :=
  if can_move_forward it (N.of_nat n) then
    let b := mem_bytes host n v in
    let b := if keep_endian host o then b else rev b in
    match mem_store mem (N.to_nat (it_cursor it)) b with
    | Some mem' => Done (mem', set_cursor it (w64 (it_cursor it + N.of_nat n)))
    | None => UB
    end
  else AssertFail.

(** buffer-iterator.h 676-722: byte array [Write], [WriteL], [WriteB]. *)
Definition write_bytes (host : endian) (o : order) (bs : list N)
                       (mem : list N) (it : biter) : outcome (list N * biter) :=
  if can_move_forward it (N.of_nat (length bs)) then
    let b := if keep_endian host o then bs else rev bs in
    match mem_store mem (N.to_nat (it_cursor it)) b with
    | Some mem' => Done (mem', set_cursor it (w64 (it_cursor it + N.of_nat (length bs))))
    | None => UB
    end
  else AssertFail.

(** buffer-iterator.h 724-736: [Fill] / [InternalFill]. *)
Definition fill (v : N) (n : nat) (mem : list N) (it : biter) : outcome (list N * biter) :=
  if can_move_forward it (N.of_nat n) then
    match mem_store mem (N.to_nat (it_cursor it)) (repeat v n) with
    | Some mem' => Done (mem', set_cursor it (w64 (it_cursor it + N.of_nat n)))
    | None => UB
    end
  else AssertFail.

(** buffer-iterator.h 738-771 ([Read], [ReadL], [ReadB], [ReadInOrder]),
    1060-1065 ([ReadableCheck]), 773-977 ([InternalRead]). *)
Definition read_int (host : endian) (o : order) (n : nat)
                    (mem : list N) (it : biter) : outcome (N * biter) :=
  if can_move_forward it (N.of_nat n) then
    match mem_load mem (N.to_nat (it_cursor it)) n with
    | Some b =>
        let b := if keep_endian host o then b else rev b in
        Done (of_mem_bytes host b, set_cursor it (w64 (it_cursor it + N.of_nat n)))
    | None => UB
    end
  else AssertFail.

(** buffer-iterator.h 979-1025: byte array [Read], [ReadL], [ReadB]; the result
    is the content of the user's array. *)
Definition read_bytes (host : endian) (o : order) (n : nat)
                      (mem : list N) (it : biter) : outcome (list N * biter) :=
  if can_move_forward it (N.of_nat n) then
    match mem_load mem (N.to_nat (it_cursor it)) n with
    | Some b => Done (if keep_endian host o then b else rev b,
                      set_cursor it (w64 (it_cursor it + N.of_nat n)))
    | None => UB
    end
  else AssertFail.

(** buffer-iterator.h 1184-1191: [operator-] of two iterators over the same
    bytes: a [size_t] difference converted to [ptrdiff_t]. *)
Definition iter_diff (a b : biter) : Z :=
  let d := wsub 64 (it_cursor a) (it_cursor b) in
  if (d <? 2 ^ 63)%N then Z.of_N d else (Z.of_N d - 2 ^ 64)%Z.

(** network/buffer/io/arithmetic-io.h 143-171: write an array of integers. *)
Fixpoint write_ints (host : endian) (o : order) (n : nat) (vs : list N)
                    (mem : list N) (it : biter) : outcome (list N * biter) :=
  match vs with
  | [] => Done (mem, it)
  | v :: vs => let! (mem, it) := write_int host o n v mem it in write_ints host o n vs mem it
  end.

(** network/buffer/io/arithmetic-io.h 174-202: read an array of [k] integers. *)
Fixpoint read_ints (host : endian) (o : order) (n : nat) (k : nat)
                   (mem : list N) (it : biter) : outcome (list N * biter) :=
  match k with
  | O => Done ([], it)
  | S k =>
      let! (v, it) := read_int host o n mem it in
      let! (vs, it) := read_ints host o n k mem it in
      Done (v :: vs, it)
  end.
