(** Specification vocabulary for the iterators of zero-compressed buffers. *)
From Verif Require Import Base BufferIter BufferIterSpec ZcIter.

(** The bytes at offsets [a] to [b] of a storage. *)
Definition slice {X} (a b : nat) (m : list X) : list X := firstn (b - a) (skipn a m).

(** The string that a storage [m] and the offsets of a zero-compressed buffer stand
    for: header, zeros, trailer. *)
Definition expand (m : list N) (start zs ze end_ : nat) : list N :=
  slice start zs m ++ repeat 0%N (ze - zs) ++ slice zs (end_ - (ze - zs)) m.

(** The string an iterator walks over, and where in it the iterator is. *)
Definition zi_string (mem : list N) (it : ziter) : list N :=
  expand mem (N.to_nat (zi_start it)) (N.to_nat (zi_zs it)) (N.to_nat (zi_ze it)) (N.to_nat (zi_end it)).
Definition zi_pos (it : ziter) : nat := N.to_nat (zi_cursor it) - N.to_nat (zi_start it).

(** The positions of its zero area. *)
Definition zi_header (it : ziter) : nat := N.to_nat (zi_zs it) - N.to_nat (zi_start it).
Definition zi_zeros (it : ziter) : nat := N.to_nat (zi_ze it) - N.to_nat (zi_zs it).

(** An iterator obtained from a buffer of storage [mem]: offsets in order, the stored
    part inside the storage, the cursor inside the buffer, sizes below 2^63. *)
Definition ziter_ok (mem : list N) (it : ziter) : Prop :=
  (zi_start it <= zi_zs it)%N /\ (zi_zs it <= zi_ze it)%N /\ (zi_ze it <= zi_end it)%N /\
  (zi_start it <= zi_cursor it)%N /\ (zi_cursor it <= zi_end it)%N /\
  N.to_nat (zi_end it) - zi_zeros it <= length mem /\ (zi_end it < 2 ^ 63)%N.

(** [bs] put over the bytes of [s] at position [p]. *)
Definition overwrite (p : nat) (bs s : list N) : list N := firstn p s ++ bs ++ skipn (p + length bs) s.

(** Bytes in the order in which a user's array receives them. *)
Definition in_order (host : endian) (o : order) (bs : list N) : list N :=
  if is_native host o then bs else rev bs.

(** The next [n] bytes lie inside a string of [size] bytes, and on one side of the
    border between header and trailer, outside the zero area. *)
Definition writable (it : ziter) (n : nat) (size : nat) : bool :=
  (zi_pos it + n <=? size) &&
  ((zi_pos it + n <=? zi_header it) || (zi_header it + zi_zeros it <=? zi_pos it)).
