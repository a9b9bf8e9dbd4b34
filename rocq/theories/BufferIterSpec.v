(** Specification vocabulary for buffer iterators. *)
From Verif Require Import Base BufferIter.

(** An iterator obtained from a buffer of storage [mem]: its range lies in the
    storage and its cursor in the range; storages are smaller than 2^63. *)
Definition iter_ok (mem : list N) (it : biter) : Prop :=
  (it_start it <= it_cursor it)%N /\ (it_cursor it <= it_end it)%N /\
  N.to_nat (it_end it) <= length mem /\ (N.of_nat (length mem) < 2 ^ 63)%N.

(** The documented byte sequence of an [n]-byte integer in a given order. *)
Definition layout (o : order) (host : endian) (n : nat) (v : N) : list N :=
  match o with
  | LittleOrder => le_bytes n v
  | BigOrder => rev (le_bytes n v)
  | NativeOrder => match host with LittleEndian => le_bytes n v | BigEndian => rev (le_bytes n v) end
  end.
