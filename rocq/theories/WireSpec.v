(** Specification vocabulary for messages in buffers and packets. *)
From Verif Require Import Base MessageSpec.
From Verif Require Buffer Packet.

(** Storages are smaller than half of the address space. *)
Definition small (w : Buffer.world) : Prop :=
  forall a s, nth_error (Buffer.w_heap w) a = Some (Some s) -> (N.of_nat (length (Buffer.sg_bytes s)) < 2 ^ 63)%N.

(** The buffer variable that was made last. *)
Definition newest {BV} (w : Packet.world BV) : nat := length (Buffer.w_bufs (Packet.w_buf w)) - 1.

(** Bytes [from] to [from + length s] of [l] are [s]. *)
Definition at_offset (from : nat) (s l : list N) : Prop := firstn (length s) (skipn from l) = s.

(** A receiver of the same kind, or fields written in an order that was asked for. *)
Definition understood (sender receiver : endian) (m : list (Verif.BufferIter.order * Verif.Message.field)) : Prop :=
  sender = receiver \/ portable m.
