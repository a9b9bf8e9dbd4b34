(** Model of programs that write messages (Message.v) to the buffers of a program
    (Buffer.v), in particular to the headers and trailers of packets (Packet.v), and read
    them from there: network/buffer/io/*.h through the iterators that
    network/buffer/buffer.h hands out.

    BufferIter.v and Message.v are about an iterator over the bytes of one storage; here the
    iterator is that of a buffer variable, and the bytes are those of the storage that the
    variable refers to, in the memory of the program. *)
From Verif Require Import Base BufferIter Message.
From Verif Require Buffer Packet.

(** [storage_ ? storage_->bytes_ : nullptr], buffer.h:952, 966. *)
Definition storage_bytes (h : list (option Buffer.storage)) (b : Buffer.buf) : outcome (list N) :=
  match Buffer.b_st b with
  | None => Done []
  | Some a => let! s := Buffer.get h a in Done (Buffer.sg_bytes s)
  end.

(** buffer.h:950-955 [begin], 964-969 [cbegin]; buffer-iterator.h 376-385. *)
Definition begin (b : Buffer.buf) : biter :=
  mk_biter (N.of_nat (Buffer.b_start b)) (N.of_nat (Buffer.b_end b)) (N.of_nat (Buffer.b_start b)).

(** A program that gets the iterator of buffer variable [k], moves it forward by [off] bytes
    and writes the fields of [m] one after the other; the bytes of the storage are
    replaced by those that the writing leaves.  As everywhere, a variable that does not exist is not
    named by any program. *)
Definition write_message (host : endian) (off : nat) (m : list (order * field)) (k : nat) (w : Buffer.world)
  : outcome (Buffer.world * biter) :=
  match Buffer.var w k with
  | None => Done (w, mk_biter 0 0 0)
  | Some b =>
      let! mem := storage_bytes (Buffer.w_heap w) b in
      let! it := move_forward (begin b) (N.of_nat off) in
      let! (mem', it') := write_plain host m mem it in
      match Buffer.b_st b with
      | None => Done (w, it')
      | Some a =>
          let! s := Buffer.get (Buffer.w_heap w) a in
          Done (Buffer.mk_world (Buffer.put (Buffer.w_heap w) a (Buffer.set_bytes s mem')) (Buffer.w_bufs w), it')
      end
  end.

(** The same with reading to variables [s]. *)
Definition read_message (host : endian) (off : nat) (s : list (order * shape)) (k : nat) (w : Buffer.world)
  : outcome (list field * biter) :=
  match Buffer.var w k with
  | None => Done ([], mk_biter 0 0 0)
  | Some b =>
      let! mem := storage_bytes (Buffer.w_heap w) b in
      let! it := move_forward (begin b) (N.of_nat off) in
      read_plain host s mem it
  end.

(** Both for the buffers that packet.h:773-794 return: buffers of the user among those of the
    program.  The buffer of a body is private. *)
Definition packet_write {BV} (host : endian) (off : nat) (m : list (order * field)) (k : nat) (w : Packet.world BV)
  : outcome (Packet.world BV * biter) :=
  if Packet.owned w k then Done (w, mk_biter 0 0 0)
  else
    let! (b, it) := write_message host off m k (Packet.w_buf w) in
    Done (Packet.mk_world b (Packet.w_bt w) (Packet.w_pt w) (Packet.w_bodies w) (Packet.w_vars w) (Packet.w_pins w), it).
Definition packet_read {BV} (host : endian) (off : nat) (s : list (order * shape)) (k : nat) (w : Packet.world BV)
  : outcome (list field * biter) :=
  if Packet.owned w k then Done ([], mk_biter 0 0 0) else read_message host off s k (Packet.w_buf w).
