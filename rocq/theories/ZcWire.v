(** Model of programs that write messages (Message.v) to the zero-compressed buffers of a
    program (ZcBuffer.v), in particular to the headers and trailers of packets over such
    buffers (ZcPacket.v), and read them from there: network/buffer/io/*.h through the
    iterators that network/buffer/zc-buffer.h hands out.  Wire.v is the same for plain
    buffers. *)
From Verif Require Import Base BufferIter ZcIter Message Buffer ZcBuffer ZcPacket.

(** A program that gets the iterator of buffer variable [k] (zc-buffer.h:1094-1120 [begin]),
    moves it forward by [off] bytes (zc-buffer-iterator.h 1408-1450) and writes the fields of
    [m] one after the other; the bytes of the storage are replaced by those that the writing
    leaves.  As everywhere, a variable that does not exist is not named by any program. *)
Definition zwrite_message (host : endian) (off : nat) (m : list (order * field)) (k : nat) (w : zworld)
  : outcome (zworld * ziter) :=
  match zvar w k with
  | None => Done (w, mk_ziter 0 0 0 0 0)
  | Some z =>
      let! mem := z_memory (zw_heap w) z in
      let! it := zi_forward (z_begin z) (N.of_nat off) in
      let! (mem', it') := write_zc host m mem it in
      match z_st z with
      | None => Done (w, it')
      | Some a =>
          let! s := get (zw_heap w) a in
          Done (mk_zworld (put (zw_heap w) a (set_bytes s mem')) (zw_bufs w), it')
      end
  end.

(** The same with reading to variables [s] (zc-buffer.h:1094-1120 [cbegin]). *)
Definition zread_message (host : endian) (off : nat) (s : list (order * shape)) (k : nat) (w : zworld)
  : outcome (list field * ziter) :=
  match zvar w k with
  | None => Done ([], mk_ziter 0 0 0 0 0)
  | Some z =>
      let! mem := z_memory (zw_heap w) z in
      let! it := zi_forward (z_begin z) (N.of_nat off) in
      read_zc host s mem it
  end.

(** Both for the buffers that packet.h:773-794 return: buffers of the user among those of the
    program.  The buffer of a body is private. *)
Definition zp_write (host : endian) (off : nat) (m : list (order * field)) (k : nat) (w : zpworld)
  : outcome (zpworld * ziter) :=
  if zp_owned w k then Done (w, mk_ziter 0 0 0 0 0)
  else
    let! (b, it) := zwrite_message host off m k (zp_buf w) in
    Done (mk_zp b (zp_bodies w) (zp_vars w), it).
Definition zp_read (host : endian) (off : nat) (s : list (order * shape)) (k : nat) (w : zpworld)
  : outcome (list field * ziter) :=
  if zp_owned w k then Done ([], mk_ziter 0 0 0 0 0) else zread_message host off s k (zp_buf w).
