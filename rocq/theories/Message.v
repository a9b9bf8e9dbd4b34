(** Model of how numbers, arrays of numbers, durations, points in time and
    addresses are written to and read from buffers, one after the other
    (network/buffer/io/arithmetic-io.h, duration-io.h, time-point-io.h,
    address-io.h), through the iterators of plain and of zero-compressed buffers. *)
From Verif Require Import Base BufferIter ZcIter Address.

(** A type with [std::is_arithmetic]: unsigned or signed integers of [n] bytes
    (arithmetic-io.h 30-49).  [float] and [double] are unsigned here, their value
    being their bit pattern, see [BufferIter.write_int]. *)
Inductive num := UInt (n : nat) | SInt (n : nat).
Definition width (k : num) : nat := match k with UInt n | SInt n => n end.

(** The bits of an integer, and back: two's complement. *)
Definition to_bits (k : num) (v : Z) : N := Z.to_N (v mod 2 ^ (8 * Z.of_nat (width k))).
Definition of_bits (k : num) (b : N) : Z :=
  match k with
  | UInt _ => Z.of_N b
  | SInt n => if (Z.of_N b <? 2 ^ (8 * Z.of_nat n - 1))%Z then Z.of_N b
              else (Z.of_N b - 2 ^ (8 * Z.of_nat n))%Z
  end.

(** The type [chrono::count_t] (chrono/config.h 102). *)
Definition count_t : num := SInt 8.

(** What is written with one call, and the variable that is read to with one
    call; [Read] of an address changes an address that has a value already. *)
Inductive field :=
| FNum (k : num) (v : Z)
| FNums (k : num) (vs : list Z)
| FDuration (count : Z)
| FTime (count : Z)
| FAddr (bits : nat) (a : addr).
Inductive shape :=
| SNum (k : num)
| SNums (k : num) (n : nat)
| SDuration
| STime
| SAddr (bits : nat) (old : addr).

(** The functions are templates over the iterator: the four functions that they
    use are parameters here. *)
Section Io.
Variable Iter : Type.
Variable wint : order -> nat -> N -> list N -> Iter -> outcome (list N * Iter).
Variable wbytes : order -> list N -> list N -> Iter -> outcome (list N * Iter).
Variable rint : order -> nat -> list N -> Iter -> outcome (N * Iter).
Variable rbytes : order -> nat -> list N -> Iter -> outcome (list N * Iter).

(** arithmetic-io.h 30-49 and 52-74. *)
Definition write_num (o : order) (k : num) (v : Z) (mem : list N) (it : Iter) :=
  wint o (width k) (to_bits k v) mem it.
Definition read_num (o : order) (k : num) (mem : list N) (it : Iter) : outcome (Z * Iter) :=
  let! (b, it) := rint o (width k) mem it in Done (of_bits k b, it).

(** arithmetic-io.h 79-107 and 143-171: arrays of fixed and of any size. *)
Fixpoint write_nums (o : order) (k : num) (vs : list Z) (mem : list N) (it : Iter) : outcome (list N * Iter) :=
  match vs with
  | [] => Done (mem, it)
  | v :: vs => let! (mem, it) := write_num o k v mem it in write_nums o k vs mem it
  end.

(** arithmetic-io.h 110-138 and 174-202. *)
Fixpoint read_nums (o : order) (k : num) (n : nat) (mem : list N) (it : Iter) : outcome (list Z * Iter) :=
  match n with
  | O => Done ([], it)
  | S n =>
      let! (v, it) := read_num o k mem it in
      let! (vs, it) := read_nums o k n mem it in
      Done (v :: vs, it)
  end.

(** duration-io.h 30-49, time-point-io.h 30-49, address-io.h 30-49 with
    network/address/address-little-endian.h 1530-1546. *)
Definition write_field (o : order) (f : field) (mem : list N) (it : Iter) : outcome (list N * Iter) :=
  match f with
  | FNum k v => write_num o k v mem it
  | FNums k vs => write_nums o k vs mem it
  | FDuration c => write_num o count_t c mem it
  | FTime c => write_num o count_t c mem it
  | FAddr bits a => wbytes o (firstn (nb bits) (as_bytes bits a)) mem it
  end.

(** duration-io.h 52-77, time-point-io.h 52-77, address-io.h 52-74 with
    network/address/address-little-endian.h 1548-1567. *)
Definition read_field (o : order) (s : shape) (mem : list N) (it : Iter) : outcome (field * Iter) :=
  match s with
  | SNum k => let! (v, it) := read_num o k mem it in Done (FNum k v, it)
  | SNums k n => let! (vs, it) := read_nums o k n mem it in Done (FNums k vs, it)
  | SDuration => let! (c, it) := read_num o count_t mem it in Done (FDuration c, it)
  | STime => let! (c, it) := read_num o count_t mem it in Done (FTime c, it)
  | SAddr bits old =>
      let! (bs, it) := rbytes o (nb bits) mem it in
      Done (FAddr bits (mask_msv bits (poke bits old 0 bs)), it)
  end.

(** A program that writes, or reads, one after the other. *)
Fixpoint write_all (m : list (order * field)) (mem : list N) (it : Iter) : outcome (list N * Iter) :=
  match m with
  | [] => Done (mem, it)
  | (o, f) :: m => let! (mem, it) := write_field o f mem it in write_all m mem it
  end.
Fixpoint read_all (s : list (order * shape)) (mem : list N) (it : Iter) : outcome (list field * Iter) :=
  match s with
  | [] => Done ([], it)
  | (o, s) :: t =>
      let! (f, it) := read_field o s mem it in
      let! (fs, it) := read_all t mem it in
      Done (f :: fs, it)
  end.
End Io.

(** [BasicBufferIterator<readOnly, false>] and [BasicBufferIterator<readOnly, true>]
    (iterator/basic-buffer-iterator.h). *)
Definition write_plain (host : endian) := write_all biter (write_int host) (write_bytes host).
Definition read_plain (host : endian) := read_all biter (read_int host) (read_bytes host).
Definition write_zc (host : endian) := write_all ziter (zi_write_int host) (zi_write_bytes host).
Definition read_zc (host : endian) := read_all ziter (zi_read_int host) (zi_read_bytes host).
