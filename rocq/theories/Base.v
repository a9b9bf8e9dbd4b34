(** Shared vocabulary of the model: machine words, outcomes, memory images. *)
From Coq Require Export NArith ZArith List Bool Lia.
Export ListNotations.

(** Outcome of a C++ operation.
    [AssertFail] models a failing BOOST_ASSERT / BOOST_ASSERT_MSG (debug builds
    stop there; in release builds the program goes on with a broken
    precondition), [UB] models undefined behaviour (access outside an
    allocation, null pointer dereference, shift by the width of the type, ...),
    [Throw] models a C++ exception.  The payload of an exception is reduced to
    its class, see [exn]. *)
Inductive exn : Set :=
| InvalidPointer | InvalidArgument | Uninitialized | ConnectionLimit
| NoConnection | IllegalMethodCall | TagNotFound | ClassAlreadyRegistered
| ClassNotRegistered | ProbeAlreadyRegistered | ProbeNotRegistered
| StatisticAlreadyRegistered | StatisticNotRegistered | OutOfBounds
| LogValueNotFound | LogValueTypeMismatch | NoInterface | BadAggregation | NoScheduledEvent.

Inductive outcome (A : Type) : Type :=
| Done (a : A)
| AssertFail
| UB
| Throw (e : exn).
Arguments Done {A} a.
Arguments AssertFail {A}.
Arguments UB {A}.
Arguments Throw {A} e.

Definition obind {A B} (x : outcome A) (f : A -> outcome B) : outcome B :=
  match x with
  | Done a => f a
  | AssertFail => AssertFail
  | UB => UB
  | Throw e => Throw e
  end.
Notation "'let!' x ':=' e 'in' k" := (obind e (fun x => k))
  (at level 200, x pattern, e at level 100, k at level 200, right associativity).

(** Reduction modulo 2^w: the value of an unsigned C++ expression of width [w]. *)
Definition wrap (w x : N) : N := (x mod 2 ^ w)%N.

(** [size_t] is modelled as a 64-bit word (LP64 hosts). *)
Definition w64 (x : N) : N := wrap 64 x.
Definition w32 (x : N) : N := wrap 32 x.

(** [a - b] on unsigned words of width [w], for operands below [2^w]. *)
Definition wsub (w a b : N) : N := wrap w (a + (2 ^ w - b)).

(** Host byte order (utility/endian.h, [endian_traits<native_endian_t>]). *)
Inductive endian : Set := LittleEndian | BigEndian.

Definition endian_eqb (a b : endian) : bool :=
  match a, b with
  | LittleEndian, LittleEndian | BigEndian, BigEndian => true
  | _, _ => false
  end.

(** The [n] low order bytes of [v], least significant first. *)
Fixpoint le_bytes (n : nat) (v : N) : list N :=
  match n with
  | O => []
  | S k => (v mod 256)%N :: le_bytes k (v / 256)%N
  end.

(** The number written by a list of bytes, least significant first. *)
Fixpoint of_le_bytes (l : list N) : N :=
  match l with
  | [] => 0%N
  | b :: t => (b + 256 * of_le_bytes t)%N
  end.

(** Memory image of an unsigned integer of [n] bytes on a host of byte order
    [h]; this is what the unions [{uint8_t b[n]; T v;}] of
    network/buffer/iterator/buffer-iterator.h give access to. *)
Definition mem_bytes (h : endian) (n : nat) (v : N) : list N :=
  match h with
  | LittleEndian => le_bytes n v
  | BigEndian => rev (le_bytes n v)
  end.

Definition of_mem_bytes (h : endian) (l : list N) : N :=
  match h with
  | LittleEndian => of_le_bytes l
  | BigEndian => of_le_bytes (rev l)
  end.

(** A memory cell holds a byte. *)
Definition is_byte (b : N) : Prop := (b < 256)%N.

(** Store [bs] at offset [off] of the allocation [mem]; [None] when a byte
    falls outside the allocation. *)
Definition mem_store (mem : list N) (off : nat) (bs : list N) : option (list N) :=
  if Nat.leb (off + length bs) (length mem)
  then Some (firstn off mem ++ bs ++ skipn (off + length bs) mem)
  else None.

(** Load [n] bytes at offset [off]. *)
Definition mem_load (mem : list N) (off n : nat) : option (list N) :=
  if Nat.leb (off + n) (length mem)
  then Some (firstn n (skipn off mem))
  else None.

(** Replacement of an element; models an assignment through a pointer. *)
Fixpoint upd {A} (l : list A) (i : nat) (x : A) : list A :=
  match l, i with
  | [], _ => []
  | _ :: t, O => x :: t
  | y :: t, S j => y :: upd t j x
  end.
