(** Model of utility/circular-sequence-number.h and
    utility/lollipop-sequence-number.h.

    A sequence number is its [value_], an [N].  The value type is the smallest
    unsigned type with at least [bits] bits (boost::uint_t<bits>::least); its
    size only matters for the number of bytes kept by [Read].
    The subtractions of the comparison functions are performed on ordered
    operands, so no wrap-around or promotion can occur in them. *)
From Verif Require Import Base BufferIter.
Local Open Scope N_scope.

(** boost::uint_t<bits>::least: 8, 16, 32 or 64 bits, as a number of bytes. *)
Definition uint_least_size (bits : N) : nat :=
  if bits <=? 8 then 1%nat else if bits <=? 16 then 2%nat
  else if bits <=? 32 then 4%nat else 8%nat.

(** ** Circular sequence numbers *)

(** circular-sequence-number.h 52-54: [MAX_VALUE]. *)
Definition circ_max (bits : N) : N := 2 ^ bits - 1.

(** circular-sequence-number.h 57: [GAP_VALUE]. *)
Definition circ_gap (bits : N) : N := circ_max bits / 2.

(** circular-sequence-number.h 176-179: the constructor from a value. *)
Definition circ_make (bits v : N) : N := if v <=? circ_max bits then v else circ_max bits.

(** circular-sequence-number.h 66-82, 204-208: [operator++]. *)
Definition circ_inc (bits sn : N) : N := if sn <? circ_max bits then sn + 1 else 0.

(** circular-sequence-number.h 84-113, 219-225: [operator<], for [bits == 1]
    (tag [eq_t<1>]) and [bits > 1] (tag [gt_t<1>]). *)
Definition circ_lt (bits lhs rhs : N) : bool :=
  if bits =? 1 then negb (lhs =? rhs)
  else if lhs <? rhs then rhs - lhs <=? circ_gap bits
  else circ_gap bits <? lhs - rhs.

(** circular-sequence-number.h 115-144, 227-233: [operator<=]. *)
Definition circ_le (bits lhs rhs : N) : bool :=
  if bits =? 1 then true
  else if lhs <=? rhs then rhs - lhs <=? circ_gap bits
  else circ_gap bits <? lhs - rhs.

(** circular-sequence-number.h 245-251: [operator>]. *)
Definition circ_gt (bits lhs rhs : N) : bool := circ_lt bits rhs lhs.

(** circular-sequence-number.h 253-259: [operator>=]. *)
Definition circ_ge (bits lhs rhs : N) : bool := circ_le bits rhs lhs.

(** circular-sequence-number.h 235-243: [operator==] ([operator!=] is its negation). *)
Definition circ_eq (lhs rhs : N) : bool := lhs =? rhs.

(** ** Lollipop sequence numbers *)

(** lollipop-sequence-number.h 47-49: [MAX_VALUE]. *)
Definition lolli_max (bits : N) : N := 2 ^ bits - 1.

(** lollipop-sequence-number.h 56: [GAP_VALUE]. *)
Definition lolli_gap (bits start : N) : N := (lolli_max bits - start) / 2.

(** lollipop-sequence-number.h 58-63: [CIRCULAR_SPACE]. *)
Inductive circular_space : Set := Space1 | Space2 | Space3.
Definition lolli_space (bits start : N) : circular_space :=
  if lolli_max bits =? start then Space1
  else if lolli_max bits =? start + 1 then Space2 else Space3.

(** lollipop-sequence-number.h 239-242: the constructor from a value. *)
Definition lolli_make (bits v : N) : N := if v <=? lolli_max bits then v else lolli_max bits.

(** lollipop-sequence-number.h 75-92, 267-271: [operator++]. *)
Definition lolli_inc (bits start sn : N) : N := if sn <? lolli_max bits then sn + 1 else start.

(** lollipop-sequence-number.h 94-147, 282-288: [operator<]. *)
Definition lolli_lt (bits start lhs rhs : N) : bool :=
  match lolli_space bits start with
  | Space1 => lhs <? rhs                                   (* 96-105 *)
  | Space2 => if rhs <? start then lhs <? rhs else true    (* 107-122 *)
  | Space3 =>                                              (* 124-147 *)
      if lhs <? start then lhs <? rhs
      else if lhs <? rhs then rhs - lhs <=? lolli_gap bits start
      else if start <=? rhs then lolli_gap bits start <? lhs - rhs
      else false
  end.

(** lollipop-sequence-number.h 149-202, 290-296: [operator<=]. *)
Definition lolli_le (bits start lhs rhs : N) : bool :=
  match lolli_space bits start with
  | Space1 => lhs <=? rhs                                   (* 151-160 *)
  | Space2 => if rhs <? start then lhs <=? rhs else true    (* 162-177 *)
  | Space3 =>                                               (* 179-202 *)
      if lhs <? start then lhs <=? rhs
      else if lhs <=? rhs then rhs - lhs <=? lolli_gap bits start
      else if start <=? rhs then lolli_gap bits start <? lhs - rhs
      else false
  end.

(** lollipop-sequence-number.h 308-322: [operator>], [operator>=]. *)
Definition lolli_gt (bits start lhs rhs : N) : bool := lolli_lt bits start rhs lhs.
Definition lolli_ge (bits start lhs rhs : N) : bool := lolli_le bits start rhs lhs.

(** Repeated [operator++]. *)
Fixpoint circ_incs (bits : N) (k : nat) (sn : N) : N :=
  match k with O => sn | S k => circ_incs bits k (circ_inc bits sn) end.
Fixpoint lolli_incs (bits start : N) (k : nat) (sn : N) : N :=
  match k with O => sn | S k => lolli_incs bits start k (lolli_inc bits start sn) end.

(** ** Buffer I/O, identical in both classes
    (circular-sequence-number.h 269-312, lollipop-sequence-number.h 334-375). *)

(** utility/endian.h 319-346: [bits_endian_traits::size] and [::offset]. *)
Definition io_size (bits : N) : nat := N.to_nat ((bits + 7) / 8).
Definition io_offset (host : endian) (bits : N) : nat :=
  match host with
  | LittleEndian => 0
  | BigEndian => uint_least_size bits - io_size bits
  end%nat.

(** [Write]/[WriteL]/[WriteB]: the [size] bytes at [offset] of the memory image
    of [value_] go through the byte array write of the iterator. *)
Definition sn_write (host : endian) (o : order) (bits sn : N)
                    (mem : list N) (it : biter) : outcome (list N * biter) :=
  let img := mem_bytes host (uint_least_size bits) sn in
  write_bytes host o (firstn (io_size bits) (skipn (io_offset host bits) img)) mem it.

(** [Read]/[ReadL]/[ReadB]: the bytes read replace the [size] bytes at [offset]
    of the memory image of [value_] ([old]); the others are kept. *)
Definition sn_read (host : endian) (o : order) (bits old : N)
                   (mem : list N) (it : biter) : outcome (N * biter) :=
  let! (bs, it) := read_bytes host o (io_size bits) mem it in
  let img := mem_bytes host (uint_least_size bits) old in
  match mem_store img (io_offset host bits) bs with
  | Some img' => Done (of_mem_bytes host img', it)
  | None => UB
  end.
