(** Model of utility/endian.h. *)
From Verif Require Import Base.
Local Open Scope N_scope.

(** [aux::ReorderBytes] for 1-, 2-, 4- and 8-byte values, utility/endian.h
    164-192.  The 16-bit version shifts an [int] and truncates; the others shift
    words of their own width, where bits shifted out are lost ([wrap]). *)
Definition reorder8 (v : N) : N := v.

Definition reorder16 (v : N) : N := wrap 16 (N.lor (N.shiftl v 8) (N.shiftr v 8)).

Definition reorder32 (v : N) : N :=
  N.lor (N.lor (N.lor
    (wrap 32 (N.shiftl (N.land v 0x000000ff) 24))
    (wrap 32 (N.shiftl (N.land v 0x0000ff00) 8)))
    (N.shiftr (N.land v 0x00ff0000) 8))
    (N.shiftr (N.land v 0xff000000) 24).

Definition reorder64 (v : N) : N :=
  N.lor (N.lor (N.lor (N.lor (N.lor (N.lor (N.lor
    (wrap 64 (N.shiftl (N.land v 0x00000000000000ff) 56))
    (wrap 64 (N.shiftl (N.land v 0x000000000000ff00) 40)))
    (wrap 64 (N.shiftl (N.land v 0x0000000000ff0000) 24)))
    (wrap 64 (N.shiftl (N.land v 0x00000000ff000000) 8)))
    (N.shiftr (N.land v 0x000000ff00000000) 8))
    (N.shiftr (N.land v 0x0000ff0000000000) 24))
    (N.shiftr (N.land v 0x00ff000000000000) 40))
    (N.shiftr (N.land v 0xff00000000000000) 56).

(** The integral types of the library, by size; a value of a signed type is
    represented by its bit pattern, as the cast in utility/endian.h 221-222. *)
Inductive width := W8 | W16 | W32 | W64.
Definition width_bytes (w : width) : nat :=
  match w with W8 => 1 | W16 => 2 | W32 => 4 | W64 => 8 end%nat.

(** [ReorderBytes(v, reverse_byte_order_t)], utility/endian.h 217-223. *)
Definition reorder (w : width) (v : N) : N :=
  match w with W8 => reorder8 v | W16 => reorder16 v | W32 => reorder32 v | W64 => reorder64 v end.

(** [endian_traits<>::is_native] on a host of byte order [host],
    utility/endian.h 75-113; [None] is [native_endian_t]. *)
Definition is_native (host : endian) (e : option endian) : bool :=
  match e with None => true | Some e => endian_eqb host e end.

(** [byte_order_f], utility/endian.h 154-157: true for [reverse_byte_order_t]. *)
Definition byte_order_f (host : endian) (e1 e2 : option endian) : bool :=
  xorb (is_native host e1) (is_native host e2).

(** [ReorderBytes(v, tag)], utility/endian.h 203-223. *)
Definition reorder_tag (w : width) (reverse : bool) (v : N) : N :=
  if reverse then reorder w v else v.

(** Conversions, utility/endian.h 233-280. *)
Definition native_to_little host w v := reorder_tag w (byte_order_f host (Some LittleEndian) None) v.
Definition little_to_native host w v := reorder_tag w (byte_order_f host (Some LittleEndian) None) v.
Definition native_to_big host w v := reorder_tag w (byte_order_f host (Some BigEndian) None) v.
Definition big_to_native host w v := reorder_tag w (byte_order_f host (Some BigEndian) None) v.
Definition little_to_big (w : width) (v : N) := reorder w v.
Definition big_to_little (w : width) (v : N) := reorder w v.
