(** Model of text output: utility/hex-output.h and [Duration::ToString]
    (chrono/duration.h).

    The stream is the part of [std::basic_ostream] that these functions use:
    the characters written and the format flags.  It is not code of nsfx; what it
    does is what the C++ standard says of [num_put], of inserters of strings and
    of manipulators.  Simplifications: the classic locale (no grouping), no
    failing streams, characters are [char]. *)
From Coq Require Export Ascii String.
From Verif Require Import Base Duration.
Open Scope N_scope.

(** ** Streams (C++ standard library) *)

Inductive radix : Set := Dec | Hex.
Inductive adjust : Set := AdjLeft | AdjRight | AdjInternal.

Record stream : Set := mk_stream {
  o_text : list ascii;
  o_radix : radix; o_adjust : adjust; o_showbase : bool; o_upper : bool;
  o_fill : ascii; o_width : nat
}.

Definition set_width (n : nat) (os : stream) : stream :=        (* setw *)
  mk_stream (o_text os) (o_radix os) (o_adjust os) (o_showbase os) (o_upper os) (o_fill os) n.
Definition set_fill (c : ascii) (os : stream) : stream :=       (* setfill *)
  mk_stream (o_text os) (o_radix os) (o_adjust os) (o_showbase os) (o_upper os) c (o_width os).
Definition set_radix (r : radix) (os : stream) : stream :=      (* dec, hex *)
  mk_stream (o_text os) r (o_adjust os) (o_showbase os) (o_upper os) (o_fill os) (o_width os).
Definition set_upper (b : bool) (os : stream) : stream :=       (* uppercase, nouppercase *)
  mk_stream (o_text os) (o_radix os) (o_adjust os) (o_showbase os) b (o_fill os) (o_width os).

(** A new stringstream. *)
Definition new_stream : stream := mk_stream [] Dec AdjRight false false " " 0.

(** Write a prefix and a body, padded to the width, which goes back to 0. *)
Definition put_padded (pre body : list ascii) (os : stream) : stream :=
  let pad := repeat (o_fill os) (o_width os - (length pre + length body)) in
  let s := match o_adjust os with
           | AdjLeft => pre ++ body ++ pad
           | AdjRight => pad ++ pre ++ body
           | AdjInternal => pre ++ pad ++ body
           end in
  mk_stream (o_text os ++ s) (o_radix os) (o_adjust os) (o_showbase os) (o_upper os)
    (o_fill os) 0.

(** Strings and characters; without prefix, [internal] pads in front. *)
Definition put_str (s : string) (os : stream) : stream :=
  put_padded [] (list_ascii_of_string s) os.

(** The digits of a number, most significant first. *)
Fixpoint digits_aux (fuel : nat) (b n : N) (acc : list N) : list N :=
  match fuel with
  | O => acc
  | S f => if n / b =? 0 then n mod b :: acc else digits_aux f b (n / b) (n mod b :: acc)
  end.
Definition digits (b n : N) : list N := digits_aux (S (N.size_nat n)) b n [].

Definition digit_char (upper : bool) (d : N) : ascii :=
  ascii_of_N (if d <? 10 then 48 + d else (if upper then 55 else 87) + d).

(** Unsigned integers. *)
Definition put_uint (n : N) (os : stream) : stream :=
  match o_radix os with
  | Dec => put_padded [] (map (digit_char false) (digits 10 n)) os
  | Hex =>
      let pre := if o_showbase os && negb (n =? 0)
                 then list_ascii_of_string (if o_upper os then "0X" else "0x") else [] in
      put_padded pre (map (digit_char (o_upper os)) (digits 16 n)) os
  end.

(** ** utility/hex-output.h *)

(** The bits of a value of a type with [sz] bytes. *)
Definition bits_of (sz : nat) (v : Z) : N := Z.to_N (v mod 2 ^ (8 * Z.of_nat sz)).

(** [setw(n) << setfill('0') << hex << nouppercase]: hex-output.h 56-57, 60-61, 74-75. *)
Definition hex_format (n : nat) (os : stream) : stream :=
  set_upper false (set_radix Hex (set_fill "0" (set_width n os))).

(** hex-output.h 51-63, [hex_output(os, v, eq_t<64>)]; [sizeof (T)] is 8. *)
Definition hex_output64 (v : Z) (os : stream) : stream :=
  let b := bits_of 8 v in
  let os := put_str "0x" os in
  let os := put_uint (N.shiftr (N.land b 0xffffffff00000000) 32) (hex_format 8 os) in
  let os := put_str "`" os in
  put_uint (N.land b 0x00000000ffffffff) (hex_format 8 os).

(** hex-output.h 68-76, [hex_output(os, v, lt_t<64>)]. *)
Definition hex_output_lt (sz : nat) (v : Z) (os : stream) : stream :=
  put_uint (bits_of sz v) (hex_format (sz * 2) (put_str "0x" os)).

(** hex-output.h 99-103 [as_hex] and 111-117 [operator<<], for a type of [sz] bytes;
    tags.h 157-167 [compare_tag<64, sizeof (T) * 8>::type].  Larger types do not
    compile: they have no case of their own. *)
Definition put_hex (sz : nat) (v : Z) (os : stream) : stream :=
  if (sz * 8 =? 64)%nat then hex_output64 v os else hex_output_lt sz v os.

(** ** [Duration::ToString] *)

(** [setw(n) << setfill('0') << x]: duration.h 1014-1048. *)
Definition put_part (n : nat) (x : Z) (os : stream) : stream :=
  put_uint (Z.to_N x) (set_fill "0" (set_width n os)).

(** duration.h 1018-1049: the parts below a second, left out where the unit is
    [UnderflowTag].  The parts are not negative (C30), so that they are written as
    unsigned numbers. *)
Fixpoint put_small (us : list unit_t) (xs : list Z) (ls : list string) (os : stream) : stream :=
  match us, xs, ls with
  | u :: us, x :: xs, l :: ls =>
      put_small us xs ls
        (match u with
         | UnitUnderflow => os
         | _ => put_str l (put_part 3 x (put_str "-" os))
         end)
  | _, _, _ => os
  end.

(** duration.h 986-1051, [ToString]. *)
Definition to_string (den c : Z) : outcome (list ascii) :=
  let! (neg, xs, _) := split den c in
  match xs with
  | d :: h :: m :: s :: ys =>
      let os := new_stream in
      let os := if neg then put_str "-" os else os in
      let os := if (d =? 0)%Z then os
                else put_str " " (put_uint (Z.to_N d) (set_width 0 os)) in
      let os := put_str ":" (put_part 2 h os) in
      let os := put_str ":" (put_part 2 m os) in
      let os := put_part 2 s os in
      Done (o_text (put_small (small_units 8 (unit_second den)) ys
        ["m"; "u"; "n"; "p"; "f"; "a"; "z"; "y"]%string os))
  | _ => UB        (* [Split] gives twelve parts *)
  end.
(** virtual-time-point.h 286-290, [VirtualTimePoint::ToString]. *)
Definition vt_to_string (t : Z) : outcome (list ascii) := to_string vt_den t.
