(** Vocabulary of the statements about text output: readers of the texts, written
    without the writer. *)
From Coq Require Export Ascii String.
From Verif Require Import Base.
Open Scope Z_scope.

(** The value of a lower-case hexadecimal digit. *)
Definition hex_digit (c : ascii) : option Z :=
  let n := Z.of_N (N_of_ascii c) in
  if (48 <=? n) && (n <=? 57) then Some (n - 48)
  else if (97 <=? n) && (n <=? 102) then Some (n - 87)
  else None.

Definition dec_digit (c : ascii) : option Z :=
  let n := Z.of_N (N_of_ascii c) in
  if (48 <=? n) && (n <=? 57) then Some (n - 48) else None.

(** Hexadecimal digits among which backticks are skipped; [acc] is what has been
    read before. *)
Fixpoint read_hex_digits (acc : Z) (t : list ascii) : option Z :=
  match t with
  | [] => Some acc
  | c :: r =>
      if (c =? "`")%char then read_hex_digits acc r
      else match hex_digit c with
           | Some d => read_hex_digits (16 * acc + d) r
           | None => None
           end
  end.

(** "0x" and digits. *)
Definition read_hex (t : list ascii) : option Z :=
  match t with
  | z :: x :: r => if (z =? "0")%char && (x =? "x")%char then read_hex_digits 0 r else None
  | _ => None
  end.

(** A decimal number at the head of a text, and the rest of it. *)
Fixpoint read_dec_digits (acc : Z) (t : list ascii) : Z * list ascii :=
  match t with
  | [] => (acc, [])
  | c :: r => match dec_digit c with
              | Some d => read_dec_digits (10 * acc + d) r
              | None => (acc, t)
              end
  end.
Definition read_dec (t : list ascii) : option (Z * list ascii) :=
  match t with
  | c :: _ => match dec_digit c with Some _ => Some (read_dec_digits 0 t) | None => None end
  | [] => None
  end.

(** A given character. *)
Definition expect (c : ascii) (t : list ascii) : option (list ascii) :=
  match t with
  | x :: r => if (x =? c)%char then Some r else None
  | [] => None
  end.

Definition bind {A B} (o : option A) (f : A -> option B) : option B :=
  match o with Some a => f a | None => None end.

(** Yoctoseconds (10^-24 s) in the units below a second. *)
Definition letter_yocto (c : ascii) : option Z :=
  if (c =? "m")%char then Some (10 ^ 21) else if (c =? "u")%char then Some (10 ^ 18)
  else if (c =? "n")%char then Some (10 ^ 15) else if (c =? "p")%char then Some (10 ^ 12)
  else if (c =? "f")%char then Some (10 ^ 9) else if (c =? "a")%char then Some (10 ^ 6)
  else if (c =? "z")%char then Some (10 ^ 3) else if (c =? "y")%char then Some 1
  else None.

(** "-005m-010u": the sum in yoctoseconds; [n] bounds the number of parts. *)
Fixpoint read_small (n : nat) (t : list ascii) : option Z :=
  match t, n with
  | [], _ => Some 0
  | _, O => None
  | _, S k =>
      bind (expect "-" t) (fun t =>
      bind (read_dec t) (fun '(x, t) =>
      match t with
      | l :: t => bind (letter_yocto l) (fun w =>
                  bind (read_small k t) (fun y => Some (w * x + y)))
      | [] => None
      end))
  end.

(** "HH:MM:SS" and the parts below a second, after [d] days. *)
Definition read_clock (d : Z) (t : list ascii) : option Z :=
  bind (read_dec t) (fun '(h, t) => bind (expect ":" t) (fun t =>
  bind (read_dec t) (fun '(m, t) => bind (expect ":" t) (fun t =>
  bind (read_dec t) (fun '(s, t) =>
  bind (read_small 8 t) (fun y =>
    Some ((((d * 24 + h) * 60 + m) * 60 + s) * 10 ^ 24 + y))))))).

(** The time of a text, in yoctoseconds. *)
Definition read_unsigned (t : list ascii) : option Z :=
  bind (read_dec t) (fun '(d, r) =>
  match expect " " r with
  | Some r => read_clock d r
  | None => read_clock 0 t
  end).
Definition read_time (t : list ascii) : option Z :=
  match expect "-" t with
  | Some r => bind (read_unsigned r) (fun y => Some (- y))
  | None => read_unsigned t
  end.

(** The documented separation of the parts below a second (duration.h 810-813):
    a space after "HH:MM:SS". *)
Definition documented_separator (t : list ascii) : Prop := nth 8 t " "%char = " "%char.
