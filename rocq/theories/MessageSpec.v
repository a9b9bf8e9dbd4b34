(** Specification of messages: the bytes that stand for a sequence of values. *)
From Verif Require Import Base BufferIter BufferIterSpec ZcIterSpec Address AddressSpec Message.

(** Two's complement. *)
Definition pattern (n : nat) (v : Z) : N := Z.to_N (v mod 2 ^ (8 * Z.of_nat n)).

Definition encode (host : endian) (o : order) (f : field) : list N :=
  match f with
  | FNum k v => layout o host (width k) (pattern (width k) v)
  | FNums k vs => flat_map (fun v => layout o host (width k) (pattern (width k) v)) vs
  | FDuration c | FTime c => layout o host 8 (pattern 8 c)
  | FAddr bits a => layout o host ((bits + 7) / 8) (value bits a)
  end.

Definition message (host : endian) (m : list (order * field)) : list N :=
  flat_map (fun p => encode host (fst p) (snd p)) m.

(** The values that the types have. *)
Definition in_range (k : num) (v : Z) : Prop :=
  In (width k) [1; 2; 4; 8] /\
  match k with
  | UInt n => (0 <= v < 2 ^ (8 * Z.of_nat n))%Z
  | SInt n => (- 2 ^ (8 * Z.of_nat n - 1) <= v < 2 ^ (8 * Z.of_nat n - 1))%Z
  end.

(** Addresses: as in [Address], little endian hosts. *)
Definition field_ok (host : endian) (f : field) : Prop :=
  match f with
  | FNum k v => in_range k v
  | FNums k vs => In (width k) [1; 2; 4; 8] /\ Forall (in_range k) vs
  | FDuration c | FTime c => (- 2 ^ 63 <= c < 2 ^ 63)%Z
  | FAddr bits a => host = LittleEndian /\ 0 < bits /\ (N.of_nat bits < 2 ^ 60)%N /\ made bits a
  end.

(** The variables that a message can be read to. *)
Definition fits (f : field) (s : shape) : Prop :=
  match f, s with
  | FNum k _, SNum k' => k = k'
  | FNums k vs, SNums k' n => k = k' /\ length vs = n
  | FDuration _, SDuration | FTime _, STime => True
  | FAddr bits _, SAddr bits' old => bits = bits' /\ made bits old
  | _, _ => False
  end.

Definition message_ok (host : endian) (m : list (order * field)) : Prop :=
  Forall (fun p => field_ok host (snd p)) m.

Definition readable_as (m : list (order * field)) (s : list (order * shape)) : Prop :=
  Forall2 (fun p q => fst p = fst q /\ fits (snd p) (snd q)) m s.

(** Little or big endian by request. *)
Definition fixed_order (o : order) : bool := match o with NativeOrder => false | _ => true end.
Definition portable (m : list (order * field)) : Prop :=
  Forall (fun p => fixed_order (fst p) = true) m.

(** How many bytes are read to a variable. *)
Definition shape_size (s : shape) : nat :=
  match s with
  | SNum k => width k
  | SNums k n => n * width k
  | SDuration | STime => 8
  | SAddr bits _ => (bits + 7) / 8
  end.
Definition shapes_size (s : list (order * shape)) : nat := list_sum (map (fun q => shape_size (snd q)) s).
Definition shape_ok (s : shape) : Prop :=
  match s with
  | SNum k | SNums k _ => In (width k) [1; 2; 4; 8]
  | SDuration | STime => True
  | SAddr bits _ => 0 < bits /\ (N.of_nat bits < 2 ^ 60)%N
  end.

(** Variables that exist: those for addresses have a value already. *)
Definition variable_ok (host : endian) (s : shape) : Prop :=
  shape_ok s /\ match s with SAddr bits old => host = LittleEndian /\ made bits old | _ => True end.
Definition is_address (s : shape) : bool := match s with SAddr _ _ => true | _ => false end.
