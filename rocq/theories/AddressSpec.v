(** Specification of addresses: numbers below [2^bits]. *)
From Verif Require Import Base BufferIter Address.

(** The number that digits of [k] bits write, least significant first. *)
Fixpoint number (k : N) (l : list N) : N :=
  match l with [] => 0%N | v :: r => (v + 2 ^ k * number k r)%N end.
(** The number an address stands for. *)
Definition value (bits : nat) (a : addr) : N := number (N.of_nat (vbits bits)) a.
(** How many addresses there are. *)
Definition modulus (bits : nat) : N := (2 ^ N.of_nat bits)%N.
Definition zmodulus (bits : nat) : Z := (2 ^ Z.of_nat bits)%Z.
Definition zvalue (bits : nat) (a : addr) : Z := Z.of_N (value bits a).

(** [int64_t]. *)
Definition is_int64 (n : Z) : Prop := (- 2 ^ 63 <= n < 2 ^ 63)%Z.
(** The nearest [int64_t]. *)
Definition saturate (n : Z) : Z := Z.max (- 2 ^ 63) (Z.min n (2 ^ 63 - 1)).

(** The addresses that programs can make: starting from zero, with any operations whose
    operands are what their types allow. *)
Inductive made (bits : nat) : addr -> Prop :=
| made_zero : made bits (assign0 bits)
| made_op o a a' : made bits a -> operands bits o -> apply bits o a = Done a' -> made bits a'
with operands (bits : nat) : aop -> Prop :=
| o_zero : operands bits AZero
| o_bytes le bs : Forall is_byte bs -> operands bits (ABytes le bs)
| o_unsigned M v : operands bits (AUnsigned M v)
| o_signed M v : 0 < M -> (- 2 ^ (8 * Z.of_nat M - 1) <= v < 2 ^ (8 * Z.of_nat M - 1))%Z -> operands bits (ASigned M v)
| o_values le sz vs : 0 < sz -> Forall (fun v => (v < 2 ^ (8 * N.of_nat sz))%N) vs -> operands bits (AValues le sz vs)
| o_inc : operands bits AInc
| o_dec : operands bits ADec
| o_add n : is_int64 n -> operands bits (AAdd n)
| o_sub n : is_int64 n -> operands bits (ASub n)
| o_mul n : operands bits (AMul n)
| o_mul_new n : operands bits (AMulNew n)
| o_not : operands bits ANot
| o_neg : operands bits ANeg
| o_and b : made bits b -> operands bits (AAnd b)
| o_or b : made bits b -> operands bits (AOr b)
| o_xor b : made bits b -> operands bits (AXor b)
| o_shl n : operands bits (AShl n)
| o_shr n : operands bits (AShr n)
| o_read o mem it : Forall is_byte mem -> operands bits (ARead o mem it).

(** What an operation computes, before reduction; [None] where nothing is promised about
    the value or it depends on more than the value. *)
Definition meaning (bits : nat) (o : aop) (x : Z) : option Z :=
  match o with
  | AZero => Some 0%Z
  | ABytes true bs => Some (Z.of_N (of_le_bytes bs))
  | ABytes false bs => Some (Z.of_N (of_le_bytes (rev bs)))
  | AUnsigned M v => Some (Z.of_N v mod 2 ^ (8 * Z.of_nat M))%Z
  | ASigned M v => Some v
  | AValues true sz vs => Some (Z.of_N (number (8 * N.of_nat sz) vs))
  | AValues false sz vs => Some (Z.of_N (number (8 * N.of_nat sz) (rev vs)))
  | AInc => Some (x + 1)%Z
  | ADec => Some (x - 1)%Z
  | AAdd n => Some (x + n)%Z
  | ASub n => Some (x - n)%Z
  | AMul n | AMulNew n => Some (x * Z.of_N n)%Z
  | ANot => Some (Z.lnot x)
  | ANeg => Some (- x)%Z
  | AAnd b => Some (Z.land x (zvalue bits b))
  | AOr b => Some (Z.lor x (zvalue bits b))
  | AXor b => Some (Z.lxor x (zvalue bits b))
  | AShl n => Some (x * 2 ^ Z.of_nat n)%Z
  | AShr n => Some (x / 2 ^ Z.of_nat n)%Z
  | ARead _ _ _ => None
  end.
