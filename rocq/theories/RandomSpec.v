(** Vocabulary of the statements about the pseudo-random engines. *)
From Verif Require Import Base Random.
Open Scope N_scope.

(** A machine word of width [w]. *)
Definition is_word (w x : N) : Prop := x < 2 ^ w.

(** The states an engine object can be in: [n] words, and the index of the
    last register as the constructor leaves it. *)
Definition rng_ok (e : engine) (st : rng) : Prop :=
  length (r_s st) = state_size (e_fam e) /\
  Forall (is_word (e_w e)) (r_s st) /\
  r_p st = (state_size (e_fam e) - 1)%nat.

(** Some register is not zero. *)
Definition nonzero (st : rng) : Prop := exists x, In x (r_s st) /\ x <> 0.

(** The state after [k] draws. *)
Fixpoint after (e : engine) (k : nat) (st : rng) : rng :=
  match k with
  | O => st
  | S j => snd (draw e (after e j st))
  end.

(** The [k]-th value drawn (from 0). *)
Definition output (e : engine) (k : nat) (st : rng) : N :=
  fst (draw e (after e k st)).

(** splitmix64: the state after [k] draws and the [k]-th value. *)
Fixpoint sm_after (k : nat) (s : N) : N :=
  match k with
  | O => s
  | S j => snd (sm64_draw (sm_after j s))
  end.

Definition sm_output (k : nat) (s : N) : N := fst (sm64_draw (sm_after k s)).

(** The real number [n * 2^-k]. *)
Definition dyadic_lt_1 (v : N * N) : Prop := fst v < 2 ^ snd v.

(** ** The published algorithms
    Closed forms of the transitions of D. Blackman and S. Vigna's "Scrambled linear
    pseudorandom number generators": every new register in terms of the old ones. *)

(** [y] is [x] rotated to the left by [k] bits. *)
Definition is_rotation (w k x y : N) : Prop :=
  is_word w y /\ forall i, i < w -> N.testbit y i = N.testbit x ((i + w - k) mod w).

Definition xoroshiro128_next (w a b c : N) (s : list N) : list N :=
  match s with
  | [s0; s1] =>
      let x := N.lxor s1 s0 in
      [N.lxor (rotl w s0 a) (N.lxor x (shl w x b)); rotl w x c]
  | _ => []
  end.
Definition xoshiro256_next (w a b : N) (s : list N) : list N :=
  match s with
  | [s0; s1; s2; s3] =>
      [N.lxor s0 (N.lxor s3 s1); N.lxor s1 (N.lxor s2 s0);
       N.lxor (N.lxor s2 s0) (shl w s1 a); rotl w (N.lxor s3 s1) b]
  | _ => []
  end.
Definition xoshiro512_next (w a b : N) (s : list N) : list N :=
  match s with
  | [s0; s1; s2; s3; s4; s5; s6; s7] =>
      [N.lxor s0 s6; N.lxor s1 (N.lxor s2 s0); N.lxor s2 s0; N.lxor s3 s4;
       N.lxor s4 (N.lxor s5 s1); N.lxor s5 s1;
       N.lxor (N.lxor s6 (N.lxor s7 s3)) (shl w s1 a); rotl w (N.lxor s7 s3) b]
  | _ => []
  end.

(** The scramblers, on register values. *)
Definition plus (w x y : N) : N := (x + y) mod 2 ^ w.
Definition star (w k x : N) : N := (x * k) mod 2 ^ w.
Definition star_star (w k r t x : N) : N := star w t (rotl w (star w k x) r).

(** The engines with their published width, output and transition. *)
Definition published : list (engine * (list N -> N) * (list N -> list N)) :=
  [(xoroshiro64star, fun s => star 32 0x9e3779bb (nth 0 s 0), xoroshiro128_next 32 26 9 13);
   (xoroshiro64starstar, fun s => star_star 32 0x9e3779bb 5 5 (nth 0 s 0), xoroshiro128_next 32 26 9 13);
   (xoroshiro128plus, fun s => plus 64 (nth 0 s 0) (nth 1 s 0), xoroshiro128_next 64 24 16 37);
   (xoroshiro128starstar, fun s => star_star 64 5 7 9 (nth 0 s 0), xoroshiro128_next 64 24 16 37);
   (xoshiro128plus, fun s => plus 32 (nth 0 s 0) (nth 3 s 0), xoshiro256_next 32 9 11);
   (xoshiro128starstar, fun s => star_star 32 5 7 9 (nth 0 s 0), xoshiro256_next 32 9 11);
   (xoshiro256plus, fun s => plus 64 (nth 0 s 0) (nth 3 s 0), xoshiro256_next 64 17 45);
   (xoshiro256starstar, fun s => star_star 64 5 7 9 (nth 1 s 0), xoshiro256_next 64 17 45);
   (xoshiro512plus, fun s => plus 64 (nth 0 s 0) (nth 2 s 0), xoshiro512_next 64 11 21);
   (xoshiro512starstar, fun s => star_star 64 5 7 9 (nth 1 s 0), xoshiro512_next 64 11 21)].
