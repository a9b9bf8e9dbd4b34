(** Vocabulary of the statements about periods. *)
From Verif Require Import Base Random RandomSpec.
Open Scope N_scope.

(** The number of values the registers of an engine can hold together. *)
Definition number_of_states (e : engine) : N := 2 ^ (e_w e * N.of_nat (state_size (e_fam e))).

(** How many of the draws number 0, ..., [m - 1] from [st] satisfy [p]. *)
Definition occurrences (p : N -> bool) (e : engine) (m : N) (st : rng) : N :=
  N.of_nat (length (filter (fun k => p (output e k st)) (seq 0 (N.to_nat m)))).

(** The engines whose period is stated: all but xoshiro512 and xoroshiro1024. *)
Definition full_period_engines : list engine :=
  [xoroshiro64star; xoroshiro64starstar; xoroshiro128plus; xoroshiro128starstar;
   xoshiro128plus; xoshiro128starstar; xoshiro256plus; xoshiro256starstar].

(** The [k]-th number drawn by the engine over the unit interval: a fraction [(a, b)] that
    stands for [a / 2^b]. *)
Definition output01 (e : engine) (k : nat) (st : rng) : N * N := fst (draw01 e (after e k st)).

Definition occurrences01 (a : N) (e : engine) (m : N) (st : rng) : N :=
  N.of_nat (length (filter (fun k => fst (output01 e k st) =? a) (seq 0 (N.to_nat m)))).
