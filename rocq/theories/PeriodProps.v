(** Property C83: periods of the pseudo-random engines
    (random/pseudo-random-generator.h 625-740, random/engine/xoshiro-engine.h,
    random/engine/xoroshiro-engine.h). *)
From Verif Require Import Base Random RandomSpec RandomProofs PeriodSpec PeriodEngines RandomProps.
Open Scope N_scope.

(** ** C83 *)

(** The documented periods: an engine is back in its state after [k] draws exactly when [k] is
    a multiple of [2^bits - 1]; in particular not before [2^bits - 1] draws. *)
Theorem C83_period : forall e st k, In e full_period_engines -> rng_ok e st -> nonzero st ->
  (after e k st = st <-> (number_of_states e - 1 | N.of_nat k)).
Proof. intros e st k He. apply engines_period, He. Qed.
Print Assumptions C83_period.

(** The documented numbers. *)
Example C83_documented :
  number_of_states xoshiro256plus - 1 = 2 ^ 256 - 1 /\
  number_of_states xoshiro256starstar - 1 = 2 ^ 256 - 1 /\
  number_of_states xoshiro128plus - 1 = 2 ^ 128 - 1 /\
  number_of_states xoshiro128starstar - 1 = 2 ^ 128 - 1.
Proof. repeat split. Qed.

(** Every state but the one of zeroes is met within a period, from whichever state. *)
Theorem C83_visits_all : forall e st st', In e full_period_engines ->
  rng_ok e st -> nonzero st -> rng_ok e st' -> nonzero st' ->
  exists k, N.of_nat k < number_of_states e - 1 /\ after e k st = st'.
Proof. exact visits_all. Qed.
Print Assumptions C83_visits_all.

(** Within a period each word is drawn equally often, zero one time less. *)
Theorem C83_equidistributed : forall e st v, In e full_period_engines -> rng_ok e st -> nonzero st ->
  v < 2 ^ e_w e ->
  occurrences (fun x => x =? v) e (number_of_states e - 1) st =
  2 ^ (e_w e * N.of_nat (state_size (e_fam e) - 1)) - (if v =? 0 then 1 else 0).
Proof. exact equidistributed. Qed.
Print Assumptions C83_equidistributed.

(** The sequence of numbers drawn has the same least period, and so has the sequence of any
    one bit of them; each bit is set in half of the numbers. *)
Theorem C83_output_period : forall e st d, In e full_period_engines -> rng_ok e st -> nonzero st ->
  ((forall k, output e (k + d) st = output e k st) <-> (number_of_states e - 1 | N.of_nat d)).
Proof. exact output_period. Qed.
Print Assumptions C83_output_period.

Theorem C83_bit_period : forall e st d b, In e full_period_engines -> rng_ok e st -> nonzero st ->
  b < e_w e ->
  ((forall k, N.testbit (output e (k + d) st) b = N.testbit (output e k st) b) <->
   (number_of_states e - 1 | N.of_nat d)).
Proof. exact bit_period. Qed.
Print Assumptions C83_bit_period.

Theorem C83_bit_balanced : forall e st b, In e full_period_engines -> rng_ok e st -> nonzero st ->
  b < e_w e ->
  2 * occurrences (fun v => N.testbit v b) e (number_of_states e - 1) st = number_of_states e.
Proof. exact bit_occurrences. Qed.
Print Assumptions C83_bit_balanced.

(** Over the unit interval: each of the numbers [a / 2^24] (32-bit words) or [a / 2^53] (64-bit
    words) is drawn equally often, zero one time less, and the sequence has the same least
    period. *)
Theorem C83_unit_interval : forall e st a, In e full_period_engines -> rng_ok e st -> nonzero st ->
  let b := if e_w e =? 32 then 24 else 53 in
  a < 2 ^ b ->
  occurrences01 a e (number_of_states e - 1) st =
  2 ^ (e_w e * N.of_nat (state_size (e_fam e)) - b) - (if a =? 0 then 1 else 0).
Proof. exact equidistributed01. Qed.
Print Assumptions C83_unit_interval.

Theorem C83_unit_interval_period : forall e st d, In e full_period_engines -> rng_ok e st -> nonzero st ->
  ((forall k, output01 e (k + d) st = output01 e k st) <-> (number_of_states e - 1 | N.of_nat d)).
Proof. exact output01_period. Qed.
Print Assumptions C83_unit_interval_period.

(** From any seed, for the engines of 64-bit words. *)
Theorem C83_seeded : forall e v k d, In e full_period_engines -> e_w e = 64 -> v < 2 ^ 64 ->
  (after e (k + d) (seed e v) = after e k (seed e v) <-> (number_of_states e - 1 | N.of_nat d)) /\
  ((forall j, output e (j + d) (seed e v) = output e j (seed e v)) <->
   (number_of_states e - 1 | N.of_nat d)).
Proof.
  intros e v k d He Hw Hv.
  destruct (C22_seeded_nonzero e v 0 (full_engines e He) Hw Hv) as [A B]. cbn [after] in A, B.
  destruct (C22_seeded_nonzero e v k (full_engines e He) Hw Hv) as [A' B'].
  split; [|apply C83_output_period; assumption].
  rewrite Nat.add_comm, PeriodCount.after_add. apply C83_period; assumption.
Qed.
Print Assumptions C83_seeded.

(** The hypotheses are met. *)
Example C83_ex : In xoshiro256starstar full_period_engines /\
  rng_ok xoshiro256starstar ex_state /\ nonzero ex_state /\
  ~ (number_of_states xoshiro256starstar - 1 | 1000000) /\
  number_of_states xoroshiro64star - 1 = 18446744073709551615.
Proof.
  split; [cbn [In full_period_engines]; tauto|]. destruct ex_state_ok as [A B].
  split; [exact A|]. split; [exact B|]. split; [|reflexivity].
  intros H. apply N.divide_pos_le in H; [|reflexivity]. apply H. reflexivity.
Qed.
Example C83_seeded_ex : In xoroshiro128plus full_period_engines /\ e_w xoroshiro128plus = 64 /\
  map (fun k => output xoroshiro128plus k (seed xoroshiro128plus 1)) [0; 1]%nat =
  [5761717516557699368; 17634798045334848584].
Proof. split; [cbn [In full_period_engines]; tauto|]. split; [reflexivity|]. vm_compute. reflexivity. Qed.
