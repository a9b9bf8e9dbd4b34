(** Properties C20-C25 and C67: pseudo-random engines. *)
From Verif Require Import Base Random RandomSpec RandomProofs.
Open Scope N_scope.

(** ** C20 *)

(** The state returns exactly every 2^64 draws, visits every 64-bit value, and
    two outputs of one stream are equal only a multiple of 2^64 draws apart;
    every 64-bit value is output within one period. *)
Theorem C20_splitmix_full_period : forall s i j, s < 2 ^ 64 ->
  (sm_after i s = sm_after j s <-> N.of_nat i mod 2 ^ 64 = N.of_nat j mod 2 ^ 64).
Proof. exact (fun s i j H => sm_after_eq s i j H). Qed.
Print Assumptions C20_splitmix_full_period.

Theorem C20_splitmix_visits_all : forall s v, s < 2 ^ 64 -> v < 2 ^ 64 ->
  exists k, N.of_nat k < 2 ^ 64 /\ sm_after k s = v.
Proof. exact sm_visits. Qed.
Print Assumptions C20_splitmix_visits_all.

Theorem C20_splitmix_outputs_distinct : forall s i j, s < 2 ^ 64 ->
  sm_output i s = sm_output j s -> N.of_nat i mod 2 ^ 64 = N.of_nat j mod 2 ^ 64.
Proof. exact sm_output_inj. Qed.
Print Assumptions C20_splitmix_outputs_distinct.

Theorem C20_splitmix_outputs_all : forall s v, s < 2 ^ 64 -> v < 2 ^ 64 ->
  exists k, N.of_nat k < 2 ^ 64 /\ sm_output k s = v.
Proof. exact sm_output_every. Qed.
Print Assumptions C20_splitmix_outputs_all.

(** The reference values of splitmix64 seeded with 0. *)
Example C20_ex : map (fun k => sm_output k 0) [0; 1; 2]%nat =
  [0xe220a8397b1dcdaf; 0x6e789e6aa1b965f4; 0x06c45d188009454f].
Proof. vm_compute. reflexivity. Qed.

(** ** C21 *)

(** For every engine of the library: well-formed states are closed under
    drawing, drawing never merges two states, never reaches the all-zero state
    from another one, and every state recurs (the sequence of states is purely
    periodic, with a period of at most the number of states). *)
Theorem C21_transition_injective : forall e st1 st2 k, In e engines ->
  rng_ok e st1 -> rng_ok e st2 -> after e k st1 = after e k st2 -> st1 = st2.
Proof. intros e st1 st2 k He. apply after_inj, engines_consts, He. Qed.
Print Assumptions C21_transition_injective.

Theorem C21_never_reaches_zero : forall e st k, In e engines ->
  rng_ok e st -> nonzero st -> rng_ok e (after e k st) /\ nonzero (after e k st).
Proof.
  intros e st k He H Hn. apply engines_consts in He.
  exact (conj (after_ok e k st He H) (after_nonzero e k st He H Hn)).
Qed.
Print Assumptions C21_never_reaches_zero.

Theorem C21_purely_periodic : forall e st, In e engines -> rng_ok e st ->
  exists k, (0 < k)%nat /\
    N.of_nat k <= 2 ^ (e_w e * N.of_nat (state_size (e_fam e))) /\ after e k st = st.
Proof. intros e st He. apply after_cycle, engines_consts, He. Qed.
Print Assumptions C21_purely_periodic.

Definition ex_state : rng := mkRng [1; 2; 3; 4] 3.
Lemma ex_state_ok : rng_ok xoshiro256starstar ex_state /\ nonzero ex_state.
Proof.
  split.
  - repeat split. repeat constructor; reflexivity.
  - exists 1. split; [cbn; auto|discriminate].
Qed.

(** The reference stream of xoshiro256** from the state {1,2,3,4}. *)
Example C21_ex : map (fun k => output xoshiro256starstar k ex_state) [0; 1; 2; 3]%nat =
  [11520; 0; 1509978240; 1215971899390074240].
Proof. vm_compute. reflexivity. Qed.

(** ** C22 *)

Theorem C22_seeded_nonzero : forall e v k, In e engines -> e_w e = 64 -> v < 2 ^ 64 ->
  rng_ok e (after e k (seed e v)) /\ nonzero (after e k (seed e v)).
Proof.
  intros e v k He Hw Hv. apply C21_never_reaches_zero; auto.
  - apply seed_ok.
  - destruct (engines_n e He). apply seed_nonzero; auto.
Qed.
Print Assumptions C22_seeded_nonzero.

(** xoroshiro1024 only works with two of its registers (see C25); these two are
    never both zero after seeding. *)
Theorem C22_seeded_live_registers_nonzero : forall e k v,
  In e [xoroshiro1024plus; xoroshiro1024star; xoroshiro1024starstar] -> v < 2 ^ 64 ->
  reg (r_s (after e k (seed e v))) 0 <> 0 \/ reg (r_s (after e k (seed e v))) 15 <> 0.
Proof. exact x1024_ends. Qed.
Print Assumptions C22_seeded_live_registers_nonzero.

Example C22_ex : r_s (seed xoshiro256plus 1) =
  [0x910a2dec89025cc1; 0xbeeb8da1658eec67; 0xf893a2eefb32555e; 0x71c18690ee42c90b].
Proof. vm_compute. reflexivity. Qed.

(** ** C23 *)

Theorem C23_discard : forall e z k st,
  discard e z st = after e z st /\ output e k (discard e z st) = output e (z + k) st.
Proof. exact (fun e z k st => conj (discard_after e z st) (discard_output e z k st)). Qed.
Print Assumptions C23_discard.

Example C23_ex : output xoshiro256starstar 1 (discard xoshiro256starstar 2 ex_state)
  = 1215971899390074240.
Proof. vm_compute. reflexivity. Qed.

(** ** C24 *)

(** The value [n * 2^-k] returned by the [0,1) engines: [k] is 24 for 32-bit
    engines and 53 for 64-bit engines, [n < 2^k], and [n] is made of the [k]
    high bits of what the integer engine would have returned. *)
Theorem C24_unit_interval : forall e st, In e engines ->
  dyadic_lt_1 (fst (draw01 e st)) /\
  snd (fst (draw01 e st)) = (if e_w e =? 32 then 24 else 53) /\
  fst (fst (draw01 e st)) = fst (draw e st) / 2 ^ (e_w e - snd (fst (draw01 e st))).
Proof. intros e st He. apply unit_interval, engines_w, He. Qed.
Print Assumptions C24_unit_interval.

Example C24_ex :
  fst (draw01 xoshiro256starstar (after xoshiro256starstar 3 ex_state)) = (593736278999059, 53).
Proof. vm_compute. reflexivity. Qed.

(** ** C25 *)

(** Refuted: whatever the 14 registers 1..14 hold, all outputs are the same,
    and these registers never change. *)
Theorem C25_whole_state_refuted : forall e st st' k i,
  In e [xoroshiro1024plus; xoroshiro1024star; xoroshiro1024starstar] ->
  rng_ok e st -> rng_ok e st' ->
  reg (r_s st) 0 = reg (r_s st') 0 -> reg (r_s st) 15 = reg (r_s st') 15 ->
  output e k st = output e k st' /\
  ((1 <= i <= 14)%nat -> reg (r_s (after e k st)) i = reg (r_s st) i).
Proof.
  intros e st st' k i He Hst Hst' E0 E1. split.
  - apply x1024_same; auto. split; auto.
  - apply x1024_untouched; auto.
Qed.
Print Assumptions C25_whole_state_refuted.

Example C25_ex :
  let st := mkRng [5;0;0;0;0;0;0;0;0;0;0;0;0;0;0;9] 15 in
  let st' := mkRng [5;1;2;3;4;5;6;7;8;9;10;11;12;13;14;9] 15 in
  rng_ok xoroshiro1024plus st /\ rng_ok xoroshiro1024plus st' /\
  output xoroshiro1024plus 3 st = 4828071189161184266 /\
  output xoroshiro1024plus 3 st' = 4828071189161184266.
Proof.
  cbv zeta. split; [|split; [|split; vm_compute; reflexivity]].
  - split; [reflexivity|split; [|reflexivity]]. repeat constructor; reflexivity.
  - split; [reflexivity|split; [|reflexivity]]. repeat constructor; reflexivity.
Qed.

(** ** C67 *)

(** The engines with a star or starstar scrambler: the output is a permutation
    of one register, so it is equidistributed when that register is. *)
Theorem C67_star_output_is_permutation : forall e,
  In e [xoroshiro64star; xoroshiro64starstar; xoroshiro128starstar;
        xoroshiro1024star; xoroshiro1024starstar;
        xoshiro128starstar; xoshiro256starstar; xoshiro512starstar] ->
  exists i, (i < state_size (e_fam e))%nat /\
  (forall st st', rng_ok e st -> rng_ok e st' ->
     (fst (draw e st) = fst (draw e st') <-> reg (r_s st) i = reg (r_s st') i)) /\
  (forall v, v < 2 ^ e_w e -> exists st, rng_ok e st /\ fst (draw e st) = v).
Proof. exact starry_permutes. Qed.
Print Assumptions C67_star_output_is_permutation.

Example C67_ex : fst (draw xoshiro256starstar ex_state) = 11520 /\
  fst (draw xoshiro256starstar (mkRng [7; 2; 9; 0] 3)) = 11520 /\
  fst (draw xoshiro256starstar (mkRng [1; 3; 3; 4] 3)) = 17280.
Proof. vm_compute. auto. Qed.

(** ** C72 *)

(** The ten engines with two, four or eight registers draw the published function of their
    registers and go on to the published next registers. *)
Theorem C72_published : Forall (fun x => match x with (e, out, next) =>
    forall st, length (r_s st) = state_size (e_fam e) ->
    draw e st = (out (r_s st), mkRng (next (r_s st)) (r_p st)) end) published.
Proof. exact published_ok. Qed.
Print Assumptions C72_published.
(** In these formulas [rotl] is a rotation. *)
Theorem C72_rotation : forall w k x, 0 < k -> k < w -> x < 2 ^ w -> is_rotation w k x (rotl w x k).
Proof. exact rotl_rotation. Qed.
Print Assumptions C72_rotation.
Example C72_ex :
  draw xoshiro512plus (mkRng [1; 2; 3; 4; 5; 6; 7; 8] 7)
  = (4, mkRng [6; 0; 2; 1; 1; 4; 4107; 25165824] 7) /\
  rotl 8 0x93 3 = 0x9c /\ length published = 10%nat.
Proof. vm_compute. auto. Qed.

(** Seeding fills the registers with consecutive outputs of splitmix64, cut to the width. *)
Theorem C72_seed : forall e v i, (i < state_size (e_fam e))%nat ->
  length (r_s (seed e v)) = state_size (e_fam e) /\
  nth i (r_s (seed e v)) 0 = sm_output i v mod 2 ^ e_w e.
Proof. exact seed_registers. Qed.
Print Assumptions C72_seed.
Example C72_seed_ex : r_s (seed xoroshiro128plus 1) = [10451216379200822465; 13757245211066428519].
Proof. vm_compute. reflexivity. Qed.
