(** Model of the pseudo-random engines:
    random/engine/rot.h, random/engine/splitmix-engine.h,
    random/engine/xoroshiro-engine.h, random/engine/xoshiro-engine.h. *)
From Verif Require Import Base.
Open Scope N_scope.

(** Words of width [w] are numbers below [2^w]. *)

(** [x << k] on an unsigned type of width [w] (0 <= k < w). *)
Definition shl (w x k : N) : N := wrap w (N.shiftl x k).

(** random/detail/rot.h 29-39: [(n << k) | (n >> (digits - k))]. *)
Definition rotl (w x k : N) : N := N.lor (shl w x k) (N.shiftr x (w - k)).

(** Product on an unsigned type of width [w]. *)
Definition mulw (w x y : N) : N := wrap w (x * y).

(** ** splitmix-engine.h *)

(** splitmix-engine.h 62-68, first statement: [t = (s_ += x)]. *)
Definition sm_next (w x s : N) : N := wrap w (s + x).

(** splitmix-engine.h 62-68, the remaining statements: the value returned from
    the already advanced state [t]. *)
Definition sm_out (w a b c y z t : N) : N :=
  let t1 := mulw w (N.lxor t (N.shiftr t a)) y in
  let t2 := mulw w (N.lxor t1 (N.shiftr t1 b)) z in
  N.lxor t2 (N.shiftr t2 c).

(** splitmix-engine.h 113-116: [splitmix64].  Its state is the single word
    [s_] (line 90); [seed] stores the value (57-60). *)
Definition sm_x : N := 0x9e3779b97f4a7c15.
Definition sm_y : N := 0xbf58476d1ce4e5b9.
Definition sm_z : N := 0x94d049bb133111eb.

(** splitmix-engine.h 62-68, [splitmix64::operator()]: returned value and new
    state. *)
Definition sm64_draw (s : N) : N * N :=
  let t := sm_next 64 sm_x s in (sm_out 64 30 27 31 sm_y sm_z t, t).

(** ** Engines *)

(** xoroshiro-engine.h 40-56 and xoshiro-engine.h 243-245: the registers [s_] and, for
    xoroshiro with more than two registers, the index [p_].  Simplification:
    engines without [p_] carry a dummy index. *)
Record rng := mkRng { r_s : list N; r_p : nat }.

(** Array read [s_[i]]; indices are always in range here. *)
Definition reg (s : list N) (i : nat) : N := nth i s 0.

(** Array write [s_[i] = v]. *)
Fixpoint set_reg (s : list N) (i : nat) (v : N) {struct s} : list N :=
  match s, i with
  | [], _ => []
  | _ :: t, O => v :: t
  | x :: t, S k => x :: set_reg t k v
  end.

(** Scramblers.
    xoroshiro-engine.h 102-139 (n == 2) and xoshiro-engine.h 122-159: the
    operands are the registers with the given constant indices. *)
Inductive scrambler : Set :=
| SPlus (i j : nat)
| SStar (i : nat) (s : N)
| SStarStar (i : nat) (s r t : N).

(** The computation of a scrambler; [f] maps a template index to a register
    number. *)
Definition scramble_at (w : N) (sc : scrambler) (f : nat -> nat) (s : list N) : N :=
  match sc with
  | SPlus i j => wrap w (reg s (f i) + reg s (f j))
  | SStar i m => mulw w (reg s (f i)) m
  | SStarStar i m r t => mulw w (rotl w (mulw w (reg s (f i)) m) r) t
  end.

(** The kinds of engines: the two-register and the n-register xoroshiro
    transforms with their constants, the 4 and 8 register xoshiro ones. *)
Inductive family : Set :=
| Xoroshiro2 (a b c : N)
| XoroshiroN (n : nat) (a b c : N)
| Xoshiro4 (a b : N)
| Xoshiro8 (a b : N).

Record engine := mkEngine { e_w : N; e_fam : family; e_scr : scrambler }.

(** Template parameter [n]. *)
Definition state_size (f : family) : nat :=
  match f with
  | Xoroshiro2 _ _ _ => 2
  | XoroshiroN n _ _ _ => n
  | Xoshiro4 _ _ => 4
  | Xoshiro8 _ _ => 8
  end.

(** [x & (n-1)] for a power of two [n]. *)
Definition and_mask (x n : nat) : nat :=
  N.to_nat (N.land (N.of_nat x) (N.of_nat n - 1)).

(** xoroshiro-engine.h 58-101: for n >= 4 the register number of template
    index [i] is [(p_ + ((i+1) & (n-1))) & (n-1)]; otherwise it is [i]. *)
Definition scr_index (f : family) (p i : nat) : nat :=
  match f with
  | XoroshiroN n _ _ _ => and_mask (p + and_mask (i + 1) n) n
  | _ => i
  end.

(** [Scrambler::scramble(s_)]. *)
Definition scramble (e : engine) (st : rng) : N :=
  scramble_at (e_w e) (e_scr e) (scr_index (e_fam e) (r_p st)) (r_s st).

(** xoroshiro-engine.h 207-214. *)
Definition xoroshiro2_transform (w a b c : N) (s : list N) : list N :=
  let s0 := reg s 0 in
  let s1 := reg s 1 in
  let s1 := N.lxor s1 s0 in
  let s := set_reg s 0 (N.lxor (N.lxor (rotl w s0 a) s1) (shl w s1 b)) in
  set_reg s 1 (rotl w s1 c).

(** xoroshiro-engine.h 184-195.  [p] is a local variable there: [s_.p_] keeps
    its value. *)
Definition xoroshiroN_transform (w : N) (n : nat) (a b c : N) (st : rng) : rng :=
  let q := r_p st in
  let p := and_mask (r_p st + 1) n in
  let s := r_s st in
  let s0 := reg s p in
  let s1 := reg s q in
  let s1 := N.lxor s1 s0 in
  let s := set_reg s q (N.lxor (N.lxor (rotl w s0 a) s1) (shl w s1 b)) in
  let s := set_reg s p (rotl w s1 c) in
  mkRng s (r_p st).

(** [s[i] ^= s[j]]. *)
Definition xor_reg (s : list N) (i j : nat) : list N :=
  set_reg s i (N.lxor (reg s i) (reg s j)).

(** xoshiro-engine.h 69-84. *)
Definition xoshiro4_transform (w a b : N) (s : list N) : list N :=
  let t := shl w (reg s 1) a in
  let s := xor_reg s 2 0 in
  let s := xor_reg s 3 1 in
  let s := xor_reg s 1 2 in
  let s := xor_reg s 0 3 in
  let s := set_reg s 2 (N.lxor (reg s 2) t) in
  set_reg s 3 (rotl w (reg s 3) b).

(** xoshiro-engine.h 96-117. *)
Definition xoshiro8_transform (w a b : N) (s : list N) : list N :=
  let t := shl w (reg s 1) a in
  let s := xor_reg s 2 0 in
  let s := xor_reg s 5 1 in
  let s := xor_reg s 1 2 in
  let s := xor_reg s 7 3 in
  let s := xor_reg s 3 4 in
  let s := xor_reg s 4 5 in
  let s := xor_reg s 0 6 in
  let s := xor_reg s 6 7 in
  let s := set_reg s 6 (N.lxor (reg s 6) t) in
  set_reg s 7 (rotl w (reg s 7) b).

(** [transform()]. *)
Definition transform (e : engine) (st : rng) : rng :=
  match e_fam e with
  | Xoroshiro2 a b c => mkRng (xoroshiro2_transform (e_w e) a b c (r_s st)) (r_p st)
  | XoroshiroN n a b c => xoroshiroN_transform (e_w e) n a b c st
  | Xoshiro4 a b => mkRng (xoshiro4_transform (e_w e) a b (r_s st)) (r_p st)
  | Xoshiro8 a b => mkRng (xoshiro8_transform (e_w e) a b (r_s st)) (r_p st)
  end.

(** xoroshiro-engine.h 233-238 and xoshiro-engine.h 218-223, [operator()]:
    scramble, then transform. *)
Definition draw (e : engine) (st : rng) : N * rng :=
  (scramble e st, transform e st).

(** xoroshiro-engine.h 240-246 and xoshiro-engine.h 225-231, [discard(z)]: the
    loop [for (i = 0; i < z; ++i)] around [operator()]. *)
Fixpoint discard (e : engine) (z : nat) (st : rng) : rng :=
  match z with
  | O => st
  | S k => discard e k (snd (draw e st))
  end.

(** Filling loop of [seed]: [n] draws of splitmix64, each cast to the word
    type (xoroshiro-engine.h 198-205, xoshiro-engine.h 208-215). *)
Fixpoint sm_fill (w : N) (n : nat) (s : N) : list N :=
  match n with
  | O => []
  | S k => let '(v, s') := sm64_draw s in wrap w v :: sm_fill w k s'
  end.

(** [seed(value)]: xoroshiro-engine.h 176-182 (also sets [p_ = n - 1]) and
    198-205, xoshiro-engine.h 208-215.  The argument of [splitmix64] is the
    value converted to 64 bits. *)
Definition seed (e : engine) (v : N) : rng :=
  mkRng (sm_fill (e_w e) (state_size (e_fam e)) v) (state_size (e_fam e) - 1).

(** xoroshiro-engine.h 285-411. *)
Definition xoroshiro64star := mkEngine 32 (Xoroshiro2 26 9 13) (SStar 0 0x9e3779bb).
Definition xoroshiro64starstar := mkEngine 32 (Xoroshiro2 26 9 13) (SStarStar 0 0x9e3779bb 5 5).
Definition xoroshiro128plus := mkEngine 64 (Xoroshiro2 24 16 37) (SPlus 0 1).
Definition xoroshiro128starstar := mkEngine 64 (Xoroshiro2 24 16 37) (SStarStar 0 5 7 9).
Definition xoroshiro1024plus := mkEngine 64 (XoroshiroN 16 25 27 36) (SPlus 15 0).
Definition xoroshiro1024star := mkEngine 64 (XoroshiroN 16 25 27 36) (SStar 0 0x9e3779b97f4a7c13).
Definition xoroshiro1024starstar := mkEngine 64 (XoroshiroN 16 25 27 36) (SStarStar 0 5 7 9).
(** xoshiro-engine.h 272-408. *)
Definition xoshiro128plus := mkEngine 32 (Xoshiro4 9 11) (SPlus 0 3).
Definition xoshiro128starstar := mkEngine 32 (Xoshiro4 9 11) (SStarStar 0 5 7 9).
Definition xoshiro256plus := mkEngine 64 (Xoshiro4 17 45) (SPlus 0 3).
Definition xoshiro256starstar := mkEngine 64 (Xoshiro4 17 45) (SStarStar 1 5 7 9).
Definition xoshiro512plus := mkEngine 64 (Xoshiro8 11 21) (SPlus 0 2).
Definition xoshiro512starstar := mkEngine 64 (Xoshiro8 11 21) (SStarStar 1 5 7 9).

(** All the engines the library names. *)
Definition engines : list engine :=
  [xoroshiro64star; xoroshiro64starstar; xoroshiro128plus; xoroshiro128starstar;
   xoroshiro1024plus; xoroshiro1024star; xoroshiro1024starstar;
   xoshiro128plus; xoshiro128starstar; xoshiro256plus; xoshiro256starstar;
   xoshiro512plus; xoshiro512starstar].

(** ** The engines over [0,1)
    xoroshiro-engine.h 462-480 and xoshiro-engine.h 462-480,
    [uint_to_real::convert]: a real number [n * 2^-k], written as the pair
    [(n, k)].  Simplification: the conversion of [m >> 8] to [float] ([m >> 11]
    to [double]) and the product by a power of two are exact because the
    integer has at most 24 (53) bits; they are taken as exact here. *)
Definition uint_to_real (w m : N) : N * N :=
  if w =? 32 then (N.shiftr m 8, 24) else (N.shiftr m 11, 53).

(** xoroshiro-engine.h 483-486: [operator()] of the [0,1) engines. *)
Definition draw01 (e : engine) (st : rng) : (N * N) * rng :=
  let '(m, st') := draw e st in (uint_to_real (e_w e) m, st').
