(** Model of [Summary] (statistics/summary/summary.h).

    The arithmetic is a parameter, so that the same code runs on real numbers and on
    IEEE 754 binary64.  Each operation of the code is one operation of the arithmetic:
    no fused multiply-add, no extended precision. *)
From Coq Require Import List Reals.
From Flocq Require Import IEEE754.BinarySingleNaN Core.
Import ListNotations.

(** The operations the code uses. *)
Record arith := mk_arith {
  num : Type;
  zero : num; one : num; two : num; minus_two : num; nan : num;
  add : num -> num -> num; sub : num -> num -> num; mul : num -> num -> num; div : num -> num -> num;
  root : num -> num;
  ltb : num -> num -> bool; eqb : num -> num -> bool
}.

Section Summary.
Context (A : arith).

(** summary.h:81-85: the data members. *)
Record summary := mk_summary {
  sm_min : num A; sm_max : num A; sm_count : num A; sm_sum : num A; sm_sqr : num A
}.

(** summary.h:92-101, the constructor, and 158-165 [Reset]. *)
Definition sm_init : summary := mk_summary (nan A) (nan A) (zero A) (zero A) (zero A).

(** summary.h:167-188 [OnProbe]. *)
Definition on_probe (s : summary) (data : num A) : summary :=
  let first := eqb A (sm_count s) (zero A) in
  mk_summary
    (if first then data else if ltb A data (sm_min s) then data else sm_min s)
    (if first then data else if ltb A (sm_max s) data then data else sm_max s)
    (add A (sm_count s) (one A))
    (add A (sm_sum s) data)
    (add A (sm_sqr s) (mul A data data)).

(** summary.h:107-125 [Min], [Max], [Count], [Sum]. *)
Definition get_min (s : summary) : num A := sm_min s.
Definition get_max (s : summary) : num A := sm_max s.
Definition get_count (s : summary) : num A := sm_count s.
Definition get_sum (s : summary) : num A := sm_sum s.

(** summary.h:127-139 [Mean]. *)
Definition get_mean (s : summary) : num A :=
  if eqb A (sm_count s) (zero A) then nan A else div A (sm_sum s) (sm_count s).

(** summary.h:141-156 [Stddev]. *)
Definition get_stddev (s : summary) : num A :=
  if ltb A (sm_count s) (two A) then nan A
  else
    let mean := div A (sm_sum s) (sm_count s) in
    let dev :=
      div A (add A (sm_sqr s)
                   (mul A (add A (mul A (minus_two A) (sm_sum s)) (mul A (sm_count s) mean)) mean))
            (sub A (sm_count s) (one A)) in
    root A dev.

(** What happens to a summary: a sample arrives, or [Reset()]. *)
Inductive sm_op := Sample (x : num A) | ResetAll.
Definition sm_step (s : summary) (o : sm_op) : summary :=
  match o with Sample x => on_probe s x | ResetAll => sm_init end.
Definition sm_run (l : list sm_op) : summary := fold_left sm_step l sm_init.

End Summary.
Arguments Sample {A} x.
Arguments ResetAll {A}.

(** ** The two arithmetics *)

(** Real numbers and NaN ([None]).  Division by zero and roots of negative numbers give
    NaN. *)
Definition lift2 {X} (f : R -> R -> X) (d : X) (a b : option R) : X :=
  match a, b with Some x, Some y => f x y | _, _ => d end.
Definition exact : arith := mk_arith (option R)
  (Some 0%R) (Some 1%R) (Some 2%R) (Some (-2)%R) None
  (lift2 (fun x y => Some (x + y)%R) None) (lift2 (fun x y => Some (x - y)%R) None)
  (lift2 (fun x y => Some (x * y)%R) None)
  (lift2 (fun x y => if Req_bool y 0 then None else Some (x / y)%R) None)
  (fun a => match a with Some x => if Rlt_bool x 0 then None else Some (sqrt x) | None => None end)
  (lift2 Rlt_bool false) (lift2 Req_bool false).

(** IEEE 754 binary64, rounding to nearest, ties to even; all NaNs are one. *)
Definition double := binary_float 53 1024.
Definition prec_pos : FLX.Prec_gt_0 53 := eq_refl.
Definition emax_big : Prec_lt_emax 53 1024 := eq_refl.
Definition of_int (z : Z) : double := binary_normalize 53 1024 prec_pos emax_big mode_NE z 0 false.
Definition ieee : arith := mk_arith double
  (B754_zero false) (of_int 1) (of_int 2) (of_int (-2)) B754_nan
  (@Bplus 53 1024 prec_pos emax_big mode_NE) (@Bminus 53 1024 prec_pos emax_big mode_NE)
  (@Bmult 53 1024 prec_pos emax_big mode_NE) (@Bdiv 53 1024 prec_pos emax_big mode_NE)
  (@Bsqrt 53 1024 prec_pos emax_big mode_NE)
  (@Bltb 53 1024) (@Beqb 53 1024).
