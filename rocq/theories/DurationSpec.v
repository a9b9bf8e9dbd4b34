(** Vocabulary of the statements about durations. *)
From Verif Require Import Base Duration.
Open Scope Z_scope.

(** The resolutions the documentation allows: non-positive powers of ten of a
    second, as small as [atto] (duration.h 398-401, 407-409). *)
Definition resolution (den : Z) : Prop := exists k, 0 <= k <= 18 /\ den = 10 ^ k.

(** The values of [count_t]. *)
Definition is_count (c : Z) : Prop := - 2 ^ 63 <= c < 2 ^ 63.

(** The time represented by a count [c] of periods of [1/d] second is the
    rational number [c/d].  Comparisons and sums are written by cross
    multiplication. *)
Definition time_lt (d1 c1 d2 c2 : Z) : Prop := c1 * d2 < c2 * d1.
Definition time_le (d1 c1 d2 c2 : Z) : Prop := c1 * d2 <= c2 * d1.
Definition time_eq (d1 c1 d2 c2 : Z) : Prop := c1 * d2 = c2 * d1.

(** The time [c/d] written with a finer denominator [D] (a multiple of [d]). *)
Definition ticks (d c D : Z) : Z := c * (D / d).

(** Yoctoseconds in one day, hour, minute, second, ... *)
Definition unit_yocto : list Z :=
  [86400 * 10 ^ 24; 3600 * 10 ^ 24; 60 * 10 ^ 24; 10 ^ 24;
   10 ^ 21; 10 ^ 18; 10 ^ 15; 10 ^ 12; 10 ^ 9; 10 ^ 6; 10 ^ 3; 1].

Fixpoint weighted (ws xs : list Z) : Z :=
  match ws, xs with
  | w :: wt, x :: xt => w * x + weighted wt xt
  | _, _ => 0
  end.

(** hours below 24, minutes and seconds below 60, the rest below 1000; days are
    not bounded. *)
Definition unit_limit : list Z := [24; 60; 60; 1000; 1000; 1000; 1000; 1000; 1000; 1000; 1000].
