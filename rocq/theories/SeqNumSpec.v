(** Specification of sequence number order by forward distance. *)
From Verif Require Import Base.
Local Open Scope N_scope.

(** The number of increments leading from [a] to [b] in a circle of [m] values. *)
Definition distance (m a b : N) : N := (b + m - a) mod m.

(** Serial number order on a circle of [2^bits] values: [b] is ahead of [a] by
    less than half the circle; at exactly half the circle the numerically larger
    value counts as the smaller one. *)
Definition serial_lt (bits a b : N) : Prop :=
  let d := distance (2 ^ bits) a b in
  (0 < d /\ 2 * d < 2 ^ bits) \/ (2 * d = 2 ^ bits /\ b < a).
