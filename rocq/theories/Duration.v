(** Model of chrono/duration.h and chrono/virtual-time-point.h. *)
From Verif Require Import Base.
Open Scope Z_scope.

(** [count_t] is [int64_t]. *)
Definition int64_max : Z := 9223372036854775807.
Definition int64_min : Z := -9223372036854775808.

Definition in_int64 (z : Z) : bool := (int64_min <=? z) && (z <=? int64_max).

(** Signed arithmetic: overflow is undefined behaviour. *)
Definition checked (z : Z) : outcome Z := if in_int64 z then Done z else UB.

(** [a / b] and [a % b] on [int64_t]: truncating division; division by zero and
    [INT64_MIN / -1] are undefined. *)
Definition cdiv (a b : Z) : outcome Z :=
  if b =? 0 then UB else checked (Z.quot a b).
Definition crem (a b : Z) : outcome Z :=
  if b =? 0 then UB
  else if in_int64 (Z.quot a b) then Done (Z.rem a b) else UB.

(** A resolution [Res] is [ratio<1, den>] (duration.h 419-421): it is
    represented by [den]. *)

(** [ratio_divide<ratio<1,ds>, ratio<1,dd>>::num], i.e. the numerator of [dd/ds]
    in lowest terms. *)
Definition rx_num (ds dd : Z) : Z := dd / Z.gcd ds dd.

(** duration.h 198-209, [ConvertCount(count, PrecisionUpTag)]: the destination
    is finer. *)
Definition convert_up (ds dd c : Z) : outcome Z :=
  let rx := rx_num ds dd in
  if (c <=? Z.quot int64_max rx) && (Z.quot int64_min rx <=? c)
  then checked (c * rx) else AssertFail.

(** duration.h 211-219, [ConvertCount(count, PrecisionDownTag)]. *)
Definition convert_down (ds dd c : Z) : outcome Z :=
  cdiv c (rx_num dd ds).

(** duration.h 221-229, [ConvertCount<Rs, Rd>(count)]: [ratio_greater<Rs,Rd>]
    is [1/ds > 1/dd]. *)
Definition convert (ds dd c : Z) : outcome Z :=
  if ds <? dd then convert_up ds dd c else convert_down ds dd c.

(** ** Comparison *)

(** duration.h 287-304, [Equal(lhs, rhs, LeftIsFinerTag)]; [rx] is
    [ratio_divide<Res2, Res1>::num]. *)
Definition equal_lf (d1 d2 l r : Z) : bool :=
  let rx := rx_num d2 d1 in
  if Z.quot int64_max rx <? r then false
  else if r <? Z.quot int64_min rx then false
  else l =? r * rx.

(** duration.h 320-337, [Less(lhs, rhs, LeftIsFinerTag)]. *)
Definition less_lf (d1 d2 l r : Z) : bool :=
  let rx := rx_num d2 d1 in
  if Z.quot int64_max rx <? r then false
  else if r <? Z.quot int64_min rx then true
  else l <? r * rx.

(** duration.h 353-370, [LessEqual(lhs, rhs, LeftIsFinerTag)]. *)
Definition less_equal_lf (d1 d2 l r : Z) : bool :=
  let rx := rx_num d2 d1 in
  if Z.quot int64_max rx <? r then false
  else if r <? Z.quot int64_min rx then true
  else l <=? r * rx.

(** duration.h 280-311 with the dispatch of [WhichIsFiner] (235-246): equal
    resolutions, [Res1 < Res2] (the left one is finer), otherwise. *)
Definition equal (d1 d2 l r : Z) : bool :=
  if d1 =? d2 then l =? r
  else if d2 <? d1 then equal_lf d1 d2 l r
  else equal_lf d2 d1 r l.

(** duration.h 313-344. *)
Definition less (d1 d2 l r : Z) : bool :=
  if d1 =? d2 then l <? r
  else if d2 <? d1 then less_lf d1 d2 l r
  else negb (less_equal_lf d2 d1 r l).

(** duration.h 346-377. *)
Definition less_equal (d1 d2 l r : Z) : bool :=
  if d1 =? d2 then l <=? r
  else if d2 <? d1 then less_equal_lf d1 d2 l r
  else negb (less_lf d2 d1 r l).

(** duration.h 868-918: the six operators. *)
Definition op_lt := less.
Definition op_le := less_equal.
Definition op_eq := equal.
Definition op_ne (d1 d2 l r : Z) : bool := negb (equal d1 d2 l r).
Definition op_gt (d1 d2 l r : Z) : bool := negb (less_equal d1 d2 l r).
Definition op_ge (d1 d2 l r : Z) : bool := negb (less d1 d2 l r).

(** ** Arithmetic *)

(** duration.h 382-388, [Common]: [ratio_less_equal<Res1,Res2>] chooses
    [Res1], the finer one. *)
Definition common (d1 d2 : Z) : Z := if d2 <=? d1 then d1 else d2.

(** duration.h 925-933. *)
Definition add (d1 d2 l r : Z) : outcome Z :=
  let d3 := common d1 d2 in
  let! a := convert d1 d3 l in
  let! b := convert d2 d3 r in
  checked (a + b).

(** duration.h 935-942. *)
Definition sub (d1 d2 l r : Z) : outcome Z :=
  let d3 := common d1 d2 in
  let! a := convert d1 d3 l in
  let! b := convert d2 d3 r in
  checked (a - b).

(** duration.h 944-956: [operator*]. *)
Definition scale (c n : Z) : outcome Z := checked (c * n).

(** duration.h 958-965: [Duration / Duration]. *)
Definition div_dur (d1 d2 l r : Z) : outcome Z :=
  let d3 := common d1 d2 in
  let! a := convert d1 d3 l in
  let! b := convert d2 d3 r in
  cdiv a b.

(** duration.h 967-972: [Duration / count]. *)
Definition div_count (c n : Z) : outcome Z := cdiv c n.

(** duration.h 974-981: [Duration % Duration]. *)
Definition rem_dur (d1 d2 l r : Z) : outcome Z :=
  let d3 := common d1 d2 in
  let! a := convert d1 d3 l in
  let! b := convert d2 d3 r in
  crem a b.

(** duration.h 689-692: unary minus. *)
Definition neg (c : Z) : outcome Z := checked (- c).

(** duration.h 628-660: compound assignment with a duration of another
    resolution converts the right operand to the resolution of the left one. *)
Definition add_assign (d1 d2 l r : Z) : outcome Z :=
  let! b := convert d2 d1 r in checked (l + b).
Definition sub_assign (d1 d2 l r : Z) : outcome Z :=
  let! b := convert d2 d1 r in checked (l - b).

(** ** Units and splitting *)

(** duration.h 39-43 and the [typedef]s 432-449: a unit measured in fundamental
    periods, as a ratio [num/den] in lowest terms, or a tag. *)
Inductive unit_t : Set :=
| UnitRatio (num den : Z)
| UnitOverflow
| UnitUnderflow.

(** Ratio in lowest terms. *)
Definition unit_ratio (n d : Z) : unit_t :=
  UnitRatio (n / Z.gcd n d) (d / Z.gcd n d).

(** duration.h 46-79, [MakeSmallerUnit]: a unit above one period is divided by
    the factor, otherwise the result is [UnderflowTag].  ([MakeSmallerUnit] is
    never applied to [OverflowTag].) *)
Definition smaller_unit (u : unit_t) (f : Z) : unit_t :=
  match u with
  | UnitRatio n d => if d <? n then unit_ratio n (d * f) else UnitUnderflow
  | _ => UnitUnderflow
  end.

(** duration.h 84-128, [MakeBiggerUnit]: multiply unless the product of the
    numerators (or denominators) exceeds [INT64_MAX].  ([MakeBiggerUnit] is
    never applied to [UnderflowTag].) *)
Definition bigger_unit (u : unit_t) (f : Z) : unit_t :=
  match u with
  | UnitRatio n d =>
      if (n <=? Z.quot int64_max f) && (d <=? Z.quot int64_max 1)
      then unit_ratio (n * f) d else UnitOverflow
  | _ => UnitOverflow
  end.

(** duration.h 432-449. *)
Definition unit_second (den : Z) : unit_t := UnitRatio den 1.

(** The units below a second, in order: milli, micro, nano, pico, femto, atto,
    zepto, yocto (duration.h 437-444). *)
Fixpoint small_units (n : nat) (u : unit_t) : list unit_t :=
  match n with
  | O => []
  | S k => let u' := smaller_unit u 1000 in u' :: small_units k u'
  end.

(** The units from a second up: minute, hour, day (duration.h 446-448). *)
Definition unit_minute (den : Z) := bigger_unit (unit_second den) 60.
Definition unit_hour (den : Z) := bigger_unit (unit_minute den) 60.
Definition unit_day (den : Z) := bigger_unit (unit_hour den) 24.

(** All units in the order in which [Split] uses them. *)
Definition units (den : Z) : list unit_t :=
  [unit_day den; unit_hour den; unit_minute den; unit_second den]
  ++ small_units 8 (unit_second den).

(** duration.h 171-190, [RatioDivide(x, u, v, unit)]: quotient, new [u], new
    [v].  The two assertions come first; the tags leave [u] and [v] alone. *)
Definition ratio_divide (un : unit_t) (u v : Z) : outcome (Z * Z * Z) :=
  match un with
  | UnitRatio n d =>
      if negb (0 <=? u) || negb (0 <? v) then AssertFail else
      let! du := checked (d * u) in
      let! nv := checked (n * v) in
      let! x := cdiv du nv in
      let! nvx := checked (nv * x) in
      let! u' := checked (du - nvx) in
      let! v' := checked (d * v) in
      Done (x, u', v')
  | _ => Done (0, u, v)
  end.

(** The sequence of [RatioDivide] calls of duration.h 787-800; returns the
    quotients in order and the last [u]. *)
Fixpoint divide_all (us : list unit_t) (u v : Z) : outcome (list Z * Z) :=
  match us with
  | [] => Done ([], u)
  | un :: t =>
      let! (x, u', v') := ratio_divide un u v in
      let! (xs, r) := divide_all t u' v' in
      Done (x :: xs, r)
  end.

(** duration.h 780-801, [Split]: sign, then day, hour, minute, second, milli ...
    yocto.  (The last value of the local variable [u] is returned as well, to
    be able to state that nothing is left.) *)
Definition split (den c : Z) : outcome (bool * list Z * Z) :=
  let sgn := c <? 0 in
  let! u := if sgn then checked (- c) else Done c in
  let! (xs, r) := divide_all (units den) u 1 in
  Done (sgn, xs, r).

(** ** Makers (duration.h 1084-1142) *)
Definition minutes (n : Z) : outcome Z := checked (n * 60).
Definition hours (n : Z) : outcome Z := checked (n * 3600).
Definition days (n : Z) : outcome Z := checked (n * 86400).

(** ** chrono/virtual-time-point.h *)

(** virtual-time-point.h 38-42: the resolution is 1/10 nanosecond. *)
Definition vt_den : Z := 10000000000.

(** virtual-time-point.h 240-264: a time point is the count of its duration
    since the epoch; operators delegate to [Duration] at the same resolution. *)
Definition vt_add (t d : Z) : outcome Z := add vt_den vt_den t d.
Definition vt_sub_dur (t d : Z) : outcome Z := sub vt_den vt_den t d.
Definition vt_sub (t u : Z) : outcome Z := sub vt_den vt_den t u.
(** virtual-time-point.h 200-234. *)
Definition vt_lt (t u : Z) : bool := op_lt vt_den vt_den t u.
Definition vt_le (t u : Z) : bool := op_le vt_den vt_den t u.
Definition vt_eq (t u : Z) : bool := op_eq vt_den vt_den t u.
