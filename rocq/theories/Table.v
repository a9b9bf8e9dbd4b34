(** Model of the distributions that are given by tables: discrete, piecewise
    constant and piecewise linear (random/distribution/).

    Numbers of type [double] are rationals: no rounding, no infinities; [None]
    stands for NaN.  Drawing numbers is in Generator.v; here are the parameter
    objects and what the distributions say of themselves.  A distribution holds
    copies, made by its constructor; the parameter is not kept. *)
From Coq Require Import QArith.
From Verif Require Import Base.
Open Scope Q_scope.

(** [std::numeric_limits<uint32_t>::max()]. *)
Definition max_size : N := 4294967295.

(** [v.size() < max]: i-discrete-distribution.h 70, i-piecewise-constant-distribution.h 78,
    i-piecewise-linear-distribution.h 70. *)
Definition has_room (l : list Q) : bool := (N.of_nat (length l) <? max_size)%N.

Definition Qlt_bool (a b : Q) : bool := negb (Qle_bool b a).

(** An element of a vector, after an assertion on the index:
    i-discrete-distribution.h 74-78, i-piecewise-constant-distribution.h 85-95,
    i-piecewise-linear-distribution.h 80-90, std-discrete-distribution.h 169-173. *)
Definition get {A} (l : list A) (i : nat) : outcome A :=
  match nth_error l i with Some x => Done x | None => AssertFail end.

(** What boost reads through a pair of iterators that call a getter
    (std-discrete-distribution.h 68-129, std-piecewise-constant-distribution.h 52-175,
    std-piecewise-linear-distribution.h 52-175): the elements from [i], [n] of them. *)
Fixpoint read_range (f : nat -> outcome Q) (i n : nat) : outcome (list Q) :=
  match n with
  | O => Done []
  | S m => let! x := f i in let! r := read_range f (S i) m in Done (x :: r)
  end.

(** ** Boost.Random, as its documentation describes it *)

Definition total (l : list Q) : Q := fold_right Qplus 0 l.

(** Division of doubles that are not negative: 0/0 is NaN.  (No divisor is 0 for
    another dividend here.) *)
Definition divide (a b : Q) : option Q := if Qeq_bool b 0 then None else Some (a / b).

Definition widths (bs : list Q) : list Q :=
  map (fun p => snd p - fst p) (combine bs (tl bs)).
(** The areas under the segments of a line through the points. *)
Definition areas (bs ws : list Q) : list Q :=
  map (fun p => fst p * (fst (snd p) + snd (snd p)) / 2)
    (combine (widths bs) (combine ws (tl ws))).

(** [discrete_distribution(first, last)] and [probabilities()]: no weights are
    the default, a single value. *)
Definition boost_discrete (ws : list Q) : list (option Q) :=
  match ws with
  | [] => [Some 1]
  | _ => map (fun w => divide w (total ws)) ws
  end.

(** [piecewise_constant_distribution(first, last, weights)], [intervals()] and
    [densities()]: fewer than two bounds are the default, [0, 1). *)
Definition boost_constant (bs ws : list Q) : list Q * list (option Q) :=
  match bs with
  | _ :: _ :: _ =>
      (bs, map (fun p => match divide (fst p) (total ws) with
                         | Some q => Some (q / snd p) | None => None end)
             (combine ws (widths bs)))
  | _ => ([0; 1], [Some 1])
  end.

(** [piecewise_linear_distribution(first, last, weights)], [intervals()] and
    [densities()]. *)
Definition boost_linear (bs ws : list Q) : list Q * list (option Q) :=
  match bs with
  | _ :: _ :: _ => (bs, map (fun w => divide w (total (areas bs ws))) ws)
  | _ => ([0; 1], [Some 1; Some 1])
  end.

(** ** Discrete *)

(** i-discrete-distribution.h 67-72, [AddWeight]; the parameter is its weights
    (line 86). *)
Definition d_add (w : Q) (ws : list Q) : outcome (list Q) :=
  if negb (Qle_bool 0 w) then AssertFail
  else if negb (has_room ws) then AssertFail
  else Done (ws ++ [w]).

(** std-discrete-distribution.h 132-140, the constructor, for a parameter that
    is not null: the probabilities. *)
Definition d_make (ws : list Q) : outcome (list (option Q)) :=
  let! l := read_range (get ws) 0 (length ws) in Done (boost_discrete l).

(** std-discrete-distribution.h 154-167, [GetMinValue], [GetMaxValue],
    [GetNumValues]. *)
Definition d_min (d : list (option Q)) : nat := 0.
Definition d_max (d : list (option Q)) : nat := length d - 1.
Definition d_num (d : list (option Q)) : nat := length d.

(** ** Piecewise constant and linear *)

(** The parameter: i-piecewise-constant-distribution.h 103-104,
    i-piecewise-linear-distribution.h 98-99. *)
Record param : Type := mk_param { p_bounds : list Q; p_weights : list Q }.
Definition no_param : param := mk_param [] [].

(** i-piecewise-constant-distribution.h 69-73, [SetLowerBound]. *)
Definition c_lower (b : Q) (p : param) : outcome param :=
  match p_bounds p with
  | [] => Done (mk_param [b] (p_weights p))
  | _ => AssertFail
  end.

(** i-piecewise-constant-distribution.h 75-83, [AddInterval]. *)
Definition c_add (b w : Q) (p : param) : outcome param :=
  match p_bounds p with
  | [] => AssertFail
  | x :: r =>
      if negb (has_room (p_bounds p)) then AssertFail
      else if negb (Qlt_bool (last r x) b) then AssertFail
      else if negb (Qle_bool 0 w) then AssertFail
      else Done (mk_param (p_bounds p ++ [b]) (p_weights p ++ [w]))
  end.

(** i-piecewise-linear-distribution.h 68-78, [AddBound]. *)
Definition l_add (b w : Q) (p : param) : outcome param :=
  if negb (has_room (p_bounds p)) then AssertFail
  else if match p_bounds p with [] => false | x :: r => negb (Qlt_bool (last r x) b) end
  then AssertFail
  else if negb (Qle_bool 0 w) then AssertFail
  else Done (mk_param (p_bounds p ++ [b]) (p_weights p ++ [w])).

(** What a distribution stores: [intervals_] and [densities_]
    (std-piecewise-constant-distribution.h 236-237, the same in the linear one). *)
Record dist : Type := mk_dist { t_bounds : list Q; t_densities : list (option Q) }.

(** The constructors: std-piecewise-constant-distribution.h 178-188 and
    std-piecewise-linear-distribution.h 178-188.  Boost reads as many weights as
    it needs: one per interval, one per bound. *)
Definition c_make (p : param) : outcome dist :=
  let n := length (p_weights p) in
  let! bs := read_range (get (p_bounds p)) 0 (n + 1) in
  let! ws := read_range (get (p_weights p)) 0 n in
  let (i, d) := boost_constant bs ws in Done (mk_dist i d).
Definition l_make (p : param) : outcome dist :=
  let n := length (p_bounds p) in
  let! bs := read_range (get (p_bounds p)) 0 n in
  let! ws := read_range (get (p_weights p)) 0 n in
  let (i, d) := boost_linear bs ws in Done (mk_dist i d).

(** [GetMinValue], [GetMaxValue] (boost: first and last bound), [GetNumIntervals]:
    std-piecewise-constant-distribution.h 202-215,
    std-piecewise-linear-distribution.h 202-215. *)
Definition t_min (d : dist) : Q := hd 0 (t_bounds d).
Definition t_max (d : dist) : Q := last (t_bounds d) 0.
Definition c_intervals (d : dist) : nat := length (t_densities d).
Definition l_intervals (d : dist) : nat := length (t_bounds d) - 1.
