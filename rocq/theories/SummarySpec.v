(** Specification of summaries: the statistics of a list of real numbers, and the order of
    IEEE 754 numbers. *)
From Coq Require Import List Reals.
From Flocq Require Import IEEE754.BinarySingleNaN Core.
From Verif Require Import Summary.
Import ListNotations.

(** The samples since the last [Reset()], oldest first. *)
Definition samples {A} (l : list (sm_op A)) : list (num A) :=
  fold_left (fun xs o => match o with Sample x => xs ++ [x] | ResetAll => [] end) l [].

Local Open Scope R_scope.

Definition total (xs : list R) : R := fold_right Rplus 0 xs.
Definition size (xs : list R) : R := INR (length xs).
Definition mean (xs : list R) : R := total xs / size xs.
(** The sample variance. *)
Definition variance (xs : list R) : R := total (map (fun x => (x - mean xs) ^ 2) xs) / (size xs - 1).

Definition smallest (m : R) (xs : list R) : Prop := In m xs /\ forall x, In x xs -> m <= x.
Definition largest (m : R) (xs : list R) : Prop := In m xs /\ forall x, In x xs -> x <= m.

(** A double is a number or an infinity. *)
Definition ordered (x : double) : Prop := is_nan x = false.
(** [x <= y] of IEEE 754. *)
Definition leq (x y : double) : Prop := Bleb x y = true.
Definition holds_int (x : double) (z : Z) : Prop := is_finite x = true /\ B2R x = IZR z.
