(** Vocabulary of the statements about distributions given by tables. *)
From Coq Require Import QArith Sorting.Sorted.
From Verif Require Import Base Table.
Open Scope Q_scope.

(** What a client does: weights are added one after another; an interval is an
    upper bound and a weight; a point is a bound and a weight. *)
Fixpoint d_build (l : list Q) (p : list Q) : outcome (list Q) :=
  match l with [] => Done p | w :: r => let! p := d_add w p in d_build r p end.
Fixpoint c_build_on (l : list (Q * Q)) (p : param) : outcome param :=
  match l with [] => Done p | (b, w) :: r => let! p := c_add b w p in c_build_on r p end.
Definition c_build (lower : Q) (l : list (Q * Q)) : outcome param :=
  let! p := c_lower lower no_param in c_build_on l p.
Fixpoint l_build (l : list (Q * Q)) (p : param) : outcome param :=
  match l with [] => Done p | (b, w) :: r => let! p := l_add b w p in l_build r p end.

Fixpoint qsum (l : list Q) : Q := match l with [] => 0 | x :: r => x + qsum r end.

Definition weights_ok (ws : list Q) : Prop := Forall (fun w => 0 <= w) ws.
Definition increasing (bs : list Q) : Prop := StronglySorted Qlt bs.

(** The integral of a density that is constant on each interval. *)
Fixpoint mass_constant (bs ds : list Q) : Q :=
  match bs, ds with
  | a :: ((b :: _) as r), d :: ds => d * (b - a) + mass_constant r ds
  | _, _ => 0
  end.

(** The integral of a density that is linear on each interval, given at the bounds. *)
Fixpoint mass_linear (bs ds : list Q) : Q :=
  match bs, ds with
  | a :: ((b :: _) as r), d :: ((e :: _) as s) => (d + e) / 2 * (b - a) + mass_linear r s
  | _, _ => 0
  end.
