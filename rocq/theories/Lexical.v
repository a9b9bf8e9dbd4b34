(** Model of utility/lexical-compare.h. *)
From Verif Require Import Base.
Local Open Scope Z_scope.

(** A pointer to a member, seen through what [LexicalCompare] does with it: the
    [<] and [==] of the member's type applied to that member of two objects. *)
Record member (C : Type) := mk_member { m_lt : C -> C -> bool; m_eq : C -> C -> bool }.
Arguments mk_member {C}. Arguments m_lt {C}. Arguments m_eq {C}.

(** [LexicalCompare(lhs, rhs, ptmv)], utility/lexical-compare.h 275-288. *)
Definition lexical_compare1 {C} (lhs rhs : C) (p : member C) : Z :=
  if m_lt p lhs rhs then -1 else if m_eq p lhs rhs then 0 else 1.

(** [LexicalCompare(lhs, rhs, ptmv, ptmvs...)], utility/lexical-compare.h
    311-320; the parameter pack is a list. *)
Fixpoint lexical_compare {C} (lhs rhs : C) (p : member C) (ps : list (member C)) : Z :=
  let result := lexical_compare1 lhs rhs p in
  match ps with
  | [] => result
  | q :: qs => if result =? 0 then lexical_compare lhs rhs q qs else result
  end.
