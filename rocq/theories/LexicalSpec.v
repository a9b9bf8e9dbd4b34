(** Specification of lexical comparison. *)
From Verif Require Import Base Lexical.
Local Open Scope Z_scope.

Section Spec.
Context {C : Type}.

(** The member's type has a total order: [==] is an equivalence, [<] is
    transitive and respects it, and exactly one of [<], [==], [>] holds. *)
Record ordered (p : member C) : Prop := {
  o_refl : forall x, m_eq p x x = true;
  o_trans : forall x y z, m_lt p x y = true -> m_lt p y z = true -> m_lt p x z = true;
  o_eq_trans : forall x y z, m_eq p x y = true -> m_eq p y z = true -> m_eq p x z = true;
  o_eq_sym : forall x y, m_eq p x y = true -> m_eq p y x = true;
  o_lt_eq : forall x y z, m_lt p x y = true -> m_eq p y z = true -> m_lt p x z = true;
  o_eq_lt : forall x y z, m_eq p x y = true -> m_lt p y z = true -> m_lt p x z = true;
  o_total : forall x y,
    (m_lt p x y = true /\ m_eq p x y = false /\ m_lt p y x = false) \/
    (m_lt p x y = false /\ m_eq p x y = true /\ m_lt p y x = false) \/
    (m_lt p x y = false /\ m_eq p x y = false /\ m_lt p y x = true) }.

(** [x] comes before [y]: at the first member where they differ, [x] has the
    smaller value. *)
Definition lex_before (x y : C) (ps : list (member C)) : Prop :=
  exists front p back, ps = front ++ p :: back /\
    Forall (fun q => m_eq q x y = true) front /\ m_lt p x y = true.

Definition lex_equal (x y : C) (ps : list (member C)) : Prop :=
  Forall (fun q => m_eq q x y = true) ps.

End Spec.
