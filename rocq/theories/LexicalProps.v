(** Property C59: lexical comparison. *)
From Verif Require Import Base Lexical LexicalSpec LexicalProofs.
From Coq Require Import ZifyBool.
Local Open Scope Z_scope.

(** C59.  The result is -1, 0 or 1 by the first member in which the two objects
    differ, for any number of members whose types are totally ordered. *)
Theorem C59_first_difference_decides :
  forall (C : Type) (x y : C) p ps, Forall ordered (p :: ps) ->
    (lexical_compare x y p ps = -1 <-> lex_before x y (p :: ps)) /\
    (lexical_compare x y p ps = 0 <-> lex_equal x y (p :: ps)) /\
    (lexical_compare x y p ps = 1 <-> lex_before y x (p :: ps)).
Proof. exact @compare_iff. Qed.
Print Assumptions C59_first_difference_decides.

(** C59.  Swapping the arguments negates the result; so the comparison is
    antisymmetric, and every pair is comparable. *)
Theorem C59_antisymmetric :
  forall (C : Type) (x y : C) p ps, Forall ordered (p :: ps) ->
    lexical_compare x y p ps = - lexical_compare y x p ps.
Proof. exact @compare_antisym. Qed.
Print Assumptions C59_antisymmetric.

Theorem C59_transitive :
  forall (C : Type) (x y z : C) p ps, Forall ordered (p :: ps) ->
    lexical_compare x y p ps = -1 -> lexical_compare y z p ps = -1 -> lexical_compare x z p ps = -1.
Proof. exact @compare_trans. Qed.
Print Assumptions C59_transitive.

(** Objects with two integer members meet the hypotheses. *)
Definition by_fst : member (Z * Z) :=
  mk_member (fun a b => fst a <? fst b) (fun a b => fst a =? fst b).
Definition by_snd : member (Z * Z) :=
  mk_member (fun a b => snd a <? snd b) (fun a b => snd a =? snd b).

Example C59_ex : Forall ordered [by_fst; by_snd] /\
  lexical_compare (1, 5) (1, 7) by_fst [by_snd] = -1 /\
  lexical_compare (1, 7) (2, 0) by_fst [by_snd] = -1 /\
  lexical_compare (3, 0) (2, 9) by_fst [by_snd] = 1.
Proof.
  split; [|repeat split; reflexivity].
  constructor; [|constructor; [|constructor]]; constructor; cbn; intros; lia.
Qed.

(** Without a total order (as for floating point NaN, which is neither smaller
    nor equal) antisymmetry fails. *)
Theorem C59_unordered_member_refuted :
  exists (p : member (option Z)) x y,
    lexical_compare x y p [] = 1 /\ lexical_compare y x p [] = 1.
Proof.
  exists (mk_member (fun a b => match a, b with Some x, Some y => x <? y | _, _ => false end)
                    (fun a b => match a, b with Some x, Some y => x =? y | _, _ => false end)),
         None, (Some 0).
  split; reflexivity.
Qed.
Print Assumptions C59_unordered_member_refuted.
