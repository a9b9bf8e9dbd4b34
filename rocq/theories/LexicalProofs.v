(** Lemmas about lexical comparison. *)
From Verif Require Import Base Lexical LexicalSpec.
Local Open Scope Z_scope.

Section P.
Context {C : Type}.
Implicit Types (p : member C) (ps : list (member C)) (x y z : C).

Lemma compare1_cases x y p : ordered p ->
  (lexical_compare1 x y p = -1 /\ lexical_compare1 y x p = 1 /\ m_lt p x y = true /\ m_eq p x y = false /\ m_lt p y x = false) \/
  (lexical_compare1 x y p = 0 /\ lexical_compare1 y x p = 0 /\ m_eq p x y = true /\ m_lt p x y = false /\ m_lt p y x = false) \/
  (lexical_compare1 x y p = 1 /\ lexical_compare1 y x p = -1 /\ m_lt p y x = true /\ m_eq p x y = false /\ m_lt p x y = false).
Proof.
  intros H. unfold lexical_compare1. destruct (o_total p H x y) as [(A & B & D)|[(A & B & D)|(A & B & D)]]; rewrite A, B, D.
  - left. destruct (m_eq p y x) eqn:E; [apply (o_eq_sym p H) in E; congruence|]. auto.
  - right. left. rewrite (o_eq_sym p H _ _ B). auto 6.
  - right. right. auto 6.
Qed.

Lemma compare_cons x y p q qs :
  lexical_compare x y p (q :: qs) =
  if lexical_compare1 x y p =? 0 then lexical_compare x y q qs else lexical_compare1 x y p.
Proof. reflexivity. Qed.

Lemma before_cons x y p ps : lex_before x y (p :: ps) <-> m_lt p x y = true \/ (m_eq p x y = true /\ lex_before x y ps).
Proof.
  split.
  - intros (f & q & b & H & Hf & Hl). destruct f as [|g f]; cbn in H; injection H as -> ->.
    + now left.
    + inversion Hf; subst. right. split; [assumption|]. now exists f, q, b.
  - intros [H|[He (f & q & b & -> & Hf & Hl)]].
    + exists [], p, ps. repeat split; auto.
    + exists (p :: f), q, b. repeat split; auto.
Qed.

Lemma before_nil x y : ~ lex_before x y ([] : list (member C)).
Proof. intros (f & q & b & H & _). destruct f; discriminate. Qed.

Lemma compare_spec x y : forall ps p, Forall ordered (p :: ps) ->
  (lexical_compare x y p ps = -1 /\ lex_before x y (p :: ps) /\ ~ lex_equal x y (p :: ps) /\ ~ lex_before y x (p :: ps)) \/
  (lexical_compare x y p ps = 0 /\ lex_equal x y (p :: ps) /\ ~ lex_before x y (p :: ps) /\ ~ lex_before y x (p :: ps)) \/
  (lexical_compare x y p ps = 1 /\ lex_before y x (p :: ps) /\ ~ lex_equal x y (p :: ps) /\ ~ lex_before x y (p :: ps)).
Proof.
  induction ps as [|q qs IH]; intros p H.
  - inversion H as [|? ? Hp Hq]; subst. cbn [lexical_compare].
    unfold lex_equal. rewrite !before_cons.
    pose proof (before_nil x y). pose proof (before_nil y x).
    assert (Hf : Forall (fun q => m_eq q x y = true) [p] <-> m_eq p x y = true).
    { split; [intros Hf; now inversion Hf|]. intros He. repeat constructor. exact He. }
    rewrite Hf.
    destruct (compare1_cases x y p Hp) as [(A & B & D & E & F)|[(A & B & D & E & F)|(A & B & D & E & F)]];
      rewrite A; intuition congruence.
  - inversion H as [|? ? Hp Hq]; subst. specialize (IH q Hq). rewrite compare_cons.
    unfold lex_equal in *. rewrite !(before_cons _ _ p).
    assert (Hf : Forall (fun q => m_eq q x y = true) (p :: q :: qs) <->
                 m_eq p x y = true /\ Forall (fun q => m_eq q x y = true) (q :: qs)).
    { split; [intros Hf; now inversion Hf|]. intros [He Hr]. now constructor. }
    rewrite Hf.
    destruct (compare1_cases x y p Hp) as [(A & B & D & E & F)|[(A & B & D & E & F)|(A & B & D & E & F)]];
      rewrite A; cbn [Z.eqb].
    + left. split; [reflexivity|]. assert (m_eq p y x = false).
      { destruct (m_eq p y x) eqn:Ex; [apply (o_eq_sym p Hp) in Ex; congruence|reflexivity]. }
      intuition congruence.
    + assert (Hs : m_eq p y x = true) by now apply (o_eq_sym p Hp). intuition congruence.
    + right. right. split; [reflexivity|]. intuition congruence.
Qed.

Lemma before_trans x y z ps : Forall ordered ps ->
  lex_before x y ps -> lex_before y z ps -> lex_before x z ps.
Proof.
  induction ps as [|p ps IH]; intros H Hxy Hyz; [now apply before_nil in Hxy|].
  inversion H as [|? ? Hp Hq]; subst. rewrite before_cons in *.
  destruct Hxy as [A|[A A']]; destruct Hyz as [B|[B B']].
  - left. eapply o_trans; eassumption.
  - left. eapply o_lt_eq; eassumption.
  - left. eapply o_eq_lt; eassumption.
  - right. split; [eapply o_eq_trans; eassumption|]. now apply IH.
Qed.

Lemma compare_antisym x y p ps : Forall ordered (p :: ps) ->
  lexical_compare x y p ps = - lexical_compare y x p ps.
Proof.
  intros H. destruct (compare_spec x y ps p H) as [(A & B & D & E)|[(A & B & D & E)|(A & B & D & E)]];
    destruct (compare_spec y x ps p H) as [(A' & B' & D' & E')|[(A' & B' & D' & E')|(A' & B' & D' & E')]];
    rewrite A, A'; try reflexivity; exfalso; try tauto.
Qed.

Lemma compare_trans x y z p ps : Forall ordered (p :: ps) ->
  lexical_compare x y p ps = -1 -> lexical_compare y z p ps = -1 -> lexical_compare x z p ps = -1.
Proof.
  intros H H1 H2.
  assert (B1 : lex_before x y (p :: ps)).
  { destruct (compare_spec x y ps p H) as [(A & B & _)|[(A & _)|(A & _)]]; [exact B|congruence|congruence]. }
  assert (B2 : lex_before y z (p :: ps)).
  { destruct (compare_spec y z ps p H) as [(A & B & _)|[(A & _)|(A & _)]]; [exact B|congruence|congruence]. }
  pose proof (before_trans _ _ _ _ H B1 B2) as B3.
  destruct (compare_spec x z ps p H) as [(A & _)|[(A & _ & D & _)|(A & _ & _ & D)]]; tauto.
Qed.

Lemma compare_iff x y p ps : Forall ordered (p :: ps) ->
  (lexical_compare x y p ps = -1 <-> lex_before x y (p :: ps)) /\
  (lexical_compare x y p ps = 0 <-> lex_equal x y (p :: ps)) /\
  (lexical_compare x y p ps = 1 <-> lex_before y x (p :: ps)).
Proof.
  intros H. destruct (compare_spec x y ps p H) as [(A & B & D & E)|[(A & B & D & E)|(A & B & D & E)]];
    rewrite A; repeat split; intros; try lia; tauto.
Qed.
End P.
