(** Linear maps on bit vectors (natural numbers under [N.lxor]), polynomials over the
    field of two elements acting on them, and a criterion for the least period of all
    vectors.  No part of the code is modelled here. *)
From Coq Require Import NArith List Lia Bool ZifyBool ZifyNat ZifyN.
From Verif Require Import PeriodPrime.
Import ListNotations.
Open Scope N_scope.

Section Linear.
Variable T : N -> N.
Hypothesis T_add : forall x y, T (N.lxor x y) = N.lxor (T x) (T y).

Lemma T_zero : T 0 = 0.
Proof using All. pose proof (T_add 0 0) as H. rewrite !N.lxor_nilpotent in H. exact H. Qed.

(** The polynomial whose coefficients are the bits of [p], applied to [T], at [v]. *)
Fixpoint actp (p : positive) (v : N) : N :=
  match p with
  | xH => v
  | xO p => actp p (T v)
  | xI p => N.lxor v (actp p (T v))
  end.
Definition act (p v : N) : N := match p with N0 => 0 | Npos p => actp p v end.

Lemma lxor4 a b c d : N.lxor (N.lxor a b) (N.lxor c d) = N.lxor (N.lxor a c) (N.lxor b d).
Proof using All.
  rewrite !N.lxor_assoc. f_equal. rewrite <- !N.lxor_assoc. f_equal. apply N.lxor_comm.
Qed.

Lemma actp_add p : forall v u, actp p (N.lxor v u) = N.lxor (actp p v) (actp p u).
Proof using All.
  induction p; intros; cbn [actp].
  - rewrite T_add, IHp. apply lxor4.
  - rewrite T_add, IHp. reflexivity.
  - reflexivity.
Qed.

Lemma act_add p v u : act p (N.lxor v u) = N.lxor (act p v) (act p u).
Proof using All. destruct p; [reflexivity|apply actp_add]. Qed.

Lemma act_zero p : act p 0 = 0.
Proof using All. pose proof (act_add p 0 0) as H. rewrite !N.lxor_nilpotent in H. exact H. Qed.

Lemma act_double p v : act (N.double p) v = act p (T v).
Proof using All. destruct p; reflexivity. Qed.

Lemma act_succ_double p v : act (N.succ_double p) v = N.lxor v (act p (T v)).
Proof using All. destruct p; [symmetry; apply N.lxor_0_r|reflexivity]. Qed.

Lemma act_lxor_pos p : forall q v, act (Pos.lxor p q) v = N.lxor (actp p v) (actp q v).
Proof using All.
  induction p; destruct q; intros; cbn [Pos.lxor].
  - change (Pos.lxor p~1 q~1) with (N.double (Pos.lxor p q)). rewrite act_double, IHp. cbn [actp].
    rewrite lxor4, N.lxor_nilpotent, N.lxor_0_l. reflexivity.
  - rewrite act_succ_double, IHp. cbn [actp]. rewrite N.lxor_assoc. reflexivity.
  - cbn [act actp]. rewrite N.lxor_comm, <- N.lxor_assoc, N.lxor_nilpotent, N.lxor_0_l. reflexivity.
  - rewrite act_succ_double, IHp. cbn [actp]. rewrite <- !N.lxor_assoc. f_equal. apply N.lxor_comm.
  - rewrite act_double, IHp. reflexivity.
  - cbn [act actp]. apply N.lxor_comm.
  - cbn [act actp]. rewrite <- N.lxor_assoc, N.lxor_nilpotent, N.lxor_0_l. reflexivity.
  - cbn [act actp]. reflexivity.
  - cbn [act actp]. symmetry. apply N.lxor_nilpotent.
Qed.

Lemma act_lxor p q v : act (N.lxor p q) v = N.lxor (act p v) (act q v).
Proof using All.
  destruct p, q; cbn [N.lxor].
  - reflexivity.
  - symmetry. apply N.lxor_0_l.
  - symmetry. apply N.lxor_0_r.
  - apply act_lxor_pos.
Qed.

Lemma act_T p v : act p (T v) = T (act p v).
Proof using All.
  destruct p as [|p]; [symmetry; apply T_zero|]. cbn [act]. revert v.
  induction p; intros v; cbn [actp]; rewrite ?IHp, ?T_add; reflexivity.
Qed.

Lemma act_comm p q v : act p (act q v) = act q (act p v).
Proof using All.
  destruct q as [|q]; [apply act_zero|]. cbn [act]. revert v.
  induction q; intros v; cbn [actp].
  - rewrite act_add, IHq, act_T. reflexivity.
  - rewrite IHq, act_T. reflexivity.
  - reflexivity.
Qed.

(** Products and powers modulo the polynomial [P] of degree [n]. *)
Variable n : N.
Variable P : N.

Definition red (x : N) : N := if N.testbit x n then N.lxor x P else x.

Fixpoint mulp (f : N) (g : positive) : N :=
  match g with
  | xH => f
  | xO g => red (N.double (mulp f g))
  | xI g => N.lxor f (red (N.double (mulp f g)))
  end.
Definition mul (f g : N) : N := match g with N0 => 0 | Npos g => mulp f g end.

(** Squares: the coefficients below [x^h] are spread out; for the others, the powers
    [x^(2h)], [x^(2h+2)], ... modulo [P] are kept in a table. *)
Definition next2 (t : N) : N := red (N.double (red (N.double t))).

Fixpoint table (c : nat) (t : N) : list N :=
  match c with O => [] | S c => t :: table c (next2 t) end.

Fixpoint table_end (c : nat) (t : N) : N :=
  match c with O => t | S c => table_end c (next2 t) end.

Fixpoint fly (g : positive) (t : N) : N :=
  match g with
  | xH => t
  | xO g => fly g (next2 t)
  | xI g => N.lxor t (fly g (next2 t))
  end.

Fixpoint sum_table (tab : list N) (tend : N) (g : positive) : N :=
  match tab with
  | [] => fly g tend
  | t :: tab =>
      match g with
      | xH => t
      | xO g => sum_table tab tend g
      | xI g => N.lxor t (sum_table tab tend g)
      end
  end.

Fixpoint spread (c : nat) (g : positive) : N :=
  match c with
  | O => 0
  | S c =>
      match g with
      | xH => 1
      | xO g => N.double (N.double (spread c g))
      | xI g => N.succ_double (N.double (spread c g))
      end
  end.

Fixpoint drop (c : nat) (g : positive) : N :=
  match c with
  | O => Npos g
  | S c => match g with xH => 0 | xO g => drop c g | xI g => drop c g end
  end.

Variable h : nat.
Variable tab : list N.
Variable tend : N.

Definition sqr (f : N) : N :=
  match f with
  | N0 => 0
  | Npos g => match drop h g with N0 => spread h g | Npos d => N.lxor (spread h g) (sum_table tab tend d) end
  end.

Fixpoint powp (f : N) (e : positive) : N :=
  match e with
  | xH => f
  | xO e => sqr (powp f e)
  | xI e => mul (sqr (powp f e)) f
  end.
Definition pow (f e : N) : N := match e with N0 => 1 | Npos e => powp f e end.

Fixpoint frobenius (c : nat) (f : N) : N :=
  match c with O => f | S c => frobenius c (sqr f) end.

(** The certificate, for the order [m] of [x]: levels [c] with prime factors [q] of
    [2^c + 1] and polynomials [u].  At a level, [y = x^E] and [E * (2^c + 1) * (2^c - 1) = m];
    [x^(m/q) = 1] would make the powers of [y^(2^c)] and [y] with the exponent [(2^c + 1) / q]
    equal, and [u] is the inverse of their difference. *)
Fixpoint chain (ks : list (nat * list (N * N))) (y E m : N) : bool :=
  match ks with
  | [] => (y =? 1) && (E =? m)
  | (c, qus) :: ks =>
      let fr := frobenius c y in
      let B := 2 ^ N.of_nat c in
      (E * (B + 1) * (B - 1) =? m) &&
      forallb (fun qu =>
        let e := (B + 1) / fst qu in
        (fst qu * e =? B + 1) && (mul (N.lxor (pow fr e) (pow y e)) (snd qu) =? 1)) qus &&
      chain ks (mul fr y) (E * (B + 1)) m
  end.

Hypothesis P_zero : forall v, v < 2 ^ n -> act P v = 0.
Hypothesis T_lt : forall v, v < 2 ^ n -> T v < 2 ^ n.

Lemma act_red x v : v < 2 ^ n -> act (red x) v = act x v.
Proof using All.
  intros H. unfold red. destruct (N.testbit x n); [|reflexivity].
  rewrite act_lxor, P_zero, N.lxor_0_r by exact H. reflexivity.
Qed.

Lemma lxor_lt2 x y : x < 2 ^ n -> y < 2 ^ n -> N.lxor x y < 2 ^ n.
Proof using All.
  intros Hx Hy. destruct (N.eq_dec (N.lxor x y) 0) as [->|Hn]; [lia|].
  apply N.log2_lt_pow2; [lia|].
  assert (A : forall z, z < 2 ^ n -> forall i, n <= i -> N.testbit z i = false).
  { intros z Hz i Hi. destruct (N.eq_dec z 0) as [->|Hz0]; [apply N.bits_0|].
    apply N.bits_above_log2. apply N.log2_lt_pow2 in Hz; lia. }
  destruct (N.lt_ge_cases (N.log2 (N.lxor x y)) n) as [L|L]; [exact L|exfalso].
  pose proof (N.bit_log2 _ Hn) as B. rewrite N.lxor_spec, (A x Hx _ L), (A y Hy _ L) in B. discriminate.
Qed.

Lemma actp_lt p : forall v, v < 2 ^ n -> actp p v < 2 ^ n.
Proof using All.
  induction p; cbn [actp]; intros v H; auto. apply lxor_lt2; auto.
Qed.

Lemma act_mulp f g : forall v, v < 2 ^ n -> act (mulp f g) v = act f (actp g v).
Proof using All.
  induction g; intros v H; cbn [mulp actp].
  - rewrite act_lxor, act_red, act_double, IHg, act_add by auto. reflexivity.
  - rewrite act_red, act_double, IHg by auto. reflexivity.
  - reflexivity.
Qed.

Lemma act_mul f g v : v < 2 ^ n -> act (mul f g) v = act f (act g v).
Proof using All.
  intros H. destruct g; cbn [mul act]; [symmetry; apply act_zero|]. apply act_mulp, H.
Qed.

Lemma act_lt p v : v < 2 ^ n -> act p v < 2 ^ n.
Proof using All. destruct p; cbn [act]; intros; [lia|]. apply actp_lt; auto. Qed.

Lemma iter_lt f k v : (forall v, v < 2 ^ n -> f v < 2 ^ n) -> v < 2 ^ n -> N.iter k f v < 2 ^ n.
Proof using All.
  intros Hf Hv. induction k using N.peano_ind; [exact Hv|]. rewrite N.iter_succ. auto.
Qed.

(** [t] acts as [k] steps. *)
Definition acts (t k : N) : Prop := forall v, v < 2 ^ n -> act t v = N.iter k T v.

Hypothesis h_ok : n = 2 * N.of_nat h.
Hypothesis tab_ok : tab = table h (N.lxor (2 ^ n) P).
Hypothesis tend_ok : tend = table_end h (N.lxor (2 ^ n) P).

Lemma iter_T_lt k v : v < 2 ^ n -> N.iter k T v < 2 ^ n.
Proof using All. apply iter_lt, T_lt. Qed.

Lemma acts_next2 t k : acts t k -> acts (next2 t) (k + 2).
Proof using All.
  intros H v Hv. unfold next2. rewrite !act_red, !act_double by auto.
  rewrite act_red, act_double by auto. rewrite H by auto.
  rewrite N.iter_add. reflexivity.
Qed.

Lemma act_pow2 k v : act (2 ^ k) v = N.iter k T v.
Proof using All.
  revert v. induction k using N.peano_ind; intros v; [reflexivity|].
  rewrite N.pow_succ_r', <- N.double_spec, act_double, IHk.
  rewrite <- N.add_1_r, N.iter_add. reflexivity.
Qed.

Lemma acts_first : acts (N.lxor (2 ^ n) P) n.
Proof using All.
  intros v Hv. rewrite act_lxor, P_zero, N.lxor_0_r by exact Hv. apply act_pow2.
Qed.

(** The action of a polynomial in [T o T]. *)
Fixpoint act2 (g : positive) (v : N) : N :=
  match g with
  | xH => v
  | xO g => act2 g (T (T v))
  | xI g => N.lxor v (act2 g (T (T v)))
  end.

Lemma act2_square g : forall v, act2 g v = actp g (actp g v).
Proof using All.
  assert (C : forall p v, actp p (T v) = T (actp p v)) by (intros p v; apply (act_T (Npos p) v)).
  induction g; intros v; cbn [act2 actp].
  - rewrite IHg, !T_add, !actp_add, !C.
    rewrite N.lxor_assoc. f_equal. rewrite <- N.lxor_assoc, N.lxor_nilpotent, N.lxor_0_l. reflexivity.
  - rewrite IHg, !C. reflexivity.
  - reflexivity.
Qed.

Lemma act_fly g : forall t k v, acts t k -> v < 2 ^ n -> act (fly g t) v = act2 g (N.iter k T v).
Proof using All.
  induction g; intros t k v H Hv; cbn [fly act2].
  - rewrite act_lxor, H by exact Hv. rewrite (IHg _ _ v (acts_next2 _ _ H) Hv).
    rewrite N.add_comm, N.iter_add. reflexivity.
  - rewrite (IHg _ _ v (acts_next2 _ _ H) Hv), N.add_comm, N.iter_add. reflexivity.
  - apply H, Hv.
Qed.

Lemma act_sum_table c : forall t k g v, acts t k -> v < 2 ^ n ->
  act (sum_table (table c t) (table_end c t) g) v = act2 g (N.iter k T v).
Proof using All.
  induction c as [|c IH]; intros t k g v H Hv; cbn [table table_end sum_table].
  - apply act_fly; assumption.
  - destruct g; cbn [act2].
    + rewrite act_lxor, H by exact Hv. rewrite (IH _ _ g v (acts_next2 _ _ H) Hv).
      rewrite N.add_comm, N.iter_add. reflexivity.
    + rewrite (IH _ _ g v (acts_next2 _ _ H) Hv), N.add_comm, N.iter_add. reflexivity.
    + apply H, Hv.
Qed.

Lemma act2_split c : forall g v, act2 g v =
  N.lxor (act (spread c g) v)
         (match drop c g with N0 => 0 | Npos d => act2 d (N.iter (2 * N.of_nat c) T v) end).
Proof using All.
  assert (I : forall c v, N.iter (2 * N.of_nat c) T (T (T v)) = N.iter (2 * N.of_nat (S c)) T v).
  { clear c. intros c v. replace (2 * N.of_nat (S c)) with (2 * N.of_nat c + 2) by lia.
    rewrite N.iter_add. reflexivity. }
  induction c as [|c IH]; intros g v.
  - cbn [spread drop act]. rewrite N.lxor_0_l. reflexivity.
  - destruct g; cbn [spread drop act2].
    + rewrite act_succ_double, act_double, IH. rewrite I. rewrite N.lxor_assoc. reflexivity.
    + rewrite !act_double, IH, I. reflexivity.
    + cbn [act actp]. rewrite N.lxor_0_r. reflexivity.
Qed.

Lemma act_sqr f v : v < 2 ^ n -> act (sqr f) v = act f (act f v).
Proof using All.
  intros Hv. destruct f as [|g]; [reflexivity|]. cbn [sqr act]. rewrite <- act2_square.
  rewrite (act2_split h). destruct (drop h g) as [|d] eqn:E.
  - rewrite N.lxor_0_r. reflexivity.
  - rewrite act_lxor. f_equal. rewrite tab_ok, tend_ok.
    rewrite (act_sum_table h _ n); [|apply acts_first|exact Hv]. rewrite <- h_ok. reflexivity.
Qed.

Lemma acts_sqr f k : acts f k -> acts (sqr f) (2 * k).
Proof using All.
  intros H v Hv. rewrite act_sqr, !H by (auto; apply act_lt; auto).
  replace (2 * k) with (k + k) by lia. rewrite N.iter_add. reflexivity.
Qed.

Lemma acts_mul f g a b : acts f a -> acts g b -> acts (mul f g) (a + b).
Proof using All.
  intros Hf Hg v Hv. rewrite act_mul, Hg by exact Hv. rewrite Hf by (apply iter_T_lt, Hv).
  rewrite N.iter_add. reflexivity.
Qed.

Lemma acts_pow f k e : acts f k -> acts (pow f e) (e * k).
Proof using All.
  intros H. destruct e as [|e]; [intros v Hv; reflexivity|]. cbn [pow].
  induction e; cbn [powp].
  - replace (N.pos e~1 * k) with (2 * (N.pos e * k) + k) by lia. apply acts_mul; [apply acts_sqr, IHe|exact H].
  - replace (N.pos e~0 * k) with (2 * (N.pos e * k)) by lia. apply acts_sqr, IHe.
  - rewrite N.mul_1_l. exact H.
Qed.

Lemma acts_frobenius c : forall f k, acts f k -> acts (frobenius c f) (2 ^ N.of_nat c * k).
Proof using All.
  induction c as [|c IH]; intros f k H; cbn [frobenius].
  - rewrite N.mul_1_l. exact H.
  - replace (2 ^ N.of_nat (S c) * k) with (2 ^ N.of_nat c * (2 * k)).
    + apply IH, acts_sqr, H.
    + rewrite Nat2N.inj_succ, N.pow_succ_r'. lia.
Qed.

Definition chain_primes (ks : list (nat * list (N * N))) : list N :=
  concat (map (fun k => map fst (snd k)) ks).

Lemma chain_sound ks : forall y E m, 0 < m -> acts y E -> chain ks y E m = true ->
  (forall v, v < 2 ^ n -> N.iter m T v = v) /\
  (forall q v, In q (chain_primes ks) -> v < 2 ^ n -> N.iter (m / q) T v = v -> v = 0).
Proof using All.
  induction ks as [|[c qus] ks IH]; intros y E m Hm Hy H.
  - cbn [chain] in H. apply andb_true_iff in H. destruct H as [H1 H2]. apply N.eqb_eq in H1, H2. subst.
    split; [|intros q v []]. intros v Hv. rewrite <- (Hy v Hv). reflexivity.
  - cbn [chain] in H. cbv zeta in H. set (B := 2 ^ N.of_nat c) in *.
    rewrite !andb_true_iff in H. destruct H as [[H1 H2] H3]. apply N.eqb_eq in H1.
    assert (Hfr : acts (frobenius c y) (B * E)) by (apply acts_frobenius, Hy).
    assert (Hy' : acts (mul (frobenius c y) y) (E * (B + 1))).
    { replace (E * (B + 1)) with (B * E + E) by lia. apply acts_mul; assumption. }
    destruct (IH _ _ _ Hm Hy' H3) as [I1 I2]. split; [exact I1|].
    intros q v Hq Hv X. unfold chain_primes in Hq. cbn [map concat snd] in Hq. apply in_app_iff in Hq.
    destruct Hq as [Hq|Hq]; [|exact (I2 q v Hq Hv X)].
    apply in_map_iff in Hq. destruct Hq as [[q' u] [Eq Hin]]. cbn [fst] in Eq. subst q'.
    rewrite forallb_forall in H2. specialize (H2 _ Hin). cbn [fst snd] in H2.
    apply andb_true_iff in H2. destruct H2 as [H2 H4]. apply N.eqb_eq in H2, H4.
    set (e := (B + 1) / q) in *.
    assert (Hq0 : q <> 0) by lia.
    assert (Hmq : m / q = E * e * (B - 1)).
    { rewrite <- H1, <- H2. replace (E * (q * e) * (B - 1)) with ((E * e * (B - 1)) * q) by lia.
      apply N.div_mul, Hq0. }
    assert (HB : 0 < B) by (unfold B; apply N.neq_0_lt_0, N.pow_nonzero; discriminate).
    assert (Hab : act (N.lxor (pow (frobenius c y) e) (pow y e)) v = 0).
    { rewrite act_lxor, (acts_pow _ _ e Hfr v Hv), (acts_pow _ _ e Hy v Hv).
      replace (e * (B * E)) with (e * E + m / q) by (rewrite Hmq; nia).
      rewrite N.iter_add, X. apply N.lxor_nilpotent. }
    change v with (act 1 v). rewrite <- H4. rewrite act_mul by exact Hv.
    rewrite act_comm. rewrite Hab. apply act_zero.
Qed.

Lemma linear_period ks m v : 0 < m -> Forall is_prime (chain_primes ks) ->
  product (chain_primes ks) = m -> chain ks 2 1 m = true ->
  v < 2 ^ n -> v <> 0 ->
  forall k, N.iter k T v = v <-> (m | k).
Proof using All.
  intros Hm Hp H1 H Hv Hv0.
  destruct (chain_sound ks 2 1 m Hm (fun v _ => eq_refl) H) as [I1 I2].
  apply exact_period; [exact Hm|apply I1, Hv|].
  intros q Hq Hd X. rewrite <- H1 in Hd. apply prime_in_product in Hd; [|exact Hq|exact Hp].
  apply Hv0. exact (I2 q v Hd Hv X).
Qed.
End Linear.

(** Combinations of the vectors in a list; [vend] is the vector after the list. *)
Fixpoint combine (T : N -> N) (vs : list N) (vend : N) (g : positive) : N :=
  match vs with
  | [] => actp T g vend
  | v :: vs =>
      match g with
      | xH => v
      | xO g => combine T vs vend g
      | xI g => N.lxor v (combine T vs vend g)
      end
  end.

Fixpoint orbit (T : N -> N) (c : nat) (v : N) : list N :=
  match c with O => [] | S c => v :: orbit T c (T v) end.

Fixpoint orbit_end (T : N -> N) (c : nat) (v : N) : N :=
  match c with O => v | S c => orbit_end T c (T v) end.

Lemma combine_act T c : forall v g, combine T (orbit T c v) (orbit_end T c v) g = actp T g v.
Proof.
  induction c as [|c IH]; intros v g; cbn [orbit orbit_end combine]; [reflexivity|].
  destruct g; cbn [actp]; rewrite ?IH; reflexivity.
Qed.

(** A linear map that vanishes on the powers of two below [2^n] vanishes below [2^n]. *)
Lemma linear_basis (L : N -> N) (n : nat) : (forall x y, L (N.lxor x y) = N.lxor (L x) (L y)) ->
  (forall j, (j < n)%nat -> L (2 ^ N.of_nat j) = 0) ->
  forall v, v < 2 ^ N.of_nat n -> L v = 0.
Proof.
  intros Hadd. assert (H0 : L 0 = 0).
  { pose proof (Hadd 0 0) as H. rewrite !N.lxor_nilpotent in H. exact H. }
  induction n as [|n IH]; intros Hb v Hv.
  - assert (v = 0) by (cbn in Hv; lia). subst. exact H0.
  - assert (Hlow : L (v mod 2 ^ N.of_nat n) = 0).
    { apply IH; [intros; apply Hb; lia|]. apply N.mod_lt, N.pow_nonzero. discriminate. }
    assert (E : v = N.lxor (v mod 2 ^ N.of_nat n) (if N.testbit v (N.of_nat n) then 2 ^ N.of_nat n else 0)).
    { apply N.bits_inj. intros i. rewrite N.lxor_spec.
      destruct (N.lt_trichotomy i (N.of_nat n)) as [L1|[L1|L1]].
      - rewrite N.mod_pow2_bits_low by exact L1.
        destruct (N.testbit v (N.of_nat n)); [rewrite N.pow2_bits_false by lia|rewrite N.bits_0];
          symmetry; apply xorb_false_r.
      - subst i. rewrite N.mod_pow2_bits_high by lia.
        destruct (N.testbit v (N.of_nat n)); [rewrite N.pow2_bits_true|rewrite N.bits_0]; reflexivity.
      - rewrite N.mod_pow2_bits_high by lia.
        assert (N.testbit v i = false).
        { destruct (N.eq_dec v 0) as [->|Hv0]; [apply N.bits_0|]. apply N.bits_above_log2.
          apply N.log2_lt_pow2 in Hv; lia. }
        rewrite H. destruct (N.testbit v (N.of_nat n)); [rewrite N.pow2_bits_false by lia|rewrite N.bits_0]; reflexivity. }
    rewrite E, Hadd, Hlow, N.lxor_0_l. destruct (N.testbit v (N.of_nat n)); [apply Hb; lia|exact H0].
Qed.
