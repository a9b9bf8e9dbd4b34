(** Elementary number theory for the periods of the engines: the least period of
    an iteration, prime numbers and certificates of primality.  No part of the code
    is modelled here. *)
From Coq Require Import NArith List Lia Bool ZifyBool ZifyNat ZifyN.
Import ListNotations.
Open Scope N_scope.

Lemma N_strong (P : N -> Prop) : (forall n, (forall m, m < n -> P m) -> P n) -> forall n, P n.
Proof.
  intros H n. assert (A : forall m, m <= n -> P m).
  { induction n using N.peano_ind; intros m Hm.
    - apply H. intros; lia.
    - apply H. intros j Hj. apply IHn. lia. }
  apply A. lia.
Qed.

(** A number is prime if it is at least 2 and only 1 and itself divide it. *)
Definition is_prime (p : N) : Prop := 1 < p /\ forall d, (d | p) -> d = 1 \/ d = p.

Lemma divide_le d n : (d | n) -> 0 < n -> d <= n.
Proof. intros [k ->] H. destruct k; nia. Qed.

Lemma divide_pos d n : (d | n) -> 0 < n -> 0 < d.
Proof. intros [k ->] H. nia. Qed.

Lemma some_divisor n : 1 < n -> is_prime n \/ exists d, 1 < d /\ d < n /\ (d | n).
Proof.
  intros Hn.
  destruct (existsb (fun d => n mod N.of_nat d =? 0) (seq 2 (N.to_nat n - 2))) eqn:E.
  - right. apply existsb_exists in E. destruct E as [d [Hi Hd]]. apply in_seq in Hi.
    exists (N.of_nat d). split; [lia|]. split; [lia|].
    apply N.mod_divide; lia.
  - left. split; [exact Hn|]. intros d Hd.
    pose proof (divide_le _ _ Hd ltac:(lia)). pose proof (divide_pos _ _ Hd ltac:(lia)).
    destruct (N.eq_dec d 1); [auto|]. destruct (N.eq_dec d n); [auto|]. exfalso.
    assert (X : existsb (fun d => n mod N.of_nat d =? 0) (seq 2 (N.to_nat n - 2)) = true).
    { apply existsb_exists. exists (N.to_nat d). split; [apply in_seq; lia|].
      rewrite N2Nat.id. apply N.eqb_eq. apply N.mod_divide; [lia|exact Hd]. }
    congruence.
Qed.

Lemma prime_divisor n : 1 < n -> exists p, is_prime p /\ (p | n).
Proof.
  induction n as [n IH] using N_strong. intros Hn.
  destruct (some_divisor n Hn) as [H|[d [H1 [H2 H3]]]].
  - exists n. split; [exact H|apply N.divide_refl].
  - destruct (IH d H2 H1) as [p [Hp Hd]]. exists p. split; [exact Hp|].
    eapply N.divide_trans; eauto.
Qed.

Lemma prime_gcd p a : is_prime p -> N.gcd p a = 1 \/ (p | a).
Proof.
  intros [H1 H2]. destruct (H2 (N.gcd p a) (N.gcd_divide_l p a)) as [E|E]; [auto|].
  right. rewrite <- E. apply N.gcd_divide_r.
Qed.

Lemma prime_mul p a b : is_prime p -> (p | a * b) -> (p | a) \/ (p | b).
Proof.
  intros Hp Hd. destruct (prime_gcd p a Hp) as [E|E]; [|auto].
  right. eapply N.gauss; eauto.
Qed.

Definition product (l : list N) : N := fold_right N.mul 1 l.

Lemma prime_in_product p l : is_prime p -> Forall is_prime l -> (p | product l) -> In p l.
Proof.
  intros Hp. induction l as [|q l IH]; intros Hl Hd.
  - cbn in Hd. destruct Hp as [H _]. pose proof (divide_le _ _ Hd ltac:(lia)). lia.
  - inversion Hl; subst. cbn in Hd. destruct (prime_mul _ _ _ Hp Hd) as [E|E].
    + left. destruct H1 as [_ H1]. destruct (H1 p E); [|auto]. destruct Hp; lia.
    + right. auto.
Qed.

(** ** The least period of an iteration *)

Section Iter.
Variable A : Type.
Variable f : A -> A.
Variable x : A.
Notation it n := (N.iter n f x).

Lemma iter_plus a b : it (a + b) = N.iter a f (it b).
Proof using All. apply N.iter_add. Qed.

Lemma iter_sub a b : it a = x -> it b = x -> b <= a -> it (a - b) = x.
Proof using All.
  intros Ha Hb Hle. assert (E : a = (a - b) + b) by lia.
  rewrite E, iter_plus, Hb in Ha. exact Ha.
Qed.

Lemma iter_mult a k : it a = x -> it (k * a) = x.
Proof using All.
  intros Ha. induction k using N.peano_ind; [reflexivity|].
  replace (N.succ k * a) with (a + k * a) by lia. rewrite iter_plus, IHk. exact Ha.
Qed.

Lemma iter_mod a b : it a = x -> it b = x -> b <> 0 -> it (a mod b) = x.
Proof using All.
  intros Ha Hb Hn. pose proof (N.div_mod a b Hn) as E.
  replace (a mod b) with (a - (a / b) * b) by lia.
  apply iter_sub; [exact Ha|apply iter_mult, Hb|lia].
Qed.

Lemma iter_gcd a b : it a = x -> it b = x -> it (N.gcd a b) = x.
Proof using All.
  revert b. induction a as [a IH] using N_strong. intros b Ha Hb.
  destruct (N.eq_dec a 0) as [->|Hn]; [rewrite N.gcd_0_l; exact Hb|].
  replace (N.gcd a b) with (N.gcd (b mod a) a) by (rewrite N.gcd_mod by exact Hn; reflexivity).
  apply IH.
  - apply N.mod_lt, Hn.
  - apply iter_mod; auto.
  - exact Ha.
Qed.

(** If [x] returns after [m] steps, and after [m / q] steps for no prime [q], then it
    returns after the multiples of [m] only. *)
Lemma exact_period m : 0 < m -> it m = x ->
  (forall q, is_prime q -> (q | m) -> it (m / q) <> x) ->
  forall k, it k = x <-> (m | k).
Proof using All.
  intros Hm Hx Hq k. split.
  - intros Hk. pose proof (iter_gcd m k Hx Hk) as Hg.
    destruct (N.gcd_divide_l m k) as [c Hc].
    destruct (N.eq_dec c 1) as [->|Hn].
    + rewrite N.mul_1_l in Hc. rewrite Hc at 1. apply N.gcd_divide_r.
    + exfalso. assert (1 < c) by nia.
      destruct (prime_divisor c H) as [q [Hp [e He]]].
      apply (Hq q Hp).
      * exists (e * N.gcd m k). rewrite Hc at 1. rewrite He at 1. lia.
      * assert (q <> 0) by (destruct Hp; lia).
        replace (m / q) with (e * N.gcd m k); [apply iter_mult, Hg|].
        rewrite Hc at 2. rewrite He at 1. replace (e * q * N.gcd m k) with ((e * N.gcd m k) * q) by lia.
        rewrite N.div_mul; auto.
  - intros [c ->]. apply iter_mult, Hx.
Qed.

(** The states met before that are distinct. *)
Lemma distinct m : 0 < m -> (forall k, it k = x <-> (m | k)) ->
  forall i j, i < m -> j < m -> it i = it j -> i = j.
Proof using All.
  intros Hm H. assert (A1 : forall i j, i < j -> j < m -> it i = it j -> False).
  { intros i j Hij Hj E. assert (X : it ((m - i) + j) = x).
    { rewrite iter_plus, <- E, <- iter_plus. replace (m - i + i) with m by lia. apply H, N.divide_refl. }
    apply H in X. destruct X as [c Hc]. destruct c; [nia|]. assert (N.pos p = 1 \/ 2 <= N.pos p) by lia.
    destruct H0 as [E1|E1]; nia. }
  intros i j Hi Hj E. destruct (N.lt_trichotomy i j) as [L|[L|L]]; [|exact L|].
  - destruct (A1 _ _ L Hj E).
  - destruct (A1 _ _ L Hi (eq_sym E)).
Qed.
End Iter.

(** ** Powers modulo a number *)

Definition mulmod (n a y : N) : N := (a * y) mod n.

Fixpoint pow_mod_pos (n a : N) (e : positive) : N :=
  match e with
  | xH => a mod n
  | xO e => let r := pow_mod_pos n a e in (r * r) mod n
  | xI e => let r := pow_mod_pos n a e in (a * ((r * r) mod n)) mod n
  end.

Definition pow_mod (n a e : N) : N :=
  match e with N0 => 1 mod n | Npos p => pow_mod_pos n a p end.

Lemma pow_mod_pos_ok n a e : n <> 0 -> pow_mod_pos n a e = a ^ Npos e mod n.
Proof.
  intros Hn. induction e as [e IH|e IH|].
  - cbn [pow_mod_pos]. rewrite IH. replace (N.pos e~1) with (1 + (N.pos e + N.pos e)) by lia.
    rewrite N.pow_add_r, N.pow_1_r, N.pow_add_r.
    rewrite N.mul_mod_idemp_r by exact Hn. rewrite N.mul_mod by exact Hn.
    rewrite <- (N.mul_mod (a ^ N.pos e) (a ^ N.pos e)) by exact Hn.
    rewrite <- N.mul_mod by exact Hn. reflexivity.
  - cbn [pow_mod_pos]. rewrite IH. replace (N.pos e~0) with (N.pos e + N.pos e) by lia.
    rewrite N.pow_add_r. rewrite <- N.mul_mod by exact Hn. reflexivity.
  - cbn [pow_mod_pos]. rewrite N.pow_1_r. reflexivity.
Qed.

Lemma pow_mod_ok n a e : n <> 0 -> pow_mod n a e = a ^ e mod n.
Proof. intros Hn. destruct e; [reflexivity|]. apply pow_mod_pos_ok, Hn. Qed.

Lemma iter_mulmod n a k : n <> 0 -> N.iter k (mulmod n a) (1 mod n) = a ^ k mod n.
Proof.
  intros Hn. induction k using N.peano_ind; [reflexivity|].
  rewrite N.iter_succ, IHk. unfold mulmod. rewrite N.mul_mod_idemp_r by exact Hn.
  rewrite N.pow_succ_r'. reflexivity.
Qed.

Lemma mod_of_divisor r n x y : n <> 0 -> r <> 0 -> (r | n) -> x mod n = y mod n -> x mod r = y mod r.
Proof.
  intros Hn Hr [c ->] E.
  assert (A : forall z, z mod r = (z mod (c * r)) mod r).
  { intros z. assert (c <> 0) by nia. rewrite (N.mul_comm c r), N.mod_mul_r by auto.
    rewrite N.add_mod by exact Hr. rewrite (N.mul_comm r), N.mod_mul by exact Hr.
    rewrite N.add_0_r, !N.mod_mod by exact Hr. reflexivity. }
  rewrite (A x), (A y), E. reflexivity.
Qed.

Lemma NoDup_map_inj {A B} (g : A -> B) l :
  (forall a b, In a l -> In b l -> g a = g b -> a = b) -> NoDup l -> NoDup (map g l).
Proof.
  intros Hg Hl. induction Hl as [|a l Ha Hl IH]; cbn; constructor.
  - rewrite in_map_iff. intros [b [E Hb]]. apply Ha.
    rewrite <- (Hg b a); cbn; auto.
  - apply IH. intros; apply Hg; cbn; auto.
Qed.

(** Powers of [b] modulo [r] that return to 1 after exactly [F] steps: [F < r]. *)
Lemma order_lt r b F : 1 < r -> 0 < F -> b ^ F mod r = 1 ->
  (forall q, is_prime q -> (q | F) -> b ^ (F / q) mod r <> 1) -> F < r.
Proof.
  intros Hr HF E Hq.
  assert (Hr0 : r <> 0) by lia. assert (E1 : 1 mod r = 1) by (apply N.mod_small; lia).
  pose (g := fun k => N.iter k (mulmod r b) (1 mod r)).
  assert (Hg : forall k, g k = b ^ k mod r) by (intros; apply iter_mulmod; lia).
  assert (HX : forall k, g k = 1 mod r <-> (F | k)).
  { apply exact_period; [exact HF| |].
    - fold (g F). rewrite Hg, E1. exact E.
    - intros q Hp Hd X. fold (g (F / q)) in X. rewrite Hg, E1 in X. exact (Hq q Hp Hd X). }
  assert (HD : forall i j, i < F -> j < F -> g i = g j -> i = j).
  { apply distinct; [exact HF|exact HX]. }
  assert (HZ : forall i, i < F -> g i <> 0).
  { intros i Hi X. assert (Y : g F = 0).
    { replace F with ((F - i) + i) by lia. rewrite Hg, N.pow_add_r, N.mul_mod by lia.
      rewrite <- (Hg i), X, N.mul_0_r. apply N.mod_0_l; lia. }
    rewrite Hg, E in Y. discriminate. }
  assert (L : (length (map (fun i => g (N.of_nat i)) (seq 0 (N.to_nat F))) <=
               length (map N.of_nat (seq 1 (N.to_nat r - 1))))%nat).
  { apply NoDup_incl_length.
    - apply NoDup_map_inj; [|apply seq_NoDup].
      intros i j Hi Hj Eij. apply in_seq in Hi, Hj. apply HD in Eij; lia.
    - intros y Hy. apply in_map_iff in Hy. destruct Hy as [i [<- Hi]]. apply in_seq in Hi.
      apply in_map_iff. exists (N.to_nat (g (N.of_nat i))). split; [lia|].
      apply in_seq. pose proof (HZ (N.of_nat i) ltac:(lia)).
      assert (g (N.of_nat i) < r) by (rewrite Hg; apply N.mod_lt; lia). lia. }
  rewrite !map_length, !seq_length in L. lia.
Qed.

(** Pocklington's criterion. *)
Lemma pocklington n a R qs : 1 < n -> n - 1 = product qs * R ->
  Forall is_prime qs -> n < (product qs + 1) * (product qs + 1) ->
  a ^ (n - 1) mod n = 1 ->
  (forall q, In q qs -> N.gcd (pow_mod n a (R * (product qs / q)) + (n - 1)) n = 1) ->
  is_prime n.
Proof.
  intros Hn HF Hqs Hlt H1 Hg.
  set (F := product qs) in *.
  assert (HFp : 0 < F) by nia. assert (HRp : 0 < R) by nia.
  assert (Big : forall r, is_prime r -> (r | n) -> F < r).
  { intros r Hr Hd. destruct Hr as [Hr1 Hr2].
    assert (E1r : 1 mod r = 1) by (apply N.mod_small; lia).
    apply (order_lt r (a ^ R)); [exact Hr1|exact HFp| |].
    - rewrite <- N.pow_mul_r, N.mul_comm, <- HF. transitivity (1 mod r); [|exact E1r].
      apply (mod_of_divisor r n); [lia|lia|exact Hd|]. rewrite H1. symmetry. apply N.mod_small; lia.
    - intros q Hq Hqd X.
      assert (Hin : In q qs) by (apply prime_in_product; auto).
      specialize (Hg q Hin). rewrite <- N.pow_mul_r in X.
      assert (Y : (r | pow_mod n a (R * (F / q)) + (n - 1))).
      { apply N.mod_divide; [lia|].
        rewrite pow_mod_ok by lia.
        assert (Z : (a ^ (R * (F / q)) mod n) mod r = 1).
        { rewrite <- X. apply (mod_of_divisor r n); [lia|lia|exact Hd|]. apply N.mod_mod; lia. }
        assert (Hr0 : r <> 0) by (clear -Hr1; lia). revert Z.
        generalize (a ^ (R * (F / q)) mod n). intros y Hy.
        rewrite <- (N.add_mod_idemp_l y (n - 1) r Hr0), Hy.
        replace (1 + (n - 1)) with n by (clear -Hn; lia).
        apply N.mod_divide; [exact Hr0|exact Hd]. }
      assert (Z : (r | 1)) by (rewrite <- Hg; apply N.gcd_greatest; auto).
      pose proof (divide_le _ _ Z ltac:(lia)). lia. }
  destruct (some_divisor n Hn) as [H|[d [D1 [D2 D3]]]]; [exact H|exfalso].
  destruct D3 as [c Hc]. assert (1 < c) by nia.
  destruct (prime_divisor d D1) as [p [Hp Hpd]]. destruct (prime_divisor c H) as [s [Hs Hsd]].
  assert (F < p) by (apply Big; [exact Hp|]; rewrite Hc; apply N.divide_mul_r, Hpd).
  assert (F < s) by (apply Big; [exact Hs|]; rewrite Hc; apply N.divide_mul_l, Hsd).
  pose proof (divide_le _ _ Hpd ltac:(lia)). pose proof (divide_le _ _ Hsd ltac:(lia)). nia.
Qed.

(** ** Certificates: numbers with a witness and prime factors of the number minus one,
    that come earlier. *)
Definition entry : Type := (N * N * list N)%type.

Definition entry_ok (known : list N) (c : entry) : bool :=
  match c with
  | (n, a, qs) =>
      let F := product qs in
      let R := (n - 1) / F in
      (1 <? n) && (n - 1 =? F * R) &&
      forallb (fun q => existsb (N.eqb q) known) qs &&
      (n <? (F + 1) * (F + 1)) &&
      (pow_mod n a (n - 1) =? 1) &&
      forallb (fun q => N.gcd (pow_mod n a (R * (F / q)) + (n - 1)) n =? 1) qs
  end.

Fixpoint certified (known : list N) (cs : list entry) : option (list N) :=
  match cs with
  | [] => Some known
  | c :: cs => if entry_ok known c then certified (fst (fst c) :: known) cs else None
  end.

Lemma entry_prime known c : Forall is_prime known -> entry_ok known c = true -> is_prime (fst (fst c)).
Proof.
  destruct c as [[n a] qs]. intros HK H. cbn [fst]. unfold entry_ok in H.
  repeat rewrite andb_true_iff in H. destruct H as [[[[[A B] C] D] E] G].
  apply N.ltb_lt in A, D. apply N.eqb_eq in B, E.
  apply (pocklington n a ((n - 1) / product qs) qs); auto.
  - apply Forall_forall. intros q Hq. rewrite forallb_forall in C. specialize (C q Hq).
    apply existsb_exists in C. destruct C as [k [Hk Ek]]. apply N.eqb_eq in Ek. subst k.
    rewrite Forall_forall in HK. auto.
  - rewrite <- pow_mod_ok by lia. exact E.
  - intros q Hq. rewrite forallb_forall in G. apply N.eqb_eq, G, Hq.
Qed.

Lemma certified_primes cs : forall known l, Forall is_prime known -> certified known cs = Some l ->
  Forall is_prime l.
Proof.
  induction cs as [|c cs IH]; cbn; intros known l HK H.
  - injection H as <-. exact HK.
  - destruct (entry_ok known c) eqn:E; [|discriminate].
    apply (IH _ _ (Forall_cons _ (entry_prime _ _ HK E) HK) H).
Qed.

Lemma prime_two : is_prime 2.
Proof.
  split; [lia|]. intros d Hd. pose proof (divide_le _ _ Hd ltac:(lia)).
  pose proof (divide_pos _ _ Hd ltac:(lia)). lia.
Qed.
