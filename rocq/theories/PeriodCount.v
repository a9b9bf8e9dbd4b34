(** From the least period of the states to the visited states, the numbers of occurrences
    of the outputs and the least period of the outputs. *)
From Coq Require Import Permutation.
From Verif Require Import Base BaseProofs Random RandomSpec RandomProofs PeriodPrime PeriodSpec.
From Coq Require Import ZifyBool ZifyNat ZifyN.
Open Scope N_scope.

(** ** All states *)

Fixpoint all_states (ws : list N) (n : nat) : list (list N) :=
  match n with
  | O => [[]]
  | S n => flat_map (fun x => map (cons x) (all_states ws n)) ws
  end.

Lemma all_states_in ws n : forall s, In s (all_states ws n) <-> length s = n /\ Forall (fun x => In x ws) s.
Proof.
  induction n as [|n IH]; intros s; cbn [all_states].
  - cbn. split; [intros [<-|[]]; auto|]. intros [H _]. destruct s; [auto|discriminate].
  - rewrite in_flat_map. split.
    + intros [x [Hx H]]. apply in_map_iff in H. destruct H as [t [<- Ht]]. apply IH in Ht.
      cbn. destruct Ht. split; [lia|constructor; auto].
    + intros [H F]. destruct s as [|x t]; [discriminate|]. inversion F; subst.
      exists x. split; [assumption|]. apply in_map_iff. exists t. split; [reflexivity|].
      apply IH. cbn in H. split; [lia|assumption].
Qed.

Lemma flat_map_length_const {A B} (f : A -> list B) c l : (forall x, In x l -> length (f x) = c) ->
  length (flat_map f l) = (length l * c)%nat.
Proof.
  induction l as [|x l IH]; cbn; intros H; [reflexivity|].
  rewrite app_length, H, IH by (cbn; auto). reflexivity.
Qed.

Lemma all_states_length ws n : length (all_states ws n) = (length ws ^ n)%nat.
Proof.
  induction n as [|n IH]; cbn [all_states Nat.pow]; [reflexivity|].
  apply flat_map_length_const. intros x _. rewrite map_length. exact IH.
Qed.

Lemma NoDup_app2 {A} (l l' : list A) : NoDup l -> NoDup l' -> (forall x, In x l -> In x l' -> False) ->
  NoDup (l ++ l').
Proof.
  intros H H' D. induction H as [|x l Hx H IH]; [exact H'|]. cbn. constructor.
  - rewrite in_app_iff. intros [K|K]; [auto|]. apply (D x); cbn; auto.
  - apply IH. intros y Hy. apply D. cbn. auto.
Qed.

Lemma flat_cons_NoDup (ws : list N) (L : list (list N)) : NoDup ws -> NoDup L ->
  NoDup (flat_map (fun x => map (cons x) L) ws).
Proof.
  intros Hw HL. induction Hw as [|x ws Hx Hw IH]; cbn [flat_map]; [constructor|].
  apply NoDup_app2; [|exact IH|].
  - apply NoDup_map_inj; [|exact HL]. intros a b _ _ E. congruence.
  - intros s Hs Hs'. apply in_map_iff in Hs. destruct Hs as [t [<- _]].
    apply in_flat_map in Hs'. destruct Hs' as [y [Hy Hs']]. apply in_map_iff in Hs'.
    destruct Hs' as [u [E _]]. injection E as -> _. auto.
Qed.

Lemma all_states_NoDup ws n : NoDup ws -> NoDup (all_states ws n).
Proof.
  intros Hw. induction n as [|n IH]; cbn [all_states]; [repeat constructor; auto|].
  apply flat_cons_NoDup; assumption.
Qed.

Lemma filter_flat_map {A B} (p : B -> bool) (f : A -> list B) l :
  filter p (flat_map f l) = flat_map (fun x => filter p (f x)) l.
Proof. induction l as [|x l IH]; cbn; [reflexivity|]. rewrite filter_app, IH. reflexivity. Qed.

Lemma filter_map_comm {A B} (p : B -> bool) (f : A -> B) l :
  filter p (map f l) = map f (filter (fun x => p (f x)) l).
Proof. induction l as [|x l IH]; cbn; [reflexivity|]. rewrite IH. destruct (p (f x)); reflexivity. Qed.

Lemma count_first (L : list (list N)) (p : N -> bool) ws :
  length (flat_map (fun x => filter (fun s => p (nth 0 s 0)) (map (cons x) L)) ws) = (length (filter p ws) * length L)%nat.
Proof.
  assert (T : forall M : list (list N), filter (fun _ => true) M = M) by (induction M; cbn; congruence).
  assert (F : forall M : list (list N), filter (fun _ => false) M = []) by (induction M; cbn; congruence).
  induction ws as [|x ws IH]; [reflexivity|]. cbn [flat_map filter]. rewrite app_length, IH.
  rewrite filter_map_comm, map_length. cbn [nth]. destruct (p x); cbn [length].
  - rewrite T. lia.
  - rewrite F. reflexivity.
Qed.

(** States whose register [i] satisfies [p]. *)
Lemma count_register ws (p : N -> bool) n : forall i, (i < n)%nat ->
  length (filter (fun s => p (nth i s 0)) (all_states ws n)) = (length (filter p ws) * length ws ^ (n - 1))%nat.
Proof.
  induction n as [|n IH]; intros i Hi; [lia|]. cbn [all_states].
  rewrite filter_flat_map. replace (S n - 1)%nat with n by lia. destruct i as [|i].
  - rewrite count_first, all_states_length. reflexivity.
  - rewrite (flat_map_length_const _ (length (filter p ws) * length ws ^ (n - 1))).
    + replace n with (S (n - 1)) at 2 by lia. cbn [Nat.pow]. lia.
    + intros x _. rewrite filter_map_comm, map_length. cbn [nth]. apply IH. lia.
Qed.

(** ** Words *)

Definition words (w : N) : list N := map N.of_nat (seq 0 (N.to_nat (2 ^ w))).

Lemma words_in w x : In x (words w) <-> is_word w x.
Proof.
  unfold words, is_word. rewrite in_map_iff. split.
  - intros [k [<- H]]. apply in_seq in H. lia.
  - intros H. exists (N.to_nat x). split; [lia|]. apply in_seq. lia.
Qed.

Lemma words_NoDup w : NoDup (words w).
Proof. apply NoDup_map_inj; [intros; lia|apply seq_NoDup]. Qed.

Lemma words_length w : length (words w) = N.to_nat (2 ^ w).
Proof. unfold words. rewrite map_length, seq_length. reflexivity. Qed.

Lemma words_forall w s : Forall (fun x => In x (words w)) s <-> Forall (is_word w) s.
Proof. split; apply Forall_impl; intros; apply words_in; assumption. Qed.

Lemma filter_len_perm {A} (p : A -> bool) l l' : Permutation l l' -> length (filter p l) = length (filter p l').
Proof.
  induction 1 as [| x l l' H IH | x y l | l l' l'' H1 IH1 H2 IH2]; cbn.
  - reflexivity.
  - destruct (p x); cbn; lia.
  - destruct (p x), (p y); reflexivity.
  - lia.
Qed.

(** ** Functions of the state that are determined by one register *)

Definition solvable (w : N) (n i : nat) (out : list N -> N) : Prop :=
  (i < n)%nat /\
  (forall s, length s = n -> Forall (is_word w) s -> out s < 2 ^ w) /\
  (forall s t, length s = n -> length t = n -> Forall (is_word w) s -> Forall (is_word w) t ->
     (forall j, j <> i -> nth j s 0 = nth j t 0) -> out s = out t -> nth i s 0 = nth i t 0).

Lemma list_ext (s t : list N) : length s = length t -> (forall j, nth j s 0 = nth j t 0) -> s = t.
Proof. intros L H. apply (nth_ext s t 0 0 L). intros; apply H. Qed.

Lemma upd_words w s i v : Forall (is_word w) s -> v < 2 ^ w -> Forall (is_word w) (upd s i v).
Proof.
  intros H Hv. revert i. induction H; intros [|i]; cbn; constructor; auto.
Qed.

Lemma nth_d_upd_eq (s : list N) i v : (i < length s)%nat -> nth i (upd s i v) 0 = v.
Proof. intros H. apply nth_error_nth. apply nth_upd_eq. exact H. Qed.

Lemma nth_d_upd_neq (s : list N) i j v : i <> j -> nth j (upd s i v) 0 = nth j s 0.
Proof.
  revert i j. induction s as [|x s IH]; intros [|i] [|j] H; cbn; try reflexivity; try contradiction.
  apply IH. congruence.
Qed.

Lemma count_out w n i out (p : N -> bool) : solvable w n i out ->
  length (filter (fun s => p (out s)) (all_states (words w) n)) =
  (length (filter p (words w)) * length (words w) ^ (n - 1))%nat.
Proof.
  intros [Hi [Hlt Hsol]].
  set (phi := fun s : list N => upd s i (out s)).
  set (L := all_states (words w) n).
  assert (HL : forall s, In s L -> length s = n /\ Forall (is_word w) s).
  { intros s Hs. apply all_states_in in Hs. rewrite words_forall in Hs. exact Hs. }
  assert (Hnth : forall s j, length s = n -> nth j (phi s) 0 = if Nat.eq_dec j i then out s else nth j s 0).
  { intros s j Hs. unfold phi. destruct (Nat.eq_dec j i) as [->|Hj].
    - rewrite nth_d_upd_eq by lia. reflexivity.
    - rewrite nth_d_upd_neq by auto. reflexivity. }
  assert (P : Permutation (map phi L) L).
  { apply NoDup_Permutation_bis.
    - apply NoDup_map_inj; [|apply all_states_NoDup, words_NoDup].
      intros s t Hs Ht E. destruct (HL s Hs) as [S1 S2]. destruct (HL t Ht) as [T1 T2].
      assert (Ho : forall j, j <> i -> nth j s 0 = nth j t 0).
      { intros j Hj. pose proof (f_equal (fun l => nth j l 0) E) as X. cbv beta in X.
        rewrite !Hnth in X by assumption. destruct (Nat.eq_dec j i); [contradiction|exact X]. }
      assert (Eo : out s = out t).
      { pose proof (f_equal (fun l => nth i l 0) E) as X. cbv beta in X.
        rewrite !Hnth in X by assumption. destruct (Nat.eq_dec i i); [exact X|contradiction]. }
      apply list_ext; [lia|]. intros j. destruct (Nat.eq_dec j i) as [->|Hj]; [|auto].
      apply Hsol; auto.
    - rewrite map_length. lia.
    - intros s Hs. apply in_map_iff in Hs. destruct Hs as [t [<- Ht]]. destruct (HL t Ht) as [T1 T2].
      apply all_states_in. rewrite words_forall. split.
      + unfold phi. rewrite upd_length. exact T1.
      + apply upd_words; [exact T2|]. apply Hlt; assumption. }
  rewrite <- (count_register (words w) p n i Hi). fold L.
  rewrite <- (filter_len_perm (fun s => p (nth i s 0)) _ _ P), filter_map_comm, map_length.
  f_equal. apply filter_ext_in. intros s Hs. destruct (HL s Hs) as [S1 S2].
  cbv beta. rewrite Hnth by exact S1. destruct (Nat.eq_dec i i); [reflexivity|contradiction].
Qed.

(** ** How many words satisfy a predicate *)

Lemma filter_count {A} (p : A -> bool) (l l' : list A) : NoDup l -> NoDup l' ->
  (forall x, In x l' <-> In x l /\ p x = true) -> length (filter p l) = length l'.
Proof.
  intros N1 N2 H. apply Permutation_length, NoDup_Permutation; [apply NoDup_filter, N1|exact N2|].
  intros x. rewrite filter_In, H. reflexivity.
Qed.

Lemma pow2_pos c : 0 < 2 ^ c.
Proof. assert (2 ^ c <> 0) by (apply N.pow_nonzero; discriminate). lia. Qed.

(** Words with given high bits. *)
Lemma count_high w c a : c <= w -> a < 2 ^ (w - c) ->
  length (filter (fun v => v / 2 ^ c =? a) (words w)) = N.to_nat (2 ^ c).
Proof.
  intros Hc Ha. rewrite <- words_length, <- (map_length (fun r => a * 2 ^ c + r) (words c)).
  pose proof (pow2_pos c) as Hp.
  assert (E : 2 ^ w = 2 ^ (w - c) * 2 ^ c) by (rewrite <- N.pow_add_r; f_equal; lia).
  apply filter_count.
  - apply words_NoDup.
  - apply NoDup_map_inj; [intros; lia|apply words_NoDup].
  - intros x. rewrite in_map_iff, words_in, N.eqb_eq. unfold is_word. split.
    + intros [r [<- Hr]]. apply words_in in Hr. unfold is_word in Hr. split; [nia|].
      rewrite N.div_add_l by lia. rewrite N.div_small by exact Hr. lia.
    + intros [Hx <-]. exists (x mod 2 ^ c). split.
      * rewrite (N.div_mod' x (2 ^ c)) at 3. lia.
      * apply words_in, N.mod_lt. lia.
Qed.

Lemma count_one w v : v < 2 ^ w -> length (filter (fun x => x =? v) (words w)) = 1%nat.
Proof.
  intros Hv. change 1%nat with (length [v]). apply filter_count.
  - apply words_NoDup.
  - constructor; [intros []|constructor].
  - intros x. rewrite words_in, N.eqb_eq. cbn. unfold is_word. intuition (subst; auto).
Qed.

Lemma filter_split {A} (p : A -> bool) l : (length (filter p l) + length (filter (fun x => negb (p x)) l) = length l)%nat.
Proof. induction l as [|x l IH]; cbn; [reflexivity|]. destruct (p x); cbn; lia. Qed.

Lemma count_bit w b : b < w -> length (filter (fun v => N.testbit v b) (words w)) = N.to_nat (2 ^ (w - 1)).
Proof.
  intros Hb. pose proof (filter_split (fun v => N.testbit v b) (words w)) as H.
  rewrite words_length in H.
  assert (E : length (filter (fun x => negb (N.testbit x b)) (words w)) = length (filter (fun v => N.testbit v b) (words w))).
  { rewrite <- (map_length (fun x => N.lxor x (2 ^ b)) (filter (fun v => N.testbit v b) (words w))).
    apply filter_count.
    - apply words_NoDup.
    - apply NoDup_map_inj; [|apply NoDup_filter, words_NoDup]. intros x y _ _ F.
      rewrite <- (N.lxor_0_r x), <- (N.lxor_0_r y), <- (N.lxor_nilpotent (2 ^ b)), <- !N.lxor_assoc, F. reflexivity.
    - assert (L : forall x, x < 2 ^ w -> N.lxor x (2 ^ b) < 2 ^ w).
      { intros x Hx. apply lxor_lt; [exact Hx|]. apply N.pow_lt_mono_r; lia. }
      intros x. rewrite in_map_iff, words_in, negb_true_iff. split.
      + intros [y [<- Hy]]. apply filter_In in Hy. destruct Hy as [H1 H2]. apply words_in in H1. split; [apply L, H1|].
        rewrite N.lxor_spec, H2, N.pow2_bits_true. reflexivity.
      + intros [H1 H2]. exists (N.lxor x (2 ^ b)). split.
        * rewrite N.lxor_assoc, N.lxor_nilpotent, N.lxor_0_r. reflexivity.
        * apply filter_In. rewrite words_in. split; [apply L, H1|].
          rewrite N.lxor_spec, H2, N.pow2_bits_true. reflexivity. }
  assert (P : 2 ^ w = 2 * 2 ^ (w - 1)) by (rewrite <- N.pow_succ_r'; f_equal; lia).
  lia.
Qed.

(** ** Periods of sequences *)

Lemma period_mul {B} (g : nat -> B) d : (forall k, g (k + d)%nat = g k) -> forall a k, g (k + a * d)%nat = g k.
Proof.
  intros H. induction a as [|a IH]; intros k; [f_equal; lia|].
  replace (k + S a * d)%nat with (k + a * d + d)%nat by lia. rewrite H. apply IH.
Qed.

Lemma period_gcd {B} (g : nat -> B) d m : (0 < m)%nat ->
  (forall k, g (k + d)%nat = g k) -> (forall k, g (k + m)%nat = g k) ->
  forall k, g (k + Nat.gcd m d)%nat = g k.
Proof.
  intros Hm Hd Hmm k. destruct (Nat.gcd_bezout_pos m d Hm) as [a [b E]].
  rewrite <- (period_mul g d Hd b). rewrite <- Nat.add_assoc, <- E. apply period_mul, Hmm.
Qed.

Lemma count_periods {B} (g : nat -> B) (p : B -> bool) c : (forall k, g (k + c)%nat = g k) -> forall q,
  length (filter (fun k => p (g k)) (seq 0 (q * c))) = (q * length (filter (fun k => p (g k)) (seq 0 c)))%nat.
Proof.
  intros H. induction q as [|q IH]; [reflexivity|].
  replace (S q * c)%nat with (q * c + c)%nat by lia. rewrite seq_app, filter_app, app_length, IH.
  cbn [Nat.add].
  assert (E : length (filter (fun k => p (g k)) (seq (q * c) c)) = length (filter (fun k => p (g k)) (seq 0 c))).
  { assert (S0 : forall l a, length (filter (fun k => p (g k)) (seq (a + q * c) l)) = length (filter (fun k => p (g k)) (seq a l))).
    { clear IH. induction l as [|l IHl]; intros a; [reflexivity|]. cbn [seq filter].
      rewrite (period_mul g c H q a). change (S (a + q * c)) with (S a + q * c)%nat.
      destruct (p (g a)); cbn [length]; rewrite IHl; reflexivity. }
    apply (S0 c 0%nat). }
  rewrite E. lia.
Qed.

Lemma odd_divides_pow2 q y x : 0 < y -> (q | 2 ^ y - 1) -> (q | 2 ^ x) -> q = 1.
Proof.
  intros Hy H1 H2. revert H2. induction x as [|x IH] using N.peano_ind; intros H2.
  - apply N.divide_1_r. exact H2.
  - apply IH. rewrite N.pow_succ_r' in H2. apply N.gauss with 2; [exact H2|].
    destruct (N.gcd_divide_r q 2) as [k Hk].
    assert (G : N.gcd q 2 = 1 \/ N.gcd q 2 = 2).
    { assert (N.gcd q 2 <= 2) by (apply N.divide_pos_le; [lia|apply N.gcd_divide_r]).
      assert (N.gcd q 2 <> 0) by (intros E; rewrite E in Hk; lia). lia. }
    destruct G as [G|G]; [exact G|]. exfalso.
    assert (D : (2 | 2 ^ y - 1)).
    { apply N.divide_trans with q; [|exact H1]. rewrite <- G. apply N.gcd_divide_l. }
    destruct D as [z Hz]. replace y with (N.succ (y - 1)) in Hz by lia. rewrite N.pow_succ_r' in Hz.
    pose proof (pow2_pos (y - 1)). lia.
Qed.

(** ** The visited states *)

Lemma after_add e i j st : after e (i + j) st = after e i (after e j st).
Proof. induction i; cbn; [reflexivity|]. rewrite IHi. reflexivity. Qed.

Lemma all_pow w n : N.of_nat (N.to_nat (2 ^ w) ^ n)%nat = 2 ^ (w * N.of_nat n).
Proof.
  induction n as [|n IH]; [rewrite N.mul_0_r; reflexivity|]. cbn [Nat.pow].
  rewrite Nat2N.inj_mul, IH, N2Nat.id, <- N.pow_add_r. f_equal. lia.
Qed.

Definition out_of (e : engine) (s : list N) : N := fst (draw e (mkRng s (state_size (e_fam e) - 1))).

Section Visit.
  Variable e : engine.
  Hypothesis Hcc : consts_ok e.
  Hypothesis HP : forall st k, rng_ok e st -> nonzero st ->
    (after e k st = st <-> (number_of_states e - 1 | N.of_nat k)).
  Variable st : rng.
  Hypothesis Hst : rng_ok e st.
  Hypothesis Hnz : nonzero st.

  Local Notation w := (e_w e).
  Local Notation n := (state_size (e_fam e)).
  Local Notation m := (N.to_nat (number_of_states e - 1)).
  Local Notation V := (map (fun k => r_s (after e k st)) (seq 0 m)).

  Lemma after_state k : after e k st = mkRng (r_s (after e k st)) (n - 1).
  Proof using All.
    destruct (after_ok e k st Hcc Hst) as [A [B C]]. destruct (after e k st) as [s p]. cbn in *. congruence.
  Qed.

  Lemma after_distinct i j : (i < j)%nat -> (j < m)%nat -> after e i st <> after e j st.
  Proof using All.
    intros Hij Hj E. replace j with (i + (j - i))%nat in E by lia. rewrite after_add in E.
    apply (after_inj e i st _ Hcc Hst) in E; [|apply after_ok; assumption].
    symmetry in E. apply HP in E; [|assumption|assumption].
    apply N.divide_pos_le in E; lia.
  Qed.

  Lemma visited_NoDup : NoDup V.
  Proof using All.
    apply NoDup_map_inj; [|apply seq_NoDup]. intros i j Hi Hj E. apply in_seq in Hi, Hj.
    assert (F : after e i st = after e j st) by (rewrite (after_state i), (after_state j), E; reflexivity).
    destruct (Nat.lt_trichotomy i j) as [H|[H|H]]; [|exact H|]; exfalso.
    - apply (after_distinct i j); [lia|lia|exact F].
    - apply (after_distinct j i); [lia|lia|congruence].
  Qed.

  Lemma visited : Permutation (repeat 0 n :: V) (all_states (words w) n).
  Proof using All.
    apply NoDup_Permutation_bis.
    - constructor; [|apply visited_NoDup]. intros H. apply in_map_iff in H. destruct H as [k [E _]].
      destruct (after_nonzero e k st Hcc Hst Hnz) as [x [Hx Hx0]]. rewrite E in Hx. apply repeat_spec in Hx. contradiction.
    - rewrite all_states_length, words_length. cbn [length]. rewrite map_length, seq_length.
      assert (Hp := all_pow w n). fold (number_of_states e) in Hp.
      assert (0 < number_of_states e) by apply pow2_pos. lia.
    - intros s [<-|H].
      + apply all_states_in. rewrite words_forall. split; [apply repeat_length|].
        apply Forall_forall. intros x Hx. apply repeat_spec in Hx. subst x. apply pow2_pos.
      + apply in_map_iff in H. destruct H as [k [<- _]].
        destruct (after_ok e k st Hcc Hst) as [A [B C]]. apply all_states_in. rewrite words_forall. auto.
  Qed.

  Lemma visits st' : rng_ok e st' -> nonzero st' ->
    exists k, N.of_nat k < number_of_states e - 1 /\ after e k st = st'.
  Proof using All.
    intros [A [B C]] [x [Hx Hx0]].
    assert (H : In (r_s st') (repeat 0 n :: V)).
    { eapply Permutation_in; [apply Permutation_sym, visited|]. apply all_states_in. rewrite words_forall. auto. }
    destruct H as [H|H].
    - rewrite <- H in Hx. apply repeat_spec in Hx. contradiction.
    - apply in_map_iff in H. destruct H as [k [E Hk]]. apply in_seq in Hk. exists k. split; [lia|].
      rewrite (after_state k), E. destruct st' as [s p]. cbn in *. congruence.
  Qed.

  (** ** Numbers of occurrences *)

  Variable i : nat.
  Hypothesis Hsol : solvable w n i (out_of e).
  Hypothesis Hz : out_of e (repeat 0 n) = 0.

  Lemma output_out k : output e k st = out_of e (r_s (after e k st)).
  Proof using All. unfold output, out_of. rewrite <- after_state. reflexivity. Qed.

  Lemma occurrences_count (p : N -> bool) :
    occurrences p e (number_of_states e - 1) st + (if p 0 then 1 else 0) =
    N.of_nat (length (filter p (words w))) * 2 ^ (w * N.of_nat (n - 1)).
  Proof using All.
    pose proof (count_out w n i (out_of e) p Hsol) as H.
    rewrite <- (filter_len_perm (fun s => p (out_of e s)) _ _ visited) in H.
    cbn [filter] in H. rewrite Hz, filter_map_comm in H.
    rewrite <- all_pow, <- words_length, <- Nat2N.inj_mul, <- H. unfold occurrences.
    assert (E : filter (fun k => p (output e k st)) (seq 0 m) =
                filter (fun k => p (out_of e (r_s (after e k st)))) (seq 0 m)).
    { apply filter_ext. intros k. rewrite output_out. reflexivity. }
    rewrite E. destruct (p 0); cbn [length]; rewrite map_length; lia.
  Qed.

  (** ** The period of what is observed of the outputs *)

  Lemma observed_period {B} (f : N -> B) (p : B -> bool) c d :
    0 < w * N.of_nat n -> p (f 0) = false ->
    length (filter (fun v => p (f v)) (words w)) = N.to_nat (2 ^ c) ->
    ((forall k, f (output e (k + d) st) = f (output e k st)) <-> (number_of_states e - 1 | N.of_nat d)).
  Proof using All.
    intros Hy Hp0 Hcount.
    assert (Hone : forall x, (number_of_states e - 1 | N.of_nat x) -> forall k, f (output e (k + x) st) = f (output e k st)).
    { intros x Hx k. unfold output. rewrite after_add. rewrite (proj2 (HP st x Hst Hnz) Hx). reflexivity. }
    split; [|apply Hone]. intros Hd.
    assert (Hm1 : 1 < number_of_states e).
    { unfold number_of_states. replace (w * N.of_nat n) with (N.succ (w * N.of_nat n - 1)) by lia.
      rewrite N.pow_succ_r'. pose proof (pow2_pos (w * N.of_nat n - 1)). lia. }
    assert (Hm : (0 < m)%nat) by lia.
    assert (Hper : forall k, f (output e (k + m) st) = f (output e k st)).
    { apply Hone. exists 1. lia. }
    set (g := fun k => f (output e k st)).
    pose proof (period_gcd g d m Hm Hd Hper) as Hg.
    destruct (Nat.gcd_divide_l m d) as [q Hq]. destruct (Nat.gcd_divide_r m d) as [r Hr].
    pose proof (occurrences_count (fun v => p (f v))) as Hocc. cbv beta in Hocc. rewrite Hp0, N.add_0_r, Hcount, N2Nat.id in Hocc.
    unfold occurrences in Hocc. rewrite Hq in Hocc.
    pose proof (count_periods g p _ Hg q) as Hcp. unfold g in Hcp. rewrite Hcp in Hocc.
    assert (Q : N.of_nat q = 1).
    { apply odd_divides_pow2 with (w * N.of_nat n) (c + w * N.of_nat (n - 1)).
      - exact Hy.
      - exists (N.of_nat (Nat.gcd m d)). fold (number_of_states e). lia.
      - rewrite N.pow_add_r, <- Hocc. rewrite Nat2N.inj_mul. apply N.divide_factor_l. }
    exists (N.of_nat r). rewrite Hr. assert (q = 1%nat) by lia. subst q. rewrite Nat2N.inj_mul. f_equal. lia.
  Qed.
End Visit.
