(** The transitions of the engines as linear maps on bit vectors, and their periods. *)
From Verif Require Import Base BaseProofs Random RandomSpec RandomProofs PeriodPrime PeriodLinear.
From Coq Require Import Btauto.
From Coq Require Import ZifyBool ZifyNat ZifyN.
Open Scope N_scope.

(** ** Registers as one bit vector *)

Fixpoint dec (w : N) (n : nat) (x : N) : list N :=
  match n with
  | O => []
  | S n => x mod 2 ^ w :: dec w n (N.shiftr x w)
  end.

Fixpoint enc (w : N) (l : list N) : N :=
  match l with
  | [] => 0
  | a :: l => N.lxor a (N.shiftl (enc w l) w)
  end.

Fixpoint zx (s t : list N) : list N :=
  match s, t with
  | a :: s, b :: t => N.lxor a b :: zx s t
  | _, _ => []
  end.

Lemma mod_lxor w x y : N.lxor x y mod 2 ^ w = N.lxor (x mod 2 ^ w) (y mod 2 ^ w).
Proof.
  apply N.bits_inj. intros i. rewrite N.lxor_spec. destruct (N.lt_ge_cases i w).
  - rewrite !N.mod_pow2_bits_low, N.lxor_spec by assumption. reflexivity.
  - rewrite !N.mod_pow2_bits_high by assumption. reflexivity.
Qed.

Lemma dec_length w n : forall x, length (dec w n x) = n.
Proof. induction n; cbn; intros; auto. Qed.

Lemma dec_words w n : forall x, Forall (is_word w) (dec w n x).
Proof.
  induction n; cbn; intros; constructor; auto. apply N.mod_lt, N.pow_nonzero. discriminate.
Qed.

Lemma dec_lxor w n : forall x y, dec w n (N.lxor x y) = zx (dec w n x) (dec w n y).
Proof.
  induction n; intros; cbn [dec zx]; [reflexivity|]. rewrite mod_lxor, N.shiftr_lxor, IHn. reflexivity.
Qed.

Lemma enc_zx w s : forall t, length s = length t -> enc w (zx s t) = N.lxor (enc w s) (enc w t).
Proof.
  induction s as [|a s IH]; destruct t as [|b t]; cbn [zx enc length]; intros E; try discriminate; [reflexivity|].
  rewrite IH by lia. rewrite N.shiftl_lxor. apply N.bits_inj. intros i. rewrite !N.lxor_spec. btauto.
Qed.

Lemma word_split w a x : a < 2 ^ w -> N.lxor a (N.shiftl x w) = a + 2 ^ w * x.
Proof.
  intros Ha. rewrite N.shiftl_mul_pow2, (N.mul_comm (2 ^ w)).
  symmetry. rewrite <- N.shiftl_mul_pow2. apply N.add_nocarry_lxor.
  apply N.bits_inj_0. intros i. rewrite N.land_spec. destruct (N.lt_ge_cases i w).
  - rewrite N.shiftl_spec_low by assumption. apply andb_false_r.
  - rewrite (bits_above a w i Ha) by assumption. reflexivity.
Qed.

Lemma dec_enc w s : Forall (is_word w) s -> dec w (length s) (enc w s) = s.
Proof.
  induction 1 as [|a s Ha Hs IH]; [reflexivity|]. cbn [length enc dec].
  assert (Hp : 2 ^ w <> 0) by (apply N.pow_nonzero; discriminate).
  rewrite word_split by exact Ha. f_equal.
  - rewrite N.add_comm, N.mul_comm, N.add_comm, N.mod_add by exact Hp. apply N.mod_small, Ha.
  - rewrite N.shiftr_div_pow2, N.mul_comm, N.div_add by exact Hp. rewrite N.div_small by exact Ha.
    rewrite N.add_0_l. exact IH.
Qed.

Lemma enc_lt w s : Forall (is_word w) s -> enc w s < 2 ^ (w * N.of_nat (length s)).
Proof.
  induction 1 as [|a s Ha Hs IH]; [cbn; rewrite N.mul_0_r; reflexivity|]. cbn [length enc].
  rewrite word_split by exact Ha. unfold is_word in Ha.
  replace (w * N.of_nat (S (length s))) with (w + w * N.of_nat (length s)) by lia.
  rewrite N.pow_add_r. nia.
Qed.

Lemma enc_dec w n : forall x, x < 2 ^ (w * N.of_nat n) -> enc w (dec w n x) = x.
Proof.
  induction n as [|n IH]; intros x H.
  - cbn in *. rewrite N.mul_0_r in H. cbn in H. lia.
  - cbn [dec enc]. assert (Hp : 2 ^ w <> 0) by (apply N.pow_nonzero; discriminate).
    rewrite word_split by (apply N.mod_lt, Hp).
    rewrite IH.
    + rewrite N.shiftr_div_pow2. pose proof (N.div_mod x (2 ^ w) Hp). lia.
    + rewrite N.shiftr_div_pow2. apply N.div_lt_upper_bound; [exact Hp|].
      rewrite <- N.pow_add_r. replace (w + w * N.of_nat n) with (w * N.of_nat (S n)) by lia. exact H.
Qed.

Lemma enc_zero w n : enc w (repeat 0 n) = 0.
Proof. induction n; cbn [repeat enc]; [reflexivity|]. rewrite IHn, N.shiftl_0_l. reflexivity. Qed.

(** ** Linearity *)

Lemma shl_lxor w x y k : shl w (N.lxor x y) k = N.lxor (shl w x k) (shl w y k).
Proof. unfold shl, wrap. rewrite N.shiftl_lxor. apply mod_lxor. Qed.

Lemma rotl_lxor w x y k : x < 2 ^ w -> y < 2 ^ w -> k <= w ->
  rotl w (N.lxor x y) k = N.lxor (rotl w x k) (rotl w y k).
Proof.
  intros Hx Hy Hk. unfold rotl. rewrite shl_lxor, N.shiftr_lxor.
  apply N.bits_inj. intros i. rewrite !N.lxor_spec, !N.lor_spec, !N.lxor_spec.
  destruct (N.lt_ge_cases i k).
  - assert (A : forall z, N.testbit (shl w z k) i = false).
    { intros z. unfold shl, wrap. rewrite N.mod_pow2_bits_low by lia. apply N.shiftl_spec_low. exact H. }
    rewrite !A. btauto.
  - assert (A : forall z, z < 2 ^ w -> N.testbit (N.shiftr z (w - k)) i = false).
    { intros z Hz. rewrite N.shiftr_spec by lia. apply (bits_above z w); [exact Hz|lia]. }
    rewrite !A by assumption. btauto.
Qed.

(** The constants of the shifts make sense, and the state has 2, 4 or 8 registers. *)
Definition plain (w : N) (f : family) : Prop :=
  match f with
  | Xoroshiro2 a b c => a <= w /\ c <= w
  | XoroshiroN _ _ _ _ => False
  | Xoshiro4 a b => 0 < a /\ b <= w
  | Xoshiro8 a b => b <= w
  end.

(** The transition of the registers. *)
Definition next (w : N) (f : family) (s : list N) : list N :=
  match f with
  | Xoroshiro2 a b c => xoroshiro2_transform w a b c s
  | XoroshiroN _ _ _ _ => s
  | Xoshiro4 a b => xoshiro4_transform w a b s
  | Xoshiro8 a b => xoshiro8_transform w a b s
  end.

Lemma transform_next e st : plain (e_w e) (e_fam e) ->
  transform e st = mkRng (next (e_w e) (e_fam e) (r_s st)) (r_p st).
Proof. unfold transform, next. destruct (e_fam e); cbn [plain]; intros; [reflexivity|contradiction|reflexivity|reflexivity]. Qed.

Ltac bits := apply N.bits_inj; let i := fresh "i" in intros i; rewrite ?N.lxor_spec; btauto.

Ltac words := repeat match goal with H : Forall _ (_ :: _) |- _ => inversion H; clear H; subst end;
  unfold is_word in *.

Lemma next_zx w f s t : plain w f -> length s = state_size f -> length t = state_size f ->
  Forall (is_word w) s -> Forall (is_word w) t ->
  next w f (zx s t) = zx (next w f s) (next w f t).
Proof.
  destruct f as [a b c|n a b c|a b|a b]; cbn [plain state_size next]; intros Hc Hs Ht Ws Wt.
  - destruct (length2 s Hs) as [s0 [s1 ->]]. destruct (length2 t Ht) as [t0 [t1 ->]].
    rewrite !xoroshiro2_closed by reflexivity. cbn [zx xoroshiro128_next]. words.
    replace (N.lxor (N.lxor s1 t1) (N.lxor s0 t0)) with (N.lxor (N.lxor s1 s0) (N.lxor t1 t0)) by bits.
    rewrite !rotl_lxor, shl_lxor by (try apply lxor_lt; tauto).
    repeat apply cons_eq; try reflexivity; bits.
  - contradiction.
  - destruct (length4 s Hs) as [s0 [s1 [s2 [s3 ->]]]]. destruct (length4 t Ht) as [t0 [t1 [t2 [t3 ->]]]].
    rewrite !xoshiro4_closed by reflexivity. cbn [zx xoshiro256_next]. words.
    replace (N.lxor (N.lxor s3 t3) (N.lxor s1 t1)) with (N.lxor (N.lxor s3 s1) (N.lxor t3 t1)) by bits.
    rewrite !rotl_lxor, shl_lxor by (try apply lxor_lt; tauto).
    repeat apply cons_eq; try reflexivity; bits.
  - destruct (length8 s Hs) as [s0 [s1 [s2 [s3 [s4 [s5 [s6 [s7 ->]]]]]]]].
    destruct (length8 t Ht) as [t0 [t1 [t2 [t3 [t4 [t5 [t6 [t7 ->]]]]]]]].
    rewrite !xoshiro8_closed by reflexivity. cbn [zx xoshiro512_next]. words.
    replace (N.lxor (N.lxor s7 t7) (N.lxor s3 t3)) with (N.lxor (N.lxor s7 s3) (N.lxor t7 t3)) by bits.
    rewrite !rotl_lxor, shl_lxor by (try apply lxor_lt; tauto).
    repeat apply cons_eq; try reflexivity; bits.
Qed.

Lemma next_ok w f s : plain w f -> length s = state_size f -> Forall (is_word w) s ->
  length (next w f s) = state_size f /\ Forall (is_word w) (next w f s).
Proof.
  intros Hc Hs Ws.
  assert (H : rng_ok (mkEngine w f (SPlus 0 1)) (mkRng s (state_size f - 1))).
  { split; [exact Hs|]. split; [exact Ws|reflexivity]. }
  apply transform_ok in H.
  - rewrite transform_next in H by exact Hc. destruct H as [H1 [H2 _]]. cbn in H1, H2. auto.
  - unfold consts_ok. cbn [e_fam e_w]. destruct f; cbn [plain] in Hc; tauto.
Qed.

(** The transition on bit vectors. *)
Definition trans (w : N) (f : family) (x : N) : N := enc w (next w f (dec w (state_size f) x)).

Lemma trans_add w f x y : plain w f -> trans w f (N.lxor x y) = N.lxor (trans w f x) (trans w f y).
Proof.
  intros Hc. unfold trans. rewrite dec_lxor, next_zx by (auto using dec_length, dec_words).
  apply enc_zx. rewrite !(proj1 (next_ok _ _ _ Hc (dec_length _ _ _) (dec_words _ _ _))). reflexivity.
Qed.

Definition bits_of (w : N) (f : family) : N := w * N.of_nat (state_size f).

Lemma trans_lt w f x : plain w f -> trans w f x < 2 ^ bits_of w f.
Proof.
  intros Hc. unfold trans, bits_of.
  destruct (next_ok _ _ _ Hc (dec_length w (state_size f) x) (dec_words w _ x)) as [H1 H2].
  apply enc_lt in H2. rewrite H1 in H2. exact H2.
Qed.

Lemma trans_enc w f s : length s = state_size f -> Forall (is_word w) s ->
  trans w f (enc w s) = enc w (next w f s).
Proof. intros H Ws. unfold trans. rewrite <- H, dec_enc by exact Ws. reflexivity. Qed.

Lemma after_enc e k st : plain (e_w e) (e_fam e) -> rng_ok e st ->
  enc (e_w e) (r_s (after e k st)) = N.iter (N.of_nat k) (trans (e_w e) (e_fam e)) (enc (e_w e) (r_s st)).
Proof.
  intros Hc Hst. assert (Hcc : consts_ok e) by (unfold consts_ok; destruct (e_fam e); cbn [plain] in Hc; tauto).
  induction k as [|k IH]; [reflexivity|].
  rewrite Nat2N.inj_succ, N.iter_succ, <- IH. cbn [after]. unfold draw. cbn [snd].
  destruct (after_ok e k st Hcc Hst) as [H1 [H2 _]].
  rewrite transform_next by exact Hc. cbn [r_s]. symmetry. apply trans_enc; assumption.
Qed.

Lemma enc_state_inj e st st' : rng_ok e st -> rng_ok e st' ->
  enc (e_w e) (r_s st) = enc (e_w e) (r_s st') -> st = st'.
Proof.
  intros [A [B C]] [A' [B' C']] E. destruct st as [s p], st' as [s' p']. cbn in *. subst p p'.
  f_equal. rewrite <- (dec_enc _ s B), <- (dec_enc _ s' B'), A, A', E. reflexivity.
Qed.

Lemma enc_nonzero e st : rng_ok e st -> nonzero st -> enc (e_w e) (r_s st) <> 0.
Proof.
  intros [A [B C]] [x [Hx Hn]] E. apply Hn.
  rewrite <- (dec_enc _ _ B), E in Hx. clear -Hx.
  revert Hx. generalize (length (r_s st)). intros n. 
  assert (G : dec (e_w e) n 0 = repeat 0 n).
  { induction n; cbn [dec repeat]; [reflexivity|]. rewrite N.shiftr_0_l, IHn, N.mod_0_l; [reflexivity|].
    apply N.pow_nonzero. discriminate. }
  rewrite G. apply repeat_spec.
Qed.

(** ** The criterion, for a family *)

Fixpoint states (w : N) (f : family) (c : nat) (s : list N) : list N :=
  match c with O => [] | S c => enc w s :: states w f c (next w f s) end.

Fixpoint states_end (w : N) (f : family) (c : nat) (s : list N) : N :=
  match c with O => enc w s | S c => states_end w f c (next w f s) end.

Lemma states_orbit w f c : plain w f -> forall s, length s = state_size f -> Forall (is_word w) s ->
  states w f c s = orbit (trans w f) c (enc w s) /\
  states_end w f c s = orbit_end (trans w f) c (enc w s).
Proof.
  intros Hc. induction c as [|c IH]; intros s Hs Ws; cbn [states states_end orbit orbit_end]; [auto|].
  destruct (next_ok w f s Hc Hs Ws) as [H1 H2]. destruct (IH _ H1 H2) as [E1 E2].
  rewrite E1, E2, !trans_enc by assumption. auto.
Qed.

Definition combination (w : N) (f : family) (vs : list N) (vend g : N) : N :=
  match g with N0 => 0 | Npos g => combine (trans w f) vs vend g end.

Fixpoint basis_from (w : N) (f : family) (vs : list N) (vend b : N) (gs : list N) : bool :=
  match gs with
  | [] => true
  | g :: gs => (combination w f vs vend g =? b) && basis_from w f vs vend (N.double b) gs
  end.

Definition first_state (f : family) : list N := 1 :: repeat 0 (state_size f - 1).

(** [P] annihilates the first basis vector, and the combinations [gs] of its orbit are the
    basis. *)
Definition basis_ok (w : N) (f : family) (P : N) (gs : list N) : bool :=
  let c := S (length gs) in
  let vs := states w f c (first_state f) in
  let vend := states_end w f c (first_state f) in
  (combination w f vs vend P =? 0) && basis_from w f vs vend 1 gs.

Lemma basis_from_nth w f vs vend gs : forall b j, basis_from w f vs vend b gs = true ->
  (j < length gs)%nat -> combination w f vs vend (nth j gs 0) = b * 2 ^ N.of_nat j.
Proof.
  induction gs as [|g gs IH]; cbn [length basis_from]; intros b j H Hj; [lia|].
  apply andb_true_iff in H. destruct H as [H1 H2]. apply N.eqb_eq in H1. destruct j as [|j]; cbn [nth].
  - cbn [N.of_nat]. rewrite N.pow_0_r, N.mul_1_r. exact H1.
  - rewrite (IH _ _ H2) by lia. rewrite N.double_spec, Nat2N.inj_succ, N.pow_succ_r'. lia.
Qed.

Lemma basis_annihilated w f P gs : plain w f -> 1 < 2 ^ w ->
  basis_ok w f P gs = true ->
  forall v, v < 2 ^ N.of_nat (length gs) -> act (trans w f) P v = 0.
Proof.
  intros Hc Hw H. unfold basis_ok in H. cbv zeta in H. apply andb_true_iff in H. destruct H as [H1 H2].
  apply N.eqb_eq in H1.
  assert (Hs : length (first_state f) = state_size f).
  { unfold first_state. cbn [length]. rewrite repeat_length. destruct f; cbn [state_size plain] in *; lia. }
  assert (Ws : Forall (is_word w) (first_state f)).
  { unfold first_state. constructor; [exact Hw|]. apply Forall_forall. intros x Hx.
    apply repeat_spec in Hx. subst. unfold is_word. lia. }
  destruct (states_orbit w f (S (length gs)) Hc _ Hs Ws) as [E1 E2]. rewrite E1, E2 in *.
  assert (Add : forall x y, trans w f (N.lxor x y) = N.lxor (trans w f x) (trans w f y)) by (intros; apply trans_add, Hc).
  assert (C : forall g, combination w f (orbit (trans w f) (S (length gs)) (enc w (first_state f)))
      (orbit_end (trans w f) (S (length gs)) (enc w (first_state f))) g = act (trans w f) g (enc w (first_state f))).
  { intros [|g]; [reflexivity|]. apply combine_act. }
  apply linear_basis.
  - intros x y. apply act_add, Add.
  - intros j Hj. pose proof (basis_from_nth _ _ _ _ _ _ j H2 Hj) as B.
    rewrite C, N.mul_1_l in B. rewrite <- B. rewrite C in H1.
    rewrite (act_comm _ Add), H1. apply act_zero, Add.
Qed.

Definition chain_ok (h : nat) (P : N) (ks : list (nat * list (N * N))) : bool :=
  let n := 2 * N.of_nat h in
  let t := N.lxor (2 ^ n) P in
  (product (chain_primes ks) =? 2 ^ n - 1) &&
  chain n P h (table n P h t) (table_end n P h t) ks 2 1 (2 ^ n - 1).

Lemma family_period e P gs h ks : plain (e_w e) (e_fam e) -> 1 < 2 ^ e_w e ->
  basis_ok (e_w e) (e_fam e) P gs = true ->
  chain_ok h P ks = true ->
  bits_of (e_w e) (e_fam e) = 2 * N.of_nat h -> length gs = (2 * h)%nat -> (0 < h)%nat ->
  Forall is_prime (chain_primes ks) ->
  forall st k, rng_ok e st -> nonzero st ->
  (after e k st = st <-> (2 ^ bits_of (e_w e) (e_fam e) - 1 | N.of_nat k)).
Proof.
  intros Hc Hw HB HC Hn Hg Hh HP st k Hst Hnz.
  assert (Hcc : consts_ok e) by (unfold consts_ok; destruct (e_fam e); cbn [plain] in Hc; tauto).
  assert (HZ : forall v, v < 2 ^ bits_of (e_w e) (e_fam e) -> act (trans (e_w e) (e_fam e)) P v = 0).
  { intros v Hv. apply (basis_annihilated _ _ P gs Hc Hw HB). rewrite Hg.
    replace (N.of_nat (2 * h)) with (bits_of (e_w e) (e_fam e)) by lia. exact Hv. }
  unfold chain_ok in HC. cbv zeta in HC. rewrite <- Hn in HC. apply andb_true_iff in HC. destruct HC as [C1 C2].
  apply N.eqb_eq in C1.
  pose proof Hst as [S1 [S2 S3]].
  assert (L : enc (e_w e) (r_s st) < 2 ^ bits_of (e_w e) (e_fam e)).
  { unfold bits_of. rewrite <- S1. apply enc_lt, S2. }
  rewrite <- (linear_period (trans (e_w e) (e_fam e)) (fun x y => trans_add _ _ x y Hc)
             (bits_of (e_w e) (e_fam e)) P h _ _ HZ (fun v _ => trans_lt _ _ v Hc) Hn eq_refl eq_refl ks
             _ (enc (e_w e) (r_s st))); auto.
  - rewrite <- after_enc by assumption. split; [intros ->; reflexivity|].
    apply enc_state_inj; auto. apply after_ok; assumption.
  - assert (2 ^ 1 <= 2 ^ bits_of (e_w e) (e_fam e)) by (apply N.pow_le_mono_r; lia).
    change (2 ^ 1) with 2 in H. lia.
  - apply enc_nonzero; assumption.
Qed.
