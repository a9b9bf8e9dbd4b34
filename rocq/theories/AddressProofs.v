(** Lemmas about addresses. *)
From Coq Require Import ZifyBool ZifyNat ZifyN.
From Verif Require Import Base BaseProofs BufferIter Address AddressSpec.

Ltac Zify.zify_post_hook ::= idtac.
Local Open Scope N_scope.

(** ** Numbers written with digits *)

Definition digits (k : N) (l : list N) : Prop := Forall (fun v => v < 2 ^ k) l.

Lemma number_app k a b : number k (a ++ b) = number k a + 2 ^ (k * N.of_nat (length a)) * number k b.
Proof.
  induction a as [|v a IH]; cbn [number app length].
  - cbn [N.of_nat]. rewrite N.mul_0_r, N.pow_0_r. lia.
  - rewrite IH. replace (k * N.of_nat (S (length a))) with (k + k * N.of_nat (length a)) by lia.
    rewrite N.pow_add_r, N.mul_add_distr_l, N.mul_assoc. lia.
Qed.
Lemma number_lt k l : digits k l -> number k l < 2 ^ (k * N.of_nat (length l)).
Proof.
  induction 1 as [|v l Hv Hl IH]; cbn [number length].
  - cbn [N.of_nat]. rewrite N.mul_0_r, N.pow_0_r. lia.
  - replace (k * N.of_nat (S (length l))) with (k + k * N.of_nat (length l)) by lia.
    rewrite N.pow_add_r. revert Hv IH. generalize (2 ^ k), (2 ^ (k * N.of_nat (length l))), (number k l).
    intros P Q X H1 H2. nia.
Qed.
Lemma digits_app k a b : digits k (a ++ b) <-> digits k a /\ digits k b.
Proof. apply Forall_app. Qed.
Lemma number_inj k a b : digits k a -> digits k b -> length a = length b -> number k a = number k b -> a = b.
Proof.
  intros Ha. revert b. induction Ha as [|v a Hv Ha IH]; intros [|u b] Hb L E; cbn in *; try discriminate; auto.
  inversion Hb; subst. assert (v = u /\ number k a = number k b) as [-> En].
  { revert E Hv H1. generalize (2 ^ k), (number k a), (number k b). intros P X Y E H3 H4.
    assert (X = Y) by nia. subst. split; auto. lia. }
  f_equal. apply IH; auto.
Qed.
Lemma number_repeat_0 k n : number k (repeat 0 n) = 0.
Proof. induction n; cbn [number repeat]; auto. rewrite IHn. lia. Qed.
Lemma number_repeat_max k n : number k (repeat (2 ^ k - 1) n) = 2 ^ (k * N.of_nat n) - 1.
Proof.
  induction n as [|n IH]; cbn [number repeat].
  - rewrite N.mul_0_r. auto.
  - rewrite IH. replace (k * N.of_nat (S n)) with (k + k * N.of_nat n) by lia. rewrite N.pow_add_r.
    pose proof (pow2_pos k). pose proof (pow2_pos (k * N.of_nat n)).
    revert H H0. generalize (2 ^ k), (2 ^ (k * N.of_nat n)). intros P Q H1 H2. nia.
Qed.

(** ** Dimensions *)

Lemma dims bits : (0 < bits)%nat -> exists m,
  bits = (vbits bits * (nv bits - 1) + m)%nat /\ (1 <= m <= vbits bits)%nat /\ (1 <= nv bits)%nat /\
  ((vbits bits = 32)%nat \/ (vbits bits = 64 /\ nv bits = 1 /\ 32 < bits)%nat) /\
  ((nv bits = 1)%nat \/ (3 <= nv bits /\ vbits bits = 32)%nat) /\
  (vbits bits = 8 * vbytes bits)%nat /\ (nb bits <= vbytes bits * nv bits)%nat /\ (bits <= 8 * nb bits)%nat.
Proof.
  intros H. unfold vbits, nv, nb, vbytes, vbits. destruct (Nat.eqb_spec ((bits + 31) / 32) 2) as [E|E].
  - assert (32 < bits <= 64)%nat.
    { pose proof (Nat.div_mod (bits + 31) 32 ltac:(lia)). pose proof (Nat.mod_upper_bound (bits + 31) 32 ltac:(lia)). lia. }
    assert ((bits + 63) / 64 = 1)%nat as ->.
    { symmetry. apply (Nat.div_unique _ _ _ (bits + 63 - 64)); lia. }
    exists bits. change (64 / 8)%nat with 8%nat.
    pose proof (Nat.div_mod (bits + 7) 8 ltac:(lia)). pose proof (Nat.mod_upper_bound (bits + 7) 8 ltac:(lia)).
    repeat split; try lia.
  - pose proof (Nat.div_mod (bits + 31) 32 ltac:(lia)). pose proof (Nat.mod_upper_bound (bits + 31) 32 ltac:(lia)).
    assert (1 <= (bits + 31) / 32)%nat by lia.
    exists (bits - 32 * ((bits + 31) / 32 - 1))%nat. change (32 / 8)%nat with 4%nat.
    pose proof (Nat.div_mod (bits + 7) 8 ltac:(lia)). pose proof (Nat.mod_upper_bound (bits + 7) 8 ltac:(lia)).
    repeat split; try lia.
Qed.

(** Any values, not reduced yet; and addresses. *)
Definition raw (bits : nat) (a : addr) : Prop :=
  length a = nv bits /\ digits (N.of_nat (vbits bits)) a.
Definition wf (bits : nat) (a : addr) : Prop := raw bits a /\ value bits a < modulus bits.

Lemma gap K n b m : (b = K * (n - 1) + m -> m <= K -> 1 <= n -> K * n - b = K - m /\ K * n = b + (K - m))%nat.
Proof.
  intros E H1 H2. destruct n as [|n]; [lia|]. replace (S n - 1)%nat with n in E by lia.
  rewrite Nat.mul_succ_r. lia.
Qed.
Lemma msv_mask_ones bits m : (0 < bits)%nat -> bits = (vbits bits * (nv bits - 1) + m)%nat ->
  (1 <= m <= vbits bits)%nat -> (1 <= nv bits)%nat -> msv_mask bits = N.ones (N.of_nat m).
Proof.
  intros Hb Em Hm Hn. unfold msv_mask, v_mask, vmod.
  assert (E : (vbits bits * nv bits - bits = vbits bits - m)%nat).
  { apply (gap _ _ _ _ Em); lia. }
  rewrite E. replace (2 ^ N.of_nat (vbits bits) - 1) with (N.ones (N.of_nat (vbits bits))).
  2: { rewrite N.ones_equiv. lia. }
  apply N.bits_inj. intros i. rewrite N.shiftr_spec'.
  destruct (N.lt_ge_cases i (N.of_nat m)).
  - rewrite !N.ones_spec_low; auto; lia.
  - rewrite !N.ones_spec_high; auto; lia.
Qed.

Lemma split_last {A} (l : list A) (n : nat) : length l = S n -> exists r t, l = r ++ [t] /\ length r = n.
Proof.
  intros H. destruct (@exists_last _ l) as [r [t E]].
  - intros ->. discriminate.
  - exists r, t. split; auto. subst l. rewrite app_length in H. cbn in H. lia.
Qed.

Lemma mask_raw bits a : (0 < bits)%nat -> raw bits a ->
  wf bits (mask_msv bits a) /\ value bits (mask_msv bits a) = value bits a mod modulus bits.
Proof.
  intros Hb [L D]. destruct (dims bits Hb) as [m [Em [Hm [Hn _]]]].
  unfold mask_msv. rewrite (msv_mask_ones bits m Hb Em Hm Hn).
  destruct (split_last a (nv bits - 1)) as [r [t [-> Lr]]]; [lia|].
  replace (lim (r ++ [t]) (nv bits - 1)) with t.
  2: { unfold lim. rewrite app_nth2 by lia. rewrite Lr, Nat.sub_diag. auto. }
  assert (U : forall y, upd (r ++ [t]) (nv bits - 1) y = r ++ [y]) by (intros y; rewrite <- Lr; apply upd_last).
  rewrite U, N.land_ones.
  apply digits_app in D. destruct D as [Dr Dt]. inversion Dt as [|? ? Ht _]; subst.
  set (k := N.of_nat (vbits bits)) in *.
  assert (Hp : 2 ^ N.of_nat m <> 0) by (apply N.pow_nonzero; lia).
  assert (Hlt : t mod 2 ^ N.of_nat m < 2 ^ N.of_nat m) by (apply N.mod_lt; auto).
  assert (Hle : 2 ^ N.of_nat m <= 2 ^ k) by (apply N.pow_le_mono_r; lia).
  assert (Emod : modulus bits = 2 ^ (k * N.of_nat (length r)) * 2 ^ N.of_nat m).
  { unfold modulus. rewrite <- N.pow_add_r. f_equal. rewrite Lr. unfold k. rewrite Em at 1. lia. }
  pose proof (number_lt k r Dr) as Hr.
  assert (V : value bits (r ++ [t mod 2 ^ N.of_nat m]) = value bits (r ++ [t]) mod modulus bits).
  { unfold value. fold k. rewrite !number_app. cbn [number]. rewrite !N.mul_0_r, !N.add_0_r. rewrite Emod.
    set (P := 2 ^ (k * N.of_nat (length r))) in *. set (Q := 2 ^ N.of_nat m) in *.
    rewrite N.mod_mul_r by lia. rewrite (N.mul_comm P t) at 1. rewrite N.mod_add by lia.
    rewrite (N.mod_small (number k r)) by auto. rewrite (N.mul_comm P t), N.div_add by lia.
    rewrite (N.div_small (number k r)) by auto. auto. }
  split; auto. split.
  - split; [rewrite app_length; cbn; lia|]. apply digits_app. split; auto. constructor; auto. fold k. lia.
  - rewrite V. apply N.mod_lt. unfold modulus. apply N.pow_nonzero. lia.
Qed.

Lemma modulus_divides bits : (0 < bits)%nat ->
  exists q, 2 ^ (N.of_nat (vbits bits) * N.of_nat (nv bits)) = modulus bits * q.
Proof.
  intros Hb. destruct (dims bits Hb) as [m [Em [Hm [Hn _]]]].
  exists (2 ^ N.of_nat (vbits bits - m)). unfold modulus. rewrite <- N.pow_add_r. f_equal.
  destruct (gap _ _ _ _ Em) as [_ G]; lia.
Qed.
(** Reducing what a computation modulo the size of the data gives. *)
Lemma mask_of bits a x : (0 < bits)%nat -> raw bits a ->
  value bits a = x mod 2 ^ (N.of_nat (vbits bits) * N.of_nat (nv bits)) ->
  wf bits (mask_msv bits a) /\ value bits (mask_msv bits a) = x mod modulus bits.
Proof.
  intros Hb R V. destruct (mask_raw bits a Hb R) as [W E]. split; auto. rewrite E, V.
  destruct (modulus_divides bits Hb) as [q Eq]. rewrite Eq.
  assert (modulus bits <> 0) by (apply N.pow_nonzero; lia).
  assert (q <> 0). { intros ->. rewrite N.mul_0_r in Eq. apply N.pow_nonzero in Eq; auto. lia. }
  rewrite N.mod_mul_r by auto. rewrite N.mul_comm, N.mod_add by auto. apply N.mod_mod. auto.
Qed.

Lemma wf_assign0 bits : (0 < bits)%nat -> wf bits (assign0 bits) /\ value bits (assign0 bits) = 0.
Proof.
  intros Hb. unfold assign0, value. split; [split; [split|]|].
  - apply repeat_length.
  - apply Forall_forall. intros v Hv. apply repeat_spec in Hv. subst. apply pow2_pos.
  - unfold value. rewrite number_repeat_0. apply pow2_pos.
  - apply number_repeat_0.
Qed.

(** ** Comparisons *)

Lemma equal_from_spec l : forall r, length l = length r -> equal_from l r = true <-> l = r.
Proof.
  induction l as [|x l IH]; intros [|y r] L; cbn in *; try discriminate; [tauto|].
  destruct (N.eqb_spec x y) as [-> |Hn]; cbn.
  - rewrite IH by lia. split; congruence.
  - split; congruence.
Qed.
Lemma single_form bits a : raw bits a -> single bits = true -> a = [lim a 0] /\ value bits a = lim a 0.
Proof.
  intros [L _] H. unfold single in H. apply Nat.eqb_eq in H. rewrite H in L.
  destruct a as [|x [|? ?]]; try discriminate. split; auto. unfold value. cbn. lia.
Qed.
Lemma equal_spec bits a b : raw bits a -> raw bits b -> equal bits a b = (value bits a =? value bits b).
Proof.
  intros Ra Rb. unfold equal. destruct (single bits) eqn:S.
  - rewrite (proj2 (single_form bits a Ra S)), (proj2 (single_form bits b Rb S)). auto.
  - destruct Ra as [La Da], Rb as [Lb Db].
    destruct (N.eqb_spec (value bits a) (value bits b)) as [E|E].
    + apply equal_from_spec; [lia|]. eapply number_inj; eauto. lia.
    + destruct (equal_from a b) eqn:Eq; auto. apply equal_from_spec in Eq; [|lia]. congruence.
Qed.

Lemma firstn_S_snoc {A} (d : A) l i : (i < length l)%nat -> firstn (S i) l = firstn i l ++ [nth i l d].
Proof.
  revert i. induction l as [|x l IH]; intros [|i] H; cbn in *; try lia; auto. f_equal. apply IH. lia.
Qed.
Lemma digits_nth k l i : digits k l -> (i < length l)%nat -> nth i l 0 < 2 ^ k.
Proof. intros D H. eapply Forall_forall in D; [exact D|]. apply nth_In. auto. Qed.
Lemma digits_firstn k l i : digits k l -> digits k (firstn i l).
Proof. intros D. rewrite <- (firstn_skipn i l) in D. apply digits_app in D. tauto. Qed.

Lemma compare_top (x y X Y P : N) : X < P -> Y < P ->
  (x < y -> X + P * x < Y + P * y) /\ (X + P * x < Y + P * y -> x <= y) /\ (x = y -> (X + P * x < Y + P * y <-> X < Y)).
Proof.
  intros HX HY. split; [|split].
  - intros H. assert (P * (x + 1) <= P * y) by (apply N.mul_le_mono_l; lia). lia.
  - intros H. destruct (N.le_gt_cases x y); auto. assert (P * (y + 1) <= P * x) by (apply N.mul_le_mono_l; lia). lia.
  - intros ->. lia.
Qed.
Lemma less_than_from_spec k a b i : digits k a -> digits k b -> (i <= length a)%nat -> (i <= length b)%nat ->
  less_than_from i a b = (number k (firstn i a) <? number k (firstn i b)).
Proof.
  intros Da Db. induction i as [|i IH]; intros Ha Hb; cbn [less_than_from]; auto.
  rewrite (firstn_S_snoc 0 a i), (firstn_S_snoc 0 b i) by lia. rewrite !number_app. cbn [number].
  rewrite !N.mul_0_r, !N.add_0_r. rewrite !firstn_length_le by lia. unfold lim.
  set (P := 2 ^ (k * N.of_nat i)).
  assert (HX : number k (firstn i a) < P).
  { unfold P. replace (N.of_nat i) with (N.of_nat (length (firstn i a))) by (rewrite firstn_length_le; lia).
    apply number_lt, digits_firstn. auto. }
  assert (HY : number k (firstn i b) < P).
  { unfold P. replace (N.of_nat i) with (N.of_nat (length (firstn i b))) by (rewrite firstn_length_le; lia).
    apply number_lt, digits_firstn. auto. }
  specialize (IH ltac:(lia) ltac:(lia)). revert IH HX HY.
  generalize (number k (firstn i a)), (number k (firstn i b)), (nth i a 0), (nth i b 0). intros X Y x y IH HX HY.
  destruct (compare_top x y X Y P HX HY) as [C1 [C2 C3]]. destruct (compare_top y x Y X P HY HX) as [D1 [D2 D3]].
  destruct (N.ltb_spec y x); [symmetry; apply N.ltb_ge; lia|].
  destruct (N.ltb_spec x y); [symmetry; apply N.ltb_lt; lia|].
  assert (x = y) by lia. rewrite IH. destruct (N.ltb_spec X Y), (N.ltb_spec (X + P * x) (Y + P * y)); auto; lia.
Qed.
Lemma less_equal_from_spec i a b : less_equal_from i a b = negb (less_than_from i b a).
Proof.
  induction i as [|i IH]; cbn; auto. rewrite IH. destruct (N.ltb_spec (lim a i) (lim b i)); auto.
  destruct (N.ltb_spec (lim b i) (lim a i)); auto.
Qed.
Lemma less_than_spec bits a b : raw bits a -> raw bits b -> less_than bits a b = (value bits a <? value bits b).
Proof.
  intros Ra Rb. unfold less_than. destruct (single bits) eqn:S.
  - rewrite (proj2 (single_form bits a Ra S)), (proj2 (single_form bits b Rb S)). auto.
  - destruct Ra as [La Da], Rb as [Lb Db].
    rewrite (less_than_from_spec (N.of_nat (vbits bits))) by (auto; lia).
    rewrite !firstn_all2 by lia. auto.
Qed.
Lemma less_equal_spec bits a b : raw bits a -> raw bits b -> less_equal bits a b = (value bits a <=? value bits b).
Proof.
  intros Ra Rb. unfold less_equal. destruct (single bits) eqn:S.
  - rewrite (proj2 (single_form bits a Ra S)), (proj2 (single_form bits b Rb S)). auto.
  - pose proof (less_than_spec bits b a Rb Ra) as H. unfold less_than in H. rewrite S in H.
    rewrite less_equal_from_spec, H. rewrite N.leb_antisym. auto.
Qed.

(** ** Arithmetic *)

Local Open Scope Z_scope.

Definition zn (k : N) (l : list N) : Z := Z.of_N (number k l).
Definition pw (k : N) (n : nat) : Z := 2 ^ (Z.of_N k * Z.of_nat n).
Definition zbase (k : N) : Z := 2 ^ Z.of_N k.

Lemma zn_cons k v l : zn k (v :: l) = Z.of_N v + zbase k * zn k l.
Proof. unfold zn, zbase. cbn [number]. rewrite N2Z.inj_add, N2Z.inj_mul, N2Z.inj_pow. auto. Qed.
Lemma zn_nil k : zn k [] = 0.
Proof. auto. Qed.
Lemma pw_0 k : pw k 0 = 1.
Proof. unfold pw. rewrite Z.mul_0_r. auto. Qed.
Lemma pw_S k n : pw k (S n) = zbase k * pw k n.
Proof. unfold pw, zbase. rewrite <- Z.pow_add_r by lia. f_equal. lia. Qed.
Lemma zbase_pos k : 0 < zbase k.
Proof. apply Z.pow_pos_nonneg; lia. Qed.
Lemma zbase_N k : Z.of_N (2 ^ k) = zbase k.
Proof. unfold zbase. rewrite N2Z.inj_pow. auto. Qed.
Lemma digit_Z k v : (v < 2 ^ k)%N <-> 0 <= Z.of_N v < zbase k.
Proof. rewrite <- zbase_N. lia. Qed.

(** Equal modulo [n] digits. *)
Definition cong (k : N) (n : nat) (x y : Z) : Prop := exists c, x = y + c * pw k n.

Lemma mask_cong bits a x : (0 < bits)%nat -> raw bits a -> cong (N.of_nat (vbits bits)) (nv bits) (zvalue bits a) x ->
  wf bits (mask_msv bits a) /\ zvalue bits (mask_msv bits a) = x mod zmodulus bits.
Proof.
  intros Hb R [c E]. destruct (mask_raw bits a Hb R) as [W V]. split; auto.
  unfold zvalue in *. rewrite V. rewrite N2Z.inj_mod. unfold modulus. rewrite N2Z.inj_pow, nat_N_Z.
  change (2 ^ Z.of_nat bits) with (zmodulus bits). rewrite E.
  destruct (modulus_divides bits Hb) as [q Eq]. apply (f_equal Z.of_N) in Eq.
  unfold modulus in Eq. rewrite N2Z.inj_mul, !N2Z.inj_pow, !nat_N_Z, N2Z.inj_mul, !nat_N_Z in Eq.
  unfold pw. rewrite nat_N_Z. change (Z.of_N 2) with 2 in *. rewrite Eq. unfold zmodulus.
  rewrite (Z.mul_comm (2 ^ Z.of_nat bits)), Z.mul_assoc. apply Z.mod_add.
  apply Z.pow_nonzero; lia.
Qed.
Lemma wf_range bits a : wf bits a -> 0 <= zvalue bits a < zmodulus bits.
Proof.
  intros [_ H]. unfold zvalue, zmodulus, modulus in *. rewrite <- nat_N_Z, <- (N2Z.inj_pow 2). lia.
Qed.

Lemma single_cong bits a v x : (0 < bits)%nat -> raw bits a -> single bits = true -> (v < vmod bits)%N ->
  cong (N.of_nat (vbits bits)) 1 (Z.of_N v) x ->
  wf bits (mask_msv bits (upd a 0 v)) /\ zvalue bits (mask_msv bits (upd a 0 v)) = x mod zmodulus bits.
Proof.
  intros Hb R S Hv C. destruct (single_form bits a R S) as [Ea _]. rewrite Ea. cbn [upd].
  assert (En : nv bits = 1%nat) by (apply Nat.eqb_eq; auto).
  apply mask_cong; auto.
  - split; [cbn; lia|]. constructor; auto.
  - rewrite En. unfold zvalue, value. cbn [number]. rewrite N.mul_0_r, N.add_0_r. auto.
Qed.
Lemma zvalue_single bits a : raw bits a -> single bits = true -> zvalue bits a = Z.of_N (lim a 0).
Proof. intros R S. unfold zvalue. rewrite (proj2 (single_form bits a R S)). auto. Qed.
Lemma cong_mod k x : cong k 1 (x mod zbase k) x.
Proof.
  exists (- (x / zbase k)). rewrite pw_S, pw_0. pose proof (zbase_pos k).
  rewrite (Z.div_mod x (zbase k)) at 2 by lia. lia.
Qed.
Lemma mod_Z k x : Z.of_N (x mod 2 ^ k)%N = Z.of_N x mod zbase k.
Proof. rewrite N2Z.inj_mod, zbase_N. auto. Qed.

Lemma inc_loop_spec k l : digits k l -> digits k (inc_loop (2 ^ k) l) /\ length (inc_loop (2 ^ k) l) = length l /\
  cong k (length l) (zn k (inc_loop (2 ^ k) l)) (zn k l + 1).
Proof.
  induction 1 as [|v l Hv Hl [ID [IL [c IC]]]]; cbn [inc_loop].
  - split; [constructor|]. split; auto. exists (-1). cbn [length]. rewrite pw_0, zn_nil. lia.
  - pose proof (pow2_pos k) as Hp. assert (Hm : ((v + 1) mod 2 ^ k < 2 ^ k)%N) by (apply N.mod_lt; lia).
    destruct (N.eq_dec (v + 1) (2 ^ k)) as [E|E].
    + rewrite E, N.mod_same by lia. cbn [N.ltb N.compare negb]. split; [constructor; auto; lia|].
      split; [cbn; lia|]. exists c. cbn [length]. rewrite !zn_cons, pw_S, IC.
      apply (f_equal Z.of_N) in E. rewrite zbase_N, N2Z.inj_add in E. cbn [Z.of_N] in *.
      replace (Z.of_N v) with (zbase k - 1) by lia. ring.
    + rewrite N.mod_small in * by lia. destruct (N.ltb_spec (v + 1) 1); [lia|]. cbn [negb].
      split; [constructor; auto|]. split; [cbn; lia|]. exists 0. rewrite !zn_cons, N2Z.inj_add. lia.
Qed.
Lemma dec_loop_spec k l : digits k l -> digits k (dec_loop (2 ^ k) l) /\ length (dec_loop (2 ^ k) l) = length l /\
  cong k (length l) (zn k (dec_loop (2 ^ k) l)) (zn k l - 1).
Proof.
  induction 1 as [|v l Hv Hl [ID [IL [c IC]]]]; cbn [dec_loop].
  - split; [constructor|]. split; auto. exists 1. cbn [length]. rewrite pw_0, zn_nil. lia.
  - pose proof (pow2_pos k) as Hp.
    assert (Hm : ((v + (2 ^ k - 1)) mod 2 ^ k < 2 ^ k)%N) by (apply N.mod_lt; lia).
    destruct (N.eq_dec v 0) as [-> |E].
    + rewrite N.add_0_l in *. rewrite N.mod_small in * by lia. rewrite N.ltb_irrefl.
      split; [constructor; auto|]. split; [cbn; lia|]. exists c. cbn [length]. rewrite !zn_cons, pw_S, IC.
      rewrite N2Z.inj_sub by lia. rewrite zbase_N. cbn [Z.of_N]. ring.
    + replace (v + (2 ^ k - 1))%N with (v - 1 + 1 * 2 ^ k)%N in * by lia. rewrite N.mod_add in * by lia.
      rewrite N.mod_small in * by lia. destruct (N.ltb_spec (v - 1) (2 ^ k - 1)); [|lia].
      split; [constructor; auto|]. split; [cbn; lia|]. exists 0. rewrite !zn_cons, N2Z.inj_sub by lia. lia.
Qed.

Lemma increment_spec bits a : (0 < bits)%nat -> raw bits a ->
  wf bits (increment bits a) /\ zvalue bits (increment bits a) = (zvalue bits a + 1) mod zmodulus bits.
Proof.
  intros Hb R. unfold increment. destruct (single bits) eqn:S.
  - apply single_cong; auto.
    + apply N.mod_lt. apply N.pow_nonzero. lia.
    + unfold vmod. rewrite mod_Z, N2Z.inj_add, <- (zvalue_single bits) by auto. apply cong_mod.
  - destruct R as [L D]. destruct (inc_loop_spec _ a D) as [D' [L' C]]. apply mask_cong; auto.
    + split; auto. unfold vmod. lia.
    + rewrite <- L. exact C.
Qed.
Lemma decrement_spec bits a : (0 < bits)%nat -> raw bits a ->
  wf bits (decrement bits a) /\ zvalue bits (decrement bits a) = (zvalue bits a - 1) mod zmodulus bits.
Proof.
  intros Hb R. unfold decrement. destruct (single bits) eqn:S.
  - apply single_cong; auto.
    + apply N.mod_lt. apply N.pow_nonzero. lia.
    + unfold vmod. rewrite mod_Z, N2Z.inj_add, <- (zvalue_single bits) by auto.
      pose proof (pow2_pos (N.of_nat (vbits bits))). rewrite N2Z.inj_sub by lia. rewrite zbase_N.
      destruct (cong_mod (N.of_nat (vbits bits)) (zvalue bits a + (zbase (N.of_nat (vbits bits)) - Z.of_N 1))) as [c E].
      exists (c + 1). rewrite E, pw_S, pw_0. cbn [Z.of_N]. ring.
  - destruct R as [L D]. destruct (dec_loop_spec _ a D) as [D' [L' C]]. apply mask_cong; auto.
    + split; auto. unfold vmod. lia.
    + rewrite <- L. exact C.
Qed.

Lemma land_mask x : N.land x (2 ^ 32 - 1) = (x mod 2 ^ 32)%N.
Proof. change (2 ^ 32 - 1)%N with (N.ones 32). apply N.land_ones. Qed.
Lemma digit32 x : (N.land x (2 ^ 32 - 1) < 2 ^ 32)%N.
Proof. rewrite land_mask. apply N.mod_lt. discriminate. Qed.
Lemma no_wrap x y z : (x < 2 ^ 32 -> y < 2 ^ 32 -> z < 2 ^ 32 -> w64 (w64 (x + y) + z) = x + y + z)%N.
Proof.
  intros H1 H2 H3. rewrite (w64_small (x + y)); [apply w64_small|];
    revert H1 H2 H3; change (2 ^ 64)%N with 18446744073709551616%N; change (2 ^ 32)%N with 4294967296%N; lia.
Qed.
Lemma add_loop_spec ex : (ex < 2 ^ 32)%N -> forall l carry, digits 32 l -> (carry < 2 ^ 64)%N ->
  digits 32 (add_loop ex carry l) /\ length (add_loop ex carry l) = length l /\
  cong 32 (length l) (zn 32 (add_loop ex carry l))
    (Z.of_N carry / 2 ^ 32 + zn 32 (repeat ex (length l)) + zn 32 l).
Proof.
  intros Hx. induction l as [|v l IH]; intros carry D Hc; cbn [add_loop].
  - split; [constructor|]. split; auto. exists (- (Z.of_N carry / 2 ^ 32)). cbn [length repeat].
    rewrite pw_0, zn_nil. lia.
  - inversion D as [|? ? Hv Dl]; subst. rewrite N.shiftr_div_pow2.
    assert (Hs : (carry / 2 ^ 32 < 2 ^ 32)%N) by (apply N.div_lt_upper_bound; [discriminate|exact Hc]).
    assert (Ew : w64 (w64 (carry / 2 ^ 32 + ex) + v) = (carry / 2 ^ 32 + ex + v)%N).
    { apply no_wrap; auto. }
    rewrite Ew. set (t := (carry / 2 ^ 32 + ex + v)%N) in *.
    destruct (IH t Dl) as [ID [IL [c IC]]].
    { unfold t. revert Hs Hx Hv. change (2 ^ 64)%N with 18446744073709551616%N. change (2 ^ 32)%N with 4294967296%N. lia. }
    split; [constructor; auto; apply digit32|]. split; [cbn; lia|]. exists c. cbn [length repeat].
    rewrite !zn_cons, pw_S, IC, land_mask, mod_Z. change (zbase 32) with (2 ^ 32).
    assert (Et : Z.of_N t = Z.of_N carry / 2 ^ 32 + Z.of_N ex + Z.of_N v).
    { unfold t. rewrite !N2Z.inj_add, N2Z.inj_div. auto. }
    rewrite Z.mod_eq by lia. rewrite Et at 1. ring_simplify. ring.
Qed.

Lemma add_values_spec lo hi ex a : (lo < 2 ^ 32)%N -> (hi < 2 ^ 32)%N -> (ex < 2 ^ 32)%N ->
  digits 32 a -> (3 <= length a)%nat ->
  digits 32 (add_values lo hi ex a) /\ length (add_values lo hi ex a) = length a /\
  cong 32 (length a) (zn 32 (add_values lo hi ex a))
    (zn 32 a + zn 32 (lo :: hi :: repeat ex (length a - 2))).
Proof.
  intros Hl Hh Hx D L. destruct a as [|v0 [|v1 r]]; try (cbn in L; lia). unfold add_values.
  inversion D as [|? ? D0 D']; subst. inversion D' as [|? ? D1 Dr]; subst.
  assert (E0 : w64 (lo + v0) = (lo + v0)%N).
  { apply w64_small. revert Hl D0. change (2 ^ 64)%N with 18446744073709551616%N. change (2 ^ 32)%N with 4294967296%N. lia. }
  rewrite E0. rewrite N.shiftr_div_pow2. set (t0 := (lo + v0)%N) in *.
  assert (Hs : (t0 / 2 ^ 32 < 2 ^ 32)%N).
  { apply N.div_lt_upper_bound; [discriminate|]. unfold t0. revert Hl D0. change (2 ^ 32)%N with 4294967296%N. lia. }
  rewrite (no_wrap (t0 / 2 ^ 32) hi v1) by auto. set (t1 := (t0 / 2 ^ 32 + hi + v1)%N) in *.
  destruct (add_loop_spec ex Hx r t1 Dr) as [ID [IL [c IC]]].
  { unfold t1. revert Hs Hh D1. change (2 ^ 64)%N with 18446744073709551616%N. change (2 ^ 32)%N with 4294967296%N. lia. }
  split; [constructor; [apply digit32|constructor; [apply digit32|auto]]|]. split; [cbn; lia|].
  exists c. cbn [length]. replace (S (S (length r)) - 2)%nat with (length r) by lia.
  rewrite !zn_cons, !pw_S, IC, !land_mask, !mod_Z. change (zbase 32) with (2 ^ 32).
  assert (Et0 : Z.of_N t0 = Z.of_N lo + Z.of_N v0) by (unfold t0; rewrite N2Z.inj_add; auto).
  assert (Et1 : Z.of_N t1 = Z.of_N t0 / 2 ^ 32 + Z.of_N hi + Z.of_N v1).
  { unfold t1. rewrite !N2Z.inj_add, N2Z.inj_div. auto. }
  rewrite !Z.mod_eq by lia. rewrite Et1 at 1. rewrite Et0 at 1. ring.
Qed.

Lemma unsigned_Z k n : Z.of_N (to_unsigned k n) = n mod zbase k.
Proof. unfold to_unsigned, zbase. apply Z2N.id. apply Z.mod_pos_bound, zbase_pos. Qed.
Lemma unsigned_lt k n : (to_unsigned k n < 2 ^ k)%N.
Proof. apply digit_Z. rewrite unsigned_Z. apply Z.mod_pos_bound, zbase_pos. Qed.

(** The digits of a signed offset. *)
Lemma zn_repeat_0 k j : zn k (repeat 0%N j) = 0.
Proof. unfold zn. rewrite number_repeat_0. auto. Qed.
Lemma zn_repeat_max k j : zn k (repeat (2 ^ k - 1)%N j) = pw k j - 1.
Proof.
  unfold zn. rewrite number_repeat_max. pose proof (pow2_pos (k * N.of_nat j)).
  rewrite N2Z.inj_sub by lia. rewrite N2Z.inj_pow, N2Z.inj_mul, nat_N_Z. auto.
Qed.
Lemma mod_64 n : n mod 2 ^ 32 + 2 ^ 32 * ((n / 2 ^ 32) mod 2 ^ 32) = n mod 2 ^ 64.
Proof. change (2 ^ 64) with (2 ^ 32 * 2 ^ 32). rewrite Z.rem_mul_r; lia. Qed.
Lemma offset_digits n j lo hi : - 2 ^ 63 <= n < 2 ^ 63 ->
  Z.of_N lo + 2 ^ 32 * Z.of_N hi = n mod 2 ^ 64 ->
  exists c, zn 32 (lo :: hi :: repeat (if (0 <=? n)%Z then 0 else 2 ^ 32 - 1)%N j) = n + c * pw 32 (S (S j)).
Proof.
  intros [H1 H2] E64. rewrite !zn_cons, !pw_S. change (zbase 32) with (2 ^ 32).
  destruct (Z.leb_spec 0 n).
  - exists 0. rewrite zn_repeat_0. rewrite Z.mod_small in E64 by lia. lia.
  - exists 1. rewrite zn_repeat_max. assert (E : n mod 2 ^ 64 = n + 2 ^ 64).
    { symmetry. apply (Z.mod_unique_pos _ _ (-1)); lia. }
    rewrite E in E64. change (2 ^ 64) with (2 ^ 32 * 2 ^ 32) in E64.
    rewrite Z.mul_add_distr_l, Z.add_assoc, E64. ring.
Qed.

Lemma multi_dims bits : (0 < bits)%nat -> single bits = false -> vbits bits = 32%nat /\ (3 <= nv bits)%nat.
Proof.
  intros Hb S. destruct (dims bits Hb) as [m [_ [_ [_ [_ [H _]]]]]]. unfold single in S. apply Nat.eqb_neq in S. lia.
Qed.
Lemma cong_add k n x y u v : cong k n x y -> (exists c, u = v + c * pw k n) -> y = u -> cong k n x v.
Proof. intros [c E] [d F] G. exists (c + d). rewrite E, G, F. ring. Qed.

Lemma plus_spec bits n a : (0 < bits)%nat -> raw bits a -> is_int64 n ->
  wf bits (plus bits n a) /\ zvalue bits (plus bits n a) = (zvalue bits a + n) mod zmodulus bits.
Proof.
  intros Hb R Hn. unfold plus. destruct (single bits) eqn:Sg.
  - apply single_cong; auto.
    + apply N.mod_lt. apply N.pow_nonzero. lia.
    + unfold vmod. rewrite mod_Z, N2Z.inj_add, unsigned_Z, <- (zvalue_single bits) by auto.
      rewrite Z.add_mod_idemp_r by (pose proof (zbase_pos (N.of_nat (vbits bits))); lia). apply cong_mod.
  - destruct (multi_dims bits Hb Sg) as [E32 H3]. destruct R as [L D]. rewrite E32 in D. change (N.of_nat 32) with 32%N in D.
    destruct (add_values_spec (to_unsigned 32 n) (to_unsigned 32 (Z.shiftr n 32))
               (if (0 <=? n)%Z then 0 else 2 ^ 32 - 1)%N a) as [D' [L' C]]; auto using unsigned_lt; try lia.
    { destruct (0 <=? n); reflexivity. }
    apply mask_cong; auto.
    + split; [lia|]. rewrite E32. auto.
    + unfold zvalue, value. rewrite E32. change (N.of_nat 32) with 32%N. fold (zn 32 a).
      destruct (offset_digits n (length a - 2) (to_unsigned 32 n) (to_unsigned 32 (Z.shiftr n 32))) as [c Ec]; auto.
      { rewrite !unsigned_Z. change (zbase 32) with (2 ^ 32). rewrite Z.shiftr_div_pow2 by lia. apply mod_64. }
      destruct C as [d Ed]. exists (c + d). match goal with |- ?x = _ => change x with (zn 32 (add_values (to_unsigned 32 n) (to_unsigned 32 (Z.shiftr n 32)) (if 0 <=? n then 0%N else (2 ^ 32 - 1)%N) a)) end.
      rewrite Ed, Ec. rewrite <- L. replace (S (S (length a - 2)))%nat with (length a) by lia. ring.
Qed.
Lemma minus_spec bits n a : (0 < bits)%nat -> raw bits a -> is_int64 n -> n <> - 2 ^ 63 ->
  exists a', minus bits n a = Done a' /\
    wf bits a' /\ zvalue bits a' = (zvalue bits a - n) mod zmodulus bits.
Proof.
  intros Hb R Hn Hm. unfold minus. rewrite (proj2 (Z.eqb_neq _ _) Hm). destruct (single bits) eqn:Sg.
  - eexists. split; [reflexivity|]. apply single_cong; auto.
    + apply N.mod_lt. apply N.pow_nonzero. lia.
    + unfold vmod. rewrite mod_Z, N2Z.inj_add, unsigned_Z, <- (zvalue_single bits) by auto.
      rewrite Z.add_mod_idemp_r by (pose proof (zbase_pos (N.of_nat (vbits bits))); lia). apply cong_mod.
  - eexists. split; [reflexivity|].
    destruct (multi_dims bits Hb Sg) as [E32 H3]. destruct R as [L D]. rewrite E32 in D. change (N.of_nat 32) with 32%N in D.
    assert (Ex : (if (n <=? 0)%Z then 0 else 2 ^ 32 - 1)%N = (if (0 <=? - n)%Z then 0 else 2 ^ 32 - 1)%N).
    { destruct (Z.leb_spec n 0), (Z.leb_spec 0 (- n)); auto; lia. }
    rewrite Ex. set (neg := to_unsigned 64 (- n)).
    destruct (add_values_spec (N.land neg (2 ^ 32 - 1)) (N.land (N.shiftr neg 32) (2 ^ 32 - 1))
               (if (0 <=? - n)%Z then 0 else 2 ^ 32 - 1)%N a) as [D' [L' C]]; auto using digit32; try lia.
    { destruct (0 <=? - n); reflexivity. }
    set (X := add_values (N.land neg (2 ^ 32 - 1)) (N.land (N.shiftr neg 32) (2 ^ 32 - 1))
                         (if 0 <=? - n then 0%N else (2 ^ 32 - 1)%N) a) in *.
    apply mask_cong; auto.
    + split; [lia|]. rewrite E32. auto.
    + unfold zvalue, value. rewrite E32. change (N.of_nat 32) with 32%N. fold (zn 32 a). fold (zn 32 X).
      destruct (offset_digits (- n) (length a - 2) (N.land neg (2 ^ 32 - 1)) (N.land (N.shiftr neg 32) (2 ^ 32 - 1))) as [c Ec].
      { unfold is_int64 in Hn. lia. }
      { rewrite N.shiftr_div_pow2, !land_mask, !N2Z.inj_mod, N2Z.inj_div. change (Z.of_N (2 ^ 32)) with (2 ^ 32).
        unfold neg. rewrite unsigned_Z. change (zbase 64) with (2 ^ 64). rewrite mod_64. apply Z.mod_mod. lia. }
      destruct C as [d Ed]. exists (c + d).
      rewrite Ed, Ec. rewrite <- L. replace (S (S (length a - 2)))%nat with (length a) by lia. ring.
Qed.

(** Complement. *)
Lemma not_digits k l : digits k l -> digits k (map (fun v => (2 ^ k - 1 - v)%N) l) /\
  zn k (map (fun v => (2 ^ k - 1 - v)%N) l) = pw k (length l) - 1 - zn k l.
Proof.
  induction 1 as [|v l Hv Hl [ID IC]]; cbn [map length].
  - split; [constructor|]. rewrite pw_0, zn_nil. auto.
  - split; [constructor; auto; lia|]. rewrite !zn_cons, pw_S, IC. rewrite !N2Z.inj_sub by lia. rewrite zbase_N.
    cbn [Z.of_N]. ring.
Qed.
Lemma bitwise_not_spec bits a : (0 < bits)%nat -> raw bits a ->
  wf bits (bitwise_not bits a) /\ zvalue bits (bitwise_not bits a) = (- 1 - zvalue bits a) mod zmodulus bits.
Proof.
  intros Hb [L D]. unfold bitwise_not, v_mask, vmod. destruct (not_digits _ a D) as [D' C].
  apply mask_cong; auto.
  - split; auto. rewrite map_length. auto.
  - exists 1. unfold zvalue, value. fold (zn (N.of_nat (vbits bits)) a). rewrite <- L.
    match goal with |- Z.of_N ?x = _ => change (Z.of_N x) with (zn (N.of_nat (vbits bits)) (map (fun v => (2 ^ N.of_nat (vbits bits) - 1 - v)%N) a)) end.
    rewrite C. ring.
Qed.
Lemma zmod_pos bits : 0 < zmodulus bits.
Proof. apply Z.pow_pos_nonneg; lia. Qed.
Lemma negate_spec bits a : (0 < bits)%nat -> raw bits a ->
  wf bits (negate bits a) /\ zvalue bits (negate bits a) = (- zvalue bits a) mod zmodulus bits.
Proof.
  intros Hb R. unfold negate. destruct (bitwise_not_spec bits a Hb R) as [W E].
  destruct (increment_spec bits _ Hb (proj1 W)) as [W' E']. split; auto. rewrite E', E.
  rewrite Z.add_mod_idemp_l by (pose proof (zmod_pos bits); lia). f_equal. lia.
Qed.

(** Multiplication. *)
Lemma multiply_assign_single bits n a : (0 < bits)%nat -> raw bits a -> single bits = true ->
  exists a', multiply_assign bits n a = Done a' /\ wf bits a' /\
    zvalue bits a' = (zvalue bits a * Z.of_N n) mod zmodulus bits.
Proof.
  intros Hb R S. unfold multiply_assign. rewrite S. eexists. split; [reflexivity|]. apply single_cong; auto.
  - apply N.mod_lt. apply N.pow_nonzero. lia.
  - unfold vmod. rewrite N.mul_mod_idemp_r by (apply N.pow_nonzero; lia).
    rewrite mod_Z, N2Z.inj_mul, <- (zvalue_single bits) by auto. apply cong_mod.
Qed.
Lemma multiply_single bits n a : (0 < bits)%nat -> raw bits a -> single bits = true ->
  exists a', multiply bits n a = Done a' /\ wf bits a' /\
    zvalue bits a' = (zvalue bits a * Z.of_N n) mod zmodulus bits.
Proof.
  intros Hb R S. unfold multiply. rewrite S. eexists. split; [reflexivity|].
  apply single_cong; auto; [apply wf_assign0; auto| |].
  - apply N.mod_lt. apply N.pow_nonzero. lia.
  - unfold vmod, w64, wrap.
    replace ((lim a 0 * n) mod 2 ^ 64 mod 2 ^ N.of_nat (vbits bits))%N with ((lim a 0 * n) mod 2 ^ N.of_nat (vbits bits))%N.
    + rewrite mod_Z, N2Z.inj_mul, <- (zvalue_single bits) by auto. apply cong_mod.
    + destruct (dims bits Hb) as [m [_ [_ [_ [[-> |[-> _]] _]]]]].
      * change (N.of_nat 32) with 32%N. change (2 ^ 64)%N with (2 ^ 32 * 2 ^ 32)%N.
        rewrite N.mod_mul_r by discriminate. rewrite (N.mul_comm (2 ^ 32) (_ mod _)), N.mod_add by discriminate.
        symmetry. apply N.mod_mod. discriminate.
      * change (N.of_nat 64) with 64%N. symmetry. apply N.mod_mod. discriminate.
Qed.
Lemma mul_loop_length cnt : forall i j x carry m a r, mul_loop cnt i j x carry m a = Done r -> length r = length a.
Proof.
  induction cnt as [|cnt IH]; intros i j x carry m a r H; cbn in H; [congruence|].
  destruct (nth_error a (i + j)); [|discriminate]. apply IH in H. rewrite upd_length in H. auto.
Qed.
Lemma mul_loop_in cnt : forall i j x carry m a, (i + j + cnt <= length a)%nat ->
  exists r, mul_loop cnt i j x carry m a = Done r.
Proof.
  induction cnt as [|cnt IH]; intros i j x carry m a H; cbn; [eauto|].
  destruct (nth_error a (i + j)) eqn:E.
  - apply IH. rewrite upd_length. lia.
  - apply nth_error_None in E. lia.
Qed.
Lemma mul_loop_out cnt : forall i j x carry m a, (0 < cnt)%nat -> (length a < i + j + cnt)%nat ->
  mul_loop cnt i j x carry m a = UB.
Proof.
  induction cnt as [|cnt IH]; intros i j x carry m a H0 H; cbn; [lia|].
  destruct (nth_error a (i + j)) eqn:E; auto. apply nth_lt in E.
  apply IH; [lia|]. rewrite upd_length. lia.
Qed.
Lemma multiply_plus_ub bits m n a : (0 < bits)%nat -> length a = nv bits -> multiply_plus bits m n a = UB.
Proof.
  intros Hb L. unfold multiply_plus. destruct (dims bits Hb) as [q [_ [_ [Hn _]]]].
  destruct (mul_loop_in (nv bits) 0 0 (N.land n (2 ^ 32 - 1)) 0 m a) as [r Er]; [lia|]. rewrite Er. cbn [obind].
  apply mul_loop_length in Er. rewrite mul_loop_out; auto; lia.
Qed.
