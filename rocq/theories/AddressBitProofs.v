(** Lemmas about bitwise operators, shifts and differences of addresses. *)
From Coq Require Import ZifyBool ZifyNat ZifyN.
From Verif Require Import Base BaseProofs BufferIter Address AddressSpec AddressProofs.

Ltac Zify.zify_post_hook ::= idtac.
Local Open Scope N_scope.

(** ** Bits of numbers written with digits *)

Lemma lt_bits x n : x < 2 ^ n <-> forall m, n <= m -> N.testbit x m = false.
Proof.
  split.
  - intros H m Hm. rewrite <- (N.mod_small x (2 ^ n) H). apply N.mod_pow2_bits_high. auto.
  - intros H. assert (E : x = x mod 2 ^ n).
    { apply N.bits_inj. intros m. destruct (N.lt_ge_cases m n).
      - rewrite N.mod_pow2_bits_low; auto.
      - rewrite N.mod_pow2_bits_high, H; auto. }
    rewrite E. apply N.mod_lt. apply N.pow_nonzero. discriminate.
Qed.
Lemma cons_bit_low k v y m : v < 2 ^ k -> m < k -> N.testbit (v + 2 ^ k * y) m = N.testbit v m.
Proof.
  intros Hv Hm. rewrite <- (N.mod_pow2_bits_low _ k m Hm).
  rewrite N.mul_comm, N.mod_add by (apply N.pow_nonzero; discriminate). rewrite N.mod_small; auto.
Qed.
Lemma cons_bit_high k v y m : v < 2 ^ k -> N.testbit (v + 2 ^ k * y) (m + k) = N.testbit y m.
Proof.
  intros Hv. rewrite <- N.div_pow2_bits.
  rewrite N.mul_comm, N.div_add by (apply N.pow_nonzero; discriminate). rewrite N.div_small; auto.
Qed.
Lemma number_bit k l : digits k l -> forall j m, m < k ->
  N.testbit (number k l) (k * N.of_nat j + m) = N.testbit (nth j l 0) m.
Proof.
  induction 1 as [|v l Hv Hl IH]; intros j m Hm; cbn [number].
  - destruct j; cbn [nth]; rewrite !N.bits_0; auto.
  - destruct j as [|j]; cbn [nth].
    + rewrite N.mul_0_r, N.add_0_l. apply cons_bit_low; auto.
    + replace (k * N.of_nat (S j) + m) with (k * N.of_nat j + m + k) by lia.
      rewrite cons_bit_high by auto. auto.
Qed.
Lemma position k p : 0 < k -> exists j m, p = k * N.of_nat j + m /\ m < k.
Proof.
  intros Hk. exists (N.to_nat (p / k)), (p mod k). rewrite N2Nat.id. split.
  - apply N.div_mod. lia.
  - apply N.mod_lt. lia.
Qed.

(** ** And, or, exclusive or *)

Definition bitwise (f : N -> N -> N) (g : bool -> bool -> bool) : Prop :=
  (forall x y m, N.testbit (f x y) m = g (N.testbit x m) (N.testbit y m)) /\ g false false = false.

Lemma bitwise_lt f g n x y : bitwise f g -> x < 2 ^ n -> y < 2 ^ n -> f x y < 2 ^ n.
Proof.
  intros [F G] Hx Hy. apply lt_bits. intros m Hm. rewrite F.
  rewrite (proj1 (lt_bits x n) Hx), (proj1 (lt_bits y n) Hy); auto.
Qed.
Lemma map2_spec f g k a b : 0 < k -> bitwise f g -> digits k a -> digits k b -> length a = length b ->
  digits k (map2 f a b) /\ length (map2 f a b) = length a /\ number k (map2 f a b) = f (number k a) (number k b).
Proof.
  intros Hk FG Da. revert b. induction Da as [|v a Hv Ha IH]; intros [|u b] Db L; cbn in L; try lia; cbn [map2].
  - repeat split; try constructor. cbn [number]. apply N.bits_inj. intros m. destruct FG as [F G].
    rewrite F, N.bits_0, G. auto.
  - inversion Db as [|? ? Hu Db']; subst. destruct (IH b Db' ltac:(lia)) as [ID [IL IN]].
    pose proof (bitwise_lt f g k v u FG Hv Hu) as Hf. split; [constructor; auto|]. split; [cbn; lia|].
    cbn [number]. rewrite IN. apply N.bits_inj. intros m. destruct FG as [F G]. rewrite F.
    destruct (N.lt_ge_cases m k).
    + rewrite !cons_bit_low by auto. apply F.
    + replace m with (m - k + k) by lia. rewrite !cons_bit_high by auto. apply F.
Qed.
Lemma and_bitwise : bitwise N.land andb.
Proof. split; auto. apply N.land_spec. Qed.
Lemma or_bitwise : bitwise N.lor orb.
Proof. split; auto. apply N.lor_spec. Qed.
Lemma xor_bitwise : bitwise N.lxor xorb.
Proof. split; auto. apply N.lxor_spec. Qed.
Lemma vbits_pos bits : 0 < N.of_nat (vbits bits).
Proof. unfold vbits. destruct (_ =? _)%nat; lia. Qed.
Lemma map2_wf f g bits a b : bitwise f g -> wf bits a -> wf bits b ->
  wf bits (map2 f a b) /\ value bits (map2 f a b) = f (value bits a) (value bits b).
Proof.
  intros FG [[La Da] Va] [[Lb Db] Vb].
  destruct (map2_spec f g _ a b (vbits_pos bits) FG Da Db ltac:(lia)) as [D [L E]].
  split; auto. split; [split; auto; lia|]. unfold value in *. rewrite E. unfold modulus.
  eapply bitwise_lt; eauto.
Qed.
(** Complement, bit by bit. *)
Lemma not_value bits a : (0 < bits)%nat -> wf bits a ->
  value bits (bitwise_not bits a) = N.lnot (value bits a) (N.of_nat bits).
Proof.
  intros Hb W. destruct (bitwise_not_spec bits a Hb (proj1 W)) as [W' E].
  pose proof (wf_range _ _ W) as R. apply N2Z.inj. fold (zvalue bits (bitwise_not bits a)). rewrite E.
  destruct W as [_ V]. unfold modulus in V. rewrite N.lnot_sub_low.
  2: { destruct (N.eq_dec (value bits a) 0) as [-> |Hn]; [|apply N.log2_lt_pow2; lia].
       cbn. lia. }
  rewrite N.ones_equiv. pose proof (pow2_pos (N.of_nat bits)).
  rewrite N2Z.inj_sub by lia. rewrite N2Z.inj_pred by lia. rewrite N2Z.inj_pow, nat_N_Z.
  symmetry. apply (Z.mod_unique_pos _ _ (-1)).
  - unfold zvalue, zmodulus in *. change (Z.of_N 2) with 2%Z. lia.
  - unfold zvalue, zmodulus in *. change (Z.of_N 2) with 2%Z. lia.
Qed.

(** ** Shifts *)

Lemma lim_upd a i j v : lim (upd a i v) j = if (i =? j)%nat && (i <? length a)%nat then v else lim a j.
Proof.
  unfold lim. revert i j. induction a as [|x a IH]; intros [|i] [|j]; cbn [upd nth length]; auto.
  - cbn. rewrite andb_false_r. auto.
  - rewrite IH. auto.
Qed.
Lemma lim_upd_eq a i v : (i < length a)%nat -> lim (upd a i v) i = v.
Proof. intros H. rewrite lim_upd, Nat.eqb_refl. apply Nat.ltb_lt in H. rewrite H. auto. Qed.
Lemma lim_upd_neq a i j v : i <> j -> lim (upd a i v) j = lim a j.
Proof. intros H. rewrite lim_upd. apply Nat.eqb_neq in H. rewrite H. auto. Qed.
Lemma digits_upd k a i v : digits k a -> v < 2 ^ k -> digits k (upd a i v).
Proof.
  intros D H. revert i. induction D as [|x l Hx Dl IH]; intros [|i]; cbn [upd]; constructor; auto.
  apply IH.
Qed.
Lemma lim_lt k a i : digits k a -> lim a i < 2 ^ k.
Proof.
  intros D. unfold lim. destruct (Nat.lt_ge_cases i (length a)).
  - apply digits_nth; auto.
  - rewrite nth_overflow by lia. apply pow2_pos.
Qed.

(** What [LeftShift] puts together of two adjacent values. *)
Definition lpart (s : nat) (x y : N) : N :=
  N.lor (N.land (w32 (N.shiftl x (N.of_nat s))) (2 ^ 32 - 1))
        (N.land (N.shiftr y (N.of_nat (32 - s))) (2 ^ 32 - 1)).
Definition rpart (s : nat) (x y : N) : N :=
  N.lor (N.land (N.shiftr x (N.of_nat s)) (2 ^ 32 - 1))
        (N.land (w32 (N.shiftl y (N.of_nat (32 - s)))) (2 ^ 32 - 1)).

Lemma land_bit x m : m < 32 -> N.testbit (N.land x (2 ^ 32 - 1)) m = N.testbit x m.
Proof. intros H. rewrite land_mask. apply N.mod_pow2_bits_low. auto. Qed.
Lemma w32_bit x m : m < 32 -> N.testbit (w32 x) m = N.testbit x m.
Proof. intros H. unfold w32, wrap. apply N.mod_pow2_bits_low. auto. Qed.
Lemma lpart_bit s x y m : (s <= 31)%nat -> y < 2 ^ 32 -> m < 32 ->
  N.testbit (lpart s x y) m =
  if m <? N.of_nat s then N.testbit y (m + N.of_nat (32 - s)) else N.testbit x (m - N.of_nat s).
Proof.
  intros Hs Hy Hm. unfold lpart. rewrite N.lor_spec, !land_bit, w32_bit by auto. rewrite N.shiftr_spec'.
  destruct (N.ltb_spec m (N.of_nat s)).
  - rewrite N.shiftl_spec_low by auto. auto.
  - rewrite N.shiftl_spec_high' by auto.
    rewrite (proj1 (lt_bits y 32) Hy (m + N.of_nat (32 - s))) by lia. apply orb_false_r.
Qed.
Lemma rpart_bit s x y m : (1 <= s <= 31)%nat -> x < 2 ^ 32 -> m < 32 ->
  N.testbit (rpart s x y) m =
  if m <? N.of_nat (32 - s) then N.testbit x (m + N.of_nat s) else N.testbit y (m - N.of_nat (32 - s)).
Proof.
  intros Hs Hx Hm. unfold rpart. rewrite N.lor_spec, !land_bit, w32_bit by auto. rewrite N.shiftr_spec'.
  destruct (N.ltb_spec m (N.of_nat (32 - s))).
  - rewrite N.shiftl_spec_low by auto. apply orb_false_r.
  - rewrite N.shiftl_spec_high' by auto.
    rewrite (proj1 (lt_bits x 32) Hx (m + N.of_nat s)) by lia. auto.
Qed.
Lemma lor_digit x y : x < 2 ^ 32 -> y < 2 ^ 32 -> N.lor x y < 2 ^ 32.
Proof. apply (bitwise_lt N.lor orb). apply or_bitwise. Qed.
Lemma lpart_lt s x y : lpart s x y < 2 ^ 32.
Proof. apply lor_digit; apply digit32. Qed.
Lemma rpart_lt s x y : rpart s x y < 2 ^ 32.
Proof. apply lor_digit; apply digit32. Qed.
Lemma shl32_done v n : (n < 32)%nat -> shl32 v n = Done (w32 (N.shiftl v (N.of_nat n))).
Proof. intros H. unfold shl32. apply Nat.ltb_lt in H. rewrite H. auto. Qed.
Lemma shr32_done v n : (n < 32)%nat -> shr32 v n = Done (N.shiftr v (N.of_nat n)).
Proof. intros H. unfold shr32. apply Nat.ltb_lt in H. rewrite H. auto. Qed.

Lemma lsh_loop_spec z s i : forall a, (i < length a)%nat -> digits 32 a -> (i <= z \/ 1 <= s <= 31)%nat ->
  exists r, lsh_loop i z s (32 - s) a = Done r /\ length r = length a /\ digits 32 r /\
    forall j, lim r j = if ((z <? j) && (j <=? i))%nat then lpart s (lim a (j - z)) (lim a (j - z - 1)) else lim a j.
Proof.
  induction i as [|i IH]; intros a L D H; cbn [lsh_loop].
  - exists a. repeat split; auto. intros j. destruct (Nat.ltb_spec z j), (Nat.leb_spec j 0); cbn; auto. lia.
  - destruct (Nat.ltb_spec z (S i)).
    + destruct H as [H|H]; [lia|]. rewrite shl32_done, shr32_done by lia. cbn [obind].
      change (N.lor _ _) with (lpart s (lim a (S i - z)) (lim a (S i - z - 1))). set (v := lpart _ _ _).
      destruct (IH (upd a (S i) v)) as [r [Er [Lr [Dr Hr]]]].
      { rewrite upd_length. lia. } { apply digits_upd; auto. apply lpart_lt. } { auto. }
      exists r. rewrite Er. rewrite upd_length in Lr. repeat split; auto. intros j. rewrite Hr.
      destruct (Nat.ltb_spec z j), (Nat.leb_spec j i), (Nat.leb_spec j (S i)); cbn [andb]; try lia;
        try (rewrite !lim_upd_neq by lia; auto).
      assert (j = S i) as -> by lia. rewrite lim_upd_eq by lia. auto.
    + exists a. repeat split; auto. intros j.
      destruct (Nat.ltb_spec z j), (Nat.leb_spec j (S i)); cbn; auto. lia.
Qed.
Lemma zero_below_spec i : forall a, (i <= length a)%nat -> digits 32 a ->
  length (zero_below i a) = length a /\ digits 32 (zero_below i a) /\
  forall j, lim (zero_below i a) j = if (j <? i)%nat then 0 else lim a j.
Proof.
  induction i as [|i IH]; intros a L D; cbn [zero_below]; auto.
  destruct (IH (upd a i 0)) as [IL [ID IH']].
  { rewrite upd_length. lia. } { apply digits_upd; auto. reflexivity. }
  rewrite upd_length in IL. repeat split; auto. intros j. rewrite IH'.
  destruct (Nat.ltb_spec j i), (Nat.ltb_spec j (S i)); auto; try lia.
  - assert (j = i) as -> by lia. apply lim_upd_eq. lia.
  - apply lim_upd_neq. lia.
Qed.

(** Where multi-value shifts are defined. *)
Definition shift_ok (bits n : nat) : Prop :=
  single bits = true \/ n = 0%nat \/ (n mod 32 <> 0)%nat \/ (nv bits - 1 <= n / 32)%nat.

Lemma left_shift_multi bits n a : (0 < bits)%nat -> single bits = false -> raw bits a -> shift_ok bits n -> (0 < n)%nat ->
  (n / 32 < nv bits)%nat ->
  exists r, left_shift bits n a = Done (mask_msv bits r) /\ raw bits r /\
    value bits r = (value bits a * 2 ^ N.of_nat n) mod 2 ^ (32 * N.of_nat (nv bits)).
Proof.
  intros Hb S [L D] Ok Hn Hz. destruct (multi_dims bits Hb S) as [E32 H3]. unfold left_shift. rewrite S.
  rewrite (proj2 (Nat.ltb_lt _ _) Hn), (proj2 (Nat.leb_gt _ _) Hz). rewrite E32 in D. change (N.of_nat 32) with 32 in D.
  pose proof (Nat.div_mod n 32 ltac:(lia)) as En. pose proof (Nat.mod_upper_bound n 32 ltac:(lia)) as Hs.
  set (z := (n / 32)%nat) in *. set (s := (n mod 32)%nat) in *.
  destruct (lsh_loop_spec z s (nv bits - 1) a) as [a1 [E1 [L1 [D1 H1]]]]; [lia|auto| |].
  { destruct Ok as [C|[C|[C|C]]]; [congruence|lia|right; lia|left; lia]. }
  rewrite E1. cbn [obind]. rewrite shl32_done by lia. cbn [obind].
  set (x := N.land (w32 (N.shiftl (lim a1 0) (N.of_nat s))) (2 ^ 32 - 1)).
  destruct (zero_below_spec z (upd a1 z x)) as [L2 [D2 H2]].
  { rewrite upd_length. lia. } { apply digits_upd; auto. apply digit32. }
  rewrite upd_length in L2. exists (zero_below z (upd a1 z x)). split; auto. split.
  { split; [lia|]. rewrite E32. auto. }
  unfold value. rewrite E32. change (N.of_nat 32) with 32. apply N.bits_inj. intros p.
  destruct (position 32 p ltac:(lia)) as [j [m [-> Hm]]]. rewrite number_bit by auto.
  change (nth j ?l 0) with (lim l j). rewrite H2.
  destruct (N.lt_ge_cases (32 * N.of_nat j + m) (32 * N.of_nat (nv bits))) as [Hp|Hp].
  2: { rewrite N.mod_pow2_bits_high by auto. destruct (Nat.ltb_spec j z); [apply N.bits_0|].
       unfold lim. rewrite nth_overflow; [apply N.bits_0|]. rewrite upd_length. lia. }
  rewrite N.mod_pow2_bits_low by auto.
  assert (Hj : (j < nv bits)%nat) by lia.
  assert (Lim0 : lim a1 0 = lim a 0).
  { rewrite H1. rewrite (proj2 (Nat.ltb_ge z 0)) by lia. auto. }
  destruct (Nat.ltb_spec j z) as [Hjz|Hjz].
  - rewrite N.bits_0. symmetry. apply N.mul_pow2_bits_low. lia.
  - destruct (N.lt_ge_cases (32 * N.of_nat j + m) (N.of_nat n)) as [Hq|Hq].
    + rewrite N.mul_pow2_bits_low by auto. assert (j = z) as -> by lia. rewrite lim_upd_eq by lia.
      unfold x. rewrite land_bit, w32_bit by auto. apply N.shiftl_spec_low. lia.
    + rewrite N.mul_pow2_bits_high by auto. destruct (Nat.eq_dec j z) as [-> |Hne].
      * rewrite lim_upd_eq by lia. unfold x. rewrite land_bit, w32_bit by auto.
        rewrite N.shiftl_spec_high' by lia. rewrite Lim0.
        replace (32 * N.of_nat z + m - N.of_nat n) with (32 * N.of_nat 0 + (m - N.of_nat s)) by lia.
        rewrite number_bit by (auto; lia). auto.
      * rewrite lim_upd_neq by lia. rewrite H1. rewrite (proj2 (Nat.ltb_lt z j)), (proj2 (Nat.leb_le j (nv bits - 1))) by lia.
        cbn [andb]. rewrite lpart_bit; [|lia|apply (lim_lt 32); auto|auto].
        destruct (N.ltb_spec m (N.of_nat s)).
        -- replace (32 * N.of_nat j + m - N.of_nat n) with (32 * N.of_nat (j - z - 1) + (m + N.of_nat (32 - s))) by lia.
           rewrite number_bit by (auto; lia). auto.
        -- replace (32 * N.of_nat j + m - N.of_nat n) with (32 * N.of_nat (j - z) + (m - N.of_nat s)) by lia.
           rewrite number_bit by (auto; lia). auto.
Qed.
Lemma pow_split (a b : N) : b <= a -> 2 ^ a = 2 ^ b * 2 ^ (a - b).
Proof. intros H. rewrite <- N.pow_add_r. f_equal. lia. Qed.
Lemma mul_pow_mod0 x (a b : N) : b <= a -> (x * 2 ^ a) mod 2 ^ b = 0.
Proof.
  intros H. rewrite (pow_split a b H), N.mul_assoc, (N.mul_comm x), <- N.mul_assoc, N.mul_comm.
  apply N.mod_mul. apply N.pow_nonzero. discriminate.
Qed.
Lemma bits_le bits : (0 < bits)%nat -> (bits <= vbits bits * nv bits)%nat.
Proof. intros Hb. destruct (dims bits Hb) as [m [Em [Hm [Hn _]]]]. destruct (gap _ _ _ _ Em); lia. Qed.

Lemma left_shift_spec bits n a : (0 < bits)%nat -> raw bits a -> shift_ok bits n -> 
  (n = 0%nat -> wf bits a) ->
  exists r, left_shift bits n a = Done r /\ wf bits r /\
    value bits r = (value bits a * 2 ^ N.of_nat n) mod modulus bits.
Proof.
  intros Hb R Ok H0. pose proof (bits_le bits Hb) as Hle. destruct (single bits) eqn:S.
  - unfold left_shift. rewrite S. assert (En : nv bits = 1%nat) by (apply Nat.eqb_eq; auto).
    destruct (single_form bits a R S) as [Ea Va]. destruct (Nat.ltb_spec n (vbits bits)).
    + eexists. split; [reflexivity|]. rewrite Ea. cbn [upd].
      apply mask_of; auto.
      * split; [cbn; lia|]. constructor; [|constructor]. apply N.mod_lt. apply N.pow_nonzero. discriminate.
      * rewrite En, N.mul_1_r. unfold value at 1. cbn [number]. rewrite N.mul_0_r, N.add_0_r.
        rewrite <- Ea. rewrite Va. unfold vmod. rewrite N.shiftl_mul_pow2. auto.
    + eexists. split; [reflexivity|]. rewrite Ea. cbn [upd].
      destruct (wf_assign0 bits Hb) as [W V]. unfold assign0 in *. rewrite En in *. cbn [repeat] in *.
      split; auto. rewrite V. symmetry. apply mul_pow_mod0. lia.
  - destruct (Nat.eq_dec n 0) as [-> |Hn].
    + unfold left_shift. rewrite S. cbn [Nat.ltb Nat.leb]. exists a. split; auto. split; auto.
      rewrite N.pow_0_r, N.mul_1_r. destruct (H0 eq_refl) as [_ V]. symmetry. apply N.mod_small. auto.
    + destruct (Nat.lt_ge_cases (n / 32) (nv bits)).
      * destruct (left_shift_multi bits n a Hb S R Ok ltac:(lia) H) as [r [E [Rr V]]].
        exists (mask_msv bits r). split; auto. apply mask_of; auto. rewrite V.
        destruct (multi_dims bits Hb S) as [-> _]. auto.
      * unfold left_shift. rewrite S. rewrite (proj2 (Nat.ltb_lt 0 n)), (proj2 (Nat.leb_le _ _) H) by lia.
        destruct (wf_assign0 bits Hb) as [W V]. exists (assign0 bits). split; auto. split; auto. rewrite V.
        symmetry. apply mul_pow_mod0. destruct (multi_dims bits Hb S) as [E32 _]. rewrite E32 in Hle.
        pose proof (Nat.mul_div_le n 32 ltac:(lia)). nia.
Qed.
Lemma left_shift_ub bits n a : (0 < bits)%nat -> ~ shift_ok bits n -> left_shift bits n a = UB.
Proof.
  intros Hb Ok. unfold shift_ok in Ok. unfold left_shift. destruct (single bits) eqn:S; [tauto|].
  rewrite (proj2 (Nat.ltb_lt 0 n)) by lia. rewrite (proj2 (Nat.leb_gt (nv bits) (n / 32))) by lia.
  replace (n mod 32)%nat with 0%nat by lia. destruct (nv bits - 1)%nat as [|k] eqn:E; [lia|].
  cbn [lsh_loop]. rewrite (proj2 (Nat.ltb_lt (n / 32) (Datatypes.S k))) by lia.
  rewrite shl32_done by lia. auto.
Qed.

Lemma rsh_loop_spec z s k : forall i a, (1 <= s <= 31 \/ k = 0)%nat -> (i + z + k < length a)%nat -> digits 32 a ->
  exists r, rsh_loop k i z s (32 - s) a = Done r /\ length r = length a /\ digits 32 r /\
    forall j, lim r j = if ((i <=? j) && (j <? i + k))%nat then rpart s (lim a (j + z)) (lim a (j + z + 1)) else lim a j.
Proof.
  induction k as [|k IH]; intros i a H L D; cbn [rsh_loop].
  - exists a. repeat split; auto. intros j. destruct (Nat.leb_spec i j), (Nat.ltb_spec j (i + 0)); cbn; auto. lia.
  - destruct H as [H|H]; [|lia]. rewrite shl32_done, shr32_done by lia. cbn [obind].
    change (N.lor _ _) with (rpart s (lim a (i + z)) (lim a (i + z + 1))). set (v := rpart _ _ _).
    destruct (IH (S i) (upd a i v)) as [r [Er [Lr [Dr Hr]]]].
    { auto. } { rewrite upd_length. lia. } { apply digits_upd; auto. apply rpart_lt. }
    exists r. rewrite Er. rewrite upd_length in Lr. repeat split; auto. intros j. rewrite Hr.
    destruct (Nat.leb_spec (S i) j), (Nat.leb_spec i j), (Nat.ltb_spec j (S i + k)), (Nat.ltb_spec j (i + S k));
      cbn [andb]; try lia; try (rewrite !lim_upd_neq by lia; auto).
    assert (j = i) as -> by lia. rewrite lim_upd_eq by lia. auto.
Qed.
Lemma zero_from_spec k : forall i a, (i + k <= length a)%nat -> digits 32 a ->
  length (zero_from k i a) = length a /\ digits 32 (zero_from k i a) /\
  forall j, lim (zero_from k i a) j = if ((i <=? j) && (j <? i + k))%nat then 0 else lim a j.
Proof.
  induction k as [|k IH]; intros i a L D; cbn [zero_from].
  - repeat split; auto. intros j. destruct (Nat.leb_spec i j), (Nat.ltb_spec j (i + 0)); cbn; auto; lia.
  - destruct (IH (S i) (upd a i 0)) as [IL [ID IH']].
    { rewrite upd_length. lia. } { apply digits_upd; auto. reflexivity. }
    rewrite upd_length in IL. repeat split; auto. intros j. rewrite IH'.
    destruct (Nat.leb_spec (S i) j), (Nat.leb_spec i j), (Nat.ltb_spec j (S i + k)), (Nat.ltb_spec j (i + S k));
      cbn [andb]; try lia; try (rewrite lim_upd_neq by lia; auto).
    assert (j = i) as -> by lia. apply lim_upd_eq. lia.
Qed.
Lemma right_shift_multi bits n a : (0 < bits)%nat -> single bits = false -> raw bits a -> shift_ok bits n -> (0 < n)%nat ->
  (n / 32 < nv bits)%nat ->
  exists r, right_shift bits n a = Done r /\ raw bits r /\ value bits r = value bits a / 2 ^ N.of_nat n.
Proof.
  intros Hb S [L D] Ok Hn Hz. destruct (multi_dims bits Hb S) as [E32 H3]. unfold right_shift. rewrite S.
  rewrite (proj2 (Nat.ltb_lt _ _) Hn), (proj2 (Nat.leb_gt _ _) Hz). rewrite E32 in D. change (N.of_nat 32) with 32 in D.
  pose proof (Nat.div_mod n 32 ltac:(lia)) as En. pose proof (Nat.mod_upper_bound n 32 ltac:(lia)) as Hs.
  set (z := (n / 32)%nat) in *. set (s := (n mod 32)%nat) in *. set (k := (nv bits - 1 - z)%nat).
  destruct (rsh_loop_spec z s k 0 a) as [a1 [E1 [L1 [D1 H1]]]]; [|lia|auto|].
  { destruct Ok as [C|[C|[C|C]]]; [congruence|lia|left; lia|right; lia]. }
  rewrite E1. cbn [obind]. rewrite shr32_done by lia. cbn [obind].
  set (x := N.land (N.shiftr (lim a1 (nv bits - 1)) (N.of_nat s)) (2 ^ 32 - 1)).
  destruct (zero_from_spec (nv bits - Datatypes.S k) (Datatypes.S k) (upd a1 k x)) as [L2 [D2 H2]].
  { rewrite upd_length. lia. } { apply digits_upd; auto. apply digit32. }
  rewrite upd_length in L2. eexists. split; [reflexivity|]. split.
  { split; [lia|]. rewrite E32. auto. }
  unfold value. rewrite E32. change (N.of_nat 32) with 32. apply N.bits_inj. intros p.
  destruct (position 32 p ltac:(lia)) as [j [m [-> Hm]]]. rewrite number_bit by auto.
  change (nth j ?l 0) with (lim l j). rewrite H2. rewrite N.div_pow2_bits.
  assert (Top : lim a1 (nv bits - 1) = lim a (nv bits - 1)).
  { rewrite H1. rewrite (proj2 (Nat.ltb_ge (nv bits - 1) (0 + k))) by lia. rewrite andb_false_r. auto. }
  destruct (Nat.lt_ge_cases k j) as [Hj|Hj].
  - destruct (Nat.leb_spec (Datatypes.S k) j); [|lia].
    assert (Z0 : N.testbit (number 32 a) (32 * N.of_nat j + m + N.of_nat n) = false).
    { apply (proj1 (lt_bits (number 32 a) (32 * N.of_nat (length a)))); [apply number_lt; auto|lia]. }
    rewrite Z0. cbn [andb]. destruct (Nat.ltb_spec j (Datatypes.S k + (nv bits - Datatypes.S k))); [apply N.bits_0|].
    unfold lim. rewrite nth_overflow; [apply N.bits_0|]. rewrite upd_length. lia.
  - destruct (Nat.leb_spec (Datatypes.S k) j); [lia|]. cbn [andb]. destruct (Nat.eq_dec j k) as [-> |Hne].
    + rewrite lim_upd_eq by lia. unfold x. rewrite land_bit by auto. rewrite N.shiftr_spec', Top.
      destruct (N.lt_ge_cases (m + N.of_nat s) 32).
      * replace (32 * N.of_nat k + m + N.of_nat n) with (32 * N.of_nat (nv bits - 1) + (m + N.of_nat s)) by lia.
        rewrite number_bit by (auto; lia). auto.
      * rewrite (proj1 (lt_bits _ 32) (lim_lt 32 a (nv bits - 1) D)) by auto. symmetry.
        apply (proj1 (lt_bits (number 32 a) (32 * N.of_nat (length a)))); [apply number_lt; auto|lia].
    + rewrite lim_upd_neq by lia. rewrite H1. rewrite (proj2 (Nat.ltb_lt j (0 + k))) by lia. cbn [Nat.leb andb].
      assert (Hs1 : (1 <= s)%nat). { destruct Ok as [C|[C|[C|C]]]; [congruence|lia|lia|lia]. }
      rewrite rpart_bit; [|lia|apply (lim_lt 32); auto|auto].
      destruct (N.ltb_spec m (N.of_nat (32 - s))).
      * replace (32 * N.of_nat j + m + N.of_nat n) with (32 * N.of_nat (j + z) + (m + N.of_nat s)) by lia.
        rewrite number_bit by (auto; lia). auto.
      * replace (32 * N.of_nat j + m + N.of_nat n) with (32 * N.of_nat (j + z + 1) + (m - N.of_nat (32 - s))) by lia.
        rewrite number_bit by (auto; lia). auto.
Qed.
Lemma div_le_self x n : x / 2 ^ n <= x.
Proof. pose proof (pow2_pos n). apply N.div_le_upper_bound; [lia|]. nia. Qed.
Lemma right_shift_spec bits n a : (0 < bits)%nat -> wf bits a -> shift_ok bits n ->
  exists r, right_shift bits n a = Done r /\ wf bits r /\ value bits r = value bits a / 2 ^ N.of_nat n.
Proof.
  intros Hb [R V] Ok. pose proof (bits_le bits Hb) as Hle. pose proof (div_le_self (value bits a) (N.of_nat n)) as Hd.
  assert (Big : (bits <= n)%nat -> value bits a / 2 ^ N.of_nat n = 0).
  { intros H. apply N.div_small. eapply N.lt_le_trans; [exact V|]. apply N.pow_le_mono_r; lia. }
  destruct (single bits) eqn:S.
  - unfold right_shift. rewrite S. assert (En : nv bits = 1%nat) by (apply Nat.eqb_eq; auto).
    destruct (single_form bits a R S) as [Ea Va]. destruct (Nat.leb_spec (vbits bits) n).
    + eexists. split; [reflexivity|]. rewrite Ea. cbn [upd].
      destruct (wf_assign0 bits Hb) as [W V0]. unfold assign0 in *. rewrite En in *. cbn [repeat] in *.
      split; auto. rewrite V0, <- Ea. symmetry. apply Big. lia.
    + eexists. split; [reflexivity|]. rewrite Ea. cbn [upd].
      assert (E : value bits [N.shiftr (lim [lim a 0] 0) (N.of_nat n)] = value bits a / 2 ^ N.of_nat n).
      { rewrite <- Ea. unfold value at 1. cbn [number]. rewrite N.mul_0_r, N.add_0_r, N.shiftr_div_pow2, <- Va. auto. }
      rewrite E, <- Ea. split; auto. split; [|rewrite <- Ea in E; rewrite E; lia]. split; [cbn; lia|].
      destruct R as [_ D]. rewrite Ea in D. inversion D as [|? ? D1 _]; subst. constructor; auto.
      rewrite N.shiftr_div_pow2. pose proof (div_le_self (lim a 0) (N.of_nat n)). lia.
  - destruct (Nat.eq_dec n 0) as [-> |Hn].
    + unfold right_shift. rewrite S. cbn [Nat.ltb Nat.leb]. exists a. split; auto. split; [split; auto|].
      rewrite N.pow_0_r, N.div_1_r. auto.
    + destruct (Nat.lt_ge_cases (n / 32) (nv bits)).
      * destruct (right_shift_multi bits n a Hb S R Ok ltac:(lia) H) as [r [E [Rr Vr]]].
        exists r. split; auto. split; auto. split; auto. lia.
      * unfold right_shift. rewrite S. rewrite (proj2 (Nat.ltb_lt 0 n)), (proj2 (Nat.leb_le _ _) H) by lia.
        destruct (wf_assign0 bits Hb) as [W V0]. exists (assign0 bits). split; auto. split; auto. rewrite V0.
        symmetry. apply Big. destruct (multi_dims bits Hb S) as [E32 _]. rewrite E32 in Hle.
        pose proof (Nat.mul_div_le n 32 ltac:(lia)). nia.
Qed.
Lemma right_shift_ub bits n a : (0 < bits)%nat -> ~ shift_ok bits n -> right_shift bits n a = UB.
Proof.
  intros Hb Ok. unfold shift_ok in Ok. unfold right_shift. destruct (single bits) eqn:S; [tauto|].
  rewrite (proj2 (Nat.ltb_lt 0 n)) by lia. rewrite (proj2 (Nat.leb_gt (nv bits) (n / 32))) by lia.
  replace (n mod 32)%nat with 0%nat by lia. destruct (nv bits - 1 - n / 32)%nat as [|k] eqn:E; [lia|].
  cbn [rsh_loop]. rewrite shr32_done by lia. auto.
Qed.

(** ** Zero *)

Lemma is_zero_from_spec k l : is_zero_from l = (number k l =? 0).
Proof.
  induction l as [|v l IH]; cbn [is_zero_from number]; auto. pose proof (pow2_pos k).
  destruct (N.eqb_spec v 0) as [-> |Hn]; cbn [negb].
  - rewrite IH, N.add_0_l. destruct (N.eqb_spec (number k l) 0) as [-> |Hn].
    + rewrite N.mul_0_r. auto.
    + symmetry. apply N.eqb_neq. apply N.neq_mul_0. lia.
  - symmetry. apply N.eqb_neq. lia.
Qed.
Lemma is_zero_spec bits a : raw bits a -> is_zero bits a = (value bits a =? 0).
Proof.
  intros R. unfold is_zero. destruct (single bits) eqn:S.
  - rewrite (proj2 (single_form bits a R S)). auto.
  - apply is_zero_from_spec.
Qed.

(** ** Differences *)

Local Open Scope Z_scope.

Lemma sub_digit v b : (v < 2 ^ 32)%N -> (b <= 2 ^ 32)%N ->
  Z.of_N (N.land (wsub 64 v b) (2 ^ 32 - 1)) = Z.of_N v - Z.of_N b + (if (v <? b)%N then 2 ^ 32 else 0).
Proof.
  intros Hv Hb. rewrite land_mask. unfold wsub, wrap.
  assert (E : ((v + (2 ^ 64 - b)) mod 2 ^ 64 mod 2 ^ 32 = (v + (2 ^ 64 - b)) mod 2 ^ 32)%N).
  { change (2 ^ 64)%N with (2 ^ 32 * 2 ^ 32)%N at 2. rewrite N.mod_mul_r by discriminate.
    rewrite (N.mul_comm (2 ^ 32) (_ mod _)), N.mod_add by discriminate. apply N.mod_mod. discriminate. }
  rewrite E. revert Hv Hb. change (2 ^ 32)%N with 4294967296%N. change (2 ^ 64)%N with 18446744073709551616%N.
  change (2 ^ 32) with 4294967296. intros Hv Hb. destruct (N.ltb_spec v b) as [H|H].
  - rewrite <- (N.mod_unique (v + (18446744073709551616 - b)) 4294967296 4294967295 (v + 4294967296 - b)); lia.
  - rewrite <- (N.mod_unique (v + (18446744073709551616 - b)) 4294967296 4294967296 (v - b)); lia.
Qed.
Lemma sub_loop_spec : forall l r b, digits 32 l -> digits 32 r -> length l = length r -> (b <= 1)%N ->
  digits 32 (sub_loop b l r) /\ length (sub_loop b l r) = length l /\
  cong 32 (length l) (zn 32 (sub_loop b l r)) (zn 32 l - zn 32 r - Z.of_N b).
Proof.
  induction l as [|v l IH]; intros [|u r] b Dl Dr L Hb; cbn in L; try lia; cbn [sub_loop].
  - split; [constructor|]. split; auto. exists (Z.of_N b). cbn [length]. rewrite pw_0, zn_nil. lia.
  - inversion Dl as [|? ? Hv Dl']; subst. inversion Dr as [|? ? Hu Dr']; subst.
    assert (Ew : w64 (b + u) = (b + u)%N).
    { apply w64_small. revert Hu. change (2 ^ 64)%N with 18446744073709551616%N. change (2 ^ 32)%N with 4294967296%N. lia. }
    rewrite Ew.
    assert (Hbu : (b + u <= 2 ^ 32)%N) by (revert Hu; change (2 ^ 32)%N with 4294967296%N; lia).
    pose proof (sub_digit v (b + u) Hv Hbu) as Sd.
    set (b' := if (v <? b + u)%N then 1%N else 0%N).
    destruct (IH r b' Dl' Dr' ltac:(lia)) as [ID [IL [c IC]]]; [unfold b'; destruct (_ <? _)%N; lia|].
    split; [constructor; auto; apply digit32|]. split; [cbn; lia|]. exists c. cbn [length].
    rewrite !zn_cons, pw_S, IC, Sd. rewrite N2Z.inj_add. change (zbase 32) with (2 ^ 32). unfold b'.
    destruct (v <? b + u)%N; cbn [Z.of_N]; ring.
Qed.

Lemma cong_range k n x y : cong k n x y -> 0 <= x < pw k n -> 0 <= y < pw k n -> x = y.
Proof.
  intros [c E] Hx Hy. assert (c = 0); [|subst; lia].
  revert E Hx Hy. generalize (pw k n). intros P E Hx Hy. nia.
Qed.
Lemma zn_range k l : digits k l -> 0 <= zn k l < pw k (length l).
Proof.
  intros D. pose proof (number_lt k l D) as H. unfold zn, pw.
  rewrite <- nat_N_Z, <- N2Z.inj_mul, <- (N2Z.inj_pow 2). lia.
Qed.
Lemma to_int64_mod x n : is_int64 n -> (x < 2 ^ 64)%N -> Z.of_N x = n mod 2 ^ 64 -> to_int64 x = n.
Proof.
  intros [H1 H2] Hx E. unfold to_int64. revert Hx E. change (2 ^ 63)%N with 9223372036854775808%N.
  change (2 ^ 64)%N with 18446744073709551616%N. change (2 ^ 64) with 18446744073709551616.
  change (2 ^ 63) with 9223372036854775808 in *. intros Hx E.
  destruct (Z.lt_ge_cases n 0).
  - rewrite <- (Z.mod_unique_pos n 18446744073709551616 (-1) (n + 18446744073709551616)) in E by lia.
    destruct (N.ltb_spec x 9223372036854775808); lia.
  - rewrite Z.mod_small in E by lia. destruct (N.ltb_spec x 9223372036854775808); lia.
Qed.
Lemma lim_repeat v n i : (i < n)%nat -> lim (repeat v n) i = v.
Proof. unfold lim. revert i. induction n; intros [|i] H; cbn; auto; try lia. apply IHn. lia. Qed.
Lemma other_than_repeat lo hi v n i : (i <= S (S n))%nat -> other_than i v (lo :: hi :: repeat v n) = false.
Proof.
  induction i as [|i IH]; intros H; cbn [other_than]; auto. destruct (Nat.ltb_spec 2 i); auto.
  replace (lim (lo :: hi :: repeat v n) i) with v.
  - rewrite N.eqb_refl. cbn [negb]. apply IH. lia.
  - destruct i as [|[|i]]; try lia. unfold lim. cbn [nth]. symmetry. apply lim_repeat. lia.
Qed.

Lemma difference_multi bits a b : (0 < bits)%nat -> single bits = false -> raw bits a -> raw bits b ->
  is_int64 (zvalue bits a - zvalue bits b) -> difference bits a b = zvalue bits a - zvalue bits b.
Proof.
  intros Hb S [La Da] [Lb Db] Hf. destruct (multi_dims bits Hb S) as [E32 H3]. unfold difference. rewrite S.
  unfold zvalue, value in *. rewrite E32 in *. change (N.of_nat 32) with 32%N in *.
  change (Z.of_N (number 32 a)) with (zn 32 a) in *. change (Z.of_N (number 32 b)) with (zn 32 b) in *.
  destruct (sub_loop_spec a b 0 Da Db ltac:(lia) ltac:(lia)) as [D [L C]].
  set (n := zn 32 a - zn 32 b) in *. cbn [Z.of_N] in C. rewrite Z.sub_0_r in C. fold n in C.
  set (lo := to_unsigned 32 n). set (hi := to_unsigned 32 (n / 2 ^ 32)).
  set (ex := (if 0 <=? n then 0%N else (2 ^ 32 - 1)%N)).
  assert (E64 : Z.of_N lo + 2 ^ 32 * Z.of_N hi = n mod 2 ^ 64).
  { unfold lo, hi. rewrite !unsigned_Z. change (zbase 32) with (2 ^ 32). apply mod_64. }
  destruct (offset_digits n (length a - 2) lo hi Hf E64) as [c Ec]. fold ex in Ec.
  assert (Hx : (ex < 2 ^ 32)%N) by (unfold ex; destruct (0 <=? n); reflexivity).
  assert (Hlo : (lo < 2 ^ 32)%N) by apply unsigned_lt. assert (Hhi : (hi < 2 ^ 32)%N) by apply unsigned_lt.
  assert (De : digits 32 (lo :: hi :: repeat ex (length a - 2))).
  { constructor; auto. constructor; auto. apply Forall_forall. intros v Hv. apply repeat_spec in Hv. subst. auto. }
  assert (Le : length (lo :: hi :: repeat ex (length a - 2)) = length a) by (cbn [length]; rewrite repeat_length; lia).
  assert (Eq : sub_loop 0 a b = lo :: hi :: repeat ex (length a - 2)).
  { apply (number_inj 32); auto; [lia|]. apply N2Z.inj.
    apply (cong_range 32 (length a)).
    - destruct C as [d Ed]. exists (d - c). change (zn 32 (sub_loop 0 a b) = zn 32 (lo :: hi :: repeat ex (length a - 2)) + (d - c) * pw 32 (length a)).
      rewrite Ed, Ec. replace (Datatypes.S (Datatypes.S (length a - 2))) with (length a) by lia. ring.
    - rewrite <- L. apply zn_range. auto.
    - pose proof (zn_range 32 _ De) as Rg. rewrite Le in Rg. exact Rg. }
  rewrite Eq. unfold addr_to_int64. rewrite <- La. change (lim (lo :: hi :: _) 0) with lo. change (lim (lo :: hi :: _) 1) with hi.
  assert (Top : lim (lo :: hi :: repeat ex (length a - 2)) (length a - 1) = ex).
  { replace (length a - 1)%nat with (Datatypes.S (Datatypes.S (length a - 3))) by lia. unfold lim. cbn [nth].
    apply lim_repeat. lia. }
  rewrite Top.
  assert (Ed : to_int64 (lo + 2 ^ 32 * hi) = n).
  { apply to_int64_mod; auto.
    - revert Hlo Hhi. change (2 ^ 32)%N with 4294967296%N. change (2 ^ 64)%N with 18446744073709551616%N. lia.
    - rewrite N2Z.inj_add, N2Z.inj_mul. change (Z.of_N (2 ^ 32)) with (2 ^ 32). auto. }
  rewrite Ed. unfold ex in *. destruct (Z.leb_spec 0 n).
  - change (0 <=? (2 ^ 32 - 1) / 2)%N with true. cbv iota. rewrite (proj2 (Z.ltb_ge n 0)) by lia.
    rewrite other_than_repeat by lia. auto.
  - change (2 ^ 32 - 1 <=? (2 ^ 32 - 1) / 2)%N with false. cbv iota.
    rewrite other_than_repeat by lia. auto.
Qed.
