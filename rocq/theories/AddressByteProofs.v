(** Lemmas about the bytes of addresses. *)
From Coq Require Import ZifyBool ZifyNat ZifyN.
From Verif Require Import Base BaseProofs BufferIter BufferIterSpec BufferIterProofs Address AddressSpec AddressProofs AddressBitProofs.

Ltac Zify.zify_post_hook ::= idtac.
Local Open Scope N_scope.

(** ** Bytes and numbers *)

Lemma pow8 k : 2 ^ (8 * N.of_nat k) = 256 ^ N.of_nat k.
Proof. symmetry. apply pow256_pow2. Qed.
Lemma flat_bytes_length k l : length (flat_map (le_bytes k) l) = (k * length l)%nat.
Proof. induction l; cbn [flat_map length]; [lia|]. rewrite app_length, le_bytes_length, IHl. lia. Qed.
Lemma flat_bytes_bytes k l : Forall is_byte (flat_map (le_bytes k) l).
Proof. induction l; cbn [flat_map]; [constructor|]. apply Forall_app. auto using le_bytes_bytes. Qed.
Lemma flat_bytes_number k l : digits (8 * N.of_nat k) l ->
  of_le_bytes (flat_map (le_bytes k) l) = number (8 * N.of_nat k) l.
Proof.
  induction 1 as [|v l Hv Hl IH]; cbn [flat_map number]; auto.
  rewrite of_le_bytes_app, le_bytes_length, of_le_bytes_le_bytes, IH, <- pow8, N.mod_small; auto.
Qed.
Lemma limbs_of_spec k n : forall bs, length bs = (k * n)%nat -> Forall is_byte bs ->
  length (limbs_of k n bs) = n /\ digits (8 * N.of_nat k) (limbs_of k n bs) /\
  number (8 * N.of_nat k) (limbs_of k n bs) = of_le_bytes bs.
Proof.
  induction n as [|n IH]; intros bs L B; cbn [limbs_of].
  - rewrite Nat.mul_0_r in L. destruct bs; [|discriminate]. repeat split. constructor.
  - assert (Lf : length (firstn k bs) = k) by (rewrite firstn_length_le; lia).
    assert (Bs : Forall is_byte (firstn k bs) /\ Forall is_byte (skipn k bs)).
    { apply Forall_app. rewrite firstn_skipn. auto. }
    destruct (IH (skipn k bs)) as [IL [ID IN]]; [rewrite skipn_length; lia|tauto|].
    split; [cbn; lia|]. split.
    + constructor; auto. rewrite pow8. pose proof (of_le_bytes_lt (firstn k bs) (proj1 Bs)) as Hl.
      rewrite Lf in Hl. exact Hl.
    + cbn [number]. rewrite IN, pow8. transitivity (of_le_bytes (firstn k bs ++ skipn k bs)).
      * rewrite of_le_bytes_app, Lf. auto.
      * rewrite firstn_skipn. auto.
Qed.
Lemma limbs_of_inv k n l : length l = n -> digits (8 * N.of_nat k) l -> limbs_of k n (flat_map (le_bytes k) l) = l.
Proof.
  intros L D. destruct (limbs_of_spec k n (flat_map (le_bytes k) l)) as [L' [D' N']].
  - rewrite flat_bytes_length. lia.
  - apply flat_bytes_bytes.
  - eapply number_inj; eauto; [lia|]. rewrite N'. apply flat_bytes_number. auto.
Qed.

Definition size8 (bits : nat) : nat := (vbytes bits * nv bits)%nat.
Lemma vbytes_bits bits : (0 < bits)%nat -> N.of_nat (vbits bits) = 8 * N.of_nat (vbytes bits).
Proof. intros Hb. destruct (dims bits Hb) as [m [_ [_ [_ [_ [_ [H _]]]]]]]. lia. Qed.
Lemma nb_size bits : (0 < bits)%nat -> (nb bits <= size8 bits)%nat /\ (bits <= 8 * nb bits)%nat.
Proof. intros Hb. destruct (dims bits Hb) as [m [_ [_ [_ [_ [_ [_ H]]]]]]]. exact H. Qed.
Lemma as_bytes_spec bits a : (0 < bits)%nat -> raw bits a -> as_bytes bits a = le_bytes (size8 bits) (value bits a).
Proof.
  intros Hb [L D]. unfold as_bytes, value. rewrite (vbytes_bits bits Hb) in *.
  rewrite <- flat_bytes_number by auto.
  replace (size8 bits) with (length (flat_map (le_bytes (vbytes bits)) a)).
  - symmetry. apply le_bytes_of_le_bytes, flat_bytes_bytes.
  - rewrite flat_bytes_length. unfold size8. lia.
Qed.
Lemma le_bytes_first i n v : (i <= n)%nat -> firstn i (le_bytes n v) = le_bytes i v.
Proof.
  intros H. replace n with (i + (n - i))%nat by lia. rewrite le_bytes_app.
  rewrite firstn_app, le_bytes_length, Nat.sub_diag. cbn [firstn]. rewrite app_nil_r.
  apply firstn_all2. rewrite le_bytes_length. lia.
Qed.
Lemma le_bytes_rest i n v : (i <= n)%nat -> skipn i (le_bytes n v) = le_bytes (n - i) (v / 256 ^ N.of_nat i).
Proof.
  intros H. replace n with (i + (n - i))%nat at 1 by lia. rewrite le_bytes_app.
  rewrite skipn_app, le_bytes_length, Nat.sub_diag. cbn [skipn].
  rewrite skipn_all2 by (rewrite le_bytes_length; lia). auto.
Qed.
Lemma p256_pos n : 0 < 256 ^ n.
Proof. apply N.neq_0_lt_0, N.pow_nonzero. discriminate. Qed.

(** Overwriting bytes. *)
Lemma poke_spec bits a i bs : (0 < bits)%nat -> raw bits a -> Forall is_byte bs -> (i + length bs <= size8 bits)%nat ->
  raw bits (poke bits a i bs) /\
  value bits (poke bits a i bs) =
    value bits a mod 256 ^ N.of_nat i + 256 ^ N.of_nat i *
      (of_le_bytes bs + 256 ^ N.of_nat (length bs) * (value bits a / 256 ^ N.of_nat (i + length bs))).
Proof.
  intros Hb R B H. unfold poke. rewrite (as_bytes_spec bits a Hb R).
  rewrite le_bytes_first, le_bytes_rest by lia. set (v := value bits a).
  destruct (limbs_of_spec (vbytes bits) (nv bits)
    (le_bytes i v ++ bs ++ le_bytes (size8 bits - (i + length bs)) (v / 256 ^ N.of_nat (i + length bs)))) as [L [D E]].
  - rewrite !app_length, !le_bytes_length. unfold size8 in *. lia.
  - apply Forall_app. split; [apply le_bytes_bytes|]. apply Forall_app. split; [auto|apply le_bytes_bytes].
  - split.
    + split; auto. rewrite (vbytes_bits bits Hb). auto.
    + unfold value at 1. rewrite (vbytes_bits bits Hb), E. rewrite !of_le_bytes_app, !le_bytes_length, !of_le_bytes_le_bytes.
      f_equal. f_equal. f_equal. f_equal. apply N.mod_small.
      assert (Hv : v < 256 ^ N.of_nat (size8 bits)).
      { destruct R as [La Da]. unfold v, value. rewrite (vbytes_bits bits Hb) in *.
        pose proof (number_lt _ _ Da) as Hl. rewrite La in Hl.
        replace (8 * N.of_nat (vbytes bits) * N.of_nat (nv bits)) with (8 * N.of_nat (size8 bits)) in Hl by (unfold size8; lia).
        rewrite pow8 in Hl. auto. }
      apply N.div_lt_upper_bound; [apply N.pow_nonzero; discriminate|]. rewrite <- N.pow_add_r.
      replace (N.of_nat (i + length bs) + N.of_nat (size8 bits - (i + length bs))) with (N.of_nat (size8 bits)) by lia. auto.
Qed.

(** A number cut after [nb] bytes, reduced. *)
Lemma mod_cut bits (x y : N) k : (bits <= 8 * k)%nat -> (x + 256 ^ N.of_nat k * y) mod modulus bits = x mod modulus bits.
Proof.
  intros H. rewrite <- pow8. unfold modulus. rewrite (pow_split (8 * N.of_nat k) (N.of_nat bits)) by lia.
  rewrite <- N.mul_assoc, N.mul_comm, N.mod_add; auto. apply N.pow_nonzero. discriminate.
Qed.
Lemma bytes_cut bits bs : (0 < bits)%nat -> 
  of_le_bytes (firstn (if (length bs <=? nb bits)%nat then length bs else nb bits) bs) mod modulus bits =
  of_le_bytes bs mod modulus bits.
Proof.
  intros Hb. destruct (nb_size bits Hb) as [_ H]. destruct (Nat.leb_spec (length bs) (nb bits)).
  - rewrite firstn_all. auto.
  - rewrite <- (firstn_skipn (nb bits) bs) at 2. rewrite of_le_bytes_app, firstn_length_le by lia.
    rewrite mod_cut; auto.
Qed.
Lemma cut_length bits (bs : list N) : (length (firstn (if (length bs <=? nb bits)%nat then length bs else nb bits) bs) <= nb bits)%nat.
Proof. rewrite firstn_length. destruct (Nat.leb_spec (length bs) (nb bits)); lia. Qed.
Lemma poke_zero bits bs : (0 < bits)%nat -> Forall is_byte bs -> (length bs <= nb bits)%nat ->
  raw bits (poke bits (assign0 bits) 0 bs) /\ value bits (poke bits (assign0 bits) 0 bs) = of_le_bytes bs.
Proof.
  intros Hb B L. destruct (nb_size bits Hb) as [H _]. destruct (wf_assign0 bits Hb) as [[R _] V].
  destruct (poke_spec bits (assign0 bits) 0 bs Hb R B) as [R' V']; [lia|]. split; auto. rewrite V', V.
  rewrite N.div_0_l, N.mod_0_l by (apply N.pow_nonzero; discriminate). rewrite N.mul_0_r, N.add_0_r.
  change (256 ^ N.of_nat 0) with 1. lia.
Qed.
Lemma firstn_bytes n bs : Forall is_byte bs -> Forall is_byte (firstn n bs).
Proof. intros B. rewrite <- (firstn_skipn n bs) in B. apply Forall_app in B. tauto. Qed.
Lemma assign_bytes_le_spec bits bs : (0 < bits)%nat -> Forall is_byte bs ->
  wf bits (assign_bytes_le bits bs) /\ value bits (assign_bytes_le bits bs) = of_le_bytes bs mod modulus bits.
Proof.
  intros Hb B. unfold assign_bytes_le.
  destruct (poke_zero bits _ Hb (firstn_bytes _ bs B) (cut_length bits bs)) as [R V].
  destruct (mask_raw bits _ Hb R) as [W E]. split; auto. rewrite E, V. apply bytes_cut. auto.
Qed.
Lemma reversed {A} (d : A) bs m : (m <= length bs)%nat ->
  map (fun i => nth (length bs - 1 - i) bs d) (seq 0 m) = firstn m (rev bs).
Proof.
  intros H. apply (nth_ext _ _ d d).
  - rewrite map_length, seq_length, firstn_length, rev_length. lia.
  - intros i Hi. rewrite map_length, seq_length in Hi.
    rewrite (nth_indep _ d (nth (length bs - 1 - 0) bs d)) by (rewrite map_length, seq_length; auto).
    rewrite (map_nth (fun i => nth (length bs - 1 - i) bs d)), seq_nth by auto.
    replace (nth i (firstn m (rev bs)) d) with (nth i (rev bs) d).
    + rewrite rev_nth by lia. f_equal. lia.
    + rewrite <- (firstn_skipn m (rev bs)) at 1. rewrite app_nth1; auto. rewrite firstn_length, rev_length. lia.
Qed.
Lemma assign_bytes_be_le bits bs : assign_bytes_be bits bs = assign_bytes_le bits (rev bs).
Proof.
  unfold assign_bytes_be, assign_bytes_le. rewrite rev_length. rewrite (reversed 0); auto.
  destruct (Nat.leb_spec (length bs) (nb bits)); lia.
Qed.
Lemma assign_bytes_be_spec bits bs : (0 < bits)%nat -> Forall is_byte bs ->
  wf bits (assign_bytes_be bits bs) /\ value bits (assign_bytes_be bits bs) = of_le_bytes (rev bs) mod modulus bits.
Proof. intros Hb B. rewrite assign_bytes_be_le. apply assign_bytes_le_spec; auto. apply Forall_rev. auto. Qed.
Lemma assign_unsigned_spec bits M v : (0 < bits)%nat ->
  wf bits (assign_unsigned bits M v) /\
  value bits (assign_unsigned bits M v) = (v mod 2 ^ (8 * N.of_nat M)) mod modulus bits.
Proof.
  intros Hb. unfold assign_unsigned. destruct (assign_bytes_le_spec bits (le_bytes M v) Hb (le_bytes_bytes M v)) as [W V].
  split; auto. rewrite V, of_le_bytes_le_bytes, pow8. auto.
Qed.

Lemma modulus_Z bits : Z.of_N (modulus bits) = zmodulus bits.
Proof. unfold modulus, zmodulus. rewrite N2Z.inj_pow, nat_N_Z. auto. Qed.
Lemma zvalue_mod bits a x : value bits a = x mod modulus bits -> zvalue bits a = (Z.of_N x mod zmodulus bits)%Z.
Proof. intros E. unfold zvalue. rewrite E, N2Z.inj_mod, modulus_Z. auto. Qed.
Lemma p256_Z n : Z.of_N (256 ^ N.of_nat n) = (2 ^ (8 * Z.of_nat n))%Z.
Proof. rewrite <- pow8, N2Z.inj_pow, N2Z.inj_mul, nat_N_Z. auto. Qed.
Lemma of_le_bytes_ff n : of_le_bytes (repeat 255 n) = 256 ^ N.of_nat n - 1.
Proof.
  induction n as [|n IH]; cbn [repeat of_le_bytes]; auto. rewrite IH, pow256_S. pose proof (p256_pos (N.of_nat n)). lia.
Qed.
Lemma zmod_cut bits (x : Z) k c : (bits <= 8 * k)%nat -> ((x + c * 2 ^ (8 * Z.of_nat k)) mod zmodulus bits = x mod zmodulus bits)%Z.
Proof.
  intros H. unfold zmodulus.
  replace (2 ^ (8 * Z.of_nat k))%Z with (2 ^ (8 * Z.of_nat k - Z.of_nat bits) * 2 ^ Z.of_nat bits)%Z.
  - rewrite Z.mul_assoc. apply Z.mod_add. apply Z.pow_nonzero; lia.
  - rewrite <- Z.pow_add_r by lia. f_equal. lia.
Qed.
Lemma assign_signed_spec bits M v : (0 < bits)%nat -> (0 < M)%nat ->
  (- 2 ^ (8 * Z.of_nat M - 1) <= v < 2 ^ (8 * Z.of_nat M - 1))%Z ->
  wf bits (assign_signed bits M v) /\ zvalue bits (assign_signed bits M v) = (v mod zmodulus bits)%Z.
Proof.
  intros Hb HM Hv. unfold assign_signed. set (u := Z.to_N (v mod 2 ^ (8 * Z.of_nat M))).
  assert (Hp : (0 < 2 ^ (8 * Z.of_nat M))%Z) by (apply Z.pow_pos_nonneg; lia).
  assert (Hh : (2 ^ (8 * Z.of_nat M) = 2 * 2 ^ (8 * Z.of_nat M - 1))%Z).
  { rewrite <- Z.pow_succ_r by lia. f_equal. lia. }
  assert (Eu : Z.of_N u = (v mod 2 ^ (8 * Z.of_nat M))%Z).
  { unfold u. apply Z2N.id. apply Z.mod_pos_bound. lia. }
  assert (Hu : u < 256 ^ N.of_nat M).
  { apply N2Z.inj_lt. rewrite Eu, p256_Z. apply Z.mod_pos_bound. lia. }
  destruct (assign_bytes_le_spec bits (le_bytes M u) Hb (le_bytes_bytes M u)) as [W V].
  rewrite of_le_bytes_le_bytes in V. rewrite (N.mod_small u) in V by auto.
  destruct (nb_size bits Hb) as [Hn1 Hn2].
  destruct (Z.ltb_spec v 0) as [Hneg|Hpos].
  2: { rewrite andb_false_r. split; auto. rewrite (zvalue_mod _ _ _ V), Eu, (Z.mod_small v) by lia. auto. }
  assert (Eneg : (v mod 2 ^ (8 * Z.of_nat M) = v + 2 ^ (8 * Z.of_nat M))%Z).
  { symmetry. apply (Z.mod_unique_pos _ _ (-1)); lia. }
  destruct (Nat.ltb_spec M (nb bits)) as [HMn|HMn]; cbn [andb].
  - set (a := assign_bytes_le bits (le_bytes M u)) in *.
    assert (Va : value bits a = u).
    { rewrite V. apply N.mod_small. eapply N.lt_le_trans; [exact Hu|]. rewrite <- pow8. unfold modulus.
      apply N.pow_le_mono_r; [discriminate|]. unfold nb in HMn.
      pose proof (Nat.mul_div_le (bits + 7) 8 ltac:(lia)). lia. }
    destruct (poke_spec bits a M (repeat 255 (nb bits - M)) Hb (proj1 W)) as [R P].
    { apply Forall_forall. intros x Hx. apply repeat_spec in Hx. subst. reflexivity. }
    { rewrite repeat_length. lia. }
    rewrite repeat_length, of_le_bytes_ff, Va in P.
    replace (M + (nb bits - M))%nat with (nb bits) in P by (clear - HMn; lia).
    assert (Hle : 256 ^ N.of_nat M <= 256 ^ N.of_nat (nb bits)) by (apply N.pow_le_mono_r; [discriminate|clear - HMn; lia]).
    rewrite (N.div_small u), N.mul_0_r, N.add_0_r, (N.mod_small u) in P by (eapply N.lt_le_trans; [exact Hu|]; auto; apply N.le_refl).
    destruct (mask_raw bits _ Hb R) as [W' E']. split; auto. rewrite (zvalue_mod _ _ _ E'), P.
    pose proof (p256_pos (N.of_nat (nb bits - M))) as Hpos.
    rewrite N2Z.inj_add, N2Z.inj_mul, N2Z.inj_sub by (clear - Hpos; lia). rewrite !p256_Z, Eu, Eneg.
    replace (v + 2 ^ (8 * Z.of_nat M) + 2 ^ (8 * Z.of_nat M) * (2 ^ (8 * Z.of_nat (nb bits - M)) - Z.of_N 1))%Z
      with (v + 1 * 2 ^ (8 * Z.of_nat (nb bits)))%Z.
    + apply zmod_cut. auto.
    + replace (8 * Z.of_nat (nb bits))%Z with (8 * Z.of_nat M + 8 * Z.of_nat (nb bits - M))%Z by (clear - HMn; lia).
      rewrite Z.pow_add_r by (clear; lia). cbn [Z.of_N]. ring.
  - split; auto. rewrite (zvalue_mod _ _ _ V), Eu, Eneg.
    replace (v + 2 ^ (8 * Z.of_nat M))%Z with (v + 1 * 2 ^ (8 * Z.of_nat M))%Z by lia. apply zmod_cut. lia.
Qed.

(** ** Values *)

Lemma assign_values_le_spec bits sz vs : (0 < bits)%nat -> digits (8 * N.of_nat sz) vs ->
  wf bits (assign_values_le bits sz vs) /\
  value bits (assign_values_le bits sz vs) = number (8 * N.of_nat sz) vs mod modulus bits.
Proof.
  intros Hb D. unfold assign_values_le.
  destruct (assign_bytes_le_spec bits _ Hb (flat_bytes_bytes sz vs)) as [W V]. split; auto.
  rewrite V, flat_bytes_number; auto.
Qed.
Lemma num_t_spec bits sz : (0 < sz)%nat -> (bits <= 8 * (sz * num_t bits sz))%nat.
Proof.
  intros H. unfold num_t. pose proof (Nat.div_mod (bits + 8 * sz - 1) (8 * sz) ltac:(lia)).
  pose proof (Nat.mod_upper_bound (bits + 8 * sz - 1) (8 * sz) ltac:(lia)). nia.
Qed.
Lemma values_cut bits sz k vs : (0 < sz)%nat -> (num_t bits sz <= k)%nat ->
  number (8 * N.of_nat sz) (firstn k vs) mod modulus bits = number (8 * N.of_nat sz) vs mod modulus bits.
Proof.
  intros Hs Hk. destruct (Nat.le_gt_cases (length vs) k).
  - rewrite firstn_all2; auto.
  - rewrite <- (firstn_skipn k vs) at 2. rewrite number_app, firstn_length_le by lia.
    replace (8 * N.of_nat sz * N.of_nat k) with (8 * N.of_nat (sz * k)) by lia. rewrite pow8, mod_cut; auto.
    pose proof (num_t_spec bits sz Hs). nia.
Qed.
Lemma digits_rev k l : digits k l -> digits k (rev l).
Proof. apply Forall_rev. Qed.
Lemma assign_values_be_spec bits sz vs : (0 < bits)%nat -> (0 < sz)%nat -> digits (8 * N.of_nat sz) vs ->
  wf bits (assign_values_be bits sz vs) /\
  value bits (assign_values_be bits sz vs) = number (8 * N.of_nat sz) (rev vs) mod modulus bits.
Proof.
  intros Hb Hs D. unfold assign_values_be. set (k := if (_ <? _)%nat then _ else _).
  assert (Hk : (k <= length vs)%nat) by (unfold k; destruct (Nat.ltb_spec (length vs) (num_t bits sz)); lia).
  rewrite (reversed 0) by auto.
  destruct (assign_bytes_le_spec bits _ Hb (flat_bytes_bytes sz (firstn k (rev vs)))) as [W V]. split; auto.
  rewrite V, flat_bytes_number by (apply digits_firstn, digits_rev; auto).
  destruct (Nat.le_gt_cases (num_t bits sz) k).
  - apply values_cut; auto.
  - assert (k = length vs). { unfold k in *. destruct (Nat.ltb_spec (length vs) (num_t bits sz)); lia. }
    rewrite firstn_all2; auto. rewrite rev_length. lia.
Qed.
Lemma seq_be_list (vs : list N) k :
  map (fun i => if (i <? length vs)%nat then nth (length vs - 1 - i) vs 0 else 0) (seq 0 k) =
  firstn k (rev vs ++ repeat 0 k).
Proof.
  apply (nth_ext _ _ 0 0).
  - rewrite map_length, seq_length, firstn_length, app_length, rev_length, repeat_length. lia.
  - intros i Hi. rewrite map_length, seq_length in Hi.
    rewrite (nth_indep _ 0 ((fun i => if (i <? length vs)%nat then nth (length vs - 1 - i) vs 0 else 0) 0%nat)) by (rewrite map_length, seq_length; auto).
    rewrite (map_nth (fun i => if (i <? length vs)%nat then nth (length vs - 1 - i) vs 0 else 0)), seq_nth by auto.
    cbn [Nat.add]. replace (nth i (firstn k (rev vs ++ repeat 0 k)) 0) with (nth i (rev vs ++ repeat 0 k) 0).
    + destruct (Nat.ltb_spec i (length vs)).
      * rewrite app_nth1 by (rewrite rev_length; auto). rewrite rev_nth by lia. f_equal. lia.
      * rewrite app_nth2 by (rewrite rev_length; auto). rewrite rev_length. symmetry. apply (lim_repeat 0 k). lia.
    + rewrite <- (firstn_skipn k (rev vs ++ repeat 0 k)) at 1. rewrite app_nth1; auto.
      rewrite firstn_length, app_length, rev_length, repeat_length. lia.
Qed.
Lemma assign_seq_be_spec bits sz vs : (0 < bits)%nat -> (0 < sz)%nat -> digits (8 * N.of_nat sz) vs ->
  wf bits (assign_seq_be bits sz vs) /\
  value bits (assign_seq_be bits sz vs) = number (8 * N.of_nat sz) (rev vs) mod modulus bits.
Proof.
  intros Hb Hs D. unfold assign_seq_be. rewrite seq_be_list.
  assert (D' : digits (8 * N.of_nat sz) (rev vs ++ repeat 0 (num_t bits sz))).
  { apply digits_app. split; [apply digits_rev; auto|]. apply Forall_forall. intros v Hv.
    apply repeat_spec in Hv. subst. apply pow2_pos. }
  match goal with |- wf bits (assign_bytes_le bits (flat_map (le_bytes sz) ?l)) /\ _ =>
    destruct (assign_bytes_le_spec bits _ Hb (flat_bytes_bytes sz l)) as [W V] end.
  split; auto. rewrite V, flat_bytes_number by (apply digits_firstn; auto).
  rewrite values_cut by auto. rewrite number_app, number_repeat_0, N.mul_0_r, N.add_0_r. auto.
Qed.

(** ** Serialisation *)

Lemma wf_bytes bits a : (0 < bits)%nat -> wf bits a ->
  firstn (nb bits) (as_bytes bits a) = le_bytes (nb bits) (value bits a) /\ value bits a < 256 ^ N.of_nat (nb bits).
Proof.
  intros Hb [R V]. destruct (nb_size bits Hb) as [H1 H2]. rewrite (as_bytes_spec bits a Hb R). split.
  - apply le_bytes_first. auto.
  - eapply N.lt_le_trans; [exact V|]. rewrite <- pow8. unfold modulus. apply N.pow_le_mono_r; [discriminate|lia].
Qed.
Lemma mem_load_bytes mem i n bs : mem_load mem i n = Some bs -> Forall is_byte mem -> Forall is_byte bs /\ length bs = n.
Proof.
  unfold mem_load. destruct (Nat.leb_spec (i + n) (length mem)); [|discriminate]. intros [= <-] B. split.
  - apply firstn_bytes. rewrite <- (firstn_skipn i mem) in B. apply Forall_app in B. tauto.
  - rewrite firstn_length, skipn_length. lia.
Qed.
Lemma read_spec bits o a mem it a' it' : (0 < bits)%nat -> wf bits a -> Forall is_byte mem ->
  read bits o a mem it = Done (a', it') ->
  exists bs, read_bytes LittleEndian o (nb bits) mem it = Done (bs, it') /\
    wf bits a' /\ value bits a' = of_le_bytes bs mod modulus bits.
Proof.
  intros Hb W B E. unfold read in E. destruct (read_bytes LittleEndian o (nb bits) mem it) as [[bs it1]| | |] eqn:Er; try discriminate.
  cbn [obind] in E. injection E as <- <-. exists bs. split; auto.
  assert (Hbs : Forall is_byte bs /\ length bs = nb bits).
  { unfold read_bytes in Er. destruct (can_move_forward _ _); [|discriminate].
    destruct (mem_load _ _ _) as [l|] eqn:El; [|discriminate]. injection Er as <- _.
    destruct (mem_load_bytes _ _ _ _ El B) as [B1 L1]. destruct (keep_endian _ _); auto. rewrite rev_length.
    split; auto. apply Forall_rev. auto. }
  destruct Hbs as [B1 L1]. destruct (nb_size bits Hb) as [H1 H2]. destruct (wf_bytes bits a Hb W) as [_ Hv].
  destruct (poke_spec bits a 0 bs Hb (proj1 W) B1) as [R V]; [lia|].
  destruct (mask_raw bits _ Hb R) as [W' E']. split; auto. rewrite E', V.
  cbn [Nat.add]. rewrite L1, (N.div_small (value bits a)), N.mul_0_r, N.add_0_r by auto.
  change (256 ^ N.of_nat 0) with 1. rewrite N.mod_1_r, N.add_0_l, N.mul_1_l. auto.
Qed.
Lemma wf_value_inj bits a b : wf bits a -> wf bits b -> value bits a = value bits b -> a = b.
Proof. intros [[La Da] _] [[Lb Db] _] E. eapply number_inj; eauto. lia. Qed.
Lemma write_read bits o a b mem it mem' it' : (0 < bits)%nat -> wf bits a -> wf bits b -> Forall is_byte mem ->
  write bits o a mem it = Done (mem', it') ->
  read bits o b mem' it = Done (a, it') /\ length mem' = length mem /\
  mem_load mem' (N.to_nat (it_cursor it)) (nb bits) = Some (layout o LittleEndian (nb bits) (value bits a)) /\
  it_cursor it' = w64 (it_cursor it + N.of_nat (nb bits)).
Proof.
  intros Hb Wa Wb B E. unfold write in E. destruct (wf_bytes bits a Hb Wa) as [Ef Hv]. rewrite Ef in E.
  pose proof (write_read_bytes _ _ _ _ _ _ _ E) as [Er [El _]]. rewrite le_bytes_length in Er.
  assert (B' : Forall is_byte mem' /\ mem_load mem' (N.to_nat (it_cursor it)) (nb bits) = Some (layout o LittleEndian (nb bits) (value bits a))
               /\ it_cursor it' = w64 (it_cursor it + N.of_nat (nb bits))).
  { unfold write_bytes in E. destruct (can_move_forward _ _); [|discriminate].
    destruct (mem_store _ _ _) as [m|] eqn:Es; [|discriminate]. injection E as <- <-. split; [|split].
    - eapply mem_store_bytes in Es; eauto. destruct (keep_endian LittleEndian o); [apply le_bytes_bytes|apply Forall_rev, le_bytes_bytes].
    - apply mem_store_load in Es. rewrite keep_rev_length, le_bytes_length in Es. rewrite Es.
      destruct o; reflexivity.
    - cbn. rewrite le_bytes_length. auto. }
  destruct B' as [B' [Ml Hc]]. split; auto.
  destruct (read bits o b mem' it) as [[a' it1]| | |] eqn:Ed; unfold read in Ed; rewrite Er in Ed; cbn [obind] in Ed; try discriminate.
  assert (Ed' : read bits o b mem' it = Done (a', it1)) by (unfold read; rewrite Er; exact Ed).
  destruct (read_spec bits o b mem' it a' it1 Hb Wb B' Ed') as [bs [Eb [Wa' Va']]].
  rewrite Er in Eb. injection Eb as <- <-. f_equal. f_equal. eapply wf_value_inj; eauto.
  rewrite Va', of_le_bytes_le_bytes, (N.mod_small (value bits a)) by auto. apply N.mod_small. apply Wa.
Qed.

(** ** Text *)

Lemma hex_rev l : rev (flat_map (fun b => [b / 16; b mod 16]) l) = flat_map (fun b => [b mod 16; b / 16]) (rev l).
Proof.
  induction l as [|b l IH]; auto. cbn [flat_map rev]. rewrite rev_app_distr, IH, flat_map_app. cbn.
  auto.
Qed.
Lemma hex_number l : Forall is_byte l -> number 4 (flat_map (fun b => [b mod 16; b / 16]) l) = of_le_bytes l.
Proof.
  induction 1 as [|b l Hb Hl IH]; cbn [flat_map app number of_le_bytes]; auto. rewrite IH.
  change (2 ^ 4) with 16. rewrite (N.div_mod b 16) at 3 by discriminate. lia.
Qed.
Lemma to_string_spec bits a : (0 < bits)%nat -> wf bits a ->
  length (to_string bits a) = (2 * nb bits)%nat /\ Forall (fun d => d < 16) (to_string bits a) /\
  number 4 (rev (to_string bits a)) = value bits a.
Proof.
  intros Hb W. destruct (wf_bytes bits a Hb W) as [Ef Hv]. unfold to_string. rewrite Ef.
  set (l := le_bytes (nb bits) (value bits a)). assert (B : Forall is_byte l) by apply le_bytes_bytes.
  assert (L : length l = nb bits) by apply le_bytes_length. split; [|split].
  - assert (G : forall r : list N, length (flat_map (fun b => [b / 16; b mod 16]) r) = (2 * length r)%nat).
    { induction r; cbn [flat_map length app]; lia. }
    rewrite G, rev_length, L. auto.
  - apply Forall_rev in B. induction B as [|b r H1 H2 IH]; cbn [flat_map app]; constructor.
    + apply N.div_lt_upper_bound; [discriminate|exact H1].
    + constructor; auto. apply N.mod_lt. discriminate.
  - rewrite hex_rev, rev_involutive, hex_number by auto. unfold l. rewrite of_le_bytes_le_bytes. apply N.mod_small. auto.
Qed.

(** ** Differences of narrow addresses *)

Local Open Scope Z_scope.

Lemma difference_spec bits a b : (0 < bits)%nat -> wf bits a -> wf bits b ->
  is_int64 (zvalue bits a - zvalue bits b) -> (32 < bits)%nat \/ zvalue bits b <= zvalue bits a ->
  difference bits a b = zvalue bits a - zvalue bits b.
Proof.
  intros Hb Wa Wb Hf Hc. destruct (single bits) eqn:S; [|apply difference_multi; auto; [apply Wa|apply Wb]].
  unfold difference. rewrite S. rewrite (zvalue_single bits a), (zvalue_single bits b) in * by (auto; apply Wa || apply Wb).
  destruct Wa as [[La Da] _], Wb as [[Lb Db] _].
  pose proof (lim_lt _ a 0 Da) as Ha. pose proof (lim_lt _ b 0 Db) as Hb'. unfold vmod.
  assert (E : Z.of_N ((lim a 0 + (2 ^ N.of_nat (vbits bits) - lim b 0)) mod 2 ^ N.of_nat (vbits bits))%N
              = (Z.of_N (lim a 0) - Z.of_N (lim b 0)) mod zbase (N.of_nat (vbits bits))).
  { rewrite mod_Z, N2Z.inj_add, N2Z.inj_sub by lia. rewrite zbase_N.
    replace (Z.of_N (lim a 0) + (zbase (N.of_nat (vbits bits)) - Z.of_N (lim b 0)))
      with (Z.of_N (lim a 0) - Z.of_N (lim b 0) + 1 * zbase (N.of_nat (vbits bits))) by lia.
    apply Z.mod_add. pose proof (zbase_pos (N.of_nat (vbits bits))). lia. }
  destruct (dims bits Hb) as [m [_ [_ [_ [[H32|[H64 _]] _]]]]].
  - destruct (dims bits Hb) as [m' [Em [Hm _]]]. assert (En : nv bits = 1%nat) by (apply Nat.eqb_eq; auto).
    rewrite H32 in *. cbn [Nat.eqb]. rewrite E. rewrite En in Em. apply digit_Z in Ha, Hb'.
    apply Z.mod_small. change (N.of_nat 32) with 32%N in *. lia.
  - rewrite H64 in *. cbn [Nat.eqb]. apply to_int64_mod; auto.
    apply N.mod_lt. discriminate.
Qed.
Lemma difference_narrow bits a b : (0 < bits <= 32)%nat -> wf bits a -> wf bits b -> zvalue bits a < zvalue bits b ->
  difference bits a b = zvalue bits a - zvalue bits b + 2 ^ 32.
Proof.
  intros Hb Wa Wb Hlt. destruct (dims bits ltac:(lia)) as [m [Em [Hm [Hn [Hv _]]]]].
  assert (H32 : vbits bits = 32%nat) by lia.
  assert (En : nv bits = 1%nat) by (rewrite H32 in Em; lia).
  assert (S : single bits = true) by (unfold single; rewrite En; auto).
  unfold difference. rewrite S. rewrite (zvalue_single bits a), (zvalue_single bits b) in * by (auto; apply Wa || apply Wb).
  destruct Wa as [[La Da] _], Wb as [[Lb Db] _].
  pose proof (lim_lt _ a 0 Da) as Ha. pose proof (lim_lt _ b 0 Db) as Hb'. unfold vmod. rewrite H32 in *. cbn [Nat.eqb].
  change (N.of_nat 32) with 32%N in *. rewrite N.mod_small by lia. rewrite N2Z.inj_add, N2Z.inj_sub by lia.
  change (Z.of_N (2 ^ 32)) with (2 ^ 32). lia.
Qed.

(** ** Programs *)

Scheme made_ind2 := Minimality for made Sort Prop
  with operands_ind2 := Minimality for operands Sort Prop.

Definition good (bits : nat) (o : aop) : Prop :=
  match o with
  | ABytes _ bs => Forall is_byte bs
  | ASigned M v => (0 < M)%nat /\ - 2 ^ (8 * Z.of_nat M - 1) <= v < 2 ^ (8 * Z.of_nat M - 1)
  | AValues _ sz vs => (0 < sz)%nat /\ digits (8 * N.of_nat sz) vs
  | AAdd n | ASub n => is_int64 n
  | AAnd b | AOr b | AXor b => wf bits b
  | ARead _ mem _ => Forall is_byte mem
  | _ => True
  end.

Lemma land_Z x y : Z.of_N (N.land x y) = Z.land (Z.of_N x) (Z.of_N y).
Proof. destruct x, y; reflexivity. Qed.
Lemma lor_Z x y : Z.of_N (N.lor x y) = Z.lor (Z.of_N x) (Z.of_N y).
Proof. destruct x, y; reflexivity. Qed.
Lemma lxor_Z x y : Z.of_N (N.lxor x y) = Z.lxor (Z.of_N x) (Z.of_N y).
Proof. destruct x, y; reflexivity. Qed.
Lemma wf_mod bits a : wf bits a -> zvalue bits a mod zmodulus bits = zvalue bits a.
Proof. intros W. apply Z.mod_small, wf_range. auto. Qed.

Lemma multiply_assign_spec bits n a a' : (0 < bits)%nat -> wf bits a -> multiply_assign bits n a = Done a' ->
  wf bits a' /\ zvalue bits a' = (zvalue bits a * Z.of_N n) mod zmodulus bits.
Proof.
  intros Hb W E. destruct (single bits) eqn:S.
  - destruct (multiply_assign_single bits n a Hb (proj1 W) S) as [a1 [E1 H]]. rewrite E1 in E. injection E as <-. auto.
  - unfold multiply_assign in E. rewrite S in E. destruct (N.eqb_spec n 0) as [-> |H0].
    + injection E as <-. destruct (wf_assign0 bits Hb) as [W0 V0]. split; auto. unfold zvalue. rewrite V0.
      cbn [Z.of_N]. rewrite Z.mul_0_r, Z.mod_0_l; auto. pose proof (zmod_pos bits). lia.
    + destruct (N.ltb_spec 1 n).
      * rewrite multiply_plus_ub in E; [discriminate|auto|]. apply W.
      * injection E as <-. split; auto. assert (n = 1%N) as -> by lia. cbn [Z.of_N]. rewrite Z.mul_1_r.
        symmetry. apply wf_mod. auto.
Qed.
Lemma multiply_spec bits n a a' : (0 < bits)%nat -> wf bits a -> multiply bits n a = Done a' ->
  wf bits a' /\ zvalue bits a' = (zvalue bits a * Z.of_N n) mod zmodulus bits.
Proof.
  intros Hb W E. destruct (single bits) eqn:S.
  - destruct (multiply_single bits n a Hb (proj1 W) S) as [a1 [E1 H]]. rewrite E1 in E. injection E as <-. auto.
  - unfold multiply in E. rewrite S in E. rewrite multiply_plus_ub in E; [discriminate|auto|]. apply repeat_length.
Qed.
Lemma shift_ok_dec bits n : shift_ok bits n \/ ~ shift_ok bits n.
Proof. unfold shift_ok. destruct (single bits); [auto|]. assert (false <> true) by discriminate. lia. Qed.
Lemma pow_Z n : Z.of_N (2 ^ N.of_nat n) = 2 ^ Z.of_nat n.
Proof. rewrite N2Z.inj_pow, nat_N_Z. auto. Qed.

Lemma apply_spec bits o a a' : (0 < bits)%nat -> wf bits a -> good bits o -> apply bits o a = Done a' ->
  wf bits a' /\ forall y, meaning bits o (zvalue bits a) = Some y -> zvalue bits a' = y mod zmodulus bits.
Proof.
  intros Hb W G E.
  assert (Fin : forall r, wf bits r -> (forall y, meaning bits o (zvalue bits a) = Some y -> zvalue bits r = y mod zmodulus bits) ->
                apply bits o a = Done r -> wf bits a' /\ forall y, meaning bits o (zvalue bits a) = Some y -> zvalue bits a' = y mod zmodulus bits).
  { intros r W1 H E1. rewrite E1 in E. injection E as <-. auto. }
  destruct o as [|le bs|M v|M v|le sz vs| | |n|n|n|n| | |b|b|b|n|n|ord mem it]; cbn [good] in G.
  - destruct (wf_assign0 bits Hb) as [W0 V0]. eapply Fin; [exact W0| |reflexivity]. intros y [= <-]. unfold zvalue. rewrite V0.
    rewrite Z.mod_0_l; auto. pose proof (zmod_pos bits). lia.
  - destruct le.
    + destruct (assign_bytes_le_spec bits bs Hb G) as [W0 V0]. eapply Fin; [exact W0| |reflexivity].
      intros y [= <-]. apply zvalue_mod. auto.
    + destruct (assign_bytes_be_spec bits bs Hb G) as [W0 V0]. eapply Fin; [exact W0| |reflexivity].
      intros y [= <-]. apply zvalue_mod. auto.
  - destruct (assign_unsigned_spec bits M v Hb) as [W0 V0]. eapply Fin; [exact W0| |reflexivity].
    intros y Ey. cbn [meaning] in Ey. injection Ey as <-. rewrite (zvalue_mod _ _ _ V0), N2Z.inj_mod, N2Z.inj_pow, N2Z.inj_mul, nat_N_Z. auto.
  - destruct (assign_signed_spec bits M v Hb (proj1 G) (proj2 G)) as [W0 V0]. eapply Fin; [exact W0| |reflexivity].
    intros y [= <-]. auto.
  - destruct G as [G1 G2]. destruct le.
    + destruct (assign_values_le_spec bits sz vs Hb G2) as [W0 V0]. eapply Fin; [exact W0| |reflexivity].
      intros y [= <-]. apply zvalue_mod. auto.
    + destruct (assign_values_be_spec bits sz vs Hb G1 G2) as [W0 V0]. eapply Fin; [exact W0| |reflexivity].
      intros y [= <-]. apply zvalue_mod. auto.
  - destruct (increment_spec bits a Hb (proj1 W)) as [W0 V0]. eapply Fin; [exact W0| |reflexivity]. intros y [= <-]. auto.
  - destruct (decrement_spec bits a Hb (proj1 W)) as [W0 V0]. eapply Fin; [exact W0| |reflexivity]. intros y [= <-]. auto.
  - destruct (plus_spec bits n a Hb (proj1 W) G) as [W0 V0]. eapply Fin; [exact W0| |reflexivity]. intros y [= <-]. auto.
  - cbn [apply] in E. destruct (Z.eq_dec n (- 2 ^ 63)) as [-> |Hn]; [unfold minus in E; rewrite Z.eqb_refl in E; discriminate|].
    destruct (minus_spec bits n a Hb (proj1 W) G Hn) as [r [Er [W0 V0]]]. eapply Fin; [exact W0| |exact Er]. intros y [= <-]. auto.
  - destruct (multiply_assign_spec bits n a a' Hb W E) as [W0 V0]. split; auto. intros y [= <-]. auto.
  - destruct (multiply_spec bits n a a' Hb W E) as [W0 V0]. split; auto. intros y [= <-]. auto.
  - destruct (bitwise_not_spec bits a Hb (proj1 W)) as [W0 V0]. eapply Fin; [exact W0| |reflexivity]. intros y Ey.
    cbn [meaning] in Ey. injection Ey as <-. rewrite V0. f_equal. unfold Z.lnot. lia.
  - destruct (negate_spec bits a Hb (proj1 W)) as [W0 V0]. eapply Fin; [exact W0| |reflexivity]. intros y [= <-]. auto.
  - destruct (map2_wf _ _ bits a b and_bitwise W G) as [W0 V0]. eapply Fin; [exact W0| |reflexivity].
    intros y Ey. cbn [meaning] in Ey. injection Ey as <-. rewrite <- (wf_mod _ _ W0). unfold zvalue. rewrite V0, land_Z. auto.
  - destruct (map2_wf _ _ bits a b or_bitwise W G) as [W0 V0]. eapply Fin; [exact W0| |reflexivity].
    intros y Ey. cbn [meaning] in Ey. injection Ey as <-. rewrite <- (wf_mod _ _ W0). unfold zvalue. rewrite V0, lor_Z. auto.
  - destruct (map2_wf _ _ bits a b xor_bitwise W G) as [W0 V0]. eapply Fin; [exact W0| |reflexivity].
    intros y Ey. cbn [meaning] in Ey. injection Ey as <-. rewrite <- (wf_mod _ _ W0). unfold zvalue. rewrite V0, lxor_Z. auto.
  - cbn [apply] in E. destruct (shift_ok_dec bits n) as [Ok|Ok]; [|rewrite left_shift_ub in E by auto; discriminate].
    destruct (left_shift_spec bits n a Hb (proj1 W) Ok (fun _ => W)) as [r [Er [W0 V0]]].
    eapply Fin; [exact W0| |exact Er]. intros y Ey. cbn [meaning] in Ey. injection Ey as <-.
    rewrite (zvalue_mod _ _ _ V0), N2Z.inj_mul, pow_Z. auto.
  - cbn [apply] in E. destruct (shift_ok_dec bits n) as [Ok|Ok]; [|rewrite right_shift_ub in E by auto; discriminate].
    destruct (right_shift_spec bits n a Hb W Ok) as [r [Er [W0 V0]]].
    eapply Fin; [exact W0| |exact Er]. intros y Ey. cbn [meaning] in Ey. injection Ey as <-.
    rewrite <- (wf_mod _ _ W0). unfold zvalue. rewrite V0, N2Z.inj_div, pow_Z. auto.
  - cbn [apply] in E. destruct (read bits ord a mem it) as [[r it']| | |] eqn:Er; try discriminate. cbn [obind] in E.
    injection E as <-. destruct (read_spec bits ord a mem it r it' Hb W G Er) as [bs [_ [W0 _]]]. split; auto. discriminate.
Qed.
Lemma made_wf bits a : (0 < bits)%nat -> made bits a -> wf bits a.
Proof.
  intros Hb. apply (made_ind2 bits (wf bits) (good bits)); cbn [good]; auto.
  - apply wf_assign0. auto.
  - intros o x x' _ W _ G E. eapply apply_spec; eauto.
Qed.
Lemma operands_good bits o : (0 < bits)%nat -> operands bits o -> good bits o.
Proof. intros Hb H. inversion H; subst; cbn [good]; auto using made_wf. Qed.
Lemma single_width bits : (0 < bits)%nat -> single bits = true <-> (bits <= 64)%nat.
Proof.
  intros Hb. destruct (dims bits Hb) as [m [Em [Hm [Hn [H1 [H2 _]]]]]]. unfold single. rewrite Nat.eqb_eq. split.
  - intros E. rewrite E in Em. lia.
  - intros E. destruct H2 as [|[H2 H3]]; auto. rewrite H3 in Em. lia.
Qed.
Lemma nv_width bits : (64 < bits)%nat -> (nv bits - 1 = (bits - 1) / 32)%nat.
Proof.
  intros Hb. destruct (dims bits ltac:(lia)) as [m [Em [Hm [Hn [H1 [H2 _]]]]]].
  destruct H1 as [H1|[H0 [H1 H3]]].
  - rewrite H1 in *. apply (Nat.div_unique _ _ _ (m - 1)); lia.
  - rewrite H1 in Em. lia.
Qed.
Lemma shift_ok_width bits n : (0 < bits)%nat ->
  (bits <= 64 \/ n = 0 \/ n mod 32 <> 0 \/ (bits - 1) / 32 <= n / 32)%nat -> shift_ok bits n.
Proof.
  intros Hb H. unfold shift_ok. destruct (Nat.le_gt_cases bits 64) as [Hle|Hgt].
  - left. apply single_width; auto.
  - rewrite (nv_width bits Hgt). right. destruct H as [H|H]; [lia|exact H].
Qed.
Lemma shift_ub_width bits n : (64 < bits)%nat -> (0 < n)%nat -> (n mod 32 = 0)%nat -> (n / 32 < (bits - 1) / 32)%nat ->
  ~ shift_ok bits n.
Proof.
  intros Hb Hn Hm Hz [H|[H|[H|H]]].
  - apply single_width in H; lia.
  - lia.
  - lia.
  - rewrite (nv_width bits Hb) in H. lia.
Qed.
Lemma mask_spec bits M : (0 < bits)%nat -> (0 < M)%nat ->
  wf bits (mask_addr bits M) /\ value bits (mask_addr bits M) = (2 ^ N.of_nat bits - 1)%N.
Proof.
  intros Hb HM. unfold mask_addr. destruct (assign_signed_spec bits M (-1) Hb HM) as [W V].
  - pose proof (Z.pow_pos_nonneg 2 (8 * Z.of_nat M - 1) ltac:(lia) ltac:(lia)). lia.
  - split; auto. apply N2Z.inj. fold (zvalue bits (assign_signed bits M (-1))). rewrite V.
    pose proof (pow2_pos (N.of_nat bits)). rewrite N2Z.inj_sub by lia. rewrite pow_Z. symmetry.
    pose proof (zmod_pos bits). unfold zmodulus in *. apply (Z.mod_unique_pos _ _ (-1)); cbn [Z.of_N]; lia.
Qed.
