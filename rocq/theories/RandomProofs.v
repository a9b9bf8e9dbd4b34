From Verif Require Import Base BaseProofs EndianProofs Random RandomSpec.
From Coq Require Import ZifyBool ZifyNat ZifyN ListDec.
Ltac Zify.zify_post_hook ::= Z.div_mod_to_equations.
Open Scope N_scope.

(** ** Words *)

Lemma shl_lt w x k : shl w x k < 2 ^ w.
Proof. apply wrap_lt. Qed.

Lemma mulw_lt w x y : mulw w x y < 2 ^ w.
Proof. apply wrap_lt. Qed.

Lemma bits_above x w i : x < 2 ^ w -> w <= i -> N.testbit x i = false.
Proof.
  intros H Hi. destruct (N.eq_dec x 0) as [->|Hx]; [apply N.bits_0|].
  apply N.bits_above_log2. apply N.log2_lt_pow2 in H; lia.
Qed.

Lemma lt_of_bits x w : (forall i, w <= i -> N.testbit x i = false) -> x < 2 ^ w.
Proof.
  intros H. assert (E : x = x mod 2 ^ w).
  { apply N.bits_inj. intros i. destruct (N.lt_ge_cases i w).
    - rewrite N.mod_pow2_bits_low; auto.
    - rewrite N.mod_pow2_bits_high by auto. apply H; auto. }
  rewrite E. apply N.mod_lt, N.pow_nonzero; lia.
Qed.

Lemma lxor_lt w x y : x < 2 ^ w -> y < 2 ^ w -> N.lxor x y < 2 ^ w.
Proof.
  intros Hx Hy. apply lt_of_bits. intros i Hi.
  rewrite N.lxor_spec, (bits_above x w), (bits_above y w); auto.
Qed.

Lemma lor_lt w x y : x < 2 ^ w -> y < 2 ^ w -> N.lor x y < 2 ^ w.
Proof.
  intros Hx Hy. apply lt_of_bits. intros i Hi.
  rewrite N.lor_spec, (bits_above x w), (bits_above y w); auto.
Qed.

Lemma shiftr_lt w x k : x < 2 ^ w -> N.shiftr x k < 2 ^ w.
Proof.
  intros Hx. apply lt_of_bits. intros i Hi.
  rewrite N.shiftr_spec' , (bits_above x w); auto. lia.
Qed.

Lemma lxor_cancel_l x y z : N.lxor x y = N.lxor x z -> y = z.
Proof.
  intros H. apply (f_equal (N.lxor x)) in H.
  rewrite <- !N.lxor_assoc, !N.lxor_nilpotent, !N.lxor_0_l in H. exact H.
Qed.

Lemma lxor_cancel_r x y z : N.lxor y x = N.lxor z x -> y = z.
Proof. rewrite !(N.lxor_comm _ x). apply lxor_cancel_l. Qed.

(** ** Rotation *)

Lemma rotl_arith w x k : k <= w -> x < 2 ^ w ->
  rotl w x k = (x mod 2 ^ (w - k)) * 2 ^ k + x / 2 ^ (w - k).
Proof.
  intros Hk Hx. unfold rotl, shl, wrap.
  assert (E : N.shiftl x k mod 2 ^ w = (x mod 2 ^ (w - k)) * 2 ^ k).
  { rewrite N.shiftl_mul_pow2. replace (2 ^ w) with (2 ^ (w - k) * 2 ^ k).
    2:{ rewrite <- N.pow_add_r. f_equal. lia. }
    apply N.mul_mod_distr_r; apply N.pow_nonzero; lia. }
  rewrite E, N.shiftr_div_pow2. apply lor_add.
  apply N.div_lt_upper_bound; [apply N.pow_nonzero; lia|].
  rewrite <- N.pow_add_r. rewrite (N.sub_add k w Hk). exact Hx.
Qed.

Lemma rotl_lt w x k : k <= w -> x < 2 ^ w -> rotl w x k < 2 ^ w.
Proof.
  intros Hk Hx. apply lor_lt; [apply shl_lt|apply shiftr_lt; auto].
Qed.

Lemma rotl_inj w k x y : k <= w -> x < 2 ^ w -> y < 2 ^ w ->
  rotl w x k = rotl w y k -> x = y.
Proof.
  intros Hk Hx Hy. rewrite !rotl_arith by auto. intros H.
  assert (Hp : forall z, z < 2 ^ w -> z / 2 ^ (w - k) < 2 ^ k).
  { intros z Hz. apply N.div_lt_upper_bound; [apply N.pow_nonzero; lia|].
    rewrite <- N.pow_add_r. rewrite (N.sub_add k w Hk). exact Hz. }
  pose proof (Hp _ Hx) as Hxq. pose proof (Hp _ Hy) as Hyq.
  pose proof (N.div_mod' x (2 ^ (w - k))) as Ex.
  pose proof (N.div_mod' y (2 ^ (w - k))) as Ey.
  revert H Hxq Hyq Ex Ey.
  generalize (x / 2 ^ (w - k)) (y / 2 ^ (w - k)) (x mod 2 ^ (w - k)) (y mod 2 ^ (w - k)).
  intros qx qy rx ry H Hxq Hyq Ex Ey.
  assert (2 ^ k <> 0) by (apply N.pow_nonzero; lia).
  assert (rx = ry).
  { apply (f_equal (fun z => z / 2 ^ k)) in H.
    rewrite !N.div_add_l, !N.div_small in H by auto. lia. }
  subst ry. assert (qx = qy) by lia. subst qy. rewrite Ex, Ey. reflexivity.
Qed.

Lemma rotl_0 w k : rotl w 0 k = 0.
Proof.
  unfold rotl, shl, wrap. rewrite N.shiftl_0_l, N.shiftr_0_l, N.mod_0_l; auto.
  apply N.pow_nonzero; lia.
Qed.

Lemma shl_0 w k : shl w 0 k = 0.
Proof. unfold shl, wrap. rewrite N.shiftl_0_l. apply N.mod_0_l, N.pow_nonzero. lia. Qed.

(** ** Xor-shifts *)

Lemma xorshr_inj w a x y : 0 < a -> x < 2 ^ w -> y < 2 ^ w ->
  N.lxor x (N.shiftr x a) = N.lxor y (N.shiftr y a) -> x = y.
Proof.
  intros Ha Hx Hy H. apply N.bits_inj.
  assert (G : forall d i, w <= i + d -> N.testbit x i = N.testbit y i).
  { induction d as [|d IH] using N.peano_ind; intros i Hi.
    - rewrite (bits_above x w), (bits_above y w) by lia. reflexivity.
    - pose proof (f_equal (fun z => N.testbit z i) H) as E. cbv beta in E.
      rewrite !N.lxor_spec, !N.shiftr_spec' in E.
      rewrite (IH (i + a)) in E by lia.
      destruct (N.testbit x i), (N.testbit y i), (N.testbit y (i + a)); auto. }
  intros i. apply (G w). lia.
Qed.

Lemma shl_bit w x k i : i < w ->
  N.testbit (shl w x k) i = if i <? k then false else N.testbit x (i - k).
Proof.
  intros Hi. unfold shl, wrap. rewrite N.mod_pow2_bits_low by auto.
  destruct (N.ltb_spec i k).
  - apply N.shiftl_spec_low; auto.
  - apply N.shiftl_spec_high'; auto.
Qed.

Lemma xorshl_inj w a x y : 0 < a -> x < 2 ^ w -> y < 2 ^ w ->
  N.lxor x (shl w x a) = N.lxor y (shl w y a) -> x = y.
Proof.
  intros Ha Hx Hy H. apply N.bits_inj.
  assert (G : forall d i, i < d -> N.testbit x i = N.testbit y i).
  { induction d as [|d IH] using N.peano_ind; intros i Hi; [lia|].
    destruct (N.lt_ge_cases i w) as [Hw|Hw].
    2:{ rewrite (bits_above x w), (bits_above y w) by lia. reflexivity. }
    pose proof (f_equal (fun z => N.testbit z i) H) as E. cbv beta in E.
    rewrite !N.lxor_spec, !shl_bit in E by auto.
    destruct (N.ltb_spec i a).
    - destruct (N.testbit x i), (N.testbit y i); auto.
    - rewrite (IH (i - a)) in E by lia.
      destruct (N.testbit x i), (N.testbit y i), (N.testbit y (i - a)); auto. }
  intros i. apply (G (i + 1)). lia.
Qed.

(** ** Products by an invertible constant *)

Lemma mulw_inj w m m' x y : mulw w m m' = wrap w 1 -> x < 2 ^ w -> y < 2 ^ w ->
  mulw w x m = mulw w y m -> x = y.
Proof.
  intros Hm Hx Hy H. apply (f_equal (fun z => mulw w z m')) in H. cbv beta in H.
  unfold mulw in *. rewrite !wrap_mul_l in H.
  rewrite <- !N.mul_assoc in H.
  rewrite <- (wrap_mul_r w x), <- (wrap_mul_r w y), Hm, !wrap_mul_r, !N.mul_1_r in H.
  rewrite !wrap_small in H by auto. exact H.
Qed.

(** ** splitmix64 *)

Definition sm_xi : N := 0xf1de83e19937733d.
Definition sm_yi : N := 0x96de1b173f119089.
Definition sm_zi : N := 0x319642b2d24d8ec3.

Lemma sm_inverses :
  mulw 64 sm_x sm_xi = wrap 64 1 /\ mulw 64 sm_y sm_yi = wrap 64 1 /\
  mulw 64 sm_z sm_zi = wrap 64 1.
Proof. vm_compute. auto. Qed.

Lemma sm_out_lt t : sm_out 64 30 27 31 sm_y sm_z t < 2 ^ 64.
Proof. unfold sm_out. apply lxor_lt; [|apply shiftr_lt]; apply mulw_lt. Qed.

Lemma sm_out_inj t u : t < 2 ^ 64 -> u < 2 ^ 64 ->
  sm_out 64 30 27 31 sm_y sm_z t = sm_out 64 30 27 31 sm_y sm_z u -> t = u.
Proof.
  intros Ht Hu H. unfold sm_out in H.
  destruct sm_inverses as (_ & Hy & Hz).
  apply (xorshr_inj 64) in H; [|lia|apply mulw_lt|apply mulw_lt].
  apply (mulw_inj 64 _ _ _ _ Hz) in H;
    [|apply lxor_lt; [|apply shiftr_lt]; apply mulw_lt
     |apply lxor_lt; [|apply shiftr_lt]; apply mulw_lt].
  apply (xorshr_inj 64) in H; [|lia|apply mulw_lt|apply mulw_lt].
  apply (mulw_inj 64 _ _ _ _ Hy) in H;
    [|apply lxor_lt; [|apply shiftr_lt]; auto
     |apply lxor_lt; [|apply shiftr_lt]; auto].
  apply (xorshr_inj 64) in H; auto. lia.
Qed.

Lemma sm_after_closed k s : s < 2 ^ 64 ->
  sm_after k s = wrap 64 (s + N.of_nat k * sm_x).
Proof.
  intros Hs. induction k as [|k IH].
  - cbn [sm_after]. rewrite N.mul_0_l, N.add_0_r, wrap_small; auto.
  - cbn [sm_after]. unfold sm64_draw. cbn [snd]. rewrite IH. unfold sm_next.
    rewrite wrap_add_l. f_equal. lia.
Qed.

Lemma sm_after_lt k s : s < 2 ^ 64 -> sm_after k s < 2 ^ 64.
Proof. intros Hs. rewrite sm_after_closed by auto. apply wrap_lt. Qed.

Lemma wrap_add_cancel w s a b : wrap w (s + a) = wrap w (s + b) -> wrap w a = wrap w b.
Proof.
  intros H. apply (f_equal (fun z => wrap w (z + (2 ^ w - wrap w s)))) in H. cbv beta in H.
  pose proof (wrap_lt w s) as Hs.
  rewrite !wrap_add_l in H.
  assert (G : forall c, wrap w (s + c + (2 ^ w - wrap w s)) = wrap w c).
  { intros c. replace (s + c + (2 ^ w - wrap w s)) with (s + (c + (2 ^ w - wrap w s))) by lia.
    rewrite <- wrap_add_l.
    replace (wrap w s + (c + (2 ^ w - wrap w s))) with (c + 1 * 2 ^ w) by lia.
    unfold wrap. apply N.mod_add. apply N.pow_nonzero. lia. }
  rewrite !G in H. exact H.
Qed.

Lemma sm_after_eq s i j : s < 2 ^ 64 ->
  sm_after i s = sm_after j s <-> wrap 64 (N.of_nat i) = wrap 64 (N.of_nat j).
Proof.
  intros Hs. rewrite !sm_after_closed by auto. split; intros H.
  - apply wrap_add_cancel in H.
    rewrite <- (wrap_mul_l 64 (N.of_nat i)), <- (wrap_mul_l 64 (N.of_nat j)) in H.
    eapply (mulw_inj 64); [exact (proj1 sm_inverses)|apply wrap_lt|apply wrap_lt|exact H].
  - rewrite <- (wrap_add_r 64 s (N.of_nat i * sm_x)), <- (wrap_add_r 64 s (N.of_nat j * sm_x)).
    rewrite <- (wrap_mul_l 64 (N.of_nat i)), <- (wrap_mul_l 64 (N.of_nat j)), H. reflexivity.
Qed.

Lemma sm_visits s v : s < 2 ^ 64 -> v < 2 ^ 64 ->
  exists k, N.of_nat k < 2 ^ 64 /\ sm_after k s = v.
Proof.
  intros Hs Hv.
  exists (N.to_nat (wrap 64 ((v + (2 ^ 64 - s)) * sm_xi))).
  rewrite N2Nat.id. split; [apply wrap_lt|].
  rewrite sm_after_closed by auto. rewrite N2Nat.id.
  rewrite <- wrap_add_r, wrap_mul_l, <- N.mul_assoc, <- (wrap_mul_r 64 _ (sm_xi * sm_x)).
  replace (wrap 64 (sm_xi * sm_x)) with 1 by (vm_compute; reflexivity).
  rewrite N.mul_1_r, wrap_add_r.
  replace (s + (v + (2 ^ 64 - s))) with (v + 1 * 2 ^ 64) by lia.
  unfold wrap. rewrite N.mod_add by (apply N.pow_nonzero; lia). apply N.mod_small. exact Hv.
Qed.

Lemma sm_output_inj s i j : s < 2 ^ 64 -> sm_output i s = sm_output j s ->
  wrap 64 (N.of_nat i) = wrap 64 (N.of_nat j).
Proof.
  intros Hs H. unfold sm_output, sm64_draw in H. cbn [fst] in H.
  apply sm_out_inj in H; [|apply wrap_lt|apply wrap_lt].
  apply (sm_after_eq s (S i) (S j) Hs) in H.
  rewrite !Nat2N.inj_succ, <- !N.add_1_l in H. apply wrap_add_cancel in H. exact H.
Qed.

(** ** Injections of a finite set *)

Lemma inj_surj_nat (n : nat) (f : nat -> nat) :
  (forall x, x < n -> f x < n)%nat ->
  (forall x y, x < n -> y < n -> f x = f y -> x = y)%nat ->
  forall y, (y < n)%nat -> exists x, (x < n)%nat /\ f x = y.
Proof.
  intros Hc Hi y Hy.
  assert (ND : NoDup (map f (seq 0 n))).
  { apply NoDup_nth_error. intros i j Hlt E.
    rewrite map_length, seq_length in Hlt.
    rewrite !nth_error_map in E.
    rewrite (nth_error_nth' _ 0%nat) in E by (rewrite seq_length; auto).
    rewrite seq_nth in E by auto. cbn in E.
    destruct (Nat.lt_ge_cases j n).
    - rewrite (nth_error_nth' _ 0%nat) in E by (rewrite seq_length; auto).
      rewrite seq_nth in E by auto. cbn in E. inversion E. auto.
    - rewrite (proj2 (nth_error_None _ _)) in E by (rewrite seq_length; auto). discriminate. }
  assert (I : incl (seq 0 n) (map f (seq 0 n))).
  { apply NoDup_length_incl; auto.
    - rewrite map_length. auto.
    - intros z Hz. apply in_map_iff in Hz as (x & <- & Hx). apply in_seq in Hx.
      apply in_seq. specialize (Hc x). lia. }
  destruct (proj1 (in_map_iff f (seq 0 n) y)) as (x & E & Hx).
  { apply I, in_seq. lia. }
  exists x. apply in_seq in Hx. split; [lia|auto].
Qed.

Lemma inj_surj (n : N) (f : N -> N) :
  (forall x, x < n -> f x < n) ->
  (forall x y, x < n -> y < n -> f x = f y -> x = y) ->
  forall y, y < n -> exists x, x < n /\ f x = y.
Proof.
  intros Hc Hi y Hy.
  destruct (inj_surj_nat (N.to_nat n) (fun k => N.to_nat (f (N.of_nat k)))) with (y := N.to_nat y)
    as (x & Hx & E).
  - intros x Hx. specialize (Hc (N.of_nat x)). lia.
  - intros x z Hx Hz E. apply N2Nat.inj in E. apply Hi in E; lia.
  - lia.
  - exists (N.of_nat x). split; [lia|]. apply N2Nat.inj. exact E.
Qed.

Lemma sm_output_every s v : s < 2 ^ 64 -> v < 2 ^ 64 ->
  exists k, N.of_nat k < 2 ^ 64 /\ sm_output k s = v.
Proof.
  intros Hs Hv.
  destruct (inj_surj (2 ^ 64) (sm_out 64 30 27 31 sm_y sm_z)
              (fun x _ => sm_out_lt x) sm_out_inj v Hv) as (t & Ht & E).
  destruct (sm_visits (wrap 64 (s + sm_x)) t (wrap_lt _ _) Ht) as (k & Hk & Ek).
  exists k. split; auto. unfold sm_output, sm64_draw. cbn [fst].
  rewrite <- E. f_equal. rewrite <- Ek.
  rewrite !sm_after_closed by (auto; apply wrap_lt). unfold sm_next.
  rewrite !wrap_add_l. f_equal. lia.
Qed.

(** ** Transforms *)

Ltac words :=
  repeat match goal with
  | |- N.lxor _ _ < _ => apply lxor_lt
  | |- rotl _ _ _ < _ => apply rotl_lt
  | |- shl _ _ _ < _ => apply shl_lt
  end; auto; try lia.

Lemma x2_core w a b c s0 s1 t0 t1 : a <= w -> c <= w ->
  s0 < 2 ^ w -> s1 < 2 ^ w -> t0 < 2 ^ w -> t1 < 2 ^ w ->
  N.lxor (N.lxor (rotl w s0 a) (N.lxor s1 s0)) (shl w (N.lxor s1 s0) b) =
  N.lxor (N.lxor (rotl w t0 a) (N.lxor t1 t0)) (shl w (N.lxor t1 t0) b) ->
  rotl w (N.lxor s1 s0) c = rotl w (N.lxor t1 t0) c ->
  s0 = t0 /\ s1 = t1.
Proof.
  intros Ha Hc H0 H1 H2 H3 E1 E2.
  apply rotl_inj in E2; words. rewrite E2 in E1.
  apply lxor_cancel_r, lxor_cancel_r in E1. apply rotl_inj in E1; words. subst t0.
  apply lxor_cancel_r in E2. auto.
Qed.

Ltac list_len l :=
  repeat match goal with
  | H : length l = _ |- _ => destruct l; cbn in H; try discriminate H; try (injection H as H)
  end.

Ltac inv_forall :=
  repeat match goal with
  | H : Forall _ (_ :: _) |- _ => inversion H; clear H; subst
  | H : Forall _ [] |- _ => clear H
  end.

Definition consts_ok (e : engine) : Prop :=
  match e_fam e with
  | Xoroshiro2 a b c => a <= e_w e /\ c <= e_w e
  | XoroshiroN n a b c => a <= e_w e /\ c <= e_w e /\ n = 16%nat
  | Xoshiro4 a b => 0 < a /\ b <= e_w e
  | Xoshiro8 a b => b <= e_w e
  end.

Lemma engines_consts e : In e engines -> consts_ok e.
Proof. intros H. cbn in H. repeat destruct H as [<-|H]; cbn; try lia. Qed.

Lemma length2 (l : list N) : length l = 2%nat -> exists a b, l = [a; b].
Proof. destruct l as [|a [|b [|]]]; try discriminate. eauto. Qed.

Lemma length4 (l : list N) : length l = 4%nat -> exists a b c d, l = [a; b; c; d].
Proof. destruct l as [|a [|b [|c [|d [|]]]]]; try discriminate. eauto. Qed.

Lemma length8 (l : list N) : length l = 8%nat ->
  exists a b c d e f g h, l = [a; b; c; d; e; f; g; h].
Proof.
  destruct l as [|a [|b [|c [|d [|e [|f [|g [|h [|]]]]]]]]]; try discriminate.
  intros _. do 8 eexists. reflexivity.
Qed.

Lemma length16 (l : list N) : length l = 16%nat ->
  exists a m z, l = a :: m ++ [z] /\ length m = 14%nat.
Proof.
  intros H. destruct l as [|a l]; [discriminate|].
  destruct (rev l) as [|z r] eqn:E.
  - apply (f_equal (@rev N)) in E. rewrite rev_involutive in E. subst. discriminate.
  - exists a, (rev r), z. apply (f_equal (@rev N)) in E. rewrite rev_involutive in E.
    cbn in E. subst l. split; auto. cbn in H. rewrite app_length in H. cbn in H. lia.
Qed.

Lemma set_reg_last (m : list N) z v : set_reg (m ++ [z]) (length m) v = m ++ [v].
Proof. induction m as [|x m IH]; cbn; auto. rewrite IH. auto. Qed.

Lemma reg_last (m : list N) z : reg (m ++ [z]) (length m) = z.
Proof. unfold reg. rewrite app_nth2, Nat.sub_diag; auto. Qed.

Lemma x16_transform w a b c s0 m z : length m = 14%nat ->
  xoroshiroN_transform w 16 a b c (mkRng (s0 :: m ++ [z]) 15) =
  mkRng (rotl w (N.lxor z s0) c :: m ++
         [N.lxor (N.lxor (rotl w s0 a) (N.lxor z s0)) (shl w (N.lxor z s0) b)]) 15.
Proof.
  intros Hm. unfold xoroshiroN_transform. cbn [r_p r_s].
  replace (and_mask (15 + 1) 16) with 0%nat by reflexivity.
  assert (E1 : reg (s0 :: m ++ [z]) 15 = z).
  { change (reg (m ++ [z]) 14 = z). rewrite <- Hm. apply reg_last. }
  assert (E2 : forall v, set_reg (s0 :: m ++ [z]) 15 v = s0 :: m ++ [v]).
  { intros v. change (s0 :: set_reg (m ++ [z]) 14 v = s0 :: m ++ [v]).
    rewrite <- Hm, set_reg_last. reflexivity. }
  rewrite E1, E2. reflexivity.
Qed.

Lemma transform_ok e st : consts_ok e -> rng_ok e st -> rng_ok e (transform e st).
Proof.
  destruct e as [w f sc], st as [s p]. unfold consts_ok, rng_ok, transform. cbn [e_w e_fam r_s r_p].
  intros Hc (Hl & Hf & Hp). destruct f as [a b c|n a b c|a b|a b]; cbn [state_size] in *.
  - apply length2 in Hl as (x & y & ->). inv_forall. cbn. repeat split; auto.
    repeat constructor; unfold is_word in *; words.
  - destruct Hc as (Ha & Hc & ->). subst p. change (16 - 1)%nat with 15%nat. apply length16 in Hl as (x & m & z & -> & Hm).
    rewrite (x16_transform w a b c x m z Hm). cbn [r_s r_p].
    inversion Hf; subst. apply Forall_app in H2 as (Hfm & Hz). inv_forall.
    repeat split.
    + cbn. rewrite app_length, Hm. reflexivity.
    + constructor; [unfold is_word in *; words|]. apply Forall_app. split; auto.
      constructor; auto. unfold is_word in *; words.
  - apply length4 in Hl as (x0 & x1 & x2 & x3 & ->). inv_forall. cbn. repeat split; auto.
    repeat constructor; unfold is_word in *; words.
  - apply length8 in Hl as (x0 & x1 & x2 & x3 & x4 & x5 & x6 & x7 & ->). inv_forall. cbn.
    repeat split; auto. repeat constructor; unfold is_word in *; words.
Qed.

Lemma x4_core w a b s0 s1 s2 s3 t0 t1 t2 t3 : 0 < a -> b <= w ->
  s0 < 2 ^ w -> s1 < 2 ^ w -> s2 < 2 ^ w -> s3 < 2 ^ w ->
  t0 < 2 ^ w -> t1 < 2 ^ w -> t2 < 2 ^ w -> t3 < 2 ^ w ->
  N.lxor s0 (N.lxor s3 s1) = N.lxor t0 (N.lxor t3 t1) ->
  N.lxor s1 (N.lxor s2 s0) = N.lxor t1 (N.lxor t2 t0) ->
  N.lxor (N.lxor s2 s0) (shl w s1 a) = N.lxor (N.lxor t2 t0) (shl w t1 a) ->
  rotl w (N.lxor s3 s1) b = rotl w (N.lxor t3 t1) b ->
  s0 = t0 /\ s1 = t1 /\ s2 = t2 /\ s3 = t3.
Proof.
  intros Ha Hb H0 H1 H2 H3 G0 G1 G2 G3 E0 E1 E2 E3.
  apply rotl_inj in E3; words. rewrite E3 in E0. apply lxor_cancel_r in E0. subst t0.
  assert (E : N.lxor s1 (shl w s1 a) = N.lxor t1 (shl w t1 a)).
  { assert (E : forall x u v, N.lxor x v = N.lxor (N.lxor x u) (N.lxor u v)).
    { intros x u v. rewrite N.lxor_assoc, <- (N.lxor_assoc u u v), N.lxor_nilpotent, N.lxor_0_l.
      auto. }
    rewrite (E s1 (N.lxor s2 s0)), (E t1 (N.lxor t2 s0)), E1, E2. reflexivity. }
  apply xorshl_inj in E; auto. subst t1.
  apply lxor_cancel_l, lxor_cancel_r in E1. apply lxor_cancel_r in E3. auto.
Qed.

Lemma transform_inj e st1 st2 : consts_ok e -> rng_ok e st1 -> rng_ok e st2 ->
  transform e st1 = transform e st2 -> st1 = st2.
Proof.
  destruct e as [w f sc], st1 as [s p], st2 as [s' p'].
  unfold consts_ok, rng_ok, transform. cbn [e_w e_fam r_s r_p].
  intros Hc (Hl & Hf & Hp) (Hl' & Hf' & Hp') E. subst p'.
  destruct f as [a b c|n a b c|a b|a b]; cbn [state_size] in *; subst p.
  - apply length2 in Hl as (x & y & ->). apply length2 in Hl' as (x' & y' & ->).
    inv_forall. unfold is_word in *. cbn in E. injection E as E0 E1.
    destruct (x2_core w a b c x y x' y') as (-> & ->); auto; lia.
  - destruct Hc as (Ha & Hc & ->). change (16 - 1)%nat with 15%nat in E |- *.
    apply length16 in Hl as (x & m & z & -> & Hm). apply length16 in Hl' as (x' & m' & z' & -> & Hm').
    rewrite (x16_transform w a b c x m z Hm), (x16_transform w a b c x' m' z' Hm') in E.
    injection E as E0 E1. apply app_inj_tail in E1 as (-> & E1).
    inversion Hf; subst. inversion Hf'; subst.
    apply Forall_app in H2 as (_ & Hz). apply Forall_app in H4 as (_ & Hz'). inv_forall.
    unfold is_word in *.
    destruct (x2_core w a b c x z x' z') as (-> & ->); auto.
  - apply length4 in Hl as (x0 & x1 & x2 & x3 & ->).
    apply length4 in Hl' as (y0 & y1 & y2 & y3 & ->).
    inv_forall. unfold is_word in *. cbn in E. injection E as E0 E1 E2 E3.
    destruct (x4_core w a b x0 x1 x2 x3 y0 y1 y2 y3) as (-> & -> & -> & ->); auto; lia.
  - apply length8 in Hl as (x0 & x1 & x2 & x3 & x4 & x5 & x6 & x7 & ->).
    apply length8 in Hl' as (y0 & y1 & y2 & y3 & y4 & y5 & y6 & y7 & ->).
    inv_forall. unfold is_word in *. cbn in E. injection E as E0 E1 E2 E3 E4 E5 E6 E7.
    apply rotl_inj in E7; words.
    rewrite E2 in E1. apply lxor_cancel_r in E1. subst y1.
    rewrite E5 in E4. apply lxor_cancel_r in E4. subst y4.
    apply lxor_cancel_r in E3. subst y3.
    apply lxor_cancel_r in E5. subst y5.
    apply lxor_cancel_r in E6. rewrite E7 in E6. apply lxor_cancel_r in E6. subst y6.
    apply lxor_cancel_r in E7. subst y7.
    apply lxor_cancel_r in E0. subst y0.
    apply lxor_cancel_r in E2. subst y2. reflexivity.
Qed.

Definition zero_state (e : engine) : rng :=
  mkRng (repeat 0 (state_size (e_fam e))) (state_size (e_fam e) - 1).

Lemma zero_ok e : rng_ok e (zero_state e).
Proof.
  repeat split; cbn.
  - apply repeat_length.
  - apply Forall_forall. intros x Hx. apply repeat_spec in Hx. subst. apply pow2_pos.
Qed.

Lemma transform_zero e : consts_ok e -> transform e (zero_state e) = zero_state e.
Proof.
  destruct e as [w f sc]. unfold consts_ok, transform, zero_state. cbn [e_fam e_w].
  destruct f as [a b c|n a b c|a b|a b]; intros H; cbn [state_size].
  3,4: cbn -[rotl shl N.lxor]; rewrite ?N.lxor_0_l, ?rotl_0, ?shl_0, ?N.lxor_0_l; reflexivity.
  - cbn -[rotl shl N.lxor]. rewrite ?N.lxor_0_l, ?rotl_0, ?shl_0, ?N.lxor_0_l; reflexivity.
  - destruct H as (_ & _ & ->).
    change (repeat 0 16) with (0 :: repeat 0 14 ++ [0]). cbn [Nat.sub].
    rewrite x16_transform by reflexivity.
    rewrite ?N.lxor_0_l, ?rotl_0, ?shl_0. reflexivity.
Qed.

Lemma not_nonzero e st : rng_ok e st -> ~ nonzero st -> st = zero_state e.
Proof.
  destruct st as [s p]. intros (Hl & _ & Hp) H. cbn in *. unfold zero_state. f_equal; auto.
  rewrite <- Hl. clear -H. induction s as [|x s IH]; cbn; auto.
  f_equal.
  - destruct (N.eq_dec x 0); auto. exfalso. apply H. exists x. cbn. auto.
  - apply IH. intros (y & Hy & Hn). apply H. exists y. cbn in *. auto.
Qed.

Lemma nonzero_dec st : nonzero st \/ ~ nonzero st.
Proof.
  destruct (existsb (fun x => negb (x =? 0)) (r_s st)) eqn:E.
  - left. apply existsb_exists in E as (x & Hx & E). exists x. split; auto. lia.
  - right. intros (x & Hx & Hn).
    assert (existsb (fun x => negb (x =? 0)) (r_s st) = true).
    { apply existsb_exists. exists x. split; auto. lia. }
    congruence.
Qed.

Lemma nonzero_not_zero e st : nonzero st -> st <> zero_state e.
Proof.
  intros (x & Hx & Hn) ->. cbn in Hx. apply repeat_spec in Hx. auto.
Qed.

Lemma transform_nonzero e st : consts_ok e -> rng_ok e st -> nonzero st ->
  nonzero (transform e st).
Proof.
  intros Hc Hst Hn. destruct (nonzero_dec (transform e st)) as [|Hz]; auto.
  exfalso. apply (not_nonzero e) in Hz; [|apply transform_ok; auto].
  rewrite <- (transform_zero e Hc) in Hz.
  apply transform_inj in Hz; auto using zero_ok.
  eapply nonzero_not_zero; eauto.
Qed.

Lemma after_ok e k st : consts_ok e -> rng_ok e st -> rng_ok e (after e k st).
Proof. intros Hc H. induction k; cbn; auto. apply transform_ok; auto. Qed.

Lemma after_nonzero e k st : consts_ok e -> rng_ok e st -> nonzero st -> nonzero (after e k st).
Proof.
  intros Hc H Hn. induction k; cbn; auto. apply transform_nonzero; auto using after_ok.
Qed.

Lemma after_inj e k st1 st2 : consts_ok e -> rng_ok e st1 -> rng_ok e st2 ->
  after e k st1 = after e k st2 -> st1 = st2.
Proof.
  intros Hc H1 H2. induction k as [|k IH]; cbn; auto. intros E.
  apply transform_inj in E; auto using after_ok.
Qed.

(** Pigeonhole: the orbit of every state is a cycle. *)

Fixpoint code (w : N) (s : list N) : N :=
  match s with
  | [] => 0
  | x :: t => x + 2 ^ w * code w t
  end.

Lemma code_lt w s : Forall (is_word w) s -> code w s < (2 ^ w) ^ N.of_nat (length s).
Proof.
  induction 1 as [|x s Hx Hs IH].
  - cbn [code length]. change (N.of_nat 0) with 0. rewrite N.pow_0_r. lia.
  - cbn [code length]. rewrite Nat2N.inj_succ, N.pow_succ_r'.
    unfold is_word in Hx. revert IH Hx. generalize (2 ^ w) ((2 ^ w) ^ N.of_nat (length s)).
    intros; nia.
Qed.

Lemma code_inj w s s' : length s = length s' -> Forall (is_word w) s -> Forall (is_word w) s' ->
  code w s = code w s' -> s = s'.
Proof.
  revert s'. induction s as [|x s IH]; intros [|y s'] Hl H H' E; try discriminate; auto.
  inv_forall. unfold is_word in *. cbn in E.
  assert (x = y).
  { apply (f_equal (fun z => z mod 2 ^ w)) in E.
    rewrite !(N.mul_comm (2 ^ w)), !N.mod_add, !N.mod_small in E; auto; apply N.pow_nonzero; lia. }
  subst y. f_equal. apply IH; auto.
  assert (2 ^ w <> 0) by (apply N.pow_nonzero; lia).
  revert E H. generalize (2 ^ w). intros; nia.
Qed.

Lemma pigeonhole (n : nat) (f : nat -> nat) : (forall i, f i < n)%nat ->
  exists i j, (i < j <= n)%nat /\ f i = f j.
Proof.
  intros Hf.
  assert (D : NoDup (map f (seq 0 (S n))) \/ ~ NoDup (map f (seq 0 (S n)))).
  { destruct (ListDec.NoDup_dec Nat.eq_dec (map f (seq 0 (S n)))); auto. }
  destruct D as [D|D].
  - exfalso. assert (H : (length (map f (seq 0 (S n))) <= length (seq 0 n))%nat).
    { apply NoDup_incl_length; auto. intros z Hz. apply in_map_iff in Hz as (x & <- & _).
      apply in_seq. specialize (Hf x). lia. }
    rewrite map_length, !seq_length in H. lia.
  - assert (G : forall l, NoDup l -> ~ NoDup (map f l) ->
      exists i j, In i l /\ In j l /\ i <> j /\ f i = f j).
    { induction l as [|x l IH]; intros Hl Hn; [exfalso; apply Hn; constructor|].
      inversion Hl; subst. cbn in Hn.
      destruct (in_dec Nat.eq_dec (f x) (map f l)) as [Hi|Hi].
      - apply in_map_iff in Hi as (y & E & Hy). exists x, y. cbn. repeat split; auto.
        intros ->. auto.
      - destruct IH as (i & j & Hi' & Hj & Hne & E); auto.
        { intros N. apply Hn. constructor; auto. }
        exists i, j. cbn. auto. }
    destruct (G (seq 0 (S n))) as (i & j & Hi & Hj & Hne & E); auto using seq_NoDup.
    apply in_seq in Hi. apply in_seq in Hj.
    destruct (Nat.lt_ge_cases i j); [exists i, j|exists j, i]; split; auto; lia.
Qed.

Lemma after_plus e i j st : after e (i + j) st = after e i (after e j st).
Proof. induction i; cbn; auto. rewrite IHi. auto. Qed.

Lemma after_cycle e st : consts_ok e -> rng_ok e st ->
  exists k, (0 < k)%nat /\
    N.of_nat k <= 2 ^ (e_w e * N.of_nat (state_size (e_fam e))) /\ after e k st = st.
Proof.
  intros Hc Hst.
  set (M := (2 ^ e_w e) ^ N.of_nat (state_size (e_fam e))).
  destruct (pigeonhole (N.to_nat M) (fun i => N.to_nat (code (e_w e) (r_s (after e i st)))))
    as (i & j & Hij & E).
  { intros i. pose proof (after_ok e i st Hc Hst) as (Hl & Hf & _).
    pose proof (code_lt _ _ Hf) as H. rewrite Hl in H. fold M in H. lia. }
  apply N2Nat.inj in E.
  pose proof (after_ok e i st Hc Hst) as (Hl & Hf & Hp).
  pose proof (after_ok e j st Hc Hst) as (Hl' & Hf' & Hp').
  apply code_inj in E; auto; [|congruence].
  exists (j - i)%nat. repeat split; [lia| |].
  - rewrite N.pow_mul_r. fold M. lia.
  - symmetry. apply (after_inj e i); auto using after_ok.
    rewrite <- after_plus. replace (i + (j - i))%nat with j by lia.
    destruct (after e i st), (after e j st). cbn in *. congruence.
Qed.

(** ** Seeding *)

Lemma sm_fill_nth n s i w : (i < n)%nat -> nth_error (sm_fill w n s) i = Some (wrap w (sm_output i s)).
Proof.
  revert s i. induction n as [|n IH]; intros s i Hi; [lia|].
  destruct i as [|i]; cbn [sm_fill nth_error]; unfold sm64_draw; cbn [fst snd].
  - reflexivity.
  - cbn [nth_error]. rewrite IH by lia.
    assert (E : forall k, sm_after k (sm_next 64 sm_x s) = sm_after (S k) s).
    { induction k as [|k IHk]; [reflexivity|]. cbn [sm_after] in *. rewrite IHk. reflexivity. }
    unfold sm_output. rewrite E. reflexivity.
Qed.

Lemma sm_fill_length w n s : length (sm_fill w n s) = n.
Proof. revert s; induction n; intros s; cbn; auto. Qed.

Lemma sm_fill_words w n s : Forall (is_word w) (sm_fill w n s).
Proof. revert s; induction n; intros s; cbn; constructor; auto. apply wrap_lt. Qed.

Lemma seed_ok e v : rng_ok e (seed e v).
Proof.
  unfold seed. repeat split; cbn [r_s r_p].
  - apply sm_fill_length.
  - apply sm_fill_words.
Qed.

Lemma sm_output_lt k s : sm_output k s < 2 ^ 64.
Proof. apply sm_out_lt. Qed.

Lemma seed_reg e v i : e_w e = 64 -> (i < state_size (e_fam e))%nat ->
  reg (r_s (seed e v)) i = sm_output i v.
Proof.
  intros Hw Hi. unfold seed, reg. cbn [r_s].
  erewrite nth_error_nth; [reflexivity|].
  rewrite (sm_fill_nth _ _ _ _ Hi), Hw. f_equal. apply wrap_small, sm_output_lt.
Qed.

Lemma seed_distinct e v i j : e_w e = 64 -> v < 2 ^ 64 ->
  (i < state_size (e_fam e))%nat -> (j < state_size (e_fam e))%nat ->
  N.of_nat (state_size (e_fam e)) < 2 ^ 64 ->
  reg (r_s (seed e v)) i = reg (r_s (seed e v)) j -> i = j.
Proof.
  intros Hw Hv Hi Hj Hn E. rewrite !seed_reg in E by auto.
  apply sm_output_inj in E; auto. rewrite !wrap_small in E by lia. lia.
Qed.

Lemma seed_nonzero e v : e_w e = 64 -> v < 2 ^ 64 ->
  (2 <= state_size (e_fam e))%nat -> N.of_nat (state_size (e_fam e)) < 2 ^ 64 ->
  nonzero (seed e v).
Proof.
  intros Hw Hv H2 Hn. destruct (nonzero_dec (seed e v)) as [|Hz]; auto. exfalso.
  assert (Z : forall i, (i < state_size (e_fam e))%nat -> reg (r_s (seed e v)) i = 0).
  { intros i Hi. destruct (N.eq_dec (reg (r_s (seed e v)) i) 0) as [|Hne]; auto.
    exfalso. apply Hz. exists (reg (r_s (seed e v)) i). split; auto.
    apply nth_In. rewrite (proj1 (seed_ok e v)). auto. }
  assert (0 = 1)%nat; [|discriminate].
  apply (seed_distinct e v); auto; try lia. rewrite !Z by lia. reflexivity.
Qed.

(** ** Discard *)

Lemma after_shift e k st : after e (S k) st = after e k (snd (draw e st)).
Proof. replace (S k) with (k + 1)%nat by lia. apply after_plus. Qed.

Lemma discard_after e z st : discard e z st = after e z st.
Proof.
  revert st. induction z as [|z IH]; intros st; cbn [discard]; auto.
  rewrite IH, after_shift. reflexivity.
Qed.

Lemma discard_output e z k st : output e k (discard e z st) = output e (z + k) st.
Proof.
  unfold output. rewrite discard_after, <- after_plus. rewrite (Nat.add_comm z k). reflexivity.
Qed.

(** ** Unit interval *)

Lemma scramble_lt e st : scramble e st < 2 ^ e_w e.
Proof. unfold scramble, scramble_at. destruct (e_scr e); apply wrap_lt. Qed.

Lemma unit_interval e st : e_w e = 32 \/ e_w e = 64 ->
  dyadic_lt_1 (fst (draw01 e st)) /\
  snd (fst (draw01 e st)) = (if e_w e =? 32 then 24 else 53) /\
  fst (fst (draw01 e st)) = fst (draw e st) / 2 ^ (e_w e - snd (fst (draw01 e st))).
Proof.
  intros Hw. unfold draw01, draw, dyadic_lt_1, uint_to_real. cbn [fst snd].
  pose proof (scramble_lt e st) as H.
  destruct Hw as [Hw|Hw]; rewrite Hw in *; cbn [N.eqb Pos.eqb fst snd].
  - rewrite N.shiftr_div_pow2. repeat split; auto.
    change (2 ^ 32) with (2 ^ 8 * 2 ^ 24) in H.
    apply N.div_lt_upper_bound in H; auto; discriminate.
  - rewrite N.shiftr_div_pow2. repeat split; auto.
    change (2 ^ 64) with (2 ^ 11 * 2 ^ 53) in H.
    apply N.div_lt_upper_bound in H; auto; discriminate.
Qed.

Lemma engines_w e : In e engines -> e_w e = 32 \/ e_w e = 64.
Proof. intros H. cbn in H. repeat destruct H as [<-|H]; cbn; auto; lia. Qed.

Lemma engines_n e : In e engines ->
  (2 <= state_size (e_fam e))%nat /\ N.of_nat (state_size (e_fam e)) < 2 ^ 64.
Proof. intros H. cbn in H. repeat destruct H as [<-|H]; cbn; try split; lia. Qed.

(** ** Dead registers of xoroshiro1024 *)

Definition same_ends (st st' : rng) : Prop :=
  reg (r_s st) 0 = reg (r_s st') 0 /\ reg (r_s st) 15 = reg (r_s st') 15.

Lemma last_reg x m z : length m = 14%nat -> reg (x :: m ++ [z]) 15 = z.
Proof.
  intros Hm. change (reg (x :: m ++ [z]) 15) with (reg (m ++ [z]) 14).
  rewrite <- Hm. apply reg_last.
Qed.

Lemma x1024_step e st st' : In e [xoroshiro1024plus; xoroshiro1024star; xoroshiro1024starstar] ->
  rng_ok e st -> rng_ok e st' -> same_ends st st' ->
  fst (draw e st) = fst (draw e st') /\ same_ends (snd (draw e st)) (snd (draw e st')).
Proof.
  intros He Hst Hst' (E0 & E1).
  assert (F : e_fam e = XoroshiroN 16 25 27 36) by (destruct He as [<-|[<-|[<-|[]]]]; reflexivity).
  destruct st as [s p], st' as [s' p']. destruct Hst as (Hl & _ & Hp). destruct Hst' as (Hl' & _ & Hp').
  rewrite F in *. cbn [r_s r_p state_size Nat.sub] in *. subst p p'.
  split.
  - unfold draw, scramble. cbn [fst r_s r_p].
    destruct He as [<-|[<-|[<-|[]]]]; cbn [e_scr e_fam e_w xoroshiro1024plus xoroshiro1024star
      xoroshiro1024starstar scramble_at].
    + change (scr_index (XoroshiroN 16 25 27 36) 15 15) with 15%nat.
      change (scr_index (XoroshiroN 16 25 27 36) 15 0) with 0%nat. congruence.
    + change (scr_index (XoroshiroN 16 25 27 36) 15 0) with 0%nat. congruence.
    + change (scr_index (XoroshiroN 16 25 27 36) 15 0) with 0%nat. congruence.
  - unfold draw, transform. cbn [snd]. rewrite F.
    apply length16 in Hl as (x & m & z & -> & Hm). apply length16 in Hl' as (x' & m' & z' & -> & Hm').
    rewrite !last_reg in E1 by auto. cbn in E0. subst x' z'.
    rewrite !x16_transform by auto. unfold same_ends. cbn [r_s]. split; [reflexivity|].
    rewrite !last_reg by auto. reflexivity.
Qed.

Lemma x1024_same e st st' k : In e [xoroshiro1024plus; xoroshiro1024star; xoroshiro1024starstar] ->
  rng_ok e st -> rng_ok e st' -> same_ends st st' -> output e k st = output e k st'.
Proof.
  intros He Hst Hst' H.
  assert (Hc : consts_ok e) by (apply engines_consts; destruct He as [<-|[<-|[<-|[]]]]; cbn; auto 10).
  assert (G : same_ends (after e k st) (after e k st')).
  { induction k as [|k IH]; cbn [after]; auto.
    apply x1024_step; auto using after_ok. }
  apply (x1024_step e); auto using after_ok.
Qed.

Lemma x1024_untouched e st k i : In e [xoroshiro1024plus; xoroshiro1024star; xoroshiro1024starstar] ->
  rng_ok e st -> (1 <= i <= 14)%nat -> reg (r_s (after e k st)) i = reg (r_s st) i.
Proof.
  intros He Hst Hi.
  assert (Hc : consts_ok e) by (apply engines_consts; destruct He as [<-|[<-|[<-|[]]]]; cbn; auto 10).
  assert (F : e_fam e = XoroshiroN 16 25 27 36) by (destruct He as [<-|[<-|[<-|[]]]]; reflexivity).
  induction k as [|k IH]; cbn [after]; auto. rewrite <- IH. clear IH.
  pose proof (after_ok e k st Hc Hst) as Hk. revert Hk. generalize (after e k st).
  intros [s p] (Hl & _ & Hp). unfold draw, transform. rewrite F in *. cbn [snd r_s r_p] in *.
  cbn [state_size Nat.sub] in *. subst p.
  apply length16 in Hl as (x & m & z & -> & Hm). rewrite x16_transform by auto. cbn [r_s].
  destruct i as [|i]; [lia|]. unfold reg. cbn [nth]. rewrite !app_nth1 by lia. reflexivity.
Qed.

(** The registers 0 and 15 of a seeded xoroshiro1024 are never both zero. *)

Lemma x1024_ends_step e st : In e [xoroshiro1024plus; xoroshiro1024star; xoroshiro1024starstar] ->
  rng_ok e st -> reg (r_s st) 0 <> 0 \/ reg (r_s st) 15 <> 0 ->
  reg (r_s (snd (draw e st))) 0 <> 0 \/ reg (r_s (snd (draw e st))) 15 <> 0.
Proof.
  intros He Hst Hn.
  assert (F : e_fam e = XoroshiroN 16 25 27 36) by (destruct He as [<-|[<-|[<-|[]]]]; reflexivity).
  assert (W : e_w e = 64) by (destruct He as [<-|[<-|[<-|[]]]]; reflexivity).
  destruct st as [s p]. destruct Hst as (Hl & Hf & Hp). unfold draw, transform.
  rewrite F, W in *. cbn [snd r_s r_p] in *. cbn [state_size Nat.sub] in *. subst p.
  apply length16 in Hl as (x & m & z & -> & Hm). rewrite x16_transform by auto. cbn [r_s].
  rewrite !last_reg in * by auto. cbn [reg nth] in *.
  inversion Hf; subst. apply Forall_app in H2 as (_ & Hz). inv_forall. unfold is_word in *.
  match goal with |- ?A <> 0 \/ ?B <> 0 =>
    destruct (N.eq_dec A 0) as [EA|]; [|auto]; destruct (N.eq_dec B 0) as [EB|]; [|auto] end.
  exfalso. assert (Z : x = 0 /\ z = 0); [|lia].
  apply (x2_core 64 25 27 36 x z 0 0); auto; try (vm_compute; congruence).
Qed.

Lemma x1024_ends e k v : In e [xoroshiro1024plus; xoroshiro1024star; xoroshiro1024starstar] ->
  v < 2 ^ 64 ->
  reg (r_s (after e k (seed e v))) 0 <> 0 \/ reg (r_s (after e k (seed e v))) 15 <> 0.
Proof.
  intros He Hv.
  assert (Hc : consts_ok e) by (apply engines_consts; destruct He as [<-|[<-|[<-|[]]]]; cbn; auto 10).
  induction k as [|k IH].
  - cbn [after]. destruct (N.eq_dec (reg (r_s (seed e v)) 0) 0) as [E0|]; [|auto].
    destruct (N.eq_dec (reg (r_s (seed e v)) 15) 0) as [E1|]; [|auto]. exfalso.
    assert (0 = 15)%nat; [|discriminate].
    apply (seed_distinct e v); [destruct He as [<-|[<-|[<-|[]]]]; reflexivity|auto
      |destruct He as [<-|[<-|[<-|[]]]]; cbn; lia
      |destruct He as [<-|[<-|[<-|[]]]]; cbn; lia
      |destruct He as [<-|[<-|[<-|[]]]]; reflexivity|congruence].
  - cbn [after]. apply x1024_ends_step; auto. apply after_ok; auto. apply seed_ok.
Qed.

(** ** Scramblers of one register are permutations of its value *)

Definition scr_reg (e : engine) : option nat :=
  match e_scr e with
  | SPlus _ _ => None
  | SStar i _ => Some i
  | SStarStar i _ _ _ => Some i
  end.

(** The value drawn when the scrambled register holds [x]. *)
Definition scr_fun (e : engine) (x : N) : N :=
  match e_scr e with
  | SPlus _ _ => 0
  | SStar _ m => mulw (e_w e) x m
  | SStarStar _ m r t => mulw (e_w e) (rotl (e_w e) (mulw (e_w e) x m) r) t
  end.

Definition scr_ok (e : engine) : Prop :=
  match e_scr e with
  | SPlus _ _ => False
  | SStar _ m => exists m', mulw (e_w e) m m' = wrap (e_w e) 1
  | SStarStar _ m r t => r <= e_w e /\
      (exists m', mulw (e_w e) m m' = wrap (e_w e) 1) /\
      (exists t', mulw (e_w e) t t' = wrap (e_w e) 1)
  end.

Lemma scr_fun_lt e x : scr_ok e -> scr_fun e x < 2 ^ e_w e.
Proof. unfold scr_ok, scr_fun. destruct (e_scr e); intros H; [easy|apply mulw_lt|apply mulw_lt]. Qed.

Lemma scr_fun_inj e x y : scr_ok e -> x < 2 ^ e_w e -> y < 2 ^ e_w e ->
  scr_fun e x = scr_fun e y -> x = y.
Proof.
  unfold scr_ok, scr_fun. destruct (e_scr e); intros H Hx Hy E; [easy| |].
  - destruct H as (m' & H). eapply mulw_inj; eauto.
  - destruct H as (Hr & (m' & Hm) & (t' & Ht)).
    apply (mulw_inj _ _ _ _ _ Ht) in E; try (apply rotl_lt; auto; apply mulw_lt).
    apply rotl_inj in E; auto; try apply mulw_lt.
    apply (mulw_inj _ _ _ _ _ Hm) in E; auto.
Qed.

Definition starry : list engine :=
  [xoroshiro64star; xoroshiro64starstar; xoroshiro128starstar;
   xoroshiro1024star; xoroshiro1024starstar;
   xoshiro128starstar; xoshiro256starstar; xoshiro512starstar].

Ltac try_inv c := exists c; vm_compute; reflexivity.
Ltac find_inv :=
  first [try_inv 0xbe736373 | try_inv 0xcccccccd | try_inv 0x38e38e39
        | try_inv 0xcccccccccccccccd | try_inv 0x8e38e38e38e38e39 | try_inv 0x3fbd78d0fbf0ae1b].

Lemma starry_ok e : In e starry -> scr_ok e.
Proof.
  intros H. cbn in H. destruct H as [<-|[<-|[<-|[<-|[<-|[<-|[<-|[<-|[]]]]]]]]];
    unfold scr_ok;
    cbn [e_scr e_w xoroshiro64star xoroshiro64starstar xoroshiro128starstar
         xoroshiro1024star xoroshiro1024starstar xoshiro128starstar xoshiro256starstar
         xoshiro512starstar].
  all: try find_inv.
  all: split; [vm_compute; discriminate|split; find_inv].
Qed.

Lemma starry_draw e st : In e starry -> rng_ok e st ->
  exists i, scr_reg e = Some i /\ (i < state_size (e_fam e))%nat /\
            fst (draw e st) = scr_fun e (reg (r_s st) i).
Proof.
  intros H (Hl & Hf & Hp). unfold draw, scramble, scr_reg, scr_fun. cbn [fst]. rewrite Hp.
  cbn in H. repeat destruct H as [<-|H]; try easy; cbn [e_scr e_fam e_w state_size];
    eexists; (split; [reflexivity|split; [cbn; lia|reflexivity]]).
Qed.

Lemma starry_permutes e : In e starry -> exists i, (i < state_size (e_fam e))%nat /\
  (forall st st', rng_ok e st -> rng_ok e st' ->
     (fst (draw e st) = fst (draw e st') <-> reg (r_s st) i = reg (r_s st') i)) /\
  (forall v, v < 2 ^ e_w e -> exists st, rng_ok e st /\ fst (draw e st) = v).
Proof.
  intros He. pose proof (starry_ok e He) as Hs.
  destruct (starry_draw e (zero_state e) He (zero_ok e)) as (i & Hi & Hlt & _).
  assert (D : forall st, rng_ok e st -> fst (draw e st) = scr_fun e (reg (r_s st) i)).
  { intros st Hst. destruct (starry_draw e st He Hst) as (j & Hj & _ & E). congruence. }
  assert (R : forall st, rng_ok e st -> reg (r_s st) i < 2 ^ e_w e).
  { intros st (Hl & Hf & _). rewrite Forall_forall in Hf. apply Hf, nth_In. lia. }
  exists i. repeat split; auto.
  - rewrite !D by auto. intros E. eapply scr_fun_inj; eauto.
  - rewrite !D by auto. congruence.
  - intros v Hv. destruct (inj_surj _ (scr_fun e) (fun x _ => scr_fun_lt e x Hs)
      (fun x y Hx Hy => scr_fun_inj e x y Hs Hx Hy) v Hv) as (x & Hx & E).
    set (st := mkRng (repeat x (state_size (e_fam e))) (state_size (e_fam e) - 1)).
    assert (O : rng_ok e st).
    { repeat split; cbn; [apply repeat_length|]. apply Forall_forall. intros y Hy.
      apply repeat_spec in Hy. subst. auto. }
    exists st. split; auto. rewrite D by auto. rewrite <- E. f_equal. unfold reg, st. cbn [r_s].
    apply (repeat_spec (state_size (e_fam e)) x), nth_In. rewrite repeat_length. auto.
Qed.

(** ** The published algorithms *)

Lemma rotl_rotation w k x : 0 < k -> k < w -> x < 2 ^ w -> is_rotation w k x (rotl w x k).
Proof.
  intros Hk Hw Hx. split; [apply rotl_lt; [lia|exact Hx]|]. intros i Hi.
  unfold rotl. rewrite N.lor_spec, shl_bit by exact Hi. rewrite N.shiftr_spec by lia.
  destruct (N.ltb_spec i k) as [L|L]; cbn [orb].
  - rewrite N.mod_small by lia. f_equal. lia.
  - assert (E : (i + w - k) mod w = i - k).
    { replace (i + w - k) with ((i - k) + 1 * w) by lia. rewrite N.mod_add by lia. apply N.mod_small. lia. }
    rewrite E. assert (F : N.testbit x (i + (w - k)) = false).
    { destruct (N.eq_dec x 0) as [->|Nz]; [apply N.bits_0|]. apply N.bits_above_log2.
      apply N.lt_le_trans with w; [|lia]. apply N.log2_lt_pow2; lia. }
    rewrite F. apply orb_false_r.
Qed.

Lemma cons_eq (x y : N) a b : x = y -> a = b -> x :: a = y :: b.
Proof. intros -> ->. reflexivity. Qed.
Ltac xor_eq := apply N.bits_inj; intro; rewrite ?N.lxor_spec;
  repeat match goal with |- context [N.testbit ?x ?i] => destruct (N.testbit x i) end; reflexivity.
Ltac regs := repeat apply cons_eq; try reflexivity; try xor_eq.

Lemma xoroshiro2_closed w a b c s : length s = 2%nat -> xoroshiro2_transform w a b c s = xoroshiro128_next w a b c s.
Proof.
  intros L. destruct s as [|s0 [|s1 [|]]]; try discriminate L.
  unfold xoroshiro2_transform, xoroshiro128_next, reg. cbn [nth set_reg]. regs.
Qed.
Lemma xoshiro4_closed w a b s : length s = 4%nat -> xoshiro4_transform w a b s = xoshiro256_next w a b s.
Proof.
  intros L. destruct s as [|s0 [|s1 [|s2 [|s3 [|]]]]]; try discriminate L.
  unfold xoshiro4_transform, xoshiro256_next, xor_reg, reg. cbn [nth set_reg]. regs.
Qed.
Lemma xoshiro8_closed w a b s : length s = 8%nat -> xoshiro8_transform w a b s = xoshiro512_next w a b s.
Proof.
  intros L. destruct s as [|s0 [|s1 [|s2 [|s3 [|s4 [|s5 [|s6 [|s7 [|]]]]]]]]]; try discriminate L.
  cbv [xoshiro8_transform xoshiro512_next xor_reg reg nth set_reg]. regs.
Qed.

Lemma published_ok : Forall (fun x => match x with (e, out, next) =>
    forall st, length (r_s st) = state_size (e_fam e) ->
    draw e st = (out (r_s st), mkRng (next (r_s st)) (r_p st)) end) published.
Proof.
  unfold published. repeat apply Forall_cons; try apply Forall_nil;
    intros [s p] L; cbn [r_s r_p] in *; unfold draw, transform; cbn [e_fam e_w r_s r_p state_size] in *.
  all: match type of L with _ = state_size (e_fam ?e) => unfold e in *; cbn [e_fam state_size e_w] in * end.
  all: first [rewrite xoroshiro2_closed by exact L|rewrite xoshiro4_closed by exact L|rewrite xoshiro8_closed by exact L];
    reflexivity.
Qed.

Lemma sm_after_next k s : sm_after k (snd (sm64_draw s)) = sm_after (S k) s.
Proof. induction k as [|k IH]; cbn [sm_after] in *; [reflexivity|]. rewrite IH. reflexivity. Qed.
Lemma fill_length w n : forall s, length (sm_fill w n s) = n.
Proof. induction n as [|n IH]; intros s; cbn [sm_fill]; [reflexivity|]. destruct (sm64_draw s) as [v s']. cbn. f_equal. apply IH. Qed.
Lemma fill_nth w n : forall i s, (i < n)%nat -> nth i (sm_fill w n s) 0 = sm_output i s mod 2 ^ w.
Proof.
  induction n as [|n IH]; intros i s Hi; [lia|]. cbn [sm_fill]. destruct (sm64_draw s) as [v s'] eqn:E. destruct i as [|i].
  - cbn [nth]. unfold sm_output. cbn [sm_after]. rewrite E. reflexivity.
  - cbn [nth]. rewrite IH by lia. unfold sm_output. replace s' with (snd (sm64_draw s)) by (rewrite E; reflexivity).
    rewrite sm_after_next. reflexivity.
Qed.
Lemma seed_registers e v i : (i < state_size (e_fam e))%nat ->
  length (r_s (seed e v)) = state_size (e_fam e) /\ nth i (r_s (seed e v)) 0 = sm_output i v mod 2 ^ e_w e.
Proof. intros Hi. unfold seed. cbn [r_s]. split; [apply fill_length|apply fill_nth, Hi]. Qed.
