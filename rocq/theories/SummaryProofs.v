From Coq Require Import List Reals Lra Lia Permutation ZArith.
From Flocq Require Import IEEE754.BinarySingleNaN Core.
From Verif Require Import Summary SummarySpec.
Import ListNotations.
Local Open Scope R_scope.

(** The state after a history is that after its samples. *)
Lemma samples_app {A} (l : list (sm_op A)) o :
  samples (l ++ [o]) = match o with Sample x => samples l ++ [x] | ResetAll => [] end.
Proof. unfold samples. rewrite fold_left_app. reflexivity. Qed.
Lemma run_app A l o : sm_run A (l ++ [o]) = sm_step A (sm_run A l) o.
Proof. unfold sm_run. rewrite fold_left_app. reflexivity. Qed.
Definition fed A (xs : list (num A)) : summary A := fold_left (on_probe A) xs (sm_init A).
Lemma fed_app A xs x : fed A (xs ++ [x]) = on_probe A (fed A xs) x.
Proof. unfold fed. rewrite fold_left_app. reflexivity. Qed.
Lemma run_fed A l : sm_run A l = fed A (samples l).
Proof.
  induction l as [|o l IH] using rev_ind; [reflexivity|]. rewrite run_app, samples_app, IH.
  destruct o as [x|]; cbn [sm_step]; [rewrite fed_app|]; reflexivity.
Qed.

(** ** Real numbers *)

Lemma total_app xs ys : total (xs ++ ys) = total xs + total ys.
Proof. unfold total in *. induction xs as [|x xs IH]; cbn [app fold_right]; lra. Qed.
Lemma total_perm xs ys : Permutation xs ys -> total xs = total ys.
Proof. unfold total. induction 1; cbn [fold_right]; lra. Qed.
Lemma size_app xs x : size (xs ++ [x]) = size xs + 1.
Proof. unfold size. rewrite app_length, Nat.add_1_r, S_INR. reflexivity. Qed.
Lemma size_pos xs : xs <> [] -> 1 <= size xs.
Proof. intros H. unfold size. destruct xs as [|x xs]; [congruence|]. cbn [length]. rewrite S_INR. pose proof (pos_INR (length xs)). lra. Qed.

Definition sqr (xs : list R) : R := total (map (fun x => x * x) xs).
Lemma sqr_app xs x : sqr (xs ++ [x]) = sqr xs + x * x.
Proof. unfold sqr. rewrite map_app, total_app. cbn. lra. Qed.

(** The state after samples [xs]. *)
Lemma exact_state xs :
  sm_count _ (fed exact (map Some xs)) = Some (size xs) /\
  sm_sum _ (fed exact (map Some xs)) = Some (total xs) /\
  sm_sqr _ (fed exact (map Some xs)) = Some (sqr xs) /\
  (xs = [] -> sm_min _ (fed exact (map Some xs)) = None /\ sm_max _ (fed exact (map Some xs)) = None) /\
  (xs <> [] -> exists a b, sm_min _ (fed exact (map Some xs)) = Some a /\ smallest a xs /\
     sm_max _ (fed exact (map Some xs)) = Some b /\ largest b xs).
Proof.
  induction xs as [|x xs IH] using rev_ind.
  - cbn. repeat split; auto. congruence.
  - destruct IH as (C & S & Q & E & M). rewrite map_app. cbn [map]. rewrite fed_app.
    rewrite total_app, size_app, sqr_app.
    unfold on_probe. cbn [sm_count sm_sum sm_sqr sm_min sm_max]. rewrite C, S, Q.
    cbn [exact add mul eqb ltb zero one lift2 num].
    split; auto. split; [f_equal; cbn; lra|]. split; auto. split; [intros X; destruct xs; discriminate|].
    intros _. destruct (Req_bool_spec (size xs) 0) as [Z|Z].
    + assert (xs = []). { destruct xs as [|y ys]; auto. pose proof (size_pos (y :: ys) ltac:(discriminate)). lra. }
      subst xs. exists x, x. split; auto. split; [split; [left; auto|intros y [<-|[]]; lra]|].
      split; auto. split; [left; auto|intros y [<-|[]]; lra].
    + assert (Hne : xs <> []) by (intros ->; apply Z; reflexivity).
      destruct (M Hne) as (a & b & Ea & [Ia Ha] & Eb & [Ib Hb]). rewrite Ea, Eb. cbn [lift2].
      exists (if Rlt_bool x a then x else a), (if Rlt_bool b x then x else b).
      split; [destruct (Rlt_bool x a); auto|]. split.
      { destruct (Rlt_bool_spec x a); split; try (apply in_or_app; cbn; auto);
          intros y Hy; apply in_app_or in Hy; destruct Hy as [Hy|[<-|[]]]; try lra; specialize (Ha y Hy); lra. }
      split; [destruct (Rlt_bool b x); auto|].
      destruct (Rlt_bool_spec b x); split; try (apply in_or_app; cbn; auto);
        intros y Hy; apply in_app_or in Hy; destruct Hy as [Hy|[<-|[]]]; try lra; specialize (Hb y Hy); lra.
Qed.

Lemma spread xs m : total (map (fun x => (x - m) ^ 2) xs) = sqr xs + (- 2 * total xs + size xs * m) * m.
Proof.
  unfold sqr, size. induction xs as [|x xs IH]; [cbn; lra|].
  cbn [map total fold_right length]. rewrite S_INR.
  change (fold_right Rplus 0 (map (fun x => (x - m) ^ 2) xs)) with (total (map (fun x => (x - m) ^ 2) xs)).
  change (fold_right Rplus 0 (map (fun x => x * x) xs)) with (total (map (fun x => x * x) xs)).
  change (fold_right Rplus 0 xs) with (total xs). rewrite IH. ring.
Qed.
Lemma spread_pos xs m : 0 <= total (map (fun x => (x - m) ^ 2) xs).
Proof.
  induction xs as [|x xs IH]; cbn [map total fold_right]; [lra|].
  change (fold_right Rplus 0 (map (fun x => (x - m) ^ 2) xs)) with (total (map (fun x => (x - m) ^ 2) xs)).
  pose proof (pow2_ge_0 (x - m)). lra.
Qed.
Lemma variance_pos xs : (2 <= length xs)%nat -> 0 <= variance xs.
Proof.
  intros H. unfold variance. apply le_INR in H. cbn [INR] in H. unfold size.
  apply Rmult_le_pos; [apply spread_pos|]. apply Rlt_le, Rinv_0_lt_compat. lra.
Qed.

Lemma exact_mean xs : get_mean _ (fed exact (map Some xs)) = if (length xs =? 0)%nat then None else Some (mean xs).
Proof.
  destruct (exact_state xs) as (C & S & _). unfold get_mean. rewrite C, S. cbn [exact eqb zero nan div lift2].
  destruct xs as [|x xs].
  - cbn. rewrite Req_bool_true by auto. auto.
  - pose proof (size_pos (x :: xs) ltac:(discriminate)). rewrite Req_bool_false by lra. reflexivity.
Qed.
Lemma exact_stddev xs : get_stddev _ (fed exact (map Some xs)) =
  if (length xs <? 2)%nat then None else Some (sqrt (variance xs)).
Proof.
  destruct (exact_state xs) as (C & S & Q & _). unfold get_stddev. rewrite C, S, Q. cbv zeta.
  cbn [exact ltb two nan div lift2]. unfold size at 1.
  destruct (Nat.ltb_spec (length xs) 2) as [H|H].
  - rewrite Rlt_bool_true; auto. apply lt_INR in H. cbn [INR] in H. lra.
  - pose proof (variance_pos xs H) as V. apply le_INR in H. cbn [INR] in H. fold (size xs) in *.
    rewrite Rlt_bool_false by lra. rewrite Req_bool_false by lra.
    cbn [exact mul add sub minus_two one root div lift2]. rewrite Req_bool_false by lra.
    assert (E : (sqr xs + (-2 * total xs + size xs * (total xs / size xs)) * (total xs / size xs)) / (size xs - 1) = variance xs).
    { unfold variance, mean. rewrite spread. reflexivity. }
    rewrite E. rewrite Rlt_bool_false by auto. reflexivity.
Qed.

(** ** IEEE 754 *)

Notation fexp := (FLT_exp (3 - 1024 - 53) 53).

Lemma int_format z : (Z.abs z <= 2 ^ 53)%Z -> generic_format radix2 fexp (IZR z).
Proof.
  intros H. apply generic_format_FLT. destruct (Z.eq_dec (Z.abs z) (2 ^ 53)) as [E|E].
  - exists (Float radix2 (z / 2) 1).
    + assert (Hz : z = (2 * (z / 2))%Z). { assert (z = 2 ^ 53 \/ z = - 2 ^ 53)%Z as [->| ->] by lia; reflexivity. }
      unfold F2R. cbn [Fnum Fexp]. rewrite Hz at 1. rewrite mult_IZR. cbn. lra.
    + cbn [Fnum]. assert (z = 2 ^ 53 \/ z = - 2 ^ 53)%Z as [->| ->] by lia; reflexivity.
    + cbn. lia.
  - exists (Float radix2 z 0).
    + unfold F2R. cbn. lra.
    + cbn [Fnum]. change (radix2 ^ 53)%Z with (2 ^ 53)%Z. lia.
    + cbn. lia.
Qed.
Lemma int_small z : (Z.abs z <= 2 ^ 54)%Z -> Rabs (IZR z) < bpow radix2 1024.
Proof.
  intros H. rewrite <- abs_IZR. apply Rle_lt_trans with (IZR (2 ^ 54)); [apply IZR_le; auto|].
  change (IZR (2 ^ 54)) with (bpow radix2 54). apply bpow_lt. lia.
Qed.
Lemma round_int z : (Z.abs z <= 2 ^ 53)%Z -> round radix2 fexp (round_mode mode_NE) (IZR z) = IZR z.
Proof. intros H. apply round_generic; [apply valid_rnd_round_mode|apply int_format; auto]. Qed.

Lemma of_int_ok z : (Z.abs z <= 2 ^ 53)%Z -> holds_int (of_int z) z.
Proof.
  intros H. pose proof (binary_normalize_correct 53 1024 prec_pos emax_big mode_NE z 0 false) as B.
  cbv zeta in B. replace (F2R (Float radix2 z 0)) with (IZR z) in B by (unfold F2R; cbn; lra).
  change (SpecFloat.fexp 53 1024) with fexp in B.
  rewrite round_int in B by auto. rewrite Rlt_bool_true in B by (apply int_small; lia).
  destruct B as (B1 & B2 & _). split; auto.
Qed.
Lemma zero_ok : holds_int (B754_zero false : double) 0.
Proof. split; reflexivity. Qed.

Lemma plus_int x y a b : holds_int x a -> holds_int y b -> (Z.abs (a + b) <= 2 ^ 53)%Z ->
  holds_int (add ieee x y) (a + b).
Proof.
  intros [F1 E1] [F2 E2] H. pose proof (Bplus_correct 53 1024 prec_pos emax_big mode_NE x y F1 F2) as P.
  rewrite E1, E2, <- plus_IZR in P. change (SpecFloat.fexp 53 1024) with fexp in P.
  rewrite round_int in P by auto. rewrite Rlt_bool_true in P by (apply int_small; lia).
  destruct P as (P1 & P2 & _). split; auto.
Qed.
Lemma mult_int x y a b : holds_int x a -> holds_int y b -> (Z.abs (a * b) <= 2 ^ 53)%Z ->
  holds_int (mul ieee x y) (a * b).
Proof.
  intros [F1 E1] [F2 E2] H. pose proof (Bmult_correct 53 1024 prec_pos emax_big mode_NE x y) as P.
  rewrite E1, E2, <- mult_IZR in P. change (SpecFloat.fexp 53 1024) with fexp in P.
  rewrite round_int in P by auto. rewrite Rlt_bool_true in P by (apply int_small; lia).
  destruct P as (P1 & P2 & _). split; auto. cbn [ieee mul]. rewrite P2, F1, F2. auto.
Qed.

(** 2^53 + 1 is rounded to 2^53. *)
Lemma full_int x : holds_int x (2 ^ 53) -> holds_int (add ieee x (one ieee)) (2 ^ 53).
Proof.
  intros H. assert (E : x = of_int (2 ^ 53)).
  { apply B2R_Bsign_inj; try apply H; try apply of_int_ok; [lia| |].
    - rewrite (proj2 H). symmetry. apply of_int_ok. lia.
    - destruct H as [F V].
      assert (0 < B2R x) by (rewrite V; apply IZR_lt; lia).
      assert (Sx : Bsign x = false).
      { destruct x as [s|s| |s m e B]; try (cbn [B2R] in H; lra). destruct s; auto. exfalso.
        pose proof (F2R_lt_0 radix2 (Float radix2 (Z.neg m) e) ltac:(reflexivity)) as L.
        change (B2R (B754_finite true m e B)) with (F2R (Float radix2 (Z.neg m) e)) in H. lra. }
      rewrite Sx. vm_compute. reflexivity. }
  subst x. assert (E : add ieee (of_int (2 ^ 53)) (one ieee) = of_int (2 ^ 53)).
  { apply B2SF_inj. vm_compute. reflexivity. }
  rewrite E. apply of_int_ok. lia.
Qed.

Lemma ieee_count xs : holds_int (sm_count _ (fed ieee xs)) (Z.min (Z.of_nat (length xs)) (2 ^ 53)).
Proof.
  induction xs as [|x xs IH] using rev_ind; [exact zero_ok|].
  rewrite fed_app, app_length. unfold on_probe. cbn [sm_count length].
  destruct (Z.leb_spec (2 ^ 53) (Z.of_nat (length xs))) as [H|H].
  - rewrite Z.min_r in IH by lia. rewrite Z.min_r by lia. apply full_int; auto.
  - rewrite Z.min_l in IH by lia. rewrite Z.min_l by lia.
    replace (Z.of_nat (length xs + 1)) with (Z.of_nat (length xs) + 1)%Z by lia.
    apply plus_int; auto; [apply of_int_ok; lia|lia].
Qed.
Lemma ieee_first xs : eqb ieee (sm_count _ (fed ieee xs)) (zero ieee) = (length xs =? 0)%nat.
Proof.
  destruct (ieee_count xs) as [F V]. cbn [ieee eqb zero]. rewrite Beqb_correct by auto. rewrite V.
  cbn [B2R]. destruct (Nat.eqb_spec (length xs) 0) as [E|E].
  - apply Req_bool_true. apply IZR_eq. lia.
  - apply Req_bool_false. apply not_eq_sym. apply IZR_neq. lia.
Qed.

(** The order: doubles that are not NaN as real numbers, infinities as the least number
    too large. *)
Definition place (x : double) : R :=
  match x with
  | B754_infinity false => bpow radix2 1024
  | B754_infinity true => - bpow radix2 1024
  | _ => B2R x
  end.
Lemma place_finite x : is_finite x = true -> place x = B2R x.
Proof. destruct x; try reflexivity; discriminate. Qed.
Lemma place_compare x y : ordered x -> ordered y -> Bcompare x y = Some (Rcompare (place x) (place y)).
Proof.
  unfold ordered. intros Hx Hy.
  assert (B : forall z : double, is_finite z = true -> - bpow radix2 1024 < place z < bpow radix2 1024).
  { intros z F. rewrite (place_finite z F). pose proof (abs_B2R_lt_emax 53 1024 z) as A. apply Rabs_def2 in A. lra. }
  pose proof (bpow_gt_0 radix2 1024) as P.
  destruct (is_finite x) eqn:Fx; destruct (is_finite y) eqn:Fy.
  - rewrite Bcompare_correct, !place_finite by auto. auto.
  - specialize (B x Fx). destruct y as [s|[]| |s m e Hb]; try discriminate; cbn [place].
    + rewrite Rcompare_Gt by lra. destruct x as [s|s| |[] m e Hb]; try discriminate; reflexivity.
    + rewrite Rcompare_Lt by lra. destruct x as [s|s| |[] m e Hb]; try discriminate; reflexivity.
  - specialize (B y Fy). destruct x as [s|[]| |s m e Hb]; try discriminate; cbn [place].
    + rewrite Rcompare_Lt by lra. destruct y as [s|s| |[] m e Hb]; try discriminate; reflexivity.
    + rewrite Rcompare_Gt by lra. destruct y as [s|s| |[] m e Hb]; try discriminate; reflexivity.
  - destruct x as [s|[]| |s m e Hb]; try discriminate;
      destruct y as [s'|[]| |s' m' e' Hb']; try discriminate; cbn [place].
    + rewrite Rcompare_Eq by auto. reflexivity.
    + rewrite Rcompare_Lt by lra. reflexivity.
    + rewrite Rcompare_Gt by lra. reflexivity.
    + rewrite Rcompare_Eq by auto. reflexivity.
Qed.
Lemma place_lt x y : ordered x -> ordered y -> Bltb x y = Rlt_bool (place x) (place y).
Proof.
  intros Hx Hy. pose proof (place_compare x y Hx Hy) as C. unfold Bltb, SpecFloat.SFltb. unfold Bcompare in C. rewrite C.
  destruct (Rcompare_spec (place x) (place y)); destruct (Rlt_bool_spec (place x) (place y)); auto; lra.
Qed.
Lemma place_le x y : ordered x -> ordered y -> Bleb x y = Rle_bool (place x) (place y).
Proof.
  intros Hx Hy. pose proof (place_compare x y Hx Hy) as C. unfold Bleb, SpecFloat.SFleb. unfold Bcompare in C. rewrite C.
  destruct (Rcompare_spec (place x) (place y)); destruct (Rle_bool_spec (place x) (place y)); auto; lra.
Qed.
Lemma nan_lt (x y : double) : is_nan x = true \/ is_nan y = true -> Bltb x y = false.
Proof. intros [H|H]; [destruct x|destruct y]; try discriminate; auto. destruct x as [s|[]| |[] m e Hb]; auto. Qed.

(** Minimum and maximum of the samples that are not NaN, if the first is not. *)
Lemma ieee_min_max x xs : ordered x ->
  exists a b, sm_min _ (fed ieee (x :: xs)) = a /\ sm_max _ (fed ieee (x :: xs)) = b /\
    In a (x :: xs) /\ In b (x :: xs) /\ ordered a /\ ordered b /\
    forall y, In y (x :: xs) -> ordered y -> leq a y /\ leq y b.
Proof.
  intros Hx. induction xs as [|y xs IH] using rev_ind.
  - exists x, x. change (fed ieee [x]) with (on_probe ieee (fed ieee []) x).
    unfold on_probe. cbn [sm_min sm_max]. rewrite ieee_first. cbn [length Nat.eqb].
    split; auto. split; auto. split; [left; auto|]. split; [left; auto|]. split; auto. split; auto.
    intros y [<-|[]] Hy. unfold leq. rewrite place_le by auto. split; apply Rle_bool_true; lra.
  - destruct IH as (a & b & Ea & Eb & Ia & Ib & Oa & Ob & H).
    change (x :: xs ++ [y]) with ((x :: xs) ++ [y]). rewrite fed_app. unfold on_probe. cbn [sm_min sm_max].
    rewrite ieee_first. cbn [length Nat.eqb]. rewrite Ea, Eb. cbn [ieee ltb].
    destruct (is_nan y) eqn:Ny.
    + rewrite !nan_lt by auto. exists a, b. split; auto. split; auto.
      split; [apply in_or_app; auto|]. split; [apply in_or_app; auto|]. split; auto. split; auto.
      intros z Hz Oz. apply in_app_or in Hz. destruct Hz as [Hz|[<-|[]]]; auto. unfold ordered in Oz. congruence.
    + rewrite !place_lt by auto.
      exists (if Rlt_bool (place y) (place a) then y else a), (if Rlt_bool (place b) (place y) then y else b).
      split; auto. split; auto. 
      split; [destruct (Rlt_bool (place y) (place a)); apply in_or_app; cbn; auto|].
      split; [destruct (Rlt_bool (place b) (place y)); apply in_or_app; cbn; auto|].
      split; [destruct (Rlt_bool (place y) (place a)); auto|].
      split; [destruct (Rlt_bool (place b) (place y)); auto|].
      intros z Hz Oz. unfold leq in *. apply in_app_or in Hz.
      assert (Hz' : (place a <= place z <= place b) \/ z = y).
      { destruct Hz as [Hz|[<-|[]]]; auto. left. destruct (H z Hz Oz) as [H1 H2].
        rewrite place_le in H1, H2 by auto.
        destruct (Rle_bool_spec (place a) (place z)); destruct (Rle_bool_spec (place z) (place b)); try discriminate; lra. }
      destruct (Rlt_bool_spec (place y) (place a)); destruct (Rlt_bool_spec (place b) (place y));
        rewrite !place_le by auto; split; apply Rle_bool_true; destruct Hz' as [Hz'|Hz']; subst; lra.
Qed.

(** A first sample that is NaN stays the minimum and the maximum. *)
Lemma ieee_nan x xs : is_nan x = true ->
  is_nan (sm_min _ (fed ieee (x :: xs))) = true /\ is_nan (sm_max _ (fed ieee (x :: xs))) = true.
Proof.
  intros Hx. induction xs as [|y xs IH] using rev_ind.
  - change (fed ieee [x]) with (on_probe ieee (fed ieee []) x).
    unfold on_probe. cbn [sm_min sm_max]. rewrite ieee_first. auto.
  - destruct IH as [H1 H2].
    change (x :: xs ++ [y]) with ((x :: xs) ++ [y]). rewrite fed_app. unfold on_probe. cbn [sm_min sm_max].
    rewrite ieee_first. cbn [length Nat.eqb ieee ltb]. rewrite !nan_lt by auto. auto.
Qed.

(** Integers with small sums. *)
Definition sum_abs (zs : list Z) : Z := fold_right (fun z s => (Z.abs z + s)%Z) 0%Z zs.
Definition zsum (zs : list Z) : Z := fold_right Z.add 0%Z zs.
Lemma sum_abs_app a b : sum_abs (a ++ b) = (sum_abs a + sum_abs b)%Z.
Proof. induction a; cbn; auto. unfold sum_abs in *. lia. Qed.
Lemma zsum_app a b : zsum (a ++ b) = (zsum a + zsum b)%Z.
Proof. induction a; cbn; auto. unfold zsum in *. lia. Qed.
Lemma zsum_abs a : (Z.abs (zsum a) <= sum_abs a)%Z.
Proof. induction a; cbn; unfold zsum, sum_abs in *; lia. Qed.
Lemma sum_abs_pos a : (0 <= sum_abs a)%Z.
Proof. induction a; cbn; unfold sum_abs in *; lia. Qed.
Lemma ieee_sum xs : forall zs, Forall2 holds_int xs zs -> (sum_abs zs <= 2 ^ 53)%Z ->
  holds_int (sm_sum _ (fed ieee xs)) (zsum zs).
Proof.
  induction xs as [|x xs IH] using rev_ind; intros zs H B.
  - inversion H; subst. exact zero_ok.
  - apply Forall2_app_inv_l in H. destruct H as (z1 & z2 & H1 & H2 & ->).
    inversion H2 as [|? z ? ? Hz H3]; subst. inversion H3; subst. rewrite sum_abs_app in B. cbn in B.
    rewrite fed_app. unfold on_probe. cbn [sm_sum]. rewrite zsum_app. cbn. rewrite Z.add_0_r.
    pose proof (zsum_abs z1). apply plus_int; auto; [apply IH; auto; lia|lia].
Qed.
Lemma ieee_mean xs s n : holds_int (sm_sum _ (fed ieee xs)) s -> length xs = n -> n <> 0%nat -> (Z.of_nat n <= 2 ^ 53)%Z ->
  (Z.abs s <= 2 ^ 53)%Z ->
  is_finite (get_mean _ (fed ieee xs)) = true /\
  B2R (get_mean _ (fed ieee xs)) = round radix2 fexp (round_mode mode_NE) (IZR s / IZR (Z.of_nat n)).
Proof.
  intros [Fs Es] Ln Hn Hn' Hs. unfold get_mean. rewrite ieee_first, Ln. destruct (Nat.eqb_spec n 0) as [E|_]; [congruence|].
  destruct (ieee_count xs) as [Fc Ec]. rewrite Ln, Z.min_l in Ec by auto.
  pose proof (Bdiv_correct 53 1024 prec_pos emax_big mode_NE (sm_sum _ (fed ieee xs)) (sm_count _ (fed ieee xs))) as D.
  rewrite Ec, Es in D. assert (N0 : (0 < IZR (Z.of_nat n))%R) by (apply IZR_lt; lia).
  specialize (D ltac:(lra)). change (SpecFloat.fexp 53 1024) with fexp in D.
  rewrite Rlt_bool_true in D.
  - destruct D as (D1 & D2 & _). cbn [ieee div]. split; auto. rewrite D2; auto.
  - apply Rle_lt_trans with (IZR (2 ^ 53)).
    + assert (Hv : Valid_exp fexp) by (apply FLT_exp_valid; reflexivity).
      apply abs_round_le_generic; [exact Hv|apply valid_rnd_round_mode|apply int_format; lia|].
      unfold Rdiv. rewrite Rabs_mult, Rabs_inv, <- !abs_IZR. rewrite (Z.abs_eq (Z.of_nat n)) by lia.
      apply Rmult_le_reg_r with (IZR (Z.of_nat n)); auto. rewrite Rmult_assoc, Rinv_l by lra. rewrite Rmult_1_r.
      rewrite <- mult_IZR. apply IZR_le. nia.
    + change (IZR (2 ^ 53)) with (bpow radix2 53). apply bpow_lt. lia.
Qed.
