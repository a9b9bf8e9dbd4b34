(** Properties of summaries: C62, with real numbers and with doubles. *)
From Coq Require Import List Reals Lra Lia Permutation ZArith.
From Flocq Require Import IEEE754.BinarySingleNaN Core.
From Verif Require Import Summary SummarySpec SummaryProofs.
Import ListNotations.
Local Open Scope R_scope.

(** ** Real numbers *)

(** After any history, all the results are the statistics of the samples since the last
    [Reset()]; NaN ([None]) where they are not defined. *)
Theorem C62_exact : forall (l : list (sm_op exact)) (xs : list R), samples l = map Some xs ->
  let s := sm_run exact l in
  get_count exact s = Some (size xs) /\ get_sum exact s = Some (total xs) /\
  get_mean exact s = (if (length xs =? 0)%nat then None else Some (mean xs)) /\
  get_stddev exact s = (if (length xs <? 2)%nat then None else Some (sqrt (variance xs))) /\
  match xs with
  | [] => get_min exact s = None /\ get_max exact s = None
  | _ => exists a b, get_min exact s = Some a /\ smallest a xs /\ get_max exact s = Some b /\ largest b xs
  end.
Proof.
  intros l xs H s. subst s. rewrite run_fed, H. destruct (exact_state xs) as (C & S & Q & E & M).
  split; [exact C|]. split; [exact S|]. split; [apply exact_mean|]. split; [apply exact_stddev|].
  destruct xs; [apply E; auto|apply M; discriminate].
Qed.
Print Assumptions C62_exact.
Example C62_exact_ex :
  let l := [@Sample exact (Some 7); ResetAll; @Sample exact (Some 3); @Sample exact (Some 1); @Sample exact (Some 2)] in
  samples l = map Some [3; 1; 2] /\
  get_count exact (sm_run exact l) = Some 3 /\ get_mean exact (sm_run exact l) = Some 2 /\
  get_min exact (sm_run exact l) = Some 1 /\ get_max exact (sm_run exact l) = Some 3 /\
  get_stddev exact (sm_run exact l) = Some 1.
Proof.
  intros l. split; [reflexivity|].
  destruct (C62_exact l [3; 1; 2] eq_refl) as (C & _ & M & D & a & b & Ea & [Ia Ha] & Eb & [Ib Hb]).
  split; [rewrite C; f_equal; unfold size; cbn; lra|].
  split; [rewrite M; cbn [length Nat.eqb]; f_equal; unfold mean, size, total; cbn; lra|].
  split.
  { rewrite Ea. f_equal. assert (a <= 1) by (apply Ha; cbn; auto). cbn in Ia. lra. }
  split.
  { rewrite Eb. f_equal. assert (3 <= b) by (apply Hb; cbn; auto). cbn in Ib. lra. }
  rewrite D. cbn [length Nat.ltb Nat.leb]. f_equal.
  replace (variance [3; 1; 2]) with 1 by (unfold variance, mean, size, total; cbn; lra). apply sqrt_1.
Qed.

(** The order of the samples does not matter. *)
Theorem C62_order_free : forall (l1 l2 : list (sm_op exact)) (xs ys : list R),
  samples l1 = map Some xs -> samples l2 = map Some ys -> Permutation xs ys ->
  forall f, In f [get_count exact; get_sum exact; get_mean exact; get_stddev exact; get_min exact; get_max exact] ->
  f (sm_run exact l1) = f (sm_run exact l2).
Proof.
  intros l1 l2 xs ys H1 H2 P f Hf.
  destruct (C62_exact l1 xs H1) as (C1 & S1 & M1 & D1 & R1). destruct (C62_exact l2 ys H2) as (C2 & S2 & M2 & D2 & R2).
  pose proof (Permutation_length P) as L. pose proof (total_perm _ _ P) as T.
  assert (Es : size xs = size ys) by (unfold size; rewrite L; auto).
  assert (Em : mean xs = mean ys) by (unfold mean; rewrite T, Es; auto).
  assert (Ev : variance xs = variance ys).
  { unfold variance. rewrite Es, Em. f_equal. apply total_perm, Permutation_map, P. }
  destruct Hf as [<-|[<-|[<-|[<-|Hf]]]].
  - rewrite C1, C2, Es. auto.
  - rewrite S1, S2, T. auto.
  - rewrite M1, M2, L, Em. auto.
  - rewrite D1, D2, L, Ev. auto.
  - destruct xs as [|x xs]; destruct ys as [|y ys]; try discriminate.
    + destruct R1, R2, Hf as [<-|[<-|[]]]; congruence.
    + destruct R1 as (a & b & Ea & [Ia Ha] & Eb & [Ib Hb]). destruct R2 as (c & d & Ec & [Ic Hc] & Ed & [Id Hd]).
      assert (Hp : forall z, In z (x :: xs) <-> In z (y :: ys)).
      { intros z. split; apply Permutation_in; auto. symmetry. auto. }
      destruct Hf as [<-|[<-|[]]]; [rewrite Ea, Ec|rewrite Eb, Ed]; f_equal; apply Rle_antisym; auto;
        try (apply Ha, Hp; auto); try (apply Hc, Hp; auto); try (apply Hb, Hp; auto); try (apply Hd, Hp; auto).
Qed.
Print Assumptions C62_order_free.
Example C62_order_free_ex : Permutation [3; 1; 2] [1; 2; 3] /\
  samples ([@Sample exact (Some 1); @Sample exact (Some 2); @Sample exact (Some 3)] : list (sm_op exact)) = map Some [1; 2; 3].
Proof. split; [|reflexivity]. apply (Permutation_cons_append [1; 2] 3). Qed.

(** ** Doubles *)

(** The count is exact up to 2^53 samples, whatever they are, and stays there. *)
Theorem C62_ieee_count : forall l : list (sm_op ieee),
  holds_int (get_count ieee (sm_run ieee l)) (Z.min (Z.of_nat (length (samples l))) (2 ^ 53)).
Proof. intros l. rewrite run_fed. apply ieee_count. Qed.
Print Assumptions C62_ieee_count.
Example C62_ieee_count_ex :
  B2SF (get_count ieee (sm_run ieee [@Sample ieee (of_int 5); ResetAll; @Sample ieee B754_nan; @Sample ieee (of_int 7); @Sample ieee (B754_infinity true)]))
  = B2SF (of_int 3).
Proof. vm_compute. reflexivity. Qed.
Lemma samples_repeat (x : double) n : length (samples (repeat (@Sample ieee x) n)) = n.
Proof.
  induction n as [|n IH]; [reflexivity|].
  replace (S n) with (n + 1)%nat by lia. rewrite repeat_app. cbn [repeat].
  rewrite samples_app, app_length, IH. reflexivity.
Qed.
Lemma too_many n : (2 ^ 53 < Z.of_nat n)%Z ->
  ~ holds_int (get_count ieee (sm_run ieee (repeat (@Sample ieee (of_int 0)) n)))
              (Z.of_nat (length (samples (repeat (@Sample ieee (of_int 0)) n)))).
Proof.
  intros H [_ E]. destruct (C62_ieee_count (repeat (@Sample ieee (of_int 0)) n)) as [_ G].
  rewrite E in G. apply eq_IZR in G. rewrite samples_repeat in G. lia.
Qed.
Theorem C62_ieee_count_refuted : exists l : list (sm_op ieee),
  ~ holds_int (get_count ieee (sm_run ieee l)) (Z.of_nat (length (samples l))).
Proof.
  assert (H : exists n, (2 ^ 53 < Z.of_nat n)%Z) by (exists (Z.to_nat (2 ^ 53 + 1)); rewrite Z2Nat.id; lia).
  destruct H as [n H]. exists (repeat (@Sample ieee (of_int 0)) n). apply too_many, H.
Qed.
Print Assumptions C62_ieee_count_refuted.

(** Minimum and maximum are exact: unless the first sample is NaN, they are samples, and
    no sample other than NaN is smaller or larger. *)
Theorem C62_ieee_min_max : forall (l : list (sm_op ieee)) x xs, samples l = x :: xs -> ordered x ->
  let a := get_min ieee (sm_run ieee l) in let b := get_max ieee (sm_run ieee l) in
  In a (x :: xs) /\ In b (x :: xs) /\ forall y, In y (x :: xs) -> ordered y -> leq a y /\ leq y b.
Proof.
  intros l x xs H Hx. cbv zeta. rewrite run_fed, H.
  destruct (ieee_min_max x xs Hx) as (a & b & <- & <- & Ia & Ib & _ & _ & A). auto.
Qed.
Print Assumptions C62_ieee_min_max.
Example C62_ieee_min_max_ex :
  let s := sm_run ieee [@Sample ieee (of_int 5); @Sample ieee B754_nan; @Sample ieee (of_int (-7)); @Sample ieee (B754_infinity false); @Sample ieee (of_int 0)] in
  (B2SF (get_min ieee s), B2SF (get_max ieee s)) = (B2SF (of_int (-7)), SpecFloat.S754_infinity false).
Proof. vm_compute. reflexivity. Qed.
(** If it is NaN, no later sample makes a difference. *)
Theorem C62_ieee_nan_first : forall (l : list (sm_op ieee)) x xs, samples l = x :: xs -> is_nan x = true ->
  is_nan (get_min ieee (sm_run ieee l)) = true /\ is_nan (get_max ieee (sm_run ieee l)) = true.
Proof. intros l x xs H Hx. rewrite run_fed, H. apply ieee_nan; auto. Qed.
Print Assumptions C62_ieee_nan_first.
Example C62_ieee_nan_first_ex :
  is_nan (get_min ieee (sm_run ieee [@Sample ieee B754_nan; @Sample ieee (of_int 5)])) = true.
Proof. vm_compute. reflexivity. Qed.

(** Samples that are integers whose absolute values sum up to at most 2^53 have an exact
    sum; their mean is the exact mean, correctly rounded. *)
Theorem C62_ieee_integers : forall (l : list (sm_op ieee)) (zs : list Z),
  Forall2 holds_int (samples l) zs -> (fold_right (fun z s => Z.abs z + s) 0 zs <= 2 ^ 53)%Z ->
  let sum := fold_right Z.add 0%Z zs in
  holds_int (get_sum ieee (sm_run ieee l)) sum /\
  (0 < Z.of_nat (length zs) <= 2 ^ 53 ->
   is_finite (get_mean ieee (sm_run ieee l)) = true /\
   B2R (get_mean ieee (sm_run ieee l)) =
     round radix2 (FLT_exp (3 - 1024 - 53) 53) ZnearestE (IZR sum / IZR (Z.of_nat (length zs))))%Z.
Proof.
  intros l zs H B. cbv zeta. rewrite run_fed. pose proof (ieee_sum (samples l) zs H B) as S. split; [exact S|].
  intros Hn. apply (ieee_mean (samples l) (zsum zs) (length zs)); auto; try lia.
  - clear - H. induction H; cbn; auto.
  - pose proof (zsum_abs zs). unfold sum_abs in *. lia.
Qed.
Print Assumptions C62_ieee_integers.
Example C62_ieee_integers_ex :
  Forall2 holds_int (samples [@Sample ieee (of_int 5); @Sample ieee (of_int (-7)); @Sample ieee (of_int 1)]) [5; -7; 1]%Z /\
  B2SF (get_sum ieee (sm_run ieee [@Sample ieee (of_int 5); @Sample ieee (of_int (-7)); @Sample ieee (of_int 1)])) = B2SF (of_int (-1)).
Proof. split; [|vm_compute; reflexivity]. cbn [samples fold_left app]. repeat (apply Forall2_cons; [apply of_int_ok; lia|]). apply Forall2_nil. Qed.

(** With doubles in general the formulas are not good enough.  0.1: *)
Definition tenth : double := binary_normalize 53 1024 prec_pos emax_big mode_NE 3602879701896397 (-55) false.
(** the standard deviation of three equal samples is not zero, but NaN; *)
Theorem C62_ieee_stddev_refuted : exists x : double, is_finite x = true /\
  is_nan (get_stddev ieee (sm_run ieee [@Sample ieee x; @Sample ieee x; @Sample ieee x])) = true.
Proof. exists tenth. vm_compute. auto. Qed.
Print Assumptions C62_ieee_stddev_refuted.
(** their mean is larger than their maximum. *)
Theorem C62_ieee_mean_refuted : exists x : double, is_finite x = true /\
  Bltb (get_max ieee (sm_run ieee [@Sample ieee x; @Sample ieee x; @Sample ieee x]))
       (get_mean ieee (sm_run ieee [@Sample ieee x; @Sample ieee x; @Sample ieee x])) = true.
Proof. exists tenth. vm_compute. auto. Qed.
Print Assumptions C62_ieee_mean_refuted.
