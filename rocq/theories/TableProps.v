(** Distributions given by tables (C88). *)
From Coq Require Import QArith Sorting.Sorted Lqa Lia.
From Verif Require Import Base Table TableSpec TableProofs.
Open Scope Q_scope.

(** ** Which tables are accepted *)

(** Weights are accepted exactly if none is negative and they can be counted in
    32 bits; they are kept in order. *)
Theorem C88_discrete_accepts : forall ws p, d_build ws [] = Done p <->
  weights_ok ws /\ (N.of_nat (length ws) < 2 ^ 32)%N /\ p = ws.
Proof.
  intros ws p. rewrite d_build_iff by (cbn; unfold max_size; lia).
  cbn [length app Nat.add]. unfold max_size. change (2 ^ 32)%N with 4294967296%N.
  split; intros (H1 & H2 & H3); repeat split; auto; lia.
Qed.
Print Assumptions C88_discrete_accepts.

(** Intervals: the bounds must increase as well. *)
Theorem C88_constant_accepts : forall b0 l p, c_build b0 l = Done p <->
  weights_ok (map snd l) /\ (N.of_nat (1 + length l) < 2 ^ 32)%N /\
  increasing (b0 :: map fst l) /\ p = mk_param (b0 :: map fst l) (map snd l).
Proof.
  intros b0 l p. rewrite c_build_iff. unfold max_size. change (2 ^ 32)%N with 4294967296%N.
  split; intros (H1 & H2 & H3); repeat split; try tauto; lia.
Qed.
Print Assumptions C88_constant_accepts.

Theorem C88_linear_accepts : forall l p, l_build l no_param = Done p <->
  weights_ok (map snd l) /\ (N.of_nat (length l) < 2 ^ 32)%N /\
  increasing (map fst l) /\ p = mk_param (map fst l) (map snd l).
Proof.
  intros l p. rewrite l_build_iff. unfold max_size. change (2 ^ 32)%N with 4294967296%N.
  split; intros (H1 & H2 & H3); repeat split; try tauto; lia.
Qed.
Print Assumptions C88_linear_accepts.

Example C88_accepts_ex :
  d_build [1; 0; 3] [] = Done [1; 0; 3] /\ d_build [1; -1] [] = AssertFail /\
  c_build 0 [(1, 2); (3, 1)] = Done (mk_param [0; 1; 3] [2; 1]) /\
  c_build 0 [(1, 2); (1, 1)] = AssertFail /\
  l_build [(0, 1); (2, 0)] no_param = Done (mk_param [0; 2] [1; 0]).
Proof. repeat split; vm_compute; reflexivity. Qed.

(** ** The distributions made of them *)

(** Discrete: one value per weight; the probability of each is its share of the
    total, and the probabilities add up to 1. *)
Theorem C88_discrete : forall ws p, d_build ws [] = Done p -> 0 < qsum ws ->
  exists qs, d_make p = Done (map Some qs) /\
    d_num (map Some qs) = length ws /\ d_min (map Some qs) = O /\
    d_max (map Some qs) = (length ws - 1)%nat /\
    (forall i w, nth_error ws i = Some w ->
       exists q, get (map Some qs) i = Done (Some q) /\ q * qsum ws == w /\ 0 <= q <= 1) /\
    (forall i, (length ws <= i)%nat -> get (map Some qs) i = AssertFail) /\
    qsum qs == 1.
Proof.
  intros ws p Hb Ht. apply C88_discrete_accepts in Hb. destruct Hb as (Hw & _ & ->).
  assert (Hn : ws <> []) by (intros ->; cbn in Ht; lra).
  exists (map (fun w => w / qsum ws) ws).
  split; [rewrite map_map; apply d_make_spec; assumption|].
  unfold d_num, d_min, d_max. rewrite !map_length. repeat (split; [reflexivity|]). split; [|split].
  - intros i w Hi. exists (w / qsum ws). split.
    + unfold get. rewrite !nth_error_map, Hi. reflexivity.
    + split; [field; lra|].
      pose proof (qsum_ge ws w Hw (nth_error_In _ _ Hi)).
      assert (0 <= w) by (apply (proj1 (Forall_forall _ _) Hw), (nth_error_In _ _ Hi)).
      split.
      * apply Qle_shift_div_l; [exact Ht|]. lra.
      * apply Qle_shift_div_r; [exact Ht|]. lra.
  - intros i Hi. unfold get. rewrite (proj2 (nth_error_None _ _)); [reflexivity|].
    rewrite !map_length. exact Hi.
  - rewrite qsum_div by lra. field. lra.
Qed.
Print Assumptions C88_discrete.

Example C88_discrete_ex : d_build [1; 0; 3] [] = Done [1; 0; 3] /\ 0 < qsum [1; 0; 3] /\
  exists a b c, d_make [1; 0; 3] = Done [Some a; Some b; Some c] /\
    a == 1 # 4 /\ b == 0 /\ c == 3 # 4.
Proof.
  split; [vm_compute; reflexivity|]. split; [reflexivity|].
  eexists _, _, _. split; [vm_compute; reflexivity|]. repeat split.
Qed.

(** Piecewise constant: the bounds are those given; the density on each interval
    times its width is the share of its weight; the density integrates to 1. *)
Theorem C88_constant : forall b0 l p, c_build b0 l = Done p -> 0 < qsum (map snd l) ->
  exists ds, c_make p = Done (mk_dist (b0 :: map fst l) (map Some ds)) /\
    (let d := mk_dist (b0 :: map fst l) (map Some ds) in
     c_intervals d = length l /\ t_min d = b0 /\ t_max d = last (map fst l) b0) /\
    (forall i a b w, nth_error (b0 :: map fst l) i = Some a ->
       nth_error l i = Some (b, w) ->
       exists q, get (map Some ds) i = Done (Some q) /\ q * (b - a) * qsum (map snd l) == w) /\
    mass_constant (b0 :: map fst l) ds == 1.
Proof.
  intros b0 l p Hb Ht. apply C88_constant_accepts in Hb. destruct Hb as (Hw & _ & Hi & ->).
  assert (Hn : l <> []) by (intros ->; cbn in Ht; lra).
  eexists. split; [apply c_make_spec; assumption|]. set (t := qsum (map snd l)) in *.
  assert (Hlen : length (combine (map snd l) (widths (b0 :: map fst l))) = length l).
  { unfold widths. rewrite combine_length, !map_length, combine_length. cbn [length tl].
    rewrite !map_length. lia. }
  split; [|split].
  - cbv zeta. unfold c_intervals, t_min, t_max. cbn [t_densities t_bounds hd].
    rewrite !map_length, Hlen. split; auto. split; auto. apply last_cons_default.
  - intros i a b w Ha Hl.
    assert (E : nth_error (combine (map snd l) (widths (b0 :: map fst l))) i = Some (w, b - a)
                /\ a < b).
    { clear Ht t Hlen Hn Hw. revert b0 i Hi Ha Hl.
      induction l as [|[b1 w1] l IH]; intros b0 [|i] Hi Ha Hl; try discriminate.
      - cbn in Ha, Hl. injection Ha as ->. injection Hl as -> ->. split; [reflexivity|].
        apply StronglySorted_inv in Hi. destruct Hi as [_ Hi]. inversion Hi; assumption.
      - cbn [nth_error map fst snd] in *. rewrite widths_cons. cbn [combine nth_error].
        apply (IH b1); auto. apply StronglySorted_inv in Hi. tauto. }
    destruct E as [E Hlt]. eexists. split.
    + unfold get. rewrite !nth_error_map, E. reflexivity.
    + cbn [fst snd]. field. split; lra.
  - rewrite mass_constant_spec; [|lra|exact Hi]. fold t. field. lra.
Qed.
Print Assumptions C88_constant.

Example C88_constant_ex :
  c_build 0 [(1, 2); (3, 1)] = Done (mk_param [0; 1; 3] [2; 1]) /\
  0 < qsum (map snd [(1, 2); (3, 1)]) /\
  exists a b, c_make (mk_param [0; 1; 3] [2; 1]) = Done (mk_dist [0; 1; 3] [Some a; Some b]) /\
    a == 2 # 3 /\ b == 1 # 6.
Proof.
  split; [vm_compute; reflexivity|]. split; [reflexivity|].
  eexists _, _. split; [vm_compute; reflexivity|]. repeat split.
Qed.

(** Piecewise linear: the densities at the bounds are proportional to the weights,
    and the density integrates to 1. *)
Theorem C88_linear : forall l p, l_build l no_param = Done p ->
  (2 <= length l)%nat -> 0 < qsum (map snd l) ->
  exists ds, l_make p = Done (mk_dist (map fst l) (map Some ds)) /\
    l_intervals (mk_dist (map fst l) (map Some ds)) = (length l - 1)%nat /\
    (exists k, 0 < k /\ forall i b w, nth_error l i = Some (b, w) ->
       exists q, get (map Some ds) i = Done (Some q) /\ q == k * w) /\
    mass_linear (map fst l) ds == 1.
Proof.
  intros l p Hb Hl Ht. apply C88_linear_accepts in Hb. destruct Hb as (Hw & _ & Hi & ->).
  pose proof (areas_positive l Hl Hi Hw Ht) as Hp.
  eexists. split; [apply l_make_spec; assumption|].
  set (t := qsum (areas (map fst l) (map snd l))) in *. split; [|split].
  - unfold l_intervals. cbn [t_bounds]. rewrite map_length. reflexivity.
  - exists (/ t). split; [apply Qinv_lt_0_compat, Hp|]. intros i b w E.
    exists (w / t). split.
    + unfold get. rewrite !nth_error_map, E. reflexivity.
    + field. lra.
  - rewrite mass_linear_spec by lra. fold t. field. lra.
Qed.
Print Assumptions C88_linear.

Example C88_linear_ex :
  l_build [(0, 1); (2, 0)] no_param = Done (mk_param [0; 2] [1; 0]) /\
  0 < qsum (map snd [(0, 1); (2, 0)]) /\
  exists a b, l_make (mk_param [0; 2] [1; 0]) = Done (mk_dist [0; 2] [Some a; Some b]) /\
    a == 1 /\ b == 0.
Proof.
  split; [vm_compute; reflexivity|]. split; [reflexivity|].
  eexists _, _. split; [vm_compute; reflexivity|]. repeat split.
Qed.

(** ** Tables that are accepted and do not make such a distribution *)

(** No weights: the distribution has one value. *)
Theorem C88_discrete_empty_refuted : exists ws p d,
  d_build ws [] = Done p /\ d_make p = Done d /\ d_num d <> length ws.
Proof. exists [], [], [Some 1]. repeat split. discriminate. Qed.
Print Assumptions C88_discrete_empty_refuted.

(** Weights of 0 only, any number of them: no probability is a number. *)
Theorem C88_discrete_zero_refuted : forall n, (0 < n)%nat -> (N.of_nat n < 2 ^ 32)%N ->
  exists ws p d, length ws = n /\ d_build ws [] = Done p /\ d_make p = Done d /\
    forall i, (i < n)%nat -> get d i = Done None.
Proof.
  intros n H0 Hn. exists (repeat 0 n), (repeat 0 n), (boost_discrete (repeat 0 n)).
  split; [apply repeat_length|]. split; [|split].
  - apply C88_discrete_accepts. split; [|rewrite repeat_length; auto].
    apply Forall_forall. intros x Hx. apply repeat_spec in Hx. subst. lra.
  - unfold d_make. rewrite read_range_all. reflexivity.
  - intros i Hi. unfold get, boost_discrete. destruct n as [|n]; [lia|].
    set (ws := repeat 0 (S n)). change (repeat 0 (S n)) with (0 :: repeat 0 n) in ws.
    assert (Hz : total ws == 0).
    { subst ws. clear. induction n as [|n IH]; [reflexivity|].
      change (0 + total (0 :: repeat 0 n) == 0). rewrite IH. reflexivity. }
    change (match nth_error (map (fun w => divide w (total ws)) ws) i with
            | Some x => Done x | None => AssertFail end = Done None).
    rewrite nth_error_map. destruct (nth_error ws i) as [w|] eqn:E.
    + cbn [option_map]. unfold divide. rewrite (Qeq_eq_bool _ _ Hz). reflexivity.
    + apply nth_error_None in E. change ws with (repeat 0 (S n)) in E.
      rewrite repeat_length in E. lia.
Qed.
Print Assumptions C88_discrete_zero_refuted.

(** Piecewise constant without a lower bound: an assertion fails in the
    constructor of the distribution. *)
Theorem C88_constant_no_bound_refuted : c_make no_param = AssertFail.
Proof. reflexivity. Qed.
Print Assumptions C88_constant_no_bound_refuted.

(** A single bound is ignored, whatever it is: the range is from 0 to 1. *)
Theorem C88_single_bound_refuted : forall b w, 0 <= w ->
  (exists p d, c_build b [] = Done p /\ c_make p = Done d /\ t_min d = 0 /\ t_max d = 1) /\
  (exists p d, l_build [(b, w)] no_param = Done p /\ l_make p = Done d /\
     t_min d = 0 /\ t_max d = 1).
Proof.
  intros b w Hw. split.
  - eexists _, _. split; [reflexivity|]. split; [reflexivity|]. split; reflexivity.
  - exists (mk_param [b] [w]). eexists. split.
    + apply C88_linear_accepts. cbn [map fst snd length]. split; [repeat constructor; exact Hw|].
      split; [lia|]. split; [repeat constructor|reflexivity].
    + split; [reflexivity|]. split; reflexivity.
Qed.
Print Assumptions C88_single_bound_refuted.

Example C88_single_bound_refuted_ex : exists p d,
  l_build [(5, 2)] no_param = Done p /\ l_make p = Done d /\ t_max d < 5.
Proof.
  eexists _, _. split; [vm_compute; reflexivity|]. split; [vm_compute; reflexivity|]. reflexivity.
Qed.
