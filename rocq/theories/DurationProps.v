(** Properties C26-C31: durations and virtual time points. *)
From Verif Require Import Base Duration DurationSpec DurationProofs.
Open Scope Z_scope.

Ltac res_tac := match goal with |- resolution ?d =>
  first [exists 0; split; [lia|reflexivity] | exists 3; split; [lia|reflexivity]
        | exists 9; split; [lia|reflexivity]] end.

(** ** C26 *)

(** Towards a finer (or the same) resolution: the result is the count that
    represents exactly the same time when there is one, and otherwise the
    assertion stops the program. *)
Theorem C26_finer_is_exact : forall ds dd c, resolution ds -> resolution dd ->
  ds <= dd -> is_count c ->
  (forall r, convert ds dd c = Done r <-> is_count r /\ time_eq ds c dd r) /\
  ((exists r, convert ds dd c = Done r) \/ convert ds dd c = AssertFail).
Proof. exact convert_finer_spec. Qed.
Print Assumptions C26_finer_is_exact.

(** Towards a coarser resolution: always defined, truncated toward zero, error
    below one period, sign kept. *)
Theorem C26_coarser_truncates : forall ds dd c, resolution ds -> resolution dd ->
  dd <= ds -> is_count c ->
  exists r, convert ds dd c = Done r /\ is_count r /\
    (0 <= c -> 0 <= r /\ time_le dd r ds c) /\
    (c <= 0 -> r <= 0 /\ time_le ds c dd r) /\
    time_lt ds c dd (r + 1) /\ time_lt dd (r - 1) ds c.
Proof. exact convert_coarser_spec. Qed.
Print Assumptions C26_coarser_truncates.

Theorem C26_round_trip : forall ds dd c r, resolution ds -> resolution dd ->
  ds <= dd -> is_count c -> convert ds dd c = Done r -> convert dd ds r = Done c.
Proof. exact convert_round_trip. Qed.
Print Assumptions C26_round_trip.

Example C26_ex : resolution 1000 /\ resolution (10 ^ 9) /\ is_count (-1999999) /\
  convert 1000 (10 ^ 9) (-1999) = Done (-1999000000) /\
  convert (10 ^ 9) 1000 (-1999999) = Done (-1) /\
  convert 1 (10 ^ 9) (2 ^ 40) = AssertFail.
Proof.
  split; [res_tac|]. split; [res_tac|]. split; [unfold is_count; lia|]. vm_compute. auto.
Qed.

(** ** C27 *)

Theorem C27_equality : forall d1 d2 l r, resolution d1 -> resolution d2 ->
  is_count l -> is_count r ->
  (op_eq d1 d2 l r = true <-> time_eq d1 l d2 r) /\
  (op_ne d1 d2 l r = true <-> ~ time_eq d1 l d2 r).
Proof.
  intros d1 d2 l r H1 H2 Hl Hr. pose proof (equal_spec d1 d2 H1 H2 l r Hl Hr) as E.
  split; [exact E|]. unfold op_ne. rewrite <- E. destruct (equal d1 d2 l r); cbn; intuition congruence.
Qed.
Print Assumptions C27_equality.

Example C27_ex : op_eq 1 1000 (-3) (-3000) = true /\ op_eq 1 (10 ^ 9) (2 ^ 62) 0 = false.
Proof. vm_compute. auto. Qed.

(** ** C28 *)

(** The order is the order of the represented times as long as the count of the
    coarser operand can be converted to the finer resolution. *)
Theorem C28_order_partial : forall d1 d2 l r, resolution d1 -> resolution d2 ->
  is_count l -> is_count r -> comparable d1 d2 l r ->
  (op_lt d1 d2 l r = true <-> time_lt d1 l d2 r) /\
  (op_le d1 d2 l r = true <-> time_le d1 l d2 r) /\
  (op_gt d1 d2 l r = true <-> time_lt d2 r d1 l) /\
  (op_ge d1 d2 l r = true <-> time_le d2 r d1 l).
Proof.
  intros d1 d2 l r H1 H2 Hl Hr Hc.
  pose proof (less_spec d1 d2 l r H1 H2 Hl Hr Hc) as L.
  pose proof (less_equal_spec d1 d2 l r H1 H2 Hl Hr Hc) as LE.
  unfold op_lt, op_le, op_gt, op_ge. split; [exact L|]. split; [exact LE|].
  unfold time_lt, time_le in *.
  destruct (less d1 d2 l r), (less_equal d1 d2 l r); cbn; intuition (try congruence; lia).
Qed.
Print Assumptions C28_order_partial.

Example C28_ex : comparable 1 (10 ^ 9) 3 2999999999 /\ op_lt 1 (10 ^ 9) 3 2999999999 = false /\
  op_gt 1 (10 ^ 9) 3 2999999999 = true.
Proof. split; [vm_compute; split; congruence|]. vm_compute. auto. Qed.

(** Missing above: operands that do not fit.  There every answer is wrong. *)
Theorem C28_order_overflow_refuted : forall d1 d2 l r, resolution d1 -> resolution d2 ->
  is_count l -> is_count r -> ~ comparable d1 d2 l r ->
  (op_lt d1 d2 l r = true <-> ~ time_lt d1 l d2 r) /\
  (op_le d1 d2 l r = true <-> ~ time_le d1 l d2 r).
Proof. exact less_wrong. Qed.
Print Assumptions C28_order_overflow_refuted.

(** Zero nanoseconds are not reported to be less than 292 billion years. *)
Example C28_overflow_ex :
  ~ comparable (10 ^ 9) 1 0 int64_max /\
  op_lt (10 ^ 9) 1 0 int64_max = false /\ time_lt (10 ^ 9) 0 1 int64_max /\
  op_gt (10 ^ 9) 1 0 int64_max = true.
Proof. split; [vm_compute; intuition congruence|]. vm_compute. auto. Qed.

(** ** C29 *)

(** Sum and difference represent the exact rational result. *)
Theorem C29_add_sub_exact : forall d1 d2 l r c, resolution d1 -> resolution d2 ->
  is_count l -> is_count r ->
  (add d1 d2 l r = Done c -> c * (d1 * d2) = (l * d2 + r * d1) * common d1 d2) /\
  (sub d1 d2 l r = Done c -> c * (d1 * d2) = (l * d2 - r * d1) * common d1 d2).
Proof.
  intros d1 d2 l r c H1 H2 Hl Hr.
  exact (conj (add_spec d1 d2 l r c H1 H2 Hl Hr) (sub_spec d1 d2 l r c H1 H2 Hl Hr)).
Qed.
Print Assumptions C29_add_sub_exact.

(** They are defined whenever the operands and the result fit 64 bits at the
    finer resolution. *)
Theorem C29_add_sub_defined : forall d1 d2 l r, resolution d1 -> resolution d2 ->
  is_count l -> is_count r ->
  let D := Z.max d1 d2 in
  is_count (ticks d1 l D) -> is_count (ticks d2 r D) ->
  (is_count (ticks d1 l D + ticks d2 r D) ->
     add d1 d2 l r = Done (ticks d1 l D + ticks d2 r D)) /\
  (is_count (ticks d1 l D - ticks d2 r D) ->
     sub d1 d2 l r = Done (ticks d1 l D - ticks d2 r D)).
Proof.
  intros d1 d2 l r H1 H2 Hl Hr D.
  replace D with (common d1 d2) by (unfold common, D; destruct (Z.leb_spec d2 d1); lia).
  exact (add_total d1 d2 l r H1 H2 Hl Hr).
Qed.
Print Assumptions C29_add_sub_defined.

(** [a == (a / b) * b + a % b], the remainder is smaller than [b] and has the
    sign of [a]. *)
Theorem C29_quotient_remainder : forall d1 d2 l r q m, resolution d1 -> resolution d2 ->
  is_count l -> is_count r ->
  div_dur d1 d2 l r = Done q -> rem_dur d1 d2 l r = Done m ->
  let D := common d1 d2 in
  l * d2 * D = q * r * d1 * D + m * d1 * d2 /\
  Z.abs m * d2 < Z.abs r * D /\ 0 <= m * l.
Proof. exact divrem_spec. Qed.
Print Assumptions C29_quotient_remainder.

Theorem C29_scale_negate : forall c n, is_count c -> is_count n ->
  (is_count (c * n) -> scale c n = Done (c * n)) /\
  (c <> - 2 ^ 63 -> neg c = Done (- c)) /\
  (n <> 0 -> (c, n) <> (- 2 ^ 63, -1) -> div_count c n = Done (Z.quot c n)).
Proof. exact scale_negate. Qed.
Print Assumptions C29_scale_negate.

(** Compound assignment keeps the resolution of the left operand: exact if the right one
    is not finer, otherwise off by less than one period of the left operand, rounded towards its old value. *)
Theorem C29_compound_assignment : forall d1 d2 l r c, resolution d1 -> resolution d2 ->
  is_count l -> is_count r ->
  (add_assign d1 d2 l r = Done c ->
     Z.abs (c * d2 - (l * d2 + r * d1)) < d2 /\ (d2 <= d1 -> c * d2 = l * d2 + r * d1) /\
     Z.abs (c - l) * d2 <= Z.abs r * d1) /\
  (sub_assign d1 d2 l r = Done c ->
     Z.abs (c * d2 - (l * d2 - r * d1)) < d2 /\ (d2 <= d1 -> c * d2 = l * d2 - r * d1) /\
     Z.abs (c - l) * d2 <= Z.abs r * d1).
Proof. exact compound_spec. Qed.
Print Assumptions C29_compound_assignment.
(** It is defined whenever the converted operand and the result fit 64 bits. *)
Theorem C29_compound_defined : forall d1 d2 l r, resolution d1 -> resolution d2 ->
  is_count l -> is_count r -> is_count (Z.quot (r * d1) d2) ->
  (is_count (l + Z.quot (r * d1) d2) -> add_assign d1 d2 l r = Done (l + Z.quot (r * d1) d2)) /\
  (is_count (l - Z.quot (r * d1) d2) -> sub_assign d1 d2 l r = Done (l - Z.quot (r * d1) d2)).
Proof. exact compound_total. Qed.
Print Assumptions C29_compound_defined.
Example C29_compound_ex : add_assign 1 1000 7 2999 = Done 9 /\ sub_assign 1 1000 7 (-2999) = Done 9 /\
  sub_assign 1000 1 250 3 = Done (-2750) /\ add_assign 1000 1 (2 ^ 63 - 1) 1 = UB.
Proof. vm_compute. auto. Qed.

Example C29_ex : add 1000 (10 ^ 9) (-5) 2500000 = Done (-2500000) /\
  sub 1 1000 7 250 = Done 6750 /\
  div_dur 1 1000 (-7) 250 = Done (-28) /\ rem_dur 1 1000 (-7) 300 = Done (-100) /\
  neg (- 2 ^ 63) = UB.
Proof. vm_compute. auto 10. Qed.

(** ** C30 *)

(** The components weigh exactly the duration: their sum in yoctoseconds is
    [|c| / den] seconds; every component is in its range and no rest is left. *)
Theorem C30_split_reconstructs : forall den c, resolution den -> is_count c ->
  c <> - 2 ^ 63 ->
  exists xs, split den c = Done (c <? 0, xs, 0) /\
    weighted unit_yocto xs * den = Z.abs c * 10 ^ 24 /\
    Forall (fun x => 0 <= x) xs /\ Forall2 Z.lt (tl xs) unit_limit.
Proof. exact split_spec. Qed.
Print Assumptions C30_split_reconstructs.

(** The excluded count is undefined behaviour at every resolution. *)
Theorem C30_split_min_refuted : forall den, split den (- 2 ^ 63) = UB.
Proof. exact split_min. Qed.
Print Assumptions C30_split_min_refuted.

Example C30_ex : split (10 ^ 10) (-938521234567895) =
  Done (true, [1; 2; 4; 12; 123; 456; 789; 500; 0; 0; 0; 0], 0).
Proof. vm_compute. reflexivity. Qed.

(** ** C74 *)

(** [Minutes], [Hours] and [Days] give the number of seconds, unless it does not fit. *)
Theorem C74_makers : forall n, is_count n ->
  (is_count (60 * n) -> minutes n = Done (60 * n)) /\
  (is_count (60 * (60 * n)) -> hours n = Done (60 * (60 * n))) /\
  (is_count (24 * (60 * (60 * n))) -> days n = Done (24 * (60 * (60 * n)))) /\
  (forall m, minutes n = Done m -> m = 60 * n) /\
  (forall h, hours n = Done h -> minutes (60 * n) = Done h) /\
  (forall d, days n = Done d -> hours (24 * n) = Done d).
Proof.
  intros n _. unfold minutes, hours, days.
  replace (60 * n * 60) with (n * 3600) by ring. replace (24 * n * 3600) with (n * 86400) by ring.
  replace (60 * (60 * n)) with (n * 3600) by ring. replace (24 * (n * 3600)) with (n * 86400) by ring.
  replace (60 * n) with (n * 60) by ring.
  repeat split; auto; try (intros H; apply checked_ok, H).
  intros m H. unfold checked in H. destruct (in_int64 (n * 60)); [|discriminate]. inversion H. reflexivity.
Qed.
Print Assumptions C74_makers.
Example C74_ex : minutes 3 = Done 180 /\ hours (-2) = Done (-7200) /\ days 2 = Done 172800 /\ days (2 ^ 62) = UB.
Proof. vm_compute. auto. Qed.

(** ** C31 *)

Theorem C31_add_then_difference : forall t d u, is_count t -> is_count d ->
  vt_add t d = Done u -> vt_sub u t = Done d.
Proof. exact vt_sub_add. Qed.
Print Assumptions C31_add_then_difference.

Theorem C31_difference_then_add : forall t u d, is_count t -> is_count u ->
  vt_sub u t = Done d -> vt_add t d = Done u.
Proof. exact vt_add_sub. Qed.
Print Assumptions C31_difference_then_add.

Theorem C31_associative : forall t a b s r, is_count t -> is_count a -> is_count b ->
  add vt_den vt_den a b = Done s -> vt_add t s = Done r ->
  forall t1, vt_add t a = Done t1 -> vt_add t1 b = Done r.
Proof. exact vt_assoc. Qed.
Print Assumptions C31_associative.

Theorem C31_translation_invariant : forall t u d t' u',
  is_count t -> is_count u -> is_count d ->
  vt_add t d = Done t' -> vt_add u d = Done u' ->
  vt_lt t' u' = vt_lt t u /\ vt_le t' u' = vt_le t u /\ vt_eq t' u' = vt_eq t u.
Proof. exact vt_translate. Qed.
Print Assumptions C31_translation_invariant.

Theorem C31_order_is_order_of_counts : forall t u, is_count t -> is_count u ->
  (vt_lt t u = true <-> t < u) /\ (vt_le t u = true <-> t <= u) /\ (vt_eq t u = true <-> t = u).
Proof. exact vt_order. Qed.
Print Assumptions C31_order_is_order_of_counts.

Example C31_ex : vt_add 5 37 = Done 42 /\ vt_sub 42 5 = Done 37 /\ vt_lt 5 42 = true /\
  vt_add int64_max 1 = UB.
Proof. vm_compute. auto. Qed.
