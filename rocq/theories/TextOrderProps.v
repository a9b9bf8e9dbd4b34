(** Property C97: how the texts of durations are sorted. *)
From Coq Require Import ZifyBool ZifyNat ZifyN.
From Verif Require Import Base BaseProofs Duration DurationSpec DurationProofs Text TextSpec TextProofs TextOrderSpec TextOrderProofs.
From Coq Require Import List.
Import ListNotations.
From Verif Require Import Duration.
Open Scope Z_scope.

(** C97.  Durations of the same day, as the times of a log file of one day are, are sorted by
    their texts as by their lengths, also if they have different resolutions. *)
Theorem C97_sorted : forall d1 c1 d2 c2 t1 t2, resolution d1 -> resolution d2 -> is_count c1 -> is_count c2 ->
  0 <= c1 -> 0 <= c2 -> c1 / (86400 * d1) = c2 / (86400 * d2) ->
  to_string d1 c1 = Done t1 -> to_string d2 c2 = Done t2 ->
  time_lt d1 c1 d2 c2 -> sorts_before t1 t2.
Proof.
  intros d1 c1 d2 c2 t1 t2 R1 R2 I1 I2 N1 N2 D E1 E2 Lt.
  destruct (to_string_parts d1 c1 t1 R1 I1 N1 E1) as (y1 & h1 & m1 & s1 & ys1 & -> & Y1 & H1 & M1 & S1 & P1 & B1 & U1 & W1).
  destruct (to_string_parts d2 c2 t2 R2 I2 N2 E2) as (y2 & h2 & m2 & s2 & ys2 & -> & Y2 & H2 & M2 & S2 & P2 & B2 & U2 & W2).
  assert (Y : y2 = y1) by congruence. clear Y1 Y2 D. subst y2. apply before_app. apply clock_before; auto.
  assert (Q1 : 0 < d1) by (destruct R1 as (k & Hk & ->); apply Z.pow_pos_nonneg; lia).
  assert (Q2 : 0 < d2) by (destruct R2 as (k & Hk & ->); apply Z.pow_pos_nonneg; lia).
  unfold time_lt in Lt. set (K := 10 ^ 24) in *. assert (HK : 0 < K) by reflexivity.
  set (q1 := weighted (powers 8) ys1) in *. set (q2 := weighted (powers 8) ys2) in *. clearbody K q1 q2.
  assert (L : (((y1 * 24 + h1) * 60 + m1) * 60 + s1) * K + q1 < (((y1 * 24 + h2) * 60 + m2) * 60 + s2) * K + q2).
  { set (A1 := (((y1 * 24 + h1) * 60 + m1) * 60 + s1) * K + q1) in *. set (A2 := (((y1 * 24 + h2) * 60 + m2) * 60 + s2) * K + q2) in *.
    assert (A1 * (d1 * d2) < A2 * (d1 * d2)).
    { replace (A1 * (d1 * d2)) with (A1 * d1 * d2) by ring. replace (A2 * (d1 * d2)) with (A2 * d2 * d1) by ring. rewrite W1, W2. nia. }
    apply Z.mul_lt_mono_pos_r with (d1 * d2); [nia|assumption]. }
  lia.
Qed.
Print Assumptions C97_sorted.

(** C97.  At one resolution, sorting the texts is sorting the durations. *)
Theorem C97_sorted_iff : forall den c1 c2 t1 t2, resolution den -> is_count c1 -> is_count c2 ->
  0 <= c1 -> 0 <= c2 -> c1 / (86400 * den) = c2 / (86400 * den) ->
  to_string den c1 = Done t1 -> to_string den c2 = Done t2 ->
  (sorts_before t1 t2 <-> c1 < c2).
Proof.
  intros den c1 c2 t1 t2 R I1 I2 N1 N2 D E1 E2.
  assert (Q : 0 < den) by (destruct R as (k & Hk & ->); apply Z.pow_pos_nonneg; lia).
  split.
  - intros S. destruct (Z.lt_trichotomy c1 c2) as [L|[->|G]]; [exact L| |].
    + assert (t1 = t2) by congruence. subst t2. destruct (before_irrefl _ S).
    + exfalso. apply (before_asym _ _ S). apply (C97_sorted den c2 den c1 t2 t1); auto. unfold time_lt. nia.
  - intros L. apply (C97_sorted den c1 den c2 t1 t2); auto. unfold time_lt. nia.
Qed.
Print Assumptions C97_sorted_iff.

(** 2 days and 09:59:59.999, and 2 days and 10:00:00.000001. *)
Example C97_sorted_ex : exists t1 t2,
  resolution (10 ^ 3) /\ resolution (10 ^ 6) /\ is_count 208799999 /\ is_count 208800000001 /\
  208799999 / (86400 * 10 ^ 3) = 208800000001 / (86400 * 10 ^ 6) /\
  to_string (10 ^ 3) 208799999 = Done t1 /\ to_string (10 ^ 6) 208800000001 = Done t2 /\
  time_lt (10 ^ 3) 208799999 (10 ^ 6) 208800000001 /\
  string_of_list_ascii t1 = "2 09:59:59-999m"%string /\ string_of_list_ascii t2 = "2 10:00:00-000m-001u"%string.
Proof.
  eexists _, _. split; [exists 3; lia|]. split; [exists 6; lia|]. split; [unfold is_count; lia|]. split; [unfold is_count; lia|].
  split; [reflexivity|]. split; [vm_compute; reflexivity|]. split; [vm_compute; reflexivity|]. split; [unfold time_lt; lia|].
  split; vm_compute; reflexivity.
Qed.

(** C97.  So are the times of any days whose numbers have as many digits: the days 1 to 9, 10 to
    99, 100 to 999 and so on of a simulation. *)
Theorem C97_sorted_days : forall k d1 c1 d2 c2 t1 t2, resolution d1 -> resolution d2 -> is_count c1 -> is_count c2 ->
  10 ^ Z.of_nat k <= c1 / (86400 * d1) < 10 ^ Z.of_nat (S k) -> 10 ^ Z.of_nat k <= c2 / (86400 * d2) < 10 ^ Z.of_nat (S k) ->
  to_string d1 c1 = Done t1 -> to_string d2 c2 = Done t2 ->
  time_lt d1 c1 d2 c2 -> sorts_before t1 t2.
Proof.
  intros k d1 c1 d2 c2 t1 t2 R1 R2 I1 I2 D1 D2 E1 E2 Lt.
  assert (P0 : 0 < 10 ^ Z.of_nat k) by (apply Z.pow_pos_nonneg; lia).
  assert (Q1 : 0 < d1) by (destruct R1 as (j & Hj & ->); apply Z.pow_pos_nonneg; lia).
  assert (Q2 : 0 < d2) by (destruct R2 as (j & Hj & ->); apply Z.pow_pos_nonneg; lia).
  assert (N1 : 0 <= c1) by (destruct (Z.le_gt_cases 0 c1); [assumption|]; pose proof (Z.div_lt_upper_bound c1 (86400 * d1) 0); lia).
  assert (N2 : 0 <= c2) by (destruct (Z.le_gt_cases 0 c2); [assumption|]; pose proof (Z.div_lt_upper_bound c2 (86400 * d2) 0); lia).
  destruct (Z.eq_dec (c1 / (86400 * d1)) (c2 / (86400 * d2))) as [E|NE]; [eapply (C97_sorted d1 c1 d2 c2); eauto|].
  destruct (to_string_parts d1 c1 t1 R1 I1 N1 E1) as (y1 & h1 & m1 & s1 & ys1 & -> & -> & _).
  destruct (to_string_parts d2 c2 t2 R2 I2 N2 E2) as (y2 & h2 & m2 & s2 & ys2 & -> & -> & _).
  apply (days_before k); try lia. clear D1 D2 E1 E2 I1 I2 P0.
  assert (c1 / (86400 * d1) <= c2 / (86400 * d2)); [|lia]. unfold time_lt in Lt.
  apply Z.div_le_lower_bound; [lia|]. pose proof (Z.mul_div_le c1 (86400 * d1) ltac:(lia)) as L. set (q := c1 / (86400 * d1)) in *. clearbody q.
  apply Z.mul_le_mono_pos_r with d1; [assumption|]. replace (86400 * d2 * q * d1) with (86400 * d1 * q * d2) by ring.
  apply Z.le_trans with (c1 * d2); [apply Z.mul_le_mono_nonneg_r; lia|lia].
Qed.
Print Assumptions C97_sorted_days.
Example C97_sorted_days_ex : exists t1 t2, resolution (10 ^ 3) /\ resolution (10 ^ 0) /\ is_count (10 * 86400 * 1000 + 86399999) /\ is_count (99 * 86400) /\
  10 ^ Z.of_nat 1 <= (10 * 86400 * 1000 + 86399999) / (86400 * 10 ^ 3) < 10 ^ Z.of_nat 2 /\
  10 ^ Z.of_nat 1 <= (99 * 86400) / (86400 * 10 ^ 0) < 10 ^ Z.of_nat 2 /\
  to_string (10 ^ 3) (10 * 86400 * 1000 + 86399999) = Done t1 /\ to_string (10 ^ 0) (99 * 86400) = Done t2 /\
  time_lt (10 ^ 3) (10 * 86400 * 1000 + 86399999) (10 ^ 0) (99 * 86400) /\ sorts_before t1 t2.
Proof.
  eexists _, _. split; [exists 3; lia|]. split; [exists 0; lia|]. split; [unfold is_count; lia|]. split; [unfold is_count; lia|].
  split; [vm_compute; split; [discriminate|reflexivity]|]. split; [vm_compute; split; [discriminate|reflexivity]|].
  split; [vm_compute; reflexivity|]. split; [vm_compute; reflexivity|]. split; [vm_compute; reflexivity|]. apply before_here. reflexivity.
Qed.

(** C97.  Across days it is otherwise: ten days are sorted before nine, *)
Theorem C97_days_refuted : exists den c1 c2 t1 t2, resolution den /\ is_count c1 /\ is_count c2 /\ 0 <= c1 < c2 /\
  to_string den c1 = Done t1 /\ to_string den c2 = Done t2 /\ sorts_before t2 t1.
Proof.
  exists (10 ^ 0), (9 * 86400), (10 * 86400). eexists _, _. split; [exists 0; lia|]. split; [unfold is_count; lia|]. split; [unfold is_count; lia|].
  split; [lia|]. split; [vm_compute; reflexivity|]. split; [vm_compute; reflexivity|]. apply before_here. reflexivity.
Qed.
Print Assumptions C97_days_refuted.
(** and any day that is not the first before times of the first: 1 day sorts before 12 hours. *)
Theorem C97_first_day_refuted : exists den c1 c2 t1 t2, resolution den /\ is_count c1 /\ is_count c2 /\ 0 <= c1 < c2 /\ c1 < 86400 * den /\
  to_string den c1 = Done t1 /\ to_string den c2 = Done t2 /\ sorts_before t2 t1.
Proof.
  exists (10 ^ 0), (12 * 3600), 86400. eexists _, _. split; [exists 0; lia|]. split; [unfold is_count; lia|]. split; [unfold is_count; lia|].
  split; [lia|]. split; [lia|]. split; [vm_compute; reflexivity|]. split; [vm_compute; reflexivity|]. apply before_next, before_here. reflexivity.
Qed.
Print Assumptions C97_first_day_refuted.
(** C97.  Nor are negative durations sorted: the longer the later. *)
Theorem C97_negative_refuted : exists den c1 c2 t1 t2, resolution den /\ is_count c1 /\ is_count c2 /\ c1 < c2 < 0 /\
  to_string den c1 = Done t1 /\ to_string den c2 = Done t2 /\ sorts_before t2 t1.
Proof.
  exists (10 ^ 0), (-2), (-1). eexists _, _. split; [exists 0; lia|]. split; [unfold is_count; lia|]. split; [unfold is_count; lia|].
  split; [lia|]. split; [vm_compute; reflexivity|]. split; [vm_compute; reflexivity|]. do 8 apply before_next. apply before_here. reflexivity.
Qed.
Print Assumptions C97_negative_refuted.

(** C97.  Points in virtual time: the first day of a simulation. *)
Theorem C97_time_points : forall a b s t, is_count a -> is_count b -> 0 <= a < 86400 * vt_den -> 0 <= b < 86400 * vt_den ->
  vt_to_string a = Done s -> vt_to_string b = Done t -> (sorts_before s t <-> a < b).
Proof.
  intros a b s t I1 I2 A B E1 E2. apply (C97_sorted_iff vt_den); auto; try lia; [exact vt_res|].
  rewrite !Z.div_small by lia. reflexivity.
Qed.
Print Assumptions C97_time_points.
Example C97_time_points_ex : exists s t, is_count 99999999999 /\ is_count 100000000000 /\ 100000000000 < 86400 * vt_den /\
  vt_to_string 99999999999 = Done s /\ vt_to_string 100000000000 = Done t /\ sorts_before s t.
Proof.
  eexists _, _. split; [unfold is_count; lia|]. split; [unfold is_count; lia|]. split; [reflexivity|].
  split; [vm_compute; reflexivity|]. split; [vm_compute; reflexivity|]. do 6 apply before_next. apply before_here. reflexivity.
Qed.

(** C98.  Hexadecimal texts of unsigned values of one type are sorted as the values are. *)
Theorem C98_hex_sorted : forall sz v1 v2 os, In sz [1; 2; 4; 8]%nat ->
  o_adjust os <> AdjLeft -> o_showbase os = false -> o_width os = O ->
  0 <= v1 < 2 ^ (8 * Z.of_nat sz) -> 0 <= v2 < 2 ^ (8 * Z.of_nat sz) ->
  (sorts_before (o_text (put_hex sz v1 os)) (o_text (put_hex sz v2 os)) <-> v1 < v2).
Proof.
  intros sz v1 v2 os Hsz Ha Hs Hw H1 H2. assert (Hp : (0 < sz)%nat) by (cbn in Hsz; lia).
  assert (S : forall a b, 0 <= a < 2 ^ (8 * Z.of_nat sz) -> 0 <= b < 2 ^ (8 * Z.of_nat sz) -> a < b ->
    sorts_before (o_text (put_hex sz a os)) (o_text (put_hex sz b os))).
  { intros a b A B L. rewrite !put_hex_text by assumption. apply before_app.
    rewrite <- (app_nil_r (hex_text sz a)), <- (app_nil_r (hex_text sz b)). apply hex_text_before; [exact Hp|].
    unfold bits_of. rewrite !Z.mod_small by assumption. lia. }
  split; [|apply S; assumption]. intros B. destruct (Z.lt_trichotomy v1 v2) as [L|[->|G]]; [exact L| |].
  - destruct (before_irrefl _ B).
  - destruct (before_asym _ _ B). apply S; assumption.
Qed.
Print Assumptions C98_hex_sorted.
Example C98_hex_sorted_ex : In 8%nat [1; 2; 4; 8]%nat /\ o_adjust new_stream <> AdjLeft /\ o_showbase new_stream = false /\ o_width new_stream = O /\
  sorts_before (o_text (put_hex 8 4294967295 new_stream)) (o_text (put_hex 8 4294967296 new_stream)).
Proof.
  split; [cbn; auto|]. split; [discriminate|]. split; [reflexivity|]. split; [reflexivity|].
  vm_compute. do 9 apply before_next. apply before_here. reflexivity.
Qed.

(** C98.  Lines of equal form: a number, and what follows it.  The numbers decide. *)
Theorem C98_hex_lines_sorted : forall sz v1 v2 u v os, In sz [1; 2; 4; 8]%nat ->
  o_adjust os <> AdjLeft -> o_showbase os = false -> o_width os = O ->
  0 <= v1 -> v1 < v2 -> v2 < 2 ^ (8 * Z.of_nat sz) ->
  sorts_before (o_text (put_hex sz v1 os) ++ u) (o_text (put_hex sz v2 os) ++ v).
Proof.
  intros sz v1 v2 u v os Hsz Ha Hs Hw H1 H2 H3. assert (Hp : (0 < sz)%nat) by (cbn in Hsz; lia).
  rewrite !put_hex_text by assumption. rewrite <- !app_assoc. apply before_app. apply hex_text_before; [exact Hp|].
  unfold bits_of. rewrite !Z.mod_small by lia. lia.
Qed.
Print Assumptions C98_hex_lines_sorted.
Example C98_hex_lines_sorted_ex : In 2%nat [1; 2; 4; 8]%nat /\ o_adjust new_stream <> AdjLeft /\ o_showbase new_stream = false /\ o_width new_stream = O /\
  sorts_before (o_text (put_hex 2 9 new_stream) ++ ["z"%char]) (o_text (put_hex 2 10 new_stream) ++ ["a"%char]).
Proof.
  split; [cbn; auto|]. split; [discriminate|]. split; [reflexivity|]. split; [reflexivity|].
  vm_compute. do 5 apply before_next. apply before_here. reflexivity.
Qed.

(** C98.  Signed values are not: minus one is sorted behind one. *)
Theorem C98_signed_refuted : forall sz, In sz [1; 2; 4; 8]%nat ->
  sorts_before (o_text (put_hex sz 1 new_stream)) (o_text (put_hex sz (-1) new_stream)).
Proof.
  intros sz H. cbn in H. destruct H as [<-|[<-|[<-|[<-|[]]]]]; vm_compute; do 2 apply before_next; apply before_here; reflexivity.
Qed.
Print Assumptions C98_signed_refuted.
