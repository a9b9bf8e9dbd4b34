(** Text output: hexadecimal numbers (C86) and durations (C87). *)
From Coq Require Import ZifyBool ZifyNat ZifyN.
From Verif Require Import Base Duration DurationSpec DurationProofs Text TextSpec TextProofs.
From Coq Require Import List.
Import ListNotations.
From Verif Require Import Duration.
Open Scope Z_scope.

(** ** C86: hexadecimal output *)

(** On a stream that is not left-adjusted and shows no base, the text of a value of
    1, 2, 4 or 8 bytes has a fixed length and reads as the bits of the value. *)
Theorem C86_hex_reads_back : forall sz v os, In sz [1; 2; 4; 8]%nat ->
  o_adjust os <> AdjLeft -> o_showbase os = false -> o_width os = O ->
  exists t, o_text (put_hex sz v os) = o_text os ++ t /\
    read_hex t = Some (v mod 2 ^ (8 * Z.of_nat sz)) /\
    length t = (2 + 2 * sz + if (sz =? 8)%nat then 1 else 0)%nat.
Proof.
  intros sz v os Hsz Ha Hs Hw. assert (0 < sz)%nat by (cbn in Hsz; lia).
  exists (hex_text sz v). split; [apply put_hex_text; assumption|].
  split; [apply hex_text_read|apply hex_text_length]; assumption.
Qed.
Print Assumptions C86_hex_reads_back.

Example C86_hex_reads_back_ex :
  (In 8 [1; 2; 4; 8] /\ o_adjust new_stream <> AdjLeft /\ o_showbase new_stream = false
   /\ o_width new_stream = O)%nat /\
  string_of_list_ascii (o_text (put_hex 8 (-2) new_stream)) = "0xffffffff`fffffffe"%string /\
  string_of_list_ascii (o_text (put_hex 1 97 new_stream)) = "0x61"%string.
Proof. repeat split; try (vm_compute; reflexivity); [cbn; auto|discriminate]. Qed.

(** Two values of one type, signed or unsigned, have the same text only if they
    are equal. *)
Theorem C86_hex_injective : forall sz v1 v2 os, In sz [1; 2; 4; 8]%nat ->
  o_adjust os <> AdjLeft -> o_showbase os = false -> o_width os = O ->
  Z.abs (v1 - v2) < 2 ^ (8 * Z.of_nat sz) ->
  o_text (put_hex sz v1 os) = o_text (put_hex sz v2 os) -> v1 = v2.
Proof.
  intros sz v1 v2 os Hsz Ha Hs Hw Hd E.
  destruct (C86_hex_reads_back sz v1 os Hsz Ha Hs Hw) as (t1 & E1 & R1 & _).
  destruct (C86_hex_reads_back sz v2 os Hsz Ha Hs Hw) as (t2 & E2 & R2 & _).
  rewrite E1, E2 in E. apply app_inv_head in E. subst t2. rewrite R1 in R2.
  set (M := 2 ^ (8 * Z.of_nat sz)) in *. assert (R3 : v1 mod M = v2 mod M) by congruence.
  assert (0 < M) by (apply Z.pow_pos_nonneg; lia).
  pose proof (Z.div_mod v1 M ltac:(lia)) as D1. pose proof (Z.div_mod v2 M ltac:(lia)) as D2.
  clearbody M. rewrite R3 in D1. clear R1 R2 R3 Hsz E1 E2. set (q1 := v1 / M) in *. set (q2 := v2 / M) in *.
  set (r := v2 mod M) in *. clearbody q1 q2 r.
  assert (v1 - v2 = M * (q1 - q2)) by (rewrite Z.mul_sub_distr_l; lia).
  assert (q1 - q2 = 0) by nia. nia.
Qed.
Print Assumptions C86_hex_injective.

(** int8_t: the ends of the range. *)
Example C86_hex_injective_ex : Z.abs (-128 - 127) < 2 ^ (8 * Z.of_nat 1) /\
  o_text (put_hex 1 (-128) new_stream) <> o_text (put_hex 1 127 new_stream).
Proof. split; [reflexivity|vm_compute; discriminate]. Qed.

(** What is left on the stream: base 16, lower case, fill '0' and width 0,
    whatever was set before; adjustment and showing of the base are kept. *)
Theorem C86_hex_stream : forall sz v os,
  let os' := put_hex sz v os in
  o_radix os' = Hex /\ o_upper os' = false /\ o_fill os' = "0"%char /\ o_width os' = O /\
  o_adjust os' = o_adjust os /\ o_showbase os' = o_showbase os.
Proof.
  intros sz v os. pose proof (put_hex_flags sz v os) as F. unfold flags in F.
  injection F as F1 F2 F3 F4 F5 F6. cbv zeta. auto 8.
Qed.
Print Assumptions C86_hex_stream.

Example C86_hex_stream_ex :
  o_radix (put_hex 4 7 new_stream) = Hex /\ o_radix new_stream = Dec /\
  o_fill (put_hex 4 7 new_stream) = "0"%char /\ o_fill new_stream = " "%char.
Proof. repeat split. Qed.

(** So every number written afterwards is in base 16, without a prefix. *)
Theorem C86_hex_later_numbers : forall sz v n os, o_showbase os = false ->
  exists t, o_text (put_uint n (put_hex sz v os)) = o_text (put_hex sz v os) ++ t /\
    read_hex_digits 0 t = Some (Z.of_N n).
Proof.
  intros sz v n os Hs.
  destruct (C86_hex_stream sz v os) as (R & U & _ & W & _ & S).
  apply put_uint_hex; auto. congruence.
Qed.
Print Assumptions C86_hex_later_numbers.

(** One expects a number to be written as it would be without the hexadecimal one
    before it.  It is not: 16 is written "10". *)
Theorem C86_hex_keeps_format_refuted : exists sz v n,
  let written os := skipn (length (o_text os)) (o_text (put_uint n os)) in
  written (put_hex sz v new_stream) <> written new_stream.
Proof. exists 4%nat, 7, 16%N. vm_compute. discriminate. Qed.
Print Assumptions C86_hex_keeps_format_refuted.

Example C86_hex_keeps_format_refuted_ex :
  string_of_list_ascii (o_text (put_uint 16 (put_hex 4 7 new_stream))) = "0x0000000710"%string /\
  string_of_list_ascii (o_text (put_uint 16 new_stream)) = "16"%string.
Proof. split; vm_compute; reflexivity. Qed.

(** The condition on the adjustment is needed: left-adjusted, 1 and 16 have the
    same text. *)
Theorem C86_hex_left_refuted : exists v1 v2 os, o_showbase os = false /\ o_width os = O /\
  0 <= v1 < 2 ^ 8 /\ 0 <= v2 < 2 ^ 8 /\ v1 <> v2 /\
  o_text (put_hex 1 v1 os) = o_text (put_hex 1 v2 os).
Proof.
  exists 1, 16, (mk_stream [] Dec AdjLeft false false " " 0).
  repeat split; try lia; vm_compute; reflexivity.
Qed.
Print Assumptions C86_hex_left_refuted.

(** And so is the condition on the base: with it, the prefix comes twice and the
    text is no number. *)
Theorem C86_hex_showbase_refuted : exists v os, o_adjust os = AdjRight /\ o_width os = O /\
  o_text os = [] /\ 0 <= v < 2 ^ 8 /\ read_hex (o_text (put_hex 1 v os)) = None.
Proof.
  exists 1, (mk_stream [] Dec AdjRight true false " " 0).
  repeat split; try lia; vm_compute; reflexivity.
Qed.
Print Assumptions C86_hex_showbase_refuted.

(** ** C87: the text of a duration *)

(** For every resolution and every count but the smallest, the text of a duration
    reads as exactly the time it represents. *)
Theorem C87_text_exact : forall den c, resolution den -> is_count c -> c <> - 2 ^ 63 ->
  exists t y, to_string den c = Done t /\ read_time t = Some y /\ y * den = c * 10 ^ 24.
Proof. exact to_string_read. Qed.
Print Assumptions C87_text_exact.

Example C87_text_exact_ex : resolution (10 ^ 3) /\ is_count (-90061005) /\ -90061005 <> - 2 ^ 63 /\
  exists t, to_string (10 ^ 3) (-90061005) = Done t /\
    string_of_list_ascii t = "-1 01:01:01-005m"%string /\
    read_time t = Some (-90061005 * 10 ^ 21).
Proof.
  split; [exists 3; lia|]. split; [unfold is_count; lia|]. split; [lia|].
  eexists. split; [vm_compute; reflexivity|]. split; vm_compute; reflexivity.
Qed.

(** Durations of any two resolutions with the same text represent the same time. *)
Theorem C87_text_injective : forall d1 c1 d2 c2 t,
  resolution d1 -> is_count c1 -> resolution d2 -> is_count c2 ->
  to_string d1 c1 = Done t -> to_string d2 c2 = Done t -> time_eq d1 c1 d2 c2.
Proof.
  intros d1 c1 d2 c2 t R1 I1 R2 I2 E1 E2.
  assert (M : forall d c, resolution d -> to_string d c = Done t -> c <> - 2 ^ 63).
  { intros d c _ E ->. unfold to_string in E. rewrite split_min in E. discriminate. }
  destruct (to_string_read d1 c1 R1 I1 (M _ _ R1 E1)) as (t1 & y1 & T1 & Y1 & V1).
  destruct (to_string_read d2 c2 R2 I2 (M _ _ R2 E2)) as (t2 & y2 & T2 & Y2 & V2).
  rewrite E1 in T1. rewrite E2 in T2. injection T1 as <-. injection T2 as <-.
  rewrite Y1 in Y2. injection Y2 as <-. unfold time_eq.
  apply (Z.mul_reg_r _ _ (10 ^ 24)); [lia|].
  replace (c1 * d2 * 10 ^ 24) with ((c1 * 10 ^ 24) * d2) by ring.
  replace (c2 * d1 * 10 ^ 24) with ((c2 * 10 ^ 24) * d1) by ring.
  rewrite <- V1, <- V2. ring.
Qed.
Print Assumptions C87_text_injective.

(** At nanoseconds: two texts, and the same time at microseconds. *)
Example C87_text_injective_ex : exists t1 t2,
  to_string (10 ^ 9) 1500 = Done t1 /\ to_string (10 ^ 9) 1501 = Done t2 /\ t1 <> t2 /\
  resolution (10 ^ 9) /\ is_count 1500 /\ is_count 1501.
Proof.
  eexists _, _. split; [vm_compute; reflexivity|]. split; [vm_compute; reflexivity|].
  split; [discriminate|]. split; [exists 9; lia|]. unfold is_count. lia.
Qed.

(** Texts of durations of less than a day at one resolution line up. *)
Theorem C87_text_width : forall den c1 c2 t1 t2, resolution den ->
  is_count c1 -> is_count c2 -> 0 <= c1 < 86400 * den -> 0 <= c2 < 86400 * den ->
  to_string den c1 = Done t1 -> to_string den c2 = Done t2 -> length t1 = length t2.
Proof.
  intros den c1 c2 t1 t2 R I1 I2 B1 B2 E1 E2.
  destruct (to_string_width den c1 R B1 I1) as (u1 & F1 & L1).
  destruct (to_string_width den c2 R B2 I2) as (u2 & F2 & L2). congruence.
Qed.
Print Assumptions C87_text_width.

Example C87_text_width_ex : exists t1 t2,
  to_string (10 ^ 6) 5 = Done t1 /\ to_string (10 ^ 6) 86399999999 = Done t2 /\
  string_of_list_ascii t1 = "00:00:00-000m-005u"%string /\
  string_of_list_ascii t2 = "23:59:59-999m-999u"%string /\
  86399999999 < 86400 * 10 ^ 6 /\ is_count 86399999999.
Proof.
  eexists _, _. split; [vm_compute; reflexivity|]. split; [vm_compute; reflexivity|].
  split; [vm_compute; reflexivity|]. split; [vm_compute; reflexivity|]. unfold is_count. lia.
Qed.

(** The smallest count, [MIN_DURATION] of every resolution, has no text: the
    negation overflows. *)
Theorem C87_text_min_refuted : forall den, exists c, is_count c /\ to_string den c = UB.
Proof.
  intros den. exists (- 2 ^ 63). split; [unfold is_count; lia|].
  unfold to_string. rewrite split_min. reflexivity.
Qed.
Print Assumptions C87_text_min_refuted.

(** The parts below a second are not separated as documented. *)
Theorem C87_text_documented_refuted : exists den c t, resolution den /\ 0 <= c < 86400 * den /\
  to_string den c = Done t /\ ~ documented_separator t.
Proof.
  exists (10 ^ 3), 1005. eexists. split; [exists 3; lia|]. split; [lia|].
  split; [vm_compute; reflexivity|]. unfold documented_separator. cbn. discriminate.
Qed.
Print Assumptions C87_text_documented_refuted.

(** The same for points in virtual time. *)
Theorem C87_time_point_text : forall t, is_count t -> t <> - 2 ^ 63 ->
  exists s y, vt_to_string t = Done s /\ read_time s = Some y /\ y * vt_den = t * 10 ^ 24.
Proof. intros t Ht Hm. apply to_string_read; [exact vt_res|exact Ht|exact Hm]. Qed.
Print Assumptions C87_time_point_text.

(** 1.5 s, where a tick is 0.1 ns. *)
Example C87_time_point_text_ex : exists s, vt_to_string 15000000000 = Done s /\
  string_of_list_ascii s = "00:00:01-500m-000u-000n-000p"%string.
Proof. eexists. split; vm_compute; reflexivity. Qed.
