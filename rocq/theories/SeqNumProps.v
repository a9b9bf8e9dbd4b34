(** Properties C01-C06: sequence numbers. *)
From Verif Require Import Base BaseProofs BufferIter BufferIterSpec SeqNum SeqNumSpec SeqNumProofs.
Local Open Scope N_scope.

(** C01.  Exactly one of [a<b], [b<a], [a==b]; [<=] is [<] or [==]; [>] and [>=]
    are the mirror images. *)
Theorem C01_circular_tournament :
  forall bits a b,
    1 < bits -> a < 2 ^ bits -> b < 2 ^ bits ->
    ((circ_lt bits a b = true /\ circ_gt bits a b = false /\ circ_eq a b = false) \/
     (circ_lt bits a b = false /\ circ_gt bits a b = true /\ circ_eq a b = false) \/
     (circ_lt bits a b = false /\ circ_gt bits a b = false /\ circ_eq a b = true)) /\
    circ_le bits a b = circ_lt bits a b || circ_eq a b /\
    circ_ge bits a b = circ_gt bits a b || circ_eq a b.
Proof. exact circ_tournament. Qed.
Print Assumptions C01_circular_tournament.

Example C01_circular_tournament_ex :
  1 < 5 /\ 30 < 2 ^ 5 /\ 2 < 2 ^ 5 /\ circ_lt 5 30 2 = true.
Proof. vm_compute. auto. Qed.

(** C01 for [bits = 1] is false, as the documentation of the class says. *)
Theorem C01_one_bit_refuted : exists a b, a < 2 ^ 1 /\ b < 2 ^ 1 /\
  circ_lt 1 a b = true /\ circ_lt 1 b a = true.
Proof. exists 0, 1. vm_compute. auto. Qed.
Print Assumptions C01_one_bit_refuted.

(** C02.  [k] increments move strictly forward as long as [k] is at most half
    the space; [2^bits] increments go full circle; every value stays in range. *)
Theorem C02_circular_increments :
  forall bits a,
    1 < bits -> a < 2 ^ bits ->
    (forall k, circ_incs bits k a = (a + N.of_nat k) mod 2 ^ bits) /\
    (forall k, 1 <= N.of_nat k <= (2 ^ bits - 1) / 2 ->
       circ_lt bits a (circ_incs bits k a) = true /\ circ_gt bits a (circ_incs bits k a) = false) /\
    circ_incs bits (N.to_nat (2 ^ bits)) a = a.
Proof. exact circ_increments. Qed.
Print Assumptions C02_circular_increments.

Example C02_circular_increments_ex :
  1 < 4 /\ 14 < 2 ^ 4 /\ 1 <= N.of_nat 7 <= (2 ^ 4 - 1) / 2 /\ circ_incs 4 7 14 = 5.
Proof. vm_compute. repeat split; discriminate. Qed.

(** C02.  The order is the serial number order: it depends on the forward
    distance only, except at exactly half the space. *)
Theorem C02_circular_order_is_serial :
  forall bits a b,
    1 < bits -> a < 2 ^ bits -> b < 2 ^ bits ->
    circ_lt bits a b = true <-> serial_lt bits a b.
Proof. exact circ_lt_serial. Qed.
Print Assumptions C02_circular_order_is_serial.

Example C02_circular_order_is_serial_ex : serial_lt 3 6 1 /\ circ_lt 3 6 1 = true /\ serial_lt 3 5 1.
Proof. unfold serial_lt. vm_compute. repeat split; auto. Qed.

(** C02.  Advancing both numbers alike keeps their order (away from the tie). *)
Theorem C02_circular_shift_invariant :
  forall bits k a b,
    1 < bits -> a < 2 ^ bits -> b < 2 ^ bits -> 2 * distance (2 ^ bits) a b <> 2 ^ bits ->
    circ_lt bits (circ_incs bits k a) (circ_incs bits k b) = circ_lt bits a b.
Proof. exact circ_shift. Qed.
Print Assumptions C02_circular_shift_invariant.

Example C02_circular_shift_invariant_ex :
  2 * distance (2 ^ 4) 14 3 <> 2 ^ 4 /\ circ_lt 4 14 3 = true /\
  circ_lt 4 (circ_incs 4 5 14) (circ_incs 4 5 3) = true.
Proof. vm_compute. repeat split; discriminate. Qed.

(** C03.  Transitivity inside a window of half the space. *)
Theorem C03_circular_window_transitive :
  forall bits a b c,
    1 < bits -> a < 2 ^ bits -> b < 2 ^ bits -> c < 2 ^ bits ->
    circ_lt bits a b = true -> circ_lt bits b c = true ->
    distance (2 ^ bits) a b + distance (2 ^ bits) b c <= (2 ^ bits - 1) / 2 ->
    circ_lt bits a c = true.
Proof. exact circ_window_trans. Qed.
Print Assumptions C03_circular_window_transitive.

Example C03_circular_window_transitive_ex :
  circ_lt 4 14 1 = true /\ circ_lt 4 1 4 = true /\
  distance (2 ^ 4) 14 1 + distance (2 ^ 4) 1 4 <= (2 ^ 4 - 1) / 2.
Proof. vm_compute. repeat split; discriminate. Qed.

(** C03.  Outside the window the order is never transitive, whatever the width. *)
Theorem C03_circular_not_transitive :
  forall bits, 1 < bits ->
    exists a b c, a < 2 ^ bits /\ b < 2 ^ bits /\ c < 2 ^ bits /\
      circ_lt bits a b = true /\ circ_lt bits b c = true /\ circ_lt bits a c = false.
Proof. exact circ_not_transitive. Qed.
Print Assumptions C03_circular_not_transitive.

(** C04.  Straight part: numeric order, and it precedes all of the circular part. *)
Theorem C04_lollipop_straight_part :
  forall bits start a b,
    start < 2 ^ bits -> a < start -> b < 2 ^ bits ->
    (lolli_lt bits start a b = true <-> a < b) /\
    (start <= b -> lolli_lt bits start a b = true /\ lolli_lt bits start b a = false).
Proof. exact lolli_straight. Qed.
Print Assumptions C04_lollipop_straight_part.

Example C04_lollipop_straight_part_ex : 8 < 2 ^ 4 /\ 3 < 8 /\ 15 < 2 ^ 4 /\ 8 <= 15.
Proof. vm_compute. repeat split; discriminate. Qed.

(** C04.  Increments: straight part first, then around the circle [START..MAX]
    for ever, never back into the straight part. *)
Theorem C04_lollipop_increments :
  forall bits start a k,
    start < 2 ^ bits -> a < 2 ^ bits ->
    lolli_incs bits start k a =
      (if a + N.of_nat k <? 2 ^ bits then a + N.of_nat k
       else start + (a + N.of_nat k - start) mod (2 ^ bits - start)) /\
    (start <= a -> start <= lolli_incs bits start k a < 2 ^ bits).
Proof. exact lolli_increments. Qed.
Print Assumptions C04_lollipop_increments.

Example C04_lollipop_increments_ex : 8 < 2 ^ 4 /\ 6 < 2 ^ 4 /\ lolli_incs 4 8 20 6 = 10.
Proof. vm_compute. auto. Qed.

(** C04.  In a circular part of three or more values, up to half of it ahead is
    greater. *)
Theorem C04_lollipop_increments_forward :
  forall bits start k a,
    start + 2 < 2 ^ bits -> start <= a < 2 ^ bits ->
    1 <= N.of_nat k <= (2 ^ bits - 1 - start) / 2 ->
    lolli_lt bits start a (lolli_incs bits start k a) = true.
Proof. exact lolli_incs_lt. Qed.
Print Assumptions C04_lollipop_increments_forward.

Example C04_lollipop_increments_forward_ex :
  8 + 2 < 2 ^ 4 /\ 8 <= 14 < 2 ^ 4 /\ 1 <= N.of_nat 3 <= (2 ^ 4 - 1 - 8) / 2.
Proof. vm_compute. repeat split; discriminate. Qed.

(** C05.  With a circular part of one value or of at least three values the
    order is a tournament, in particular irreflexive and asymmetric. *)
Theorem C05_lollipop_tournament_partial :
  forall bits start a b,
    start + 2 < 2 ^ bits \/ start + 1 = 2 ^ bits -> a < 2 ^ bits -> b < 2 ^ bits ->
    (lolli_lt bits start a b = true /\ lolli_lt bits start b a = false /\ a <> b) \/
    (lolli_lt bits start a b = false /\ lolli_lt bits start b a = true /\ a <> b) \/
    (lolli_lt bits start a b = false /\ lolli_lt bits start b a = false /\ a = b).
Proof. exact lolli_trichotomy. Qed.
Print Assumptions C05_lollipop_tournament_partial.

Example C05_lollipop_tournament_ex : 8 + 2 < 2 ^ 4 /\ 15 < 2 ^ 4 /\ 9 < 2 ^ 4 /\ lolli_lt 4 8 15 9 = true.
Proof. vm_compute. auto. Qed.

(** C05.  [<=] is [<] or [==] for every width and START. *)
Theorem C05_lollipop_le :
  forall bits start a b, lolli_le bits start a b = lolli_lt bits start a b || (a =? b).
Proof. exact lolli_le_iff. Qed.
Print Assumptions C05_lollipop_le.

(** C05 is false with a two-value circular part, for every width: a number of
    the circular part is less than itself. *)
Theorem C05_lollipop_irreflexive_refuted :
  forall bits, 1 <= bits -> exists start a,
    start < 2 ^ bits /\ a < 2 ^ bits /\ lolli_lt bits start a a = true.
Proof. exact lolli_two_reflexive. Qed.
Print Assumptions C05_lollipop_irreflexive_refuted.

(** C06.  Writing a sequence number and reading it back at the same place gives
    the same number and the same cursor, whatever the number read into held
    before and whatever the host and the requested byte order. *)
Theorem C06_sequence_number_roundtrip :
  forall host o bits sn old mem it mem' it',
    1 <= bits <= 64 -> sn < 2 ^ bits -> old < 2 ^ bits ->
    sn_write host o bits sn mem it = Done (mem', it') ->
    sn_read host o bits old mem' it = Done (sn, it').
Proof. exact sn_roundtrip. Qed.
Print Assumptions C06_sequence_number_roundtrip.

(** C06.  It takes exactly ceil(bits/8) bytes. *)
Theorem C06_sequence_number_size :
  forall host o bits sn mem it,
    1 <= bits <= 64 -> iter_ok mem it ->
    if it_cursor it + (bits + 7) / 8 <=? it_end it
    then exists mem', sn_write host o bits sn mem it
                      = Done (mem', set_cursor it (it_cursor it + (bits + 7) / 8))
    else sn_write host o bits sn mem it = AssertFail.
Proof. exact sn_write_cursor. Qed.
Print Assumptions C06_sequence_number_size.

Example C06_sequence_number_roundtrip_ex :
  exists r, sn_write BigEndian LittleOrder 20 0xabcde (repeat 0 8) (mk_biter 1 7 2) = Done r /\
    fst r = [0; 0; 0xde; 0xbc; 0x0a; 0; 0; 0] /\
    iter_ok (repeat 0 8) (mk_biter 1 7 2).
Proof. eexists. vm_compute. repeat split; try discriminate; lia. Qed.

(** C06.  A number read from arbitrary bytes is not reduced to the value range. *)
Theorem C06_read_out_of_range_refuted :
  exists host bits old mem it sn it',
    1 <= bits <= 64 /\ old < 2 ^ bits /\ Forall is_byte mem /\
    sn_read host NativeOrder bits old mem it = Done (sn, it') /\ 2 ^ bits <= sn.
Proof. exact sn_read_out_of_range. Qed.
Print Assumptions C06_read_out_of_range_refuted.

(** C73.  The constructors clamp any value to the range, and numbers made by them and
    incremented any number of times stay in it; one [operator++] adds one or wraps. *)
Theorem C73_constructed_in_range :
  forall bits v k,
    circ_make bits v = N.min v (2 ^ bits - 1) /\ lolli_make bits v = N.min v (2 ^ bits - 1) /\
    circ_incs bits k (circ_make bits v) < 2 ^ bits /\
    (forall start, start < 2 ^ bits -> lolli_incs bits start k (lolli_make bits v) < 2 ^ bits).
Proof.
  intros bits v k. pose proof (pow2_pos bits) as P.
  assert (E : circ_make bits v = N.min v (2 ^ bits - 1)).
  { unfold circ_make, circ_max. destruct (N.leb_spec v (2 ^ bits - 1)); lia. }
  assert (E' : lolli_make bits v = N.min v (2 ^ bits - 1)).
  { unfold lolli_make, lolli_max. destruct (N.leb_spec v (2 ^ bits - 1)); lia. }
  split; [exact E|]. split; [exact E'|]. split.
  - rewrite circ_incs_mod by (rewrite E; lia). apply N.mod_lt. lia.
  - intros start Hs. rewrite E'.
    assert (G : forall k a, a < 2 ^ bits -> lolli_incs bits start k a < 2 ^ bits).
    { clear - P Hs. induction k as [|k IH]; intros a Ha; cbn [lolli_incs]; [exact Ha|]. apply IH.
      unfold lolli_inc, lolli_max. destruct (N.ltb_spec a (2 ^ bits - 1)); lia. }
    apply G. lia.
Qed.
Print Assumptions C73_constructed_in_range.
Example C73_ex : circ_make 4 200 = 15 /\ circ_make 4 9 = 9 /\ lolli_make 5 77 = 31 /\
  circ_incs 4 3 (circ_make 4 200) = 2 /\ lolli_incs 5 20 3 (lolli_make 5 77) = 22.
Proof. vm_compute. auto. Qed.
