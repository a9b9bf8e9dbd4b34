(** Properties of addresses: C13-C19, C70, C71. *)
From Verif Require Import Base BufferIter BufferIterSpec Address AddressSpec AddressProofs AddressBitProofs AddressByteProofs.

(** C13.  Whatever a program does, an address is a number below [2^bits], and addresses
    are equal exactly if the numbers are. *)
Theorem C13_reduced :
  forall bits a, 0 < bits -> made bits a ->
    (value bits a < 2 ^ N.of_nat bits)%N /\
    forall b, made bits b -> (op_eq bits a b = true <-> value bits a = value bits b) /\
                             (a = b <-> value bits a = value bits b).
Proof.
  intros bits a Hb Ha. pose proof (made_wf bits a Hb Ha) as Wa. split; [apply Wa|]. intros b Hb'.
  pose proof (made_wf bits b Hb Hb') as Wb. split.
  - unfold op_eq. rewrite equal_spec by (apply Wa || apply Wb). apply N.eqb_eq.
  - split; [congruence|]. apply wf_value_inj; auto.
Qed.
Print Assumptions C13_reduced.

Example C13_reduced_ex :
  exists a b, made 100 a /\ made 100 b /\ value 100 a = (2 ^ 100 - 5)%N /\ op_eq 100 a b = false.
Proof.
  exists [4294967291; 4294967295; 4294967295; 15]%N, [0; 0; 0; 0]%N. split; [|split; [|split]].
  - apply (made_op 100 (ASigned 8 (-5)) (assign0 100)); [constructor| |vm_compute; reflexivity].
    constructor; [lia|]. vm_compute. split; [discriminate|reflexivity].
  - apply (made_zero 100).
  - vm_compute. reflexivity.
  - vm_compute. reflexivity.
Qed.

(** C13.  Every operation that is defined computes what it means, modulo [2^bits]. *)
Theorem C13_meaning :
  forall bits o a a' y, 0 < bits -> made bits a -> operands bits o ->
    apply bits o a = Done a' -> meaning bits o (zvalue bits a) = Some y ->
    zvalue bits a' = (y mod 2 ^ Z.of_nat bits)%Z.
Proof.
  intros bits o a a' y Hb Ha Ho E M.
  destruct (apply_spec bits o a a' Hb (made_wf bits a Hb Ha) (operands_good bits o Hb Ho) E) as [_ H]. apply H. auto.
Qed.
Print Assumptions C13_meaning.

Example C13_meaning_ex :
  exists a', apply 100 (AShl 37) [3; 1; 0; 9]%N = Done a' /\
             meaning 100 (AShl 37) (zvalue 100 [3; 1; 0; 9]%N) = Some (zvalue 100 [3; 1; 0; 9]%N * 2 ^ 37)%Z /\ a' = [0; 96; 32; 0]%N.
Proof. eexists. split; [vm_compute; reflexivity|]. split; [vm_compute; reflexivity|reflexivity]. Qed.

(** C14.  [++], [--], [+=] and [-=] are defined and exact modulo [2^bits], for every width,
    value and offset but one: the least offset cannot be subtracted. *)
Theorem C14_offset :
  forall bits a n, 0 < bits -> made bits a -> is_int64 n ->
    zvalue bits (increment bits a) = ((zvalue bits a + 1) mod 2 ^ Z.of_nat bits)%Z /\
    zvalue bits (decrement bits a) = ((zvalue bits a - 1) mod 2 ^ Z.of_nat bits)%Z /\
    zvalue bits (plus bits n a) = ((zvalue bits a + n) mod 2 ^ Z.of_nat bits)%Z /\
    (n <> - 2 ^ 63 -> exists a', minus bits n a = Done a' /\
       zvalue bits a' = (zvalue bits a - n) mod 2 ^ Z.of_nat bits)%Z.
Proof.
  intros bits a n Hb Ha Hn. destruct (made_wf bits a Hb Ha) as [R _]. split; [|split; [|split]].
  - apply increment_spec; auto.
  - apply decrement_spec; auto.
  - apply plus_spec; auto.
  - intros Hm. destruct (minus_spec bits n a Hb R Hn Hm) as [a' [E [_ V]]]. eauto.
Qed.
Print Assumptions C14_offset.

Example C14_offset_ex :
  made 129 (assign0 129) /\ is_int64 (-3) /\ zvalue 129 (plus 129 (-3) (assign0 129)) = (2 ^ 129 - 3)%Z.
Proof. split; [constructor|]. split; [unfold is_int64; lia|vm_compute; reflexivity]. Qed.

(** C14.  What was added is taken away again. *)
Theorem C14_inverse :
  forall bits a n, 0 < bits -> made bits a -> is_int64 n -> (n <> - 2 ^ 63)%Z ->
    minus bits n (plus bits n a) = Done a /\
    exists a', minus bits n a = Done a' /\ plus bits n a' = a.
Proof.
  intros bits a n Hb Ha Hn Hm. pose proof (made_wf bits a Hb Ha) as W.
  assert (Inv : forall x y, wf bits x -> zvalue bits x = (y mod zmodulus bits)%Z -> (y mod zmodulus bits = zvalue bits a)%Z -> x = a).
  { intros x y Wx V E. apply (wf_value_inj bits); auto. apply N2Z.inj. fold (zvalue bits x). fold (zvalue bits a). congruence. }
  pose proof (zmod_pos bits) as Hp. split.
  - destruct (plus_spec bits n a Hb (proj1 W) Hn) as [W1 V1].
    destruct (minus_spec bits n _ Hb (proj1 W1) Hn Hm) as [a' [E [W2 V2]]]. rewrite E. f_equal. eapply Inv; [auto|exact V2|].
    rewrite V1, Zminus_mod_idemp_l. replace (zvalue bits a + n - n)%Z with (zvalue bits a) by lia. apply wf_mod. auto.
  - destruct (minus_spec bits n a Hb (proj1 W) Hn Hm) as [a' [E [W2 V2]]]. exists a'. split; auto.
    destruct (plus_spec bits n a' Hb (proj1 W2) Hn) as [W1 V1]. eapply Inv; [auto|exact V1|].
    rewrite V2, Zplus_mod_idemp_l. replace (zvalue bits a - n + n)%Z with (zvalue bits a) by lia. apply wf_mod. auto.
Qed.
Print Assumptions C14_inverse.

Example C14_inverse_ex : minus 80 9 (plus 80 9 (assign0 80)) = Done (assign0 80) /\ is_int64 9.
Proof. split; [vm_compute; reflexivity|unfold is_int64; lia]. Qed.

(** C14.  Subtracting the least offset: the offset is negated, which overflows. *)
Theorem C14_least_offset_refuted :
  exists n, is_int64 n /\ forall bits a, minus bits n a = UB.
Proof. exists (- 2 ^ 63)%Z. split; [unfold is_int64; lia|]. intros. reflexivity. Qed.
Print Assumptions C14_least_offset_refuted.

(** C15.  Comparisons compare the numbers. *)
Theorem C15_order :
  forall bits a b, 0 < bits -> made bits a -> made bits b ->
    op_eq bits a b = (value bits a =? value bits b)%N /\
    op_ne bits a b = negb (value bits a =? value bits b)%N /\
    op_lt bits a b = (value bits a <? value bits b)%N /\
    op_le bits a b = (value bits a <=? value bits b)%N /\
    op_gt bits a b = (value bits b <? value bits a)%N /\
    op_ge bits a b = (value bits b <=? value bits a)%N.
Proof.
  intros bits a b Hb Ha Hb'. destruct (made_wf bits a Hb Ha) as [Ra _], (made_wf bits b Hb Hb') as [Rb _].
  unfold op_eq, op_ne, op_lt, op_le, op_gt, op_ge. rewrite equal_spec, less_than_spec, less_equal_spec by auto.
  repeat split; symmetry; [apply N.ltb_antisym|apply N.leb_antisym].
Qed.
Print Assumptions C15_order.

Example C15_order_ex :
  made 160 (assign0 160) /\ made 160 (plus 160 (-1) (assign0 160)) /\
  op_lt 160 (assign0 160) (plus 160 (-1) (assign0 160)) = true.
Proof.
  split; [constructor|]. split; [|vm_compute; reflexivity].
  apply (made_op 160 (AAdd (-1)) (assign0 160)); [constructor|constructor; unfold is_int64; lia|reflexivity].
Qed.

(** C16.  Bitwise operators act on the bits of the number; [~] flips the [bits] low ones. *)
Theorem C16_bitwise :
  forall bits a b, 0 < bits -> made bits a -> made bits b ->
    value bits (bitwise_and a b) = N.land (value bits a) (value bits b) /\
    value bits (bitwise_or a b) = N.lor (value bits a) (value bits b) /\
    value bits (bitwise_xor a b) = N.lxor (value bits a) (value bits b) /\
    (forall m, N.testbit (value bits (bitwise_not bits a)) m =
               if (m <? N.of_nat bits)%N then negb (N.testbit (value bits a) m) else false).
Proof.
  intros bits a b Hb Ha Hb'. pose proof (made_wf bits a Hb Ha) as Wa. pose proof (made_wf bits b Hb Hb') as Wb.
  split; [apply (map2_wf _ _ bits a b and_bitwise Wa Wb)|]. split; [apply (map2_wf _ _ bits a b or_bitwise Wa Wb)|].
  split; [apply (map2_wf _ _ bits a b xor_bitwise Wa Wb)|]. intros m. rewrite (not_value bits a Hb Wa).
  destruct (N.ltb_spec m (N.of_nat bits)) as [H|H].
  - apply N.lnot_spec_low. auto.
  - rewrite N.lnot_spec_high by auto. apply (proj1 (lt_bits _ (N.of_nat bits)) (proj2 Wa)). auto.
Qed.
Print Assumptions C16_bitwise.

Example C16_bitwise_ex :
  value 48 (bitwise_not 48 [0xff]%N) = 0xffffffffff00%N /\ bitwise_xor [1; 2; 3; 4]%N [5; 6; 7; 1]%N = [4; 4; 4; 5]%N.
Proof. split; vm_compute; reflexivity. Qed.

(** C16.  Shifts multiply and divide by [2^n]; amounts of [bits] or more give zero.  Wider
    than 64 bits, the amounts that are multiples of 32, below the last value, are excluded. *)
Theorem C16_shift :
  forall bits a n, 0 < bits -> made bits a ->
    bits <= 64 \/ n = 0 \/ n mod 32 <> 0 \/ (bits - 1) / 32 <= n / 32 ->
    exists l r, left_shift bits n a = Done l /\ right_shift bits n a = Done r /\
      value bits l = ((value bits a * 2 ^ N.of_nat n) mod 2 ^ N.of_nat bits)%N /\
      value bits r = (value bits a / 2 ^ N.of_nat n)%N /\
      (bits <= n -> l = assign0 bits /\ r = assign0 bits).
Proof.
  intros bits a n Hb Ha Hn. pose proof (made_wf bits a Hb Ha) as W.
  assert (Ok : shift_ok bits n) by (apply shift_ok_width; auto).
  destruct (left_shift_spec bits n a Hb (proj1 W) Ok (fun _ => W)) as [l [El [Wl Vl]]].
  destruct (right_shift_spec bits n a Hb W Ok) as [r [Er [Wr Vr]]].
  exists l, r. repeat split; auto; destruct (wf_assign0 bits Hb) as [W0 V0]; apply (wf_value_inj bits); auto; rewrite V0.
  - rewrite Vl. apply mul_pow_mod0. lia.
  - rewrite Vr. apply N.div_small. eapply N.lt_le_trans; [apply W|]. apply N.pow_le_mono_r; lia.
Qed.
Print Assumptions C16_shift.

Example C16_shift_ex :
  made 128 (plus 128 7 (assign0 128)) /\ 65 mod 32 <> 0 /\
  left_shift 128 65 (plus 128 7 (assign0 128)) = Done [0; 0; 14; 0]%N.
Proof.
  split; [|split; [discriminate|vm_compute; reflexivity]].
  apply (made_op 128 (AAdd 7) (assign0 128)); [constructor|constructor; unfold is_int64; lia|reflexivity].
Qed.

(** C16.  Those excluded amounts: a 32-bit value is shifted by 32. *)
Theorem C16_shift_by_words_refuted :
  forall bits a n, 64 < bits -> 0 < n -> n mod 32 = 0 -> n / 32 < (bits - 1) / 32 ->
    left_shift bits n a = UB /\ right_shift bits n a = UB.
Proof.
  intros bits a n Hb Hn Hm Hz. assert (Ok : ~ shift_ok bits n) by (apply shift_ub_width; auto).
  split; [apply left_shift_ub|apply right_shift_ub]; auto; lia.
Qed.
Print Assumptions C16_shift_by_words_refuted.

Example C16_shift_by_words_ex : 64 < 128 /\ 32 mod 32 = 0 /\ 32 / 32 < (128 - 1) / 32.
Proof. vm_compute. repeat constructor. Qed.

(** C17.  A byte array of any length is the number it writes in the given byte order,
    reduced. *)
Theorem C17_bytes :
  forall bits bs, 0 < bits -> Forall is_byte bs ->
    value bits (assign_bytes_le bits bs) = (of_le_bytes bs mod 2 ^ N.of_nat bits)%N /\
    value bits (assign_bytes_be bits bs) = (of_le_bytes (rev bs) mod 2 ^ N.of_nat bits)%N.
Proof. intros bits bs Hb B. split; [apply assign_bytes_le_spec|apply assign_bytes_be_spec]; auto. Qed.
Print Assumptions C17_bytes.

Example C17_bytes_ex :
  value 48 (assign_bytes_be 48 [0x99; 0x01; 0x02; 0x03; 0x04; 0x05; 0x06]%N) = 0x010203040506%N.
Proof. vm_compute. reflexivity. Qed.

(** C17.  An address written to a buffer is [ceil (bits/8)] bytes in the byte order asked
    for, and is read back into any address. *)
Theorem C17_write_read :
  forall bits o a b mem it mem' it', 0 < bits -> made bits a -> made bits b -> Forall is_byte mem ->
    write bits o a mem it = Done (mem', it') ->
    read bits o b mem' it = Done (a, it') /\ length mem' = length mem /\
    mem_load mem' (N.to_nat (it_cursor it)) ((bits + 7) / 8) =
      Some (layout o LittleEndian ((bits + 7) / 8) (value bits a)) /\
    it_cursor it' = w64 (it_cursor it + N.of_nat ((bits + 7) / 8)).
Proof. intros bits o a b mem it mem' it' Hb Ha Hb' B E. eapply write_read; eauto using made_wf. Qed.
Print Assumptions C17_write_read.

Example C17_write_read_ex :
  write 20 BigOrder [0xabcde]%N [0; 0; 0; 0; 0]%N (mk_biter 0 5 1) = Done ([0; 0x0a; 0xbc; 0xde; 0]%N, mk_biter 0 5 4) /\
  made 20 [0xabcde]%N.
Proof.
  split; [vm_compute; reflexivity|].
  apply (made_op 20 (AUnsigned 4 0xabcde) (assign0 20)); [constructor|constructor|vm_compute; reflexivity].
Qed.

(** C17.  Reading takes [ceil (bits/8)] bytes and keeps the low order bits only. *)
Theorem C17_read :
  forall bits o a mem it a' it', 0 < bits -> made bits a -> Forall is_byte mem ->
    read bits o a mem it = Done (a', it') ->
    exists bs, read_bytes LittleEndian o ((bits + 7) / 8) mem it = Done (bs, it') /\
      value bits a' = (of_le_bytes bs mod 2 ^ N.of_nat bits)%N.
Proof.
  intros bits o a mem it a' it' Hb Ha B E.
  destruct (read_spec bits o a mem it a' it' Hb (made_wf bits a Hb Ha) B E) as [bs [H1 [_ H2]]]. eauto.
Qed.
Print Assumptions C17_read.

Example C17_read_ex :
  read 20 BigOrder [7]%N [0; 0xfa; 0xbc; 0xde; 0]%N (mk_biter 0 5 1) = Done ([0xabcde]%N, mk_biter 0 5 4).
Proof. vm_compute. reflexivity. Qed.

(** C18.  The difference is exact whenever it fits, if the width is above 32 or it is not
    negative. *)
Theorem C18_difference :
  forall bits a b, 0 < bits -> made bits a -> made bits b ->
    is_int64 (zvalue bits a - zvalue bits b) -> 32 < bits \/ (zvalue bits b <= zvalue bits a)%Z ->
    difference bits a b = (zvalue bits a - zvalue bits b)%Z.
Proof. intros bits a b Hb Ha Hb' Hf Hc. apply difference_spec; auto using made_wf. Qed.
Print Assumptions C18_difference.

Example C18_difference_ex :
  is_int64 (zvalue 128 [5; 0; 0; 1]%N - zvalue 128 [7; 0; 0; 1]%N) /\ difference 128 [5; 0; 0; 1]%N [7; 0; 0; 1]%N = (-2)%Z.
Proof. split; [vm_compute; split; [discriminate|reflexivity]|vm_compute; reflexivity]. Qed.

(** C18.  Up to 32 bits a negative difference comes out [2^32] too large, always. *)
Theorem C18_narrow_refuted :
  forall bits a b, 0 < bits <= 32 -> made bits a -> made bits b -> (zvalue bits a < zvalue bits b)%Z ->
    difference bits a b = (zvalue bits a - zvalue bits b + 2 ^ 32)%Z.
Proof. intros bits a b Hb Ha Hb' H. apply difference_narrow; auto; apply made_wf; auto; lia. Qed.
Print Assumptions C18_narrow_refuted.

Example C18_narrow_ex :
  made 32 (assign0 32) /\ made 32 (increment 32 (assign0 32)) /\
  difference 32 (assign0 32) (increment 32 (assign0 32)) = 4294967295%Z.
Proof.
  split; [constructor|]. split; [|vm_compute; reflexivity].
  apply (made_op 32 AInc (assign0 32)); [constructor|constructor|reflexivity].
Qed.

(** C18.  A difference that does not fit is not always the nearest integer: with 64 bits
    it wraps, with 128 the third value is not looked at. *)
Theorem C18_saturation_refuted :
  exists a b a' b', made 64 a /\ made 64 b /\ made 128 a' /\ made 128 b' /\
    (saturate (zvalue 64 a - zvalue 64 b) = 2 ^ 63 - 1 /\ difference 64 a b = -1 /\
     saturate (zvalue 128 a' - zvalue 128 b') = 2 ^ 63 - 1 /\ difference 128 a' b' = 5)%Z.
Proof.
  exists (plus 64 (-1) (assign0 64)), (assign0 64), (assign_values_le 128 4 [5; 0; 1; 0]%N), (assign0 128).
  split; [|split; [|split; [|split]]].
  - apply (made_op 64 (AAdd (-1)) (assign0 64)); [constructor|constructor; unfold is_int64; lia|reflexivity].
  - constructor.
  - apply (made_op 128 (AValues true 4 [5; 0; 1; 0]%N) (assign0 128)); [constructor| |reflexivity].
    constructor; [lia|]. repeat constructor.
  - constructor.
  - vm_compute. repeat split.
Qed.
Print Assumptions C18_saturation_refuted.

(** C19.  Multiplication of addresses of at most 64 bits is exact modulo [2^bits]. *)
Theorem C19_multiply_narrow :
  forall bits a n, 0 < bits <= 64 -> made bits a ->
    exists p q, multiply bits n a = Done p /\ multiply_assign bits n a = Done q /\
      zvalue bits p = ((zvalue bits a * Z.of_N n) mod 2 ^ Z.of_nat bits)%Z /\ q = p.
Proof.
  intros bits a n Hb Ha. pose proof (made_wf bits a ltac:(lia) Ha) as W. pose proof (single_width bits ltac:(lia)) as [_ S].
  destruct (multiply_single bits n a ltac:(lia) (proj1 W) (S ltac:(lia))) as [p [Ep [Wp Vp]]].
  destruct (multiply_assign_single bits n a ltac:(lia) (proj1 W) (S ltac:(lia))) as [q [Eq [Wq Vq]]].
  exists p, q. repeat split; auto. apply (wf_value_inj bits); auto. apply N2Z.inj. unfold zvalue in *. congruence.
Qed.
Print Assumptions C19_multiply_narrow.

Example C19_multiply_narrow_ex :
  made 40 (plus 40 (-1) (assign0 40)) /\ multiply 40 3 (plus 40 (-1) (assign0 40)) = Done [1099511627773]%N.
Proof.
  split; [|vm_compute; reflexivity].
  apply (made_op 40 (AAdd (-1)) (assign0 40)); [constructor|constructor; unfold is_int64; lia|reflexivity].
Qed.

(** C19.  Wider addresses: every multiplication, and every multiplication in place by two or
    more, touches a value behind the last. *)
Theorem C19_multiply_wide_refuted :
  forall bits a n, 64 < bits -> made bits a ->
    multiply bits n a = UB /\ ((1 < n)%N -> multiply_assign bits n a = UB).
Proof.
  intros bits a n Hb Ha. destruct (made_wf bits a ltac:(lia) Ha) as [[L _] _].
  assert (S : single bits = false).
  { destruct (single bits) eqn:S; auto. apply single_width in S; lia. }
  split.
  - unfold multiply. rewrite S. apply multiply_plus_ub; [lia|]. apply repeat_length.
  - intros Hn. unfold multiply_assign. rewrite S. rewrite (proj2 (N.eqb_neq n 0)), (proj2 (N.ltb_lt 1 n)) by lia.
    apply multiply_plus_ub; auto. lia.
Qed.
Print Assumptions C19_multiply_wide_refuted.

Example C19_multiply_wide_ex : made 128 (assign0 128) /\ multiply 128 1 (assign0 128) = UB.
Proof. split; [constructor|vm_compute; reflexivity]. Qed.

(** C19.  [!] is true exactly for zero, and so is the conversion to [bool]. *)
Theorem C19_bool_refuted :
  forall bits a, 0 < bits -> made bits a ->
    op_not bits a = (value bits a =? 0)%N /\ to_bool bits a = (value bits a =? 0)%N.
Proof.
  intros bits a Hb Ha. destruct (made_wf bits a Hb Ha) as [R _]. split; apply is_zero_spec; auto.
Qed.
Print Assumptions C19_bool_refuted.

Example C19_bool_ex :
  made 16 (assign0 16) /\ to_bool 16 (assign0 16) = true /\ to_bool 16 (increment 16 (assign0 16)) = false.
Proof. split; [constructor|split; reflexivity]. Qed.

(** C70.  The text of an address has two hexadecimal digits for each of its bytes and
    writes its number; different addresses have different texts. *)
Theorem C70_text :
  forall bits a, 0 < bits -> made bits a ->
    length (to_string bits a) = 2 * ((bits + 7) / 8) /\
    Forall (fun d => (d < 16)%N) (to_string bits a) /\
    number 4 (rev (to_string bits a)) = value bits a /\
    forall b, made bits b -> to_string bits a = to_string bits b -> a = b.
Proof.
  intros bits a Hb Ha. pose proof (made_wf bits a Hb Ha) as Wa.
  destruct (to_string_spec bits a Hb Wa) as [L [D E]]. repeat split; auto. intros b Hb' T.
  pose proof (made_wf bits b Hb Hb') as Wb. destruct (to_string_spec bits b Hb Wb) as [_ [_ E']].
  apply (wf_value_inj bits); auto. rewrite <- E, <- E', T. auto.
Qed.
Print Assumptions C70_text.

Example C70_text_ex :
  to_string 20 (assign_unsigned 20 4 0xabcde) = [0; 10; 11; 12; 13; 14]%N.
Proof. vm_compute. reflexivity. Qed.

(** C71.  Integers, signed or not, and sequences of integers in either order convert to
    the number they write, modulo [2^bits]. *)
Theorem C71_integers :
  forall bits sz v u vs, 0 < bits -> 0 < sz ->
    (- 2 ^ (8 * Z.of_nat sz - 1) <= v < 2 ^ (8 * Z.of_nat sz - 1))%Z -> (u < 2 ^ (8 * N.of_nat sz))%N ->
    Forall (fun x => (x < 2 ^ (8 * N.of_nat sz))%N) vs ->
    zvalue bits (assign_signed bits sz v) = (v mod 2 ^ Z.of_nat bits)%Z /\
    value bits (assign_unsigned bits sz u) = (u mod 2 ^ N.of_nat bits)%N /\
    value bits (assign_values_le bits sz vs) = (number (8 * N.of_nat sz) vs mod 2 ^ N.of_nat bits)%N /\
    value bits (assign_values_be bits sz vs) = (number (8 * N.of_nat sz) (rev vs) mod 2 ^ N.of_nat bits)%N /\
    value bits (assign_seq_be bits sz vs) = (number (8 * N.of_nat sz) (rev vs) mod 2 ^ N.of_nat bits)%N.
Proof.
  intros bits sz v u vs Hb Hs Hv Hu D. split; [|split; [|split; [|split]]].
  - apply assign_signed_spec; auto.
  - destruct (assign_unsigned_spec bits sz u Hb) as [_ V]. rewrite V, (N.mod_small u) by auto. reflexivity.
  - apply assign_values_le_spec; auto.
  - apply assign_values_be_spec; auto.
  - apply assign_seq_be_spec; auto.
Qed.
Print Assumptions C71_integers.

Example C71_integers_ex :
  value 100 (assign_values_be 100 2 [0x1234; 0x5678]%N) = 0x12345678%N /\
  value 100 (assign_signed 100 2 (-2)) = (2 ^ 100 - 2)%N.
Proof. split; vm_compute; reflexivity. Qed.

(** C71.  [Zero] and [Mask] are the least and the greatest address. *)
Theorem C71_extremes :
  forall bits long_size, 0 < bits -> 0 < long_size ->
    value bits (zero_addr bits) = 0%N /\ value bits (mask_addr bits long_size) = (2 ^ N.of_nat bits - 1)%N /\
    forall a, made bits a -> op_le bits (zero_addr bits) a = true /\ op_le bits a (mask_addr bits long_size) = true.
Proof.
  intros bits M Hb HM. destruct (wf_assign0 bits Hb) as [W0 V0].
  destruct (mask_spec bits M Hb HM) as [W1 V1]. split; [exact V0|]. split; [exact V1|].
  intros a Ha. destruct (made_wf bits a Hb Ha) as [R Va]. unfold op_le.
  rewrite !less_equal_spec by (auto; apply W0 || apply W1). unfold modulus in Va. rewrite V1.
  split; apply N.leb_le; [|lia]. unfold zero_addr. rewrite V0. lia.
Qed.
Print Assumptions C71_extremes.

Example C71_extremes_ex : mask_addr 40 8 = [1099511627775]%N /\ mask_addr 100 8 = [4294967295; 4294967295; 4294967295; 15]%N.
Proof. split; vm_compute; reflexivity. Qed.
