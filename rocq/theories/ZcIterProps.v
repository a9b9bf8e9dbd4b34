(** Properties of the iterators of zero-compressed buffers: C48.

    [zi_string mem it] is the byte string with the zero area in its place, [zi_pos it] the
    position of the iterator in it; [ziter_ok] holds of every iterator a buffer gives
    out, see [C43_iterators]. *)
From Verif Require Import Base BufferIter BufferIterSpec ZcIter ZcIterSpec ZcIterProofs.

(** A storage with a header 1 2 3, a trailer 4 5 6, and 5 zeros in between; the offsets of
    the buffer begin at 1. *)
Definition zmem : list N := [99; 1; 2; 3; 4; 5; 6; 98]%N.
Definition zat (cursor : N) : ziter := mk_ziter 1 4 9 12 cursor.
Example zat_ok : ziter_ok zmem (zat 3) /\ zi_string zmem (zat 3) = [1;2;3;0;0;0;0;0;4;5;6]%N /\ zi_pos (zat 3) = 2.
Proof. unfold ziter_ok. cbn. repeat split; try lia; vm_compute; congruence. Qed.

(** ** Reading *)

(** A block of [n] bytes, wherever it lies: it is the next [n] bytes of the string, as long
    as there are so many, and else the assertion fails. *)
Theorem C48_read_bytes : forall host o n mem it, ziter_ok mem it -> (N.of_nat n < 2 ^ 63)%N ->
  zi_read_bytes host o n mem it =
  if zi_pos it + n <=? length (zi_string mem it)
  then Done (in_order host o (firstn n (skipn (zi_pos it) (zi_string mem it))),
             zi_set it (zi_cursor it + N.of_nat n)%N)
  else AssertFail.
Proof. exact zi_read_bytes_eq. Qed.
Print Assumptions C48_read_bytes.
Example C48_read_bytes_ex :
  map (fun c => match zi_read_bytes LittleEndian NativeOrder 7 zmem (zat c) with Done (b, _) => b | _ => [] end)
      [1; 3; 5; 6]%N
  = [[1;2;3;0;0;0;0]; [3;0;0;0;0;0;4]; [0;0;0;0;4;5;6]; []]%N.
Proof. vm_compute. reflexivity. Qed.

(** A value of [n] bytes in an order [o]: exactly the value that is laid out so in the
    next [n] bytes of the string. *)
Theorem C48_read_int : forall host o n mem it v it',
  ziter_ok mem it -> (N.of_nat n < 2 ^ 63)%N -> Forall is_byte mem ->
  zi_read_int host o n mem it = Done (v, it') <->
  zi_pos it + n <= length (zi_string mem it) /\ (v < 2 ^ (8 * N.of_nat n))%N /\
  layout o host n v = firstn n (skipn (zi_pos it) (zi_string mem it)) /\
  it' = zi_set it (zi_cursor it + N.of_nat n)%N.
Proof. exact read_int_value. Qed.
Print Assumptions C48_read_int.
(** Otherwise the assertion fails. *)
Theorem C48_read_int_outcome : forall host o n mem it, ziter_ok mem it -> (N.of_nat n < 2 ^ 63)%N ->
  if zi_pos it + n <=? length (zi_string mem it)
  then exists v it', zi_read_int host o n mem it = Done (v, it')
  else zi_read_int host o n mem it = AssertFail.
Proof.
  intros host o n mem it H Hn. rewrite (zi_read_int_eq host o n mem it H Hn).
  destruct (zi_pos it + n <=? length (zi_string mem it)); eauto.
Qed.
Print Assumptions C48_read_int_outcome.
Example C48_read_int_ex :
  map (fun c => match zi_read_int LittleEndian BigOrder 4 zmem (zat c) with Done (v, _) => Some v | _ => None end)
      [1; 2; 4; 8; 9]%N
  = [Some 0x01020300; Some 0x02030000; Some 0; Some 0x00040506; None]%N.
Proof. vm_compute. reflexivity. Qed.

(** ** Writing *)

(** Writing one or more bytes succeeds exactly if they lie on one side of the border of
    header and trailer, outside the zero area.  It then overwrites them in the string, and
    no byte of the storage outside the buffer. *)
Definition wrote (bs : list N) (mem : list N) (it : ziter) (mem' : list N) (it' : ziter) : Prop :=
  it' = zi_set it (zi_cursor it + N.of_nat (length bs))%N /\ length mem' = length mem /\
  zi_string mem' it = overwrite (zi_pos it) bs (zi_string mem it) /\
  (forall i, i < N.to_nat (zi_start it) \/ N.to_nat (zi_end it) - zi_zeros it <= i ->
     nth_error mem' i = nth_error mem i).
Lemma store_wrote bs mem it : ziter_ok mem it -> bs <> [] -> (N.of_nat (length bs) < 2 ^ 63)%N ->
  if writable it (length bs) (length (zi_string mem it))
  then exists mem' it', zi_store bs mem it = Done (mem', it') /\ wrote bs mem it mem' it'
  else zi_store bs mem it = AssertFail.
Proof.
  intros H Hb Hn. pose proof (zi_store_eq bs mem it H Hb Hn) as E.
  destruct (writable it (length bs) (length (zi_string mem it))); auto.
  destruct E as (mem' & E & _). exists mem', (zi_set it (zi_cursor it + N.of_nat (length bs))%N). split; auto.
  apply store_done in E; auto. destruct E as (_ & _ & L & _ & _ & S & F). repeat split; auto.
Qed.
Theorem C48_write_bytes : forall host o bs mem it,
  ziter_ok mem it -> bs <> [] -> (N.of_nat (length bs) < 2 ^ 63)%N ->
  if writable it (length bs) (length (zi_string mem it))
  then exists mem' it', zi_write_bytes host o bs mem it = Done (mem', it') /\
         wrote (in_order host o bs) mem it mem' it'
  else zi_write_bytes host o bs mem it = AssertFail.
Proof.
  intros host o bs mem it H Hb Hn. unfold zi_write_bytes.
  change (if keep_endian host o then bs else rev bs) with (in_order host o bs).
  rewrite <- (in_order_length host o bs) in Hn |- *. apply store_wrote; auto.
  intros E. apply Hb. rewrite <- (in_order_twice host o bs), E. unfold in_order. destruct (is_native host o); auto.
Qed.
Print Assumptions C48_write_bytes.
Theorem C48_write_int : forall host o n v mem it,
  ziter_ok mem it -> 0 < n -> (N.of_nat n < 2 ^ 63)%N ->
  if writable it n (length (zi_string mem it))
  then exists mem' it', zi_write_int host o n v mem it = Done (mem', it') /\
         wrote (layout o host n v) mem it mem' it'
  else zi_write_int host o n v mem it = AssertFail.
Proof.
  intros host o n v mem it H Hp Hn. rewrite zi_write_int_store.
  pose proof (store_wrote (layout o host n v) mem it H) as S. rewrite layout_length in S. apply S; auto.
  intros E. pose proof (layout_length o host n v) as L. rewrite E in L. cbn in L. lia.
Qed.
Print Assumptions C48_write_int.
Theorem C48_fill : forall v n mem it,
  ziter_ok mem it -> 0 < n -> (N.of_nat n < 2 ^ 63)%N ->
  if writable it n (length (zi_string mem it))
  then exists mem' it', zi_fill v n mem it = Done (mem', it') /\ wrote (repeat v n) mem it mem' it'
  else zi_fill v n mem it = AssertFail.
Proof.
  intros v n mem it H Hp Hn. pose proof (store_wrote (repeat v n) mem it H) as S. rewrite repeat_length in S.
  apply S; auto. destruct n; [lia|discriminate].
Qed.
Print Assumptions C48_fill.
Example C48_write_ex :
  (map (fun c => match zi_write_int LittleEndian BigOrder 2 0x0708 zmem (zat c) with Done (m, _) => zi_string m (zat 1) | _ => [] end)
      [1; 2; 3; 5; 8; 9; 10; 11]
  = [[7;8;3;0;0;0;0;0;4;5;6]; [1;7;8;0;0;0;0;0;4;5;6]; []; []; []; [1;2;3;0;0;0;0;0;7;8;6]; [1;2;3;0;0;0;0;0;4;7;8]; []])%N.
Proof. vm_compute. reflexivity. Qed.

(** What was written is read back, in whatever order and width. *)
Theorem C48_write_read_int : forall host o n v mem it mem' it',
  ziter_ok mem it -> 0 < n -> (N.of_nat n < 2 ^ 63)%N -> (v < 2 ^ (8 * N.of_nat n))%N ->
  zi_write_int host o n v mem it = Done (mem', it') -> zi_read_int host o n mem' it = Done (v, it').
Proof. exact write_read_int. Qed.
Print Assumptions C48_write_read_int.
Theorem C48_write_read_bytes : forall host o bs mem it mem' it',
  ziter_ok mem it -> bs <> [] -> (N.of_nat (length bs) < 2 ^ 63)%N ->
  zi_write_bytes host o bs mem it = Done (mem', it') -> zi_read_bytes host o (length bs) mem' it = Done (bs, it').
Proof. exact write_read_bytes. Qed.
Print Assumptions C48_write_read_bytes.
Example C48_write_read_ex :
  match zi_write_int BigEndian LittleOrder 2 0xABCD zmem (zat 9) with
  | Done (m, it) => (zi_read_int BigEndian LittleOrder 2 m (zat 9), zi_read_int BigEndian BigOrder 2 m (zat 9))
  | _ => (UB, UB) end = (Done (0xABCD%N, zat 11), Done (0xCDAB%N, zat 11)).
Proof. vm_compute. reflexivity. Qed.

(** ** Moving *)

Theorem C48_moves : forall mem it n, ziter_ok mem it -> (N.of_nat n < 2 ^ 63)%N ->
  (if zi_pos it + n <=? length (zi_string mem it)
   then exists it', zi_forward it (N.of_nat n) = Done it' /\ ziter_ok mem it' /\
          zi_string mem it' = zi_string mem it /\ zi_pos it' = zi_pos it + n /\ zi_backward it' (N.of_nat n) = Done it
   else zi_forward it (N.of_nat n) = AssertFail) /\
  (if n <=? zi_pos it
   then exists it', zi_backward it (N.of_nat n) = Done it' /\ ziter_ok mem it' /\
          zi_string mem it' = zi_string mem it /\ zi_pos it' = zi_pos it - n /\ zi_forward it' (N.of_nat n) = Done it
   else zi_backward it (N.of_nat n) = AssertFail).
Proof.
  intros mem it n H Hn. rewrite (zi_forward_eq mem it n H Hn), (zi_backward_eq mem it n H Hn).
  pose proof (zi_string_length mem it H) as L.
  split.
  - destruct (Nat.leb_spec (zi_pos it + n) (length (zi_string mem it))) as [B|B]; auto.
    assert (O : ziter_ok mem (zi_set it (zi_cursor it + N.of_nat n)%N)).
    { apply zi_set_ok; auto. unfold ziter_ok, zi_pos in *. lia. }
    eexists. split; [reflexivity|]. split; [exact O|]. split; [apply zi_set_string|].
    rewrite (zi_backward_eq mem _ n O Hn).
    assert (P : zi_pos (zi_set it (zi_cursor it + N.of_nat n)%N) = zi_pos it + n).
    { unfold zi_pos, zi_set, ziter_ok in *. cbn [zi_cursor zi_start]. lia. }
    split; auto. rewrite P. destruct (Nat.leb_spec n (zi_pos it + n)); [|lia].
    f_equal. destruct it. unfold zi_set. cbn. f_equal. lia.
  - destruct (Nat.leb_spec n (zi_pos it)) as [B|B]; auto.
    assert (O : ziter_ok mem (zi_set it (zi_cursor it - N.of_nat n)%N)).
    { apply zi_set_ok; auto. unfold ziter_ok, zi_pos in *. lia. }
    eexists. split; [reflexivity|]. split; [exact O|]. split; [apply zi_set_string|].
    rewrite (zi_forward_eq mem _ n O Hn), zi_set_string.
    assert (P : zi_pos (zi_set it (zi_cursor it - N.of_nat n)%N) = zi_pos it - n).
    { unfold zi_pos, zi_set, ziter_ok in *. cbn [zi_cursor zi_start]. lia. }
    split; auto. rewrite P. unfold ziter_ok, zi_pos in *.
    destruct (Nat.leb_spec (N.to_nat (zi_cursor it) - N.to_nat (zi_start it) - n + n) (length (zi_string mem it))); [|lia].
    f_equal. destruct it. unfold zi_set. cbn in *. f_equal. lia.
Qed.
Print Assumptions C48_moves.
Theorem C48_difference : forall mem a b, ziter_ok mem a -> ziter_ok mem b -> zi_start a = zi_start b ->
  zi_diff a b = (Z.of_nat (zi_pos a) - Z.of_nat (zi_pos b))%Z.
Proof. exact zi_diff_eq. Qed.
Print Assumptions C48_difference.
Example C48_moves_ex :
  (zi_forward (zat 2) 8, zi_forward (zat 2) 11, zi_backward (zat 10) 8, zi_diff (zat 2) (zat 10))
  = (Done (zat 10), AssertFail, Done (zat 2), (-8)%Z).
Proof. vm_compute. reflexivity. Qed.

(** ** What is not as one expects *)

(** A buffer without a zero area can not be written across the place where the zero area
    would be, though all the bytes are stored. *)
Theorem C48_empty_zero_area_refuted : exists mem it bs,
  ziter_ok mem it /\ zi_zeros it = 0 /\ zi_pos it + length bs <= length (zi_string mem it) /\
  zi_write_bytes LittleEndian NativeOrder bs mem it = AssertFail.
Proof.
  exists [1;2;3;4]%N, (mk_ziter 0 2 2 4 1), [8;9]%N.
  split; [unfold ziter_ok; cbn; repeat split; try lia; vm_compute; congruence|].
  split; [reflexivity|]. split; [vm_compute; lia|]. vm_compute. reflexivity.
Qed.
Print Assumptions C48_empty_zero_area_refuted.
(** Writing nothing is refused in the zero area. *)
Theorem C48_write_nothing_refuted : exists mem it,
  ziter_ok mem it /\ zi_pos it + 0 <= length (zi_string mem it) /\
  zi_write_bytes LittleEndian NativeOrder [] mem it = AssertFail.
Proof.
  exists zmem, (zat 5). split; [unfold ziter_ok; cbn; repeat split; try lia; vm_compute; congruence|].
  split; [vm_compute; lia|]. vm_compute. reflexivity.
Qed.
Print Assumptions C48_write_nothing_refuted.
