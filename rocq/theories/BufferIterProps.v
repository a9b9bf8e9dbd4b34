(** Properties C46 and C47: buffer iterators. *)
From Verif Require Import Base BaseProofs BufferIter BufferIterSpec BufferIterProofs.

(** C46.  A written integer is read back unchanged by a read of the same width
    and order at the same place, both move the cursor identically, and no byte
    outside the written range changes. *)
Theorem C46_write_read_roundtrip :
  forall host o n v mem it mem' it',
    (v < 2 ^ (8 * N.of_nat n))%N ->
    write_int host o n v mem it = Done (mem', it') ->
    read_int host o n mem' it = Done (v, it') /\
    length mem' = length mem /\
    (forall i, i < N.to_nat (it_cursor it) \/ N.to_nat (it_cursor it) + n <= i ->
       nth_error mem' i = nth_error mem i).
Proof.
  exact (fun host o n v mem it mem' it' Hv H =>
    conj (write_read_int host o n v mem it mem' it' Hv H)
      (conj (write_int_length host o n v mem it mem' it' H)
        (fun i Hi => write_int_frame host o n v mem it mem' it' i H Hi))).
Qed.
Print Assumptions C46_write_read_roundtrip.

Example C46_write_read_roundtrip_ex :
  (0x12345678 < 2 ^ (8 * N.of_nat 4))%N /\
  exists mem' it', write_int LittleEndian BigOrder 4 0x12345678 (repeat 7%N 8) (mk_biter 1 7 2)
     = Done (mem', it') /\ mem' = [7; 7; 0x12; 0x34; 0x56; 0x78; 7; 7]%N.
Proof. split; [reflexivity|]. eexists _, _. split; vm_compute; reflexivity. Qed.

(** C46.  The bytes found in memory after a write are the documented ones:
    least significant first for little endian, most significant first for big
    endian, whatever the byte order of the host. *)
Theorem C46_write_layout :
  forall host o n v mem it mem' it',
    write_int host o n v mem it = Done (mem', it') ->
    mem_load mem' (N.to_nat (it_cursor it)) n = Some (layout o host n v).
Proof. exact write_int_layout. Qed.
Print Assumptions C46_write_layout.

Example C46_write_layout_ex :
  layout LittleOrder BigEndian 2 0x1234 = [0x34; 0x12]%N /\
  layout BigOrder LittleEndian 2 0x1234 = [0x12; 0x34]%N /\
  exists r, write_int BigEndian LittleOrder 2 0x1234 [0; 0; 0]%N (mk_biter 0 3 1) = Done r.
Proof. repeat split. eexists. vm_compute. reflexivity. Qed.

(** C46.  The other way round: what is read determines the bytes in memory. *)
Theorem C46_read_layout :
  forall host o n mem it v it',
    Forall is_byte mem -> read_int host o n mem it = Done (v, it') ->
    (v < 2 ^ (8 * N.of_nat n))%N /\
    mem_load mem (N.to_nat (it_cursor it)) n = Some (layout o host n v).
Proof. exact read_int_bytes. Qed.
Print Assumptions C46_read_layout.

Example C46_read_layout_ex :
  Forall is_byte [1; 2; 3; 4]%N /\
  read_int LittleEndian BigOrder 2 [1; 2; 3; 4]%N (mk_biter 0 4 1)
  = Done (0x203%N, mk_biter 0 4 3).
Proof. split; [repeat constructor|reflexivity]. Qed.

(** C46.  Byte arrays: what is written is read back. *)
Theorem C46_write_read_bytes :
  forall host o bs mem it mem' it',
    write_bytes host o bs mem it = Done (mem', it') ->
    read_bytes host o (length bs) mem' it = Done (bs, it') /\
    length mem' = length mem /\
    (forall i, i < N.to_nat (it_cursor it) \/ N.to_nat (it_cursor it) + length bs <= i ->
       nth_error mem' i = nth_error mem i).
Proof. exact write_read_bytes. Qed.
Print Assumptions C46_write_read_bytes.

Example C46_write_read_bytes_ex :
  exists r, write_bytes LittleEndian BigOrder [1; 2; 3]%N [0; 0; 0; 0; 0]%N (mk_biter 0 5 1) = Done r.
Proof. eexists. vm_compute. reflexivity. Qed.

(** C46.  Arrays of integers of any length written one after the other are read
    back one after the other. *)
Theorem C46_write_read_int_array :
  forall host o n vs mem it mem' it',
    n <= 8 ->
    iter_ok mem it ->
    Forall (fun v => (v < 2 ^ (8 * N.of_nat n))%N) vs ->
    write_ints host o n vs mem it = Done (mem', it') ->
    read_ints host o n (length vs) mem' it = Done (vs, it') /\
    it_cursor it' = (it_cursor it + N.of_nat (n * length vs))%N /\
    (forall i, i < N.to_nat (it_cursor it) \/ N.to_nat (it_cursor it) + n * length vs <= i ->
       nth_error mem' i = nth_error mem i) /\ length mem' = length mem.
Proof. exact write_ints_read_ints. Qed.
Print Assumptions C46_write_read_int_array.

Example C46_write_read_int_array_ex :
  iter_ok (repeat 0%N 8) (mk_biter 1 7 2) /\
  Forall (fun v => (v < 2 ^ (8 * N.of_nat 2))%N) [0xbeef; 0x10]%N /\
  exists r, write_ints LittleEndian BigOrder 2 [0xbeef; 0x10]%N (repeat 0%N 8) (mk_biter 1 7 2) = Done r.
Proof.
  split; [vm_compute; repeat split; try discriminate; lia|].
  split; [repeat constructor|]. eexists. vm_compute. reflexivity.
Qed.

(** C47.  On an iterator of a buffer, an integer access succeeds exactly when
    the bytes it needs lie between the cursor and the end of the buffer; it
    never touches memory outside the storage; otherwise its own check stops it. *)
Theorem C47_int_access_in_bounds :
  forall host o n v mem it,
    iter_ok mem it -> n <= 8 ->
    if (it_cursor it + N.of_nat n <=? it_end it)%N
    then (exists mem', write_int host o n v mem it
                       = Done (mem', set_cursor it (it_cursor it + N.of_nat n)%N)) /\
         (exists r, read_int host o n mem it
                       = Done (r, set_cursor it (it_cursor it + N.of_nat n)%N))
    else write_int host o n v mem it = AssertFail /\ read_int host o n mem it = AssertFail.
Proof.
  exact (fun host o n v mem it Hok Hn =>
    match (it_cursor it + N.of_nat n <=? it_end it)%N as b return
      (if b then exists mem', write_int host o n v mem it
                       = Done (mem', set_cursor it (it_cursor it + N.of_nat n)%N)
       else write_int host o n v mem it = AssertFail) ->
      (if b then exists r, read_int host o n mem it
                       = Done (r, set_cursor it (it_cursor it + N.of_nat n)%N)
       else read_int host o n mem it = AssertFail) ->
      (if b then _ /\ _ else _ /\ _) with
    | true => fun a b => conj a b
    | false => fun a b => conj a b
    end (write_int_total host o n v mem it Hok Hn) (read_int_total host o n mem it Hok Hn)).
Qed.
Print Assumptions C47_int_access_in_bounds.

Example C47_int_access_in_bounds_ex :
  iter_ok (repeat 0%N 8) (mk_biter 1 7 2) /\ (2 + N.of_nat 4 <=? 7)%N = true /\
  (2 + N.of_nat 8 <=? 7)%N = false.
Proof. vm_compute. repeat split; try discriminate; lia. Qed.

(** C47.  The same for byte arrays and fills shorter than 2^63 bytes. *)
Theorem C47_bytes_access_in_bounds :
  forall host o n mem it bs v,
    iter_ok mem it -> (N.of_nat n < 2 ^ 63)%N -> length bs = n ->
    if (it_cursor it + N.of_nat n <=? it_end it)%N
    then (exists mem', write_bytes host o bs mem it
                      = Done (mem', set_cursor it (it_cursor it + N.of_nat n)%N))
      /\ (exists mem', fill v n mem it
                      = Done (mem', set_cursor it (it_cursor it + N.of_nat n)%N))
      /\ (exists r, read_bytes host o n mem it
                      = Done (r, set_cursor it (it_cursor it + N.of_nat n)%N))
    else write_bytes host o bs mem it = AssertFail
      /\ fill v n mem it = AssertFail /\ read_bytes host o n mem it = AssertFail.
Proof. exact bytes_access_total. Qed.
Print Assumptions C47_bytes_access_in_bounds.

Example C47_bytes_access_in_bounds_ex :
  iter_ok (repeat 0%N 8) (mk_biter 1 7 2) /\ (N.of_nat 5 < 2 ^ 63)%N /\ (2 + N.of_nat 5 <=? 7)%N = true.
Proof. vm_compute. repeat split; try discriminate; lia. Qed.

(** C47.  Cursor moves by less than 2^63 bytes stay inside the buffer, and are
    accepted exactly when they do. *)
Theorem C47_moves_stay_inside :
  forall mem it n,
    iter_ok mem it -> (n < 2 ^ 63)%N ->
    move_forward it n =
      (if (it_cursor it + n <=? it_end it)%N then Done (set_cursor it (it_cursor it + n)%N)
       else AssertFail) /\
    move_backward it n =
      (if (it_start it + n <=? it_cursor it)%N then Done (set_cursor it (it_cursor it - n)%N)
       else AssertFail).
Proof. exact moves_stay_inside. Qed.
Print Assumptions C47_moves_stay_inside.

Example C47_moves_stay_inside_ex :
  iter_ok (repeat 0%N 8) (mk_biter 1 7 2) /\ (3 < 2 ^ 63)%N /\
  move_forward (mk_biter 1 7 2) 3 = Done (mk_biter 1 7 5).
Proof. vm_compute. repeat split; try discriminate; lia. Qed.

(** C47 without the size bound is false: the check computes [cursor_+numBytes]
    modulo 2^64, so a move forward by 2^64-1 is accepted and moves the cursor
    back by one, here even out of the range of the iterator. *)
Theorem C47_moves_unbounded_refuted :
  exists mem it n it',
    iter_ok mem it /\ (n < 2 ^ 64)%N /\
    move_forward it n = Done it' /\ (it_cursor it' < it_start it')%N.
Proof.
  exists [0%N; 0%N; 0%N], (mk_biter 1 3 1), (2 ^ 64 - 1)%N, (mk_biter 1 3 0).
  vm_compute. repeat split; try discriminate; lia.
Qed.
Print Assumptions C47_moves_unbounded_refuted.

(** C46.  [Fill] sets exactly the bytes it passes over. *)
Theorem C46_fill :
  forall v n mem it mem' it',
    iter_ok mem it -> (N.of_nat n < 2 ^ 63)%N ->
    fill v n mem it = Done (mem', it') ->
    it_cursor it' = (it_cursor it + N.of_nat n)%N /\ length mem' = length mem /\ (forall i, nth_error mem' i =
      if (N.to_nat (it_cursor it) <=? i) && (i <? N.to_nat (it_cursor it) + n) then Some v
      else nth_error mem i).
Proof. exact fill_exact. Qed.
Print Assumptions C46_fill.

Example C46_fill_ex :
  iter_ok (repeat 7%N 8) (mk_biter 1 7 2) /\ fill 9 3 (repeat 7%N 8) (mk_biter 1 7 2) = Done ([7; 7; 9; 9; 9; 7; 7; 7]%N, mk_biter 1 7 5).
Proof. vm_compute. repeat split; try discriminate; lia. Qed.

(** C47.  The difference of two iterators over the same storage is the signed
    distance of their cursors: moving the second one by it reaches the first. *)
Theorem C47_difference :
  forall mem a b,
    iter_ok mem a -> iter_ok mem b ->
    iter_diff a b = (Z.of_N (it_cursor a) - Z.of_N (it_cursor b))%Z.
Proof. exact iter_diff_exact. Qed.
Print Assumptions C47_difference.

Example C47_difference_ex :
  iter_ok (repeat 0%N 8) (mk_biter 1 7 2) /\ iter_ok (repeat 0%N 8) (mk_biter 0 8 6) /\ iter_diff (mk_biter 1 7 2) (mk_biter 0 8 6) = (-4)%Z.
Proof. vm_compute. repeat split; try discriminate; lia. Qed.
