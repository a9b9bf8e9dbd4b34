(** Property C81: messages. *)
From Verif Require Import Base BaseProofs BufferIter BufferIterSpec BufferIterProofs ZcIter ZcIterSpec ZcIterProofs
  Address AddressSpec AddressProofs Message MessageSpec MessageProofs.

(** C81.  A message that is written to a buffer is stored as the bytes of its
    values, one after the other, and nothing else changes; read back to variables
    of the same types, in the same orders, it gives the same values, and the two
    iterators end at the same place. *)
Theorem C81_write_read : forall host m s mem it mem' it',
  message_ok host m -> readable_as m s -> iter_ok mem it ->
  write_plain host m mem it = Done (mem', it') ->
  mem' = overwrite (N.to_nat (it_cursor it)) (message host m) mem /\
  it' = mk_biter (it_start it) (it_end it) (it_cursor it + N.of_nat (length (message host m))) /\
  read_plain host s mem' it = Done (map snd m, it').
Proof.
  intros host m s mem it mem' it' Hm Hs H E. split; [|split].
  - apply (write_all_done host biter (write_int host) (write_bytes host) (read_int host) (read_bytes host) p_str p_pos p_lim p_adv iter_ok
      p_lim_ok p_ok_length p_adv_ok p_adv_same p_adv_adv p_adv_0 (p_wint host) (p_wbytes host) (p_rint host) (p_rbytes host) m Hm mem it mem' it' H) in E.
    exact (proj1 (proj2 (proj2 (proj2 E)))).
  - apply (write_all_done host biter (write_int host) (write_bytes host) (read_int host) (read_bytes host) p_str p_pos p_lim p_adv iter_ok
      p_lim_ok p_ok_length p_adv_ok p_adv_same p_adv_adv p_adv_0 (p_wint host) (p_wbytes host) (p_rint host) (p_rbytes host) m Hm mem it mem' it' H) in E.
    exact (proj1 E).
  - exact (write_read_all host biter (write_int host) (write_bytes host) (read_int host) (read_bytes host) p_str p_pos p_lim p_adv iter_ok
      p_lim_ok p_ok_length p_adv_ok p_adv_same p_adv_adv p_adv_0 (p_wint host) (p_wbytes host) (p_rint host) (p_rbytes host) m s mem it mem' it' Hm Hs H E).
Qed.
Print Assumptions C81_write_read.

(** A 12 bit address. *)
Definition a12 : addr := [0xabc]%N.

Example C81_write_read_ex :
  let m := [(LittleOrder, FNum (SInt 2) (-2)); (BigOrder, FNums (UInt 1) [7; 8]%Z); (BigOrder, FDuration (-1000));
            (NativeOrder, FTime 5)] in
  let s := [(LittleOrder, SNum (SInt 2)); (BigOrder, SNums (UInt 1) 2); (BigOrder, SDuration); (NativeOrder, STime)] in
  message_ok BigEndian m /\ readable_as m s /\ iter_ok (repeat 9%N 24) (mk_biter 0 24 2) /\
  exists mem' it', write_plain BigEndian m (repeat 9%N 24) (mk_biter 0 24 2) = Done (mem', it') /\
    mem' = [9;9; 254;255; 7;8; 255;255;255;255;255;255;252;24; 0;0;0;0;0;0;0;5; 9;9]%N /\ it' = mk_biter 0 24 22.
Proof.
  cbv zeta. split; [|split; [|split]].
  - repeat constructor; cbn; intuition lia.
  - repeat constructor.
  - repeat split; vm_compute; try discriminate; repeat constructor.
  - eexists _, _. split; [vm_compute; reflexivity|split; reflexivity].
Qed.

(** C81.  Writing never goes wrong otherwise than by its assertion, and the
    assertion fails exactly if the message does not fit. *)
Theorem C81_write_outcome : forall host m mem it,
  message_ok host m -> iter_ok mem it ->
  if N.to_nat (it_cursor it) + length (message host m) <=? N.to_nat (it_end it)
  then exists r, write_plain host m mem it = Done r
  else write_plain host m mem it = AssertFail.
Proof.
  intros host m mem it Hm H.
  exact (write_all_out host biter (write_int host) (write_bytes host) (read_int host) (read_bytes host) p_str p_pos p_lim p_adv iter_ok
      p_lim_ok p_ok_length p_adv_ok p_adv_same p_adv_adv p_adv_0 (p_wint host) (p_wbytes host) (p_rint host) (p_rbytes host)
      p_can p_can_0 p_can_add (p_wint_out host) (p_wbytes_out host) m Hm mem it H).
Qed.
Print Assumptions C81_write_outcome.

Example C81_write_outcome_ex :
  message_ok LittleEndian [(BigOrder, FAddr 12 a12); (BigOrder, FNum (UInt 4) 1)] /\
  iter_ok (repeat 0%N 6) (mk_biter 0 6 0) /\ iter_ok (repeat 0%N 6) (mk_biter 0 6 1) /\
  write_plain LittleEndian [(BigOrder, FAddr 12 a12); (BigOrder, FNum (UInt 4) 1)] (repeat 0%N 6) (mk_biter 0 6 0)
    = Done ([10; 188; 0; 0; 0; 1]%N, mk_biter 0 6 6) /\
  write_plain LittleEndian [(BigOrder, FAddr 12 a12); (BigOrder, FNum (UInt 4) 1)] (repeat 0%N 6) (mk_biter 0 6 1) = AssertFail.
Proof.
  split; [|split; [|split; [|split; vm_compute; reflexivity]]].
  - constructor; [|constructor; [split; cbn; [auto|lia]|constructor]].
    cbn [snd field_ok]. split; [reflexivity|]. split; [lia|]. split; [reflexivity|].
    apply (made_op 12 (AUnsigned 4 0xabc) (assign0 12)); [constructor|constructor|vm_compute; reflexivity].
  - repeat split; vm_compute; try discriminate; repeat constructor.
  - repeat split; vm_compute; try discriminate; repeat constructor.
Qed.

(** C81.  The bytes decide: wherever the bytes of a message lie in front of an
    iterator, they are read as the message. *)
Theorem C81_read : forall host m s mem it,
  message_ok host m -> readable_as m s -> iter_ok mem it ->
  N.to_nat (it_cursor it) + length (message host m) <= N.to_nat (it_end it) ->
  slice (N.to_nat (it_cursor it)) (N.to_nat (it_cursor it) + length (message host m)) mem = message host m ->
  read_plain host s mem it =
  Done (map snd m, mk_biter (it_start it) (it_end it) (it_cursor it + N.of_nat (length (message host m)))).
Proof.
  intros host m s mem it Hm Hs H L E. unfold slice in E.
  replace (N.to_nat (it_cursor it) + length (message host m) - N.to_nat (it_cursor it)) with (length (message host m)) in E by lia.
  exact (read_all_next host biter (write_int host) (write_bytes host) (read_int host) (read_bytes host) p_str p_pos p_lim p_adv iter_ok
      p_lim_ok p_ok_length p_adv_ok p_adv_same p_adv_adv p_adv_0 (p_wint host) (p_wbytes host) (p_rint host) (p_rbytes host)
      m Hm s mem it Hs H (conj L E)).
Qed.
Print Assumptions C81_read.

Example C81_read_ex :
  message BigEndian [(LittleOrder, FNum (SInt 2) (-2)); (NativeOrder, FNum (UInt 2) 258)] = [254; 255; 1; 2]%N /\
  read_plain BigEndian [(LittleOrder, SNum (SInt 2)); (NativeOrder, SNum (UInt 2))] [7; 254; 255; 1; 2]%N (mk_biter 0 5 1)
  = Done ([FNum (SInt 2) (-2); FNum (UInt 2) 258], mk_biter 0 5 5).
Proof. split; vm_compute; reflexivity. Qed.

(** C81.  Reading succeeds exactly if there are enough bytes, whatever they are;
    otherwise the assertion fails. *)
Theorem C81_read_outcome : forall host s mem it,
  Forall (fun q => shape_ok (snd q)) s -> iter_ok mem it ->
  if N.to_nat (it_cursor it) + shapes_size s <=? N.to_nat (it_end it)
  then exists fs, read_plain host s mem it =
         Done (fs, mk_biter (it_start it) (it_end it) (it_cursor it + N.of_nat (shapes_size s)))
  else read_plain host s mem it = AssertFail.
Proof.
  intros host s mem it Hs H.
  exact (read_all_out host biter (write_int host) (write_bytes host) (read_int host) (read_bytes host) p_str p_pos p_lim p_adv iter_ok
      p_lim_ok p_ok_length p_adv_ok p_adv_same p_adv_adv p_adv_0 (p_wint host) (p_wbytes host) (p_rint host) (p_rbytes host)
      p_can p_can_0 p_can_add (p_wint_out host) (p_wbytes_out host)
      (p_rint_fail host) (p_rbytes_fail host) (p_rint_moves host) (p_rbytes_moves host) s Hs mem it H).
Qed.
Print Assumptions C81_read_outcome.

Example C81_read_outcome_ex :
  shapes_size [(BigOrder, SAddr 12 a12); (BigOrder, SNums (UInt 2) 3)] = 8 /\
  Forall (fun q => shape_ok (snd q)) [(BigOrder, SAddr 12 a12); (BigOrder, SNums (UInt 2) 3)] /\
  read_plain LittleEndian [(BigOrder, SAddr 12 a12); (BigOrder, SNums (UInt 2) 3)] (repeat 1%N 7) (mk_biter 0 7 0) = AssertFail.
Proof.
  split; [reflexivity|]. split; [|vm_compute; reflexivity].
  constructor; [cbn; lia|]. constructor; [cbn; auto|constructor].
Qed.

(** C81.  Messages with an explicit byte order travel: the bytes that one host
    writes are read as the same values by a host of the other byte order. *)
Theorem C81_other_host : forall h1 h2 m s mem it mem' it',
  message_ok h1 m -> message_ok h2 m -> portable m -> readable_as m s -> iter_ok mem it ->
  write_plain h1 m mem it = Done (mem', it') -> read_plain h2 s mem' it = Done (map snd m, it').
Proof.
  intros h1 h2 m s mem it mem' it' H1 H2 Hp Hs H E.
  destruct (C81_write_read h1 m s mem it mem' it' H1 Hs H E) as (-> & -> & _).
  assert (EM : message h2 m = message h1 m).
  { clear -Hp. unfold message. induction Hp as [|[o f] m Ho Hm IH]; [reflexivity|]. cbn [flat_map fst snd]. rewrite IH. f_equal.
    cbn [fst] in Ho. destruct o; try discriminate; destruct f; reflexivity. }
  pose proof (C81_write_outcome h1 m mem it H1 H) as W. rewrite E in W.
  destruct (Nat.leb_spec (N.to_nat (it_cursor it) + length (message h1 m)) (N.to_nat (it_end it))) as [L|L]; [|discriminate].
  rewrite <- EM. apply C81_read; auto.
  - unfold iter_ok in *. rewrite overwrite_length; [exact H|rewrite EM; lia].
  - rewrite EM. exact L.
  - unfold slice. rewrite EM.
    replace (N.to_nat (it_cursor it) + length (message h1 m) - N.to_nat (it_cursor it)) with (length (message h1 m)) by lia.
    apply overwrite_read. unfold iter_ok in H. lia.
Qed.
Print Assumptions C81_other_host.

Example C81_other_host_ex :
  let m := [(LittleOrder, FNum (SInt 4) (-3)); (BigOrder, FTime 77)] in
  message_ok LittleEndian m /\ message_ok BigEndian m /\ portable m /\
  readable_as m [(LittleOrder, SNum (SInt 4)); (BigOrder, STime)] /\
  exists mem' it', write_plain LittleEndian m (repeat 0%N 12) (mk_biter 0 12 0) = Done (mem', it') /\
    mem' = [253;255;255;255; 0;0;0;0;0;0;0;77]%N.
Proof.
  cbv zeta. split; [|split; [|split; [|split]]]; try (repeat constructor; cbn; intuition lia).
  eexists _, _. split; vm_compute; reflexivity.
Qed.

(** C81.  Without an explicit byte order they do not. *)
Theorem C81_native_other_host_refuted : exists m s mem it mem' it',
  message_ok LittleEndian m /\ message_ok BigEndian m /\ readable_as m s /\ iter_ok mem it /\
  write_plain LittleEndian m mem it = Done (mem', it') /\ read_plain BigEndian s mem' it <> Done (map snd m, it').
Proof.
  exists [(NativeOrder, FNum (UInt 2) 1)], [(NativeOrder, SNum (UInt 2))], [0; 0]%N, (mk_biter 0 2 0).
  eexists _, _. split; [|split; [|split; [|split; [|split; [vm_compute; reflexivity|vm_compute; discriminate]]]]].
  1-3: repeat constructor; cbn; intuition lia.
  repeat split; vm_compute; try discriminate; repeat constructor.
Qed.
Print Assumptions C81_native_other_host_refuted.

(** C81.  Zero-compressed buffers: the same with the string that the buffer stands
    for, header, zeros and trailer. *)
Theorem C81_zc_write_read : forall host m s mem it mem' it',
  message_ok host m -> readable_as m s -> ziter_ok mem it ->
  write_zc host m mem it = Done (mem', it') ->
  length mem' = length mem /\
  zi_string mem' it = overwrite (zi_pos it) (message host m) (zi_string mem it) /\
  it' = zi_set it (zi_cursor it + N.of_nat (length (message host m)))%N /\
  read_zc host s mem' it = Done (map snd m, it').
Proof.
  intros host m s mem it mem' it' Hm Hs H E.
  pose proof (write_read_all host ziter (zi_write_int host) (zi_write_bytes host) (zi_read_int host) (zi_read_bytes host) zi_string zi_pos z_lim z_adv ziter_ok
      z_lim_ok z_ok_length z_adv_ok z_adv_same z_adv_adv z_adv_0 (z_wint host) (z_wbytes host) (z_rint host) (z_rbytes host) m s mem it mem' it' Hm Hs H E) as R.
  apply (write_all_done host ziter (zi_write_int host) (zi_write_bytes host) (zi_read_int host) (zi_read_bytes host) zi_string zi_pos z_lim z_adv ziter_ok
      z_lim_ok z_ok_length z_adv_ok z_adv_same z_adv_adv z_adv_0 (z_wint host) (z_wbytes host) (z_rint host) (z_rbytes host) m Hm mem it mem' it' H) in E.
  destruct E as (E1 & _ & E3 & E4 & _). auto.
Qed.
Print Assumptions C81_zc_write_read.

(** C81.  Writing succeeds exactly if the message lies inside the buffer and
    outside its zero area; otherwise the assertion fails. *)
Theorem C81_zc_write_outcome : forall host m mem it,
  message_ok host m -> message host m <> [] -> ziter_ok mem it -> 0 < zi_zeros it ->
  if writable it (length (message host m)) (length (zi_string mem it))
  then exists r, write_zc host m mem it = Done r
  else write_zc host m mem it = AssertFail.
Proof.
  intros host m mem it Hm Hn H Hz. rewrite (zi_string_length mem it H).
  pose proof (write_all_out host ziter (zi_write_int host) (zi_write_bytes host) (zi_read_int host) (zi_read_bytes host) zi_string zi_pos z_lim z_adv z_ok
      (fun mem it H => z_lim_ok mem it (proj1 H)) (fun mem mem' it H E => conj (z_ok_length mem mem' it (proj1 H) E) (proj2 H))
      (fun mem it n H L => let P := z_adv_ok mem it n (proj1 H) L in conj (conj (proj1 P) (proj2 H)) (proj2 P))
      z_adv_same z_adv_adv z_adv_0
      (fun o n v mem it mem' it' H => z_wint host o n v mem it mem' it' (proj1 H))
      (fun o bs mem it mem' it' H => z_wbytes host o bs mem it mem' it' (proj1 H))
      (fun o n v mem it H => z_rint host o n v mem it (proj1 H))
      (fun o bs mem it H => z_rbytes host o bs mem it (proj1 H))
      z_can (fun _ _ _ => eq_refl) z_can_add
      (fun o n v mem it H => z_wint_out host o n v mem it (proj1 H))
      (fun o bs mem it H => z_wbytes_out host o bs mem it (proj1 H)) m Hm mem it (conj H Hz)) as W.
  unfold z_can in W. destruct (message host m) as [|b l] eqn:E; [congruence|]. exact W.
Qed.
Print Assumptions C81_zc_write_outcome.

(** C81.  The bytes decide, those of the zero area being zeros. *)
Theorem C81_zc_read : forall host m s mem it,
  message_ok host m -> readable_as m s -> ziter_ok mem it ->
  zi_pos it + length (message host m) <= length (zi_string mem it) ->
  slice (zi_pos it) (zi_pos it + length (message host m)) (zi_string mem it) = message host m ->
  read_zc host s mem it = Done (map snd m, zi_set it (zi_cursor it + N.of_nat (length (message host m)))%N).
Proof.
  intros host m s mem it Hm Hs H L E. unfold slice in E. rewrite (zi_string_length mem it H) in L.
  replace (zi_pos it + length (message host m) - zi_pos it) with (length (message host m)) in E by lia.
  exact (read_all_next host ziter (zi_write_int host) (zi_write_bytes host) (zi_read_int host) (zi_read_bytes host) zi_string zi_pos z_lim z_adv ziter_ok
      z_lim_ok z_ok_length z_adv_ok z_adv_same z_adv_adv z_adv_0 (z_wint host) (z_wbytes host) (z_rint host) (z_rbytes host)
      m Hm s mem it Hs H (conj L E)).
Qed.
Print Assumptions C81_zc_read.

(** Four bytes of header, three zeros, three bytes of trailer; the first message
    is written to the header, the second is read across the zero area. *)
Example C81_zc_ex :
  let it := mk_ziter 0 4 7 10 1 in
  let m := [(BigOrder, FNum (SInt 2) (-2)); (LittleOrder, FNum (UInt 1) 5)] in
  let s := [(BigOrder, SNum (SInt 2)); (LittleOrder, SNum (UInt 1))] in
  message_ok LittleEndian m /\ readable_as m s /\ ziter_ok (repeat 9%N 7) it /\ 0 < zi_zeros it /\
  write_zc LittleEndian m (repeat 9%N 7) it = Done ([9; 255; 254; 5; 9; 9; 9]%N, mk_ziter 0 4 7 10 4) /\
  read_zc LittleEndian [(LittleOrder, SNum (UInt 2)); (BigOrder, SNum (UInt 4))] [9; 255; 254; 5; 8; 9; 9]%N (mk_ziter 0 4 7 10 2)
  = Done ([FNum (UInt 2) 0x5fe; FNum (UInt 4) 8], mk_ziter 0 4 7 10 8) /\
  write_zc LittleEndian m (repeat 9%N 7) (mk_ziter 0 4 7 10 2) = AssertFail.
Proof.
  cbv zeta. split; [repeat constructor; cbn; intuition lia|]. split; [repeat constructor|].
  split; [repeat split; vm_compute; try discriminate; repeat constructor|].
  split; [vm_compute; repeat constructor|]. repeat split; vm_compute; reflexivity.
Qed.

(** C81.  If there is no zero area, a message can be written piecewise across the
    place where it would be, but a single value cannot: the outcome depends on how
    the message is cut into values. *)
Theorem C81_zc_border_refuted : exists m1 m2 mem it,
  message LittleEndian m1 = message LittleEndian m2 /\ message_ok LittleEndian m1 /\ message_ok LittleEndian m2 /\
  ziter_ok mem it /\ zi_zeros it = 0 /\
  zi_pos it + length (message LittleEndian m1) <= length (zi_string mem it) /\
  (exists r, write_zc LittleEndian m1 mem it = Done r) /\ write_zc LittleEndian m2 mem it = AssertFail.
Proof.
  exists [(LittleOrder, FNum (UInt 1) 1); (LittleOrder, FNum (UInt 1) 2)], [(LittleOrder, FNum (UInt 2) 0x201)],
    [0; 0]%N, (mk_ziter 0 1 1 2 0).
  split; [vm_compute; reflexivity|]. split; [repeat constructor; cbn; intuition lia|]. split; [repeat constructor; cbn; intuition lia|].
  split; [repeat split; vm_compute; try discriminate; repeat constructor|]. split; [reflexivity|].
  split; [vm_compute; repeat constructor|]. split; [eexists; vm_compute; reflexivity|vm_compute; reflexivity].
Qed.
Print Assumptions C81_zc_border_refuted.

(** C81.  Whatever bytes are read, the values are values of their types, and there
    is one message only that has these bytes: writing the values gives the bytes
    again.  Addresses have bits that are not used, so the last part is about
    messages without addresses. *)
Theorem C81_read_valid : forall host s mem it fs it',
  Forall is_byte mem -> iter_ok mem it -> Forall (fun q => variable_ok host (snd q)) s ->
  read_plain host s mem it = Done (fs, it') ->
  exists m, map fst m = map fst s /\ map snd m = fs /\ message_ok host m /\ readable_as m s /\
    (forallb (fun q => negb (is_address (snd q))) s = true ->
     it' = mk_biter (it_start it) (it_end it) (it_cursor it + N.of_nat (length (message host m))) /\
     slice (N.to_nat (it_cursor it)) (N.to_nat (it_cursor it) + length (message host m)) mem = message host m).
Proof.
  intros host s mem it fs it' Hm H Hs E. destruct (p_read_all host s Hs mem it fs it' Hm H E) as (m & M1 & M2 & M3 & M4 & _ & M6).
  exists m. split; [exact M1|]. split; [exact M2|]. split; [exact M3|]. split; [exact M4|].
  intros B. destruct (M6 B) as [-> E2]. split; [reflexivity|]. unfold slice.
  replace (N.to_nat (it_cursor it) + length (message host m) - N.to_nat (it_cursor it)) with (length (message host m)) by lia.
  exact E2.
Qed.
Print Assumptions C81_read_valid.

Example C81_read_valid_ex :
  Forall is_byte [255; 7; 128; 0; 9; 9]%N /\ variable_ok LittleEndian (SAddr 12 (assign0 12)) /\
  read_plain LittleEndian [(BigOrder, SAddr 12 (assign0 12)); (BigOrder, SNum (SInt 2))] [255; 7; 128; 0; 9; 9]%N (mk_biter 0 6 0)
  = Done ([FAddr 12 [0xf07]%N; FNum (SInt 2) (-32768)], mk_biter 0 6 4).
Proof.
  split; [repeat constructor|]. split; [split; [cbn; lia|split; [reflexivity|constructor]]|vm_compute; reflexivity].
Qed.
