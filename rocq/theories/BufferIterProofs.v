From Verif Require Import Base BaseProofs BufferIter BufferIterSpec.
From Coq Require Import ZifyBool ZifyNat ZifyN.
Ltac Zify.zify_post_hook ::= Z.div_mod_to_equations.

Lemma can_move_forward_spec mem it n :
  iter_ok mem it -> (n < 2 ^ 63)%N ->
  can_move_forward it n = (it_cursor it + n <=? it_end it)%N.
Proof.
  intros (H1 & H2 & H3 & H4) Hn. unfold can_move_forward.
  rewrite w64_small; [reflexivity|]. lia.
Qed.

Lemma can_move_backward_spec mem it n :
  iter_ok mem it -> (n < 2 ^ 63)%N ->
  can_move_backward it n = (it_start it + n <=? it_cursor it)%N.
Proof.
  intros (H1 & H2 & H3 & H4) Hn. unfold can_move_backward.
  rewrite w64_small; [reflexivity|]. lia.
Qed.

Lemma write_int_done host o n v mem it mem' it' :
  write_int host o n v mem it = Done (mem', it') ->
  mem_store mem (N.to_nat (it_cursor it))
    (if keep_endian host o then mem_bytes host n v else rev (mem_bytes host n v)) = Some mem' /\
  it' = set_cursor it (w64 (it_cursor it + N.of_nat n)) /\
  can_move_forward it (N.of_nat n) = true.
Proof.
  unfold write_int. destruct (can_move_forward it (N.of_nat n)); [|discriminate].
  destruct (mem_store _ _ _) eqn:E; [|discriminate]. intros [= <- <-]. auto.
Qed.

Lemma keep_rev_length {A} (b : bool) (l : list A) : length (if b then l else rev l) = length l.
Proof. destruct b; [reflexivity|apply rev_length]. Qed.

Lemma write_read_int host o n v mem it mem' it' :
  (v < 2 ^ (8 * N.of_nat n))%N ->
  write_int host o n v mem it = Done (mem', it') ->
  read_int host o n mem' it = Done (v, it').
Proof.
  intros Hv H. destruct (write_int_done _ _ _ _ _ _ _ _ H) as (Hs & -> & Hc).
  unfold read_int. rewrite Hc.
  pose proof (mem_store_load _ _ _ _ Hs) as Hl.
  rewrite keep_rev_length, mem_bytes_length in Hl. rewrite Hl.
  destruct (keep_endian host o); rewrite ?rev_involutive;
    rewrite of_mem_bytes_mem_bytes by exact Hv; reflexivity.
Qed.

Lemma write_int_frame host o n v mem it mem' it' i :
  write_int host o n v mem it = Done (mem', it') ->
  i < N.to_nat (it_cursor it) \/ N.to_nat (it_cursor it) + n <= i ->
  nth_error mem' i = nth_error mem i.
Proof.
  intros H Hi. destruct (write_int_done _ _ _ _ _ _ _ _ H) as (Hs & _ & _).
  apply (mem_store_other _ _ _ _ _ Hs). rewrite keep_rev_length, mem_bytes_length. exact Hi.
Qed.

Lemma keep_mem_bytes host o n v :
  (if keep_endian host o then mem_bytes host n v else rev (mem_bytes host n v)) = layout o host n v.
Proof. destruct host, o; cbn; rewrite ?rev_involutive; reflexivity. Qed.

Lemma write_int_layout host o n v mem it mem' it' :
  write_int host o n v mem it = Done (mem', it') ->
  mem_load mem' (N.to_nat (it_cursor it)) n = Some (layout o host n v).
Proof.
  intros H. destruct (write_int_done _ _ _ _ _ _ _ _ H) as (Hs & _ & _).
  rewrite keep_mem_bytes in Hs. pose proof (mem_store_load _ _ _ _ Hs) as Hl.
  rewrite <- keep_mem_bytes, keep_rev_length, mem_bytes_length, keep_mem_bytes in Hl. exact Hl.
Qed.

Lemma write_int_length host o n v mem it mem' it' :
  write_int host o n v mem it = Done (mem', it') -> length mem' = length mem.
Proof.
  intros H. destruct (write_int_done _ _ _ _ _ _ _ _ H) as (Hs & _ & _).
  eapply mem_store_length, Hs.
Qed.

Lemma write_int_total host o n v mem it :
  iter_ok mem it -> n <= 8 ->
  if (it_cursor it + N.of_nat n <=? it_end it)%N
  then exists mem', write_int host o n v mem it
                    = Done (mem', set_cursor it (it_cursor it + N.of_nat n)%N)
  else write_int host o n v mem it = AssertFail.
Proof.
  intros Hok Hn. unfold write_int.
  rewrite (can_move_forward_spec mem) by (auto; lia).
  destruct (N.leb_spec (it_cursor it + N.of_nat n) (it_end it)) as [H|H]; [|reflexivity].
  destruct Hok as (H1 & H2 & H3 & H4).
  destruct (mem_store_some mem (N.to_nat (it_cursor it))
    (if keep_endian host o then mem_bytes host n v else rev (mem_bytes host n v))) as [mem' Hm].
  { rewrite keep_rev_length, mem_bytes_length. lia. }
  rewrite Hm. exists mem'. rewrite w64_small by lia. reflexivity.
Qed.

Lemma read_int_total host o n mem it :
  iter_ok mem it -> n <= 8 ->
  if (it_cursor it + N.of_nat n <=? it_end it)%N
  then exists v, read_int host o n mem it
                 = Done (v, set_cursor it (it_cursor it + N.of_nat n)%N)
  else read_int host o n mem it = AssertFail.
Proof.
  intros Hok Hn. unfold read_int.
  rewrite (can_move_forward_spec mem) by (auto; lia).
  destruct (N.leb_spec (it_cursor it + N.of_nat n) (it_end it)) as [H|H]; [|reflexivity].
  destruct Hok as (H1 & H2 & H3 & H4).
  rewrite mem_load_some by lia. rewrite w64_small by lia. eauto.
Qed.

Lemma bytes_access_total host o n mem it bs v :
  iter_ok mem it -> (N.of_nat n < 2 ^ 63)%N -> length bs = n ->
  if (it_cursor it + N.of_nat n <=? it_end it)%N
  then (exists mem', write_bytes host o bs mem it
                    = Done (mem', set_cursor it (it_cursor it + N.of_nat n)%N))
    /\ (exists mem', fill v n mem it
                    = Done (mem', set_cursor it (it_cursor it + N.of_nat n)%N))
    /\ (exists r, read_bytes host o n mem it
                    = Done (r, set_cursor it (it_cursor it + N.of_nat n)%N))
  else write_bytes host o bs mem it = AssertFail
    /\ fill v n mem it = AssertFail /\ read_bytes host o n mem it = AssertFail.
Proof.
  intros Hok Hn Hl. unfold write_bytes, fill, read_bytes. rewrite Hl.
  rewrite (can_move_forward_spec mem) by (auto; lia).
  destruct (N.leb_spec (it_cursor it + N.of_nat n) (it_end it)) as [H|H]; [|auto].
  destruct Hok as (H1 & H2 & H3 & H4).
  rewrite w64_small by lia. split; [|split].
  - destruct (mem_store_some mem (N.to_nat (it_cursor it))
      (if keep_endian host o then bs else rev bs)) as [mem' Hm].
    { rewrite keep_rev_length. lia. }
    rewrite Hm. eauto.
  - destruct (mem_store_some mem (N.to_nat (it_cursor it)) (repeat v n)) as [mem' Hm].
    { rewrite repeat_length. lia. }
    rewrite Hm. eauto.
  - rewrite mem_load_some by lia. eauto.
Qed.

Lemma write_read_bytes host o bs mem it mem' it' :
  write_bytes host o bs mem it = Done (mem', it') ->
  read_bytes host o (length bs) mem' it = Done (bs, it') /\
  length mem' = length mem /\
  (forall i, i < N.to_nat (it_cursor it) \/ N.to_nat (it_cursor it) + length bs <= i ->
     nth_error mem' i = nth_error mem i).
Proof.
  unfold write_bytes, read_bytes.
  destruct (can_move_forward it (N.of_nat (length bs))); [|discriminate].
  destruct (mem_store _ _ _) eqn:E; [|discriminate]. intros [= <- <-].
  split; [|split].
  - pose proof (mem_store_load _ _ _ _ E) as Hl. rewrite keep_rev_length in Hl. rewrite Hl.
    destruct (keep_endian host o); rewrite ?rev_involutive; reflexivity.
  - eapply mem_store_length, E.
  - intros i Hi. apply (mem_store_other _ _ _ _ _ E). rewrite keep_rev_length. exact Hi.
Qed.

Lemma read_int_bytes host o n mem it v it' :
  Forall is_byte mem -> read_int host o n mem it = Done (v, it') ->
  (v < 2 ^ (8 * N.of_nat n))%N /\
  mem_load mem (N.to_nat (it_cursor it)) n = Some (layout o host n v).
Proof.
  intros Hm. unfold read_int.
  destruct (can_move_forward it (N.of_nat n)); [|discriminate].
  destruct (mem_load _ _ _) as [b|] eqn:E; [|discriminate]. intros [= <- <-].
  assert (Hlen : length b = n /\ Forall is_byte b).
  { revert E. unfold mem_load. destruct (Nat.leb_spec (N.to_nat (it_cursor it) + n) (length mem)); [|discriminate].
    intros [= <-]. split; [rewrite firstn_length, skipn_length; lia|].
    apply Forall_forall. intros x Hx. rewrite Forall_forall in Hm. apply Hm.
    assert (In x (skipn (N.to_nat (it_cursor it)) mem)).
    { rewrite <- (firstn_skipn n (skipn _ mem)). apply in_or_app. now left. }
    rewrite <- (firstn_skipn (N.to_nat (it_cursor it)) mem). apply in_or_app. now right. }
  destruct Hlen as [Hlen Hb]. set (b' := if keep_endian host o then b else rev b).
  assert (Hb' : Forall is_byte b' /\ length b' = n).
  { unfold b'. destruct (keep_endian host o); split; auto; [now apply Forall_rev|now rewrite rev_length]. }
  destruct Hb' as [Hb' Hl']. split.
  - pose proof (of_mem_bytes_lt host b' Hb') as H. now rewrite Hl' in H.
  - f_equal. rewrite <- keep_mem_bytes.
    pose proof (mem_bytes_of_mem_bytes host b' Hb') as H. rewrite Hl' in H. rewrite H.
    unfold b'. destruct (keep_endian host o); now rewrite ?rev_involutive.
Qed.

(** Reads and writes of the same place in opposite orders give byte-swapped values. *)
Lemma write_little_read_big host n v mem it mem' it' :
  (v < 2 ^ (8 * N.of_nat n))%N ->
  write_int host LittleOrder n v mem it = Done (mem', it') ->
  exists v', read_int host BigOrder n mem' it = Done (v', it') /\ le_bytes n v' = rev (le_bytes n v).
Proof.
  intros Hv H. pose proof (write_int_layout _ _ _ _ _ _ _ _ H) as HL. cbn in HL.
  destruct (write_int_done _ _ _ _ _ _ _ _ H) as (_ & -> & Hc).
  unfold read_int. rewrite Hc, HL. eexists; split; [reflexivity|].
  pose proof (le_bytes_bytes n v) as HB. pose proof (Forall_rev HB) as HB'.
  pose proof (le_bytes_of_le_bytes _ HB') as HX.
  rewrite rev_length, le_bytes_length in HX.
  destruct host; cbn [keep_endian is_native endian_eqb of_mem_bytes]; exact HX.
Qed.

Lemma write_ints_read_ints host o n vs mem it mem' it' :
  n <= 8 ->
  iter_ok mem it ->
  Forall (fun v => (v < 2 ^ (8 * N.of_nat n))%N) vs ->
  write_ints host o n vs mem it = Done (mem', it') ->
  read_ints host o n (length vs) mem' it = Done (vs, it') /\
  it_cursor it' = (it_cursor it + N.of_nat (n * length vs))%N /\
  (forall i, i < N.to_nat (it_cursor it) \/ N.to_nat (it_cursor it) + n * length vs <= i ->
     nth_error mem' i = nth_error mem i) /\ length mem' = length mem.
Proof.
  intros Hn. revert mem it. induction vs as [|v vs IH]; intros mem it Hok Hv H.
  - cbn in H. injection H as <- <-. cbn. rewrite Nat.mul_0_r. repeat split; auto. lia.
  - cbn [write_ints obind] in H. inversion Hv as [|? ? Hv1 Hvs]; subst.
    destruct (write_int host o n v mem it) as [[mem1 it1]| | |] eqn:E; cbn [obind] in H; try discriminate.
    pose proof (write_int_total host o n v mem it Hok Hn) as HT.
    destruct (N.leb_spec (it_cursor it + N.of_nat n) (it_end it)) as [Hle|]; [|congruence].
    destruct HT as [m HT]. rewrite E in HT. injection HT as -> ->.
    pose proof (write_int_length _ _ _ _ _ _ _ _ E) as HL.
    assert (Hok1 : iter_ok m (set_cursor it (it_cursor it + N.of_nat n))).
    { destruct Hok as (? & ? & ? & ?). unfold iter_ok; cbn. lia. }
    destruct (IH _ _ Hok1 Hvs H) as (Hr & Hcur & Hfr & Hlen).
    cbn [it_cursor set_cursor] in Hcur, Hfr.
    assert (Hmem : read_int host o n mem' it = Done (v, set_cursor it (it_cursor it + N.of_nat n))).
    { pose proof (write_read_int _ _ _ _ _ _ _ _ Hv1 E) as HR. revert HR.
      unfold read_int. destruct (can_move_forward it (N.of_nat n)); [|discriminate].
      replace (mem_load mem' (N.to_nat (it_cursor it)) n) with (mem_load m (N.to_nat (it_cursor it)) n); [auto|].
      unfold mem_load. rewrite Hlen, HL.
      destruct (Nat.leb (N.to_nat (it_cursor it) + n) (length mem)); [|reflexivity]. f_equal.
      apply list_ext. intros i. destruct (Nat.lt_ge_cases i n) as [Hi|Hi].
      - rewrite !nth_error_firstn_lt, !nth_error_skipn' by lia. symmetry. apply Hfr. left. lia.
      - rewrite !nth_error_firstn_ge by lia. reflexivity. }
    cbn [length read_ints]. rewrite Hmem. cbn [obind]. rewrite Hr. cbn [obind].
    split; [reflexivity|]. split; [rewrite Hcur; lia|]. split; [|lia].
    intros i Hi. rewrite Hfr by lia.
    apply (write_int_frame _ _ _ _ _ _ _ _ i E). lia.
Qed.

Lemma moves_stay_inside mem it n :
  iter_ok mem it -> (n < 2 ^ 63)%N ->
  move_forward it n =
    (if (it_cursor it + n <=? it_end it)%N then Done (set_cursor it (it_cursor it + n)%N)
     else AssertFail) /\
  move_backward it n =
    (if (it_start it + n <=? it_cursor it)%N then Done (set_cursor it (it_cursor it - n)%N)
     else AssertFail).
Proof.
  intros Hok Hn. unfold move_forward, move_backward.
  rewrite (can_move_forward_spec mem), (can_move_backward_spec mem) by assumption.
  destruct Hok as (H1 & H2 & H3 & H4). split.
  - destruct (N.leb_spec (it_cursor it + n) (it_end it)); [|reflexivity].
    rewrite w64_small by lia. reflexivity.
  - destruct (N.leb_spec (it_start it + n) (it_cursor it)); [|reflexivity].
    f_equal. f_equal. unfold wsub, wrap.
    replace (it_cursor it + (2 ^ 64 - n))%N with (it_cursor it - n + 1 * 2 ^ 64)%N by lia.
    rewrite N.mod_add by discriminate. apply N.mod_small. lia.
Qed.

Lemma iter_diff_exact : forall mem a b, iter_ok mem a -> iter_ok mem b ->
  iter_diff a b = (Z.of_N (it_cursor a) - Z.of_N (it_cursor b))%Z.
Proof.
  intros mem a b (A1 & A2 & A3 & A4) (B1 & B2 & B3 & B4).
  assert (Ha : (it_cursor a < 2 ^ 63)%N) by lia. assert (Hb : (it_cursor b < 2 ^ 63)%N) by lia.
  unfold iter_diff, wsub. change (2 ^ 64)%N with (2 ^ 63 + 2 ^ 63)%N. change (2 ^ 64)%Z with (2 * Z.of_N (2 ^ 63))%Z.
  remember (it_cursor a) as x. remember (it_cursor b) as y.
  destruct (N.le_gt_cases y x).
  - replace (x + (2 ^ 63 + 2 ^ 63 - y))%N with (x - y + 1 * (2 ^ 63 + 2 ^ 63))%N by (remember (2 ^ 63)%N; lia).
    unfold wrap. change (2 ^ 64)%N with (2 ^ 63 + 2 ^ 63)%N.
    rewrite N.mod_add by discriminate. rewrite N.mod_small by (remember (2 ^ 63)%N; lia).
    destruct (N.ltb_spec (x - y) (2 ^ 63)); remember (2 ^ 63)%N; lia.
  - rewrite wrap_small by (change (2 ^ 64)%N with (2 ^ 63 + 2 ^ 63)%N; remember (2 ^ 63)%N; lia).
    destruct (N.ltb_spec (x + (2 ^ 63 + 2 ^ 63 - y)) (2 ^ 63)); remember (2 ^ 63)%N; lia.
Qed.

Lemma fill_exact : forall v n mem it mem' it', iter_ok mem it -> (N.of_nat n < 2 ^ 63)%N ->
  fill v n mem it = Done (mem', it') ->
  it_cursor it' = (it_cursor it + N.of_nat n)%N /\ length mem' = length mem /\
  forall i, nth_error mem' i =
    if (N.to_nat (it_cursor it) <=? i) && (i <? N.to_nat (it_cursor it) + n) then Some v
    else nth_error mem i.
Proof.
  intros v n mem it mem' it' (A1 & A2 & A3 & A4) Hn. unfold fill.
  destruct (can_move_forward it (N.of_nat n)); [|discriminate].
  destruct (mem_store mem (N.to_nat (it_cursor it)) (repeat v n)) as [m|] eqn:E; [|discriminate].
  intros [= <- <-]. cbn [it_cursor set_cursor]. split.
  { apply w64_small. change (2 ^ 64)%N with (2 ^ 63 + 2 ^ 63)%N. remember (2 ^ 63)%N. lia. }
  split; [exact (mem_store_length _ _ _ _ E)|]. intros i.
  destruct (Nat.leb_spec (N.to_nat (it_cursor it)) i); cbn [andb].
  2:{ apply (mem_store_other _ _ _ _ _ E). lia. }
  destruct (Nat.ltb_spec i (N.to_nat (it_cursor it) + n)).
  2:{ apply (mem_store_other _ _ _ _ _ E). rewrite repeat_length. lia. }
  revert E. unfold mem_store.
  destruct (Nat.leb_spec (N.to_nat (it_cursor it) + length (repeat v n)) (length mem)) as [L|]; [|discriminate].
  intros [= <-]. rewrite repeat_length in *.
  rewrite nth_error_app2 by (rewrite firstn_length; lia). rewrite firstn_length.
  rewrite nth_error_app1 by (rewrite repeat_length; lia). apply nth_error_repeat. lia.
Qed.
