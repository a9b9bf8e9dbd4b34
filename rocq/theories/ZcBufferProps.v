(** Properties of zero-compressed buffers: C43, C44.

    A program is a list of statements over buffer variables ([zop]); [zsteps junk l zinit]
    runs it, [junk] being the contents of freshly allocated memory.  [zbytes_of w i] is the
    string of variable [i] with its zero area expanded, [ztable w] lists that for all
    variables. *)
From Verif Require Import Base BufferIter Buffer BufferSpec BufferIterSpec ZcIter ZcIterSpec ZcIterProofs ZcBuffer ZcBufferSpec ZcBufferProofs.

Definition zj0 : nat -> nat -> N := fun _ _ => 170%N.
Definition zview (r : outcome zworld) : option strings :=
  match r with Done w => Some (ztable w) | _ => None end.

(** ** C43 *)

(** After any history, every sensible statement leaves in the variables it is about
    exactly the bytes that the same statement on plain byte strings gives, wherever the
    zero areas are; only the bytes that [AddAtStart(size)] and [AddAtEnd(size)] bring in
    are unspecified. *)
Theorem C43_byte_strings : forall junk l zo w w',
  zsteps junk l zinit = Done w -> zstep junk zo w = Done w' -> sensible zo w ->
  (Forall no_deep l \/ ~ adds_buffer zo) ->
  exists extra, length extra = extra_zlen zo /\
    forall i, ztarget zo i \/ length (zw_bufs w) <= i ->
      zbytes_of w' i = str (spec_zstep extra zo (ztable w)) i.
Proof. intros junk l zo w w' H1 H2. exact (zown_content junk l w H1 zo w' H2). Qed.
Print Assumptions C43_byte_strings.

(** Cuts before, inside and behind the zero area; additions of buffers with and without
    one; realization. *)
Example C43_byte_strings_ex :
  zview (zsteps zj0
    [ZBase (NewZero 2 3 2); ZBase (AddStartBytes 0 [1;2]%N); ZBase (AddEndBytes 0 [7;8]%N); ZBase (Copy 0);
     ZBase (RemStart 0 3); ZBase (RemEnd 1 4); MakeReal 0; ZBase (AddEndBuf 1 0);
     ZBase (Fragment 1 1 3); Realize 1; ZBase (AddStartBuf 3 1)] zinit)
  = Some [Some [0;0;7;8]; Some [1;2;0;0;0;7;8]; Some [0;0;7;8]; Some [1;2;0;0;0;7;8;2;0;0]]%N.
Proof. vm_compute. reflexivity. Qed.

(** [GetSize] is the number of those bytes. *)
Theorem C43_size : forall junk l w i,
  zsteps junk l zinit = Done w -> zsize_of w i = option_map (@length N) (zbytes_of w i).
Proof. intros junk l w i H. exact (zsize_bytes junk l w H i). Qed.
Print Assumptions C43_size.
Example C43_size_ex :
  match zsteps zj0 [ZBase (NewZero 0 1000 0); ZBase (AddStartBytes 0 [1;2;3]%N); ZBase (AddEnd 0 7)] zinit with
  | Done w => zsize_of w 0 | _ => None end = Some 1010.
Proof. vm_compute. reflexivity. Qed.

(** A statement fails exactly if the range given to [MakeFragment] or to an iterator
    is outside the buffer, or a write not on one side of the zero area, and then by an
    assertion: no history accesses a storage that is not allocated or a byte outside one. *)
Theorem C43_outcome : forall junk l zo w, zsteps junk l zinit = Done w ->
  if zbad_args zo w then zstep junk zo w = AssertFail else exists w', zstep junk zo w = Done w'.
Proof. intros junk l zo w H. exact (zstep_outcome junk l w H zo). Qed.
Print Assumptions C43_outcome.
Example C43_outcome_ex :
  match zsteps zj0 [ZBase (NewZero 4 4 0); ZBase (AddStartBytes 0 [1;2;3]%N); ZBase (AddEndBytes 0 [4;5]%N)] zinit with
  | Done w => map (fun o => zbad_args (ZBase o) w)
      [Fragment 0 2 7; Fragment 0 3 7; Write 0 0 [9;9;9]; Write 0 2 [9;9]; Write 0 5 [9]; Write 0 7 [9;9]; Write 0 8 [9;9]]%N
  | _ => [] end = [false; true; false; true; true; false; true].
Proof. vm_compute. reflexivity. Qed.

(** [CopyTo] gives the first bytes of the string, unless the buffer has no storage. *)
Theorem C43_copy_to : forall junk l w i z s n, zsteps junk l zinit = Done w ->
  zvar w i = Some z -> ~ bare w i -> zbytes_of w i = Some s ->
  z_copy_to (zw_heap w) z n = Done (firstn n s).
Proof. intros junk l w i z s n H. exact (zcopy_content junk l w H i z s n). Qed.
Print Assumptions C43_copy_to.
Example C43_copy_to_ex :
  match zsteps zj0 [ZBase (NewZero 2 3 2); ZBase (AddStartBytes 0 [1;2]%N); ZBase (AddEndBytes 0 [7;8]%N)] zinit with
  | Done w => match zvar w 0 with
              | Some z => map (z_copy_to (zw_heap w) z) [1; 4; 6; 9] | None => [] end
  | _ => [] end
  = [Done [1]; Done [1;2;0;0]; Done [1;2;0;0;0;7]; Done [1;2;0;0;0;7;8]]%N.
Proof. vm_compute. reflexivity. Qed.

(** After [Realize()] the buffer has no zero area, nor has the result of
    [MakeRealBuffer()].  That their contents are unchanged is part of [C43_byte_strings]. *)
Theorem C43_realized : forall junk l w i w', zsteps junk l zinit = Done w -> zvar w i <> None ->
  (zstep junk (Realize i) w = Done w' -> exists s, zlayout w' i = Some (s, 0)) /\
  (zstep junk (MakeReal i) w = Done w' -> exists s, zlayout w' (length (ztable w)) = Some (s, 0)).
Proof.
  intros junk l w i w' H Hv. split; intros E; [eapply zrealize_layout|eapply zmake_real_layout]; eauto.
Qed.
Print Assumptions C43_realized.
Example C43_realized_ex :
  match zsteps zj0 [ZBase (NewZero 2 3 2); ZBase (AddStartBytes 0 [1;2]%N); MakeReal 0; Realize 0] zinit with
  | Done w => (zlayout w 0, zlayout w 1) | _ => (None, None) end = (Some (5, 0), Some (5, 0)).
Proof. vm_compute. reflexivity. Qed.

(** The iterator at position [off] of a variable walks over the string of that variable,
    from that position; so all of C48 applies to it. *)
Theorem C43_iterators : forall junk l w i z s off, zsteps junk l zinit = Done w ->
  zvar w i = Some z -> zbytes_of w i = Some s -> (N.of_nat (z_end z) < 2 ^ 63)%N -> off <= length s ->
  exists mem, z_memory (zw_heap w) z = Done mem /\ ziter_ok mem (z_iter z (z_start z + off)) /\
    zi_string mem (z_iter z (z_start z + off)) = s /\ zi_pos (z_iter z (z_start z + off)) = off /\
    zi_forward (z_begin z) (N.of_nat off) = Done (z_iter z (z_start z + off)) /\
    (forall host o n, off + n <= length s ->
       zi_read_bytes host o n mem (z_iter z (z_start z + off)) =
       Done (in_order host o (firstn n (skipn off s)), z_iter z (z_start z + off + n))).
Proof.
  intros junk l w i z s off H Ev Es Hb Ho. pose proof (zh_inv junk l w H) as I.
  rewrite zbytes_of_str, str_zabs, Ev in Es by auto. cbn in Es. inversion Es; subst s; clear Es.
  apply zvar_some in Ev. assert (Hz : zok z) by (eapply I; eauto). pose proof (zworld_holds w i z I Ev) as Hh.
  rewrite (zdata_length _ _ Hz Hh) in *.
  destruct (zmem_data (zw_heap w) z Hz Hh) as [m [Em _]]. exists m. split; auto.
  destruct (ziter_of_ok _ z m off Hz Hh Em Hb Ho) as [O [S [P _]]].
  destruct (ziter_of_ok _ z m 0 Hz Hh Em Hb ltac:(lia)) as [O0 [S0 [P0 _]]]. rewrite Nat.add_0_r in *.
  assert (Hso : forall k, k <= z_size z -> (N.of_nat k < 2 ^ 63)%N).
  { intros k Hk. unfold z_size in Hk. eapply N.le_lt_trans; [|exact Hb]. lia. }
  split; auto. split; auto. split; auto. split.
  - unfold z_begin. rewrite (zi_forward_eq m _ off O0) by auto. rewrite S0, P0, (zdata_length _ _ Hz Hh).
    rewrite (proj2 (Nat.leb_le (0 + off) (z_size z))) by auto.
    unfold zi_set, z_iter. cbn [zi_start zi_zs zi_ze zi_end zi_cursor]. f_equal. f_equal. lia.
  - intros host o n Hn. rewrite (zi_read_bytes_eq host o n m _ O) by (apply Hso; lia). rewrite S, P, (zdata_length _ _ Hz Hh).
    rewrite (proj2 (Nat.leb_le (off + n) (z_size z))) by auto.
    unfold zi_set, z_iter. cbn [zi_start zi_zs zi_ze zi_end zi_cursor]. f_equal. f_equal. f_equal. lia.
Qed.
Print Assumptions C43_iterators.
(** The statement that writes does what the iterator does. *)
Theorem C43_write_is_iterator : forall junk l w i z s off bs mem, zsteps junk l zinit = Done w ->
  zvar w i = Some z -> zbytes_of w i = Some s -> (N.of_nat (z_end z) < 2 ^ 63)%N -> off <= length s ->
  (N.of_nat (length bs) < 2 ^ 63)%N -> z_memory (zw_heap w) z = Done mem ->
  match zstep junk (ZBase (Write i off bs)) w with
  | Done w' => exists mem', z_memory (zw_heap w') z = Done mem' /\
      zi_write_bytes LittleEndian NativeOrder bs mem (z_iter z (z_start z + off))
      = Done (mem', z_iter z (z_start z + off + length bs))
  | AssertFail => zi_write_bytes LittleEndian NativeOrder bs mem (z_iter z (z_start z + off)) = AssertFail
  | _ => False
  end.
Proof.
  intros junk l w i z s off bs mem H Ev Es Hb Ho Hn Em. pose proof (zh_inv junk l w H) as I.
  rewrite zbytes_of_str, str_zabs, Ev in Es by auto. cbn in Es. inversion Es; subst s; clear Es.
  cbn [zstep]. rewrite Ev.
  apply zvar_some in Ev. assert (Hz : zok z) by (eapply I; eauto). pose proof (zworld_holds w i z I Ev) as Hh.
  rewrite (zdata_length _ _ Hz Hh) in *.
  pose proof (z_write_iter off bs _ z mem Hz Hh Em Hb Ho Hn) as W.
  destruct (z_write off bs (zw_heap w) z); cbn [obind zset_var zw_heap]; auto.
Qed.
Print Assumptions C43_write_is_iterator.
Example C43_iterators_ex :
  match zsteps zj0 [ZBase (NewZero 2 3 2); ZBase (AddStartBytes 0 [1;2]%N); ZBase (AddEndBytes 0 [7;8]%N);
                    ZBase (Write 0 5 [9]%N)] zinit with
  | Done w => match zvar w 0 with
              | Some z => match z_memory (zw_heap w) z with
                          | Done m => match zi_read_int LittleEndian BigOrder 4 m (z_iter z (z_start z + 2)) with
                                      | Done (v, _) => Some v | _ => None end
                          | _ => None end
              | None => None end
  | _ => None end = Some 9%N.
Proof. vm_compute. reflexivity. Qed.

(** [RemoveAtStart] with the machine's arithmetic does what the model does, as long as the
    sum it forms does not overflow. *)
Theorem C43_remove_at_start_arith : forall junk l w i z n, zsteps junk l zinit = Done w -> zvar w i = Some z ->
  (N.of_nat (z_start z + n) < 2 ^ 64)%N -> (N.of_nat (z_end z) < 2 ^ 64)%N ->
  match zn_remove_at_start (N.of_nat n) (N.of_nat (z_start z)) (N.of_nat (z_zs z)) (N.of_nat (z_ze z)) (N.of_nat (z_end z)) with
  | Some (s, zs, ze, e) => zstep junk (ZBase (RemStart i n)) w =
      Done (zset_var (zw_heap w) w i (Some (mk_zbuf (z_st z) (N.to_nat s) (N.to_nat zs) (N.to_nat ze) (N.to_nat e))))
  | None => zstep junk (ZBase (RemStart i n)) w = zchanged w i (z_release (zw_heap w) z)
  end.
Proof.
  intros junk l w i z n H Ev Hn He. pose proof (zh_inv junk l w H) as I. cbn [zstep]. rewrite Ev.
  apply zvar_some in Ev. assert (Hz : zok z) by (eapply I; eauto).
  pose proof (zn_remove_agrees n (zw_heap w) z Hz Hn He) as A.
  destruct (zn_remove_at_start _ _ _ _ _) as [[[[s zs] ze] e]|]; rewrite A; auto.
Qed.
Print Assumptions C43_remove_at_start_arith.
(** If it overflows the buffer is not emptied, as documented, but gets larger than it was,
    and begins before its first byte. *)
Theorem C43_remove_at_start_refuted : exists n start zs ze end_ s' zs' ze' e',
  (start <= zs <= ze)%N /\ (ze <= end_ < 2 ^ 20)%N /\ (end_ - start <= n < 2 ^ 64)%N /\
  zn_remove_at_start n start zs ze end_ = Some (s', zs', ze', e') /\ (end_ - start < e' - s')%N /\ (s' < start)%N.
Proof.
  exists (2 ^ 64 - 1)%N, 16%N, 20%N, 20%N, 24%N, 15%N, 20%N, 20%N, 24%N. vm_compute. repeat split; congruence.
Qed.
Print Assumptions C43_remove_at_start_refuted.

(** Zeros without a storage, as [ZcBuffer(size)] of a pure zero area gives: [CopyTo]
    gives nothing, *)
Theorem C43_bare_copy_refuted : exists junk l w z s,
  zsteps junk l zinit = Done w /\ zvar w 0 = Some z /\ zbytes_of w 0 = Some s /\
  z_copy_to (zw_heap w) z (length s) <> Done s.
Proof.
  exists zj0, [ZBase (NewZero 0 4 0)]. eexists _, _, _.
  split; [vm_compute; reflexivity|]. split; [vm_compute; reflexivity|]. split; [vm_compute; reflexivity|].
  vm_compute. discriminate.
Qed.
Print Assumptions C43_bare_copy_refuted.
(** removing more than all of it leaves it as it was, *)
Theorem C43_bare_remove_refuted : exists junk l w w',
  zsteps junk l zinit = Done w /\ zbytes_of w 0 = Some [0;0;0;0]%N /\
  zstep junk (ZBase (RemEnd 0 5)) w = Done w' /\ zbytes_of w' 0 = Some [0;0;0;0]%N.
Proof.
  exists zj0, [ZBase (NewZero 0 4 0)]. eexists _, _.
  split; [vm_compute; reflexivity|]. split; [vm_compute; reflexivity|]. split; [vm_compute; reflexivity|].
  vm_compute. reflexivity.
Qed.
Print Assumptions C43_bare_remove_refuted.
(** adding it to another buffer does not add zeros, *)
Theorem C43_bare_add_refuted : exists junk l w w' s,
  zsteps junk l zinit = Done w /\ zbytes_of w 0 = Some [0;0;0;0]%N /\ zbytes_of w 1 = Some s /\
  zstep junk (ZBase (AddEndBuf 1 0)) w = Done w' /\ zbytes_of w' 1 <> Some (s ++ [0;0;0;0])%N.
Proof.
  exists zj0, [ZBase (NewZero 0 4 0); ZBase (New 8); ZBase (AddStartBytes 1 [1;2]%N)]. eexists _, _, _.
  split; [vm_compute; reflexivity|]. split; [vm_compute; reflexivity|]. split; [vm_compute; reflexivity|].
  split; [vm_compute; reflexivity|]. vm_compute. discriminate.
Qed.
Print Assumptions C43_bare_add_refuted.
(** and moving another buffer onto it leaves the zeros in the source. *)
Theorem C43_bare_move_refuted : exists junk l w w',
  zsteps junk l zinit = Done w /\ zbytes_of w 0 = Some [0;0;0;0]%N /\ zbytes_of w 1 = Some [1;2]%N /\
  zstep junk (ZBase (MoveAssign 0 1)) w = Done w' /\ zbytes_of w' 1 = Some [0;0;0;0]%N.
Proof.
  exists zj0, [ZBase (NewZero 0 4 0); ZBase (New 8); ZBase (AddStartBytes 1 [1;2]%N)]. eexists _, _.
  split; [vm_compute; reflexivity|]. split; [vm_compute; reflexivity|]. split; [vm_compute; reflexivity|].
  split; [vm_compute; reflexivity|]. vm_compute. reflexivity.
Qed.
Print Assumptions C43_bare_move_refuted.
(** The documentation of [AddAtStart(src)] allows the buffer itself as [src].  What is then
    prepended is not the content. *)
Theorem C43_self_start_refuted : exists junk l w w' s,
  zsteps junk l zinit = Done w /\ zbytes_of w 0 = Some s /\ zstep junk (ZBase (AddStartBuf 0 0)) w = Done w' /\
  zbytes_of w' 0 <> Some (s ++ s).
Proof.
  exists zj0, [ZBase (New 0); ZBase (AddStartBytes 0 [1;2]%N)].
  eexists _, _, [1;2]%N. split; [vm_compute; reflexivity|]. split; [vm_compute; reflexivity|].
  split; [vm_compute; reflexivity|]. vm_compute. discriminate.
Qed.
Print Assumptions C43_self_start_refuted.

(** ** C44 *)

(** Buffers are independent byte strings: a sensible statement changes the variables it is
    about as it would change byte strings and no other, whatever storage they share,
    provided
    - no buffer was made from a buffer of another class before, or the statement brings in
      no bytes of its own, and
    - what is written through an iterator is not shared.
    Unlike with [Buffer], fragments do no harm. *)
Theorem C44_independent : forall junk l zo w w',
  zsteps junk l zinit = Done w -> zstep junk zo w = Done w' -> sensible zo w ->
  (Forall no_deep l \/ ~ zadds_data zo) -> zwrites_alone zo w ->
  exists extra, length extra = extra_zlen zo /\ ztable w' = spec_zstep extra zo (ztable w).
Proof. intros junk l zo w w' H1 H2. exact (zall_content junk l w H1 zo w' H2). Qed.
Print Assumptions C44_independent.
Example C44_independent_ex :
  zview (zsteps zj0
    [ZBase (NewZero 4 3 4); ZBase (AddStartBytes 0 [1;2]%N); ZBase (AddEndBytes 0 [7;8]%N); ZBase (Copy 0);
     ZBase (Fragment 0 1 5); ZBase (RemEnd 1 1); ZBase (AddEndBytes 1 [5]%N); ZBase (AddEndBytes 2 [4]%N);
     ZBase (AddStartBytes 2 [3]%N); ZBase (AddStartBytes 0 [6]%N)] zinit)
  = Some [Some [6;1;2;0;0;0;7;8]; Some [1;2;0;0;0;7;5]; Some [3;2;0;0;0;7;4]]%N.
Proof. vm_compute. reflexivity. Qed.

(** Filling bytes that were just added does not change any other buffer. *)
Theorem C44_fill_added_start : forall junk l i n off bs w w1 w2,
  zsteps junk l zinit = Done w -> Forall no_deep l ->
  zstep junk (ZBase (AddStart i n)) w = Done w1 -> zstep junk (ZBase (Write i off bs)) w1 = Done w2 -> off + length bs <= n ->
  forall k, k <> i -> zbytes_of w2 k = zbytes_of w k.
Proof. intros junk l i n off bs w w1 w2 H. exact (zwrite_fresh_start junk l w H i n off bs w1 w2). Qed.
Print Assumptions C44_fill_added_start.
Theorem C44_fill_added_end : forall junk l i n off bs w w1 w2 s,
  zsteps junk l zinit = Done w -> Forall no_deep l ->
  zstep junk (ZBase (AddEnd i n)) w = Done w1 -> zstep junk (ZBase (Write i off bs)) w1 = Done w2 ->
  zbytes_of w i = Some s -> length s <= off ->
  forall k, k <> i -> zbytes_of w2 k = zbytes_of w k.
Proof. intros junk l i n off bs w w1 w2 s H. exact (zwrite_fresh_end junk l w H i n off bs w1 w2 s). Qed.
Print Assumptions C44_fill_added_end.
Example C44_fill_added_ex :
  zview (zsteps zj0 [ZBase (NewZero 4 2 4); ZBase (AddStartBytes 0 [1;2]%N); ZBase (Copy 0); ZBase (AddStart 1 2);
                     ZBase (Write 1 0 [5;6]%N); ZBase (Copy 0); ZBase (AddEnd 2 2); ZBase (Write 2 4 [7;8]%N)] zinit)
  = Some [Some [1;2;0;0]; Some [5;6;1;2;0;0]; Some [1;2;0;0;7;8]]%N.
Proof. vm_compute. reflexivity. Qed.

(** Extending a copy of a buffer that was made from a buffer of another class overwrites
    the original. *)
Theorem C44_deep_copy_refuted : exists junk l zo w w' s,
  zsteps junk l zinit = Done w /\ zstep junk zo w = Done w' /\ zo = ZBase (AddEndBytes 1 [9;9]%N) /\
  zbytes_of w 0 = Some s /\ zbytes_of w' 0 <> Some s.
Proof.
  exists zj0, [ZBase (DeepCopy [1;2;3;4]%N); ZBase (Copy 0); ZBase (RemEnd 1 4)], (ZBase (AddEndBytes 1 [9;9]%N)). eexists _, _, _.
  split; [vm_compute; reflexivity|]. split; [vm_compute; reflexivity|]. split; [reflexivity|].
  split; [vm_compute; reflexivity|]. vm_compute. discriminate.
Qed.
Print Assumptions C44_deep_copy_refuted.

(** ** C45 for zero-compressed buffers *)

(** In every history a storage is allocated exactly as long as a variable uses it, and
    its reference count is the number of these variables. *)
Theorem C45_zc_count_exact : forall junk l w a, zsteps junk l zinit = Done w ->
  (0 < zusers w a -> zallocated w a (zusers w a)) /\ (zusers w a = 0 -> forall n, ~ zallocated w a n).
Proof. intros junk l w a H. exact (zcount_exact junk l w H a). Qed.
Print Assumptions C45_zc_count_exact.
Example C45_zc_count_exact_ex :
  match zsteps zj0 [ZBase (New 8); ZBase (Copy 0); ZBase (Copy 1); ZBase (MoveNew 2); ZBase (NewZero 2 2 2);
                    ZBase (Assign 4 0); ZBase (Fragment 0 0 0); ZBase (Destroy 1)] zinit with
  | Done w => (map (zusers w) [0; 1], map (fun s => match s with Some s => sg_rc s | None => 0 end) (zw_heap w))
  | _ => ([], []) end = ([4; 0], [4; 0]).
Proof. vm_compute. reflexivity. Qed.

(** No history accesses a storage that is not allocated, or a byte outside one. *)
Theorem C45_zc_no_dangling_access : forall junk l,
  (exists w, zsteps junk l zinit = Done w) \/ zsteps junk l zinit = AssertFail.
Proof.
  intros junk l. generalize zinit_inv. generalize zinit. induction l as [|o l IH]; intros w I; cbn [zsteps]; eauto.
  destruct (zstep_main junk o w I) as [[_ ->]|[_ [w1 [-> F]]]]; cbn [obind]; auto. apply IH, F.
Qed.
Print Assumptions C45_zc_no_dangling_access.
