(** Property C82: fixed buffers. *)
From Verif Require Import Base BaseProofs BufferIter BufferIterSpec BufferIterProofs ZcIterSpec ZcIterProofs
  FixedBuffer FixedBufferSpec FixedBufferProofs.

(** C82.  Programs over fixed buffers and their iterators behave as programs over
    shared byte arrays: copies share, deep copies do not, and everything that is
    observed is as it is there; each array has a storage exactly as long as a
    variable shares it, and it counts them.  Behaviour is undefined exactly if a
    destroyed variable is used, or an iterator to an array that no variable
    shares. *)
Theorem C82_refines : forall host junk ops, Forall op_ok ops ->
  match run host junk ops w_init, arun host junk ops a_init with
  | Done (w, rs), Done (a, rs') => rs = rs' /\ represents a w
  | AssertFail, AssertFail | UB, UB => True
  | _, _ => False
  end.
Proof.
  intros host junk ops Ho. pose proof (run_agree host junk ops Ho a_init w_init inv_init) as R.
  destruct (run host junk ops w_init) as [[w rs]| | |], (arun host junk ops a_init) as [[a rs']| | |]; auto.
  destruct R as [-> R]. split; [reflexivity|]. now apply inv_represents.
Qed.
Print Assumptions C82_refines.

(** A buffer, a shallow and a deep copy of it; the buffer is written and destroyed. *)
Definition session : list op :=
  [OZero 4 true; OCopy 0; ODeep 0; OBegin 0; OWrite 0 BigOrder 2 0x0102; ODestroy 0; OWrite 0 LittleOrder 1 9;
   OCopyTo 1 9; OCopyTo 2 3; OGetSize 2].
Example C82_refines_ex :
  Forall op_ok session /\
  exists w, run LittleEndian (fun _ _ => 7%N) session w_init =
    Done (w, [RVar 0; RVar 1; RVar 2; RIter 0; RNone; RNone; RNone; RBytes [1; 2; 9; 0]%N; RBytes [0; 0; 0]%N; RSize 4]).
Proof.
  split; [repeat (constructor; [cbn; auto; try reflexivity|]); constructor|]. eexists. vm_compute. reflexivity.
Qed.

(** C82.  A write through an iterator is seen by every buffer that shares the
    storage, and by no other. *)
Theorem C82_shared : forall host junk ops w rs i st it o n x w' r, Forall op_ok ops ->
  run host junk ops w_init = Done (w, rs) ->
  nth_error (w_iters w) i = Some (st, it) -> In n [1; 2; 4; 8] ->
  step host junk (OWrite i o n x) w = Done (w', r) ->
  forall v, bytes_in w' v =
    match nth_error (w_vars w) v, bytes_in w v with
    | Some (Some st'), Some bs =>
        if match st, st' with Some a, Some b => Nat.eqb a b | _, _ => false end
        then Some (overwrite (N.to_nat (it_cursor it)) (layout o host n x) bs) else Some bs
    | _, b => b
    end.
Proof.
  intros host junk ops w rs i st it o n x w' r Ho E Ei Hn Ew v. destruct (reached_inv host junk ops w rs Ho E) as [a H].
  pose proof (step_agree host junk (OWrite i o n x) a w Hn H) as S. rewrite Ew in S. cbn [agree astep] in S.
  pose proof (iters_nth a w i H) as T. rewrite Ei in T.
  destruct (nth_error (a_iters a) i) as [[st' p]|]; [|contradiction]. destruct T as (<- & T1 & T2 & ->).
  destruct (p + n <=? length (content (a_arrays a) st)); [|contradiction]. destruct (lost a st); [contradiction|].
  destruct st as [s|]; [|contradiction]. destruct S as [_ H'].
  rewrite (inv_bytes_in _ _ v H'), (inv_bytes_in _ _ v H), (i_vars _ _ H). cbn [a_vars a_arrays it_at it_cursor].
  rewrite Nat2N.id. destruct (nth_error (a_vars a) v) as [[[q|]|]|] eqn:Ev; auto. cbn [content].
  rewrite nth_upd_list by exact T1. rewrite (Nat.eqb_sym q s). destruct (Nat.eqb_spec s q) as [->|]; reflexivity.
Qed.
Print Assumptions C82_shared.

Example C82_shared_ex :
  exists w rs w' r, run LittleEndian (fun _ _ => 7%N) [OZero 4 true; OCopy 0; ODeep 0; OBegin 1] w_init = Done (w, rs) /\
    step LittleEndian (fun _ _ => 7%N) (OWrite 0 BigOrder 2 0x0102) w = Done (w', r) /\
    bytes_in w' 0 = Some [1; 2; 0; 0]%N /\ bytes_in w' 1 = Some [1; 2; 0; 0]%N /\ bytes_in w' 2 = Some [0; 0; 0; 0]%N.
Proof. eexists _, _, _, _. repeat split; vm_compute; reflexivity. Qed.

(** C82.  No other operation changes the bytes of a buffer, unless it assigns to it. *)
Theorem C82_unaffected : forall host junk ops w rs o w' r, Forall op_ok ops ->
  run host junk ops w_init = Done (w, rs) -> op_ok o ->
  match o with OWrite _ _ _ _ => False | _ => True end ->
  step host junk o w = Done (w', r) ->
  forall v, v < length (w_vars w) -> assigns o v = false -> bytes_in w' v = bytes_in w v.
Proof.
  intros host junk ops w rs o w' r Ho E Hok Hw Es v Hv Ha. destruct (reached_inv host junk ops w rs Ho E) as [a H].
  pose proof (step_agree host junk o a w Hok H) as S. rewrite Es in S. unfold agree in S.
  destruct (astep host junk o a) as [[a' r']| | |] eqn:Ea; try contradiction. destruct S as [_ H'].
  rewrite (inv_bytes_in _ _ v H'), (inv_bytes_in _ _ v H). rewrite (i_vars _ _ H) in Hv.
  exact (astep_frame host junk o a w a' r' v H Ea Ha Hv Hw).
Qed.
Print Assumptions C82_unaffected.

Example C82_unaffected_ex :
  exists w rs w' r, run LittleEndian (fun _ _ => 7%N) [OSize 3; OZero 2 true] w_init = Done (w, rs) /\
    step LittleEndian (fun _ _ => 7%N) (OAssign 0 1) w = Done (w', r) /\ assigns (OAssign 0 1) 1 = false /\
    bytes_in w 0 = Some [7; 7; 7]%N /\ bytes_in w' 0 = Some [0; 0]%N /\ bytes_in w' 1 = Some [0; 0]%N.
Proof. eexists _, _, _, _. repeat split; vm_compute; reflexivity. Qed.

(** C82.  Nothing leaks and nothing is deleted early: a storage exists exactly as
    long as a buffer refers to it. *)
Theorem C82_lifetime : forall host junk ops w rs, Forall op_ok ops ->
  run host junk ops w_init = Done (w, rs) ->
  forall s, (exists c, nth_error (w_heap w) s = Some (Some c)) <-> (exists v, nth_error (w_vars w) v = Some (Some (Some s))).
Proof.
  intros host junk ops w rs Ho E s. destruct (reached_inv host junk ops w rs Ho E) as [a H].
  pose proof (i_heap _ _ H) as [L HH]. rewrite (i_vars _ _ H). split.
  - intros [c Ec]. pose proof (nth_lt _ _ _ Ec) as Hs. rewrite L in Hs. rewrite (HH s Hs) in Ec.
    unfold sharers in Ec. destruct (filter (shares s) (a_vars a)) as [|x l] eqn:Ef; [discriminate|].
    assert (Hx : In x (filter (shares s) (a_vars a))) by (rewrite Ef; now left). apply filter_In in Hx. destruct Hx as [Hx Hsh].
    destruct x as [[b|]|]; try discriminate. cbn in Hsh. apply Nat.eqb_eq in Hsh. subst b. now apply In_nth_error in Hx.
  - intros [v Ev]. pose proof (i_in _ _ H v _ Ev) as Hs. cbn in Hs. rewrite (HH s Hs).
    pose proof (sharers_pos _ _ _ Ev). destruct (sharers (a_vars a) s) as [|k]; [inversion H0|eauto].
Qed.
Print Assumptions C82_lifetime.

Example C82_lifetime_ex :
  exists w rs, run LittleEndian (fun _ _ => 7%N)
    [OSize 3; OCopy 0; OZero 2 true; OMoveAssign 0 2; OSwap 0 1; ODestroy 0; ODestroy 1; ODestroy 2] w_init = Done (w, rs) /\
    w_heap w = [None; None].
Proof. eexists _, _. split; vm_compute; reflexivity. Qed.

(** C82.  The storages are documented to be kept by iterators too ("A reference
    count is held by each buffer and buffer iterator."): they are not. *)
Theorem C82_iterator_keeps_refuted : exists ops, Forall op_ok ops /\
  ops = [OZero 4 true; OBegin 0; ODestroy 0; ORead 0 LittleOrder 4] /\
  forall host junk, run host junk ops w_init = UB.
Proof.
  eexists. split; [|split; [reflexivity|]].
  - repeat (constructor; [cbn; auto; try reflexivity|]); constructor.
  - intros host junk. destruct host; vm_compute; reflexivity.
Qed.
Print Assumptions C82_iterator_keeps_refuted.

(** C82.  The size of the block that is allocated wraps: for huge capacities it is
    smaller than the capacity, whatever the size of the header is. *)
Theorem C82_block_refuted : forall sizeof, (2 <= sizeof < 2 ^ 63)%N ->
  exists capacity, (0 < capacity < 2 ^ 64)%N /\ (block_size sizeof capacity < capacity)%N.
Proof.
  intros sizeof H. exists (2 ^ 64 - (sizeof - 1))%N. unfold block_size. rewrite (w64_small (sizeof - 1)) by lia.
  replace (sizeof - 1 + (2 ^ 64 - (sizeof - 1)))%N with (2 ^ 64)%N by lia. change (w64 (2 ^ 64)) with 0%N. lia.
Qed.
Print Assumptions C82_block_refuted.
