(** Property C96: messages in the headers and trailers of packets over zero-compressed buffers.

    [zp_reached junk w] (ZcFillSpec) says that a program of sensible statements, which fills
    headers and trailers before doing anything else, reaches state [w]; [zp_got w] is the buffer
    that the last statement returned.  [zsmall b]: buffers end below half of the address space. *)
From Verif Require Import Base BaseProofs BufferIter ZcIter Message MessageSpec Buffer BufferSpec ZcBuffer ZcBufferSpec ZcPacket ZcPacketSpec ZcPacketProofs ZcPacketSteps ZcPacketRoom.
From Verif Require Import ZcFillSpec ZcFillProofs ZcFillProps WireSpec ZcWire ZcWireSpec ZcWireProofs.
From Coq Require Import ZifyBool ZifyNat ZifyN.

(** C96.  A sender calls [AddHeader(n)] for packet [i] and writes a message into the buffer that
    is returned, field by field, through its iterator: if the message fits, it is the part of the
    header that it was written to, and all other packets and buffers are as before, whoever shared
    the storage; if it does not fit, an assertion fails. *)
Theorem C96_header : forall junk w i n s w1 hs off m,
  zp_reached junk w -> zpacket_of w i = Some s -> zpstep junk (PAddHeader i n) w = Done w1 -> zsmall (zp_buf w1) ->
  message_ok hs m -> (N.of_nat off < 2 ^ 63)%N ->
  if off + length (message hs m) <=? n
  then exists w2 it x, zp_write hs off m (zp_got w1) w1 = Done (w2, it) /\ zp_reached junk w2 /\
    length x = n /\ at_offset off (message hs m) x /\
    zpackets w2 = upd (zpackets w) i (Some (x ++ s)) /\ zp_last w2 = Some x /\
    (forall k t, zp_user w k = Some t -> zp_user w2 k = Some t)
  else zp_write hs off m (zp_got w1) w1 = AssertFail.
Proof.
  intros junk w i n s w1 hs off m R Ps E S Hm Ho. exact (room_write junk w i n s (PAddHeader i n) w1 hs off m R Ps (or_introl eq_refl) E S Hm Ho).
Qed.
Print Assumptions C96_header.
(** C96.  The same for [AddTrailer(n)]. *)
Theorem C96_trailer : forall junk w i n s w1 hs off m,
  zp_reached junk w -> zpacket_of w i = Some s -> zpstep junk (PAddTrailer i n) w = Done w1 -> zsmall (zp_buf w1) ->
  message_ok hs m -> (N.of_nat off < 2 ^ 63)%N ->
  if off + length (message hs m) <=? n
  then exists w2 it x, zp_write hs off m (zp_got w1) w1 = Done (w2, it) /\ zp_reached junk w2 /\
    length x = n /\ at_offset off (message hs m) x /\
    zpackets w2 = upd (zpackets w) i (Some (s ++ x)) /\ zp_last w2 = Some x /\
    (forall k t, zp_user w k = Some t -> zp_user w2 k = Some t)
  else zp_write hs off m (zp_got w1) w1 = AssertFail.
Proof.
  intros junk w i n s w1 hs off m R Ps E S Hm Ho. exact (room_write junk w i n s (PAddTrailer i n) w1 hs off m R Ps (or_intror eq_refl) E S Hm Ho).
Qed.
Print Assumptions C96_trailer.

(** C96.  Whatever the history: who gets the buffer of a packet that has the bytes of a message
    reads the message, across stored bytes and zeros; the packets stay as they are. *)
Theorem C96_received : forall junk w i bs w1 hs hr off m s,
  zp_reached junk w -> zpacket_of w i = Some bs -> zpstep junk (PGetBuffer i) w = Done w1 -> zsmall (zp_buf w1) ->
  message_ok hr m -> understood hs hr m -> readable_as m s ->
  off + length (message hs m) <= length bs -> at_offset off (message hs m) bs ->
  zpackets w1 = zpackets w /\ exists it, zp_read hr off s (zp_got w1) w1 = Done (map snd m, it).
Proof.
  intros junk w i bs w1 hs hr off m s R Ps E S Hm Un Hs L A. exact (proj2 (get_read junk w i bs w1 hs hr off m s R Ps E S Hm Un Hs L A)).
Qed.
Print Assumptions C96_received.

(** C96.  A protocol stack of senders: layers that each put a message before or behind the packet
    give the payload with all messages around it, in their order. *)
Theorem C96_stack_sent : forall junk hs i ls w w' s,
  zp_reached junk w -> zpacket_of w i = Some s -> Forall (fun y => message_ok hs (content y)) ls ->
  sends junk hs i ls w w' ->
  zp_reached junk w' /\ zpackets w' = upd (zpackets w) i (Some (mwrap hs ls s)) /\
  (forall k t, zp_user w k = Some t -> zp_user w' k = Some t).
Proof.
  intros junk hs i ls w w' s R Ps F Se. revert s R Ps F.
  induction Se as [w|y ls w w1 w2 it w3 E1 S1 Wr _ IH]; intros s R Ps F.
  - split; [exact R|]. split; [|auto]. symmetry. apply upd_own. rewrite str_packets. exact Ps.
  - inversion F as [|y' ls' Hy Fl]; subst.
    assert (Z : (N.of_nat 0 < 2 ^ 63)%N) by reflexivity.
    pose proof (room_write junk w i (length (message hs (content y))) s (make_room hs i y) w1 hs 0 (content y) R Ps
      ltac:(destruct y; cbn [make_room content]; auto) E1 S1 Hy Z) as W.
    cbn [Nat.add] in W. rewrite Nat.leb_refl in W. destruct W as (w2' & it' & x & Wr' & R2 & Lx & Ax & Ep & _ & U).
    rewrite Wr in Wr'. injection Wr' as <- <-.
    assert (Ex : x = message hs (content y)).
    { unfold at_offset in Ax. cbn [skipn] in Ax. rewrite firstn_all2 in Ax by lia. exact Ax. }
    subst x. assert (Ep' : zpackets w2 = upd (zpackets w) i (Some (mwrap1 hs s y))) by (rewrite Ep; destruct y; reflexivity).
    destruct (IH _ R2 (packet_upd _ _ _ _ _ Ps Ep') Fl) as (R3 & Ep3 & U3).
    split; [exact R3|]. split; [rewrite Ep3, Ep', upd_twice; reflexivity|auto].
Qed.
Print Assumptions C96_stack_sent.

(** C96.  A protocol stack of receivers: from a packet with these messages around a payload, in
    whatever state it has arrived, the layers read what was sent, the last one first, and leave the payload. *)
Theorem C96_stack_received : forall junk hs hr i ls ts w w' s vs,
  zp_reached junk w -> zpacket_of w i = Some (mwrap hs ls s) ->
  Forall (fun y => message_ok hr (content y) /\ understood hs hr (content y)) ls -> Forall2 suits (rev ls) ts ->
  receives junk hr i ts w vs w' ->
  vs = map (fun y => map snd (content y)) (rev ls) /\ zpackets w' = upd (zpackets w) i (Some s).
Proof.
  intros junk hs hr i ls. induction ls as [|y ls IH] using rev_ind; intros ts w w' s vs R Ps F Su Re.
  - cbn [rev] in Su. inversion Su; subst. inversion Re; subst. split; [reflexivity|]. symmetry. apply upd_own. rewrite str_packets. exact Ps.
  - apply Forall_app in F. destruct F as [Fl Fy]. inversion Fy as [|y' r' [Hm Un] _]; subst. rewrite rev_app_distr in Su |- *. cbn [rev app] in Su |- *.
    inversion Su as [|y0 t0 ls0 ts0 Sy Sl]; subst. unfold mwrap in Ps. rewrite fold_left_app in Ps. cbn [fold_left] in Ps. fold (mwrap hs ls s) in Ps.
    inversion Re as [|t1 ts1 w0 bs w1 v it w2 vs1 w3 Ps' E1 S1 Rd E2 Re1]; subst. rewrite Ps in Ps'. injection Ps' as <-.
    assert (Hr : readable_as (content y) (shapes t0)) by (destruct y, t0; cbn in Sy; try contradiction; exact Sy).
    pose proof (readable_size hs _ _ Hr) as Sz.
    destruct (get_read junk w i _ w1 hs hr (place t0 (length (mwrap1 hs (mwrap hs ls s) y))) (content y) (shapes t0) R Ps E1 S1 Hm Un Hr) as (R1 & P1 & it' & Rd').
    { destruct y, t0; cbn [suits shapes content mwrap1 place] in *; try contradiction; rewrite app_length; lia. }
    { destruct y, t0; cbn [suits shapes content mwrap1 place] in *; try contradiction; unfold at_offset.
      - cbn [skipn]. rewrite firstn_app, firstn_all, Nat.sub_diag. cbn. apply app_nil_r.
      - rewrite app_length, Sz, Nat.add_sub, skipn_app, skipn_all, Nat.sub_diag. cbn [app skipn]. rewrite <- Sz. apply firstn_all. }
    rewrite Rd in Rd'. injection Rd' as -> ->.
    assert (Q1 : zpacket_of w1 i = Some (wrap1 (mwrap hs ls s) (match y with MHead m => Head [message hs m] | MTail m => Tail [message hs m] end))).
    { rewrite <- str_packets, P1, str_packets, Ps. destruct y; cbn [mwrap1 wrap1 concat]; rewrite app_nil_r; reflexivity. }
    destruct (strip_ok junk w1 i _ _ R1 Q1) as (w2' & E2' & R2 & P2).
    assert (Es : zp_strip i (match y with MHead m => Head [message hs m] | MTail m => Tail [message hs m] end) = remove i t0).
    { destruct y, t0; cbn [suits shapes content] in *; try contradiction; cbn [zp_strip remove concat]; rewrite app_nil_r, Sz; reflexivity. }
    rewrite Es, E2 in E2'. injection E2' as <-.
    assert (Q2 : zpacket_of w2 i = Some (mwrap hs ls s)) by (eapply packet_upd; [exact Q1|exact P2]).
    destruct (IH ts0 w2 w' s vs1 R2 Q2 Fl Sl Re1) as (-> & P3). split; [reflexivity|]. rewrite P3, P2, P1, upd_twice. reflexivity.
Qed.
Print Assumptions C96_stack_received.

(** ** A case *)

(** Packet 2 of [zf_demo] is three zeros and a byte; its storage is that of two other packets. *)
Definition zw_m1 : list (order * field) := [(BigOrder, FNum (UInt 2) 513); (LittleOrder, FNums (SInt 2) [-2; 3]%Z)].
Definition zw_m2 : list (order * field) := [(LittleOrder, FDuration (-5))].
Definition zw_s1 : list (order * shape) := [(BigOrder, SNum (UInt 2)); (LittleOrder, SNums (SInt 2) 2)].
Definition zw_s2 : list (order * shape) := [(LittleOrder, SDuration)].
Definition zw_send (hs : endian) (i : nat) (y : mlayer) (w : zpworld) : outcome zpworld :=
  let! w1 := zpstep zfj0 (make_room hs i y) w in let! (w2, _) := zp_write hs 0 (content y) (zp_got w1) w1 in Done w2.
Definition zw_receive (hr : endian) (i : nat) (y : slayer) (w : zpworld) : outcome (list field * zpworld) :=
  let n := match zpacket_of w i with Some bs => length bs | None => 0 end in
  let! w1 := zpstep zfj0 (PGetBuffer i) w in let! (v, _) := zp_read hr (place y n) (shapes y) (zp_got w1) w1 in
  let! w2 := zpstep zfj0 (remove i y) w1 in Done (v, w2).

Lemma small_all w : forallb (fun z => match z with Some z => z_end z <? 100 | None => true end) (zw_bufs w) = true -> zsmall w.
Proof.
  intros F k z V. unfold zvar in V. destruct (nth_error (zw_bufs w) k) as [x|] eqn:E; [|discriminate]. subst x.
  apply nth_error_In in E. rewrite forallb_forall in F. specialize (F _ E). cbv beta iota in F. apply Nat.ltb_lt in F. lia.
Qed.
Example C96_ok_ex : message_ok LittleEndian zw_m1 /\ message_ok BigEndian zw_m1 /\ message_ok LittleEndian zw_m2 /\ message_ok BigEndian zw_m2 /\
  understood LittleEndian BigEndian zw_m1 /\ understood LittleEndian BigEndian zw_m2 /\ suits (MHead zw_m1) (SHead zw_s1) /\ suits (MTail zw_m2) (STail zw_s2).
Proof.
  assert (A : forall h, message_ok h zw_m1).
  { intros h. constructor; [split; [cbn; auto|cbn; lia]|]. constructor; [|constructor]. split; [cbn; auto|].
    constructor; [split; [cbn; auto|cbn; lia]|]. constructor; [split; [cbn; auto|cbn; lia]|constructor]. }
  assert (B : forall h, message_ok h zw_m2) by (intros h; constructor; [cbn; lia|constructor]).
  split; [apply A|]. split; [apply A|]. split; [apply B|]. split; [apply B|].
  split; [right; repeat constructor|]. split; [right; repeat constructor|].
  split; cbn [suits]; repeat constructor.
Qed.
(** Two layers are sent by a little endian host and received by a big endian one; the other packets stay. *)
Example C96_stack_ex :
  match zpsteps zfj0 zf_demo zpinit with
  | Done w =>
      match (let! w1 := zw_send LittleEndian 2 (MHead zw_m1) w in zw_send LittleEndian 2 (MTail zw_m2) w1) with
      | Done w2 =>
          match (let! (v, w3) := zw_receive BigEndian 2 (STail zw_s2) w2 in let! (v', w4) := zw_receive BigEndian 2 (SHead zw_s1) w3 in Done (v, v', zpackets w4)) with
          | Done r => Some (zpackets w2, r) | _ => None end
      | _ => None end
  | _ => None end
  = Some ([Some [0;0;0]; Some [0;0;0]; Some ([2;1;254;255;3;0] ++ [0;0;0;1] ++ [251;255;255;255;255;255;255;255])]%N,
          ([FDuration (-5)], [FNum (UInt 2) 513; FNums (SInt 2) [-2; 3]%Z], [Some [0;0;0]; Some [0;0;0]; Some [0;0;0;1]]%N)).
Proof. vm_compute. reflexivity. Qed.
(** The hypotheses of the theorems in this case. *)
Example C96_sends_ex : exists w w', zp_reached zfj0 w /\ zpacket_of w 2 = Some [0;0;0;1]%N /\
  sends zfj0 LittleEndian 2 [MHead zw_m1; MTail zw_m2] w w' /\
  exists vs w'', receives zfj0 BigEndian 2 [STail zw_s2; SHead zw_s1] w' vs w''.
Proof.
  destruct (zpsteps zfj0 zf_demo zpinit) as [w| | |] eqn:E; try (vm_compute in E; discriminate).
  exists w. eexists. split; [exact (C93_programs _ _ _ zf_demo_cleanly E)|].
  vm_compute in E. injection E as <-. split; [vm_compute; reflexivity|]. split.
  - eapply sends_layer; [vm_compute; reflexivity|apply small_all; vm_compute; reflexivity|vm_compute; reflexivity|].
    eapply sends_layer; [vm_compute; reflexivity|apply small_all; vm_compute; reflexivity|vm_compute; reflexivity|]. apply sends_none.
  - eexists _, _. eapply receives_layer; [vm_compute; reflexivity|vm_compute; reflexivity|apply small_all; vm_compute; reflexivity|vm_compute; reflexivity|vm_compute; reflexivity|].
    eapply receives_layer; [vm_compute; reflexivity|vm_compute; reflexivity|apply small_all; vm_compute; reflexivity|vm_compute; reflexivity|vm_compute; reflexivity|]. apply receives_none.
Qed.
(** A message that does not fit, and one that does behind some bytes. *)
Example C96_header_ex :
  match zpsteps zfj0 zf_demo zpinit with
  | Done w => map (fun off => match (let! w1 := zpstep zfj0 (PAddHeader 0 8) w in zp_write LittleEndian off zw_m1 (zp_got w1) w1) with
                              | Done (w2, _) => Some (zpackets w2) | _ => None end) [2; 3]
  | _ => [] end = [Some [Some [170;170;2;1;254;255;3;0;0;0;0]; Some [0;0;0]; Some [0;0;0;1]]; None]%N.
Proof. vm_compute. reflexivity. Qed.
