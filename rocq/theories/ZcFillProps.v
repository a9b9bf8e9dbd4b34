(** Properties of headers and trailers of packets over zero-compressed buffers: C93.

    [zp_filled junk (PAddHeader i n) ws w] calls [AddHeader(n)] of packet [i] and writes [ws],
    pairs of an offset and bytes, through iterators of the buffer that is returned.
    [fill ws x] is the string [x] with these bytes in place.  [zp_reached junk w] says that a
    program of sensible statements, which fills headers and trailers before doing anything
    else, reaches state [w]. *)
From Verif Require Import Base BaseProofs Buffer BufferSpec ZcIter ZcBuffer ZcBufferSpec ZcPacket ZcPacketSpec ZcPacketProofs ZcPacketSteps ZcPacketRoom ZcFillSpec ZcFillProofs.
From Verif Require PacketSpec.

Definition zfj0 : nat -> nat -> N := fun _ _ => 170%N.
Definition zfview (r : outcome zpworld) : option strings :=
  match r with Done w => Some (zpackets w) | _ => None end.
(** A payload of 3 zeros with room for 2 bytes on both sides; a packet, a copy of it, and one
    with a trailer of 1 byte, which shares the storage of the first. *)
Definition zf_demo : list zpop :=
  [POnBuf (ZBase (NewZero 2 3 2)); PFromBuf 0; PCopy 0; PCopy 0; POnBuf (ZBase (New 8)); POnBuf (ZBase (AddEndBytes 2 [1]%N));
   PAddTrailerBuf 2 2].

(** Programs of C90 are such programs. *)
Theorem C93_programs : forall junk l w,
  zp_cleanly junk l zpinit -> zpsteps junk l zpinit = Done w -> zp_reached junk w.
Proof. intros junk l w C E. exact (cleanly_reached junk l _ _ (reached_start junk) C E). Qed.
Print Assumptions C93_programs.
Lemma zf_demo_cleanly : zp_cleanly zfj0 zf_demo zpinit.
Proof. apply plain_cleanly; [apply roomy_init|]. repeat constructor; cbn; lia. Qed.
Example C93_programs_ex :
  zp_cleanly zfj0 zf_demo zpinit /\ zfview (zpsteps zfj0 zf_demo zpinit) = Some [Some [0;0;0]; Some [0;0;0]; Some [0;0;0;1]]%N.
Proof. split; [apply zf_demo_cleanly|vm_compute; reflexivity]. Qed.

(** What is written into the buffer that [AddHeader(n)] returns is the header of the packet,
    whoever shared its storage before and wherever its zeros are: bytes [x] of any value come
    in, and those in [ws] replace them.  All other packets, also copies of this one, and all
    buffers that the program had are as before. *)
Theorem C93_header : forall junk w i n ws s,
  zp_reached junk w -> zpacket_of w i = Some s -> inside n ws ->
  exists w' x, zp_filled junk (PAddHeader i n) ws w = Done w' /\ zp_reached junk w' /\ length x = n /\
    zpackets w' = upd (zpackets w) i (Some (PacketSpec.fill ws x ++ s)) /\
    zp_last w' = Some (PacketSpec.fill ws x) /\
    (forall k t, zp_user w k = Some t -> zp_user w' k = Some t).
Proof.
  intros junk w i n ws s R Ps Hw. destruct (fill_header_ok junk w i n ws s (reached_ok _ _ R) Ps Hw) as (w' & x & E & _ & Lx & K).
  exists w', x. split; [exact E|]. split; [|auto]. eapply reached_header; [exact R| |exact E].
  destruct (packet_var _ _ _ Ps) as (p & V & _). congruence.
Qed.
Print Assumptions C93_header.
(** The same for [AddTrailer(n)]. *)
Theorem C93_trailer : forall junk w i n ws s,
  zp_reached junk w -> zpacket_of w i = Some s -> inside n ws ->
  exists w' x, zp_filled junk (PAddTrailer i n) ws w = Done w' /\ zp_reached junk w' /\ length x = n /\
    zpackets w' = upd (zpackets w) i (Some (s ++ PacketSpec.fill ws x)) /\
    zp_last w' = Some (PacketSpec.fill ws x) /\
    (forall k t, zp_user w k = Some t -> zp_user w' k = Some t).
Proof.
  intros junk w i n ws s R Ps Hw. destruct (fill_trailer_ok junk w i n ws s (reached_ok _ _ R) Ps Hw) as (w' & x & E & _ & Lx & K).
  exists w', x. split; [exact E|]. split; [|auto]. eapply reached_trailer; [exact R| |exact E].
  destruct (packet_var _ _ _ Ps) as (p & V & _). congruence.
Qed.
Print Assumptions C93_trailer.
Example C93_header_ex :
  match zpsteps zfj0 zf_demo zpinit with
  | Done w =>
      (zfview (zp_filled zfj0 (PAddHeader 0 3) [(0, [7%N]); (1, [8%N])] w),
       zfview (let! w1 := zp_filled zfj0 (PAddTrailer 1 2) [(0, [5;6]%N)] w in zp_filled zfj0 (PAddHeader 1 2) [(0, [3;4]%N)] w1))
  | _ => (None, None) end
  = (Some [Some [7;8;170;0;0;0]; Some [0;0;0]; Some [0;0;0;1]], Some [Some [0;0;0]; Some [3;4;0;0;0;5;6]; Some [0;0;0;1]])%N.
Proof. vm_compute. reflexivity. Qed.

(** Writing outside these bytes fails, by an assertion. *)
Theorem C93_outside : forall junk w i n ws s o,
  zp_reached junk w -> zpacket_of w i = Some s -> o = PAddHeader i n \/ o = PAddTrailer i n ->
  ~ inside n ws -> zp_filled junk o ws w = AssertFail.
Proof. intros junk w i n ws s o R Ps Ho Hw. exact (fill_outside junk w i n ws s o (reached_ok _ _ R) Ps Ho Hw). Qed.
Print Assumptions C93_outside.
Example C93_outside_ex :
  match zpsteps zfj0 zf_demo zpinit with
  | Done w => map (fun ws => match zp_filled zfj0 (PAddHeader 0 2) ws w with AssertFail => true | _ => false end)
                [[(0, [7;8]%N)]; [(0, [7%N]); (1, [8;9]%N)]; [(2, [])]; [(3, [])]]
  | _ => [] end = [false; true; false; true].
Proof. vm_compute. reflexivity. Qed.

(** In all states that are so reached, each further statement does to the packets what it does
    to byte strings (see [zpspec]), or fails by an assertion if it asks for what is not there. *)
Theorem C93_values : forall junk o w,
  zp_reached junk w -> zp_no_deep o -> zp_sensible o w ->
  if zp_bad_args o w then zpstep junk o w = AssertFail
  else exists w' x, zpstep junk o w = Done w' /\ length x = zp_extra o /\
    zpackets w' = zpspec w x o (zpackets w) /\ zp_returned w x o w'.
Proof.
  intros junk o w R D S. pose proof (zp_step_ok junk o w (reached_ok _ _ R)) as H. destruct (zp_bad_args o w); [exact H|].
  destruct (H D S) as (w' & x & E & _ & L & K & Rt & _). exists w', x. auto.
Qed.
Print Assumptions C93_values.
Example C93_values_ex :
  match zpsteps zfj0 zf_demo zpinit with
  | Done w => zfview (let! w1 := zp_filled zfj0 (PAddHeader 0 3) [(0, [7;8;9]%N)] w in
                      zpsteps zfj0 [PCopy 0; PRemHeader 0 4; PAddTrailerPkt 0 3; PMakeFrag 3 1 4] w1)
  | _ => None end = Some [Some [0;0;7;8;9;0;0;0]; Some [0;0;0]; Some [0;0;0;1]; Some [7;8;9;0;0;0]; Some [8;9;0;0]]%N.
Proof. vm_compute. reflexivity. Qed.

(** Protocol stacks: layers that put headers and trailers around a packet, each of any number
    of fields, give the string of all fields in their places; *)
Theorem C93_layers : forall junk w i s ls,
  zp_reached junk w -> zpacket_of w i = Some s ->
  exists w', zp_layers junk i ls w = Done w' /\ zp_reached junk w' /\
    zpackets w' = upd (zpackets w) i (Some (wrap ls s)) /\
    (forall k t, zp_user w k = Some t -> zp_user w' k = Some t).
Proof. intros junk w i s ls R Ps. exact (layers_ok junk i ls w s R Ps). Qed.
Print Assumptions C93_layers.
(** and whoever takes the layers off again, the last one first, has the payload: nothing is
    left of the layers, in no packet. *)
Theorem C93_unwrapped : forall junk w i s ls,
  zp_reached junk w -> zpacket_of w i = Some s ->
  exists w1 w2, zp_layers junk i ls w = Done w1 /\ zpacket_of w1 i = Some (wrap ls s) /\
    zpsteps junk (map (zp_strip i) (rev ls)) w1 = Done w2 /\ zpackets w2 = zpackets w.
Proof.
  intros junk w i s ls R Ps. destruct (layers_ok junk i ls w s R Ps) as (w1 & E1 & R1 & P1 & _).
  pose proof (packet_upd _ _ _ _ _ Ps P1) as Q1. destruct (strips_ok junk i ls w1 s R1 Q1) as (w2 & E2 & _ & P2).
  exists w1, w2. split; [exact E1|]. split; [exact Q1|]. split; [exact E2|]. rewrite P2, P1, upd_twice. apply upd_own. rewrite str_packets. exact Ps.
Qed.
Print Assumptions C93_unwrapped.
Definition zf_stack : list layer := [Head [[1;2]; [3]]; Tail [[9;9]]; Head [[4]; []; [5;6]]]%N.
Example C93_layers_ex :
  match zpsteps zfj0 zf_demo zpinit with
  | Done w => (zfview (zp_layers zfj0 2 zf_stack w),
               zfview (let! w1 := zp_layers zfj0 2 zf_stack w in zpsteps zfj0 (map (zp_strip 2) (rev zf_stack)) w1))
  | _ => (None, None) end
  = (Some [Some [0;0;0]; Some [0;0;0]; Some [4;5;6;1;2;3;0;0;0;1;9;9]], Some [Some [0;0;0]; Some [0;0;0]; Some [0;0;0;1]])%N.
Proof. vm_compute. reflexivity. Qed.

(** A buffer that is written into later, after the packet was copied, changes the copy, too:
    the condition of [zp_reached] cannot be left out. *)
Theorem C93_late_refuted : exists junk l w w1 w2 i s x y,
  zp_cleanly junk l zpinit /\ zpsteps junk l zpinit = Done w /\
  zpsteps junk [PAddHeader i 1; PCopy i] w = Done w1 /\ zpacket_of w1 3 = Some (x :: s) /\
  zpsteps junk (zp_writes (zp_got w1) [(0, [y])]) w1 = Done w2 /\ zpacket_of w2 3 = Some (y :: s) /\ x <> y.
Proof.
  exists zfj0, zf_demo. eexists _, _, _, 0, [0;0;0]%N, 170%N, 7%N. split; [apply zf_demo_cleanly|].
  split; [vm_compute; reflexivity|]. split; [vm_compute; reflexivity|]. split; [vm_compute; reflexivity|].
  split; [vm_compute; reflexivity|]. split; [vm_compute; reflexivity|]. discriminate.
Qed.
Print Assumptions C93_late_refuted.
