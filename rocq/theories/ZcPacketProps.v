(** Properties of packets over zero-compressed buffers: C90.

    A program is a list of statements over packet variables and buffer variables ([zpop]);
    [zpsteps junk l zpinit] runs it, [junk] being the contents of freshly allocated memory.
    [zpacket_of w i] is the string that packet [i] shows, [zpackets w] lists it for all
    packets, [zp_user w k] is the string of buffer [k] of the user. *)
From Verif Require Import Base BaseProofs Buffer BufferSpec ZcIter ZcBuffer ZcBufferSpec ZcBufferProofs ZcPacket ZcPacketSpec ZcPacketProofs ZcPacketSteps ZcPacketRoom.

Definition zpj0 : nat -> nat -> N := fun _ _ => 170%N.
Definition zpview (r : outcome zpworld) : option strings :=
  match r with Done w => Some (zpackets w) | _ => None end.
(** A payload of 3 zeros with room for 4 bytes; two packets, of which the second is a copy
    with a header of 2 bytes and cut in its zero area. *)
Definition zp_demo : list zpop :=
  [POnBuf (ZBase (NewZero 2 3 2)); PFromBuf 0; PCopy 0; POnBuf (ZBase (New 8)); POnBuf (ZBase (AddEndBytes 2 [1;2]%N));
   PAddHeaderBuf 1 2; PAddTrailerBuf 0 2; PRemTrailer 1 2].

(** After any history of sensible statements each further one does to the packets what it
    does to byte strings: only the packet that it is called on is changed, whoever shared its
    buffer, and wherever the zero area is.  [AddHeader(size)] and [AddTrailer(size)] bring in
    bytes of any value, [x], which is what the returned buffer shows. *)
Theorem C90_values : forall junk l o w,
  zp_cleanly junk l zpinit -> zpsteps junk l zpinit = Done w ->
  zp_no_deep o -> zp_sensible o w -> zp_bad_args o w = false ->
  exists w' x, zpstep junk o w = Done w' /\ length x = zp_extra o /\
    zpackets w' = zpspec w x o (zpackets w) /\ zp_returned w x o w'.
Proof.
  intros junk l o w C E D S B. pose proof (zp_step_ok junk o w (zp_steps_ok junk l _ _ zp_init_ok C E)) as H. rewrite B in H.
  destruct (H D S) as (w' & x & E' & _ & L & K & R & _). exists w', x. auto.
Qed.
Print Assumptions C90_values.
Example C90_values_ex :
  zp_cleanly zpj0 zp_demo zpinit /\
  zpview (zpsteps zpj0 zp_demo zpinit) = Some [Some [0;0;0;1;2]; Some [1;2;0]]%N /\
  zpview (zpsteps zpj0 (zp_demo ++ [PAddHeader 0 1; PAddTrailerPkt 1 0; PMakeFrag 1 2 4]) zpinit)
  = Some [Some [170;0;0;0;1;2]; Some [1;2;0;170;0;0;0;1;2]; Some [0;170;0;0]]%N.
Proof.
  split; [|split; vm_compute; reflexivity]. apply plain_cleanly; [apply roomy_init|].
  repeat constructor; cbn; lia.
Qed.

(** A statement fails exactly if more is removed than there is or a fragment is not inside
    the packet, or the user does so with a buffer; and then by an assertion. *)
Theorem C90_outcome : forall junk l o w,
  zp_cleanly junk l zpinit -> zpsteps junk l zpinit = Done w ->
  zp_bad_args o w = true -> zpstep junk o w = AssertFail.
Proof.
  intros junk l o w C E B. pose proof (zp_step_ok junk o w (zp_steps_ok junk l _ _ zp_init_ok C E)) as H. rewrite B in H. exact H.
Qed.
Print Assumptions C90_outcome.
Example C90_outcome_ex :
  match zpsteps zpj0 zp_demo zpinit with
  | Done w => map (fun o => (zp_bad_args o w, match zpstep zpj0 o w with AssertFail => true | _ => false end))
                [PRemHeader 1 3; PRemHeader 1 4; PRemTrailer 0 6; PMakeFrag 0 3 2; PMakeFrag 0 3 3; PMakeFrag 0 6 0]
  | _ => [] end = [(false, false); (true, true); (true, true); (false, false); (true, true); (true, true)].
Proof. vm_compute. reflexivity. Qed.

(** Buffers of the user: no statement on packets changes what they show, not even those from
    which packets were made and those that packets returned; *)
Theorem C90_buffers_kept : forall junk l o w w' k s,
  zp_cleanly junk l zpinit -> zpsteps junk l zpinit = Done w ->
  (forall zo, o <> POnBuf zo) -> zp_no_deep o -> zp_sensible o w -> zpstep junk o w = Done w' ->
  zp_user w k = Some s -> zp_user w' k = Some s.
Proof.
  intros junk l o w w' k s C E Ho D S E' U. pose proof (zp_step_ok junk o w (zp_steps_ok junk l _ _ zp_init_ok C E)) as H.
  destruct (zp_bad_args o w); [congruence|]. destruct (H D S) as (w1 & x & E1 & _ & _ & _ & _ & Ku & _).
  rewrite E1 in E'. injection E' as <-. eapply user_some; [|exact U]. apply Ku. destruct o; try exact I. destruct (Ho zo eq_refl).
Qed.
Print Assumptions C90_buffers_kept.
(** and statements on them do to them what they do to byte strings. *)
Theorem C90_buffers : forall junk l zo w w' k,
  zp_cleanly junk l zpinit -> zpsteps junk l zpinit = Done w ->
  no_deep zo -> zp_sensible (POnBuf zo) w -> existsb (zp_owned w) (zmentions zo) = false ->
  zpstep junk (POnBuf zo) w = Done w' -> zp_owned w k = false ->
  exists x, length x = extra_zlen zo /\ zp_user w' k = str (spec_zstep x zo (ztable (zp_buf w))) k.
Proof.
  intros junk l zo w w' k C E D S M E' O. pose proof (zp_steps_ok junk l _ _ zp_init_ok C E) as I.
  pose proof (zp_step_ok junk (POnBuf zo) w I) as H.
  destruct (zp_bad_args (POnBuf zo) w); [congruence|]. destruct (H D S) as (w1 & x & E1 & I1 & _ & _ & _ & _ & Kb).
  rewrite E1 in E'. injection E' as <-. destruct (Kb zo eq_refl M) as (Ey & x' & L & A). exists x'. split; [exact L|].
  rewrite ztable_abs by apply I. rewrite <- A. unfold zp_user. replace (zp_owned w1 k) with false; [apply zbytes_of_str, I1|].
  unfold zp_owned in *. rewrite Ey. congruence.
Qed.
Print Assumptions C90_buffers.
(** Variable 0 is the payload, 2 the header; 1 belongs to the first packet. *)
Example C90_buffers_ex :
  match zpsteps zpj0 zp_demo zpinit with
  | Done w => (map (zp_user w) [0; 1; 2],
      match zpsteps zpj0 [PAddHeader 0 2; PGetBuffer 0; POnBuf (ZBase (RemStart 2 1)); PAddTrailerBuf 0 2] w with
      | Done w' => (map (zp_user w') [0; 1; 2; 4; 5], zpacket_of w' 0) | _ => ([], None) end)
  | _ => ([], ([], None)) end
  = ([Some [0;0;0]; None; Some [1;2]],
     ([Some [0;0;0]; None; Some [2]; Some [170;170]; Some [170;170;0;0;0;1;2]], Some [170;170;0;0;0;1;2;2]))%N.
Proof. vm_compute. reflexivity. Qed.

(** A body lives exactly as long as a packet refers to it, and its count says how many do. *)
Theorem C90_counts : forall junk l w a,
  zp_cleanly junk l zpinit -> zpsteps junk l zpinit = Done w ->
  match nth_error (zp_bodies w) a with
  | Some (Some y) => zy_rc y = zp_references w a /\ 0 < zp_references w a
  | _ => zp_references w a = 0
  end.
Proof.
  intros junk l w a C E. pose proof (zp_steps_ok junk l _ _ zp_init_ok C E) as I.
  assert (R : refs [] w a = zp_references w a). { unfold refs, zp_references. cbn [filter length]. rewrite Nat.add_0_r. reflexivity. }
  destruct (nth_error (zp_bodies w) a) as [[y|]|] eqn:L.
  - destruct (p_rc _ _ I a y L) as [Hr Hp]. rewrite R in Hr. lia.
  - destruct (Nat.eq_0_gt_0_cases (zp_references w a)) as [Z|P]; [exact Z|]. rewrite <- R in P. destruct (p_ref _ _ I a P) as [y Ly].
    unfold live in Ly. congruence.
  - destruct (Nat.eq_0_gt_0_cases (zp_references w a)) as [Z|P]; [exact Z|]. rewrite <- R in P. destruct (p_ref _ _ I a P) as [y Ly].
    unfold live in Ly. congruence.
Qed.
Print Assumptions C90_counts.
Example C90_counts_ex :
  match zpsteps zpj0 (zp_demo ++ [PCopy 1; PAssign 0 1]) zpinit with
  | Done w => map (fun a => (match nth_error (zp_bodies w) a with Some (Some y) => zy_rc y | _ => 0 end, zp_references w a)) [0; 1]
  | _ => [] end = [(0, 0); (3, 3)].
Proof. vm_compute. reflexivity. Qed.

(** Programs whose zero areas come with room for something else are sensible: no buffer and
    no packet ever is made of zeros without a storage, *)
Theorem C90_no_bare : forall junk l w, Forall zp_roomy l -> zpsteps junk l zpinit = Done w ->
  (forall k, ~ bare (zp_buf w) k) /\ (forall i, ~ zp_bare w i).
Proof.
  intros junk l w H E. pose proof (roomy_steps junk l _ _ roomy_init H E) as R.
  split; intros k; [apply fits_bare, R|apply roomy_bare, R].
Qed.
Print Assumptions C90_no_bare.
(** and all else that is asked for can be read off the statements. *)
Theorem C90_plain : forall junk l, Forall zp_plain l -> zp_cleanly junk l zpinit.
Proof. intros junk l H. apply plain_cleanly; [apply roomy_init|exact H]. Qed.
Print Assumptions C90_plain.
Example C90_plain_ex : Forall zp_plain zp_demo /\ Forall zp_roomy zp_demo.
Proof. split; repeat constructor; cbn; lia. Qed.

(** Fragmentation and reassembly: a packet cut into fragments of any sizes, which are added
    one after the other to an empty packet, gives the packet again; all other packets, and
    the packet itself, stay as they were. *)
Theorem C90_reassembly : forall junk l w i s sizes, Forall zp_plain l -> zpsteps junk l zpinit = Done w ->
  zpacket_of w i = Some s -> list_sum sizes = length s ->
  let f := length (zp_vars w) in
  exists w', zpsteps junk (PNew :: zp_reassemble i f 0 (S f) sizes) w = Done w' /\
    zpacket_of w' f = Some s /\ (forall j, j < f -> zpacket_of w' j = zpacket_of w j).
Proof.
  intros junk l w i s sizes H E Hs Hn f. pose proof (C90_plain junk l H) as C.
  pose proof (zp_steps_ok junk l _ _ zp_init_ok C E) as I.
  assert (R : roomy w). { eapply roomy_steps; [apply roomy_init| |exact E]. eapply Forall_impl; [|exact H]. intros o Ho. apply Ho. }
  destruct (new_ok w I) as (w1 & E1 & I1 & K1 & _). injection E1 as <-. cbn [zpsteps zpstep obind]. set (w1 := zp_add w None) in *.
  assert (Li : i < f). { unfold zpacket_of in Hs. destruct (zp_var w i) eqn:V; [|discriminate]. eapply zp_var_lt; eauto. }
  assert (P : forall j, j < f -> zpacket_of w1 j = zpacket_of w j).
  { intros j Hj. rewrite <- !str_packets, K1, str_app_l by (rewrite packets_length; exact Hj). reflexivity. }
  assert (F : zpacket_of w1 f = Some []).
  { rewrite <- str_packets, K1. unfold f. rewrite <- (packets_length w), str_app_new. reflexivity. }
  assert (L1 : length (zp_vars w1) = S f) by (unfold w1, f; cbn; rewrite app_length; cbn; lia).
  destruct (reassemble_ok junk i f s sizes 0 w1 [] I1 R) as (w' & E' & F' & O'); auto; [lia|rewrite P; auto|lia|].
  rewrite L1 in E'. exists w'. split; [exact E'|]. split.
  - rewrite F', Hn. cbn [app skipn]. rewrite firstn_all. reflexivity.
  - intros j Hj. rewrite O' by lia. apply P, Hj.
Qed.
Print Assumptions C90_reassembly.
Example C90_reassembly_ex :
  zpview (zpsteps zpj0 (zp_demo ++ PNew :: zp_reassemble 0 2 0 3 [2; 2; 1]) zpinit)
  = Some [Some [0;0;0;1;2]; Some [1;2;0]; Some [0;0;0;1;2]; Some [0;0]; Some [0;1]; Some [2]]%N.
Proof. vm_compute. reflexivity. Qed.

(** Of a packet that is zeros alone, as [Packet(PacketBuffer(0, n))] is, the reassembled
    fragments are not the packet, *)
Theorem C90_bare_reassembly_refuted : exists junk w w' s,
  zpsteps junk [POnBuf (ZBase (NewZero 0 4 0)); PFromBuf 0] zpinit = Done w /\ zpacket_of w 0 = Some s /\
  zpsteps junk (PNew :: zp_reassemble 0 1 0 2 [2; 2]) w = Done w' /\ zpacket_of w' 1 <> Some s.
Proof.
  exists zpj0. eexists _, _, _. split; [vm_compute; reflexivity|]. split; [vm_compute; reflexivity|].
  split; [vm_compute; reflexivity|]. vm_compute. discriminate.
Qed.
Print Assumptions C90_bare_reassembly_refuted.
(** and neither adding that packet nor adding that buffer to another one adds the zeros. *)
Theorem C90_bare_add_refuted : exists junk w w1 w2,
  zpsteps junk [POnBuf (ZBase (NewZero 0 2 0)); PFromBuf 0; PNew] zpinit = Done w /\
  zpackets w = [Some [0;0]; Some []]%N /\
  zpstep junk (PAddTrailerPkt 1 0) w = Done w1 /\ zpackets w1 <> [Some [0;0]; Some [0;0]]%N /\
  zpstep junk (PAddHeaderBuf 1 0) w = Done w2 /\ zpackets w2 <> [Some [0;0]; Some [0;0]]%N.
Proof.
  exists zpj0. eexists _, _, _. split; [vm_compute; reflexivity|]. split; [vm_compute; reflexivity|].
  split; [vm_compute; reflexivity|]. split; [vm_compute; discriminate|]. split; [vm_compute; reflexivity|]. vm_compute. discriminate.
Qed.
Print Assumptions C90_bare_add_refuted.
