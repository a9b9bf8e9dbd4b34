(** Property C91: messages in buffers, and in the headers and trailers of packets. *)
From Verif Require Import Base BaseProofs BufferIter Message MessageSpec Packet PacketSpec PacketParts PacketProofs PacketPieces PacketFill
  PacketProps Wire WireSpec WireProofs.
From Verif Require Buffer BufferSpec BufferProofs.
From Coq Require Import ZifyBool ZifyNat ZifyN.

(** ** Buffers *)

(** C91.  In every history: a message that fits is written, the buffer shows its bytes at the
    offset and everything else as before, all that has changed is what writing these bytes
    changes, and reading gives the message; a message that does not fit fails an assertion. *)
Theorem C91_write : forall junk l w k bs host off m s,
  Buffer.steps junk l Buffer.init = Done w -> small w -> BufferSpec.bytes_of w k = Some bs ->
  message_ok host m -> readable_as m s -> (N.of_nat off < 2 ^ 63)%N ->
  if off + length (message host m) <=? length bs
  then exists w' it it', write_message host off m k w = Done (w', it) /\
    Buffer.step junk (Buffer.Write k off (message host m)) w = Done w' /\
    BufferSpec.bytes_of w' k = Some (overwrite off (message host m) bs) /\
    read_message host off s k w' = Done (map snd m, it')
  else write_message host off m k w = AssertFail.
Proof.
  intros junk l w k bs host off m s H S B Hm Hs Ho. pose proof (BufferProofs.steps_inv _ _ _ _ BufferProofs.init_inv H) as I.
  pose proof (write_message_ok junk host off m k w bs I S Hm Ho B) as W.
  destruct (Nat.leb_spec (off + length (message host m)) (length bs)) as [L|L]; [|exact W]. destruct W as (w' & it & W1 & W2).
  assert (Q : BufferSpec.bytes_of w' k = Some (overwrite off (message host m) bs)) by (eapply write_bytes_of; eauto).
  assert (S' : small w') by (eapply write_small; eauto).
  assert (I' : BufferProofs.inv w').
  { apply (BufferProofs.steps_inv junk [Buffer.Write k off (message host m)] w w' I). cbn [Buffer.steps]. rewrite W2. reflexivity. }
  assert (L' : length (overwrite off (message host m) bs) = length bs) by (apply overwrite_len, L).
  destruct (read_message_ok host off m s k w' _ I' S' Hm Hs Q) as [it' R]; [rewrite L'; exact L|apply overwrite_at, L|].
  exists w', it, it'. auto.
Qed.
Print Assumptions C91_write.

(** C91.  What a buffer shows is what is read from it; too many bytes fail an assertion. *)
Theorem C91_read : forall junk l w k bs host off m s,
  Buffer.steps junk l Buffer.init = Done w -> small w -> BufferSpec.bytes_of w k = Some bs ->
  message_ok host m -> readable_as m s -> off + length (message host m) <= length bs ->
  at_offset off (message host m) bs ->
  exists it, read_message host off s k w = Done (map snd m, it).
Proof.
  intros junk l w k bs host off m s H S B Hm Hs L A. pose proof (BufferProofs.steps_inv _ _ _ _ BufferProofs.init_inv H) as I.
  eapply read_message_ok; eauto.
Qed.
Print Assumptions C91_read.
Theorem C91_read_outcome : forall junk l w k bs host off s,
  Buffer.steps junk l Buffer.init = Done w -> small w -> BufferSpec.bytes_of w k = Some bs ->
  Forall (fun q => shape_ok (snd q)) s -> (N.of_nat off < 2 ^ 63)%N ->
  if off + shapes_size s <=? length bs
  then exists r, read_message host off s k w = Done r
  else read_message host off s k w = AssertFail.
Proof.
  intros junk l w k bs host off s H S B Hs Ho. pose proof (BufferProofs.steps_inv _ _ _ _ BufferProofs.init_inv H) as I.
  exact (read_message_out host off s k w bs I S Hs Ho B).
Qed.
Print Assumptions C91_read_outcome.

(** ** Packets *)

Lemma steps_done BV junk (l : list (op BV)) : forall w w' l', steps junk l w = Done w' -> steps junk (l ++ l') w = steps junk l' w'.
Proof.
  induction l as [|o l IH]; intros w w' l' E; cbn [steps app] in *; [injection E as <-; reflexivity|].
  destruct (step junk o w); cbn [obind] in *; try discriminate; eauto.
Qed.
(** Writing to a buffer of the user. *)
Lemma sent BV junk hs off m (w w2 : world BV) it k x : pinv true false [] w \/ pinv false true [] w -> small (w_buf w) -> message_ok hs m -> (N.of_nat off < 2 ^ 63)%N ->
  buffer_of w k = Some x -> packet_write hs off m k w = Done (w2, it) ->
  off + length (message hs m) <= length x /\ step junk (OnBuf (Buffer.Write k off (message hs m))) w = Done w2.
Proof.
  intros I S Hm Ho B E. assert (Ib : BufferProofs.inv (w_buf w)) by (destruct I as [I|I]; apply (p_buf _ _ _ _ I)).
  unfold buffer_of in B. destruct (owned w k) eqn:O; [discriminate|]. unfold packet_write in E. rewrite O in E.
  pose proof (write_message_ok junk hs off m k (w_buf w) x Ib S Hm Ho B) as W.
  destruct (Nat.leb_spec (off + length (message hs m)) (length x)) as [L|L]; [|rewrite W in E; discriminate]. destruct W as (b & it0 & W1 & W2).
  split; [exact L|]. rewrite W1 in E. cbn [obind] in E. injection E as <- <-. cbn [step mentions existsb]. rewrite O. cbn [orb]. unfold on_buf. rewrite W2. reflexivity.
Qed.
(** Reading from a packet that has the bytes. *)
Lemma received BV junk lo hi (l : list (op BV)) w2 i Q0 w3 w4 g h b e t j Q off hs hr m s :
  Forall (fits lo hi) l -> steps junk l init = Done w2 -> packet_of w2 i = Some Q0 ->
  follow junk lo hi w2 (whole i (len Q0)) w3 g -> g j = Some (mk_piece h b e t) -> b <= off -> off + length (message hs m) <= e ->
  at_offset off (message hs m) (k_bytes Q0) ->
  packet_of w3 j = Some Q -> step junk (GetBuffer j) w3 = Done w4 -> small (w_buf w4) ->
  message_ok hr m -> understood hs hr m -> readable_as m s ->
  exists it', packet_read hr (h + (off - b)) s (newest w4) w4 = Done (map snd m, it').
Proof.
  intros F H2 P2 Fo Gj Hb He A P3 E4 S4 Hr U Hs. pose proof (hist_pinv _ _ _ _ _ _ F H2) as I2.
  assert (V : exists p, var w2 i = Some p) by (unfold packet_of in P2; destruct (var w2 i); [eauto|discriminate]). destruct V as [p V].
  destruct (view_var _ _ _ _ _ _ I2 V) as (S0 & X & Y & Vw). pose proof (whole_holds _ _ _ _ _ _ _ _ _ _ I2 P2 V Vw) as H0.
  destruct (follow_holds lo hi (k_bytes Q0) X junk _ _ _ _ Fo I2 H0) as [I3 H3].
  pose proof (step_pinv _ lo hi _ (GetBuffer j) _ _ I3 Logic.I E4) as G4. destruct (g_spec _ _ _ _ _ G4 Logic.I) as (x & _ & _ & R). cbn [returned] in R.
  specialize (R _ P3).
  destruct (C54_pieces BV lo hi junk l w2 i Q0 w3 g h b e t j _ F H2 P2 Fo Gj P3) as (L1 & L2 & B & _).
  rewrite <- (understood_same _ _ _ U) in *. unfold last_buffer, buffer_of in R. fold (newest w4) in R. unfold packet_read. destruct (owned w4 (newest w4)); [discriminate|].
  unfold len in L1, L2. eapply read_message_ok; [apply (p_buf _ _ _ _ (g_inv _ _ _ _ _ G4))|exact S4|exact Hr|exact Hs|exact R| |].
  - lia.
  - eapply at_moved; eauto.
Qed.

(** C91.  What writing into a new header does: the message is in the header of packet [i], the
    rest of that packet and all other packets, with their tags, are as before. *)
Theorem C91_sent : forall BV junk (l : list (op BV)) i n P w0 w1 w2 it hs off m,
  Forall (fits true false) l -> steps junk l init = Done w0 -> packet_of w0 i = Some P -> 0 < n ->
  step junk (AddHeader i n) w0 = Done w1 -> small (w_buf w1) ->
  message_ok hs m -> (N.of_nat off < 2 ^ 63)%N -> packet_write hs off m (newest w1) w1 = Done (w2, it) ->
  exists x, length x = n /\ off + length (message hs m) <= n /\ at_offset off (message hs m) x /\
    packets w2 = upd (packets w0) i (Some (front x P)).
Proof.
  intros BV junk l i n P w0 w1 w2 it hs off m F H0 HP Hn E1 S1 Hm Ho E2.
  pose proof (hist_pinv _ _ _ _ _ _ F H0) as I0. pose proof (step_pinv _ true false _ (AddHeader i n) _ _ I0 eq_refl E1) as G1.
  destruct (g_spec _ _ _ _ _ G1 Logic.I) as (x0 & Lx0 & _ & R). cbn [returned extra] in *.
  assert (V : exists r, var w0 i = Some r) by (unfold packet_of in HP; destruct (var w0 i); [eauto|discriminate]). destruct V as [r V].
  assert (R' : buffer_of w1 (newest w1) = Some x0) by (apply R; congruence).
  destruct (sent BV junk hs off m w1 w2 it _ x0 (or_introl (g_inv _ _ _ _ _ G1)) S1 Hm Ho R' E2) as (L & W).
  destruct (C53_header_filled BV junk l i n P [(off, message hs m)] w0 w1 w2 F H0 HP Hn E1) as (x & Lx & Lf & Ps & _).
  { cbn [map fst snd steps]. unfold newest in W. rewrite W. reflexivity. }
  exists (fill [(off, message hs m)] x). split; [exact Lf|]. split; [lia|]. split; [|exact Ps].
  cbn [fill fold_left fst snd]. apply overwrite_at. lia.
Qed.
Print Assumptions C91_sent.

(** C91.  A sender adds a header to packet [i] and writes a message into the buffer that is
    returned.  Afterwards anything happens to packets: they are copied, moved, assigned, fragmented,
    reassembled, get headers and trailers and lose them.  Every packet [j] that has the bytes of
    the message, behind [h] other bytes and from byte [b] of the original on, gives the message to the
    receiver who reads at the place where it now is. *)
Theorem C91_header : forall BV junk (l : list (op BV)) i n P w0 w1 w2 w3 w4 it hs hr off m s g h b e t j Q,
  Forall (fits true false) l -> steps junk l init = Done w0 -> packet_of w0 i = Some P -> 0 < n ->
  step junk (AddHeader i n) w0 = Done w1 -> small (w_buf w1) ->
  message_ok hs m -> (N.of_nat off < 2 ^ 63)%N -> packet_write hs off m (newest w1) w1 = Done (w2, it) ->
  follow junk true false w2 (whole i (n + len P)) w3 g ->
  g j = Some (mk_piece h b e t) -> b <= off -> off + length (message hs m) <= e ->
  packet_of w3 j = Some Q -> step junk (GetBuffer j) w3 = Done w4 -> small (w_buf w4) ->
  message_ok hr m -> understood hs hr m -> readable_as m s ->
  exists it', packet_read hr (h + (off - b)) s (newest w4) w4 = Done (map snd m, it').
Proof.
  intros BV junk l i n P w0 w1 w2 w3 w4 it hs hr off m s g h b e t j Q F H0 HP Hn E1 S1 Hm Ho E2 Fo Gj Hb He HQ E4 S4 Hr U Hs.
  pose proof (hist_pinv _ _ _ _ _ _ F H0) as I0. pose proof (step_pinv _ true false _ (AddHeader i n) _ _ I0 eq_refl E1) as G1.
  destruct (g_spec _ _ _ _ _ G1 Logic.I) as (x0 & Lx0 & _ & R). cbn [returned extra] in *.
  assert (V : exists r, var w0 i = Some r) by (unfold packet_of in HP; destruct (var w0 i); [eauto|discriminate]). destruct V as [r V].
  assert (R' : buffer_of w1 (newest w1) = Some x0) by (apply R; congruence).
  destruct (sent BV junk hs off m w1 w2 it _ x0 (or_introl (g_inv _ _ _ _ _ G1)) S1 Hm Ho R' E2) as (L & W).
  destruct (C53_header_filled BV junk l i n P [(off, message hs m)] w0 w1 w2 F H0 HP Hn E1) as (x & Lx & Lf & Ps & _).
  { cbn [map fst snd steps]. unfold newest in W. rewrite W. reflexivity. }
  assert (P2 : packet_of w2 i = Some (front (fill [(off, message hs m)] x) P)).
  { rewrite <- pk_packets, Ps. unfold pk. rewrite nth_upd_eq; [reflexivity|]. rewrite packets_length. eapply var_lt, V. }
  apply (received BV junk true false (l ++ [AddHeader i n; OnBuf (Buffer.Write (newest w1) off (message hs m))]) w2 i (front (fill [(off, message hs m)] x) P) w3 w4 g h b e t j Q off hs hr m s); auto.
  - apply Forall_app. split; [exact F|]. constructor; [reflexivity|]. constructor; [left; exact Logic.I|constructor].
  - rewrite (steps_done _ _ _ _ _ _ H0). cbn [steps]. rewrite E1. cbn [obind]. rewrite W. reflexivity.
  - replace (len (front (fill [(off, message hs m)] x) P)) with (n + len P); [exact Fo|]. unfold len, front. cbn [k_bytes]. rewrite app_length. lia.
  - unfold front. cbn [k_bytes fill fold_left fst snd]. apply at_app_l; [rewrite overwrite_len; lia|apply overwrite_at; lia].
Qed.
Print Assumptions C91_header.

(** C91.  The same with a trailer; its first byte is byte [len P] of the packet. *)
Theorem C91_trailer : forall BV junk (l : list (op BV)) i n P w0 w1 w2 w3 w4 it hs hr off m s g h b e t j Q,
  Forall (fits false true) l -> steps junk l init = Done w0 -> packet_of w0 i = Some P -> 0 < n ->
  step junk (AddTrailer i n) w0 = Done w1 -> small (w_buf w1) ->
  message_ok hs m -> (N.of_nat off < 2 ^ 63)%N -> packet_write hs off m (newest w1) w1 = Done (w2, it) ->
  follow junk false true w2 (whole i (len P + n)) w3 g ->
  g j = Some (mk_piece h b e t) -> b <= len P + off -> len P + off + length (message hs m) <= e ->
  packet_of w3 j = Some Q -> step junk (GetBuffer j) w3 = Done w4 -> small (w_buf w4) ->
  message_ok hr m -> understood hs hr m -> readable_as m s ->
  exists it', packet_read hr (h + (len P + off - b)) s (newest w4) w4 = Done (map snd m, it').
Proof.
  intros BV junk l i n P w0 w1 w2 w3 w4 it hs hr off m s g h b e t j Q F H0 HP Hn E1 S1 Hm Ho E2 Fo Gj Hb He HQ E4 S4 Hr U Hs.
  pose proof (hist_pinv _ _ _ _ _ _ F H0) as I0. pose proof (step_pinv _ false true _ (AddTrailer i n) _ _ I0 eq_refl E1) as G1.
  destruct (g_spec _ _ _ _ _ G1 Logic.I) as (x0 & Lx0 & _ & R). cbn [returned extra] in *.
  assert (V : exists r, var w0 i = Some r) by (unfold packet_of in HP; destruct (var w0 i); [eauto|discriminate]). destruct V as [r V].
  assert (R' : buffer_of w1 (newest w1) = Some x0) by (apply R; congruence).
  destruct (sent BV junk hs off m w1 w2 it _ x0 (or_intror (g_inv _ _ _ _ _ G1)) S1 Hm Ho R' E2) as (L & W).
  destruct (C53_trailer_filled BV junk l i n P [(off, message hs m)] w0 w1 w2 F H0 HP Hn E1) as (x & Lx & Lf & Ps & _).
  { cbn [map fst snd steps]. unfold newest in W. rewrite W. reflexivity. }
  assert (P2 : packet_of w2 i = Some (back (fill [(off, message hs m)] x) P)).
  { rewrite <- pk_packets, Ps. unfold pk. rewrite nth_upd_eq; [reflexivity|]. rewrite packets_length. eapply var_lt, V. }
  apply (received BV junk false true (l ++ [AddTrailer i n; OnBuf (Buffer.Write (newest w1) off (message hs m))]) w2 i (back (fill [(off, message hs m)] x) P) w3 w4 g h b e t j Q (len P + off) hs hr m s); auto.
  - apply Forall_app. split; [exact F|]. constructor; [reflexivity|]. constructor; [left; exact Logic.I|constructor].
  - rewrite (steps_done _ _ _ _ _ _ H0). cbn [steps]. rewrite E1. cbn [obind]. rewrite W. reflexivity.
  - replace (len (back (fill [(off, message hs m)] x) P)) with (len P + n); [exact Fo|]. unfold len, back. cbn [k_bytes]. rewrite app_length. lia.
  - unfold back. cbn [k_bytes fill fold_left fst snd]. apply at_app_r, overwrite_at. lia.
Qed.
Print Assumptions C91_trailer.

(** A small message: a sequence number and a time stamp, in network order. *)
Definition m91 : list (order * field) := [(BigOrder, FNum (UInt 2) 258); (BigOrder, FTime (-2))].
Definition s91 : list (order * shape) := [(BigOrder, SNum (UInt 2)); (BigOrder, STime)].
Lemma m91_ok host : message_ok host m91.
Proof. repeat constructor; cbn; intuition lia. Qed.
Lemma m91_s91 : readable_as m91 s91.
Proof. repeat constructor. Qed.
Ltac small91 := let a := fresh in let s := fresh in let E := fresh in
  intros a s E; vm_compute in E; repeat (destruct a as [|a]; [try discriminate E; injection E as <-; vm_compute; reflexivity|]); destruct a; discriminate E.

(** Buffers: a buffer of 12 bytes, 10 of which become the message. *)
Example C91_write_ex : exists w w' it,
  Buffer.steps j0 [Buffer.NewZero 2 12 3] Buffer.init = Done w /\ small w /\ BufferSpec.bytes_of w 0 = Some (repeat 0%N 12) /\
  write_message LittleEndian 1 m91 0 w = Done (w', it) /\
  BufferSpec.bytes_of w' 0 = Some [0; 1;2; 255;255;255;255;255;255;255;254; 0]%N /\
  write_message LittleEndian 3 m91 0 w = AssertFail.
Proof.
  eexists _, _, _. split; [vm_compute; reflexivity|]. split; [small91|]. split; [vm_compute; reflexivity|].
  split; [vm_compute; reflexivity|]. split; vm_compute; reflexivity.
Qed.
Example C91_read_ex : exists w, Buffer.steps j0 [Buffer.New 0; Buffer.AddEndBytes 0 (7%N :: message LittleEndian m91)] Buffer.init = Done w /\ small w /\
  BufferSpec.bytes_of w 0 = Some (7%N :: message LittleEndian m91) /\ at_offset 1 (message LittleEndian m91) (7%N :: message LittleEndian m91) /\
  (exists it, read_message LittleEndian 1 s91 0 w = Done ([FNum (UInt 2) 258; FTime (-2)], it)) /\
  Forall (fun q => shape_ok (snd q)) s91 /\ read_message LittleEndian 2 s91 0 w = AssertFail.
Proof.
  eexists. split; [vm_compute; reflexivity|]. split; [small91|]. split; [vm_compute; reflexivity|]. split; [vm_compute; reflexivity|].
  split; [eexists; vm_compute; reflexivity|]. split; [repeat constructor; cbn; intuition lia|vm_compute; reflexivity].
Qed.

(** Packets: three bytes get a header of 12 bytes, into which a little endian host writes the
    message; the packet is cut in the middle of the message, the parts are put together, the first byte of
    the header is removed and another header of 2 bytes added; a big endian host reads. *)
Example C91_header_ex : exists w0 w1 w2 it w3 g w4 Q,
  steps j0 (start [5; 6; 7]%N) init = Done w0 /\ (exists P, packet_of w0 0 = Some P /\ len P = 3) /\
  step j0 (AddHeader 0 12) w0 = Done w1 /\ small (w_buf w1) /\ packet_write LittleEndian 1 m91 (newest w1) w1 = Done (w2, it) /\
  follow j0 true false w2 (whole 0 (12 + 3)) w3 g /\ g 1 = Some (mk_piece 2 1 15 0) /\ packet_of w3 1 = Some Q /\
  step j0 (GetBuffer 1) w3 = Done w4 /\ small (w_buf w4) /\ understood LittleEndian BigEndian m91 /\
  exists it', packet_read BigEndian 2 s91 (newest w4) w4 = Done ([FNum (UInt 2) 258; FTime (-2)], it').
Proof.
  eexists _, _, _, _, _, _, _, _. split; [vm_compute; reflexivity|]. split; [eexists; split; vm_compute; reflexivity|].
  split; [vm_compute; reflexivity|]. split; [small91|]. split; [vm_compute; reflexivity|]. split.
  - eapply (follow_step _ _ _ (MakeFrag 0 0 6)); [exact Logic.I|exact Logic.I|vm_compute; reflexivity|].
    eapply (follow_step _ _ _ (MakeFrag 0 6 9)); [exact Logic.I|exact Logic.I|vm_compute; reflexivity|].
    eapply (follow_join _ _ _ 1 2 (AddTrailerPkt 1 2)); [auto|vm_compute; reflexivity|].
    eapply (follow_step _ _ _ (RemHeader 1 1)); [exact Logic.I|exact Logic.I|vm_compute; reflexivity|].
    eapply (follow_step _ _ _ (AddHeader 1 2)); [reflexivity|exact Logic.I|vm_compute; reflexivity|].
    apply follow_nil.
  - split; [vm_compute; reflexivity|]. split; [vm_compute; reflexivity|]. split; [vm_compute; reflexivity|]. split; [small91|].
    split; [right; repeat constructor|]. eexists. vm_compute. reflexivity.
Qed.
Example C91_trailer_ex : exists w0 w1 w2 it w3 g w4 Q,
  steps j0 (start [5; 6; 7]%N) init = Done w0 /\ (exists P, packet_of w0 0 = Some P /\ len P = 3) /\
  step j0 (AddTrailer 0 10) w0 = Done w1 /\ small (w_buf w1) /\ packet_write LittleEndian 0 m91 (newest w1) w1 = Done (w2, it) /\
  follow j0 false true w2 (whole 0 (3 + 10)) w3 g /\ g 1 = Some (mk_piece 0 2 13 0) /\ packet_of w3 1 = Some Q /\
  step j0 (GetBuffer 1) w3 = Done w4 /\ small (w_buf w4) /\
  exists it', packet_read BigEndian 1 s91 (newest w4) w4 = Done ([FNum (UInt 2) 258; FTime (-2)], it').
Proof.
  eexists _, _, _, _, _, _, _, _. split; [vm_compute; reflexivity|]. split; [eexists; split; vm_compute; reflexivity|].
  split; [vm_compute; reflexivity|]. split; [small91|]. split; [vm_compute; reflexivity|]. split.
  - eapply (follow_step _ _ _ (Copy 0)); [exact Logic.I|exact Logic.I|vm_compute; reflexivity|].
    eapply (follow_step _ _ _ (RemHeader 1 2)); [exact Logic.I|exact Logic.I|vm_compute; reflexivity|].
    apply follow_nil.
  - split; [vm_compute; reflexivity|]. split; [vm_compute; reflexivity|]. split; [vm_compute; reflexivity|]. split; [small91|].
    eexists. vm_compute. reflexivity.
Qed.

(** C91.  The message has to be written before the packet is copied: the copy shares the header,
    so that a message that is written later changes the packet that somebody else has. *)
Theorem C91_late_write_refuted : exists (w0 w1 w2 w3 : world nat) it p q,
  steps j0 (start [5; 6; 7]%N) init = Done w0 /\ step j0 (AddHeader 0 10) w0 = Done w1 /\ step j0 (Copy 0) w1 = Done w2 /\
  packet_write LittleEndian 0 m91 (newest w1) w2 = Done (w3, it) /\
  packet_of w2 1 = Some p /\ packet_of w3 1 = Some q /\ k_bytes q <> k_bytes p /\ at_offset 0 (message LittleEndian m91) (k_bytes q).
Proof.
  eexists _, _, _, _, _, _, _. split; [vm_compute; reflexivity|]. split; [vm_compute; reflexivity|]. split; [vm_compute; reflexivity|].
  split; [vm_compute; reflexivity|]. split; [vm_compute; reflexivity|]. split; [vm_compute; reflexivity|]. split; vm_compute; [discriminate|reflexivity].
Qed.
Print Assumptions C91_late_write_refuted.
