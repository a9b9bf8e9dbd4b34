(** Lemmas about messages in buffers. *)
From Verif Require Import Base BaseProofs BufferIter BufferIterSpec Message MessageSpec MessageProofs MessageProps Wire WireSpec.
From Verif Require Buffer BufferSpec BufferProofs ZcIterSpec PacketSpec.
From Coq Require Import ZifyBool ZifyNat ZifyN.

Notation binv := BufferProofs.inv.
Notation bytes_of := BufferSpec.bytes_of.

Lemma write_plain_done host m mem it mem' it' : message_ok host m -> iter_ok mem it -> write_plain host m mem it = Done (mem', it') ->
  mem' = ZcIterSpec.overwrite (N.to_nat (it_cursor it)) (message host m) mem.
Proof.
  intros Hm H E.
  apply (write_all_done host biter (write_int host) (write_bytes host) (read_int host) (read_bytes host) p_str p_pos p_lim p_adv iter_ok
    p_lim_ok p_ok_length p_adv_ok p_adv_same p_adv_adv p_adv_0 (p_wint host) (p_wbytes host) (p_rint host) (p_rbytes host) m Hm mem it mem' it' H) in E.
  exact (proj1 (proj2 (proj2 (proj2 E)))).
Qed.

(** The iterator of a buffer, moved forward. *)
Lemma begin_at w k b bs : binv w -> small w -> Buffer.var w k = Some b -> bytes_of w k = Some bs ->
  exists mem, storage_bytes (Buffer.w_heap w) b = Done mem /\ Buffer.b_start b + length bs = Buffer.b_end b /\ Buffer.b_end b <= length mem /\
    (N.of_nat (length mem) < 2 ^ 63)%N /\ bs = firstn (length bs) (skipn (Buffer.b_start b) mem) /\
    match Buffer.b_st b with
    | None => mem = []
    | Some a => exists s, nth_error (Buffer.w_heap w) a = Some (Some s) /\ mem = Buffer.sg_bytes s
    end.
Proof.
  intros I S V B. pose proof (BufferProofs.i_holds _ I k b (proj1 (BufferProofs.var_some _ _ _) V)) as H.
  unfold BufferSpec.bytes_of in B. rewrite V in B. rewrite (BufferProofs.copy_to_data _ _ _ H) in B.
  rewrite firstn_all2 in B by (rewrite BufferProofs.data_length; [lia|exact H]). injection B as <-.
  rewrite (BufferProofs.data_length _ _ H). unfold storage_bytes, BufferProofs.data. unfold BufferProofs.holds in H.
  destruct (Buffer.b_st b) as [a|].
  - destruct H as (s & L & H1 & H2). unfold BufferProofs.live in L. unfold Buffer.get. rewrite L. cbn [obind]. exists (Buffer.sg_bytes s).
    unfold Buffer.sg_cap in H2. split; [reflexivity|]. split; [lia|]. split; [exact H2|]. split; [eapply S, L|]. split; [reflexivity|]. eauto.
  - destruct H as [H1 H2]. exists []. rewrite H1, H2. cbn. repeat split; auto; lia.
Qed.

Lemma begin_move b (mem : list N) off (bs : list N) : Buffer.b_start b + length bs = Buffer.b_end b -> Buffer.b_end b <= length mem -> (N.of_nat (length mem) < 2 ^ 63)%N ->
  (N.of_nat off < 2 ^ 63)%N ->
  if off <=? length bs
  then exists it, move_forward (begin b) (N.of_nat off) = Done it /\ it = mk_biter (N.of_nat (Buffer.b_start b)) (N.of_nat (Buffer.b_end b)) (N.of_nat (Buffer.b_start b + off)) /\
    iter_ok mem it
  else move_forward (begin b) (N.of_nat off) = AssertFail.
Proof.
  intros H1 H2 H3 H4. unfold move_forward, can_move_forward, begin, set_cursor. cbn [it_cursor it_end it_start].
  assert (E : w64 (N.of_nat (Buffer.b_start b) + N.of_nat off) = N.of_nat (Buffer.b_start b + off)).
  { unfold w64, wrap. rewrite N.mod_small; [lia|]. change (2 ^ 64)%N with (2 ^ 63 + 2 ^ 63)%N. lia. }
  rewrite E. destruct (Nat.leb_spec off (length bs)).
  - destruct (N.leb_spec (N.of_nat (Buffer.b_start b + off)) (N.of_nat (Buffer.b_end b))); [|lia].
    eexists. split; [reflexivity|]. split; [reflexivity|]. unfold iter_ok. cbn [it_cursor it_end it_start]. repeat split; lia.
  - destruct (N.leb_spec (N.of_nat (Buffer.b_start b + off)) (N.of_nat (Buffer.b_end b))); [lia|]. reflexivity.
Qed.

(** Writing a message is writing its bytes. *)
Lemma write_message_ok junk host off m k w bs : binv w -> small w -> message_ok host m -> (N.of_nat off < 2 ^ 63)%N -> bytes_of w k = Some bs ->
  if off + length (message host m) <=? length bs
  then exists w' it, write_message host off m k w = Done (w', it) /\ Buffer.step junk (Buffer.Write k off (message host m)) w = Done w'
  else write_message host off m k w = AssertFail.
Proof.
  intros I S Hm Ho B. destruct (Buffer.var w k) as [b|] eqn:V; [|unfold BufferSpec.bytes_of in B; rewrite V in B; discriminate].
  destruct (begin_at w k b bs I S V B) as (mem & Em & E1 & E2 & E3 & E4 & E5). pose proof (begin_move b mem off bs E1 E2 E3 Ho) as M.
  unfold write_message. cbn [Buffer.step]. rewrite V, Em. cbn [obind].
  destruct (Nat.leb_spec off (length bs)) as [L|L].
  2: { rewrite M. cbn [obind]. destruct (Nat.leb_spec (off + length (message host m)) (length bs)); [lia|reflexivity]. }
  destruct M as (it & Ei & Eit & Ok). rewrite Ei. cbn [obind].
  pose proof (C81_write_outcome host m mem it Hm Ok) as O. assert (Ec : N.to_nat (it_cursor it) = Buffer.b_start b + off) by (rewrite Eit; apply Nat2N.id).
  assert (Ee : N.to_nat (it_end it) = Buffer.b_end b) by (rewrite Eit; apply Nat2N.id). rewrite Ec, Ee in O.
  destruct (Nat.leb_spec (off + length (message host m)) (length bs)) as [L1|L1].
  2: { destruct (Nat.leb_spec (Buffer.b_start b + off + length (message host m)) (Buffer.b_end b)); [lia|]. rewrite O. reflexivity. }
  destruct (Nat.leb_spec (Buffer.b_start b + off + length (message host m)) (Buffer.b_end b)); [|lia].
  destruct O as [[mem' it'] O]. rewrite O. cbn [obind].
  assert (W : mem' = ZcIterSpec.overwrite (Buffer.b_start b + off) (message host m) mem).
  { pose proof (write_plain_done host m mem it mem' it' Hm Ok O) as W. rewrite Ec in W. exact W. }
  destruct (Nat.ltb_spec (Buffer.b_end b - Buffer.b_start b) (off + length (message host m))); [lia|].
  destruct (Buffer.b_st b) as [a|] eqn:Eb.
  - destruct E5 as (s & Ls & ->). unfold Buffer.get. rewrite Ls. cbn [obind]. eexists _, _. split; [reflexivity|].
    destruct (Nat.eqb_spec (length (message host m)) 0) as [Z|Z].
    + f_equal. assert (Q : mem' = Buffer.sg_bytes s).
      { rewrite W. unfold ZcIterSpec.overwrite. destruct (message host m); [|discriminate]. cbn. rewrite Nat.add_0_r. apply firstn_skipn. }
      rewrite Q. unfold Buffer.put. destruct s. cbn. rewrite upd_same by exact Ls. destruct w; reflexivity.
    + unfold Buffer.write_data, Buffer.store_at, Buffer.get. rewrite Eb, Ls. cbn [obind]. unfold mem_store.
      destruct (Nat.leb_spec (Buffer.b_start b + off + length (message host m)) (length (Buffer.sg_bytes s))); [|lia]. cbn [obind]. f_equal.
      unfold Buffer.set_var. rewrite upd_same by (apply BufferProofs.var_some, V). rewrite W. reflexivity.
  - subst mem. cbn in E2. assert (Z : length (message host m) = 0) by lia. rewrite Z. cbn. eexists _, _. split; reflexivity.
Qed.

(** Reading finds what the buffer shows. *)
Lemma read_message_ok host off m s k w bs : binv w -> small w -> message_ok host m -> readable_as m s -> bytes_of w k = Some bs ->
  off + length (message host m) <= length bs -> at_offset off (message host m) bs ->
  exists it, read_message host off s k w = Done (map snd m, it).
Proof.
  intros I S Hm Hs B L A. destruct (Buffer.var w k) as [b|] eqn:V; [|unfold BufferSpec.bytes_of in B; rewrite V in B; discriminate].
  destruct (begin_at w k b bs I S V B) as (mem & Em & E1 & E2 & E3 & E4 & E5).
  pose proof (begin_move b mem off bs E1 E2 E3 ltac:(lia)) as M. unfold read_message. rewrite V, Em. cbn [obind].
  destruct (Nat.leb_spec off (length bs)); [|lia]. destruct M as (it & Ei & Eit & Ok). rewrite Ei. cbn [obind].
  eexists. apply C81_read; auto; rewrite Eit; cbn [it_cursor it_end]; rewrite !Nat2N.id; [lia|]. unfold ZcIterSpec.slice.
  replace (Buffer.b_start b + off + length (message host m) - (Buffer.b_start b + off)) with (length (message host m)) by lia.
  unfold at_offset in A. rewrite <- A at 2. rewrite E4, skipn_firstn_comm, firstn_firstn, BufferProofs.skipn_skipn'. f_equal. lia.
Qed.

Lemma read_message_out host off s k w bs : binv w -> small w -> Forall (fun q => shape_ok (snd q)) s -> (N.of_nat off < 2 ^ 63)%N -> bytes_of w k = Some bs ->
  if off + shapes_size s <=? length bs
  then exists r, read_message host off s k w = Done r
  else read_message host off s k w = AssertFail.
Proof.
  intros I S Hs Ho B. destruct (Buffer.var w k) as [b|] eqn:V; [|unfold BufferSpec.bytes_of in B; rewrite V in B; discriminate].
  destruct (begin_at w k b bs I S V B) as (mem & Em & E1 & E2 & E3 & E4 & E5).
  pose proof (begin_move b mem off bs E1 E2 E3 Ho) as M. unfold read_message. rewrite V, Em. cbn [obind].
  destruct (Nat.leb_spec off (length bs)) as [L|L].
  2: { rewrite M. cbn [obind]. destruct (Nat.leb_spec (off + shapes_size s) (length bs)); [lia|reflexivity]. }
  destruct M as (it & Ei & Eit & Ok). rewrite Ei. cbn [obind].
  pose proof (C81_read_outcome host s mem it Hs Ok) as O. assert (Ec : N.to_nat (it_cursor it) = Buffer.b_start b + off) by (rewrite Eit; apply Nat2N.id).
  assert (Ee : N.to_nat (it_end it) = Buffer.b_end b) by (rewrite Eit; apply Nat2N.id). rewrite Ec, Ee in O.
  destruct (Nat.leb_spec (off + shapes_size s) (length bs)), (Nat.leb_spec (Buffer.b_start b + off + shapes_size s) (Buffer.b_end b)); try lia.
  - destruct O as [fs O]. rewrite O. eauto.
  - exact O.
Qed.

Lemma write_bytes_of junk k off ms w w' bs : binv w -> bytes_of w k = Some bs -> off + length ms <= length bs ->
  Buffer.step junk (Buffer.Write k off ms) w = Done w' ->
  bytes_of w' k = Some (PacketSpec.overwrite off ms bs).
Proof.
  intros I B L E. cbn [Buffer.step] in E. destruct (Buffer.var w k) as [b|] eqn:V; [|unfold BufferSpec.bytes_of in B; rewrite V in B; discriminate].
  pose proof (BufferProofs.i_holds _ I k b (proj1 (BufferProofs.var_some _ _ _) V)) as H. pose proof B as B0.
  unfold BufferSpec.bytes_of in B. rewrite V, (BufferProofs.copy_to_data _ _ _ H) in B.
  rewrite firstn_all2 in B by (rewrite BufferProofs.data_length; [lia|exact H]). injection B as <-. rewrite (BufferProofs.data_length _ _ H) in L.
  destruct (Nat.ltb_spec (Buffer.b_end b - Buffer.b_start b) (off + length ms)); [lia|].
  destruct (Nat.eqb_spec (length ms) 0) as [Z|Z].
  - injection E as <-. rewrite B0. unfold PacketSpec.overwrite. destruct ms; [|discriminate]. cbn. rewrite Nat.add_0_r, firstn_skipn. reflexivity.
  - destruct (BufferProofs.write_ok _ b off ms H L ltac:(intros ->; cbn in Z; lia)) as (a & s & mm & Ea & Ls & Lm & Ew & Ed & _). rewrite Ew in E. cbn [obind] in E. injection E as <-.
    unfold BufferSpec.bytes_of, Buffer.set_var, Buffer.var. cbn [Buffer.w_bufs Buffer.w_heap]. rewrite nth_upd_eq by (eapply nth_lt, BufferProofs.var_some, V).
    assert (H' : BufferProofs.holds (Buffer.put (Buffer.w_heap w) a (Buffer.set_bytes s mm)) b).
    { eapply BufferProofs.put_holds; [exact Ls| |exact H]. unfold Buffer.sg_cap in *. exact Lm. }
    rewrite (BufferProofs.copy_to_data _ _ _ H'). rewrite firstn_all2 by (rewrite BufferProofs.data_length; [lia|exact H']). rewrite Ed. reflexivity.
Qed.

Lemma write_small junk k off ms w w' : small w -> Buffer.step junk (Buffer.Write k off ms) w = Done w' -> small w'.
Proof.
  intros S E. cbn [Buffer.step] in E. destruct (Buffer.var w k) as [b|]; [|injection E as <-; exact S].
  destruct (_ <? _); [discriminate|]. destruct (_ =? _); [injection E as <-; exact S|]. unfold Buffer.write_data in E.
  destruct (Buffer.b_st b) as [a|]; [|discriminate]. unfold Buffer.store_at, Buffer.get in E. destruct (nth_error (Buffer.w_heap w) a) as [[s|]|] eqn:Ea; cbn [obind] in E; try discriminate.
  unfold mem_store in E. destruct (Nat.leb_spec (Buffer.b_start b + off + length ms) (length (Buffer.sg_bytes s))) as [Le|]; [|discriminate]. cbn [obind] in E. injection E as <-.
  intros c t. unfold Buffer.set_var, Buffer.put. cbn [Buffer.w_heap]. destruct (Nat.eq_dec c a) as [->|].
  - rewrite nth_upd_eq by (eapply nth_lt, Ea). intros [= <-]. cbn [Buffer.sg_bytes Buffer.set_bytes]. specialize (S _ _ Ea).
    rewrite !app_length, firstn_length, skipn_length. lia.
  - rewrite nth_upd_neq by auto. apply S.
Qed.

Lemma overwrite_len off ms (bs : list N) : off + length ms <= length bs -> length (PacketSpec.overwrite off ms bs) = length bs.
Proof. intros L. unfold PacketSpec.overwrite. rewrite !app_length, firstn_length, skipn_length. lia. Qed.
Lemma overwrite_at off ms (bs : list N) : off + length ms <= length bs -> at_offset off ms (PacketSpec.overwrite off ms bs).
Proof.
  intros L. unfold at_offset, PacketSpec.overwrite. rewrite skipn_app, firstn_length, Nat.min_l by lia.
  rewrite skipn_all2 by (rewrite firstn_length; lia). cbn [app]. rewrite Nat.sub_diag. cbn [skipn]. rewrite firstn_app, firstn_all, Nat.sub_diag, firstn_O, app_nil_r. reflexivity.
Qed.
Lemma at_app_l off ms (a b : list N) : off + length ms <= length a -> at_offset off ms a -> at_offset off ms (a ++ b).
Proof.
  intros L A. unfold at_offset in *. rewrite skipn_app, firstn_app. rewrite A. rewrite <- app_nil_r. f_equal.
  replace (length ms - length (skipn off a)) with 0 by (rewrite skipn_length; lia). reflexivity.
Qed.
Lemma at_app_r off ms (a b : list N) : at_offset off ms b -> at_offset (length a + off) ms (a ++ b).
Proof.
  intros A. unfold at_offset in *. rewrite skipn_app, skipn_all2 by lia. cbn [app]. replace (length a + off - length a) with off by lia. exact A.
Qed.
(** The bytes between [b] and [e] are at another place now. *)
Lemma at_moved off ms (P Q : list N) h b e : firstn (e - b) (skipn h Q) = firstn (e - b) (skipn b P) -> b <= off -> off + length ms <= e ->
  at_offset off ms P -> at_offset (h + (off - b)) ms Q.
Proof.
  intros E Hb He A. unfold at_offset in *.
  assert (X : forall (L : list N) u, firstn (length ms) (skipn (off - b) (firstn (e - b) (skipn u L))) = firstn (length ms) (skipn (u + (off - b)) L)).
  { intros L u. rewrite skipn_firstn_comm, firstn_firstn, BufferProofs.skipn_skipn'. f_equal. lia. }
  rewrite <- X, E, X. replace (b + (off - b)) with off by lia. exact A.
Qed.

(** The same message for both. *)
Lemma understood_same hs hr m : understood hs hr m -> message hr m = message hs m.
Proof.
  intros [->|Hp]; [reflexivity|]. unfold message. induction Hp as [|[o f] m Ho Hm IH]; [reflexivity|]. cbn [flat_map fst snd]. rewrite IH. f_equal.
  cbn [fst] in Ho. destruct o; try discriminate; destruct f; reflexivity.
Qed.
