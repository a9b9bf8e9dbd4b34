(** The theorems about packets. *)
From Verif Require Import Base BaseProofs Packet PacketSpec PacketParts PacketProofs PacketPieces PacketFill.
From Verif Require Buffer BufferSpec BufferProofs TagList TagListSpec TagListProofs.
From Coq Require Import ZifyBool ZifyNat ZifyN.

Lemma fits_any BV (l : list (op BV)) : Forall (fits false false) l.
Proof. apply Forall_forall. intros o _. destruct o; cbn; auto. Qed.
Lemma hist_pinv BV lo hi junk (l : list (op BV)) w : Forall (fits lo hi) l -> steps junk l init = Done w -> pinv lo hi [] w.
Proof. intros F E. pose proof (steps_pinv lo hi junk l init (init_pinv lo hi) F) as H. rewrite E in H. exact H. Qed.
Lemma step_pinv BV lo hi junk (o : op BV) w w' : pinv lo hi [] w -> fits lo hi o -> step junk o w = Done w' -> good lo hi o w w'.
Proof. intros I F E. pose proof (step_good lo hi junk o w I F) as H. rewrite E in H. exact H. Qed.

(** Programs for examples. *)
Definition j0 : nat -> nat -> N := fun _ _ => 170%N.
Definition start (bs : list N) : list (op nat) := [OnBuf (Buffer.New 0); OnBuf (Buffer.AddEndBytes 0 bs); FromBuf 0].
Definition tg (id : N) (v : nat) (s e : Z) : TagList.tag_index nat := TagList.mk_idx id v s e.
Definition shown_at (r : outcome (world nat)) (i : nat) : list N * list (TagList.tag_index nat) :=
  match r with
  | Done w => match packet_of w i with Some p => (k_bytes p, k_tags p) | None => ([], []) end
  | _ => ([], [])
  end.

(** ** C53 *)

(** Every statement acts on packets as [pspec] says, on bytes and on tags, in every history and
    every state that meet the conditions [fits] and [clean].  For [lo = hi = false] every
    history is allowed. *)
Theorem C53_contents : forall BV lo hi junk (l : list (op BV)) o w w',
  Forall (fits lo hi) (l ++ [o]) -> steps junk l init = Done w -> step junk o w = Done w' -> clean lo hi o w ->
  exists x, length x = extra o /\ packets w' = pspec w x o (packets w) /\ returned w x o w'.
Proof.
  intros BV lo hi junk l o w w' F H E C. apply Forall_app in F. destruct F as [F1 F2]. apply Forall_inv in F2.
  exact (g_spec _ _ _ _ _ (step_pinv _ _ _ _ _ _ _ (hist_pinv _ _ _ _ _ _ F1 H) F2 E) C).
Qed.
Print Assumptions C53_contents.

(** A packet that exists shows bytes and tags; both tag lists cover exactly the bytes of the buffer. *)
Theorem C53_size : forall BV junk (l : list (op BV)) w i r,
  steps junk l init = Done w -> var w i = Some r ->
  exists p, packet_of w i = Some p /\
    match r with
    | None => p = no_pkt
    | Some a => exists y t1 t2, nth_error (w_bodies w) a = Some (Some y) /\ buf_size w (y_buf y) = len p /\
        TagList.var (w_bt w) a = Some t1 /\ (TagList.tl_end t1 - TagList.tl_start t1)%Z = Z.of_nat (len p) /\
        TagList.var (w_pt w) a = Some t2 /\ (TagList.tl_end t2 - TagList.tl_start t2)%Z = Z.of_nat (len p)
    end.
Proof.
  intros BV junk l w i r H V. pose proof (hist_pinv _ _ _ _ _ _ (fits_any BV l) H) as I. destruct (view_var _ _ _ _ _ _ I V) as (s & xs & ys & Vw).
  exists (shown s xs ys). split; [eapply var_packet; eauto|]. destruct r as [a|].
  - destruct Vw as (y & L & B & F1 & F2). exists y.
    assert (W : forall V (t : TagList.world V) zs, winv t -> full_of t a = Some (length s, zs) -> exists k, TagList.var t a = Some k /\ (TagList.tl_end k - TagList.tl_start k)%Z = Z.of_nat (length s)).
    { intros U t zs W F. pose proof (full_some _ _ _ _ F) as C. destruct (TagList.var t a) as [k|] eqn:E.
      - exists k. split; [reflexivity|]. symmetry. eapply TagListProofs.size_spec; eassumption.
      - unfold TagListSpec.content_of in C. rewrite E in C. discriminate. }
    destruct (W _ _ _ (p_bt _ _ _ _ I) F1) as (k1 & K1 & K2). destruct (W _ _ _ (p_pt _ _ _ _ I) F2) as (k2 & K3 & K4). exists k1, k2.
    split; [exact L|]. split; [apply (buf_size_ok _ _ _ (p_buf _ _ _ _ I) B)|]. auto.
  - destruct Vw as (-> & -> & ->). reflexivity.
Qed.
Print Assumptions C53_size.

(** The queries show these tags: [HasByteTag], [GetByteTag] and [HasPacketTag]. *)
Theorem C53_queries : forall BV junk (l : list (op BV)) w i r p id k,
  steps junk l init = Done w -> var w i = Some r -> packet_of w i = Some p -> k < len p ->
  has_tag (w_bt w) id k r = Done (tagged id k p) /\
  get_byte_tag id k r w = match tag_value id k p with Some v => Done v | None => Throw TagNotFound end /\
  has_tag (w_pt w) id k r = Done (existsb (on_byte id k) (k_ptags p)).
Proof.
  intros BV junk l w i r p id k H V P Hk. pose proof (hist_pinv _ _ _ _ _ _ (fits_any BV l) H) as I. destruct (view_var _ _ _ _ _ _ I V) as (s & xs & ys & Vw).
  rewrite (var_packet _ _ _ _ _ _ V Vw) in P. injection P as <-. destruct r as [a|]; [|destruct Vw as (-> & _); cbn in Hk; lia].
  destruct Vw as (y & L & B & F1 & F2). unfold has_tag, get_byte_tag. unfold len in Hk. cbn [shown k_bytes] in Hk.
  pose proof (full_some _ _ _ _ F1) as C1. pose proof (full_some _ _ _ _ F2) as C2.
  destruct (TagList.var (w_bt w) a) as [t1|] eqn:T1; [|unfold TagListSpec.content_of in C1; rewrite T1 in C1; discriminate].
  destruct (TagList.var (w_pt w) a) as [t2|] eqn:T2; [|unfold TagListSpec.content_of in C2; rewrite T2 in C2; discriminate].
  rewrite (TagListProofs.exists_spec _ _ _ _ _ id k (p_bt _ _ _ _ I) C1 T1), (TagListProofs.get_spec _ _ _ _ _ id k (p_bt _ _ _ _ I) C1 T1),
    (TagListProofs.exists_spec _ _ _ _ _ id k (p_pt _ _ _ _ I) C2 T2).
  destruct (Nat.ltb_spec k (length s)); [|lia]. split; [reflexivity|]. split; [|reflexivity].
  unfold tag_value, on_byte. cbn [shown k_tags]. destruct (find _ _); reflexivity.
Qed.
Print Assumptions C53_queries.

(** The bytes that are written through the buffer that [AddHeader(size)] returns are the header, whatever
    the values of its bytes are before, and nothing else changes.  The history must not contain
    [AddTrailer(size)]: [C52_header_trailer_refuted]. *)
Theorem C53_header_filled : forall BV junk (l : list (op BV)) i n p ws w0 w1 w2,
  Forall (fits true false) l -> steps junk l init = Done w0 -> packet_of w0 i = Some p -> 0 < n ->
  step junk (AddHeader i n) w0 = Done w1 ->
  steps junk (map (fun u => OnBuf (Buffer.Write (length (Buffer.w_bufs (w_buf w1)) - 1) (fst u) (snd u))) ws) w1 = Done w2 ->
  exists x, length x = n /\ length (fill ws x) = n /\ packets w2 = upd (packets w0) i (Some (front (fill ws x) p)) /\
    forall k, k <> length (Buffer.w_bufs (w_buf w1)) - 1 -> buffer_of w2 k = buffer_of w1 k.
Proof.
  intros BV junk l i n p ws w0 w1 w2 F H P Hn E1 E2. pose proof (hist_pinv _ _ _ _ _ _ F H) as I.
  assert (V : exists r, var w0 i = Some r) by (unfold packet_of in P; destruct (var w0 i); [eauto|discriminate]). destruct V as [r V].
  pose proof (step_pinv _ true false _ (AddHeader i n) _ _ I eq_refl E1) as G. destruct (g_spec _ _ _ _ _ G Logic.I) as (x & Lx & Ps & _).
  pose proof (var_lt _ _ _ V) as Li. cbn [pspec extra] in *. rewrite pk_packets, P in Ps.
  assert (P1 : packet_of w1 i = Some (front x p)) by (rewrite <- pk_packets, Ps, pk_upd, Nat.eqb_refl by (rewrite packets_length; exact Li); reflexivity).
  cbn [step] in E1. rewrite V in E1. pose proof (add_header_stake true false junk w0 i n r eq_refl eq_refl Hn I V) as St. rewrite E1 in St. destruct St as (a & y & St).
  destruct (writes_stake true false junk ws w1 i a y _ 0 n w2 _ (g_inv _ _ _ _ _ G) St P1 E2) as (Pw & Fa & _ & K). rewrite <- Lx in Fa.
  destruct (fill_front ws x (k_bytes p) Fa) as [E3 E4]. exists x. split; [exact Lx|]. split; [congruence|]. split; [|exact K].
  rewrite Pw, Ps. cbn [front k_bytes k_tags k_ptags]. rewrite E3. unfold front. rewrite E4. apply list_ext. intros k. destruct (Nat.eq_dec i k) as [->|N].
  - rewrite !nth_upd_eq by (rewrite ?upd_length, packets_length; exact Li). reflexivity.
  - rewrite !nth_upd_neq by exact N. reflexivity.
Qed.
Print Assumptions C53_header_filled.
Theorem C53_trailer_filled : forall BV junk (l : list (op BV)) i n p ws w0 w1 w2,
  Forall (fits false true) l -> steps junk l init = Done w0 -> packet_of w0 i = Some p -> 0 < n ->
  step junk (AddTrailer i n) w0 = Done w1 ->
  steps junk (map (fun u => OnBuf (Buffer.Write (length (Buffer.w_bufs (w_buf w1)) - 1) (fst u) (snd u))) ws) w1 = Done w2 ->
  exists x, length x = n /\ length (fill ws x) = n /\ packets w2 = upd (packets w0) i (Some (back (fill ws x) p)) /\
    forall k, k <> length (Buffer.w_bufs (w_buf w1)) - 1 -> buffer_of w2 k = buffer_of w1 k.
Proof.
  intros BV junk l i n p ws w0 w1 w2 F H P Hn E1 E2. pose proof (hist_pinv _ _ _ _ _ _ F H) as I.
  assert (V : exists r, var w0 i = Some r) by (unfold packet_of in P; destruct (var w0 i); [eauto|discriminate]). destruct V as [r V].
  pose proof (step_pinv _ false true _ (AddTrailer i n) _ _ I eq_refl E1) as G. destruct (g_spec _ _ _ _ _ G Logic.I) as (x & Lx & Ps & _).
  pose proof (var_lt _ _ _ V) as Li. cbn [pspec extra] in *. rewrite pk_packets, P in Ps.
  assert (P1 : packet_of w1 i = Some (back x p)) by (rewrite <- pk_packets, Ps, pk_upd, Nat.eqb_refl by (rewrite packets_length; exact Li); reflexivity).
  cbn [step] in E1. rewrite V in E1. pose proof (add_trailer_stake false true junk w0 i n r p eq_refl eq_refl Hn I V P) as St. rewrite E1 in St. destruct St as (a & y & St).
  destruct (writes_stake false true junk ws w1 i a y _ (len p) n w2 _ (g_inv _ _ _ _ _ G) St P1 E2) as (Pw & Fa & _ & K). rewrite <- Lx in Fa.
  destruct (fill_back ws x (k_bytes p) Fa) as [E3 E4]. exists x. split; [exact Lx|]. split; [congruence|]. split; [|exact K].
  rewrite Pw, Ps. cbn [back k_bytes k_tags k_ptags]. unfold len. rewrite E3. unfold back. apply list_ext. intros k. destruct (Nat.eq_dec i k) as [->|N].
  - rewrite !nth_upd_eq by (rewrite ?upd_length, packets_length; exact Li). reflexivity.
  - rewrite !nth_upd_neq by exact N. reflexivity.
Qed.
Print Assumptions C53_trailer_filled.

Example C53_contents_ex :
  shown_at (steps j0 (start [1; 2; 3; 4; 5; 6]%N ++ [AddByteTag 0 7 70 1 3; AddHeaderBuf 0 0; RemTrailer 0 4; Copy 0; RemHeader 1 5; AddTrailerBuf 0 0]) init) 0
  = ([1; 2; 3; 4; 5; 6; 1; 2; 1; 2; 3; 4; 5; 6]%N, [tg 7 70 7 10]) /\
  shown_at (steps j0 (start [1; 2; 3; 4; 5; 6]%N ++ [AddByteTag 0 7 70 1 3; AddHeaderBuf 0 0; RemTrailer 0 4; Copy 0; RemHeader 1 5; AddTrailerBuf 0 0]) init) 1
  = ([6; 1; 2]%N, [tg 7 70 2 5]).
Proof. vm_compute. split; reflexivity. Qed.
Example C53_contents_ok_ex :
  Forall (fits true true) (start [1; 2; 3; 4; 5; 6]%N ++ [AddByteTag 0 7 70 1 3; AddHeaderBuf 0 0; RemTrailer 0 4; Copy 0; RemHeader 1 5; AddTrailerBuf 0 0]).
Proof. repeat constructor. Qed.
Example C53_header_filled_ex : exists w1 w2,
  steps j0 (start [1; 2]%N ++ [Copy 0; AddHeader 0 3]) init = Done w1 /\
  steps j0 (map (fun u => OnBuf (Buffer.Write (length (Buffer.w_bufs (w_buf w1)) - 1) (fst u) (snd u))) [(0, [5; 6]%N); (2, [7]%N)]) w1 = Done w2 /\
  shown_at (Done w2) 0 = ([5; 6; 7; 1; 2]%N, []) /\ shown_at (Done w2) 1 = ([1; 2]%N, []) /\ fill [(0, [5; 6]%N); (2, [7]%N)] [0; 0; 0]%N = [5; 6; 7]%N.
Proof. eexists _, _. split; [vm_compute; reflexivity|]. split; [vm_compute; reflexivity|]. vm_compute. auto. Qed.
Example C53_trailer_filled_ex : exists w1 w2,
  steps j0 (start [1; 2]%N ++ [Copy 0; AddTrailer 0 3]) init = Done w1 /\
  steps j0 (map (fun u => OnBuf (Buffer.Write (length (Buffer.w_bufs (w_buf w1)) - 1) (fst u) (snd u))) [(0, [5; 6]%N); (2, [7]%N)]) w1 = Done w2 /\
  shown_at (Done w2) 0 = ([1; 2; 5; 6; 7]%N, []) /\ shown_at (Done w2) 1 = ([1; 2]%N, []).
Proof. eexists _, _. split; [vm_compute; reflexivity|]. split; [vm_compute; reflexivity|]. vm_compute. auto. Qed.
Example C53_queries_ex :
  match steps j0 (start [1; 2; 3; 4]%N ++ [AddByteTag 0 7 70 1 2; New; AddPacketTag 0 8 1 3 1]) init with
  | Done w => (has_tag (w_bt w) 7 1 (ref w 0), has_tag (w_bt w) 7 3 (ref w 0), get_byte_tag 7 2 (ref w 0) w, get_byte_tag 7 0 (ref w 0) w,
               has_tag (w_pt w) 8 3 (ref w 0), has_tag (w_pt w) 8 2 (ref w 0))
  | _ => (UB, UB, UB, UB, UB, UB)
  end = (Done true, Done false, Done 70, Throw TagNotFound, Done true, Done false).
Proof. vm_compute. reflexivity. Qed.

(** ** C52 *)

(** No statement changes the bytes or tags that a packet shows which it does not name as its
    target; nor the buffers of the user. *)
Theorem C52_independent : forall BV lo hi junk (l : list (op BV)) o w w' j,
  Forall (fits lo hi) (l ++ [o]) -> steps junk l init = Done w -> step junk o w = Done w' -> clean lo hi o w ->
  ~ target o j -> var w j <> None -> packet_of w' j = packet_of w j.
Proof.
  intros BV lo hi junk l o w w' j F H E C N V. destruct (C53_contents BV lo hi junk l o w w' F H E C) as (x & _ & Ps & _).
  rewrite <- !pk_packets, Ps. apply pspec_frame; [exact N|]. rewrite packets_length. destruct (var w j) eqn:Vj; [|congruence]. eapply var_lt, Vj.
Qed.
Print Assumptions C52_independent.
Theorem C52_buffers : forall BV lo hi junk (l : list (op BV)) o w w' k s,
  Forall (fits lo hi) (l ++ [o]) -> steps junk l init = Done w -> step junk o w = Done w' -> clean lo hi o w ->
  buffer_of w k = Some s -> (forall b, o = OnBuf b -> ~ BufferSpec.target b k) -> buffer_of w' k = Some s.
Proof.
  intros BV lo hi junk l o w w' k s F H E C B N. apply Forall_app in F. destruct F as [F1 F2]. apply Forall_inv in F2.
  pose proof (step_pinv _ _ _ _ _ _ _ (hist_pinv _ _ _ _ _ _ F1 H) F2 E) as G. unfold buffer_of in *. destruct (owned w k) eqn:O; [discriminate|].
  destruct (g_user _ _ _ _ _ G k (bytes_lt _ _ _ B) O) as [-> K]. rewrite K; auto.
Qed.
Print Assumptions C52_buffers.
(** For everything but adding given bytes, [CopyTagsFrom] and writing to buffers this holds after every
    history whatever. *)
Theorem C52_any_history : forall BV junk (l : list (op BV)) o w w' j,
  steps junk l init = Done w -> step junk o w = Done w' ->
  match o with
  | AddHeaderBuf _ _ | AddTrailerBuf _ _ | AddHeaderPkt _ _ | AddTrailerPkt _ _ | CopyTags _ _ | OnBuf _ => False
  | _ => True
  end ->
  ~ target o j -> var w j <> None -> packet_of w' j = packet_of w j.
Proof.
  intros BV junk l o w w' j H E K N V. eapply (C52_independent BV false false); eauto using fits_any. destruct o; cbn in *; tauto.
Qed.
Print Assumptions C52_any_history.

Definition prog52 : list (op nat) :=
  start [1; 2; 3; 4]%N ++ [AddByteTag 0 7 70 1 2; Copy 0; AddHeaderBuf 0 0; Copy 1; RemHeader 2 1; AddTrailerBuf 2 0; MakeFrag 0 1 3].
Example C52_independent_ex :
  Forall (fits true true) (prog52 ++ [AddByteTag 1 8 80 0 4]) /\
  (exists w w', steps j0 prog52 init = Done w /\ step j0 (AddByteTag 1 8 80 0 4) w = Done w' /\ packets w <> packets w') /\
  shown_at (steps j0 (prog52 ++ [AddByteTag 1 8 80 0 4]) init) 0 = ([1; 2; 3; 4; 1; 2; 3; 4]%N, [tg 7 70 5 7]) /\
  shown_at (steps j0 (prog52 ++ [AddByteTag 1 8 80 0 4]) init) 1 = ([1; 2; 3; 4]%N, [tg 7 70 1 3; tg 8 80 0 4]) /\
  shown_at (steps j0 (prog52 ++ [AddByteTag 1 8 80 0 4]) init) 2 = ([2; 3; 4; 1; 2; 3; 4]%N, [tg 7 70 0 2]).
Proof.
  split; [repeat constructor|]. split; [|vm_compute; auto]. eexists _, _. split; [vm_compute; reflexivity|]. split; [vm_compute; reflexivity|]. vm_compute. discriminate.
Qed.

(** A copy loses its bytes when a packet got a header with [AddHeader(size)] and a trailer is added to a copy of its header. *)
Theorem C52_header_trailer_refuted : exists (l : list (op nat)) o w w' p p',
  steps j0 l init = Done w /\ step j0 o w = Done w' /\
  l = start [1; 2; 3; 4]%N ++ [AddHeader 0 2; Copy 0; RemTrailer 1 4; OnBuf (Buffer.New 0); OnBuf (Buffer.AddEndBytes 4 [8; 9]%N)] /\
  o = AddTrailerBuf 1 4 /\ packet_of w 0 = Some p /\ packet_of w' 0 = Some p' /\
  k_bytes p = [170; 170; 1; 2; 3; 4]%N /\ k_bytes p' = [170; 170; 8; 9; 3; 4]%N.
Proof.
  eexists _, _, _, _, _, _. split; [|split; [|split; [reflexivity|split; [reflexivity|]]]]; [vm_compute; reflexivity|vm_compute; reflexivity|].
  split; [vm_compute; reflexivity|]. split; [vm_compute; reflexivity|]. split; reflexivity.
Qed.
Print Assumptions C52_header_trailer_refuted.
(** [CopyTagsFrom] changes the tags of all copies. *)
Theorem C52_copy_tags_refuted : exists (l : list (op nat)) o w w' p p',
  steps j0 l init = Done w /\ step j0 o w = Done w' /\
  l = start [1; 2; 3; 4]%N ++ [FromBuf 0; AddByteTag 1 5 50 0 2; Copy 0] /\
  o = CopyTags 0 1 /\ packet_of w 2 = Some p /\ packet_of w' 2 = Some p' /\ k_tags p = [] /\ k_tags p' = [tg 5 50 0 2].
Proof.
  eexists _, _, _, _, _, _. split; [|split; [|split; [reflexivity|split; [reflexivity|]]]]; [vm_compute; reflexivity|vm_compute; reflexivity|].
  split; [vm_compute; reflexivity|]. split; [vm_compute; reflexivity|]. split; reflexivity.
Qed.
Print Assumptions C52_copy_tags_refuted.

(** ** C54 *)

Definition whole (i n : nat) : pieces := put (fun _ => None) i (Some (mk_piece 0 0 n 0)).
Lemma whole_holds BV lo hi (w : world BV) i P p s xs ys : pinv lo hi [] w -> packet_of w i = Some P -> var w i = Some p -> view w p s xs ys ->
  holds (k_bytes P) xs w (whole i (len P)).
Proof.
  intros I Pk V Vw. rewrite (var_packet _ _ _ _ _ _ V Vw) in Pk. injection Pk as <-. intros j q p0 s0 xs0 ys0 Gj V0 Vw0. unfold whole, put in Gj.
  destruct (Nat.eqb_spec j i) as [->|]; [|discriminate]. injection Gj as <-. rewrite V in V0. injection V0 as <-. destruct (view_fun _ _ _ _ _ _ _ _ Vw0 Vw) as (-> & -> & ->).
  unfold len. cbn [shown k_bytes]. split.
  - split; [cbn; lia|]. split; [unfold piece_len; cbn; lia|]. reflexivity.
  - split; [cbn; lia| |]; unfold sound, complete, off; cbn [i_lead i_from i_to].
    + intros x Hx. exists x. split; [exact Hx|]. cbn. rewrite shift0. reflexivity.
    + intros z Hz O1 O2 O3. exists z. cbn. rewrite shift0. split; [|apply like_refl]. apply in_touching. split; [exact Hz|].
      unfold TagListSpec.touches, piece_len. cbn. lia.
Qed.

(** Packets are taken apart and put together by [MakeFragment], [RemoveHeader], [RemoveTrailer], [AddHeader] and
    [AddTrailer] of packets; bytes are added and removed, packets copied, moved and assigned
    meanwhile.  A packet that consists of [h] other bytes, bytes [s] to [e] of the original [P], and [t]
    other bytes has these bytes of [P], with the same byte tags. *)
Theorem C54_pieces : forall BV lo hi junk (l : list (op BV)) w i P w' g h s e t j Q,
  Forall (fits lo hi) l -> steps junk l init = Done w -> packet_of w i = Some P ->
  follow junk lo hi w (whole i (len P)) w' g -> g j = Some (mk_piece h s e t) -> packet_of w' j = Some Q ->
  s <= e <= len P /\ len Q = h + (e - s) + t /\
  firstn (e - s) (skipn h (k_bytes Q)) = firstn (e - s) (skipn s (k_bytes P)) /\
  (forall id k, k < e - s -> tagged id (h + k) Q = tagged id (s + k) P) /\
  (forall id k v, k < e - s -> tag_value id (h + k) Q = Some v ->
     exists x, In x (k_tags P) /\ TagList.x_val x = v /\ TagList.x_id x = id /\ TagListSpec.covers (Z.of_nat (s + k)) x = true).
Proof.
  intros BV lo hi junk l w i P w' g h s e t j Q F H Pk Fo Gj Qk. pose proof (hist_pinv _ _ _ _ _ _ F H) as I.
  assert (V : exists p, var w i = Some p) by (unfold packet_of in Pk; destruct (var w i); [eauto|discriminate]). destruct V as [p V].
  destruct (view_var _ _ _ _ _ _ I V) as (S0 & X & Y & Vw). pose proof (whole_holds _ _ _ _ _ _ _ _ _ _ I Pk V Vw) as H0.
  destruct (follow_holds lo hi (k_bytes P) X junk _ _ _ _ Fo I H0) as [I' H'].
  assert (Vj : exists q, var w' j = Some q) by (unfold packet_of in Qk; destruct (var w' j); [eauto|discriminate]). destruct Vj as [q Vj].
  destruct (view_var _ _ _ _ _ _ I' Vj) as (S1 & xs & ys & Vw'). destruct (H' j _ q S1 xs ys Gj Vj Vw') as [(B1 & B2 & B3) [O So Co]].
  rewrite (var_packet _ _ _ _ _ _ Vj Vw') in Qk. injection Qk as <-. rewrite (var_packet _ _ _ _ _ _ V Vw) in Pk. injection Pk as <-.
  unfold len, piece_len, off in *. cbn [shown k_bytes k_tags i_lead i_from i_to i_trail] in *.
  split; [lia|]. split; [exact B2|]. split; [exact B3|].
  assert (Back : forall id k x, k < e - s -> In x (filter (touches (length S1)) xs) -> on_byte id (h + k) x = true ->
    exists z, In z (filter (touches (length S0)) X) /\ TagList.x_val z = TagList.x_val x /\ on_byte id (s + k) z = true).
  { intros id k x Hk Hx Hb. apply in_touching in Hx. destruct (So x (proj1 Hx)) as (z & Hz & ->). exists z.
    unfold off in Hb. unfold on_byte, TagListSpec.covers in Hb |- *. cbn [TagListSpec.shift TagList.x_id TagList.x_start TagList.x_end i_lead i_from] in Hb.
    split; [|split; [reflexivity|lia]]. apply in_touching. split; [exact Hz|]. unfold TagListSpec.touches. lia. }
  split.
  - intros id k Hk. unfold tagged. cbn [k_tags shown]. apply Bool.eq_iff_eq_true. rewrite !existsb_exists. split.
    + intros (x & Hx & Hb). destruct (Back id k x Hk Hx Hb) as (z & Hz & _ & Hb'). eauto.
    + intros (z & Hz & Hb). apply in_touching in Hz. destruct Hz as [Hz Tz]. unfold on_byte, TagListSpec.covers in Hb.
      destruct (Co z Hz) as (x & Hx & (L1 & L2 & L3)); cbn [i_from i_to]; try lia. exists x. unfold piece_len in Hx. cbn [i_lead i_from i_to i_trail] in Hx. rewrite <- B2 in Hx. split; [exact Hx|].
      unfold off in *. cbn [TagListSpec.shift TagList.x_id TagList.x_start TagList.x_end i_lead i_from] in L1, L2, L3. unfold on_byte, TagListSpec.covers. rewrite L1, L2, L3. lia.
  - intros id k v Hk Hv. unfold tag_value in Hv. cbn [k_tags shown] in Hv. destruct (find _ _) as [x|] eqn:Fx; [|discriminate]. injection Hv as <-.
    apply find_some in Fx. destruct Fx as [Hx Hb]. destruct (Back id k x Hk Hx Hb) as (z & Hz & Ev & Hb'). exists z. unfold on_byte in Hb'.
    split; [exact Hz|]. split; [exact Ev|]. lia.
Qed.
Print Assumptions C54_pieces.

(** A packet that is whole again. *)
Theorem C54_restored : forall BV lo hi junk (l : list (op BV)) w i P w' g j Q,
  Forall (fits lo hi) l -> steps junk l init = Done w -> packet_of w i = Some P ->
  follow junk lo hi w (whole i (len P)) w' g -> g j = Some (mk_piece 0 0 (len P) 0) -> packet_of w' j = Some Q ->
  k_bytes Q = k_bytes P /\ (forall id k, k < len P -> tagged id k Q = tagged id k P) /\
  (forall id k, k < len P ->
     (forall x y, In x (k_tags P) -> In y (k_tags P) -> on_byte id k x = true -> on_byte id k y = true -> TagList.x_val x = TagList.x_val y) ->
     tag_value id k Q = tag_value id k P).
Proof.
  intros BV lo hi junk l w i P w' g j Q F H Pk Fo Gj Qk.
  destruct (C54_pieces BV lo hi junk l w i P w' g 0 0 (len P) 0 j Q F H Pk Fo Gj Qk) as (_ & L & B & T & Tv). cbn [Nat.add skipn] in *.
  rewrite Nat.sub_0_r in *. unfold len in *. rewrite !firstn_all2 in B by lia. split; [exact B|]. split; [exact T|].
  intros id k Hk U. specialize (T id k Hk). destruct (tag_value id k Q) as [v|] eqn:E.
  - destruct (Tv id k v Hk E) as (x & Hx & <- & Ei & Ec). unfold tag_value. destruct (find (on_byte id k) (k_tags P)) as [z|] eqn:Fz.
    + cbn. f_equal. apply find_some in Fz. apply U; [exact Hx|apply Fz| |apply Fz]. unfold on_byte. rewrite Ei, N.eqb_refl. exact Ec.
    + pose proof (find_none _ _ Fz x Hx) as Nx. unfold on_byte in Nx. rewrite Ei, N.eqb_refl, Ec in Nx. discriminate.
  - unfold tag_value in *. destruct (find (on_byte id k) (k_tags Q)) as [|] eqn:Fq; [discriminate|]. destruct (find (on_byte id k) (k_tags P)) as [z|] eqn:Fz; [|reflexivity].
    apply find_some in Fz. assert (T1 : tagged id k P = true) by (apply existsb_exists; exists z; exact Fz). rewrite <- T in T1.
    apply existsb_exists in T1. destruct T1 as (x & Hx & Hb). rewrite (find_none _ _ Fq x Hx) in Hb. discriminate.
Qed.
Print Assumptions C54_restored.

(** In particular: a packet is split at any position and the second part is added to the first one, in any history. *)
Theorem C54_split : forall BV junk (l : list (op BV)) w i P m w1 w2 w3,
  steps junk l init = Done w -> packet_of w i = Some P -> m <= len P ->
  step junk (MakeFrag i 0 m) w = Done w1 -> step junk (MakeFrag i m (len P - m)) w1 = Done w2 ->
  step junk (AddTrailerPkt (length (w_vars w)) (length (w_vars w) + 1)) w2 = Done w3 ->
  exists Q, packet_of w3 (length (w_vars w)) = Some Q /\ k_bytes Q = k_bytes P /\
    (forall id k, k < len P -> tagged id k Q = tagged id k P) /\
    (forall id k, k < len P ->
       (forall x y, In x (k_tags P) -> In y (k_tags P) -> on_byte id k x = true -> on_byte id k y = true -> TagList.x_val x = TagList.x_val y) ->
       tag_value id k Q = tag_value id k P).
Proof.
  intros BV junk l w i P m w1 w2 w3 H Pk Hm E1 E2 E3. set (f := length (w_vars w)) in *.
  pose proof (hist_pinv _ _ _ _ _ _ (fits_any BV l) H) as I.
  assert (V : exists p, var w i = Some p) by (unfold packet_of in Pk; destruct (var w i); [eauto|discriminate]). destruct V as [p V]. pose proof (var_lt _ _ _ V) as Li.
  pose proof (step_pinv _ false false _ (MakeFrag i 0 m) _ _ I Logic.I E1) as G1. destruct (g_spec _ _ _ _ _ G1 Logic.I) as (x1 & _ & Ps1 & _). cbn [pspec] in Ps1. rewrite pk_packets, Pk in Ps1.
  assert (L1 : length (w_vars w1) = S f) by (rewrite <- packets_length, Ps1, app_length, packets_length; cbn; fold f; lia).
  assert (Pk1 : packet_of w1 i = Some P) by (rewrite <- pk_packets, Ps1, pk_app_lt, pk_packets by (rewrite packets_length; exact Li); exact Pk).
  pose proof (step_pinv _ false false _ (MakeFrag i m (len P - m)) _ _ (g_inv _ _ _ _ _ G1) Logic.I E2) as G2. destruct (g_spec _ _ _ _ _ G2 Logic.I) as (x2 & _ & Ps2 & _). cbn [pspec] in Ps2. rewrite pk_packets, Pk1 in Ps2.
  assert (L2 : length (w_vars w2) = S (S f)) by (rewrite <- packets_length, Ps2, app_length, packets_length; cbn; lia).
  assert (Vv : forall u k q, packet_of u k = Some q -> exists p : option nat, var (u : world BV) k = Some p) by (intros u k q K; unfold packet_of in K; destruct (var u k); [eauto|discriminate]).
  assert (P2a : packet_of w2 f = Some (slice 0 m P)).
  { rewrite <- pk_packets, Ps2, pk_app_lt, Ps1 by (rewrite packets_length; lia). rewrite pk_app, packets_length. fold f. rewrite Nat.eqb_refl. reflexivity. }
  assert (P2b : packet_of w2 (f + 1) = Some (slice m (len P - m) P)).
  { rewrite <- pk_packets, Ps2, pk_app, packets_length, L1, Nat.add_1_r, Nat.eqb_refl. reflexivity. }
  destruct (Vv _ _ _ P2a) as [ra Va]. destruct (Vv _ _ _ P2b) as [rb Vb]. destruct (Vv _ _ _ Pk1) as [p1 V1].
  pose proof (step_pinv _ false false _ (AddTrailerPkt f (f + 1)) _ _ (g_inv _ _ _ _ _ G2) Logic.I E3) as G3.
  set (g1 := track w (MakeFrag i 0 m) (whole i (len P))). set (g2 := track w1 (MakeFrag i m (len P - m)) g1).
  set (g3 := only f (track w2 (AddTrailerPkt f (f + 1)) g2)).
  assert (Fo : follow junk false false w (whole i (len P)) w3 g3).
  { eapply (follow_step _ _ _ (MakeFrag i 0 m)); [exact Logic.I|exact Logic.I|exact E1|].
    eapply (follow_step _ _ _ (MakeFrag i m (len P - m))); [exact Logic.I|exact Logic.I|exact E2|].
    eapply (follow_join _ _ _ f (f + 1) (AddTrailerPkt f (f + 1))); [right; reflexivity|exact E3|]. apply follow_nil. }
  assert (Ga : g2 f = Some (mk_piece 0 0 m 0)).
  { unfold g2, g1, track. rewrite V, V1, L1. fold f. rewrite put_other by lia. rewrite put_here. unfold whole. rewrite put_here. unfold obnd, cut_front, cut_back, piece_len. cbn.
    destruct (Nat.leb_spec (len P - 0 + 0 - m) 0) as [Hl|Hl]; [do 2 f_equal; lia|]. rewrite !Nat.sub_0_r, Nat.add_0_r. destruct (Nat.leb_spec (len P - m) (len P)); [|lia]. do 2 f_equal; lia. }
  assert (Gb : g2 (f + 1) = Some (mk_piece 0 m (len P) 0)).
  { unfold g2, g1, track. rewrite V, V1, L1. fold f. rewrite Nat.add_1_r, put_here. rewrite put_other by lia. unfold whole. rewrite put_here. unfold obnd, cut_front.
    cbn [i_lead i_from i_to i_trail]. rewrite !Nat.sub_0_r. cbn [Nat.add].
    assert (Cm : (if m <=? 0 then Some (mk_piece 0 0 (len P) 0) else if m <=? len P then Some (mk_piece 0 m (len P) 0) else None) = Some (mk_piece 0 m (len P) 0)).
    { destruct (Nat.leb_spec m 0); [replace m with 0 by lia; reflexivity|]. destruct (Nat.leb_spec m (len P)); [reflexivity|lia]. }
    replace (0 - m) with 0 by lia. rewrite Cm. unfold cut_back, piece_len. cbn [i_lead i_from i_to i_trail]. replace (0 + (len P - m) + 0 - (len P - m)) with 0 by lia. reflexivity. }
  assert (Gj : g3 f = Some (mk_piece 0 0 (len P) 0)).
  { unfold g3, only. rewrite Nat.eqb_refl. unfold track. rewrite Va, Vb, put_here, Ga, Gb. unfold obnd, glue. cbn. rewrite Nat.eqb_refl. reflexivity. }
  assert (V3 : exists Q, packet_of w3 f = Some Q).
  { cbn [step] in E3. rewrite Va, Vb in E3. destruct (view_var _ _ _ _ _ _ (g_inv _ _ _ _ _ G2) Va) as (sa & xa & ya & Wa).
    destruct (view_var _ _ _ _ _ _ (g_inv _ _ _ _ _ G2) Vb) as (sb & xb & yb & Wb).
    destruct (join_shows false false junk w2 f (f + 1) ra rb w3 false (g_inv _ _ _ _ _ G2) Va Vb E3 _ _ _ _ _ _ Wa Wb) as (xs' & (p3 & ys3 & V3 & W3) & _).
    eexists. eapply var_packet; eauto. }
  destruct V3 as [Q Qk]. exists Q. split; [exact Qk|].
  eapply (C54_restored BV false false junk l w i P w3 g3 f Q); eauto using fits_any.
Qed.
Print Assumptions C54_split.

Definition prog54 : list (op nat) := start [1; 2; 3; 4; 5; 6]%N ++ [AddByteTag 0 7 70 1 4; AddByteTag 0 8 80 4 2; RemHeader 0 1].
Example C54_split_ex :
  shown_at (steps j0 prog54 init) 0 = ([2; 3; 4; 5; 6]%N, [tg 7 70 0 4; tg 8 80 3 5]) /\
  shown_at (steps j0 (prog54 ++ [MakeFrag 0 0 2; MakeFrag 0 2 3; AddTrailerPkt 1 2]) init) 1 = ([2; 3; 4; 5; 6]%N, [tg 7 70 0 4; tg 8 80 3 5]).
Proof. vm_compute. split; reflexivity. Qed.
(** Three fragments with headers of their own, put together from the end. *)
Example C54_pieces_ex : exists w w' g,
  steps j0 prog54 init = Done w /\ follow j0 true true w (whole 0 5) w' g /\ g 3 = Some (mk_piece 0 0 5 0) /\
  shown_at (Done w') 3 = ([2; 3; 4; 5; 6]%N, [tg 7 70 0 4; tg 8 80 3 5]).
Proof.
  eexists _, _, _. split; [vm_compute; reflexivity|]. split.
  - eapply (follow_step _ _ _ (MakeFrag 0 0 2)); [exact Logic.I|exact Logic.I|vm_compute; reflexivity|].
    eapply (follow_step _ _ _ (MakeFrag 0 2 1)); [exact Logic.I|exact Logic.I|vm_compute; reflexivity|].
    eapply (follow_step _ _ _ (MakeFrag 0 3 2)); [exact Logic.I|exact Logic.I|vm_compute; reflexivity|].
    eapply (follow_step _ _ _ (AddHeaderBuf 1 0)); [exact Logic.I|reflexivity|vm_compute; reflexivity|].
    eapply (follow_step _ _ _ (RemHeader 1 6)); [exact Logic.I|exact Logic.I|vm_compute; reflexivity|].
    eapply (follow_step _ _ _ (AddHeaderPkt 3 2)); [exact Logic.I|reflexivity|vm_compute; reflexivity|].
    eapply (follow_step _ _ _ (AddHeaderPkt 3 1)); [exact Logic.I|reflexivity|vm_compute; reflexivity|].
    apply follow_nil.
  - split; vm_compute; reflexivity.
Qed.

(** Where a byte has several byte tags with the same id, [GetByteTag] may return another one of them
    afterwards. *)
Theorem C54_value_refuted : exists (l : list (op nat)) w w' p q,
  l = start [1; 2; 3; 4; 5; 6]%N ++ [AddByteTag 0 7 1 4 2; AddByteTag 0 7 2 0 6] /\ steps j0 l init = Done w /\
  steps j0 [MakeFrag 0 0 3; MakeFrag 0 3 3; AddTrailerPkt 1 2] w = Done w' /\
  packet_of w 0 = Some p /\ packet_of w' 1 = Some q /\ k_bytes q = k_bytes p /\ tag_value 7 4 p = Some 1 /\ tag_value 7 4 q = Some 2.
Proof.
  eexists _, _, _, _, _. split; [reflexivity|]. split; [vm_compute; reflexivity|]. split; [vm_compute; reflexivity|].
  split; [vm_compute; reflexivity|]. split; [vm_compute; reflexivity|]. split; [reflexivity|]. split; vm_compute; reflexivity.
Qed.
Print Assumptions C54_value_refuted.

(** ** C55 *)

(** A fragment has the bytes, and each of them the byte tags and values, of the packet. *)
Theorem C55_fragment : forall BV junk (l : list (op BV)) w i P s n w',
  steps junk l init = Done w -> packet_of w i = Some P -> s <= len P -> step junk (MakeFrag i s n) w = Done w' ->
  exists Q, packet_of w' (length (w_vars w)) = Some Q /\ s + n <= len P /\ k_bytes Q = firstn n (skipn s (k_bytes P)) /\
    (forall id k, k < n -> tagged id k Q = tagged id (s + k) P /\ tag_value id k Q = tag_value id (s + k) P) /\
    (0 < n -> forall id, (exists x, In x (k_tags Q) /\ TagList.x_id x = id) <-> exists k, s <= k < s + n /\ tagged id k P = true).
Proof.
  intros BV junk l w i P s n w' H Pk Hs E. pose proof (hist_pinv _ _ _ _ _ _ (fits_any BV l) H) as I.
  pose proof (step_pinv _ false false _ (MakeFrag i s n) _ _ I Logic.I E) as G. destruct (g_spec _ _ _ _ _ G Logic.I) as (x1 & _ & Ps & _). cbn [pspec] in Ps. rewrite pk_packets, Pk in Ps.
  assert (V : exists p, var w i = Some p) by (unfold packet_of in Pk; destruct (var w i); [eauto|discriminate]). destruct V as [p V].
  destruct (view_var _ _ _ _ _ _ I V) as (S0 & X & Y & Vw). pose proof Pk as Pk'. rewrite (var_packet _ _ _ _ _ _ V Vw) in Pk'. injection Pk' as EP.
  assert (Ln : s + n <= len P).
  { cbn [step] in E. rewrite V in E. pose proof (make_fragment_full false false junk w i s n p I V) as M. rewrite E in M. destruct M as [_ M]. destruct (M _ _ _ Vw) as (Hn & _).
    subst P. unfold len in *. cbn [shown k_bytes] in *. lia. }
  exists (slice s n P). split; [rewrite <- pk_packets, Ps, pk_app, packets_length, Nat.eqb_refl; reflexivity|]. split; [exact Ln|]. split; [reflexivity|].
  assert (Vis : forall x, In x (k_tags P) -> (TagList.x_start x < TagList.x_end x)%Z /\ (0 < len P -> exists k, k < len P /\ TagListSpec.covers (Z.of_nat k) x = true)).
  { intros x Hx. subst P. cbn [shown k_tags] in Hx. destruct p as [a|]; [|destruct Vw as (-> & -> & ->); destruct Hx]. destruct Vw as (y & L & B & F1 & F2).
    destruct (TagListProofs.listed _ _ _ _ x (p_bt _ _ _ _ I) (full_some _ _ _ _ F1) Hx) as [O T]. split; [exact O|]. intros Lp. apply TagListProofs.touches_spec; assumption. }
  assert (On : forall id k (x : TagList.tag_index BV), k < n -> on_byte id k (shift (- Z.of_nat s) x) = on_byte id (s + k) x).
  { intros id k x Hk. unfold on_byte, TagListSpec.covers. cbn [TagListSpec.shift TagList.x_id TagList.x_start TagList.x_end]. lia. }
  assert (Fi : forall id k (L : list (TagList.tag_index BV)), k < n -> find (on_byte id k) (filter (touches n) (map (shift (- Z.of_nat s)) L)) = option_map (shift (- Z.of_nat s)) (find (on_byte id (s + k)) L)).
  { intros id k L Hk. induction L as [|x L IH]; [reflexivity|]. cbn [map filter find]. rewrite <- (On id k x Hk). destruct (touches n (shift (- Z.of_nat s) x)) eqn:T.
    - cbn [find]. destruct (on_byte id k (shift (- Z.of_nat s) x)); [reflexivity|exact IH].
    - destruct (on_byte id k (shift (- Z.of_nat s) x)) eqn:B; [|exact IH]. unfold on_byte, TagListSpec.covers, TagListSpec.touches in *. lia. }
  split.
  - intros id k Hk. unfold tagged, tag_value. cbn [slice k_tags]. rewrite (Fi id k _ Hk). split; [|destruct (find _ _); reflexivity].
    pose proof (Fi id k (k_tags P) Hk) as Fk. apply Bool.eq_iff_eq_true. rewrite !existsb_exists. split.
    + intros (x & Hx & B). destruct (find (on_byte id (s + k)) (k_tags P)) as [z|] eqn:Fz; [exists z; apply find_some, Fz|].
      rewrite (find_none _ _ Fk x Hx) in B. discriminate.
    + intros (x & Hx & B). destruct (find (on_byte id (s + k)) (k_tags P)) as [z|] eqn:Fz; [eexists; apply find_some; exact Fk|].
      rewrite (find_none _ _ Fz x Hx) in B. discriminate.
  - intros Hn id. split.
    + intros (x & Hx & <-). cbn [slice k_tags] in Hx. apply filter_In in Hx. destruct Hx as [Hx T]. apply in_map_iff in Hx. destruct Hx as (z & <- & Hz).
      destruct (Vis z Hz) as [O _]. assert (O' : (TagList.x_start (shift (- Z.of_nat s) z) < TagList.x_end (shift (- Z.of_nat s) z))%Z) by (cbn; lia).
      destruct (proj1 (TagListProofs.touches_spec n _ Hn O') T) as (k & Hk & C). exists (s + k). split; [lia|]. apply existsb_exists. exists z. split; [exact Hz|].
      rewrite <- On by exact Hk. unfold on_byte. cbn [TagListSpec.shift TagList.x_id]. rewrite N.eqb_refl. exact C.
    + intros (k & Hk & T). apply existsb_exists in T. destruct T as (z & Hz & B). exists (shift (- Z.of_nat s) z). unfold on_byte, TagListSpec.covers in B. split; [|cbn; lia].
      cbn [slice k_tags]. apply filter_In. split; [apply in_map, Hz|]. unfold TagListSpec.touches. cbn. lia.
Qed.
Print Assumptions C55_fragment.
Example C55_fragment_ex :
  shown_at (steps j0 (prog54 ++ [MakeFrag 0 1 2; MakeFrag 0 4 1]) init) 1 = ([3; 4]%N, [tg 7 70 (-1) 3]) /\
  shown_at (steps j0 (prog54 ++ [MakeFrag 0 1 2; MakeFrag 0 4 1]) init) 2 = ([6]%N, [tg 8 80 (-1) 1]).
Proof. vm_compute. split; reflexivity. Qed.

(** A byte tag comes to lie on bytes that are added where tagged bytes were removed. *)
Theorem C55_regrow_refuted : exists (l : list (op nat)) w p,
  l = start [1; 2; 3; 4]%N ++ [AddByteTag 0 7 1 0 4; RemTrailer 0 2; AddTrailerBuf 0 0] /\ steps j0 l init = Done w /\
  packet_of w 0 = Some p /\ k_bytes p = [1; 2; 1; 2; 3; 4]%N /\ tagged 7 3 p = true.
Proof. eexists _, _, _. split; [reflexivity|]. split; [vm_compute; reflexivity|]. split; [vm_compute; reflexivity|]. split; reflexivity. Qed.
Print Assumptions C55_regrow_refuted.
(** Byte tags of which no byte is left come back when the packet is added to another one. *)
Theorem C55_hidden_refuted : exists (l : list (op nat)) w w' p q r,
  l = start [1; 2; 3; 4]%N ++ [FromBuf 0; AddByteTag 0 7 1 2 2; RemTrailer 0 2] /\ steps j0 l init = Done w /\
  step j0 (AddHeaderPkt 1 0) w = Done w' /\ packet_of w 0 = Some p /\ packet_of w 1 = Some q /\ packet_of w' 1 = Some r /\
  k_tags p = [] /\ k_tags q = [] /\ k_bytes r = [1; 2; 1; 2; 3; 4]%N /\ tagged 7 2 r = true.
Proof.
  eexists _, _, _, _, _, _. split; [reflexivity|]. split; [vm_compute; reflexivity|]. split; [vm_compute; reflexivity|].
  split; [vm_compute; reflexivity|]. split; [vm_compute; reflexivity|]. split; [vm_compute; reflexivity|]. repeat split.
Qed.
Print Assumptions C55_hidden_refuted.

(** ** C76 *)

Lemma pin_kept BV lo hi junk (l : list (op BV)) : forall w w' a, pinv lo hi [] w -> cleanly junk lo hi l w -> steps junk l w = Done w' -> In a (w_pins w) ->
  pinv lo hi [] w' /\ content_at w' (Some a) = content_at w (Some a).
Proof.
  induction l as [|o l IH]; intros w w' a I C E Ha; cbn [steps cleanly] in *; [injection E as <-; auto|]. destruct C as (Hf & Hc & C).
  pose proof (step_good lo hi junk o w I Hf) as G. destruct (step junk o w) as [w1| | |e]; cbn [obind wp] in *; try discriminate.
  - destruct (IH w1 w' a (g_inv _ _ _ _ _ G) C E (g_pins _ _ _ _ _ G _ Ha)) as [I' Ec]. split; [exact I'|]. rewrite Ec. apply (g_pin _ _ _ _ _ G); assumption.
  - apply (IH w w' a); assumption.
Qed.
(** The packet in a packet tag stays as it was when the tag was added, whatever happens to the packet,
    its copies, and the packet with the tag, and [GetPacketTag] returns it. *)
Theorem C76_packet_tags : forall BV lo hi junk (l : list (op BV)) w i id j s n Q w1 l' w2 i' id' k P x w3,
  Forall (fits lo hi) l -> steps junk l init = Done w -> var w i <> None -> packet_of w j = Some Q ->
  step junk (AddPacketTag i id j s n) w = Done w1 ->
  cleanly junk lo hi l' w1 -> steps junk l' w1 = Done w2 ->
  packet_of w2 i' = Some P -> find (on_byte id' k) (k_ptags P) = Some x -> TagList.x_val x = ref w j ->
  step junk (GetPacketTag i' id' k) w2 = Done w3 ->
  packet_of w3 (length (w_vars w2)) = Some Q.
Proof.
  intros BV lo hi junk l w i id j s n Q w1 l' w2 i' id' k P x w3 F H Vi Qk E1 C E2 Pk Fx Ex E3. pose proof (hist_pinv _ _ _ _ _ _ F H) as I.
  assert (V : exists q, var w j = Some q) by (unfold packet_of in Qk; destruct (var w j); [eauto|discriminate]). destruct V as [q Vj].
  destruct (var w i) as [p|] eqn:V; [|congruence]. assert (Er : ref w j = q) by (unfold ref; rewrite Vj; reflexivity). rewrite Er in Ex.
  cbn [step] in E1. rewrite V, Vj in E1. pose proof (add_packet_tag_full lo hi junk w i id j s n q p I V Vj) as A. rewrite E1 in A. destruct A as [G1 [_ A]].
  assert (I2 : pinv lo hi [] w2 /\ content_at w2 q = Some Q).
  { unfold packet_of in Qk. rewrite Vj in Qk. destruct q as [c|].
    - destruct (A c eq_refl) as [Hc Ec]. destruct (pin_kept _ _ _ _ _ _ _ c (g_inv _ _ _ _ _ G1) C E2 Hc) as [I2 Ec2]. split; [exact I2|]. congruence.
    - split; [|exact Qk]. clear - G1 C E2. assert (I1 := g_inv _ _ _ _ _ G1). clear G1. revert w1 I1 C E2. induction l' as [|o l' IH]; intros w1 I1 C E; cbn [steps cleanly] in *; [injection E as <-; exact I1|].
      destruct C as (Hf & Hc & C). pose proof (step_good lo hi junk o w1 I1 Hf) as G. destruct (step junk o w1) as [w'| | |e]; cbn [obind wp] in *; try discriminate; [apply (IH w'); [apply G|assumption|assumption]|apply (IH w1); assumption]. }
  destruct I2 as [I2 Ec]. pose proof (step_pinv _ lo hi _ (GetPacketTag i' id' k) _ _ I2 Logic.I E3) as G3. destruct (g_spec _ _ _ _ _ G3 Logic.I) as (x3 & _ & Ps & _).
  cbn [pspec] in Ps. rewrite pk_packets, Pk in Ps. unfold on_byte in Fx. rewrite Fx, Ex, Ec in Ps.
  rewrite <- pk_packets, Ps, pk_app, packets_length, Nat.eqb_refl. reflexivity.
Qed.
Print Assumptions C76_packet_tags.
Definition prog76 : list (op nat) := start [1; 2; 3; 4]%N ++ [FromBuf 0; AddByteTag 1 7 70 1 2].
Definition rest76 : list (op nat) := [RemHeader 1 2; AddTrailerBuf 1 0; Destroy 1; RemTrailer 0 1; Copy 0; AddHeaderBuf 2 0].
Example C76_packet_tags_ex : exists w w1 w2 w3 P x,
  steps j0 prog76 init = Done w /\ step j0 (AddPacketTag 0 9 1 1 2) w = Done w1 /\ cleanly j0 true true rest76 w1 /\ steps j0 rest76 w1 = Done w2 /\
  packet_of w2 2 = Some P /\ find (on_byte 9 5) (k_ptags P) = Some x /\ TagList.x_val x = ref w 1 /\ step j0 (GetPacketTag 2 9 5) w2 = Done w3 /\
  shown_at (Done w3) 3 = ([1; 2; 3; 4]%N, [tg 7 70 1 3]).
Proof.
  eexists _, _, _, _, _, _. split; [vm_compute; reflexivity|]. split; [vm_compute; reflexivity|]. split; [vm_compute; repeat split|]. split; [vm_compute; reflexivity|].
  split; [vm_compute; reflexivity|]. split; [vm_compute; reflexivity|]. split; [vm_compute; reflexivity|]. split; vm_compute; reflexivity.
Qed.

(** ** C77 *)

(** No sequence of statements has undefined behaviour: no use of a deleted body, storage or tag list,
    no access out of bounds, no count below zero. *)
Theorem C77_no_ub : forall BV junk (l : list (op BV)), steps junk l init <> UB.
Proof.
  intros BV junk l E. pose proof (steps_pinv false false junk l init (init_pinv false false) (fits_any BV l)) as H. rewrite E in H. exact H.
Qed.
Print Assumptions C77_no_ub.
(** Reference counts are exact: a body exists exactly as long as it is referred to. *)
Theorem C77_counts : forall BV junk (l : list (op BV)) w a,
  steps junk l init = Done w ->
  match nth_error (w_bodies w) a with
  | Some (Some y) => y_rc y = references w a /\ 0 < y_rc y
  | _ => references w a = 0
  end.
Proof.
  intros BV junk l w a H. pose proof (hist_pinv _ _ _ _ _ _ (fits_any BV l) H) as I.
  assert (R : refs w [] a = references w a) by (unfold refs, references, BufferProofs.cnt, refers; cbn; lia).
  destruct (nth_error (w_bodies w) a) as [[y|]|] eqn:L.
  - split; [rewrite <- R; apply (p_rc _ _ _ _ I a y L)|apply (p_pos _ _ _ _ I a y L)].
  - rewrite <- R. destruct (Nat.eq_dec (refs w [] a) 0) as [|N]; [assumption|]. destruct (p_dead _ _ _ _ I a ltac:(lia)) as [y Ly]. unfold live in Ly. congruence.
  - rewrite <- R. destruct (Nat.eq_dec (refs w [] a) 0) as [|N]; [assumption|]. destruct (p_dead _ _ _ _ I a ltac:(lia)) as [y Ly]. unfold live in Ly. congruence.
Qed.
Print Assumptions C77_counts.
Example C77_counts_ex :
  match steps j0 (prog52 ++ [AddPacketTag 1 9 2 0 1; Assign 3 2; Destroy 2; AddHeader 3 2; AddTrailer 0 2; Swap 0 1; MoveAssign 1 0]) init with
  | Done w => (map (option_map y_rc) (w_bodies w), map (references w) (seq 0 6))
  | _ => ([], [])
  end = ([Some 1; None; Some 1; None; Some 1], [1; 0; 1; 0; 1; 0]).
Proof. vm_compute. reflexivity. Qed.
