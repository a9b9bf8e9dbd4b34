(** Lemmas about the buffers that [AddHeader(size)] and [AddTrailer(size)] return. *)
From Verif Require Import Base BaseProofs Packet PacketSpec PacketParts PacketProofs.
From Verif Require Buffer BufferSpec BufferProofs TagList TagListSpec TagListProofs.
From Coq Require Import ZifyBool ZifyNat ZifyN.

Section Fill.
Context {BV : Type} (lo hi : bool).
Implicit Type w : world BV.
Notation pinv := (pinv lo hi).
Notation good := (good lo hi).

Lemma bytes_var' b k s : binv b -> bytes_of b k = Some s -> exists c, nth_error (Buffer.w_bufs b) k = Some (Some c).
Proof.
  intros I E. unfold BufferSpec.bytes_of in E. destruct (Buffer.var b k) as [c|] eqn:V; [|discriminate]. exists c. apply BufferProofs.var_some, V.
Qed.
(** Packet [i] has its body for itself, and buffer [f] of the user shows its [n] bytes from position [d] on, which no other buffer has. *)
Definition stake w i a y f d n : Prop :=
  var w i = Some (Some a) /\ live w a y /\ refs w [] a = 1 /\ owned w f = false /\ BufferProofs.alias (w_buf w) (y_buf y) f d n.

Lemma write_stake junk w i a y f d n off bs w' : pinv [] w -> stake w i a y f d n -> step junk (OnBuf (Buffer.Write f off bs)) w = Done w' ->
  off + length bs <= n /\ pinv [] w' /\ stake w' i a y f d n /\ (exists p, packet_of w i = Some p /\
    packets w' = upd (packets w) i (Some (mk_pkt (overwrite (d + off) bs (k_bytes p)) (k_tags p) (k_ptags p)))) /\
  (forall k, k <> f -> buffer_of w' k = buffer_of w k).
Proof.
  intros I (V & L & R & O & Al) E.
  assert (Hf : fits lo hi (OnBuf (Buffer.Write f off bs) : op BV)) by (left; exact Logic.I).
  pose proof (step_good lo hi junk _ w I Hf) as G. rewrite E in G. cbn [wp] in G. cbn [step mentions existsb] in E. rewrite O in E. cbn [orb] in E.
  unfold on_buf in E. destruct (Buffer.step junk (Buffer.Write f off bs) (w_buf w)) as [b| | |] eqn:Eb; try discriminate. cbn [obind] in E. injection E as <-.
  destruct (BufferProofs.alias_write junk (w_buf w) (y_buf y) f d n off bs b (p_buf _ _ _ _ I) Al Eb) as (Hn & Al' & Ebufs & (s & B1 & B2) & K & _).
  split; [exact Hn|]. split; [apply G|]. split; [split; [exact V|split; [exact L|split; [exact R|split; [exact O|exact Al']]]]|].
  pose proof (view_var _ _ _ _ _ _ I V) as (s0 & xs & ys & Vw). pose proof (var_packet _ _ _ _ _ _ V Vw) as Pk. destruct Vw as (y0 & L0 & B0 & Vt1 & Vt2).
  rewrite (live_fun _ _ _ _ L0 L) in B0. rewrite B1 in B0. injection B0 as <-.
  assert (Nf : forall c z, live w c z -> y_buf z <> f) by (apply owned_false; exact O).
  split.
  - eexists. split; [exact Pk|]. set (q := mk_pkt _ _ _). apply packets_ext; [rewrite upd_length, packets_length; reflexivity|].
    intros j Hj. rewrite upd_length, packets_length in Hj. rewrite pk_upd by (rewrite packets_length; apply (var_lt _ _ _ V)). rewrite pk_packets.
    unfold packet_of. change (var (mk_world b (w_bt w) (w_pt w) (w_bodies w) (w_vars w) (w_pins w)) j) with (var w j).
    destruct (Nat.eqb_spec i j) as [<-|N].
    + rewrite V. unfold packet_of in Pk. rewrite V in Pk. unfold content_at in *. cbn [w_bodies w_buf w_bt w_pt] in *. unfold live in L. rewrite L in *.
      rewrite B2. rewrite B1 in Pk. destruct (TagListSpec.content_of (w_bt w) a) as [[m1 zs1]|]; [|discriminate].
      destruct (TagListSpec.content_of (w_pt w) a) as [[m2 zs2]|]; [|discriminate]. injection Pk as E1 E2. unfold q, shown. cbn [k_bytes k_tags k_ptags].
      rewrite E1, E2. reflexivity.
    + destruct (var w j) as [[c|]|] eqn:Vj; try reflexivity. unfold content_at. cbn [w_bodies w_buf w_bt w_pt]. destruct (nth_error (w_bodies w) c) as [[z|]|] eqn:Lz; try reflexivity.
      rewrite K; [reflexivity| |eapply Nf; exact Lz]. intros Ez. pose proof (p_inj _ _ _ _ I _ _ _ _ Lz L Ez) as ->. apply N. eapply alone_var; eassumption.
  - intros k N. unfold buffer_of. change (owned (mk_world b (w_bt w) (w_pt w) (w_bodies w) (w_vars w) (w_pins w)) k) with (owned w k).
    destruct (owned w k) eqn:Ok; [reflexivity|]. cbn [w_buf]. apply K; [|exact N]. intros ->. rewrite owned_false in Ok. apply (Ok a y L). reflexivity.
Qed.

Lemma store_throws h a off bs e : Buffer.store_at h a off bs <> Throw e.
Proof. unfold Buffer.store_at, Buffer.get. destruct (nth_error h a) as [[g|]|]; cbn [obind]; try discriminate. destruct (mem_store _ _ _); discriminate. Qed.
Lemma writes_stake junk ws : forall w i a y f d n w' p, pinv [] w -> stake w i a y f d n -> packet_of w i = Some p ->
  steps junk (map (fun u => OnBuf (Buffer.Write f (fst u) (snd u))) ws) w = Done w' ->
  packets w' = upd (packets w) i (Some (mk_pkt (fold_left (fun s u => overwrite (d + fst u) (snd u) s) ws (k_bytes p)) (k_tags p) (k_ptags p))) /\
  Forall (fun u => fst u + length (snd u) <= n) ws /\ pinv [] w' /\
  (forall k, k <> f -> buffer_of w' k = buffer_of w k).
Proof.
  induction ws as [|[off bs] ws IH]; intros w i a y f d n w' p I St Pk E; cbn [map steps fold_left fst snd] in *.
  - injection E as <-. split; [|auto]. rewrite pkt_eta. symmetry. apply upd_pk. rewrite pk_packets. exact Pk.
  - pose proof (step_good lo hi junk (OnBuf (Buffer.Write f off bs)) w I ltac:(left; exact Logic.I)) as G.
    destruct (step junk (OnBuf (Buffer.Write f off bs)) w) as [w1| | |e] eqn:E1; cbn [obind] in E; try discriminate.
    + destruct (write_stake junk w i a y f d n off bs w1 I St E1) as (Hn & I1 & St1 & (p0 & Pk0 & Ps) & K). rewrite Pk in Pk0. injection Pk0 as <-.
      pose proof (var_lt _ _ _ (proj1 St)) as Li.
      assert (Pk1 : packet_of w1 i = Some (mk_pkt (overwrite (d + off) bs (k_bytes p)) (k_tags p) (k_ptags p))).
      { rewrite <- pk_packets, Ps, pk_upd, Nat.eqb_refl by (rewrite packets_length; exact Li). reflexivity. }
      destruct (IH w1 i a y f d n w' _ I1 St1 Pk1 E) as (Ps' & Fa & I2 & K2). split; [|split; [constructor; assumption|split; [exact I2|]]].
      * rewrite Ps', Ps. cbn [k_bytes k_tags k_ptags]. apply list_ext. intros k. destruct (Nat.eq_dec i k) as [->|N].
        { rewrite !nth_upd_eq by (rewrite ?upd_length, packets_length; exact Li). reflexivity. }
        { rewrite !nth_upd_neq by exact N. reflexivity. }
      * intros k N. rewrite K2, K by exact N. reflexivity.
    + exfalso. cbn [step] in E1. destruct (existsb _ _); [discriminate|]. unfold on_buf in E1. cbn [Buffer.step] in E1.
      destruct (Buffer.var (w_buf w) f) as [b|]; [|discriminate]. destruct (_ <? _); [discriminate|]. destruct (_ =? 0); [discriminate|].
      unfold Buffer.write_data in E1. destruct (Buffer.b_st b) as [c|]; [|discriminate].
      pose proof (store_throws (Buffer.w_heap (w_buf w)) c (Buffer.b_start b + off) bs) as Nt.
      destruct (Buffer.store_at _ _ _ _); cbn [obind] in E1; try discriminate. exact (Nt _ eq_refl).
Qed.

Lemma add_header_stake junk w i n p : lo = true -> hi = false -> 0 < n -> pinv [] w -> var w i = Some p ->
  wp (add_header junk i n p w) (fun w' => exists a y, stake w' i a y (length (Buffer.w_bufs (w_buf w')) - 1) 0 n).
Proof.
  intros Hl Hh Hn I V. destruct (view_var _ _ _ _ _ _ I V) as (s & xs & ys & Vw). pose proof (var_lt _ _ _ V) as Li. unfold add_header.
  eapply wp_bind; [apply (make_private_ok lo hi junk [] w i p s xs ys I V Vw)|]. intros [w1 a] (I1 & F1 & E1 & E2 & R1 & V1 & _). cbn [fst snd] in *.
  pose proof V1 as (y & L & B & G1 & G2).
  assert (Ok : eok w1 a y (EAddStart n) s [] [] []) by (split; [intros j E; discriminate|split; [intros c E; discriminate|exact Logic.I]]).
  eapply wp_bind; [apply (mutate_ok lo hi junk [] w1 a y (EAddStart n) s xs ys [] [] [] I1 L V1 Ok)|].
  intros w2 (I2 & F2 & E3 & E4 & E5 & Lb & Hb & x & xs' & ys' & Lx & V2 & Q1 & _ & Q3 & Q4). cbn [eb elen esize etags ebytes eside length] in *.
  assert (L2 : live w2 a y) by (unfold live; rewrite E3; exact L). rewrite (get_body_ok _ _ _ L2). cbn [obind].
  destruct (on_buf junk (Buffer.Fragment (y_buf y) 0 n) w2) as [w3| | |] eqn:E; cbn [wp]; auto.
  2: { pose proof V2 as (y2 & L2' & B2 & _). rewrite (live_fun _ _ _ _ L2' L2) in B2.
       pose proof (new_buf_ok lo hi junk [] w2 (Buffer.Fragment (y_buf y) 0 n) x I2) as W. rewrite E in W. apply W.
       - right. exists (y_buf y), (x ++ s). split; [exact B2|]. right. exists 0, n. split; [reflexivity|]. cbn [skipn]. rewrite <- Lx, firstn_app, Nat.sub_diag, firstn_all. cbn. rewrite app_nil_r. reflexivity.
       - intros b Eb. right. eapply header_safe; [exact Hh|apply I1|apply I1|exact Hb|exact Eb]. }
  unfold on_buf in E. destruct (Buffer.step junk (Buffer.Fragment (y_buf y) 0 n) (w_buf w2)) as [b| | |] eqn:Eb; try discriminate. cbn [obind] in E. injection E as <-.
  cbn [w_buf]. destruct (bytes_var' (w_buf w1) (y_buf y) s (p_buf _ _ _ _ I1) B) as [c Ec].
  assert (Sf : BufferProofs.safe true hi (w_buf w1)) by (rewrite <- Hl; apply I1).
  pose proof (BufferProofs.header_alias junk (y_buf y) n (w_buf w1) (w_buf w2) b hi c (p_buf _ _ _ _ I1) Sf Hn Ec Hb Eb) as Al.
  assert (Ln : length (Buffer.w_bufs b) = S (length (Buffer.w_bufs (w_buf w2)))).
  { destruct Al as (c1 & c2 & a2 & _ & Hf & _). pose proof (nth_lt _ _ _ Hf). pose proof (step_len junk _ _ _ Eb) as [Sl _]. cbn in Sl. destruct (Buffer.var (w_buf w2) (y_buf y)); lia. }
  replace (length (Buffer.w_bufs b) - 1) with (length (Buffer.w_bufs (w_buf w1))) by lia.
  exists a, y. split; [unfold var; cbn [w_vars]; rewrite E4, E1, nth_upd_eq by exact Li; reflexivity|]. split; [exact L2|].
  split; [unfold refs in *; cbn [w_vars w_pins]; rewrite E4, E5; exact R1|]. split; [|exact Al].
  apply owned_false. intros a0 y0 L0. change (live w2 a0 y0) in L0. pose proof (live_buf _ _ _ _ _ _ I2 L0). lia.
Qed.
Lemma add_trailer_stake junk w i n p q : lo = false -> hi = true -> 0 < n -> pinv [] w -> var w i = Some p -> packet_of w i = Some q ->
  wp (add_trailer junk i n p w) (fun w' => exists a y, stake w' i a y (length (Buffer.w_bufs (w_buf w')) - 1) (len q) n).
Proof.
  intros Hl Hh Hn I V Pq. destruct (view_var _ _ _ _ _ _ I V) as (s & xs & ys & Vw). pose proof (var_lt _ _ _ V) as Li.
  assert (Lq : len q = length s) by (rewrite (var_packet _ _ _ _ _ _ V Vw) in Pq; injection Pq as <-; reflexivity). rewrite Lq. unfold add_trailer.
  eapply wp_bind; [apply (make_private_ok lo hi junk [] w i p s xs ys I V Vw)|]. intros [w1 a] (I1 & F1 & E1 & E2 & R1 & V1 & _). cbn [fst snd] in *.
  pose proof V1 as (y & L & B & G1 & G2).
  assert (Ok : eok w1 a y (EAddEnd n) s [] [] []) by (split; [intros j E; discriminate|split; [intros c E; discriminate|exact Logic.I]]).
  eapply wp_bind; [apply (mutate_ok lo hi junk [] w1 a y (EAddEnd n) s xs ys [] [] [] I1 L V1 Ok)|].
  intros w2 (I2 & F2 & E3 & E4 & E5 & Lb & Hb & x & xs' & ys' & Lx & V2 & Q1 & _ & Q3 & Q4). cbn [eb elen esize etags ebytes eside length] in *.
  assert (L2 : live w2 a y) by (unfold live; rewrite E3; exact L). rewrite (get_body_ok _ _ _ L2). cbn [obind].
  pose proof V2 as (y2 & L2' & B2 & _). rewrite (live_fun _ _ _ _ L2' L2) in B2.
  rewrite (buf_size_ok _ _ _ (p_buf _ _ _ _ I2) B2), app_length, Lx, Nat.add_sub.
  destruct (on_buf junk (Buffer.Fragment (y_buf y) (length s) n) w2) as [w3| | |] eqn:E; cbn [wp]; auto.
  2: { pose proof (new_buf_ok lo hi junk [] w2 (Buffer.Fragment (y_buf y) (length s) n) x I2) as W. rewrite E in W. apply W.
       - right. exists (y_buf y), (s ++ x). split; [exact B2|]. right. exists (length s), n. split; [reflexivity|].
         rewrite skipn_app, skipn_all, Nat.sub_diag. cbn [skipn app]. rewrite <- Lx, firstn_all. reflexivity.
       - intros b Eb. right. eapply trailer_safe; [exact Hl|apply I1|apply I1|exact Hb|exact Eb|].
         intros c Ec. destruct (bytes_var (w_buf w2) (y_buf y) c) as (s2 & B3 & Ls); [apply I2|apply BufferProofs.var_some, Ec|].
         rewrite B2 in B3. injection B3 as <-. rewrite app_length, Lx in Ls. exact Ls. }
  unfold on_buf in E. destruct (Buffer.step junk (Buffer.Fragment (y_buf y) (length s) n) (w_buf w2)) as [b| | |] eqn:Eb; try discriminate. cbn [obind] in E. injection E as <-.
  cbn [w_buf]. destruct (bytes_var' (w_buf w1) (y_buf y) s (p_buf _ _ _ _ I1) B) as [c Ec].
  assert (Sf : BufferProofs.safe lo true (w_buf w1)) by (rewrite <- Hh; apply I1).
  assert (Ls : length s = Buffer.b_end c - Buffer.b_start c).
  { destruct (bytes_var (w_buf w1) (y_buf y) c (p_buf _ _ _ _ I1) (proj2 (BufferProofs.var_some _ _ _) Ec)) as (s2 & B3 & Ls). rewrite B in B3. injection B3 as <-. exact Ls. }
  pose proof (BufferProofs.trailer_alias junk (y_buf y) (length s) n (w_buf w1) (w_buf w2) b lo c (p_buf _ _ _ _ I1) Sf Hn Ec Hb Eb Ls) as Al.
  assert (Ln : length (Buffer.w_bufs b) = S (length (Buffer.w_bufs (w_buf w2)))).
  { destruct Al as (c1 & c2 & a2 & _ & Hf & _). pose proof (nth_lt _ _ _ Hf). pose proof (step_len junk _ _ _ Eb) as [Sl _]. cbn in Sl. destruct (Buffer.var (w_buf w2) (y_buf y)); lia. }
  replace (length (Buffer.w_bufs b) - 1) with (length (Buffer.w_bufs (w_buf w1))) by lia.
  exists a, y. split; [unfold var; cbn [w_vars]; rewrite E4, E1, nth_upd_eq by exact Li; reflexivity|]. split; [exact L2|].
  split; [unfold refs in *; cbn [w_vars w_pins]; rewrite E4, E5; exact R1|]. split; [|exact Al].
  apply owned_false. intros a0 y0 L0. change (live w2 a0 y0) in L0. pose proof (live_buf _ _ _ _ _ _ I2 L0). lia.
Qed.

(** Overwriting bytes within a part. *)
Lemma overwrite_length off bs (s : list N) : off + length bs <= length s -> length (overwrite off bs s) = length s.
Proof. intros H. unfold overwrite. rewrite !app_length, firstn_length, skipn_length. lia. Qed.
Lemma overwrite_front off bs (x s : list N) : off + length bs <= length x -> overwrite off bs (x ++ s) = overwrite off bs x ++ s.
Proof.
  intros H. unfold overwrite. rewrite firstn_app, skipn_app. replace (off - length x) with 0 by lia. replace (off + length bs - length x) with 0 by lia.
  cbn [firstn skipn]. rewrite app_nil_r, <- !app_assoc. reflexivity.
Qed.
Lemma overwrite_back off bs (x s : list N) : overwrite (length s + off) bs (s ++ x) = s ++ overwrite off bs x.
Proof.
  unfold overwrite. rewrite firstn_app, skipn_app, firstn_all2, (skipn_all2 s) by lia. replace (length s + off - length s) with off by lia.
  replace (length s + off + length bs - length s) with (off + length bs) by lia. cbn [app]. rewrite <- app_assoc. reflexivity.
Qed.
Lemma fill_front ws : forall (x s : list N), Forall (fun u => fst u + length (snd u) <= length x) ws ->
  fold_left (fun s u => overwrite (0 + fst u) (snd u) s) ws (x ++ s) = fill ws x ++ s /\ length (fill ws x) = length x.
Proof.
  induction ws as [|[off bs] ws IH]; intros x s H; [auto|]. inversion H; subst. cbn [fst snd fold_left fill] in *. cbn [Nat.add].
  rewrite overwrite_front by assumption. pose proof (overwrite_length off bs x ltac:(assumption)) as L.
  destruct (IH (overwrite off bs x) s) as [E1 E2]; [rewrite L; assumption|]. unfold fill in *. cbn [fold_left fst snd]. rewrite <- E1, E2. auto.
Qed.
Lemma fill_back ws : forall (x s : list N), Forall (fun u => fst u + length (snd u) <= length x) ws ->
  fold_left (fun t u => overwrite (length s + fst u) (snd u) t) ws (s ++ x) = s ++ fill ws x /\ length (fill ws x) = length x.
Proof.
  induction ws as [|[off bs] ws IH]; intros x s H; [auto|]. inversion H; subst. cbn [fst snd fold_left fill] in *.
  rewrite overwrite_back. pose proof (overwrite_length off bs x ltac:(assumption)) as L.
  destruct (IH (overwrite off bs x) s) as [E1 E2]; [rewrite L; assumption|]. unfold fill in *. cbn [fold_left fst snd]. rewrite <- E1, E2. auto.
Qed.
End Fill.
