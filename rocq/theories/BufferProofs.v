(** Lemmas about the buffer model. *)
From Coq Require Import ZifyBool ZifyNat.
From Verif Require Import Base BaseProofs Buffer BufferSpec.

Ltac Zify.zify_post_hook ::= idtac.

(** ** Heap *)

Definition live (h : heap) (a : nat) (s : storage) : Prop := nth_error h a = Some (Some s).
Lemma get_live h a s : get h a = Done s <-> live h a s.
Proof.
  unfold get, live. destruct (nth_error h a) as [[x|]|]; split; intros H; inversion H; auto.
Qed.
Lemma live_fun h a s s' : live h a s -> live h a s' -> s = s'.
Proof. unfold live. congruence. Qed.
Lemma put_live h a s : a < length h -> live (put h a s) a s.
Proof. intros H. unfold live, put. apply nth_upd_eq. auto. Qed.
Lemma put_other h a b s s' : a <> b -> live (put h a s) b s' <-> live h b s'.
Proof. intros H. unfold live, put. rewrite nth_upd_neq; tauto. Qed.

(** Reference count, 0 when there is no storage. *)
Definition rc (h : heap) (a : nat) : nat :=
  match nth_error h a with Some (Some s) => sg_rc s | _ => 0 end.
Definition pos (h : heap) : Prop := forall a s, live h a s -> 0 < sg_rc s.
Lemma rc_live h a s : live h a s -> rc h a = sg_rc s.
Proof. unfold live, rc. intros ->. auto. Qed.

Definition holds (h : heap) (b : buf) : Prop :=
  match b_st b with
  | None => b_start b = 0 /\ b_end b = 0
  | Some a => exists s, live h a s /\ b_start b <= b_end b /\ b_end b <= sg_cap s
  end.
Definition data (h : heap) (b : buf) : list N :=
  match b_st b with
  | None => []
  | Some a => match nth_error h a with
              | Some (Some s) => firstn (b_end b - b_start b) (skipn (b_start b) (sg_bytes s))
              | _ => []
              end
  end.
Section Sides.
(** Whether the dirty area is to bound the data areas below and above. *)
Context (lo hi : bool).

Definition cover (h : heap) (b : buf) : Prop :=
  match b_st b with
  | None => True
  | Some a => forall s, live h a s ->
      (lo = true -> sg_ds s <= b_start b) /\ (hi = true -> b_end b <= sg_de s)
  end.
Definition ind (b : buf) (a : nat) : nat :=
  match b_st b with Some a' => if a =? a' then 1 else 0 | None => 0 end.
Definition apart (h : heap) (b c : buf) : Prop :=
  forall a, b_st b = Some a -> b_st c = Some a -> 2 <= rc h a.

Lemma data_live h b a s : b_st b = Some a -> live h a s ->
  data h b = firstn (b_end b - b_start b) (skipn (b_start b) (sg_bytes s)).
Proof. intros H1 H2. unfold data. rewrite H1, H2. auto. Qed.
Lemma data_length h b : holds h b -> length (data h b) = b_end b - b_start b.
Proof.
  unfold holds, data. destruct (b_st b) as [a|].
  - intros [s [H1 H2]]. rewrite H1. rewrite firstn_length, skipn_length. unfold sg_cap in H2. lia.
  - intros [-> ->]. auto.
Qed.

(** The copy of the data area. *)
Lemma copy_to_data h b n : holds h b -> copy_to h b n = Done (firstn n (data h b)).
Proof.
  intros H. unfold copy_to. unfold holds in H. destruct (b_st b) as [a|] eqn:E.
  - destruct H as [s [H1 H2]]. unfold load_at. rewrite (proj2 (get_live _ _ _) H1). cbn [obind].
    rewrite (data_live h b a s E H1). unfold mem_load, sg_cap in *.
    set (d := b_end b - b_start b) in *.
    destruct (Nat.leb_spec d n).
    + destruct (Nat.leb_spec (b_start b + d) (length (sg_bytes s))); [|lia].
      rewrite firstn_firstn. rewrite Nat.min_r by lia. auto.
    + destruct (Nat.leb_spec (b_start b + n) (length (sg_bytes s))); [|lia].
      rewrite firstn_firstn. rewrite Nat.min_l by lia. auto.
  - unfold data. rewrite E. rewrite firstn_nil. auto.
Qed.

(** ** What every operation on a buffer does to the heap *)

Record trans (h : heap) (b : buf) (h' : heap) (b' : buf) : Prop := {
  t_holds : holds h' b';
  t_rc : forall a, rc h' a + ind b a = rc h a + ind b' a;
  t_pos : pos h';
  t_frame : forall c, holds h c -> apart h b c -> holds h' c /\ data h' c = data h c
}.
Definition covers (h : heap) (b : buf) (h' : heap) (b' : buf) : Prop :=
  cover h b ->
  cover h' b' /\ forall c, holds h c -> apart h b c -> cover h c -> cover h' c.

(** Replacing the dirty area. *)
Lemma put_dirty_data h a s ds de c : live h a s ->
  data (put h a (set_dirty s ds de)) c = data h c.
Proof.
  intros H. unfold data. destruct (b_st c) as [a'|]; auto. unfold put. rewrite nth_upd.
  destruct (Nat.eqb_spec a a') as [<-|Hn]; cbn [andb]; auto.
  rewrite (proj2 (Nat.ltb_lt _ _) (nth_lt _ _ _ H)). rewrite H. auto.
Qed.
Lemma put_holds h a s s' c : live h a s -> sg_cap s' = sg_cap s -> holds h c -> holds (put h a s') c.
Proof.
  intros H Hc. unfold holds. destruct (b_st c) as [a'|]; auto. intros [x [H1 H2]].
  destruct (Nat.eq_dec a a') as [<-|Hn].
  - exists s'. split; [apply put_live; eapply nth_lt; eauto|].
    rewrite Hc. rewrite (live_fun _ _ _ _ H H1). auto.
  - exists x. split; auto. apply put_other; auto.
Qed.
Lemma put_rc h a s s' x : live h a s -> sg_rc s' = sg_rc s -> rc (put h a s') x = rc h x.
Proof.
  intros H Hr. unfold rc, put. rewrite nth_upd. destruct (Nat.eqb_spec a x) as [<-|Hn]; cbn [andb]; auto.
  rewrite (proj2 (Nat.ltb_lt _ _) (nth_lt _ _ _ H)). rewrite H. auto.
Qed.
Lemma put_pos h a s : pos h -> 0 < sg_rc s -> pos (put h a s).
Proof.
  intros H Hp x s' Hl. unfold live, put in Hl. rewrite nth_upd in Hl.
  destruct ((a =? x) && (x <? length h)); [inversion Hl; subst; auto|]. eapply H; eauto.
Qed.

(** [Release] of a storage. *)
Definition dec_ref (h : heap) (a : nat) : heap :=
  match nth_error h a with
  | Some (Some s) => if sg_rc s =? 1 then upd h a None else put h a (set_rc s (sg_rc s - 1))
  | _ => h
  end.
Lemma release_ref_dec h a s : live h a s -> 0 < sg_rc s -> release_ref h a = Done (dec_ref h a).
Proof.
  intros H Hp. unfold release_ref, dec_ref. rewrite (proj2 (get_live _ _ _) H), H. cbn [obind].
  destruct (sg_rc s) as [|[|n]]; cbn; try lia; auto.
Qed.
Lemma dec_length h a : length (dec_ref h a) = length h.
Proof.
  unfold dec_ref. destruct (nth_error h a) as [[s|]|]; auto. destruct (sg_rc s =? 1); apply upd_length.
Qed.
Lemma dec_other h a x : a <> x -> nth_error (dec_ref h a) x = nth_error h x.
Proof.
  intros H. unfold dec_ref. destruct (nth_error h a) as [[s|]|]; auto.
  destruct (sg_rc s =? 1); unfold put; apply nth_upd_neq; auto.
Qed.
Lemma dec_rc h a s x : live h a s -> 0 < sg_rc s ->
  rc (dec_ref h a) x + (if x =? a then 1 else 0) = rc h x.
Proof.
  intros H Hp. destruct (Nat.eqb_spec x a) as [-> |Hn].
  - rewrite (rc_live _ _ _ H). unfold dec_ref. rewrite H. unfold rc.
    destruct (Nat.eqb_spec (sg_rc s) 1) as [E|E]; unfold put; rewrite nth_upd_eq by (eapply nth_lt; eauto); cbn; lia.
  - unfold rc. rewrite dec_other by auto. lia.
Qed.
Lemma dec_pos h a : pos h -> pos (dec_ref h a).
Proof.
  intros H x s Hl. destruct (Nat.eq_dec a x) as [<-|Hn].
  - unfold dec_ref in Hl. destruct (nth_error h a) as [[s0|]|] eqn:E.
    + specialize (H a s0 E). unfold live in Hl. destruct (Nat.eqb_spec (sg_rc s0) 1).
      * rewrite nth_upd_eq in Hl by (eapply nth_lt; eauto). discriminate.
      * unfold put in Hl. rewrite nth_upd_eq in Hl by (eapply nth_lt; eauto). inversion Hl. cbn. lia.
    + unfold live in Hl. congruence.
    + unfold live in Hl. congruence.
  - unfold live in Hl. rewrite dec_other in Hl by auto. eapply H; eauto.
Qed.
(** A storage that others use survives, with the same bytes. *)
Lemma dec_live h a s x y : live h a s -> live h x y -> (x = a -> 2 <= rc h a) ->
  exists y', live (dec_ref h a) x y' /\ sg_bytes y' = sg_bytes y /\ sg_ds y' = sg_ds y /\
    sg_de y' = sg_de y.
Proof.
  intros H Hx Hs. destruct (Nat.eq_dec x a) as [-> |Hn].
  - rewrite (live_fun _ _ _ _ Hx H). specialize (Hs eq_refl). rewrite (rc_live _ _ _ H) in Hs.
    exists (set_rc s (sg_rc s - 1)). unfold dec_ref. rewrite H.
    destruct (Nat.eqb_spec (sg_rc s) 1); [lia|]. split; [|auto]. apply put_live. eapply nth_lt; eauto.
  - exists y. split; auto. unfold live. rewrite dec_other; auto.
Qed.

(** Two heaps in which the buffers that matter look the same. *)
Lemma same_view h h' c : holds h c ->
  (forall a s, b_st c = Some a -> live h a s -> exists s', live h' a s' /\ sg_bytes s' = sg_bytes s) ->
  holds h' c /\ data h' c = data h c.
Proof.
  intros H Hv. unfold holds, data in *. destruct (b_st c) as [a|]; auto.
  destruct H as [s [H1 H2]]. destruct (Hv a s eq_refl H1) as [s' [H3 H4]].
  split.
  - exists s'. split; auto. unfold sg_cap in *. rewrite H4. auto.
  - rewrite H1, H3, H4. auto.
Qed.
Lemma same_cover h h' c : cover h c -> holds h c ->
  (forall a s, b_st c = Some a -> live h a s ->
     exists s', live h' a s' /\ sg_ds s' = sg_ds s /\ sg_de s' = sg_de s) ->
  cover h' c.
Proof.
  unfold cover, holds. destruct (b_st c) as [a|]; auto. intros H [s [H1 _]] Hv x Hx.
  destruct (Hv a s eq_refl H1) as [s' [H3 [H4 H5]]]. rewrite (live_fun _ _ _ _ Hx H3), H4, H5. auto.
Qed.

(** Heap extended by one storage. *)
Lemma live_app h n a s : live h a s -> live (h ++ [n]) a s.
Proof. unfold live. intros H. rewrite nth_error_app1; auto. eapply nth_lt; eauto. Qed.
Lemma live_new h s : live (h ++ [Some s]) (length h) s.
Proof. unfold live. rewrite nth_error_app2, Nat.sub_diag by lia. auto. Qed.
Lemma live_app_inv h n a s : live (h ++ [n]) a s -> live h a s \/ (a = length h /\ n = Some s).
Proof.
  unfold live. intros H. destruct (Nat.lt_ge_cases a (length h)).
  - left. rewrite nth_error_app1 in H; auto.
  - right. rewrite nth_error_app2 in H by auto. destruct (a - length h) as [|k] eqn:E.
    + cbn in H. split; [lia|congruence].
    + destruct k; discriminate.
Qed.
Lemma rc_app h s a : rc (h ++ [Some s]) a = if a =? length h then sg_rc s else rc h a.
Proof.
  unfold rc. destruct (Nat.eqb_spec a (length h)) as [-> |H].
  - rewrite nth_error_app2, Nat.sub_diag by lia. auto.
  - destruct (Nat.lt_ge_cases a (length h)).
    + rewrite nth_error_app1; auto.
    + rewrite nth_error_app2 by auto. rewrite (proj2 (nth_error_None h a)) by auto.
      destruct (a - length h) as [|[|k]] eqn:E; auto; lia.
Qed.
Lemma rc_big h a : length h <= a -> rc h a = 0.
Proof. intros H. unfold rc. rewrite (proj2 (nth_error_None h a)); auto. Qed.
Lemma rc_fresh h : rc h (length h) = 0.
Proof. unfold rc. rewrite (proj2 (nth_error_None h (length h))); auto. Qed.

(** Moving a buffer to a storage of its own: [h0] is the heap after letting go of
    the old one. *)
Definition let_go (h : heap) (b : buf) : heap :=
  match b_st b with Some a => dec_ref h a | None => h end.
Lemma let_go_length h b : length (let_go h b) = length h.
Proof. unfold let_go. destruct (b_st b); auto. apply dec_length. Qed.
Lemma let_go_rc h b x : holds h b -> pos h -> rc (let_go h b) x + ind b x = rc h x.
Proof.
  intros H Hp. unfold let_go, ind, holds in *. destruct (b_st b) as [a|]; [|lia].
  destruct H as [s [H _]]. eapply dec_rc; eauto.
Qed.
Lemma let_go_pos h b : pos h -> pos (let_go h b).
Proof. unfold let_go. destruct (b_st b); auto. apply dec_pos. Qed.
Lemma let_go_live h b c a s : holds h b -> apart h b c -> b_st c = Some a -> live h a s ->
  exists s', live (let_go h b) a s' /\ sg_bytes s' = sg_bytes s /\ sg_ds s' = sg_ds s /\ sg_de s' = sg_de s.
Proof.
  intros H Ha Hc Hl. unfold let_go, apart, holds in *. destruct (b_st b) as [ab|]; [|eauto].
  destruct H as [sb [H _]]. eapply dec_live; eauto. intros ->. apply Ha; auto.
Qed.

Lemma own_trans h b m ds de st en : holds h b -> pos h -> st <= en -> en <= length m ->
  trans h b (let_go h b ++ [Some (mk_storage 1 ds de m)]) (mk_buf (Some (length h)) st en).
Proof.
  intros Hb Hp Hse Hen. split.
  - unfold holds. cbn. exists (mk_storage 1 ds de m). split; [|auto].
    rewrite <- (let_go_length h b). apply live_new.
  - intros a. rewrite rc_app, let_go_length. pose proof (let_go_rc h b a Hb Hp) as Hr.
    unfold ind at 2. cbn [b_st]. destruct (Nat.eqb_spec a (length h)) as [-> |Hn]; cbn [sg_rc].
    + rewrite rc_fresh in *. lia.
    + lia.
  - intros a s Hl. apply live_app_inv in Hl. destruct Hl as [Hl|[_ E]].
    + eapply let_go_pos; eauto.
    + inversion E; cbn; lia.
  - intros c Hc Ha. apply same_view; auto. intros a s E Hl.
    destruct (let_go_live h b c a s Hb Ha E Hl) as [s' [H1 [H2 _]]].
    exists s'. split; auto. apply live_app. auto.
Qed.
Lemma own_covers h b m ds de st en : holds h b -> ds <= st -> en <= de ->
  covers h b (let_go h b ++ [Some (mk_storage 1 ds de m)]) (mk_buf (Some (length h)) st en).
Proof.
  intros Hb H1 H2 _. split.
  - unfold cover. cbn. intros s Hl. rewrite <- (let_go_length h b) in Hl.
    rewrite (live_fun _ _ _ _ Hl (live_new _ _)). auto.
  - intros c Hc Ha Hcc. eapply same_cover; eauto. intros a s E Hl.
    destruct (let_go_live h b c a s Hb Ha E Hl) as [s' [H3 [_ H4]]].
    exists s'. split; auto. apply live_app. auto.
Qed.
Lemma own_data h b m ds de st en :
  data (let_go h b ++ [Some (mk_storage 1 ds de m)]) (mk_buf (Some (length h)) st en) =
  firstn (en - st) (skipn st m).
Proof.
  rewrite (data_live _ _ (length h) (mk_storage 1 ds de m)); auto.
  rewrite <- (let_go_length h b). apply live_new.
Qed.
(** Nobody else uses the new storage. *)
Lemma own_new h b c m : holds h b -> holds h c -> b_st c <> Some (length (let_go h b ++ [m]) - 1).
Proof.
  intros Hb Hc E. rewrite app_length, let_go_length in E. cbn in E. unfold holds in Hc. rewrite E in Hc.
  destruct Hc as [s [Hl _]]. apply nth_lt in Hl. lia.
Qed.

(** ** Slices *)

Lemma firstn_skipn_app {A} (l : list A) a b : firstn (a + b) l = firstn a l ++ firstn b (skipn a l).
Proof. revert l. induction a; intros [|x l]; cbn; rewrite ?firstn_nil; auto. f_equal. auto. Qed.
Lemma skipn_skipn' {A} (l : list A) a b : skipn a (skipn b l) = skipn (b + a) l.
Proof. revert l. induction b; intros [|x l]; cbn; rewrite ?skipn_nil; auto. Qed.
Lemma store_slice (m bs : list N) off m' : mem_store m off bs = Some m' ->
  length m' = length m /\ firstn (length bs) (skipn off m') = bs /\
  (forall st n, st + n <= off \/ off + length bs <= st ->
     firstn n (skipn st m') = firstn n (skipn st m)).
Proof.
  intros H. assert (L : length m' = length m) by (eapply mem_store_length; eauto).
  unfold mem_store in H. destruct (Nat.leb_spec (off + length bs) (length m)); [|discriminate].
  inversion H; subst m'; clear H. split; auto. split.
  - rewrite skipn_app, skipn_all2 by (rewrite firstn_length; lia).
    rewrite firstn_length, Nat.min_l, Nat.sub_diag by lia. cbn [app skipn].
    rewrite firstn_app, Nat.sub_diag, firstn_all. cbn. apply app_nil_r.
  - intros st n [Hn|Hn]; apply list_ext; intros i.
    + destruct (Nat.lt_ge_cases i n) as [Hi|Hi]; [|rewrite !nth_error_firstn_ge; auto].
      rewrite !nth_error_firstn_lt, !nth_error_skipn' by auto.
      rewrite nth_error_app1 by (rewrite firstn_length; lia). apply nth_error_firstn_lt. lia.
    + destruct (Nat.lt_ge_cases i n) as [Hi|Hi]; [|rewrite !nth_error_firstn_ge; auto].
      rewrite !nth_error_firstn_lt, !nth_error_skipn' by auto.
      rewrite nth_error_app2 by (rewrite firstn_length; lia).
      rewrite nth_error_app2 by (rewrite firstn_length; lia).
      rewrite nth_error_skipn'. f_equal. rewrite firstn_length. lia.
Qed.

(** ** Growing *)

Lemma obind_done {A B} (x : A) (f : A -> outcome B) : obind (Done x) f = f x.
Proof. auto. Qed.

(** Allocation, copy of the data area and release of the old storage. *)
Lemma realloc_chain junk h b cap off : holds h b -> pos h -> 0 < cap ->
  off + (b_end b - b_start b) <= cap ->
  exists m, length m = cap /\
    firstn (b_end b - b_start b) (skipn off m) = data h b /\
    (forall n1 n2 n3 (K : outcome (heap * buf)),
      (match allocate junk h cap with
      | (_, None) => K
      | (h1, Some a') =>
          let! h2 := move_data h1 b a' off (b_end b - b_start b) in
          let! h3 := release_opt h2 (b_st b) in
          let! s := get h3 a' in
          Done (put h3 a' (set_dirty s n1 n2), mk_buf (Some a') n1 n3)
      end) = Done (let_go h b ++ [Some (mk_storage 1 n1 n2 m)], mk_buf (Some (length h)) n1 n3)).
Proof.
  intros Hb Hp Hc Ho.
  set (m0 := map (junk (length h)) (seq 0 cap)).
  assert (L0 : length m0 = cap) by (unfold m0; rewrite map_length, seq_length; auto).
  assert (EA : allocate junk h cap = (h ++ [Some (mk_storage 1 0 0 m0)], Some (length h))).
  { unfold allocate. destruct cap; [lia|]. auto. }
  rewrite EA. clear EA. clearbody m0.
  pose proof (data_length h b Hb) as DL.
  destruct (b_st b) as [a|] eqn:Eb.
  - unfold holds in Hb. rewrite Eb in Hb. destruct Hb as [s [Hl Hr]].
    pose proof (nth_lt _ _ _ Hl) as Hlt.
    assert (Hst : exists m, mem_store m0 off (data h b) = Some m) by (apply mem_store_some; lia).
    destruct Hst as [m Hst]. pose proof (store_slice _ _ _ _ Hst) as [S1 [S2 _]].
    exists m. split; [lia|]. split; [rewrite <- DL; auto|]. intros n1 n2 n3 K.
    unfold move_data. rewrite Eb. unfold load_at.
    rewrite (proj2 (get_live _ _ _) (live_app _ _ _ _ Hl)). cbn [obind].
    rewrite mem_load_some by (unfold sg_cap in *; lia). cbn [obind].
    rewrite <- (data_live h b a s Eb Hl). unfold store_at.
    rewrite (proj2 (get_live _ _ _) (live_new _ _)). cbn [obind sg_bytes]. rewrite Hst. cbn [obind].
    unfold put at 1. rewrite upd_last. cbn [release_opt].
    assert (Hl2 : live (h ++ [Some (set_bytes (mk_storage 1 0 0 m0) m)]) a s) by (apply live_app; auto).
    rewrite (release_ref_dec _ _ _ Hl2 (Hp _ _ Hl)). cbn [obind].
    assert (ED : dec_ref (h ++ [Some (set_bytes (mk_storage 1 0 0 m0) m)]) a =
                 let_go h b ++ [Some (mk_storage 1 0 0 m)]).
    { unfold let_go. rewrite Eb. unfold dec_ref. rewrite Hl2, Hl. unfold put.
      destruct (sg_rc s =? 1); rewrite upd_app by auto; auto. }
    rewrite ED. rewrite <- (let_go_length h b).
    rewrite (proj2 (get_live _ _ _) (live_new _ _)). cbn [obind].
    unfold put. rewrite upd_last. auto.
  - unfold holds in Hb. rewrite Eb in Hb. destruct Hb as [E1 E2].
    exists m0. split; auto. split; [unfold data; rewrite Eb, E1, E2; auto|].
    intros n1 n2 n3 K. unfold move_data. rewrite Eb. cbn [obind release_opt].
    rewrite (proj2 (get_live _ _ _) (live_new _ _)). cbn [obind].
    unfold put. rewrite upd_last. unfold let_go. rewrite Eb. auto.
Qed.

(** What growing at the start promises: the old bytes follow [n] new ones, and the
    new ones are in nobody's data area as long as the dirty area covers them. *)
Record grown_start (n : nat) (h : heap) (b : buf) (h' : heap) (b' : buf) : Prop := {
  gs_trans : trans h b h' b';
  gs_covers : covers h b h' b';
  gs_data : exists x, length x = n /\ data h' b' = x ++ data h b;
  gs_fresh : lo = true -> 0 < n -> forall c, holds h c -> apart h b c -> cover h c ->
     b_st c = b_st b' -> b_st b' <> None -> b_start b' + n <= b_start c
}.
Record grown_end (n : nat) (h : heap) (b : buf) (h' : heap) (b' : buf) : Prop := {
  ge_trans : trans h b h' b';
  ge_covers : covers h b h' b';
  ge_data : exists x, length x = n /\ data h' b' = data h b ++ x;
  ge_fresh : hi = true -> 0 < n -> forall c, holds h c -> apart h b c -> cover h c ->
     b_st c = b_st b' -> b_st b' <> None -> b_end c + n <= b_end b'
}.

Lemma trans_refl h b : holds h b -> pos h -> trans h b h b.
Proof. intros H1 H2. split; auto. Qed.
Lemma covers_refl h b : covers h b h b.
Proof. intros H. split; auto. Qed.

Lemma start_realloc_ok junk size cap newStart h b : holds h b -> pos h -> 0 < size ->
  newStart + size + (b_end b - b_start b) <= cap ->
  exists h' b', start_realloc junk size cap newStart (b_end b - b_start b) h b = Done (h', b') /\
    grown_start size h b h' b' .
Proof.
  intros Hb Hp Hs Hc.
  assert (Hse : b_start b <= b_end b).
  { unfold holds in Hb. destruct (b_st b); [destruct Hb as [? Hb]; lia|lia]. }
  destruct (realloc_chain junk h b cap (newStart + size) Hb Hp ltac:(lia) ltac:(lia)) as [m [Lm [Dm Hch]]].
  eexists _, _. split.
  - unfold start_realloc. apply Hch.
  - assert (En : b_end b + (newStart + size) - b_start b = newStart + size + (b_end b - b_start b)) by lia.
    rewrite En. split.
    + apply own_trans; auto; lia.
    + apply own_covers; auto.
    + exists (firstn size (skipn newStart m)). split.
      * rewrite firstn_length, skipn_length. lia.
      * rewrite own_data.
        replace (newStart + size + (b_end b - b_start b) - newStart) with (size + (b_end b - b_start b)) by lia.
        rewrite firstn_skipn_app. f_equal. rewrite skipn_skipn'. auto.
    + intros _ _ c Hc' _ _ E _. exfalso. cbn in E. unfold holds in Hc'. rewrite E in Hc'.
      destruct Hc' as [x [Hx _]]. apply nth_lt in Hx. lia.
Qed.

Lemma end_realloc_ok junk size cap newStart h b : holds h b -> pos h -> 0 < size ->
  newStart + size + (b_end b - b_start b) <= cap ->
  exists h' b', end_realloc junk size cap newStart (b_end b - b_start b) h b = Done (h', b') /\
    grown_end size h b h' b'.
Proof.
  intros Hb Hp Hs Hc.
  assert (Hse : b_start b <= b_end b).
  { unfold holds in Hb. destruct (b_st b); [destruct Hb as [? Hb]; lia|lia]. }
  destruct (realloc_chain junk h b cap newStart Hb Hp ltac:(lia) ltac:(lia)) as [m [Lm [Dm Hch]]].
  eexists _, _. split.
  - unfold end_realloc. apply Hch.
  - assert (En : b_end b + newStart + size - b_start b = newStart + (b_end b - b_start b) + size) by lia.
    rewrite En. split.
    + apply own_trans; auto; lia.
    + apply own_covers; auto.
    + exists (firstn size (skipn (newStart + (b_end b - b_start b)) m)). split.
      * rewrite firstn_length, skipn_length. lia.
      * rewrite own_data.
        replace (newStart + (b_end b - b_start b) + size - newStart) with ((b_end b - b_start b) + size) by lia.
        rewrite firstn_skipn_app. f_equal; [auto|]. rewrite skipn_skipn'. auto.
    + intros _ _ c Hc' _ _ E _. exfalso. cbn in E. unfold holds in Hc'. rewrite E in Hc'.
      destruct Hc' as [x [Hx _]]. apply nth_lt in Hx. lia.
Qed.

(** Growing in place. *)
Lemma adjust_trans h b a s ds de st en : holds h b -> pos h -> b_st b = Some a -> live h a s ->
  st <= en -> en <= sg_cap s ->
  trans h b (put h a (set_dirty s ds de)) (mk_buf (Some a) st en).
Proof.
  intros Hb Hp Ea Hl H1 H2. split.
  - unfold holds. cbn. exists (set_dirty s ds de). split; [apply put_live; eapply nth_lt; eauto|]. auto.
  - intros x. rewrite (put_rc h a s) by auto. unfold ind. rewrite Ea. cbn. auto.
  - apply put_pos; auto. apply (Hp _ _ Hl).
  - intros c Hc _. split; [apply (put_holds h a s); auto|apply put_dirty_data; auto].
Qed.
Lemma adjust_covers h b a s ds de st en : b_st b = Some a -> live h a s ->
  (rc h a = 1 \/ (cover h b -> ds <= sg_ds s /\ sg_de s <= de)) ->
  (cover h b -> (lo = true -> ds <= st) /\ (hi = true -> en <= de)) ->
  covers h b (put h a (set_dirty s ds de)) (mk_buf (Some a) st en).
Proof.
  intros Ea Hl H1 H2 Hcb. specialize (H2 Hcb). split.
  - unfold cover. cbn. intros x Hx.
    rewrite (live_fun _ _ _ _ Hx (put_live h a _ (nth_lt _ _ _ Hl))). auto.
  - intros c Hc Ha Hcc. unfold cover in *. destruct (b_st c) as [ac|] eqn:Ec; auto.
    intros x Hx. destruct (Nat.eq_dec a ac) as [<-|Hn].
    + rewrite (live_fun _ _ _ _ Hx (put_live h a _ (nth_lt _ _ _ Hl))). cbn.
      specialize (Hcc _ Hl). destruct H1 as [H1|H1].
      * specialize (Ha a Ea Ec). lia.
      * specialize (H1 Hcb). intuition lia.
    + apply put_other in Hx; auto.
Qed.

Lemma holds_le h b : holds h b -> b_start b <= b_end b.
Proof. unfold holds. destruct (b_st b); [intros [? H]; lia|lia]. Qed.

(** The bytes of the storage after moving the data area inside it. *)
Lemma move_chain h b a s off n1 n2 n3 : holds h b -> b_st b = Some a -> live h a s ->
  off + (b_end b - b_start b) <= sg_cap s ->
  exists m, length m = sg_cap s /\
    firstn (b_end b - b_start b) (skipn off m) = data h b /\
    (let! bs := load_at h a (b_start b) (b_end b - b_start b) in
     let! h1 := store_at h a off bs in
     let! s1 := get h1 a in
     Done (put h1 a (set_dirty s1 n1 n2), mk_buf (Some a) n1 n3)) =
    Done (put h a (mk_storage (sg_rc s) n1 n2 m), mk_buf (Some a) n1 n3).
Proof.
  intros Hb Ea Hl Ho. pose proof (data_length h b Hb) as DL.
  unfold holds in Hb. rewrite Ea in Hb. destruct Hb as [s' [Hl' Hr]].
  rewrite (live_fun _ _ _ _ Hl' Hl) in *. clear s' Hl'.
  assert (Hst : exists m, mem_store (sg_bytes s) off (data h b) = Some m)
    by (apply mem_store_some; unfold sg_cap in *; lia).
  destruct Hst as [m Hst]. pose proof (store_slice _ _ _ _ Hst) as [S1 [S2 _]].
  exists m. split; auto. split; [rewrite <- DL; auto|].
  unfold load_at. rewrite (proj2 (get_live _ _ _) Hl). cbn [obind].
  rewrite mem_load_some by (unfold sg_cap in *; lia). cbn [obind].
  rewrite <- (data_live h b a s Ea Hl). unfold store_at.
  rewrite (proj2 (get_live _ _ _) Hl). cbn [obind]. rewrite Hst. cbn [obind].
  rewrite (proj2 (get_live _ _ _) (put_live h a _ (nth_lt _ _ _ Hl))). cbn [obind].
  unfold put. f_equal. f_equal. apply list_ext. intros i. rewrite !nth_upd, upd_length.
  destruct ((a =? i) && (i <? length h)); reflexivity.
Qed.

Lemma move_trans h b a s n1 n2 m st en : holds h b -> pos h -> b_st b = Some a -> live h a s ->
  sg_rc s = 1 -> st <= en -> en <= length m -> length m = sg_cap s ->
  trans h b (put h a (mk_storage (sg_rc s) n1 n2 m)) (mk_buf (Some a) st en).
Proof.
  intros Hb Hp Ea Hl H1 H2 H3 H4. split.
  - unfold holds. cbn. eexists. split; [apply put_live; eapply nth_lt; eauto|]. auto.
  - intros x. rewrite (put_rc h a s) by auto. unfold ind. rewrite Ea. cbn. auto.
  - apply put_pos; auto. cbn. lia.
  - intros c Hc Ha. apply same_view; auto. intros x y Ex Hx.
    assert (x <> a).
    { intros ->. specialize (Ha a Ea Ex). rewrite (rc_live _ _ _ Hl) in Ha. lia. }
    exists y. split; auto. apply put_other; auto.
Qed.
Lemma move_covers h b a s n1 n2 m st en : b_st b = Some a -> live h a s -> sg_rc s = 1 ->
  n1 <= st -> en <= n2 ->
  covers h b (put h a (mk_storage (sg_rc s) n1 n2 m)) (mk_buf (Some a) st en).
Proof.
  intros Ea Hl H1 H2 H3 _. split.
  - unfold cover. cbn. intros x Hx.
    rewrite (live_fun _ _ _ _ Hx (put_live h a _ (nth_lt _ _ _ Hl))). auto.
  - intros c Hc Ha Hcc. eapply same_cover; eauto. intros x y Ex Hx.
    assert (x <> a).
    { intros ->. specialize (Ha a Ea Ex). rewrite (rc_live _ _ _ Hl) in Ha. lia. }
    exists y. split; auto. apply put_other; auto.
Qed.

Lemma start_adjust_ok size h b a s : holds h b -> pos h -> b_st b = Some a -> live h a s ->
  size <= b_start b -> (sg_rc s = 1 \/ sg_ds s = b_start b) ->
  exists h' b', start_adjust size a h b = Done (h', b') /\ grown_start size h b h' b'.
Proof.
  intros Hb Hp Ea Hl Hs Hor. pose proof (holds_le _ _ Hb) as Hle.
  assert (Hcap : b_end b <= sg_cap s).
  { unfold holds in Hb. rewrite Ea in Hb. destruct Hb as [x [Hx Hr]]. rewrite (live_fun _ _ _ _ Hx Hl) in Hr. lia. }
  unfold start_adjust. rewrite (proj2 (get_live _ _ _) Hl). cbn [obind].
  eexists _, _. split; [reflexivity|]. split.
  - apply adjust_trans; auto; lia.
  - apply adjust_covers; auto.
    + destruct Hor as [H|H]; [left; rewrite (rc_live _ _ _ Hl); auto|right; intros _; lia].
    + intros Hc. unfold cover in Hc. rewrite Ea in Hc. specialize (Hc _ Hl). intuition lia.
  - exists (firstn size (skipn (b_start b - size) (sg_bytes s))). split.
    + rewrite firstn_length, skipn_length. unfold sg_cap in *. lia.
    + rewrite put_dirty_data by auto. rewrite !(data_live _ _ a s) by auto. cbn [b_start b_end].
      replace (b_end b - (b_start b - size)) with (size + (b_end b - b_start b)) by lia.
      rewrite firstn_skipn_app. f_equal. rewrite skipn_skipn'.
      replace (b_start b - size + size) with (b_start b) by lia. auto.
  - intros Hside _ c Hc Ha Hcc E _. cbn in *. specialize (Ha a Ea E). rewrite (rc_live _ _ _ Hl) in Ha.
    unfold cover in Hcc. rewrite E in Hcc. specialize (Hcc _ Hl). intuition lia.
Qed.

Lemma start_move_ok size h b a s : holds h b -> pos h -> b_st b = Some a -> live h a s ->
  sg_rc s = 1 -> (b_end b - b_start b) + size <= sg_cap s ->
  exists h' b', start_move size (b_end b - b_start b) a h b = Done (h', b') /\ grown_start size h b h' b'.
Proof.
  intros Hb Hp Ea Hl Hr Hc. pose proof (holds_le _ _ Hb) as Hle.
  destruct (move_chain h b a s size 0 (size + (b_end b - b_start b)) (b_end b + size - b_start b)
              Hb Ea Hl ltac:(lia)) as [m [Lm [Dm E]]].
  eexists _, _. split; [unfold start_move; exact E|].
  replace (b_end b + size - b_start b) with (size + (b_end b - b_start b)) by lia. split.
  - apply move_trans; auto; lia.
  - apply move_covers; auto; lia.
  - exists (firstn size m). split; [rewrite firstn_length; lia|].
    erewrite data_live; [|reflexivity|apply put_live; eapply nth_lt; eauto]. cbn [b_start b_end sg_bytes].
    rewrite Nat.sub_0_r. cbn [skipn]. rewrite firstn_skipn_app. f_equal. auto.
  - intros _ _ c Hc' Ha Hcc E' _. cbn in *. specialize (Ha a Ea E'). rewrite (rc_live _ _ _ Hl) in Ha. lia.
Qed.

Lemma add_at_start_ok junk size h b : holds h b -> pos h ->
  exists h' b', add_at_start junk size h b = Done (h', b') /\ grown_start size h b h' b'.
Proof.
  intros Hb Hp. unfold add_at_start. destruct (Nat.eqb_spec size 0) as [-> |Hs].
  { exists h, b. split; auto. split; auto using trans_refl, covers_refl.
    - exists []. auto.
    - intros _ ?. lia. }
  pose proof Hb as Hb'. unfold holds in Hb'. destruct (b_st b) as [a|] eqn:Ea.
  - destruct Hb' as [s [Hl [H1 H2]]]. rewrite (proj2 (get_live _ _ _) Hl). cbn [obind].
    destruct (Nat.eqb_spec (sg_rc s) 1) as [Hr|Hr].
    + destruct (Nat.leb_spec size (b_start b)); [eapply start_adjust_ok; eauto|].
      destruct (Nat.leb_spec (b_end b - b_start b + size) (sg_cap s)); [eapply start_move_ok; eauto|].
      apply start_realloc_ok; auto; lia.
    + destruct (Nat.eqb_spec (sg_ds s) (b_start b)) as [Hd|Hd].
      * destruct (Nat.leb_spec size (b_start b)); [eapply start_adjust_ok; eauto|].
        apply start_realloc_ok; auto; lia.
      * destruct (Nat.leb_spec size (b_start b)); apply start_realloc_ok; auto; lia.
  - apply start_realloc_ok; auto; lia.
Qed.

Lemma end_adjust_ok size h b a s : holds h b -> pos h -> b_st b = Some a -> live h a s ->
  b_end b + size <= sg_cap s -> (sg_rc s = 1 \/ sg_de s = b_end b) ->
  exists h' b', end_adjust size (b_end b - b_start b) a h b = Done (h', b') /\ grown_end size h b h' b'.
Proof.
  intros Hb Hp Ea Hl Hs Hor. pose proof (holds_le _ _ Hb) as Hle.
  unfold end_adjust. rewrite (proj2 (get_live _ _ _) Hl). cbn [obind].
  replace (b_start b + (b_end b - b_start b) + size) with (b_end b + size) by lia.
  eexists _, _. split; [reflexivity|]. split.
  - apply adjust_trans; auto; lia.
  - apply adjust_covers; auto.
    + destruct Hor as [H|H]; [left; rewrite (rc_live _ _ _ Hl); auto|right; intros _; lia].
    + intros Hc. unfold cover in Hc. rewrite Ea in Hc. specialize (Hc _ Hl). intuition lia.
  - exists (firstn size (skipn (b_end b) (sg_bytes s))). split.
    + rewrite firstn_length, skipn_length. unfold sg_cap in *. lia.
    + rewrite put_dirty_data by auto. rewrite !(data_live _ _ a s) by auto. cbn [b_start b_end].
      replace (b_end b + size - b_start b) with ((b_end b - b_start b) + size) by lia.
      rewrite firstn_skipn_app. f_equal. rewrite skipn_skipn'.
      replace (b_start b + (b_end b - b_start b)) with (b_end b) by lia. auto.
  - intros Hside _ c Hc Ha Hcc E _. cbn in *. specialize (Ha a Ea E). rewrite (rc_live _ _ _ Hl) in Ha.
    unfold cover in Hcc. rewrite E in Hcc. specialize (Hcc _ Hl). intuition lia.
Qed.

Lemma end_move_ok size h b a s : holds h b -> pos h -> b_st b = Some a -> live h a s ->
  sg_rc s = 1 -> (b_end b - b_start b) + size <= sg_cap s ->
  exists h' b', end_move size (b_end b - b_start b) a h b = Done (h', b') /\ grown_end size h b h' b'.
Proof.
  intros Hb Hp Ea Hl Hr Hc. pose proof (holds_le _ _ Hb) as Hle.
  set (ns := sg_cap s - (b_end b - b_start b + size)).
  destruct (move_chain h b a s ns ns (sg_cap s) (b_end b + ns + size - b_start b)
              Hb Ea Hl ltac:(lia)) as [m [Lm [Dm E]]].
  eexists _, _. split.
  { unfold end_move. rewrite (proj2 (get_live _ _ _) Hl). cbn [obind]. fold ns.
    rewrite <- E. unfold load_at, store_at. rewrite (proj2 (get_live _ _ _) Hl). cbn [obind].
    destruct (mem_load (sg_bytes s) (b_start b) (b_end b - b_start b)) as [bs|]; cbn [obind]; auto.
    destruct (mem_store (sg_bytes s) ns bs) as [m'|] eqn:Em; cbn [obind]; auto.
    rewrite (proj2 (get_live _ _ _) (put_live h a _ (nth_lt _ _ _ Hl))). cbn [obind].
    assert (Ec : sg_cap (set_bytes s m') = sg_cap s).
    { unfold sg_cap. cbn. eapply mem_store_length; eauto. }
    rewrite Ec. auto. }
  replace (b_end b + ns + size - b_start b) with (ns + (b_end b - b_start b + size)) by lia. split.
  - apply move_trans; auto; lia.
  - apply move_covers; auto; lia.
  - exists (firstn size (skipn (ns + (b_end b - b_start b)) m)).
    split; [rewrite firstn_length, skipn_length; lia|].
    erewrite data_live; [|reflexivity|apply put_live; eapply nth_lt; eauto]. cbn [b_start b_end sg_bytes].
    replace (ns + (b_end b - b_start b + size) - ns) with (b_end b - b_start b + size) by lia.
    rewrite firstn_skipn_app, skipn_skipn'. f_equal. auto.
  - intros _ _ c Hc' Ha Hcc E' _. cbn in *. specialize (Ha a Ea E'). rewrite (rc_live _ _ _ Hl) in Ha. lia.
Qed.

Lemma add_at_end_ok junk size h b : holds h b -> pos h ->
  exists h' b', add_at_end junk size h b = Done (h', b') /\ grown_end size h b h' b'.
Proof.
  intros Hb Hp. unfold add_at_end. destruct (Nat.eqb_spec size 0) as [-> |Hs].
  { exists h, b. split; auto. split; auto using trans_refl, covers_refl.
    - exists []. rewrite app_nil_r. auto.
    - intros _ ?. lia. }
  pose proof Hb as Hb'. unfold holds in Hb'. destruct (b_st b) as [a|] eqn:Ea.
  - destruct Hb' as [s [Hl [H1 H2]]]. rewrite (proj2 (get_live _ _ _) Hl). cbn [obind].
    replace (b_start b + (b_end b - b_start b)) with (b_end b) by lia.
    destruct (Nat.eqb_spec (sg_rc s) 1) as [Hr|Hr].
    + destruct (Nat.leb_spec size (sg_cap s - b_end b)); [eapply end_adjust_ok; eauto; lia|].
      destruct (Nat.leb_spec (b_end b - b_start b + size) (sg_cap s)); [eapply end_move_ok; eauto|].
      apply end_realloc_ok; auto; lia.
    + destruct (Nat.eqb_spec (sg_de s) (b_end b)) as [Hd|Hd].
      * destruct (Nat.leb_spec size (sg_cap s - b_end b)); [eapply end_adjust_ok; eauto; lia|].
        apply end_realloc_ok; auto; lia.
      * destruct (Nat.leb_spec size (sg_cap s - b_end b)); apply end_realloc_ok; auto; lia.
  - apply end_realloc_ok; auto; lia.
Qed.

(** ** Writing *)

(** What holds of every operation, also those that write bytes. *)
Record moved (h : heap) (b : buf) (h' : heap) (b' : buf) : Prop := {
  m_holds : holds h' b';
  m_rc : forall a, rc h' a + ind b a = rc h a + ind b' a;
  m_pos : pos h';
  m_frame : forall c, holds h c -> apart h b c -> holds h' c
}.
Definition keeps (h : heap) (b : buf) (h' : heap) : Prop :=
  forall c, holds h c -> apart h b c -> data h' c = data h c.
Definition keeps_covered (h : heap) (b : buf) (h' : heap) : Prop :=
  forall c, holds h c -> apart h b c -> cover h c -> data h' c = data h c.

Lemma trans_moved h b h' b' : trans h b h' b' -> moved h b h' b'.
Proof. intros T. split; apply T. Qed.
Lemma trans_keeps h b h' b' : trans h b h' b' -> keeps h b h'.
Proof. intros T c H1 H2. apply (t_frame _ _ _ _ T c H1 H2). Qed.
Lemma keeps_weaken h b h' : keeps h b h' -> keeps_covered h b h'.
Proof. intros H c H1 H2 _. auto. Qed.

Lemma write_ok h b off bs : holds h b -> off + length bs <= b_end b - b_start b -> bs <> [] ->
  exists a s m, b_st b = Some a /\ live h a s /\ length m = sg_cap s /\
    write_data h b off bs = Done (put h a (set_bytes s m)) /\
    data (put h a (set_bytes s m)) b =
      firstn off (data h b) ++ bs ++ skipn (off + length bs) (data h b) /\
    forall c, (b_st c = Some a -> b_start b + off + length bs <= b_start c \/ b_end c <= b_start b + off) ->
      data (put h a (set_bytes s m)) c = data h c.
Proof.
  intros Hb Hlen Hne. pose proof Hb as Hb'. unfold holds in Hb'.
  destruct (b_st b) as [a|] eqn:Ea.
  2: { exfalso. destruct bs; [auto|]. cbn in Hlen. lia. }
  destruct Hb' as [s [Hl [H1 H2]]]. exists a, s.
  destruct (mem_store_some (sg_bytes s) (b_start b + off) bs) as [m Hm]; [unfold sg_cap in *; lia|].
  pose proof (store_slice _ _ _ _ Hm) as [S1 [S2 S3]].
  exists m. split; auto. split; auto. split; auto. split.
  { unfold write_data. rewrite Ea. unfold store_at. rewrite (proj2 (get_live _ _ _) Hl). cbn [obind].
    rewrite Hm. auto. }
  assert (Hpl : live (put h a (set_bytes s m)) a (set_bytes s m)) by (apply put_live; eapply nth_lt; eauto).
  split.
  - rewrite (data_live _ b a _ Ea Hpl), (data_live h b a s Ea Hl). cbn [sg_bytes set_bytes].
    set (d := b_end b - b_start b) in *.
    replace d with (off + (length bs + (d - off - length bs))) at 1 by lia.
    rewrite firstn_skipn_app. f_equal.
    + rewrite S3 by lia. rewrite firstn_firstn, Nat.min_l by lia. auto.
    + rewrite firstn_skipn_app. f_equal.
      * rewrite skipn_skipn'. apply S2.
      * rewrite !skipn_skipn'. rewrite S3 by lia.
        rewrite skipn_firstn_comm, skipn_skipn'. rewrite !Nat.add_assoc, Nat.sub_add_distr. auto.
  - intros c Hc. unfold data. destruct (b_st c) as [x|] eqn:Ec; auto.
    destruct (Nat.eq_dec x a) as [-> |Hn].
    + rewrite Hpl, Hl. cbn [sg_bytes set_bytes]. destruct (Hc eq_refl) as [Hd|Hd].
      * apply S3. lia.
      * destruct (Nat.le_gt_cases (b_start c) (b_end c)); [apply S3; lia|].
        replace (b_end c - b_start c) with 0 by lia. auto.
    + unfold put. rewrite nth_upd_neq by auto. auto.
Qed.

Lemma write_moved h b a s m : holds h b -> pos h -> live h a s -> length m = sg_cap s ->
  moved h b (put h a (set_bytes s m)) b.
Proof.
  intros Hb Hp Hl Hm. split.
  - apply (put_holds h a s); auto.
  - intros x. rewrite (put_rc h a s) by auto. lia.
  - apply put_pos; auto. apply (Hp _ _ Hl).
  - intros c Hc _. apply (put_holds h a s); auto.
Qed.
Lemma write_cover h a s m c : live h a s -> cover h c -> cover (put h a (set_bytes s m)) c.
Proof.
  intros Hl. unfold cover. destruct (b_st c) as [x|]; auto. intros H y Hy.
  destruct (Nat.eq_dec x a) as [-> |Hn].
  - rewrite (live_fun _ _ _ _ Hy (put_live h a _ (nth_lt _ _ _ Hl))). cbn. auto.
  - apply put_other in Hy; auto.
Qed.

Lemma moved_trans h b h1 b1 h2 b2 : moved h b h1 b1 -> moved h1 b1 h2 b2 ->
  (forall c, holds h c -> apart h b c -> apart h1 b1 c) -> moved h b h2 b2.
Proof.
  intros M1 M2 Ha. split; try apply M2.
  - intros a. pose proof (m_rc _ _ _ _ M1 a). pose proof (m_rc _ _ _ _ M2 a). lia.
  - intros c Hc Hap. apply (m_frame _ _ _ _ M2); auto. apply (m_frame _ _ _ _ M1); auto.
Qed.
(** A buffer that is apart stays apart. *)
Lemma moved_apart h b h1 b1 c : moved h b h1 b1 -> holds h c -> apart h b c ->
  (forall a, b_st c = Some a -> b_st b = Some a \/ b_st b1 <> Some a) -> apart h1 b1 c.
Proof.
  intros M Hc Ha Hx a E1 E2. destruct (Hx a E2) as [Eb|Eb]; [|congruence].
  specialize (Ha a Eb E2). pose proof (m_rc _ _ _ _ M a) as Hr. unfold ind in Hr.
  rewrite Eb, E1, Nat.eqb_refl in Hr. lia.
Qed.

(** Growing and filling the new bytes. *)
Definition grown_from (b b1 : buf) (h : heap) : Prop :=
  forall c a, holds h c -> b_st c = Some a -> b_st b = Some a \/ b_st b1 <> Some a.

Lemma start_from junk size h b h' b' : holds h b -> add_at_start junk size h b = Done (h', b') ->
  b_st b' = b_st b \/ b_st b' = Some (length h).
Proof.
  intros Hb. unfold add_at_start. destruct (size =? 0); [intros [= <- <-]; auto|].
  assert (HR : forall cap ns d, start_realloc junk size cap ns d h b = Done (h', b') ->
            b_st b' = Some (length h)).
  { intros cap ns d. unfold start_realloc, allocate. destruct cap; [discriminate|].
    destruct (move_data _ b _ _ _) as [h2| | |]; cbn [obind]; try discriminate.
    destruct (release_opt h2 (b_st b)) as [h3| | |]; cbn [obind]; try discriminate.
    destruct (get h3 (length h)) as [s| | |]; cbn [obind]; try discriminate.
    intros [= <- <-]. auto. }
  destruct (b_st b) as [a|] eqn:Ea; [|intros H; right; eauto].
  destruct (get h a) as [s| | |] eqn:Eg; cbn [obind]; try discriminate.
  assert (HA : start_adjust size a h b = Done (h', b') -> b_st b' = Some a).
  { unfold start_adjust. rewrite Eg. cbn [obind]. intros [= <- <-]. auto. }
  assert (HM : forall d, start_move size d a h b = Done (h', b') -> b_st b' = Some a).
  { intros d. unfold start_move. destruct (load_at _ _ _ _); cbn [obind]; try discriminate.
    destruct (store_at _ _ _ _) as [h1| | |]; cbn [obind]; try discriminate.
    destruct (get h1 a); cbn [obind]; try discriminate. intros [= <- <-]. auto. }
  destruct (sg_rc s =? 1); [|destruct (sg_ds s =? b_start b)]; destruct (size <=? b_start b);
    try destruct (_ <=? sg_cap s); intros H; eauto.
Qed.
Lemma end_from junk size h b h' b' : holds h b -> add_at_end junk size h b = Done (h', b') ->
  b_st b' = b_st b \/ b_st b' = Some (length h).
Proof.
  intros Hb. unfold add_at_end. destruct (size =? 0); [intros [= <- <-]; auto|].
  assert (HR : forall cap ns d, end_realloc junk size cap ns d h b = Done (h', b') ->
            b_st b' = Some (length h)).
  { intros cap ns d. unfold end_realloc, allocate. destruct cap; [discriminate|].
    destruct (move_data _ b _ _ _) as [h2| | |]; cbn [obind]; try discriminate.
    destruct (release_opt h2 (b_st b)) as [h3| | |]; cbn [obind]; try discriminate.
    destruct (get h3 (length h)) as [s| | |]; cbn [obind]; try discriminate.
    intros [= <- <-]. auto. }
  destruct (b_st b) as [a|] eqn:Ea; [|intros H; right; eauto].
  destruct (get h a) as [s| | |] eqn:Eg; cbn [obind]; try discriminate.
  assert (HA : forall d, end_adjust size d a h b = Done (h', b') -> b_st b' = Some a).
  { intros d. unfold end_adjust. rewrite Eg. cbn [obind]. intros [= <- <-]. auto. }
  assert (HM : forall d, end_move size d a h b = Done (h', b') -> b_st b' = Some a).
  { intros d. unfold end_move. rewrite Eg. cbn [obind].
    destruct (load_at _ _ _ _); cbn [obind]; try discriminate.
    destruct (store_at _ _ _ _) as [h1| | |]; cbn [obind]; try discriminate.
    destruct (get h1 a); cbn [obind]; try discriminate. intros [= <- <-]. auto. }
  destruct (sg_rc s =? 1); [|destruct (sg_de s =? _)]; destruct (size <=? _);
    try destruct (_ <=? sg_cap s); intros H; eauto.
Qed.
Lemma from_apart h b b' : (b_st b' = b_st b \/ b_st b' = Some (length h)) -> grown_from b b' h.
Proof.
  intros H c a Hc E. destruct H as [H|H]; rewrite H.
  - destruct (b_st b) as [x|]; [|right; congruence].
    destruct (Nat.eq_dec x a) as [-> |Hn]; [left; auto|right; congruence].
  - right. intros [= <-]. unfold holds in Hc. rewrite E in Hc. destruct Hc as [s [Hl _]].
    apply nth_lt in Hl. lia.
Qed.

(** Filling the first or the last [length bs] bytes after growing. *)
Lemma fill_start bs h b h1 b1 : grown_start (length bs) h b h1 b1 -> grown_from b b1 h -> bs <> [] ->
  exists h2, write_data h1 b1 0 bs = Done h2 /\ moved h b h2 b1 /\ covers h b h2 b1 /\
    data h2 b1 = bs ++ data h b /\ (lo = true -> keeps_covered h b h2).
Proof.
  intros G F Hne. destruct (gs_data _ _ _ _ _ G) as [x [Lx Dx]].
  pose proof (gs_trans _ _ _ _ _ G) as T.
  pose proof (data_length _ _ (t_holds _ _ _ _ T)) as DL. rewrite Dx, app_length in DL.
  destruct (write_ok h1 b1 0 bs (t_holds _ _ _ _ T) ltac:(lia) Hne) as [a [s [m [Ea [Hl [Lm [W [D K]]]]]]]].
  exists (put h1 a (set_bytes s m)). split; auto. split.
  { eapply moved_trans; [apply trans_moved; eauto| |].
    - apply write_moved; auto; apply T.
    - intros c Hc Ha. eapply moved_apart; eauto. apply trans_moved; auto. }
  split.
  { intros Hcb. destruct (gs_covers _ _ _ _ _ G Hcb) as [C1 C2]. split.
    - apply write_cover; auto.
    - intros c H1 H2 H3. apply write_cover; auto. }
  split.
  { rewrite D, Dx. cbn [firstn app Nat.add]. f_equal. rewrite skipn_app.
    rewrite skipn_all2 by lia. rewrite Lx, Nat.sub_diag. auto. }
  intros Hside c H1 H2 H3. rewrite K.
  - apply (t_frame _ _ _ _ T); auto.
  - intros Ec. left. rewrite Nat.add_0_r. apply (gs_fresh _ _ _ _ _ G); auto.
    + destruct bs; [congruence|cbn; lia].
    + congruence.
    + congruence.
Qed.
Lemma fill_end bs h b h1 b1 : grown_end (length bs) h b h1 b1 -> grown_from b b1 h -> bs <> [] ->
  exists h2, write_data h1 b1 (b_end b1 - b_start b1 - length bs) bs = Done h2 /\
    moved h b h2 b1 /\ covers h b h2 b1 /\
    data h2 b1 = data h b ++ bs /\ (hi = true -> keeps_covered h b h2).
Proof.
  intros G F Hne. destruct (ge_data _ _ _ _ _ G) as [x [Lx Dx]].
  pose proof (ge_trans _ _ _ _ _ G) as T.
  pose proof (data_length _ _ (t_holds _ _ _ _ T)) as DL. rewrite Dx, app_length in DL.
  destruct (write_ok h1 b1 (b_end b1 - b_start b1 - length bs) bs (t_holds _ _ _ _ T) ltac:(lia) Hne)
    as [a [s [m [Ea [Hl [Lm [W [D K]]]]]]]].
  exists (put h1 a (set_bytes s m)). split; auto. split.
  { eapply moved_trans; [apply trans_moved; eauto| |].
    - apply write_moved; auto; apply T.
    - intros c Hc Ha. eapply moved_apart; eauto. apply trans_moved; auto. }
  split.
  { intros Hcb. destruct (ge_covers _ _ _ _ _ G Hcb) as [C1 C2]. split.
    - apply write_cover; auto.
    - intros c H1 H2 H3. apply write_cover; auto. }
  split.
  { rewrite D, Dx. rewrite <- DL, Lx. replace (length (data h b) + length bs - length bs) with (length (data h b)) by lia.
    rewrite firstn_app, firstn_all, Nat.sub_diag. cbn [firstn]. rewrite app_nil_r. f_equal.
    rewrite skipn_all2 by (rewrite app_length; lia). apply app_nil_r. }
  intros Hside c H1 H2 H3. rewrite K.
  - apply (t_frame _ _ _ _ T); auto.
  - intros Ec. right.
    assert (Hb : b_end c + length bs <= b_end b1).
    { apply (ge_fresh _ _ _ _ _ G); auto.
      - destruct bs; [congruence|cbn; lia].
      - congruence.
      - congruence. }
    pose proof (holds_le _ _ (t_holds _ _ _ _ T)). lia.
Qed.

(** ** All operations on one buffer *)

(** Result of an operation that makes the content [d] of buffer [b]. *)
Record result (sd : bool) (h : heap) (b : buf) (d : list N) (h' : heap) (b' : buf) : Prop := {
  r_moved : moved h b h' b';
  r_data : data h' b' = d;
  r_keeps : sd = true -> keeps_covered h b h'
}.

Lemma add_bytes_start_ok junk bs h b : holds h b -> pos h ->
  exists h' b', add_bytes_start junk bs h b = Done (h', b') /\
    result lo h b (bs ++ data h b) h' b' /\ covers h b h' b'.
Proof.
  intros Hb Hp. unfold add_bytes_start. destruct (Nat.eqb_spec (length bs) 0) as [E|E].
  { exists h, b. split; auto. destruct bs; [|discriminate]. split; [|apply covers_refl]. split.
    - apply trans_moved, trans_refl; auto.
    - auto.
    - intros _ c _ _ _. auto. }
  destruct (add_at_start_ok junk (length bs) h b Hb Hp) as [h1 [b1 [E1 G]]]. rewrite E1. cbn [obind].
  assert (bs <> []) by (destruct bs; cbn in *; congruence).
  destruct (fill_start bs h b h1 b1 G) as [h2 [E2 [M [C [D K]]]]]; auto.
  { apply from_apart. eapply start_from; eauto. }
  rewrite E2. cbn [obind]. exists h2, b1. split; auto. split; auto. split; auto.
Qed.
Lemma add_bytes_end_ok junk bs h b : holds h b -> pos h ->
  exists h' b', add_bytes_end junk bs h b = Done (h', b') /\
    result hi h b (data h b ++ bs) h' b' /\ covers h b h' b'.
Proof.
  intros Hb Hp. unfold add_bytes_end. destruct (Nat.eqb_spec (length bs) 0) as [E|E].
  { exists h, b. split; auto. destruct bs; [|discriminate]. split; [|apply covers_refl]. split.
    - apply trans_moved, trans_refl; auto.
    - rewrite app_nil_r. auto.
    - intros _ c _ _ _. auto. }
  destruct (add_at_end_ok junk (length bs) h b Hb Hp) as [h1 [b1 [E1 G]]]. rewrite E1. cbn [obind].
  assert (bs <> []) by (destruct bs; cbn in *; congruence).
  destruct (fill_end bs h b h1 b1 G) as [h2 [E2 [M [C [D K]]]]]; auto.
  { apply from_apart. eapply end_from; eauto. }
  rewrite E2. cbn [obind]. exists h2, b1. split; auto. split; auto. split; auto.
Qed.

(** Adding another buffer. *)
Lemma add_buf_start_ok junk c h b : holds h b -> pos h -> holds h c -> apart h b c ->
  exists h' b', add_buf_start junk (Some c) h b = Done (h', b') /\
    result lo h b (data h c ++ data h b) h' b' /\ covers h b h' b'.
Proof.
  intros Hb Hp Hc Ha. pose proof (data_length h c Hc) as DL. unfold add_buf_start.
  destruct (Nat.eqb_spec (b_end c - b_start c) 0) as [E|E].
  { exists h, b. split; auto. assert (En : data h c = []) by (destruct (data h c); cbn in *; auto; lia).
    rewrite En. split; [|apply covers_refl]. split.
    - apply trans_moved, trans_refl; auto.
    - auto.
    - intros _ x _ _ _. auto. }
  rewrite <- DL in *.
  destruct (add_at_start_ok junk (length (data h c)) h b Hb Hp) as [h1 [b1 [E1 G]]]. rewrite E1. cbn [obind].
  pose proof (t_frame _ _ _ _ (gs_trans _ _ _ _ _ G) c Hc Ha) as [Hc1 Dc].
  rewrite (copy_to_data h1 c _ Hc1). cbn [obind]. rewrite Dc, firstn_all.
  assert (data h c <> []) by (destruct (data h c); cbn in *; congruence).
  destruct (fill_start (data h c) h b h1 b1 G) as [h2 [E2 [M [C [D K]]]]]; auto.
  { apply from_apart. eapply start_from; eauto. }
  rewrite E2. cbn [obind]. exists h2, b1. split; auto. split; auto. split; auto.
Qed.
Lemma add_buf_end_ok junk c h b : holds h b -> pos h -> holds h c -> apart h b c ->
  exists h' b', add_buf_end junk (Some c) h b = Done (h', b') /\
    result hi h b (data h b ++ data h c) h' b' /\ covers h b h' b'.
Proof.
  intros Hb Hp Hc Ha. pose proof (data_length h c Hc) as DL. unfold add_buf_end.
  destruct (Nat.eqb_spec (b_end c - b_start c) 0) as [E|E].
  { exists h, b. split; auto. assert (En : data h c = []) by (destruct (data h c); cbn in *; auto; lia).
    rewrite En, app_nil_r. split; [|apply covers_refl]. split.
    - apply trans_moved, trans_refl; auto.
    - auto.
    - intros _ x _ _ _. auto. }
  rewrite <- DL in *.
  destruct (add_at_end_ok junk (length (data h c)) h b Hb Hp) as [h1 [b1 [E1 G]]]. rewrite E1. cbn [obind].
  pose proof (t_frame _ _ _ _ (ge_trans _ _ _ _ _ G) c Hc Ha) as [Hc1 Dc].
  rewrite (copy_to_data h1 c _ Hc1). cbn [obind]. rewrite Dc, firstn_all.
  assert (data h c <> []) by (destruct (data h c); cbn in *; congruence).
  destruct (fill_end (data h c) h b h1 b1 G) as [h2 [E2 [M [C [D K]]]]]; auto.
  { apply from_apart. eapply end_from; eauto. }
  rewrite E2. cbn [obind]. exists h2, b1. split; auto. split; auto. split; auto.
Qed.
(** Adding a buffer to itself: right at the end, but at the start the new bytes keep
    whatever they hold. *)
Lemma add_self_end_ok junk h b : holds h b -> pos h ->
  exists h' b', add_buf_end junk None h b = Done (h', b') /\
    result hi h b (data h b ++ data h b) h' b' /\ covers h b h' b'.
Proof.
  intros Hb Hp. pose proof (data_length h b Hb) as DL. unfold add_buf_end.
  destruct (Nat.eqb_spec (b_end b - b_start b) 0) as [E|E].
  { exists h, b. split; auto. assert (En : data h b = []) by (destruct (data h b); cbn in *; auto; lia).
    rewrite En. split; [|apply covers_refl]. split; auto.
    - apply trans_moved, trans_refl; auto.
    - intros _ x _ _ _. auto. }
  rewrite <- DL in *.
  destruct (add_at_end_ok junk (length (data h b)) h b Hb Hp) as [h1 [b1 [E1 G]]]. rewrite E1. cbn [obind].
  destruct (ge_data _ _ _ _ _ G) as [x [Lx Dx]].
  rewrite (copy_to_data h1 b1) by apply G. cbn [obind].
  rewrite Dx, firstn_app, firstn_all, Nat.sub_diag. cbn [firstn]. rewrite app_nil_r.
  assert (data h b <> []) by (destruct (data h b); cbn in *; congruence).
  destruct (fill_end (data h b) h b h1 b1 G) as [h2 [E2 [M [C [D K]]]]]; auto.
  { apply from_apart. eapply end_from; eauto. }
  rewrite E2. cbn [obind]. exists h2, b1. split; auto. split; auto. split; auto.
Qed.
Lemma add_self_start_ok junk h b : holds h b -> pos h ->
  exists h' b' x, add_buf_start junk None h b = Done (h', b') /\ length x = b_end b - b_start b /\
    result lo h b (x ++ data h b) h' b' /\ covers h b h' b'.
Proof.
  intros Hb Hp. pose proof (data_length h b Hb) as DL. unfold add_buf_start.
  destruct (Nat.eqb_spec (b_end b - b_start b) 0) as [E|E].
  { exists h, b, []. split; auto. split; auto. split; [|apply covers_refl]. split; auto.
    - apply trans_moved, trans_refl; auto.
    - intros _ x _ _ _. auto. }
  rewrite <- DL in *.
  destruct (add_at_start_ok junk (length (data h b)) h b Hb Hp) as [h1 [b1 [E1 G]]]. rewrite E1. cbn [obind].
  destruct (gs_data _ _ _ _ _ G) as [x [Lx Dx]].
  rewrite (copy_to_data h1 b1) by apply G. cbn [obind].
  assert (Ex : firstn (length (data h b)) (data h1 b1) = x).
  { rewrite Dx, <- Lx, firstn_app, firstn_all, Nat.sub_diag. cbn [firstn]. apply app_nil_r. }
  rewrite Ex.
  assert (x <> []) by (destruct x; cbn in *; congruence). rewrite <- Lx in G.
  destruct (fill_start x h b h1 b1 G) as [h2 [E2 [M [C [D K]]]]]; auto.
  { apply from_apart. eapply start_from; eauto. }
  rewrite E2. cbn [obind]. exists h2, b1, x. split; auto. split; auto. split; auto. split; auto.
Qed.

(** Letting go of the storage. *)
Lemma release_ok h b : holds h b -> pos h ->
  exists h', release h b = Done (h', empty_buf) /\ trans h b h' empty_buf /\ covers h b h' empty_buf.
Proof.
  intros Hb Hp. exists (let_go h b).
  assert (E : release h b = Done (let_go h b, empty_buf)).
  { unfold release, let_go. unfold holds in Hb. destruct b as [[a|] st en]; cbn in *.
    - destruct Hb as [s [Hl _]]. rewrite (release_ref_dec _ _ _ Hl (Hp _ _ Hl)). auto.
    - destruct Hb as [-> ->]. auto. }
  split; auto. split.
  - split.
    + split; auto.
    + intros a. unfold ind at 2. cbn. pose proof (let_go_rc h b a Hb Hp). lia.
    + apply let_go_pos; auto.
    + intros c Hc Ha. apply same_view; auto. intros a s Ea Hl.
      destruct (let_go_live h b c a s Hb Ha Ea Hl) as [s' H]. exists s'. tauto.
  - intros _. split; [exact I|]. intros c Hc Ha Hcc. eapply same_cover; eauto. intros a s Ea Hl.
    destruct (let_go_live h b c a s Hb Ha Ea Hl) as [s' H]. exists s'. tauto.
Qed.

Lemma shrink_trans h b st en : holds h b -> pos h -> b_start b <= st -> st <= en -> en <= b_end b ->
  trans h b h (mk_buf (b_st b) st en) /\ covers h b h (mk_buf (b_st b) st en).
Proof.
  intros Hb Hp H1 H2 H3. split.
  - split; auto. unfold holds in *. cbn. destruct (b_st b) as [a|]; [|lia].
    destruct Hb as [s [Hl Hr]]. exists s. split; auto. lia.
  - intros Hc. split; auto. unfold cover in *. cbn. destruct (b_st b); auto.
    intros s Hl. specialize (Hc s Hl). intuition lia.
Qed.

Lemma data_sub h b st en : b_start b <= st -> st <= en -> en <= b_end b ->
  data h (mk_buf (b_st b) st en) = firstn (en - st) (skipn (st - b_start b) (data h b)).
Proof.
  intros H1 H2 H3. unfold data. cbn. destruct (b_st b) as [a|]; [|rewrite skipn_nil, firstn_nil; auto].
  destruct (nth_error h a) as [[s|]|]; [|rewrite skipn_nil, firstn_nil; auto|rewrite skipn_nil, firstn_nil; auto].
  rewrite skipn_firstn_comm, firstn_firstn, skipn_skipn'.
  rewrite Nat.min_l by lia. f_equal. f_equal. lia.
Qed.

Lemma remove_at_start_ok n h b : holds h b -> pos h ->
  exists h' b', remove_at_start n h b = Done (h', b') /\ trans h b h' b' /\ covers h b h' b' /\
    data h' b' = skipn n (data h b).
Proof.
  intros Hb Hp. pose proof (data_length h b Hb) as DL. pose proof (holds_le h b Hb) as Hle.
  unfold remove_at_start. destruct (Nat.leb_spec n (b_end b - b_start b)).
  - eexists _, _. split; [reflexivity|].
    destruct (shrink_trans h b (b_start b + n) (b_end b) Hb Hp) as [T C]; try lia.
    split; auto. split; auto. rewrite data_sub by lia. rewrite firstn_all2.
    + f_equal. lia.
    + rewrite skipn_length. lia.
  - destruct (release_ok h b Hb Hp) as [h' [E [T C]]]. exists h', empty_buf. split; auto. split; auto.
    split; auto. rewrite skipn_all2 by lia. auto.
Qed.
Lemma remove_at_end_ok n h b : holds h b -> pos h ->
  exists h' b', remove_at_end n h b = Done (h', b') /\ trans h b h' b' /\ covers h b h' b' /\
    data h' b' = drop_last n (data h b).
Proof.
  intros Hb Hp. pose proof (data_length h b Hb) as DL. pose proof (holds_le h b Hb) as Hle.
  unfold remove_at_end, drop_last. destruct (Nat.leb_spec n (b_end b - b_start b)).
  - eexists _, _. split; [reflexivity|].
    destruct (shrink_trans h b (b_start b) (b_end b - n) Hb Hp) as [T C]; try lia.
    split; auto. split; auto. rewrite data_sub by lia. rewrite Nat.sub_diag. cbn [skipn]. f_equal. lia.
  - destruct (release_ok h b Hb Hp) as [h' [E [T C]]]. exists h', empty_buf. split; auto. split; auto.
    split; auto. replace (length (data h b) - n) with 0 by lia. auto.
Qed.

(** ** New buffers, as transitions from a buffer without storage *)

Lemma holds_empty h : holds h empty_buf.
Proof. split; auto. Qed.
Lemma apart_empty h c : apart h empty_buf c.
Proof. intros a H. discriminate. Qed.

Lemma empty_trans h : pos h -> trans h empty_buf h empty_buf /\ covers h empty_buf h empty_buf.
Proof. intros Hp. split; [apply trans_refl; auto using holds_empty|apply covers_refl]. Qed.

Lemma fresh_own h m ds de st en : pos h -> st <= en -> en <= length m ->
  trans h empty_buf (h ++ [Some (mk_storage 1 ds de m)]) (mk_buf (Some (length h)) st en) /\
  (ds <= st -> en <= de ->
   covers h empty_buf (h ++ [Some (mk_storage 1 ds de m)]) (mk_buf (Some (length h)) st en)) /\
  data (h ++ [Some (mk_storage 1 ds de m)]) (mk_buf (Some (length h)) st en) = firstn (en - st) (skipn st m).
Proof.
  intros Hp H1 H2. split; [|split].
  - apply (own_trans h empty_buf m ds de st en); auto using holds_empty.
  - intros H3 H4. apply (own_covers h empty_buf m ds de st en); auto using holds_empty.
  - apply (own_data h empty_buf m ds de st en).
Qed.

Lemma allocate_cases junk h n : (n = 0 /\ allocate junk h n = (h, None)) \/
  (0 < n /\ exists m, length m = n /\
     allocate junk h n = (h ++ [Some (mk_storage 1 0 0 m)], Some (length h))).
Proof.
  destruct n as [|n]; [left; auto|right]. split; [lia|]. eexists. split; [|reflexivity].
  rewrite map_length, seq_length. auto.
Qed.

Lemma new_capacity_ok junk n h : pos h ->
  exists h' b', new_capacity junk n h = Done (h', b') /\ trans h empty_buf h' b' /\
    covers h empty_buf h' b' /\ data h' b' = [].
Proof.
  intros Hp. unfold new_capacity. destruct (allocate_cases junk h n) as [[-> ->]|[Hn [m [Lm ->]]]].
  - exists h, empty_buf. destruct (empty_trans h Hp). auto.
  - unfold dirty_all. cbn [b_st b_start b_end].
    rewrite (proj2 (get_live _ _ _) (live_new _ _)). cbn [obind]. unfold put. rewrite upd_last.
    eexists _, _. split; [reflexivity|].
    destruct (fresh_own h m n n n n Hp) as [T [C D]]; try lia.
    split; [exact T|]. split; [apply C; lia|]. rewrite Nat.sub_diag in D. exact D.
Qed.

Lemma new_zero_ok junk s z e h : pos h ->
  exists h' b', new_zero junk s z e h = Done (h', b') /\ trans h empty_buf h' b' /\
    covers h empty_buf h' b' /\ data h' b' = repeat 0%N z.
Proof.
  intros Hp. unfold new_zero. destruct (allocate_cases junk h (s + z + e)) as [[En ->]|[Hn [m [Lm ->]]]].
  - assert (s = 0 /\ z = 0) as [-> ->] by lia. exists h, empty_buf. destruct (empty_trans h Hp). auto.
  - unfold dirty_all, store_at. cbn [b_st b_start b_end].
    rewrite (proj2 (get_live _ _ _) (live_new _ _)). cbn [obind]. unfold put. rewrite !upd_last.
    rewrite (proj2 (get_live _ _ _) (live_new _ _)). cbn [obind set_dirty sg_bytes sg_rc].
    destruct (mem_store_some m s (repeat 0%N z)) as [m' Em]; [rewrite repeat_length; lia|].
    rewrite Em. cbn [obind]. rewrite ?upd_last.
    pose proof (store_slice _ _ _ _ Em) as [S1 [S2 _]]. rewrite repeat_length in S2.
    eexists _, _. split; [reflexivity|]. unfold set_bytes, set_dirty. cbn [sg_rc sg_ds sg_de].
    destruct (fresh_own h m' s (s + z) s (s + z) Hp) as [T [C D]]; try lia.
    split; [exact T|]. split; [apply C; lia|].
    replace (s + z - s) with z in D by lia. rewrite S2 in D. exact D.
Qed.

Lemma deep_copy_ok junk d h : pos h ->
  exists h' b', deep_copy junk d h = Done (h', b') /\ trans h empty_buf h' b' /\ data h' b' = d.
Proof.
  intros Hp. unfold deep_copy. destruct (allocate_cases junk h (length d)) as [[En ->]|[Hn [m [Lm ->]]]].
  - destruct d; [|discriminate]. exists h, empty_buf. destruct (empty_trans h Hp). auto.
  - unfold store_at. rewrite (proj2 (get_live _ _ _) (live_new _ _)). cbn [obind sg_bytes].
    destruct (mem_store_some m 0 d) as [m' Em]; [lia|]. rewrite Em. cbn [obind]. unfold put. rewrite upd_last.
    pose proof (store_slice _ _ _ _ Em) as [S1 [S2 _]].
    eexists _, _. split; [reflexivity|]. unfold set_bytes. cbn [sg_rc sg_ds sg_de].
    destruct (fresh_own h m' 0 0 0 (length d) Hp) as [T [_ D]]; try lia.
    split; [exact T|]. rewrite Nat.sub_0_r in D. rewrite D. exact S2.
Qed.

(** Sharing: the storage of [c] gets one more user. *)
Lemma share_ok h c a s : holds h c -> pos h -> b_st c = Some a -> live h a s -> forall b', b_st b' = Some a ->
  b_start b' <= b_end b' -> b_end b' <= sg_cap s ->
  trans h empty_buf (put h a (set_rc s (S (sg_rc s)))) b' /\
  (forall x, data (put h a (set_rc s (S (sg_rc s)))) x = data h x) /\
  (forall x, cover h x -> cover (put h a (set_rc s (S (sg_rc s)))) x).
Proof.
  intros Hc Hp Ec Hl b' Eb Hse Hec. pose proof (nth_lt _ _ _ Hl) as Hlt.
  assert (HD : forall x, data (put h a (set_rc s (S (sg_rc s)))) x = data h x).
  { intros x. unfold data. destruct (b_st x) as [y|]; auto. unfold put. rewrite nth_upd.
    destruct (Nat.eqb_spec a y) as [<-|Hn]; cbn [andb]; auto.
    rewrite (proj2 (Nat.ltb_lt _ _) Hlt), Hl. auto. }
  split; [|split; auto].
  - split.
    + unfold holds. rewrite Eb. exists (set_rc s (S (sg_rc s))). split; [apply put_live; auto|]. auto.
    + intros x. unfold ind. cbn [b_st empty_buf]. rewrite Eb. unfold rc, put. rewrite nth_upd.
      rewrite (Nat.eqb_sym x a). destruct (Nat.eqb_spec a x) as [<-|Hn]; cbn [andb]; [|lia].
      rewrite (proj2 (Nat.ltb_lt _ _) Hlt), Hl. cbn. lia.
    + apply put_pos; auto. cbn. lia.
    + intros x Hx _. split; [|apply HD]. apply (put_holds h a s); auto.
  - intros x. unfold cover. destruct (b_st x) as [y|]; auto. intros H z Hz.
    destruct (Nat.eq_dec a y) as [<-|Hn].
    + rewrite (live_fun _ _ _ _ Hz (put_live h a _ Hlt)). cbn. auto.
    + apply put_other in Hz; auto.
Qed.

Lemma acquire_ok h c : holds h c -> pos h ->
  exists h', acquire h c = Done h' /\ trans h empty_buf h' c /\ data h' c = data h c /\
    (forall x, cover h x -> cover h' x) /\ (forall x, data h' x = data h x).
Proof.
  intros Hc Hp. unfold acquire. destruct (b_st c) as [a|] eqn:Ec.
  - pose proof Hc as Hc'. unfold holds in Hc'. rewrite Ec in Hc'. destruct Hc' as [s [Hl Hr]].
    unfold add_ref. rewrite (proj2 (get_live _ _ _) Hl). cbn [obind]. eexists. split; [reflexivity|].
    destruct (share_ok h c a s Hc Hp Ec Hl c Ec) as [T [D C]]; try lia. split; auto.
  - exists h. split; auto. split; [|auto]. split; auto.
    intros a. unfold ind. rewrite Ec. cbn. lia.
Qed.

Lemma make_fragment_ok start size h b : holds h b -> pos h ->
  start + size <= b_end b - b_start b ->
  exists h' f, make_fragment start size h b = Done (h', f) /\ trans h empty_buf h' f /\
    data h' f = firstn size (skipn start (data h b)).
Proof.
  intros Hb Hp Hs. pose proof (holds_le h b Hb) as Hle. unfold make_fragment.
  destruct (Nat.ltb_spec (b_end b - b_start b) start); [lia|].
  destruct (Nat.ltb_spec (b_end b - b_start b - start) size); [lia|].
  destruct (Nat.eqb_spec size 0) as [-> |Hn].
  { exists h, empty_buf. destruct (empty_trans h Hp). auto. }
  pose proof Hb as Hb'. unfold holds in Hb'. destruct (b_st b) as [a|] eqn:Ea; [|lia].
  destruct Hb' as [s [Hl Hr]]. unfold add_ref. rewrite (proj2 (get_live _ _ _) Hl). cbn [obind].
  set (f := mk_buf (Some a) (b_start b + start) (b_start b + start + size)).
  set (h1 := put h a (set_rc s (S (sg_rc s)))).
  destruct (share_ok h b a s Hb Hp Ea Hl f eq_refl) as [T [D _]]; cbn; try lia. fold h1 in T, D.
  assert (Hl1 : live h1 a (set_rc s (S (sg_rc s)))) by (apply put_live; eapply nth_lt; eauto).
  unfold dirty_all. cbn [b_st f b_start b_end]. rewrite (proj2 (get_live _ _ _) Hl1). cbn [obind].
  eexists _, _. split; [reflexivity|]. split.
  - split.
    + apply (put_holds h1 a _ _ f Hl1); auto. apply T.
    + intros x. rewrite (put_rc h1 a _ _ x Hl1) by auto. apply T.
    + apply put_pos; [apply T|]. cbn. lia.
    + intros c Hc Ha. split.
      * apply (put_holds h1 a _ _ c Hl1); auto. apply (t_frame _ _ _ _ T c Hc Ha).
      * rewrite put_dirty_data by auto. auto.
  - rewrite put_dirty_data by auto. rewrite D. unfold f. rewrite <- Ea.
    rewrite (data_sub h b) by lia. f_equal; [lia|]. f_equal. lia.
Qed.

(** ** Worlds *)

Definition cnt {A} (P : A -> bool) (l : list A) : nat := length (filter P l).
Definition b2n (b : bool) : nat := if b then 1 else 0.
Lemma cnt_upd {A} (P : A -> bool) l i x y : nth_error l i = Some x ->
  cnt P (upd l i y) + b2n (P x) = cnt P l + b2n (P y).
Proof.
  revert i. unfold cnt. induction l as [|z l IH]; intros [|i] H; cbn in *; try discriminate.
  - inversion H; subst. destruct (P x), (P y); cbn; lia.
  - specialize (IH i H). destruct (P z); cbn; lia.
Qed.
Lemma cnt_app {A} (P : A -> bool) l r : cnt P (l ++ r) = cnt P l + cnt P r.
Proof. unfold cnt. rewrite filter_app, app_length. auto. Qed.
Lemma cnt_one {A} (P : A -> bool) l i x : nth_error l i = Some x -> P x = true -> 1 <= cnt P l.
Proof.
  revert i. unfold cnt. induction l as [|z l IH]; intros [|i] H Hp; cbn in *; try discriminate.
  - inversion H; subst. rewrite Hp. cbn. lia.
  - specialize (IH i H Hp). destruct (P z); cbn; lia.
Qed.
Lemma cnt_two {A} (P : A -> bool) l i j x y : nth_error l i = Some x -> nth_error l j = Some y ->
  i <> j -> P x = true -> P y = true -> 2 <= cnt P l.
Proof.
  revert i j. unfold cnt. induction l as [|z l IH]; intros [|i] [|j] H1 H2 Hn Hx Hy; cbn in *; try discriminate; try lia.
  - inversion H1; subst. rewrite Hx. cbn. pose proof (cnt_one P l j y H2 Hy). unfold cnt in *. lia.
  - inversion H2; subst. rewrite Hy. cbn. pose proof (cnt_one P l i x H1 Hx). unfold cnt in *. lia.
  - assert (i <> j) by lia. specialize (IH i j H1 H2 H Hx Hy). destruct (P z); cbn; lia.
Qed.
Lemma cnt_pos {A} (P : A -> bool) l : 0 < cnt P l -> exists i x, nth_error l i = Some x /\ P x = true.
Proof.
  unfold cnt. induction l as [|z l IH]; cbn; [lia|]. destruct (P z) eqn:E.
  - intros _. exists 0, z. auto.
  - intros H. destruct (IH H) as [i [x Hx]]. exists (S i), x. auto.
Qed.

Lemma uses_ind a b : b2n (uses a (Some b)) = ind b a.
Proof. unfold uses, ind. destruct (b_st b); auto. Qed.


Record inv (w : world) : Prop := {
  i_holds : forall i b, nth_error (w_bufs w) i = Some (Some b) -> holds (w_heap w) b;
  i_rc : forall a, rc (w_heap w) a = users w a;
  i_pos : pos (w_heap w)
}.
Definition safe (w : world) : Prop :=
  forall i b, nth_error (w_bufs w) i = Some (Some b) -> cover (w_heap w) b.
Definition abs (w : world) : strings := map (option_map (data (w_heap w))) (w_bufs w).

Lemma var_some w i b : var w i = Some b <-> nth_error (w_bufs w) i = Some (Some b).
Proof. unfold var. destruct (nth_error (w_bufs w) i) as [[x|]|]; split; congruence. Qed.
Lemma str_abs w i : str (abs w) i = option_map (data (w_heap w)) (var w i).
Proof.
  unfold str, abs, var. rewrite nth_error_map. destruct (nth_error (w_bufs w) i) as [[x|]|]; auto.
Qed.
Lemma abs_length w : length (abs w) = length (w_bufs w).
Proof. apply map_length. Qed.

Lemma world_apart w i j b c : inv w -> i <> j -> nth_error (w_bufs w) i = Some (Some b) ->
  nth_error (w_bufs w) j = Some (Some c) -> apart (w_heap w) b c.
Proof.
  intros I Hn Hi Hj a Eb Ec. rewrite (i_rc _ I). unfold users.
  apply (cnt_two (uses a) (w_bufs w) i j (Some b) (Some c)); auto; cbn; rewrite ?Eb, ?Ec; apply Nat.eqb_refl.
Qed.

(** One variable changes. *)
Lemma changed_inv w i b h' b' : inv w -> nth_error (w_bufs w) i = Some (Some b) ->
  moved (w_heap w) b h' b' -> inv (set_var h' w i (Some b')).
Proof.
  intros I Hi M. split; cbn [set_var w_heap w_bufs].
  - intros j c Hj. apply upd_inv in Hj. destruct Hj as [[<- E]|[Hn Hj]].
    + inversion E; subst. apply M.
    + apply (m_frame _ _ _ _ M); [eapply I; eauto|]. eapply world_apart; eauto.
  - intros a. unfold users, swap, set_var, add_var. cbn [w_bufs].
    pose proof (cnt_upd (uses a) (w_bufs w) i (Some b) (Some b') Hi) as Hc. unfold cnt in Hc.
    rewrite !uses_ind in Hc. pose proof (m_rc _ _ _ _ M a) as Hr. rewrite (i_rc _ I) in Hr.
    unfold users in Hr. lia.
  - apply M.
Qed.

Lemma changed_safe w i b h' b' : inv w -> safe w -> nth_error (w_bufs w) i = Some (Some b) ->
  covers (w_heap w) b h' b' -> safe (set_var h' w i (Some b')).
Proof.
  intros I S Hi C j c Hj. cbn [set_var w_heap w_bufs] in *. destruct (C (S _ _ Hi)) as [C1 C2].
  apply upd_inv in Hj. destruct Hj as [[<- E]|[Hn Hj]]; [inversion E; subst; auto|].
  apply C2; [eapply I; eauto|eapply world_apart; eauto|eapply S; eauto].
Qed.
Lemma changed_own w i b h' b' : nth_error (w_bufs w) i = Some (Some b) ->
  nth_error (abs (set_var h' w i (Some b'))) i = Some (Some (data h' b')).
Proof.
  intros Hi. unfold abs. cbn. rewrite nth_error_map, nth_upd_eq by (eapply nth_lt; eauto). auto.
Qed.
Lemma changed_abs w i b h' b' : inv w -> nth_error (w_bufs w) i = Some (Some b) ->
  (keeps (w_heap w) b h' \/ (safe w /\ keeps_covered (w_heap w) b h')) ->
  abs (set_var h' w i (Some b')) = upd (abs w) i (Some (data h' b')).
Proof.
  intros I Hi K. unfold abs. cbn [set_var w_heap w_bufs]. rewrite map_upd. cbn [option_map].
  apply list_ext. intros j. rewrite !nth_upd, !map_length.
  destruct ((i =? j) && (j <? length (w_bufs w))) eqn:E; auto. rewrite !nth_error_map.
  destruct (nth_error (w_bufs w) j) as [[c|]|] eqn:Ej; auto. cbn. f_equal. f_equal.
  assert (Hn : i <> j).
  { intros <-. apply nth_lt in Ej. rewrite Nat.eqb_refl in E. cbn [andb] in E.
    destruct (Nat.ltb_spec i (length (w_bufs w))); [discriminate|lia]. }
  destruct K as [K|[S K]].
  - apply K; [eapply I; eauto|eapply world_apart; eauto].
  - apply K; [eapply I; eauto|eapply world_apart; eauto|eapply S; eauto].
Qed.

(** A variable is added. *)
Lemma created_inv w h' b' : inv w -> moved (w_heap w) empty_buf h' b' -> inv (add_var h' w b').
Proof.
  intros I M. split; cbn [add_var w_heap w_bufs].
  - intros j c Hj. destruct (Nat.lt_ge_cases j (length (w_bufs w))).
    + rewrite nth_error_app1 in Hj by auto. apply (m_frame _ _ _ _ M); [eapply I; eauto|apply apart_empty].
    + rewrite nth_error_app2 in Hj by auto. destruct (j - length (w_bufs w)) as [|[|k]]; try discriminate.
      cbn in Hj. inversion Hj; subst. apply M.
  - intros a. unfold users, swap, set_var, add_var. cbn [w_bufs]. change (length (filter (uses a) (w_bufs w ++ [Some b'])))
      with (cnt (uses a) (w_bufs w ++ [Some b'])). rewrite cnt_app.
    assert (E : cnt (uses a) [Some b'] = ind b' a).
    { rewrite <- uses_ind. unfold cnt. cbn [filter]. destruct (uses a (Some b')); auto. }
    rewrite E. pose proof (m_rc _ _ _ _ M a) as Hr. rewrite (i_rc _ I) in Hr. unfold users, ind at 1 in Hr.
    cbn in Hr. unfold cnt. lia.
  - apply M.
Qed.
Lemma created_safe w h' b' : inv w -> safe w -> covers (w_heap w) empty_buf h' b' -> safe (add_var h' w b').
Proof.
  intros I S C j c Hj. cbn [add_var w_heap w_bufs] in *. destruct C as [C1 C2]; [exact Logic.I|].
  destruct (Nat.lt_ge_cases j (length (w_bufs w))).
  - rewrite nth_error_app1 in Hj by auto. apply C2; [eapply I; eauto|apply apart_empty|eapply S; eauto].
  - rewrite nth_error_app2 in Hj by auto. destruct (j - length (w_bufs w)) as [|[|k]]; try discriminate.
    cbn in Hj. inversion Hj; subst. auto.
Qed.
Lemma created_abs w h' b' : inv w -> keeps (w_heap w) empty_buf h' ->
  abs (add_var h' w b') = abs w ++ [Some (data h' b')].
Proof.
  intros I K. unfold abs. cbn [add_var w_heap w_bufs]. rewrite map_app. cbn. f_equal.
  apply map_ext_in. intros [c|] Hc; auto. cbn. f_equal. apply In_nth_error in Hc. destruct Hc as [j Hj].
  apply K; [eapply I; eauto|apply apart_empty].
Qed.

(** Two variables exchange what they hold. *)
Lemma swap_inv w i j b c : inv w -> i <> j -> nth_error (w_bufs w) i = Some (Some b) ->
  nth_error (w_bufs w) j = Some (Some c) -> inv (swap w i j b c).
Proof.
  intros I Hn Hi Hj. split; cbn [swap set_var w_heap w_bufs]; [| |apply I].
  - intros k x Hk. apply upd_inv in Hk. destruct Hk as [[<- E]|[Hk1 Hk]].
    + inversion E; subst. eapply I; eauto.
    + apply upd_inv in Hk. destruct Hk as [[<- E]|[Hk2 Hk]]; [inversion E; subst; eapply I; eauto|eapply I; eauto].
  - intros a. rewrite (i_rc _ I). unfold users, swap, set_var, add_var. cbn [w_bufs].
    pose proof (cnt_upd (uses a) (w_bufs w) i (Some b) (Some c) Hi) as H1.
    assert (Hj' : nth_error (upd (w_bufs w) i (Some c)) j = Some (Some c)) by (rewrite nth_upd_neq; auto).
    pose proof (cnt_upd (uses a) _ j (Some c) (Some b) Hj') as H2. unfold cnt in *. lia.
Qed.
Lemma swap_safe w i j b c : safe w -> nth_error (w_bufs w) i = Some (Some b) ->
  nth_error (w_bufs w) j = Some (Some c) -> safe (swap w i j b c).
Proof.
  intros S Hi Hj k x Hk. cbn [swap set_var w_heap w_bufs] in *.
  apply upd_inv in Hk. destruct Hk as [[<- E]|[Hk1 Hk]].
  - inversion E; subst. eapply S; eauto.
  - apply upd_inv in Hk. destruct Hk as [[<- E]|[Hk2 Hk]]; [inversion E; subst; eapply S; eauto|eapply S; eauto].
Qed.
Lemma swap_abs w i j b c : abs (swap w i j b c) =
  upd (upd (abs w) i (Some (data (w_heap w) c))) j (Some (data (w_heap w) b)).
Proof. unfold abs, swap. cbn. rewrite !map_upd. auto. Qed.

(** A variable is emptied without touching the heap, its content goes to a new one. *)
Lemma move_new_ok w i b : inv w -> nth_error (w_bufs w) i = Some (Some b) ->
  exists w', move_new w i b = Done w' /\ inv w' /\ (safe w -> safe w') /\
    abs w' = upd (abs w) i (Some []) ++ [Some (data (w_heap w) b)].
Proof.
  intros I Hi. eexists. split; [reflexivity|]. split; [|split].
  - split; cbn [add_var set_var w_heap w_bufs]; [| |apply I].
    + intros k x Hk. destruct (Nat.lt_ge_cases k (length (upd (w_bufs w) i (Some empty_buf)))).
      * rewrite nth_error_app1 in Hk by auto. apply upd_inv in Hk. destruct Hk as [[<- E]|[_ Hk]].
        -- inversion E; subst. apply holds_empty.
        -- eapply I; eauto.
      * rewrite nth_error_app2 in Hk by auto.
        destruct (k - length (upd (w_bufs w) i (Some empty_buf))) as [|[|z]]; try discriminate.
        cbn in Hk. inversion Hk; subst. eapply I; eauto.
    + intros a. rewrite (i_rc _ I). unfold users, swap, set_var, add_var. cbn [w_bufs].
      change (length (filter (uses a) (upd (w_bufs w) i (Some empty_buf) ++ [Some b])))
        with (cnt (uses a) (upd (w_bufs w) i (Some empty_buf) ++ [Some b])). rewrite cnt_app.
      pose proof (cnt_upd (uses a) (w_bufs w) i (Some b) (Some empty_buf) Hi) as H1.
      unfold cnt in *. cbn [filter] in *. destruct (uses a (Some b)); cbn in *; lia.
  - intros S k x Hk. cbn [add_var set_var w_heap w_bufs] in *.
    destruct (Nat.lt_ge_cases k (length (upd (w_bufs w) i (Some empty_buf)))).
    + rewrite nth_error_app1 in Hk by auto. apply upd_inv in Hk. destruct Hk as [[<- E]|[_ Hk]].
      * inversion E; subst. exact Logic.I.
      * eapply S; eauto.
    + rewrite nth_error_app2 in Hk by auto.
      destruct (k - length (upd (w_bufs w) i (Some empty_buf))) as [|[|z]]; try discriminate.
      cbn in Hk. inversion Hk; subst. eapply S; eauto.
  - unfold abs. cbn. rewrite map_app, map_upd. auto.
Qed.

(** Copy assignment: the storage of [c] gets a user, that of [b] loses one. *)
Lemma assign_trans h b c : holds h b -> holds h c -> pos h ->
  exists h1 h2, acquire h c = Done h1 /\ release_opt h1 (b_st b) = Done h2 /\
    trans h b h2 c /\ (cover h c -> covers h b h2 c) /\ data h2 c = data h c.
Proof.
  intros Hb Hc Hp. destruct (acquire_ok h c Hc Hp) as [h1 [E1 [T1 [D1 [C1 D1']]]]].
  assert (Hb1 : holds h1 b) by (apply (t_frame _ _ _ _ T1 b Hb), apart_empty).
  destruct (release_ok h1 b Hb1 (t_pos _ _ _ _ T1)) as [h2 [E2 [T2 C2]]].
  assert (R : forall a, rc h1 a = rc h a + ind c a).
  { intros a. pose proof (t_rc _ _ _ _ T1 a) as Hr. unfold ind at 1 in Hr. cbn in Hr. lia. }
  assert (A : forall x, apart h b x -> apart h1 b x).
  { intros x Hx a Ea Ex. specialize (Hx a Ea Ex). rewrite R. lia. }
  assert (Ac : apart h1 b c).
  { intros a Ea Ex. rewrite R. unfold ind. rewrite Ex, Nat.eqb_refl.
    unfold holds in Hc. rewrite Ex in Hc. destruct Hc as [s [Hl _]]. pose proof (Hp _ _ Hl).
    rewrite (rc_live _ _ _ Hl). lia. }
  destruct (t_frame _ _ _ _ T2 c (t_holds _ _ _ _ T1) Ac) as [Hc2 D2].
  exists h1, h2. split; auto. split; [|split; [|split]].
  - unfold release in E2. unfold release_opt. destruct (b_st b); [|congruence].
    destruct (release_ref h1 n); cbn in *; congruence.
  - split; auto; [|apply T2|].
    + intros a. pose proof (t_rc _ _ _ _ T2 a) as H. rewrite R in H. change (ind empty_buf a) with 0 in H. lia.
    + intros x Hx Hax. destruct (t_frame _ _ _ _ T1 x Hx (apart_empty _ _)) as [Hx1 Dx1].
      destruct (t_frame _ _ _ _ T2 x Hx1 (A x Hax)) as [Hx2 Dx2]. split; congruence.
  - intros Cc Cb. destruct (C2 (C1 _ Cb)) as [_ C2']. split.
    + apply C2'; auto. apply T1.
    + intros x Hx Hax Cx. apply C2'; auto. apply (t_frame _ _ _ _ T1 x Hx), apart_empty.
  - congruence.
Qed.

(** ** One statement *)

Definition side (o : op) : bool :=
  match o with
  | AddStartBytes _ _ | AddStartBuf _ _ => lo
  | AddEndBytes _ _ | AddEndBuf _ _ => hi
  | _ => true
  end.
Record good (o : op) (extra : list N) (w w' : world) : Prop := {
  g_len : length extra = extra_len o;
  g_own : forall i, target o i \/ length (w_bufs w) <= i ->
     nth_error (abs w') i = nth_error (spec_step extra o (abs w)) i;
  g_all : (safe w /\ side o = true \/ ~ adds_data o) -> writes_alone o w -> abs w' = spec_step extra o (abs w)
}.
Record fine (o : op) (w w' : world) : Prop := {
  f_inv : inv w';
  f_safe : keeps_dirty o -> safe w -> safe w';
  f_good : no_self_start o -> exists extra, good o extra w w'
}.

Lemma same_good o w : abs w = spec_step (repeat 0%N (extra_len o)) o (abs w) -> good o (repeat 0%N (extra_len o)) w w.
Proof.
  intros E. split; auto.
  - apply repeat_length.
  - intros i _. rewrite <- E. auto.
Qed.
Lemma same_fine o w : inv w -> abs w = spec_step (repeat 0%N (extra_len o)) o (abs w) -> fine o w w.
Proof. intros I E. split; auto. intros _. eexists. apply same_good; auto. Qed.



(** A variable without storage disappears. *)
Lemma drop_inv w i : inv w -> nth_error (w_bufs w) i = Some (Some empty_buf) -> inv (set_var (w_heap w) w i None).
Proof.
  intros I Hi. split; cbn [set_var w_heap w_bufs]; [| |apply I].
  - intros k x Hk. apply upd_inv in Hk. destruct Hk as [[_ E]|[_ Hk]]; [discriminate|eapply I; eauto].
  - intros a. rewrite (i_rc _ I). unfold users, set_var. cbn [w_bufs].
    pose proof (cnt_upd (uses a) (w_bufs w) i (Some empty_buf) None Hi) as H. unfold cnt in H. cbn [uses b_st empty_buf b2n] in H. lia.
Qed.
Lemma drop_safe w i : safe w -> safe (set_var (w_heap w) w i None).
Proof.
  intros S k x Hk. cbn [set_var w_heap w_bufs] in *. apply upd_inv in Hk.
  destruct Hk as [[_ E]|[_ Hk]]; [discriminate|eapply S; eauto].
Qed.

Lemma abs_nth w i b : nth_error (w_bufs w) i = Some (Some b) ->
  nth_error (abs w) i = Some (Some (data (w_heap w) b)).
Proof. intros H. unfold abs. rewrite nth_error_map, H. auto. Qed.
Lemma abs_str w i b : nth_error (w_bufs w) i = Some (Some b) -> str (abs w) i = Some (data (w_heap w) b).
Proof. intros H. unfold str. rewrite (abs_nth _ _ _ H). auto. Qed.

(** Statements that change variable [i] only. *)
Lemma changed_fine o w i b d extra h' b' : inv w -> nth_error (w_bufs w) i = Some (Some b) ->
  (forall k, target o k -> k = i) -> length extra = extra_len o ->
  spec_step extra o (abs w) = upd (abs w) i (Some d) ->
  moved (w_heap w) b h' b' -> (safe w -> keeps_dirty o -> covers (w_heap w) b h' b') -> data h' b' = d ->
  (writes_alone o w -> keeps (w_heap w) b h' \/ (adds_data o /\ (side o = true -> keeps_covered (w_heap w) b h'))) ->
  fine o w (set_var h' w i (Some b')).
Proof.
  intros I Hi Ht Hx E M C D K. split.
  - eapply changed_inv; eauto.
  - intros Hk S. eapply changed_safe; eauto.
  - intros _. exists extra. split; auto.
    + intros k [Hk|Hk].
      * rewrite (Ht k Hk). rewrite E, (changed_own _ _ _ _ _ Hi), D, nth_upd_eq; auto.
        rewrite abs_length. eapply nth_lt; eauto.
      * rewrite E. rewrite !(proj2 (nth_error_None _ _)); auto; rewrite ?upd_length, abs_length; auto.
        cbn [w_bufs set_var]. rewrite upd_length. auto.
    + intros Hs Ha. rewrite E, <- D. apply (changed_abs _ _ b); auto.
      destruct (K Ha) as [K'|[K1 K2]]; auto. right. split; tauto.
Qed.
(** Statements that create a variable. *)
Lemma created_fine o w d h' b' : inv w -> (forall k, ~ target o k) -> 0 = extra_len o ->
  spec_step [] o (abs w) = abs w ++ [Some d] ->
  trans (w_heap w) empty_buf h' b' -> (safe w -> keeps_dirty o -> covers (w_heap w) empty_buf h' b') -> data h' b' = d ->
  fine o w (add_var h' w b').
Proof.
  intros I Ht Hx E T C D. split.
  - apply created_inv; auto. apply trans_moved; auto.
  - intros Hk S. apply created_safe; auto.
  - intros _. exists []. assert (Eq : abs (add_var h' w b') = spec_step [] o (abs w)).
    { rewrite E, <- D. apply created_abs; auto. eapply trans_keeps; eauto. }
    split; auto. intros k _. rewrite Eq. auto.
Qed.

Lemma step_main junk o w : inv w ->
  (bad_args o (abs w) = true /\ step junk o w = AssertFail) \/
  (bad_args o (abs w) = false /\ exists w', step junk o w = Done w' /\ fine o w w').
Proof.
  intros I. pose proof (i_pos _ I) as Hp.
  assert (V : forall i, (exists b, var w i = Some b /\ nth_error (w_bufs w) i = Some (Some b) /\
            str (abs w) i = Some (data (w_heap w) b) /\ holds (w_heap w) b) \/
            (var w i = None /\ str (abs w) i = None)).
  { intros i. destruct (var w i) as [b|] eqn:E.
    - left. exists b. apply var_some in E. split; auto. split; auto. split; [apply abs_str; auto|].
      eapply I; eauto.
    - right. split; auto. rewrite str_abs, E. auto. }
  destruct o; cbn [step bad_args].
  - (* New *) right. split; auto. destruct (new_capacity_ok junk capacity (w_heap w) Hp) as [h' [b' [E [T [C D]]]]].
    eexists. unfold created. rewrite E. split; [reflexivity|]. eapply created_fine; eauto; try (intros ? Hf; exact Hf); try reflexivity.
  - (* NewZero *) right. split; auto.
    destruct (new_zero_ok junk startSize zeroSize endSize (w_heap w) Hp) as [h' [b' [E [T [C D]]]]].
    eexists. unfold created. rewrite E. split; [reflexivity|]. eapply created_fine; eauto; try (intros ? Hf; exact Hf); try reflexivity.
  - (* DeepCopy *) right. split; auto.
    destruct (deep_copy_ok junk data0 (w_heap w) Hp) as [h' [b' [E [T D]]]].
    eexists. unfold created. rewrite E. split; [reflexivity|]. eapply created_fine; eauto; try (intros ? Hf; exact Hf); try reflexivity. intros _ [].
  - (* Copy *) right. split; auto. destruct (V i) as [[b [Ev [Hi [Es Hb]]]]|[Ev Es]]; rewrite Ev.
    + destruct (acquire_ok (w_heap w) b Hb Hp) as [h' [E [T [D [C D']]]]]. unfold copy_new. rewrite E.
      eexists. split; [reflexivity|]. apply (created_fine _ _ (data (w_heap w) b)); auto; try (intros ? Hf; exact Hf); try reflexivity.
      * cbn [spec_step]. rewrite Es. auto.
      * intros S _ _. split; [apply C; eapply S; eauto|]. intros x Hx _ Cx. auto.
    + eexists. split; [reflexivity|]. apply same_fine; auto. cbn [spec_step]. rewrite Es. auto.
  - (* MoveNew *) right. split; auto. destruct (V i) as [[b [Ev [Hi [Es Hb]]]]|[Ev Es]]; rewrite Ev.
    + destruct (move_new_ok w i b I Hi) as [w' [E [I' [S' A']]]]. exists w'. split; auto. split; auto.
      intros _. exists []. assert (Eq : abs w' = spec_step [] (MoveNew i) (abs w)).
      { cbn [spec_step]. rewrite Es. auto. }
      split; auto. intros k _. rewrite Eq. auto.
    + eexists. split; [reflexivity|]. apply same_fine; auto. cbn [spec_step]. rewrite Es. auto.
  - (* Assign *) right. split; auto. destruct (Nat.eqb_spec i j) as [<-|Hn].
    { eexists. split; [reflexivity|]. apply same_fine; auto. cbn [spec_step].
      destruct (V i) as [[b [Ev [Hi [Es Hb]]]]|[Ev Es]]; rewrite Es; auto.
      symmetry. apply upd_same, abs_nth. auto. }
    destruct (V i) as [[b [Ev [Hi [Es Hb]]]]|[Ev Es]]; rewrite Ev.
    2: { eexists. split; [reflexivity|]. apply same_fine; auto. cbn [spec_step]. rewrite Es. auto. }
    destruct (V j) as [[c [Ew [Hj [Et Hc]]]]|[Ew Et]]; rewrite Ew.
    2: { eexists. split; [reflexivity|]. apply same_fine; auto. cbn [spec_step]. rewrite Es, Et. auto. }
    destruct (assign_trans (w_heap w) b c Hb Hc Hp) as [h1 [h2 [E1 [E2 [T [C D]]]]]].
    unfold assign. rewrite E1. cbn [obind]. rewrite E2. cbn [obind]. eexists. split; [reflexivity|].
    apply (changed_fine _ _ _ b (data (w_heap w) c) []); auto.
    + cbn [spec_step]. rewrite Es, Et. auto.
    + apply trans_moved; auto.
    + intros S _. apply C. eapply S; eauto.
    + intros _. left. eapply trans_keeps; eauto.
  - (* MoveAssign *) right. split; auto. destruct (Nat.eqb_spec i j) as [<-|Hn].
    { eexists. split; [reflexivity|]. apply same_fine; auto. cbn [spec_step]. rewrite Nat.eqb_refl. auto. }
    destruct (V i) as [[b [Ev [Hi [Es Hb]]]]|[Ev Es]]; rewrite Ev.
    2: { eexists. split; [reflexivity|]. apply same_fine; auto. cbn [spec_step]. rewrite Es.
         destruct (i =? j); auto. }
    destruct (V j) as [[c [Ew [Hj [Et Hc]]]]|[Ew Et]]; rewrite Ew.
    2: { eexists. split; [reflexivity|]. apply same_fine; auto. cbn [spec_step]. rewrite Es, Et.
         destruct (i =? j); auto. }
    pose proof (swap_inv w i j b c I Hn Hi Hj) as I1. pose proof (swap_abs w i j b c) as A1.
    assert (Hj1 : nth_error (w_bufs (swap w i j b c)) j = Some (Some b)).
    { cbn. rewrite nth_upd_eq; auto. rewrite upd_length. eapply nth_lt; eauto. }
    destruct (release_ok (w_heap w) b Hb Hp) as [h2 [E2 [T2 C2]]].
    unfold move_assign. change (w_heap (swap w i j b c)) with (w_heap w). rewrite E2. cbn [obind].
    eexists. split; [reflexivity|].
    assert (Eq : abs (set_var h2 (swap w i j b c) j (Some empty_buf)) = spec_step [] (MoveAssign i j) (abs w)).
    { rewrite (changed_abs _ _ b); auto.
      - rewrite A1. cbn [spec_step]. rewrite (proj2 (Nat.eqb_neq i j) Hn), Es, Et, upd_upd. auto.
      - left. eapply trans_keeps; eauto. }
    split.
    + eapply changed_inv; eauto. apply trans_moved; auto.
    + intros _ S. eapply changed_safe; eauto. apply swap_safe; auto.
    + intros _. exists []. split; auto. intros k _. rewrite Eq. auto.
  - (* Swap *) right. split; auto. destruct (Nat.eqb_spec i j) as [<-|Hn].
    { eexists. split; [reflexivity|]. apply same_fine; auto. cbn [spec_step]. rewrite Nat.eqb_refl. auto. }
    destruct (V i) as [[b [Ev [Hi [Es Hb]]]]|[Ev Es]]; rewrite Ev.
    2: { eexists. split; [reflexivity|]. apply same_fine; auto. cbn [spec_step]. rewrite Es.
         destruct (i =? j); auto. }
    destruct (V j) as [[c [Ew [Hj [Et Hc]]]]|[Ew Et]]; rewrite Ew.
    2: { eexists. split; [reflexivity|]. apply same_fine; auto. cbn [spec_step]. rewrite Es, Et.
         destruct (i =? j); auto. }
    eexists. split; [reflexivity|].
    assert (Eq : abs (swap w i j b c) = spec_step [] (Swap i j) (abs w)).
    { rewrite swap_abs. cbn [spec_step]. rewrite (proj2 (Nat.eqb_neq i j) Hn), Es, Et. auto. }
    split.
    + apply swap_inv; auto.
    + intros _ S. apply swap_safe; auto.
    + intros _. exists []. split; auto. intros k _. rewrite Eq. auto.
  - (* Destroy *) right. split; auto. destruct (V i) as [[b [Ev [Hi [Es Hb]]]]|[Ev Es]]; rewrite Ev.
    2: { eexists. split; [reflexivity|]. apply same_fine; auto. cbn [spec_step]. rewrite Es. auto. }
    destruct (release_ok (w_heap w) b Hb Hp) as [h2 [E2 [T2 C2]]]. unfold destroy. rewrite E2. cbn [obind].
    eexists. split; [reflexivity|].
    pose proof (changed_inv w i b h2 empty_buf I Hi (trans_moved _ _ _ _ T2)) as I1.
    assert (Eu : set_var h2 w i None = set_var h2 (set_var h2 w i (Some empty_buf)) i None).
    { unfold set_var. cbn. rewrite upd_upd. auto. }
    assert (Hi1 : nth_error (w_bufs (set_var h2 w i (Some empty_buf))) i = Some (Some empty_buf)).
    { cbn. rewrite nth_upd_eq; auto. eapply nth_lt; eauto. }
    assert (Eq : abs (set_var h2 w i None) = spec_step [] (Destroy i) (abs w)).
    { rewrite Eu. unfold abs at 1. cbn [set_var w_bufs w_heap]. rewrite map_upd.
      change (map (option_map (data h2)) (upd (w_bufs w) i (Some empty_buf))) with
        (abs (set_var h2 w i (Some empty_buf))).
      rewrite (changed_abs _ _ b); auto; [|left; eapply trans_keeps; eauto].
      cbn [spec_step]. rewrite Es, upd_upd. auto. }
    split.
    + rewrite Eu. apply (drop_inv (set_var h2 w i (Some empty_buf)) i); auto.
    + intros _ S. rewrite Eu. apply (drop_safe (set_var h2 w i (Some empty_buf)) i). eapply changed_safe; eauto.
    + intros _. exists []. split; auto. intros k _. rewrite Eq. auto.
  - (* AddStart *) right. split; auto. destruct (V i) as [[b [Ev [Hi [Es Hb]]]]|[Ev Es]]; rewrite Ev.
    2: { eexists. split; [reflexivity|]. apply same_fine; auto. cbn [spec_step]. rewrite Es. auto. }
    destruct (add_at_start_ok junk size (w_heap w) b Hb Hp) as [h' [b' [E G]]].
    unfold changed. rewrite E. cbn [obind]. eexists. split; [reflexivity|].
    destruct (gs_data _ _ _ _ _ G) as [x [Lx Dx]].
    apply (changed_fine _ _ _ b (x ++ data (w_heap w) b) x); auto.
    + cbn [spec_step]. rewrite Es. auto.
    + apply trans_moved, G.
    + intros _ _. apply G.
    + intros _. left. eapply trans_keeps, G.
  - (* AddStartBytes *) right. split; auto. destruct (V i) as [[b [Ev [Hi [Es Hb]]]]|[Ev Es]]; rewrite Ev.
    2: { eexists. split; [reflexivity|]. apply same_fine; auto. cbn [spec_step]. rewrite Es. auto. }
    destruct (add_bytes_start_ok junk bs (w_heap w) b Hb Hp) as [h' [b' [E [R C]]]].
    unfold changed. rewrite E. cbn [obind]. eexists. split; [reflexivity|].
    apply (changed_fine _ _ _ b (bs ++ data (w_heap w) b) []); auto; try apply R.
    + cbn [spec_step]. rewrite Es. auto.
    + intros _. right. split; [exact Logic.I|apply R].
  - (* AddStartBuf *) right. split; auto. destruct (V i) as [[b [Ev [Hi [Es Hb]]]]|[Ev Es]]; rewrite Ev.
    2: { eexists. split; [reflexivity|]. apply same_fine; auto. cbn [spec_step]. rewrite Es. auto. }
    destruct (V j) as [[c [Ew [Hj [Et Hc]]]]|[Ew Et]]; rewrite Ew.
    2: { eexists. split; [reflexivity|]. apply same_fine; auto. cbn [spec_step]. rewrite Es, Et. auto. }
    destruct (Nat.eqb_spec i j) as [<-|Hn].
    + destruct (add_self_start_ok junk (w_heap w) b Hb Hp) as [h' [b' [x [E [Lx [R C]]]]]].
      unfold changed. rewrite E. cbn [obind]. eexists. split; [reflexivity|]. split.
      * apply (changed_inv _ _ b); auto. apply R.
      * intros _ S. apply (changed_safe _ _ b); auto.
      * intros H. exfalso. apply H. auto.
    + destruct (add_buf_start_ok junk c (w_heap w) b Hb Hp Hc) as [h' [b' [E [R C]]]].
      { eapply world_apart; eauto. }
      unfold changed. rewrite E. cbn [obind]. eexists. split; [reflexivity|].
      apply (changed_fine _ _ _ b (data (w_heap w) c ++ data (w_heap w) b) []); auto; try apply R.
      * cbn [spec_step]. rewrite Es, Et. auto.
      * intros _. right. split; [exact Logic.I|apply R].
  - (* AddEnd *) right. split; auto. destruct (V i) as [[b [Ev [Hi [Es Hb]]]]|[Ev Es]]; rewrite Ev.
    2: { eexists. split; [reflexivity|]. apply same_fine; auto. cbn [spec_step]. rewrite Es. auto. }
    destruct (add_at_end_ok junk size (w_heap w) b Hb Hp) as [h' [b' [E G]]].
    unfold changed. rewrite E. cbn [obind]. eexists. split; [reflexivity|].
    destruct (ge_data _ _ _ _ _ G) as [x [Lx Dx]].
    apply (changed_fine _ _ _ b (data (w_heap w) b ++ x) x); auto.
    + cbn [spec_step]. rewrite Es. auto.
    + apply trans_moved, G.
    + intros _ _. apply G.
    + intros _. left. eapply trans_keeps, G.
  - (* AddEndBytes *) right. split; auto. destruct (V i) as [[b [Ev [Hi [Es Hb]]]]|[Ev Es]]; rewrite Ev.
    2: { eexists. split; [reflexivity|]. apply same_fine; auto. cbn [spec_step]. rewrite Es. auto. }
    destruct (add_bytes_end_ok junk bs (w_heap w) b Hb Hp) as [h' [b' [E [R C]]]].
    unfold changed. rewrite E. cbn [obind]. eexists. split; [reflexivity|].
    apply (changed_fine _ _ _ b (data (w_heap w) b ++ bs) []); auto; try apply R.
    + cbn [spec_step]. rewrite Es. auto.
    + intros _. right. split; [exact Logic.I|apply R].
  - (* AddEndBuf *) right. split; auto. destruct (V i) as [[b [Ev [Hi [Es Hb]]]]|[Ev Es]]; rewrite Ev.
    2: { eexists. split; [reflexivity|]. apply same_fine; auto. cbn [spec_step]. rewrite Es. auto. }
    destruct (V j) as [[c [Ew [Hj [Et Hc]]]]|[Ew Et]]; rewrite Ew.
    2: { eexists. split; [reflexivity|]. apply same_fine; auto. cbn [spec_step]. rewrite Es, Et. auto. }
    assert (G : exists h' b', add_buf_end junk (if i =? j then None else Some c) (w_heap w) b = Done (h', b') /\
      result hi (w_heap w) b (data (w_heap w) b ++ data (w_heap w) c) h' b' /\ covers (w_heap w) b h' b').
    { destruct (Nat.eqb_spec i j) as [<-|Hn].
      - assert (c = b) by congruence. subst c. apply add_self_end_ok; auto.
      - apply add_buf_end_ok; auto. eapply world_apart; eauto. }
    destruct G as [h' [b' [E [R C]]]].
    unfold changed. rewrite E. cbn [obind]. eexists. split; [reflexivity|].
    apply (changed_fine _ _ _ b (data (w_heap w) b ++ data (w_heap w) c) []); auto; try apply R.
    + cbn [spec_step]. rewrite Es, Et. auto.
    + intros _. right. split; [exact Logic.I|apply R].
  - (* RemStart *) right. split; auto. destruct (V i) as [[b [Ev [Hi [Es Hb]]]]|[Ev Es]]; rewrite Ev.
    2: { eexists. split; [reflexivity|]. apply same_fine; auto. cbn [spec_step]. rewrite Es. auto. }
    destruct (remove_at_start_ok size (w_heap w) b Hb Hp) as [h' [b' [E [T [C D]]]]].
    unfold changed. rewrite E. cbn [obind]. eexists. split; [reflexivity|].
    apply (changed_fine _ _ _ b (skipn size (data (w_heap w) b)) []); auto.
    + cbn [spec_step]. rewrite Es. auto.
    + apply trans_moved, T.
    + intros _. left. eapply trans_keeps, T.
  - (* RemEnd *) right. split; auto. destruct (V i) as [[b [Ev [Hi [Es Hb]]]]|[Ev Es]]; rewrite Ev.
    2: { eexists. split; [reflexivity|]. apply same_fine; auto. cbn [spec_step]. rewrite Es. auto. }
    destruct (remove_at_end_ok size (w_heap w) b Hb Hp) as [h' [b' [E [T [C D]]]]].
    unfold changed. rewrite E. cbn [obind]. eexists. split; [reflexivity|].
    apply (changed_fine _ _ _ b (drop_last size (data (w_heap w) b)) []); auto.
    + cbn [spec_step]. rewrite Es. auto.
    + apply trans_moved, T.
    + intros _. left. eapply trans_keeps, T.
  - (* Fragment *) destruct (V i) as [[b [Ev [Hi [Es Hb]]]]|[Ev Es]]; rewrite Ev, Es.
    2: { right. split; auto. eexists. split; [reflexivity|]. apply same_fine; auto. cbn [spec_step]. rewrite Es. auto. }
    pose proof (data_length _ _ Hb) as DL. rewrite DL.
    destruct (Nat.ltb_spec (b_end b - b_start b) (start + size)).
    + left. split; auto. unfold make_fragment. 
      destruct (Nat.ltb_spec (b_end b - b_start b) start); auto.
      destruct (Nat.ltb_spec (b_end b - b_start b - start) size); auto. lia.
    + right. split; auto. destruct (make_fragment_ok start size (w_heap w) b Hb Hp H) as [h' [f [E [T D]]]].
      unfold created. rewrite E. cbn [obind]. eexists. split; [reflexivity|].
      eapply created_fine; eauto; try (intros ? Hf; exact Hf); try reflexivity.
      * cbn [spec_step]. rewrite Es. auto.
      * intros _ [].
  - (* Write *) destruct (V i) as [[b [Ev [Hi [Es Hb]]]]|[Ev Es]]; rewrite Ev, Es.
    2: { right. split; auto. eexists. split; [reflexivity|]. apply same_fine; auto. cbn [spec_step]. rewrite Es. auto. }
    pose proof (data_length _ _ Hb) as DL. rewrite DL.
    destruct (Nat.ltb_spec (b_end b - b_start b) (off + length bs)); [left; auto|]. right. split; auto.
    destruct (Nat.eqb_spec (length bs) 0) as [E0|E0].
    { eexists. split; [reflexivity|]. apply same_fine; auto. cbn [spec_step]. rewrite Es.
      destruct bs; [|discriminate]. cbn [length app]. rewrite Nat.add_0_r, firstn_skipn.
      symmetry. apply upd_same, abs_nth. auto. }
    destruct (write_ok (w_heap w) b off bs Hb H) as [a [s [m [Ea [Hl [Lm [E [D F]]]]]]]].
    { intros ->. auto. }
    rewrite E. cbn [obind]. eexists. split; [reflexivity|].
    apply (changed_fine _ _ _ b (firstn off (data (w_heap w) b) ++ bs ++ skipn (off + length bs) (data (w_heap w) b)) []); auto.
    + cbn [spec_step]. rewrite Es. auto.
    + apply write_moved; auto.
    + intros _ _ Cb. split; [apply write_cover; auto|]. intros c _ _ Cc. apply write_cover; auto.
    + intros Hu. left. intros c Hc Hap. apply F. intros Ec. exfalso.
      specialize (Hap a Ea Ec). rewrite (i_rc _ I) in Hap. cbn [writes_alone] in Hu.
      specialize (Hu b a Ev Ea). lia.
Qed.

End Sides.

(** ** Histories *)

Lemma bytes_of_str w i : inv w -> bytes_of w i = str (abs w) i.
Proof.
  intros I. rewrite str_abs. unfold bytes_of. destruct (var w i) as [b|] eqn:E; auto. cbn.
  apply var_some in E. pose proof (i_holds _ I _ _ E) as Hb. rewrite copy_to_data by auto.
  f_equal. rewrite <- (data_length _ _ Hb). apply firstn_all.
Qed.
Lemma nth_error_seq' n : forall st i, i < n -> nth_error (seq st n) i = Some (st + i).
Proof.
  induction n as [|n IH]; intros st [|i] H; cbn; try lia; [f_equal; lia|]. rewrite IH by lia. f_equal. lia.
Qed.
Lemma table_abs w : inv w -> table w = abs w.
Proof.
  intros I. apply list_ext. intros i. unfold table. rewrite nth_error_map.
  destruct (Nat.lt_ge_cases i (length (w_bufs w))).
  - rewrite nth_error_seq' by auto. cbn. rewrite bytes_of_str by auto. unfold str.
    destruct (nth_error (abs w) i) eqn:E; auto. apply nth_error_None in E. rewrite abs_length in E. lia.
  - rewrite !(proj2 (nth_error_None _ _)); auto; rewrite ?seq_length, ?abs_length; auto.
Qed.

Lemma init_inv : inv init.
Proof.
  split.
  - intros [|i] b H; discriminate.
  - intros a. unfold rc, init. cbn. destruct a; auto.
  - intros [|a] s H; discriminate.
Qed.
Lemma init_safe lo hi : safe lo hi init.
Proof. intros [|i] b H; discriminate. Qed.

Lemma step_done lo hi junk o w w' : inv w -> step junk o w = Done w' -> fine lo hi o w w'.
Proof.
  intros I H. destruct (step_main lo hi junk o w I) as [[_ E]|[_ [w1 [E F]]]]; congruence.
Qed.
Lemma steps_inv junk l : forall w w', inv w -> steps junk l w = Done w' -> inv w'.
Proof.
  induction l as [|o l IH]; intros w w' I H; cbn in *; [congruence|].
  destruct (step junk o w) as [w1| | |] eqn:E; cbn in H; try discriminate.
  apply (IH w1); auto. apply (step_done true true junk o w w1 I E).
Qed.
Lemma steps_safe lo hi junk l : Forall keeps_dirty l ->
  forall w w', inv w -> safe lo hi w -> steps junk l w = Done w' -> safe lo hi w'.
Proof.
  induction 1 as [|o l Ho Hl IH]; intros w w' I S H; cbn in *; [inversion H; subst; auto|].
  destruct (step junk o w) as [w1| | |] eqn:E; cbn in H; try discriminate.
  pose proof (step_done lo hi junk o w w1 I E) as F. apply (IH w1); auto; apply F; auto.
Qed.
Lemma steps_outcome junk l : forall w, inv w -> (exists w', steps junk l w = Done w') \/ steps junk l w = AssertFail.
Proof.
  induction l as [|o l IH]; intros w I; cbn; [eauto|].
  destruct (step_main true true junk o w I) as [[_ E]|[_ [w1 [E F]]]]; rewrite E; cbn; auto. apply IH, F.
Qed.
Lemma steps_app junk l r w : steps junk (l ++ r) w = let! w1 := steps junk l w in steps junk r w1.
Proof.
  revert w. induction l as [|o l IH]; intros w; cbn; auto. destruct (step junk o w); cbn; auto.
Qed.

Lemma own_content junk l o w w' : steps junk l init = Done w -> step junk o w = Done w' -> no_self_start o ->
  exists extra, length extra = extra_len o /\
    forall i, target o i \/ length (w_bufs w) <= i -> bytes_of w' i = str (spec_step extra o (table w)) i.
Proof.
  intros H1 H2 Hn. pose proof (steps_inv _ _ _ _ init_inv H1) as I. pose proof (step_done true true _ _ _ _ I H2) as F.
  destruct (f_good _ _ _ _ _ F Hn) as [x G]. exists x. split; [apply G|]. intros i Hi.
  rewrite bytes_of_str by apply F. rewrite table_abs by auto. unfold str. rewrite (g_own _ _ _ _ _ _ G i Hi). auto.
Qed.
Lemma all_content junk l o w w' : steps junk l init = Done w -> step junk o w = Done w' -> no_self_start o ->
  (Forall keeps_dirty l \/ ~ adds_data o) -> writes_alone o w ->
  exists extra, length extra = extra_len o /\ table w' = spec_step extra o (table w).
Proof.
  intros H1 H2 Hn Hk Ha. pose proof (steps_inv _ _ _ _ init_inv H1) as I. pose proof (step_done true true _ _ _ _ I H2) as F.
  destruct (f_good _ _ _ _ _ F Hn) as [x G]. exists x. split; [apply G|].
  rewrite !table_abs by (auto; apply F). apply G; auto. destruct Hk as [Hk|Hk]; auto. left. split; [|destruct o; reflexivity].
  eapply (steps_safe true true junk l Hk init w init_inv (init_safe _ _)); eauto.
Qed.
Lemma size_bytes junk l w i : steps junk l init = Done w -> size_of w i = option_map (@length N) (bytes_of w i).
Proof.
  intros H1. pose proof (steps_inv _ _ _ _ init_inv H1) as I. rewrite bytes_of_str by auto.
  rewrite str_abs. unfold size_of. destruct (var w i) as [b|] eqn:E; auto. cbn. apply var_some in E.
  rewrite data_length; auto. eapply I; eauto.
Qed.
Lemma step_outcome junk l o w : steps junk l init = Done w ->
  if bad_args o (table w) then step junk o w = AssertFail else exists w', step junk o w = Done w'.
Proof.
  intros H1. pose proof (steps_inv _ _ _ _ init_inv H1) as I. rewrite table_abs by auto.
  destruct (step_main true true junk o w I) as [[-> E]|[-> [w' [E _]]]]; eauto.
Qed.

(** Writing into bytes that were just added. *)
Lemma write_fresh_start junk l i n off bs w w1 w2 : steps junk l init = Done w -> Forall keeps_dirty l ->
  step junk (AddStart i n) w = Done w1 -> step junk (Write i off bs) w1 = Done w2 -> off + length bs <= n ->
  forall k, k <> i -> bytes_of w2 k = bytes_of w k.
Proof.
  intros H1 Hk E1 E2 Hb k Hn. pose proof (steps_inv _ _ _ _ init_inv H1) as I.
  pose proof (step_done true true _ _ _ _ I E1) as F1. pose proof (step_done true true _ _ _ _ (f_inv _ _ _ _ _ F1) E2) as F2.
  assert (S : safe true true w) by (eapply (steps_safe true true junk l Hk init w init_inv (init_safe _ _)); eauto).
  rewrite !bytes_of_str by (auto; apply F2). rewrite !str_abs.
  cbn [step] in E1. destruct (var w i) as [b|] eqn:Ev.
  2: { inversion E1; subst w1. cbn [step] in E2. rewrite Ev in E2. congruence. }
  pose proof Ev as Hi. apply var_some in Hi. pose proof (i_holds _ I _ _ Hi) as Hb'.
  destruct (add_at_start_ok true true junk n (w_heap w) b Hb' (i_pos _ I)) as [h' [b' [E G]]].
  unfold changed in E1. rewrite E in E1. cbn [obind] in E1. inversion E1; subst w1. clear E1.
  cbn [step] in E2. unfold var in E2 at 1. cbn [set_var w_bufs w_heap] in E2.
  rewrite nth_upd_eq in E2 by (eapply nth_lt; eauto).
  assert (Vk : forall h w0 x, var (set_var h w0 i x) k = var w0 k).
  { intros h w0 x. unfold var, set_var. cbn. rewrite nth_upd_neq; auto. }
  destruct (b_end b' - b_start b' <? off + length bs) eqn:Elt; [discriminate|]. apply Nat.ltb_ge in Elt.
  destruct (Nat.eqb_spec (length bs) 0).
  { inversion E2; subst. rewrite Vk. cbn [set_var w_heap]. destruct (var w k) as [c|] eqn:Ec; auto. cbn. f_equal.
    apply var_some in Ec. apply (t_frame _ _ _ _ (gs_trans _ _ _ _ _ _ _ G)); [eapply I; eauto|apply (world_apart w i k); auto]. }
  destruct (write_ok h' b' off bs (t_holds _ _ _ _ (gs_trans _ _ _ _ _ _ _ G)) Elt) as [a [s [m [Ea [Hl [Lm [Ew [D F]]]]]]]].
  { intros ->. auto. }
  rewrite Ew in E2. cbn [obind] in E2. inversion E2; subst w2. rewrite !Vk. cbn [set_var w_heap].
  destruct (var w k) as [c|] eqn:Ec; auto. cbn [option_map]. f_equal. apply var_some in Ec.
  assert (Hc : holds (w_heap w) c) by (eapply I; eauto).
  assert (Ha : apart (w_heap w) b c) by (apply (world_apart w i k); auto).
  rewrite F.
  - apply (t_frame _ _ _ _ (gs_trans _ _ _ _ _ _ _ G) c); auto.
  - intros Esc. left. pose proof (gs_fresh _ _ _ _ _ _ _ G) as Hf. specialize (Hf eq_refl ltac:(lia) c Hc Ha (S _ _ Ec)).
    rewrite Esc, Ea in Hf. specialize (Hf eq_refl ltac:(discriminate)). lia.
Qed.
Lemma write_fresh_end junk l i n off bs w w1 w2 s : steps junk l init = Done w -> Forall keeps_dirty l ->
  step junk (AddEnd i n) w = Done w1 -> step junk (Write i off bs) w1 = Done w2 ->
  bytes_of w i = Some s -> length s <= off ->
  forall k, k <> i -> bytes_of w2 k = bytes_of w k.
Proof.
  intros H1 Hk E1 E2 Hs Hb k Hn. pose proof (steps_inv _ _ _ _ init_inv H1) as I.
  pose proof (step_done true true _ _ _ _ I E1) as F1. pose proof (step_done true true _ _ _ _ (f_inv _ _ _ _ _ F1) E2) as F2.
  assert (S : safe true true w) by (eapply (steps_safe true true junk l Hk init w init_inv (init_safe _ _)); eauto).
  rewrite !bytes_of_str in * by (auto; apply F2). rewrite !str_abs in *.
  cbn [step] in E1. destruct (var w i) as [b|] eqn:Ev; [|discriminate].
  pose proof Ev as Hi. apply var_some in Hi. pose proof (i_holds _ I _ _ Hi) as Hb'.
  cbn in Hs. inversion Hs; subst s; clear Hs.
  destruct (add_at_end_ok true true junk n (w_heap w) b Hb' (i_pos _ I)) as [h' [b' [E G]]].
  unfold changed in E1. rewrite E in E1. cbn [obind] in E1. inversion E1; subst w1. clear E1.
  cbn [step] in E2. unfold var in E2 at 1. cbn [set_var w_bufs w_heap] in E2.
  rewrite nth_upd_eq in E2 by (eapply nth_lt; eauto).
  assert (Vk : forall h w0 x, var (set_var h w0 i x) k = var w0 k).
  { intros h w0 x. unfold var, set_var. cbn. rewrite nth_upd_neq; auto. }
  destruct (b_end b' - b_start b' <? off + length bs) eqn:Elt; [discriminate|]. apply Nat.ltb_ge in Elt.
  destruct (Nat.eqb_spec (length bs) 0).
  { inversion E2; subst. rewrite Vk. cbn [set_var w_heap]. destruct (var w k) as [c|] eqn:Ec; auto. cbn. f_equal.
    apply var_some in Ec. apply (t_frame _ _ _ _ (ge_trans _ _ _ _ _ _ _ G)); [eapply I; eauto|apply (world_apart w i k); auto]. }
  pose proof (t_holds _ _ _ _ (ge_trans _ _ _ _ _ _ _ G)) as Hb2.
  assert (L : b_end b' - b_start b' = length (data (w_heap w) b) + n).
  { rewrite <- (data_length _ _ Hb2). destruct (ge_data _ _ _ _ _ _ _ G) as [x [Lx ->]]. rewrite app_length. lia. }
  destruct (write_ok h' b' off bs Hb2 Elt) as [a [s [m [Ea [Hl [Lm [Ew [D F]]]]]]]].
  { intros ->. auto. }
  rewrite Ew in E2. cbn [obind] in E2. inversion E2; subst w2. rewrite !Vk. cbn [set_var w_heap].
  destruct (var w k) as [c|] eqn:Ec; auto. cbn [option_map]. f_equal. apply var_some in Ec.
  assert (Hc : holds (w_heap w) c) by (eapply I; eauto).
  assert (Ha : apart (w_heap w) b c) by (apply (world_apart w i k); auto).
  rewrite F.
  - apply (t_frame _ _ _ _ (ge_trans _ _ _ _ _ _ _ G) c); auto.
  - intros Esc. right. pose proof (ge_fresh _ _ _ _ _ _ _ G) as Hf. specialize (Hf eq_refl ltac:(lia) c Hc Ha (S _ _ Ec)).
    rewrite Esc, Ea in Hf. specialize (Hf eq_refl ltac:(discriminate)). lia.
Qed.

(** Reference counts. *)
Lemma count_exact junk l w a : steps junk l init = Done w ->
  (0 < users w a -> allocated w a (users w a)) /\ (users w a = 0 -> forall n, ~ allocated w a n).
Proof.
  intros H1. pose proof (steps_inv _ _ _ _ init_inv H1) as I. pose proof (i_rc _ I a) as Hr.
  unfold rc in Hr. split.
  - intros Hu. destruct (nth_error (w_heap w) a) as [[s|]|] eqn:E; try lia. exists s. auto.
  - intros Hu n [s [E1 E2]]. rewrite E1 in Hr. pose proof (i_pos _ I a s E1). lia.
Qed.

(** ** Fragments of what was just added *)

Lemma step_inv junk o w w' : inv w -> step junk o w = Done w' -> inv w'.
Proof. intros I H. apply (step_done true true junk o w w' I H). Qed.

(** After growing in place or not, the dirty area begins (ends) with the buffer. *)
Lemma start_dirty junk n h b h' b' : holds h b -> pos h -> 0 < n ->
  add_at_start junk n h b = Done (h', b') ->
  exists a s, b_st b' = Some a /\ live h' a s /\ sg_ds s = b_start b'.
Proof.
  intros Hb Hp Hn. pose proof (holds_le _ _ Hb) as Hle. unfold add_at_start.
  destruct (Nat.eqb_spec n 0); [lia|].
  assert (HR : forall cap ns d, start_realloc junk n cap ns d h b = Done (h', b') ->
            exists a s, b_st b' = Some a /\ live h' a s /\ sg_ds s = b_start b').
  { intros cap ns d. unfold start_realloc, allocate. destruct cap; [discriminate|].
    destruct (move_data _ b _ _ _) as [h2| | |]; cbn [obind]; try discriminate.
    destruct (release_opt h2 (b_st b)) as [h3| | |]; cbn [obind]; try discriminate.
    destruct (get h3 (length h)) as [s| | |] eqn:Eg; cbn [obind]; try discriminate.
    intros [= <- <-]. eexists _, _. split; [reflexivity|]. apply get_live in Eg.
    split; [apply put_live; eapply nth_lt; eauto|reflexivity]. }
  destruct (b_st b) as [a|] eqn:Ea; [|intros H; eauto].
  destruct (get h a) as [s| | |] eqn:Eg; cbn [obind]; try discriminate. apply get_live in Eg.
  assert (HA : start_adjust n a h b = Done (h', b') ->
            exists a s, b_st b' = Some a /\ live h' a s /\ sg_ds s = b_start b').
  { unfold start_adjust. rewrite (proj2 (get_live _ _ _) Eg). cbn [obind]. intros [= <- <-].
    eexists _, _. split; [reflexivity|]. split; [apply put_live; eapply nth_lt; eauto|reflexivity]. }
  assert (HM : forall d, start_move n d a h b = Done (h', b') ->
            exists a s, b_st b' = Some a /\ live h' a s /\ sg_ds s = b_start b').
  { intros d. unfold start_move. destruct (load_at _ _ _ _); cbn [obind]; try discriminate.
    destruct (store_at _ _ _ _) as [h1| | |]; cbn [obind]; try discriminate.
    destruct (get h1 a) eqn:Eg1; cbn [obind]; try discriminate. intros [= <- <-]. apply get_live in Eg1.
    eexists _, _. split; [reflexivity|]. split; [apply put_live; eapply nth_lt; eauto|reflexivity]. }
  destruct (sg_rc s =? 1); [|destruct (sg_ds s =? b_start b)]; destruct (n <=? b_start b);
    try destruct (_ <=? sg_cap s); intros H; eauto.
Qed.
Lemma end_dirty junk n h b h' b' : holds h b -> pos h -> 0 < n ->
  add_at_end junk n h b = Done (h', b') ->
  exists a s, b_st b' = Some a /\ live h' a s /\ sg_de s = b_end b'.
Proof.
  intros Hb Hp Hn. pose proof (holds_le _ _ Hb) as Hle. unfold add_at_end.
  destruct (Nat.eqb_spec n 0); [lia|].
  assert (HR : forall cap ns d, d = b_end b - b_start b -> end_realloc junk n cap ns d h b = Done (h', b') ->
            exists a s, b_st b' = Some a /\ live h' a s /\ sg_de s = b_end b').
  { intros cap ns d ->. unfold end_realloc, allocate. destruct cap; [discriminate|].
    destruct (move_data _ b _ _ _) as [h2| | |]; cbn [obind]; try discriminate.
    destruct (release_opt h2 (b_st b)) as [h3| | |]; cbn [obind]; try discriminate.
    destruct (get h3 (length h)) as [s| | |] eqn:Eg; cbn [obind]; try discriminate.
    intros [= <- <-]. eexists _, _. split; [reflexivity|]. apply get_live in Eg.
    split; [apply put_live; eapply nth_lt; eauto|cbn; lia]. }
  destruct (b_st b) as [a|] eqn:Ea; [|intros H; eauto].
  unfold holds in Hb. rewrite Ea in Hb. destruct Hb as [s0 [Hl0 Hr0]].
  destruct (get h a) as [s| | |] eqn:Eg; cbn [obind]; try discriminate. apply get_live in Eg.
  pose proof (live_fun _ _ _ _ Hl0 Eg). subst s0.
  assert (HA : end_adjust n (b_end b - b_start b) a h b = Done (h', b') ->
            exists a s, b_st b' = Some a /\ live h' a s /\ sg_de s = b_end b').
  { unfold end_adjust. rewrite (proj2 (get_live _ _ _) Eg). cbn [obind]. intros [= <- <-].
    eexists _, _. split; [reflexivity|]. split; [apply put_live; eapply nth_lt; eauto|cbn; lia]. }
  assert (HM : b_end b - b_start b + n <= sg_cap s ->
            end_move n (b_end b - b_start b) a h b = Done (h', b') ->
            exists a s, b_st b' = Some a /\ live h' a s /\ sg_de s = b_end b').
  { intros Hcap. unfold end_move. rewrite (proj2 (get_live _ _ _) Eg). cbn [obind].
    unfold load_at. rewrite (proj2 (get_live _ _ _) Eg). cbn [obind].
    destruct (mem_load _ _ _) as [bs|]; cbn [obind]; try discriminate.
    unfold store_at. rewrite (proj2 (get_live _ _ _) Eg). cbn [obind].
    destruct (mem_store _ _ bs) as [m|] eqn:Em; cbn [obind]; try discriminate.
    rewrite (proj2 (get_live _ _ _) (put_live h a _ (nth_lt _ _ _ Eg))). cbn [obind].
    intros [= <- <-]. eexists _, _. split; [reflexivity|].
    split; [apply put_live; unfold put; rewrite upd_length; eapply nth_lt; eauto|].
    cbn. unfold sg_cap in *. cbn. rewrite (mem_store_length _ _ _ _ Em). lia. }
  destruct (sg_rc s =? 1); [|destruct (sg_de s =? _)]; destruct (n <=? _);
    try (destruct (Nat.leb_spec (b_end b - b_start b + n) (sg_cap s))); intros Hd; eauto.
Qed.

(** A variable that shares range [d, d+n) of variable [i], which nobody else has. *)
Definition alias (w : world) (i f d n : nat) : Prop :=
  exists b c a, nth_error (w_bufs w) i = Some (Some b) /\ nth_error (w_bufs w) f = Some (Some c) /\
    i <> f /\ b_st b = Some a /\ b_st c = Some a /\ b_start c = b_start b + d /\
    b_end c = b_start b + d + n /\ d + n <= b_end b - b_start b /\
    forall k x, k <> i -> k <> f -> nth_error (w_bufs w) k = Some (Some x) -> b_st x = Some a ->
      b_start b + d + n <= b_start x \/ b_end x <= b_start b + d.

Lemma upd_id {A} (l : list A) i x : nth_error l i = Some x -> upd l i x = l.
Proof. apply upd_same. Qed.

Lemma alias_write junk w i f d n off bs w' : inv w -> alias w i f d n ->
  step junk (Write f off bs) w = Done w' ->
  off + length bs <= n /\ alias w' i f d n /\ w_bufs w' = w_bufs w /\
  (exists s, bytes_of w i = Some s /\
     bytes_of w' i = Some (firstn (d + off) s ++ bs ++ skipn (d + off + length bs) s)) /\
  (forall k, k <> i -> k <> f -> bytes_of w' k = bytes_of w k) /\ (forall lo hi, safe lo hi w -> safe lo hi w').
Proof.
  intros I (b & c & a & Hi & Hf & Hn & Eb & Ec & Hs & He & Hr & Ho) H.
  pose proof (step_inv _ _ _ _ I H) as I'.
  pose proof (i_holds _ I _ _ Hi) as Hb. pose proof (i_holds _ I _ _ Hf) as Hc.
  assert (Sf : forall lo hi, safe lo hi w -> safe lo hi w').
  { intros lo hi Hsf. apply (step_done lo hi _ _ _ _ I H); auto. exact Logic.I. }
  cbn [step] in H. rewrite (proj2 (var_some _ _ _) Hf) in H.
  destruct (Nat.ltb_spec (b_end c - b_start c) (off + length bs)); [discriminate|].
  assert (L : off + length bs <= n) by lia. split; [exact L|].
  destruct (Nat.eqb_spec (length bs) 0) as [E0|E0].
  - inversion H; subst w'. split; [exists b, c, a; auto 12|]. split; [auto|]. split; [|auto].
    eexists. rewrite bytes_of_str, (abs_str _ _ _ Hi) by auto. split; [reflexivity|]. f_equal.
    destruct bs; [|discriminate]. cbn [length app]. rewrite Nat.add_0_r, firstn_skipn. auto.
  - unfold write_data in H. rewrite Ec in H.
    destruct (write_ok (w_heap w) b (d + off) bs Hb) as [a' [s [m [Ea [Hl [Lm [W [D K]]]]]]]]; [lia|destruct bs; cbn in *; congruence|].
    unfold write_data in W. rewrite Eb in W. rewrite Hs, <- Nat.add_assoc in H. rewrite W in H. cbn [obind] in H.
    injection H as Hw. assert (Eu : upd (w_bufs w) f (Some c) = w_bufs w) by (apply upd_id; auto).
    assert (w' = mk_world (put (w_heap w) a' (set_bytes s m)) (w_bufs w)) as ->.
    { rewrite <- Hw. unfold set_var. rewrite Eu. auto. }
    split; [exists b, c, a; cbn [w_bufs]; auto 12|]. split; [auto|]. split; [|split; [|auto]].
    + eexists. rewrite !bytes_of_str by auto. unfold str, abs. cbn [w_bufs w_heap]. rewrite !nth_error_map, Hi. cbn.
      split; [reflexivity|]. rewrite D. auto.
    + intros k K1 K2. rewrite !bytes_of_str by auto. unfold str, abs. cbn [w_bufs w_heap]. rewrite !nth_error_map.
      destruct (nth_error (w_bufs w) k) as [[x|]|] eqn:Ek; auto. cbn. f_equal. apply K. intros Ex.
      assert (a' = a) by congruence. subst a'. destruct (Ho k x K1 K2 Ek Ex); lia.
Qed.

(** Making a fragment of the start (end) of a buffer at the start (end) of the dirty area. *)
Lemma fragment_world junk i st n w w' : inv w -> 0 < n -> step junk (Fragment i st n) w = Done w' ->
  forall b, nth_error (w_bufs w) i = Some (Some b) ->
  exists a s, b_st b = Some a /\ live (w_heap w) a s /\ st + n <= b_end b - b_start b /\
    w' = mk_world (put (w_heap w) a (mk_storage (S (sg_rc s)) (b_start b + st) (b_start b + st + n) (sg_bytes s)))
           (w_bufs w ++ [Some (mk_buf (Some a) (b_start b + st) (b_start b + st + n))]).
Proof.
  intros I Hn H b Hi. pose proof (i_holds _ I _ _ Hi) as Hb. cbn [step] in H.
  rewrite (proj2 (var_some _ _ _) Hi) in H. unfold make_fragment in H.
  destruct (Nat.ltb_spec (b_end b - b_start b) st); [discriminate|].
  destruct (Nat.ltb_spec (b_end b - b_start b - st) n); [discriminate|].
  destruct (Nat.eqb_spec n 0); [lia|]. unfold holds in Hb.
  destruct (b_st b) as [a|] eqn:Ea; [|lia]. destruct Hb as [s [Hl _]]. exists a, s.
  split; [auto|]. split; [auto|]. split; [lia|]. unfold add_ref in H.
  rewrite (proj2 (get_live _ _ _) Hl) in H. cbn [obind] in H. unfold dirty_all in H. cbn [b_st b_start b_end] in H.
  rewrite (proj2 (get_live _ _ _) (put_live (w_heap w) a _ (nth_lt _ _ _ Hl))) in H. cbn [obind created add_var] in H.
  inversion H. unfold add_var, put, set_dirty, set_rc. cbn. rewrite upd_upd. auto.
Qed.

Lemma fragment_zero junk i st w w' : inv w -> step junk (Fragment i st 0) w = Done w' ->
  w' = w \/ w' = mk_world (w_heap w) (w_bufs w ++ [Some empty_buf]).
Proof.
  intros I H. cbn [step] in H. destruct (var w i) as [b|]; [|left; congruence]. unfold make_fragment in H.
  destruct (_ <? _); [discriminate|]. destruct (_ <? _); [discriminate|]. right. inversion H. auto.
Qed.
Lemma empty_safe lo hi w : safe lo hi w -> safe lo hi (mk_world (w_heap w) (w_bufs w ++ [Some empty_buf])).
Proof.
  intros S k x Hk. cbn [w_bufs w_heap] in *. destruct (Nat.lt_ge_cases k (length (w_bufs w))).
  - rewrite nth_error_app1 in Hk by auto. eapply S; eauto.
  - rewrite nth_error_app2 in Hk by auto. destruct (k - length (w_bufs w)) as [|[|q]]; try discriminate.
    inversion Hk; subst. exact Logic.I.
Qed.
Lemma pair_safe lo hi junk i st n w w' : inv w -> safe lo hi w ->
  (0 < n -> forall b, nth_error (w_bufs w) i = Some (Some b) -> exists a s, b_st b = Some a /\ live (w_heap w) a s /\
     (lo = true -> st = 0 /\ sg_ds s = b_start b) /\
     (hi = true -> st + n = b_end b - b_start b /\ sg_de s = b_end b)) ->
  step junk (Fragment i st n) w = Done w' -> safe lo hi w'.
Proof.
  intros I S Hd H. destruct (Nat.eq_dec n 0) as [En|En].
  { subst n. destruct (fragment_zero _ _ _ _ _ I H) as [->| ->]; auto. apply empty_safe. auto. }
  destruct (nth_error (w_bufs w) i) as [[b|]|] eqn:Hi.
  2, 3: cbn [step] in H; unfold var in H; rewrite Hi in H; inversion H; subst; auto.
  destruct (fragment_world _ _ _ n _ _ I ltac:(lia) H b Hi) as (a & s & Ea & Hl & Hr & ->).
  destruct (Hd ltac:(lia) b eq_refl) as (a' & s' & Ea' & Hl' & D1 & D2).
  assert (a' = a) by congruence. subst a'. pose proof (live_fun _ _ _ _ Hl' Hl). subst s'.
  intros k x Hk. cbn [w_bufs w_heap] in *. unfold cover.
  assert (P : forall z, live (put (w_heap w) a (mk_storage (Datatypes.S (sg_rc s)) (b_start b + st) (b_start b + st + n) (sg_bytes s))) a z ->
            sg_ds z = b_start b + st /\ sg_de z = b_start b + st + n).
  { intros z Hz. rewrite (live_fun _ _ _ _ Hz (put_live (w_heap w) a _ (nth_lt _ _ _ Hl))). auto. }
  destruct (Nat.lt_ge_cases k (length (w_bufs w))).
  - rewrite nth_error_app1 in Hk by auto. pose proof (S _ _ Hk) as Hc. unfold cover in Hc.
    destruct (b_st x) as [y|] eqn:Ey; auto. intros z Hz. destruct (Nat.eq_dec y a) as [->|Hn].
    + specialize (Hc _ Hl). destruct (P z Hz) as [-> ->]. split; intros Hs; intuition lia.
    + apply put_other in Hz; auto.
  - rewrite nth_error_app2 in Hk by auto. destruct (k - length (w_bufs w)) as [|[|q]]; try discriminate.
    inversion Hk; subst x. cbn [b_st b_start b_end]. intros z Hz. destruct (P z Hz) as [-> ->]. lia.
Qed.

(** [AddAtStart(n)] and the fragment of these bytes. *)
Lemma grow_start_world junk i n w w1 b : inv w -> nth_error (w_bufs w) i = Some (Some b) ->
  step junk (AddStart i n) w = Done w1 ->
  exists h' b', add_at_start junk n (w_heap w) b = Done (h', b') /\ w1 = set_var h' w i (Some b') /\
    forall lo hi, grown_start lo hi n (w_heap w) b h' b'.
Proof.
  intros I Hi H. cbn [step] in H. rewrite (proj2 (var_some _ _ _) Hi) in H. unfold changed in H.
  destruct (add_at_start junk n (w_heap w) b) as [[h' b']| | |] eqn:E; try discriminate.
  cbn [obind] in H. inversion H. exists h', b'. split; auto. split; auto. intros lo hi.
  destruct (add_at_start_ok lo hi junk n (w_heap w) b (i_holds _ I _ _ Hi) (i_pos _ I)) as (h2 & b2 & E2 & G).
  congruence.
Qed.
Lemma grow_end_world junk i n w w1 b : inv w -> nth_error (w_bufs w) i = Some (Some b) ->
  step junk (AddEnd i n) w = Done w1 ->
  exists h' b', add_at_end junk n (w_heap w) b = Done (h', b') /\ w1 = set_var h' w i (Some b') /\
    forall lo hi, grown_end lo hi n (w_heap w) b h' b'.
Proof.
  intros I Hi H. cbn [step] in H. rewrite (proj2 (var_some _ _ _) Hi) in H. unfold changed in H.
  destruct (add_at_end junk n (w_heap w) b) as [[h' b']| | |] eqn:E; try discriminate.
  cbn [obind] in H. inversion H. exists h', b'. split; auto. split; auto. intros lo hi.
  destruct (add_at_end_ok lo hi junk n (w_heap w) b (i_holds _ I _ _ Hi) (i_pos _ I)) as (h2 & b2 & E2 & G).
  congruence.
Qed.

Lemma header_safe junk i n w w1 w2 : inv w -> safe true false w ->
  step junk (AddStart i n) w = Done w1 -> step junk (Fragment i 0 n) w1 = Done w2 -> safe true false w2.
Proof.
  intros I S H1 H2. pose proof (step_inv _ _ _ _ I H1) as I1.
  pose proof (f_safe _ _ _ _ _ (step_done true false _ _ _ _ I H1) Logic.I S) as S1.
  eapply (pair_safe true false); [exact I1|exact S1| |exact H2].
  intros Hn b1 Hi1. destruct (nth_error (w_bufs w) i) as [[b|]|] eqn:Hi.
  2, 3: cbn [step] in H1; unfold var in H1; rewrite Hi in H1; inversion H1; subst; congruence.
  destruct (grow_start_world _ _ _ _ _ _ I Hi H1) as (h' & b' & E & -> & G).
  cbn [set_var w_bufs w_heap] in *. rewrite nth_upd_eq in Hi1 by (eapply nth_lt; eauto). inversion Hi1; subst b1.
  destruct (start_dirty _ _ _ _ _ _ (i_holds _ I _ _ Hi) (i_pos _ I) Hn E) as (a & s & Ea & Hl & Hd).
  exists a, s. split; auto. split; auto. split; [auto|discriminate].
Qed.
Lemma trailer_safe junk i st n w w1 w2 : inv w -> safe false true w ->
  step junk (AddEnd i n) w = Done w1 -> step junk (Fragment i st n) w1 = Done w2 ->
  (forall b, nth_error (w_bufs w1) i = Some (Some b) -> st + n = b_end b - b_start b) -> safe false true w2.
Proof.
  intros I S H1 H2 He. pose proof (step_inv _ _ _ _ I H1) as I1.
  pose proof (f_safe _ _ _ _ _ (step_done false true _ _ _ _ I H1) Logic.I S) as S1.
  eapply (pair_safe false true); [exact I1|exact S1| |exact H2].
  intros Hn b1 Hi1. pose proof (He _ Hi1) as He1. destruct (nth_error (w_bufs w) i) as [[b|]|] eqn:Hi.
  2, 3: cbn [step] in H1; unfold var in H1; rewrite Hi in H1; inversion H1; subst; congruence.
  destruct (grow_end_world _ _ _ _ _ _ I Hi H1) as (h' & b' & E & -> & G).
  cbn [set_var w_bufs w_heap] in *. rewrite nth_upd_eq in Hi1 by (eapply nth_lt; eauto). inversion Hi1; subst b1.
  destruct (end_dirty _ _ _ _ _ _ (i_holds _ I _ _ Hi) (i_pos _ I) Hn E) as (a & s & Ea & Hl & Hd).
  exists a, s. split; auto. split; auto. split; [discriminate|auto].
Qed.

(** The fragment is an alias of the new bytes. *)
Lemma header_alias junk i n w w1 w2 hi b : inv w -> safe true hi w -> 0 < n ->
  nth_error (w_bufs w) i = Some (Some b) ->
  step junk (AddStart i n) w = Done w1 -> step junk (Fragment i 0 n) w1 = Done w2 ->
  alias w2 i (length (w_bufs w)) 0 n.
Proof.
  intros I S Hn Hi H1 H2. pose proof (step_inv _ _ _ _ I H1) as I1.
  destruct (grow_start_world _ _ _ _ _ _ I Hi H1) as (h' & b' & E & -> & G).
  assert (Hi1 : nth_error (w_bufs (set_var h' w i (Some b'))) i = Some (Some b')).
  { cbn. apply nth_upd_eq. eapply nth_lt; eauto. }
  destruct (fragment_world _ _ _ _ _ _ I1 Hn H2 b' Hi1) as (a & s & Ea & Hl & Hr & ->).
  cbn [set_var w_bufs w_heap] in *. pose proof (nth_lt _ _ _ Hi) as Li.
  exists b', (mk_buf (Some a) (b_start b' + 0) (b_start b' + 0 + n)), a. cbn [b_st b_start b_end w_bufs].
  split; [rewrite nth_error_app1 by (rewrite upd_length; auto); auto|].
  split. { rewrite nth_error_app2 by (rewrite upd_length; auto). rewrite upd_length, Nat.sub_diag. auto. }
  split; [lia|]. split; [auto|]. split; [auto|]. split; [auto|]. split; [auto|]. split; [exact Hr|].
  intros k x K1 K2 Hk Ex. left.
  assert (Hk' : nth_error (w_bufs w) k = Some (Some x)).
  { destruct (Nat.lt_ge_cases k (length (w_bufs w))).
    - rewrite nth_error_app1 in Hk by (rewrite upd_length; auto). rewrite nth_upd_neq in Hk by auto. auto.
    - exfalso. rewrite nth_error_app2 in Hk by (rewrite upd_length; auto). rewrite upd_length in Hk.
      destruct (k - length (w_bufs w)) as [|[|q]] eqn:Eq; try discriminate. lia. }
  pose proof (gs_fresh _ _ _ _ _ _ _ (G true hi) eq_refl Hn x (i_holds _ I _ _ Hk')
    (world_apart w i k b x I ltac:(auto) Hi Hk') (S _ _ Hk')) as F.
  rewrite Ex, Ea in F. specialize (F eq_refl ltac:(discriminate)). lia.
Qed.
Lemma trailer_alias junk i st n w w1 w2 lo b : inv w -> safe lo true w -> 0 < n ->
  nth_error (w_bufs w) i = Some (Some b) ->
  step junk (AddEnd i n) w = Done w1 -> step junk (Fragment i st n) w1 = Done w2 ->
  st = b_end b - b_start b ->
  alias w2 i (length (w_bufs w)) st n.
Proof.
  intros I S Hn Hi H1 H2 Est. pose proof (step_inv _ _ _ _ I H1) as I1.
  destruct (grow_end_world _ _ _ _ _ _ I Hi H1) as (h' & b' & E & -> & G).
  assert (Hi1 : nth_error (w_bufs (set_var h' w i (Some b'))) i = Some (Some b')).
  { cbn. apply nth_upd_eq. eapply nth_lt; eauto. }
  destruct (fragment_world _ _ _ _ _ _ I1 Hn H2 b' Hi1) as (a & s & Ea & Hl & Hr & ->).
  cbn [set_var w_bufs w_heap] in *. pose proof (nth_lt _ _ _ Hi) as Li.
  assert (Lb : b_end b' - b_start b' = st + n).
  { destruct (G lo true) as [T _ [x [Lx Dx]] _]. rewrite <- (data_length _ _ (t_holds _ _ _ _ T)), Dx, app_length, Lx.
    rewrite (data_length _ _ (i_holds _ I _ _ Hi)). lia. }
  exists b', (mk_buf (Some a) (b_start b' + st) (b_start b' + st + n)), a. cbn [b_st b_start b_end w_bufs].
  split; [rewrite nth_error_app1 by (rewrite upd_length; auto); auto|].
  split. { rewrite nth_error_app2 by (rewrite upd_length; auto). rewrite upd_length, Nat.sub_diag. auto. }
  split; [lia|]. split; [auto|]. split; [auto|]. split; [auto|]. split; [auto|]. split; [exact Hr|].
  intros k x K1 K2 Hk Ex. right.
  assert (Hk' : nth_error (w_bufs w) k = Some (Some x)).
  { destruct (Nat.lt_ge_cases k (length (w_bufs w))).
    - rewrite nth_error_app1 in Hk by (rewrite upd_length; auto). rewrite nth_upd_neq in Hk by auto. auto.
    - exfalso. rewrite nth_error_app2 in Hk by (rewrite upd_length; auto). rewrite upd_length in Hk.
      destruct (k - length (w_bufs w)) as [|[|q]] eqn:Eq; try discriminate. lia. }
  pose proof (ge_fresh _ _ _ _ _ _ _ (G lo true) eq_refl Hn x (i_holds _ I _ _ Hk')
    (world_apart w i k b x I ltac:(auto) Hi Hk') (S _ _ Hk')) as F.
  rewrite Ex, Ea in F. specialize (F eq_refl ltac:(discriminate)). lia.
Qed.

(** Programs that make headers only. *)
Lemma headers_safe junk : forall m l w w', length l <= m -> headers l -> inv w -> safe true false w ->
  steps junk l w = Done w' -> safe true false w'.
Proof.
  induction m as [|m IH]; intros l w w' Lm Hh I S H.
  { destruct l; [|cbn in Lm; lia]. inversion H; subst; auto. }
  destruct l as [|o l]; [inversion H; subst; auto|].
  assert (One : keeps_dirty o -> headers l -> safe true false w').
  { intros Ho Hl. cbn [steps] in H. destruct (step junk o w) as [w1| | |] eqn:E; cbn [obind] in H; try discriminate.
    pose proof (step_done true false _ _ _ _ I E) as F.
    apply (IH l w1 w'); auto; [cbn in Lm; lia|apply F|apply F; auto]. }
  destruct o; try (apply One; [exact Logic.I|exact Hh]); try (destruct Hh; fail).
  destruct l as [|o2 l2]; [apply One; [exact Logic.I|exact Hh]|].
  destruct o2; try (apply One; [exact Logic.I|exact Hh]).
  cbn [headers] in Hh. destruct Hh as [(<- & -> & ->) Hl]. cbn [steps] in H.
  destruct (step junk (AddStart i size) w) as [w1| | |] eqn:E1; cbn [obind] in H; try discriminate.
  destruct (step junk (Fragment i 0 size) w1) as [w2| | |] eqn:E2; cbn [obind] in H; try discriminate.
  apply (IH l2 w2 w'); auto; [cbn in Lm; lia|eapply step_inv; [eapply step_inv; eauto|eauto]|eapply header_safe; eauto].
Qed.
Lemma headers_content junk l o w w' : steps junk l init = Done w -> step junk o w = Done w' -> no_self_start o ->
  headers l -> ~ adds_at_end o -> writes_alone o w ->
  exists extra, length extra = extra_len o /\ table w' = spec_step extra o (table w).
Proof.
  intros H1 H2 Hn Hh Ho Ha. pose proof (steps_inv _ _ _ _ init_inv H1) as I.
  pose proof (step_done true false _ _ _ _ I H2) as F.
  destruct (f_good _ _ _ _ _ F Hn) as [x G]. exists x. split; [apply G|].
  rewrite !table_abs by (auto; apply F). apply G; auto. left.
  split; [|destruct o; auto; destruct Ho; exact Logic.I].
  eapply headers_safe; [apply le_n|exact Hh|apply init_inv|apply init_safe|exact H1].
Qed.
Lemma header_filled junk l i n off bs w w1 w2 w3 b : steps junk l init = Done w -> headers l ->
  nth_error (w_bufs w) i = Some (Some b) ->
  step junk (AddStart i n) w = Done w1 -> step junk (Fragment i 0 n) w1 = Done w2 ->
  step junk (Write (length (w_bufs w)) off bs) w2 = Done w3 ->
  off + length bs <= n /\
  (exists x s, bytes_of w i = Some s /\ bytes_of w2 i = Some (x ++ s) /\ length x = n /\
    bytes_of w3 i = Some ((firstn off x ++ bs ++ skipn (off + length bs) x) ++ s)) /\
  (forall k, k <> i -> k < length (w_bufs w) -> bytes_of w3 k = bytes_of w k).
Proof.
  intros H0 Hh Hi H1 H2 H3. pose proof (steps_inv _ _ _ _ init_inv H0) as I.
  assert (S : safe true false w) by (eapply headers_safe; [apply le_n|exact Hh|apply init_inv|apply init_safe|exact H0]).
  pose proof (step_inv _ _ _ _ I H1) as I1. pose proof (step_inv _ _ _ _ I1 H2) as I2.
  pose proof (step_inv _ _ _ _ I2 H3) as I3. pose proof (nth_lt _ _ _ Hi) as Li.
  pose proof (step_done true false _ _ _ _ I H1) as F1. pose proof (step_done true false _ _ _ _ I1 H2) as F2.
  destruct (f_good _ _ _ _ _ F1 Logic.I) as [x1 G1]. destruct (f_good _ _ _ _ _ F2 Logic.I) as [x2 G2].
  pose proof (g_all _ _ _ _ _ _ G1 ltac:(right; intros []) Logic.I) as A1.
  pose proof (g_all _ _ _ _ _ _ G2 ltac:(right; intros []) Logic.I) as A2.
  pose proof (g_len _ _ _ _ _ _ G1) as L1. cbn [extra_len] in L1.
  cbn [spec_step] in A1, A2. rewrite (abs_str _ _ _ Hi) in A1.
  set (s := data (w_heap w) b) in *.
  assert (Q1 : str (abs w1) i = Some (x1 ++ s)).
  { unfold str. rewrite A1, nth_upd_eq by (rewrite abs_length; auto). auto. }
  rewrite Q1 in A2. assert (Q2 : bytes_of w2 i = Some (x1 ++ s)).
  { rewrite bytes_of_str by auto. unfold str. rewrite A2. unfold str in Q1.
    destruct (nth_error (abs w1) i) eqn:E; [|discriminate]. rewrite nth_error_app1 by (eapply nth_lt; eauto).
    rewrite E. auto. }
  assert (K2 : forall k, k <> i -> k < length (w_bufs w) -> bytes_of w2 k = bytes_of w k).
  { intros k K1 K2. rewrite !bytes_of_str by auto. unfold str. rewrite A2, A1.
    rewrite nth_error_app1 by (rewrite upd_length, abs_length; auto). rewrite nth_upd_neq by auto. auto. }
  assert (Q0 : bytes_of w i = Some s) by (rewrite bytes_of_str by auto; apply (abs_str _ _ _ Hi)).
  destruct (Nat.eq_dec n 0) as [En|En].
  - rewrite En in *. assert (w3 = w2 /\ off + length bs <= 0) as [-> Hz].
    { pose proof H3 as H3'. cbn [step] in H3'.
      destruct (fragment_zero _ _ _ _ _ I1 H2) as [E|E].
      - exfalso. assert (length (abs w2) = length (abs w1)) by congruence. rewrite A2, app_length in H. cbn in H. lia.
      - assert (Lw : length (w_bufs w1) = length (w_bufs w)) by (rewrite <- !abs_length, A1, upd_length; auto).
        assert (Ev : var w2 (length (w_bufs w)) = Some empty_buf).
        { unfold var. rewrite E. cbn [w_bufs]. rewrite nth_error_app2 by lia. rewrite Lw, Nat.sub_diag. auto. }
        rewrite Ev in H3'. cbn [b_start b_end empty_buf] in H3'.
        destruct (Nat.ltb_spec (0 - 0) (off + length bs)); [discriminate|].
        destruct (Nat.eqb_spec (length bs) 0); [|lia]. inversion H3'. split; auto. }
    split; [exact Hz|]. split; [|auto]. exists x1, s. split; [auto|]. split; [auto|]. split; [auto|].
    assert (Eo : off = 0) by lia. assert (El : length bs = 0) by lia.
    destruct x1; [|discriminate]. destruct bs; [|discriminate]. rewrite Eo. auto.
  - pose proof (header_alias _ _ n _ _ _ false b I S ltac:(lia) Hi H1 H2) as Al.
    destruct (alias_write _ _ _ _ _ _ _ _ _ I2 Al H3) as (Hb & _ & _ & (s' & B1 & B2) & K & _).
    split; [exact Hb|]. split.
    + exists x1, s. split; [auto|]. split; [auto|]. split; [auto|]. rewrite B2. f_equal.
      assert (s' = x1 ++ s) by congruence. subst s'. cbn [Nat.add].
      rewrite firstn_app, skipn_app, L1. replace (off - n) with 0 by lia. replace (off + length bs - n) with 0 by lia.
      cbn [firstn skipn]. rewrite app_nil_r, <- !app_assoc. auto.
    + intros k K1 Kl. rewrite K by lia. auto.
Qed.
