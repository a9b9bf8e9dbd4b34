(** Lemmas about zero-compressed buffers: the stored part of such a buffer behaves as a
    [Buffer]. *)
From Coq Require Import ZifyBool ZifyNat ZifyN.
From Verif Require Import Base BaseProofs Buffer BufferSpec BufferProofs ZcIter ZcIterSpec ZcIterProofs
  ZcBuffer ZcBufferSpec.

Definition zok (z : zbuf) : Prop := z_start z <= z_zs z /\ z_zs z <= z_ze z /\ z_ze z <= z_end z.
Definition zh (z : zbuf) : nat := z_zs z - z_start z.
Definition zg (z : zbuf) : nat := z_ze z - z_zs z.
(** The stored part. *)
Definition phys (z : zbuf) : buf := mk_buf (z_st z) (z_start z) (z_end z - (z_ze z - z_zs z)).
Definition zexp (hl g : nat) (d : list N) : list N := firstn hl d ++ repeat 0%N g ++ skipn hl d.
Definition zdata (h : heap) (z : zbuf) : list N := zexp (zh z) (zg z) (data h (phys z)).

Lemma expand_zexp m s zs ze e : s <= zs -> zs <= ze -> ze <= e ->
  expand m s zs ze e = zexp (zs - s) (ze - zs) (firstn (e - (ze - zs) - s) (skipn s m)).
Proof.
  intros H1 H2 H3. unfold expand, zexp, slice. rewrite firstn_firstn, Nat.min_l by lia. f_equal. f_equal.
  rewrite skipn_firstn_comm, skipn_skipn'. f_equal; [lia|]. f_equal. lia.
Qed.

Lemma zmem_data h z : zok z -> holds h (phys z) ->
  exists m, z_memory h z = Done m /\ expand m (z_start z) (z_zs z) (z_ze z) (z_end z) = zdata h z /\
    z_end z - (z_ze z - z_zs z) <= length m.
Proof.
  intros [H1 [H2 H3]] H. unfold z_memory, zdata, data. unfold holds in H. cbn [phys b_st b_start b_end] in *.
  destruct (z_st z) as [a|].
  - destruct H as [s [Hl Hr]]. rewrite (proj2 (get_live _ _ _) Hl). cbn [obind]. eexists. split; [reflexivity|].
    rewrite Hl. split; [apply expand_zexp; auto|]. unfold sg_cap in Hr. lia.
  - destruct H as [E1 E2]. exists []. split; auto. split; [|cbn; lia].
    rewrite expand_zexp by auto. rewrite skipn_nil, firstn_nil. auto.
Qed.
Lemma phys_size z : zok z -> b_end (phys z) - b_start (phys z) = z_internal z.
Proof. unfold zok, z_internal. cbn. lia. Qed.
Lemma phys_sizes z : zok z -> b_end (phys z) - b_start (phys z) + zg z = z_size z.
Proof. unfold zok, z_size, zg. cbn. lia. Qed.
Lemma zh_le z : zok z -> zh z <= b_end (phys z) - b_start (phys z).
Proof. unfold zok, zh. cbn. lia. Qed.
Lemma zdata_length h z : zok z -> holds h (phys z) -> length (zdata h z) = z_size z.
Proof.
  intros Hz H. unfold zdata, zexp. rewrite !app_length, repeat_length, firstn_length, skipn_length.
  rewrite (data_length _ _ H). pose proof (phys_sizes z Hz). pose proof (zh_le z Hz). lia.
Qed.

(** ** Growing *)

Definition lifted (z : zbuf) (n1 : nat) (z' : zbuf) (b' : buf) : Prop :=
  phys z' = b' /\ zok z' /\ zh z' = n1 + zh z /\ zg z' = zg z.

Ltac lift_tac :=
  unfold lifted, phys, zok, zh, zg in *; cbn [z_st z_start z_zs z_ze z_end] in *;
  repeat split; try (f_equal; lia); lia.

Lemma zstart_realloc junk n cap ns ds h z h' b' : zok z ->
  start_realloc junk n cap ns ds h (phys z) = Done (h', b') ->
  exists z', z_start_realloc junk n cap ns ds h z = Done (h', z') /\ lifted z n z' b'.
Proof.
  intros Hz. unfold start_realloc, z_start_realloc.
  destruct (allocate junk h cap) as [h1 [a'|]]; [|discriminate].
  change (z_move_data h1 z a' (ns + n) ds) with (move_data h1 (phys z) a' (ns + n) ds).
  destruct (move_data h1 (phys z) a' (ns + n) ds) as [h2| | |]; try discriminate. cbn [obind].
  change (b_st (phys z)) with (z_st z).
  destruct (release_opt h2 (z_st z)) as [h3| | |]; try discriminate. cbn [obind].
  destruct (get h3 a') as [s| | |]; try discriminate. cbn [obind].
  intros [= <- <-]. eexists. split; [reflexivity|]. lift_tac.
Qed.
Lemma zend_realloc junk n cap ns ds h z h' b' : zok z ->
  end_realloc junk n cap ns ds h (phys z) = Done (h', b') ->
  exists z', z_end_realloc junk n cap ns ds h z = Done (h', z') /\ lifted z 0 z' b'.
Proof.
  intros Hz. unfold end_realloc, z_end_realloc.
  destruct (allocate junk h cap) as [h1 [a'|]]; [|discriminate].
  change (z_move_data h1 z a' ns ds) with (move_data h1 (phys z) a' ns ds).
  destruct (move_data h1 (phys z) a' ns ds) as [h2| | |]; try discriminate. cbn [obind].
  change (b_st (phys z)) with (z_st z).
  destruct (release_opt h2 (z_st z)) as [h3| | |]; try discriminate. cbn [obind].
  destruct (get h3 a') as [s| | |]; try discriminate. cbn [obind].
  intros [= <- <-]. eexists. split; [reflexivity|]. lift_tac.
Qed.
Lemma lifted_same z : zok z -> lifted z 0 z (phys z).
Proof. intros H. split; auto. Qed.

Lemma zadd_start junk n h z h' b' : zok z -> add_at_start junk n h (phys z) = Done (h', b') ->
  exists z', z_add_at_start junk n h z = Done (h', z') /\ lifted z n z' b'.
Proof.
  intros Hz. unfold add_at_start, z_add_at_start. rewrite (phys_size z Hz).
  destruct (Nat.eqb_spec n 0) as [-> |Hn].
  { intros [= <- <-]. eexists. split; [reflexivity|]. apply lifted_same; auto. }
  change (b_st (phys z)) with (z_st z). change (b_start (phys z)) with (z_start z).
  destruct (z_st z) as [a|] eqn:Ea; [|apply zstart_realloc; auto].
  destruct (get h a) as [s| | |]; try discriminate. cbn [obind].
  assert (Adj : n <= z_start z -> start_adjust n a h (phys z) = Done (h', b') ->
    exists z', z_start_adjust n a h z = Done (h', z') /\ lifted z n z' b').
  { intros Hle. unfold start_adjust, z_start_adjust. destruct (get h a) as [s'| | |]; try discriminate.
    cbn [obind]. intros [= <- <-]. eexists. split; [reflexivity|]. lift_tac. }
  assert (Mov : start_move n (z_internal z) a h (phys z) = Done (h', b') ->
    exists z', z_start_move n (z_internal z) a h z = Done (h', z') /\ lifted z n z' b').
  { unfold start_move, z_start_move. change (b_start (phys z)) with (z_start z).
    destruct (load_at h a (z_start z) (z_internal z)) as [bs| | |]; try discriminate. cbn [obind].
    destruct (store_at h a n bs) as [h1| | |]; try discriminate. cbn [obind].
    destruct (get h1 a) as [s'| | |]; try discriminate. cbn [obind].
    intros [= <- <-]. eexists. split; [reflexivity|]. lift_tac. }
  destruct (sg_rc s =? 1).
  - destruct (Nat.leb_spec n (z_start z)); [auto|].
    destruct (z_internal z + n <=? sg_cap s); [auto|apply zstart_realloc; auto].
  - destruct (sg_ds s =? z_start z).
    + destruct (Nat.leb_spec n (z_start z)); [auto|apply zstart_realloc; auto].
    + destruct (n <=? z_start z); apply zstart_realloc; auto.
Qed.
Lemma zadd_end junk n h z h' b' : zok z -> add_at_end junk n h (phys z) = Done (h', b') ->
  exists z', z_add_at_end junk n h z = Done (h', z') /\ lifted z 0 z' b'.
Proof.
  intros Hz. unfold add_at_end, z_add_at_end. rewrite (phys_size z Hz).
  destruct (Nat.eqb_spec n 0) as [-> |Hn].
  { intros [= <- <-]. eexists. split; [reflexivity|]. apply lifted_same; auto. }
  change (b_st (phys z)) with (z_st z). change (b_start (phys z)) with (z_start z).
  destruct (z_st z) as [a|] eqn:Ea; [|apply zend_realloc; auto].
  destruct (get h a) as [s| | |] eqn:Eg; try discriminate. cbn [obind].
  assert (Adj : end_adjust n (z_internal z) a h (phys z) = Done (h', b') ->
    exists z', z_end_adjust n (z_internal z) a h z = Done (h', z') /\ lifted z 0 z' b').
  { unfold end_adjust, z_end_adjust. rewrite Eg.
    cbn [obind]. intros [= <- <-]. eexists. split; [reflexivity|]. lift_tac. }
  assert (Mov : end_move n (z_internal z) a h (phys z) = Done (h', b') ->
    exists z', z_end_move n (z_internal z) a h z = Done (h', z') /\ lifted z 0 z' b').
  { unfold end_move, z_end_move. change (b_start (phys z)) with (z_start z). rewrite Eg. cbn [obind].
    destruct (load_at h a (z_start z) (z_internal z)) as [bs| | |]; try discriminate. cbn [obind].
    destruct (store_at h a (sg_cap s - (z_internal z + n)) bs) as [h1| | |]; try discriminate. cbn [obind].
    destruct (get h1 a) as [s'| | |]; try discriminate. cbn [obind].
    intros [= <- <-]. eexists. split; [reflexivity|]. lift_tac. }
  destruct (sg_rc s =? 1).
  - destruct (n <=? sg_cap s - (z_start z + z_internal z)); [auto|].
    destruct (z_internal z + n <=? sg_cap s); [auto|apply zend_realloc; auto].
  - destruct (sg_de s =? z_start z + z_internal z).
    + destruct (n <=? sg_cap s - (z_start z + z_internal z)); [auto|apply zend_realloc; auto].
    + destruct (n <=? sg_cap s - (z_start z + z_internal z)); apply zend_realloc; auto.
Qed.

(** What more bytes at one end do to the expanded string. *)
Lemma zexp_start bs hl g d : zexp (length bs + hl) g (bs ++ d) = bs ++ zexp hl g d.
Proof.
  unfold zexp. rewrite firstn_app_2. rewrite <- app_assoc. f_equal. f_equal. f_equal.
  rewrite skipn_app. rewrite skipn_all2 by lia. cbn [app]. f_equal. lia.
Qed.
Lemma zexp_end bs hl g d : hl <= length d -> zexp hl g (d ++ bs) = zexp hl g d ++ bs.
Proof.
  intros H. unfold zexp. rewrite firstn_app, skipn_app. replace (hl - length d) with 0 by lia.
  cbn [firstn skipn]. rewrite app_nil_r, <- !app_assoc. auto.
Qed.

Section Both.
Notation grown_start := (grown_start true true). Notation grown_end := (grown_end true true).
Notation covers := (covers true true). Notation cover := (cover true true).
Notation keeps_covered := (keeps_covered true true).

(** ** One buffer *)

Record zresult (h : heap) (z : zbuf) (d : list N) (h' : heap) (z' : zbuf) : Prop := {
  zr_ok : zok z';
  zr_moved : moved h (phys z) h' (phys z');
  zr_covers : covers h (phys z) h' (phys z');
  zr_data : zdata h' z' = d;
  zr_keeps : keeps_covered h (phys z) h'
}.

Lemma lifted_start h h' z z' b' n : zok z -> holds h (phys z) -> lifted z n z' b' ->
  forall x, length x = n -> data h' b' = x ++ data h (phys z) -> zdata h' z' = x ++ zdata h z.
Proof.
  intros Hz Hh [E [_ [H1 H2]]] x Lx Dx. unfold zdata. rewrite E, H1, H2, Dx, <- Lx. apply zexp_start.
Qed.
Lemma lifted_end h h' z z' b' : zok z -> holds h (phys z) -> lifted z 0 z' b' ->
  forall x, data h' b' = data h (phys z) ++ x -> zdata h' z' = zdata h z ++ x.
Proof.
  intros Hz Hh [E [_ [H1 H2]]] x Dx. unfold zdata. rewrite E, H1, H2, Dx. apply zexp_end.
  rewrite (data_length _ _ Hh). apply zh_le; auto.
Qed.

Lemma zadd_start_ok junk n h z : zok z -> holds h (phys z) -> pos h ->
  exists h' z' x, z_add_at_start junk n h z = Done (h', z') /\ length x = n /\
    lifted z n z' (phys z') /\ grown_start n h (phys z) h' (phys z') /\
    grown_from (phys z) (phys z') h /\ zdata h' z' = x ++ zdata h z.
Proof.
  intros Hz Hh Hp. destruct (add_at_start_ok true true junk n h (phys z) Hh Hp) as [h' [b' [E G]]].
  destruct (zadd_start junk n h z h' b' Hz E) as [z' [E' L]]. destruct (gs_data _ _ _ _ _ _ _ G) as [x [Lx Dx]].
  exists h', z', x. pose proof L as L'. destruct L' as [Eb _]. subst b'.
  split; auto. split; auto. split; auto. split; auto. split.
  - apply from_apart. eapply start_from; eauto.
  - eapply lifted_start; eauto.
Qed.
Lemma zadd_end_ok junk n h z : zok z -> holds h (phys z) -> pos h ->
  exists h' z' x, z_add_at_end junk n h z = Done (h', z') /\ length x = n /\
    lifted z 0 z' (phys z') /\ grown_end n h (phys z) h' (phys z') /\
    grown_from (phys z) (phys z') h /\ zdata h' z' = zdata h z ++ x.
Proof.
  intros Hz Hh Hp. destruct (add_at_end_ok true true junk n h (phys z) Hh Hp) as [h' [b' [E G]]].
  destruct (zadd_end junk n h z h' b' Hz E) as [z' [E' L]]. destruct (ge_data _ _ _ _ _ _ _ G) as [x [Lx Dx]].
  exists h', z', x. pose proof L as L'. destruct L' as [Eb _]. subst b'.
  split; auto. split; auto. split; auto. split; auto. split.
  - apply from_apart. eapply end_from; eauto.
  - eapply lifted_end; eauto.
Qed.

Lemma zsame_result h z : zok z -> holds h (phys z) -> pos h -> zresult h z (zdata h z) h z.
Proof.
  intros. split; auto.
  - apply trans_moved, trans_refl; auto.
  - apply covers_refl.
  - intros c _ _ _. auto.
Qed.

(** Filling what was added. *)
Lemma zfill_start bs h z h1 z1 : zok z -> holds h (phys z) -> bs <> [] -> lifted z (length bs) z1 (phys z1) ->
  grown_start (length bs) h (phys z) h1 (phys z1) -> grown_from (phys z) (phys z1) h ->
  exists h2, z_store h1 z1 (z_start z1) bs = Done h2 /\ zresult h z (bs ++ zdata h z) h2 z1.
Proof.
  intros Hz Hh Hne L G F. destruct (fill_start true true bs h (phys z) h1 (phys z1) G F Hne) as [h2 [E [M [C [D K]]]]].
  exists h2. split.
  - unfold write_data in E. unfold z_store. cbn [phys b_st b_start] in E. rewrite Nat.add_0_r in E. exact E.
  - split; auto.
    + apply L.
    + eapply lifted_start; eauto.
Qed.
Lemma zfill_end bs h z h1 z1 : zok z -> holds h (phys z) -> bs <> [] -> lifted z 0 z1 (phys z1) ->
  grown_end (length bs) h (phys z) h1 (phys z1) -> grown_from (phys z) (phys z1) h ->
  exists h2, z_store h1 z1 (z_end z1 - (z_ze z1 - z_zs z1) - length bs) bs = Done h2 /\
    zresult h z (zdata h z ++ bs) h2 z1.
Proof.
  intros Hz Hh Hne L G F. destruct (fill_end true true bs h (phys z) h1 (phys z1) G F Hne) as [h2 [E [M [C [D K]]]]].
  destruct (ge_data _ _ _ _ _ _ _ G) as [x [Lx Dx]].
  pose proof (data_length _ _ (t_holds _ _ _ _ (ge_trans _ _ _ _ _ _ _ G))) as DL. rewrite Dx, app_length in DL.
  assert (Z1 : zok z1) by apply L.
  exists h2. split.
  - unfold write_data in E. unfold z_store. cbn [phys b_st b_start b_end] in *.
    replace (z_end z1 - (z_ze z1 - z_zs z1) - length bs)
      with (z_start z1 + (z_end z1 - (z_ze z1 - z_zs z1) - z_start z1 - length bs)) by (unfold zok in Z1; lia).
    exact E.
  - split; auto. eapply lifted_end; eauto.
Qed.

Lemma zadd_bytes_start_ok junk bs h z : zok z -> holds h (phys z) -> pos h ->
  exists h' z', z_add_bytes_start junk bs h z = Done (h', z') /\ zresult h z (bs ++ zdata h z) h' z'.
Proof.
  intros Hz Hh Hp. unfold z_add_bytes_start. destruct (Nat.eqb_spec (length bs) 0) as [E|E].
  { exists h, z. split; auto. destruct bs; [|discriminate]. apply zsame_result; auto. }
  destruct (zadd_start_ok junk (length bs) h z Hz Hh Hp) as [h1 [z1 [x [E1 [_ [L [G [F _]]]]]]]]. rewrite E1. cbn [obind].
  destruct (zfill_start bs h z h1 z1 Hz Hh) as [h2 [E2 R]]; auto.
  { intros ->. auto. }
  rewrite E2. cbn [obind]. eauto.
Qed.
Lemma zadd_bytes_end_ok junk bs h z : zok z -> holds h (phys z) -> pos h ->
  exists h' z', z_add_bytes_end junk bs h z = Done (h', z') /\ zresult h z (zdata h z ++ bs) h' z'.
Proof.
  intros Hz Hh Hp. unfold z_add_bytes_end. destruct (Nat.eqb_spec (length bs) 0) as [E|E].
  { exists h, z. split; auto. destruct bs; [|discriminate]. rewrite app_nil_r. apply zsame_result; auto. }
  destruct (zadd_end_ok junk (length bs) h z Hz Hh Hp) as [h1 [z1 [x [E1 [_ [L [G [F _]]]]]]]]. rewrite E1. cbn [obind].
  destruct (zfill_end bs h z h1 z1 Hz Hh) as [h2 [E2 R]]; auto.
  { intros ->. auto. }
  rewrite E2. cbn [obind]. eauto.
Qed.

(** ** Copying a buffer into a storage *)

Lemma put_put h a s s' : put (put h a s) a s' = put h a s'.
Proof. apply upd_upd. Qed.

(** Stores one behind the other. *)
Lemma mem_store_app m off x y m1 m2 : mem_store m off x = Some m1 -> mem_store m1 (off + length x) y = Some m2 ->
  mem_store m off (x ++ y) = Some m2.
Proof.
  intros H1 H2. pose proof (mem_store_length _ _ _ _ H1) as L1. pose proof (mem_store_length _ _ _ _ H2) as L2.
  pose proof (store_slice _ _ _ _ H1) as [_ [A1 B1]]. pose proof (store_slice _ _ _ _ H2) as [_ [A2 B2]].
  assert (Hb : off + length x + length y <= length m).
  { unfold mem_store in H2. destruct (Nat.leb_spec (off + length x + length y) (length m1)); [lia|discriminate]. }
  destruct (mem_store_some m off (x ++ y)) as [m3 H3]; [rewrite app_length; lia|].
  rewrite H3. f_equal. pose proof (mem_store_length _ _ _ _ H3) as L3.
  unfold mem_store in *. rewrite app_length in H3.
  destruct (Nat.leb_spec (off + length x) (length m)); [|discriminate].
  destruct (Nat.leb_spec (off + (length x + length y)) (length m)); [|discriminate].
  destruct (Nat.leb_spec (off + length x + length y) (length m1)); [|discriminate].
  inversion H1; subst m1. inversion H2; subst m2. inversion H3; subst m3. clear H1 H2 H3.
  rewrite firstn_app, firstn_length, Nat.min_l by lia.
  rewrite firstn_firstn, Nat.min_r by lia.
  replace (off + length x - off) with (length x) by lia.
  rewrite firstn_app, firstn_all, Nat.sub_diag. cbn [firstn]. rewrite app_nil_r, <- !app_assoc. f_equal. f_equal. f_equal.
  rewrite skipn_app, firstn_length, Nat.min_l by lia. rewrite (skipn_all2 (firstn off m)) by (rewrite firstn_length; lia). cbn [app].
  rewrite skipn_app. rewrite (skipn_all2 x) by lia. cbn [app].
  rewrite skipn_skipn'. f_equal. lia.
Qed.

Lemma store_at_app h d off x y h1 h2 : store_at h d off x = Done h1 ->
  store_at h1 d (off + length x) y = Done h2 -> store_at h d off (x ++ y) = Done h2.
Proof.
  unfold store_at. destruct (get h d) as [s| | |] eqn:Eg; try discriminate. cbn [obind].
  destruct (mem_store (sg_bytes s) off x) as [m1|] eqn:E1; [|discriminate]. intros [= <-].
  apply get_live in Eg. rewrite (proj2 (get_live _ _ _) (put_live h d _ (nth_lt _ _ _ Eg))). cbn [obind sg_bytes set_bytes].
  destruct (mem_store m1 (off + length x) y) as [m2|] eqn:E2; [|discriminate]. intros [= <-].
  rewrite (mem_store_app _ _ _ _ _ _ E1 E2). rewrite put_put. auto.
Qed.
Lemma store_some h d s off bs : live h d s -> off + length bs <= sg_cap s ->
  exists h1 s1, store_at h d off bs = Done h1 /\ live h1 d s1 /\ sg_cap s1 = sg_cap s /\
    (forall a, a <> d -> nth_error h1 a = nth_error h a) /\
    (forall a from n, (a = d -> from + n <= off \/ off + length bs <= from) ->
       load_at h1 a from n = load_at h a from n).
Proof.
  intros Hl Hb. unfold sg_cap in Hb. destruct (mem_store_some (sg_bytes s) off bs Hb) as [m Em].
  pose proof (store_slice _ _ _ _ Em) as [S1 [S2 S3]]. pose proof (nth_lt _ _ _ Hl) as Hlt.
  exists (put h d (set_bytes s m)), (set_bytes s m). split.
  { unfold store_at. rewrite (proj2 (get_live _ _ _) Hl). cbn [obind]. rewrite Em. auto. }
  split; [apply put_live; auto|]. split; [exact S1|].
  assert (O : forall a, a <> d -> nth_error (put h d (set_bytes s m)) a = nth_error h a).
  { intros a Ha. unfold put. apply nth_upd_neq. auto. }
  split; auto. intros a from n Ha. unfold load_at, get. destruct (Nat.eq_dec a d) as [-> |Hn].
  - rewrite (put_live h d _ Hlt), Hl. cbn [obind sg_bytes set_bytes]. unfold mem_load. rewrite S1.
    destruct (from + n <=? length (sg_bytes s)); auto. rewrite S3; auto.
  - rewrite O; auto.
Qed.
Lemma load_some h a s from n : live h a s -> from + n <= sg_cap s ->
  load_at h a from n = Done (firstn n (skipn from (sg_bytes s))).
Proof.
  intros Hl Hb. unfold load_at. rewrite (proj2 (get_live _ _ _) Hl). cbn [obind]. unfold mem_load, sg_cap in *.
  destruct (Nat.leb_spec (from + n) (length (sg_bytes s))); [auto|lia].
Qed.
Lemma move_some h a s from n d sd off : live h a s -> from + n <= sg_cap s -> live h d sd -> off + n <= sg_cap sd ->
  exists h1 s1, z_move h a from n d off = Done h1 /\
    store_at h d off (firstn n (skipn from (sg_bytes s))) = Done h1 /\ live h1 d s1 /\ sg_cap s1 = sg_cap sd /\
    (forall a, a <> d -> nth_error h1 a = nth_error h a) /\
    (forall a from' n', (a = d -> from' + n' <= off \/ off + n <= from') ->
       load_at h1 a from' n' = load_at h a from' n').
Proof.
  intros Hl Hb Hd Ho. unfold z_move. rewrite (load_some _ _ _ _ _ Hl Hb). cbn [obind].
  assert (L : length (firstn n (skipn from (sg_bytes s))) = n).
  { rewrite firstn_length, skipn_length. unfold sg_cap in Hb. lia. }
  destruct (store_some h d sd off (firstn n (skipn from (sg_bytes s))) Hd) as [h1 [s1 [E [H1 [H2 [H3 H4]]]]]]; [lia|].
  rewrite L in H4. exists h1, s1. auto 10.
Qed.

Lemma skipn_repeat {A} (x : A) n g : skipn n (repeat x g) = repeat x (g - n).
Proof. revert g. induction n; intros [|g]; cbn; auto. Qed.
Lemma firstn_repeat {A} (x : A) n g : firstn n (repeat x g) = repeat x (Nat.min n g).
Proof. revert g. induction n; intros [|g]; cbn; auto. f_equal. auto. Qed.
Lemma zexp_firstn hl g d n : hl <= length d -> firstn n (zexp hl g d) =
  if n <=? hl then firstn n d
  else if n - hl <=? g then firstn hl d ++ repeat 0%N (n - hl)
  else firstn hl d ++ repeat 0%N g ++ firstn (n - hl - g) (skipn hl d).
Proof.
  intros H. unfold zexp. rewrite !firstn_app, firstn_firstn, firstn_length, repeat_length, firstn_repeat.
  rewrite (Nat.min_l hl) by auto. destruct (Nat.leb_spec n hl).
  - rewrite Nat.min_l by lia. replace (n - hl) with 0 by lia. cbn. apply app_nil_r.
  - rewrite Nat.min_r by lia. destruct (Nat.leb_spec (n - hl) g).
    + rewrite Nat.min_l by lia. replace (n - hl - g) with 0 by lia. cbn [firstn]. rewrite app_nil_r. auto.
    + rewrite Nat.min_r by lia. auto.
Qed.
Lemma zexp_zero hl d : zexp hl 0 d = d.
Proof. unfold zexp. cbn. apply firstn_skipn. Qed.

Lemma copy_into_ok h c a n d sd off : zok c -> holds h (phys c) -> z_st c = Some a -> n <= z_size c ->
  live h d sd -> off + n <= sg_cap sd ->
  exists bs h2, length bs = n /\ z_copy_into h c n d off = Done h2 /\ store_at h d off bs = Done h2 /\
    (zg c = 0 \/ n <= zh c \/
     (a = d -> off + n <= z_start c \/ z_start c + (zh c + (n - zh c - zg c)) <= off) ->
     bs = firstn n (zdata h c)).
Proof.
  intros Hz Hh Ea Hn Hd Ho. pose proof Hh as Hh'. unfold holds in Hh'. cbn [phys b_st b_start b_end] in Hh'.
  rewrite Ea in Hh'. destruct Hh' as [s [Hl [_ Hr]]]. unfold z_copy_into. rewrite Ea.
  assert (Dc : data h (phys c) = firstn (z_end c - (z_ze c - z_zs c) - z_start c) (skipn (z_start c) (sg_bytes s))).
  { apply (data_live h (phys c) a s); auto. }
  assert (DL : zh c <= length (data h (phys c))) by (rewrite (data_length _ _ Hh); apply zh_le; auto).
  unfold zdata. rewrite zexp_firstn by auto. rewrite Dc.
  unfold zok, z_size, zh, zg, z_internal in *.
  assert (Len : forall from k, from + k <= sg_cap s -> length (firstn k (skipn from (sg_bytes s))) = k).
  { intros from k Hk. rewrite firstn_length, skipn_length. unfold sg_cap in Hk. lia. }
  destruct (Nat.eqb_spec (z_zs c) (z_ze c)) as [Eg|Eg].
  - replace (if z_zs c - z_start c + (z_end c - z_ze c) <=? n then z_zs c - z_start c + (z_end c - z_ze c) else n) with n.
    2: { destruct (Nat.leb_spec (z_zs c - z_start c + (z_end c - z_ze c)) n); lia. }
    destruct (move_some h a s (z_start c) n d sd off Hl) as [h1 [s1 [E1 [E2 _]]]]; try lia; auto.
    exists (firstn n (skipn (z_start c) (sg_bytes s))), h1. split; [apply Len; lia|]. split; [exact E1|]. split; [exact E2|]. intros _.
    destruct (Nat.leb_spec n (z_zs c - z_start c)).
    + rewrite firstn_firstn, Nat.min_l by lia. auto.
    + replace (z_ze c - z_zs c) with 0 by lia. destruct (Nat.leb_spec (n - (z_zs c - z_start c)) 0); [lia|].
      cbn [repeat app]. rewrite <- firstn_skipn_app, firstn_firstn. f_equal. lia.
  - destruct (Nat.leb_spec n (z_zs c - z_start c)) as [H1|H1].
    + destruct (move_some h a s (z_start c) n d sd off Hl) as [h1 [s1 [E1 [E2 _]]]]; try lia; auto.
      exists (firstn n (skipn (z_start c) (sg_bytes s))), h1. split; [apply Len; lia|]. split; [exact E1|]. split; [exact E2|]. intros _.
      rewrite firstn_firstn, Nat.min_l by lia. auto.
    + set (hl := z_zs c - z_start c) in *. set (g := z_ze c - z_zs c) in *.
      destruct (move_some h a s (z_start c) hl d sd off Hl) as [h1 [s1 [E1 [E2 [L1 [C1 [O1 F1]]]]]]]; try lia; auto.
      rewrite E1. cbn [obind]. pose proof (Len (z_start c) hl ltac:(lia)) as LH.
      destruct (Nat.leb_spec (n - hl) g) as [H2|H2].
      * destruct (store_some h1 d s1 (off + hl) (repeat 0%N (n - hl)) L1) as [h2 [s2 [E3 _]]].
        { rewrite repeat_length. lia. }
        eexists (firstn hl (skipn (z_start c) (sg_bytes s)) ++ repeat 0%N (n - hl)), h2.
        split; [rewrite app_length, LH, repeat_length; lia|]. split; [exact E3|]. split.
        { eapply store_at_app; eauto. rewrite LH. exact E3. }
        intros _. rewrite firstn_firstn, Nat.min_l by lia. auto.
      * destruct (store_some h1 d s1 (off + hl) (repeat 0%N g) L1) as [h2 [s2 [E3 [L2 [C2 [O2 F2]]]]]].
        { rewrite repeat_length. lia. }
        rewrite E3. cbn [obind]. rewrite repeat_length in F2.
        replace (if n - hl - g <=? z_end c - z_ze c then n - hl - g else z_end c - z_ze c) with (n - hl - g).
        2: { destruct (Nat.leb_spec (n - hl - g) (z_end c - z_ze c)); lia. }
        assert (La : exists s', live h2 a s' /\ sg_cap s' = sg_cap s).
        { destruct (Nat.eq_dec a d) as [-> |Hne].
          - exists s2. split; auto. rewrite C2, C1. f_equal. eapply live_fun; eauto.
          - exists s. split; auto. unfold live. rewrite O2, O1; auto. }
        destruct La as [s' [L2' C2']].
        destruct (move_some h2 a s' (z_zs c) (n - hl - g) d s2 (off + hl + g) L2') as [h3 [s3 [E4 [E5 _]]]]; try lia; auto.
        assert (LT : length (firstn (n - hl - g) (skipn (z_zs c) (sg_bytes s'))) = n - hl - g).
        { rewrite firstn_length, skipn_length. unfold sg_cap in *. lia. }
        exists (firstn hl (skipn (z_start c) (sg_bytes s)) ++ repeat 0%N g ++ firstn (n - hl - g) (skipn (z_zs c) (sg_bytes s'))), h3.
        split; [rewrite !app_length, LH, repeat_length, LT; lia|]. split; [exact E4|]. split.
        { rewrite app_assoc. eapply store_at_app.
          - eapply store_at_app; [exact E2|]. rewrite LH. exact E3.
          - rewrite app_length, LH, repeat_length, Nat.add_assoc. exact E5. }
        intros Hdis. rewrite firstn_firstn, Nat.min_l by lia. f_equal. f_equal.
        rewrite skipn_firstn_comm, firstn_firstn, Nat.min_l by lia. rewrite skipn_skipn'.
        assert (Lo : load_at h2 a (z_zs c) (n - hl - g) = load_at h a (z_zs c) (n - hl - g)).
        { rewrite F2, F1; auto; intros Ead; destruct Hdis as [Hd0|[Hd0|Hd0]]; try lia; specialize (Hd0 Ead); lia. }
        rewrite (load_some _ _ _ _ _ L2') in Lo by lia. rewrite (load_some _ _ _ _ _ Hl) in Lo by lia.
        inversion Lo as [Lo']. rewrite Lo'. f_equal. f_equal. lia.
Qed.

(** ** Adding a buffer *)

Lemma zgrown_some n h' z z' h : 0 < n -> zok z -> lifted z n z' (phys z') -> holds h' (phys z') ->
  (exists x, length x = n /\ data h' (phys z') = x ++ data h (phys z)) ->
  exists d s, z_st z' = Some d /\ live h' d s /\ z_start z' + n <= z_end z' - (z_ze z' - z_zs z') /\
    z_end z' - (z_ze z' - z_zs z') <= sg_cap s.
Proof.
  intros Hn Hz L Hh [x [Lx Dx]]. pose proof (data_length _ _ Hh) as DL. rewrite Dx, app_length in DL.
  unfold holds in Hh. cbn [phys b_st b_start b_end] in *. destruct (z_st z') as [d|].
  - destruct Hh as [s [Hl Hr]]. exists d, s. split; auto. split; auto. lia.
  - destruct Hh as [E1 E2]. lia.
Qed.
Lemma zgrown_some_end n h' z' h z : 0 < n -> holds h' (phys z') ->
  (exists x, length x = n /\ data h' (phys z') = data h (phys z) ++ x) ->
  exists d s, z_st z' = Some d /\ live h' d s /\ z_start z' + n <= z_end z' - (z_ze z' - z_zs z') /\
    z_end z' - (z_ze z' - z_zs z') <= sg_cap s.
Proof.
  intros Hn Hh [x [Lx Dx]]. pose proof (data_length _ _ Hh) as DL. rewrite Dx, app_length in DL.
  unfold holds in Hh. cbn [phys b_st b_start b_end] in *. destruct (z_st z') as [d|].
  - destruct Hh as [s [Hl Hr]]. exists d, s. split; auto. split; auto. lia.
  - destruct Hh as [E1 E2]. lia.
Qed.

Lemma grown_zresult_start n h z h1 z1 x : lifted z n z1 (phys z1) -> grown_start n h (phys z) h1 (phys z1) ->
  zdata h1 z1 = x ++ zdata h z -> zresult h z (x ++ zdata h z) h1 z1.
Proof.
  intros L G D. split; auto.
  - apply L.
  - apply trans_moved, G.
  - apply G.
  - apply keeps_weaken. eapply trans_keeps, G.
Qed.
Lemma grown_zresult_end n h z h1 z1 x : lifted z 0 z1 (phys z1) -> grown_end n h (phys z) h1 (phys z1) ->
  zdata h1 z1 = zdata h z ++ x -> zresult h z (zdata h z ++ x) h1 z1.
Proof.
  intros L G D. split; auto.
  - apply L.
  - apply trans_moved, G.
  - apply G.
  - apply keeps_weaken. eapply trans_keeps, G.
Qed.

Lemma same_zdata h h' c : data h' (phys c) = data h (phys c) -> zdata h' c = zdata h c.
Proof. intros E. unfold zdata. rewrite E. auto. Qed.

Lemma zadd_buf_start_ok junk c h z : zok z -> holds h (phys z) -> pos h -> zok c -> holds h (phys c) ->
  apart h (phys z) (phys c) ->
  exists h' z' bs, z_add_buf_start junk (Some c) h z = Done (h', z') /\ length bs = z_size c /\
    zresult h z (bs ++ zdata h z) h' z' /\
    ((z_st c = None -> z_size c = 0) -> cover h (phys c) -> bs = zdata h c).
Proof.
  intros Hz Hh Hp Hc Hhc Ha. unfold z_add_buf_start. pose proof (zdata_length h c Hc Hhc) as DLc.
  destruct (Nat.eqb_spec (z_size c) 0) as [E|E].
  { exists h, z, []. split; auto. split; auto. split; [apply zsame_result; auto|]. intros _ _.
    rewrite E in DLc. destruct (zdata h c); [auto|discriminate]. }
  destruct (zadd_start_ok junk (z_size c) h z Hz Hh Hp) as [h1 [z1 [x [E1 [Lx [L [G [F D]]]]]]]]. rewrite E1. cbn [obind].
  pose proof (gs_trans _ _ _ _ _ _ _ G) as T.
  destruct (zgrown_some (z_size c) h1 z z1 h) as [d [sd [Ed [Ld [B1 B2]]]]]; auto; try lia; try apply T; try apply G.
  rewrite Ed. destruct (t_frame _ _ _ _ T _ Hhc Ha) as [Hc1 Dc].
  destruct (z_st c) as [a|] eqn:Ec.
  - destruct (copy_into_ok h1 c a (z_size c) d sd (z_start z1)) as [bs [h2 [Lb [E2 [E3 Eb]]]]]; auto; try lia.
    rewrite E2. cbn [obind]. exists h2, z1, bs. split; auto. split; auto.
    destruct (zfill_start bs h z h1 z1) as [h2' [E4 R]]; auto; try (rewrite Lb; auto).
    { intros ->. cbn in Lb. lia. }
    unfold z_store in E4. rewrite Ed in E4. assert (h2' = h2) by congruence. subst h2'. split; auto.
    intros _ Hcov. rewrite Eb.
    + rewrite (same_zdata h h1 c Dc), <- DLc. apply firstn_all.
    + right. right. intros ->. left.
      pose proof (gs_fresh _ _ _ _ _ _ _ G eq_refl ltac:(lia) (phys c) Hhc Ha Hcov) as Hf.
      cbn [phys b_st b_start] in Hf. rewrite Ed, Ec in Hf. exact (Hf eq_refl ltac:(discriminate)).
  - unfold z_copy_into. rewrite Ec. cbn [obind]. exists h1, z1, x. split; auto. split; auto. split.
    + eapply grown_zresult_start; eauto.
    + intros H _. specialize (H eq_refl). lia.
Qed.
Lemma zadd_buf_end_ok junk c h z : zok z -> holds h (phys z) -> pos h -> zok c -> holds h (phys c) ->
  apart h (phys z) (phys c) ->
  exists h' z' bs, z_add_buf_end junk (Some c) h z = Done (h', z') /\ length bs = z_size c /\
    zresult h z (zdata h z ++ bs) h' z' /\
    ((z_st c = None -> z_size c = 0) -> cover h (phys c) -> bs = zdata h c).
Proof.
  intros Hz Hh Hp Hc Hhc Ha. unfold z_add_buf_end. pose proof (zdata_length h c Hc Hhc) as DLc.
  destruct (Nat.eqb_spec (z_size c) 0) as [E|E].
  { exists h, z, []. split; auto. split; auto. split; [rewrite app_nil_r; apply zsame_result; auto|]. intros _ _.
    rewrite E in DLc. destruct (zdata h c); [auto|discriminate]. }
  destruct (zadd_end_ok junk (z_size c) h z Hz Hh Hp) as [h1 [z1 [x [E1 [Lx [L [G [F D]]]]]]]]. rewrite E1. cbn [obind].
  pose proof (ge_trans _ _ _ _ _ _ _ G) as T.
  destruct (zgrown_some_end (z_size c) h1 z1 h z) as [d [sd [Ed [Ld [B1 B2]]]]]; auto; try lia; try apply T; try apply G.
  rewrite Ed. destruct (t_frame _ _ _ _ T _ Hhc Ha) as [Hc1 Dc].
  destruct (z_st c) as [a|] eqn:Ec.
  - destruct (copy_into_ok h1 c a (z_size c) d sd (z_end z1 - (z_ze z1 - z_zs z1) - z_size c)) as [bs [h2 [Lb [E2 [E3 Eb]]]]]; auto; try lia.
    rewrite E2. cbn [obind]. exists h2, z1, bs. split; auto. split; auto.
    destruct (zfill_end bs h z h1 z1) as [h2' [E4 R]]; auto; try (rewrite Lb; auto).
    { intros ->. cbn in Lb. lia. }
    unfold z_store in E4. rewrite Ed, Lb in E4. assert (h2' = h2) by congruence. subst h2'. split; auto.
    intros _ Hcov. rewrite Eb.
    + rewrite (same_zdata h h1 c Dc), <- DLc. apply firstn_all.
    + right. right. intros ->. right.
      pose proof (ge_fresh _ _ _ _ _ _ _ G eq_refl ltac:(lia) (phys c) Hhc Ha Hcov) as Hf.
      cbn [phys b_st b_start b_end] in Hf. rewrite Ed, Ec in Hf. specialize (Hf eq_refl ltac:(discriminate)).
      unfold zh, zg, z_size, zok in *. lia.
  - unfold z_copy_into. rewrite Ec. cbn [obind]. exists h1, z1, x. split; auto. split; auto. split.
    + eapply grown_zresult_end; eauto.
    + intros H _. specialize (H eq_refl). lia.
Qed.
(** A buffer added to itself. *)
Lemma zadd_self_start_ok junk h z : zok z -> holds h (phys z) -> pos h ->
  exists h' z' bs, z_add_buf_start junk None h z = Done (h', z') /\ length bs = z_size z /\
    zresult h z (bs ++ zdata h z) h' z'.
Proof.
  intros Hz Hh Hp. unfold z_add_buf_start. destruct (Nat.eqb_spec (z_size z) 0) as [E|E].
  { exists h, z, []. split; auto. split; auto. apply zsame_result; auto. }
  destruct (zadd_start_ok junk (z_size z) h z Hz Hh Hp) as [h1 [z1 [x [E1 [Lx [L [G [F D]]]]]]]]. rewrite E1. cbn [obind].
  pose proof (gs_trans _ _ _ _ _ _ _ G) as T.
  destruct (zgrown_some (z_size z) h1 z z1 h) as [d [sd [Ed [Ld [B1 B2]]]]]; auto; try lia; try apply T; try apply G.
  rewrite Ed. pose proof (zdata_length h1 z1 ltac:(apply L) ltac:(apply T)) as DL1. rewrite D, app_length in DL1.
  destruct (copy_into_ok h1 z1 d (z_size z) d sd (z_start z1)) as [bs [h2 [Lb [E2 [E3 Eb]]]]]; auto; try lia;
    try apply L; try apply T.
  rewrite E2. cbn [obind]. exists h2, z1, bs. split; auto. split; auto.
  destruct (zfill_start bs h z h1 z1) as [h2' [E4 R]]; auto; try (rewrite Lb; auto).
  { intros ->. cbn in Lb. lia. }
  unfold z_store in E4. rewrite Ed in E4. assert (h2' = h2) by congruence. subst h2'. auto.
Qed.
Lemma zadd_self_end_ok junk h z : zok z -> holds h (phys z) -> pos h ->
  exists h' z', z_add_buf_end junk None h z = Done (h', z') /\ zresult h z (zdata h z ++ zdata h z) h' z'.
Proof.
  intros Hz Hh Hp. unfold z_add_buf_end. pose proof (zdata_length h z Hz Hh) as DL.
  destruct (Nat.eqb_spec (z_size z) 0) as [E|E].
  { exists h, z. split; auto. assert (En : zdata h z = []) by (rewrite E in DL; destruct (zdata h z); [auto|discriminate]).
    rewrite En, app_nil_r. rewrite <- En. apply zsame_result; auto. }
  destruct (zadd_end_ok junk (z_size z) h z Hz Hh Hp) as [h1 [z1 [x [E1 [Lx [L [G [F D]]]]]]]]. rewrite E1. cbn [obind].
  pose proof (ge_trans _ _ _ _ _ _ _ G) as T.
  destruct (zgrown_some_end (z_size z) h1 z1 h z) as [d [sd [Ed [Ld [B1 B2]]]]]; auto; try lia; try apply T; try apply G.
  rewrite Ed. pose proof (zdata_length h1 z1 ltac:(apply L) ltac:(apply T)) as DL1. rewrite D, app_length in DL1.
  destruct (copy_into_ok h1 z1 d (z_size z) d sd (z_end z1 - (z_ze z1 - z_zs z1) - z_size z)) as [bs [h2 [Lb [E2 [E3 Eb]]]]];
    auto; try lia; try apply L; try apply T.
  rewrite E2. cbn [obind]. exists h2, z1. split; auto.
  destruct (zfill_end bs h z h1 z1) as [h2' [E4 R]]; auto; try (rewrite Lb; auto).
  { intros ->. cbn in Lb. lia. }
  unfold z_store in E4. rewrite Ed, Lb in E4. assert (h2' = h2) by congruence. subst h2'.
  rewrite Eb in R.
  - rewrite D, <- DL, firstn_app, firstn_all, Nat.sub_diag in R. cbn [firstn] in R. rewrite app_nil_r in R. exact R.
  - right. right. intros _. right. destruct L as [_ [Z1 [L1 L2]]].
    unfold zh, zg, z_size, zok in *. lia.
Qed.

(** ** Removing *)

Lemma zexp_skipn hl g d n : hl <= length d -> skipn n (zexp hl g d) =
  if n <=? hl then zexp (hl - n) g (skipn n d)
  else if n <=? hl + g then zexp 0 (hl + g - n) (skipn hl d)
  else zexp 0 0 (skipn (n - g) d).
Proof.
  intros H. unfold zexp. rewrite !skipn_app, firstn_length, repeat_length, skipn_repeat.
  rewrite (Nat.min_l hl) by auto. destruct (Nat.leb_spec n hl).
  - replace (n - hl) with 0 by lia. cbn [Nat.sub skipn]. rewrite Nat.sub_0_r.
    rewrite skipn_firstn_comm, skipn_skipn'. f_equal. f_equal. f_equal. lia.
  - rewrite skipn_firstn_comm. replace (hl - n) with 0 by lia. cbn [firstn app].
    destruct (Nat.leb_spec n (hl + g)).
    + replace (g - (n - hl)) with (hl + g - n) by lia. replace (n - hl - g) with 0 by lia. cbn [skipn]. auto.
    + replace (g - (n - hl)) with 0 by lia. cbn [repeat app skipn]. rewrite skipn_skipn'. f_equal. lia.
Qed.
Lemma zexp_firstn' hl g d k : hl <= length d -> firstn k (zexp hl g d) =
  if k <=? hl then zexp k 0 (firstn k d)
  else if k <=? hl + g then zexp hl (k - hl) (firstn hl d)
  else zexp hl g (firstn (k - g) d).
Proof.
  intros H. rewrite zexp_firstn by auto. destruct (Nat.leb_spec k hl).
  - rewrite zexp_zero. auto.
  - destruct (Nat.leb_spec (k - hl) g); destruct (Nat.leb_spec k (hl + g)); try lia.
    + unfold zexp. rewrite firstn_firstn, Nat.min_id. rewrite (skipn_all2 (firstn hl d)) by (rewrite firstn_length; lia).
      rewrite app_nil_r. auto.
    + unfold zexp. rewrite firstn_firstn, Nat.min_l by lia. f_equal. f_equal. rewrite skipn_firstn_comm. f_equal. lia.
Qed.

Definition within (z' z : zbuf) : Prop :=
  zok z' /\ z_st z' = z_st z /\ z_start z <= z_start z' /\ b_end (phys z') <= b_end (phys z).
Lemma within_sub h z z' : within z' z -> data h (phys z') =
  firstn (b_end (phys z') - z_start z') (skipn (z_start z' - z_start z) (data h (phys z))).
Proof.
  intros [Hz' [E [H1 H2]]]. pose proof (data_sub h (phys z) (z_start z') (b_end (phys z')) H1) as D.
  unfold zok in Hz'. change (b_st (phys z)) with (z_st z) in D. rewrite <- E in D. apply D; auto. cbn. lia.
Qed.

Lemma zrem_start n h z : zok z -> n <= z_size z -> exists z', z_remove_at_start n h z = Done (h, z') /\ within z' z /\
  forall h, holds h (phys z) -> zdata h z' = skipn n (zdata h z).
Proof.
  intros Hz Hn. unfold z_remove_at_start. pose proof Hz as Hz'. unfold zok, z_size in Hz', Hn.
  destruct (Nat.leb_spec (z_start z + n) (z_zs z)).
  - eexists. split; [reflexivity|]. match goal with |- within ?x _ /\ _ => set (z' := x) end.
    assert (W : within z' z) by (unfold within, zok, z', phys; repeat split; cbn; lia). split; auto.
    intros h0 Hh. unfold zdata. rewrite zexp_skipn by (rewrite (data_length _ _ Hh); apply zh_le; auto).
    rewrite (within_sub h0 z z' W). unfold zh, zg, phys, z'; cbn [z_start z_zs z_ze z_end b_end b_start].
    destruct (Nat.leb_spec n (z_zs z - z_start z)); [|lia]. f_equal; [lia|]. rewrite firstn_all2.
    + f_equal. lia.
    + rewrite skipn_length. pose proof (data_length _ _ Hh) as DL. unfold phys in DL. cbn in DL. unfold phys. rewrite DL. lia.
  - destruct (Nat.leb_spec (z_start z + n) (z_ze z)).
    + eexists. split; [reflexivity|]. match goal with |- within ?x _ /\ _ => set (z' := x) end.
      assert (W : within z' z) by (unfold within, zok, z', phys; repeat split; cbn; lia). split; auto.
      intros h0 Hh. unfold zdata. rewrite zexp_skipn by (rewrite (data_length _ _ Hh); apply zh_le; auto).
      rewrite (within_sub h0 z z' W). unfold zh, zg, phys, z'; cbn [z_start z_zs z_ze z_end b_end b_start].
      destruct (Nat.leb_spec n (z_zs z - z_start z)); [lia|].
      destruct (Nat.leb_spec n (z_zs z - z_start z + (z_ze z - z_zs z))); [|lia].
      f_equal; [lia|lia|]. rewrite firstn_all2; auto.
      rewrite skipn_length. pose proof (data_length _ _ Hh) as DL. unfold phys in DL. cbn in DL. unfold phys. rewrite DL. lia.
    + destruct (Nat.leb_spec (z_start z + n) (z_end z)); [|lia].
      eexists. split; [reflexivity|]. match goal with |- within ?x _ /\ _ => set (z' := x) end.
      assert (W : within z' z) by (unfold within, zok, z', phys; repeat split; cbn; lia). split; auto.
      intros h0 Hh. unfold zdata. rewrite zexp_skipn by (rewrite (data_length _ _ Hh); apply zh_le; auto).
      rewrite (within_sub h0 z z' W). unfold zh, zg, phys, z'; cbn [z_start z_zs z_ze z_end b_end b_start].
      destruct (Nat.leb_spec n (z_zs z - z_start z)); [lia|].
      destruct (Nat.leb_spec n (z_zs z - z_start z + (z_ze z - z_zs z))); [lia|].
      f_equal; [lia|lia|]. rewrite firstn_all2.
      * f_equal. lia.
      * rewrite skipn_length. pose proof (data_length _ _ Hh) as DL. unfold phys in DL. cbn in DL. unfold phys. rewrite DL. lia.
Qed.
Lemma zrem_end n h z : zok z -> n <= z_size z -> exists z', z_remove_at_end n h z = Done (h, z') /\ within z' z /\
  forall h, holds h (phys z) -> zdata h z' = drop_last n (zdata h z).
Proof.
  intros Hz Hn. unfold z_remove_at_end, drop_last. pose proof Hz as Hz'. unfold zok, z_size in Hz', Hn.
  destruct (Nat.leb_spec n (z_end z - z_ze z)).
  - eexists. split; [reflexivity|]. match goal with |- within ?x _ /\ _ => set (z' := x) end.
    assert (W : within z' z) by (unfold within, zok, z', phys; repeat split; cbn; lia). split; auto.
    intros h0 Hh. rewrite (zdata_length h0 z Hz Hh). unfold zdata.
    rewrite zexp_firstn' by (rewrite (data_length _ _ Hh); apply zh_le; auto).
    rewrite (within_sub h0 z z' W). unfold zh, zg, z_size, phys, z'; cbn [z_start z_zs z_ze z_end b_end b_start].
    rewrite (Nat.sub_diag (z_start z)). cbn [skipn].
    destruct (Nat.leb_spec (z_end z - z_start z - n) (z_zs z - z_start z)).
    + rewrite zexp_zero. replace (z_ze z - z_zs z) with 0 by lia. rewrite zexp_zero. f_equal. lia.
    + destruct (Nat.leb_spec (z_end z - z_start z - n) (z_zs z - z_start z + (z_ze z - z_zs z))).
      * f_equal; [lia|]. f_equal. lia.
      * f_equal. f_equal. lia.
  - destruct (Nat.leb_spec n (z_end z - z_zs z)).
    + eexists. split; [reflexivity|]. match goal with |- within ?x _ /\ _ => set (z' := x) end.
      assert (W : within z' z) by (unfold within, zok, z', phys; repeat split; cbn; lia). split; auto.
      intros h0 Hh. rewrite (zdata_length h0 z Hz Hh). unfold zdata.
      rewrite zexp_firstn' by (rewrite (data_length _ _ Hh); apply zh_le; auto).
      rewrite (within_sub h0 z z' W). unfold zh, zg, z_size, phys, z'; cbn [z_start z_zs z_ze z_end b_end b_start].
      rewrite (Nat.sub_diag (z_start z)). cbn [skipn].
      destruct (Nat.leb_spec (z_end z - z_start z - n) (z_zs z - z_start z)).
      * f_equal; [lia|lia|]. f_equal. lia.
      * destruct (Nat.leb_spec (z_end z - z_start z - n) (z_zs z - z_start z + (z_ze z - z_zs z))); [|lia].
        f_equal; [lia|]. f_equal. lia.
    + destruct (Nat.leb_spec n (z_end z - z_start z)); [|lia].
      eexists. split; [reflexivity|]. match goal with |- within ?x _ /\ _ => set (z' := x) end.
      assert (W : within z' z) by (unfold within, zok, z', phys; repeat split; cbn; lia). split; auto.
      intros h0 Hh. rewrite (zdata_length h0 z Hz Hh). unfold zdata.
      rewrite zexp_firstn' by (rewrite (data_length _ _ Hh); apply zh_le; auto).
      rewrite (within_sub h0 z z' W). unfold zh, zg, z_size, phys, z'; cbn [z_start z_zs z_ze z_end b_end b_start].
      rewrite (Nat.sub_diag (z_start z)). cbn [skipn].
      destruct (Nat.leb_spec (z_end z - z_start z - n) (z_zs z - z_start z)); [|lia].
      f_equal; [lia|lia|]. f_equal. lia.
Qed.

Lemma within_holds h z z' : within z' z -> holds h (phys z) -> holds h (phys z').
Proof.
  intros [Hz' [E [H1 H2]]] Hh. unfold holds in *. cbn [phys b_st b_start b_end] in *. rewrite E.
  unfold zok in Hz'. destruct (z_st z) as [a|]; [|lia]. destruct Hh as [s [Hl Hr]]. exists s. split; auto. lia.
Qed.
Lemma within_size z z' : within z' z -> zok z -> z_size z' - zg z' <= z_size z - zg z.
Proof. unfold within, zok, z_size, zg, phys. cbn. lia. Qed.
Lemma within_result h z z' d : zok z -> within z' z -> holds h (phys z) -> pos h -> zdata h z' = d -> zresult h z d h z'.
Proof.
  intros Hz W Hh Hp D. pose proof W as W'. destruct W' as [Hz' [E [H1 H2]]].
  assert (Eb : phys z' = mk_buf (b_st (phys z)) (z_start z') (b_end (phys z'))).
  { unfold phys. cbn. rewrite E. auto. }
  destruct (shrink_trans true true h (phys z) (z_start z') (b_end (phys z')) Hh Hp) as [T C]; auto.
  { unfold zok in Hz'. cbn. lia. }
  rewrite <- Eb in T, C. split; auto.
  - apply trans_moved; auto.
  - intros c _ _ _. auto.
Qed.

(** ** Letting go *)

Lemma zrelease_ok h z : zok z -> holds h (phys z) -> pos h ->
  exists h' z', z_release h z = Done (h', z') /\ trans h (phys z) h' (phys z') /\ covers h (phys z) h' (phys z') /\ zok z' /\
    z_st z' = None /\ phys z' = empty_buf /\ (z_st z <> None \/ z_size z = 0 -> zdata h' z' = []) /\
    release_opt h (z_st z) = Done h'.
Proof.
  intros Hz Hh Hp. destruct (release_ok true true h (phys z) Hh Hp) as [h' [E [T C]]].
  unfold z_release. unfold release in E. cbn [phys b_st] in E. destruct (z_st z) as [a|] eqn:Ea.
  - unfold release_opt. destruct (release_ref h a) as [h1| | |]; try discriminate. cbn [obind] in *.
    assert (h1 = h') by congruence. subst h1. exists h', empty_zbuf. split; auto. split; auto. split; auto.
    split; [unfold zok; cbn; lia|]. auto.
  - exists h, z. split; auto. unfold holds in Hh. cbn [phys b_st b_start b_end] in Hh. rewrite Ea in Hh. destruct Hh as [E1 E2].
    assert (Ep : phys z = empty_buf) by (unfold phys, empty_buf; rewrite Ea, E2, E1; auto).
    rewrite Ep in *. split; [apply trans_refl; auto using holds_empty|]. split; [apply covers_refl|]. split; auto.
    split; auto. split; auto. split; auto. intros [H|H]; [congruence|].
    unfold zdata, data. rewrite Ep. cbn [b_st empty_buf]. unfold zexp. rewrite firstn_nil, skipn_nil.
    unfold zg, z_size, zok in *. replace (z_ze z - z_zs z) with 0 by lia. auto.
Qed.

Lemma zremove_start_ok n h z : zok z -> holds h (phys z) -> pos h ->
  exists h' z' d, z_remove_at_start n h z = Done (h', z') /\ zresult h z d h' z' /\ keeps h (phys z) h' /\
    ((z_st z = None -> z_size z = 0 \/ n <= z_size z) -> d = skipn n (zdata h z)).
Proof.
  intros Hz Hh Hp. destruct (Nat.le_gt_cases n (z_size z)) as [Hn|Hn].
  - destruct (zrem_start n h z Hz Hn) as [z' [E [W D]]]. exists h, z', (skipn n (zdata h z)). split; auto. split.
    + apply within_result; auto.
    + split; auto. intros c _ _. auto.
  - assert (E : z_remove_at_start n h z = z_release h z).
    { unfold z_remove_at_start. unfold z_size, zok in *. destruct (Nat.leb_spec (z_start z + n) (z_zs z)); [lia|].
      destruct (Nat.leb_spec (z_start z + n) (z_ze z)); [lia|]. destruct (Nat.leb_spec (z_start z + n) (z_end z)); [lia|]. auto. }
    rewrite E. destruct (zrelease_ok h z Hz Hh Hp) as [h' [z' [E' [T [C [Z' [S' [P' [D' _]]]]]]]]].
    exists h', z', (zdata h' z'). split; auto. split; [|split].
    + split; auto; [apply trans_moved; auto|]. apply keeps_weaken. eapply trans_keeps; eauto.
    + eapply trans_keeps; eauto.
    + intros H. rewrite D'.
      * symmetry. apply skipn_all2. rewrite (zdata_length h z Hz Hh). lia.
      * destruct (z_st z); [left; discriminate|]. destruct (H eq_refl); [auto|lia].
Qed.
Lemma zremove_end_ok n h z : zok z -> holds h (phys z) -> pos h ->
  exists h' z' d, z_remove_at_end n h z = Done (h', z') /\ zresult h z d h' z' /\ keeps h (phys z) h' /\
    ((z_st z = None -> z_size z = 0 \/ n <= z_size z) -> d = drop_last n (zdata h z)).
Proof.
  intros Hz Hh Hp. destruct (Nat.le_gt_cases n (z_size z)) as [Hn|Hn].
  - destruct (zrem_end n h z Hz Hn) as [z' [E [W D]]]. exists h, z', (drop_last n (zdata h z)). split; auto. split.
    + apply within_result; auto.
    + split; auto. intros c _ _. auto.
  - assert (E : z_remove_at_end n h z = z_release h z).
    { unfold z_remove_at_end. unfold z_size, zok in *. destruct (Nat.leb_spec n (z_end z - z_ze z)); [lia|].
      destruct (Nat.leb_spec n (z_end z - z_zs z)); [lia|]. destruct (Nat.leb_spec n (z_end z - z_start z)); [lia|]. auto. }
    rewrite E. destruct (zrelease_ok h z Hz Hh Hp) as [h' [z' [E' [T [C [Z' [S' [P' [D' _]]]]]]]]].
    exists h', z', (zdata h' z'). split; auto. split; [|split].
    + split; auto; [apply trans_moved; auto|]. apply keeps_weaken. eapply trans_keeps; eauto.
    + eapply trans_keeps; eauto.
    + intros H. rewrite D'.
      * unfold drop_last. rewrite (zdata_length h z Hz Hh). replace (z_size z - n) with 0 by lia. auto.
      * destruct (z_st z); [left; discriminate|]. destruct (H eq_refl); [auto|lia].
Qed.

(** ** Fragments *)

Lemma sub_trans h e h' z f : within f z -> trans h e h' (phys z) -> trans h e h' (phys f).
Proof.
  intros W T. split; [| |apply T|apply (t_frame _ _ _ _ T)].
  - apply (within_holds h' z f W). apply (t_holds _ _ _ _ T).
  - intros a. pose proof (t_rc _ _ _ _ T a) as H. destruct W as [_ [E _]].
    unfold ind in *. cbn [phys b_st] in *. rewrite E. exact H.
Qed.
Lemma sub_cover h z f : within f z -> cover h (phys z) -> cover h (phys f).
Proof.
  intros [Hf [E [H1 H2]]]. unfold BufferProofs.cover. cbn [phys b_st b_start b_end] in *. rewrite E.
  destruct (z_st z); auto. intros H s Hl. specialize (H s Hl). intuition lia.
Qed.
Lemma within_trans a b c : within a b -> within b c -> within a c.
Proof. unfold within. intros [A1 [A2 [A3 A4]]] [B1 [B2 [B3 B4]]]. repeat split; try apply A1; try lia. congruence. Qed.

Lemma zfragment_ok st n h z : zok z -> holds h (phys z) -> pos h -> st + n <= z_size z ->
  exists h' f, z_make_fragment st n h z = Done (h', f) /\ zok f /\ trans h empty_buf h' (phys f) /\
    (cover h (phys z) -> covers h empty_buf h' (phys f)) /\ zdata h' f = firstn n (skipn st (zdata h z)).
Proof.
  intros Hz Hh Hp Hn. unfold z_make_fragment.
  destruct (Nat.ltb_spec (z_size z) st); [lia|]. destruct (Nat.ltb_spec (z_size z - st) n); [lia|].
  destruct (acquire_ok true true h (phys z) Hh Hp) as [h1 [E1 [T1 [D1 [C1 D1']]]]].
  change (z_acquire h z) with (acquire h (phys z)). rewrite E1. cbn [obind].
  destruct (zrem_start st h1 z Hz) as [f1 [E2 [W1 D2]]]; [lia|]. rewrite E2. cbn [obind].
  pose proof (D2 h1 (t_holds _ _ _ _ T1)) as D2'. pose proof (within_holds h1 z f1 W1 (t_holds _ _ _ _ T1)) as Hf1.
  pose proof (zdata_length h1 f1 ltac:(apply W1) Hf1) as L1. rewrite D2', skipn_length in L1.
  rewrite (zdata_length h1 z Hz (t_holds _ _ _ _ T1)) in L1.
  destruct (zrem_end (z_size z - (st + n)) h1 f1) as [f [E3 [W2 D3]]]; [apply W1|lia|]. rewrite E3.
  assert (W : within f z) by (eapply within_trans; eauto).
  exists h1, f. split; auto. split; [apply W|]. split; [eapply sub_trans; eauto|]. split.
  - intros Hc _. split; [eapply sub_cover; eauto|]. intros c _ _ Hcc. auto.
  - rewrite (D3 h1 Hf1), D2'. unfold drop_last. rewrite skipn_length, (zdata_length h1 z Hz (t_holds _ _ _ _ T1)).
    rewrite (same_zdata h h1 z D1). f_equal. lia.
Qed.

(** ** Realizing *)

Lemma store_last h s off bs m : mem_store (sg_bytes s) off bs = Some m ->
  store_at (h ++ [Some s]) (length h) off bs = Done (h ++ [Some (set_bytes s m)]).
Proof.
  intros E. unfold store_at. rewrite (proj2 (get_live _ _ _) (live_new _ _)). cbn [obind]. rewrite E.
  unfold put. rewrite upd_last. auto.
Qed.
Lemma zload_app h z s off n : holds h (phys z) -> off + n <= b_end (phys z) -> z_start z <= off ->
  exists bs, z_load (h ++ [Some s]) z off n = Done bs /\ bs = firstn n (skipn (off - z_start z) (data h (phys z))) /\
    length bs = n.
Proof.
  intros Hh Hn Ho. unfold z_load. pose proof Hh as Hh'. unfold holds in Hh'. cbn [phys b_st b_start b_end] in *.
  destruct (z_st z) as [a|] eqn:Ea.
  - destruct Hh' as [s0 [Hl Hr]]. rewrite (load_some _ a s0) by (try apply live_app; auto; lia).
    eexists. split; [reflexivity|].
    rewrite (data_live h (phys z) a s0) by auto. cbn [phys b_st b_start b_end].
    rewrite skipn_firstn_comm, firstn_firstn, skipn_skipn', Nat.min_l by lia. split.
    + f_equal. f_equal. lia.
    + rewrite firstn_length, skipn_length. unfold sg_cap in *. lia.
  - destruct Hh' as [E1 E2]. assert (n = 0) by lia. subst n. exists []. auto.
Qed.

Lemma zreal_ok junk h z : zok z -> holds h (phys z) -> pos h -> 0 < z_size z ->
  exists h' z', z_real junk h z = Done (h', z') /\ zok z' /\ trans h empty_buf h' (phys z') /\
    covers h empty_buf h' (phys z') /\ zdata h' z' = zdata h z /\ z_st z' = Some (length h) /\
    (exists s, h' = h ++ [Some s]).
Proof.
  intros Hz Hh Hp Hs. unfold z_real. pose proof Hz as Hz'. unfold zok in Hz'. unfold z_size in Hs.
  destruct (allocate_cases junk h (z_end z - z_start z)) as [[H _]|[_ [m [Lm ->]]]]; [lia|].
  set (s := mk_storage 1 0 0 m).
  destruct (zload_app h z s (z_start z) (z_zs z - z_start z)) as [b1 [E1 [V1 L1]]]; auto; [cbn; lia|].
  rewrite E1. cbn [obind].
  destruct (mem_store_some m 0 b1) as [m1 M1]; [lia|].
  rewrite (store_last h s 0 b1 m1 M1). cbn [obind]. pose proof (mem_store_length _ _ _ _ M1) as N1.
  destruct (mem_store_some m1 (z_zs z - z_start z) (repeat 0%N (z_ze z - z_zs z))) as [m2 M2]; [rewrite repeat_length; lia|].
  rewrite (store_last h (set_bytes s m1) _ _ m2 M2). cbn [obind]. pose proof (mem_store_length _ _ _ _ M2) as N2.
  destruct (zload_app h z (set_bytes (set_bytes s m1) m2) (z_zs z) (z_end z - z_ze z)) as [b3 [E3 [V3 L3]]]; auto; [cbn; lia|lia|].
  rewrite E3. cbn [obind].
  destruct (mem_store_some m2 (z_zs z - z_start z + (z_ze z - z_zs z)) b3) as [m3 M3]; [lia|].
  rewrite (store_last h (set_bytes (set_bytes s m1) m2) _ _ m3 M3). cbn [obind]. pose proof (mem_store_length _ _ _ _ M3) as N3.
  unfold z_make, z_dirty_all. cbn [z_st z_start z_zs z_ze z_end].
  destruct (Nat.leb_spec 0 (z_zs z - z_start z + (z_ze z - z_zs z))); [|lia]. rewrite Nat.leb_refl.
  destruct (Nat.leb_spec (z_zs z - z_start z + (z_ze z - z_zs z)) (z_end z - z_start z)); [|lia].
  cbn [andb negb]. rewrite (proj2 (get_live _ _ _) (live_new _ _)). cbn [obind].
  unfold sg_cap. cbn [set_bytes sg_bytes]. rewrite Nat.sub_diag, Nat.sub_0_r.
  destruct (Nat.ltb_spec (length m3) (z_end z - z_start z)); [lia|].
  unfold put. rewrite upd_last. unfold set_dirty, set_bytes. cbn [sg_rc sg_bytes s].
  eexists _, _. split; [reflexivity|].
  destruct (fresh_own true true h m3 0 (z_end z - z_start z) 0 (z_end z - z_start z) Hp) as [T [C D]]; try lia.
  match goal with |- zok ?x /\ _ => set (z' := x) end.
  assert (Ep : phys z' = mk_buf (Some (length h)) 0 (z_end z - z_start z)).
  { unfold phys, z'. cbn [z_st z_start z_zs z_ze z_end]. rewrite Nat.sub_diag, Nat.sub_0_r. auto. }
  split; [unfold zok, z'; cbn; lia|]. rewrite Ep. split; auto. split; [apply C; lia|]. split; [|split; eauto].
  unfold zdata. rewrite Ep, D. replace (zg z') with 0 by (unfold zg, z'; cbn; lia). rewrite zexp_zero.
  cbn [skipn]. rewrite Nat.sub_0_r, firstn_all2 by lia.
  assert (M : mem_store m 0 (b1 ++ repeat 0%N (z_ze z - z_zs z) ++ b3) = Some m3).
  { apply (mem_store_app m 0 b1 _ m1); auto. cbn [plus]. rewrite L1.
    apply (mem_store_app m1 _ _ b3 m2); auto. rewrite repeat_length. auto. }
  pose proof (data_length _ _ Hh) as DL. cbn [phys b_start b_end] in DL.
  apply store_slice in M. destruct M as [_ [M _]]. rewrite !app_length, repeat_length, L1, L3 in M. cbn [skipn] in M.
  rewrite firstn_all2 in M by lia. rewrite M. unfold zexp, zh, zg. rewrite V1, V3, Nat.sub_diag. cbn [skipn].
  f_equal. f_equal. apply firstn_all2. rewrite skipn_length. unfold phys in DL |- *. rewrite DL. lia.
Qed.

Lemma zmake_real_ok junk h z : zok z -> holds h (phys z) -> pos h ->
  exists h' z', z_make_real junk h z = Done (h', z') /\ zok z' /\ trans h empty_buf h' (phys z') /\
    (cover h (phys z) -> covers h empty_buf h' (phys z')) /\ zdata h' z' = zdata h z.
Proof.
  intros Hz Hh Hp. unfold z_make_real. destruct (Nat.eqb_spec (z_ze z) (z_zs z)) as [E|E].
  - destruct (acquire_ok true true h (phys z) Hh Hp) as [h1 [E1 [T1 [D1 [C1 D1']]]]].
    change (z_acquire h z) with (acquire h (phys z)). rewrite E1. cbn [obind]. exists h1, z. split; auto. split; auto.
    split; auto. split; [|apply same_zdata; auto]. intros Hc _. split; auto.
  - destruct (zreal_ok junk h z Hz Hh Hp) as [h' [z' [E1 [Z [T [C [D _]]]]]]].
    { unfold zok, z_size in *. lia. }
    exists h', z'. auto 6.
Qed.

(** What was taken replaces what was held. *)
Lemma replace_trans h b h1 c : holds h b -> pos h -> trans h empty_buf h1 c ->
  exists h2, release_opt h1 (b_st b) = Done h2 /\ trans h b h2 c /\ data h2 c = data h1 c /\
    (covers h empty_buf h1 c -> covers h b h2 c).
Proof.
  intros Hb Hp T1. assert (Hb1 : holds h1 b) by (apply (t_frame _ _ _ _ T1 b Hb), apart_empty).
  destruct (release_ok true true h1 b Hb1 (t_pos _ _ _ _ T1)) as [h2 [E2 [T2 C2]]].
  assert (R : forall a, rc h1 a = rc h a + ind c a).
  { intros a. pose proof (t_rc _ _ _ _ T1 a) as Hr. unfold ind at 1 in Hr. cbn in Hr. lia. }
  assert (A : forall x, apart h b x -> apart h1 b x).
  { intros x Hx a Ea Ex. specialize (Hx a Ea Ex). rewrite R. lia. }
  assert (Ac : apart h1 b c).
  { intros a Ea Ex. rewrite R. unfold ind. rewrite Ex, Nat.eqb_refl.
    unfold holds in Hb. rewrite Ea in Hb. destruct Hb as [s [Hl _]]. pose proof (Hp _ _ Hl).
    rewrite (rc_live _ _ _ Hl). lia. }
  destruct (t_frame _ _ _ _ T2 c (t_holds _ _ _ _ T1) Ac) as [Hc2 D2].
  exists h2. split; [|split; [|split]]; auto.
  - unfold release in E2. unfold release_opt. destruct (b_st b); [|congruence].
    destruct (release_ref h1 n); cbn in *; congruence.
  - split; auto; [|apply T2|].
    + intros a. pose proof (t_rc _ _ _ _ T2 a) as H. rewrite R in H. change (ind empty_buf a) with 0 in H. lia.
    + intros x Hx Hax. destruct (t_frame _ _ _ _ T1 x Hx (apart_empty _ _)) as [Hx1 Dx1].
      destruct (t_frame _ _ _ _ T2 x Hx1 (A x Hax)) as [Hx2 Dx2]. split; congruence.
  - intros C1 Cb. destruct (C1 Logic.I) as [Cc C1']. destruct (C2 (C1' b Hb (apart_empty _ _) Cb)) as [_ C2']. split.
    + apply C2'; auto. apply T1.
    + intros x Hx Hax Cx. apply C2'; auto. apply (t_frame _ _ _ _ T1 x Hx), apart_empty.
      apply C1'; auto. apply apart_empty.
Qed.

Lemma zrealize_ok junk h z : zok z -> holds h (phys z) -> pos h ->
  exists h' z', z_realize junk h z = Done (h', z') /\ zresult h z (zdata h z) h' z' /\ keeps h (phys z) h'.
Proof.
  intros Hz Hh Hp. unfold z_realize. destruct (zmake_real_ok junk h z Hz Hh Hp) as [h1 [z1 [E1 [Z1 [T1 [C1 D1]]]]]].
  rewrite E1. cbn [obind].
  destruct (replace_trans h (phys z) h1 (phys z1) Hh Hp T1) as [h2 [E2 [T2 [D2 C2]]]].
  assert (Hb1 : holds h1 (phys z)) by (apply (t_frame _ _ _ _ T1 _ Hh), apart_empty).
  destruct (zrelease_ok h1 z Hz Hb1 (t_pos _ _ _ _ T1)) as [h2' [z' [E3 [_ [_ [_ [S3 [_ [_ E4]]]]]]]]].
  cbn [phys b_st] in E2. assert (h2' = h2) by congruence. subst h2'. rewrite E3. cbn [obind].
  unfold z_release. rewrite S3. cbn [obind]. exists h2, z1. split; auto. split.
  - split; auto.
    + apply trans_moved; auto.
    + intros Cv. apply (C2 (C1 Cv) Cv).
    + rewrite <- D1. apply same_zdata. auto.
    + apply keeps_weaken. eapply trans_keeps; eauto.
  - eapply trans_keeps; eauto.
Qed.

(** ** New buffers *)

Lemma znew_capacity_ok junk n h : pos h ->
  exists h' z', z_new_capacity junk n h = Done (h', z') /\ zok z' /\ trans h empty_buf h' (phys z') /\
    covers h empty_buf h' (phys z') /\ zdata h' z' = [].
Proof.
  intros Hp. unfold z_new_capacity. destruct (allocate_cases junk h n) as [[-> ->]|[Hn [m [Lm ->]]]].
  - exists h, empty_zbuf. destruct (empty_trans true true h Hp). split; [auto|]. split; [unfold zok; cbn; lia|]. auto.
  - unfold z_dirty_all. cbn [z_st z_start z_zs z_ze z_end].
    rewrite (proj2 (get_live _ _ _) (live_new _ _)). cbn [obind]. unfold put. rewrite upd_last.
    eexists _, _. split; [reflexivity|]. split; [unfold zok; cbn; lia|]. unfold zdata, zg, zh, phys.
    cbn [z_st z_start z_zs z_ze z_end]. rewrite Nat.sub_diag, Nat.sub_0_r. unfold set_dirty. cbn [sg_rc sg_bytes].
    destruct (fresh_own true true h m n n n n Hp) as [T [C D]]; try lia.
    split; [exact T|]. split; [apply C; lia|]. rewrite D, Nat.sub_diag. auto.
Qed.

Lemma znew_zero_ok junk s z e h : pos h ->
  exists h' z', z_new_zero junk s z e h = Done (h', z') /\ zok z' /\ trans h empty_buf h' (phys z') /\
    covers h empty_buf h' (phys z') /\ zdata h' z' = repeat 0%N z.
Proof.
  intros Hp. unfold z_new_zero. destruct (allocate_cases junk h (s + e)) as [[En ->]|[Hn [m [Lm ->]]]].
  - assert (s = 0) as -> by lia. cbn [z_dirty_all z_st obind]. eexists _, _. split; [reflexivity|].
    split; [unfold zok; cbn; lia|]. unfold zdata, zg, zh, phys. cbn [z_st z_start z_zs z_ze z_end plus].
    rewrite !Nat.sub_0_r, Nat.sub_diag. destruct (empty_trans true true h Hp) as [T C].
    split; [exact T|]. split; [exact C|]. unfold data, zexp. cbn. apply app_nil_r.
  - unfold z_dirty_all. cbn [z_st z_start z_zs z_ze z_end].
    rewrite (proj2 (get_live _ _ _) (live_new _ _)). cbn [obind]. unfold put. rewrite upd_last.
    eexists _, _. split; [reflexivity|]. split; [unfold zok; cbn; lia|]. unfold zdata, zg, zh, phys.
    cbn [z_st z_start z_zs z_ze z_end]. replace (s + z - (s + z - s)) with s by lia.
    replace (s + z - s) with z by lia. rewrite Nat.sub_diag. unfold set_dirty. cbn [sg_rc sg_bytes].
    destruct (fresh_own true true h m s s s s Hp) as [T [C D]]; try lia.
    split; [exact T|]. split; [apply C; lia|]. rewrite D, Nat.sub_diag. unfold zexp. cbn. apply app_nil_r.
Qed.

Lemma zdeep_copy_ok junk d h : pos h ->
  exists h' z', z_deep_copy junk d h = Done (h', z') /\ zok z' /\ trans h empty_buf h' (phys z') /\ zdata h' z' = d.
Proof.
  intros Hp. unfold z_deep_copy. destruct (allocate_cases junk h (length d)) as [[En ->]|[Hn [m [Lm ->]]]].
  - destruct d; [|discriminate]. cbn [length]. eexists _, _. split; [reflexivity|]. split; [unfold zok; cbn; lia|].
    destruct (empty_trans true true h Hp) as [T C]. split; [exact T|]. auto.
  - destruct (mem_store_some m 0 d) as [m' Em]; [lia|].
    rewrite (store_last h (mk_storage 1 0 0 m) 0 d m' Em). cbn [obind].
    pose proof (store_slice _ _ _ _ Em) as [S1 [S2 _]].
    eexists _, _. split; [reflexivity|]. split; [unfold zok; cbn; lia|].
    unfold zdata, zg, zh, phys. cbn [z_st z_start z_zs z_ze z_end]. rewrite Nat.sub_diag, Nat.sub_0_r.
    unfold set_bytes. cbn [sg_rc sg_ds sg_de].
    destruct (fresh_own true true h m' 0 0 0 (length d) Hp) as [T [_ D]]; try lia.
    split; [exact T|]. rewrite Nat.sub_0_r in D. rewrite D, zexp_zero. exact S2.
Qed.

(** ** Writing through an iterator *)

Definition zrange (z : zbuf) (off n : nat) : bool :=
  (z_size z <? off + n) || (if off <? zh z then zh z <? off + n else off <? zh z + zg z).
(** The place in the stored part. *)
Definition zplace (z : zbuf) (off : nat) : nat := if off <? zh z then off else off - zg z.

Lemma zexp_write hl g d off bs : hl <= length d ->
  (off + length bs <= hl \/ hl + g <= off) -> off + length bs <= length d + g -> bs <> [] ->
  let off' := if off <? hl then off else off - g in
  zexp hl g (firstn off' d ++ bs ++ skipn (off' + length bs) d) =
  firstn off (zexp hl g d) ++ bs ++ skipn (off + length bs) (zexp hl g d).
Proof.
  intros H H1 H2 Hne. assert (0 < length bs) by (destruct bs; cbn; [congruence|lia]). cbn zeta.
  apply list_ext. intros k. unfold zexp.
  assert (L : forall k, nth_error (firstn hl d ++ repeat 0%N g ++ skipn hl d) k =
    if k <? hl then nth_error d k else if k <? hl + g then Some 0%N else nth_error d (k - g)).
  { clear k. intros k. destruct (Nat.ltb_spec k hl).
    - rewrite nth_error_app1 by (rewrite firstn_length; lia). apply nth_error_firstn_lt. auto.
    - rewrite nth_error_app2 by (rewrite firstn_length; lia). rewrite firstn_length, Nat.min_l by auto.
      destruct (Nat.ltb_spec k (hl + g)).
      + rewrite nth_error_app1 by (rewrite repeat_length; lia). apply nth_error_repeat. lia.
      + rewrite nth_error_app2 by (rewrite repeat_length; lia). rewrite repeat_length, nth_error_skipn'. f_equal. lia. }
  assert (W : forall (l : list N) o k, o + length bs <= length l -> nth_error (firstn o l ++ bs ++ skipn (o + length bs) l) k =
    if k <? o then nth_error l k else if k <? o + length bs then nth_error bs (k - o) else nth_error l k).
  { clear k. intros l o k Ho. destruct (Nat.ltb_spec k o).
    - rewrite nth_error_app1 by (rewrite firstn_length; lia). apply nth_error_firstn_lt. auto.
    - rewrite nth_error_app2 by (rewrite firstn_length; lia). rewrite firstn_length, Nat.min_l by lia.
      destruct (Nat.ltb_spec k (o + length bs)).
      + rewrite nth_error_app1 by lia. auto.
      + rewrite nth_error_app2 by lia. rewrite nth_error_skipn'. f_equal. lia. }
  set (off' := if off <? hl then off else off - g).
  assert (Ho : off' + length bs <= length d) by (unfold off'; destruct (Nat.ltb_spec off hl); lia).
  set (x := firstn off' d ++ bs ++ skipn (off' + length bs) d).
  assert (Lx : length x = length d).
  { unfold x. rewrite !app_length, firstn_length, skipn_length. lia. }
  assert (L' : forall k, nth_error (firstn hl x ++ repeat 0%N g ++ skipn hl x) k =
    if k <? hl then nth_error x k else if k <? hl + g then Some 0%N else nth_error x (k - g)).
  { clear k. intros k. destruct (Nat.ltb_spec k hl).
    - rewrite nth_error_app1 by (rewrite firstn_length; lia). apply nth_error_firstn_lt. auto.
    - rewrite nth_error_app2 by (rewrite firstn_length; lia). rewrite firstn_length, Nat.min_l by lia.
      destruct (Nat.ltb_spec k (hl + g)).
      + rewrite nth_error_app1 by (rewrite repeat_length; lia). apply nth_error_repeat. lia.
      + rewrite nth_error_app2 by (rewrite repeat_length; lia). rewrite repeat_length, nth_error_skipn'. f_equal. lia. }
  rewrite L'. rewrite W.
  2: { rewrite !app_length, firstn_length, repeat_length, skipn_length. lia. }
  rewrite L. unfold x. rewrite !W by auto. unfold off'.
  destruct (Nat.ltb_spec off hl); destruct (Nat.ltb_spec k hl); destruct (Nat.ltb_spec k (hl + g));
    repeat match goal with |- context [?a <? ?b] => destruct (Nat.ltb_spec a b) end; try lia; auto; f_equal; lia.
Qed.

Lemma zwrite_ok off bs h z : zok z -> holds h (phys z) -> pos h ->
  if zrange z off (length bs) then z_write off bs h z = AssertFail
  else exists h', z_write off bs h z = Done h' /\
    (bs = [] /\ h' = h \/
     bs <> [] /\ exists a s m, z_st z = Some a /\ live h a s /\ length m = sg_cap s /\ h' = put h a (set_bytes s m) /\
      zdata h' z = firstn off (zdata h z) ++ bs ++ skipn (off + length bs) (zdata h z) /\
      forall c, (b_st c = Some a -> z_start z + zplace z off + length bs <= b_start c \/
                                    b_end c <= z_start z + zplace z off) ->
        data h' c = data h c).
Proof.
  intros Hz Hh Hp. unfold zrange, z_write, z_size, zh, zg. pose proof Hz as Hz'. unfold zok in Hz'.
  destruct (Nat.ltb_spec (z_end z) (z_start z + off + length bs)).
  { destruct (Nat.ltb_spec (z_end z - z_start z) (off + length bs)); [cbn [orb]; auto|lia]. }
  destruct (Nat.ltb_spec (z_end z - z_start z) (off + length bs)); [lia|]. cbn [orb].
  destruct (Nat.ltb_spec off (z_zs z - z_start z)).
  - destruct (Nat.ltb_spec (z_start z + off) (z_zs z)); [|lia]. cbn [andb].
    destruct (Nat.ltb_spec (z_zs z - z_start z) (off + length bs)).
    { destruct (Nat.ltb_spec (z_zs z) (z_start z + off + length bs)); [auto|lia]. }
    destruct (Nat.ltb_spec (z_zs z) (z_start z + off + length bs)); [lia|]. cbn [orb].
    destruct (Nat.ltb_spec (z_start z + off) (z_ze z)); [|lia]. cbn [andb].
    destruct (Nat.ltb_spec (z_ze z) (z_start z + off + length bs)); [lia|].
    destruct (Nat.leb_spec (z_zs z) (z_start z + off)); [lia|]. cbn [andb].
    destruct (Nat.eqb_spec (length bs) 0) as [E0|E0].
    { exists h. split; auto. left. split; auto. destruct bs; [auto|discriminate]. }
    assert (Hne : bs <> []) by (intros ->; auto).
    destruct (write_ok h (phys z) off bs Hh) as [a [s [m [Ea [Hl [Lm [E [D F]]]]]]]]; auto; [cbn; lia|].
    unfold write_data in E. unfold z_store. cbn [phys b_st b_start] in E, Ea. rewrite E. eexists. split; [reflexivity|].
    right. split; auto. exists a, s, m. split; auto. split; auto. split; auto. split; auto. split.
    + unfold zdata. rewrite D. rewrite <- zexp_write; auto.
      * unfold zh. rewrite (proj2 (Nat.ltb_lt off (z_zs z - z_start z))) by auto. auto.
      * rewrite (data_length _ _ Hh). apply zh_le; auto.
      * rewrite (data_length _ _ Hh). unfold zg. cbn. lia.
    + intros c Hc. apply F. cbn [phys b_start]. intros Ec. specialize (Hc Ec). unfold zplace, zh, zg in Hc.
      rewrite (proj2 (Nat.ltb_lt off (z_zs z - z_start z))) in Hc by auto. auto.
  - destruct (Nat.ltb_spec (z_start z + off) (z_zs z)); [lia|]. cbn [andb orb].
    destruct (Nat.ltb_spec off (z_zs z - z_start z + (z_ze z - z_zs z))).
    { destruct (Nat.ltb_spec (z_start z + off) (z_ze z)); [|lia]. cbn [andb].
      destruct (Nat.ltb_spec (z_ze z) (z_start z + off + length bs)); auto.
      destruct (Nat.leb_spec (z_zs z) (z_start z + off)); [|lia]. auto. }
    destruct (Nat.ltb_spec (z_start z + off) (z_ze z)); [lia|]. cbn [andb].
    rewrite Bool.andb_false_r.
    destruct (Nat.eqb_spec (length bs) 0) as [E0|E0].
    { exists h. split; auto. left. split; auto. destruct bs; [auto|discriminate]. }
    assert (Hne : bs <> []) by (intros ->; auto).
    destruct (write_ok h (phys z) (off - (z_ze z - z_zs z)) bs Hh) as [a [s [m [Ea [Hl [Lm [E [D F]]]]]]]]; auto; [cbn; lia|].
    unfold write_data in E. unfold z_store. cbn [phys b_st b_start] in E, Ea.
    replace (z_start z + off - (z_ze z - z_zs z)) with (z_start z + (off - (z_ze z - z_zs z))) by lia.
    rewrite E. eexists. split; [reflexivity|].
    right. split; auto. exists a, s, m. split; auto. split; auto. split; auto. split; auto. split.
    + unfold zdata. rewrite D. rewrite <- zexp_write; auto.
      * unfold zh, zg. rewrite (proj2 (Nat.ltb_ge off (z_zs z - z_start z))) by auto. auto.
      * rewrite (data_length _ _ Hh). apply zh_le; auto.
      * rewrite (data_length _ _ Hh). unfold zg. cbn. lia.
    + intros c Hc. apply F. cbn [phys b_start]. intros Ec. specialize (Hc Ec). unfold zplace, zh, zg in Hc.
      rewrite (proj2 (Nat.ltb_ge off (z_zs z - z_start z))) in Hc by auto. auto.
Qed.

(** ** Worlds *)

Definition physw (w : zworld) : world := mk_world (zw_heap w) (map (option_map phys) (zw_bufs w)).
Definition zabs (w : zworld) : strings := map (option_map (zdata (zw_heap w))) (zw_bufs w).
Definition zsafe (w : zworld) : Prop := safe true true (physw w).
Record zinv (w : zworld) : Prop := {
  zi_inv : inv (physw w);
  zi_zok : forall i z, nth_error (zw_bufs w) i = Some (Some z) -> zok z
}.

Lemma physw_set h w i o : physw (zset_var h w i o) = set_var h (physw w) i (option_map phys o).
Proof. unfold physw, zset_var, set_var. cbn. rewrite map_upd. auto. Qed.
Lemma physw_add h w z : physw (zadd_var h w z) = add_var h (physw w) (phys z).
Proof. unfold physw, zadd_var, add_var. cbn. rewrite map_app. auto. Qed.
Lemma physw_nth w i z : nth_error (zw_bufs w) i = Some (Some z) -> nth_error (w_bufs (physw w)) i = Some (Some (phys z)).
Proof. intros H. unfold physw. cbn. rewrite nth_error_map, H. auto. Qed.
Lemma zvar_some w i z : zvar w i = Some z <-> nth_error (zw_bufs w) i = Some (Some z).
Proof. unfold zvar. destruct (nth_error (zw_bufs w) i) as [[x|]|]; split; congruence. Qed.
Lemma str_zabs w i : str (zabs w) i = option_map (zdata (zw_heap w)) (zvar w i).
Proof.
  unfold str, zabs, zvar. rewrite nth_error_map. destruct (nth_error (zw_bufs w) i) as [[x|]|]; auto.
Qed.
Lemma zabs_length w : length (zabs w) = length (zw_bufs w).
Proof. apply map_length. Qed.
Lemma zabs_nth w i z : nth_error (zw_bufs w) i = Some (Some z) ->
  nth_error (zabs w) i = Some (Some (zdata (zw_heap w) z)).
Proof. intros H. unfold zabs. rewrite nth_error_map, H. auto. Qed.
Lemma zworld_holds w i z : zinv w -> nth_error (zw_bufs w) i = Some (Some z) -> holds (zw_heap w) (phys z).
Proof. intros I H. apply (i_holds _ (zi_inv _ I) i). apply physw_nth; auto. Qed.
Lemma zworld_apart w i j b c : zinv w -> i <> j -> nth_error (zw_bufs w) i = Some (Some b) ->
  nth_error (zw_bufs w) j = Some (Some c) -> apart (zw_heap w) (phys b) (phys c).
Proof. intros I Hn Hi Hj. apply (world_apart (physw w) i j); auto using physw_nth. apply I. Qed.
Lemma zusers_phys w a : users (physw w) a = zusers w a.
Proof.
  unfold users, zusers, physw. cbn. induction (zw_bufs w) as [|[z|] l IH]; auto; cbn.
  destruct (match z_st z with Some a' => a =? a' | None => false end); cbn; lia.
Qed.

Lemma zchanged_inv w i z h' z' : zinv w -> nth_error (zw_bufs w) i = Some (Some z) -> zok z' ->
  moved (zw_heap w) (phys z) h' (phys z') -> zinv (zset_var h' w i (Some z')).
Proof.
  intros I Hi Z M. split.
  - rewrite physw_set. apply (changed_inv (physw w) i (phys z)); auto using physw_nth. apply I.
  - intros j c Hj. cbn in Hj. apply upd_inv in Hj. destruct Hj as [[_ E]|[_ Hj]]; [congruence|]. eapply I; eauto.
Qed.
Lemma zchanged_safe w i z h' z' : zinv w -> zsafe w -> nth_error (zw_bufs w) i = Some (Some z) ->
  covers (zw_heap w) (phys z) h' (phys z') -> zsafe (zset_var h' w i (Some z')).
Proof.
  intros I S Hi C. unfold zsafe. rewrite physw_set. apply (changed_safe true true (physw w) i (phys z)); auto using physw_nth. apply I.
Qed.
Lemma zchanged_abs w i z h' z' : zinv w -> nth_error (zw_bufs w) i = Some (Some z) ->
  (keeps (zw_heap w) (phys z) h' \/ (zsafe w /\ keeps_covered (zw_heap w) (phys z) h')) ->
  zabs (zset_var h' w i (Some z')) = upd (zabs w) i (Some (zdata h' z')).
Proof.
  intros I Hi K. unfold zabs. cbn [zset_var zw_heap zw_bufs]. rewrite map_upd. cbn [option_map].
  apply list_ext. intros j. rewrite !nth_upd, !map_length.
  destruct ((i =? j) && (j <? length (zw_bufs w))) eqn:E; auto. rewrite !nth_error_map.
  destruct (nth_error (zw_bufs w) j) as [[c|]|] eqn:Ej; auto. cbn. f_equal. f_equal.
  assert (Hn : i <> j).
  { intros <-. apply nth_lt in Ej. rewrite Nat.eqb_refl in E. cbn [andb] in E.
    destruct (Nat.ltb_spec i (length (zw_bufs w))); [discriminate|lia]. }
  apply same_zdata. destruct K as [K|[S K]].
  - apply K; [eapply zworld_holds; eauto|eapply zworld_apart; eauto].
  - apply K; [eapply zworld_holds; eauto|eapply zworld_apart; eauto|eapply S, physw_nth; eauto].
Qed.
Lemma zcreated_abs w h' z' : zinv w -> keeps (zw_heap w) empty_buf h' ->
  zabs (zadd_var h' w z') = zabs w ++ [Some (zdata h' z')].
Proof.
  intros I K. unfold zabs. cbn [zadd_var zw_heap zw_bufs]. rewrite map_app. cbn. f_equal.
  apply map_ext_in. intros [c|] Hc; auto. cbn. f_equal. apply In_nth_error in Hc. destruct Hc as [j Hj].
  apply same_zdata. apply K; [eapply zworld_holds; eauto|apply apart_empty].
Qed.
Lemma zadd_zok w h' z' : zinv w -> zok z' ->
  forall i z, nth_error (zw_bufs (zadd_var h' w z')) i = Some (Some z) -> zok z.
Proof.
  intros I Z i z Hi. cbn in Hi. destruct (Nat.lt_ge_cases i (length (zw_bufs w))).
  - rewrite nth_error_app1 in Hi by auto. eapply I; eauto.
  - rewrite nth_error_app2 in Hi by auto. destruct (i - length (zw_bufs w)) as [|[|k]]; try discriminate.
    cbn in Hi. congruence.
Qed.

Record zgood (zo : zop) (extra : list N) (w w' : zworld) : Prop := {
  zg_len : length extra = extra_zlen zo;
  zg_own : forall i, ztarget zo i \/ length (zw_bufs w) <= i ->
     nth_error (zabs w') i = nth_error (spec_zstep extra zo (zabs w)) i;
  zg_all : zsafe w \/ ~ zadds_data zo -> zwrites_alone zo w -> zabs w' = spec_zstep extra zo (zabs w)
}.
Record zfine (zo : zop) (w w' : zworld) : Prop := {
  zf_inv : zinv w';
  zf_safe : no_deep zo -> zsafe w -> zsafe w';
  zf_good : sensible zo w -> zsafe w \/ ~ adds_buffer zo -> exists extra, zgood zo extra w w'
}.

Lemma zsame_fine zo w : zinv w -> zabs w = spec_zstep (repeat 0%N (extra_zlen zo)) zo (zabs w) -> zfine zo w w.
Proof.
  intros I E. split; auto. intros _ _. exists (repeat 0%N (extra_zlen zo)). split; auto.
  - apply repeat_length.
  - intros i _. rewrite <- E. auto.
Qed.
Lemma zchanged_fine zo w i z h' z' : zinv w -> nth_error (zw_bufs w) i = Some (Some z) ->
  (forall k, ztarget zo k -> k = i) -> zok z' ->
  moved (zw_heap w) (phys z) h' (phys z') -> (zsafe w -> covers (zw_heap w) (phys z) h' (phys z')) ->
  (zwrites_alone zo w -> keeps (zw_heap w) (phys z) h' \/ (zadds_data zo /\ keeps_covered (zw_heap w) (phys z) h')) ->
  (sensible zo w -> zsafe w \/ ~ adds_buffer zo -> exists extra, length extra = extra_zlen zo /\
     spec_zstep extra zo (zabs w) = upd (zabs w) i (Some (zdata h' z'))) ->
  zfine zo w (zset_var h' w i (Some z')).
Proof.
  intros I Hi Ht Z M C K G. split.
  - eapply zchanged_inv; eauto.
  - intros Hk S. eapply zchanged_safe; eauto.
  - intros Hs Hb. destruct (G Hs Hb) as [extra [Hx E]]. exists extra. split; auto.
    + intros k [Hk|Hk].
      * rewrite (Ht k Hk). rewrite E. unfold zabs at 1. cbn [zset_var zw_bufs zw_heap].
        rewrite nth_error_map, !nth_upd_eq; auto; rewrite ?zabs_length; eapply nth_lt; eauto.
      * rewrite E. rewrite !(proj2 (nth_error_None _ _)); auto; rewrite ?upd_length, zabs_length; auto.
        cbn [zw_bufs zset_var]. rewrite upd_length. auto.
    + intros Hs' Ha. rewrite E. apply (zchanged_abs _ _ z); auto.
      destruct (K Ha) as [K'|[K1 K2]]; auto. right. split; tauto.
Qed.
Lemma zcreated_fine zo w d h' z' : zinv w -> (forall k, ~ ztarget zo k) -> 0 = extra_zlen zo ->
  spec_zstep [] zo (zabs w) = zabs w ++ [Some d] -> zok z' ->
  trans (zw_heap w) empty_buf h' (phys z') -> (zsafe w -> no_deep zo -> covers (zw_heap w) empty_buf h' (phys z')) ->
  zdata h' z' = d ->
  zfine zo w (zadd_var h' w z').
Proof.
  intros I Ht Hx E Z T C D. split.
  - split.
    + rewrite physw_add. apply created_inv; [apply I|]. apply trans_moved; auto.
    + apply zadd_zok; auto.
  - intros Hk S. unfold zsafe. rewrite physw_add. apply created_safe; auto. apply I.
  - intros _ _. exists []. assert (Eq : zabs (zadd_var h' w z') = spec_zstep [] zo (zabs w)).
    { rewrite E, <- D. apply zcreated_abs; auto. eapply trans_keeps; eauto. }
    split; auto. intros k _. rewrite Eq. auto.
Qed.
Lemma physw_swap w i j z c : physw (zswap w i j z c) = swap (physw w) i j (phys z) (phys c).
Proof. unfold zswap, swap. rewrite !physw_set. auto. Qed.
Lemma zswap_inv w i j b c : zinv w -> i <> j -> nth_error (zw_bufs w) i = Some (Some b) ->
  nth_error (zw_bufs w) j = Some (Some c) -> zinv (zswap w i j b c).
Proof.
  intros I Hn Hi Hj. split.
  - rewrite physw_swap. apply swap_inv; auto using physw_nth. apply I.
  - intros k x Hk. cbn in Hk. apply upd_inv in Hk. destruct Hk as [[_ E]|[_ Hk]].
    + assert (x = b) by congruence. subst. eapply I; eauto.
    + apply upd_inv in Hk. destruct Hk as [[_ E]|[_ Hk]]; [|eapply I; eauto].
      assert (x = c) by congruence. subst. eapply I; eauto.
Qed.
Lemma zswap_abs w i j b c : zabs (zswap w i j b c) =
  upd (upd (zabs w) i (Some (zdata (zw_heap w) c))) j (Some (zdata (zw_heap w) b)).
Proof. unfold zabs, zswap. cbn. rewrite !map_upd. auto. Qed.

Lemma zstep_main junk zo w : zinv w ->
  (zbad_args zo w = true /\ zstep junk zo w = AssertFail) \/
  (zbad_args zo w = false /\ exists w', zstep junk zo w = Done w' /\ zfine zo w w').
Proof.
  intros I. pose proof (i_pos _ (zi_inv _ I)) as Hp. change (w_heap (physw w)) with (zw_heap w) in Hp.
  assert (V : forall i, (exists z, zvar w i = Some z /\ nth_error (zw_bufs w) i = Some (Some z) /\
            str (zabs w) i = Some (zdata (zw_heap w) z) /\ holds (zw_heap w) (phys z) /\ zok z) \/
            (zvar w i = None /\ str (zabs w) i = None)).
  { intros i. destruct (zvar w i) as [z|] eqn:E.
    - left. exists z. pose proof E as E'. apply zvar_some in E'. split; auto. split; auto.
      split; [rewrite str_zabs, E; auto|]. split; [eapply zworld_holds; eauto|eapply I; eauto].
    - right. split; auto. rewrite str_zabs, E. auto. }
  destruct zo as [o|i|i]; [destruct o|..]; cbn [zstep zbad_args].
  - (* New *) right. split; auto. destruct (znew_capacity_ok junk capacity (zw_heap w) Hp) as [h' [z' [E [Z [T [C D]]]]]].
    eexists. unfold zcreated. rewrite E. split; [reflexivity|]. eapply zcreated_fine; eauto; try (intros ? Hf; exact Hf); try reflexivity.
  - (* NewZero *) right. split; auto.
    destruct (znew_zero_ok junk startSize zeroSize endSize (zw_heap w) Hp) as [h' [z' [E [Z [T [C D]]]]]].
    eexists. unfold zcreated. rewrite E. split; [reflexivity|]. eapply zcreated_fine; eauto; try (intros ? Hf; exact Hf); try reflexivity.
  - (* DeepCopy *) right. split; auto.
    destruct (zdeep_copy_ok junk data (zw_heap w) Hp) as [h' [z' [E [Z [T D]]]]].
    eexists. unfold zcreated. rewrite E. split; [reflexivity|]. eapply zcreated_fine; eauto; try (intros ? Hf; exact Hf); try reflexivity. intros _ [].
  - (* Copy *) right. split; auto. destruct (V i) as [[z [Ev [Hi [Es [Hb Hz]]]]]|[Ev Es]]; rewrite Ev.
    + destruct (acquire_ok true true (zw_heap w) (phys z) Hb Hp) as [h' [E [T [D [C D']]]]]. unfold zcopy_new.
      change (z_acquire (zw_heap w) z) with (acquire (zw_heap w) (phys z)). rewrite E.
      eexists. split; [reflexivity|]. apply (zcreated_fine _ _ (zdata (zw_heap w) z)); auto; try (intros ? Hf; exact Hf); try reflexivity.
      * cbn [spec_zstep spec_step]. rewrite Es. auto.
      * intros S _ _. split; [apply C; eapply S, physw_nth; eauto|]. intros x Hx _ Cx. auto.
      * apply same_zdata. auto.
    + eexists. split; [reflexivity|]. apply zsame_fine; auto. cbn [spec_zstep spec_step]. rewrite Es. auto.
  - (* MoveNew *) right. split; auto. destruct (V i) as [[z [Ev [Hi [Es [Hb Hz]]]]]|[Ev Es]]; rewrite Ev.
    + destruct (move_new_ok true true (physw w) i (phys z) (zi_inv _ I) (physw_nth _ _ _ Hi)) as [w' [E [I' [S' A']]]].
      unfold zmove_new. eexists. split; [reflexivity|]. unfold move_new in E. inversion E; subst w'; clear E.
      set (w' := zadd_var (zw_heap w) (zset_var (zw_heap w) w i (Some empty_zbuf)) z).
      assert (Ep : physw w' = add_var (w_heap (physw w)) (set_var (w_heap (physw w)) (physw w) i (Some empty_buf)) (phys z)).
      { unfold w'. rewrite physw_add, physw_set. auto. }
      split.
      * split; [rewrite Ep; exact I'|]. intros k x Hk. cbn in Hk.
        destruct (Nat.lt_ge_cases k (length (upd (zw_bufs w) i (Some empty_zbuf)))).
        -- rewrite nth_error_app1 in Hk by auto. apply upd_inv in Hk. destruct Hk as [[_ Ex]|[_ Hk]]; [|eapply I; eauto].
           assert (x = empty_zbuf) by congruence. subst x. unfold zok. cbn. lia.
        -- rewrite nth_error_app2 in Hk by auto.
           destruct (k - length (upd (zw_bufs w) i (Some empty_zbuf))) as [|[|y]]; try discriminate.
           cbn in Hk. congruence.
      * intros _ S. unfold zsafe. rewrite Ep. exact (S' S).
      * intros _ _. exists []. assert (Eq : zabs w' = spec_zstep [] (ZBase (MoveNew i)) (zabs w)).
        { cbn [spec_zstep spec_step]. rewrite Es. unfold zabs, w'. cbn. rewrite map_app, map_upd. auto. }
        split; auto. intros k _. rewrite Eq. auto.
    + eexists. split; [reflexivity|]. apply zsame_fine; auto. cbn [spec_zstep spec_step]. rewrite Es. auto.
  - (* Assign *) right. split; auto. destruct (Nat.eqb_spec i j) as [<-|Hn].
    { eexists. split; [reflexivity|]. apply zsame_fine; auto. cbn [spec_zstep spec_step].
      destruct (V i) as [[z [Ev [Hi [Es [Hb Hz]]]]]|[Ev Es]]; rewrite Es; auto.
      symmetry. apply upd_same, zabs_nth. auto. }
    destruct (V i) as [[z [Ev [Hi [Es [Hb Hz]]]]]|[Ev Es]]; rewrite Ev.
    2: { eexists. split; [reflexivity|]. apply zsame_fine; auto. cbn [spec_zstep spec_step]. rewrite Es. auto. }
    destruct (V j) as [[c [Ew [Hj [Et [Hc Hzc]]]]]|[Ew Et]]; rewrite Ew.
    2: { eexists. split; [reflexivity|]. apply zsame_fine; auto. cbn [spec_zstep spec_step]. rewrite Es, Et. auto. }
    destruct (assign_trans true true (zw_heap w) (phys z) (phys c) Hb Hc Hp) as [h1 [h2 [E1 [E2 [T [C D]]]]]].
    unfold zassign. change (z_acquire (zw_heap w) c) with (acquire (zw_heap w) (phys c)).
    change (z_st z) with (b_st (phys z)).
    rewrite E1. cbn [obind]. rewrite E2. cbn [obind]. eexists. split; [reflexivity|].
    apply (zchanged_fine _ _ _ z); auto.
    + apply trans_moved; auto.
    + intros S. apply C. eapply S, physw_nth; eauto.
    + intros _. left. eapply trans_keeps; eauto.
    + intros _ _. exists []. split; auto. cbn [spec_zstep spec_step]. rewrite Es, Et, (same_zdata _ _ _ D). auto.
  - (* MoveAssign *) right. split; auto. destruct (Nat.eqb_spec i j) as [<-|Hn].
    { eexists. split; [reflexivity|]. apply zsame_fine; auto. cbn [spec_zstep spec_step]. rewrite Nat.eqb_refl. auto. }
    destruct (V i) as [[z [Ev [Hi [Es [Hb Hz]]]]]|[Ev Es]]; rewrite Ev.
    2: { eexists. split; [reflexivity|]. apply zsame_fine; auto. cbn [spec_zstep spec_step]. rewrite Es.
         destruct (i =? j); auto. }
    destruct (V j) as [[c [Ew [Hj [Et [Hc Hzc]]]]]|[Ew Et]]; rewrite Ew.
    2: { eexists. split; [reflexivity|]. apply zsame_fine; auto. cbn [spec_zstep spec_step]. rewrite Es, Et.
         destruct (i =? j); auto. }
    pose proof (zswap_inv w i j z c I Hn Hi Hj) as I1. pose proof (zswap_abs w i j z c) as A1.
    assert (Hj1 : nth_error (zw_bufs (zswap w i j z c)) j = Some (Some z)).
    { cbn. rewrite nth_upd_eq; auto. rewrite upd_length. eapply nth_lt; eauto. }
    destruct (zrelease_ok (zw_heap w) z Hz Hb Hp) as [h2 [z2 [E2 [T2 [C2 [Z2 [S2 [P2 [D2 _]]]]]]]]].
    unfold zmove_assign. change (zw_heap (zswap w i j z c)) with (zw_heap w). rewrite E2. cbn [obind].
    eexists. split; [reflexivity|].
    split.
    + eapply zchanged_inv; eauto. apply trans_moved; auto.
    + intros _ S. eapply zchanged_safe; eauto. unfold zsafe. rewrite physw_swap. apply swap_safe; auto using physw_nth.
    + intros Hs _. exists [].
      assert (Eq : zabs (zset_var h2 (zswap w i j z c) j (Some z2)) = spec_zstep [] (ZBase (MoveAssign i j)) (zabs w)).
      { rewrite (zchanged_abs _ _ z); auto.
        - rewrite A1. cbn [spec_zstep spec_step]. rewrite (proj2 (Nat.eqb_neq i j) Hn), Es, Et, upd_upd. rewrite D2; auto.
          cbn [sensible] in Hs. destruct Hs as [Hs|Hs]; [congruence|].
          destruct (z_st z) eqn:Ez; [left; discriminate|]. right. destruct (Nat.eq_dec (z_size z) 0); auto.
          exfalso. apply Hs. exists z. split; auto. split; auto. lia.
        - left. eapply trans_keeps; eauto. }
      split; auto. intros k _. rewrite Eq. auto.
  - (* Swap *) right. split; auto. destruct (Nat.eqb_spec i j) as [<-|Hn].
    { eexists. split; [reflexivity|]. apply zsame_fine; auto. cbn [spec_zstep spec_step]. rewrite Nat.eqb_refl. auto. }
    destruct (V i) as [[z [Ev [Hi [Es [Hb Hz]]]]]|[Ev Es]]; rewrite Ev.
    2: { eexists. split; [reflexivity|]. apply zsame_fine; auto. cbn [spec_zstep spec_step]. rewrite Es.
         destruct (i =? j); auto. }
    destruct (V j) as [[c [Ew [Hj [Et [Hc Hzc]]]]]|[Ew Et]]; rewrite Ew.
    2: { eexists. split; [reflexivity|]. apply zsame_fine; auto. cbn [spec_zstep spec_step]. rewrite Es, Et.
         destruct (i =? j); auto. }
    eexists. split; [reflexivity|].
    assert (Eq : zabs (zswap w i j z c) = spec_zstep [] (ZBase (Swap i j)) (zabs w)).
    { rewrite zswap_abs. cbn [spec_zstep spec_step]. rewrite (proj2 (Nat.eqb_neq i j) Hn), Es, Et. auto. }
    split.
    + apply zswap_inv; auto.
    + intros _ S. unfold zsafe. rewrite physw_swap. apply swap_safe; auto using physw_nth.
    + intros _ _. exists []. split; auto. intros k _. rewrite Eq. auto.
  - (* Destroy *) right. split; auto. destruct (V i) as [[z [Ev [Hi [Es [Hb Hz]]]]]|[Ev Es]]; rewrite Ev.
    2: { eexists. split; [reflexivity|]. apply zsame_fine; auto. cbn [spec_zstep spec_step]. rewrite Es. auto. }
    destruct (zrelease_ok (zw_heap w) z Hz Hb Hp) as [h2 [z2 [E2 [T2 [C2 [Z2 [S2 [P2 [D2 _]]]]]]]]].
    unfold zdestroy. rewrite E2. cbn [obind].
    eexists. split; [reflexivity|].
    pose proof (zchanged_inv w i z h2 z2 I Hi Z2 (trans_moved _ _ _ _ T2)) as I1.
    assert (Eu : zset_var h2 w i None = zset_var h2 (zset_var h2 w i (Some z2)) i None).
    { unfold zset_var. cbn. rewrite upd_upd. auto. }
    assert (Hi1 : nth_error (zw_bufs (zset_var h2 w i (Some z2))) i = Some (Some z2)).
    { cbn. rewrite nth_upd_eq; auto. eapply nth_lt; eauto. }
    assert (Eq : zabs (zset_var h2 w i None) = spec_zstep [] (ZBase (Destroy i)) (zabs w)).
    { rewrite Eu. unfold zabs at 1. cbn [zset_var zw_bufs zw_heap]. rewrite map_upd.
      change (map (option_map (zdata h2)) (upd (zw_bufs w) i (Some z2))) with
        (zabs (zset_var h2 w i (Some z2))).
      rewrite (zchanged_abs _ _ z); auto; [|left; eapply trans_keeps; eauto].
      cbn [spec_zstep spec_step]. rewrite Es, upd_upd. auto. }
    split.
    + split.
      * rewrite Eu, physw_set. apply (drop_inv (physw (zset_var h2 w i (Some z2))) i); [apply I1|].
        rewrite <- P2. apply physw_nth; auto.
      * intros k x Hk. cbn in Hk. apply upd_inv in Hk. destruct Hk as [[_ Ex]|[_ Hk]]; [discriminate|eapply I; eauto].
    + intros _ S. unfold zsafe. rewrite Eu, physw_set. apply (drop_safe true true (physw (zset_var h2 w i (Some z2))) i).
      eapply zchanged_safe; eauto.
    + intros _ _. exists []. split; auto. intros k _. rewrite Eq. auto.
  - (* AddStart *) right. split; auto. destruct (V i) as [[z [Ev [Hi [Es [Hb Hz]]]]]|[Ev Es]]; rewrite Ev.
    2: { eexists. split; [reflexivity|]. apply zsame_fine; auto. cbn [spec_zstep spec_step]. rewrite Es. auto. }
    destruct (zadd_start_ok junk size (zw_heap w) z Hz Hb Hp) as [h' [z' [x [E [Lx [L [G [F D]]]]]]]].
    unfold zchanged. rewrite E. cbn [obind]. eexists. split; [reflexivity|].
    apply (zchanged_fine _ _ _ z); auto.
    + apply L.
    + apply trans_moved, G.
    + intros _. apply G.
    + intros _. left. eapply trans_keeps, G.
    + intros _ _. exists x. split; auto. cbn [spec_zstep spec_step]. rewrite Es, D. auto.
  - (* AddStartBytes *) right. split; auto. destruct (V i) as [[z [Ev [Hi [Es [Hb Hz]]]]]|[Ev Es]]; rewrite Ev.
    2: { eexists. split; [reflexivity|]. apply zsame_fine; auto. cbn [spec_zstep spec_step]. rewrite Es. auto. }
    destruct (zadd_bytes_start_ok junk bs (zw_heap w) z Hz Hb Hp) as [h' [z' [E R]]].
    unfold zchanged. rewrite E. cbn [obind]. eexists. split; [reflexivity|].
    apply (zchanged_fine _ _ _ z); auto; try apply R.
    + intros _. apply R.
    + intros _. right. split; [exact Logic.I|apply R].
    + intros _ _. exists []. split; auto. cbn [spec_zstep spec_step]. rewrite Es, (zr_data _ _ _ _ _ R). auto.
  - (* AddStartBuf *) right. split; auto. destruct (V i) as [[z [Ev [Hi [Es [Hb Hz]]]]]|[Ev Es]]; rewrite Ev.
    2: { eexists. split; [reflexivity|]. apply zsame_fine; auto. cbn [spec_zstep spec_step]. rewrite Es. auto. }
    destruct (V j) as [[c [Ew [Hj [Et [Hc Hzc]]]]]|[Ew Et]]; rewrite Ew.
    2: { eexists. split; [reflexivity|]. apply zsame_fine; auto. cbn [spec_zstep spec_step]. rewrite Es, Et. auto. }
    destruct (Nat.eqb_spec i j) as [<-|Hn].
    + destruct (zadd_self_start_ok junk (zw_heap w) z Hz Hb Hp) as [h' [z' [x [E [Lx R]]]]].
      unfold zchanged. rewrite E. cbn [obind]. eexists. split; [reflexivity|].
      apply (zchanged_fine _ _ _ z); auto; try apply R.
      * intros _. apply R.
      * intros _. right. split; [exact Logic.I|apply R].
      * cbn [sensible]. intros [Hs _]. congruence.
    + destruct (zadd_buf_start_ok junk c (zw_heap w) z Hz Hb Hp Hzc Hc) as [h' [z' [bs [E [Lb [R Eb]]]]]].
      { eapply zworld_apart; eauto. }
      unfold zchanged. rewrite E. cbn [obind]. eexists. split; [reflexivity|].
      apply (zchanged_fine _ _ _ z); auto; try apply R.
      * intros _. apply R.
      * intros _. right. split; [exact Logic.I|apply R].
      * cbn [sensible adds_buffer]. intros [_ Hs] [S|S]; [|tauto]. exists []. split; auto. cbn [spec_zstep spec_step].
        rewrite Es, Et, (zr_data _ _ _ _ _ R), Eb; auto.
        -- intros Hnone. destruct (Nat.eq_dec (z_size c) 0); auto. exfalso. apply Hs. exists c. split; auto. split; auto. lia.
        -- eapply S, physw_nth; eauto.
  - (* AddEnd *) right. split; auto. destruct (V i) as [[z [Ev [Hi [Es [Hb Hz]]]]]|[Ev Es]]; rewrite Ev.
    2: { eexists. split; [reflexivity|]. apply zsame_fine; auto. cbn [spec_zstep spec_step]. rewrite Es. auto. }
    destruct (zadd_end_ok junk size (zw_heap w) z Hz Hb Hp) as [h' [z' [x [E [Lx [L [G [F D]]]]]]]].
    unfold zchanged. rewrite E. cbn [obind]. eexists. split; [reflexivity|].
    apply (zchanged_fine _ _ _ z); auto.
    + apply L.
    + apply trans_moved, G.
    + intros _. apply G.
    + intros _. left. eapply trans_keeps, G.
    + intros _ _. exists x. split; auto. cbn [spec_zstep spec_step]. rewrite Es, D. auto.
  - (* AddEndBytes *) right. split; auto. destruct (V i) as [[z [Ev [Hi [Es [Hb Hz]]]]]|[Ev Es]]; rewrite Ev.
    2: { eexists. split; [reflexivity|]. apply zsame_fine; auto. cbn [spec_zstep spec_step]. rewrite Es. auto. }
    destruct (zadd_bytes_end_ok junk bs (zw_heap w) z Hz Hb Hp) as [h' [z' [E R]]].
    unfold zchanged. rewrite E. cbn [obind]. eexists. split; [reflexivity|].
    apply (zchanged_fine _ _ _ z); auto; try apply R.
    + intros _. apply R.
    + intros _. right. split; [exact Logic.I|apply R].
    + intros _ _. exists []. split; auto. cbn [spec_zstep spec_step]. rewrite Es, (zr_data _ _ _ _ _ R). auto.
  - (* AddEndBuf *) right. split; auto. destruct (V i) as [[z [Ev [Hi [Es [Hb Hz]]]]]|[Ev Es]]; rewrite Ev.
    2: { eexists. split; [reflexivity|]. apply zsame_fine; auto. cbn [spec_zstep spec_step]. rewrite Es. auto. }
    destruct (V j) as [[c [Ew [Hj [Et [Hc Hzc]]]]]|[Ew Et]]; rewrite Ew.
    2: { eexists. split; [reflexivity|]. apply zsame_fine; auto. cbn [spec_zstep spec_step]. rewrite Es, Et. auto. }
    destruct (Nat.eqb_spec i j) as [<-|Hn].
    + assert (c = z) by congruence. subst c.
      destruct (zadd_self_end_ok junk (zw_heap w) z Hz Hb Hp) as [h' [z' [E R]]].
      unfold zchanged. rewrite E. cbn [obind]. eexists. split; [reflexivity|].
      apply (zchanged_fine _ _ _ z); auto; try apply R.
      * intros _. apply R.
      * intros _. right. split; [exact Logic.I|apply R].
      * intros _ _. exists []. split; auto. cbn [spec_zstep spec_step]. rewrite Es, (zr_data _ _ _ _ _ R). auto.
    + destruct (zadd_buf_end_ok junk c (zw_heap w) z Hz Hb Hp Hzc Hc) as [h' [z' [bs [E [Lb [R Eb]]]]]].
      { eapply zworld_apart; eauto. }
      unfold zchanged. rewrite E. cbn [obind]. eexists. split; [reflexivity|].
      apply (zchanged_fine _ _ _ z); auto; try apply R.
      * intros _. apply R.
      * intros _. right. split; [exact Logic.I|apply R].
      * cbn [sensible adds_buffer]. intros Hs [S|S]; [|tauto]. exists []. split; auto. cbn [spec_zstep spec_step].
        rewrite Es, Et, (zr_data _ _ _ _ _ R), Eb; auto.
        -- intros Hnone. destruct Hs as [Hs|Hs]; [congruence|].
           destruct (Nat.eq_dec (z_size c) 0); auto. exfalso. apply Hs. exists c. split; auto. split; auto. lia.
        -- eapply S, physw_nth; eauto.
  - (* RemStart *) right. split; auto. destruct (V i) as [[z [Ev [Hi [Es [Hb Hz]]]]]|[Ev Es]]; rewrite Ev.
    2: { eexists. split; [reflexivity|]. apply zsame_fine; auto. cbn [spec_zstep spec_step]. rewrite Es. auto. }
    destruct (zremove_start_ok size (zw_heap w) z Hz Hb Hp) as [h' [z' [d [E [R [K D]]]]]].
    unfold zchanged. rewrite E. cbn [obind]. eexists. split; [reflexivity|].
    apply (zchanged_fine _ _ _ z); auto; try apply R.
    + intros _. apply R.
    + cbn [sensible]. intros Hs _. exists []. split; auto. cbn [spec_zstep spec_step].
      rewrite Es, (zr_data _ _ _ _ _ R), D; auto. intros Hnone. destruct (Nat.eq_dec (z_size z) 0); auto. right.
      apply Hs; [|unfold zsize_of; rewrite Ev; auto]. exists z. split; auto. split; auto. lia.
  - (* RemEnd *) right. split; auto. destruct (V i) as [[z [Ev [Hi [Es [Hb Hz]]]]]|[Ev Es]]; rewrite Ev.
    2: { eexists. split; [reflexivity|]. apply zsame_fine; auto. cbn [spec_zstep spec_step]. rewrite Es. auto. }
    destruct (zremove_end_ok size (zw_heap w) z Hz Hb Hp) as [h' [z' [d [E [R [K D]]]]]].
    unfold zchanged. rewrite E. cbn [obind]. eexists. split; [reflexivity|].
    apply (zchanged_fine _ _ _ z); auto; try apply R.
    + intros _. apply R.
    + cbn [sensible]. intros Hs _. exists []. split; auto. cbn [spec_zstep spec_step].
      rewrite Es, (zr_data _ _ _ _ _ R), D; auto. intros Hnone. destruct (Nat.eq_dec (z_size z) 0); auto. right.
      apply Hs; [|unfold zsize_of; rewrite Ev; auto]. exists z. split; auto. split; auto. lia.
  - (* Fragment *) unfold zsize_of. destruct (V i) as [[z [Ev [Hi [Es [Hb Hz]]]]]|[Ev Es]]; rewrite Ev; cbn [option_map].
    2: { right. split; auto. eexists. split; [reflexivity|]. apply zsame_fine; auto. cbn [spec_zstep spec_step]. rewrite Es. auto. }
    destruct (Nat.ltb_spec (z_size z) (start + size)).
    + left. split; auto. unfold z_make_fragment.
      destruct (Nat.ltb_spec (z_size z) start); auto.
      destruct (Nat.ltb_spec (z_size z - start) size); auto. lia.
    + right. split; auto. destruct (zfragment_ok start size (zw_heap w) z Hz Hb Hp H) as [h' [f [E [Z [T [C D]]]]]].
      unfold zcreated. rewrite E. cbn [obind]. eexists. split; [reflexivity|].
      eapply zcreated_fine; eauto; try (intros ? Hf; exact Hf); try reflexivity.
      * cbn [spec_zstep spec_step]. rewrite Es. auto.
      * intros S _. apply C. eapply S, physw_nth; eauto.
  - (* Write *) unfold zsize_of, zlayout. destruct (V i) as [[z [Ev [Hi [Es [Hb Hz]]]]]|[Ev Es]]; rewrite Ev; cbn [option_map].
    2: { right. split; auto. eexists. split; [reflexivity|]. apply zsame_fine; auto. cbn [spec_zstep spec_step]. rewrite Es. auto. }
    pose proof (zwrite_ok off bs (zw_heap w) z Hz Hb Hp) as W. unfold zrange in W.
    change (z_zs z - z_start z) with (zh z). change (z_ze z - z_zs z) with (zg z).
    destruct ((z_size z <? off + length bs) || (if off <? zh z then zh z <? off + length bs else off <? zh z + zg z)).
    { left. split; auto. rewrite W. auto. }
    right. split; auto. destruct W as [h' [E W]]. rewrite E. cbn [obind]. eexists. split; [reflexivity|].
    destruct W as [[-> ->]|[Hne [a [s [m [Ea [Hl [Lm [-> [D F]]]]]]]]]].
    + replace (zset_var (zw_heap w) w i (Some z)) with w.
      2: { destruct w. unfold zset_var. cbn in *. rewrite upd_same; auto. }
      apply zsame_fine; auto. cbn [spec_zstep spec_step]. rewrite Es. cbn [length app]. rewrite Nat.add_0_r, firstn_skipn.
      symmetry. apply upd_same, zabs_nth. auto.
    + apply (zchanged_fine _ _ _ z); auto.
      * apply (write_moved (zw_heap w) (phys z) a s m); auto.
      * intros _ Cb. split; [apply write_cover; auto|]. intros c _ _ Cc. apply write_cover; auto.
      * intros Hu. left. intros c Hc Hap. apply F. intros Ec. exfalso.
        specialize (Hap a Ea Ec). change (zw_heap w) with (w_heap (physw w)) in Hap.
        rewrite (i_rc _ (zi_inv _ I)), zusers_phys in Hap. cbn [zwrites_alone] in Hu.
        specialize (Hu z a Ev Ea). lia.
      * intros _ _. exists []. split; auto. cbn [spec_zstep spec_step]. rewrite Es, D. auto.
  - (* MakeReal *) right. split; auto. destruct (V i) as [[z [Ev [Hi [Es [Hb Hz]]]]]|[Ev Es]]; rewrite Ev.
    2: { eexists. split; [reflexivity|]. apply zsame_fine; auto. cbn [spec_zstep spec_step]. rewrite Es. auto. }
    destruct (zmake_real_ok junk (zw_heap w) z Hz Hb Hp) as [h' [z' [E [Z [T [C D]]]]]].
    unfold zcreated. rewrite E. cbn [obind]. eexists. split; [reflexivity|].
    eapply zcreated_fine; eauto; try (intros ? Hf; exact Hf); try reflexivity.
    + cbn [spec_zstep spec_step]. rewrite Es. auto.
    + intros S _. apply C. eapply S, physw_nth; eauto.
  - (* Realize *) right. split; auto. destruct (V i) as [[z [Ev [Hi [Es [Hb Hz]]]]]|[Ev Es]]; rewrite Ev.
    2: { eexists. split; [reflexivity|]. apply zsame_fine; auto. }
    destruct (zrealize_ok junk (zw_heap w) z Hz Hb Hp) as [h' [z' [E [R K]]]].
    unfold zchanged. rewrite E. cbn [obind]. eexists. split; [reflexivity|].
    apply (zchanged_fine _ _ _ z); auto; try apply R.
    + intros _. apply R.
    + intros _ _. exists []. split; auto. cbn [spec_zstep]. rewrite (zr_data _ _ _ _ _ R).
      symmetry. apply upd_same, zabs_nth. auto.
Qed.
End Both.

(** ** Histories *)

Lemma zbytes_of_str w i : zinv w -> zbytes_of w i = str (zabs w) i.
Proof.
  intros I. rewrite str_zabs. unfold zbytes_of. destruct (zvar w i) as [z|] eqn:E; auto. cbn.
  apply zvar_some in E. destruct (zmem_data (zw_heap w) z) as [m [-> [-> _]]]; auto.
  - eapply I; eauto.
  - eapply zworld_holds; eauto.
Qed.
Lemma ztable_abs w : zinv w -> ztable w = zabs w.
Proof.
  intros I. apply list_ext. intros i. unfold ztable. rewrite nth_error_map.
  destruct (Nat.lt_ge_cases i (length (zw_bufs w))).
  - rewrite nth_error_seq' by auto. cbn. rewrite zbytes_of_str by auto. unfold str.
    destruct (nth_error (zabs w) i) eqn:E; auto. apply nth_error_None in E. rewrite zabs_length in E. lia.
  - rewrite !(proj2 (nth_error_None _ _)); auto; rewrite ?seq_length, ?zabs_length; auto.
Qed.
Lemma zinit_inv : zinv zinit.
Proof. split; [exact init_inv|]. intros [|i] z H; discriminate. Qed.
Lemma zinit_safe : zsafe zinit.
Proof. intros [|i] b H; discriminate. Qed.
Lemma zstep_done junk zo w w' : zinv w -> zstep junk zo w = Done w' -> zfine zo w w'.
Proof. intros I H. destruct (zstep_main junk zo w I) as [[_ E]|[_ [w1 [E F]]]]; congruence. Qed.
Lemma zsteps_inv junk l : forall w w', zinv w -> zsteps junk l w = Done w' -> zinv w'.
Proof.
  induction l as [|o l IH]; intros w w' I H; cbn [zsteps] in *; [congruence|].
  destruct (zstep junk o w) as [w1| | |] eqn:E; cbn [obind] in H; try discriminate.
  apply (IH w1); auto. apply (zstep_done junk o w w1 I E).
Qed.
Lemma zsteps_safe junk l : Forall no_deep l ->
  forall w w', zinv w -> zsafe w -> zsteps junk l w = Done w' -> zsafe w'.
Proof.
  induction 1 as [|o l Ho Hl IH]; intros w w' I S H; cbn [zsteps] in *; [inversion H; subst; auto|].
  destruct (zstep junk o w) as [w1| | |] eqn:E; cbn [obind] in H; try discriminate.
  pose proof (zstep_done junk o w w1 I E) as F. apply (IH w1); auto; apply F; auto.
Qed.

Section History.
Context (junk : nat -> nat -> N) (l : list zop) (w : zworld) (H1 : zsteps junk l zinit = Done w).
Lemma zh_inv : zinv w.
Proof. eapply zsteps_inv; eauto. apply zinit_inv. Qed.
Lemma zh_safe : Forall no_deep l -> zsafe w.
Proof. intros Hl. eapply (zsteps_safe junk l Hl); eauto. apply zinit_inv. apply zinit_safe. Qed.

Lemma zown_content zo w' : zstep junk zo w = Done w' -> sensible zo w ->
  Forall no_deep l \/ ~ adds_buffer zo ->
  exists extra, length extra = extra_zlen zo /\
    forall i, ztarget zo i \/ length (zw_bufs w) <= i -> zbytes_of w' i = str (spec_zstep extra zo (ztable w)) i.
Proof.
  intros H2 Hs Hk. pose proof zh_inv as I. pose proof (zstep_done _ _ _ _ I H2) as F.
  destruct (zf_good _ _ _ F Hs) as [x G]. { destruct Hk; auto. left. apply zh_safe; auto. }
  exists x. split; [apply G|]. intros i Hi.
  rewrite zbytes_of_str by apply F. rewrite ztable_abs by auto. unfold str. rewrite (zg_own _ _ _ _ G i Hi). auto.
Qed.
Lemma zall_content zo w' : zstep junk zo w = Done w' -> sensible zo w ->
  Forall no_deep l \/ ~ zadds_data zo -> zwrites_alone zo w ->
  exists extra, length extra = extra_zlen zo /\ ztable w' = spec_zstep extra zo (ztable w).
Proof.
  intros H2 Hs Hk Ha. pose proof zh_inv as I. pose proof (zstep_done _ _ _ _ I H2) as F.
  assert (Hk' : zsafe w \/ ~ zadds_data zo). { destruct Hk; auto. left. apply zh_safe; auto. }
  destruct (zf_good _ _ _ F Hs) as [x G].
  { destruct Hk' as [S|S]; auto. right. intros Hb. apply S. destruct zo as [o| |]; auto. destruct o; auto. }
  exists x. split; [apply G|]. rewrite !ztable_abs by (auto; apply F). apply G; auto.
Qed.
Lemma zsize_bytes i : zsize_of w i = option_map (@length N) (zbytes_of w i).
Proof.
  pose proof zh_inv as I. rewrite zbytes_of_str by auto.
  rewrite str_zabs. unfold zsize_of. destruct (zvar w i) as [z|] eqn:E; auto. cbn. apply zvar_some in E.
  rewrite zdata_length; auto; [eapply I; eauto|eapply zworld_holds; eauto].
Qed.
Lemma zstep_outcome zo : if zbad_args zo w then zstep junk zo w = AssertFail else exists w', zstep junk zo w = Done w'.
Proof. destruct (zstep_main junk zo w zh_inv) as [[-> E]|[-> [w' [E _]]]]; eauto. Qed.
Lemma zcount_exact a : (0 < zusers w a -> zallocated w a (zusers w a)) /\
  (zusers w a = 0 -> forall n, ~ zallocated w a n).
Proof.
  pose proof zh_inv as I. pose proof (i_rc _ (zi_inv _ I) a) as Hr. rewrite zusers_phys in Hr.
  unfold rc in Hr. cbn [physw w_heap] in Hr. split.
  - intros Hu. destruct (nth_error (zw_heap w) a) as [[s|]|] eqn:E; try lia. exists s. auto.
  - intros Hu n [s [E1 E2]]. rewrite E1 in Hr. pose proof (i_pos _ (zi_inv _ I) a s E1). lia.
Qed.

(** [CopyTo] gives the first bytes of the content, unless there is no storage. *)
Lemma zcopy_to_ok h z a n : zok z -> holds h (phys z) -> z_st z = Some a -> z_copy_to h z n = Done (firstn n (zdata h z)).
Proof.
  intros Hz Hh Ea. pose proof Hh as Hh'. unfold holds in Hh'. cbn [phys b_st b_start b_end] in Hh'.
  rewrite Ea in Hh'. destruct Hh' as [s [Hl [_ Hr]]]. unfold z_copy_to. rewrite Ea.
  assert (Dc : data h (phys z) = firstn (z_end z - (z_ze z - z_zs z) - z_start z) (skipn (z_start z) (sg_bytes s))).
  { apply (data_live h (phys z) a s); auto. }
  assert (DL : zh z <= length (data h (phys z))) by (rewrite (data_length _ _ Hh); apply zh_le; auto).
  unfold zdata. rewrite zexp_firstn by auto. rewrite Dc.
  unfold zok, z_size, zh, zg, z_internal in *.
  destruct (Nat.eqb_spec (z_zs z) (z_ze z)) as [Eg|Eg].
  - rewrite (load_some _ a s) by (auto; destruct (Nat.leb_spec (z_zs z - z_start z + (z_end z - z_ze z)) n); lia).
    replace (z_ze z - z_zs z) with 0 by lia. f_equal.
    destruct (Nat.leb_spec n (z_zs z - z_start z)).
    + rewrite firstn_firstn. f_equal. destruct (Nat.leb_spec (z_zs z - z_start z + (z_end z - z_ze z)) n); lia.
    + destruct (Nat.leb_spec (n - (z_zs z - z_start z)) 0); [lia|].
      cbn [repeat app]. rewrite <- firstn_skipn_app, firstn_firstn. f_equal.
      destruct (Nat.leb_spec (z_zs z - z_start z + (z_end z - z_ze z)) n); lia.
  - destruct (Nat.leb_spec n (z_zs z - z_start z)) as [Hn|Hn].
    + rewrite (load_some _ a s) by (auto; lia). rewrite firstn_firstn, Nat.min_l by lia. auto.
    + rewrite (load_some _ a s) by (auto; lia). cbn [obind].
      destruct (Nat.leb_spec (n - (z_zs z - z_start z)) (z_ze z - z_zs z)) as [H2|H2].
      * rewrite firstn_firstn, Nat.min_l by lia. auto.
      * rewrite (load_some _ a s) by (auto; destruct (Nat.leb_spec (n - (z_zs z - z_start z) - (z_ze z - z_zs z)) (z_end z - z_ze z)); lia).
        cbn [obind]. rewrite firstn_firstn, Nat.min_l by lia. f_equal. f_equal. f_equal.
        rewrite skipn_firstn_comm, firstn_firstn, skipn_skipn'. f_equal.
        -- destruct (Nat.leb_spec (n - (z_zs z - z_start z) - (z_ze z - z_zs z)) (z_end z - z_ze z)); lia.
        -- f_equal. lia.
Qed.
Lemma zcopy_content i z s n : zvar w i = Some z -> ~ bare w i -> zbytes_of w i = Some s ->
  z_copy_to (zw_heap w) z n = Done (firstn n s).
Proof.
  intros Ev Hb Hs. pose proof zh_inv as I. rewrite zbytes_of_str in Hs by auto. rewrite str_zabs, Ev in Hs.
  cbn in Hs. inversion Hs; subst s; clear Hs. pose proof Ev as Hi. apply zvar_some in Hi.
  assert (Hz : zok z) by (eapply I; eauto). pose proof (zworld_holds w i z I Hi) as Hh.
  destruct (z_st z) as [a|] eqn:Ea; [eapply zcopy_to_ok; eauto|].
  assert (E0 : z_size z = 0). { destruct (Nat.eq_dec (z_size z) 0); auto. exfalso. apply Hb. exists z. split; auto. split; auto. lia. }
  unfold z_copy_to. rewrite Ea. pose proof (zdata_length _ _ Hz Hh) as L. rewrite E0 in L.
  destruct (zdata (zw_heap w) z); [|discriminate]. rewrite firstn_nil. auto.
Qed.

(** Realizing. *)
Lemma zreal_layout h z h' z' : zok z -> holds h (phys z) -> pos h -> z_make_real junk h z = Done (h', z') -> z_ze z' - z_zs z' = 0.
Proof.
  intros Hz Hh Hp. unfold z_make_real. destruct (Nat.eqb_spec (z_ze z) (z_zs z)) as [E|E].
  - destruct (z_acquire h z); cbn [obind]; try discriminate. intros X; inversion X; subst. lia.
  - unfold z_real. destruct (allocate junk h (z_end z - z_start z)) as [h1 [a'|]]; try discriminate.
    destruct (z_load h1 z (z_start z) (z_zs z - z_start z)); cbn [obind]; try discriminate.
    destruct (store_at h1 a' 0 a); cbn [obind]; try discriminate.
    destruct (store_at a0 a' (z_zs z - z_start z) (repeat 0%N (z_ze z - z_zs z))); cbn [obind]; try discriminate.
    destruct (z_load a1 z (z_zs z) (z_end z - z_ze z)); cbn [obind]; try discriminate.
    destruct (store_at a1 a' (z_zs z - z_start z + (z_ze z - z_zs z)) a2); cbn [obind]; try discriminate.
    unfold z_make. destruct (negb _); try discriminate. destruct (get a3 a') as [s| | |]; cbn [obind]; try discriminate.
    destruct (sg_cap s <? _); try discriminate. destruct (z_dirty_all a3 _); cbn [obind]; try discriminate.
    intros X; inversion X; subst. cbn. lia.
Qed.
Lemma zrealize_layout i w' : zstep junk (Realize i) w = Done w' -> zvar w i <> None ->
  exists s, zlayout w' i = Some (s, 0).
Proof.
  intros H2 Hv. pose proof zh_inv as I. pose proof (i_pos _ (zi_inv _ I)) as Hp. change (w_heap (physw w)) with (zw_heap w) in Hp.
  cbn [zstep] in H2. destruct (zvar w i) as [z|] eqn:Ev; [|congruence].
  pose proof Ev as Hi. apply zvar_some in Hi. assert (Hz : zok z) by (eapply I; eauto). pose proof (zworld_holds w i z I Hi) as Hh.
  unfold zchanged, z_realize in H2. destruct (z_make_real junk (zw_heap w) z) as [[h1 z1]| | |] eqn:Er; cbn [obind] in H2; try discriminate.
  destruct (z_release h1 z) as [[h2 old]| | |]; cbn [obind] in H2; try discriminate.
  destruct (z_release h2 old) as [[h3 old']| | |]; cbn [obind] in H2; try discriminate.
  inversion H2; subst w'. exists (z_zs z1 - z_start z1). unfold zlayout, zvar. cbn [zset_var zw_bufs].
  rewrite nth_upd_eq by (eapply nth_lt; eauto). cbn [option_map].
  rewrite (zreal_layout _ _ _ _ Hz Hh Hp Er). auto.
Qed.
Lemma zmake_real_layout i w' : zstep junk (MakeReal i) w = Done w' -> zvar w i <> None ->
  exists s, zlayout w' (length (ztable w)) = Some (s, 0).
Proof.
  intros H2 Hv. pose proof zh_inv as I. pose proof (i_pos _ (zi_inv _ I)) as Hp. change (w_heap (physw w)) with (zw_heap w) in Hp.
  cbn [zstep] in H2. destruct (zvar w i) as [z|] eqn:Ev; [|congruence].
  pose proof Ev as Hi. apply zvar_some in Hi. assert (Hz : zok z) by (eapply I; eauto). pose proof (zworld_holds w i z I Hi) as Hh.
  unfold zcreated in H2. destruct (z_make_real junk (zw_heap w) z) as [[h1 z1]| | |] eqn:Er; cbn [obind] in H2; try discriminate.
  inversion H2; subst w'. exists (z_zs z1 - z_start z1). unfold zlayout, zvar. cbn [zadd_var zw_bufs].
  rewrite ztable_abs, zabs_length by auto. rewrite nth_error_app2, Nat.sub_diag by auto. cbn [nth_error option_map].
  rewrite (zreal_layout _ _ _ _ Hz Hh Hp Er). auto.
Qed.

(** Writing into bytes that were just added. *)
Lemma zwrite_fresh_start i n off bs w1 w2 : Forall no_deep l ->
  zstep junk (ZBase (AddStart i n)) w = Done w1 -> zstep junk (ZBase (Write i off bs)) w1 = Done w2 -> off + length bs <= n ->
  forall k, k <> i -> zbytes_of w2 k = zbytes_of w k.
Proof.
  intros Hk E1 E2 Hb k Hn. pose proof zh_inv as I.
  pose proof (zstep_done _ _ _ _ I E1) as F1. pose proof (zstep_done _ _ _ _ (zf_inv _ _ _ F1) E2) as F2.
  pose proof (zh_safe Hk) as S. pose proof (i_pos _ (zi_inv _ I)) as Hp. change (w_heap (physw w)) with (zw_heap w) in Hp.
  rewrite !zbytes_of_str by (auto; apply F2). rewrite !str_zabs.
  cbn [zstep] in E1. destruct (zvar w i) as [z|] eqn:Ev.
  2: { inversion E1; subst w1. cbn [zstep] in E2. rewrite Ev in E2. congruence. }
  pose proof Ev as Hi. apply zvar_some in Hi. pose proof (zworld_holds w i z I Hi) as Hh. assert (Hz : zok z) by (eapply I; eauto).
  destruct (zadd_start_ok junk n (zw_heap w) z Hz Hh Hp) as [h' [z' [x [E [Lx [L [G [F D]]]]]]]].
  unfold zchanged in E1. rewrite E in E1. cbn [obind] in E1. inversion E1; subst w1. clear E1.
  cbn [zstep] in E2. unfold zvar in E2 at 1. cbn [zset_var zw_bufs zw_heap] in E2.
  rewrite nth_upd_eq in E2 by (eapply nth_lt; eauto).
  assert (Vk : forall h w0 x, zvar (zset_var h w0 i x) k = zvar w0 k).
  { intros h w0 y. unfold zvar, zset_var. cbn. rewrite nth_upd_neq; auto. }
  pose proof (gs_trans _ _ _ _ _ _ _ G) as T.
  pose proof (zwrite_ok off bs h' z' ltac:(apply L) (t_holds _ _ _ _ T) (t_pos _ _ _ _ T)) as W.
  destruct (zrange z' off (length bs)); [rewrite W in E2; discriminate|]. destruct W as [h2 [W1 W2]].
  rewrite W1 in E2. cbn [obind] in E2. inversion E2; subst w2. rewrite !Vk. cbn [zset_var zw_heap].
  destruct (zvar w k) as [c|] eqn:Ec; auto. cbn [option_map]. f_equal. apply zvar_some in Ec.
  pose proof (zworld_holds w k c I Ec) as Hc.
  assert (Ha : apart (zw_heap w) (phys z) (phys c)) by (apply (zworld_apart w i k); auto).
  apply same_zdata. destruct (t_frame _ _ _ _ T (phys c) Hc Ha) as [Hc' Dc].
  destruct W2 as [[-> ->]|[Hne [a [s [m [Ea [Hl [Lm [-> [Dw Fr]]]]]]]]]]; auto.
  rewrite Fr; auto. intros Esc. left.
  pose proof (gs_fresh _ _ _ _ _ _ _ G eq_refl) as Hf.
  assert (0 < length bs) by (destruct bs; [congruence|cbn; lia]).
  specialize (Hf ltac:(lia) (phys c) Hc Ha (S _ _ (physw_nth _ _ _ Ec))).
  cbn [phys b_st b_start] in Hf, Esc |- *. rewrite Esc, Ea in Hf. specialize (Hf eq_refl ltac:(discriminate)).
  unfold zplace. destruct L as [_ [_ [L3 _]]]. rewrite (proj2 (Nat.ltb_lt off (zh z'))) by lia. lia.
Qed.
Lemma zwrite_fresh_end i n off bs w1 w2 s : Forall no_deep l ->
  zstep junk (ZBase (AddEnd i n)) w = Done w1 -> zstep junk (ZBase (Write i off bs)) w1 = Done w2 ->
  zbytes_of w i = Some s -> length s <= off ->
  forall k, k <> i -> zbytes_of w2 k = zbytes_of w k.
Proof.
  intros Hk E1 E2 Hs Hb k Hn. pose proof zh_inv as I.
  pose proof (zstep_done _ _ _ _ I E1) as F1. pose proof (zstep_done _ _ _ _ (zf_inv _ _ _ F1) E2) as F2.
  pose proof (zh_safe Hk) as S. pose proof (i_pos _ (zi_inv _ I)) as Hp. change (w_heap (physw w)) with (zw_heap w) in Hp.
  rewrite !zbytes_of_str in * by (auto; apply F2). rewrite !str_zabs in *.
  cbn [zstep] in E1. destruct (zvar w i) as [z|] eqn:Ev; [|discriminate].
  cbn in Hs. inversion Hs; subst s; clear Hs.
  pose proof Ev as Hi. apply zvar_some in Hi. pose proof (zworld_holds w i z I Hi) as Hh. assert (Hz : zok z) by (eapply I; eauto).
  rewrite (zdata_length _ _ Hz Hh) in Hb.
  destruct (zadd_end_ok junk n (zw_heap w) z Hz Hh Hp) as [h' [z' [x [E [Lx [L [G [F D]]]]]]]].
  unfold zchanged in E1. rewrite E in E1. cbn [obind] in E1. inversion E1; subst w1. clear E1.
  cbn [zstep] in E2. unfold zvar in E2 at 1. cbn [zset_var zw_bufs zw_heap] in E2.
  rewrite nth_upd_eq in E2 by (eapply nth_lt; eauto).
  assert (Vk : forall h w0 x, zvar (zset_var h w0 i x) k = zvar w0 k).
  { intros h w0 y. unfold zvar, zset_var. cbn. rewrite nth_upd_neq; auto. }
  pose proof (ge_trans _ _ _ _ _ _ _ G) as T.
  assert (Ls : z_size z' = z_size z + n).
  { rewrite <- (zdata_length h' z' ltac:(apply L) (t_holds _ _ _ _ T)), D, app_length, (zdata_length _ _ Hz Hh). lia. }
  pose proof (zwrite_ok off bs h' z' ltac:(apply L) (t_holds _ _ _ _ T) (t_pos _ _ _ _ T)) as W.
  destruct (zrange z' off (length bs)) eqn:Er; [rewrite W in E2; discriminate|]. destruct W as [h2 [W1 W2]].
  rewrite W1 in E2. cbn [obind] in E2. inversion E2; subst w2. rewrite !Vk. cbn [zset_var zw_heap].
  destruct (zvar w k) as [c|] eqn:Ec; auto. cbn [option_map]. f_equal. apply zvar_some in Ec.
  pose proof (zworld_holds w k c I Ec) as Hc.
  assert (Ha : apart (zw_heap w) (phys z) (phys c)) by (apply (zworld_apart w i k); auto).
  apply same_zdata. destruct (t_frame _ _ _ _ T (phys c) Hc Ha) as [Hc' Dc].
  destruct W2 as [[-> ->]|[Hne [a [s [m [Ea [Hl [Lm [-> [Dw Fr]]]]]]]]]]; auto.
  rewrite Fr; auto. intros Esc. right.
  pose proof (ge_fresh _ _ _ _ _ _ _ G eq_refl) as Hf.
  assert (0 < length bs) by (destruct bs; [congruence|cbn; lia]).
  unfold zrange in Er. apply Bool.orb_false_iff in Er. destruct Er as [Er1 Er2]. apply Nat.ltb_ge in Er1.
  specialize (Hf ltac:(lia) (phys c) Hc Ha (S _ _ (physw_nth _ _ _ Ec))).
  cbn [phys b_st b_start] in Hf, Esc |- *. rewrite Esc, Ea in Hf. specialize (Hf eq_refl ltac:(discriminate)).
  unfold zplace. destruct L as [_ [L2 [L3 L4]]]. cbn [phys b_end] in *.
  unfold zok, z_size, zh, zg in *. destruct (Nat.ltb_spec off (z_zs z' - z_start z')); lia.
Qed.
End History.

(** ** Iterators *)

Lemma ziter_of_ok h z m off : zok z -> holds h (phys z) -> z_memory h z = Done m -> (N.of_nat (z_end z) < 2 ^ 63)%N ->
  off <= z_size z ->
  ziter_ok m (z_iter z (z_start z + off)) /\ zi_string m (z_iter z (z_start z + off)) = zdata h z /\
  zi_pos (z_iter z (z_start z + off)) = off /\ zi_header (z_iter z (z_start z + off)) = zh z /\
  zi_zeros (z_iter z (z_start z + off)) = zg z.
Proof.
  intros Hz Hh Em Hb Ho. destruct (zmem_data h z Hz Hh) as [m' [Em' [Ex Hm]]].
  assert (m' = m) by congruence. subst m'. unfold ziter_ok, zi_string, zi_pos, zi_header, zi_zeros, z_iter, zok, z_size, zh, zg in *.
  cbn [zi_start zi_zs zi_ze zi_end zi_cursor]. rewrite !Nat2N.id. split; [lia|]. split; auto. lia.
Qed.

(** [z_write] is what the iterator does. *)
Lemma z_write_iter off bs h z m : zok z -> holds h (phys z) -> z_memory h z = Done m -> (N.of_nat (z_end z) < 2 ^ 63)%N ->
  off <= z_size z -> (N.of_nat (length bs) < 2 ^ 63)%N ->
  match z_write off bs h z with
  | Done h' => exists m', z_memory h' z = Done m' /\
      zi_store bs m (z_iter z (z_start z + off)) = Done (m', z_iter z (z_start z + off + length bs))
  | AssertFail => zi_store bs m (z_iter z (z_start z + off)) = AssertFail
  | _ => False
  end.
Proof.
  intros Hz Hh Em Hb Ho Hbs. destruct (ziter_of_ok h z m off Hz Hh Em Hb Ho) as [Hok [Es [Ep [Eh Ez]]]].
  unfold zi_store, zi_writable. rewrite (zi_can_forward_eq m _ _ Hok Hbs), (zi_cross_eq m _ _ Hok Hbs), (zi_offset_eq m _ Hok).
  rewrite Es, Ep, Eh, Ez, (zdata_length h z Hz Hh).
  unfold z_write. unfold z_iter, zi_set. cbn [zi_start zi_zs zi_ze zi_end zi_cursor].
  unfold zok, zh, zg, z_size in *.
  destruct (Nat.ltb_spec (z_end z) (z_start z + off + length bs));
    destruct (Nat.leb_spec (off + length bs) (z_end z - z_start z)); try lia; cbn [andb]; auto.
  replace ((z_start z + off <? z_zs z) && (z_zs z <? z_start z + off + length bs)
    || (z_start z + off <? z_ze z) && (z_ze z <? z_start z + off + length bs)) with
   ((off <? z_zs z - z_start z) && (z_zs z - z_start z <? off + length bs)
    || (off <? z_zs z - z_start z + (z_ze z - z_zs z)) && (z_zs z - z_start z + (z_ze z - z_zs z) <? off + length bs)) by lia.
  destruct ((off <? z_zs z - z_start z) && (z_zs z - z_start z <? off + length bs)
    || (off <? z_zs z - z_start z + (z_ze z - z_zs z)) && (z_zs z - z_start z + (z_ze z - z_zs z) <? off + length bs)) eqn:Ec; cbn [negb]; auto.
  replace ((z_zs z <=? z_start z + off) && (z_start z + off <? z_ze z)) with
    ((z_zs z - z_start z <=? off) && (off <? z_zs z - z_start z + (z_ze z - z_zs z))) by lia.
  destruct ((z_zs z - z_start z <=? off) && (off <? z_zs z - z_start z + (z_ze z - z_zs z))) eqn:Ezz; auto. cbn [obind].
  replace (z_start z + off <? z_zs z) with (off <? z_zs z - z_start z) by lia.
  destruct bs as [|b bs].
  - cbn [length Nat.eqb]. exists m. split; auto. rewrite Nat.add_0_r. auto.
  - set (bb := b :: bs) in *. destruct (Nat.eqb_spec (length bb) 0) as [E0|E0]; [discriminate|].
    assert (Lb : 0 < length bb) by lia.
    assert (Eo : N.to_nat (if off <? z_zs z - z_start z then N.of_nat (z_start z + off)
        else (N.of_nat (z_start z + off) - (N.of_nat (z_ze z) - N.of_nat (z_zs z)))%N) =
      (if off <? z_zs z - z_start z then z_start z + off else z_start z + off - (z_ze z - z_zs z))).
    { destruct (off <? z_zs z - z_start z); lia. }
    assert (Em' : exists a s, z_st z = Some a /\ live h a s /\ m = sg_bytes s /\ z_end z - (z_ze z - z_zs z) <= sg_cap s).
    { unfold z_memory in Em. unfold holds in Hh. cbn [phys b_st b_start b_end] in Hh. destruct (z_st z) as [a|].
      - destruct Hh as [s [Hl Hr]]. exists a, s. rewrite (proj2 (get_live _ _ _) Hl) in Em. cbn in Em. inversion Em. split; auto. split; auto. split; auto. lia.
      - exfalso. lia. }
    destruct Em' as [a [s [Ea [Hl [-> Hc]]]]]. rewrite Eo. unfold z_store. rewrite Ea. unfold store_at.
    rewrite (proj2 (get_live _ _ _) Hl). cbn [obind].
    destruct (mem_store_some (sg_bytes s) (if off <? z_zs z - z_start z then z_start z + off else z_start z + off - (z_ze z - z_zs z)) bb) as [m' M].
    { unfold sg_cap in Hc. destruct (Nat.ltb_spec off (z_zs z - z_start z)); lia. }
    rewrite M. exists m'. split.
    + unfold z_memory. rewrite Ea. rewrite (proj2 (get_live _ _ _) (put_live _ _ _ (nth_lt _ _ _ Hl))). auto.
    + f_equal. f_equal. unfold z_iter. f_equal. rewrite w64_small; [lia|]. change (2 ^ 64)%N with (2 ^ 63 + 2 ^ 63)%N. lia.
Qed.

(** ** [RemoveAtStart] in [size_t] arithmetic *)
Lemma zn_remove_agrees n h z : zok z -> (N.of_nat (z_start z + n) < 2 ^ 64)%N -> (N.of_nat (z_end z) < 2 ^ 64)%N ->
  match zn_remove_at_start (N.of_nat n) (N.of_nat (z_start z)) (N.of_nat (z_zs z)) (N.of_nat (z_ze z)) (N.of_nat (z_end z)) with
  | Some (s, zs, ze, e) => z_remove_at_start n h z =
      Done (h, mk_zbuf (z_st z) (N.to_nat s) (N.to_nat zs) (N.to_nat ze) (N.to_nat e))
  | None => z_remove_at_start n h z = z_release h z
  end.
Proof.
  intros Hz Hn He. unfold zn_remove_at_start, z_remove_at_start, zok in *. rewrite w64_small by lia.
  destruct (N.leb_spec (N.of_nat (z_start z) + N.of_nat n) (N.of_nat (z_zs z)));
    destruct (Nat.leb_spec (z_start z + n) (z_zs z)); try lia.
  - f_equal; f_equal; f_equal; lia.
  - destruct (N.leb_spec (N.of_nat (z_start z) + N.of_nat n) (N.of_nat (z_ze z)));
      destruct (Nat.leb_spec (z_start z + n) (z_ze z)); try lia.
    + rewrite !wsub_small by (rewrite ?wsub_small; lia). f_equal; f_equal; f_equal; lia.
    + destruct (N.leb_spec (N.of_nat (z_start z) + N.of_nat n) (N.of_nat (z_end z)));
        destruct (Nat.leb_spec (z_start z + n) (z_end z)); try lia; auto.
      rewrite !wsub_small by lia. rewrite w64_small by lia. f_equal; f_equal; f_equal; try lia.
      rewrite (wsub_small (N.of_nat (z_ze z))) by lia. rewrite wsub_small by lia. lia.
Qed.
