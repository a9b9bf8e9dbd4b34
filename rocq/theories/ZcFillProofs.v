(** Lemmas about the buffers that [AddHeader(size)] and [AddTrailer(size)] of zero-compressed packets return. *)
From Verif Require Import Base BaseProofs Buffer BufferSpec BufferProofs ZcIter ZcBuffer ZcBufferSpec ZcBufferProofs ZcPacket ZcPacketSpec ZcPacketProofs ZcPacketSteps ZcFillSpec.
From Verif Require PacketSpec PacketFill.
From Coq Require Import ZifyBool ZifyNat ZifyN.
Notation overwrite := PacketSpec.overwrite.
Notation fill := PacketSpec.fill.

(** ** Buffers *)

(** Buffer [f] shows the [n] bytes of buffer [k] from position [d] on, which are stored, and no other buffer has their places. *)
Definition piece (b : zworld) (k f d n : nat) : Prop :=
  exists z c pd, zvar b k = Some z /\ zvar b f = Some c /\ z_zs c = z_ze c /\ (z_zs c = z_start c \/ z_zs c = z_end c) /\
    alias (physw b) k f pd n /\ (d = pd /\ pd + n <= zh z \/ d = pd + zg z /\ zh z <= pd).

Lemma physw_var w i z : zvar w i = Some z -> nth_error (w_bufs (physw w)) i = Some (Some (phys z)).
Proof. intros H. apply physw_nth, zvar_some, H. Qed.
Lemma phys_bytes w i z : zinv w -> zvar w i = Some z -> bytes_of (physw w) i = Some (data (zw_heap w) (phys z)).
Proof. intros I V. rewrite bytes_of_str by apply I. apply (abs_str (physw w) i (phys z)). apply physw_var, V. Qed.
Lemma zbytes_data w i z : zinv w -> zvar w i = Some z -> zbytes_of w i = Some (zdata (zw_heap w) z).
Proof. intros I V. rewrite zbytes_of_str, str_zabs, V by exact I. reflexivity. Qed.
Lemma zset_same h w i z : zvar w i = Some z -> zset_var h w i (Some z) = mk_zworld h (zw_bufs w).
Proof. intros V. unfold zset_var. f_equal. apply upd_same. apply zvar_some, V. Qed.

Lemma piece_write junk b k f d n off bs : zinv b -> zsafe b -> piece b k f d n -> off + length bs <= n ->
  exists b', zstep junk (ZBase (Write f off bs)) b = Done b' /\ zinv b' /\ zsafe b' /\ piece b' k f d n /\ zw_bufs b' = zw_bufs b /\
    (exists s, zbytes_of b k = Some s /\ zbytes_of b' k = Some (overwrite (d + off) bs s)) /\
    (exists s, zbytes_of b f = Some s /\ zbytes_of b' f = Some (overwrite off bs s)) /\
    forall j, j <> k -> j <> f -> zbytes_of b' j = zbytes_of b j.
Proof.
  intros I S (z & c & pd & Vz & Vc & Zc & Zp & Al & Pd) Hn.
  assert (Hz : zok z) by (eapply I; apply zvar_some; exact Vz). assert (Hc : zok c) by (eapply I; apply zvar_some; exact Vc).
  pose proof (zworld_holds b k z I (proj1 (zvar_some _ _ _) Vz)) as Hhz. pose proof (zworld_holds b f c I (proj1 (zvar_some _ _ _) Vc)) as Hhc.
  pose proof Al as (pz & pc & a & P1 & P2 & Nkf & P3 & P4 & P5 & P6 & P7 & P8).
  rewrite (physw_var _ _ _ Vz) in P1. injection P1 as <-. rewrite (physw_var _ _ _ Vc) in P2. injection P2 as <-.
  pose proof Hz as Hz'. pose proof Hc as Hc'. unfold zok in Hz', Hc'. cbn [phys b_st b_start b_end] in P3, P4, P5, P6, P7, P8. unfold zh, zg in Pd.
  assert (Gc : zg c = 0) by (unfold zg; lia).
  assert (Dc : forall h, zdata h c = data h (phys c)) by (intros h; unfold zdata; rewrite Gc; apply zexp_zero).
  cbn [zstep]. rewrite Vc. unfold z_write.
  destruct (Nat.ltb_spec (z_end c) (z_start c + off + length bs)); [lia|].
  match goal with |- context[if ?x then AssertFail else _] => replace x with false by lia end.
  match goal with |- context[if ?x then AssertFail else _] => replace x with false by lia end.
  destruct bs as [|x0 bs0] eqn:Eb.
  { cbn [length Nat.eqb obind]. rewrite zset_same by exact Vc. exists b. split; [destruct b; reflexivity|]. split; [exact I|]. split; [exact S|].
    split; [exists z, c, pd; auto 10|]. split; [reflexivity|].
    assert (Ow : forall m (s : list N), overwrite m [] s = s).
    { intros m s. unfold PacketSpec.overwrite. cbn [length app]. rewrite Nat.add_0_r. apply firstn_skipn. }
    split; [exists (zdata (zw_heap b) z); rewrite Ow, (zbytes_data _ _ _ I Vz); auto|].
    split; [exists (zdata (zw_heap b) c); rewrite Ow, (zbytes_data _ _ _ I Vc); auto|auto]. }
  rewrite <- Eb in *. assert (Nb : bs <> []) by (rewrite Eb; discriminate). assert (Lb : length bs <> 0) by (rewrite Eb; discriminate). clear Eb.
  destruct (Nat.eqb_spec (length bs) 0); [lia|]. rewrite Zc. replace (z_ze c - z_ze c) with 0 by lia. rewrite Nat.sub_0_r.
  replace (if z_start c + off <? z_ze c then z_start c + off else z_start c + off) with (z_start c + off) by (destruct (_ <? _); reflexivity).
  change (z_store (zw_heap b) c (z_start c + off) bs) with (write_data (zw_heap b) (phys c) off bs).
  destruct (write_ok (zw_heap b) (phys c) off bs Hhc) as (a' & s & m & Ea & Hl & Lm & W & D & K); [cbn [phys b_start b_end]; lia|exact Nb|].
  rewrite W. cbn [obind]. rewrite zset_same by exact Vc. set (h' := put (zw_heap b) a' (set_bytes s m)) in *. set (b' := mk_zworld h' (zw_bufs b)).
  assert (E : zstep junk (ZBase (Write f off bs)) b = Done b').
  { cbn [zstep]. rewrite Vc. unfold z_write. destruct (Nat.ltb_spec (z_end c) (z_start c + off + length bs)); [lia|].
    match goal with |- context[if ?x then AssertFail else _] => replace x with false by lia end.
    match goal with |- context[if ?x then AssertFail else _] => replace x with false by lia end.
    destruct (Nat.eqb_spec (length bs) 0); [lia|]. rewrite Zc. replace (z_ze c - z_ze c) with 0 by lia. rewrite Nat.sub_0_r.
    replace (if z_start c + off <? z_ze c then z_start c + off else z_start c + off) with (z_start c + off) by (destruct (_ <? _); reflexivity).
    change (z_store (zw_heap b) c (z_start c + off) bs) with (write_data (zw_heap b) (phys c) off bs). rewrite W. cbn [obind].
    rewrite zset_same by exact Vc. reflexivity. }
  pose proof (zf_inv _ _ _ (zstep_done _ _ _ _ I E)) as I'.
  assert (Ep : step junk (Write f off bs) (physw b) = Done (physw b')).
  { cbn [step]. rewrite (proj2 (var_some _ _ _) (physw_var _ _ _ Vc)). cbn [phys b_start b_end].
    destruct (Nat.ltb_spec (z_end c - (z_ze c - z_zs c) - z_start c) (off + length bs)); [lia|].
    destruct (Nat.eqb_spec (length bs) 0); [lia|]. change (w_heap (physw b)) with (zw_heap b). rewrite W. cbn [obind]. f_equal.
    unfold set_var, physw, b'. cbn [w_bufs zw_heap zw_bufs]. f_equal. apply upd_same. apply (physw_var _ _ _ Vc). }
  destruct (alias_write junk (physw b) k f pd n off bs (physw b') (zi_inv _ I) Al Ep) as (_ & Al' & _ & (sp & B1 & B2) & Ko & Sf).
  rewrite (phys_bytes _ _ _ I Vz) in B1. injection B1 as <-. rewrite (phys_bytes b' k z I' Vz) in B2. injection B2 as B2.
  exists b'. split; [reflexivity|]. split; [exact I'|]. split; [apply Sf, S|].
  split; [exists z, c, pd; repeat (split; [assumption|]); unfold zh, zg; exact Pd|]. split; [reflexivity|]. split; [|split].
  - exists (zdata (zw_heap b) z). split; [apply zbytes_data; assumption|]. rewrite (zbytes_data b' k z I' Vz). f_equal.
    change (zw_heap b') with h' in B2 |- *. unfold zdata. rewrite B2. unfold PacketSpec.overwrite.
    pose proof (data_length _ _ Hhz) as Ld. cbn [phys b_start b_end] in Ld.
    pose proof (zexp_write (zh z) (zg z) (data (zw_heap b) (phys z)) (d + off) bs) as Z. cbv zeta in Z.
    assert (Q : (if d + off <? zh z then d + off else d + off - zg z) = pd + off).
    { clear - Pd Hn Lb. unfold zh, zg in *. destruct (Nat.ltb_spec (d + off) (z_zs z - z_start z)); lia. }
    rewrite Q in Z. rewrite <- Z.
    + reflexivity.
    + rewrite Ld. unfold zh. lia.
    + unfold zh, zg. lia.
    + rewrite Ld. unfold zg. lia.
    + exact Nb.
  - exists (zdata (zw_heap b) c). split; [apply zbytes_data; assumption|]. rewrite (zbytes_data b' f c I' Vc). f_equal. rewrite !Dc. exact D.
  - intros j J1 J2. destruct (zvar b j) as [x|] eqn:Vj.
    + assert (Vj' : zvar b' j = Some x) by exact Vj.
      rewrite (zbytes_data _ _ _ I' Vj'), (zbytes_data _ _ _ I Vj). f_equal. apply same_zdata.
      pose proof (Ko j J1 J2) as Kj. rewrite (phys_bytes _ _ _ I' Vj'), (phys_bytes _ _ _ I Vj) in Kj. congruence.
    + unfold zbytes_of. change (zvar b' j) with (zvar b j). rewrite Vj. reflexivity.
Qed.

(** [AddAtStart(n)] and the fragment of these bytes. *)
Lemma header_piece junk b b1 b2 k n z0 : zinv b -> zsafe b -> 0 < n -> zvar b k = Some z0 ->
  zstep junk (ZBase (AddStart k n)) b = Done b1 -> zstep junk (ZBase (Fragment k 0 n)) b1 = Done b2 ->
  piece b2 k (length (zw_bufs b)) 0 n /\ length (zw_bufs b2) = S (length (zw_bufs b)).
Proof.
  intros I S Hn V E1 E2. pose proof (i_pos _ (zi_inv _ I)) as Hp. change (w_heap (physw b)) with (zw_heap b) in Hp.
  pose proof (proj1 (zvar_some _ _ _) V) as Hk. pose proof (zworld_holds b k z0 I Hk) as Hh. assert (Hz : zok z0) by (eapply I; eauto).
  pose proof (nth_lt _ _ _ Hk) as Lk.
  destruct (zadd_start_ok junk n (zw_heap b) z0 Hz Hh Hp) as [h1 [z [x [Ea [Lx [L [G [_ D]]]]]]]].
  cbn [zstep] in E1. rewrite V in E1. unfold zchanged in E1. rewrite Ea in E1. cbn [obind] in E1. injection E1 as <-.
  set (b1 := zset_var h1 b k (Some z)) in *.
  assert (V1 : zvar b1 k = Some z) by (unfold zvar, b1; cbn [zset_var zw_bufs]; rewrite nth_upd_eq by exact Lk; reflexivity).
  cbn [zstep] in E2. rewrite V1 in E2. change (zw_heap b1) with h1 in E2.
  destruct L as (_ & Oz & Hzh & Hzg). pose proof Oz as Oz'. unfold zok in Oz'.
  assert (Sz : zh z + zg z + (z_end z - z_ze z) = z_size z) by (unfold zh, zg, z_size; lia).
  unfold z_make_fragment in E2. destruct (Nat.ltb_spec (z_size z) 0); [lia|]. destruct (Nat.ltb_spec (z_size z - 0) n); [lia|].
  destruct (z_acquire h1 z) as [h2| | |]; cbn [obind zcreated] in E2; try discriminate.
  unfold z_remove_at_start in E2. rewrite Nat.add_0_r in E2. destruct (Nat.leb_spec (z_start z) (z_zs z)); [|lia]. cbn [obind] in E2.
  cbn [Nat.add] in E2. unfold z_remove_at_end in E2. cbn [z_end z_ze z_zs z_start z_st] in E2. unfold z_size in *. unfold zh, zg in *.
  assert (Q : exists c, b2 = zadd_var h2 b1 c /\ z_st c = z_st z /\ z_start c = z_start z /\ z_end c = z_start z + n /\ z_zs c = z_end c /\ z_ze c = z_end c).
  { clear - E2 Oz' Hn Hzh Hzg Sz. destruct (Nat.leb_spec (z_end z - z_start z - n) (z_end z - z_ze z)).
    - unfold zcreated in E2. cbn [obind] in E2. injection E2 as <-. eexists. split; [reflexivity|]. cbn [z_end z_ze z_zs z_start z_st]. repeat split; lia.
    - destruct (Nat.leb_spec (z_end z - z_start z - n) (z_end z - z_zs z)).
      + unfold zcreated in E2. cbn [obind] in E2. injection E2 as <-. eexists. split; [reflexivity|]. cbn [z_end z_ze z_zs z_start z_st]. repeat split; lia.
      + destruct (Nat.leb_spec (z_end z - z_start z - n) (z_end z - z_start z)); [|lia].
        unfold zcreated in E2. cbn [obind] in E2. injection E2 as <-. eexists. split; [reflexivity|]. cbn [z_end z_ze z_zs z_start z_st]. repeat split; lia. }
  destruct Q as (c & -> & C1 & C2 & C3 & C4 & C5). clear E2 D Hh Hp.
  assert (Lb : length (zw_bufs b1) = length (zw_bufs b)) by (unfold b1; cbn [zset_var zw_bufs]; apply upd_length).
  split; [|unfold zadd_var; cbn [zw_bufs]; rewrite app_length, Lb; cbn [length]; lia].
  assert (Vk : zvar (zadd_var h2 b1 c) k = Some z).
  { unfold zvar, zadd_var in *. cbn [zw_bufs]. rewrite nth_error_app1 by lia. exact V1. }
  assert (Vf : zvar (zadd_var h2 b1 c) (length (zw_bufs b)) = Some c).
  { unfold zvar, zadd_var. cbn [zw_bufs]. rewrite nth_error_app2 by lia. rewrite Lb, Nat.sub_diag. reflexivity. }
  exists z, c, 0. split; [exact Vk|]. split; [exact Vf|]. split; [lia|]. split; [lia|]. split; [|left; unfold zh; lia].
  pose proof (gs_trans _ _ _ _ _ _ _ G) as T. pose proof (t_holds _ _ _ _ T) as Hz1. unfold holds in Hz1. cbn [phys b_st b_start b_end] in Hz1.
  destruct (z_st z) as [a|] eqn:Es; [|lia].
  exists (phys z), (phys c), a. split; [apply physw_var, Vk|]. split; [apply physw_var, Vf|]. split; [lia|]. cbn [phys b_st b_start b_end].
  split; [exact Es|]. split; [congruence|]. split; [lia|]. split; [lia|]. split; [lia|].
  intros j y J1 J2 Hj Ey. left.
  assert (Hj' : nth_error (w_bufs (physw b)) j = Some (Some y)).
  { unfold physw in *. cbn [w_bufs zadd_var zw_bufs] in *. rewrite nth_error_map in *. destruct (Nat.lt_ge_cases j (length (zw_bufs b))).
    - rewrite nth_error_app1 in Hj by lia. unfold b1 in Hj. cbn [zset_var zw_bufs] in Hj. rewrite nth_upd_neq in Hj by auto. exact Hj.
    - exfalso. rewrite nth_error_app2 in Hj by lia. rewrite Lb in Hj. destruct (j - length (zw_bufs b)) as [|[|q]] eqn:Eq; try discriminate. lia. }
  pose proof (gs_fresh _ _ _ _ _ _ _ G eq_refl Hn y (i_holds _ (zi_inv _ I) _ _ Hj')
    (world_apart (physw b) k j (phys z0) y (zi_inv _ I) ltac:(auto) (physw_var _ _ _ V) Hj') (S _ _ Hj')) as F.
  cbn [phys b_st b_start] in F. rewrite Ey, Es in F. specialize (F eq_refl ltac:(discriminate)). lia.
Qed.

(** [AddAtEnd(n)] and the fragment of these bytes. *)
Lemma trailer_piece junk b b1 b2 k n z0 : zinv b -> zsafe b -> 0 < n -> zvar b k = Some z0 ->
  zstep junk (ZBase (AddEnd k n)) b = Done b1 -> zstep junk (ZBase (Fragment k (z_size z0) n)) b1 = Done b2 ->
  piece b2 k (length (zw_bufs b)) (z_size z0) n /\ length (zw_bufs b2) = S (length (zw_bufs b)).
Proof.
  intros I S Hn V E1 E2. pose proof (i_pos _ (zi_inv _ I)) as Hp. change (w_heap (physw b)) with (zw_heap b) in Hp.
  pose proof (proj1 (zvar_some _ _ _) V) as Hk. pose proof (zworld_holds b k z0 I Hk) as Hh. assert (Hz : zok z0) by (eapply I; eauto).
  pose proof (nth_lt _ _ _ Hk) as Lk.
  destruct (zadd_end_ok junk n (zw_heap b) z0 Hz Hh Hp) as [h1 [z [x [Ea [Lx [L [G [_ D]]]]]]]].
  pose proof (ge_trans _ _ _ _ _ _ _ G) as T. pose proof (t_holds _ _ _ _ T) as Hz1.
  cbn [zstep] in E1. rewrite V in E1. unfold zchanged in E1. rewrite Ea in E1. cbn [obind] in E1. injection E1 as <-.
  set (b1 := zset_var h1 b k (Some z)) in *.
  assert (V1 : zvar b1 k = Some z) by (unfold zvar, b1; cbn [zset_var zw_bufs]; rewrite nth_upd_eq by exact Lk; reflexivity).
  cbn [zstep] in E2. rewrite V1 in E2. change (zw_heap b1) with h1 in E2.
  destruct L as (_ & Oz & Hzh & Hzg).
  assert (Sz : z_size z = z_size z0 + n).
  { rewrite <- (zdata_length h1 z Oz Hz1), D, app_length, (zdata_length _ _ Hz Hh). lia. }
  pose proof Oz as Oz'. unfold zok in Oz'. unfold zok in Hz.
  unfold z_make_fragment in E2. destruct (Nat.ltb_spec (z_size z) (z_size z0)); [lia|]. destruct (Nat.ltb_spec (z_size z - z_size z0) n); [lia|].
  destruct (z_acquire h1 z) as [h2| | |]; cbn [obind zcreated] in E2; try discriminate.
  unfold z_remove_at_start in E2. unfold z_size, zh, zg in *.
  replace (z_end z - z_start z - (z_end z0 - z_start z0 + n)) with 0 in E2 by lia.
  assert (Q : exists c, b2 = zadd_var h2 b1 c /\ z_st c = z_st z /\ z_end c = z_end z - (z_ze z - z_zs z) /\ z_end c = z_start c + n /\ z_zs c = z_start c /\ z_ze c = z_start c).
  { clear - E2 Oz' Hz Hn Hzh Hzg Sz. destruct (Nat.leb_spec (z_start z + (z_end z0 - z_start z0)) (z_zs z)); [|destruct (Nat.leb_spec (z_start z + (z_end z0 - z_start z0)) (z_ze z));
      [|destruct (Nat.leb_spec (z_start z + (z_end z0 - z_start z0)) (z_end z)); [|lia]]]; cbn [obind] in E2; unfold z_remove_at_end in E2;
    cbn [z_end z_ze z_zs z_start z_st Nat.leb] in E2; unfold zcreated in E2; cbn [obind] in E2; injection E2 as <-; eexists; (split; [reflexivity|]);
    cbn [z_end z_ze z_zs z_start z_st]; repeat split; lia. }
  destruct Q as (c & -> & C1 & C2 & C3 & C4 & C5). clear E2 D Hh Hp.
  assert (Lb : length (zw_bufs b1) = length (zw_bufs b)) by (unfold b1; cbn [zset_var zw_bufs]; apply upd_length).
  split; [|unfold zadd_var; cbn [zw_bufs]; rewrite app_length, Lb; cbn [length]; lia].
  assert (Vk : zvar (zadd_var h2 b1 c) k = Some z).
  { unfold zvar, zadd_var in *. cbn [zw_bufs]. rewrite nth_error_app1 by lia. exact V1. }
  assert (Vf : zvar (zadd_var h2 b1 c) (length (zw_bufs b)) = Some c).
  { unfold zvar, zadd_var. cbn [zw_bufs]. rewrite nth_error_app2 by lia. rewrite Lb, Nat.sub_diag. reflexivity. }
  exists z, c, (z_start c - z_start z). split; [exact Vk|]. split; [exact Vf|]. split; [lia|]. split; [lia|]. split; [|right; unfold zh, zg; lia].
  unfold holds in Hz1. cbn [phys b_st b_start b_end] in Hz1.
  destruct (z_st z) as [a|] eqn:Es; [|lia].
  exists (phys z), (phys c), a. split; [apply physw_var, Vk|]. split; [apply physw_var, Vf|]. split; [lia|]. cbn [phys b_st b_start b_end].
  split; [exact Es|]. split; [congruence|]. split; [lia|]. split; [lia|]. split; [lia|].
  intros j y J1 J2 Hj Ey. right.
  assert (Hj' : nth_error (w_bufs (physw b)) j = Some (Some y)).
  { unfold physw in *. cbn [w_bufs zadd_var zw_bufs] in *. rewrite nth_error_map in *. destruct (Nat.lt_ge_cases j (length (zw_bufs b))).
    - rewrite nth_error_app1 in Hj by lia. unfold b1 in Hj. cbn [zset_var zw_bufs] in Hj. rewrite nth_upd_neq in Hj by auto. exact Hj.
    - exfalso. rewrite nth_error_app2 in Hj by lia. rewrite Lb in Hj. destruct (j - length (zw_bufs b)) as [|[|q]] eqn:Eq; try discriminate. lia. }
  pose proof (ge_fresh _ _ _ _ _ _ _ G eq_refl Hn y (i_holds _ (zi_inv _ I) _ _ Hj')
    (world_apart (physw b) k j (phys z0) y (zi_inv _ I) ltac:(auto) (physw_var _ _ _ V) Hj') (S _ _ Hj')) as F.
  cbn [phys b_st b_start b_end] in F. rewrite Ey, Es in F. specialize (F eq_refl ltac:(discriminate)). lia.
Qed.

(** ** Packets *)

Definition stake (w : zpworld) i a y f d n : Prop :=
  zp_var w i = Some (Some a) /\ ZcPacketProofs.live w a y /\ refs [] w a = 1 /\ zp_owned w f = false /\ piece (zp_buf w) (zy_buf y) f d n.

Lemma write_stake junk w i a y f d n off bs : pinv [] w -> stake w i a y f d n -> off + length bs <= n ->
  exists w', zpstep junk (POnBuf (ZBase (Write f off bs))) w = Done w' /\ pinv [] w' /\ stake w' i a y f d n /\ zp_got w' = zp_got w /\
    (exists s, zpacket_of w i = Some s /\ zpackets w' = upd (zpackets w) i (Some (overwrite (d + off) bs s))) /\
    (exists s, zp_user w f = Some s /\ zp_user w' f = Some (overwrite off bs s)) /\
    forall k, k <> f -> zp_user w' k = zp_user w k.
Proof.
  intros I (V & L & R & O & Pc) Hn.
  destruct (piece_write junk (zp_buf w) (zy_buf y) f d n off bs (p_z _ _ I) (p_safe _ _ I) Pc Hn)
    as (b' & E & I' & S' & Pc' & Eb & (s & B1 & B2) & (t & B3 & B4) & K).
  cbn [zpstep zmentions existsb]. rewrite O. cbn [orb]. unfold zp_on. rewrite E. cbn [obind].
  set (w' := mk_zp b' (zp_bodies w) (zp_vars w)). exists w'. split; [reflexivity|].
  assert (Nf : forall c u, ZcPacketProofs.live w c u -> zy_buf u <> f) by (apply owned_false; exact O).
  assert (I1 : pinv [] w').
  { split; try apply I; auto. intros c u Lc. cbn [zp_buf w']. unfold zvar. rewrite Eb. apply (p_buf _ _ I _ _ Lc). }
  split; [exact I1|]. split; [repeat (split; [assumption|]); exact Pc'|].
  split; [unfold zp_got; cbn [zp_buf w']; rewrite Eb; reflexivity|]. split; [|split].
  - exists s. assert (Ps : zpacket_of w i = Some s).
    { unfold zpacket_of. rewrite V. change (zp_shows w (Some a)) with (view w a). rewrite (view_live _ _ _ L). exact B1. }
    split; [exact Ps|]. apply strings_ext; [rewrite upd_length, !packets_length; reflexivity|]. intros j Hj. rewrite packets_length in Hj.
    change (length (zp_vars w')) with (length (zp_vars w)) in Hj. rewrite str_packets. unfold zpacket_of. change (zp_var w' j) with (zp_var w j).
    destruct (Nat.eq_dec i j) as [<-|N].
    + rewrite str_upd_eq by (rewrite packets_length; exact Hj). rewrite V. change (zp_shows w' (Some a)) with (view w' a).
      rewrite (view_live w' a y L). exact B2.
    + rewrite str_upd_neq by exact N. rewrite str_packets. unfold zpacket_of. destruct (zp_var w j) as [[c|]|] eqn:Vj; try reflexivity.
      destruct (p_ref _ _ I c (refs_var _ _ _ _ Vj)) as [u Lu]. change (view w' c = view w c). rewrite (view_live w' c u Lu), (view_live w c u Lu).
      apply K; [|apply (Nf _ _ Lu)]. intros Eu. pose proof (p_inj _ _ I _ _ _ _ Lu L Eu) as ->. apply N. apply (refs_alone _ _ _ _ _ R V Vj).
  - exists t. unfold zp_user. change (zp_owned w' f) with (zp_owned w f). rewrite O. auto.
  - intros k Nk. unfold zp_user. change (zp_owned w' k) with (zp_owned w k). destruct (zp_owned w k) eqn:Ok; [reflexivity|].
    apply K; [|exact Nk]. intros ->. rewrite owned_false in Ok. exact (Ok _ _ L eq_refl).
Qed.

(** No bytes into a buffer of no bytes. *)
Lemma write_nothing junk w f : pinv [] w -> zp_user w f = Some [] -> zpstep junk (POnBuf (ZBase (Write f 0 []))) w = Done w.
Proof.
  intros I U. unfold zp_user in U. destruct (zp_owned w f) eqn:O; [discriminate|].
  cbn [zpstep zmentions existsb]. rewrite O. cbn [orb]. unfold zp_on. cbn [zstep].
  destruct (zvar (zp_buf w) f) as [c|] eqn:V; [|cbn [obind]; destruct w; reflexivity].
  destruct (zbytes_var _ _ _ (p_z _ _ I) V) as (s & Es & Ls). rewrite U in Es. injection Es as <-. cbn [length] in Ls.
  assert (Hz : zok c) by (eapply (p_z _ _ I); apply zvar_some; exact V). unfold zok in Hz. unfold z_size in Ls.
  unfold z_write. cbn [length]. destruct (Nat.ltb_spec (z_end c) (z_start c + 0 + 0)); [lia|].
  match goal with |- context[if ?x then AssertFail else _] => replace x with false by lia end.
  match goal with |- context[if ?x then AssertFail else _] => replace x with false by lia end.
  cbn [Nat.eqb obind]. rewrite zset_same by exact V. destruct w as [[h l] bo va]. reflexivity.
Qed.

(** Either way. *)
Definition held (w : zpworld) i f d n : Prop := (exists a y, stake w i a y f d n) \/ (n = 0 /\ zp_user w f = Some []).
Lemma write_held junk w i f d n off bs s : pinv [] w -> held w i f d n -> zpacket_of w i = Some s -> d <= length s -> off + length bs <= n ->
  exists w' t, zpstep junk (POnBuf (ZBase (Write f off bs))) w = Done w' /\ pinv [] w' /\ held w' i f d n /\ zp_got w' = zp_got w /\
    zpackets w' = upd (zpackets w) i (Some (overwrite (d + off) bs s)) /\ zpacket_of w' i = Some (overwrite (d + off) bs s) /\
    zp_user w f = Some t /\ zp_user w' f = Some (overwrite off bs t) /\
    forall k, k <> f -> zp_user w' k = zp_user w k.
Proof.
  intros I [(a & y & St)|[-> U]] Ps Hd Hn.
  - pose proof (zp_var_lt _ _ _ (proj1 St)) as Li.
    destruct (write_stake junk w i a y f d n off bs I St Hn) as (w' & E & I' & St' & Eg & (s' & Ps' & Ep) & (t & U1 & U2) & K).
    rewrite Ps in Ps'. injection Ps' as <-. exists w', t. split; [exact E|]. split; [exact I'|]. split; [left; eauto|]. split; [exact Eg|].
    split; [exact Ep|]. split; [rewrite <- str_packets, Ep, str_upd_eq by (rewrite packets_length; exact Li); reflexivity|auto].
  - assert (off = 0) as -> by lia. destruct bs; [|cbn [length] in Hn; lia]. exists w, []. rewrite (write_nothing junk w f I U). split; [reflexivity|].
    split; [exact I|]. split; [right; auto|]. split; [reflexivity|].
    assert (Ow : overwrite (d + 0) [] s = s) by (unfold PacketSpec.overwrite; cbn [length app]; rewrite !Nat.add_0_r; apply firstn_skipn).
    rewrite Ow. split; [|auto]. apply strings_ext; [rewrite upd_length; reflexivity|]. intros j Hj. destruct (Nat.eq_dec i j) as [<-|N].
    + rewrite str_upd_eq, str_packets by exact Hj. exact Ps.
    + rewrite str_upd_neq by exact N. reflexivity.
Qed.
Lemma upd_twice (A : strings) i x y : upd (upd A i x) i y = upd A i y.
Proof.
  apply strings_ext; [rewrite !upd_length; reflexivity|]. intros j Hj. rewrite !upd_length in Hj. destruct (Nat.eq_dec i j) as [<-|N].
  - rewrite !str_upd_eq by (rewrite ?upd_length; exact Hj). reflexivity.
  - rewrite !str_upd_neq by exact N. reflexivity.
Qed.

Lemma writes_held junk ws : forall w i f d n s t, pinv [] w -> held w i f d n -> zpacket_of w i = Some s -> d + n <= length s -> zp_user w f = Some t ->
  inside n ws ->
  exists w', zpsteps junk (zp_writes f ws) w = Done w' /\ pinv [] w' /\ zp_got w' = zp_got w /\
    zpackets w' = upd (zpackets w) i (Some (fold_left (fun s u => overwrite (d + fst u) (snd u) s) ws s)) /\
    zp_user w' f = Some (fill ws t) /\ forall k, k <> f -> zp_user w' k = zp_user w k.
Proof.
  induction ws as [|[off bs] ws IH]; intros w i f d n s t I Hl Ps Hd U Hw; cbn [zp_writes map zpsteps fold_left fst snd].
  - exists w. split; [reflexivity|]. split; [exact I|]. split; [reflexivity|]. split; [|auto]. apply strings_ext; [rewrite upd_length; reflexivity|].
    intros j Hj. destruct (Nat.eq_dec i j) as [<-|N].
    + rewrite str_upd_eq, str_packets by exact Hj. exact Ps.
    + rewrite str_upd_neq by exact N. reflexivity.
  - inversion Hw as [|? ? H1 H2]; subst. cbn [fst snd] in H1.
    destruct (write_held junk w i f d n off bs s I Hl Ps ltac:(lia) H1) as (w1 & t' & E & I1 & Hl1 & Eg & Ep & Ps1 & U1 & U2 & K).
    rewrite U in U1. injection U1 as <-. rewrite E. cbn [obind].
    assert (Ls : length (overwrite (d + off) bs s) = length s) by (apply PacketFill.overwrite_length; lia).
    destruct (IH w1 i f d n _ _ I1 Hl1 Ps1 ltac:(lia) U2 H2) as (w2 & E2 & I2 & Eg2 & Ep2 & U3 & K2). exists w2. split; [exact E2|].
    split; [exact I2|]. split; [congruence|]. split; [rewrite Ep2, Ep; apply upd_twice|].
    split; [exact U3|]. intros k Nk. rewrite K2, K by exact Nk. reflexivity.
Qed.

Lemma add_header_stake junk w i n p w' : 0 < n -> pinv [] w -> zp_var w i = Some p -> zp_add_header junk i n p w = Done w' ->
  exists a y, stake w' i a y (zp_got w') 0 n.
Proof.
  intros Hn I V E. destruct (shows_some _ _ _ _ I V) as [s Hs].
  destruct (private_ok junk [] w i p s I V Hs) as (w1 & a & y & E1 & I1 & L & R & Ev & W & P & Eb & LM).
  unfold zp_add_header, zp_mutate in E. rewrite E1 in E. cbn [obind] in E. unfold zp_get in E. rewrite L in E. cbn [obind] in E.
  destruct (own_ok junk [] w1 a y (ZBase (AddStart (zy_buf y) n)) (fun x => x ++ s) I1 L eq_refl Logic.I Logic.I Logic.I) as (w2 & x & E2 & I2 & Ey & Ev2 & Lx & W2 & P2 & Lb & _).
  { intros x _. cbn. rewrite (str_own _ _ _ _ _ I1 L W). reflexivity. }
  rewrite E2 in E. cbn [obind] in E. rewrite Ey, L in E. cbn [obind] in E.
  unfold zp_on in E2, E. destruct (zstep junk (ZBase (AddStart (zy_buf y) n)) (zp_buf w1)) as [b2| | |] eqn:Z2; try discriminate. cbn [obind] in E2. injection E2 as <-.
  cbn [zp_buf zp_bodies zp_vars] in *. destruct (zstep junk (ZBase (Fragment (zy_buf y) 0 n)) b2) as [b3| | |] eqn:Z3; try discriminate. cbn [obind] in E. injection E as <-.
  destruct (p_buf _ _ I1 _ _ L) as [z0 Vz].
  destruct (header_piece junk (zp_buf w1) b2 b3 (zy_buf y) n z0 (p_z _ _ I1) (p_safe _ _ I1) Hn Vz Z2 Z3) as [Pc Ln].
  exists a, y. unfold zp_got. cbn [zp_buf]. rewrite Ln. replace (Datatypes.S (length (zw_bufs (zp_buf w1))) - 1) with (length (zw_bufs (zp_buf w1))) by lia.
  split; [unfold zp_var; cbn [zp_vars]; rewrite Ev, nth_upd_eq by (apply (zp_var_lt _ _ _ V)); reflexivity|]. split; [exact L|]. split; [exact R|].
  split; [|exact Pc]. apply owned_false. intros c u Lu Eu. change (ZcPacketProofs.live w1 c u) in Lu. destruct (p_buf _ _ I1 _ _ Lu) as [zu Vu]. pose proof (zvar_lt _ _ _ Vu). lia.
Qed.
Lemma add_trailer_stake junk w i n p w' s : 0 < n -> pinv [] w -> zp_var w i = Some p -> zp_shows w p = Some s -> zp_add_trailer junk i n p w = Done w' ->
  exists a y, stake w' i a y (zp_got w') (length s) n.
Proof.
  intros Hn I V Hs E.
  destruct (private_ok junk [] w i p s I V Hs) as (w1 & a & y & E1 & I1 & L & R & Ev & W & P & Eb & LM).
  unfold zp_add_trailer, zp_mutate in E. rewrite E1 in E. cbn [obind] in E. unfold zp_get in E. rewrite L in E. cbn [obind] in E.
  destruct (own_ok junk [] w1 a y (ZBase (AddEnd (zy_buf y) n)) (fun x => s ++ x) I1 L eq_refl Logic.I Logic.I Logic.I) as (w2 & x & E2 & I2 & Ey & Ev2 & Lx & W2 & P2 & Lb & _).
  { intros x _. cbn. rewrite (str_own _ _ _ _ _ I1 L W). reflexivity. }
  rewrite E2 in E. cbn [obind] in E. rewrite Ey, L in E. cbn [obind] in E.
  assert (L2 : ZcPacketProofs.live w2 a y) by (unfold ZcPacketProofs.live; rewrite Ey; exact L).
  destruct (view_some _ _ _ _ I2 L2) as (s' & W' & Sz). rewrite W2 in W'. injection W' as <-. rewrite Sz, app_length in E. cbn [extra_zlen extra_len] in Lx.
  replace (length s + length x - n) with (length s) in E by lia.
  pose proof (size_own _ _ _ _ _ I1 L W) as Sz1.
  unfold zp_on in E2, E. destruct (zstep junk (ZBase (AddEnd (zy_buf y) n)) (zp_buf w1)) as [b2| | |] eqn:Z2; try discriminate. cbn [obind] in E2. injection E2 as <-.
  cbn [zp_buf zp_bodies zp_vars] in *. destruct (zstep junk (ZBase (Fragment (zy_buf y) (length s) n)) b2) as [b3| | |] eqn:Z3; try discriminate. cbn [obind] in E. injection E as <-.
  destruct (p_buf _ _ I1 _ _ L) as [z0 Vz]. unfold zsize_of in Sz1. rewrite Vz in Sz1. cbn in Sz1. injection Sz1 as Sz1. rewrite <- Sz1 in Z3.
  destruct (trailer_piece junk (zp_buf w1) b2 b3 (zy_buf y) n z0 (p_z _ _ I1) (p_safe _ _ I1) Hn Vz Z2 Z3) as [Pc Ln]. rewrite Sz1 in Pc.
  exists a, y. unfold zp_got. cbn [zp_buf]. rewrite Ln. replace (Datatypes.S (length (zw_bufs (zp_buf w1))) - 1) with (length (zw_bufs (zp_buf w1))) by lia.
  split; [unfold zp_var; cbn [zp_vars]; rewrite Ev, nth_upd_eq by (apply (zp_var_lt _ _ _ V)); reflexivity|]. split; [exact L|]. split; [exact R|].
  split; [|exact Pc]. apply owned_false. intros c u Lu Eu. change (ZcPacketProofs.live w1 c u) in Lu. destruct (p_buf _ _ I1 _ _ Lu) as [zu Vu]. pose proof (zvar_lt _ _ _ Vu). lia.
Qed.

(** ** Filling *)

Lemma packet_var w i s : zpacket_of w i = Some s -> exists p, zp_var w i = Some p /\ zp_shows w p = Some s.
Proof. unfold zpacket_of. destruct (zp_var w i) as [p|]; [|discriminate]. eauto. Qed.
Lemma user_lt w k s : zp_user w k = Some s -> k < length (zw_bufs (zp_buf w)).
Proof.
  unfold zp_user, zbytes_of. destruct (zp_owned w k); [discriminate|]. destruct (zvar (zp_buf w) k) eqn:V; [|discriminate]. intros _. eapply zvar_lt; eauto.
Qed.

(** A returned buffer has a number of its own. *)
Lemma step_got junk w i n o : pinv [] w -> zp_var w i <> None -> o = PAddHeader i n \/ o = PAddTrailer i n ->
  exists w1, zpstep junk o w = Done w1 /\ length (zw_bufs (zp_buf w)) <= zp_got w1.
Proof.
  intros I V Ho. destruct (zp_var w i) as [p|] eqn:Vi; [clear V|congruence]. destruct (shows_some _ _ _ _ I Vi) as [s Hs].
  assert (A : forall zo g st, (forall y, extra_zlen (zo y) = n /\ no_deep (zo y) /\ forall b, zbad_args (zo y) b = false /\ sensible (zo y) b /\ zwrites_alone (zo y) b) ->
    (forall w1 y s, str (zabs (zp_buf w1)) y = Some s -> forall x, spec_zstep x (zo y) (zabs (zp_buf w1)) = upd (zabs (zp_buf w1)) y (Some (g s x))) ->
    (forall s x, length x = n -> st (length (g s x)) + n <= length (g s x)) ->
    exists w1, (let! (w1, a) := zp_mutate junk i p zo w in let! y := zp_get w1 a in zp_on junk (ZBase (Fragment (zy_buf y) (st (zp_size w1 (zy_buf y))) n)) w1) = Done w1 /\
      length (zw_bufs (zp_buf w)) <= zp_got w1).
  { intros zo g st Hzo Hg Hst. destruct (private_ok junk [] w i p s I Vi Hs) as (w1 & a & y & E1 & I1 & L & R & Ev & W & P & [l Eb] & LM).
    destruct (Hzo (zy_buf y)) as (X1 & X2 & X3). destruct (X3 (zp_buf w1)) as (X4 & X5 & X6).
    destruct (own_ok junk [] w1 a y (zo (zy_buf y)) (g s) I1 L X4 X2 X5 X6) as (w2 & x & E2 & I2 & Ey & Ev2 & Lx & W2 & P2 & Lb & _).
    { intros x _. apply Hg. apply (str_own _ _ _ _ _ I1 L W). }
    unfold zp_mutate. rewrite E1. cbn [obind]. unfold zp_get. rewrite L. cbn [obind]. rewrite E2. cbn [obind]. rewrite Ey, L. cbn [obind].
    assert (L2 : ZcPacketProofs.live w2 a y) by (unfold ZcPacketProofs.live; rewrite Ey; exact L).
    destruct (view_some _ _ _ _ I2 L2) as (s' & W' & Sz). rewrite W2 in W'. injection W' as <-. rewrite Sz.
    pose proof W2 as W2'. rewrite (view_live _ _ _ L2) in W2'.
    destruct (buf_frag junk (zp_buf w2) (zy_buf y) (st (length (g s x))) n (g s x) (p_z _ _ I2) (p_safe _ _ I2) W2' (Hst s x ltac:(lia))) as (b' & z & E & _ & _ & Eb' & _).
    unfold zp_on. rewrite E. cbn [obind]. eexists. split; [reflexivity|]. unfold zp_got. cbn [zp_buf]. rewrite Eb', app_length, Lb, Eb, app_length. cbn [length]. lia. }
  destruct Ho as [-> | ->]; cbn [zpstep]; rewrite Vi.
  - unfold zp_add_header. apply (A (fun k => ZBase (AddStart k n)) (fun s x => x ++ s) (fun _ => 0)).
    + intros y. repeat split.
    + intros w1 y s1 Hy x. cbn. rewrite Hy. reflexivity.
    + intros s1 x Lx. rewrite app_length. lia.
  - unfold zp_add_trailer. apply (A (fun k => ZBase (AddEnd k n)) (fun s x => s ++ x) (fun m => m - n)).
    + intros y. repeat split.
    + intros w1 y s1 Hy x. cbn. rewrite Hy. reflexivity.
    + intros s1 x Lx. rewrite app_length. lia.
Qed.

Lemma fill_header_ok junk w i n ws s : pinv [] w -> zpacket_of w i = Some s -> inside n ws ->
  exists w' x, zp_filled junk (PAddHeader i n) ws w = Done w' /\ pinv [] w' /\ length x = n /\
    zpackets w' = upd (zpackets w) i (Some (fill ws x ++ s)) /\ zp_last w' = Some (fill ws x) /\
    (forall k t, zp_user w k = Some t -> zp_user w' k = Some t).
Proof.
  intros I Ps Hw. destruct (packet_var _ _ _ Ps) as (p & V & Hs). pose proof (zp_var_lt _ _ _ V) as Li.
  destruct (add_header_ok junk w i n p s I V Hs) as (x & w1 & Lx & E & I1 & Ep & U & La).
  destruct (step_got junk w i n (PAddHeader i n) I ltac:(congruence) ltac:(auto)) as (w1' & E' & Lg).
  cbn [zpstep] in E'. rewrite V, E in E'. injection E' as <-.
  assert (Hl : held w1 i (zp_got w1) 0 n).
  { destruct (Nat.eq_dec n 0) as [Z|Z].
    - right. split; [exact Z|]. change (zp_user w1 (zp_got w1)) with (zp_last w1). rewrite La. destruct x; [reflexivity|cbn [length] in Lx; lia].
    - left. eapply add_header_stake; [|exact I|exact V|exact E]. lia. }
  assert (P1 : zpacket_of w1 i = Some (x ++ s)) by (rewrite <- str_packets, Ep, str_upd_eq by (rewrite packets_length; exact Li); reflexivity).
  destruct (writes_held junk ws w1 i (zp_got w1) 0 n (x ++ s) x I1 Hl P1 ltac:(rewrite app_length; lia) La Hw) as (w2 & E2 & I2 & Eg & Ep2 & U2 & K).
  unfold zp_filled. cbn [zpstep]. rewrite V, E. cbn [obind]. exists w2, x. split; [exact E2|]. split; [exact I2|]. split; [exact Lx|].
  destruct (PacketFill.fill_front ws x s) as [F1 F2]; [rewrite Lx; exact Hw|].
  split; [rewrite Ep2, Ep, upd_twice, F1; reflexivity|]. split; [unfold zp_last; fold (zp_got w2); rewrite Eg; exact U2|].
  intros k t Hk. rewrite K; [eapply user_some; eauto|]. pose proof (user_lt _ _ _ Hk). lia.
Qed.
Lemma fill_trailer_ok junk w i n ws s : pinv [] w -> zpacket_of w i = Some s -> inside n ws ->
  exists w' x, zp_filled junk (PAddTrailer i n) ws w = Done w' /\ pinv [] w' /\ length x = n /\
    zpackets w' = upd (zpackets w) i (Some (s ++ fill ws x)) /\ zp_last w' = Some (fill ws x) /\
    (forall k t, zp_user w k = Some t -> zp_user w' k = Some t).
Proof.
  intros I Ps Hw. destruct (packet_var _ _ _ Ps) as (p & V & Hs). pose proof (zp_var_lt _ _ _ V) as Li.
  destruct (add_trailer_ok junk w i n p s I V Hs) as (x & w1 & Lx & E & I1 & Ep & U & La).
  destruct (step_got junk w i n (PAddTrailer i n) I ltac:(congruence) ltac:(auto)) as (w1' & E' & Lg).
  cbn [zpstep] in E'. rewrite V, E in E'. injection E' as <-.
  assert (Hl : held w1 i (zp_got w1) (length s) n).
  { destruct (Nat.eq_dec n 0) as [Z|Z].
    - right. split; [exact Z|]. change (zp_user w1 (zp_got w1)) with (zp_last w1). rewrite La. destruct x; [reflexivity|cbn [length] in Lx; lia].
    - left. eapply add_trailer_stake; [|exact I|exact V|exact Hs|exact E]. lia. }
  assert (P1 : zpacket_of w1 i = Some (s ++ x)) by (rewrite <- str_packets, Ep, str_upd_eq by (rewrite packets_length; exact Li); reflexivity).
  destruct (writes_held junk ws w1 i (zp_got w1) (length s) n (s ++ x) x I1 Hl P1 ltac:(rewrite app_length; lia) La Hw) as (w2 & E2 & I2 & Eg & Ep2 & U2 & K).
  unfold zp_filled. cbn [zpstep]. rewrite V, E. cbn [obind]. exists w2, x. split; [exact E2|]. split; [exact I2|]. split; [exact Lx|].
  destruct (PacketFill.fill_back ws x s) as [F1 F2]; [rewrite Lx; exact Hw|].
  split; [rewrite Ep2, Ep, upd_twice, F1; reflexivity|]. split; [unfold zp_last; fold (zp_got w2); rewrite Eg; exact U2|].
  intros k t Hk. rewrite K; [eapply user_some; eauto|]. pose proof (user_lt _ _ _ Hk). lia.
Qed.

(** ** What is outside *)

Lemma write_outside junk w f off bs t : pinv [] w -> zp_user w f = Some t -> length t < off + length bs ->
  zpstep junk (POnBuf (ZBase (Write f off bs))) w = AssertFail.
Proof.
  intros I U Hn. pose proof (zp_step_ok junk (POnBuf (ZBase (Write f off bs))) w I) as H. cbn [zp_bad_args zmentions existsb] in H.
  unfold zp_user in U. destruct (zp_owned w f) eqn:O; [discriminate|]. cbn [orb] in H.
  assert (B : zbad_args (ZBase (Write f off bs)) (zp_buf w) = true); [|rewrite B in H; exact H].
  destruct (zvar (zp_buf w) f) as [c|] eqn:V; [|unfold zbytes_of in U; rewrite V in U; discriminate].
  destruct (zbytes_var _ _ _ (p_z _ _ I) V) as (s & Es & Ls). rewrite U in Es. injection Es as <-.
  unfold zbad_args, zsize_of, zlayout. rewrite V. cbn [option_map]. rewrite <- Ls, (proj2 (Nat.ltb_lt _ _) Hn). reflexivity.
Qed.
Lemma inside_dec n ws : inside n ws \/ ~ inside n ws.
Proof.
  destruct (Forall_dec (fun u : nat * list N => fst u + length (snd u) <= n) (fun u => le_dec _ _) ws); [left|right]; assumption.
Qed.
Lemma writes_outside junk ws : forall w i f d n s t, pinv [] w -> held w i f d n -> zpacket_of w i = Some s -> d + n <= length s -> zp_user w f = Some t ->
  length t = n -> ~ inside n ws -> zpsteps junk (zp_writes f ws) w = AssertFail.
Proof.
  induction ws as [|[off bs] ws IH]; intros w i f d n s t I Hl Ps Hd U Lt Hw; cbn [zp_writes map zpsteps fst snd].
  - destruct Hw. constructor.
  - destruct (le_dec (off + length bs) n) as [H1|H1].
    + destruct (write_held junk w i f d n off bs s I Hl Ps ltac:(lia) H1) as (w1 & t' & E & I1 & Hl1 & Eg & Ep & Ps1 & U1 & U2 & K).
      rewrite U in U1. injection U1 as <-. rewrite E. cbn [obind].
      apply (IH w1 i f d n (overwrite (d + off) bs s) (overwrite off bs t) I1 Hl1 Ps1); [|exact U2| |].
      * rewrite PacketFill.overwrite_length by lia. exact Hd.
      * rewrite PacketFill.overwrite_length by lia. exact Lt.
      * intros H2. apply Hw. constructor; assumption.
    + rewrite (write_outside junk w f off bs t I U) by lia. reflexivity.
Qed.
Lemma fill_outside junk w i n ws s o : pinv [] w -> zpacket_of w i = Some s -> o = PAddHeader i n \/ o = PAddTrailer i n ->
  ~ inside n ws -> zp_filled junk o ws w = AssertFail.
Proof.
  intros I Ps Ho Hw. destruct (packet_var _ _ _ Ps) as (p & V & Hs). pose proof (zp_var_lt _ _ _ V) as Li. unfold zp_filled.
  destruct Ho as [-> | ->]; cbn [zpstep]; rewrite V.
  - destruct (add_header_ok junk w i n p s I V Hs) as (x & w1 & Lx & E & I1 & Ep & U & La). rewrite E. cbn [obind].
    assert (Hl : held w1 i (zp_got w1) 0 n).
    { destruct (Nat.eq_dec n 0) as [Z|Z].
      - right. split; [exact Z|]. change (zp_user w1 (zp_got w1)) with (zp_last w1). rewrite La. destruct x; [reflexivity|cbn [length] in Lx; lia].
      - left. eapply add_header_stake; [|exact I|exact V|exact E]. lia. }
    assert (P1 : zpacket_of w1 i = Some (x ++ s)) by (rewrite <- str_packets, Ep, str_upd_eq by (rewrite packets_length; exact Li); reflexivity).
    apply (writes_outside junk ws w1 i (zp_got w1) 0 n (x ++ s) x I1 Hl P1 ltac:(rewrite app_length; lia) La Lx Hw).
  - destruct (add_trailer_ok junk w i n p s I V Hs) as (x & w1 & Lx & E & I1 & Ep & U & La). rewrite E. cbn [obind].
    assert (Hl : held w1 i (zp_got w1) (length s) n).
    { destruct (Nat.eq_dec n 0) as [Z|Z].
      - right. split; [exact Z|]. change (zp_user w1 (zp_got w1)) with (zp_last w1). rewrite La. destruct x; [reflexivity|cbn [length] in Lx; lia].
      - left. eapply add_trailer_stake; [|exact I|exact V|exact Hs|exact E]. lia. }
    assert (P1 : zpacket_of w1 i = Some (s ++ x)) by (rewrite <- str_packets, Ep, str_upd_eq by (rewrite packets_length; exact Li); reflexivity).
    apply (writes_outside junk ws w1 i (zp_got w1) (length s) n (s ++ x) x I1 Hl P1 ltac:(rewrite app_length; lia) La Lx Hw).
Qed.

(** ** Histories *)

Lemma reached_ok junk w : zp_reached junk w -> pinv [] w.
Proof.
  induction 1 as [|w o w' _ IH D Se E|w i n ws w' _ IH V E|w i n ws w' _ IH V E].
  - apply zp_init_ok.
  - pose proof (zp_step_ok junk o w IH) as H. destruct (zp_bad_args o w); [congruence|]. destruct (H D Se) as (w1 & x & E1 & I1 & _). congruence.
  - destruct (zp_var w i) as [p|] eqn:Vi; [|congruence]. destruct (shows_some _ _ _ _ IH Vi) as [s Hs].
    assert (Ps : zpacket_of w i = Some s) by (unfold zpacket_of; rewrite Vi; exact Hs). destruct (inside_dec n ws) as [Hw|Hw].
    + destruct (fill_header_ok junk w i n ws s IH Ps Hw) as (w1 & x & E1 & I1 & _). congruence.
    + rewrite (fill_outside junk w i n ws s _ IH Ps (or_introl eq_refl) Hw) in E. discriminate.
  - destruct (zp_var w i) as [p|] eqn:Vi; [|congruence]. destruct (shows_some _ _ _ _ IH Vi) as [s Hs].
    assert (Ps : zpacket_of w i = Some s) by (unfold zpacket_of; rewrite Vi; exact Hs). destruct (inside_dec n ws) as [Hw|Hw].
    + destruct (fill_trailer_ok junk w i n ws s IH Ps Hw) as (w1 & x & E1 & I1 & _). congruence.
    + rewrite (fill_outside junk w i n ws s _ IH Ps (or_intror eq_refl) Hw) in E. discriminate.
Qed.
Lemma cleanly_reached junk l : forall w w', zp_reached junk w -> zp_cleanly junk l w -> zpsteps junk l w = Done w' -> zp_reached junk w'.
Proof.
  induction l as [|o l IH]; intros w w' R C E; cbn [zpsteps zp_cleanly] in *; [injection E as <-; exact R|].
  destruct C as (D & Se & C). destruct (zpstep junk o w) as [w1| | |] eqn:E1; cbn [obind] in E; try discriminate.
  apply (IH w1); [eapply reached_step; eauto|exact C|exact E].
Qed.

(** ** Layers *)

Lemma placed_inside fs : forall off n, off + length (concat fs) <= n -> inside n (placed off fs).
Proof.
  induction fs as [|f fs IH]; intros off n H; cbn [placed concat] in *; [constructor|]. rewrite app_length in H. constructor; [cbn [fst snd]; lia|].
  apply IH. lia.
Qed.
Lemma placed_fill fs : forall p x : list N, length x = length (concat fs) -> fill (placed (length p) fs) (p ++ x) = p ++ concat fs.
Proof.
  induction fs as [|f fs IH]; intros p x L; cbn [placed concat length] in *.
  - destruct x; [reflexivity|discriminate].
  - rewrite app_length in L. unfold PacketSpec.fill. cbn [fold_left fst snd]. unfold PacketSpec.overwrite at 2.
    rewrite firstn_app, firstn_all, Nat.sub_diag, firstn_O, app_nil_r. rewrite skipn_app, skipn_all2 by lia.
    replace (length p + length f - length p) with (length f) by lia. cbn [app].
    rewrite <- app_length, (app_assoc p f). change (fill (placed (length (p ++ f)) fs) ((p ++ f) ++ skipn (length f) x) = p ++ f ++ concat fs).
    rewrite IH by (rewrite skipn_length; lia). rewrite app_assoc. reflexivity.
Qed.
Lemma layer_ok junk w i y s : zp_reached junk w -> zpacket_of w i = Some s ->
  exists w', zp_layer junk i y w = Done w' /\ zp_reached junk w' /\ zpackets w' = upd (zpackets w) i (Some (wrap1 s y)) /\
    (forall k t, zp_user w k = Some t -> zp_user w' k = Some t).
Proof.
  intros R Ps. pose proof (reached_ok _ _ R) as I. destruct (packet_var _ _ _ Ps) as (p & V & _). destruct y as [fs|fs]; cbn [zp_layer wrap1].
  - destruct (fill_header_ok junk w i (length (concat fs)) (placed 0 fs) s I Ps ltac:(apply placed_inside; lia)) as (w' & x & E & I' & Lx & Ep & _ & U).
    exists w'. split; [exact E|]. split; [eapply reached_header; [exact R| |exact E]; congruence|]. split; [|exact U].
    rewrite Ep. do 3 f_equal. exact (placed_fill fs [] x Lx).
  - destruct (fill_trailer_ok junk w i (length (concat fs)) (placed 0 fs) s I Ps ltac:(apply placed_inside; lia)) as (w' & x & E & I' & Lx & Ep & _ & U).
    exists w'. split; [exact E|]. split; [eapply reached_trailer; [exact R| |exact E]; congruence|]. split; [|exact U].
    rewrite Ep. do 3 f_equal. exact (placed_fill fs [] x Lx).
Qed.
Lemma upd_own (A : strings) i s : str A i = Some s -> upd A i (Some s) = A.
Proof.
  intros H. apply strings_ext; [apply upd_length|]. intros j Hj. rewrite upd_length in Hj. destruct (Nat.eq_dec i j) as [<-|N].
  - rewrite str_upd_eq by exact Hj. auto.
  - rewrite str_upd_neq by exact N. reflexivity.
Qed.
Lemma packet_upd w w' i v s : zpacket_of w i = Some s -> zpackets w' = upd (zpackets w) i (Some v) -> zpacket_of w' i = Some v.
Proof.
  intros Ps E. rewrite <- str_packets, E, str_upd_eq; [reflexivity|]. rewrite <- str_packets in Ps. eapply str_lt; eauto.
Qed.
Lemma layers_ok junk i ls : forall w s, zp_reached junk w -> zpacket_of w i = Some s ->
  exists w', zp_layers junk i ls w = Done w' /\ zp_reached junk w' /\ zpackets w' = upd (zpackets w) i (Some (wrap ls s)) /\
    (forall k t, zp_user w k = Some t -> zp_user w' k = Some t).
Proof.
  induction ls as [|y ls IH]; intros w s R Ps; cbn [zp_layers].
  - exists w. split; [reflexivity|]. split; [exact R|]. split; [|auto]. symmetry. apply upd_own. rewrite str_packets. exact Ps.
  - destruct (layer_ok junk w i y s R Ps) as (w1 & E1 & R1 & Ep1 & U1). rewrite E1. cbn [obind].
    destruct (IH w1 (wrap1 s y) R1 (packet_upd _ _ _ _ _ Ps Ep1)) as (w2 & E2 & R2 & Ep2 & U2). exists w2. split; [exact E2|]. split; [exact R2|].
    split; [rewrite Ep2, Ep1, upd_twice; reflexivity|auto].
Qed.
Lemma strip_ok junk w i y s : zp_reached junk w -> zpacket_of w i = Some (wrap1 s y) ->
  exists w', zpstep junk (zp_strip i y) w = Done w' /\ zp_reached junk w' /\ zpackets w' = upd (zpackets w) i (Some s).
Proof.
  intros R Ps. pose proof (reached_ok _ _ R) as I. pose proof (zp_step_ok junk (zp_strip i y) w I) as H.
  assert (B : zp_bad_args (zp_strip i y) w = false).
  { destruct y as [fs|fs]; cbn [zp_strip zp_bad_args]; rewrite Ps; apply Nat.ltb_ge; cbn [wrap1]; rewrite app_length; lia. }
  rewrite B in H. assert (D : zp_no_deep (zp_strip i y)) by (destruct y; exact Logic.I). assert (Se : zp_sensible (zp_strip i y) w) by (destruct y; exact Logic.I).
  destruct (H D Se) as (w' & x & E & _ & _ & Ep & _). exists w'. split; [exact E|]. split; [eapply reached_step; eauto|]. rewrite Ep.
  destruct y as [fs|fs]; cbn [zp_strip zpspec wrap1] in *; rewrite str_packets, Ps; do 2 f_equal.
  - rewrite skipn_app, skipn_all, Nat.sub_diag. reflexivity.
  - unfold drop_last. rewrite app_length, Nat.add_sub, firstn_app, firstn_all, Nat.sub_diag. cbn. rewrite app_nil_r. reflexivity.
Qed.
Lemma zpsteps_app junk l1 : forall l2 w, zpsteps junk (l1 ++ l2) w = obind (zpsteps junk l1 w) (zpsteps junk l2).
Proof.
  induction l1 as [|o l1 IH]; intros l2 w; cbn [zpsteps app]; [reflexivity|]. destruct (zpstep junk o w); cbn [obind]; auto.
Qed.
Lemma strips_ok junk i ls : forall w s, zp_reached junk w -> zpacket_of w i = Some (wrap ls s) ->
  exists w', zpsteps junk (map (zp_strip i) (rev ls)) w = Done w' /\ zp_reached junk w' /\ zpackets w' = upd (zpackets w) i (Some s).
Proof.
  induction ls as [|y ls IH]; intros w s R Ps; cbn [rev map].
  - exists w. split; [reflexivity|]. split; [exact R|]. symmetry. apply upd_own. rewrite str_packets. exact Ps.
  - rewrite map_app, zpsteps_app. destruct (IH w (wrap1 s y) R Ps) as (w1 & E1 & R1 & Ep1). rewrite E1. cbn [obind map zpsteps].
    destruct (strip_ok junk w1 i y s R1 (packet_upd _ _ _ _ _ Ps Ep1)) as (w2 & E2 & R2 & Ep2). rewrite E2. cbn [obind].
    exists w2. split; [reflexivity|]. split; [exact R2|]. rewrite Ep2, Ep1. apply upd_twice.
Qed.
