(** What statements do to packets over zero-compressed buffers. *)
From Verif Require Import Base BaseProofs Buffer BufferSpec ZcIter ZcBuffer ZcBufferSpec ZcBufferProofs ZcPacket ZcPacketSpec ZcPacketProofs.
From Coq Require Import ZifyBool ZifyNat ZifyN.

(** ** Tables of packets *)

Lemma str_packets w i : str (zpackets w) i = zpacket_of w i.
Proof.
  unfold str, zpackets. destruct (Nat.lt_ge_cases i (length (zp_vars w))) as [H|H].
  - rewrite nth_error_map, (nth_error_nth' _ 0) by (rewrite seq_length; exact H). cbn. rewrite seq_nth by exact H. reflexivity.
  - rewrite (proj2 (nth_error_None _ _)) by (rewrite map_length, seq_length; exact H).
    unfold zpacket_of, zp_var. rewrite (proj2 (nth_error_None _ _)) by exact H. reflexivity.
Qed.
Lemma packets_length w : length (zpackets w) = length (zp_vars w).
Proof. unfold zpackets. rewrite map_length, seq_length. reflexivity. Qed.
Lemma strings_ext (A B : strings) : length A = length B -> (forall i, i < length A -> str A i = str B i) -> A = B.
Proof.
  intros L H. apply list_ext. intros i. destruct (Nat.lt_ge_cases i (length A)) as [Hi|Hi].
  - specialize (H i Hi). unfold str in H. destruct (nth_error A i) as [x|] eqn:Ea; [|apply nth_error_None in Ea; lia].
    destruct (nth_error B i) as [y|] eqn:Eb; [|apply nth_error_None in Eb; lia]. congruence.
  - rewrite !(proj2 (nth_error_None _ _)) by lia. reflexivity.
Qed.
Lemma shows_same X X' T w w' j k q : pinv X w -> pinv X' w' -> pres T w w' -> zp_var w j = Some q -> zp_var w' k = Some q ->
  (forall c, q = Some c -> T <> Some c) -> zp_shows w' q = zp_shows w q.
Proof.
  intros I I' P V V' N. destruct q as [c|]; [|reflexivity].
  destruct (shows_some _ _ _ _ I' V') as [s Hs]. destruct (p_ref _ _ I c (refs_var _ _ _ _ V)) as [y L].
  rewrite Hs. symmetry. apply (r_view _ _ _ P c s (live_lt _ _ _ L) (N c eq_refl) Hs).
Qed.
Lemma packets_upd w w' i p a s : pinv [] w -> pinv [] w' -> zp_var w i = Some p -> zp_vars w' = upd (zp_vars w) i (Some (Some a)) ->
  refs [] w' a = 1 -> view w' a = Some s -> pres (Some a) w w' -> zpackets w' = upd (zpackets w) i (Some s).
Proof.
  intros I I' V Ev R W P. pose proof (zp_var_lt _ _ _ V) as Hi.
  assert (Vi : zp_var w' i = Some (Some a)) by (unfold zp_var; rewrite Ev, nth_upd_eq by exact Hi; reflexivity).
  apply strings_ext; [rewrite upd_length, !packets_length, Ev, upd_length; reflexivity|].
  intros j _. rewrite str_packets. destruct (Nat.eq_dec i j) as [<-|N].
  - rewrite str_upd_eq by (rewrite packets_length; exact Hi). unfold zpacket_of. rewrite Vi. exact W.
  - rewrite str_upd_neq, str_packets by exact N. unfold zpacket_of.
    assert (Ej : zp_var w' j = zp_var w j) by (unfold zp_var; rewrite Ev, nth_upd_neq by exact N; reflexivity).
    destruct (zp_var w j) as [q|] eqn:Vj; rewrite Ej; [|reflexivity].
    apply (shows_same [] [] (Some a) w w' j j); auto. intros c -> E. injection E as <-. apply N. eapply refs_alone; eauto.
Qed.
Lemma packets_add w w' q s : pinv [] w -> pinv [] w' -> zp_vars w' = zp_vars w ++ [Some q] -> zp_shows w' q = Some s ->
  pres None w w' -> zpackets w' = zpackets w ++ [Some s].
Proof.
  intros I I' Ev W P. apply strings_ext; [rewrite app_length, !packets_length, Ev, app_length; reflexivity|].
  intros j Hj. rewrite packets_length, Ev, app_length in Hj. cbn in Hj. rewrite str_packets. unfold zpacket_of, zp_var. rewrite Ev.
  destruct (Nat.eq_dec j (length (zp_vars w))) as [->|N].
  - rewrite nth_error_app2, Nat.sub_diag by auto. cbn. rewrite W, <- (packets_length w), str_app_new. reflexivity.
  - rewrite nth_error_app1 by lia. rewrite str_app_l, str_packets by (rewrite packets_length; lia).
    change (match zp_var w j with Some p => zp_shows w' p | None => None end = zpacket_of w j). unfold zpacket_of.
    destruct (zp_var w j) as [q'|] eqn:Vj; [|reflexivity].
    apply (shows_same [] [] None w w' j j); auto; [|discriminate].
    unfold zp_var in *. rewrite Ev, nth_error_app1 by lia. exact Vj.
Qed.
Lemma packets_same w w' : pinv [] w -> pinv [] w' -> zp_vars w' = zp_vars w -> pres None w w' -> zpackets w' = zpackets w.
Proof.
  intros I I' Ev P. apply strings_ext; [rewrite !packets_length, Ev; reflexivity|].
  intros j _. rewrite !str_packets. unfold zpacket_of. assert (Ej : zp_var w' j = zp_var w j) by (unfold zp_var; rewrite Ev; reflexivity).
  rewrite Ej. destruct (zp_var w j) as [q|] eqn:Vj; [|reflexivity]. apply (shows_same [] [] None w w' j j); auto. discriminate.
Qed.

(** Buffers of the user. *)
Definition keeps_user (w w' : zpworld) : Prop :=
  length (zw_bufs (zp_buf w)) <= length (zw_bufs (zp_buf w')) /\
  forall k, k < length (zw_bufs (zp_buf w)) -> zp_owned w k = false ->
    zp_owned w' k = false /\ zbytes_of (zp_buf w') k = zbytes_of (zp_buf w) k.
Lemma pres_user T w w' : pres T w w' -> keeps_user w w'.
Proof. intros P. split; apply P. Qed.
Lemma user_refl w : keeps_user w w.
Proof. split; auto. Qed.
Lemma user_trans w w1 w2 : keeps_user w w1 -> keeps_user w1 w2 -> keeps_user w w2.
Proof.
  intros [L1 A] [L2 B]. split; [lia|]. intros k Hk O. destruct (A k Hk O) as [O1 E1]. destruct (B k ltac:(lia) O1) as [O2 E2].
  split; [exact O2|congruence].
Qed.
Lemma user_some w w' k s : keeps_user w w' -> zp_user w k = Some s -> zp_user w' k = Some s.
Proof.
  intros [_ H]. unfold zp_user. destruct (zp_owned w k) eqn:O; [discriminate|]. intros E.
  assert (Hk : k < length (zw_bufs (zp_buf w))).
  { unfold zbytes_of in E. destruct (zvar (zp_buf w) k) eqn:V; [|discriminate]. eapply zvar_lt; eauto. }
  destruct (H k Hk O) as [-> E1]. congruence.
Qed.

(** ** Changing a packet *)

Definition private_of (X : list nat) (w : zpworld) (i : nat) (s : list N) (w1 : zpworld) (a : nat) (y : zbody) : Prop :=
  pinv X w1 /\ live w1 a y /\ refs X w1 a = 1 /\ zp_vars w1 = upd (zp_vars w) i (Some (Some a)) /\ view w1 a = Some s /\
  (exists l, zw_bufs (zp_buf w1) = zw_bufs (zp_buf w) ++ l) /\ (forall T, pres T w w1) /\
  (forall c d, live w c d -> exists d1, live w1 c d1 /\ zy_buf d1 = zy_buf d).

Lemma mutate_ok junk X w i p s f (g : list N -> list N) n : pinv X w -> zp_var w i = Some p -> zp_shows w p = Some s ->
  (forall w1 a y, private_of X w i s w1 a y -> let zo := f (zy_buf y) in
     zbad_args zo (zp_buf w1) = false /\ no_deep zo /\ sensible zo (zp_buf w1) /\ zwrites_alone zo (zp_buf w1) /\ extra_zlen zo = n /\
     (forall x, length x = n -> spec_zstep x zo (zabs (zp_buf w1)) = upd (zabs (zp_buf w1)) (zy_buf y) (Some (g x)))) ->
  exists w2 a y x, zp_mutate junk i p f w = Done (w2, a) /\ pinv X w2 /\ live w2 a y /\ refs X w2 a = 1 /\
    zp_vars w2 = upd (zp_vars w) i (Some (Some a)) /\ length x = n /\ view w2 a = Some (g x) /\ pres (Some a) w w2.
Proof.
  intros I V Hs H. destruct (private_ok junk X w i p s I V Hs) as (w1 & a & y & E & I1 & L & R & Ev & W & P & Eb & LM).
  destruct (H w1 a y) as (Bd & D & Se & Al & En & Sp). { unfold private_of. auto 10. }
  destruct (own_ok junk X w1 a y (f (zy_buf y)) g I1 L Bd D Se Al) as (w2 & x & E2 & I2 & Ey & Ev2 & Lx & W2 & P2 & _).
  { intros x Lx. apply Sp. lia. }
  exists w2, a, y, x. unfold zp_mutate. rewrite E. cbn [obind]. unfold zp_get. rewrite L. cbn [obind]. rewrite E2. cbn [obind].
  split; [reflexivity|]. split; [exact I2|]. split; [unfold live; rewrite Ey; exact L|].
  split; [unfold refs in *; rewrite Ev2; exact R|]. split; [congruence|]. split; [lia|]. split; [exact W2|].
  eapply pres_trans; [apply P|exact P2].
Qed.

Lemma str_own X w a y s : pinv X w -> live w a y -> view w a = Some s -> str (zabs (zp_buf w)) (zy_buf y) = Some s.
Proof. intros I L W. rewrite (view_live _ _ _ L) in W. rewrite <- zbytes_of_str by apply I. exact W. Qed.
Lemma size_own X w a y s : pinv X w -> live w a y -> view w a = Some s -> zsize_of (zp_buf w) (zy_buf y) = Some (length s).
Proof.
  intros I L W. destruct (view_some _ _ _ _ I L) as (s' & W' & Hs). rewrite W in W'. injection W' as <-.
  destruct (p_buf _ _ I _ _ L) as [z V]. unfold zsize_of, zp_size in *. rewrite V in *. cbn. congruence.
Qed.

(** A statement on one packet that needs nothing but that packet. *)
Lemma simple_ok junk w i p s f (g : list N -> list N) n : pinv [] w -> zp_var w i = Some p -> zp_shows w p = Some s ->
  (forall b k z, zvar b k = Some z -> z_size z = length s ->
     zbad_args (f k) b = false /\ no_deep (f k) /\ sensible (f k) b /\ zwrites_alone (f k) b /\ extra_zlen (f k) = n) ->
  (forall A k x, str A k = Some s -> length x = n -> spec_zstep x (f k) A = upd A k (Some (g x))) ->
  exists w2 a y x, zp_mutate junk i p f w = Done (w2, a) /\ pinv [] w2 /\ live w2 a y /\ refs [] w2 a = 1 /\
    zp_vars w2 = upd (zp_vars w) i (Some (Some a)) /\ length x = n /\ view w2 a = Some (g x) /\
    zpackets w2 = upd (zpackets w) i (Some (g x)) /\ keeps_user w w2.
Proof.
  intros I V Hs H1 H2. destruct (mutate_ok junk [] w i p s f g n I V Hs) as (w2 & a & y & x & E & I2 & L & R & Ev & Lx & W & P).
  { intros w1 a y (I1 & L & R & Ev & W & _). cbv zeta. pose proof (size_own _ _ _ _ _ I1 L W) as Sz. unfold zsize_of in Sz.
    destruct (zvar (zp_buf w1) (zy_buf y)) as [z|] eqn:Vz; [|discriminate]. injection Sz as Sz.
    destruct (H1 _ _ _ Vz Sz) as (A1 & A2 & A3 & A4 & A5). do 5 (split; [assumption|]).
    intros x Lx. apply H2; [eapply str_own; eauto|exact Lx]. }
  exists w2, a, y, x. do 7 (split; [assumption|]). split; [eapply packets_upd; eauto|eapply pres_user; eauto].
Qed.

(** A new buffer of the user. *)
Lemma fresh_ok w b' z s : pinv [] w -> zinv b' -> zsafe b' -> zw_bufs b' = zw_bufs (zp_buf w) ++ [Some z] ->
  zbytes_of b' (length (zw_bufs (zp_buf w))) = Some s ->
  (forall k, k < length (zw_bufs (zp_buf w)) -> zbytes_of b' k = zbytes_of (zp_buf w) k) ->
  let w1 := mk_zp b' (zp_bodies w) (zp_vars w) in pinv [] w1 /\ pres None w w1 /\ zp_last w1 = Some s.
Proof.
  intros I I' S' Eb Bn Bo w1.
  assert (BL : forall c d, live w c d -> zy_buf d < length (zw_bufs (zp_buf w))).
  { intros c d Ld. destruct (p_buf _ _ I _ _ Ld) as [zc V]. eapply zvar_lt; eauto. }
  split; [split|split; [split|]].
  - exact I'.
  - exact S'.
  - intros c d Ld. cbn [zp_buf w1]. apply zvar_str. rewrite <- zbytes_of_str, Bo by (auto; eapply BL; exact Ld).
    rewrite zbytes_of_str by apply I. apply zvar_str. apply (p_buf _ _ I _ _ Ld).
  - apply I.
  - apply I.
  - apply I.
  - auto.
  - intros c t _ _ Hv. destruct (view_inv _ _ _ Hv) as [d Ld]. rewrite (view_live _ _ _ Ld) in Hv. rewrite (view_live w c d Ld).
    cbn [zp_buf w1] in Hv. rewrite Bo in Hv by (eapply BL; exact Ld). exact Hv.
  - cbn [zp_buf w1]. rewrite Eb, app_length. lia.
  - intros k Hk O. split; [exact O|]. cbn [zp_buf w1]. apply Bo, Hk.
  - unfold zp_last, zp_user. cbn [zp_buf w1]. rewrite Eb, app_length. cbn [length].
    replace (length (zw_bufs (zp_buf w)) + 1 - 1) with (length (zw_bufs (zp_buf w))) by lia.
    replace (zp_owned w1 (length (zw_bufs (zp_buf w)))) with false; [exact Bn|]. symmetry. apply owned_false.
    intros c d Ld E1. pose proof (BL _ _ Ld). lia.
Qed.
Lemma frag_ok junk w a y st n s : pinv [] w -> live w a y -> view w a = Some s -> st + n <= length s ->
  exists w1, zp_on junk (ZBase (Fragment (zy_buf y) st n)) w = Done w1 /\ pinv [] w1 /\ zp_vars w1 = zp_vars w /\
    pres None w w1 /\ zp_last w1 = Some (firstn n (skipn st s)).
Proof.
  intros I L W Hn. rewrite (view_live _ _ _ L) in W.
  destruct (buf_frag junk (zp_buf w) (zy_buf y) st n s (p_z _ _ I) (p_safe _ _ I) W Hn) as (b' & z & E & I' & S' & Eb & Bn & Bo).
  unfold zp_on. rewrite E. cbn [obind]. eexists. split; [reflexivity|].
  destruct (fresh_ok w b' z _ I I' S' Eb Bn Bo) as (I1 & P & La). auto.
Qed.

(** ** Statements *)

Definition done_with (r : outcome zpworld) (A : strings) (w : zpworld) : Prop :=
  exists w', r = Done w' /\ pinv [] w' /\ zpackets w' = A /\ keeps_user w w'.

Lemma add_header_ok junk w i n p s : pinv [] w -> zp_var w i = Some p -> zp_shows w p = Some s ->
  exists x w', length x = n /\ zp_add_header junk i n p w = Done w' /\ pinv [] w' /\ zpackets w' = upd (zpackets w) i (Some (x ++ s)) /\
    keeps_user w w' /\ zp_last w' = Some x.
Proof.
  intros I V Hs. destruct (simple_ok junk w i p s (fun k => ZBase (AddStart k n)) (fun x => x ++ s) n I V Hs) as (w2 & a & y & x & E & I2 & L & R & Ev & Lx & W & Pk & U).
  { intros; repeat split. }
  { intros A k x Hk _. cbn. rewrite Hk. reflexivity. }
  unfold zp_add_header. rewrite E. cbn [obind]. unfold zp_get. rewrite L. cbn [obind].
  destruct (frag_ok junk w2 a y 0 n (x ++ s) I2 L W) as (w3 & E3 & I3 & V3 & P3 & La). { rewrite app_length. lia. }
  exists x, w3. split; [exact Lx|]. split; [exact E3|]. split; [exact I3|].
  split; [rewrite <- Pk; apply packets_same; auto|]. split; [eapply user_trans; [exact U|eapply pres_user; exact P3]|].
  rewrite La. cbn [skipn]. rewrite <- Lx, firstn_app, Nat.sub_diag, firstn_all, firstn_O, app_nil_r. reflexivity.
Qed.
Lemma add_trailer_ok junk w i n p s : pinv [] w -> zp_var w i = Some p -> zp_shows w p = Some s ->
  exists x w', length x = n /\ zp_add_trailer junk i n p w = Done w' /\ pinv [] w' /\ zpackets w' = upd (zpackets w) i (Some (s ++ x)) /\
    keeps_user w w' /\ zp_last w' = Some x.
Proof.
  intros I V Hs. destruct (simple_ok junk w i p s (fun k => ZBase (AddEnd k n)) (fun x => s ++ x) n I V Hs) as (w2 & a & y & x & E & I2 & L & R & Ev & Lx & W & Pk & U).
  { intros; repeat split. }
  { intros A k x Hk _. cbn. rewrite Hk. reflexivity. }
  unfold zp_add_trailer. rewrite E. cbn [obind]. unfold zp_get. rewrite L. cbn [obind].
  destruct (view_some _ _ _ _ I2 L) as (s' & W' & Sz). rewrite W in W'. injection W' as <-. rewrite Sz, app_length.
  replace (length s + length x - n) with (length s) by lia.
  destruct (frag_ok junk w2 a y (length s) n (s ++ x) I2 L W) as (w3 & E3 & I3 & V3 & P3 & La). { rewrite app_length. lia. }
  exists x, w3. split; [exact Lx|]. split; [exact E3|]. split; [exact I3|].
  split; [rewrite <- Pk; apply packets_same; auto|]. split; [eapply user_trans; [exact U|eapply pres_user; exact P3]|].
  rewrite La. rewrite skipn_app, skipn_all, Nat.sub_diag. cbn [skipn app]. rewrite <- Lx, firstn_all. reflexivity.
Qed.
Lemma get_size_ok X w i p s : pinv X w -> zp_var w i = Some p -> zp_shows w p = Some s -> zp_get_size p w = Done (length s).
Proof.
  intros I V Hs. destruct p as [a|]; cbn [zp_get_size].
  - destruct (p_ref _ _ I a (refs_var _ _ _ _ V)) as [y L]. unfold zp_get. rewrite L. cbn [obind].
    destruct (view_some _ _ _ _ I L) as (s' & W' & Sz). change (view w a = Some s) in Hs. rewrite Hs in W'. injection W' as <-. rewrite Sz. reflexivity.
  - injection Hs as <-. reflexivity.
Qed.
Lemma rem_header_ok junk w i n p s : pinv [] w -> zp_var w i = Some p -> zp_shows w p = Some s ->
  if length s <? n then zp_rem_header junk i n p w = AssertFail
  else done_with (zp_rem_header junk i n p w) (upd (zpackets w) i (Some (skipn n s))) w /\
       (forall w', zp_rem_header junk i n p w = Done w' -> exists a, zp_vars w' = upd (zp_vars w) i (Some (Some a))).
Proof.
  intros I V Hs. unfold zp_rem_header, zp_remove. rewrite (get_size_ok _ _ _ _ _ I V Hs). cbn [obind].
  destruct (Nat.ltb_spec (length s) n) as [H|H]; [reflexivity|].
  destruct (simple_ok junk w i p s (fun k => ZBase (RemStart k n)) (fun _ => skipn n s) 0 I V Hs) as (w2 & a & y & x & E & I2 & L & R & Ev & Lx & W & Pk & U).
  { intros b k z Vz Sz. repeat split. cbn [sensible]. intros _ t Ht. unfold zsize_of in Ht. rewrite Vz in Ht. injection Ht as <-. lia. }
  { intros A k x Hk _. cbn. rewrite Hk. reflexivity. }
  rewrite E. cbn [obind]. split; [exists w2; auto|]. intros w' E'. injection E' as <-. eauto.
Qed.
Lemma rem_trailer_ok junk w i n p s : pinv [] w -> zp_var w i = Some p -> zp_shows w p = Some s ->
  if length s <? n then zp_rem_trailer junk i n p w = AssertFail
  else done_with (zp_rem_trailer junk i n p w) (upd (zpackets w) i (Some (drop_last n s))) w.
Proof.
  intros I V Hs. unfold zp_rem_trailer, zp_remove. rewrite (get_size_ok _ _ _ _ _ I V Hs). cbn [obind].
  destruct (Nat.ltb_spec (length s) n) as [H|H]; [reflexivity|].
  destruct (simple_ok junk w i p s (fun k => ZBase (RemEnd k n)) (fun _ => drop_last n s) 0 I V Hs) as (w2 & a & y & x & E & I2 & L & R & Ev & Lx & W & Pk & U).
  { intros b k z Vz Sz. repeat split. cbn [sensible]. intros _ t Ht. unfold zsize_of in Ht. rewrite Vz in Ht. injection Ht as <-. lia. }
  { intros A k x Hk _. cbn. rewrite Hk. reflexivity. }
  rewrite E. cbn [obind]. exists w2. auto.
Qed.

(** Adding a buffer of the user. *)
Lemma not_bare_later b b1 l k : zw_bufs b1 = zw_bufs b ++ l -> k < length (zw_bufs b) -> ~ bare b k -> ~ bare b1 k.
Proof.
  intros E Hk N (z & V & H). apply N. exists z. split; [|exact H]. unfold zvar in *. rewrite E, nth_error_app1 in V by exact Hk. exact V.
Qed.
Lemma add_buf_ok junk w i k p s t (op1 : nat -> nat -> op) (g : list N) : pinv [] w -> zp_var w i = Some p -> zp_shows w p = Some s ->
  zp_owned w k = false -> zbytes_of (zp_buf w) k = Some t -> ~ bare (zp_buf w) k ->
  (op1 = AddStartBuf /\ g = t ++ s \/ op1 = AddEndBuf /\ g = s ++ t) ->
  done_with (let! (w1, _) := zp_mutate junk i p (fun b => ZBase (op1 b k)) w in Done w1) (upd (zpackets w) i (Some g)) w.
Proof.
  intros I V Hs O Ht Nb Hop.
  assert (Hk : k < length (zw_bufs (zp_buf w))).
  { unfold zbytes_of in Ht. destruct (zvar (zp_buf w) k) eqn:Vk; [|discriminate]. eapply zvar_lt; eauto. }
  destruct (mutate_ok junk [] w i p s (fun b => ZBase (op1 b k)) (fun _ => g) 0 I V Hs) as (w2 & a & y & x & E & I2 & L & R & Ev & Lx & W & P).
  { intros w1 a y (I1 & L & R & Ev & W & (l & Eb) & P & LM). cbv zeta. pose proof (str_own _ _ _ _ _ I1 L W) as Sy.
    destruct (r_user _ _ _ (P None) k Hk O) as [O1 B1]. rewrite Ht in B1. rewrite owned_false in O1. pose proof (O1 _ _ L) as Nk.
    pose proof (not_bare_later _ _ _ _ Eb Hk Nb) as Nb1.
    assert (Sk : str (zabs (zp_buf w1)) k = Some t) by (rewrite <- zbytes_of_str by apply I1; exact B1).
    destruct Hop as [[-> ->]|[-> ->]]; cbn; rewrite Sy, Sk; repeat split; auto. }
  rewrite E. cbn [obind]. exists w2. split; [reflexivity|]. split; [exact I2|]. split; [eapply packets_upd; eauto|eapply pres_user; eauto].
Qed.

(** Adding a packet. *)
Lemma add_pkt_ok junk w i j p q s t (op1 : nat -> nat -> op) (g : list N) : pinv [] w -> zp_var w i = Some p -> zp_shows w p = Some s ->
  zp_var w j = Some q -> zp_shows w q = Some t -> ~ zp_bare w j ->
  (op1 = AddStartBuf /\ g = t ++ s \/ op1 = AddEndBuf /\ g = s ++ t) ->
  done_with (zp_add_pkt junk i op1 q p w) (upd (zpackets w) i (Some g)) w.
Proof.
  intros I V Hs Vj Ht Nb Hop. unfold zp_add_pkt. destruct q as [c|].
  2: { injection Ht as <-. exists w. split; [reflexivity|]. split; [exact I|]. split; [|apply user_refl].
       assert (g = s) as -> by (destruct Hop as [[_ ->]|[_ ->]]; [reflexivity|apply app_nil_r]).
       apply strings_ext; [rewrite upd_length; reflexivity|]. intros k _. destruct (Nat.eq_dec i k) as [<-|N].
       - rewrite str_upd_eq by (rewrite packets_length; eapply zp_var_lt; eauto). rewrite str_packets. unfold zpacket_of. rewrite V. exact Hs.
       - rewrite str_upd_neq by exact N. reflexivity. }
  destruct (p_ref _ _ I c (refs_var _ _ _ _ Vj)) as [z Lz].
  destruct (add_ref_ok [] w (Some c) I) as (w0 & E0 & I0 & P0 & V0 & B0 & LM0). { intros a Ha. injection Ha as <-. eauto. }
  rewrite E0. cbn [obind pend app] in *. destruct (LM0 _ _ Lz) as (z0 & Lz0 & Ez0). unfold zp_get. rewrite Lz0. cbn [obind]. rewrite Ez0.
  assert (Vi0 : zp_var w0 i = Some p) by (unfold zp_var; rewrite V0; exact V).
  assert (Vj0 : zp_var w0 j = Some (Some c)) by (unfold zp_var; rewrite V0; exact Vj).
  assert (Hs0 : zp_shows w0 p = Some s) by (rewrite <- Hs; apply (shows_same [] [c] None w w0 i i); auto; discriminate).
  assert (Ht0 : view w0 c = Some t) by (rewrite <- Ht; apply (shows_same [] [c] None w w0 j j (Some c)); auto; discriminate).
  destruct (p_buf _ _ I0 _ _ Lz0) as [zc Vzc]. rewrite Ez0 in Vzc. pose proof (zvar_lt _ _ _ Vzc) as Hk.
  destruct (mutate_ok junk [c] w0 i p s (fun b => ZBase (op1 b (zy_buf z))) (fun _ => g) 0 I0 Vi0 Hs0) as (w2 & a & y & x & E & I2 & L & R & Ev & Lx & W & P).
  { intros w1 a y (I1 & L & R & Ev & W & (l & Eb) & P & LM). cbv zeta. pose proof (str_own _ _ _ _ _ I1 L W) as Sy.
    destruct (LM _ _ Lz0) as (z1 & Lz1 & Ez1).
    assert (Na : a <> c).
    { intros ->. assert (Vi1 : zp_var w1 i = Some (Some c)) by (unfold zp_var; rewrite Ev, nth_upd_eq by (eapply zp_var_lt; eauto); reflexivity).
      pose proof (refs_var [] _ _ _ Vi1). rewrite refs_cons, Nat.eqb_refl in R. cbn [b2n] in R. lia. }
    assert (W1 : view w1 c = Some t).
    { destruct (view_some _ _ _ _ I1 Lz1) as (t1 & W1 & _). rewrite W1, <- Ht0. symmetry.
      apply (r_view _ _ _ (P None) c t1 (live_lt _ _ _ Lz0)); [discriminate|exact W1]. }
    pose proof (str_own _ _ _ _ _ I1 Lz1 W1) as Sk. rewrite Ez1, Ez0 in Sk.
    assert (Nk : zy_buf y <> zy_buf z). { intros En. apply Na. apply (p_inj _ _ I1 _ _ _ _ L Lz1). congruence. }
    assert (Nb1 : ~ bare (zp_buf w1) (zy_buf z)).
    { apply (not_bare_later _ _ _ _ Eb Hk). rewrite B0. intros Hb. apply Nb. exists c, z. auto. }
    destruct Hop as [[-> ->]|[-> ->]]; cbn; rewrite Sy, Sk; repeat split; auto. }
  unfold zp_get. rewrite E. cbn [obind]. destruct (release_ok junk [] w2 (Some c) I2) as (w3 & E3 & I3 & P3 & V3).
  rewrite E3. exists w3. split; [reflexivity|]. split; [exact I3|].
  pose proof (zp_var_lt _ _ _ V) as Hi.
  assert (Ev3 : zp_vars w3 = upd (zp_vars w) i (Some (Some a))) by congruence.
  assert (Vi3 : zp_var w3 i = Some (Some a)) by (unfold zp_var; rewrite Ev3, nth_upd_eq by exact Hi; reflexivity).
  split.
  - eapply (packets_upd w w3 i p a); eauto.
    + pose proof (refs_var [] _ _ _ Vi3) as R3. rewrite refs_cons in R. unfold refs in R, R3 |- *. rewrite V3 in R3 |- *. lia.
    + destruct (shows_some _ _ _ _ I3 Vi3) as [t3 W3]. change (view w3 a = Some t3) in W3. rewrite W3, <- W. symmetry.
      apply (r_view _ _ _ (P3 None) a t3 (live_lt _ _ _ L)); [discriminate|exact W3].
    + eapply pres_trans; [apply P0|]. eapply pres_trans; [exact P|apply P3].
  - eapply user_trans; [apply (pres_user None), P0|]. eapply user_trans; [eapply pres_user; exact P|apply (pres_user None), P3].
Qed.

Lemma copy_ok w i p s : pinv [] w -> zp_var w i = Some p -> zp_shows w p = Some s ->
  exists w', zp_copy_new p w = Done w' /\ pinv [] w' /\ zpackets w' = zpackets w ++ [Some s] /\ keeps_user w w' /\
    zp_vars w' = zp_vars w ++ [Some p].
Proof.
  intros I V Hs. destruct (add_ref_ok [] w p I) as (w0 & E0 & I0 & P0 & V0 & B0 & LM0).
  { intros a ->. apply (p_ref _ _ I). eapply refs_var; eauto. }
  unfold zp_copy_new. rewrite E0. cbn [obind]. eexists. split; [reflexivity|].
  assert (I1 : pinv [] (zp_add w0 p)). { apply (pinv_refs (pend p ++ []) [] w0); auto. intros a. rewrite refs_add, refs_pend. lia. }
  assert (P1 : pres None w (zp_add w0 p)). { eapply pres_trans; [apply P0|apply pres_vars; reflexivity]. }
  assert (Ev : zp_vars (zp_add w0 p) = zp_vars w ++ [Some p]) by (cbn [zp_add zp_vars]; rewrite V0; reflexivity).
  split; [exact I1|]. split; [|split; [eapply pres_user; exact P1|exact Ev]]. apply (packets_add w (zp_add w0 p) p); auto.
  rewrite <- Hs. apply (shows_same [] [] None w (zp_add w0 p) i i); auto; [|discriminate].
  unfold zp_var in *. rewrite Ev, nth_error_app1 by (eapply zp_var_lt; exact V). exact V.
Qed.

Lemma fragment_ok junk w i p s st n : pinv [] w -> zp_var w i = Some p -> zp_shows w p = Some s ->
  if length s <? st + n then zp_make_fragment junk st n p w = AssertFail
  else done_with (zp_make_fragment junk st n p w) (zpackets w ++ [Some (firstn n (skipn st s))]) w.
Proof.
  intros I V Hs. unfold zp_make_fragment. destruct (copy_ok w i p s I V Hs) as (w1 & E1 & I1 & K1 & U1 & V1). rewrite E1. cbn [obind].
  set (f := length (zp_vars w)).
  assert (Vf : zp_var w1 f = Some p). { unfold zp_var. rewrite V1. unfold f. rewrite nth_error_app2, Nat.sub_diag by auto. reflexivity. }
  assert (Hf : zp_shows w1 p = Some s).
  { assert (H : str (zpackets w1) f = Some s) by (rewrite K1; unfold f; rewrite <- (packets_length w); apply str_app_new).
    rewrite str_packets in H. unfold zpacket_of in H. rewrite Vf in H. exact H. }
  pose proof (rem_header_ok junk w1 f st p s I1 Vf Hf) as H2.
  destruct (Nat.ltb_spec (length s) st) as [Hst|Hst].
  { rewrite (proj2 (Nat.ltb_lt (length s) (st + n))) by lia. rewrite H2. reflexivity. }
  destruct H2 as [(w2 & E2 & I2 & K2 & U2) Hv]. rewrite E2. cbn [obind]. destruct (Hv w2 E2) as [a Ev2].
  assert (Lf : f < length (zp_vars w1)) by (rewrite V1, app_length; cbn; unfold f; lia).
  assert (V2 : zp_var w2 f = Some (Some a)) by (unfold zp_var; rewrite Ev2, nth_upd_eq by exact Lf; reflexivity). rewrite V2.
  assert (H3 : zp_shows w2 (Some a) = Some (skipn st s)).
  { assert (H : str (zpackets w2) f = Some (skipn st s)) by (rewrite K2; apply str_upd_eq; rewrite packets_length; exact Lf).
    rewrite str_packets in H. unfold zpacket_of in H. rewrite V2 in H. exact H. }
  rewrite (get_size_ok _ _ _ _ _ I2 V2 H3). cbn [obind]. rewrite skipn_length.
  destruct (Nat.ltb_spec (length s - st) n) as [Hn|Hn].
  { rewrite (proj2 (Nat.ltb_lt (length s) (st + n))) by lia. reflexivity. }
  rewrite (proj2 (Nat.ltb_ge (length s) (st + n))) by lia.
  pose proof (rem_trailer_ok junk w2 f (length s - st - n) (Some a) (skipn st s) I2 V2 H3) as H4.
  rewrite skipn_length, (proj2 (Nat.ltb_ge _ _)) in H4 by lia. destruct H4 as (w3 & E3 & I3 & K3 & U3). exists w3.
  split; [exact E3|]. split; [exact I3|]. split; [|eapply user_trans; [exact U1|eapply user_trans; [exact U2|exact U3]]].
  assert (Ed : drop_last (length s - st - n) (skipn st s) = firstn n (skipn st s)).
  { unfold drop_last. rewrite skipn_length. f_equal. lia. }
  rewrite K3, K2, K1, Ed. apply strings_ext; [rewrite !upd_length, !app_length; reflexivity|].
  intros j Hj. rewrite !upd_length, app_length, packets_length in Hj. cbn in Hj. destruct (Nat.eq_dec f j) as [<-|N].
  - rewrite str_upd_eq by (rewrite upd_length, app_length, packets_length; cbn; unfold f; lia).
    unfold f. rewrite <- (packets_length w), str_app_new. reflexivity.
  - rewrite !str_upd_neq by exact N. rewrite !str_app_l by (rewrite packets_length; unfold f in N; lia). reflexivity.
Qed.

(** ** The other statements *)

Lemma packets_by w w' A : pinv [] w -> pinv [] w' -> pres None w w' -> length A = length (zp_vars w') ->
  (forall k, k < length A ->
     (zp_var w' k = None /\ str A k = None) \/ (zp_var w' k = Some None /\ str A k = Some []) \/
     (exists j q, zp_var w j = Some q /\ zp_var w' k = Some q /\ str A k = zp_shows w q)) -> zpackets w' = A.
Proof.
  intros I I' P L H. apply strings_ext; [rewrite packets_length; auto|]. rewrite packets_length, <- L. intros k Hk.
  rewrite str_packets. unfold zpacket_of. destruct (H k Hk) as [[-> ->]|[[-> ->]|(j & q & V & V' & ->)]]; try reflexivity.
  rewrite V'. apply (shows_same [] [] None w w' j k); auto. discriminate.
Qed.
(** Variables that stay. *)
Lemma str_var w k q : zp_var w k = Some q -> str (zpackets w) k = zp_shows w q.
Proof. intros V. rewrite str_packets. unfold zpacket_of. rewrite V. reflexivity. Qed.
Lemma same_var w w' A k : zp_var w' k = zp_var w k -> str A k = str (zpackets w) k ->
  (zp_var w' k = None /\ str A k = None) \/ (zp_var w' k = Some None /\ str A k = Some []) \/
  (exists j q, zp_var w j = Some q /\ zp_var w' k = Some q /\ str A k = zp_shows w q).
Proof.
  intros E Ea. rewrite E, Ea, str_packets. unfold zpacket_of. destruct (zp_var w k) as [q|] eqn:V; [|auto].
  right. right. exists k, q. auto.
Qed.
Lemma moved_var w w' A j k q : zp_var w j = Some q -> zp_var w' k = Some q -> str A k = zp_shows w q ->
  (zp_var w' k = None /\ str A k = None) \/ (zp_var w' k = Some None /\ str A k = Some []) \/
  (exists j q, zp_var w j = Some q /\ zp_var w' k = Some q /\ str A k = zp_shows w q).
Proof. intros. right. right. eauto. Qed.
Lemma var_upd_eq w w' i v : zp_vars w' = upd (zp_vars w) i v -> i < length (zp_vars w) -> zp_var w' i = v.
Proof. intros E H. unfold zp_var. rewrite E, nth_upd_eq by exact H. reflexivity. Qed.
Lemma var_upd_neq w w' i j v : zp_vars w' = upd (zp_vars w) i v -> i <> j -> zp_var w' j = zp_var w j.
Proof. intros E H. unfold zp_var. rewrite E, nth_upd_neq by exact H. reflexivity. Qed.

Lemma release_var_ok junk w i p : pinv [] w -> zp_var w i = Some p ->
  exists w1, zp_release_var junk i p w = Done w1 /\ pinv [] w1 /\ pres None w w1 /\ zp_vars w1 = upd (zp_vars w) i (Some None).
Proof.
  intros I V. destruct (set_ok [] (pend p ++ []) w i p (Some None) I V) as [I1 P1].
  { intros c. rewrite refs_pend. cbn [isa b2n]. lia. }
  destruct (release_ok junk [] _ p I1) as (w1 & E & I2 & P2 & Ev). exists w1. split; [exact E|]. split; [exact I2|].
  split; [eapply pres_trans; [apply P1|apply P2]|exact Ev].
Qed.
Lemma assign_ok junk w i j p q s t : pinv [] w -> zp_var w i = Some p -> zp_var w j = Some q -> zp_shows w p = Some s -> zp_shows w q = Some t ->
  done_with (zp_assign junk i p q w) (upd (zpackets w) i (Some t)) w.
Proof.
  intros I Vi Vj Hs Ht. pose proof (zp_var_lt _ _ _ Vi) as Hi. unfold zp_assign. destruct (zp_same p q) eqn:Es.
  - assert (p = q) as -> by (destruct p, q; cbn in Es; try discriminate; [apply Nat.eqb_eq in Es; subst|]; reflexivity).
    exists w. split; [reflexivity|]. split; [exact I|]. split; [|apply user_refl]. apply strings_ext; [rewrite upd_length; reflexivity|].
    intros k _. destruct (Nat.eq_dec i k) as [<-|N]; [|rewrite str_upd_neq by exact N; reflexivity].
    rewrite str_upd_eq, (str_var _ _ _ Vi) by (rewrite packets_length; exact Hi). exact Ht.
  - assert (Nij : i <> j). { intros ->. rewrite Vi in Vj. injection Vj as ->. destruct q; cbn in Es; [rewrite Nat.eqb_refl in Es|]; discriminate. }
    destruct (release_var_ok junk w i p I Vi) as (w1 & E1 & I1 & P1 & V1). rewrite E1. cbn [obind].
    assert (Vj1 : zp_var w1 j = Some q) by (rewrite (var_upd_neq _ _ _ _ _ V1 Nij); exact Vj).
    assert (Vi1 : zp_var w1 i = Some None) by (apply (var_upd_eq _ _ _ _ V1 Hi)).
    destruct (add_ref_ok [] w1 q I1) as (w2 & E2 & I2 & P2 & V2 & B2 & _).
    { intros a ->. apply (p_ref _ _ I1). eapply refs_var; eauto. }
    assert (E3 : zp_add_ref q (zp_set w1 i (Some q)) = Done (zp_set w2 i (Some q))).
    { destruct q as [a|]; cbn [zp_add_ref] in E2 |- *; [|injection E2 as <-; reflexivity].
      unfold zp_get in *. cbn [zp_set zp_bodies]. destruct (nth_error (zp_bodies w1) a) as [[y|]|]; try discriminate.
      cbn [obind] in *. injection E2 as <-. reflexivity. }
    rewrite E3. assert (Vi2 : zp_var w2 i = Some None) by (unfold zp_var in *; rewrite V2; exact Vi1).
    destruct (set_ok (pend q ++ []) [] w2 i None (Some q) I2 Vi2) as [I3 P3]. { intros c. rewrite refs_pend. cbn [isa b2n]. lia. }
    eexists. split; [reflexivity|]. split; [exact I3|].
    assert (P : pres None w (zp_set w2 i (Some q))) by (eapply pres_trans; [exact P1|eapply pres_trans; [apply P2|apply P3]]).
    split; [|eapply pres_user; exact P].
    assert (Ev : zp_vars (zp_set w2 i (Some q)) = upd (zp_vars w2) i (Some q)) by reflexivity.
    assert (Hi2 : i < length (zp_vars w2)) by (rewrite V2, V1, upd_length; exact Hi).
    apply (packets_by w); auto.
    + rewrite Ev, !upd_length, packets_length, V2, V1, upd_length. reflexivity.
    + intros k _. destruct (Nat.eq_dec i k) as [<-|N].
      * apply (moved_var w _ _ j i q); auto; [apply (var_upd_eq _ _ _ _ Ev Hi2)|].
        rewrite str_upd_eq by (rewrite packets_length; exact Hi). congruence.
      * apply same_var; [|apply str_upd_neq; exact N]. rewrite (var_upd_neq _ _ _ _ _ Ev N). unfold zp_var. rewrite V2.
        apply (var_upd_neq _ _ _ _ _ V1 N).
Qed.
Lemma move_assign_ok junk w i j p q s t : pinv [] w -> zp_var w i = Some p -> zp_var w j = Some q -> zp_shows w p = Some s -> zp_shows w q = Some t ->
  done_with (zp_move_assign junk i j p q w)
    (if zp_same p q then zpackets w else upd (upd (zpackets w) i (Some t)) j (Some [])) w.
Proof.
  intros I Vi Vj Hs Ht. pose proof (zp_var_lt _ _ _ Vi) as Hi. pose proof (zp_var_lt _ _ _ Vj) as Hj. unfold zp_move_assign. destruct (zp_same p q) eqn:Es.
  - exists w. split; [reflexivity|]. split; [exact I|]. split; [reflexivity|apply user_refl].
  - assert (Nij : i <> j). { intros ->. rewrite Vi in Vj. injection Vj as ->. destruct q; cbn in Es; [rewrite Nat.eqb_refl in Es|]; discriminate. }
    destruct (release_var_ok junk w i p I Vi) as (w1 & E1 & I1 & P1 & V1). rewrite E1. cbn [obind].
    assert (Vj1 : zp_var w1 j = Some q) by (rewrite (var_upd_neq _ _ _ _ _ V1 Nij); exact Vj).
    assert (Vi1 : zp_var w1 i = Some None) by (apply (var_upd_eq _ _ _ _ V1 Hi)).
    set (w2 := zp_set w1 i (Some q)). assert (E2 : zp_vars w2 = upd (zp_vars w1) i (Some q)) by reflexivity.
    set (w3 := zp_set w2 j (Some None)). assert (E3 : zp_vars w3 = upd (zp_vars w2) j (Some None)) by reflexivity.
    assert (Hi1 : i < length (zp_vars w1)) by (rewrite V1, upd_length; exact Hi).
    assert (Hj2 : j < length (zp_vars w2)) by (rewrite E2, V1, !upd_length; exact Hj).
    assert (Vj2 : zp_var w2 j = Some q) by (rewrite (var_upd_neq _ _ _ _ _ E2 Nij); exact Vj1).
    assert (I3 : pinv [] w3).
    { apply (pinv_refs [] [] w1); auto. intros a. pose proof (refs_set [] w1 i None (Some q) a Vi1) as A1.
      pose proof (refs_set [] w2 j q (Some None) a Vj2) as A2. fold w2 in A1. fold w3 in A2. cbn [isa b2n] in A1, A2. lia. }
    assert (P : pres None w w3) by (eapply pres_trans; [exact P1|apply pres_vars; reflexivity]).
    exists w3. split; [reflexivity|]. split; [exact I3|]. split; [|eapply pres_user; exact P].
    apply (packets_by w); auto.
    + rewrite E3, E2, V1, !upd_length, packets_length. reflexivity.
    + intros k _. destruct (Nat.eq_dec j k) as [<-|N].
      * right. left. split; [apply (var_upd_eq _ _ _ _ E3 Hj2)|]. apply str_upd_eq. rewrite upd_length, packets_length. exact Hj.
      * destruct (Nat.eq_dec i k) as [<-|N'].
        -- apply (moved_var w _ _ j i q); auto; [rewrite (var_upd_neq _ _ _ _ _ E3 N); apply (var_upd_eq _ _ _ _ E2 Hi1)|].
           rewrite str_upd_neq, str_upd_eq by (auto; rewrite packets_length; exact Hi). congruence.
        -- apply same_var; [|rewrite !str_upd_neq by auto; reflexivity].
           rewrite (var_upd_neq _ _ _ _ _ E3 N), (var_upd_neq _ _ _ _ _ E2 N'). apply (var_upd_neq _ _ _ _ _ V1 N').
Qed.
Lemma swap_ok w i j p q s t : pinv [] w -> zp_var w i = Some p -> zp_var w j = Some q -> zp_shows w p = Some s -> zp_shows w q = Some t ->
  done_with (Done (zp_set (zp_set w i (Some q)) j (Some p))) (upd (upd (zpackets w) i (Some t)) j (Some s)) w.
Proof.
  intros I Vi Vj Hs Ht. pose proof (zp_var_lt _ _ _ Vi) as Hi. pose proof (zp_var_lt _ _ _ Vj) as Hj.
  set (w2 := zp_set w i (Some q)). assert (E2 : zp_vars w2 = upd (zp_vars w) i (Some q)) by reflexivity.
  set (w3 := zp_set w2 j (Some p)). assert (E3 : zp_vars w3 = upd (zp_vars w2) j (Some p)) by reflexivity.
  assert (Hj2 : j < length (zp_vars w2)) by (rewrite E2, upd_length; exact Hj).
  assert (Vj2 : zp_var w2 j = Some q).
  { destruct (Nat.eq_dec i j) as [<-|N]; [apply (var_upd_eq _ _ _ _ E2 Hi)|rewrite (var_upd_neq _ _ _ _ _ E2 N); exact Vj]. }
  assert (I3 : pinv [] w3).
  { apply (pinv_refs [] [] w); auto. intros a. pose proof (refs_set [] w i p (Some q) a Vi) as A1.
    pose proof (refs_set [] w2 j q (Some p) a Vj2) as A2. fold w2 in A1. fold w3 in A2. lia. }
  assert (P : pres None w w3) by (apply pres_vars; reflexivity).
  exists w3. split; [reflexivity|]. split; [exact I3|]. split; [|eapply pres_user; exact P].
  apply (packets_by w); auto.
  - rewrite E3, E2, !upd_length, packets_length. reflexivity.
  - intros k _. destruct (Nat.eq_dec j k) as [<-|N].
    + apply (moved_var w _ _ i j p); auto; [apply (var_upd_eq _ _ _ _ E3 Hj2)|].
      rewrite str_upd_eq by (rewrite upd_length, packets_length; exact Hj). congruence.
    + destruct (Nat.eq_dec i k) as [<-|N'].
      * apply (moved_var w _ _ j i q); auto; [rewrite (var_upd_neq _ _ _ _ _ E3 N); apply (var_upd_eq _ _ _ _ E2 Hi)|].
        rewrite str_upd_neq, str_upd_eq by (auto; rewrite packets_length; exact Hi). congruence.
      * apply same_var; [|rewrite !str_upd_neq by auto; reflexivity].
        rewrite (var_upd_neq _ _ _ _ _ E3 N). apply (var_upd_neq _ _ _ _ _ E2 N').
Qed.
Lemma destroy_ok junk w i p : pinv [] w -> zp_var w i = Some p ->
  done_with (let! w1 := zp_release_var junk i p w in Done (zp_set w1 i None)) (upd (zpackets w) i None) w.
Proof.
  intros I V. pose proof (zp_var_lt _ _ _ V) as Hi. destruct (release_var_ok junk w i p I V) as (w1 & E1 & I1 & P1 & V1). rewrite E1. cbn [obind].
  assert (Vi1 : zp_var w1 i = Some None) by (apply (var_upd_eq _ _ _ _ V1 Hi)).
  destruct (set_ok [] [] w1 i None None I1 Vi1) as [I2 P2]. { intros c. reflexivity. }
  set (w2 := zp_set w1 i None) in *. assert (E2 : zp_vars w2 = upd (zp_vars w1) i None) by reflexivity.
  assert (P : pres None w w2) by (eapply pres_trans; [exact P1|apply P2]).
  exists w2. split; [reflexivity|]. split; [exact I2|]. split; [|eapply pres_user; exact P].
  assert (Hi1 : i < length (zp_vars w1)) by (rewrite V1, upd_length; exact Hi).
  apply (packets_by w); auto.
  - rewrite E2, V1, !upd_length, packets_length. reflexivity.
  - intros k _. destruct (Nat.eq_dec i k) as [<-|N].
    + left. split; [apply (var_upd_eq _ _ _ _ E2 Hi1)|]. apply str_upd_eq. rewrite packets_length. exact Hi.
    + apply same_var; [|apply str_upd_neq; exact N]. rewrite (var_upd_neq _ _ _ _ _ E2 N). apply (var_upd_neq _ _ _ _ _ V1 N).
Qed.
Lemma move_new_ok w i p s : pinv [] w -> zp_var w i = Some p -> zp_shows w p = Some s ->
  done_with (Done (zp_add (zp_set w i (Some None)) p)) (upd (zpackets w) i (Some []) ++ [Some s]) w.
Proof.
  intros I V Hs. pose proof (zp_var_lt _ _ _ V) as Hi. set (w1 := zp_set w i (Some None)).
  assert (E1 : zp_vars w1 = upd (zp_vars w) i (Some None)) by reflexivity. set (w2 := zp_add w1 p).
  assert (E2 : zp_vars w2 = zp_vars w1 ++ [Some p]) by reflexivity.
  assert (I2 : pinv [] w2).
  { apply (pinv_refs [] [] w); auto. intros a. pose proof (refs_set [] w i p (Some None) a V) as A1. fold w1 in A1.
    unfold w2. rewrite refs_add. cbn [isa b2n] in A1 |- *. lia. }
  assert (P : pres None w w2) by (apply pres_vars; reflexivity).
  exists w2. split; [reflexivity|]. split; [exact I2|]. split; [|eapply pres_user; exact P].
  assert (L1 : length (zp_vars w1) = length (zp_vars w)) by (rewrite E1; apply upd_length).
  assert (O : forall k, k < length (zp_vars w) -> zp_var w2 k = zp_var w1 k) by (intros k Hk; unfold zp_var; rewrite E2, nth_error_app1 by lia; reflexivity).
  apply (packets_by w); auto.
  - rewrite E2, !app_length, L1, upd_length, packets_length. reflexivity.
  - intros k Hk. rewrite app_length, upd_length, packets_length in Hk. cbn in Hk.
    destruct (Nat.eq_dec k (length (zp_vars w))) as [->|Nk].
    + apply (moved_var w _ _ i _ p); auto.
      * unfold zp_var. rewrite E2, <- L1, nth_error_app2, Nat.sub_diag by auto. reflexivity.
      * rewrite <- (packets_length w), <- (upd_length (zpackets w) i (Some [])), str_app_new. congruence.
    + destruct (Nat.eq_dec i k) as [<-|N].
      * right. left. split; [rewrite O by lia; apply (var_upd_eq _ _ _ _ E1 Hi)|].
        rewrite str_app_l, str_upd_eq by (rewrite ?upd_length, packets_length; lia). reflexivity.
      * apply same_var; [rewrite O by lia; apply (var_upd_neq _ _ _ _ _ E1 N)|].
        rewrite str_app_l, str_upd_neq by (auto; rewrite ?upd_length, packets_length; lia). reflexivity.
Qed.
Lemma new_ok w : pinv [] w -> done_with (Done (zp_add w None)) (zpackets w ++ [Some []]) w.
Proof.
  intros I. destruct (pinv_refs [] [] w (zp_add w None) I eq_refl eq_refl) as [].
  { intros a. rewrite refs_add. cbn [isa b2n]. lia. }
  assert (I1 : pinv [] (zp_add w None)) by (split; assumption).
  eexists. split; [reflexivity|]. split; [exact I1|]. assert (P : pres None w (zp_add w None)) by (apply pres_vars; reflexivity).
  split; [apply (packets_add w _ None); auto|eapply pres_user; exact P].
Qed.
Lemma pres_new w w1 w2 a : pres None w w1 -> pres (Some a) w1 w2 -> length (zp_bodies w) <= a -> pres None w w2.
Proof.
  intros P Q H. destruct (pres_trans (Some a) w w1 w2 (pres_weak _ _ _ P) Q) as [A B C D]. split; auto.
  intros c s Hc _. apply B; [exact Hc|]. intros E. injection E as ->. lia.
Qed.
Lemma from_buf_ok junk w k s : pinv [] w -> zp_owned w k = false -> zbytes_of (zp_buf w) k = Some s ->
  done_with (zp_from_buf junk k w) (zpackets w ++ [Some s]) w.
Proof.
  intros I O Hs.
  assert (Hk : k < length (zw_bufs (zp_buf w))).
  { unfold zbytes_of in Hs. destruct (zvar (zp_buf w) k) eqn:Vk; [|discriminate]. eapply zvar_lt; eauto. }
  destruct (buf_new0 junk (zp_buf w) (p_z _ _ I) (p_safe _ _ I)) as (b' & z & E & I' & S' & Eb & Bn & Bo).
  destruct (body_ok [] w b' z [] I I' S' Eb Bn Bo) as (Ea & I1 & P1 & V1 & W1 & L1 & _ & R0).
  unfold zp_from_buf, zp_new_body, zp_on at 1. rewrite E. cbn [obind].
  set (r := zp_body (mk_zp b' (zp_bodies w) (zp_vars w)) (length (zw_bufs (zp_buf w)))) in *.
  destruct r as [w1 a] eqn:Er. cbn [fst snd] in *. cbn [obind]. unfold zp_get. rewrite L1. cbn [obind].
  destruct (r_user _ _ _ (P1 None) k Hk O) as [O1 B1]. rewrite Hs in B1.
  assert (Sk : str (zabs (zp_buf w1)) k = Some s) by (rewrite <- zbytes_of_str by apply I1; exact B1).
  pose proof (str_own _ _ _ _ _ I1 L1 W1) as Sy.
  destruct (own_ok junk [a] w1 a _ (ZBase (Buffer.Assign (length (zw_bufs (zp_buf w))) k)) (fun _ => s) I1 L1) as (w2 & x & E2 & I2 & Ey & V2 & _ & W2 & P2 & _);
    try exact Logic.I; auto.
  { intros x _. cbn [zy_buf] in Sy |- *. cbn. rewrite Sy, Sk. reflexivity. }
  cbn [zy_buf]. rewrite E2. cbn [obind].
  assert (P : pres None w (zp_add w2 (Some a))).
  { eapply pres_trans; [eapply pres_new; [apply P1|exact P2|lia]|apply pres_vars; reflexivity]. }
  assert (I3 : pinv [] (zp_add w2 (Some a))). { apply (pinv_refs [a] [] w2); auto. intros c. rewrite refs_add, refs_cons. reflexivity. }
  eexists. split; [reflexivity|]. split; [exact I3|]. split; [|eapply pres_user; exact P].
  apply (packets_add w _ (Some a)); auto. cbn [zp_add zp_vars]. congruence.
Qed.
Lemma get_buffer_ok junk w i p s : pinv [] w -> zp_var w i = Some p -> zp_shows w p = Some s ->
  exists w', zp_get_buffer junk p w = Done w' /\ pinv [] w' /\ zpackets w' = zpackets w /\ keeps_user w w' /\ zp_last w' = Some s.
Proof.
  intros I V Hs. assert (H : exists b' z, zp_get_buffer junk p w = Done (mk_zp b' (zp_bodies w) (zp_vars w)) /\ zinv b' /\ zsafe b' /\
     zw_bufs b' = zw_bufs (zp_buf w) ++ [Some z] /\ zbytes_of b' (length (zw_bufs (zp_buf w))) = Some s /\
     (forall k, k < length (zw_bufs (zp_buf w)) -> zbytes_of b' k = zbytes_of (zp_buf w) k)).
  { destruct p as [a|]; cbn [zp_get_buffer].
    - destruct (p_ref _ _ I a (refs_var _ _ _ _ V)) as [y L]. unfold zp_get. rewrite L. cbn [obind].
      change (view w a = Some s) in Hs. rewrite (view_live _ _ _ L) in Hs.
      destruct (buf_copy junk (zp_buf w) (zy_buf y) s (p_z _ _ I) (p_safe _ _ I) Hs) as (b' & z & E & H). exists b', z.
      unfold zp_on. rewrite E. cbn [obind]. auto.
    - injection Hs as <-. destruct (buf_new0 junk (zp_buf w) (p_z _ _ I) (p_safe _ _ I)) as (b' & z & E & H). exists b', z.
      unfold zp_on. rewrite E. cbn [obind]. auto. }
  destruct H as (b' & z & E & I' & S' & Eb & Bn & Bo). destruct (fresh_ok w b' z s I I' S' Eb Bn Bo) as (I1 & P & La).
  eexists. split; [exact E|]. split; [exact I1|]. split; [apply packets_same; auto|]. split; [eapply pres_user; exact P|exact La].
Qed.

Lemma spec_other x zo A k : k < length A -> ~ In k (zmentions zo) -> str (spec_zstep x zo A) k = str A k.
Proof.
  intros Hk N. destruct zo as [o|i|i]; cbn [zmentions In spec_zstep] in *.
  2: { unfold spec_step. destruct (str A i); [apply str_app_l; exact Hk|reflexivity]. }
  2: reflexivity.
  destruct o; cbn [In] in N; unfold spec_step;
    repeat match goal with
    | |- context[if ?c then _ else _] => destruct c
    | |- context[match str A ?c with _ => _ end] => destruct (str A c)
    end; rewrite ?str_app_l, ?str_upd_neq by (rewrite ?upd_length; auto; intros ->; apply N; auto); reflexivity.
Qed.
Lemma on_buf_ok junk w zo : pinv [] w -> existsb (zp_owned w) (zmentions zo) = false ->
  zbad_args zo (zp_buf w) = false -> no_deep zo -> sensible zo (zp_buf w) -> zwrites_alone zo (zp_buf w) ->
  exists w' x, zp_on junk zo w = Done w' /\ pinv [] w' /\ zpackets w' = zpackets w /\ zp_bodies w' = zp_bodies w /\ zp_vars w' = zp_vars w /\
    length x = extra_zlen zo /\ zabs (zp_buf w') = spec_zstep x zo (zabs (zp_buf w)).
Proof.
  intros I M Bd D Se Al. destruct (buf_done junk zo (zp_buf w) (p_z _ _ I) Bd) as [b' E].
  destruct (buf_step junk zo _ b' (p_z _ _ I) (p_safe _ _ I) E D Se Al) as (I' & S' & x & Lx & Ab).
  assert (Same : forall c d, live w c d -> str (zabs b') (zy_buf d) = str (zabs (zp_buf w)) (zy_buf d)).
  { intros c d L. rewrite Ab. apply spec_other.
    - destruct (p_buf _ _ I _ _ L) as [z V]. assert (Z : exists s, str (zabs (zp_buf w)) (zy_buf d) = Some s) by (apply zvar_str; eauto).
      destruct Z as [s Z]. eapply str_lt; exact Z.
    - intros Hin. assert (C : existsb (zp_owned w) (zmentions zo) = true); [|congruence]. apply existsb_exists. exists (zy_buf d). split; [exact Hin|].
      destruct (zp_owned w (zy_buf d)) eqn:O; [reflexivity|]. rewrite owned_false in O. destruct (O _ _ L eq_refl). }
  unfold zp_on. rewrite E. cbn [obind]. eexists _, x. split; [reflexivity|]. set (w1 := mk_zp b' (zp_bodies w) (zp_vars w)).
  assert (I1 : pinv [] w1).
  { split; try apply I; auto. intros c d L. cbn [zp_buf w1]. apply zvar_str. rewrite (Same _ _ L). apply zvar_str. apply (p_buf _ _ I _ _ L). }
  split; [exact I1|]. split; [|auto]. apply strings_ext; [rewrite !packets_length; reflexivity|]. intros k _. rewrite !str_packets.
  unfold zpacket_of. change (zp_var w1 k) with (zp_var w k). destruct (zp_var w k) as [[c|]|]; try reflexivity.
  unfold zp_shows. change (zp_bodies w1) with (zp_bodies w). destruct (nth_error (zp_bodies w) c) as [[y|]|] eqn:L; try reflexivity.
  rewrite !zbytes_of_str by (apply I || exact I'). apply (Same c y L).
Qed.

(** ** All of them *)

Definition packet_statement (o : zpop) : Prop := match o with POnBuf _ => False | _ => True end.

Lemma zp_step_ok junk o w : pinv [] w ->
  if zp_bad_args o w then zpstep junk o w = AssertFail
  else zp_no_deep o -> zp_sensible o w ->
    exists w' x, zpstep junk o w = Done w' /\ pinv [] w' /\ length x = zp_extra o /\
      zpackets w' = zpspec w x o (zpackets w) /\ zp_returned w x o w' /\ (packet_statement o -> keeps_user w w') /\
      (forall zo, o = POnBuf zo -> existsb (zp_owned w) (zmentions zo) = false -> zp_bodies w' = zp_bodies w /\
         exists x, length x = extra_zlen zo /\ zabs (zp_buf w') = spec_zstep x zo (zabs (zp_buf w))).
Proof.
  intros I.
  assert (None_i : forall i, zp_var w i = None -> str (zpackets w) i = None) by (intros i Hi; rewrite str_packets; unfold zpacket_of; rewrite Hi; reflexivity).
  assert (User : forall k, zp_owned w k = false -> forall z, zvar (zp_buf w) k = Some z -> exists s, zbytes_of (zp_buf w) k = Some s /\ zp_user w k = Some s).
  { intros k O z V. destruct (zbytes_var _ _ _ (p_z _ _ I) V) as (s & Hs & _). exists s. unfold zp_user. rewrite O. auto. }
  assert (NoUser : forall k, zvar (zp_buf w) k = None -> zp_user w k = None).
  { intros k V. unfold zp_user, zbytes_of. rewrite V. destruct (zp_owned w k); reflexivity. }
  assert (Skip : forall o x, zpspec w x o (zpackets w) = zpackets w -> zp_extra o = length x -> zp_returned w x o w -> (forall zo, o = POnBuf zo -> existsb (zp_owned w) (zmentions zo) = false -> False) ->
     exists w' x, Done w = Done w' /\ pinv [] w' /\ length x = zp_extra o /\
      zpackets w' = zpspec w x o (zpackets w) /\ zp_returned w x o w' /\ (packet_statement o -> keeps_user w w') /\
      (forall zo, o = POnBuf zo -> existsb (zp_owned w) (zmentions zo) = false -> zp_bodies w' = zp_bodies w /\
         exists x, length x = extra_zlen zo /\ zabs (zp_buf w') = spec_zstep x zo (zabs (zp_buf w)))).
  { intros o' x Hx Lx Rx Nx. exists w, x. split; [reflexivity|]. split; [exact I|]. split; [auto|]. split; [auto|]. split; [exact Rx|].
    split; [intros; apply user_refl|]. intros zo -> M. destruct (Nx zo eq_refl M). }
  assert (Pack : forall o r A, packet_statement o -> zp_extra o = 0 -> (forall x w', zp_returned w x o w') -> done_with r A w -> (forall x, zpspec w x o (zpackets w) = A) ->
     exists w' x, r = Done w' /\ pinv [] w' /\ length x = zp_extra o /\
      zpackets w' = zpspec w x o (zpackets w) /\ zp_returned w x o w' /\ (packet_statement o -> keeps_user w w') /\
      (forall zo, o = POnBuf zo -> existsb (zp_owned w) (zmentions zo) = false -> zp_bodies w' = zp_bodies w /\
         exists x, length x = extra_zlen zo /\ zabs (zp_buf w') = spec_zstep x zo (zabs (zp_buf w)))).
  { intros o' r A Ps Ex Rt (w' & E & I' & K & U) Sp. exists w', []. split; [exact E|]. split; [exact I'|]. split; [auto|].
    split; [rewrite Sp; exact K|]. split; [apply Rt|]. split; [auto|]. intros zo ->. destruct Ps. }
  destruct o as [|k|i|i|i j|i j|i j|i|i n|i n|i k|i k|i n|i n|i j|i j|i st n|i|zo]; cbn [zp_bad_args zp_no_deep zp_sensible]; cbn [zpstep].
  - (* PNew *) intros _ _. eapply (Pack PNew); [exact Logic.I|reflexivity|exact (fun _ _ => Logic.I)|apply new_ok, I|reflexivity].
  - (* PFromBuf *) intros _ _. destruct (zp_owned w k) eqn:O.
    + apply (Skip (PFromBuf k) []); [|reflexivity|exact Logic.I|discriminate]. cbn. unfold zp_user. rewrite O. reflexivity.
    + destruct (zvar (zp_buf w) k) as [z|] eqn:V.
      * destruct (User k O z V) as (s & Hs & Hu). eapply (Pack (PFromBuf k)); [exact Logic.I|reflexivity|exact (fun _ _ => Logic.I)|apply (from_buf_ok junk w k s); auto|].
        intros x. cbn. rewrite Hu. reflexivity.
      * apply (Skip (PFromBuf k) []); [|reflexivity|exact Logic.I|discriminate]. cbn. rewrite (NoUser k V). reflexivity.
  - (* PCopy *) intros _ _. destruct (zp_var w i) as [p|] eqn:V.
    + destruct (shows_some _ _ _ _ I V) as [s Hs]. destruct (copy_ok w i p s I V Hs) as (w' & E & I' & K & U & _).
      eapply (Pack (PCopy i)); [exact Logic.I|reflexivity|exact (fun _ _ => Logic.I)|exists w'; auto|]. intros x. cbn. rewrite (str_var _ _ _ V), Hs, K. reflexivity.
    + apply (Skip (PCopy i) []); [|reflexivity|exact Logic.I|discriminate]. cbn. rewrite (None_i i V). reflexivity.
  - (* PMoveNew *) intros _ _. destruct (zp_var w i) as [p|] eqn:V.
    + destruct (shows_some _ _ _ _ I V) as [s Hs].
      eapply (Pack (PMoveNew i)); [exact Logic.I|reflexivity|exact (fun _ _ => Logic.I)|apply (move_new_ok w i p s); auto|]. intros x. cbn. rewrite (str_var _ _ _ V), Hs. reflexivity.
    + apply (Skip (PMoveNew i) []); [|reflexivity|exact Logic.I|discriminate]. cbn. rewrite (None_i i V). reflexivity.
  - (* PAssign *) intros _ _. destruct (zp_var w i) as [p|] eqn:V; [destruct (zp_var w j) as [q|] eqn:Vj|].
    + destruct (shows_some _ _ _ _ I V) as [s Hs]. destruct (shows_some _ _ _ _ I Vj) as [t Ht].
      eapply (Pack (PAssign i j)); [exact Logic.I|reflexivity|exact (fun _ _ => Logic.I)|apply (assign_ok junk w i j p q s t); auto|].
      intros x. cbn. rewrite (str_var _ _ _ V), (str_var _ _ _ Vj), Hs, Ht. reflexivity.
    + apply (Skip (PAssign i j) []); [|reflexivity|exact Logic.I|discriminate]. cbn. rewrite (None_i j Vj). destruct (str (zpackets w) i); reflexivity.
    + apply (Skip (PAssign i j) []); [|reflexivity|exact Logic.I|discriminate]. cbn. rewrite (None_i i V). reflexivity.
  - (* PMoveAssign *) intros _ _. destruct (zp_var w i) as [p|] eqn:V; [destruct (zp_var w j) as [q|] eqn:Vj|].
    + destruct (shows_some _ _ _ _ I V) as [s Hs]. destruct (shows_some _ _ _ _ I Vj) as [t Ht].
      eapply (Pack (PMoveAssign i j)); [exact Logic.I|reflexivity|exact (fun _ _ => Logic.I)|apply (move_assign_ok junk w i j p q s t); auto|].
      intros x. cbn. rewrite (str_var _ _ _ V), (str_var _ _ _ Vj), Hs, Ht. unfold zp_ref. rewrite V, Vj. reflexivity.
    + apply (Skip (PMoveAssign i j) []); [|reflexivity|exact Logic.I|discriminate]. cbn. rewrite (None_i j Vj). destruct (str (zpackets w) i); reflexivity.
    + apply (Skip (PMoveAssign i j) []); [|reflexivity|exact Logic.I|discriminate]. cbn. rewrite (None_i i V). reflexivity.
  - (* PSwap *) intros _ _. destruct (zp_var w i) as [p|] eqn:V; [destruct (zp_var w j) as [q|] eqn:Vj|].
    + destruct (shows_some _ _ _ _ I V) as [s Hs]. destruct (shows_some _ _ _ _ I Vj) as [t Ht].
      eapply (Pack (PSwap i j)); [exact Logic.I|reflexivity|exact (fun _ _ => Logic.I)|apply (swap_ok w i j p q s t); auto|].
      intros x. cbn. rewrite (str_var _ _ _ V), (str_var _ _ _ Vj), Hs, Ht. reflexivity.
    + apply (Skip (PSwap i j) []); [|reflexivity|exact Logic.I|discriminate]. cbn. rewrite (None_i j Vj). destruct (str (zpackets w) i); reflexivity.
    + apply (Skip (PSwap i j) []); [|reflexivity|exact Logic.I|discriminate]. cbn. rewrite (None_i i V). reflexivity.
  - (* PDestroy *) intros _ _. destruct (zp_var w i) as [p|] eqn:V.
    + destruct (shows_some _ _ _ _ I V) as [s Hs].
      eapply (Pack (PDestroy i)); [exact Logic.I|reflexivity|exact (fun _ _ => Logic.I)|apply (destroy_ok junk w i p); auto|]. intros x. cbn. rewrite (str_var _ _ _ V), Hs. reflexivity.
    + apply (Skip (PDestroy i) []); [|reflexivity|exact Logic.I|discriminate]. cbn. rewrite (None_i i V). reflexivity.
  - (* PAddHeader *) intros _ _. destruct (zp_var w i) as [p|] eqn:V.
    + destruct (shows_some _ _ _ _ I V) as [s Hs]. destruct (add_header_ok junk w i n p s I V Hs) as (x & w' & Lx & E & I' & K & U & La).
      exists w', x. split; [exact E|]. split; [exact I'|]. split; [exact Lx|].
      split; [cbn; rewrite (str_var _ _ _ V), Hs; exact K|]. split; [intros _; exact La|]. split; [auto|discriminate].
    + apply (Skip (PAddHeader i n) (repeat 0%N n)); [|symmetry; apply repeat_length|cbn; congruence|discriminate]. cbn. rewrite (None_i i V). reflexivity.
  - (* PAddTrailer *) intros _ _. destruct (zp_var w i) as [p|] eqn:V.
    + destruct (shows_some _ _ _ _ I V) as [s Hs]. destruct (add_trailer_ok junk w i n p s I V Hs) as (x & w' & Lx & E & I' & K & U & La).
      exists w', x. split; [exact E|]. split; [exact I'|]. split; [exact Lx|].
      split; [cbn; rewrite (str_var _ _ _ V), Hs; exact K|]. split; [intros _; exact La|]. split; [auto|discriminate].
    + apply (Skip (PAddTrailer i n) (repeat 0%N n)); [|symmetry; apply repeat_length|cbn; congruence|discriminate]. cbn. rewrite (None_i i V). reflexivity.
  - (* PAddHeaderBuf *) intros _ Nb. destruct (zp_var w i) as [p|] eqn:V.
    + destruct (shows_some _ _ _ _ I V) as [s Hs]. destruct (zp_owned w k) eqn:O.
      * apply (Skip (PAddHeaderBuf i k) []); [|reflexivity|exact Logic.I|discriminate]. cbn. rewrite (str_var _ _ _ V), Hs. unfold zp_user. rewrite O. reflexivity.
      * destruct (zvar (zp_buf w) k) as [z|] eqn:Vk.
        -- destruct (User k O z Vk) as (t & Ht & Hu). eapply (Pack (PAddHeaderBuf i k)); [exact Logic.I|reflexivity|exact (fun _ _ => Logic.I)| |].
           ++ unfold zp_add_header_buf. apply (add_buf_ok junk w i k p s t AddStartBuf); auto.
           ++ intros x. cbn. rewrite (str_var _ _ _ V), Hs, Hu. reflexivity.
        -- apply (Skip (PAddHeaderBuf i k) []); [|reflexivity|exact Logic.I|discriminate]. cbn. rewrite (str_var _ _ _ V), Hs, (NoUser k Vk). reflexivity.
    + apply (Skip (PAddHeaderBuf i k) []); [|reflexivity|exact Logic.I|discriminate]. cbn. rewrite (None_i i V). reflexivity.
  - (* PAddTrailerBuf *) intros _ Nb. destruct (zp_var w i) as [p|] eqn:V.
    + destruct (shows_some _ _ _ _ I V) as [s Hs]. destruct (zp_owned w k) eqn:O.
      * apply (Skip (PAddTrailerBuf i k) []); [|reflexivity|exact Logic.I|discriminate]. cbn. rewrite (str_var _ _ _ V), Hs. unfold zp_user. rewrite O. reflexivity.
      * destruct (zvar (zp_buf w) k) as [z|] eqn:Vk.
        -- destruct (User k O z Vk) as (t & Ht & Hu). eapply (Pack (PAddTrailerBuf i k)); [exact Logic.I|reflexivity|exact (fun _ _ => Logic.I)| |].
           ++ unfold zp_add_trailer_buf. apply (add_buf_ok junk w i k p s t AddEndBuf); auto.
           ++ intros x. cbn. rewrite (str_var _ _ _ V), Hs, Hu. reflexivity.
        -- apply (Skip (PAddTrailerBuf i k) []); [|reflexivity|exact Logic.I|discriminate]. cbn. rewrite (str_var _ _ _ V), Hs, (NoUser k Vk). reflexivity.
    + apply (Skip (PAddTrailerBuf i k) []); [|reflexivity|exact Logic.I|discriminate]. cbn. rewrite (None_i i V). reflexivity.
  - (* PRemHeader *) unfold zpacket_of. destruct (zp_var w i) as [p|] eqn:V.
    + destruct (shows_some _ _ _ _ I V) as [s Hs]. rewrite Hs. pose proof (rem_header_ok junk w i n p s I V Hs) as R.
      destruct (length s <? n); [exact R|]. destruct R as [R _]. intros _ _.
      eapply (Pack (PRemHeader i n)); [exact Logic.I|reflexivity|exact (fun _ _ => Logic.I)|exact R|]. intros x. cbn. rewrite (str_var _ _ _ V), Hs. reflexivity.
    + intros _ _. apply (Skip (PRemHeader i n) []); [|reflexivity|exact Logic.I|discriminate]. cbn. rewrite (None_i i V). reflexivity.
  - (* PRemTrailer *) unfold zpacket_of. destruct (zp_var w i) as [p|] eqn:V.
    + destruct (shows_some _ _ _ _ I V) as [s Hs]. rewrite Hs. pose proof (rem_trailer_ok junk w i n p s I V Hs) as R.
      destruct (length s <? n); [exact R|]. intros _ _.
      eapply (Pack (PRemTrailer i n)); [exact Logic.I|reflexivity|exact (fun _ _ => Logic.I)|exact R|]. intros x. cbn. rewrite (str_var _ _ _ V), Hs. reflexivity.
    + intros _ _. apply (Skip (PRemTrailer i n) []); [|reflexivity|exact Logic.I|discriminate]. cbn. rewrite (None_i i V). reflexivity.
  - (* PAddHeaderPkt *) intros _ Nb. destruct (zp_var w i) as [p|] eqn:V; [destruct (zp_var w j) as [q|] eqn:Vj|].
    + destruct (shows_some _ _ _ _ I V) as [s Hs]. destruct (shows_some _ _ _ _ I Vj) as [t Ht].
      eapply (Pack (PAddHeaderPkt i j)); [exact Logic.I|reflexivity|exact (fun _ _ => Logic.I)|apply (add_pkt_ok junk w i j p q s t AddStartBuf (t ++ s)); auto|].
      intros x. cbn. rewrite (str_var _ _ _ V), (str_var _ _ _ Vj), Hs, Ht. reflexivity.
    + apply (Skip (PAddHeaderPkt i j) []); [|reflexivity|exact Logic.I|discriminate]. cbn. rewrite (None_i j Vj). destruct (str (zpackets w) i); reflexivity.
    + apply (Skip (PAddHeaderPkt i j) []); [|reflexivity|exact Logic.I|discriminate]. cbn. rewrite (None_i i V). reflexivity.
  - (* PAddTrailerPkt *) intros _ Nb. destruct (zp_var w i) as [p|] eqn:V; [destruct (zp_var w j) as [q|] eqn:Vj|].
    + destruct (shows_some _ _ _ _ I V) as [s Hs]. destruct (shows_some _ _ _ _ I Vj) as [t Ht].
      eapply (Pack (PAddTrailerPkt i j)); [exact Logic.I|reflexivity|exact (fun _ _ => Logic.I)|apply (add_pkt_ok junk w i j p q s t AddEndBuf (s ++ t)); auto|].
      intros x. cbn. rewrite (str_var _ _ _ V), (str_var _ _ _ Vj), Hs, Ht. reflexivity.
    + apply (Skip (PAddTrailerPkt i j) []); [|reflexivity|exact Logic.I|discriminate]. cbn. rewrite (None_i j Vj). destruct (str (zpackets w) i); reflexivity.
    + apply (Skip (PAddTrailerPkt i j) []); [|reflexivity|exact Logic.I|discriminate]. cbn. rewrite (None_i i V). reflexivity.
  - (* PMakeFrag *) unfold zpacket_of. destruct (zp_var w i) as [p|] eqn:V.
    + destruct (shows_some _ _ _ _ I V) as [s Hs]. rewrite Hs. pose proof (fragment_ok junk w i p s st n I V Hs) as R.
      destruct (length s <? st + n); [exact R|]. intros _ _.
      eapply (Pack (PMakeFrag i st n)); [exact Logic.I|reflexivity|exact (fun _ _ => Logic.I)|exact R|]. intros x. cbn. rewrite (str_var _ _ _ V), Hs. reflexivity.
    + intros _ _. apply (Skip (PMakeFrag i st n) []); [|reflexivity|exact Logic.I|discriminate]. cbn. rewrite (None_i i V). reflexivity.
  - (* PGetBuffer *) intros _ _. destruct (zp_var w i) as [p|] eqn:V.
    + destruct (shows_some _ _ _ _ I V) as [s Hs]. destruct (get_buffer_ok junk w i p s I V Hs) as (w' & E & I' & K & U & La).
      exists w', []. split; [exact E|]. split; [exact I'|]. split; [reflexivity|]. split; [exact K|].
      split; [|split; [auto|discriminate]]. cbn. unfold zpacket_of. rewrite V, Hs. intros t Ht. injection Ht as <-. exact La.
    + apply (Skip (PGetBuffer i) []); [reflexivity|reflexivity| |discriminate]. cbn. unfold zpacket_of. rewrite V. discriminate.
  - (* POnBuf *) destruct (existsb (zp_owned w) (zmentions zo)) eqn:M.
    + intros _ _. apply (Skip (POnBuf zo) []); [reflexivity|reflexivity|exact Logic.I|]. intros zo' E. injection E as <-. congruence.
    + destruct (zbad_args zo (zp_buf w)) eqn:Bd.
      * unfold zp_on. destruct (zstep_main junk zo (zp_buf w) (p_z _ _ I)) as [[_ E]|[C _]]; [rewrite E; reflexivity|congruence].
      * intros D [Se Al]. destruct (on_buf_ok junk w zo I M Bd D Se Al) as (w' & x & E & I' & K & Ey & Ev & Lx & Ab).
        exists w', []. split; [exact E|]. split; [exact I'|]. split; [reflexivity|]. split; [exact K|]. split; [exact Logic.I|].
        split; [intros []|]. intros zo' Ez _. injection Ez as <-. split; [exact Ey|]. exists x. auto.
Qed.

Lemma zp_init_ok : pinv [] zpinit.
Proof.
  split; unfold live; cbn.
  - apply zinit_inv.
  - apply zinit_safe.
  - intros [|a] y H; discriminate.
  - intros [|a] b y z H; discriminate.
  - intros [|a] y H; discriminate.
  - intros a H. unfold refs in H. cbn in H. lia.
Qed.
Lemma zp_steps_ok junk l : forall w w', pinv [] w -> zp_cleanly junk l w -> zpsteps junk l w = Done w' -> pinv [] w'.
Proof.
  induction l as [|o l IH]; intros w w' I C E; cbn [zpsteps zp_cleanly] in *; [injection E as <-; exact I|].
  destruct C as (D & Se & C). pose proof (zp_step_ok junk o w I) as H. destruct (zp_bad_args o w); [rewrite H in E; discriminate|].
  destruct (H D Se) as (w1 & x & E1 & I1 & _). rewrite E1 in E, C. cbn [obind] in E. exact (IH w1 w' I1 C E).
Qed.
