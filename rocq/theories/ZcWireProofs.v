(** Lemmas about messages in zero-compressed buffers and packets over them. *)
From Verif Require Import Base BaseProofs BufferIter BufferIterSpec BufferIterProofs ZcIter ZcIterSpec ZcIterProofs Address AddressSpec Message MessageSpec MessageProofs MessageProps.
From Verif Require Import Buffer BufferSpec BufferProofs ZcBuffer ZcBufferSpec ZcBufferProofs ZcPacket ZcPacketSpec ZcPacketProofs ZcPacketSteps ZcFillSpec ZcFillProofs.
From Verif Require Import WireSpec ZcWire ZcWireSpec.
From Verif Require WireProofs PacketSpec.
From Coq Require Import ZifyBool ZifyNat ZifyN.

(** ** A message is written in pieces *)

Definition chunks (host : endian) (o : order) (f : field) : list (list N) :=
  match f with
  | FNums k vs => map (fun v => layout o host (width k) (pattern (width k) v)) vs
  | _ => [encode host o f]
  end.
Definition chunked (host : endian) (m : list (order * field)) : list (list N) :=
  flat_map (fun p => chunks host (fst p) (snd p)) m.
Fixpoint zi_stores (ps : list (list N)) (mem : list N) (it : ziter) : outcome (list N * ziter) :=
  match ps with [] => Done (mem, it) | b :: r => let! (mem, it) := zi_store b mem it in zi_stores r mem it end.

Lemma chunks_encode host o f : concat (chunks host o f) = encode host o f.
Proof. destruct f; cbn [chunks concat]; try apply app_nil_r. cbn [encode]. rewrite flat_map_concat_map. reflexivity. Qed.
Lemma chunked_message host m : concat (chunked host m) = message host m.
Proof.
  unfold chunked, message. induction m as [|p m IH]; [reflexivity|]. cbn [flat_map]. rewrite concat_app, IH, chunks_encode. reflexivity.
Qed.
Lemma stores_app p q : forall mem it, zi_stores (p ++ q) mem it = let! (mem, it) := zi_stores p mem it in zi_stores q mem it.
Proof.
  induction p as [|b p IH]; intros mem it; cbn [zi_stores app]; [reflexivity|]. destruct (zi_store b mem it) as [[mem1 it1]| | |]; cbn [obind]; auto.
Qed.
Lemma one_store b mem it : zi_stores [b] mem it = zi_store b mem it.
Proof. cbn [zi_stores]. destruct (zi_store b mem it) as [[mem1 it1]| | |]; reflexivity. Qed.
Lemma write_num_store host o k v mem it :
  write_num ziter (zi_write_int host) o k v mem it = zi_store (layout o host (width k) (pattern (width k) v)) mem it.
Proof. unfold write_num. rewrite zi_write_int_store. reflexivity. Qed.
Lemma write_nums_store host o k vs : forall mem it,
  write_nums ziter (zi_write_int host) o k vs mem it = zi_stores (map (fun v => layout o host (width k) (pattern (width k) v)) vs) mem it.
Proof.
  induction vs as [|v vs IH]; intros mem it; cbn [write_nums map zi_stores]; [reflexivity|]. rewrite write_num_store.
  destruct (zi_store _ mem it) as [[mem1 it1]| | |]; cbn [obind]; auto.
Qed.
Lemma write_field_store host o f mem it : field_ok host f ->
  write_field ziter (zi_write_int host) (zi_write_bytes host) o f mem it = zi_stores (chunks host o f) mem it.
Proof.
  intros H. destruct f as [k v|k vs|c|c|bits a]; cbn [write_field chunks].
  - rewrite one_store. apply write_num_store.
  - apply write_nums_store.
  - rewrite one_store. apply write_num_store.
  - rewrite one_store. apply write_num_store.
  - rewrite one_store. destruct H as (-> & Hb & _ & Ha). unfold zi_write_bytes. rewrite address_bytes by auto.
    cbn [encode]. rewrite <- keep_mem_bytes. reflexivity.
Qed.
Lemma write_zc_stores host m : message_ok host m -> forall mem it, write_zc host m mem it = zi_stores (chunked host m) mem it.
Proof.
  unfold write_zc. induction 1 as [|[o f] m Hf Hm IH]; intros mem it; cbn [write_all]; [reflexivity|].
  unfold chunked. cbn [flat_map fst snd]. rewrite stores_app, <- write_field_store by exact Hf.
  destruct (write_field ziter (zi_write_int host) (zi_write_bytes host) o f mem it) as [[mem1 it1]| | |]; cbn [obind]; auto.
Qed.

Definition short (b : list N) : Prop := (N.of_nat (length b) < 2 ^ 63)%N.
Lemma chunked_short host m : message_ok host m -> Forall short (chunked host m).
Proof.
  unfold chunked. induction 1 as [|[o f] m Hf Hm IH]; [constructor|]. cbn [flat_map fst snd]. apply Forall_app. split; [|exact IH].
  assert (W : forall n v, In n [1; 2; 4; 8] -> short (layout o host n v)).
  { intros n v Hn. unfold short. rewrite layout_length. apply small_width in Hn. apply Hn. }
  cbn [snd] in Hf. destruct f as [k v|k vs|c|c|bits a]; cbn [chunks encode].
  - repeat constructor. apply W, Hf.
  - destruct Hf as [Hk _]. apply Forall_map. apply Forall_forall. intros v _. apply W, Hk.
  - repeat constructor. apply W. cbn. auto.
  - repeat constructor. apply W. cbn. auto.
  - repeat constructor. unfold short. rewrite layout_length. destruct Hf as (_ & Hb & Hs & _).
    assert ((bits + 7) / 8 <= bits) by (apply Nat.div_le_upper_bound; lia).
    change (2 ^ 60)%N with 1152921504606846976%N in Hs. change (2 ^ 63)%N with 9223372036854775808%N. lia.
Qed.

(** ** Writing the pieces *)

(** The heap where the storage of a buffer has other bytes. *)
Definition zput (h : heap) (z : zbuf) (m : list N) : heap :=
  match z_st z with
  | None => h
  | Some a => match nth_error h a with Some (Some s) => put h a (set_bytes s m) | _ => h end
  end.
Lemma zput_own h z m : z_memory h z = Done m -> zput h z m = h.
Proof.
  unfold z_memory, zput, get, put. destruct (z_st z) as [a|]; [|reflexivity].
  destruct (nth_error h a) as [[s|]|] eqn:E; cbn [obind]; try discriminate. intros [= <-].
  rewrite upd_same; [reflexivity|]. rewrite E. destruct s; reflexivity.
Qed.
Lemma zput_twice h z m m' : zput (zput h z m) z m' = zput h z m'.
Proof.
  unfold zput, put. destruct (z_st z) as [a|]; [|reflexivity]. destruct (nth_error h a) as [[s|]|] eqn:E.
  - rewrite nth_upd_eq by (eapply nth_lt, E). assert (U : forall (x y : option storage), upd (upd h a x) a y = upd h a y).
    { intros x y. clear E. revert a. induction h as [|c h IH]; intros [|a]; cbn; auto. f_equal. apply IH. }
    rewrite U. destruct s; reflexivity.
  - rewrite E. reflexivity.
  - rewrite E. reflexivity.
Qed.
Lemma z_write_put off bs h z h' m : z_write off bs h z = Done h' -> z_memory h z = Done m -> exists m', h' = zput h z m' /\ length m' = length m.
Proof.
  intros E M. unfold z_write in E. destruct (_ <? _); [discriminate|]. destruct (_ || _); [discriminate|].
  destruct (_ && _); [discriminate|]. destruct (_ =? _).
  - injection E as <-. exists m. split; [symmetry; apply zput_own, M|reflexivity].
  - unfold z_store in E. unfold z_memory in M. unfold zput. destruct (z_st z) as [a|]; [|discriminate]. unfold store_at, get in *.
    destruct (nth_error h a) as [[s|]|]; cbn [obind] in *; try discriminate. injection M as <-.
    destruct (mem_store _ _ bs) as [m'|] eqn:Em; [|discriminate]. injection E as <-. exists m'. split; [reflexivity|].
    apply mem_store_length in Em. exact Em.
Qed.
Lemma zput_holds h z m m' : z_memory h z = Done m -> length m' = length m -> holds h (phys z) -> holds (zput h z m') (phys z).
Proof.
  intros M L H. unfold zput, z_memory, get in *. destruct (z_st z) as [a|]; [|exact H].
  destruct (nth_error h a) as [[s|]|] eqn:E; cbn [obind] in *; try discriminate. injection M as <-.
  eapply put_holds; [exact E| |exact H]. exact L.
Qed.

Definition with_heap (w : zpworld) (h : heap) : zpworld := mk_zp (mk_zworld h (zw_bufs (zp_buf w))) (zp_bodies w) (zp_vars w).
Lemma with_own w : with_heap w (zw_heap (zp_buf w)) = w.
Proof. destruct w as [[h b] y v]. reflexivity. Qed.

Lemma write_step junk w k z off bs : zp_owned w k = false -> zvar (zp_buf w) k = Some z ->
  zpstep junk (POnBuf (ZBase (Write k off bs))) w = let! h := z_write off bs (zw_heap (zp_buf w)) z in Done (with_heap w h).
Proof.
  intros O V. cbn [zpstep zmentions existsb]. rewrite O. cbn [orb]. unfold zp_on. cbn [zstep]. rewrite V.
  destruct (z_write off bs (zw_heap (zp_buf w)) z) as [h| | |]; cbn [obind]; try reflexivity. rewrite (zset_same _ _ _ _ V). reflexivity.
Qed.

Lemma writes_stores junk k z ps : Forall short ps -> zok z -> (N.of_nat (z_end z) < 2 ^ 63)%N -> forall w off m,
  zp_owned w k = false -> zvar (zp_buf w) k = Some z -> holds (zw_heap (zp_buf w)) (phys z) -> z_memory (zw_heap (zp_buf w)) z = Done m -> off <= z_size z ->
  match zpsteps junk (zp_writes k (placed off ps)) w with
  | Done w' => exists m', w' = with_heap w (zput (zw_heap (zp_buf w)) z m') /\
      zi_stores ps m (z_iter z (z_start z + off)) = Done (m', z_iter z (z_start z + off + length (concat ps)))
  | AssertFail => zi_stores ps m (z_iter z (z_start z + off)) = AssertFail
  | _ => False
  end.
Proof.
  intros Hs Hz Hb. induction Hs as [|b ps Sb Hs IH]; intros w off m O V Hh M Ho.
  - cbn. exists m. rewrite (zput_own _ _ _ M), with_own, Nat.add_0_r. auto.
  - cbn [placed zp_writes map zpsteps fst snd zi_stores concat]. rewrite (write_step _ _ _ _ _ _ O V).
    pose proof (z_write_iter off b (zw_heap (zp_buf w)) z m Hz Hh M Hb Ho Sb) as W.
    destruct (z_write off b (zw_heap (zp_buf w)) z) as [h'| | |] eqn:E; cbn [obind]; try contradiction.
    2: { rewrite W. reflexivity. }
    destruct W as (m1 & M1 & St). rewrite St. cbn [obind].
    destruct (z_write_put _ _ _ _ _ _ E M) as (m1' & Eh & L1).
    assert (Em : m1' = m1).
    { subst h'. unfold z_memory, zput, get, put in *. destruct (z_st z) as [a|].
      - destruct (nth_error (zw_heap (zp_buf w)) a) as [[s|]|] eqn:Ea; cbn [obind] in *; try discriminate.
        rewrite nth_upd_eq in M1 by (eapply nth_lt, Ea). cbn [obind] in M1. injection M1 as <-. reflexivity.
      - injection M as <-. injection M1 as <-. destruct m1'; [reflexivity|discriminate]. }
    subst m1'.
    assert (Ho' : off + length b <= z_size z).
    { unfold z_write in E. destruct (Nat.ltb_spec (z_end z) (z_start z + off + length b)); [discriminate|]. unfold z_size. destruct Hz as (Z1 & Z2 & Z3). lia. }
    assert (O' : zp_owned (with_heap w h') k = false) by exact O.
    assert (V' : zvar (zp_buf (with_heap w h')) k = Some z) by exact V.
    assert (Hh' : holds (zw_heap (zp_buf (with_heap w h'))) (phys z)) by (cbn; rewrite Eh; eapply zput_holds; eauto).
    specialize (IH (with_heap w h') (off + length b) m1 O' V' Hh' M1 Ho'). unfold zp_writes in IH.
    rewrite <- Nat.add_assoc. destruct (zpsteps junk _ (with_heap w h')) as [w'| | |]; try contradiction; [|exact IH].
    destruct IH as (m' & -> & St'). exists m'. split.
    + unfold with_heap. cbn [zp_buf zw_heap zw_bufs zp_bodies zp_vars]. rewrite Eh, zput_twice. reflexivity.
    + rewrite St', app_length. do 3 f_equal. lia.
Qed.

(** ** Messages *)

Lemma user_var w k s : pinv [] w -> zp_user w k = Some s -> exists z, zp_owned w k = false /\ zvar (zp_buf w) k = Some z /\ zok z /\
  holds (zw_heap (zp_buf w)) (phys z) /\ length s = z_size z /\ s = zdata (zw_heap (zp_buf w)) z.
Proof.
  intros I U. unfold zp_user in U. destruct (zp_owned w k); [discriminate|]. destruct (zvar (zp_buf w) k) as [z|] eqn:V.
  2: { unfold zbytes_of in U. rewrite V in U. discriminate. }
  rewrite (zbytes_data _ _ _ (p_z _ _ I) V) in U. injection U as <-. exists z. pose proof (proj1 (zvar_some _ _ _) V) as Vn.
  assert (Hz : zok z) by (eapply (zi_zok _ (p_z _ _ I)), Vn). assert (Hh : holds (zw_heap (zp_buf w)) (phys z)) by (eapply zworld_holds; [apply (p_z _ _ I)|exact Vn]).
  split; [reflexivity|]. split; [reflexivity|]. split; [exact Hz|]. split; [exact Hh|]. split; [apply zdata_length; auto|reflexivity].
Qed.
Lemma begin_forward h z m off : zok z -> holds h (phys z) -> z_memory h z = Done m -> (N.of_nat (z_end z) < 2 ^ 63)%N -> (N.of_nat off < 2 ^ 63)%N ->
  zi_forward (z_begin z) (N.of_nat off) = if off <=? z_size z then Done (z_iter z (z_start z + off)) else AssertFail.
Proof.
  intros Hz Hh Em Hb Ho. destruct (ziter_of_ok _ z m 0 Hz Hh Em Hb ltac:(lia)) as [O0 [S0 [P0 _]]]. rewrite Nat.add_0_r in *.
  unfold z_begin. rewrite (zi_forward_eq m _ off O0) by auto. rewrite S0, P0, (zdata_length _ _ Hz Hh). cbn [Nat.add].
  destruct (off <=? z_size z); [|reflexivity]. unfold zi_set, z_iter. cbn [zi_start zi_zs zi_ze zi_end zi_cursor]. do 2 f_equal. lia.
Qed.

(** Writing a message is writing its pieces. *)
Lemma zp_write_ok junk host off m k w t : pinv [] w -> zsmall (zp_buf w) -> message_ok host m -> (N.of_nat off < 2 ^ 63)%N -> zp_user w k = Some t ->
  if off <=? length t
  then match zpsteps junk (zp_writes k (placed off (chunked host m))) w with
       | Done w' => exists it, zp_write host off m k w = Done (w', it)
       | AssertFail => zp_write host off m k w = AssertFail
       | _ => False
       end
  else zp_write host off m k w = AssertFail.
Proof.
  intros I S Hm Ho U. destruct (user_var _ _ _ I U) as (z & O & V & Hz & Hh & L & _).
  destruct (zmem_data (zw_heap (zp_buf w)) z Hz Hh) as (mem & M & _). pose proof (S _ _ V) as Hb.
  unfold zp_write, zwrite_message. rewrite O, V, M. cbn [obind]. rewrite (begin_forward _ _ _ _ Hz Hh M Hb Ho), L.
  destruct (Nat.leb_spec off (z_size z)) as [Le|Le]; cbn [obind]; [|reflexivity]. rewrite (write_zc_stores host m Hm).
  pose proof (writes_stores junk k z (chunked host m) (chunked_short host m Hm) Hz Hb w off mem O V Hh M Le) as W.
  destruct (zpsteps junk _ w) as [w'| | |]; try contradiction.
  - destruct W as (m' & -> & St). rewrite St. cbn [obind]. unfold zput. unfold z_memory, get in M.
    destruct (z_st z) as [a|].
    + unfold get. destruct (nth_error (zw_heap (zp_buf w)) a) as [[s|]|]; cbn [obind] in *; try discriminate. eexists. reflexivity.
    + cbn [obind]. eexists. unfold with_heap. destruct w as [[h b] y v]. reflexivity.
  - rewrite W. reflexivity.
Qed.

(** Reading finds what the buffer shows. *)
Lemma zp_read_ok host off m s k w bs : pinv [] w -> zsmall (zp_buf w) -> message_ok host m -> readable_as m s -> zp_user w k = Some bs ->
  off + length (message host m) <= length bs -> at_offset off (message host m) bs ->
  exists it, zp_read host off s k w = Done (map snd m, it).
Proof.
  intros I S Hm Hs U L A. destruct (user_var _ _ _ I U) as (z & O & V & Hz & Hh & Lz & Eb).
  destruct (zmem_data (zw_heap (zp_buf w)) z Hz Hh) as (mem & M & _). pose proof (S _ _ V) as Hb.
  unfold zp_read, zread_message. rewrite O, V, M. cbn [obind].
  assert (Ho : off <= z_size z) by lia. assert (Ho' : (N.of_nat off < 2 ^ 63)%N) by (unfold z_size in *; lia).
  rewrite (begin_forward _ _ _ _ Hz Hh M Hb Ho'). destruct (Nat.leb_spec off (z_size z)); [|lia]. cbn [obind].
  destruct (ziter_of_ok _ z mem off Hz Hh M Hb Ho) as (Ok & Es & Ep & _). eexists. apply C81_zc_read; auto.
  - rewrite Es, Ep, <- Eb. exact L.
  - rewrite Es, Ep, <- Eb. unfold slice, at_offset in *. replace (off + length (message host m) - off) with (length (message host m)) by lia. exact A.
Qed.

Lemma placed_over fs : forall off (x : list N), off + length (concat fs) <= length x -> fill (placed off fs) x = PacketSpec.overwrite off (concat fs) x.
Proof.
  induction fs as [|f fs IH]; intros off x L; cbn [placed concat] in *.
  - cbn. unfold PacketSpec.overwrite. cbn [app length]. rewrite Nat.add_0_r, firstn_skipn. reflexivity.
  - rewrite app_length in L. unfold PacketSpec.fill. cbn [fold_left fst snd]. fold (fill (placed (off + length f) fs) (PacketSpec.overwrite off f x)).
    rewrite IH by (rewrite WireProofs.overwrite_len; lia). unfold PacketSpec.overwrite. rewrite app_length.
    assert (La : length (firstn off x ++ f) = off + length f) by (rewrite app_length, firstn_length; lia).
    rewrite !app_assoc. rewrite firstn_app, firstn_all2 by lia. rewrite La, Nat.sub_diag. cbn [firstn]. rewrite app_nil_r.
    rewrite skipn_app, (skipn_all2 (firstn off x ++ f)) by lia. rewrite La. cbn [app]. rewrite skipn_skipn'. rewrite <- !app_assoc. do 4 f_equal. lia.
Qed.
Lemma placed_outside fs : forall off n, off <= n -> n < off + length (concat fs) -> ~ inside n (placed off fs).
Proof.
  induction fs as [|f fs IH]; intros off n H1 H2; cbn [placed concat] in *; [cbn in H2; lia|]. rewrite app_length in H2.
  intros F. inversion F as [|u r F1 F2]; subst. cbn [fst snd] in F1. eapply (IH (off + length f) n); eauto; lia.
Qed.

(** ** Layers *)

Lemma fits_size host o f s : fits f s -> length (encode host o f) = shape_size s.
Proof.
  destruct f as [k v|k vs|c|c|bits a], s as [k'|k' n| | |bits' old]; cbn [fits encode shape_size]; try contradiction.
  - intros ->. apply layout_length.
  - intros [-> <-]. induction vs as [|v vs IH]; cbn [flat_map length]; [reflexivity|]. rewrite app_length, layout_length, IH. reflexivity.
  - intros _. apply layout_length.
  - intros _. apply layout_length.
  - intros [-> _]. apply layout_length.
Qed.
Lemma readable_size host m s : readable_as m s -> length (message host m) = shapes_size s.
Proof.
  unfold message, shapes_size. induction 1 as [|[o f] [o' t] m s [_ Hf] _ IH]; [reflexivity|]. cbn [flat_map map list_sum fold_right fst snd] in *.
  rewrite app_length, (fits_size _ _ _ _ Hf). change (fold_right Init.Nat.add 0) with list_sum. lia.
Qed.

Lemma filled_write junk host o off m w w1 w2 t : pinv [] w1 -> zsmall (zp_buf w1) -> message_ok host m -> (N.of_nat off < 2 ^ 63)%N ->
  zpstep junk o w = Done w1 -> zp_last w1 = Some t -> off <= length t ->
  zp_filled junk o (placed off (chunked host m)) w = Done w2 -> exists it, zp_write host off m (zp_got w1) w1 = Done (w2, it).
Proof.
  intros I1 S Hm Ho E1 La L E. pose proof (zp_write_ok junk host off m (zp_got w1) w1 t I1 S Hm Ho La) as W.
  destruct (Nat.leb_spec off (length t)); [|lia]. unfold zp_filled in E. rewrite E1 in E. cbn [obind] in E. rewrite E in W. exact W.
Qed.
Lemma filled_write_fails junk host o off m w w1 t : pinv [] w1 -> zsmall (zp_buf w1) -> message_ok host m -> (N.of_nat off < 2 ^ 63)%N ->
  zpstep junk o w = Done w1 -> zp_last w1 = Some t -> (off <= length t -> zp_filled junk o (placed off (chunked host m)) w = AssertFail) ->
  zp_write host off m (zp_got w1) w1 = AssertFail.
Proof.
  intros I1 S Hm Ho E1 La E. pose proof (zp_write_ok junk host off m (zp_got w1) w1 t I1 S Hm Ho La) as W.
  destruct (Nat.leb_spec off (length t)) as [L|L]; [|exact W]. specialize (E L). unfold zp_filled in E. rewrite E1 in E. cbn [obind] in E. rewrite E in W. exact W.
Qed.
(** The state after making room. *)
Lemma room_ok junk w i n s o w1 : zp_reached junk w -> zpacket_of w i = Some s -> o = PAddHeader i n \/ o = PAddTrailer i n -> zpstep junk o w = Done w1 ->
  pinv [] w1 /\ exists t, zp_last w1 = Some t /\ length t = n.
Proof.
  intros R Ps Ho E. pose proof (reached_ok _ _ R) as I. destruct (packet_var _ _ _ Ps) as (p & V & _).
  assert (R1 : zp_reached junk w1) by (eapply reached_step; [exact R| | |exact E]; destruct Ho as [-> | ->]; exact Logic.I).
  split; [exact (reached_ok _ _ R1)|]. pose proof (zp_step_ok junk o w I) as H.
  destruct (zp_bad_args o w) eqn:B; [destruct Ho as [-> | ->]; discriminate|].
  destruct H as (w1' & x & E' & _ & Lx & _ & Rt & _); [destruct Ho as [-> | ->]; exact Logic.I|destruct Ho as [-> | ->]; exact Logic.I|].
  assert (w1' = w1) by congruence. subst w1'. exists x. destruct Ho as [-> | ->]; cbn [zp_returned zp_extra] in *; (split; [apply Rt; congruence|exact Lx]).
Qed.

Lemma room_write junk w i n s o w1 hs off m : zp_reached junk w -> zpacket_of w i = Some s -> o = PAddHeader i n \/ o = PAddTrailer i n -> zpstep junk o w = Done w1 ->
  zsmall (zp_buf w1) -> message_ok hs m -> (N.of_nat off < 2 ^ 63)%N ->
  if off + length (message hs m) <=? n
  then exists w2 it x, zp_write hs off m (zp_got w1) w1 = Done (w2, it) /\ zp_reached junk w2 /\
    length x = n /\ at_offset off (message hs m) x /\
    zpackets w2 = upd (zpackets w) i (Some (match o with PAddHeader _ _ => x ++ s | _ => s ++ x end)) /\ zp_last w2 = Some x /\
    (forall k t, zp_user w k = Some t -> zp_user w2 k = Some t)
  else zp_write hs off m (zp_got w1) w1 = AssertFail.
Proof.
  intros R Ps Ho E1 S Hm Hoff. pose proof (reached_ok _ _ R) as I. destruct (room_ok junk w i n s o w1 R Ps Ho E1) as (I1 & t & La & Lt).
  pose proof (chunked_message hs m) as Cm. destruct (packet_var _ _ _ Ps) as (p & V & _). rewrite <- Cm in *.
  destruct (Nat.leb_spec (off + length (concat (chunked hs m))) n) as [L|L].
  - pose proof (placed_inside (chunked hs m) off n L) as Hw.
    assert (G : exists w2 x, zp_filled junk o (placed off (chunked hs m)) w = Done w2 /\ zp_reached junk w2 /\ length x = n /\
      zpackets w2 = upd (zpackets w) i (Some (match o with PAddHeader _ _ => fill (placed off (chunked hs m)) x ++ s | _ => s ++ fill (placed off (chunked hs m)) x end)) /\
      zp_last w2 = Some (fill (placed off (chunked hs m)) x) /\ (forall k t, zp_user w k = Some t -> zp_user w2 k = Some t)).
    { destruct Ho as [-> | ->].
      - destruct (fill_header_ok junk w i n _ s I Ps Hw) as (w2 & x & E & _ & Lx & K). exists w2, x. split; [exact E|]. split; [|auto].
        eapply reached_header; [exact R| |exact E]. congruence.
      - destruct (fill_trailer_ok junk w i n _ s I Ps Hw) as (w2 & x & E & _ & Lx & K). exists w2, x. split; [exact E|]. split; [|auto].
        eapply reached_trailer; [exact R| |exact E]. congruence. }
    destruct G as (w2 & x & E & R2 & Lx & Ep & El & K). rewrite (placed_over _ _ x) in Ep, El by lia.
    destruct (filled_write junk hs o off m w w1 w2 t I1 S Hm Hoff E1 La ltac:(lia) E) as [it W].
    exists w2, it, (PacketSpec.overwrite off (concat (chunked hs m)) x). split; [exact W|]. split; [exact R2|].
    split; [rewrite WireProofs.overwrite_len; lia|]. split; [apply WireProofs.overwrite_at; lia|]. auto.
  - apply (filled_write_fails junk hs o off m w w1 t I1 S Hm Hoff E1 La). intros Lo.
    apply (fill_outside junk w i n _ s o I Ps Ho). apply placed_outside; lia.
Qed.

Lemma get_read junk w i bs w1 hs hr off m s : zp_reached junk w -> zpacket_of w i = Some bs -> zpstep junk (PGetBuffer i) w = Done w1 -> zsmall (zp_buf w1) ->
  message_ok hr m -> understood hs hr m -> readable_as m s -> off + length (message hs m) <= length bs -> at_offset off (message hs m) bs ->
  zp_reached junk w1 /\ zpackets w1 = zpackets w /\ exists it, zp_read hr off s (zp_got w1) w1 = Done (map snd m, it).
Proof.
  intros R Ps E S Hm Un Hs L A. pose proof (reached_ok _ _ R) as I. pose proof (zp_step_ok junk (PGetBuffer i) w I) as H.
  assert (B : zp_bad_args (PGetBuffer i) w = false) by reflexivity. rewrite B in H.
  destruct (H Logic.I Logic.I) as (w1' & x & E' & I1 & _ & Ep & Rt & _). assert (w1' = w1) by congruence. subst w1'.
  split; [eapply reached_step; [exact R| | |exact E]; exact Logic.I|]. split; [exact Ep|]. cbn [zp_returned] in Rt. specialize (Rt _ Ps).
  rewrite <- (WireProofs.understood_same _ _ _ Un) in L, A. eapply zp_read_ok; eauto.
Qed.
