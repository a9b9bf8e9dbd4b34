(** Lemmas about messages. *)
From Verif Require Import Base BaseProofs BufferIter BufferIterSpec BufferIterProofs ZcIter ZcIterSpec ZcIterProofs
  Address AddressSpec AddressProofs AddressByteProofs Message MessageSpec.
From Coq Require Import ZifyBool ZifyNat ZifyN.

(** ** Numbers *)

Lemma pattern_lt n v : (pattern n v < 2 ^ (8 * N.of_nat n))%N.
Proof.
  unfold pattern. assert (H : (0 < 2 ^ (8 * Z.of_nat n))%Z) by (apply Z.pow_pos_nonneg; lia).
  pose proof (Z.mod_pos_bound v _ H) as B.
  apply N2Z.inj_lt. rewrite Z2N.id by lia. rewrite N2Z.inj_pow, N2Z.inj_mul, nat_N_Z. apply B.
Qed.

Lemma of_bits_pattern k v : in_range k v -> of_bits k (pattern (width k) v) = v.
Proof.
  intros [Hw H]. unfold pattern. destruct k as [n|n]; cbn [width of_bits] in *.
  - rewrite Z.mod_small by exact H. lia.
  - assert (E : (2 ^ (8 * Z.of_nat n) = 2 * 2 ^ (8 * Z.of_nat n - 1))%Z).
    { rewrite <- (Z.pow_succ_r 2 (8 * Z.of_nat n - 1)); [f_equal; lia|]. destruct Hw as [<-|[<-|[<-|[<-|[]]]]]; lia. }
    rewrite E in *. set (h := (2 ^ (8 * Z.of_nat n - 1))%Z) in *.
    destruct (Z.ltb_spec v 0) as [Hn|Hn].
    + replace (v mod (2 * h))%Z with (v + 2 * h)%Z.
      * destruct (Z.ltb_spec (Z.of_N (Z.to_N (v + 2 * h))) h); lia.
      * apply (Z.mod_unique_pos v (2 * h) (-1)); lia.
    + rewrite Z.mod_small by lia. destruct (Z.ltb_spec (Z.of_N (Z.to_N v)) h); lia.
Qed.

Lemma count_range c : (- 2 ^ 63 <= c < 2 ^ 63)%Z -> in_range count_t c.
Proof. intros H. split; [cbn; auto|exact H]. Qed.

(** ** Bytes of addresses *)

Lemma address_bytes bits a : 0 < bits -> made bits a ->
  firstn (nb bits) (as_bytes bits a) = le_bytes (nb bits) (value bits a).
Proof. intros Hb Ha. apply (wf_bytes bits a Hb (made_wf bits a Hb Ha)). Qed.

Lemma address_restore bits a b : 0 < bits -> made bits a -> made bits b ->
  mask_msv bits (poke bits b 0 (le_bytes (nb bits) (value bits a))) = a.
Proof.
  intros Hb Ha Hb'. pose proof (made_wf bits a Hb Ha) as Wa. pose proof (made_wf bits b Hb Hb') as Wb.
  destruct (nb_size bits Hb) as [H1 H2]. destruct (wf_bytes bits b Hb Wb) as [_ Hv].
  destruct (wf_bytes bits a Hb Wa) as [_ Hva].
  pose proof (le_bytes_bytes (nb bits) (value bits a)) as B1.
  pose proof (le_bytes_length (nb bits) (value bits a)) as L1.
  destruct (poke_spec bits b 0 _ Hb (proj1 Wb) B1) as [R V]; [lia|].
  destruct (mask_raw bits _ Hb R) as [W' E']. apply (wf_value_inj bits _ _ W' Wa). rewrite E', V.
  cbn [Nat.add]. rewrite L1, (N.div_small (value bits b)), N.mul_0_r, N.add_0_r by auto.
  change (256 ^ N.of_nat 0)%N with 1%N. rewrite N.mod_1_r, N.add_0_l, N.mul_1_l.
  rewrite of_le_bytes_le_bytes, (N.mod_small (value bits a)) by auto. apply N.mod_small, Wa.
Qed.

Lemma nb_eq bits : nb bits = (bits + 7) / 8.
Proof. reflexivity. Qed.

Lemma nb_small bits : (N.of_nat bits < 2 ^ 60)%N -> (N.of_nat (nb bits) < 2 ^ 63)%N.
Proof. intros H. rewrite nb_eq. pose proof (Nat.div_le_upper_bound (bits + 7) 8 (bits + 7)). lia. Qed.

Lemma nb_pos bits : 0 < bits -> 0 < nb bits.
Proof. intros H. rewrite nb_eq. apply Nat.div_str_pos. lia. Qed.

Lemma le_bytes_nonempty n v : 0 < n -> le_bytes n v <> [].
Proof. intros H E. pose proof (le_bytes_length n v) as L. rewrite E in L. cbn in L. lia. Qed.

(** ** Overwriting *)

Lemma skipn_skipn {A} (l : list A) a b : skipn a (skipn b l) = skipn (a + b) l.
Proof.
  revert l; induction b as [|b IH]; intros l; [now rewrite Nat.add_0_r|].
  rewrite Nat.add_succ_r. destruct l; [destruct a; reflexivity|apply IH].
Qed.

Lemma overwrite_nil p s : overwrite p [] s = s.
Proof. unfold overwrite. cbn [length app]. rewrite Nat.add_0_r. apply firstn_skipn. Qed.

Lemma overwrite_app p a b s : p + length a + length b <= length s ->
  overwrite (p + length a) b (overwrite p a s) = overwrite p (a ++ b) s.
Proof.
  intros H. unfold overwrite. rewrite app_length.
  assert (L1 : length (firstn p s) = p) by (rewrite firstn_length; lia).
  assert (E1 : firstn (p + length a) (firstn p s ++ a ++ skipn (p + length a) s) = firstn p s ++ a).
  { rewrite app_assoc, firstn_app, app_length, L1. rewrite firstn_all2 by (rewrite app_length; lia).
    rewrite Nat.sub_diag. cbn [firstn]. now rewrite app_nil_r. }
  assert (E2 : skipn (p + length a + length b) (firstn p s ++ a ++ skipn (p + length a) s) =
               skipn (p + (length a + length b)) s).
  { rewrite app_assoc, skipn_app, app_length, L1. rewrite skipn_all2 by (rewrite app_length; lia).
    cbn [app]. rewrite skipn_skipn. f_equal. lia. }
  rewrite E1, E2, <- !app_assoc. reflexivity.
Qed.

Lemma piece_split {X} (s : list X) p a b : firstn (length a + length b) (skipn p s) = a ++ b ->
  firstn (length a) (skipn p s) = a /\ firstn (length b) (skipn (p + length a) s) = b.
Proof.
  intros E. split.
  - apply (f_equal (firstn (length a))) in E. rewrite firstn_firstn in E.
    rewrite Nat.min_l in E by lia. rewrite E. rewrite firstn_app, firstn_all, Nat.sub_diag. cbn. apply app_nil_r.
  - apply (f_equal (skipn (length a))) in E.
    rewrite skipn_firstn_comm, skipn_skipn in E. rewrite skipn_app, skipn_all, Nat.sub_diag in E. cbn [app skipn] in E.
    replace (length a + length b - length a) with (length b) in E by lia.
    now rewrite (Nat.add_comm p (length a)).
Qed.

(** ** Any iterator that behaves *)
Section Generic.
Variable host : endian.
Variable Iter : Type.
Variable wint : order -> nat -> N -> list N -> Iter -> outcome (list N * Iter).
Variable wbytes : order -> list N -> list N -> Iter -> outcome (list N * Iter).
Variable rint : order -> nat -> list N -> Iter -> outcome (N * Iter).
Variable rbytes : order -> nat -> list N -> Iter -> outcome (list N * Iter).
Variable str : list N -> Iter -> list N.
Variable pos : Iter -> nat.
Variable lim : list N -> Iter -> nat.
Variable adv : Iter -> nat -> Iter.
Variable ok : list N -> Iter -> Prop.

Hypothesis lim_ok : forall mem it, ok mem it -> pos it <= lim mem it <= length (str mem it).
Hypothesis ok_length : forall mem mem' it, ok mem it -> length mem' = length mem -> ok mem' it.
Hypothesis adv_ok : forall mem it n, ok mem it -> pos it + n <= lim mem it -> ok mem (adv it n) /\ pos (adv it n) = pos it + n.
Hypothesis adv_same : forall mem it n, str mem (adv it n) = str mem it /\ lim mem (adv it n) = lim mem it.
Hypothesis adv_adv : forall it a b, adv (adv it a) b = adv it (a + b).
Hypothesis adv_0 : forall it, adv it 0 = it.

Definition wrote_to (bs : list N) (mem : list N) (it : Iter) (mem' : list N) (it' : Iter) : Prop :=
  it' = adv it (length bs) /\ pos it + length bs <= lim mem it /\ length mem' = length mem /\
  str mem' it = overwrite (pos it) bs (str mem it) /\ lim mem' it = lim mem it.

Hypothesis wint_done : forall o n v mem it mem' it', ok mem it -> In n [1; 2; 4; 8] ->
  wint o n v mem it = Done (mem', it') -> wrote_to (layout o host n v) mem it mem' it'.
Hypothesis wbytes_done : forall o bs mem it mem' it', ok mem it -> bs <> [] -> (N.of_nat (length bs) < 2 ^ 63)%N ->
  wbytes o bs mem it = Done (mem', it') -> wrote_to (in_order host o bs) mem it mem' it'.
Hypothesis rint_ok : forall o n v mem it, ok mem it -> In n [1; 2; 4; 8] -> pos it + n <= lim mem it ->
  firstn n (skipn (pos it) (str mem it)) = layout o host n v -> (v < 2 ^ (8 * N.of_nat n))%N ->
  rint o n mem it = Done (v, adv it n).
Hypothesis rbytes_ok : forall o bs mem it, ok mem it -> bs <> [] -> (N.of_nat (length bs) < 2 ^ 63)%N ->
  pos it + length bs <= lim mem it ->
  firstn (length bs) (skipn (pos it) (str mem it)) = in_order host o bs ->
  rbytes o (length bs) mem it = Done (bs, adv it (length bs)).

Lemma wrote_nil mem it : ok mem it -> wrote_to [] mem it mem it.
Proof using All.
  intros H. pose proof (lim_ok _ _ H). unfold wrote_to. rewrite adv_0, overwrite_nil. cbn [length]. repeat split; auto; lia.
Qed.

Lemma wrote_app a b mem it m1 i1 m2 i2 : ok mem it -> wrote_to a mem it m1 i1 -> wrote_to b m1 i1 m2 i2 ->
  wrote_to (a ++ b) mem it m2 i2.
Proof using All.
  intros H (-> & A2 & A3 & A4 & A5) (-> & B2 & B3 & B4 & B5). unfold wrote_to.
  pose proof (lim_ok _ _ H) as HL.
  destruct (adv_ok mem it (length a) H A2) as [_ C].
  destruct (adv_same m1 it (length a)) as [S1 S2]. destruct (adv_same m2 it (length a)) as [S3 S4].
  rewrite C, S2, A5 in B2. rewrite C, S1, S3, A4 in B4. rewrite S2, S4 in B5.
  rewrite app_length, adv_adv. split; [reflexivity|]. split; [lia|]. split; [congruence|]. split; [|congruence].
  rewrite B4. apply overwrite_app. lia.
Qed.

Lemma wrote_ok bs mem it mem' it' : ok mem it -> wrote_to bs mem it mem' it' -> ok mem' it'.
Proof using All.
  intros H (-> & A2 & A3 & _ & A5). apply adv_ok; [eapply ok_length; eassumption|lia].
Qed.

Lemma write_nums_done o k vs : In (width k) [1; 2; 4; 8] -> forall mem it mem' it', ok mem it ->
  write_nums Iter wint o k vs mem it = Done (mem', it') ->
  wrote_to (flat_map (fun v => layout o host (width k) (pattern (width k) v)) vs) mem it mem' it'.
Proof using All.
  intros Hw. induction vs as [|v vs IH]; intros mem it mem' it' H E; cbn [write_nums flat_map] in *.
  - injection E as <- <-. now apply wrote_nil.
  - unfold write_num in E. destruct (wint o (width k) (to_bits k v) mem it) as [[m1 i1]| | |] eqn:E1; cbn [obind] in E; try discriminate.
    apply (wint_done _ _ _ _ _ _ _ H Hw) in E1. change (to_bits k v) with (pattern (width k) v) in E1.
    eapply wrote_app; [exact H|exact E1|]. apply IH; [eapply wrote_ok; eassumption|exact E].
Qed.

Lemma layout_in_order o n v : host = LittleEndian -> layout o host n v = in_order host o (le_bytes n v).
Proof using All. intros ->. destruct o; reflexivity. Qed.

Lemma write_field_done o f mem it mem' it' : field_ok host f -> ok mem it ->
  write_field Iter wint wbytes o f mem it = Done (mem', it') -> wrote_to (encode host o f) mem it mem' it'.
Proof using All.
  intros Hf H E. destruct f as [k v|k vs|c|c|bits a]; cbn [write_field encode field_ok] in *.
  - apply (wint_done _ _ _ _ _ _ _ H (proj1 Hf) E).
  - apply write_nums_done; auto. apply Hf.
  - apply (wint_done o 8 (pattern 8 c)); auto. cbn. auto.
  - apply (wint_done o 8 (pattern 8 c)); auto. cbn. auto.
  - destruct Hf as (Hh & Hb & Hs & Ha). rewrite (address_bytes bits a Hb Ha) in E.
    rewrite <- nb_eq, (layout_in_order o (nb bits) (value bits a) Hh).
    apply wbytes_done; auto; [apply le_bytes_nonempty, nb_pos, Hb|]. rewrite le_bytes_length. now apply nb_small.
Qed.

Lemma write_all_done m : message_ok host m -> forall mem it mem' it', ok mem it ->
  write_all Iter wint wbytes m mem it = Done (mem', it') -> wrote_to (message host m) mem it mem' it'.
Proof using All.
  induction 1 as [|[o f] m Hf Hm IH]; intros mem it mem' it' H E; cbn [write_all] in E.
  - injection E as <- <-. now apply wrote_nil.
  - destruct (write_field Iter wint wbytes o f mem it) as [[m1 i1]| | |] eqn:E1; cbn [obind] in E; try discriminate.
    apply (write_field_done o f mem it m1 i1 Hf H) in E1. cbn [message flat_map fst snd].
    eapply wrote_app; [exact H|exact E1|]. apply IH; [eapply wrote_ok; eassumption|exact E].
Qed.

(** The next bytes are [bs]. *)
Definition next (bs : list N) (mem : list N) (it : Iter) : Prop :=
  pos it + length bs <= lim mem it /\ firstn (length bs) (skipn (pos it) (str mem it)) = bs.

Lemma next_app a b mem it : ok mem it -> next (a ++ b) mem it -> next a mem it /\ next b mem (adv it (length a)).
Proof using All.
  intros H [N1 N2]. rewrite app_length in *. apply piece_split in N2. destruct N2 as [N2 N3].
  destruct (adv_ok mem it (length a) H ltac:(lia)) as [_ C]. destruct (adv_same mem it (length a)) as [S1 S2].
  split; split; auto; try lia; rewrite ?C, ?S1, ?S2; auto; lia.
Qed.

Lemma read_num_next o k v mem it : ok mem it -> in_range k v ->
  next (layout o host (width k) (pattern (width k) v)) mem it ->
  read_num Iter rint o k mem it = Done (v, adv it (width k)).
Proof using All.
  intros H Hr [N1 N2]. rewrite layout_length in *. unfold read_num.
  rewrite (rint_ok o (width k) (pattern (width k) v) mem it H (proj1 Hr) N1 N2 (pattern_lt _ _)).
  cbn [obind]. now rewrite of_bits_pattern.
Qed.

Lemma read_nums_next o k vs : Forall (in_range k) vs -> forall mem it, ok mem it ->
  next (flat_map (fun v => layout o host (width k) (pattern (width k) v)) vs) mem it ->
  read_nums Iter rint o k (length vs) mem it =
  Done (vs, adv it (length (flat_map (fun v => layout o host (width k) (pattern (width k) v)) vs))).
Proof using All.
  induction 1 as [|v vs Hv Hvs IH]; intros mem it H Hn; cbn [length read_nums flat_map] in *; [now rewrite adv_0|].
  destruct (next_app _ _ _ _ H Hn) as [N1 N2]. rewrite (read_num_next o k v mem it H Hv N1). cbn [obind].
  rewrite layout_length in N2. destruct N1 as [N1 _]. rewrite layout_length in N1.
  rewrite IH; [|apply adv_ok; auto|exact N2]. cbn [obind]. rewrite adv_adv, app_length, layout_length. reflexivity.
Qed.

Lemma read_field_next o f s mem it : field_ok host f -> fits f s -> ok mem it -> next (encode host o f) mem it ->
  read_field Iter rint rbytes o s mem it = Done (f, adv it (length (encode host o f))).
Proof using All.
  intros Hf Hs H Hn. destruct f as [k v|k vs|c|c|bits a]; destruct s as [k'|k' n| | |bits' old]; cbn [fits] in Hs; try destruct Hs;
    subst; cbn [field_ok encode read_field] in *.
  - rewrite (read_num_next o k v mem it H Hf Hn). cbn [obind]. now rewrite layout_length.
  - rewrite (read_nums_next o k' vs (proj2 Hf) mem it H Hn). reflexivity.
  - rewrite (read_num_next o count_t c mem it H (count_range c Hf) Hn). cbn [obind]. now rewrite layout_length.
  - rewrite (read_num_next o count_t c mem it H (count_range c Hf) Hn). cbn [obind]. now rewrite layout_length.
  - destruct Hf as (Hh & Hb & Hsz & Ha). rewrite <- nb_eq in *. rewrite (layout_in_order o (nb bits') (value bits' a) Hh) in *.
    destruct Hn as [N1 N2]. rewrite in_order_length in *.
    pose proof (rbytes_ok o (le_bytes (nb bits') (value bits' a)) mem it H) as R. rewrite le_bytes_length in *.
    rewrite R; auto; [|apply le_bytes_nonempty, nb_pos, Hb|now apply nb_small].
    cbn [obind]. now rewrite address_restore.
Qed.

Lemma read_all_next m : message_ok host m -> forall s mem it, readable_as m s -> ok mem it ->
  next (message host m) mem it ->
  read_all Iter rint rbytes s mem it = Done (map snd m, adv it (length (message host m))).
Proof using All.
  induction 1 as [|[o f] m Hf Hm IH]; intros s mem it Hs H Hn; inversion Hs as [|? [o' s1] ? s2 [Ho Hs1] Hs2]; subst; cbn [read_all].
  - cbn. now rewrite adv_0.
  - cbn [fst snd] in *. subst o'. cbn [message flat_map fst snd] in Hn.
    destruct (next_app _ _ _ _ H Hn) as [N1 N2].
    rewrite (read_field_next o f s1 mem it Hf Hs1 H N1). cbn [obind].
    rewrite (IH s2 mem _ Hs2); [|apply adv_ok; [exact H|apply N1]|exact N2].
    cbn [obind map snd message flat_map fst]. rewrite adv_adv, app_length. reflexivity.
Qed.

Lemma wrote_next bs mem it mem' it' : ok mem it -> wrote_to bs mem it mem' it' -> next bs mem' it.
Proof using All.
  intros H (-> & A2 & A3 & A4 & A5). pose proof (lim_ok _ _ H) as L. split; [lia|].
  rewrite A4. apply overwrite_read. lia.
Qed.

Lemma write_read_all m s mem it mem' it' : message_ok host m -> readable_as m s -> ok mem it ->
  write_all Iter wint wbytes m mem it = Done (mem', it') ->
  read_all Iter rint rbytes s mem' it = Done (map snd m, it').
Proof using All.
  intros Hm Hs H E. apply (write_all_done m Hm mem it mem' it' H) in E.
  rewrite (read_all_next m Hm s mem' it Hs); [destruct E as (-> & _); reflexivity| |eapply wrote_next; eassumption].
  destruct E as (_ & _ & A3 & _). eapply ok_length; eassumption.
Qed.
(** *** Which writes succeed *)
Variable can : Iter -> nat -> bool.
Hypothesis can_0 : forall mem it, ok mem it -> can it 0 = true.
Hypothesis can_add : forall mem it a b, ok mem it -> can it (a + b) = can it a && can (adv it a) b.
Hypothesis wint_out : forall o n v mem it, ok mem it -> In n [1; 2; 4; 8] ->
  if can it n then exists r, wint o n v mem it = Done r else wint o n v mem it = AssertFail.
Hypothesis wbytes_out : forall o bs mem it, ok mem it -> bs <> [] -> (N.of_nat (length bs) < 2 ^ 63)%N ->
  if can it (length bs) then exists r, wbytes o bs mem it = Done r else wbytes o bs mem it = AssertFail.

Lemma write_nums_out o k vs : In (width k) [1; 2; 4; 8] -> forall mem it, ok mem it ->
  if can it (length (flat_map (fun v => layout o host (width k) (pattern (width k) v)) vs))
  then exists r, write_nums Iter wint o k vs mem it = Done r
  else write_nums Iter wint o k vs mem it = AssertFail.
Proof using All.
  intros Hw. induction vs as [|v vs IH]; intros mem it H; cbn [write_nums flat_map length].
  - rewrite (can_0 mem it H). eauto.
  - rewrite app_length, (can_add mem it _ _ H), layout_length.
    pose proof (wint_out o (width k) (to_bits k v) mem it H Hw) as W. unfold write_num.
    destruct (can it (width k)); cbn [andb]; [|rewrite W; reflexivity].
    destruct W as [[m1 i1] W]. rewrite W. cbn [obind]. apply (wint_done _ _ _ _ _ _ _ H Hw) in W.
    pose proof (wrote_ok _ _ _ _ _ H W) as H1. destruct W as (-> & _). rewrite layout_length in *. apply IH, H1.
Qed.

Lemma write_field_out o f mem it : field_ok host f -> ok mem it ->
  if can it (length (encode host o f)) then exists r, write_field Iter wint wbytes o f mem it = Done r
  else write_field Iter wint wbytes o f mem it = AssertFail.
Proof using All.
  intros Hf H. destruct f as [k v|k vs|c|c|bits a]; cbn [write_field encode field_ok] in *.
  - rewrite layout_length. apply wint_out; [exact H|apply Hf].
  - apply write_nums_out; [apply Hf|exact H].
  - rewrite layout_length. apply wint_out; [exact H|cbn; auto].
  - rewrite layout_length. apply wint_out; [exact H|cbn; auto].
  - destruct Hf as (Hh & Hb & Hs & Ha). rewrite (address_bytes bits a Hb Ha), layout_length, <- nb_eq.
    pose proof (wbytes_out o (le_bytes (nb bits) (value bits a)) mem it H) as W. rewrite le_bytes_length in W.
    apply W; [apply le_bytes_nonempty, nb_pos, Hb|now apply nb_small].
Qed.

Lemma write_all_out m : message_ok host m -> forall mem it, ok mem it ->
  if can it (length (message host m)) then exists r, write_all Iter wint wbytes m mem it = Done r
  else write_all Iter wint wbytes m mem it = AssertFail.
Proof using All.
  induction 1 as [|[o f] m Hf Hm IH]; intros mem it H; cbn [write_all message flat_map fst snd length].
  - rewrite (can_0 mem it H). eauto.
  - rewrite app_length, (can_add mem it _ _ H). cbn [snd] in Hf.
    pose proof (write_field_out o f mem it Hf H) as W.
    destruct (can it (length (encode host o f))); cbn [andb]; [|rewrite W; reflexivity].
    destruct W as [[m1 i1] W]. rewrite W. cbn [obind]. apply (write_field_done _ _ _ _ _ _ Hf H) in W.
    pose proof (wrote_ok _ _ _ _ _ H W) as H1. destruct W as (-> & _). apply IH, H1.
Qed.

(** *** Reads that do not fit *)
Hypothesis rint_fail : forall o n mem it, ok mem it -> In n [1; 2; 4; 8] -> lim mem it < pos it + n ->
  rint o n mem it = AssertFail.
Hypothesis rbytes_fail : forall o n mem it, ok mem it -> 0 < n -> (N.of_nat n < 2 ^ 63)%N -> lim mem it < pos it + n ->
  rbytes o n mem it = AssertFail.
Hypothesis rint_moves : forall o n mem it, ok mem it -> In n [1; 2; 4; 8] -> pos it + n <= lim mem it ->
  exists v, rint o n mem it = Done (v, adv it n).
Hypothesis rbytes_moves : forall o n mem it, ok mem it -> 0 < n -> (N.of_nat n < 2 ^ 63)%N -> pos it + n <= lim mem it ->
  exists v, rbytes o n mem it = Done (v, adv it n).

Lemma read_num_out o k mem it : In (width k) [1; 2; 4; 8] -> ok mem it ->
  if pos it + width k <=? lim mem it then exists v, read_num Iter rint o k mem it = Done (v, adv it (width k))
  else read_num Iter rint o k mem it = AssertFail.
Proof using All.
  intros Hw H. unfold read_num. destruct (Nat.leb_spec (pos it + width k) (lim mem it)) as [L|L].
  - destruct (rint_moves o (width k) mem it H Hw L) as [v ->]. cbn [obind]. eauto.
  - now rewrite (rint_fail o (width k) mem it H Hw L).
Qed.

Lemma read_nums_out o k n : In (width k) [1; 2; 4; 8] -> forall mem it, ok mem it ->
  if pos it + n * width k <=? lim mem it
  then exists v, read_nums Iter rint o k n mem it = Done (v, adv it (n * width k))
  else read_nums Iter rint o k n mem it = AssertFail.
Proof using All.
  intros Hw. induction n as [|n IH]; intros mem it H; cbn [read_nums].
  - pose proof (lim_ok _ _ H). destruct (Nat.leb_spec (pos it + 0 * width k) (lim mem it)); [|lia].
    exists []. cbn [Nat.mul]. now rewrite adv_0.
  - pose proof (read_num_out o k mem it Hw H) as R.
    destruct (Nat.leb_spec (pos it + width k) (lim mem it)) as [L|L].
    + destruct R as [v ->]. cbn [obind]. destruct (adv_ok mem it (width k) H L) as [H1 C].
      specialize (IH mem _ H1). rewrite C in IH. destruct (adv_same mem it (width k)) as [_ Sm]. rewrite Sm in IH.
      replace (pos it + S n * width k) with (pos it + width k + n * width k) by lia.
      destruct (pos it + width k + n * width k <=? lim mem it).
      * destruct IH as [vs ->]. cbn [obind]. rewrite adv_adv. eauto.
      * now rewrite IH.
    + rewrite R. cbn [obind]. destruct (Nat.leb_spec (pos it + S n * width k) (lim mem it)); [lia|reflexivity].
Qed.

Lemma read_field_out o s mem it : shape_ok s -> ok mem it ->
  if pos it + shape_size s <=? lim mem it
  then exists v, read_field Iter rint rbytes o s mem it = Done (v, adv it (shape_size s))
  else read_field Iter rint rbytes o s mem it = AssertFail.
Proof using All.
  intros Hs H. destruct s as [k|k n| | |bits old]; cbn [shape_ok shape_size read_field] in *.
  - pose proof (read_num_out o k mem it Hs H) as R. destruct (pos it + width k <=? lim mem it); [|now rewrite R].
    destruct R as [v ->]. cbn [obind]. eauto.
  - pose proof (read_nums_out o k n Hs mem it H) as R. destruct (pos it + n * width k <=? lim mem it); [|now rewrite R].
    destruct R as [v ->]. cbn [obind]. eauto.
  - pose proof (read_num_out o count_t mem it ltac:(cbn; auto) H) as R. cbn [width count_t] in R.
    destruct (pos it + 8 <=? lim mem it); [|now rewrite R]. destruct R as [v ->]. cbn [obind]. eauto.
  - pose proof (read_num_out o count_t mem it ltac:(cbn; auto) H) as R. cbn [width count_t] in R.
    destruct (pos it + 8 <=? lim mem it); [|now rewrite R]. destruct R as [v ->]. cbn [obind]. eauto.
  - rewrite <- nb_eq. destruct Hs as [Hb Hn]. pose proof (nb_pos bits Hb) as P. pose proof (nb_small bits Hn) as Sm.
    destruct (Nat.leb_spec (pos it + nb bits) (lim mem it)) as [L|L].
    + destruct (rbytes_moves o (nb bits) mem it H P Sm L) as [v ->]. cbn [obind]. eauto.
    + now rewrite (rbytes_fail o (nb bits) mem it H P Sm L).
Qed.

Lemma read_all_out s : Forall (fun q => shape_ok (snd q)) s -> forall mem it, ok mem it ->
  if pos it + shapes_size s <=? lim mem it
  then exists v, read_all Iter rint rbytes s mem it = Done (v, adv it (shapes_size s))
  else read_all Iter rint rbytes s mem it = AssertFail.
Proof using All.
  unfold shapes_size. induction 1 as [|[o f] s Hf Hs IH]; intros mem it H; cbn [read_all map list_sum fold_right snd].
  - pose proof (lim_ok _ _ H). destruct (Nat.leb_spec (pos it + 0) (lim mem it)); [|lia].
    exists []. now rewrite adv_0.
  - cbn [snd] in Hf. pose proof (read_field_out o f mem it Hf H) as R.
    destruct (Nat.leb_spec (pos it + shape_size f) (lim mem it)) as [L|L].
    + destruct R as [v ->]. cbn [obind]. destruct (adv_ok mem it (shape_size f) H L) as [H1 C].
      specialize (IH mem _ H1). rewrite C in IH. destruct (adv_same mem it (shape_size f)) as [_ Sm]. rewrite Sm in IH.
      unfold list_sum in IH. rewrite <- Nat.add_assoc in IH.
      match type of IH with (if ?c then _ else _) => destruct c end.
      * destruct IH as [vs ->]. cbn [obind]. rewrite adv_adv. eauto.
      * now rewrite IH.
    + rewrite R. cbn [obind]. match goal with |- context [?a <=? ?b] => destruct (Nat.leb_spec a b) end; [lia|reflexivity].
Qed.
End Generic.

(** ** Plain iterators *)

Definition p_str (mem : list N) (it : biter) : list N := mem.
Definition p_pos (it : biter) : nat := N.to_nat (it_cursor it).
Definition p_lim (mem : list N) (it : biter) : nat := N.to_nat (it_end it).
Definition p_adv (it : biter) (n : nat) : biter := set_cursor it (it_cursor it + N.of_nat n)%N.

Lemma p_lim_ok mem it : iter_ok mem it -> p_pos it <= p_lim mem it <= length (p_str mem it).
Proof. unfold iter_ok, p_pos, p_lim, p_str. lia. Qed.
Lemma p_ok_length mem mem' it : iter_ok mem it -> length mem' = length mem -> iter_ok mem' it.
Proof. unfold iter_ok. intros H ->. exact H. Qed.
Lemma p_adv_ok mem it n : iter_ok mem it -> p_pos it + n <= p_lim mem it -> iter_ok mem (p_adv it n) /\ p_pos (p_adv it n) = p_pos it + n.
Proof. unfold iter_ok, p_pos, p_lim, p_adv, set_cursor. cbn. lia. Qed.
Lemma p_adv_same mem it n : p_str mem (p_adv it n) = p_str mem it /\ p_lim mem (p_adv it n) = p_lim mem it.
Proof. split; reflexivity. Qed.
Lemma p_adv_adv it a b : p_adv (p_adv it a) b = p_adv it (a + b).
Proof. unfold p_adv, set_cursor. cbn. f_equal. lia. Qed.
Lemma p_adv_0 it : p_adv it 0 = it.
Proof. unfold p_adv, set_cursor. destruct it. cbn. f_equal. lia. Qed.

Lemma mem_store_overwrite mem i b mem' : mem_store mem i b = Some mem' -> i + length b <= length mem /\ mem' = overwrite i b mem.
Proof.
  unfold mem_store. destruct (Nat.leb_spec (i + length b) (length mem)) as [H|H]; [|discriminate].
  intros [= <-]. auto.
Qed.

Lemma p_sum mem it n : iter_ok mem it -> (N.of_nat n < 2 ^ 63)%N -> w64 (it_cursor it + N.of_nat n) = (it_cursor it + N.of_nat n)%N.
Proof. unfold iter_ok. intros H Hn. apply w64_small. change (2 ^ 64)%N with (2 ^ 63 + 2 ^ 63)%N. lia. Qed.

Lemma p_store mem it b : iter_ok mem it -> (N.of_nat (length b) < 2 ^ 63)%N ->
  forall mem' it', (if can_move_forward it (N.of_nat (length b)) then
    match mem_store mem (N.to_nat (it_cursor it)) b with
    | Some mem' => Done (mem', set_cursor it (w64 (it_cursor it + N.of_nat (length b))))
    | None => UB
    end
  else AssertFail) = Done (mem', it') ->
  wrote_to biter p_str p_pos p_lim p_adv b mem it mem' it'.
Proof.
  intros H Hn mem' it' E. unfold can_move_forward in E. rewrite (p_sum mem it _ H Hn) in E.
  destruct (N.leb_spec (it_cursor it + N.of_nat (length b)) (it_end it)) as [L|L]; [|discriminate].
  destruct (mem_store mem (N.to_nat (it_cursor it)) b) as [m|] eqn:Em; [|discriminate]. injection E as <- <-.
  apply mem_store_overwrite in Em. destruct Em as [L1 ->].
  unfold wrote_to, p_adv, p_pos, p_lim, p_str. split; [reflexivity|]. split; [lia|].
  split; [now apply overwrite_length|]. auto.
Qed.

Lemma small_width n : In n [1; 2; 4; 8] -> 0 < n /\ (N.of_nat n < 2 ^ 63)%N.
Proof. intros [<-|[<-|[<-|[<-|[]]]]]; split; lia. Qed.

Lemma p_wint host o n v mem it mem' it' : iter_ok mem it -> In n [1; 2; 4; 8] ->
  write_int host o n v mem it = Done (mem', it') ->
  wrote_to biter p_str p_pos p_lim p_adv (layout o host n v) mem it mem' it'.
Proof.
  intros H Hn E. apply small_width in Hn. unfold write_int in E. cbv zeta in E. rewrite keep_mem_bytes in E.
  apply p_store; auto; rewrite layout_length; [apply Hn|exact E].
Qed.

Lemma p_wbytes host o bs mem it mem' it' : iter_ok mem it -> bs <> [] -> (N.of_nat (length bs) < 2 ^ 63)%N ->
  write_bytes host o bs mem it = Done (mem', it') ->
  wrote_to biter p_str p_pos p_lim p_adv (in_order host o bs) mem it mem' it'.
Proof.
  intros H _ Hn E. unfold write_bytes in E. cbv zeta in E.
  apply p_store; auto; rewrite in_order_length; [exact Hn|exact E].
Qed.

Lemma p_load mem it n : iter_ok mem it -> (N.of_nat n < 2 ^ 63)%N -> p_pos it + n <= p_lim mem it ->
  can_move_forward it (N.of_nat n) = true /\
  mem_load mem (N.to_nat (it_cursor it)) n = Some (firstn n (skipn (p_pos it) (p_str mem it))) /\
  set_cursor it (w64 (it_cursor it + N.of_nat n)) = p_adv it n.
Proof.
  intros H Hn Hp. unfold can_move_forward. rewrite (p_sum mem it _ H Hn).
  unfold p_pos, p_lim, p_str, p_adv, iter_ok in *. split; [lia|]. split; [|reflexivity].
  unfold mem_load. destruct (Nat.leb_spec (N.to_nat (it_cursor it) + n) (length mem)); [reflexivity|lia].
Qed.

Lemma p_rint host o n v mem it : iter_ok mem it -> In n [1; 2; 4; 8] -> p_pos it + n <= p_lim mem it ->
  firstn n (skipn (p_pos it) (p_str mem it)) = layout o host n v -> (v < 2 ^ (8 * N.of_nat n))%N ->
  read_int host o n mem it = Done (v, p_adv it n).
Proof.
  intros H Hn Hp E Hv. apply small_width in Hn. destruct (p_load mem it n H (proj2 Hn) Hp) as (E1 & E2 & E3).
  unfold read_int. rewrite E1, E2, E3, E. f_equal. f_equal.
  change (if keep_endian host o then ?x else rev ?x) with (in_order host o x). now apply value_layout.
Qed.

Lemma p_rbytes host o bs mem it : iter_ok mem it -> bs <> [] -> (N.of_nat (length bs) < 2 ^ 63)%N ->
  p_pos it + length bs <= p_lim mem it ->
  firstn (length bs) (skipn (p_pos it) (p_str mem it)) = in_order host o bs ->
  read_bytes host o (length bs) mem it = Done (bs, p_adv it (length bs)).
Proof.
  intros H _ Hn Hp E. destruct (p_load mem it _ H Hn Hp) as (E1 & E2 & E3).
  unfold read_bytes. rewrite E1, E2, E3, E. f_equal. f_equal.
  change (if keep_endian host o then ?x else rev ?x) with (in_order host o x). apply in_order_twice.
Qed.

(** ** Iterators of zero-compressed buffers *)

Definition z_lim (mem : list N) (it : ziter) : nat := N.to_nat (zi_end it) - N.to_nat (zi_start it).
Definition z_adv (it : ziter) (n : nat) : ziter := zi_set it (zi_cursor it + N.of_nat n)%N.

Lemma z_lim_ok mem it : ziter_ok mem it -> zi_pos it <= z_lim mem it <= length (zi_string mem it).
Proof. intros H. rewrite (zi_string_length mem it H). unfold ziter_ok, zi_pos, z_lim in *. lia. Qed.
Lemma z_ok_length mem mem' it : ziter_ok mem it -> length mem' = length mem -> ziter_ok mem' it.
Proof. unfold ziter_ok. intros H ->. exact H. Qed.
Lemma z_adv_ok mem it n : ziter_ok mem it -> zi_pos it + n <= z_lim mem it -> ziter_ok mem (z_adv it n) /\ zi_pos (z_adv it n) = zi_pos it + n.
Proof. unfold ziter_ok, zi_pos, z_lim, z_adv, zi_zeros, zi_set. cbn. lia. Qed.
Lemma z_adv_same mem it n : zi_string mem (z_adv it n) = zi_string mem it /\ z_lim mem (z_adv it n) = z_lim mem it.
Proof. split; reflexivity. Qed.
Lemma z_adv_adv it a b : z_adv (z_adv it a) b = z_adv it (a + b).
Proof. unfold z_adv, zi_set. cbn. f_equal. lia. Qed.
Lemma z_adv_0 it : z_adv it 0 = it.
Proof. unfold z_adv, zi_set. destruct it. cbn. f_equal. lia. Qed.

Lemma z_store mem it b mem' it' : ziter_ok mem it -> b <> [] -> (N.of_nat (length b) < 2 ^ 63)%N ->
  zi_store b mem it = Done (mem', it') ->
  wrote_to ziter zi_string zi_pos z_lim z_adv b mem it mem' it'.
Proof.
  intros H Hb Hn E. destruct (store_done b mem it mem' it' H Hb Hn E) as (W & -> & L & _ & _ & S & _).
  pose proof (zi_string_length mem it H) as HL. unfold writable in W. apply andb_true_iff in W. destruct W as [W _].
  apply Nat.leb_le in W. unfold wrote_to. split; [reflexivity|]. split; [unfold z_lim; lia|]. auto.
Qed.

Lemma z_wint host o n v mem it mem' it' : ziter_ok mem it -> In n [1; 2; 4; 8] ->
  zi_write_int host o n v mem it = Done (mem', it') ->
  wrote_to ziter zi_string zi_pos z_lim z_adv (layout o host n v) mem it mem' it'.
Proof.
  intros H Hn E. apply small_width in Hn. rewrite zi_write_int_store in E.
  apply z_store; auto; [|rewrite layout_length; apply Hn].
  intros E1. pose proof (layout_length o host n v) as L. rewrite E1 in L. cbn in L. lia.
Qed.

Lemma z_wbytes host o bs mem it mem' it' : ziter_ok mem it -> bs <> [] -> (N.of_nat (length bs) < 2 ^ 63)%N ->
  zi_write_bytes host o bs mem it = Done (mem', it') ->
  wrote_to ziter zi_string zi_pos z_lim z_adv (in_order host o bs) mem it mem' it'.
Proof.
  intros H Hb Hn E. apply z_store; auto; [|rewrite in_order_length; exact Hn].
  intros E1. apply Hb. rewrite <- (in_order_twice host o bs), E1. unfold in_order. destruct (is_native host o); auto.
Qed.

Lemma z_rint host o n v mem it : ziter_ok mem it -> In n [1; 2; 4; 8] -> zi_pos it + n <= z_lim mem it ->
  firstn n (skipn (zi_pos it) (zi_string mem it)) = layout o host n v -> (v < 2 ^ (8 * N.of_nat n))%N ->
  zi_read_int host o n mem it = Done (v, z_adv it n).
Proof.
  intros H Hn Hp E Hv. apply small_width in Hn. rewrite (zi_read_int_eq host o n mem it H (proj2 Hn)).
  rewrite (zi_string_length mem it H). unfold z_lim in Hp.
  destruct (Nat.leb_spec (zi_pos it + n) (N.to_nat (zi_end it) - N.to_nat (zi_start it))); [|lia].
  rewrite E, value_layout by exact Hv. reflexivity.
Qed.

Lemma z_rbytes host o bs mem it : ziter_ok mem it -> bs <> [] -> (N.of_nat (length bs) < 2 ^ 63)%N ->
  zi_pos it + length bs <= z_lim mem it ->
  firstn (length bs) (skipn (zi_pos it) (zi_string mem it)) = in_order host o bs ->
  zi_read_bytes host o (length bs) mem it = Done (bs, z_adv it (length bs)).
Proof.
  intros H _ Hn Hp E. rewrite (zi_read_bytes_eq host o _ mem it H Hn).
  rewrite (zi_string_length mem it H). unfold z_lim in Hp.
  destruct (Nat.leb_spec (zi_pos it + length bs) (N.to_nat (zi_end it) - N.to_nat (zi_start it))); [|lia].
  rewrite E, in_order_twice. reflexivity.
Qed.

(** ** Which calls succeed *)

Definition p_can (it : biter) (n : nat) : bool := (N.to_nat (it_cursor it) + n <=? N.to_nat (it_end it)).
Lemma p_can_0 mem it : iter_ok mem it -> p_can it 0 = true.
Proof. unfold iter_ok, p_can. lia. Qed.
Lemma p_can_add mem it a b : iter_ok mem it -> p_can it (a + b) = p_can it a && p_can (p_adv it a) b.
Proof. intros _. unfold p_can, p_adv, set_cursor. cbn [it_cursor it_end]. lia. Qed.

Lemma p_store_out mem it b : iter_ok mem it -> (N.of_nat (length b) < 2 ^ 63)%N ->
  let w := if can_move_forward it (N.of_nat (length b)) then
    match mem_store mem (N.to_nat (it_cursor it)) b with
    | Some mem' => Done (mem', set_cursor it (w64 (it_cursor it + N.of_nat (length b))))
    | None => UB
    end
  else AssertFail in
  if p_can it (length b) then exists r, w = Done r else w = AssertFail.
Proof.
  intros H Hn w. subst w. unfold can_move_forward. rewrite (p_sum mem it _ H Hn). unfold p_can, iter_ok in *.
  destruct (N.leb_spec (it_cursor it + N.of_nat (length b)) (it_end it)) as [L|L];
    destruct (Nat.leb_spec (N.to_nat (it_cursor it) + length b) (N.to_nat (it_end it))) as [L'|L']; try lia; [|reflexivity].
  unfold mem_store. destruct (Nat.leb_spec (N.to_nat (it_cursor it) + length b) (length mem)); [|lia]. eauto.
Qed.

Lemma p_wint_out host o n v mem it : iter_ok mem it -> In n [1; 2; 4; 8] ->
  if p_can it n then exists r, write_int host o n v mem it = Done r else write_int host o n v mem it = AssertFail.
Proof.
  intros H Hn. apply small_width in Hn. unfold write_int. cbv zeta. rewrite keep_mem_bytes.
  pose proof (p_store_out mem it (layout o host n v) H) as W. rewrite layout_length in W. apply W, Hn.
Qed.

Lemma p_wbytes_out host o bs mem it : iter_ok mem it -> bs <> [] -> (N.of_nat (length bs) < 2 ^ 63)%N ->
  if p_can it (length bs) then exists r, write_bytes host o bs mem it = Done r else write_bytes host o bs mem it = AssertFail.
Proof.
  intros H _ Hn. unfold write_bytes. cbv zeta.
  pose proof (p_store_out mem it (in_order host o bs) H) as W. rewrite in_order_length in W. apply W, Hn.
Qed.

Lemma p_no_load mem it n : iter_ok mem it -> (N.of_nat n < 2 ^ 63)%N -> p_lim mem it < p_pos it + n ->
  can_move_forward it (N.of_nat n) = false.
Proof. intros H Hn L. unfold can_move_forward. rewrite (p_sum mem it _ H Hn). unfold p_lim, p_pos in L. lia. Qed.

Lemma p_rint_fail host o n mem it : iter_ok mem it -> In n [1; 2; 4; 8] -> p_lim mem it < p_pos it + n ->
  read_int host o n mem it = AssertFail.
Proof. intros H Hn L. apply small_width in Hn. unfold read_int. now rewrite (p_no_load mem it n H (proj2 Hn) L). Qed.
Lemma p_rbytes_fail host o n mem it : iter_ok mem it -> 0 < n -> (N.of_nat n < 2 ^ 63)%N -> p_lim mem it < p_pos it + n ->
  read_bytes host o n mem it = AssertFail.
Proof. intros H _ Hn L. unfold read_bytes. now rewrite (p_no_load mem it n H Hn L). Qed.
Lemma p_rint_moves host o n mem it : iter_ok mem it -> In n [1; 2; 4; 8] -> p_pos it + n <= p_lim mem it ->
  exists v, read_int host o n mem it = Done (v, p_adv it n).
Proof.
  intros H Hn L. apply small_width in Hn. destruct (p_load mem it n H (proj2 Hn) L) as (E1 & E2 & E3).
  unfold read_int. rewrite E1, E2, E3. eauto.
Qed.
Lemma p_rbytes_moves host o n mem it : iter_ok mem it -> 0 < n -> (N.of_nat n < 2 ^ 63)%N -> p_pos it + n <= p_lim mem it ->
  exists v, read_bytes host o n mem it = Done (v, p_adv it n).
Proof.
  intros H _ Hn L. destruct (p_load mem it n H Hn L) as (E1 & E2 & E3).
  unfold read_bytes. rewrite E1, E2, E3. eauto.
Qed.

Definition z_can (it : ziter) (n : nat) : bool :=
  (n =? 0) || writable it n (N.to_nat (zi_end it) - N.to_nat (zi_start it)).
Definition z_ok (mem : list N) (it : ziter) : Prop := ziter_ok mem it /\ 0 < zi_zeros it.

Lemma z_can_add mem it a b : z_ok mem it -> z_can it (a + b) = z_can it a && z_can (z_adv it a) b.
Proof.
  intros [H Hz]. unfold z_can, writable, z_adv, zi_set, zi_pos, zi_header, zi_zeros, ziter_ok in *.
  cbn [zi_cursor zi_start zi_zs zi_ze zi_end]. lia.
Qed.

Lemma z_store_out b mem it : ziter_ok mem it -> b <> [] -> (N.of_nat (length b) < 2 ^ 63)%N ->
  if z_can it (length b) then exists r, zi_store b mem it = Done r else zi_store b mem it = AssertFail.
Proof.
  intros H Hb Hn. pose proof (zi_store_eq b mem it H Hb Hn) as W. rewrite (zi_string_length mem it H) in W.
  assert (E : (length b =? 0) = false) by (destruct b; [congruence|reflexivity]).
  unfold z_can. rewrite E. cbn [orb]. destruct (writable it (length b) _); [|exact W].
  destruct W as (m & W & _). eauto.
Qed.

Lemma z_wint_out host o n v mem it : ziter_ok mem it -> In n [1; 2; 4; 8] ->
  if z_can it n then exists r, zi_write_int host o n v mem it = Done r else zi_write_int host o n v mem it = AssertFail.
Proof.
  intros H Hn. apply small_width in Hn. rewrite zi_write_int_store.
  pose proof (z_store_out (layout o host n v) mem it H) as W. pose proof (layout_length o host n v) as L. rewrite L in W.
  apply W; [|apply Hn]. intros E. rewrite E in L. cbn in L. lia.
Qed.

Lemma z_wbytes_out host o bs mem it : ziter_ok mem it -> bs <> [] -> (N.of_nat (length bs) < 2 ^ 63)%N ->
  if z_can it (length bs) then exists r, zi_write_bytes host o bs mem it = Done r else zi_write_bytes host o bs mem it = AssertFail.
Proof.
  intros H Hb Hn. pose proof (z_store_out (in_order host o bs) mem it H) as W. rewrite in_order_length in W.
  apply W; [|exact Hn].
  intros E1. apply Hb. rewrite <- (in_order_twice host o bs), E1. unfold in_order. destruct (is_native host o); auto.
Qed.

Lemma z_rint_out host o n mem it : ziter_ok mem it -> In n [1; 2; 4; 8] ->
  (zi_pos it + n <= z_lim mem it -> exists v, zi_read_int host o n mem it = Done (v, z_adv it n)) /\
  (z_lim mem it < zi_pos it + n -> zi_read_int host o n mem it = AssertFail).
Proof.
  intros H Hn. apply small_width in Hn. rewrite (zi_read_int_eq host o n mem it H (proj2 Hn)).
  rewrite (zi_string_length mem it H). unfold z_lim.
  destruct (Nat.leb_spec (zi_pos it + n) (N.to_nat (zi_end it) - N.to_nat (zi_start it))); split; intros; try lia; eauto.
Qed.
Lemma z_rbytes_out host o n mem it : ziter_ok mem it -> (N.of_nat n < 2 ^ 63)%N ->
  (zi_pos it + n <= z_lim mem it -> exists v, zi_read_bytes host o n mem it = Done (v, z_adv it n)) /\
  (z_lim mem it < zi_pos it + n -> zi_read_bytes host o n mem it = AssertFail).
Proof.
  intros H Hn. rewrite (zi_read_bytes_eq host o n mem it H Hn).
  rewrite (zi_string_length mem it H). unfold z_lim.
  destruct (Nat.leb_spec (zi_pos it + n) (N.to_nat (zi_end it) - N.to_nat (zi_start it))); split; intros; try lia; eauto.
Qed.

(** ** What is read is valid *)

Lemma pattern_of_bits k b : In (width k) [1; 2; 4; 8] -> (b < 2 ^ (8 * N.of_nat (width k)))%N ->
  in_range k (of_bits k b) /\ pattern (width k) (of_bits k b) = b.
Proof.
  intros Hw H. apply N2Z.inj_lt in H. rewrite N2Z.inj_pow, N2Z.inj_mul, nat_N_Z in H.
  change (Z.of_N 2) with 2%Z in H. change (Z.of_N 8) with 8%Z in H. unfold pattern, in_range. destruct k as [n|n]; cbn [width of_bits] in *.
  - split; [split; [exact Hw|lia]|]. rewrite Z.mod_small by lia. lia.
  - assert (E : (2 ^ (8 * Z.of_nat n) = 2 * 2 ^ (8 * Z.of_nat n - 1))%Z).
    { rewrite <- (Z.pow_succ_r 2 (8 * Z.of_nat n - 1)); [f_equal; lia|]. destruct Hw as [<-|[<-|[<-|[<-|[]]]]]; lia. }
    rewrite E in *. set (h := (2 ^ (8 * Z.of_nat n - 1))%Z) in *.
    destruct (Z.ltb_spec (Z.of_N b) h) as [L|L].
    + split; [split; [exact Hw|lia]|]. rewrite Z.mod_small by lia. lia.
    + split; [split; [exact Hw|lia]|]. replace ((Z.of_N b - 2 * h) mod (2 * h))%Z with (Z.of_N b); [lia|].
      apply (Z.mod_unique_pos _ (2 * h) (-1)); lia.
Qed.

Definition has (bs : list N) (mem : list N) (it it' : biter) : Prop :=
  it' = p_adv it (length bs) /\ firstn (length bs) (skipn (p_pos it) mem) = bs.

Lemma has_nil mem it : has [] mem it it.
Proof. split; [now rewrite p_adv_0|reflexivity]. Qed.
Lemma has_app a b mem it i1 i2 : has a mem it i1 -> has b mem i1 i2 -> has (a ++ b) mem it i2.
Proof.
  intros [-> E1] [-> E2]. split; [rewrite p_adv_adv, app_length; reflexivity|].
  assert (Ep : p_pos (p_adv it (length a)) = length a + p_pos it) by (unfold p_pos, p_adv, set_cursor; cbn; lia).
  rewrite Ep in E2. rewrite app_length. rewrite <- (firstn_skipn (length a) (skipn (p_pos it) mem)).
  rewrite firstn_app, E1. rewrite firstn_all2 by lia. f_equal.
  replace (length a + length b - length a) with (length b) by lia. rewrite skipn_skipn. exact E2.
Qed.

Lemma p_read_num host o k mem it v it' : Forall is_byte mem -> iter_ok mem it -> In (width k) [1; 2; 4; 8] ->
  read_num biter (read_int host) o k mem it = Done (v, it') ->
  in_range k v /\ has (layout o host (width k) (pattern (width k) v)) mem it it' /\ iter_ok mem it'.
Proof.
  intros Hm H Hw E. unfold read_num in E.
  destruct (read_int host o (width k) mem it) as [[b i1]| | |] eqn:E1; cbn [obind] in E; try discriminate. injection E as <- <-.
  destruct (read_int_bytes host o (width k) mem it b i1 Hm E1) as [Hb HL].
  destruct (pattern_of_bits k b Hw Hb) as [R P]. rewrite P. split; [exact R|].
  pose proof (small_width _ Hw) as [_ Hn].
  unfold read_int in E1. destruct (can_move_forward it (N.of_nat (width k))) eqn:Ec; [|discriminate]. rewrite HL in E1.
  injection E1 as _ <-. rewrite (p_sum mem it _ H Hn). unfold can_move_forward in Ec. rewrite (p_sum mem it _ H Hn) in Ec.
  unfold has. rewrite layout_length. split; [split; [reflexivity|]|].
  - unfold mem_load in HL. destruct (N.to_nat (it_cursor it) + width k <=? length mem); [|discriminate]. now injection HL.
  - unfold iter_ok, set_cursor in *. cbn. lia.
Qed.

Lemma p_read_nums host o k n : In (width k) [1; 2; 4; 8] -> forall mem it vs it', Forall is_byte mem -> iter_ok mem it ->
  read_nums biter (read_int host) o k n mem it = Done (vs, it') ->
  length vs = n /\ Forall (in_range k) vs /\
  has (flat_map (fun v => layout o host (width k) (pattern (width k) v)) vs) mem it it' /\ iter_ok mem it'.
Proof.
  intros Hw. induction n as [|n IH]; intros mem it vs it' Hm H E; cbn [read_nums] in E.
  - injection E as <- <-. split; [reflexivity|]. split; [constructor|]. split; [apply has_nil|exact H].
  - destruct (read_num biter (read_int host) o k mem it) as [[v i1]| | |] eqn:E1; cbn [obind] in E; try discriminate.
    destruct (read_nums biter (read_int host) o k n mem i1) as [[vs1 i2]| | |] eqn:E2; cbn [obind] in E; try discriminate.
    injection E as <- <-. apply p_read_num in E1; auto. destruct E1 as (R & Hh & H1).
    destruct (IH mem i1 vs1 i2 Hm H1 E2) as (L & F & Hh2 & H2). cbn [length flat_map]. split; [lia|].
    split; [constructor; auto|]. split; [eapply has_app; eassumption|exact H2].
Qed.

Lemma p_read_field host o s mem it f it' : Forall is_byte mem -> iter_ok mem it -> variable_ok host s ->
  read_field biter (read_int host) (read_bytes host) o s mem it = Done (f, it') ->
  field_ok host f /\ fits f s /\ iter_ok mem it' /\ (is_address s = false -> has (encode host o f) mem it it').
Proof.
  intros Hm H [Hs Hv] E. destruct s as [k|k n| | |bits old]; cbn [shape_ok read_field is_address] in *.
  - destruct (read_num biter (read_int host) o k mem it) as [[v i1]| | |] eqn:E1; cbn [obind] in E; try discriminate.
    injection E as <- <-. apply p_read_num in E1; auto. destruct E1 as (R & Hh & H1). cbn [field_ok fits encode]. auto.
  - destruct (read_nums biter (read_int host) o k n mem it) as [[v i1]| | |] eqn:E1; cbn [obind] in E; try discriminate.
    injection E as <- <-. apply p_read_nums in E1; auto. destruct E1 as (L & R & Hh & H1). cbn [field_ok fits encode]. auto 6.
  - destruct (read_num biter (read_int host) o count_t mem it) as [[v i1]| | |] eqn:E1; cbn [obind] in E; try discriminate.
    injection E as <- <-. apply p_read_num in E1; auto; [|cbn; auto]. destruct E1 as (R & Hh & H1).
    split; [exact (proj2 R)|]. cbn [field_ok fits encode]. auto.
  - destruct (read_num biter (read_int host) o count_t mem it) as [[v i1]| | |] eqn:E1; cbn [obind] in E; try discriminate.
    injection E as <- <-. apply p_read_num in E1; auto; [|cbn; auto]. destruct E1 as (R & Hh & H1).
    split; [exact (proj2 R)|]. cbn [field_ok fits encode]. auto.
  - destruct Hv as [-> Ho]. destruct Hs as [Hb Hn].
    destruct (read_bytes LittleEndian o (nb bits) mem it) as [[bs i1]| | |] eqn:E1; cbn [obind] in E; try discriminate.
    injection E as <- <-. cbn [field_ok fits]. split; [split; [reflexivity|]; split; [exact Hb|]; split; [exact Hn|]|].
    + apply (made_op bits (ARead o mem it) old); [exact Ho|now constructor|]. cbn [apply]. unfold read. rewrite E1. reflexivity.
    + split; [auto|]. split; [|discriminate].
      unfold read_bytes in E1. destruct (can_move_forward it (N.of_nat (nb bits))) eqn:Ec; [|discriminate].
      destruct (mem_load mem (N.to_nat (it_cursor it)) (nb bits)); [|discriminate]. injection E1 as _ <-.
      unfold can_move_forward in Ec. pose proof (nb_small bits Hn) as Sm.
      rewrite (p_sum mem it _ H Sm) in Ec. rewrite (p_sum mem it _ H Sm). apply N.leb_le in Ec.
      clear -H Ec. unfold iter_ok, set_cursor in *. cbn [it_start it_end it_cursor]. lia.
Qed.

Lemma p_read_all host s : Forall (fun q => variable_ok host (snd q)) s -> forall mem it fs it', Forall is_byte mem -> iter_ok mem it ->
  read_plain host s mem it = Done (fs, it') ->
  exists m, map fst m = map fst s /\ map snd m = fs /\ message_ok host m /\ readable_as m s /\ iter_ok mem it' /\
    (forallb (fun q => negb (is_address (snd q))) s = true -> has (message host m) mem it it').
Proof.
  unfold read_plain. induction 1 as [|[o x] s Hx Hs IH]; intros mem it fs it' Hm H E; cbn [read_all] in E.
  - injection E as <- <-. exists []. split; [reflexivity|]. split; [reflexivity|]. split; [constructor|]. split; [constructor|].
    split; [exact H|]. intros _. apply has_nil.
  - destruct (read_field biter (read_int host) (read_bytes host) o x mem it) as [[f i1]| | |] eqn:E1; cbn [obind] in E; try discriminate.
    destruct (read_all biter (read_int host) (read_bytes host) s mem i1) as [[fs1 i2]| | |] eqn:E2; cbn [obind] in E; try discriminate.
    injection E as <- <-. apply p_read_field in E1; auto. destruct E1 as (F1 & F2 & F3 & F4).
    destruct (IH mem i1 fs1 i2 Hm F3 E2) as (m & M1 & M2 & M3 & M4 & M5 & M6).
    exists ((o, f) :: m). cbn [map fst snd forallb message flat_map]. rewrite M1, M2.
    split; [reflexivity|]. split; [reflexivity|]. split; [constructor; auto|]. split; [constructor; auto|]. split; [exact M5|].
    intros B. apply andb_true_iff in B. destruct B as [B1 B2]. apply negb_true_iff in B1.
    eapply has_app; [apply F4, B1|apply M6, B2].
Qed.
