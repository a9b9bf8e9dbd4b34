From Coq Require Import ZifyBool ZifyNat ZifyN.
From Verif Require Import Base BaseProofs BufferIter BufferIterSpec BufferIterProofs ZcIter ZcIterSpec.

Lemma wsub_small a b : (b <= a)%N -> (a < 2 ^ 64)%N -> wsub 64 a b = (a - b)%N.
Proof.
  intros H1 H2. unfold wsub, wrap.
  replace (a + (2 ^ 64 - b))%N with (a - b + 1 * 2 ^ 64)%N by lia.
  rewrite N.mod_add by discriminate. apply N.mod_small. lia.
Qed.
Lemma skipn_cons_nth {X} (l : list X) i x : nth_error l i = Some x -> skipn i l = x :: skipn (S i) l.
Proof.
  revert i. induction l as [|y l IH]; intros [|i] H; try discriminate.
  - inversion H. reflexivity.
  - cbn in H. change (skipn (S i) (y :: l)) with (skipn i l). rewrite (IH _ H). reflexivity.
Qed.
Lemma nth_error_repeat {X} (x : X) n i : i < n -> nth_error (repeat x n) i = Some x.
Proof. revert i. induction n; intros [|i] H; cbn; auto; try lia. apply IHn. lia. Qed.

Lemma slice_length {X} a b (m : list X) : a <= b -> b <= length m -> length (slice a b m) = b - a.
Proof. intros. unfold slice. rewrite firstn_length, skipn_length. lia. Qed.

Lemma slice_nth {X} a b (m : list X) i : i < b - a -> nth_error (slice a b m) i = nth_error m (a + i).
Proof.
  intros H. unfold slice. rewrite nth_error_firstn_lt by auto. rewrite nth_error_skipn'. f_equal; lia.
Qed.

Lemma expand_length m s zs ze e : s <= zs -> zs <= ze -> ze <= e -> e - (ze - zs) <= length m ->
  length (expand m s zs ze e) = e - s.
Proof.
  intros. unfold expand. rewrite !app_length, repeat_length, !slice_length by lia. lia.
Qed.

Lemma expand_nth m s zs ze e p : s <= zs -> zs <= ze -> ze <= e -> e - (ze - zs) <= length m -> p < e - s ->
  nth_error (expand m s zs ze e) p =
  if p <? zs - s then nth_error m (s + p)
  else if p <? ze - s then Some 0%N
  else nth_error m (s + p - (ze - zs)).
Proof.
  intros. unfold expand.
  destruct (Nat.ltb_spec p (zs - s)).
  { rewrite nth_error_app1 by (rewrite slice_length; lia). apply slice_nth. lia. }
  rewrite nth_error_app2 by (rewrite slice_length; lia). rewrite slice_length by lia.
  destruct (Nat.ltb_spec p (ze - s)).
  { rewrite nth_error_app1 by (rewrite repeat_length; lia). apply nth_error_repeat. lia. }
  rewrite nth_error_app2 by (rewrite repeat_length; lia). rewrite repeat_length.
  rewrite slice_nth by lia. f_equal. lia.
Qed.

Lemma firstn_skipn_ext {X} (m : list X) p n (bs : list X) : length bs = n -> p + n <= length m ->
  (forall i, i < n -> nth_error bs i = nth_error m (p + i)) -> bs = firstn n (skipn p m).
Proof.
  intros L H E. apply list_ext. intros i. destruct (Nat.lt_ge_cases i n).
  - rewrite nth_error_firstn_lt, nth_error_skipn' by auto. rewrite E by auto. f_equal; lia.
  - rewrite !(proj2 (nth_error_None _ _)); auto; [|lia]. rewrite firstn_length. lia.
Qed.

Lemma zi_sum mem it n : ziter_ok mem it -> (n < 2 ^ 63)%N -> w64 (zi_cursor it + n) = (zi_cursor it + n)%N.
Proof. unfold ziter_ok. intros H Hn. apply w64_small. change (2 ^ 64)%N with (2 ^ 63 + 2 ^ 63)%N. lia. Qed.

Lemma zi_gamma_eq mem it : ziter_ok mem it -> zi_gamma it = (zi_ze it - zi_zs it)%N.
Proof.
  unfold ziter_ok. intros H. unfold zi_gamma. apply wsub_small; [lia|].
  change (2 ^ 64)%N with (2 ^ 63 + 2 ^ 63)%N. lia.
Qed.

Lemma zi_string_length mem it : ziter_ok mem it ->
  length (zi_string mem it) = N.to_nat (zi_end it) - N.to_nat (zi_start it).
Proof. unfold ziter_ok, zi_zeros. intros H. unfold zi_string. apply expand_length; lia. Qed.

Lemma zi_can_forward_eq mem it n : ziter_ok mem it -> (N.of_nat n < 2 ^ 63)%N ->
  zi_can_forward it (N.of_nat n) = (zi_pos it + n <=? length (zi_string mem it)).
Proof.
  intros H Hn. rewrite (zi_string_length mem it H). unfold zi_can_forward.
  rewrite (zi_sum mem it _ H Hn). unfold ziter_ok in H. unfold zi_pos. lia.
Qed.

Lemma zi_string_nth mem it p : ziter_ok mem it -> p < length (zi_string mem it) ->
  nth_error (zi_string mem it) p =
  if p <? zi_header it then nth_error mem (N.to_nat (zi_start it) + p)
  else if p <? zi_header it + zi_zeros it then Some 0%N
  else nth_error mem (N.to_nat (zi_start it) + p - zi_zeros it).
Proof.
  intros H Hp. rewrite (zi_string_length mem it H) in Hp. unfold ziter_ok, zi_header, zi_zeros in *.
  unfold zi_string. rewrite expand_nth by lia.
  replace (N.to_nat (zi_zs it) - N.to_nat (zi_start it) + (N.to_nat (zi_ze it) - N.to_nat (zi_zs it)))
    with (N.to_nat (zi_ze it) - N.to_nat (zi_start it)) by lia. reflexivity.
Qed.

Lemma zi_set_string mem it c : zi_string mem (zi_set it c) = zi_string mem it.
Proof. reflexivity. Qed.

Lemma zi_set_ok mem it c : ziter_ok mem it -> (zi_start it <= c <= zi_end it)%N -> ziter_ok mem (zi_set it c).
Proof. unfold ziter_ok, zi_set, zi_zeros. cbn. lia. Qed.

(** The place of the cursor in the storage. *)
Lemma zi_offset_eq mem it : ziter_ok mem it ->
  zi_offset it =
  if (zi_header it <=? zi_pos it) && (zi_pos it <? zi_header it + zi_zeros it) then AssertFail
  else Done (if zi_pos it <? zi_header it then zi_cursor it else (zi_cursor it - (zi_ze it - zi_zs it))%N).
Proof.
  intros H. unfold zi_offset, zi_in_zero. rewrite (zi_gamma_eq mem it H).
  pose proof H as H'. unfold ziter_ok, zi_header, zi_zeros, zi_pos in *.
  destruct (N.leb_spec (zi_zs it) (zi_cursor it)); destruct (N.ltb_spec (zi_cursor it) (zi_ze it));
  destruct (Nat.leb_spec (N.to_nat (zi_zs it) - N.to_nat (zi_start it)) (N.to_nat (zi_cursor it) - N.to_nat (zi_start it)));
  destruct (Nat.ltb_spec (N.to_nat (zi_cursor it) - N.to_nat (zi_start it))
     (N.to_nat (zi_zs it) - N.to_nat (zi_start it) + (N.to_nat (zi_ze it) - N.to_nat (zi_zs it))));
  cbn [andb]; try lia; auto;
  destruct (N.ltb_spec (zi_cursor it) (zi_zs it));
  destruct (Nat.ltb_spec (N.to_nat (zi_cursor it) - N.to_nat (zi_start it)) (N.to_nat (zi_zs it) - N.to_nat (zi_start it)));
  try lia; auto.
  all: f_equal; apply wsub_small; [lia|]; change (2 ^ 64)%N with (2 ^ 63 + 2 ^ 63)%N; lia.
Qed.

Lemma zi_read_byte_eq mem it : ziter_ok mem it -> zi_pos it < length (zi_string mem it) ->
  exists b, nth_error (zi_string mem it) (zi_pos it) = Some b /\
    zi_read_byte mem it = Done (b, zi_set it (zi_cursor it + 1)%N).
Proof.
  intros H Hp. rewrite (zi_string_nth mem it _ H Hp). unfold zi_read_byte.
  rewrite (zi_sum mem it 1 H) by reflexivity. rewrite (zi_offset_eq mem it H).
  rewrite (zi_string_length mem it H) in Hp. unfold zi_in_zero.
  pose proof H as H'. unfold ziter_ok, zi_header, zi_zeros, zi_pos in *.
  destruct (N.leb_spec (zi_zs it) (zi_cursor it)); destruct (N.ltb_spec (zi_cursor it) (zi_ze it));
  destruct (Nat.leb_spec (N.to_nat (zi_zs it) - N.to_nat (zi_start it)) (N.to_nat (zi_cursor it) - N.to_nat (zi_start it)));
  destruct (Nat.ltb_spec (N.to_nat (zi_cursor it) - N.to_nat (zi_start it))
     (N.to_nat (zi_zs it) - N.to_nat (zi_start it) + (N.to_nat (zi_ze it) - N.to_nat (zi_zs it))));
  destruct (Nat.ltb_spec (N.to_nat (zi_cursor it) - N.to_nat (zi_start it)) (N.to_nat (zi_zs it) - N.to_nat (zi_start it)));
  cbn [andb obind]; try lia; eauto.
  all: match goal with |- exists b, nth_error ?m ?i = _ /\ _ =>
    destruct (nth_error m i) as [b|] eqn:E; [|apply nth_error_None in E; lia] end.
  all: exists b; split; auto.
  all: match goal with E : nth_error ?m ?i = Some _ |- match nth_error ?m ?j with _ => _ end = _ =>
    replace j with i by lia; rewrite E end; auto.
Qed.

Lemma zi_read_cross_eq mem : forall n it, ziter_ok mem it -> zi_pos it + n <= length (zi_string mem it) ->
  zi_read_cross n mem it =
  Done (firstn n (skipn (zi_pos it) (zi_string mem it)), zi_set it (zi_cursor it + N.of_nat n)%N).
Proof.
  induction n as [|n IH]; intros it H Hp.
  - cbn [zi_read_cross firstn]. rewrite N.add_0_r. destruct it. reflexivity.
  - destruct (zi_read_byte_eq mem it H ltac:(lia)) as (b & Eb & E).
    cbn [zi_read_cross]. rewrite E. cbn [obind].
    assert (Ok : ziter_ok mem (zi_set it (zi_cursor it + 1)%N)).
    { apply zi_set_ok; auto. rewrite (zi_string_length mem it H) in Hp. unfold ziter_ok in H. unfold zi_pos in Hp. lia. }
    assert (Pe : zi_pos (zi_set it (zi_cursor it + 1)%N) = S (zi_pos it)).
    { unfold zi_pos, ziter_ok in *. cbn. lia. }
    rewrite IH; auto; [|rewrite Pe, zi_set_string; lia].
    cbn [obind]. rewrite Pe, zi_set_string. f_equal. f_equal.
    + rewrite (skipn_cons_nth _ _ _ Eb). reflexivity.
    + unfold zi_set. cbn [zi_start zi_zs zi_ze zi_end zi_cursor]. f_equal. lia.
Qed.

Lemma solid_eq mem it n off : ziter_ok mem it -> (N.of_nat n < 2 ^ 63)%N ->
  zi_pos it + n <= length (zi_string mem it) ->
  (forall i, i < n -> exists b, nth_error mem (N.to_nat off + i) = Some b) ->
  (forall i, i < n -> nth_error (zi_string mem it) (zi_pos it + i) = nth_error mem (N.to_nat off + i)) ->
  zi_read_solid n off mem it =
  Done (firstn n (skipn (zi_pos it) (zi_string mem it)), zi_set it (zi_cursor it + N.of_nat n)%N).
Proof.
  intros H Hn Hp Hb E. unfold zi_read_solid. rewrite (zi_sum mem it _ H Hn).
  destruct n as [|n]; [reflexivity|]. set (k := S n) in *. unfold mem_load.
  destruct (Nat.leb_spec (N.to_nat off + k) (length mem)).
  - f_equal. f_equal. apply firstn_skipn_ext; auto.
    + rewrite firstn_length, skipn_length. lia.
    + intros i Hi. rewrite nth_error_firstn_lt, nth_error_skipn' by auto. rewrite E by auto. f_equal; lia.
  - destruct (Hb n ltac:(lia)) as [b Eb]. apply nth_lt in Eb. lia.
Qed.

Lemma zi_fetch_eq mem it n : ziter_ok mem it -> (N.of_nat n < 2 ^ 63)%N ->
  zi_fetch n mem it =
  if zi_pos it + n <=? length (zi_string mem it)
  then Done (firstn n (skipn (zi_pos it) (zi_string mem it)), zi_set it (zi_cursor it + N.of_nat n)%N)
  else AssertFail.
Proof.
  intros H Hn. unfold zi_fetch. rewrite (zi_can_forward_eq mem it n H Hn).
  destruct (Nat.leb_spec (zi_pos it + n) (length (zi_string mem it))) as [Hp|Hp]; cbn [negb]; auto.
  rewrite (zi_sum mem it _ H Hn), (zi_gamma_eq mem it H).
  assert (Hl := zi_string_length mem it H).
  assert (HI : forall i, i < n -> nth_error (zi_string mem it) (zi_pos it + i) =
     if zi_pos it + i <? zi_header it then nth_error mem (N.to_nat (zi_start it) + (zi_pos it + i))
     else if zi_pos it + i <? zi_header it + zi_zeros it then Some 0%N
     else nth_error mem (N.to_nat (zi_start it) + (zi_pos it + i) - zi_zeros it))
    by (intros; apply zi_string_nth; auto; lia).
  destruct (N.leb_spec (zi_cursor it + N.of_nat n) (zi_zs it)).
  { apply solid_eq; auto; intros i Hi; specialize (HI i Hi); unfold ziter_ok, zi_pos, zi_header, zi_zeros in *.
    - destruct (nth_error mem (N.to_nat (zi_cursor it) + i)) eqn:E; [eauto|]. apply nth_error_None in E. lia.
    - rewrite HI. destruct (Nat.ltb_spec (N.to_nat (zi_cursor it) - N.to_nat (zi_start it) + i)
        (N.to_nat (zi_zs it) - N.to_nat (zi_start it))); [f_equal; lia|lia]. }
  destruct (N.leb_spec (zi_ze it) (zi_cursor it)).
  { rewrite wsub_small by (unfold ziter_ok in H; change (2 ^ 64)%N with (2 ^ 63 + 2 ^ 63)%N; lia).
    apply solid_eq; auto; intros i Hi; specialize (HI i Hi); unfold ziter_ok, zi_pos, zi_header, zi_zeros in *.
    - destruct (nth_error mem (N.to_nat (zi_cursor it - (zi_ze it - zi_zs it)) + i)) eqn:E; [eauto|].
      apply nth_error_None in E. lia.
    - rewrite HI.
      destruct (Nat.ltb_spec (N.to_nat (zi_cursor it) - N.to_nat (zi_start it) + i)
        (N.to_nat (zi_zs it) - N.to_nat (zi_start it))); [lia|].
      destruct (Nat.ltb_spec (N.to_nat (zi_cursor it) - N.to_nat (zi_start it) + i)
        (N.to_nat (zi_zs it) - N.to_nat (zi_start it) + (N.to_nat (zi_ze it) - N.to_nat (zi_zs it)))); [lia|].
      f_equal; lia. }
  destruct (N.leb_spec (zi_zs it) (zi_cursor it));
    destruct (N.leb_spec (zi_cursor it + N.of_nat n) (zi_ze it)); cbn [andb];
    try (apply zi_read_cross_eq; auto; fail).
  f_equal. f_equal. apply firstn_skipn_ext; auto; [apply repeat_length|].
  intros i Hi. rewrite nth_error_repeat by auto. rewrite HI by auto.
  unfold ziter_ok, zi_pos, zi_header, zi_zeros in *.
  destruct (Nat.ltb_spec (N.to_nat (zi_cursor it) - N.to_nat (zi_start it) + i)
    (N.to_nat (zi_zs it) - N.to_nat (zi_start it))); [lia|].
  destruct (Nat.ltb_spec (N.to_nat (zi_cursor it) - N.to_nat (zi_start it) + i)
    (N.to_nat (zi_zs it) - N.to_nat (zi_start it) + (N.to_nat (zi_ze it) - N.to_nat (zi_zs it)))); [auto|lia].
Qed.

Lemma zi_read_bytes_eq host o n mem it : ziter_ok mem it -> (N.of_nat n < 2 ^ 63)%N ->
  zi_read_bytes host o n mem it =
  if zi_pos it + n <=? length (zi_string mem it)
  then Done (in_order host o (firstn n (skipn (zi_pos it) (zi_string mem it))),
             zi_set it (zi_cursor it + N.of_nat n)%N)
  else AssertFail.
Proof.
  intros H Hn. unfold zi_read_bytes. rewrite (zi_fetch_eq mem it n H Hn).
  destruct (zi_pos it + n <=? _); reflexivity.
Qed.

Lemma zi_read_int_eq host o n mem it : ziter_ok mem it -> (N.of_nat n < 2 ^ 63)%N ->
  zi_read_int host o n mem it =
  if zi_pos it + n <=? length (zi_string mem it)
  then Done (of_mem_bytes host (in_order host o (firstn n (skipn (zi_pos it) (zi_string mem it)))),
             zi_set it (zi_cursor it + N.of_nat n)%N)
  else AssertFail.
Proof.
  intros H Hn. unfold zi_read_int. rewrite (zi_can_forward_eq mem it n H Hn), (zi_fetch_eq mem it n H Hn).
  rewrite (zi_sum mem it _ H Hn).
  destruct (Nat.leb_spec (zi_pos it + n) (length (zi_string mem it))) as [Hp|Hp]; cbn [negb]; auto.
  replace (_ && _) with false; [cbn [obind]; reflexivity|].
  unfold ziter_ok in H.
  destruct (Nat.eqb_spec n 1) as [->|]; cbn [andb]; auto.
  destruct (N.leb_spec (zi_cursor it + N.of_nat 1) (zi_zs it)); cbn [negb andb]; auto.
  destruct (N.leb_spec (zi_ze it) (zi_cursor it)); cbn [negb andb]; auto.
  destruct (N.leb_spec (zi_zs it) (zi_cursor it)); destruct (N.leb_spec (zi_cursor it + N.of_nat 1) (zi_ze it));
    cbn [negb andb]; auto; lia.
Qed.

(** ** Writing *)

Lemma zi_cross_eq mem it n : ziter_ok mem it -> (N.of_nat n < 2 ^ 63)%N ->
  zi_cross it (N.of_nat n) =
  ((zi_pos it <? zi_header it) && (zi_header it <? zi_pos it + n)) ||
  ((zi_pos it <? zi_header it + zi_zeros it) && (zi_header it + zi_zeros it <? zi_pos it + n)).
Proof.
  intros H Hn. unfold zi_cross. rewrite (zi_sum mem it _ H Hn).
  unfold ziter_ok, zi_pos, zi_header, zi_zeros in *. lia.
Qed.

Lemma overwrite_nth p bs s i : p + length bs <= length s -> i < length s ->
  nth_error (overwrite p bs s) i =
  if (p <=? i) && (i <? p + length bs) then nth_error bs (i - p) else nth_error s i.
Proof.
  intros H Hi. unfold overwrite.
  destruct (Nat.leb_spec p i); destruct (Nat.ltb_spec i (p + length bs)); cbn [andb].
  - rewrite nth_error_app2, firstn_length by (rewrite firstn_length; lia). rewrite nth_error_app1 by lia. f_equal. lia.
  - rewrite nth_error_app2, firstn_length by (rewrite firstn_length; lia). rewrite nth_error_app2 by lia.
    rewrite nth_error_skipn'. f_equal. lia.
  - rewrite nth_error_app1 by (rewrite firstn_length; lia). apply nth_error_firstn_lt. lia.
  - rewrite nth_error_app1 by (rewrite firstn_length; lia). apply nth_error_firstn_lt. lia.
Qed.
Lemma overwrite_length p bs s : p + length bs <= length s -> length (overwrite p bs s) = length s.
Proof. intros H. unfold overwrite. rewrite !app_length, firstn_length, skipn_length. lia. Qed.

Lemma zi_store_eq b mem it : ziter_ok mem it -> b <> [] -> (N.of_nat (length b) < 2 ^ 63)%N ->
  if writable it (length b) (length (zi_string mem it)) then
    exists mem', zi_store b mem it = Done (mem', zi_set it (zi_cursor it + N.of_nat (length b))%N) /\
      length mem' = length mem /\
      zi_string mem' it = overwrite (zi_pos it) b (zi_string mem it) /\
      mem_store mem (if zi_pos it <? zi_header it then N.to_nat (zi_start it) + zi_pos it
                     else N.to_nat (zi_start it) + zi_pos it - zi_zeros it) b = Some mem'
  else zi_store b mem it = AssertFail.
Proof.
  intros H Hb Hn. unfold writable, zi_store, zi_writable.
  rewrite (zi_can_forward_eq mem it _ H Hn), (zi_cross_eq mem it _ H Hn), (zi_offset_eq mem it H), (zi_sum mem it _ H Hn).
  assert (Lb : 0 < length b) by (destruct b; [congruence|cbn; lia]).
  assert (Hl := zi_string_length mem it H).
  set (n := length b) in *. set (p := zi_pos it) in *. set (hl := zi_header it) in *. set (g := zi_zeros it) in *.
  destruct (Nat.leb_spec (p + n) (length (zi_string mem it))) as [H1|H1]; cbn [andb]; [|reflexivity].
  destruct (Nat.leb_spec (p + n) hl) as [H2|H2]; cbn [orb].
  2: destruct (Nat.leb_spec (hl + g) p) as [H3|H3].
  3: { destruct (Nat.ltb_spec p hl); destruct (Nat.ltb_spec hl (p + n)); try lia; cbn [andb orb negb]; auto.
       destruct (Nat.ltb_spec p (hl + g)); try lia.
       destruct (Nat.ltb_spec (hl + g) (p + n)); cbn [andb orb negb]; auto.
       destruct (Nat.leb_spec hl p); try lia. cbn [andb obind]. auto. }
  - replace (negb _) with true.
    2: { destruct (Nat.ltb_spec hl (p + n)); [lia|]. rewrite andb_false_r. cbn [orb].
         destruct (Nat.ltb_spec (hl + g) (p + n)); [lia|]. rewrite andb_false_r. auto. }
    destruct (Nat.leb_spec hl p); [lia|]. cbn [andb obind].
    destruct (Nat.ltb_spec p hl); [|lia].
    destruct (mem_store_some mem (N.to_nat (zi_cursor it)) b) as [mem' E].
    { fold n. unfold ziter_ok in H. subst p hl g. unfold zi_pos, zi_header, zi_zeros in *. lia. }
    exists mem'. rewrite E. split; [destruct b; [congruence|auto]|].
    pose proof (mem_store_length _ _ _ _ E) as L.
    replace (N.to_nat (zi_start it) + p) with (N.to_nat (zi_cursor it))
      by (subst p; unfold zi_pos, ziter_ok in *; lia).
    split; auto. split; auto.
    assert (H' : ziter_ok mem' it) by (unfold ziter_ok in *; rewrite L; auto).
    apply list_ext. intros i. destruct (Nat.lt_ge_cases i (length (zi_string mem it))) as [Hi|Hi].
    2: { rewrite !(proj2 (nth_error_None _ _)); auto; [rewrite overwrite_length; auto|].
         rewrite (zi_string_length mem' it H'). rewrite Hl in Hi. auto. }
    rewrite overwrite_nth by auto. fold n.
    rewrite (zi_string_nth mem' it i H') by (rewrite (zi_string_length mem' it H'); lia).
    rewrite (zi_string_nth mem it i H Hi). fold hl g.
    assert (Ep : N.to_nat (zi_cursor it) = N.to_nat (zi_start it) + p)
      by (subst p; unfold zi_pos, ziter_ok in *; lia).
    destruct (Nat.ltb_spec i hl).
    + destruct (Nat.leb_spec p i); destruct (Nat.ltb_spec i (p + n)); cbn [andb].
      2-4: apply (mem_store_other _ _ _ _ _ E); fold n; lia.
      destruct (nth_error b (i - p)) as [x|] eqn:Ex; [|apply nth_error_None in Ex; fold n in Ex; lia].
      rewrite <- (mem_store_byte _ _ _ _ _ _ E Ex). f_equal. lia.
    + destruct (Nat.leb_spec p i); destruct (Nat.ltb_spec i (p + n)); cbn [andb]; try lia.
      destruct (Nat.ltb_spec i (hl + g)); auto. apply (mem_store_other _ _ _ _ _ E). fold n. unfold hl, g in *.
      unfold ziter_ok, zi_header, zi_zeros in *. lia.
  - replace (negb _) with true.
    2: { destruct (Nat.ltb_spec p hl); [lia|]. cbn [andb orb].
         destruct (Nat.ltb_spec p (hl + g)); [lia|]. auto. }
    destruct (Nat.ltb_spec p (hl + g)); [lia|]. rewrite andb_false_r. cbn [obind].
    destruct (Nat.ltb_spec p hl); [lia|].
    assert (Ep : N.to_nat (zi_cursor it - (zi_ze it - zi_zs it)) = N.to_nat (zi_start it) + p - g).
    { subst p g hl. unfold zi_pos, zi_zeros, zi_header, ziter_ok in *. lia. }
    assert (Eg : g <= p) by lia.
    destruct (mem_store_some mem (N.to_nat (zi_cursor it - (zi_ze it - zi_zs it))) b) as [mem' E].
    { fold n. rewrite Ep. unfold ziter_ok in H. subst p hl g. unfold zi_pos, zi_header, zi_zeros in *. lia. }
    exists mem'. rewrite E. split; [destruct b; [congruence|auto]|].
    pose proof (mem_store_length _ _ _ _ E) as L. rewrite Ep in E.
    split; auto. split; auto.
    assert (H' : ziter_ok mem' it) by (unfold ziter_ok in *; rewrite L; auto).
    apply list_ext. intros i. destruct (Nat.lt_ge_cases i (length (zi_string mem it))) as [Hi|Hi].
    2: { rewrite !(proj2 (nth_error_None _ _)); auto; [rewrite overwrite_length; auto|].
         rewrite (zi_string_length mem' it H'). rewrite Hl in Hi. auto. }
    rewrite overwrite_nth by auto. fold n.
    rewrite (zi_string_nth mem' it i H') by (rewrite (zi_string_length mem' it H'); lia).
    rewrite (zi_string_nth mem it i H Hi). fold hl g.
    destruct (Nat.ltb_spec i hl).
    + destruct (Nat.leb_spec p i); cbn [andb]; try lia. apply (mem_store_other _ _ _ _ _ E); fold n; lia.
    + destruct (Nat.ltb_spec i (hl + g)).
      { destruct (Nat.leb_spec p i); cbn [andb]; try lia. auto. }
      destruct (Nat.leb_spec p i); destruct (Nat.ltb_spec i (p + n)); cbn [andb].
      2-4: apply (mem_store_other _ _ _ _ _ E); fold n; lia.
      destruct (nth_error b (i - p)) as [x|] eqn:Ex; [|apply nth_error_None in Ex; fold n in Ex; lia].
      rewrite <- (mem_store_byte _ _ _ _ _ _ E Ex). f_equal. lia.
Qed.

(** ** Integers *)

Lemma in_slice {X} a b (m : list X) x : In x (slice a b m) -> In x m.
Proof.
  unfold slice. intros H. rewrite <- (firstn_skipn a m). apply in_or_app. right.
  rewrite <- (firstn_skipn (b - a) (skipn a m)). apply in_or_app. auto.
Qed.
Lemma zi_string_bytes mem it : Forall is_byte mem -> Forall is_byte (zi_string mem it).
Proof.
  intros H. unfold zi_string, expand. rewrite Forall_forall in *. intros x Hx.
  apply in_app_or in Hx. destruct Hx as [Hx|Hx]; [eapply H, in_slice, Hx|].
  apply in_app_or in Hx. destruct Hx as [Hx|Hx]; [|eapply H, in_slice, Hx].
  apply repeat_spec in Hx. subst. reflexivity.
Qed.
Lemma in_order_length host o bs : length (in_order host o bs) = length bs.
Proof. unfold in_order. destruct (is_native host o); [auto|apply rev_length]. Qed.
Lemma in_order_bytes host o bs : Forall is_byte bs -> Forall is_byte (in_order host o bs).
Proof. unfold in_order. destruct (is_native host o); [auto|apply Forall_rev]. Qed.
Lemma in_order_twice host o bs : in_order host o (in_order host o bs) = bs.
Proof. unfold in_order. destruct (is_native host o); [auto|apply rev_involutive]. Qed.

Lemma layout_value host o n bs : Forall is_byte bs -> length bs = n ->
  layout o host n (of_mem_bytes host (in_order host o bs)) = bs /\
  (of_mem_bytes host (in_order host o bs) < 2 ^ (8 * N.of_nat n))%N.
Proof.
  intros H L. pose proof (in_order_bytes host o bs H) as Hb. split.
  - rewrite <- keep_mem_bytes. pose proof (mem_bytes_of_mem_bytes host _ Hb) as E.
    rewrite in_order_length, L in E. rewrite E. apply in_order_twice.
  - pose proof (of_mem_bytes_lt host _ Hb) as E. rewrite in_order_length, L in E. exact E.
Qed.

Lemma layout_length o host n v : length (layout o host n v) = n.
Proof. rewrite <- keep_mem_bytes, keep_rev_length. apply mem_bytes_length. Qed.
Lemma value_layout host o n v : (v < 2 ^ (8 * N.of_nat n))%N ->
  of_mem_bytes host (in_order host o (layout o host n v)) = v.
Proof.
  intros H. rewrite <- keep_mem_bytes. change (if keep_endian host o then ?x else rev ?x) with (in_order host o x).
  rewrite in_order_twice. apply of_mem_bytes_mem_bytes; auto.
Qed.

Lemma read_int_value host o n mem it v it' : ziter_ok mem it -> (N.of_nat n < 2 ^ 63)%N -> Forall is_byte mem ->
  zi_read_int host o n mem it = Done (v, it') <->
  zi_pos it + n <= length (zi_string mem it) /\ (v < 2 ^ (8 * N.of_nat n))%N /\
  layout o host n v = firstn n (skipn (zi_pos it) (zi_string mem it)) /\
  it' = zi_set it (zi_cursor it + N.of_nat n)%N.
Proof.
  intros H Hn Hb. rewrite (zi_read_int_eq host o n mem it H Hn).
  destruct (Nat.leb_spec (zi_pos it + n) (length (zi_string mem it))) as [L|L].
  2: { split; [discriminate|]. intros (? & _). lia. }
  set (bs := firstn n (skipn (zi_pos it) (zi_string mem it))).
  assert (Lb : length bs = n) by (unfold bs; rewrite firstn_length, skipn_length; lia).
  assert (Bb : Forall is_byte bs).
  { pose proof (zi_string_bytes mem it Hb) as Hs. rewrite Forall_forall in *. intros x Hx. apply Hs.
    apply (in_slice (zi_pos it) (zi_pos it + n)). unfold slice.
    replace (zi_pos it + n - zi_pos it) with n by lia. exact Hx. }
  destruct (layout_value host o n bs Bb Lb) as [E1 E2]. split.
  - intros [= <- <-]. auto.
  - intros (_ & Hv & E & ->). rewrite <- E, value_layout by auto. auto.
Qed.

Lemma overwrite_read p bs s : p + length bs <= length s -> firstn (length bs) (skipn p (overwrite p bs s)) = bs.
Proof.
  intros H. symmetry. apply firstn_skipn_ext; auto; [rewrite overwrite_length; auto|].
  intros i Hi. rewrite overwrite_nth by lia.
  destruct (Nat.leb_spec p (p + i)); destruct (Nat.ltb_spec (p + i) (p + length bs)); try lia. cbn [andb].
  f_equal. lia.
Qed.

Lemma zi_write_int_store host o n v mem it : zi_write_int host o n v mem it = zi_store (layout o host n v) mem it.
Proof. unfold zi_write_int. rewrite <- keep_mem_bytes. reflexivity. Qed.

Lemma store_done b mem it mem' it' : ziter_ok mem it -> b <> [] -> (N.of_nat (length b) < 2 ^ 63)%N ->
  zi_store b mem it = Done (mem', it') ->
  writable it (length b) (length (zi_string mem it)) = true /\
  it' = zi_set it (zi_cursor it + N.of_nat (length b))%N /\ length mem' = length mem /\
  ziter_ok mem' it /\ ziter_ok mem' it' /\
  zi_string mem' it = overwrite (zi_pos it) b (zi_string mem it) /\
  (forall i, i < N.to_nat (zi_start it) \/ N.to_nat (zi_end it) - zi_zeros it <= i -> nth_error mem' i = nth_error mem i).
Proof.
  intros H Hb Hn E. pose proof (zi_store_eq b mem it H Hb Hn) as W.
  pose proof (zi_string_length mem it H) as Hl.
  destruct (writable it (length b) (length (zi_string mem it))) eqn:Ew; [|congruence].
  destruct W as (m1 & E1 & L & S & Em). rewrite E in E1. inversion E1; subst m1 it'. clear E1.
  assert (H' : ziter_ok mem' it) by (unfold ziter_ok in *; rewrite L; auto).
  unfold writable in Ew. apply andb_true_iff in Ew. destruct Ew as [Ew Ez]. apply Nat.leb_le in Ew.
  split; auto. split; auto. split; auto. split; auto. split; [|split; auto].
  - apply zi_set_ok; auto. unfold ziter_ok, zi_pos in *. lia.
  - intros i Hi. apply (mem_store_other _ _ _ _ _ Em).
    rewrite Hl in Ew. apply orb_true_iff in Ez. rewrite !Nat.leb_le in Ez.
    unfold ziter_ok, zi_pos, zi_header, zi_zeros in *.
    destruct (Nat.ltb_spec (N.to_nat (zi_cursor it) - N.to_nat (zi_start it))
       (N.to_nat (zi_zs it) - N.to_nat (zi_start it))); lia.
Qed.

Lemma write_read_int host o n v mem it mem' it' : ziter_ok mem it -> 0 < n -> (N.of_nat n < 2 ^ 63)%N ->
  (v < 2 ^ (8 * N.of_nat n))%N ->
  zi_write_int host o n v mem it = Done (mem', it') -> zi_read_int host o n mem' it = Done (v, it').
Proof.
  intros H Hp Hn Hv. rewrite zi_write_int_store. intros E.
  apply store_done in E; auto; rewrite ?layout_length; auto.
  2: { intros E1. pose proof (layout_length o host n v) as L. rewrite E1 in L. cbn in L. lia. }
  destruct E as (W & -> & L & H1 & H2 & S & _). rewrite layout_length in *.
  unfold writable in W. apply andb_true_iff in W. destruct W as [W _].
  rewrite (zi_read_int_eq host o n mem' it H1 Hn). rewrite S, overwrite_length by (rewrite layout_length; apply Nat.leb_le; auto).
  rewrite W. apply Nat.leb_le in W.
  pose proof (overwrite_read (zi_pos it) (layout o host n v) (zi_string mem it)) as R. rewrite layout_length in R.
  rewrite R by auto. rewrite value_layout by auto. auto.
Qed.

Lemma write_read_bytes host o bs mem it mem' it' : ziter_ok mem it -> bs <> [] -> (N.of_nat (length bs) < 2 ^ 63)%N ->
  zi_write_bytes host o bs mem it = Done (mem', it') -> zi_read_bytes host o (length bs) mem' it = Done (bs, it').
Proof.
  intros H Hp Hn. unfold zi_write_bytes. change (if keep_endian host o then bs else rev bs) with (in_order host o bs).
  intros E. apply store_done in E; auto; rewrite ?in_order_length; auto.
  2: { intros E1. apply Hp. apply length_zero_iff_nil. rewrite <- (in_order_length host o bs), E1. auto. }
  destruct E as (W & -> & L & H1 & H2 & S & _). rewrite in_order_length in *.
  unfold writable in W. apply andb_true_iff in W. destruct W as [W _].
  rewrite (zi_read_bytes_eq host o _ mem' it H1 Hn). rewrite S, overwrite_length by (rewrite in_order_length; apply Nat.leb_le; auto).
  rewrite W. apply Nat.leb_le in W.
  pose proof (overwrite_read (zi_pos it) (in_order host o bs) (zi_string mem it)) as R. rewrite in_order_length in R.
  rewrite R by auto. rewrite in_order_twice. auto.
Qed.

(** ** Moving *)

Lemma zi_forward_eq mem it n : ziter_ok mem it -> (N.of_nat n < 2 ^ 63)%N ->
  zi_forward it (N.of_nat n) =
  if zi_pos it + n <=? length (zi_string mem it) then Done (zi_set it (zi_cursor it + N.of_nat n)%N) else AssertFail.
Proof.
  intros H Hn. unfold zi_forward. rewrite (zi_can_forward_eq mem it n H Hn), (zi_sum mem it _ H Hn). auto.
Qed.
Lemma zi_backward_eq mem it n : ziter_ok mem it -> (N.of_nat n < 2 ^ 63)%N ->
  zi_backward it (N.of_nat n) =
  if n <=? zi_pos it then Done (zi_set it (zi_cursor it - N.of_nat n)%N) else AssertFail.
Proof.
  intros H Hn. unfold zi_backward, zi_can_backward.
  rewrite w64_small by (unfold ziter_ok in H; change (2 ^ 64)%N with (2 ^ 63 + 2 ^ 63)%N; lia).
  unfold ziter_ok, zi_pos in *.
  destruct (N.leb_spec (zi_start it + N.of_nat n) (zi_cursor it));
  destruct (Nat.leb_spec n (N.to_nat (zi_cursor it) - N.to_nat (zi_start it))); try lia; auto.
  rewrite wsub_small; auto; [lia|]. change (2 ^ 64)%N with (2 ^ 63 + 2 ^ 63)%N. lia.
Qed.
Lemma zi_diff_eq mem a b : ziter_ok mem a -> ziter_ok mem b -> zi_start a = zi_start b ->
  zi_diff a b = (Z.of_nat (zi_pos a) - Z.of_nat (zi_pos b))%Z.
Proof.
  intros Ha Hb E. unfold zi_diff. unfold ziter_ok, zi_pos in *.
  destruct (N.leb_spec (zi_cursor b) (zi_cursor a)).
  - rewrite wsub_small; [|lia|change (2 ^ 64)%N with (2 ^ 63 + 2 ^ 63)%N; lia].
    destruct (N.ltb_spec (zi_cursor a - zi_cursor b) (2 ^ 63)); lia.
  - unfold wsub, wrap. rewrite N.mod_small by (change (2 ^ 64)%N with (2 ^ 63 + 2 ^ 63)%N; lia).
    change (2 ^ 64)%N with (2 ^ 63 + 2 ^ 63)%N.
    change (2 ^ 64)%Z with (Z.of_N (2 ^ 63) + Z.of_N (2 ^ 63))%Z.
    destruct (N.ltb_spec (zi_cursor a + (2 ^ 63 + 2 ^ 63 - zi_cursor b)) (2 ^ 63)); lia.
Qed.
