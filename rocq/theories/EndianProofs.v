(** Lemmas about byte order conversion. *)
From Verif Require Import Base BaseProofs Endian.
From Coq Require Import ZifyBool ZifyNat ZifyN.
Ltac Zify.zify_post_hook ::= Z.div_mod_to_equations.
Local Open Scope N_scope.

Lemma byte_mask v k : N.land v (N.shiftl 255 k) = N.shiftl ((v / 2 ^ k) mod 256) k.
Proof.
  change 256 with (2 ^ 8). rewrite <- N.land_ones, <- N.shiftr_div_pow2.
  apply N.bits_inj. intros i. rewrite N.land_spec.
  destruct (N.lt_ge_cases i k) as [H|H].
  - rewrite !N.shiftl_spec_low by exact H. apply andb_false_r.
  - rewrite !N.shiftl_spec_high' by exact H. rewrite N.land_spec, N.shiftr_spec'.
    replace (i - k + k) with i by lia. reflexivity.
Qed.

Lemma lor_add a k r : r < 2 ^ k -> N.lor (a * 2 ^ k) r = a * 2 ^ k + r.
Proof.
  intros H. rewrite <- N.shiftl_mul_pow2.
  assert (Hd : N.land (N.shiftl a k) r = 0).
  { apply N.bits_inj. intros i. rewrite N.land_spec, N.bits_0. destruct (N.lt_ge_cases i k) as [Hi|Hi].
    - now rewrite N.shiftl_spec_low.
    - rewrite <- (N.mod_small r (2 ^ k) H), N.mod_pow2_bits_high by exact Hi. apply andb_false_r. }
  rewrite <- N.lxor_lor by exact Hd. symmetry. apply N.add_nocarry_lxor. exact Hd.
Qed.

(** Nested bytes as quotients. *)
Lemma div256 v k : v / 2 ^ k / 256 = v / 2 ^ (k + 8).
Proof. rewrite N.div_div by (try apply N.pow_nonzero; discriminate). f_equal. rewrite N.pow_add_r. reflexivity. Qed.

Ltac bytes_of v :=
  repeat rewrite N.div_div by discriminate;
  cbn [N.mul Pos.mul].

Definition rev_value (n : nat) (v : N) : N := of_le_bytes (rev (le_bytes n v)).

Lemma reorder16_spec v : v < 2 ^ 16 -> reorder16 v = rev_value 2 v.
Proof.
  intros H. unfold reorder16, rev_value. cbn [le_bytes rev app of_le_bytes].
  rewrite N.shiftl_mul_pow2, N.shiftr_div_pow2.
  assert (Hd : v / 2 ^ 8 < 2 ^ 8) by (apply N.div_lt_upper_bound; [discriminate|exact H]).
  rewrite lor_add by exact Hd. unfold wrap. change (2 ^ 8) with 256 in *. change (2 ^ 16) with 65536 in *. lia.
Qed.

Lemma wrap_shl w b k : b < 256 -> k + 8 <= w -> wrap w (N.shiftl b k) = b * 2 ^ k.
Proof.
  intros Hb Hk. rewrite N.shiftl_mul_pow2. apply wrap_small.
  apply N.lt_le_trans with (2 ^ 8 * 2 ^ k).
  - apply N.mul_lt_mono_pos_r; [apply pow2_pos|exact Hb].
  - rewrite <- N.pow_add_r. apply N.pow_le_mono_r; lia.
Qed.

Lemma mask_up w v k s : k + s + 8 <= w ->
  wrap w (N.shiftl (N.land v (N.shiftl 255 k)) s) = ((v / 2 ^ k) mod 256) * 2 ^ (k + s).
Proof.
  intros H. rewrite byte_mask, N.shiftl_shiftl. apply wrap_shl; [apply N.mod_lt; discriminate|lia].
Qed.

Lemma mask_down v k s : s <= k ->
  N.shiftr (N.land v (N.shiftl 255 k)) s = ((v / 2 ^ k) mod 256) * 2 ^ (k - s).
Proof.
  intros H. rewrite byte_mask, N.shiftr_shiftl_l by exact H. apply N.shiftl_mul_pow2.
Qed.

Lemma of_bytes4 b0 b1 b2 b3 :
  b0 < 256 -> b1 < 256 -> b2 < 256 -> b3 < 256 ->
  N.lor (N.lor (N.lor (b0 * 2 ^ 24) (b1 * 2 ^ 16)) (b2 * 2 ^ 8)) (b3 * 2 ^ 0)
  = of_le_bytes [b3; b2; b1; b0].
Proof.
  intros H0 H1 H2 H3.
  rewrite (lor_add b0 24) by lia.
  replace (b0 * 2 ^ 24 + b1 * 2 ^ 16) with ((b0 * 256 + b1) * 2 ^ 16) by lia.
  rewrite (lor_add _ 16) by lia.
  replace ((b0 * 256 + b1) * 2 ^ 16 + b2 * 2 ^ 8) with (((b0 * 256 + b1) * 256 + b2) * 2 ^ 8) by lia.
  rewrite (lor_add _ 8) by lia. cbn [of_le_bytes]. lia.
Qed.

Lemma of_bytes8 b0 b1 b2 b3 b4 b5 b6 b7 :
  b0 < 256 -> b1 < 256 -> b2 < 256 -> b3 < 256 -> b4 < 256 -> b5 < 256 -> b6 < 256 -> b7 < 256 ->
  N.lor (N.lor (N.lor (N.lor (N.lor (N.lor (N.lor (b0 * 2 ^ 56) (b1 * 2 ^ 48)) (b2 * 2 ^ 40)) (b3 * 2 ^ 32))
    (b4 * 2 ^ 24)) (b5 * 2 ^ 16)) (b6 * 2 ^ 8)) (b7 * 2 ^ 0)
  = of_le_bytes [b7; b6; b5; b4; b3; b2; b1; b0].
Proof.
  intros H0 H1 H2 H3 H4 H5 H6 H7.
  rewrite (lor_add b0 56) by lia.
  replace (b0 * 2 ^ 56 + b1 * 2 ^ 48) with ((b0 * 256 + b1) * 2 ^ 48) by lia.
  rewrite (lor_add _ 48) by lia.
  replace ((b0 * 256 + b1) * 2 ^ 48 + b2 * 2 ^ 40) with (((b0 * 256 + b1) * 256 + b2) * 2 ^ 40) by lia.
  rewrite (lor_add _ 40) by lia. set (x3 := (b0 * 256 + b1) * 256 + b2).
  replace (x3 * 2 ^ 40 + b3 * 2 ^ 32) with ((x3 * 256 + b3) * 2 ^ 32) by lia.
  rewrite (lor_add _ 32) by lia. set (x4 := x3 * 256 + b3).
  replace (x4 * 2 ^ 32 + b4 * 2 ^ 24) with ((x4 * 256 + b4) * 2 ^ 24) by lia.
  rewrite (lor_add _ 24) by lia. set (x5 := x4 * 256 + b4).
  replace (x5 * 2 ^ 24 + b5 * 2 ^ 16) with ((x5 * 256 + b5) * 2 ^ 16) by lia.
  rewrite (lor_add _ 16) by lia. set (x6 := x5 * 256 + b5).
  replace (x6 * 2 ^ 16 + b6 * 2 ^ 8) with ((x6 * 256 + b6) * 2 ^ 8) by lia.
  rewrite (lor_add _ 8) by lia. cbn [of_le_bytes]. subst x3 x4 x5 x6. lia.
Qed.

Lemma le_bytes_pow n : forall v k, le_bytes n (v / 2 ^ k) =
  map (fun i => (v / 2 ^ (k + 8 * N.of_nat i)) mod 256) (seq 0 n).
Proof.
  induction n as [|n IH]; intros v k; [reflexivity|]. cbn [le_bytes seq map].
  f_equal; [do 2 f_equal; f_equal; lia|].
  rewrite div256, IH, <- seq_shift, map_map. apply map_ext. intros i. do 3 f_equal. lia.
Qed.

Lemma reorder32_spec v : reorder32 v = rev_value 4 v.
Proof.
  unfold reorder32, rev_value.
  change 0x000000ff with (N.shiftl 255 0). change 0x0000ff00 with (N.shiftl 255 8).
  change 0x00ff0000 with (N.shiftl 255 16). change 0xff000000 with (N.shiftl 255 24).
  rewrite !mask_up, !mask_down by (vm_compute; discriminate).
  change (0 + 24) with 24. change (8 + 8) with 16. change (16 - 8) with 8. change (24 - 24) with 0.
  rewrite of_bytes4 by (apply N.mod_lt; discriminate).
  rewrite <- (N.div_1_r v) at 5. change 1 with (2 ^ 0). rewrite le_bytes_pow.
  reflexivity.
Qed.

Lemma reorder64_spec v : reorder64 v = rev_value 8 v.
Proof.
  unfold reorder64, rev_value.
  change 0x00000000000000ff with (N.shiftl 255 0). change 0x000000000000ff00 with (N.shiftl 255 8).
  change 0x0000000000ff0000 with (N.shiftl 255 16). change 0x00000000ff000000 with (N.shiftl 255 24).
  change 0x000000ff00000000 with (N.shiftl 255 32). change 0x0000ff0000000000 with (N.shiftl 255 40).
  change 0x00ff000000000000 with (N.shiftl 255 48). change 0xff00000000000000 with (N.shiftl 255 56).
  rewrite !mask_up, !mask_down by (vm_compute; discriminate).
  change (0 + 56) with 56. change (8 + 40) with 48. change (16 + 24) with 40. change (24 + 8) with 32.
  change (32 - 8) with 24. change (40 - 24) with 16. change (48 - 40) with 8. change (56 - 56) with 0.
  rewrite of_bytes8 by (apply N.mod_lt; discriminate).
  rewrite <- (N.div_1_r v) at 9. change 1 with (2 ^ 0). rewrite le_bytes_pow.
  reflexivity.
Qed.

Lemma reorder_spec w v : v < 256 ^ N.of_nat (width_bytes w) -> reorder w v = rev_value (width_bytes w) v.
Proof.
  intros H. destruct w; cbn [reorder width_bytes].
  - unfold reorder8, rev_value. cbn [le_bytes rev app of_le_bytes]. rewrite N.mod_small by exact H. lia.
  - apply reorder16_spec. exact H.
  - apply reorder32_spec.
  - apply reorder64_spec.
Qed.

Lemma le_bytes_rev_value n v : le_bytes n (rev_value n v) = rev (le_bytes n v).
Proof.
  unfold rev_value. rewrite <- (le_bytes_length n v) at 1. rewrite <- rev_length.
  apply le_bytes_of_le_bytes. apply Forall_rev, le_bytes_bytes.
Qed.

Lemma rev_value_lt n v : rev_value n v < 256 ^ N.of_nat n.
Proof.
  unfold rev_value. rewrite <- (le_bytes_length n v) at 2. rewrite <- (rev_length (le_bytes n v)).
  apply of_le_bytes_lt. apply Forall_rev, le_bytes_bytes.
Qed.

Lemma rev_value_invol n v : v < 256 ^ N.of_nat n -> rev_value n (rev_value n v) = v.
Proof.
  intros H. unfold rev_value at 1. rewrite le_bytes_rev_value, rev_involutive, of_le_bytes_le_bytes.
  apply N.mod_small. exact H.
Qed.

Lemma reorder_facts w v : v < 256 ^ N.of_nat (width_bytes w) ->
  reorder w v < 256 ^ N.of_nat (width_bytes w) /\
  reorder w (reorder w v) = v /\
  le_bytes (width_bytes w) (reorder w v) = rev (le_bytes (width_bytes w) v).
Proof.
  intros H. assert (Hl : reorder w v < 256 ^ N.of_nat (width_bytes w))
    by (rewrite reorder_spec by exact H; apply rev_value_lt).
  split; [exact Hl|]. split.
  - rewrite reorder_spec by exact Hl. rewrite reorder_spec by exact H. now apply rev_value_invol.
  - rewrite reorder_spec by exact H. apply le_bytes_rev_value.
Qed.

Lemma conversions host w v : v < 256 ^ N.of_nat (width_bytes w) ->
  little_to_native host w (native_to_little host w v) = v /\
  native_to_little host w (little_to_native host w v) = v /\
  big_to_native host w (native_to_big host w v) = v /\
  native_to_big host w (big_to_native host w v) = v /\
  little_to_big w (big_to_little w v) = v /\ big_to_little w (little_to_big w v) = v /\
  little_to_big w (native_to_little host w v) = native_to_big host w v /\
  big_to_little w (native_to_big host w v) = native_to_little host w v.
Proof.
  intros H. destruct (reorder_facts w v H) as (_ & Hi & _).
  unfold little_to_native, native_to_little, big_to_native, native_to_big, little_to_big, big_to_little,
    reorder_tag, byte_order_f, is_native, endian_eqb.
  destruct host; cbn [xorb]; rewrite ?Hi; repeat split; reflexivity.
Qed.

Lemma converted_image host w v : v < 256 ^ N.of_nat (width_bytes w) ->
  mem_bytes host (width_bytes w) (native_to_little host w v) = le_bytes (width_bytes w) v /\
  mem_bytes host (width_bytes w) (native_to_big host w v) = rev (le_bytes (width_bytes w) v).
Proof.
  intros H. destruct (reorder_facts w v H) as (_ & _ & Hb).
  unfold native_to_little, native_to_big, reorder_tag, byte_order_f, is_native, endian_eqb.
  destruct host; cbn [xorb mem_bytes]; rewrite ?Hb, ?rev_involutive; split; reflexivity.
Qed.
