From Verif Require Import Base BaseProofs BufferIter BufferIterSpec BufferIterProofs SeqNum SeqNumSpec.
From Coq Require Import ZifyBool ZifyNat ZifyN.
Ltac Zify.zify_post_hook ::= Z.div_mod_to_equations.
Local Open Scope N_scope.

Lemma pow2_split bits : 1 < bits -> exists h, 2 ^ bits = 2 * h /\ 2 <= h.
Proof.
  intros H. exists (2 ^ (bits - 1)). split.
  - replace bits with (N.succ (bits - 1)) at 1 by lia. apply N.pow_succ_r'.
  - change 2 with (2 ^ 1) at 1. apply N.pow_le_mono_r; lia.
Qed.

Lemma circ_gap_half bits h : 2 ^ bits = 2 * h -> circ_gap bits = h - 1.
Proof. intros H. unfold circ_gap, circ_max. rewrite H. lia. Qed.

Ltac circ_start bits H :=
  let h := fresh "h" in let Hh := fresh "Hh" in let Hh2 := fresh "Hh2" in
  destruct (pow2_split bits H) as (h & Hh & Hh2).

Ltac bits_ne_1 := match goal with |- context [?b =? 1] => replace (b =? 1) with false by lia end.

Lemma circ_trichotomy bits a b :
  1 < bits -> a < 2 ^ bits -> b < 2 ^ bits ->
  (circ_lt bits a b = true /\ circ_lt bits b a = false /\ a <> b) \/
  (circ_lt bits a b = false /\ circ_lt bits b a = true /\ a <> b) \/
  (circ_lt bits a b = false /\ circ_lt bits b a = false /\ a = b).
Proof.
  intros Hb Ha Hb'. circ_start bits Hb. unfold circ_lt. bits_ne_1.
  rewrite (circ_gap_half _ _ Hh). rewrite Hh in *. clear Hh.
  destruct (N.ltb_spec a b); destruct (N.ltb_spec b a); lia.
Qed.

Lemma circ_le_iff bits a b :
  1 < bits -> circ_le bits a b = circ_lt bits a b || circ_eq a b.
Proof.
  intros Hb. circ_start bits Hb. unfold circ_lt, circ_le, circ_eq. bits_ne_1.
  rewrite (circ_gap_half _ _ Hh). clear Hh.
  destruct (N.ltb_spec a b); destruct (N.leb_spec a b); lia.
Qed.

Lemma circ_lt_serial bits a b :
  1 < bits -> a < 2 ^ bits -> b < 2 ^ bits ->
  circ_lt bits a b = true <-> serial_lt bits a b.
Proof.
  intros Hb Ha Hb'. circ_start bits Hb. unfold circ_lt, serial_lt, distance. bits_ne_1.
  rewrite (circ_gap_half _ _ Hh). rewrite Hh in *. clear Hh.
  assert (E : (b + 2 * h - a) mod (2 * h) = if b <? a then b + 2 * h - a else b - a).
  { destruct (N.ltb_spec b a).
    - apply N.mod_small. lia.
    - replace (b + 2 * h - a) with (b - a + 1 * (2 * h)) by lia.
      rewrite N.mod_add by lia. apply N.mod_small. lia. }
  rewrite E. destruct (N.ltb_spec b a); destruct (N.ltb_spec a b); lia.
Qed.

Lemma circ_inc_mod bits a : a < 2 ^ bits -> circ_inc bits a = (a + 1) mod 2 ^ bits.
Proof.
  intros H. unfold circ_inc, circ_max. destruct (N.ltb_spec a (2 ^ bits - 1)).
  - rewrite N.mod_small; lia.
  - replace (a + 1) with (2 ^ bits) by lia. rewrite N.mod_same; lia.
Qed.

Lemma circ_incs_mod bits k a : a < 2 ^ bits -> circ_incs bits k a = (a + N.of_nat k) mod 2 ^ bits.
Proof.
  pose proof (pow2_pos bits) as Hp. revert a. induction k as [|k IH]; intros a H; cbn [circ_incs].
  - rewrite N.add_0_r. now rewrite N.mod_small.
  - rewrite circ_inc_mod by exact H. rewrite IH by (apply N.mod_lt; lia).
    rewrite N.add_mod_idemp_l by lia. f_equal. lia.
Qed.

Lemma circ_incs_lt bits k a :
  1 < bits -> a < 2 ^ bits -> 1 <= N.of_nat k <= circ_max bits / 2 ->
  circ_lt bits a (circ_incs bits k a) = true.
Proof.
  intros Hb Ha Hk. rewrite circ_incs_mod by exact Ha.
  circ_start bits Hb. unfold circ_max in Hk. rewrite Hh in *.
  unfold circ_lt. bits_ne_1. rewrite (circ_gap_half _ _ Hh). clear Hh.
  set (j := N.of_nat k) in *. clearbody j.
  assert (E : (a + j) mod (2 * h) = if 2 * h <=? a + j then a + j - 2 * h else a + j).
  { destruct (N.leb_spec (2 * h) (a + j)).
    - replace (a + j) with (a + j - 2 * h + 1 * (2 * h)) at 1 by lia.
      rewrite N.mod_add by lia. apply N.mod_small. lia.
    - apply N.mod_small. lia. }
  rewrite E. case_ifs; lia.
Qed.

Lemma circ_incs_full bits a : a < 2 ^ bits -> circ_incs bits (N.to_nat (2 ^ bits)) a = a.
Proof.
  intros H. rewrite circ_incs_mod, N2Nat.id by exact H.
  replace (a + 2 ^ bits) with (a + 1 * 2 ^ bits) by lia.
  rewrite N.mod_add by lia. now apply N.mod_small.
Qed.

Lemma circ_window_trans bits a b c :
  1 < bits -> a < 2 ^ bits -> b < 2 ^ bits -> c < 2 ^ bits ->
  circ_lt bits a b = true -> circ_lt bits b c = true ->
  distance (2 ^ bits) a b + distance (2 ^ bits) b c <= circ_max bits / 2 ->
  circ_lt bits a c = true.
Proof.
  intros Hb Ha Hb' Hc. unfold distance, circ_max. circ_start bits Hb.
  unfold circ_lt. bits_ne_1. rewrite (circ_gap_half _ _ Hh). rewrite Hh in *. clear Hh.
  assert (E : forall x y, x < 2 * h -> y < 2 * h ->
     (y + 2 * h - x) mod (2 * h) = if y <? x then y + 2 * h - x else y - x).
  { intros x y Hx Hy. destruct (N.ltb_spec y x).
    - apply N.mod_small. lia.
    - replace (y + 2 * h - x) with (y - x + 1 * (2 * h)) by lia.
      rewrite N.mod_add by lia. apply N.mod_small. lia. }
  rewrite !E by assumption. clear E.
  destruct (N.ltb_spec b a); destruct (N.ltb_spec c b); destruct (N.ltb_spec a b);
    destruct (N.ltb_spec b c); destruct (N.ltb_spec a c); lia.
Qed.

(** Shifting both numbers by the same count keeps their order, except at the tie. *)
Lemma circ_shift bits k a b :
  1 < bits -> a < 2 ^ bits -> b < 2 ^ bits -> 2 * distance (2 ^ bits) a b <> 2 ^ bits ->
  circ_lt bits (circ_incs bits k a) (circ_incs bits k b) = circ_lt bits a b.
Proof.
  intros Hb Ha Hb' Hd. pose proof (pow2_pos bits) as Hp.
  assert (Hka : circ_incs bits k a < 2 ^ bits) by (rewrite circ_incs_mod by exact Ha; apply N.mod_lt; lia).
  assert (Hkb : circ_incs bits k b < 2 ^ bits) by (rewrite circ_incs_mod by exact Hb'; apply N.mod_lt; lia).
  assert (Hdist : distance (2 ^ bits) (circ_incs bits k a) (circ_incs bits k b) = distance (2 ^ bits) a b).
  { rewrite !circ_incs_mod by assumption. unfold distance.
    set (m := 2 ^ bits) in *. set (j := N.of_nat k). clearbody m j.
    pose proof (N.mod_lt (a + j) m). pose proof (N.mod_lt (b + j) m).
    pose proof (N.div_mod (a + j) m) as Ea. pose proof (N.div_mod (b + j) m) as Eb.
    set (ra := (a + j) mod m) in *. set (rb := (b + j) mod m) in *.
    set (qa := (a + j) / m) in *. set (qb := (b + j) / m) in *.
    clearbody ra rb qa qb.
    assert (Hab : (b + m - a) + m * qa + m = (rb + m - ra) + m * qb + m) by lia.
    apply (N.mul_cancel_l _ _ 1); [lia|]. rewrite !N.mul_1_l.
    transitivity (((rb + m - ra) + (qb + 1) * m) mod m); [symmetry; apply N.mod_add; lia|].
    replace ((rb + m - ra) + (qb + 1) * m) with ((b + m - a) + (qa + 1) * m) by lia.
    apply N.mod_add. lia. }
  apply Bool.eq_iff_eq_true. rewrite !circ_lt_serial by assumption.
  unfold serial_lt. rewrite Hdist. cbv zeta. lia.
Qed.

(** ** Lollipop *)

Lemma lolli_lt_straight bits start a b :
  start < 2 ^ bits -> a < 2 ^ bits -> b < 2 ^ bits ->
  a < start -> lolli_lt bits start a b = (a <? b).
Proof.
  intros Hs Ha Hb Has. unfold lolli_lt, lolli_space, lolli_max.
  destruct (N.eqb_spec (2 ^ bits - 1) start); [reflexivity|].
  destruct (N.eqb_spec (2 ^ bits - 1) (start + 1)).
  - destruct (N.ltb_spec b start); lia.
  - destruct (N.ltb_spec a start); lia.
Qed.

Lemma lolli_gt_straight bits start a b :
  start < 2 ^ bits -> a < 2 ^ bits -> b < 2 ^ bits ->
  a < start -> start <= b -> lolli_lt bits start b a = false.
Proof.
  intros Hs Ha Hb Has Hbs. unfold lolli_lt, lolli_space, lolli_max, lolli_gap, lolli_max.
  destruct (N.eqb_spec (2 ^ bits - 1) start); [lia|].
  destruct (N.eqb_spec (2 ^ bits - 1) (start + 1)).
  - destruct (N.ltb_spec a start); lia.
  - destruct (N.ltb_spec b start); [lia|]. destruct (N.ltb_spec b a); [lia|].
    destruct (N.leb_spec start a); [lia|reflexivity].
Qed.

Lemma lolli_inc_lt bits start a : start < 2 ^ bits -> a < 2 ^ bits -> lolli_inc bits start a < 2 ^ bits.
Proof. intros Hs Ha. unfold lolli_inc, lolli_max. destruct (N.ltb_spec a (2 ^ bits - 1)); lia. Qed.

Lemma lolli_incs_circular bits start k a :
  start < 2 ^ bits -> start <= a < 2 ^ bits ->
  start <= lolli_incs bits start k a < 2 ^ bits.
Proof.
  intros Hs. revert a. induction k as [|k IH]; intros a Ha; cbn [lolli_incs]; [exact Ha|].
  apply IH. unfold lolli_inc, lolli_max. destruct (N.ltb_spec a (2 ^ bits - 1)); lia.
Qed.

Lemma lolli_incs_spec bits start k a :
  start < 2 ^ bits -> a < 2 ^ bits ->
  lolli_incs bits start k a =
    let m := 2 ^ bits - start in
    if a + N.of_nat k <? start then a + N.of_nat k
    else if a <? start then start + (a + N.of_nat k - start) mod m
    else start + (a - start + N.of_nat k) mod m.
Proof.
  intros Hs. cbv zeta. revert a. induction k as [|k IH]; intros a Ha; cbn [lolli_incs].
  - rewrite !N.add_0_r. destruct (N.ltb_spec a start); [reflexivity|].
    rewrite N.mod_small; lia.
  - rewrite IH by now apply lolli_inc_lt.
    replace (a + N.of_nat (S k)) with (a + 1 + N.of_nat k) by lia.
    replace (a - start + N.of_nat (S k)) with (a - start + 1 + N.of_nat k) by lia.
    set (j := N.of_nat k). clearbody j. clear IH k.
    unfold lolli_inc, lolli_max. remember (2 ^ bits) as m eqn:Em. clear Em.
    destruct (N.ltb_spec a (m - 1)) as [H|H].
    + destruct (N.ltb_spec (a + 1 + j) start) as [H1|H1]; [reflexivity|].
      destruct (N.ltb_spec (a + 1) start) as [H2|H2]; destruct (N.ltb_spec a start) as [H3|H3].
      * reflexivity.
      * exfalso. lia.
      * replace (a + 1 - start + j) with (a + 1 + j - start) by lia. reflexivity.
      * replace (a + 1 - start + j) with (a - start + 1 + j) by lia. reflexivity.
    + assert (a = m - 1) by lia. subst a.
      rewrite N.ltb_irrefl.
      destruct (N.ltb_spec (start + j) start) as [H1|H1]; [exfalso; lia|].
      destruct (N.ltb_spec (m - 1 + 1 + j) start) as [H2|H2]; [exfalso; lia|].
      destruct (N.ltb_spec (m - 1) start) as [H3|H3]; [exfalso; lia|].
      replace (m - 1 - start + 1 + j) with (j + 1 * (m - start)) by lia.
      rewrite N.mod_add by lia. replace (start - start + j) with j by lia. reflexivity.
Qed.

Lemma lolli_trichotomy bits start a b :
  start + 2 < 2 ^ bits \/ start + 1 = 2 ^ bits -> a < 2 ^ bits -> b < 2 ^ bits ->
  (lolli_lt bits start a b = true /\ lolli_lt bits start b a = false /\ a <> b) \/
  (lolli_lt bits start a b = false /\ lolli_lt bits start b a = true /\ a <> b) \/
  (lolli_lt bits start a b = false /\ lolli_lt bits start b a = false /\ a = b).
Proof.
  intros Hs Ha Hb. unfold lolli_lt, lolli_space, lolli_gap, lolli_max.
  destruct (N.eqb_spec (2 ^ bits - 1) start); [lia|].
  destruct (N.eqb_spec (2 ^ bits - 1) (start + 1)); [lia|].
  destruct (N.ltb_spec a start); destruct (N.ltb_spec b start); destruct (N.ltb_spec a b);
    destruct (N.ltb_spec b a); destruct (N.leb_spec start a); destruct (N.leb_spec start b); lia.
Qed.

Lemma lolli_le_iff bits start a b :
  lolli_le bits start a b = lolli_lt bits start a b || (a =? b).
Proof.
  unfold lolli_le, lolli_lt. destruct (lolli_space bits start).
  - lia.
  - destruct (N.ltb_spec b start); lia.
  - destruct (N.ltb_spec a start); [lia|].
    set (g := lolli_gap bits start). clearbody g.
    destruct (N.leb_spec a b); destruct (N.ltb_spec a b); try lia.
    destruct (N.leb_spec start b); lia.
Qed.

Lemma lolli_incs_lt bits start k a :
  start + 2 < 2 ^ bits -> start <= a < 2 ^ bits ->
  1 <= N.of_nat k <= (2 ^ bits - 1 - start) / 2 ->
  lolli_lt bits start a (lolli_incs bits start k a) = true.
Proof.
  intros Hs Ha Hk. rewrite lolli_incs_spec by lia. cbv zeta.
  set (j := N.of_nat k) in *. clearbody j. clear k.
  set (m := 2 ^ bits) in *. 
  destruct (N.ltb_spec (a + j) start); [lia|]. destruct (N.ltb_spec a start); [lia|].
  unfold lolli_lt, lolli_space, lolli_gap, lolli_max. fold m. clearbody m.
  destruct (N.eqb_spec (m - 1) start); [lia|].
  destruct (N.eqb_spec (m - 1) (start + 1)); [lia|].
  assert (E : (a - start + j) mod (m - start) =
              if m <=? a + j then a + j - m else a - start + j).
  { destruct (N.leb_spec m (a + j)).
    - replace (a - start + j) with (a + j - m + 1 * (m - start)) by lia.
      rewrite N.mod_add by lia. apply N.mod_small. lia.
    - apply N.mod_small. lia. }
  rewrite E. case_ifs; lia.
Qed.

(** ** I/O *)

Lemma io_size_le bits : 1 <= bits <= 64 -> (1 <= io_size bits <= uint_least_size bits)%nat.
Proof.
  intros H. unfold io_size, uint_least_size.
  destruct (N.leb_spec bits 8); [lia|]. destruct (N.leb_spec bits 16); [lia|].
  destruct (N.leb_spec bits 32); lia.
Qed.

Lemma bits_io_size bits : bits <= 8 * N.of_nat (io_size bits).
Proof. unfold io_size. lia. Qed.

Lemma firstn_le_bytes n m v : firstn n (le_bytes (n + m) v) = le_bytes n v.
Proof.
  rewrite le_bytes_app, firstn_app, le_bytes_length, Nat.sub_diag. cbn [firstn].
  rewrite app_nil_r. rewrite <- (le_bytes_length n v) at 1. apply firstn_all.
Qed.

Lemma of_le_bytes_zero n : of_le_bytes (repeat 0 n) = 0.
Proof. induction n as [|n IH]; cbn [repeat of_le_bytes]; [reflexivity|]. rewrite IH. reflexivity. Qed.

Lemma le_bytes_zero n : le_bytes n 0 = repeat 0 n.
Proof. induction n as [|n IH]; cbn [le_bytes repeat]; [reflexivity|]. f_equal. exact IH. Qed.

Lemma sn_image_used host bits v :
  1 <= bits <= 64 ->
  firstn (io_size bits) (skipn (io_offset host bits) (mem_bytes host (uint_least_size bits) v))
  = mem_bytes host (io_size bits) v.
Proof.
  intros H. pose proof (io_size_le bits H) as Hs.
  set (u := io_size bits) in *. set (s := uint_least_size bits) in *.
  unfold io_offset. fold u s. destruct host; cbn [mem_bytes].
  - cbn [skipn]. replace s with (u + (s - u))%nat by lia. apply firstn_le_bytes.
  - replace s with (u + (s - u))%nat at 2 by lia. rewrite le_bytes_app, rev_app_distr.
    rewrite skipn_app, skipn_all2 by (rewrite rev_length, le_bytes_length; lia).
    rewrite rev_length, le_bytes_length, Nat.sub_diag. cbn [skipn app].
    rewrite <- (le_bytes_length u v) at 1. rewrite <- rev_length. apply firstn_all.
Qed.

Lemma mem_store_full img off bs img' :
  mem_store img off bs = Some img' ->
  img' = firstn off img ++ bs ++ skipn (off + length bs) img.
Proof. unfold mem_store. destruct (Nat.leb _ _); congruence. Qed.

Lemma sn_image_read host bits old u_bytes :
  1 <= bits <= 64 -> old < 2 ^ bits -> length u_bytes = io_size bits ->
  exists img', mem_store (mem_bytes host (uint_least_size bits) old) (io_offset host bits) u_bytes = Some img'
   /\ of_mem_bytes host img' = of_mem_bytes host u_bytes.
Proof.
  intros H Hold Hlen. pose proof (io_size_le bits H) as Hs. pose proof (bits_io_size bits) as Hbs.
  destruct (mem_store_some (mem_bytes host (uint_least_size bits) old) (io_offset host bits) u_bytes) as [img' Hi].
  { rewrite mem_bytes_length, Hlen. unfold io_offset. destruct host; lia. }
  exists img'. split; [exact Hi|]. apply mem_store_full in Hi. rewrite Hlen in Hi.
  set (u := io_size bits) in *. set (s := uint_least_size bits) in *.
  assert (Hz : old / 256 ^ N.of_nat u = 0).
  { apply N.div_small. rewrite pow256_pow2. eapply N.lt_le_trans; [exact Hold|].
    apply N.pow_le_mono_r; lia. }
  assert (Himg : le_bytes s old = le_bytes u old ++ repeat 0 (s - u)).
  { replace s with (u + (s - u))%nat at 1 by lia. rewrite le_bytes_app, Hz, le_bytes_zero. reflexivity. }
  unfold io_offset in Hi. fold u s in Hi. destruct host; cbn [mem_bytes of_mem_bytes] in *.
  - cbn [firstn app Nat.add] in Hi. rewrite Himg in Hi.
    rewrite skipn_app, skipn_all2, le_bytes_length, Nat.sub_diag in Hi by (rewrite le_bytes_length; lia).
    cbn [skipn app] in Hi. rewrite Hi, of_le_bytes_app, of_le_bytes_zero. lia.
  - rewrite Himg, rev_app_distr in Hi.
    assert (Hr : forall k, rev (repeat 0 k) = repeat 0 k).
    { intros k. apply list_ext. intros i. destruct (Nat.lt_ge_cases i k) as [Hik|Hik].
      - rewrite (nth_error_nth' _ 0) by (rewrite rev_length, repeat_length; lia).
        rewrite (nth_error_nth' (repeat 0 k) 0) by (rewrite repeat_length; lia).
        f_equal. rewrite rev_nth by (rewrite repeat_length; lia). now rewrite !nth_repeat.
      - transitivity (@None N); [|symmetry]; apply nth_error_None; rewrite ?rev_length, repeat_length; lia. }
    rewrite Hr in Hi. rewrite firstn_app, repeat_length in Hi.
    rewrite Nat.sub_diag in Hi. cbn [firstn] in Hi. rewrite app_nil_r in Hi.
    rewrite (firstn_all2 (repeat 0 (s - u))) in Hi by (rewrite repeat_length; lia).
    rewrite skipn_all2 in Hi by (rewrite app_length, repeat_length, rev_length, le_bytes_length; lia).
    rewrite app_nil_r in Hi. rewrite Hi, rev_app_distr, Hr, of_le_bytes_app, of_le_bytes_zero. lia.
Qed.

Lemma sn_roundtrip host o bits sn old mem it mem' it' :
  1 <= bits <= 64 -> sn < 2 ^ bits -> old < 2 ^ bits ->
  sn_write host o bits sn mem it = Done (mem', it') ->
  sn_read host o bits old mem' it = Done (sn, it').
Proof.
  intros Hb Hsn Hold H. unfold sn_write in H. rewrite sn_image_used in H by exact Hb.
  destruct (write_read_bytes _ _ _ _ _ _ _ H) as (Hr & _ & _).
  rewrite mem_bytes_length in Hr. unfold sn_read. rewrite Hr. cbn [obind].
  destruct (sn_image_read host bits old (mem_bytes host (io_size bits) sn) Hb Hold) as (img' & Hi & Hv).
  { apply mem_bytes_length. }
  rewrite Hi, Hv, of_mem_bytes_mem_bytes; [reflexivity|].
  eapply N.lt_le_trans; [exact Hsn|]. apply N.pow_le_mono_r; [lia|apply bits_io_size].
Qed.

Lemma sn_write_cursor host o bits sn mem it :
  1 <= bits <= 64 -> iter_ok mem it ->
  if it_cursor it + (bits + 7) / 8 <=? it_end it
  then exists mem', sn_write host o bits sn mem it
                    = Done (mem', set_cursor it (it_cursor it + (bits + 7) / 8))
  else sn_write host o bits sn mem it = AssertFail.
Proof.
  intros Hb Hok. unfold sn_write. rewrite sn_image_used by exact Hb.
  pose proof (bytes_access_total host o (io_size bits) mem it (mem_bytes host (io_size bits) sn) 0 Hok) as HT.
  replace (N.of_nat (io_size bits)) with ((bits + 7) / 8) in HT by (unfold io_size; lia).
  specialize (HT ltac:(lia) (mem_bytes_length _ _ _)).
  destruct (it_cursor it + (bits + 7) / 8 <=? it_end it); tauto.
Qed.

Lemma circ_tournament bits a b :
  1 < bits -> a < 2 ^ bits -> b < 2 ^ bits ->
  ((circ_lt bits a b = true /\ circ_gt bits a b = false /\ circ_eq a b = false) \/
   (circ_lt bits a b = false /\ circ_gt bits a b = true /\ circ_eq a b = false) \/
   (circ_lt bits a b = false /\ circ_gt bits a b = false /\ circ_eq a b = true)) /\
  circ_le bits a b = circ_lt bits a b || circ_eq a b /\
  circ_ge bits a b = circ_gt bits a b || circ_eq a b.
Proof.
  intros Hb Ha Hb'. pose proof (circ_trichotomy bits a b Hb Ha Hb') as H.
  unfold circ_gt, circ_ge. rewrite !circ_le_iff by exact Hb. unfold circ_eq.
  rewrite (N.eqb_sym b a). split; [|split; reflexivity].
  destruct (N.eqb_spec a b); intuition congruence.
Qed.

Lemma circ_increments bits a :
  1 < bits -> a < 2 ^ bits ->
  (forall k, circ_incs bits k a = (a + N.of_nat k) mod 2 ^ bits) /\
  (forall k, 1 <= N.of_nat k <= (2 ^ bits - 1) / 2 ->
     circ_lt bits a (circ_incs bits k a) = true /\ circ_gt bits a (circ_incs bits k a) = false) /\
  circ_incs bits (N.to_nat (2 ^ bits)) a = a.
Proof.
  intros Hb Ha. split; [|split].
  - intros k. now apply circ_incs_mod.
  - intros k Hk. pose proof (circ_incs_lt bits k a Hb Ha Hk) as H. split; [exact H|].
    unfold circ_gt. assert (Hr : circ_incs bits k a < 2 ^ bits).
    { rewrite circ_incs_mod by exact Ha. apply N.mod_lt, N.pow_nonzero. discriminate. }
    pose proof (circ_trichotomy bits a _ Hb Ha Hr). intuition congruence.
  - now apply circ_incs_full.
Qed.

Lemma circ_not_transitive bits : 1 < bits ->
  exists a b c, a < 2 ^ bits /\ b < 2 ^ bits /\ c < 2 ^ bits /\
    circ_lt bits a b = true /\ circ_lt bits b c = true /\ circ_lt bits a c = false.
Proof.
  intros Hb. circ_start bits Hb. exists 0, (h - 1), (2 * h - 2). rewrite Hh.
  unfold circ_lt. bits_ne_1. rewrite (circ_gap_half _ _ Hh). clear Hh.
  repeat split; try lia; case_ifs; lia.
Qed.

Lemma lolli_straight bits start a b :
  start < 2 ^ bits -> a < start -> b < 2 ^ bits ->
  (lolli_lt bits start a b = true <-> a < b) /\
  (start <= b -> lolli_lt bits start a b = true /\ lolli_lt bits start b a = false).
Proof.
  intros Hs Ha Hb. rewrite lolli_lt_straight by lia. split; [lia|].
  intros H. split; [lia|]. apply lolli_gt_straight; lia.
Qed.

Lemma lolli_increments bits start a k :
  start < 2 ^ bits -> a < 2 ^ bits ->
  lolli_incs bits start k a =
    (if a + N.of_nat k <? 2 ^ bits then a + N.of_nat k
     else start + (a + N.of_nat k - start) mod (2 ^ bits - start)) /\
  (start <= a -> start <= lolli_incs bits start k a < 2 ^ bits).
Proof.
  intros Hs Ha. split; [|intros H; apply lolli_incs_circular; lia].
  rewrite lolli_incs_spec by assumption. cbv zeta.
  set (j := N.of_nat k). clearbody j. remember (2 ^ bits) as m eqn:Em. clear Em.
  destruct (N.ltb_spec (a + j) start) as [H1|H1].
  - destruct (N.ltb_spec (a + j) m); [reflexivity|exfalso; lia].
  - destruct (N.ltb_spec (a + j) m) as [H2|H2].
    + destruct (N.ltb_spec a start) as [H3|H3]; rewrite N.mod_small; lia.
    + destruct (N.ltb_spec a start) as [H3|H3]; [reflexivity|].
      replace (a - start + j) with (a + j - start) by lia. reflexivity.
Qed.

Lemma lolli_two_reflexive bits : 1 <= bits -> exists start a,
  start < 2 ^ bits /\ a < 2 ^ bits /\ lolli_lt bits start a a = true.
Proof.
  intros Hb. assert (H2 : 2 <= 2 ^ bits).
  { change 2 with (2 ^ 1) at 1. apply N.pow_le_mono_r; lia. }
  exists (2 ^ bits - 2), (2 ^ bits - 1). repeat split; try lia.
  unfold lolli_lt, lolli_space, lolli_max. remember (2 ^ bits) as m eqn:Em. clear Em.
  destruct (N.eqb_spec (m - 1) (m - 2)); [exfalso; lia|].
  destruct (N.eqb_spec (m - 1) (m - 2 + 1)); [|exfalso; lia].
  destruct (N.ltb_spec (m - 1) (m - 2)); [exfalso; lia|reflexivity].
Qed.

Lemma sn_read_out_of_range :
  exists host bits old mem it sn it',
    1 <= bits <= 64 /\ old < 2 ^ bits /\ Forall is_byte mem /\
    sn_read host NativeOrder bits old mem it = Done (sn, it') /\ 2 ^ bits <= sn.
Proof.
  exists LittleEndian, 4, 3, [0xff], (mk_biter 0 1 0), 0xff, (mk_biter 0 1 1).
  repeat split; try (vm_compute; congruence). repeat constructor.
Qed.
