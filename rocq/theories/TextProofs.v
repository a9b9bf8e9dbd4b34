(** Lemmas about text output. *)
From Coq Require Import ZifyBool ZifyNat ZifyN.
From Verif Require Import Base BaseProofs Duration DurationSpec DurationProofs Text TextSpec.
From Coq Require Import List.
Import ListNotations.
From Verif Require Import Duration.
Open Scope Z_scope.

(** ** Digits *)

Definition eval (b acc : Z) (ds : list N) : Z :=
  fold_left (fun a d => b * a + Z.of_N d) ds acc.

Lemma eval_app b acc x y : eval b acc (x ++ y) = eval b (eval b acc x) y.
Proof. apply fold_left_app. Qed.

Lemma digits_aux_spec b : (2 <= b)%N -> forall f n acc, (0 < f)%nat -> (n < 2 ^ N.of_nat f)%N ->
  exists ds, digits_aux f b n acc = ds ++ acc /\ eval (Z.of_N b) 0 ds = Z.of_N n /\
    Forall (fun d => (d < b)%N) ds /\ ds <> [] /\
    (forall k, (0 < k)%nat -> (n < b ^ N.of_nat k)%N -> (length ds <= k)%nat).
Proof.
  intros Hb f. induction f as [|f IH]; intros n acc Hf Hn; [lia|].
  cbn [digits_aux]. pose proof (N.div_mod n b ltac:(lia)) as Hdm.
  pose proof (N.mod_lt n b ltac:(lia)) as Hm.
  destruct (N.eqb_spec (n / b) 0) as [E|E].
  - exists [(n mod b)%N]. repeat split; auto; try discriminate.
    + cbn -[N.modulo]. rewrite E in Hdm. lia.
  - assert (Hlt : (n / b < 2 ^ N.of_nat f)%N).
    { apply N.div_lt_upper_bound; [lia|].
      replace (N.of_nat (S f)) with (N.succ (N.of_nat f)) in Hn by lia.
      rewrite N.pow_succ_r' in Hn. nia. }
    assert (Hf' : (0 < f)%nat).
    { destruct f; [|lia]. exfalso. apply E, N.lt_1_r. exact Hlt. }
    destruct (IH (n / b)%N ((n mod b)%N :: acc) Hf' Hlt) as (ds & Eq & Ev & Fa & Hne & Hlen).
    exists (ds ++ [(n mod b)%N]). repeat split.
    + rewrite Eq, <- app_assoc. reflexivity.
    + rewrite eval_app, Ev. cbn -[N.modulo N.div]. lia.
    + apply Forall_app. auto.
    + intros H. apply app_eq_nil in H. tauto.
    + intros k Hk Hnk. rewrite app_length. cbn.
      destruct k as [|[|k]]; [lia| |].
      * exfalso. apply E. apply N.div_small. change (N.of_nat 1) with 1%N in Hnk.
        rewrite N.pow_1_r in Hnk. exact Hnk.
      * assert ((length ds <= S k)%nat); [|lia]. apply Hlen; [lia|].
        apply N.div_lt_upper_bound; [lia|].
        replace (N.of_nat (S (S k))) with (N.succ (N.of_nat (S k))) in Hnk by lia.
        rewrite N.pow_succ_r' in Hnk. exact Hnk.
Qed.

Lemma size_nat_gt n : (n < 2 ^ N.of_nat (S (N.size_nat n)))%N.
Proof.
  assert (E : N.of_nat (N.size_nat n) = N.size n).
  { destruct n as [|p]; [reflexivity|]. cbn.
    induction p as [p IH|p IH|]; cbn [Pos.size_nat Pos.size]; lia. }
  replace (N.of_nat (S (N.size_nat n))) with (N.succ (N.size n)) by lia.
  pose proof (N.size_gt n). rewrite N.pow_succ_r'. lia.
Qed.

Lemma digits_spec b n : (2 <= b)%N ->
  eval (Z.of_N b) 0 (digits b n) = Z.of_N n /\
  Forall (fun d => (d < b)%N) (digits b n) /\ digits b n <> [] /\
  (forall k, (0 < k)%nat -> (n < b ^ N.of_nat k)%N -> (length (digits b n) <= k)%nat).
Proof.
  intros Hb. destruct (digits_aux_spec b Hb (S (N.size_nat n)) n [] ltac:(lia) (size_nat_gt n))
    as (ds & E & H). unfold digits. rewrite E, app_nil_r. exact H.
Qed.

Lemma below_16 (P : N -> Prop) :
  P 0%N -> P 1%N -> P 2%N -> P 3%N -> P 4%N -> P 5%N -> P 6%N -> P 7%N -> P 8%N -> P 9%N ->
  P 10%N -> P 11%N -> P 12%N -> P 13%N -> P 14%N -> P 15%N -> forall d, (d < 16)%N -> P d.
Proof.
  intros. destruct (N.eq_dec d 0); [subst; auto|].
  assert (C : (d = 1 \/ d = 2 \/ d = 3 \/ d = 4 \/ d = 5 \/ d = 6 \/ d = 7 \/ d = 8 \/ d = 9
    \/ d = 10 \/ d = 11 \/ d = 12 \/ d = 13 \/ d = 14 \/ d = 15)%N) by lia.
  intuition (subst; auto).
Qed.

Lemma digit_char_hex d : (d < 16)%N ->
  hex_digit (digit_char false d) = Some (Z.of_N d) /\ (digit_char false d =? "`")%char = false.
Proof. revert d. apply below_16; split; reflexivity. Qed.

Lemma digit_char_dec d : (d < 10)%N -> dec_digit (digit_char false d) = Some (Z.of_N d).
Proof.
  intros H. assert (H' : (d < 16)%N) by lia. revert d H' H.
  apply (below_16 (fun d => (d < 10)%N -> dec_digit (digit_char false d) = Some (Z.of_N d)));
    intros; try reflexivity; lia.
Qed.

(** ** Reading hexadecimal digits *)

Lemma read_hex_app ds : Forall (fun d => (d < 16)%N) ds -> forall acc r,
  read_hex_digits acc (map (digit_char false) ds ++ r) = read_hex_digits (eval 16 acc ds) r.
Proof.
  induction 1 as [|d ds Hd _ IH]; intros acc r; [reflexivity|].
  cbn [map app read_hex_digits]. destruct (digit_char_hex d Hd) as [-> ->]. apply IH.
Qed.

Lemma read_hex_zeros n acc r :
  read_hex_digits acc (repeat "0"%char n ++ r) = read_hex_digits (16 ^ Z.of_nat n * acc) r.
Proof.
  revert acc. induction n as [|n IH]; intros acc.
  - f_equal. lia.
  - cbn [repeat app read_hex_digits]. change ("0" =? "`")%char with false.
    change (hex_digit "0") with (Some 0). cbv iota beta. rewrite IH. f_equal.
    rewrite Nat2Z.inj_succ, Z.pow_succ_r by lia. lia.
Qed.

(** The text of a number with leading zeros. *)
Definition zeros (k : nat) (b n : N) : list ascii :=
  repeat "0"%char (k - length (digits b n)) ++ map (digit_char false) (digits b n).

Lemma eval_acc b ds acc : eval b acc ds = b ^ Z.of_nat (length ds) * acc + eval b 0 ds.
Proof.
  revert acc. induction ds as [|d ds IH]; intros acc; cbn [length].
  - change (eval b acc []) with acc. change (eval b 0 []) with 0. change (Z.of_nat 0) with 0. rewrite Z.pow_0_r. lia.
  - unfold eval in *. cbn [fold_left]. rewrite IH. symmetry. rewrite IH.
    rewrite Nat2Z.inj_succ, Z.pow_succ_r by lia. ring.
Qed.

Lemma zeros_length k b n : (2 <= b)%N -> (0 < k)%nat -> (n < b ^ N.of_nat k)%N ->
  length (zeros k b n) = k.
Proof.
  intros Hb Hk Hn. unfold zeros. rewrite app_length, repeat_length, map_length.
  destruct (digits_spec b n Hb) as (_ & _ & _ & H). specialize (H k Hk Hn). lia.
Qed.

Lemma read_hex_fixed k n acc r : (0 < k)%nat -> (n < 16 ^ N.of_nat k)%N ->
  read_hex_digits acc (zeros k 16 n ++ r)
  = read_hex_digits (16 ^ Z.of_nat k * acc + Z.of_N n) r.
Proof.
  intros Hk Hn. destruct (digits_spec 16 n ltac:(lia)) as (Ev & Fa & _ & Hl).
  specialize (Hl k Hk Hn). unfold zeros.
  rewrite <- app_assoc, read_hex_zeros, read_hex_app by exact Fa. f_equal.
  rewrite eval_acc. change (Z.of_N 16) with 16 in Ev. rewrite Ev.
  rewrite Z.mul_assoc, <- Z.pow_add_r by lia. do 2 f_equal. f_equal. lia.
Qed.

(** ** Hexadecimal output *)

Lemma put_str_text s os : o_width os = O ->
  o_text (put_str s os) = o_text os ++ list_ascii_of_string s.
Proof.
  intros H. unfold put_str, put_padded. rewrite H. cbn [o_text Nat.sub repeat].
  destruct (o_adjust os); rewrite ?app_nil_r; reflexivity.
Qed.

(** A number in the format of [hex_format]. *)
Lemma put_hex_number k n os : o_adjust os <> AdjLeft -> o_showbase os = false ->
  o_text (put_uint n (hex_format k os)) = o_text os ++ zeros k 16 n.
Proof.
  intros Ha Hs. unfold put_uint, hex_format, put_padded, zeros. cbn. rewrite Hs. cbn.
  rewrite map_length. destruct (o_adjust os); [congruence|reflexivity|reflexivity].
Qed.

(** Everything but the text. *)
Definition flags (os : stream) :=
  (o_radix os, o_adjust os, o_showbase os, o_upper os, o_fill os, o_width os).

Lemma put_padded_flags p b os :
  flags (put_padded p b os) =
  (o_radix os, o_adjust os, o_showbase os, o_upper os, o_fill os, O).
Proof. reflexivity. Qed.

Lemma put_uint_flags n os :
  flags (put_uint n os) = (o_radix os, o_adjust os, o_showbase os, o_upper os, o_fill os, O).
Proof. unfold put_uint. destruct (o_radix os) eqn:E; rewrite put_padded_flags, E; reflexivity. Qed.

Lemma put_hex_flags sz v os :
  flags (put_hex sz v os) = (Hex, o_adjust os, o_showbase os, false, "0"%char, O).
Proof.
  unfold put_hex, hex_output64, hex_output_lt.
  destruct (sz * 8 =? 64)%nat; rewrite put_uint_flags; reflexivity.
Qed.

Lemma bits_range sz v : (bits_of sz v < 16 ^ N.of_nat (sz * 2))%N.
Proof.
  unfold bits_of. pose proof (Z.mod_pos_bound v (2 ^ (8 * Z.of_nat sz)) ltac:(apply Z.pow_pos_nonneg; lia)).
  apply N2Z.inj_lt. rewrite Z2N.id by lia. rewrite N2Z.inj_pow, nat_N_Z.
  change (Z.of_N 16) with (2 ^ 4). rewrite <- Z.pow_mul_r by lia.
  replace (4 * Z.of_nat (sz * 2)) with (8 * Z.of_nat sz) by lia. lia.
Qed.

Lemma high_half b : (b < 2 ^ 64)%N -> N.shiftr (N.land b 0xffffffff00000000) 32 = (b / 2 ^ 32)%N.
Proof.
  intros H. rewrite N.shiftr_land. change (N.shiftr 0xffffffff00000000 32) with (N.ones 32).
  rewrite N.land_ones, N.shiftr_div_pow2. apply N.mod_small.
  apply N.div_lt_upper_bound; [lia|]. exact H.
Qed.

Lemma low_half b : N.land b 0x00000000ffffffff = (b mod 2 ^ 32)%N.
Proof. change 0x00000000ffffffff%N with (N.ones 32). apply N.land_ones. Qed.

(** The text of a value. *)
Definition hex_text (sz : nat) (v : Z) : list ascii :=
  list_ascii_of_string "0x" ++
  if (sz =? 8)%nat
  then zeros 8 16 (bits_of 8 v / 2 ^ 32) ++ "`"%char :: zeros 8 16 (bits_of 8 v mod 2 ^ 32)
  else zeros (sz * 2) 16 (bits_of sz v).

Lemma bits8 v : (bits_of 8 v < 2 ^ 64)%N.
Proof. exact (bits_range 8 v). Qed.

Lemma put_hex_text sz v os : o_adjust os <> AdjLeft -> o_showbase os = false ->
  o_width os = O -> o_text (put_hex sz v os) = o_text os ++ hex_text sz v.
Proof.
  intros Ha Hs Hw. unfold put_hex, hex_text.
  assert (E : (sz * 8 =? 64)%nat = (sz =? 8)%nat)
    by (destruct (Nat.eqb_spec (sz * 8) 64), (Nat.eqb_spec sz 8); lia).
  rewrite E. destruct (Nat.eqb_spec sz 8) as [->|Hne].
  - unfold hex_output64. cbv zeta. rewrite high_half by apply bits8. rewrite low_half.
    rewrite put_hex_number; [|exact Ha|exact Hs].
    rewrite put_str_text.
    2:{ pose proof (put_uint_flags (bits_of 8 v / 2 ^ 32) (hex_format 8 (put_str "0x" os))) as F.
        unfold flags in F. congruence. }
    rewrite put_hex_number; [|exact Ha|exact Hs].
    rewrite put_str_text by exact Hw. rewrite <- !app_assoc. reflexivity.
  - unfold hex_output_lt. rewrite put_hex_number; [|exact Ha|exact Hs].
    rewrite put_str_text by exact Hw. rewrite <- app_assoc. reflexivity.
Qed.

Lemma hex_text_read sz v : (0 < sz)%nat ->
  read_hex (hex_text sz v) = Some (v mod 2 ^ (8 * Z.of_nat sz)).
Proof.
  intros Hsz. unfold hex_text.
  assert (Hb : Z.of_N (bits_of sz v) = v mod 2 ^ (8 * Z.of_nat sz)).
  { unfold bits_of. apply Z2N.id. apply Z.mod_pos_bound, Z.pow_pos_nonneg; lia. }
  rewrite <- Hb. cbn [list_ascii_of_string app read_hex].
  change (("0" =? "0")%char && ("x" =? "x")%char) with true. cbv iota.
  destruct (Nat.eqb_spec sz 8) as [->|Hne].
  - pose proof (bits8 v) as B. set (b := bits_of 8 v) in *.
    rewrite read_hex_fixed; [|lia|].
    2:{ apply N.div_lt_upper_bound; [lia|]. exact B. }
    cbn [read_hex_digits]. change ("`" =? "`")%char with true. cbv iota.
    rewrite <- (app_nil_r (zeros 8 16 (b mod 2 ^ 32))).
    rewrite read_hex_fixed; [|lia|apply N.mod_lt; lia].
    cbn [read_hex_digits]. f_equal.
    pose proof (N.div_mod b (2 ^ 32) ltac:(lia)) as D.
    change (16 ^ Z.of_nat 8) with (2 ^ 32). lia.
  - rewrite <- (app_nil_r (zeros (sz * 2) 16 (bits_of sz v))).
    rewrite read_hex_fixed; [|lia|apply bits_range].
    cbn [read_hex_digits]. f_equal. lia.
Qed.

Lemma hex_text_length sz v : (0 < sz)%nat ->
  length (hex_text sz v) = (2 + 2 * sz + if (sz =? 8)%nat then 1 else 0)%nat.
Proof.
  intros Hsz. unfold hex_text. rewrite app_length. cbn [length list_ascii_of_string].
  destruct (Nat.eqb_spec sz 8) as [->|Hne].
  - rewrite app_length. cbn [length]. pose proof (bits8 v) as B.
    assert (B1 : (bits_of 8 v / 2 ^ 32 < 16 ^ N.of_nat 8)%N)
      by (apply N.div_lt_upper_bound; [lia|]; exact B).
    assert (B2 : (bits_of 8 v mod 2 ^ 32 < 16 ^ N.of_nat 8)%N) by (apply N.mod_lt; lia).
    rewrite (zeros_length 8 16 _ ltac:(lia) ltac:(lia) B1).
    rewrite (zeros_length 8 16 _ ltac:(lia) ltac:(lia) B2). reflexivity.
  - rewrite zeros_length; [lia|lia|lia|apply bits_range].
Qed.

(** ** Reading decimal numbers *)

Definition no_digit (r : list ascii) : Prop :=
  match r with [] => True | c :: _ => dec_digit c = None end.

Lemma read_dec_app ds : Forall (fun d => (d < 10)%N) ds -> forall acc r, no_digit r ->
  read_dec_digits acc (map (digit_char false) ds ++ r) = (eval 10 acc ds, r).
Proof.
  induction 1 as [|d ds Hd _ IH]; intros acc r Hr.
  - destruct r as [|c r]; [reflexivity|]. cbn [map app read_dec_digits no_digit] in *.
    rewrite Hr. reflexivity.
  - cbn [map app read_dec_digits]. rewrite (digit_char_dec d Hd). apply IH, Hr.
Qed.

Lemma read_dec_zeros n r : read_dec_digits 0 (repeat "0"%char n ++ r) = read_dec_digits 0 r.
Proof. induction n as [|n IH]; [reflexivity|]. exact IH. Qed.

Lemma zeros_head k n : exists c t, zeros k 10 n = c :: t /\ exists d, dec_digit c = Some d.
Proof.
  unfold zeros. destruct (k - length (digits 10 n))%nat as [|j].
  - destruct (digits_spec 10 n ltac:(lia)) as (_ & Fa & Hne & _).
    destruct (digits 10 n) as [|d ds]; [congruence|]. inversion Fa; subst.
    cbn [repeat app map]. eexists _, _. split; [reflexivity|].
    eexists. apply digit_char_dec. assumption.
  - cbn [repeat app]. eexists _, _. split; [reflexivity|]. exists 0. reflexivity.
Qed.

Lemma read_dec_number k n r : no_digit r -> read_dec (zeros k 10 n ++ r) = Some (Z.of_N n, r).
Proof.
  intros Hr. destruct (zeros_head k n) as (c & t & E & d & Hd).
  assert (H : read_dec_digits 0 (zeros k 10 n ++ r) = (Z.of_N n, r)).
  { unfold zeros. rewrite <- app_assoc, read_dec_zeros.
    destruct (digits_spec 10 n ltac:(lia)) as (Ev & Fa & _ & _).
    rewrite read_dec_app by assumption. change (Z.of_N 10) with 10 in Ev. rewrite Ev. reflexivity. }
  rewrite E in *. cbn [app] in *. unfold read_dec. rewrite Hd, H. reflexivity.
Qed.

(** ** Durations *)

(** The flags of the stream used by [ToString]. *)
Definition plain (os : stream) : Prop :=
  o_radix os = Dec /\ o_adjust os = AdjRight /\ o_width os = O.

Lemma put_part_text k x os : plain os ->
  plain (put_part k x os) /\ o_text (put_part k x os) = o_text os ++ zeros k 10 (Z.to_N x).
Proof.
  intros (R & A & W). unfold put_part, put_uint, plain, put_padded, zeros. cbn.
  rewrite R. cbn. rewrite A, map_length. auto.
Qed.

Lemma put_str_plain s os : plain os ->
  plain (put_str s os) /\ o_text (put_str s os) = o_text os ++ list_ascii_of_string s.
Proof.
  intros (R & A & W). split; [|apply put_str_text, W]. unfold plain, put_str, put_padded. cbn. auto.
Qed.

(** The text of the parts below a second. *)
Fixpoint small_text (us : list unit_t) (xs : list Z) (ls : list string) : list ascii :=
  match us, xs, ls with
  | u :: us, x :: xs, l :: ls =>
      (match u with
       | UnitUnderflow => []
       | _ => "-"%char :: zeros 3 10 (Z.to_N x) ++ list_ascii_of_string l
       end) ++ small_text us xs ls
  | _, _, _ => []
  end.

Lemma put_small_text us : forall xs ls os, plain os ->
  o_text (put_small us xs ls os) = o_text os ++ small_text us xs ls.
Proof.
  induction us as [|u us IH]; intros [|x xs] [|l ls] os Hp; cbn [put_small small_text];
    rewrite ?app_nil_r; auto.
  destruct (put_str_plain "-" os Hp) as [P1 T1].
  destruct (put_part_text 3 x _ P1) as [P2 T2].
  destruct (put_str_plain l _ P2) as [P3 T3].
  destruct u; rewrite IH by assumption; rewrite ?T3, ?T2, ?T1, <- ?app_assoc; cbn [app list_ascii_of_string]; rewrite <- ?app_assoc; reflexivity.
Qed.

Lemma divide_all_underflow us : forall u v xs r, divide_all us u v = Done (xs, r) ->
  Forall2 (fun un x => un = UnitUnderflow -> x = 0) us xs.
Proof.
  induction us as [|un us IH]; intros u v xs r E; cbn [divide_all] in E.
  - injection E as <- _. constructor.
  - destruct (ratio_divide un u v) as [[[x u'] v']| | |] eqn:E1; try discriminate.
    cbn [obind] in E.
    destruct (divide_all us u' v') as [[ys q]| | |] eqn:E2; try discriminate.
    cbn [obind] in E. injection E as <- _. constructor; [|eauto].
    intros ->. cbn in E1. congruence.
Qed.

Lemma split_underflow den c neg xs r : split den c = Done (neg, xs, r) ->
  Forall2 (fun un x => un = UnitUnderflow -> x = 0) (units den) xs.
Proof.
  unfold split. destruct (if c <? 0 then checked (- c) else Done c) as [u| | |]; try discriminate.
  cbn [obind]. destruct (divide_all (units den) u 1) as [[ys q]| | |] eqn:E; try discriminate.
  cbn [obind]. intros H. injection H as _ <- _. eapply divide_all_underflow, E.
Qed.

(** One part below a second. *)
Lemma read_small_step k x (c : ascii) w rest y : letter_yocto c = Some w -> dec_digit c = None ->
  0 <= x -> read_small k rest = Some y ->
  read_small (S k) ("-"%char :: (zeros 3 10 (Z.to_N x) ++ [c]) ++ rest) = Some (w * x + y).
Proof.
  intros Hw Hc Hx Hy. cbn [read_small]. cbn [expect]. change ("-" =? "-")%char with true.
  cbn [bind]. rewrite <- app_assoc, read_dec_number by exact Hc.
  cbn [bind app]. rewrite Hw. cbn [bind]. rewrite Hy. cbn [bind].
  rewrite Z2N.id by exact Hx. reflexivity.
Qed.

Lemma read_small_more k t : forall j y, (k <= j)%nat -> read_small k t = Some y -> read_small j t = Some y.
Proof.
  revert t. induction k as [|k IH]; intros t j y Hj H.
  - destruct t; [destruct j; exact H|discriminate].
  - destruct t as [|c t]; [destruct j; exact H|].
    destruct j as [|j]; [lia|]. cbn [read_small] in *.
    destruct (expect "-" (c :: t)) as [t1|]; [|discriminate]. cbn [bind] in *.
    destruct (read_dec t1) as [[x t2]|]; [|discriminate]. cbn [bind] in *.
    destruct t2 as [|l t2]; [discriminate|].
    destruct (letter_yocto l) as [w|]; [|discriminate]. cbn [bind] in *.
    destruct (read_small k t2) as [z|] eqn:E; [|discriminate].
    rewrite (IH t2 j z) by (auto; lia). exact H.
Qed.

Lemma small_text_read us : forall xs ls ws,
  Forall2 (fun un x => un = UnitUnderflow -> x = 0) us xs ->
  Forall (fun x => 0 <= x) xs ->
  Forall2 (fun l w => exists c, l = String c EmptyString /\ letter_yocto c = Some w
                                /\ dec_digit c = None) ls ws ->
  length us = length ls ->
  read_small (length us) (small_text us xs ls) = Some (weighted ws xs).
Proof.
  induction us as [|u us IH]; intros xs ls ws Hu Hx Hl Hlen.
  - inversion Hu; subst. destruct ls; [|discriminate]. inversion Hl; subst. reflexivity.
  - inversion Hu as [|? x ? xs' Hux Hu' E1 E2]; subst.
    destruct ls as [|l ls]; [discriminate|]. inversion Hl as [|? w ? ws' (c & -> & Hw & Hc) Hl' E3 E4]; subst.
    inversion Hx as [|? ? Hx0 Hx']; subst.
    specialize (IH xs' ls ws' Hu' Hx' Hl' ltac:(cbn in Hlen; lia)).
    cbn [length small_text weighted].
    destruct u; cbn [list_ascii_of_string].
    + cbn [app]. apply read_small_step; assumption.
    + cbn [app]. apply read_small_step; assumption.
    + rewrite (Hux eq_refl). cbn [app]. rewrite Z.mul_0_r, Z.add_0_l.
      eapply read_small_more; [|exact IH]. lia.
Qed.

Lemma small_no_digit us : forall xs ls, no_digit (small_text us xs ls).
Proof.
  induction us as [|u us IH]; intros [|x xs] [|l ls]; try exact I.
  cbn [small_text]. destruct u; cbn; try reflexivity. apply IH.
Qed.

Definition letters : list string := ["m"; "u"; "n"; "p"; "f"; "a"; "z"; "y"]%string.

(** The text of a duration. *)
Definition clock_text (den : Z) (h m s : Z) (ys : list Z) : list ascii :=
  zeros 2 10 (Z.to_N h) ++ ":"%char :: zeros 2 10 (Z.to_N m) ++ ":"%char ::
  zeros 2 10 (Z.to_N s) ++ small_text (small_units 8 (unit_second den)) ys letters.
Definition day_text (d : Z) : list ascii :=
  if d =? 0 then [] else zeros 0 10 (Z.to_N d) ++ [" "%char].
Definition sign_text (neg : bool) : list ascii := if neg then ["-"%char] else [].

Lemma to_string_text den c neg d h m s ys r :
  split den c = Done (neg, d :: h :: m :: s :: ys, r) ->
  to_string den c = Done (sign_text neg ++ day_text d ++ clock_text den h m s ys).
Proof.
  intros E. unfold to_string. rewrite E. cbn [obind]. cbv zeta.
  set (os0 := if neg then put_str "-" new_stream else new_stream).
  assert (P0 : plain os0 /\ o_text os0 = sign_text neg).
  { subst os0. destruct neg; unfold plain; cbn; auto. }
  destruct P0 as [P0 T0].
  set (os1 := if d =? 0 then os0 else put_str " " (put_uint (Z.to_N d) (set_width 0 os0))).
  assert (P1 : plain os1 /\ o_text os1 = o_text os0 ++ day_text d).
  { subst os1. unfold day_text. destruct (d =? 0); [rewrite app_nil_r; auto|].
    assert (Q : plain (put_uint (Z.to_N d) (set_width 0 os0)) /\
      o_text (put_uint (Z.to_N d) (set_width 0 os0)) = o_text os0 ++ zeros 0 10 (Z.to_N d)).
    { destruct P0 as (R & A & W). unfold put_uint, plain, put_padded, zeros. cbn.
      rewrite R. cbn. rewrite A. auto. }
    destruct Q as [Q TQ]. destruct (put_str_plain " " _ Q) as [Q' ->]. split; [exact Q'|].
    rewrite TQ, <- app_assoc. reflexivity. }
  destruct P1 as [P1 T1]. clearbody os0 os1.
  destruct (put_part_text 2 h _ P1) as [P2 T2]. destruct (put_str_plain ":" _ P2) as [P3 T3].
  destruct (put_part_text 2 m _ P3) as [P4 T4]. destruct (put_str_plain ":" _ P4) as [P5 T5].
  destruct (put_part_text 2 s _ P5) as [P6 T6].
  f_equal. rewrite put_small_text by exact P6. fold letters.
  rewrite T6, T5, T4, T3, T2, T1, T0. unfold clock_text. rewrite <- !app_assoc. reflexivity.
Qed.

Lemma split_shape den c neg xs r : split den c = Done (neg, xs, r) ->
  exists d h m s ys, xs = d :: h :: m :: s :: ys.
Proof.
  intros E. apply split_underflow in E. unfold units in E. cbn [app] in E.
  inversion E as [|? d ? l1 _ E1]; subst. inversion E1 as [|? h ? l2 _ E2]; subst.
  inversion E2 as [|? m ? l3 _ E3]; subst. inversion E3 as [|? s ? l4 _ E4]; subst.
  eauto 8.
Qed.

Lemma clock_read den dd h m s ys : 0 <= h -> 0 <= m -> 0 <= s ->
  Forall (fun x => 0 <= x) ys ->
  Forall2 (fun un x => un = UnitUnderflow -> x = 0) (small_units 8 (unit_second den)) ys ->
  read_clock dd (clock_text den h m s ys)
  = Some ((((dd * 24 + h) * 60 + m) * 60 + s) * 10 ^ 24
          + weighted [10 ^ 21; 10 ^ 18; 10 ^ 15; 10 ^ 12; 10 ^ 9; 10 ^ 6; 10 ^ 3; 1] ys).
Proof.
  intros Hh Hm Hs Fy Fu. unfold read_clock, clock_text.
  rewrite read_dec_number by reflexivity. cbn [bind expect].
  change (":" =? ":")%char with true. cbn [bind].
  rewrite read_dec_number by reflexivity. cbn [bind expect].
  change (":" =? ":")%char with true. cbn [bind].
  rewrite read_dec_number by apply small_no_digit. cbn [bind].
  assert (R := small_text_read (small_units 8 (unit_second den)) ys letters
    [10 ^ 21; 10 ^ 18; 10 ^ 15; 10 ^ 12; 10 ^ 9; 10 ^ 6; 10 ^ 3; 1] Fu Fy).
  change (length (small_units 8 (unit_second den))) with 8%nat in R.
  rewrite R.
  - cbn [bind]. rewrite !Z2N.id by assumption. reflexivity.
  - unfold letters. repeat (constructor; [eexists; split; [reflexivity|split; reflexivity]|]). constructor.
  - reflexivity.
Qed.

Lemma dec_digit_not c d x : dec_digit c = Some d -> dec_digit x = None -> (c =? x)%char = false.
Proof.
  intros H H'. destruct (Ascii.eqb_spec c x) as [->|]; [congruence|reflexivity].
Qed.

Lemma to_string_read den c : resolution den -> is_count c -> c <> - 2 ^ 63 ->
  exists t y, to_string den c = Done t /\ read_time t = Some y /\ y * den = c * 10 ^ 24.
Proof.
  intros Hd Hc Hm. destruct (split_spec den c Hd Hc Hm) as (xs & E & W & F & _).
  pose proof (split_underflow _ _ _ _ _ E) as U.
  destruct (split_shape _ _ _ _ _ E) as (d & h & m & s & ys & ->).
  inversion F as [|? ? Fd F1]; subst. inversion F1 as [|? ? Fh F2]; subst.
  inversion F2 as [|? ? Fm F3]; subst. inversion F3 as [|? ? Fs Fy]; subst.
  unfold units in U. cbn [app] in U.
  inversion U as [|? ? ? ? _ U1]; subst. inversion U1 as [|? ? ? ? _ U2]; subst.
  inversion U2 as [|? ? ? ? _ U3]; subst. inversion U3 as [|? ? ? ? _ Uy]; subst.
  assert (RU : exists y, read_unsigned (day_text d ++ clock_text den h m s ys) = Some y /\
                 y = weighted unit_yocto (d :: h :: m :: s :: ys)).
  { eexists. split.
    - unfold read_unsigned, day_text. destruct (Z.eqb_spec d 0) as [->|Hd0].
      + cbn [app]. unfold clock_text at 1. rewrite read_dec_number by reflexivity.
        cbn [bind expect]. change (":" =? " ")%char with false. cbv iota.
        apply clock_read; assumption.
      + rewrite <- app_assoc. cbn [app]. rewrite read_dec_number by reflexivity.
        cbn [bind expect]. change (" " =? " ")%char with true. cbv iota.
        rewrite Z2N.id by assumption. apply clock_read; assumption.
    - destruct (Z.eqb_spec d 0) as [->|Hd0]; unfold unit_yocto; cbn [weighted]; ring. }
  destruct RU as (y & Ry & Ey).
  eexists _, (if c <? 0 then - y else y). split; [eapply to_string_text, E|]. split.
  - unfold read_time. destruct (c <? 0).
    + cbn [sign_text app expect]. change ("-" =? "-")%char with true. cbv iota.
      rewrite Ry. reflexivity.
    + cbn [sign_text app].
      assert (Hx : expect "-" (day_text d ++ clock_text den h m s ys) = None).
      { assert (Z0 : forall k n r, expect "-" (zeros k 10 n ++ r) = None).
        { intros k n r. destruct (zeros_head k n) as (x & t & -> & q & Hq). cbn [app expect].
          rewrite (dec_digit_not x q "-" Hq eq_refl). reflexivity. }
        unfold day_text. destruct (d =? 0); cbn [app]; [apply Z0|].
        rewrite <- app_assoc. apply Z0. }
      rewrite Hx. exact Ry.
  - subst y. destruct (Z.ltb_spec c 0).
    + rewrite Z.mul_opp_l, W. rewrite Z.abs_neq by lia. ring.
    + rewrite W, Z.abs_eq by lia. reflexivity.
Qed.

(** The width of the text of less than a day. *)
Fixpoint shown (us : list unit_t) : nat :=
  match us with
  | [] => 0
  | UnitUnderflow :: us => shown us
  | _ :: us => (5 + shown us)%nat
  end.

Lemma small_text_length us : forall xs ls, Forall2 Z.lt xs (repeat 1000 (length us)) ->
  length ls = length us -> Forall (fun l => length (list_ascii_of_string l) = 1%nat) ls ->
  length (small_text us xs ls) = shown us.
Proof.
  induction us as [|u us IH]; intros xs ls Hx Hl Hc; [reflexivity|].
  cbn [length repeat] in Hx. inversion Hx as [|x ? xs' ? Hlt Hx']; subst.
  destruct ls as [|l ls]; [discriminate|]. inversion Hc as [|? ? Hc1 Hc']; subst.
  cbn [small_text]. rewrite app_length, (IH xs' ls) by (auto; cbn in Hl; lia).
  assert (Hz : length (zeros 3 10 (Z.to_N x)) = 3%nat).
  { apply zeros_length; [lia|lia|]. change (10 ^ N.of_nat 3)%N with 1000%N. lia. }
  destruct u; cbn [shown length]; rewrite ?app_length, ?Hz, ?Hc1; lia.
Qed.

Lemma weighted_nonneg ws : forall xs, Forall (fun w => 0 <= w) ws -> Forall (fun x => 0 <= x) xs ->
  0 <= weighted ws xs.
Proof.
  induction ws as [|w ws IH]; intros [|x xs] Hw Hx; cbn [weighted]; try lia.
  inversion Hw; inversion Hx; subst. specialize (IH xs ltac:(assumption) ltac:(assumption)). nia.
Qed.

Lemma to_string_width den c : resolution den -> 0 <= c < 86400 * den -> is_count c ->
  exists t, to_string den c = Done t /\
    length t = (8 + shown (small_units 8 (unit_second den)))%nat.
Proof.
  intros Hd Hc Hi. destruct (split_spec den c Hd Hi ltac:(lia)) as (xs & E & W & F & L).
  destruct (split_shape _ _ _ _ _ E) as (d & h & m & s & ys & ->).
  replace (c <? 0) with false in E by lia.
  assert (Hd0 : 0 < den) by (destruct Hd as (k & Hk & ->); apply Z.pow_pos_nonneg; lia).
  inversion F as [|? ? Fd F1]; subst.
  assert (d = 0).
  { unfold unit_yocto in W. change (weighted (?w :: ?ws) (d :: ?r)) with (w * d + weighted ws r) in W.
    match type of W with (_ + weighted ?ws ?r) * _ = _ =>
      assert (0 <= weighted ws r) by
        (apply weighted_nonneg; [repeat (constructor; [lia|]); constructor|exact F1]);
      set (q := weighted ws r) in * end.
    rewrite Z.abs_eq in W by lia. nia. }
  subst d. eexists. split; [eapply to_string_text, E|].
  cbn [tl] in L. unfold unit_limit in L.
  inversion L as [|? ? ? ? L1 L2]; subst. inversion L2 as [|? ? ? ? L3 L4]; subst.
  inversion L4 as [|? ? ? ? L5 L6]; subst.
  cbn [sign_text day_text app Z.eqb]. unfold clock_text.
  assert (Hz : forall x, x < 60 -> length (zeros 2 10 (Z.to_N x)) = 2%nat).
  { intros x Hx. apply zeros_length; [lia|lia|]. change (10 ^ N.of_nat 2)%N with 100%N. lia. }
  repeat (rewrite app_length; cbn [length]). rewrite !Hz by lia.
  rewrite small_text_length; [lia|exact L6|reflexivity|].
  unfold letters. repeat constructor.
Qed.

(** A number in base 16. *)
Lemma put_uint_hex n os : o_radix os = Hex -> o_upper os = false -> o_showbase os = false ->
  o_width os = O -> exists t, o_text (put_uint n os) = o_text os ++ t /\
    read_hex_digits 0 t = Some (Z.of_N n).
Proof.
  intros R U S W. exists (map (digit_char false) (digits 16 n)). split.
  - unfold put_uint, put_padded. rewrite R, S, U, W. cbn.
    destruct (o_adjust os); rewrite ?app_nil_r; reflexivity.
  - destruct (digits_spec 16 n ltac:(lia)) as (Ev & Fa & _).
    rewrite <- (app_nil_r (map _ _)), read_hex_app by exact Fa. cbn [read_hex_digits].
    change (Z.of_N 16) with 16 in Ev. congruence.
Qed.
