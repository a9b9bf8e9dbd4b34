(** Lemmas about the order of the texts of durations. *)
From Coq Require Import ZifyBool ZifyNat ZifyN.
From Verif Require Import Base BaseProofs Duration DurationSpec DurationProofs Text TextSpec TextProofs TextOrderSpec.
From Coq Require Import List.
Import ListNotations.
From Verif Require Import Duration.
Open Scope Z_scope.

Lemma before_app p s t : sorts_before s t -> sorts_before (p ++ s) (p ++ t).
Proof. intros H. induction p as [|c p IH]; [exact H|]. cbn [app]. apply before_next, IH. Qed.
Lemma before_irrefl s : ~ sorts_before s s.
Proof. induction s as [|c s IH]; intros H; inversion H; subst; [lia|auto]. Qed.
Lemma before_asym s t : sorts_before s t -> ~ sorts_before t s.
Proof.
  intros H. induction H as [c t|a b s t L|c s t _ IH]; intros G; inversion G; subst; try lia; auto.
Qed.

(** Numbers of the same number of digits. *)
Lemma eval_bounds ds : Forall (fun d => (d < 10)%N) ds -> 0 <= eval 10 0 ds < 10 ^ Z.of_nat (length ds).
Proof.
  induction 1 as [|d ds Hd _ IH]; [cbn; lia|]. change (eval 10 0 (d :: ds)) with (eval 10 (10 * 0 + Z.of_N d) ds).
  rewrite eval_acc. cbn [length]. rewrite Nat2Z.inj_succ, Z.pow_succ_r by lia. nia.
Qed.
Lemma digit_code d : (d < 10)%N -> N_of_ascii (digit_char false d) = (48 + d)%N.
Proof.
  intros H. unfold digit_char. destruct (N.ltb_spec d 10); [|lia]. apply N_ascii_embedding. lia.
Qed.
Lemma digits_before ds1 : forall ds2 u v, length ds1 = length ds2 -> Forall (fun d => (d < 10)%N) ds1 -> Forall (fun d => (d < 10)%N) ds2 ->
  eval 10 0 ds1 < eval 10 0 ds2 -> sorts_before (map (digit_char false) ds1 ++ u) (map (digit_char false) ds2 ++ v).
Proof.
  induction ds1 as [|a ds1 IH]; intros [|b ds2] u v L F1 F2 H; cbn [length] in L; try discriminate.
  inversion F1 as [|? ? Ha G1]; subst. inversion F2 as [|? ? Hb G2]; subst. injection L as L.
  change (eval 10 0 (?d :: ?ds)) with (eval 10 (10 * 0 + Z.of_N d) ds) in H. rewrite (eval_acc _ ds1), (eval_acc _ ds2), L in H.
  pose proof (eval_bounds _ G1) as B1. pose proof (eval_bounds _ G2) as B2. rewrite L in B1. cbn [map app].
  destruct (N.lt_trichotomy a b) as [Lt|[->|Gt]].
  - apply before_here. rewrite !digit_code by assumption. lia.
  - apply before_next, IH; auto. lia.
  - exfalso. nia.
Qed.
Lemma zeros_digits k n : (0 < k)%nat -> (n < 10 ^ N.of_nat k)%N ->
  exists ds, zeros k 10 n = map (digit_char false) ds /\ length ds = k /\ Forall (fun d => (d < 10)%N) ds /\ eval 10 0 ds = Z.of_N n.
Proof.
  intros Hk Hn. destruct (digits_spec 10 n ltac:(lia)) as (Ev & Fa & _ & Hl). specialize (Hl k Hk Hn).
  exists (repeat 0%N (k - length (digits 10 n)) ++ digits 10 n). unfold zeros. split; [|split; [|split]].
  - rewrite map_app. f_equal. generalize (k - length (digits 10 n))%nat. intros j. induction j as [|j IH]; [reflexivity|]. cbn [repeat map]. rewrite IH. reflexivity.
  - rewrite app_length, repeat_length. lia.
  - apply Forall_app. split; [|exact Fa]. apply Forall_forall. intros x Hx. apply repeat_spec in Hx. lia.
  - rewrite eval_app. assert (Z0 : forall j, eval 10 0 (repeat 0%N j) = 0).
    { induction j as [|j IH]; [reflexivity|]. cbn [repeat]. exact IH. }
    rewrite Z0. exact Ev.
Qed.
Lemma part_before k x y u v : (0 < k)%nat -> 0 <= x -> x < y -> y < 10 ^ Z.of_nat k ->
  sorts_before (zeros k 10 (Z.to_N x) ++ u) (zeros k 10 (Z.to_N y) ++ v).
Proof.
  intros Hk Hx Hxy Hy.
  assert (P : forall z, 0 <= z < 10 ^ Z.of_nat k -> (Z.to_N z < 10 ^ N.of_nat k)%N).
  { intros z Hz. apply N2Z.inj_lt. rewrite N2Z.inj_pow, nat_N_Z. change (Z.of_N 10) with 10. lia. }
  destruct (zeros_digits k (Z.to_N x) Hk (P x ltac:(lia))) as (d1 & -> & L1 & F1 & E1).
  destruct (zeros_digits k (Z.to_N y) Hk (P y ltac:(lia))) as (d2 & -> & L2 & F2 & E2).
  apply digits_before; auto; [congruence|]. lia.
Qed.

(** The parts below a second. *)
Fixpoint powers (n : nat) : list Z := match n with O => [] | S k => 1000 ^ Z.of_nat k :: powers k end.
Lemma powers_bound n : forall xs, Forall (fun x => 0 <= x) xs -> Forall2 Z.lt xs (repeat 1000 n) -> 0 <= weighted (powers n) xs < 1000 ^ Z.of_nat n.
Proof.
  induction n as [|n IH]; intros xs P L; cbn [repeat] in L; inversion L; subst; [cbn; lia|].
  match goal with H : Forall2 Z.lt ?l (repeat 1000 n) |- _ => inversion P as [|? ? P0 P1]; subst; specialize (IH l P1 H) end.
  cbn [powers weighted]. rewrite Nat2Z.inj_succ, Z.pow_succ_r by lia. nia.
Qed.
Definition ends (us : list unit_t) : Prop :=
  forall a b, us = a ++ UnitUnderflow :: b -> Forall (eq UnitUnderflow) b.
Lemma small_units_under n : Forall (eq UnitUnderflow) (small_units n UnitUnderflow).
Proof. induction n as [|n IH]; cbn [small_units]; constructor; [reflexivity|exact IH]. Qed.
Lemma small_units_ends n : forall u, ends (small_units n u).
Proof.
  induction n as [|n IH]; intros u a b E; cbn [small_units] in E; [destruct a; discriminate|].
  destruct a as [|x a]; cbn [app] in E; injection E as E1 E2; [|eapply IH, E2].
  rewrite E1 in E2. subst b. apply small_units_under.
Qed.
Lemma ends_tail u us : ends (u :: us) -> ends us.
Proof. intros H a b ->. apply (H (u :: a) b). reflexivity. Qed.
Lemma under_zero us : forall n xs, Forall (eq UnitUnderflow) us -> Forall2 (fun un x => un = UnitUnderflow -> x = 0) us xs ->
  weighted (powers n) xs = 0 /\ forall ls, small_text us xs ls = [].
Proof.
  induction us as [|u us IH]; intros n xs F H; inversion H; subst; [split; [destruct n; reflexivity|reflexivity]|].
  inversion F; subst. match goal with G : _ = _ -> ?y = 0 |- _ => rewrite (G eq_refl) in * end.
  split.
  - destruct n as [|n]; [reflexivity|]. cbn [powers weighted]. rewrite Z.mul_0_r. eapply IH; eauto.
  - intros [|l ls]; [reflexivity|]. cbn [small_text app]. eapply (IH n); eauto.
Qed.
Lemma small_before n : forall us1 us2 xs1 xs2 ls, length ls = n -> length us1 = n -> length us2 = n -> ends us1 -> ends us2 ->
  Forall2 (fun un x => un = UnitUnderflow -> x = 0) us1 xs1 -> Forall2 (fun un x => un = UnitUnderflow -> x = 0) us2 xs2 ->
  Forall (fun x => 0 <= x) xs1 -> Forall (fun x => 0 <= x) xs2 -> Forall2 Z.lt xs1 (repeat 1000 n) -> Forall2 Z.lt xs2 (repeat 1000 n) ->
  weighted (powers n) xs1 < weighted (powers n) xs2 -> sorts_before (small_text us1 xs1 ls) (small_text us2 xs2 ls).
Proof.
  induction n as [|n IH]; intros us1 us2 xs1 xs2 ls Ll Lu1 Lu2 N1 N2 U1 U2 P1 P2 B1 B2 W.
  { inversion B1; subst. inversion B2; subst. cbn in W. lia. }
  cbn [repeat] in B1, B2. inversion B1 as [|x1 ? ys1 ? Hx1 C1]; subst. inversion B2 as [|x2 ? ys2 ? Hx2 C2]; subst.
  destruct us1 as [|u1 us1]; [discriminate|]. destruct us2 as [|u2 us2]; [discriminate|]. destruct ls as [|l ls]; [discriminate|].
  cbn [length] in *. inversion U1 as [|? ? ? ? V1 U1']; subst. inversion U2 as [|? ? ? ? V2 U2']; subst.
  inversion P1 as [|? ? Q1 P1']; subst. inversion P2 as [|? ? Q2 P2']; subst.
  cbn [powers weighted] in W. pose proof (powers_bound n ys1 P1' C1) as R1. pose proof (powers_bound n ys2 P2' C2) as R2.
  assert (D2 : u2 = UnitUnderflow \/ exists t2, small_text (u2 :: us2) (x2 :: ys2) (l :: ls) = "-"%char :: zeros 3 10 (Z.to_N x2) ++ t2 /\
    t2 = list_ascii_of_string l ++ small_text us2 ys2 ls).
  { destruct u2; auto; right; eexists; (split; [|reflexivity]); cbn [small_text app]; rewrite <- app_assoc; reflexivity. }
  assert (D1 : u1 = UnitUnderflow \/ exists t1, small_text (u1 :: us1) (x1 :: ys1) (l :: ls) = "-"%char :: zeros 3 10 (Z.to_N x1) ++ t1 /\
    t1 = list_ascii_of_string l ++ small_text us1 ys1 ls).
  { destruct u1; auto; right; eexists; (split; [|reflexivity]); cbn [small_text app]; rewrite <- app_assoc; reflexivity. }
  assert (Z2 : u2 = UnitUnderflow -> x2 = 0 /\ weighted (powers n) ys2 = 0).
  { intros E2. split; [auto|]. subst u2. exact (proj1 (under_zero us2 n ys2 (N2 [] us2 eq_refl) U2')). }
  destruct D2 as [E2|(t2 & -> & ->)]; [destruct (Z2 E2) as [A B]; exfalso; rewrite A, B in W; nia|].
  destruct D1 as [E1|(t1 & -> & ->)].
  - subst u1. destruct (under_zero (UnitUnderflow :: us1) n (x1 :: ys1)) as [_ T]; [constructor; [reflexivity|exact (N1 [] us1 eq_refl)]|constructor; auto|].
    rewrite T. apply before_end.
  - apply before_next. destruct (Z.lt_trichotomy x1 x2) as [Lt|[->|Gt]].
    + apply part_before; lia.
    + apply before_app, before_app. eapply IH; eauto using ends_tail; lia.
    + exfalso. nia.
Qed.

Lemma small_units_length n : forall u, length (small_units n u) = n.
Proof. induction n as [|n IH]; intros u; cbn [small_units length]; auto. Qed.

(** The parts of a duration that is not negative. *)
Lemma to_string_parts den c t : resolution den -> is_count c -> 0 <= c -> to_string den c = Done t ->
  exists d h m s ys, t = day_text d ++ clock_text den h m s ys /\ d = c / (86400 * den) /\ 0 <= h < 24 /\ 0 <= m < 60 /\ 0 <= s < 60 /\
    Forall (fun x => 0 <= x) ys /\ Forall2 Z.lt ys (repeat 1000 8) /\
    Forall2 (fun un x => un = UnitUnderflow -> x = 0) (small_units 8 (unit_second den)) ys /\
    ((((d * 24 + h) * 60 + m) * 60 + s) * 10 ^ 24 + weighted (powers 8) ys) * den = c * 10 ^ 24.
Proof.
  intros Hd Hi Hc Et. destruct (split_spec den c Hd Hi ltac:(lia)) as (xs & E & W & F & L).
  pose proof (split_underflow _ _ _ _ _ E) as U. destruct (split_shape _ _ _ _ _ E) as (d & h & m & s & ys & ->).
  replace (c <? 0) with false in E by lia. rewrite (to_string_text _ _ _ _ _ _ _ _ _ E) in Et. cbn [sign_text app] in Et. injection Et as <-.
  assert (Hd0 : 0 < den) by (destruct Hd as (k & Hk & ->); apply Z.pow_pos_nonneg; lia).
  inversion F as [|? ? Fd F1]; subst. inversion F1 as [|? ? Fh F2]; subst. inversion F2 as [|? ? Fm F3]; subst. inversion F3 as [|? ? Fs Fy]; subst.
  cbn [tl] in L. unfold unit_limit in L. inversion L as [|? ? ? ? L1 L2]; subst. inversion L2 as [|? ? ? ? L3 L4]; subst. inversion L4 as [|? ? ? ? L5 L6]; subst.
  unfold units in U. cbn [app] in U. inversion U as [|? ? ? ? _ U1]; subst. inversion U1 as [|? ? ? ? _ U2]; subst.
  inversion U2 as [|? ? ? ? _ U3]; subst. inversion U3 as [|? ? ? ? _ Uy]; subst.
  rewrite Z.abs_eq in W by lia.
  assert (W' : ((((d * 24 + h) * 60 + m) * 60 + s) * 10 ^ 24 + weighted (powers 8) ys) * den = c * 10 ^ 24).
  { rewrite <- W. f_equal. unfold unit_yocto. cbn [weighted]. change (powers 8) with [10^21;10^18;10^15;10^12;10^9;10^6;10^3;1].
    cbn [weighted] in *. ring. }
  exists d, h, m, s, ys. split; [reflexivity|]. split; [|repeat split; auto].
  pose proof (powers_bound 8 ys Fy L6) as B. change (1000 ^ Z.of_nat 8) with (10 ^ 24) in B. clear W.
  apply Z.div_unique with (c - 86400 * den * d); [|ring]. left.
  set (K := 10 ^ 24) in *. assert (0 < K) by reflexivity. set (q := weighted (powers 8) ys) in *. clearbody q K.
  assert (Q : (c - 86400 * den * d) * K = (((h * 60 + m) * 60 + s) * K + q) * den) by (rewrite Z.mul_sub_distr_r, <- W'; ring).
  assert (B2 : 0 <= ((h * 60 + m) * 60 + s) * K + q < 86400 * K) by nia. nia.
Qed.

Lemma clock_before d1 d2 h1 m1 s1 ys1 h2 m2 s2 ys2 : resolution d1 -> resolution d2 ->
  0 <= h1 < 24 -> 0 <= m1 < 60 -> 0 <= s1 < 60 -> 0 <= h2 < 24 -> 0 <= m2 < 60 -> 0 <= s2 < 60 ->
  Forall (fun x => 0 <= x) ys1 -> Forall2 Z.lt ys1 (repeat 1000 8) -> Forall2 (fun un x => un = UnitUnderflow -> x = 0) (small_units 8 (unit_second d1)) ys1 ->
  Forall (fun x => 0 <= x) ys2 -> Forall2 Z.lt ys2 (repeat 1000 8) -> Forall2 (fun un x => un = UnitUnderflow -> x = 0) (small_units 8 (unit_second d2)) ys2 ->
  ((h1 * 60 + m1) * 60 + s1) * 10 ^ 24 + weighted (powers 8) ys1 < ((h2 * 60 + m2) * 60 + s2) * 10 ^ 24 + weighted (powers 8) ys2 ->
  sorts_before (clock_text d1 h1 m1 s1 ys1) (clock_text d2 h2 m2 s2 ys2).
Proof.
  intros R1 R2 H1 M1 S1 H2 M2 S2 P1 B1 U1 P2 B2 U2 W. unfold clock_text.
  pose proof (powers_bound 8 ys1 P1 B1) as Q1. pose proof (powers_bound 8 ys2 P2 B2) as Q2. change (1000 ^ Z.of_nat 8) with (10 ^ 24) in Q1, Q2.
  pose proof (small_before 8 (small_units 8 (unit_second d1)) (small_units 8 (unit_second d2)) ys1 ys2 letters eq_refl (small_units_length _ _) (small_units_length _ _)
    (small_units_ends _ _) (small_units_ends _ _) U1 U2 P1 P2 B1 B2) as S.
  set (K := 10 ^ 24) in *. assert (0 < K) by reflexivity. set (q1 := weighted (powers 8) ys1) in *. set (q2 := weighted (powers 8) ys2) in *. clearbody K q1 q2.
  assert (P : forall x y u v, 0 <= x -> x < y -> y < 60 -> sorts_before (zeros 2 10 (Z.to_N x) ++ u) (zeros 2 10 (Z.to_N y) ++ v)).
  { intros x y u v A B C. apply part_before; try lia. }
  destruct (Z.lt_trichotomy h1 h2) as [Lt|[->|Gt]]; [apply P; lia| |exfalso; nia].
  apply before_app, before_next. destruct (Z.lt_trichotomy m1 m2) as [Lt|[->|Gt]]; [apply P; lia| |exfalso; nia].
  apply before_app, before_next. destruct (Z.lt_trichotomy s1 s2) as [Lt|[->|Gt]]; [apply P; lia| |exfalso; nia].
  apply before_app, S. lia.
Qed.

(** Numbers of days that have the same number of digits. *)
Lemma digits_length k n : (10 ^ N.of_nat k <= n < 10 ^ N.of_nat (S k))%N -> length (digits 10 n) = S k.
Proof.
  intros [Lo Hi]. destruct (digits_spec 10 n ltac:(lia)) as (Ev & Fa & _ & Hl). specialize (Hl (S k) ltac:(lia) Hi).
  pose proof (eval_bounds _ Fa) as [_ B]. change 10 with (Z.of_N 10) in B at 1. rewrite Ev in B.
  destruct (Nat.le_gt_cases (S k) (length (digits 10 n))) as [G|G]; [lia|]. exfalso.
  assert (M : 10 ^ Z.of_nat (length (digits 10 n)) <= 10 ^ Z.of_nat k) by (apply Z.pow_le_mono_r; lia).
  apply N2Z.inj_le in Lo. rewrite N2Z.inj_pow, nat_N_Z in Lo. change (Z.of_N 10) with 10 in Lo. lia.
Qed.
Lemma days_before k x y u v : 10 ^ Z.of_nat k <= x -> x < y -> y < 10 ^ Z.of_nat (S k) ->
  sorts_before (day_text x ++ u) (day_text y ++ v).
Proof.
  intros Hx Hxy Hy. assert (P0 : 0 < 10 ^ Z.of_nat k) by (apply Z.pow_pos_nonneg; lia).
  unfold day_text. replace (x =? 0) with false by lia. replace (y =? 0) with false by lia. unfold zeros. cbn [Nat.sub repeat app].
  rewrite <- !app_assoc.
  assert (P : forall z, 10 ^ Z.of_nat k <= z < 10 ^ Z.of_nat (S k) -> (10 ^ N.of_nat k <= Z.to_N z < 10 ^ N.of_nat (S k))%N).
  { intros z Hz. split; [apply N2Z.inj_le|apply N2Z.inj_lt]; rewrite N2Z.inj_pow, nat_N_Z; change (Z.of_N 10) with 10; lia. }
  destruct (digits_spec 10 (Z.to_N x) ltac:(lia)) as (E1 & F1 & _). destruct (digits_spec 10 (Z.to_N y) ltac:(lia)) as (E2 & F2 & _).
  change (Z.of_N 10) with 10 in E1, E2. apply digits_before; auto.
  - rewrite (digits_length k _ (P x ltac:(lia))), (digits_length k _ (P y ltac:(lia))). reflexivity.
  - rewrite E1, E2. lia.
Qed.

(** Hexadecimal numbers of the same number of digits. *)
Lemma hex_bounds ds : Forall (fun d => (d < 16)%N) ds -> 0 <= eval 16 0 ds < 16 ^ Z.of_nat (length ds).
Proof.
  induction 1 as [|d ds Hd _ IH]; [cbn; lia|]. change (eval 16 0 (d :: ds)) with (eval 16 (16 * 0 + Z.of_N d) ds).
  rewrite eval_acc. cbn [length]. rewrite Nat2Z.inj_succ, Z.pow_succ_r by lia. nia.
Qed.
Lemma hex_code a b : (a < b < 16)%N -> (N_of_ascii (digit_char false a) < N_of_ascii (digit_char false b))%N.
Proof.
  intros H. unfold digit_char. destruct (N.ltb_spec a 10), (N.ltb_spec b 10); rewrite !N_ascii_embedding; lia.
Qed.
Lemma hexits_before ds1 : forall ds2 u v, length ds1 = length ds2 -> Forall (fun d => (d < 16)%N) ds1 -> Forall (fun d => (d < 16)%N) ds2 ->
  eval 16 0 ds1 < eval 16 0 ds2 -> sorts_before (map (digit_char false) ds1 ++ u) (map (digit_char false) ds2 ++ v).
Proof.
  induction ds1 as [|a ds1 IH]; intros [|b ds2] u v L F1 F2 H; cbn [length] in L; try discriminate.
  inversion F1 as [|? ? Ha G1]; subst. inversion F2 as [|? ? Hb G2]; subst. injection L as L.
  change (eval 16 0 (?d :: ?ds)) with (eval 16 (16 * 0 + Z.of_N d) ds) in H. rewrite (eval_acc _ ds1), (eval_acc _ ds2), L in H.
  pose proof (hex_bounds _ G1) as B1. pose proof (hex_bounds _ G2) as B2. rewrite L in B1. cbn [map app].
  destruct (N.lt_trichotomy a b) as [Lt|[->|Gt]].
  - apply before_here, hex_code. lia.
  - apply before_next, IH; auto. lia.
  - exfalso. nia.
Qed.
Lemma zeros_hexits k n : (0 < k)%nat -> (n < 16 ^ N.of_nat k)%N ->
  exists ds, zeros k 16 n = map (digit_char false) ds /\ length ds = k /\ Forall (fun d => (d < 16)%N) ds /\ eval 16 0 ds = Z.of_N n.
Proof.
  intros Hk Hn. destruct (digits_spec 16 n ltac:(lia)) as (Ev & Fa & _ & Hl). specialize (Hl k Hk Hn).
  exists (repeat 0%N (k - length (digits 16 n)) ++ digits 16 n). unfold zeros. split; [|split; [|split]].
  - rewrite map_app. f_equal. generalize (k - length (digits 16 n))%nat. intros j. induction j as [|j IH]; [reflexivity|]. cbn [repeat map]. rewrite IH. reflexivity.
  - rewrite app_length, repeat_length. lia.
  - apply Forall_app. split; [|exact Fa]. apply Forall_forall. intros x Hx. apply repeat_spec in Hx. lia.
  - rewrite eval_app. assert (Z0 : forall j, eval 16 0 (repeat 0%N j) = 0).
    { induction j as [|j IH]; [reflexivity|]. cbn [repeat]. exact IH. }
    rewrite Z0. exact Ev.
Qed.
Lemma hex_before k x y u v : (0 < k)%nat -> (x < y)%N -> (y < 16 ^ N.of_nat k)%N ->
  sorts_before (zeros k 16 x ++ u) (zeros k 16 y ++ v).
Proof.
  intros Hk Hxy Hy. destruct (zeros_hexits k x Hk ltac:(lia)) as (d1 & -> & L1 & F1 & E1).
  destruct (zeros_hexits k y Hk Hy) as (d2 & -> & L2 & F2 & E2).
  apply hexits_before; auto; [congruence|]. lia.
Qed.
Lemma hex_text_before sz v1 v2 u v : (0 < sz)%nat -> (bits_of sz v1 < bits_of sz v2)%N ->
  sorts_before (hex_text sz v1 ++ u) (hex_text sz v2 ++ v).
Proof.
  intros Hsz H. unfold hex_text. rewrite <- !app_assoc. apply before_app. destruct (Nat.eqb_spec sz 8) as [->|Hne].
  - pose proof (bits8 v2) as B. set (a := bits_of 8 v1) in *. set (b := bits_of 8 v2) in *. rewrite <- !app_assoc.
    pose proof (N.div_mod a (2 ^ 32) ltac:(lia)) as D1. pose proof (N.div_mod b (2 ^ 32) ltac:(lia)) as D2.
    pose proof (N.mod_lt a (2 ^ 32) ltac:(lia)) as M1. pose proof (N.mod_lt b (2 ^ 32) ltac:(lia)) as M2.
    assert (Q : (b / 2 ^ 32 < 16 ^ N.of_nat 8)%N) by (apply N.div_lt_upper_bound; [lia|]; exact B).
    destruct (N.lt_trichotomy (a / 2 ^ 32) (b / 2 ^ 32)) as [Lt|[E|Gt]]; [apply hex_before; auto; lia| |exfalso; lia].
    rewrite E. apply before_app. cbn [app]. apply before_next. apply hex_before; [lia|lia|exact M2].
  - apply hex_before; [lia|exact H|apply bits_range].
Qed.
