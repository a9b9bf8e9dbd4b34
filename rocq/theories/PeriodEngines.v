(** The engines of [full_period_engines]: their least period and the register that determines
    their output. *)
From Verif Require Import Base BaseProofs Random RandomSpec RandomProofs
  PeriodPrime PeriodLinear PeriodData PeriodProofs PeriodCert PeriodSpec PeriodCount.
From Coq Require Import ZifyBool ZifyNat ZifyN.
Open Scope N_scope.

Lemma primes_256 : Forall is_prime (chain_primes levels_xs256).
Proof.
  pose proof primes_certified as H. destruct (certified [2] primes) as [l|] eqn:E; [|contradiction].
  apply certified_primes in E; [|constructor; [exact prime_two|constructor]].
  rewrite forallb_forall in H. rewrite Forall_forall in *. intros q Hq. apply E.
  apply H in Hq. apply existsb_exists in Hq. destruct Hq as [x [Hx Hqx]]. apply N.eqb_eq in Hqx. congruence.
Qed.

Lemma sub_primes l : forallb (fun q => existsb (N.eqb q) (chain_primes levels_xs256)) l = true -> Forall is_prime l.
Proof.
  pose proof primes_256 as P. rewrite forallb_forall, !Forall_forall in *. intros H q Hq. apply P.
  apply H in Hq. apply existsb_exists in Hq. destruct Hq as [x [Hx Hqx]]. apply N.eqb_eq in Hqx. congruence.
Qed.

Lemma primes_64 : Forall is_prime (chain_primes levels_x64).
Proof. apply sub_primes. vm_compute. reflexivity. Qed.
Lemma primes_r128 : Forall is_prime (chain_primes levels_xr128).
Proof. apply sub_primes. vm_compute. reflexivity. Qed.
Lemma primes_s128 : Forall is_prime (chain_primes levels_xs128).
Proof. apply sub_primes. vm_compute. reflexivity. Qed.

Ltac period P gs h ks B C Q :=
  match goal with |- forall st k, rng_ok ?e st -> _ =>
    apply (family_period e P gs h ks)
  end;
  [ split; first [reflexivity|discriminate] | reflexivity | exact B | exact C | reflexivity | reflexivity
  | apply Nat.ltb_lt; reflexivity | exact Q ].

Lemma engines_period e : In e full_period_engines -> forall st k, rng_ok e st -> nonzero st ->
  (after e k st = st <-> (number_of_states e - 1 | N.of_nat k)).
Proof.
  intros H. unfold number_of_states. fold (bits_of (e_w e) (e_fam e)).
  unfold full_period_engines in H. cbn [In] in H.
  destruct H as [<-|[<-|[<-|[<-|[<-|[<-|[<-|[<-|[]]]]]]]]].
  - period poly_x64 combs_x64 32%nat levels_x64 basis_x64 chain_x64 primes_64.
  - period poly_x64 combs_x64 32%nat levels_x64 basis_x64 chain_x64 primes_64.
  - period poly_xr128 combs_xr128 64%nat levels_xr128 basis_xr128 chain_xr128 primes_r128.
  - period poly_xr128 combs_xr128 64%nat levels_xr128 basis_xr128 chain_xr128 primes_r128.
  - period poly_xs128 combs_xs128 64%nat levels_xs128 basis_xs128 chain_xs128 primes_s128.
  - period poly_xs128 combs_xs128 64%nat levels_xs128 basis_xs128 chain_xs128 primes_s128.
  - period poly_xs256 combs_xs256 128%nat levels_xs256 basis_xs256 chain_xs256 primes_256.
  - period poly_xs256 combs_xs256 128%nat levels_xs256 basis_xs256 chain_xs256 primes_256.
Qed.

Lemma full_engines e : In e full_period_engines -> In e engines.
Proof. cbn [In full_period_engines engines]. tauto. Qed.

Lemma starry_solvable e : In e starry -> exists i, solvable (e_w e) (state_size (e_fam e)) i (out_of e).
Proof.
  intros H. destruct (starry_permutes e H) as (i & Hi & Hinj & _). exists i. split; [exact Hi|]. split.
  - intros s _ _. apply scramble_lt.
  - intros s t Ls Lt Ws Wt _ E. apply Hinj in E; [exact E| |]; repeat split; assumption.
Qed.

Lemma add_mod_inj M a b x : a < M -> b < M -> (a + x) mod M = (b + x) mod M -> a = b.
Proof.
  intros Ha Hb E. assert (M0 : M <> 0) by lia.
  pose proof (N.div_mod' (a + x) M). pose proof (N.div_mod' (b + x) M). rewrite E in H.
  assert (D : (a + x) / M = (b + x) / M) by nia. rewrite D in H. lia.
Qed.

Lemma plus_solvable w f i j : (i < state_size f)%nat -> i <> j -> plain w f ->
  solvable w (state_size f) i (out_of (mkEngine w f (SPlus i j))).
Proof.
  intros Hi Hij Hp. split; [exact Hi|]. split.
  - intros s _ _. apply (scramble_lt (mkEngine w f (SPlus i j))).
  - intros s t Ls Lt Ws Wt Hn E. unfold out_of, draw, scramble, scr_index in E. cbn [e_w e_fam e_scr fst r_s r_p] in E.
    assert (E' : (nth i s 0 + nth j s 0) mod 2 ^ w = (nth i t 0 + nth j t 0) mod 2 ^ w).
    { destruct f; cbn [plain] in Hp; [|contradiction| |]; exact E. }
    rewrite (Hn j) in E' by auto. apply add_mod_inj in E'; [exact E'| |].
    + rewrite Forall_forall in Ws. apply Ws, nth_In. lia.
    + rewrite Forall_forall in Wt. apply Wt, nth_In. lia.
Qed.

Lemma engines_solvable e : In e full_period_engines ->
  exists i, solvable (e_w e) (state_size (e_fam e)) i (out_of e).
Proof.
  intros H. unfold full_period_engines in H. cbn [In] in H.
  destruct H as [<-|[<-|[<-|[<-|[<-|[<-|[<-|[<-|[]]]]]]]]]; try (apply starry_solvable; cbn [In starry]; tauto).
  - exists 0%nat. apply (plus_solvable 64 (Xoroshiro2 24 16 37) 0 1); [cbn; lia|discriminate|split; discriminate].
  - exists 0%nat. apply (plus_solvable 32 (Xoshiro4 9 11) 0 3); [cbn; lia|discriminate|split; [reflexivity|discriminate]].
  - exists 0%nat. apply (plus_solvable 64 (Xoshiro4 17 45) 0 3); [cbn; lia|discriminate|split; [reflexivity|discriminate]].
Qed.

Lemma engines_zero e : In e full_period_engines -> out_of e (repeat 0 (state_size (e_fam e))) = 0.
Proof.
  intros H. unfold full_period_engines in H. cbn [In] in H.
  destruct H as [<-|[<-|[<-|[<-|[<-|[<-|[<-|[<-|[]]]]]]]]]; vm_compute; reflexivity.
Qed.

Lemma engines_size e : In e full_period_engines ->
  (e_w e = 32 \/ e_w e = 64) /\ (1 < state_size (e_fam e))%nat.
Proof.
  intros H. unfold full_period_engines in H. cbn [In] in H.
  destruct H as [<-|[<-|[<-|[<-|[<-|[<-|[<-|[<-|[]]]]]]]]]; (split; [first [left; reflexivity|right; reflexivity]|apply Nat.ltb_lt; reflexivity]).
Qed.

(** ** Statements of the properties *)

Lemma visits_all e st st' : In e full_period_engines -> rng_ok e st -> nonzero st -> rng_ok e st' -> nonzero st' ->
  exists k, N.of_nat k < number_of_states e - 1 /\ after e k st = st'.
Proof.
  intros He Hs Hn. apply visits; auto.
  - apply engines_consts, full_engines, He.
  - apply engines_period, He.
Qed.

Lemma occurrences_of e st p : In e full_period_engines -> rng_ok e st -> nonzero st ->
  occurrences p e (number_of_states e - 1) st + (if p 0 then 1 else 0) =
  N.of_nat (length (filter p (words (e_w e)))) * 2 ^ (e_w e * N.of_nat (state_size (e_fam e) - 1)).
Proof.
  intros He Hs Hn. destruct (engines_solvable e He) as [i Hi].
  apply (occurrences_count e (engines_consts e (full_engines e He)) (engines_period e He) st Hs Hn i Hi (engines_zero e He)).
Qed.

Lemma equidistributed e st v : In e full_period_engines -> rng_ok e st -> nonzero st -> v < 2 ^ e_w e ->
  occurrences (fun x => x =? v) e (number_of_states e - 1) st =
  2 ^ (e_w e * N.of_nat (state_size (e_fam e) - 1)) - (if v =? 0 then 1 else 0).
Proof.
  intros He Hs Hn Hv. pose proof (occurrences_of e st (fun x => x =? v) He Hs Hn) as H.
  cbv beta in H. rewrite (count_one _ _ Hv), N.mul_1_l, N.eqb_sym in H. lia.
Qed.

Lemma period_obs {B} e st d (f : N -> B) p c : In e full_period_engines -> rng_ok e st -> nonzero st ->
  p (f 0) = false -> length (filter (fun v => p (f v)) (words (e_w e))) = N.to_nat (2 ^ c) ->
  ((forall k, f (output e (k + d) st) = f (output e k st)) <-> (number_of_states e - 1 | N.of_nat d)).
Proof.
  intros He Hs Hn H0 Hc. destruct (engines_solvable e He) as [i Hi]. destruct (engines_size e He) as [Hw Hsz].
  apply (observed_period e (engines_consts e (full_engines e He)) (engines_period e He) st Hs Hn i Hi (engines_zero e He) f p c d);
    [destruct Hw as [-> | ->]; lia|exact H0|exact Hc].
Qed.

Lemma output_period e st d : In e full_period_engines -> rng_ok e st -> nonzero st ->
  ((forall k, output e (k + d) st = output e k st) <-> (number_of_states e - 1 | N.of_nat d)).
Proof.
  intros He Hs Hn. destruct (engines_size e He) as [Hw _].
  apply (period_obs e st d (fun v => v) (fun v => v =? 1) 0 He Hs Hn); [reflexivity|].
  rewrite count_one; [reflexivity|]. destruct Hw as [-> | ->]; reflexivity.
Qed.

Lemma bit_period e st d b : In e full_period_engines -> rng_ok e st -> nonzero st -> b < e_w e ->
  ((forall k, N.testbit (output e (k + d) st) b = N.testbit (output e k st) b) <-> (number_of_states e - 1 | N.of_nat d)).
Proof.
  intros He Hs Hn Hb.
  apply (period_obs e st d (fun v => N.testbit v b) (fun v => v) (e_w e - 1) He Hs Hn); [reflexivity|].
  apply count_bit, Hb.
Qed.

Lemma bit_occurrences e st b : In e full_period_engines -> rng_ok e st -> nonzero st -> b < e_w e ->
  2 * occurrences (fun v => N.testbit v b) e (number_of_states e - 1) st = number_of_states e.
Proof.
  intros He Hs Hn Hb. pose proof (occurrences_of e st (fun v => N.testbit v b) He Hs Hn) as H.
  cbv beta in H. change (N.testbit 0 b) with false in H. rewrite count_bit, N2Nat.id in H by exact Hb.
  destruct (engines_size e He) as [Hw Hsz].
  rewrite N.add_0_r in H. rewrite H. unfold number_of_states.
  rewrite N.mul_assoc, <- N.pow_succ_r', <- N.pow_add_r. f_equal.
  replace (N.of_nat (state_size (e_fam e))) with (1 + N.of_nat (state_size (e_fam e) - 1)) by lia. lia.
Qed.

Lemma fst_output01 e st k : e_w e = 32 \/ e_w e = 64 ->
  output01 e k st = (output e k st / 2 ^ (e_w e - (if e_w e =? 32 then 24 else 53)), if e_w e =? 32 then 24 else 53).
Proof.
  intros Hw. unfold output01, output. destruct (unit_interval e (after e k st) Hw) as [_ [H2 H3]].
  rewrite H2 in H3. destruct (fst (draw01 e (after e k st))) as [a b]. cbn [fst snd] in *. congruence.
Qed.

Lemma equidistributed01 e st a : In e full_period_engines -> rng_ok e st -> nonzero st ->
  let b := if e_w e =? 32 then 24 else 53 in
  a < 2 ^ b ->
  occurrences01 a e (number_of_states e - 1) st =
  2 ^ (e_w e * N.of_nat (state_size (e_fam e)) - b) - (if a =? 0 then 1 else 0).
Proof.
  intros He Hs Hn b Ha. destruct (engines_size e He) as [Hw Hsz].
  assert (Hb : b <= e_w e) by (unfold b; destruct Hw as [-> | ->]; cbn; lia).
  pose proof (occurrences_of e st (fun v => v / 2 ^ (e_w e - b) =? a) He Hs Hn) as H. cbv beta in H.
  rewrite count_high, N2Nat.id in H; [|lia|replace (e_w e - (e_w e - b)) with b by lia; exact Ha].
  rewrite N.div_0_l in H by (apply N.pow_nonzero; discriminate).
  rewrite (N.eqb_sym 0 a) in H. rewrite <- N.pow_add_r in H.
  assert (E : e_w e - b + e_w e * N.of_nat (state_size (e_fam e) - 1) = e_w e * N.of_nat (state_size (e_fam e)) - b).
  { replace (N.of_nat (state_size (e_fam e))) with (1 + N.of_nat (state_size (e_fam e) - 1)) by lia. lia. }
  rewrite E in H. unfold occurrences01.
  assert (F : filter (fun k => fst (output01 e k st) =? a) (seq 0 (N.to_nat (number_of_states e - 1))) =
              filter (fun k => output e k st / 2 ^ (e_w e - b) =? a) (seq 0 (N.to_nat (number_of_states e - 1)))).
  { apply filter_ext. intros k. rewrite fst_output01 by exact Hw. reflexivity. }
  rewrite F. unfold occurrences in H. lia.
Qed.

Lemma output01_period e st d : In e full_period_engines -> rng_ok e st -> nonzero st ->
  ((forall k, output01 e (k + d) st = output01 e k st) <-> (number_of_states e - 1 | N.of_nat d)).
Proof.
  intros He Hs Hn. destruct (engines_size e He) as [Hw Hsz].
  set (b := if e_w e =? 32 then 24 else 53).
  assert (Hb : b <= e_w e) by (unfold b; destruct Hw as [-> | ->]; cbn; lia).
  rewrite <- (period_obs e st d (fun v => v / 2 ^ (e_w e - b)) (fun v => v =? 1) (e_w e - b) He Hs Hn).
  - split; intros H k; specialize (H k).
    + rewrite !fst_output01 in H by exact Hw. fold b in H. congruence.
    + rewrite !fst_output01 by exact Hw. fold b. congruence.
  - cbv beta. rewrite N.div_0_l by (apply N.pow_nonzero; discriminate). reflexivity.
  - apply count_high; [lia|]. replace (e_w e - (e_w e - b)) with b by lia.
    unfold b. destruct Hw as [-> | ->]; reflexivity.
Qed.
