(** Properties of random engines as components. *)
From Coq Require Import QArith.
From Verif Require Import Base BaseProofs Random RandomSpec RandomProofs RandomProps PeriodSpec PeriodEngines Generator GeneratorSpec GeneratorProofs.
From Coq Require Import ZifyBool ZifyNat ZifyN.
Open Scope N_scope.

(** The programs considered create engines of the library. *)
Definition proper (os : list op) : Prop :=
  Forall (fun o => match o with ONew k _ => In (k_eng k) engines | _ => True end) os.

Lemma proper_ok os : proper os -> Forall op_ok os.
Proof.
  intros H. induction H as [|o os Ho H IH]; constructor; [|exact IH].
  destruct o; cbn in *; try exact I. apply engines_w, Ho.
Qed.

(** In a program of any engines and distributions, used in any order, each engine lives a
    history of its own: what it and its distributions return comes from its own words, each
    used once and in order. *)
Theorem C84_streams : forall L os w tr i,
  proper os -> run L os (w_init L) = Done (w, tr) -> (i < length (w_engs L w))%nat ->
  exists a, history L (events_of L i tr) a /\
    nth_error (w_engs L w) i =
      Some (a_kind L a, after (k_eng (a_kind L a)) (a_used L a) (seed (k_eng (a_kind L a)) (a_seed L a))) /\
    forall d s, nth_error (w_dists L w) d = Some (i, s) <-> a_dists L a d = Some s.
Proof.
  intros L os w tr i Hp Hr Hi.
  destruct (run_inv L os _ [] _ _ (init_inv L) (proper_ok os Hp) Hr) as [I1 _].
  destruct (I1 i Hi) as [a [Ha [_ [H1 H2]]]]. exists a. auto.
Qed.
Print Assumptions C84_streams.

(** Reproducibility: whatever else two programs do, if the same is asked of an engine of the one
    and an engine of the other, the same is returned.  (Distributions have other names in the two
    programs; [g] translates.) *)
Theorem C84_reproducible : forall L os1 os2 w1 w2 tr1 tr2 i1 i2 g,
  proper os1 -> proper os2 ->
  run L os1 (w_init L) = Done (w1, tr1) -> run L os2 (w_init L) = Done (w2, tr2) ->
  (forall x y, g x = g y -> x = y) ->
  map (input_of L g) (events_of L i1 tr1) = map (input_of L (fun x => x)) (events_of L i2 tr2) ->
  map (answer_of L) (events_of L i1 tr1) = map (answer_of L) (events_of L i2 tr2).
Proof.
  intros L os1 os2 w1 w2 tr1 tr2 i1 i2 g P1 P2 R1 R2 Hg E.
  destruct (run_inv L os1 _ [] _ _ (init_inv L) (proper_ok os1 P1) R1) as [I1 [J1 _]].
  destruct (run_inv L os2 _ [] _ _ (init_inv L) (proper_ok os2 P2) R2) as [I2 [J2 _]].
  cbn [app] in *.
  destruct (Nat.lt_ge_cases i1 (length (w_engs L w1))) as [H1|H1].
  - destruct (Nat.lt_ge_cases i2 (length (w_engs L w2))) as [H2|H2].
    + destruct (I1 i1 H1) as [a [Ha _]]. destruct (I2 i2 H2) as [b [Hb _]].
      apply (history_alike L g Hg _ a Ha _ b Hb E).
    + rewrite (J2 i2 H2) in *. apply map_eq_nil in E. rewrite E. reflexivity.
  - rewrite (J1 i1 H1) in *. cbn in E. symmetry in E. apply map_eq_nil in E. rewrite E. reflexivity.
Qed.
Print Assumptions C84_reproducible.

(** A one-shot [GenerateXxx] returns what a new distribution of the same parameters returns
    first, and uses up the same words. *)
Theorem C84_one_shot : forall L w i p w1 e1,
  step L (OCreate i p) w = Done (w1, e1) ->
  exists v w2 w3,
    step L (ODraw (length (w_dists L w))) w1 = Done (w2, (i, EDraw L (length (w_dists L w)) v)) /\
    step L (OGenerateX i p) w = Done (w3, (i, EGenerateX L p v)) /\
    w_engs L w2 = w_engs L w3 /\ w_dists L w3 = w_dists L w.
Proof.
  intros L w i p w1 e1 E. cbn [step] in *. unfold get_eng in *.
  destruct (nth_error (w_engs L w) i) as [[k st]|] eqn:Ek; [|discriminate]. cbn [obind fst snd] in *.
  destruct (create_asserts p); [|discriminate]. destruct (make L p) as [s| | |] eqn:Em; try discriminate.
  cbn [obind] in E. injection E as <- <-.
  unfold get_dist. cbn [w_dists w_engs]. rewrite nth_error_app2, Nat.sub_diag by lia.
  cbn [nth_error obind fst snd w_engs]. rewrite Ek. cbn [obind fst snd].
  destruct (perform k (l_draw L k s) st) as [[v s'] st'] eqn:Ep.
  do 3 eexists. split; [reflexivity|]. split; [reflexivity|]. split; reflexivity.
Qed.
Print Assumptions C84_one_shot.

(** [Discard(z)] leaves everything as [z] calls of [Generate] do. *)
Theorem C84_discard : forall L z i w, (i < length (w_engs L w))%nat ->
  exists w' tr, run L (repeat (OGenerate i) z) w = Done (w', tr) /\
    step L (ODiscard i z) w = Done (w', (i, EDiscard L z)) /\ length tr = z.
Proof.
  intros L z i w Hi. destruct (nth_error (w_engs L w) i) as [[k st]|] eqn:E; [|apply nth_error_None in E; lia].
  destruct (generate_many L z i w k st E) as [tr [E1 E2]]. do 2 eexists. split; [exact E1|]. split; [|exact E2].
  cbn [step]. unfold get_eng. rewrite E. reflexivity.
Qed.
Print Assumptions C84_discard.

(** [Seed(v)] puts an engine where the construction with [v] puts a new one. *)
Theorem C84_reseed : forall L w i v w' e, v < 2 ^ 32 ->
  step L (OSeed i v) w = Done (w', e) ->
  exists k st, nth_error (w_engs L w) i = Some (k, st) /\
    nth_error (w_engs L w') i = Some (k, constructed k (Some v)).
Proof.
  intros L w i v w' e Hv Es. cbn [step] in Es. unfold get_eng in Es.
  destruct (nth_error (w_engs L w) i) as [[k st]|] eqn:Ek; [|discriminate]. cbn [obind fst] in Es. injection Es as <- <-.
  assert (Hi : (i < length (w_engs L w))%nat) by (apply nth_error_Some; rewrite Ek; discriminate).
  exists k, st. split; [reflexivity|]. cbn. rewrite nth_upd_eq by exact Hi. unfold constructed, seeded.
  unfold wrap at 2. rewrite (N.mod_small v) by exact Hv. reflexivity.
Qed.
Print Assumptions C84_reseed.

(** A program that names only what it made fails at assertions only, and [CreateXxx] fails
    exactly at the assertions. *)
Theorem C84_create : forall L w i p, (i < length (w_engs L w))%nat ->
  (create_asserts p = true /\ l_make L p <> None <-> exists w' e, step L (OCreate i p) w = Done (w', e)) /\
  (~ (create_asserts p = true /\ l_make L p <> None) <-> step L (OCreate i p) w = AssertFail).
Proof.
  intros L w i p Hi. cbn [step]. unfold get_eng. destruct (nth_error (w_engs L w) i) as [x|] eqn:Ek; [|apply nth_error_None in Ek; lia].
  cbn [obind]. unfold make. destruct (create_asserts p), (l_make L p) as [s|]; cbn [obind].
  - split; split; try discriminate; intros H.
    + do 2 eexists. reflexivity.
    + split; [reflexivity|discriminate].
    + exfalso. apply H. split; [reflexivity|discriminate].
  - split; split; try discriminate.
    + intros [_ H]. congruence. + intros (? & ? & H). discriminate. + reflexivity. + intros _ [_ H]. congruence.
  - split; split; try discriminate.
    + intros [H _]. discriminate. + intros (? & ? & H). discriminate. + reflexivity. + intros _ [H _]. discriminate.
  - split; split; try discriminate.
    + intros [H _]. discriminate. + intros (? & ? & H). discriminate. + reflexivity. + intros _ [H _]. discriminate.
Qed.
Print Assumptions C84_create.

(** The assertions are the documented conditions, but for two distributions: Laplace, whose
    mean has to be positive, and piecewise constant, which needs a bound. *)
Theorem C84_conditions : forall p,
  match p with PLaplace m _ => (0 < m)%Q | PPiecewiseConstant bs _ => bs <> [] | _ => True end ->
  create_asserts p = true <-> documented p.
Proof. exact asserts_documented. Qed.
Print Assumptions C84_conditions.

(** *** Refuted *)

(** "A Laplace distribution of mean 0 can be created": the assertion is about the wrong
    parameter; [GenerateLaplace] accepts it. *)
Theorem C84_laplace_refuted : forall L s, l_make L (PLaplace 0 1) = Some s ->
  documented (PLaplace 0 1) /\
  forall w i, (i < length (w_engs L w))%nat ->
    step L (OCreate i (PLaplace 0 1)) w = AssertFail /\
    exists w' e, step L (OGenerateX i (PLaplace 0 1)) w = Done (w', e).
Proof.
  intros L s Hs. split; [reflexivity|]. intros w i Hi. cbn [step]. unfold get_eng.
  destruct (nth_error (w_engs L w) i) as [[k st]|] eqn:Ek; [|apply nth_error_None in Ek; lia]. cbn [obind fst snd].
  split; [reflexivity|]. unfold make. rewrite Hs. cbn [obind].
  destruct (perform k (l_draw L k s) st) as [[v d] st']. do 2 eexists. reflexivity.
Qed.
Print Assumptions C84_laplace_refuted.

(** "The seed is a 64-bit unsigned integer": an engine of 32-bit words keeps only the lower half,
    so different seeds give the same stream. *)
Theorem C84_seed32_refuted : forall k v, e_w (k_eng k) = 32 ->
  constructed k (Some (v + 2 ^ 32)) = constructed k (Some v).
Proof.
  intros k v Hw. unfold constructed. f_equal. unfold wrap. rewrite Hw.
  rewrite <- (N.mul_1_l (2 ^ 32)) at 1. apply N.mod_add. discriminate.
Qed.
Print Assumptions C84_seed32_refuted.

(** An engine of 64-bit words uses the whole seed, but then [Seed] cannot lead back to it. *)
Theorem C84_seed64_refuted : forall k v u, In (k_eng k) engines -> e_w (k_eng k) = 64 ->
  2 ^ 32 <= v -> v < 2 ^ 64 -> seeded k u <> constructed k (Some v).
Proof.
  intros k v u He Hw Hlo Hhi E. rewrite seeded_low in E by (right; exact Hw). cbn [constructed] in E.
  unfold wrap in E. rewrite Hw, (N.mod_small v) in E by exact Hhi.
  assert (Hl : low 32 u < 2 ^ 32) by (apply N.mod_lt; discriminate).
  apply seed_inj in E; [lia|exact Hw| | |exact Hhi].
  - destruct (engines_n _ He); lia.
  - eapply N.lt_trans; [exact Hl|reflexivity].
Qed.
Print Assumptions C84_seed64_refuted.

(** Different 64-bit seeds lead to different states. *)
Theorem C84_seeds_distinct : forall k u v, In (k_eng k) engines -> e_w (k_eng k) = 64 ->
  u < 2 ^ 64 -> v < 2 ^ 64 -> constructed k (Some u) = constructed k (Some v) -> u = v.
Proof.
  intros k u v He Hw Hu Hv E. cbn [constructed] in E. unfold wrap in E. rewrite Hw, !N.mod_small in E by assumption.
  apply seed_inj in E; try assumption. destruct (engines_n _ He); lia.
Qed.
Print Assumptions C84_seeds_distinct.

(** [GetMinValue] and [GetMaxValue] of the integer engines are tight: both are generated. *)
Theorem C84_bounds : forall e st, In e full_period_engines -> rng_ok e st -> nonzero st ->
  (exists n, WInt (output e n st) = rng_min (mkKind e false)) /\
  (exists n, WInt (output e n st) = rng_max (mkKind e false)) /\
  forall n, output e n st <= 2 ^ e_w e - 1.
Proof.
  intros e st He Hok Hnz. assert (P : 2 ^ e_w e <> 0) by (apply N.pow_nonzero; discriminate).
  split; [|split].
  - destruct (every_word e st 0 He Hok Hnz) as [n Hn]; [lia|]. exists n. rewrite Hn. reflexivity.
  - destruct (every_word e st (2 ^ e_w e - 1) He Hok Hnz) as [n Hn]; [lia|]. exists n. rewrite Hn. reflexivity.
  - intros n. unfold output, draw. cbn [fst]. pose proof (scramble_lt e (after e n st)). lia.
Qed.
Print Assumptions C84_bounds.

(** "[GetMaxValue] is the maximum value that can be generated": over the unit interval it is 1,
    which no engine generates. *)
Theorem C84_max_refuted : forall e st, In e engines ->
  rng_max (mkKind e true) = WUnit 1 0 /\
  exists a b st', call (mkKind e true) st = (WUnit a b, st') /\ a < 1 * 2 ^ b.
Proof.
  intros e st He. split; [reflexivity|]. unfold call. cbn [k_unit k_eng].
  pose proof (unit_interval e st (engines_w e He)) as H.
  destruct (draw01 e st) as [[a b] st'] eqn:E. exists a, b, st'. split; [reflexivity|].
  rewrite N.mul_1_l. apply H.
Qed.
Print Assumptions C84_max_refuted.

(** *** Cases *)

(** A distribution that, like the normal one, takes two words for two values and keeps the
    second for the next call. *)
Definition pairs : library := mkLibrary (option word) word
  (fun p => match p with PNormal _ _ | PLaplace _ _ => Some None | _ => None end)
  (fun _ s => match s with
     | Some w => Ret (w, None)
     | None => Call (fun a => Call (fun b => Ret (a, Some b)))
     end)
  (fun _ => None).

Definition k64 := mkKind xoroshiro128plus false.
Definition k01 := mkKind xoshiro256plus true.

(** Two engines of the same seed; the first serves two distributions and is asked directly in
    between, the second serves one, after another engine was created, and is reseeded. *)
Definition os_ex : list op :=
  [ONew k64 (Some 7); OCreate 0 (PNormal 0 1); ODraw 0; OGenerate 0; OGenerateX 0 (PNormal 0 1);
   ONew k01 None; OCreate 0 (PNormal 1 1); ODraw 1; ODraw 0; OGenerate 1; OReset 1; ODraw 1; ODiscard 0 3;
   OSeed 0 7; OGenerate 0].
Definition os_ex' : list op :=
  [ONew k01 (Some 3); ONew k64 (Some 7); OCreate 0 (PNormal 0 1); OCreate 1 (PNormal 0 1); ODraw 0; ODraw 1;
   OGenerate 1; OGenerateX 1 (PNormal 0 1); OCreate 1 (PNormal 1 1); ODraw 2; ODraw 1; OReset 2; ODraw 2; ODiscard 1 3;
   OSeed 1 7; OGenerate 1].

Example C84_streams_ex : proper os_ex /\ proper os_ex' /\
  exists w tr w' tr', run pairs os_ex (w_init pairs) = Done (w, tr) /\
    run pairs os_ex' (w_init pairs) = Done (w', tr') /\
    map (input_of pairs S) (events_of pairs 0 tr) = map (input_of pairs (fun x => x)) (events_of pairs 1 tr') /\
    length (events_of pairs 0 tr) = 13%nat /\
    exists w0 w2, nth_error (events_of pairs 0 tr) 3 = Some (EGenerate pairs w2) /\ w2 = stream k64 7 2 /\
      nth_error (events_of pairs 0 tr) 12 = Some (EGenerate pairs w0) /\ w0 = stream k64 7 0 /\ w0 <> w2.
Proof.
  split; [repeat constructor; cbn; tauto|]. split; [repeat constructor; cbn; tauto|].
  destruct (run pairs os_ex (w_init pairs)) as [[w tr]| | |] eqn:E; vm_compute in E; try discriminate.
  destruct (run pairs os_ex' (w_init pairs)) as [[w' tr']| | |] eqn:E'; vm_compute in E'; try discriminate.
  injection E as <- <-. injection E' as <- <-. do 4 eexists. split; [reflexivity|]. split; [reflexivity|].
  split; [reflexivity|]. split; [reflexivity|]. do 2 eexists. split; [reflexivity|].
  split; [vm_compute; reflexivity|]. split; [reflexivity|]. split; [vm_compute; reflexivity|]. discriminate.
Qed.

Example C84_one_shot_ex : exists w tr w1 e, run pairs os_ex (w_init pairs) = Done (w, tr) /\
  step pairs (OCreate 1 (PNormal 0 1)) w = Done (w1, e) /\ (1 < length (w_engs pairs w))%nat.
Proof.
  destruct (run pairs os_ex (w_init pairs)) as [[w tr]| | |] eqn:E; vm_compute in E; try discriminate.
  injection E as <- <-. do 4 eexists. split; [reflexivity|]. split; [reflexivity|]. cbn. lia.
Qed.

Example C84_laplace_ex : l_make pairs (PLaplace 0 1) = Some None /\
  create_asserts (PLaplace (1 # 2) 1) = true /\ documented (PLaplace (1 # 2) 1) /\
  create_asserts (PBinomial 3 (3 # 2)) = false /\ ~ documented (PBinomial 3 (3 # 2)).
Proof. repeat split; try reflexivity. intros [_ H]. apply Qle_bool_iff in H. discriminate. Qed.

Example C84_seeds_ex : e_w (k_eng k64) = 64 /\ In (k_eng k64) engines /\
  2 ^ 32 <= 2 ^ 32 + 1 /\ 2 ^ 32 + 1 < 2 ^ 64 /\
  e_w (k_eng (mkKind xoshiro128plus true)) = 32 /\
  In xoshiro128plus full_period_engines /\ rng_ok xoshiro128plus (seed xoshiro128plus 5) /\
  nonzero (seed xoshiro128plus 5).
Proof.
  split; [reflexivity|]. split; [cbn; tauto|]. split; [discriminate|]. split; [reflexivity|]. split; [reflexivity|].
  split; [cbn; tauto|]. split; [apply seed_ok|].
  destruct (nonzero_dec (seed xoshiro128plus 5)) as [H|H]; [exact H|].
  apply (not_nonzero xoshiro128plus) in H; [|apply seed_ok]. vm_compute in H. discriminate.
Qed.
