(** Property C94: the arithmetic on the simulation clock. *)
From Coq Require Import ZifyBool ZifyNat.
From Verif Require Import Base Sim SimSpec SimProofs Nested NestedSpec NestedProofs NestedProps
  Duration DurationSpec DurationProofs Clock64 Clock64Spec Clock64Proofs.
Open Scope Z_scope.

(** ** C94 *)

(** With 64-bit time points a simulation either meets an overflow or behaves as
    it does with unbounded time: there is no third possibility. *)
Theorem C94_exact : forall K p fuel l,
  nsteps64 K p fuel l ready = Some UB \/ nsteps64 K p fuel l ready = nsteps K p fuel l ready.
Proof. intros K p fuel l. apply exec64_either. reflexivity. Qed.
Print Assumptions C94_exact.

(** So whatever a simulation that met no overflow has done is right: with the
    heap scheduler, every event was taken at its time, in order, and none was
    lost. *)
Theorem C94_legal : forall lib p fuel l st,
  nsteps64 (KHeap lib) p fuel l ready = Some (Done st) ->
  legal (s_trace st) /\ taken_on_time (s_trace st) /\
  (num_events st = 0%nat <-> all_taken (s_trace st) (fun _ => True)).
Proof.
  intros lib p fuel l st E. destruct (C94_exact (KHeap lib) p fuel l) as [X|X]; [congruence|].
  rewrite X in E. destruct (C92_heap lib p fuel l st E) as [A [B [C _]]]. auto.
Qed.
Print Assumptions C94_legal.

(** Overflow is met exactly where one would think: a call of [ScheduleIn] or
    [RunFor] is undefined if the clock plus the duration is no time point. *)
Theorem C94_overflow : forall K p fuel l st dt s,
  nsteps64 K p fuel l ready = Some (Done st) -> ~ is_count (s_now st + dt) ->
  nsteps64 K p (S fuel) (l ++ [Act (AIn dt s)]) ready = Some UB /\
  nsteps64 K p (S fuel) (l ++ [RunFor dt]) ready = Some UB.
Proof.
  intros K p fuel l st dt s E Ho.
  assert (C : s_clock st = true).
  { destruct (C94_exact K p fuel l) as [X|X]; [congruence|]. rewrite X in E.
    apply exec_clock in E. exact E. }
  split; (eapply exec64_snoc; [exact E|intros f|reflexivity]); cbn [exec64 act64].
  - rewrite C. cbn [negb]. rewrite vt_add_out by auto. reflexivity.
  - rewrite vt_add_out by auto. reflexivity.
Qed.
Print Assumptions C94_overflow.

(** Nor can it be met elsewhere: if runs end by the time [H], none of them is
    without a limit, and no duration passed to [ScheduleIn], by the owner or by
    a sink, is longer than what is left between [H] and the latest time point,
    then the simulation is the ideal one, whatever the sinks do besides and
    however long it takes. *)
Theorem C94_horizon : forall K p H fuel l, 0 <= H <= time_max -> calm H p -> reaches H 0 l ->
  nsteps64 K p fuel l ready = nsteps K p fuel l ready.
Proof.
  intros K p H fuel l Lh Hp R. eapply ops64_same; eauto; [|lia].
  constructor; cbn; try lia; auto.
Qed.
Print Assumptions C94_horizon.

(** Within the horizon nothing undefined happens at all, with the heap
    scheduler. *)
Theorem C94_defined : forall lib p H fuel l, 0 <= H <= time_max -> calm H p -> reaches H 0 l ->
  nsteps64 (KHeap lib) p fuel l ready = None \/
  exists st, nsteps64 (KHeap lib) p fuel l ready = Some (Done st).
Proof.
  intros lib p H fuel l Lh Hp R. rewrite (C94_horizon _ p H fuel l Lh Hp R). apply C92_heap_defined.
Qed.
Print Assumptions C94_defined.

(** A sink that schedules itself again and again, as timers do, under a [Run]
    without a limit: with any scheduler, and however short the period, the clock
    overflows. *)
Theorem C94_ticker : forall K dt, 0 < dt <= time_max ->
  exists fuel, nsteps64 K (ticker dt) fuel [Act (AIn dt (Some 0%nat)); Run] ready = Some UB.
Proof.
  intros K dt D.
  assert (Cd : is_count dt) by (unfold is_count, time_max in *; lia).
  set (n := Z.to_nat (time_max - dt + 1)).
  assert (Ln : time_max - dt < Z.of_nat n * dt).
  { unfold n. rewrite Z2Nat.id by lia. clear - D. revert D. generalize time_max. intros m D. nia. }
  clearbody n. exists (S (S (S (S (6 + n))))). unfold nsteps64.
  set (st1 := act (impl_of K) (AIn dt (Some 0%nat)) ready).
  assert (E1 : forall f, exec64 K (ticker dt) (S f) (TOp (Act (AIn dt (Some 0%nat)))) ready = Some (Done st1)).
  { intros f. unfold st1. cbn [exec64 act64 ready s_clock negb s_now]. rewrite vt_add_in; auto.
    unfold is_count. lia. }
  assert (Es : st1 = sched_state (impl_of K) dt 0 ready).
  { unfold st1. cbn [act]. unfold schedule_in, schedule_at.
    cbn [ready s_clock negb s_now]. change (0 + dt) with dt. replace (dt <? 0) with false by lia. reflexivity. }
  change (exec64 K (ticker dt) (S (S (S (S (6 + n))))) (TOps [Act (AIn dt (Some 0%nat)); Run]) ready)
    with (nbind (exec64 K (ticker dt) (S (S (S (6 + n)))) (TOp (Act (AIn dt (Some 0%nat)))) ready)
            (exec64 K (ticker dt) (S (S (S (6 + n)))) (TOps [Run]))).
  rewrite E1. cbn [nbind].
  change (exec64 K (ticker dt) (S (S (S (6 + n)))) (TOps [Run]) st1)
    with (nbind (caught st1 (exec64 K (ticker dt) (S (6 + n)) (TRun None) st1))
            (exec64 K (ticker dt) (S (S (6 + n))) (TOps []))).
  assert (ER : exec64 K (ticker dt) (S (6 + n)) (TRun None) st1 = Some UB).
  { set (m := (6 + n)%nat). 
    assert (HL : forall l st, exec64 K (ticker dt) m (TCall (SLife l)) st = Some (Done st)) by reflexivity.
    assert (HT : forall st, ticking dt st -> exec64 K (ticker dt) m (TLoop None) st = Some UB).
    { intros st Tk. apply (ticks K dt n dt); auto. lia. }
    clearbody m.
    cbn [exec64]. rewrite Es. cbn [sched_state log set_handles set_queue s_init ready negb].
    unfold num_events. cbn [sched_state log set_handles set_queue s_queue s_handles ready length].
    rewrite insert_one. cbn [length Nat.eqb s_started sched_state log set_handles set_queue ready].
    rewrite HL. cbn [nbind]. rewrite HL. cbn [nbind]. rewrite HT; [reflexivity|].
    constructor; cbn; auto. exists 0%nat, 0%nat. split; auto. apply insert_one. }
  rewrite ER. reflexivity.
Qed.
Print Assumptions C94_ticker.

Lemma moved K : exists st,
  nsteps64 K (fun _ _ => []) 8 [Act (AAt 1 (Some 0%nat)); RunUntil 1] ready = Some (Done st) /\
  s_now st = 1.
Proof.
  destruct K as [| |lib].
  - eexists. split; [vm_compute; reflexivity|reflexivity].
  - eexists. split; [vm_compute; reflexivity|reflexivity].
  - destruct lib as [push pop A B C D].
    assert (P : forall k, pop k [] = []).
    { intros k. apply Permutation_nil, Permutation_sym, C. }
    assert (I : forall k, push [] k = [k]).
    { intros k. apply Permutation_length_1_inv, Permutation_sym, A. }
    vm_compute. rewrite !I. vm_compute. rewrite !P. vm_compute.
    eexists. split; reflexivity.
Qed.

(** That a simulation can be run, or an event be scheduled, for the longest
    duration there is, does not hold once the clock has moved. *)
Theorem C94_forever_refuted : forall K, exists p l fuel st,
  nsteps64 K p fuel l ready = Some (Done st) /\ 0 < s_now st /\
  nsteps64 K p (S fuel) (l ++ [Act (AIn time_max (Some 0%nat))]) ready = Some UB /\
  nsteps64 K p (S fuel) (l ++ [RunFor time_max]) ready = Some UB.
Proof.
  intros K. exists (fun _ _ => []), [Act (AAt 1 (Some 0%nat)); RunUntil 1], 8%nat.
  destruct (moved K) as [st [E Hn]]. exists st. split; [exact E|]. split; [rewrite Hn; reflexivity|].
  apply C94_overflow with (st := st); [exact E|]. rewrite Hn. unfold is_count, time_max. lia.
Qed.
Print Assumptions C94_forever_refuted.

(** An example: a sink that starts again after a second, up to an hour. *)
Definition second : Z := 10000000000.
Definition hour_ops : list op :=
  [Act (AIn second (Some 0%nat)); RunFor (3 * second); RunUntil (3600 * second)].

Example C94_ex : calm (3603 * second) (ticker second) /\ reaches (3603 * second) 0 hour_ops /\
  0 <= 3603 * second <= time_max /\
  exists st, nsteps64 KH (ticker second) 40
      [Act (AIn second (Some 0%nat)); RunFor (3 * second); RunUntil (5 * second)] ready = Some (Done st) /\
    fired_times (s_trace st) = map (fun n => n * second) [1; 2; 3; 4; 5].
Proof.
  split; [|split; [|split]].
  - intros tr [s|l] o; cbn; [intros [<-|[]]|intros []]. eexists. split; [reflexivity|].
    vm_compute. split; discriminate.
  - cbn. repeat split; vm_compute; discriminate.
  - vm_compute. split; discriminate.
  - eexists. split; vm_compute; reflexivity.
Qed.
Example C94_ticker_ex : 0 < second <= time_max.
Proof. vm_compute. split; [reflexivity|discriminate]. Qed.
Example C94_overflow_ex : exists st,
  nsteps64 KH (ticker second) 30 [Act (AIn second (Some 0%nat)); RunFor second] ready = Some (Done st) /\
  ~ is_count (s_now st + time_max).
Proof. eexists. split; [vm_compute; reflexivity|]. cbn. unfold is_count. intros [_ A]. revert A. vm_compute. discriminate. Qed.
