(** Property C92: runs within runs. *)
From Coq Require Import Sorting.Sorted.
From Verif Require Import Base Sim SimSpec SimProofs SimProps Nested NestedSpec NestedProofs.
Open Scope Z_scope.

(** ** C92 *)

(** Whatever callbacks do, runs within runs included, a simulation that uses the
    heap scheduler takes every event at most once, the earliest one first, when
    the clock reads its time, and invokes its sink unless it was cancelled.  No
    event gets lost: the scheduler is empty exactly when all of them are taken.
    The handle of an event that was taken is not pending. *)
Theorem C92_heap : forall lib p fuel l st,
  nsteps (KHeap lib) p fuel l ready = Some (Done st) ->
  legal (s_trace st) /\ taken_on_time (s_trace st) /\
  (num_events st = 0%nat <-> all_taken (s_trace st) (fun _ => True)) /\
  (forall id h, nth_error (s_handles st) id = Some h -> taken (s_trace st) id ->
     is_pending h = false).
Proof.
  intros lib p fuel l st E. apply exec_ninv in E.
  assert (H : ninv st) by (apply E; [discriminate|apply ninv_ready]). clear E.
  split; [apply H|]. split; [apply H|]. split; [split|].
  - intros E id t s Hs _. destruct (taken_dec (s_trace st) id) as [|Hn]; auto. exfalso.
    assert (Hi : In (t, id) (s_queue st)) by (apply (n_pend _ H); eauto).
    unfold num_events in E. destruct (s_queue st); [destruct Hi|discriminate].
  - intros Ha. unfold num_events. destruct (s_queue st) as [|[t id] q] eqn:Eq; auto. exfalso.
    assert (Hi : In (t, id) (s_queue st)) by (rewrite Eq; left; auto).
    apply (n_pend _ H) in Hi. destruct Hi as [[s Hs] Hn]. apply Hn. eapply Ha; eauto.
  - intros id h Hh Ht. destruct (n_hand _ H _ _ Hh) as [s [_ [_ Hx]]]. auto.
Qed.
Print Assumptions C92_heap.

(** Nothing undefined happens, and no exception reaches the simulator. *)
Theorem C92_heap_defined : forall lib p fuel l,
  nsteps (KHeap lib) p fuel l ready = None \/
  exists st, nsteps (KHeap lib) p fuel l ready = Some (Done st).
Proof.
  intros lib p fuel l. unfold nsteps.
  pose proof (exec_defined lib p fuel (TOps l) ready ninv_ready ltac:(discriminate)) as H.
  destruct (exec _ _ _ _ _) as [[st| | |e]|]; cbn in H; eauto; try tauto.
  destruct H as [u E]. discriminate.
Qed.
Print Assumptions C92_heap_defined.

(** With any of the schedulers, once [Pause] has been called or a run has ended,
    no event is taken until another run starts: the end of a run ends all the
    runs around it. *)
Theorem C92_quiet : forall K p fuel l st,
  nsteps K p fuel l ready = Some (Done st) -> quiet (s_trace st).
Proof.
  intros K p fuel l st E. apply exec_quiet in E.
  assert (Q : quiet_st st).
  { apply E; [discriminate|]. intros l1 o l2 E0. destruct l1; discriminate. }
  intros l1 o l2 E0 Ho Hn. destruct (Q _ _ _ E0 Ho Hn). auto.
Qed.
Print Assumptions C92_quiet.

(** The clock never goes back and events are taken in the order of time, if runs
    go forward and the sinks of the begin event make no runs. *)
Theorem C92_time : forall lib p fuel l st, onward p -> onward_ops (KHeap lib) p l ready ->
  nsteps (KHeap lib) p fuel l ready = Some (Done st) ->
  StronglySorted Z.le (fired_times (s_trace st)) /\
  Forall (fun t => t <= s_now st) (fired_times (s_trace st)) /\ 0 <= s_now st.
Proof.
  intros lib p fuel l st Hp Ho E.
  assert (H : forall fuel l st0, ninv st0 -> tinv st0 -> onward_ops (KHeap lib) p l st0 ->
    nsteps (KHeap lib) p fuel l st0 = Some (Done st) -> tinv st /\ s_now st0 <= s_now st).
  { clear - Hp. induction fuel as [|f IH]; intros l st0 Hn Ht Ho E; [discriminate|].
    destruct l as [|o l]; unfold nsteps in E; cbn [exec] in E.
    - inversion E; subst. split; auto. lia.
    - apply nbind_done in E. destruct E as [st1 [E1 E2]]. destruct Ho as [Ho1 Ho2].
      pose proof (Ho2 _ _ E1) as Ho3.
      destruct (exec_time lib p Hp _ _ _ _ E1) as [_ H].
      destruct H as [A [B [C _]]]; auto; [discriminate|].
      destruct (IH l st1 A B Ho3 E2). split; auto. lia. }
  destruct (H fuel l ready) as [A B]; auto.
  - apply ninv_ready.
  - constructor; cbn; [intros k []|constructor|constructor].
  - split; [apply A|]. split; [apply A|]. exact B.
Qed.
Print Assumptions C92_time.

(** Programs without runs within runs behave as they do in module [Sim], with any
    of the schedulers: what has been proved of them there holds here. *)
Theorem C92_flat : forall K p fuel l st, tame p ->
  steps (impl_of K) p fuel l ready = Some st ->
  exists n, forall m, (n <= m)%nat -> nsteps K (flat p) m l ready = Some (Done st).
Proof.
  intros K p fuel l st Ht E. destruct (flat_steps K p Ht fuel l ready st) as [n Hn]; auto.
  - split; auto. intros k [].
  - exists n. intros m Hm. eapply exec_ge; eauto.
Qed.
Print Assumptions C92_flat.

(** An example: sink 0 runs the simulator for 15 more time units. *)
Definition nest : nprogram := fun _ src =>
  match src with
  | SSink 0 => [Act (AIn 5 (Some 1%nat)); RunFor 15; Act (AIn 1 (Some 2%nat))]
  | _ => []
  end.
Definition nest_ops : list op :=
  [Act (AAt 10 (Some 0%nat)); Act (AAt 20 (Some 1%nat)); Act (AAt 30 (Some 1%nat)); RunUntil 50; Run].
Definition KH : kind := KHeap sorting_lib.

Lemma nest_onward : onward nest.
Proof.
  intros tr [[|s]|l] o; cbn; try tauto.
  intros [<-|[<-|[<-|[]]]]; auto. split; [discriminate|lia].
Qed.

Example C92_ex : onward nest /\ exists st, nsteps KH nest 60 nest_ops ready = Some (Done st) /\
  fired (s_trace st) = [(0%nat, 10, Some 0%nat); (3%nat, 15, Some 1%nat); (1%nat, 20, Some 1%nat);
                        (4%nat, 26, Some 2%nat); (2%nat, 30, Some 1%nat)] /\
  num_events st = 0%nat.
Proof.
  split; [apply nest_onward|]. eexists. split; [vm_compute; reflexivity|]. vm_compute. auto.
Qed.
Example C92_onward_ex : onward_ops KH nest [Act (AAt 10 (Some 0%nat)); RunUntil 50] ready.
Proof.
  cbn [onward_ops forward]. split; auto. intros [|fuel] st' E; [discriminate|].
  cbn [exec] in E. inversion E. split; [vm_compute; discriminate|]. intros; auto.
Qed.
Example C92_flat_ex : exists st, steps (impl_of KList) demo 10 (demo_ops ++ [Run; Run]) ready = Some st /\
  nsteps KList (flat demo) 60 (demo_ops ++ [Run; Run]) ready = Some (Done st) /\
  length (fired (s_trace st)) = 6%nat.
Proof. eexists. split; [vm_compute; reflexivity|]. split; [vm_compute; reflexivity|]. vm_compute. auto. Qed.

(** The documented result of [RunUntil] does not hold: a run within it ends it,
    although nobody has called [Pause]; the clock has not advanced to the given
    time and events that are due are left in the scheduler. *)
Theorem C92_until_refuted : exists p l st, onward p /\ onward_ops KH p (l ++ [RunUntil 50]) ready /\
  nsteps KH p 60 (l ++ [RunUntil 50]) ready = Some (Done st) /\
  ~ In OPause (s_trace st) /\ s_now st = 25 /\
  scheduled (s_trace st) 2 30 1 /\ ~ taken (s_trace st) 2.
Proof.
  set (l := [Act (AAt 10 (Some 0%nat)); Act (AAt 20 (Some 1%nat)); Act (AAt 30 (Some 1%nat))]).
  exists nest, l. eexists. split; [apply nest_onward|]. split; [|split; [vm_compute; reflexivity|]].
  - cbn [onward_ops l app forward].
    split; auto. intros [|f1] st1 E1; [discriminate|]. cbn [exec] in E1. inversion E1; clear E1.
    split; auto. intros [|f2] st2 E2; [discriminate|]. cbn [exec] in E2. inversion E2; clear E2.
    split; auto. intros [|f3] st3 E3; [discriminate|]. cbn [exec] in E3. inversion E3; clear E3.
    split; [vm_compute; discriminate|]. intros; auto.
  - split; [cbn; intuition discriminate|]. split; [reflexivity|]. split; [unfold scheduled; cbn; auto|].
    intros [c [s H]]. cbn in H. intuition discriminate.
Qed.
Print Assumptions C92_until_refuted.

(** If the sinks of the begin event make a run, then the clock goes back:
    [RunUntil 10] ends at time 10 although it has fired an event at time 100, and
    later events are fired at earlier times. *)
Theorem C92_begin_refuted : exists p l st,
  (forall tr src o, In o (p tr src) -> src = SLife LBegin /\ o = Run) /\
  nsteps KH p 60 l ready = Some (Done st) /\
  l = [Act (AAt 100 (Some 0%nat)); RunUntil 10; Act (AAt 20 (Some 0%nat)); Run] /\
  fired_times (s_trace st) = [100; 20].
Proof.
  exists (fun _ src => match src with SLife LBegin => [Run] | _ => [] end). do 2 eexists.
  split; [|split; [|split; [reflexivity|]]].
  - intros tr [s|[]] o; cbn; intuition auto.
  - vm_compute. reflexivity.
  - vm_compute. reflexivity.
Qed.
Print Assumptions C92_begin_refuted.

(** With the list and the set scheduler the event that is being fired is still in
    the container, and its handle still has its sink: a sink that calls [Run] is
    fired again and again, within itself, without end.  With the heap scheduler
    the same simulation comes to its end. *)
Theorem C92_endless_refuted : exists p l,
  (forall fuel, nsteps KList p fuel l ready = None) /\
  (forall fuel, nsteps KSet p fuel l ready = None) /\
  exists st, nsteps KH p 60 l ready = Some (Done st) /\
    fired (s_trace st) = [(0%nat, 10, Some 0%nat); (1%nat, 20, Some 1%nat)].
Proof.
  set (p := rerun). set (l := [Act (AAt 10 (Some 0%nat)); Act (AAt 20 (Some 1%nat)); Run]).
  exists p, l.
  assert (H : forall K, K = KList \/ K = KSet -> forall fuel, nsteps K p fuel l ready = None).
  { intros K HK fuel. unfold nsteps, l.
    destruct fuel as [|f]; [auto|]. cbn [exec]. destruct f as [|f]; [auto|]. cbn [exec nbind].
    destruct f as [|f]; [auto|]. cbn [exec nbind].
    match goal with |- nbind ?x _ = None => assert (E : x = None); [|rewrite E; auto] end.
    destruct f as [|f]; [auto|]. cbn [exec].
    match goal with |- caught ?s _ = None => set (st := s) end.
    match goal with |- caught _ ?x = None => assert (E : x = None); [|rewrite E; auto] end.
    destruct f as [|f]; [auto|]. cbn [exec].
    assert (A : s_init st = true /\ s_started st = false /\ num_events st = 2%nat /\
      s_queue st = [(10, 0%nat); (20, 1%nat)] /\ s_handles st = [new_handle 10 0; new_handle 20 1]).
    { unfold st. destruct HK as [-> | ->]; vm_compute; auto. }
    clearbody st. destruct A as [A1 [A2 [A3 [A4 A5]]]]. rewrite A1, A2, A3. cbn [negb Nat.eqb].
    set (st1 := log (set_started st true) (OLife LBegin)).
    destruct (rerun_nothing K f (SLife LBegin) st1) as [E|E]; [discriminate|unfold p; rewrite E; auto|].
    unfold p at 1. rewrite E. cbn [nbind].
    pose proof (rerun_endless K HK (S f) (S f) 10 [(20, 1%nat)] (new_handle 10 0) [new_handle 20 1] st1
      (le_n _) A1 eq_refl A4 A5 eq_refl) as R.
    cbn [exec] in R. assert (A3' : num_events st1 = 2%nat) by exact A3. rewrite A3' in R.
    cbn [s_init s_started st1 log set_started] in R. rewrite A1 in R. cbn [negb Nat.eqb nbind] in R.
    exact R. }
  split; [apply H; auto|]. split; [apply H; auto|].
  eexists. split; [vm_compute; reflexivity|]. vm_compute. auto.
Qed.
Print Assumptions C92_endless_refuted.

(** A sink that makes its run only the first time that it is called. *)
Definition once (o : op) : nprogram := fun tr src =>
  match src with
  | SSink 0 => if (length (fired tr) =? 1)%nat then [o] else []
  | _ => []
  end.

(** The list scheduler: its event is fired twice, and an event that has not been
    fired is removed in its place. *)
Theorem C92_lost_refuted : exists p l st, nsteps KList p 60 l ready = Some (Done st) /\
  p = once (RunFor 0) /\
  l = [Act (AAt 10 (Some 0%nat)); Act (AAt 20 (Some 1%nat)); Run] /\
  fired (s_trace st) = [(0%nat, 10, Some 0%nat); (0%nat, 10, Some 0%nat)] /\
  num_events st = 0%nat /\ scheduled (s_trace st) 1 20 1 /\ ~ taken (s_trace st) 1.
Proof.
  do 3 eexists. split; [|split; [reflexivity|split; [reflexivity|]]].
  - vm_compute. reflexivity.
  - split; [reflexivity|]. split; [reflexivity|]. split; [unfold scheduled; cbn; auto|].
    intros [c [s H]]. cbn in H. intuition discriminate.
Qed.
Print Assumptions C92_lost_refuted.

(** [pop_front] of an empty list, and [erase] of an iterator whose element is
    gone. *)
Theorem C92_undefined_refuted : exists p l,
  nsteps KList p 60 l ready = Some UB /\ nsteps KSet p 60 l ready = Some UB /\
  exists st, nsteps KH p 60 l ready = Some (Done st) /\ num_events st = 0%nat /\
    fired (s_trace st) = [(0%nat, 10, Some 0%nat); (1%nat, 20, Some 1%nat)].
Proof.
  exists (once Run), [Act (AAt 10 (Some 0%nat)); Act (AAt 20 (Some 1%nat)); Run].
  split; [vm_compute; reflexivity|]. split; [vm_compute; reflexivity|].
  eexists. split; [vm_compute; reflexivity|]. vm_compute. auto.
Qed.
Print Assumptions C92_undefined_refuted.
