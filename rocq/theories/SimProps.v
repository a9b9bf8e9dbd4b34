(** Properties C32-C40: schedulers and simulator. *)
From Coq Require Import Sorting.Sorted.
From Verif Require Import Base BaseProofs Sim SimSpec SimProofs.
Open Scope Z_scope.

(** A program used in the examples: sink 0 schedules two more events and cancels
    event 1, sink 3 pauses, the others do nothing. *)
Definition demo : program := fun _ src =>
  match src with
  | SSink 0 => ([AIn 5 (Some 1%nat); ANow (Some 2%nat); ACancel 1], false)
  | SSink 3 => ([APause], false)
  | _ => ([], false)
  end.
Lemma demo_tame : tame demo.
Proof. intros tr [[|[|[|[|n]]]]|l]; reflexivity. Qed.
Definition heap_sorting : impl := heap_impl sorting_lib.
Lemma three_schedulers : scheduler list_impl /\ scheduler set_impl /\ scheduler heap_sorting.
Proof.
  split; [left; auto|]. split; [right; left; auto|]. right; right. exists sorting_lib. auto.
Qed.
Definition demo_ops : list op :=
  [Act (AAt 10 (Some 0%nat)); Act (AAt 20 (Some 4%nat)); Act (AAt 10 (Some 3%nat));
   Act (AAt 12 (Some 5%nat))].

(** ** C32 *)

(** The set and the heap scheduler, used directly by any client with any clock:
    whatever is scheduled, cancelled and fired, and whatever sinks do, the event
    that is fired is the earliest pending one, first scheduled first fired. *)
Theorem C32_set_heap_order : forall I p l,
  I = set_impl \/ (exists lib, I = heap_impl lib) -> tame p ->
  legal (s_trace (dsteps I p l ready)).
Proof.
  intros I p l [-> |[lib ->]] Ht.
  - eapply direct_legal; [apply set_refines|auto|tauto].
  - eapply direct_legal; [apply heap_refines|auto|tauto].
Qed.
Print Assumptions C32_set_heap_order.

(** The list scheduler: the same, for clients that never fire an event while the
    clock is behind it. *)
Theorem C32_list_order : forall p l, tame p -> clock_ok list_impl p l ready ->
  legal (s_trace (dsteps list_impl p l ready)).
Proof.
  intros p l Ht Hc. eapply direct_legal; [apply list_refines|auto|auto].
Qed.
Print Assumptions C32_list_order.

(** Without that condition the list scheduler loses events: a sink that schedules
    an event before the one that is being fired makes [pop_front] remove the new
    event, and the old one is taken twice. *)
Theorem C32_list_order_refuted : exists p l, tame p /\
  ~ legal (s_trace (dsteps list_impl p l ready)) /\
  fired (s_trace (dsteps list_impl p l ready)) = [(0%nat, 0, Some 0%nat); (0%nat, 0, None)] /\
  num_events (dsteps list_impl p l ready) = 0%nat /\
  num_scheduled (s_trace (dsteps list_impl p l ready)) = 2%nat.
Proof.
  exists (fun _ src => match src with SSink 0 => ([AAt 5 (Some 1%nat)], false) | _ => ([], false) end),
         [DAct (AAt 10 (Some 0%nat)); DFire; DFire].
  split; [intros tr [[|n]|x]; reflexivity|]. split; [|vm_compute; auto].
  intros H.
  destruct (legal_once _ 0%nat 0 (Some 0%nat) [OSched 0 10 0] [OSched 1 5 1; OTake 0 0 None] H eq_refl)
    as [_ Hn].
  apply Hn. exists 0, None. cbn. auto.
Qed.
Print Assumptions C32_list_order_refuted.

(** What legality says about order: of two events that were both accepted before
    the first of them was fired, the one fired first is scheduled for an earlier
    time, or for the same time and was scheduled first. *)
Theorem C32_fifo : forall tr l1 l2 l3 id1 c1 s1 id2 c2 s2 t1 k1 t2 k2, legal tr ->
  tr = l1 ++ OTake id1 c1 s1 :: l2 ++ OTake id2 c2 s2 :: l3 ->
  scheduled l1 id1 t1 k1 -> scheduled l1 id2 t2 k2 ->
  t1 < t2 \/ (t1 = t2 /\ (id1 < id2)%nat).
Proof. exact legal_order. Qed.
Print Assumptions C32_fifo.

Definition demo_direct : list dop :=
  [DAct (AAt 10 (Some 0%nat)); DAct (AAt 7 (Some 4%nat)); DAct (AAt 10 (Some 6%nat));
   DClock 7; DFire; DClock 10; DFire; DFire; DFire; DClock 20; DFire].
Example C32_ex : clock_ok list_impl demo demo_direct ready /\
  fired (s_trace (dsteps list_impl demo demo_direct ready)) =
    [(1%nat, 7, Some 4%nat); (0%nat, 10, Some 0%nat); (2%nat, 10, Some 6%nat);
     (4%nat, 10, Some 2%nat); (3%nat, 20, Some 1%nat)] /\
  fired (s_trace (dsteps set_impl demo demo_direct ready)) =
    fired (s_trace (dsteps list_impl demo demo_direct ready)) /\
  fired (s_trace (dsteps heap_sorting demo demo_direct ready)) =
    fired (s_trace (dsteps list_impl demo demo_direct ready)).
Proof. vm_compute. repeat split; discriminate. Qed.

(** ** C33 *)

(** Driven by the simulator, any two of the three schedulers behave alike: same
    record (ids, firing order, clock readings, rejections), same clock, same
    handles, same set of pending events; for every event program and every
    sequence of calls. *)
Theorem C33_schedulers_equivalent : forall I1 I2 p fuel ops,
  scheduler I1 -> scheduler I2 -> tame p ->
  same_result (steps I1 p fuel ops ready) (steps I2 p fuel ops ready).
Proof.
  intros I1 I2 p fuel ops H1 H2 Ht. eapply same_result_trans; apply steps_spec; auto.
Qed.
Print Assumptions C33_schedulers_equivalent.

Example C33_ex : exists a b c,
  steps list_impl demo 10 (demo_ops ++ [RunUntil 11; Run]) ready = Some a /\
  steps set_impl demo 10 (demo_ops ++ [RunUntil 11; Run]) ready = Some b /\
  steps heap_sorting demo 10 (demo_ops ++ [RunUntil 11; Run]) ready = Some c /\
  fired (s_trace a) = [(0%nat, 10, Some 0%nat); (2%nat, 10, Some 3%nat); (5%nat, 10, Some 2%nat);
                       (3%nat, 12, Some 5%nat); (4%nat, 15, Some 1%nat); (1%nat, 20, None)] /\
  fired (s_trace b) = fired (s_trace a) /\ fired (s_trace c) = fired (s_trace a).
Proof. eexists _, _, _. vm_compute. repeat split. Qed.

(** ** C34 *)

(** At most once. *)
Theorem C34_at_most_once : forall I p st, scheduler I -> tame p -> reachable I p st ->
  NoDup (map (fun x => fst (fst x)) (fired (s_trace st))).
Proof. intros I p st HI Ht Hr. apply legal_nodup. eapply reachable_facts; eauto. Qed.
Print Assumptions C34_at_most_once.

(** The pending events are exactly the accepted ones that have not been taken, and
    when none is left every accepted event has been taken exactly once. *)
Theorem C34_exactly_once : forall I p st, scheduler I -> tame p -> reachable I p st ->
  (forall t id, In (t, id) (s_queue st) <->
     (exists s, scheduled (s_trace st) id t s) /\ ~ taken (s_trace st) id) /\
  (num_events st = 0%nat ->
   Permutation (map (fun x => fst (fst x)) (fired (s_trace st)))
               (seq 0 (num_scheduled (s_trace st)))).
Proof.
  intros I p st HI Ht Hr.
  destruct (reachable_facts I p st HI Ht Hr) as [H1 [_ [_ [_ [H2 [H3 _]]]]]].
  split; auto. intros Hn. apply drained_perm; auto. apply H3. auto.
Qed.
Print Assumptions C34_exactly_once.

(** The sink that was scheduled is invoked, unless the event was cancelled. *)
Theorem C34_sink : forall I p st, scheduler I -> tame p -> reachable I p st ->
  forall l1 l2 id c s, s_trace st = l1 ++ OTake id c s :: l2 ->
  exists t s0, scheduled l1 id t s0 /\
    ((s = Some s0 /\ ~ cancelled l1 id) \/ (s = None /\ cancelled l1 id)).
Proof.
  intros I p st HI Ht Hr l1 l2 id c s E.
  destruct (reachable_facts I p st HI Ht Hr) as [H1 _].
  destruct (H1 _ _ _ E) as [t [s0 [Hs [_ [_ Hx]]]]]. eauto.
Qed.
Print Assumptions C34_sink.

Lemma reach_ops I p fuel l : forall st st', reachable I p st -> steps I p fuel l st = Some st' ->
  reachable I p st'.
Proof.
  induction l as [|o l IH]; intros st st' H E; cbn [steps] in E; [inversion E; subst; auto|].
  destruct (step I p fuel o st) as [st1|] eqn:E1; [|discriminate].
  eapply IH; [|exact E]. econstructor; eauto.
Qed.

Example C34_ex : exists st, reachable heap_sorting demo st /\ num_events st = 0%nat /\
  num_scheduled (s_trace st) = 6%nat /\ In (OTake 1 20 None) (s_trace st) /\
  In (OTake 0 10 (Some 0%nat)) (s_trace st).
Proof.
  destruct (steps heap_sorting demo 10 (demo_ops ++ [Run; Run]) ready) as [st|] eqn:E;
    [|vm_compute in E; discriminate].
  exists st. split; [eapply reach_ops; [apply reach_ready|exact E]|].
  vm_compute in E. inversion E. vm_compute. intuition.
Qed.

(** ** C35 *)

Theorem C35_no_invocation : forall I p st, scheduler I -> tame p -> reachable I p st ->
  forall l1 l2 id o, s_trace st = l1 ++ o :: l2 ->
  o = OCancel id \/ (exists c s, o = OTake id c s) -> ~ invoked l2 id.
Proof.
  intros I p st HI Ht Hr l1 l2 id o E Ho.
  destruct (reachable_facts I p st HI Ht Hr) as [H1 _]. destruct Ho as [-> |[c [s ->]]].
  - eapply legal_cancel; eauto.
  - intros [c' [s' Hi]]. destruct (legal_once _ _ _ _ _ _ H1 E) as [_ Hn].
    apply Hn. exists c', (Some s'). auto.
Qed.
Print Assumptions C35_no_invocation.

(** What the handle reports between the events. *)
Theorem C35_handle : forall I p st, scheduler I -> tame p -> reachable I p st ->
  forall id h, nth_error (s_handles st) id = Some h ->
  is_running h = false /\
  (cancelled (s_trace st) id \/ taken (s_trace st) id -> is_pending h = false /\ is_valid h = false) /\
  (~ cancelled (s_trace st) id -> ~ taken (s_trace st) id -> is_pending h = true /\ is_valid h = true) /\
  exists s, scheduled (s_trace st) id (h_time h) s.
Proof.
  intros I p st HI Ht Hr id h Hh.
  destruct (reachable_facts I p st HI Ht Hr) as [_ [_ [_ [H1 _]]]].
  destruct (H1 _ _ Hh) as [s [Hs [Hx Hrun]]]. unfold is_running, is_pending, is_valid.
  assert (Er : h_running h = false).
  { destruct (h_running h); auto. specialize (Hrun eq_refl). discriminate. }
  rewrite Er. destruct Hx as [[-> [Hc Hn]]|[-> Hn]].
  - split; auto. split.
    + intros [?|?]; [contradiction|]. destruct Hn; [contradiction|discriminate].
    + split; auto. eauto.
  - split; auto. split; auto. split; [|eauto].
    intros Hc Hn'. destruct Hn as [?|[? _]]; contradiction.
Qed.
Print Assumptions C35_handle.


Definition demo2 : program := fun _ src =>
  match src with
  | SSink 0 => ([AIn 5 (Some 1%nat); ANow (Some 2%nat); ACancel 1; APause], false)
  | _ => ([], false)
  end.
Example C35_ex : exists st, reachable list_impl demo2 st /\
  cancelled (s_trace st) 1 /\ taken (s_trace st) 0 /\
  map is_pending (s_handles st) = [false; false; true; true; true; true].
Proof.
  destruct (steps list_impl demo2 10 (demo_ops ++ [Run]) ready) as [st|] eqn:E;
    [|vm_compute in E; discriminate].
  exists st. split; [eapply reach_ops; [apply reach_ready|exact E]|].
  vm_compute in E. inversion E. split; [unfold cancelled; cbn; auto 15|].
  split; [|reflexivity].
  exists 10, (Some 0%nat). cbn. auto 15.
Qed.

(** ** C36 *)

(** Every event observes exactly the time it was scheduled for. *)
Theorem C36_on_time : forall I p st, scheduler I -> tame p -> reachable I p st ->
  forall id c s, In (OTake id c s) (s_trace st) -> exists s0, scheduled (s_trace st) id c s0.
Proof. intros I p st HI Ht Hr. eapply reachable_facts; eauto. Qed.
Print Assumptions C36_on_time.

(** A run whose bound is not in the past: the clock does not go back, and the times
    that its events observe are nondecreasing and between the clock before and the
    clock after the run. *)
Theorem C36_monotone : forall I p fuel bound st st', scheduler I -> tame p -> reachable I p st ->
  run I p fuel bound st = Some (Done st') ->
  match bound with None => True | Some t => s_now st <= t end ->
  exists tr, s_trace st' = s_trace st ++ tr /\ s_now st <= s_now st' /\
    StronglySorted Z.le (fired_times tr) /\
    Forall (fun x => s_now st <= x <= s_now st') (fired_times tr).
Proof.
  intros I p fuel bound st st' HI Ht Hr E Hb.
  destruct (run_facts_reachable I p fuel bound st st' HI Ht Hr E) as [pre [body [post [fin F]]]].
  destruct (f_shape _ _ _ _ _ _ _ F) as [tr [T [S1 S2 S3 S4 S5]]].
  destruct (f_mono _ _ _ _ _ _ _ F Hb) as [M1 [_ [M2 M3]]].
  exists tr. split; auto. split; auto.
  assert (Ef : fired_times tr = fired_times body); [|rewrite Ef; auto].
  subst tr. rewrite fired_times_app.
  assert (E1 : fired_times pre = []).
  { destruct (s_started st); [subst; auto|]. destruct S2 as [l [-> Hl]].
    apply (fired_times_client l Hl). }
  rewrite E1. cbn [app].
  change (OLife LRun :: body ++ OLife LPause :: post ++ fin)
    with ([OLife LRun] ++ body ++ [OLife LPause] ++ post ++ fin).
  rewrite !fired_times_app, (fired_times_client post) by auto.
  assert (E2 : fired_times fin = []).
  { destruct S5 as [-> |[l [-> Hl]]]; auto. apply (fired_times_client l Hl). }
  rewrite E2. cbn. rewrite app_nil_r. auto.
Qed.
Print Assumptions C36_monotone.

(** [RunUntil] with a bound in the past moves the clock backwards. *)
Theorem C36_past_bound_refuted : forall I, scheduler I -> exists st st',
  reachable I demo st /\ run I demo 10 (Some 3) st = Some (Done st') /\ s_now st = 9 /\ s_now st' = 3.
Proof.
  intros I HI. set (ops := [Act (AAt 9 (Some 5%nat)); Act (AAt 15 (Some 5%nat)); RunUntil 9]).
  destruct (steps list_impl demo 10 ops ready) as [a|] eqn:Ea; [|vm_compute in Ea; discriminate].
  pose proof (C33_schedulers_equivalent list_impl I demo 10 ops (or_introl eq_refl) HI demo_tame) as H.
  rewrite Ea in H. destruct (steps I demo 10 ops ready) as [b|] eqn:Eb; [|destruct H].
  pose proof (C33_schedulers_equivalent list_impl I demo 10 (ops ++ [RunUntil 3])
                (or_introl eq_refl) HI demo_tame) as H2.
  assert (Happ : forall J st, steps J demo 10 ops ready = Some st ->
     steps J demo 10 (ops ++ [RunUntil 3]) ready = step J demo 10 (RunUntil 3) st).
  { intros J st E. unfold ops in *. cbn [app steps] in *.
    destruct (step J demo 10 (Act (AAt 9 (Some 5%nat))) ready); [|discriminate].
    destruct (step J demo 10 (Act (AAt 15 (Some 5%nat))) s); [|discriminate].
    destruct (step J demo 10 (RunUntil 9) s0); [|discriminate]. inversion E; subst.
    destruct (step J demo 10 (RunUntil 3) st); auto. }
  rewrite (Happ _ _ Ea), (Happ _ _ Eb) in H2.
  assert (Hrb : reachable I demo b) by (eapply reach_ops; [apply reach_ready|exact Eb]).
  assert (Hnow : s_now b = 9).
  { destruct H as [_ [<- _]]. vm_compute in Ea. inversion Ea. reflexivity. }
  destruct (step list_impl demo 10 (RunUntil 3) a) as [a'|] eqn:Ea'; [|vm_compute in Ea; inversion Ea; subst a; vm_compute in Ea'; discriminate].
  destruct (step I demo 10 (RunUntil 3) b) as [b'|] eqn:Eb'; [|destruct H2].
  assert (Hna : s_now a' = 3 /\ s_paused a' = true /\ ~ exists e, In (OReject e) (s_trace a')).
  { vm_compute in Ea. inversion Ea; subst a. vm_compute in Ea'. inversion Ea'. cbn. split; auto. split; auto.
    intros [e Hx]. cbn in Hx. repeat (destruct Hx as [Hx|Hx]; [discriminate|]). destruct Hx. }
  cbn [step] in Eb'. destruct H2 as [H2 [H3 _]]. destruct Hna as [Hna [_ Hnr]].
  unfold run_result in Eb'.
  destruct (reachable_spec I demo b HI demo_tame Hrb) as [s [_ [_ [_ [_ [_ [_ [_ [_ [_ [_ R]]]]]]]]]]].
  specialize (R 10%nat (Some 3)).
  destruct (run I demo 10 (Some 3) b) as [[u| | |e]|] eqn:Er; try tauto.
  - exists b, u. split; auto. split; auto. split; auto. inversion Eb'; subst b'. cbn in H3. congruence.
  - exfalso. apply Hnr. inversion Eb'; subst b'. exists e. rewrite H2. cbn. apply in_or_app. right. left. auto.
  - discriminate.
Qed.
Print Assumptions C36_past_bound_refuted.

Example C36_ex : exists st st', reachable set_impl demo st /\
  run set_impl demo 10 (Some 30) st = Some (Done st') /\ s_now st <= 30 /\
  fired_times (s_trace st') = [10; 10].
Proof.
  destruct (steps set_impl demo 10 demo_ops ready) as [st|] eqn:E; [|vm_compute in E; discriminate].
  destruct (run set_impl demo 10 (Some 30) st) as [[st'| | |e]|] eqn:Er;
    try (vm_compute in E; inversion E; subst; vm_compute in Er; discriminate).
  exists st, st'. split; [eapply reach_ops; [apply reach_ready|exact E]|]. split; auto.
  vm_compute in E. inversion E; subst. vm_compute in Er. inversion Er. vm_compute.
  split; [discriminate|reflexivity].
Qed.

(** ** C37 *)

(** [RunUntil(t)] that nobody pauses: every event that is fired has time at most
    [t]; every event accepted for a time up to [t] before the pause event, also
    while running, has been fired; the clock reads [t]. *)
Theorem C37_run_until : forall I p fuel t st st', scheduler I -> tame p -> reachable I p st ->
  run I p fuel (Some t) st = Some (Done st') ->
  exists tr pre body post fin, s_trace st' = s_trace st ++ tr /\
    run_shape (s_started st) tr pre body post fin /\
    Forall (fun x => x <= t) (fired_times body) /\
    (~ In OPause body ->
     s_now st' = t /\
     all_taken (s_trace st ++ pre ++ OLife LRun :: body) (fun x => x <= t)).
Proof.
  intros I p fuel t st st' HI Ht Hr E.
  destruct (run_facts_reachable I p fuel (Some t) st st' HI Ht Hr E) as [pre [body [post [fin F]]]].
  destruct (f_shape _ _ _ _ _ _ _ F) as [tr [T S]].
  exists tr, pre, body, post, fin. split; auto. split; auto. split.
  - apply (f_bound _ _ _ _ _ _ _ F).
  - apply (f_exit _ _ _ _ _ _ _ F).
Qed.
Print Assumptions C37_run_until.

(** [Run] that nobody pauses drains the scheduler. *)
Theorem C37_run : forall I p fuel st st', scheduler I -> tame p -> reachable I p st ->
  run I p fuel None st = Some (Done st') ->
  exists tr pre body post fin, s_trace st' = s_trace st ++ tr /\
    run_shape (s_started st) tr pre body post fin /\
    (~ In OPause body -> all_taken (s_trace st ++ pre ++ OLife LRun :: body) (fun _ => True)).
Proof.
  intros I p fuel st st' HI Ht Hr E.
  destruct (run_facts_reachable I p fuel None st st' HI Ht Hr E) as [pre [body [post [fin F]]]].
  destruct (f_shape _ _ _ _ _ _ _ F) as [tr [T S]].
  exists tr, pre, body, post, fin. split; auto. split; auto. apply (f_exit _ _ _ _ _ _ _ F).
Qed.
Print Assumptions C37_run.

Example C37_ex : exists st st', reachable heap_sorting demo st /\
  run heap_sorting demo 10 (Some 14) st = Some (Done st') /\ s_now st' = 14 /\
  fired (s_trace st') = [(0%nat, 10, Some 0%nat); (4%nat, 10, Some 2%nat); (2%nat, 12, Some 5%nat)].
Proof.
  destruct (steps heap_sorting demo 10 [Act (AAt 10 (Some 0%nat)); Act (AAt 20 (Some 4%nat));
     Act (AAt 12 (Some 5%nat))] ready) as [st|] eqn:E; [|vm_compute in E; discriminate].
  destruct (run heap_sorting demo 10 (Some 14) st) as [[st'| | |e]|] eqn:Er;
    try (vm_compute in E; inversion E; subst; vm_compute in Er; discriminate).
  exists st, st'. split; [eapply reach_ops; [apply reach_ready|exact E]|]. split; auto.
  vm_compute in E. inversion E; subst. vm_compute in Er. inversion Er. vm_compute. auto.
Qed.

(** ** C38 *)

(** After [Pause()] is called by a sink of the run event or of a scheduled event,
    no event is fired in that run, and the simulator is paused. *)
Theorem C38_pause_stops : forall I p fuel bound st st', scheduler I -> tame p -> reachable I p st ->
  run I p fuel bound st = Some (Done st') ->
  exists tr pre body post fin, s_trace st' = s_trace st ++ tr /\
    run_shape (s_started st) tr pre body post fin /\
    (forall l1 l2, body = l1 ++ OPause :: l2 -> fired l2 = []) /\ s_paused st' = true.
Proof.
  intros I p fuel bound st st' HI Ht Hr E.
  destruct (run_facts_reachable I p fuel bound st st' HI Ht Hr E) as [pre [body [post [fin F]]]].
  destruct (f_shape _ _ _ _ _ _ _ F) as [tr [T S]].
  exists tr, pre, body, post, fin. split; auto. split; auto. split; apply F.
Qed.
Print Assumptions C38_pause_stops.

(** However a simulation is divided into several calls of [Run] by pauses, the
    events fired, their order, their clock readings and the final clock are those
    of a single run of the same program without the pauses. *)
Theorem C38_resume : forall I p fuel n ops st st', scheduler I -> tame p -> oblivious p ->
  (forall o, In o ops -> exists a, o = Act a) ->
  steps I p fuel ops ready = Some st -> num_events st <> 0%nat ->
  steps I p fuel (repeat Run n) st = Some st' -> num_events st' = 0%nat ->
  exists fuel' st'', run I (unpaused p) fuel' None st = Some (Done st'') /\
    fired (s_trace st'') = fired (s_trace st') /\ s_now st'' = s_now st'.
Proof. exact split_scheduler. Qed.
Print Assumptions C38_resume.

(** A sink of the begin event cannot pause: events are fired all the same. *)
Theorem C38_pause_at_begin_refuted : exists p fuel st st', tame p /\ reachable list_impl p st /\
  run list_impl p fuel None st = Some (Done st') /\
  exists l1 l2, s_trace st' = s_trace st ++ l1 ++ OPause :: l2 /\ fired l2 <> [].
Proof.
  set (p := (fun _ src => match src with SLife LBegin => ([APause], false) | _ => ([], false) end) : program).
  exists p, 5%nat, (act list_impl (AAt 1 (Some 0%nat)) ready).
  eexists. split; [intros tr [s|[| | |]]; reflexivity|]. split.
  - eapply (reach_step _ _ 0%nat (Act (AAt 1 (Some 0%nat)))); [constructor|reflexivity].
  - split; [vm_compute; reflexivity|]. eexists [_], _. split; [reflexivity|]. discriminate.
Qed.
Print Assumptions C38_pause_at_begin_refuted.

Definition demo3 : program := fun _ src =>
  match src with
  | SSink 0 => ([APause; AIn 5 (Some 1%nat)], false)
  | SSink 1 => ([APause], false)
  | _ => ([], false)
  end.
Example C38_ex : tame demo3 /\ oblivious demo3 /\ exists st st',
  steps heap_sorting demo3 10 demo_ops ready = Some st /\ num_events st <> 0%nat /\
  steps heap_sorting demo3 10 (repeat Run 3) st = Some st' /\ num_events st' = 0%nat /\
  fired_times (s_trace st') = [10; 10; 12; 15; 20] /\ In OPause (s_trace st').
Proof.
  split; [intros tr [[|[|n]]|l]; reflexivity|]. split.
  { split; [|intros tr l; reflexivity]. intros tr tr' [s|l] _; reflexivity. }
  eexists _, _. split; [vm_compute; reflexivity|]. split; [vm_compute; discriminate|].
  split; [vm_compute; reflexivity|]. vm_compute. intuition.
Qed.

(** ** C39 *)

(** Scheduling for the past or with a null sink throws, and since the outcome
    carries no state, nothing changes. *)
Theorem C39_reject : forall I t s st, s_clock st = true ->
  (s = None -> schedule_at I t s st = Throw InvalidPointer) /\
  (s <> None -> t < s_now st -> schedule_at I t s st = Throw InvalidArgument) /\
  (forall a, (a = AAt t s \/ a = AIn (t - s_now st) s) -> s = None \/ t < s_now st ->
     s_queue (act I a st) = s_queue st /\ s_handles (act I a st) = s_handles st /\
     s_now (act I a st) = s_now st).
Proof.
  intros I t s st Hc. unfold schedule_at. rewrite Hc. cbn [negb]. split; [intros ->; auto|]. split.
  - intros Hs Ht. destruct s; [|contradiction]. apply Z.ltb_lt in Ht. rewrite Ht. auto.
  - intros a Ha Hb.
    assert (Hs : exists e, schedule_at I t s st = Throw e).
    { unfold schedule_at. rewrite Hc. cbn [negb]. destruct s as [s|]; [|eauto].
      destruct Hb as [?|Hb]; [discriminate|]. apply Z.ltb_lt in Hb. rewrite Hb. eauto. }
    destruct Hs as [e Hs]. destruct Ha as [-> | ->]; cbn [act].
    + rewrite Hs. cbn. auto.
    + unfold schedule_in. rewrite Hc. cbn [negb].
      replace (s_now st + (t - s_now st)) with t by lia. rewrite Hs. cbn. auto.
Qed.
Print Assumptions C39_reject.

(** Scheduling before the scheduler has a clock: [ScheduleAt] throws, but
    [ScheduleIn] and [ScheduleNow] dereference a null pointer. *)
Theorem C39_uninitialized : forall I t dt s st, s_clock st = false ->
  schedule_at I t s st = Throw Uninitialized /\
  schedule_in I dt s st = UB /\ schedule_now I s st = UB.
Proof.
  intros I t dt s st H. unfold schedule_in, schedule_now, schedule_at. rewrite H. auto.
Qed.
Print Assumptions C39_uninitialized.

(** Otherwise the event is accepted, and its id is larger than all ids before. *)
Theorem C39_accept : forall I p st t s, scheduler I -> tame p -> reachable I p st ->
  s_clock st = true -> s_now st <= t ->
  exists id st', schedule_at I t (Some s) st = Done (id, st') /\
    (forall id' t' s', scheduled (s_trace st) id' t' s' -> (id' < id)%nat) /\
    (forall k, In k (s_queue st') <-> k = (t, id) \/ In k (s_queue st)).
Proof.
  intros I p st t s HI Ht Hr Hc Hn. unfold schedule_at. rewrite Hc. cbn [negb].
  destruct (Z.ltb_spec t (s_now st)); [lia|]. eexists _, _. split; [reflexivity|].
  destruct (reachable_facts I p st HI Ht Hr) as [H1 [_ [H2 [_ [H3 _]]]]]. split.
  - intros id' t' s' Hs. rewrite <- H2. eapply scheduled_bound; eauto.
  - intros k. cbn. set (n := length (s_handles st)).
    assert (Hf : fresh n (s_queue st)).
    { intros [x i] Hx. apply H3 in Hx. destruct Hx as [[s' Hs] _]. cbn. unfold n. rewrite <- H2.
      eapply scheduled_bound; eauto. }
    destruct HI as [-> |[-> |[lib ->]]]; cbn [i_insert list_impl set_impl heap_impl].
    + rewrite list_insert_ordered; [apply ordered_insert_in|exact Hf].
    + rewrite set_insert_ordered; [apply ordered_insert_in|]. apply fresh_notin. exact Hf.
    + split; intros Hk.
      * apply (Permutation_in _ (lib_push_perm lib (s_queue st) (t, n))) in Hk.
        destruct Hk as [<-|Hk]; auto.
      * apply (Permutation_in _ (Permutation_sym (lib_push_perm lib (s_queue st) (t, n)))).
        destruct Hk as [->|Hk]; [left|right]; auto.
Qed.
Print Assumptions C39_accept.

Example C39_ex : exists st, reachable list_impl demo st /\ s_clock st = true /\ s_now st = 10 /\
  schedule_at list_impl 9 (Some 1%nat) st = Throw InvalidArgument /\
  exists st', schedule_at list_impl 11 (Some 1%nat) st = Done (6%nat, st').
Proof.
  destruct (steps list_impl demo 10 (demo_ops ++ [Run]) ready) as [st|] eqn:E;
    [|vm_compute in E; discriminate].
  exists st. split; [eapply reach_ops; [apply reach_ready|exact E]|].
  vm_compute in E. inversion E. vm_compute. repeat split. eexists. reflexivity.
Qed.

(** ** C40 *)

(** What every run does: the begin event if it is the first run, the run event, the
    scheduled events, the pause event, and the end event exactly when no event is
    left after the pause event. *)
Theorem C40_run_events : forall I p fuel bound st st', scheduler I -> tame p -> reachable I p st ->
  run I p fuel bound st = Some (Done st') ->
  exists tr pre body post fin, s_trace st' = s_trace st ++ tr /\
    run_shape (s_started st) tr pre body post fin /\ s_started st' = true /\
    (fin <> [] <-> all_taken (s_trace st ++ pre ++ OLife LRun :: body ++ OLife LPause :: post)
                     (fun _ => True)).
Proof.
  intros I p fuel bound st st' HI Ht Hr E.
  destruct (run_facts_reachable I p fuel bound st st' HI Ht Hr E) as [pre [body [post [fin F]]]].
  destruct (f_shape _ _ _ _ _ _ _ F) as [tr [T S]].
  exists tr, pre, body, post, fin. split; auto. split; auto. split; apply F.
Qed.
Print Assumptions C40_run_events.

(** The begin event is fired at most once, before any scheduled event and before
    any other event of the simulator; and nothing is fired without it. *)
Theorem C40_begin_once : forall I p st, scheduler I -> tame p -> reachable I p st ->
  Forall client_obs (s_trace st) \/
  exists l1 l2, s_trace st = l1 ++ OLife LBegin :: l2 /\
    Forall client_obs l1 /\ ~ In (OLife LBegin) l2.
Proof.
  intros I p st HI Ht Hr. pose proof (reachable_begun I p st HI Ht Hr) as H.
  unfold begun in H. destruct (s_started st); auto.
Qed.
Print Assumptions C40_begin_once.

(** Running without a scheduler, or without any event, throws. *)
Theorem C40_reject : forall I p fuel bound st,
  (s_init st = false -> run I p fuel bound st = Some (Throw Uninitialized)) /\
  (s_init st = true -> num_events st = 0%nat ->
   run I p fuel bound st = Some (Throw NoScheduledEvent)).
Proof.
  intros I p fuel bound st. unfold run. split; intros ->; auto. intros ->. auto.
Qed.
Print Assumptions C40_reject.

Example C40_ex : exists st, reachable set_impl demo st /\
  filter (fun o => match o with OLife _ => true | _ => false end) (s_trace st) =
    [OLife LBegin; OLife LRun; OLife LPause; OLife LRun; OLife LPause; OLife LEnd].
Proof.
  destruct (steps set_impl demo 10 (demo_ops ++ [Run; Run]) ready) as [st|] eqn:E;
    [|vm_compute in E; discriminate].
  exists st. split; [eapply reach_ops; [apply reach_ready|exact E]|].
  vm_compute in E. inversion E. reflexivity.
Qed.

(** ** C68 *)

(** When a sink throws an exception, list and set keep the event and fire it again
    in the next run; the heap has lost it. *)
Theorem C68_throwing_sink_refuted : exists p ops fuel, forall lib,
  option_map num_events (steps list_impl p fuel ops ready) = Some 1%nat /\
  option_map num_events (steps set_impl p fuel ops ready) = Some 1%nat /\
  option_map num_events (steps (heap_impl lib) p fuel ops ready) = Some 0%nat.
Proof.
  exists (fun _ src => match src with SSink _ => ([], true) | _ => ([], false) end),
         [Act (AAt 1 (Some 0%nat)); Run], 5%nat.
  intros lib.
  assert (Hp : forall k, lib_push lib [] k = [k]).
  { intros k. apply Permutation_length_1_inv. apply Permutation_sym. apply lib_push_perm. }
  assert (Hq : forall k, lib_pop lib k [] = []).
  { intros k. apply Permutation_nil. apply Permutation_sym. apply lib_pop_perm. }
  split; [vm_compute; reflexivity|]. split; [vm_compute; reflexivity|].
  cbn. rewrite !Hp. cbn. rewrite !Hq. reflexivity.
Qed.
Print Assumptions C68_throwing_sink_refuted.

Example C68_ex : exists st, steps list_impl
    (fun tr src => match src with SSink _ => ([], true) | _ => ([], false) end) 5
    [Act (AAt 1 (Some 0%nat)); Run; Run; Run] ready = Some st /\
  fired (s_trace st) = repeat (0%nat, 1, Some 0%nat) 3.
Proof. eexists. vm_compute. auto. Qed.

(** ** C69 *)

(** Between events, [GetNumEvents] is the number of accepted events minus the number
    of those taken. *)
Theorem C69_num_events : forall I p st, scheduler I -> tame p -> reachable I p st ->
  (num_events st + length (fired (s_trace st)) = num_scheduled (s_trace st))%nat.
Proof. exact reachable_count. Qed.
Print Assumptions C69_num_events.

(** [GetNumEvents] called by a sink does not give the same number: list and set
    count the event that is being fired, which the interface says is not
    counted; the heap does not. *)
Theorem C69_num_events_in_sink_refuted : exists st, forall lib,
  length (i_during list_impl (s_queue st)) = 1%nat /\
  length (i_during set_impl (s_queue st)) = 1%nat /\
  length (i_during (heap_impl lib) (s_queue st)) = 0%nat /\ reachable list_impl demo st.
Proof.
  exists (act list_impl (AAt 10 (Some 7%nat)) ready). intros lib.
  split; [reflexivity|]. split; [reflexivity|]. split.
  - cbn. rewrite (Permutation_length (lib_pop_perm lib (10, 0%nat) [])). reflexivity.
  - eapply (reach_step _ _ 0%nat (Act (AAt 10 (Some 7%nat)))); [constructor|reflexivity].
Qed.
Print Assumptions C69_num_events_in_sink_refuted.

Example C69_ex : exists st, steps heap_sorting demo 10 (demo_ops ++ [Run]) ready = Some st /\
  num_events st = 4%nat /\ length (fired (s_trace st)) = 2%nat.
Proof. eexists. vm_compute. auto. Qed.

(** ** C75 *)

(** What a client sees of a sequence of [Use] calls: the exception of each, if any. *)
Fixpoint uses (use : bool -> state -> outcome state) (l : list bool) (st : state)
  : list (option (outcome unit)) * state :=
  match l with
  | [] => ([], st)
  | b :: r =>
      match use b st with
      | Done st' => let (os, s) := uses use r st' in (None :: os, s)
      | Throw e => let (os, s) := uses use r st in (Some (Throw e) :: os, s)
      | AssertFail => let (os, s) := uses use r st in (Some AssertFail :: os, s)
      | UB => let (os, s) := uses use r st in (Some UB :: os, s)
      end
  end.

(** A clock (a scheduler) is accepted exactly once: null pointers are refused, the first
    real one is taken, all later calls are refused and change nothing; no other part of
    the state changes. *)
Theorem C75_use_once : forall k r b l st,
  let calls := repeat false k in
  (s_clock st = false ->
     uses use_clock calls st = (repeat (Some (Throw InvalidPointer)) k, st) /\
     exists st', use_clock true st = Done st' /\ s_clock st' = true /\
       uses use_clock (calls ++ true :: l) st =
         (repeat (Some (Throw InvalidPointer)) k ++ None :: repeat (Some (Throw IllegalMethodCall)) (length l), st') /\
       (s_init st', s_queue st', s_handles st', s_now st', s_trace st') =
       (s_init st, s_queue st, s_handles st, s_now st, s_trace st)) /\
  (s_init st = false ->
     uses use_scheduler calls st = (repeat (Some (Throw InvalidPointer)) k, st) /\
     exists st', use_scheduler true st = Done st' /\ s_init st' = true /\
       uses use_scheduler (calls ++ true :: l) st =
         (repeat (Some (Throw InvalidPointer)) k ++ None :: repeat (Some (Throw IllegalMethodCall)) (length l), st') /\
       (s_clock st', s_queue st', s_handles st', s_now st', s_trace st') =
       (s_clock st, s_queue st, s_handles st, s_now st, s_trace st)) /\
  (s_clock st = true -> use_clock b st = Throw IllegalMethodCall) /\
  (s_init st = true -> use_scheduler r st = Throw IllegalMethodCall).
Proof.
  intros k r b l st calls. subst calls.
  split; [|split; [|split; [unfold use_clock|unfold use_scheduler]; intros ->; reflexivity]];
    intros H.
  - assert (A : forall l' st', s_clock st' = true ->
        uses use_clock l' st' = (repeat (Some (Throw IllegalMethodCall)) (length l'), st')).
    { induction l' as [|x l' IH]; intros st' E; cbn [uses length repeat]; [reflexivity|].
      unfold use_clock at 1. rewrite E, (IH _ E). reflexivity. }
    split.
    + induction k as [|k IH]; cbn [uses repeat]; [reflexivity|].
      unfold use_clock at 1. rewrite H. cbn [negb]. rewrite IH. reflexivity.
    + unfold use_clock at 1. rewrite H. cbn [negb]. eexists. split; [reflexivity|].
      split; [reflexivity|]. split; [|reflexivity].
      induction k as [|k IH]; cbn [uses repeat app]; unfold use_clock at 1; rewrite H; cbn [negb].
      * rewrite A by reflexivity. reflexivity.
      * rewrite IH. reflexivity.
  - assert (A : forall l' st', s_init st' = true ->
        uses use_scheduler l' st' = (repeat (Some (Throw IllegalMethodCall)) (length l'), st')).
    { induction l' as [|x l' IH]; intros st' E; cbn [uses length repeat]; [reflexivity|].
      unfold use_scheduler at 1. rewrite E, (IH _ E). reflexivity. }
    split.
    + induction k as [|k IH]; cbn [uses repeat]; [reflexivity|].
      unfold use_scheduler at 1. rewrite H. cbn [negb]. rewrite IH. reflexivity.
    + unfold use_scheduler at 1. rewrite H. cbn [negb]. eexists. split; [reflexivity|].
      split; [reflexivity|]. split; [|reflexivity].
      induction k as [|k IH]; cbn [uses repeat app]; unfold use_scheduler at 1; rewrite H; cbn [negb].
      * rewrite A by reflexivity. reflexivity.
      * rewrite IH. reflexivity.
Qed.
Print Assumptions C75_use_once.
Example C75_ex : s_clock init = false /\
  fst (uses use_clock [false; true; true; false] init) =
  [Some (Throw InvalidPointer); None; Some (Throw IllegalMethodCall); Some (Throw IllegalMethodCall)].
Proof. vm_compute. auto. Qed.
