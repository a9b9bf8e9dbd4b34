(** Property C68: sinks that throw exceptions. *)
From Coq Require Import Sorting.Sorted.
From Verif Require Import Base BaseProofs Sim SimSpec SimProofs SimThrowProofs.
Open Scope Z_scope.

(** ** C68 *)

(** Heap scheduler, every event program: whatever sinks and simulator events
    throw, every event is taken at most once, in order, its sink invoked unless
    it was cancelled ([legal]); it is taken when the clock reads its time; and
    [GetNumEvents] is what was accepted minus what was taken, the throwing
    events being counted as taken. *)
Theorem C68_heap_throwing : forall lib p st, reachable (heap_impl lib) p st ->
  legal (s_trace st) /\
  (forall id c s t s0, In (OTake id c s) (s_trace st) -> scheduled (s_trace st) id t s0 -> c = t) /\
  (num_events st + length (fired (s_trace st)) = num_scheduled (s_trace st))%nat.
Proof.
  intros lib p st H. apply tinv_reachable in H. split; [apply H|]. split; [apply H|].
  exact (t_count _ H).
Qed.
Print Assumptions C68_heap_throwing.

(** What the next run of the heap scheduler goes on with, whatever was thrown
    before: the earliest event that was not taken, if there is any. *)
Theorem C68_heap_next : forall lib p st, reachable (heap_impl lib) p st ->
  match next_event (heap_impl lib) st with
  | Some (t, id) =>
      (exists s, scheduled (s_trace st) id t s) /\ ~ taken (s_trace st) id /\
      (forall id' t' s', scheduled (s_trace st) id' t' s' -> ~ taken (s_trace st) id' ->
         id' = id \/ earlier (t, id) (t', id'))
  | None => forall id t s, scheduled (s_trace st) id t s -> taken (s_trace st) id
  end.
Proof.
  intros lib p st H. apply tinv_reachable in H.
  unfold next_event. cbn [i_head heap_impl].
  pose proof (t_pend _ H) as Hp. pose proof (t_heap _ H) as Hh.
  destruct (s_queue st) as [|[t id] q] eqn:Eq; cbn [hd_error].
  - intros id t s Hs. destruct (taken_dec (s_trace st) id) as [?|Hn]; auto.
    exfalso. apply (Hp t id). split; eauto.
  - destruct (proj1 (Hp t id) (or_introl eq_refl)) as [Ha Hb]. split; auto. split; auto.
    intros id' t' s' Hs Hn.
    assert (Hi : In (t', id') ((t, id) :: q)) by (apply Hp; split; eauto).
    destruct (heap_root _ _ Hh _ Hi) as [E|E]; auto. inversion E; auto.
Qed.
Print Assumptions C68_heap_next.

(** List and set scheduler, every event program: when an exception thrown by the
    sink of an event leaves a run, that event is still the next one, so the next
    run starts by firing it again.  (That the exception comes from the sink shows
    in the record: the event is the last thing that the simulator did.) *)
Theorem C68_list_set_fire_again : forall I p fuel until st st' tr id t s m,
  I = list_impl \/ I = set_impl -> reachable I p st ->
  run I p fuel until st = Some (Done st') -> s_thrown st' = true ->
  s_trace st' = tr ++ OTake id t s :: m -> Forall client_obs m ->
  next_event I st' = Some (t, id).
Proof.
  intros I p fuel u st st' tr id t s m HI Hr E Ht Etr Hm.
  assert (HB : bounded I) by (destruct HI as [->| ->]; [apply list_bounded|apply set_bounded]).
  assert (HK : keeps I) by (destruct HI as [->| ->]; [apply list_keeps|apply set_keeps]).
  destruct (known_reachable I HB p st Hr) as [H1 H2].
  destruct (run_any I HB p fuel u st st' H1 H2 E) as [_ H3].
  destruct (H3 Ht tr id t s m Etr Hm) as [_ H4]. auto.
Qed.
Print Assumptions C68_list_set_fire_again.

(** All schedulers: after the exception has left the run, nothing is being
    executed, but the handle of the event still tells that the event is running,
    unless the sink has cancelled it. *)
Theorem C68_handle_stays_running : forall I p fuel until st st' tr id t s m,
  scheduler I -> reachable I p st ->
  run I p fuel until st = Some (Done st') -> s_thrown st' = true ->
  s_trace st' = tr ++ OTake id t s :: m -> Forall client_obs m -> ~ In (OCancel id) m ->
  exists h, nth_error (s_handles st') id = Some h /\
    is_valid h = true /\ is_running h = true /\ is_pending h = false.
Proof.
  intros I p fuel u st st' tr id t s m HI Hr E Ht Etr Hm Hn.
  pose proof (scheduler_bounded I HI) as HB.
  destruct (known_reachable I HB p st Hr) as [H1 H2].
  destruct (run_any I HB p fuel u st st' H1 H2 E) as [_ H3].
  destruct (H3 Ht tr id t s m Etr Hm) as [H4 _]. destruct (H4 Hn) as [h [Ha [Hb Hc]]].
  exists h. split; auto. unfold is_valid, is_pending, is_running in *.
  destruct (h_sink h); [|discriminate]. rewrite Hc. auto.
Qed.
Print Assumptions C68_handle_stays_running.

(** Sink 0 throws after it has scheduled an event; the others do nothing. *)
Definition thrower : program := fun _ src =>
  match src with SSink 0 => ([ANow (Some 2%nat)], true) | _ => ([], false) end.
Definition thrower_ops : list op := [Act (AAt 3 (Some 0%nat)); Act (AAt 3 (Some 1%nat))].

Example C68_heap_throwing_ex : exists st, reachable (heap_impl sorting_lib) thrower st /\
  fired (s_trace st) = [(0%nat, 3, Some 0%nat); (1%nat, 3, Some 1%nat); (2%nat, 3, Some 2%nat)].
Proof.
  destruct (steps (heap_impl sorting_lib) thrower 9 (thrower_ops ++ [Run; Run]) ready) as [st|] eqn:E;
    [|exfalso; vm_compute in E; discriminate].
  exists st. split.
  - assert (G : forall l st0, reachable (heap_impl sorting_lib) thrower st0 ->
      steps (heap_impl sorting_lib) thrower 9 l st0 = Some st -> reachable (heap_impl sorting_lib) thrower st).
    { induction l as [|o l IH]; intros st0 H0 E0; cbn [steps] in E0.
      - inversion E0; subst; auto.
      - destruct (step (heap_impl sorting_lib) thrower 9 o st0) eqn:E1; [|discriminate].
        apply (IH s); [eapply reach_step; eauto|exact E0]. }
    eapply G; [apply reach_ready|exact E].
  - vm_compute in E. inversion E. reflexivity.
Qed.

(** The hypotheses of the last two theorems are met, and the outcome is visible:
    the list fires event 0 once more. *)
Example C68_fire_again_ex : exists st st' st'',
  steps list_impl thrower 9 thrower_ops ready = Some st /\
  run list_impl thrower 9 None st = Some (Done st') /\ s_thrown st' = true /\
  (exists tr m, s_trace st' = tr ++ OTake 0 3 (Some 0%nat) :: m /\ Forall client_obs m /\
     ~ In (OCancel 0) m) /\
  steps list_impl thrower 9 (thrower_ops ++ [Run; Run]) ready = Some st'' /\
  fired (s_trace st'') = [(0%nat, 3, Some 0%nat); (0%nat, 3, Some 0%nat)].
Proof.
  eexists _, _, _. split; [vm_compute; reflexivity|]. split; [vm_compute; reflexivity|].
  split; [vm_compute; reflexivity|]. split.
  - eexists [_; _; _; _], [_]. split; [vm_compute; reflexivity|]. split.
    + repeat constructor.
    + intros [H|[]]. discriminate.
  - split; vm_compute; reflexivity.
Qed.
