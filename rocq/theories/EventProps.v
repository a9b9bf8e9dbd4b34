(** Properties C07-C12: events and portainers.
    [cap] is the template parameter [capacity]; sinks are of any type [A];
    [h] says what the sinks do when called, see Event.v. *)
From Verif Require Import Base Event EventSpec EventProofs.
From Coq Require Import Sorting.Sorted Permutation.
Local Open Scope N_scope.

(** A history used in the examples: connect 10, 11, 12, disconnect cookie 2,
    connect 13, then fire; sink 10 disconnects cookie 3 and connects 14. *)
Definition ex_h : behaviour N := fun log c a =>
  if a =? 10 then [ODisconnect 3; OConnect (Some 14)] else [].
Definition ex_ops : list (ev_op N) :=
  [OConnect (Some 10); OConnect (Some 11); OConnect (Some 12); ODisconnect 2; OConnect (Some 13)].
Definition ex_state : ev_state N := fst (run_ops 8 (fire_void 8 20 ex_h 0) ex_ops ev_init).

(** C07 and C08, C09 in one invariant: in every reachable state the log of what
    happened is admissible: each cookie handed out was nonzero and not the
    cookie of a live connection, the capacity was never exceeded, and each call
    of a sink was through a live connection. *)
Theorem C07_cookies_fresh :
  forall (A : Type) cap (st : ev_state A), 0 < cap < 2 ^ 32 -> reachable cap st ->
    log_ok cap (ev_hist st).
Proof. intros A cap st Hc Hr. exact (iv_log _ _ (reachable_inv cap st Hc Hr)). Qed.
Print Assumptions C07_cookies_fresh.

Example C07_cookies_fresh_ex :
  reachable 8 ex_state /\
  ev_hist ex_state = [LConn 1 10; LConn 2 11; LConn 3 12; LDisc 2; LConn 2 13].
Proof. split; [|reflexivity]. exists 20%nat, ex_h, ex_ops. reflexivity. Qed.

(** C07.  What the next Connect returns, in every reachable state. *)
Theorem C07_next_cookie_fresh :
  forall (A : Type) cap (st : ev_state A), 0 < cap < 2 ^ 32 -> reachable cap st ->
    ev_connect cap (ev_slots st) None = Throw InvalidPointer /\
    N.of_nat (length (conns (ev_hist st))) <= cap /\
    forall a, if N.of_nat (length (conns (ev_hist st))) =? cap
      then ev_connect cap (ev_slots st) (Some a) = Throw ConnectionLimit
      else exists c s', ev_connect cap (ev_slots st) (Some a) = Done (c, s') /\ 0 < c <= cap /\
           ~ In c (map fst (conns (ev_hist st))).
Proof. intros A cap st Hc Hr. exact (inv_connect_spec cap st Hc (reachable_inv cap st Hc Hr)). Qed.
Print Assumptions C07_next_cookie_fresh.

(** C08.  Number of sinks, lookup by cookie and visiting agree with the
    connections made and not disconnected. *)
Theorem C08_sinks_are_the_live_connections :
  forall (A : Type) cap (st : ev_state A), 0 < cap < 2 ^ 32 -> reachable cap st ->
    ev_num_sinks (ev_slots st) = N.of_nat (length (conns (ev_hist st))) /\
    (forall c a, ev_get_sink (ev_slots st) c = Done a <-> In (c, a) (conns (ev_hist st))) /\
    (forall c, (forall a, ~ In (c, a) (conns (ev_hist st))) ->
       ev_get_sink (ev_slots st) c = Throw NoConnection) /\
    (exists v, slots_visit (ev_slots st) = Done v /\ cookie_sorted v /\
       Permutation v (conns (ev_hist st))).
Proof. intros A cap st Hc Hr. exact (inv_observe cap st Hc (reachable_inv cap st Hc Hr)). Qed.
Print Assumptions C08_sinks_are_the_live_connections.

Example C08_sinks_are_the_live_connections_ex :
  reachable 8 ex_state /\ conns (ev_hist ex_state) = [(1, 10); (3, 12); (2, 13)] /\
  slots_visit (ev_slots ex_state) = Done [(1, 10); (2, 13); (3, 12)].
Proof. split; [|split; reflexivity]. exists 20%nat, ex_h, ex_ops. reflexivity. Qed.

(** C08.  A cookie is reused after Disconnect, so disconnecting twice through
    the same cookie can hit a connection made by someone else in between. *)
Theorem C08_stale_cookie_refuted :
  exists (ops : list (ev_op N)),
    conns (ev_hist (fst (run_ops 8 (fire_void 8 20 ex_h 0) ops ev_init))) = [(1, 11)] /\
    conns (ev_hist (fst (run_ops 8 (fire_void 8 20 ex_h 0) (ops ++ [ODisconnect 1]) ev_init))) = [] /\
    ops = [OConnect (Some 10); ODisconnect 1; OConnect (Some 11)].
Proof. eexists. split; [|split; [|reflexivity]]; reflexivity. Qed.
Print Assumptions C08_stale_cookie_refuted.

(** C09.  The specialisation for one connection behaves as the general template
    with capacity 1, for every history of calls. *)
Theorem C09_single_connection_event_equivalent :
  forall (A : Type) (ops : list (ev_call A)), exists s,
    ev_calls 1 ops slots_init = Done (fst (ev1_calls ops None), s) /\
    ev_num_sinks s = ev1_num_sinks (snd (ev1_calls ops None)) /\
    slots_visit s = Done (ev1_visit (snd (ev1_calls ops None))) /\
    (forall c, ev_get_sink s c = ev1_get_sink (snd (ev1_calls ops None)) c).
Proof. intros A. exact ev1_equiv. Qed.
Print Assumptions C09_single_connection_event_equivalent.

Example C09_single_connection_event_equivalent_ex :
  fst (ev1_calls [EConnect (Some 5); EConnect (Some 6); EDisconnect 1; EConnect None; EConnect (Some 7)] None)
  = [Done 1; Throw ConnectionLimit; Done 0; Throw InvalidPointer; Done 1].
Proof. reflexivity. Qed.

(** C09.  Limit and null sinks, general template: the result of Connect is
    decided by the number of live connections alone, and a failing Connect
    (Throw) carries no new state, so the event is unchanged. *)
Theorem C09_capacity_enforced :
  forall (A : Type) cap (st : ev_state A), 0 < cap < 2 ^ 32 -> reachable cap st ->
    ev_num_sinks (ev_slots st) <= cap /\
    ev_connect cap (ev_slots st) None = Throw InvalidPointer /\
    forall a, (ev_num_sinks (ev_slots st) = cap <->
               ev_connect cap (ev_slots st) (Some a) = Throw ConnectionLimit) /\
              (ev_num_sinks (ev_slots st) < cap <->
               exists r, ev_connect cap (ev_slots st) (Some a) = Done r).
Proof. intros A cap st Hc Hr. exact (inv_capacity cap st Hc (reachable_inv cap st Hc Hr)). Qed.
Print Assumptions C09_capacity_enforced.

Example C09_capacity_enforced_ex :
  exists st : ev_state N, reachable 2 st /\ ev_num_sinks (ev_slots st) = 2.
Proof.
  exists (fst (run_ops 2 (fire_void 2 20 ex_h 0) [OConnect (Some 1); OConnect (Some 2); OConnect (Some 3)] ev_init)).
  split; [|reflexivity]. eexists 20%nat, ex_h, _. reflexivity.
Qed.

(** C10.  With sinks that leave the event alone, firing (with or without
    arguments) calls exactly the live connections, once each, in ascending
    cookie order, and does not change the event. *)
Theorem C10_fire_delivers_once_in_order :
  forall (A : Type) cap (h : behaviour A) (st : ev_state A),
    0 < cap < 2 ^ 32 -> reachable cap st -> passive h ->
    exists v, slots_visit (ev_slots st) = Done v /\ cookie_sorted v /\
      Permutation v (conns (ev_hist st)) /\
      (forall fuel, (N.to_nat cap < fuel)%nat ->
        fire_void cap fuel h 0 st
          = (mk_ev (ev_slots st) (ev_hist st ++ map (fun p => LCall (fst p) (snd p)) v), Ok) /\
        fire_args cap fuel h st
          = (mk_ev (ev_slots st) (ev_hist st ++ map (fun p => LCall (fst p) (snd p)) v), Ok)).
Proof. intros A cap h st Hc Hr. exact (fire_delivers cap h st Hc (reachable_inv cap st Hc Hr)). Qed.
Print Assumptions C10_fire_delivers_once_in_order.

Example C10_fire_delivers_once_in_order_ex :
  reachable 8 ex_state /\ passive (fun _ (_ : N) (_ : N) => []) /\
  ev_hist (fst (fire_args 8 9 (fun _ _ _ => []) ex_state))
  = ev_hist ex_state ++ [LCall 1 10; LCall 2 13; LCall 3 12].
Proof. split; [|split; [|reflexivity]]. - exists 20%nat, ex_h, ex_ops. reflexivity. - intros ? ? ?. reflexivity. Qed.

(** C10 with sinks that do modify the event (but do not fire it again from
    inside): calls are in strictly ascending cookie order, and a connection that
    is not disconnected during the firing is called exactly once.  For events
    without arguments. *)
Theorem C10_fire_reaches_undisturbed_sinks :
  forall (A : Type) cap (h : behaviour A) fuel (st st' : ev_state A),
    0 < cap < 2 ^ 32 -> reachable cap st -> not_nested h ->
    fire_void cap fuel h 0 st = (st', Ok) ->
    exists sfx, ev_hist st' = ev_hist st ++ sfx /\ ascending (calls sfx) /\
      (forall c a, In (c, a) (conns (ev_hist st)) -> ~ In (LDisc c) sfx ->
         In (LCall c a) sfx /\ count_occ N.eq_dec (calls sfx) c = 1%nat).
Proof. intros A cap h fuel st st' Hc Hr. exact (fire_void_once cap h fuel st st' Hc (reachable_inv cap st Hc Hr)). Qed.
Print Assumptions C10_fire_reaches_undisturbed_sinks.

Example C10_fire_reaches_undisturbed_sinks_ex :
  reachable 8 ex_state /\ not_nested ex_h /\
  snd (fire_void 8 20 ex_h 0 ex_state) = Ok /\
  ev_hist (fst (fire_void 8 20 ex_h 0 ex_state))
  = ev_hist ex_state ++ [LCall 1 10; LDisc 3; LConn 3 14; LCall 2 13; LCall 3 14].
Proof.
  split; [exists 20%nat, ex_h, ex_ops; reflexivity|]. split; [|split; reflexivity].
  intros log c a. unfold ex_h. destruct (a =? 10); cbn; intuition discriminate.
Qed.

(** C11.  Events without arguments: whatever the sinks do (connect, disconnect,
    fire again, throw), firing never calls a null sink nor leaves the sink list;
    the state reached is again a consistent one, and every call made was through
    a connection live at that moment. *)
Theorem C11_fire_void_reentrancy_safe :
  forall (A : Type) cap (h : behaviour A) fuel (st : ev_state A),
    0 < cap < 2 ^ 32 -> reachable cap st ->
    snd (fire_void cap fuel h 0 st) <> Undef /\
    log_ok cap (ev_hist (fst (fire_void cap fuel h 0 st))).
Proof. intros A cap h fuel st Hc Hr. exact (fire_void_log cap h fuel st Hc (reachable_inv cap st Hc Hr)). Qed.
Print Assumptions C11_fire_void_reentrancy_safe.

Example C11_fire_void_reentrancy_safe_ex :
  reachable 8 ex_state /\ snd (fire_void 8 20 ex_h 0 ex_state) = Ok /\
  In (LCall 1 10) (ev_hist (fst (fire_void 8 20 ex_h 0 ex_state))).
Proof.
  split; [exists 20%nat, ex_h, ex_ops; reflexivity|]. split; [reflexivity|].
  vm_compute. do 5 right. now left.
Qed.

(** C11.  Without new connections made by sinks the delivery ends. *)
Theorem C11_fire_void_terminates :
  forall (A : Type) cap (h : behaviour A) fuel (st : ev_state A),
    0 < cap < 2 ^ 32 -> reachable cap st -> not_nested h -> no_connect h ->
    (N.to_nat (sl_last (ev_slots st)) < fuel)%nat ->
    snd (fire_void cap fuel h 0 st) = Ok \/ snd (fire_void cap fuel h 0 st) = Thrown.
Proof. intros A cap h fuel st Hc Hr. exact (fire_void_ends cap h fuel st Hc (reachable_inv cap st Hc Hr)). Qed.
Print Assumptions C11_fire_void_terminates.

Example C11_fire_void_terminates_ex :
  reachable 8 ex_state /\ (N.to_nat (sl_last (ev_slots ex_state)) < 4)%nat /\
  not_nested (fun _ c (_ : N) => [ODisconnect c]) /\ no_connect (fun _ c (_ : N) => [ODisconnect c]).
Proof.
  split; [exists 20%nat, ex_h, ex_ops; reflexivity|]. split; [vm_compute; repeat constructor|].
  split; intros log c a; cbn; intuition discriminate.
Qed.

(** C11 for events with arguments is false: sink 10 disconnects sink 11, which
    is the last one, and the null pointer in its slot is called. *)
Theorem C11_fire_args_disconnect_next_refuted :
  exists cap (h : behaviour N) fuel (st : ev_state N),
    0 < cap < 2 ^ 32 /\ reachable cap st /\ not_nested h /\
    snd (fire_args cap fuel h st) = Undef.
Proof. exact fire_args_null_call. Qed.
Print Assumptions C11_fire_args_disconnect_next_refuted.

(** C11, events with arguments, the part that holds: if sinks disconnect only
    themselves or sinks with smaller cookies (and connect whatever they like),
    the delivery is safe and ends in a consistent state. *)
Theorem C11_fire_args_partial :
  forall (A : Type) cap (h : behaviour A) fuel (st : ev_state A),
    0 < cap < 2 ^ 32 -> reachable cap st -> not_nested h -> disconnects_back h ->
    snd (fire_args cap fuel h st) <> Undef /\
    log_ok cap (ev_hist (fst (fire_args cap fuel h st))).
Proof. intros A cap h fuel st Hc Hr. exact (fire_args_back cap h fuel st Hc (reachable_inv cap st Hc Hr)). Qed.
Print Assumptions C11_fire_args_partial.

Example C11_fire_args_partial_ex :
  reachable 8 ex_state /\ not_nested (fun _ c (_ : N) => [ODisconnect c; OConnect (Some 3)]) /\
  disconnects_back (fun _ c (_ : N) => [ODisconnect c; OConnect (Some 3)]).
Proof.
  split; [exists 20%nat, ex_h, ex_ops; reflexivity|].
  split; intros log c a; cbn; [intuition discriminate|].
  intros d [[= <-]|[H|[]]]; [|discriminate]. unfold w32, wrap. apply N.mod_le. discriminate.
Qed.

(** C12.  After every history of Add and Remove a Portainer is the finite map of
    the added and not removed items; Add returns 0 exactly when it is full, and
    then changes nothing; otherwise it returns a fresh nonzero cookie. *)
Theorem C12_portainer_is_a_map :
  forall (A : Type) cap (ops : list (po_op A)), 0 < cap < 2 ^ 32 ->
  exists st, po_run cap ops = Done st /\ log_ok cap (ev_hist st) /\
    po_size (ev_slots st) = N.of_nat (length (conns (ev_hist st))) /\
    (forall c a, slots_get (ev_slots st) c = Some a <-> In (c, a) (conns (ev_hist st))) /\
    (exists v, slots_visit (ev_slots st) = Done v /\ cookie_sorted v /\ Permutation v (conns (ev_hist st))) /\
    (forall a, exists c s', po_add cap (ev_slots st) (Some a) = Done (c, s') /\
       if N.of_nat (length (conns (ev_hist st))) <? cap
       then 0 < c <= cap /\ ~ In c (map fst (conns (ev_hist st)))
       else c = 0 /\ s' = ev_slots st).
Proof. intros A. exact po_map. Qed.
Print Assumptions C12_portainer_is_a_map.

Example C12_portainer_is_a_map_ex :
  match po_run 2 [PAdd 7; PAdd 8; PAdd 9; PRemove 1; PAdd 10; PRemove 0] with
  | Done st => ev_hist st = [LConn 1 7; LConn 2 8; LDisc 1; LConn 1 10; LDisc 0]
               /\ conns (ev_hist st) = [(2, 8); (1, 10)]
  | _ => False
  end.
Proof. split; reflexivity. Qed.

(** C12.  Portainer<T, 1> behaves as the general template with capacity 1. *)
Theorem C12_single_item_portainer_equivalent :
  forall (A : Type) (ops : list (po_op A)), exists s r,
    po_calls 1 ops slots_init = Done (fst r, s) /\ po1_calls ops None = Done r /\
    po_size s = po1_size (snd r) /\
    (forall c, slots_get s c = po1_get (snd r) c) /\
    slots_visit s = Done (match snd r with Some a => [(1, a)] | None => [] end).
Proof. intros A. exact po1_equiv. Qed.
Print Assumptions C12_single_item_portainer_equivalent.
