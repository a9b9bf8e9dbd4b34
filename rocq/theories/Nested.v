(** Model of runs within runs: event sinks, and sinks of the simulator's own
    events, that call [Run], [RunUntil] or [RunFor] of the simulator that is
    calling them (/repo/simulation/simulator.h:112-208 with event-handle.h:103-112
    and [FireAndRemoveNextEvent] of the three schedulers).

    Simplifications: those of module [Sim], except that sinks may call the
    simulator.  Callbacks throw no exceptions of their own, and catch those of
    the calls that they make.  Sinks do not call [FireAndRemoveNextEvent]
    directly.  The depth of the C++ stack is not bounded: calls that never
    return are calls for which no amount of fuel suffices. *)
From Verif Require Import Base Sim.
Open Scope Z_scope.

(** The three schedulers: list-scheduler.h, set-scheduler.h, heap-scheduler.h. *)
Inductive kind : Type := KList | KSet | KHeap (lib : heap_lib).

Definition impl_of (K : kind) : impl :=
  match K with
  | KList => list_impl
  | KSet => set_impl
  | KHeap lib => heap_impl lib
  end.

(** Whether what [FireAndRemoveNextEvent] does to its container after the event
    has been fired is defined.  [list_.pop_front()] needs a list that is not
    empty (list-scheduler.h:166); [set_.erase(it)] needs the element that [it]
    refers to (set-scheduler.h:146); the heap is not touched
    (heap-scheduler.h:160-173). *)
Definition after_ok (K : kind) (k : key) (q : list key) : bool :=
  match K with
  | KList => match q with [] => false | _ :: _ => true end
  | KSet => existsb (key_eqb k) q
  | KHeap _ => true
  end.

(** What a callback does, as a function of everything that has happened so far:
    a list of calls, runs included. *)
Definition nprogram : Type := list obs -> source -> list op.

(** The activities of the machine: one call by client code, several, a callback,
    [FireAndRemoveNextEvent], the loop of a run and a whole run. *)
Inductive task : Type :=
| TOp (o : op)
| TOps (l : list op)
| TCall (src : source)
| TNext
| TLoop (until : option Z)
| TRun (until : option Z).

(** The result of an activity: [None] if the fuel does not suffice. *)
Definition nbind (m : option (outcome state)) (k : state -> option (outcome state))
  : option (outcome state) :=
  match m with Some (Done st) => k st | _ => m end.

(** An exception of a run reaches the code that called it, which records it. *)
Definition caught (st : state) (m : option (outcome state)) : option (outcome state) :=
  match m with Some (Throw e) => Some (Done (log st (OReject e))) | _ => m end.

(** [EventHandle::Fire] around the call of the sink: event-handle.h:105-106 and
    108-111. *)
Definition enter (id : nat) (st : state) : state :=
  set_handles st (update (s_handles st) id (fun h => mk_handle (h_time h) (h_sink h) true)).
Definition leave (id : nat) (st : state) : state :=
  set_handles st (update (s_handles st) id (fun h => mk_handle (h_time h) None false)).

(** What [FireAndRemoveNextEvent] does to its container after firing [k]. *)
Definition finish (K : kind) (k : key) (st : state) : option (outcome state) :=
  if after_ok K k (s_queue st)
  then Some (Done (set_queue st (i_after (impl_of K) k (s_queue st))))
  else Some UB.

(** The machine.  [TOp]: a call by client code; [RunFor] is simulator.h:182-185.
    [TCall]: an event or a sink of the simulator is invoked.  [TNext]:
    list-scheduler.h:160-168, set-scheduler.h:140-149, heap-scheduler.h:160-173
    with event-handle.h:103-112.  [TLoop]: simulator.h:125-137 and 156-176.
    [TRun]: simulator.h:112-180, with 193-208. *)
Fixpoint exec (K : kind) (p : nprogram) (fuel : nat) (k : task) (st : state)
  : option (outcome state) :=
  match fuel with
  | O => None
  | S f =>
      match k with
      | TOp o =>
          match o with
          | Act a => Some (Done (act (impl_of K) a st))
          | Run => caught st (exec K p f (TRun None) st)
          | RunUntil t => caught st (exec K p f (TRun (Some t)) st)
          | RunFor dt => caught st (exec K p f (TRun (Some (s_now st + dt))) st)
          end
      | TOps [] => Some (Done st)
      | TOps (o :: r) => nbind (exec K p f (TOp o) st) (exec K p f (TOps r))
      | TCall src => exec K p f (TOps (p (s_trace st) src)) st
      | TNext =>
          match next_event (impl_of K) st with
          | None => Some (Done st)
          | Some k =>
              let st := set_queue st (i_during (impl_of K) (s_queue st)) in
              match nth_error (s_handles st) (snd k) with
              | None => Some UB
              | Some h =>
                  let st := log st (OTake (snd k) (s_now st) (h_sink h)) in
                  match h_sink h with
                  | None => finish K k st
                  | Some s =>
                      nbind (exec K p f (TCall (SSink s)) (enter (snd k) st))
                        (fun st => finish K k (leave (snd k) st))
                  end
              end
          end
      | TLoop until =>
          if s_paused st then Some (Done st)
          else match next_event (impl_of K) st with
          | None => Some (Done (match until with Some t => set_now st t | None => st end))
          | Some k =>
              if match until with Some t => t <? fst k | None => false end
              then Some (Done (match until with Some t => set_now st t | None => st end))
              else nbind (exec K p f TNext (set_now st (fst k))) (exec K p f (TLoop until))
          end
      | TRun until =>
          if negb (s_init st) then Some (Throw Uninitialized)
          else if (num_events st =? 0)%nat then Some (Throw NoScheduledEvent)
          else
            nbind (if s_started st then Some (Done st)
                   else exec K p f (TCall (SLife LBegin)) (log (set_started st true) (OLife LBegin)))
            (fun st =>
            nbind (exec K p f (TCall (SLife LRun)) (log (set_paused st false) (OLife LRun)))
            (fun st =>
            nbind (exec K p f (TLoop until) st)
            (fun st =>
            nbind (exec K p f (TCall (SLife LPause)) (log (set_paused st true) (OLife LPause)))
            (fun st =>
            if (num_events st =? 0)%nat
            then exec K p f (TCall (SLife LEnd)) (log st (OLife LEnd))
            else Some (Done st)))))
      end
  end.

(** The calls of the code that owns the simulator. *)
Definition nsteps (K : kind) (p : nprogram) (fuel : nat) (l : list op) (st : state)
  : option (outcome state) :=
  exec K p fuel (TOps l) st.
