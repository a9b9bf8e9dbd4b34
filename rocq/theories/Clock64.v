(** Model of the arithmetic on the simulation clock: [ScheduleIn] and [RunFor]
    add a duration to the time point of the clock, and both are counts of type
    [int64_t] (/repo/chrono/virtual-time-point.h:240-244, duration.h:925-933;
    /repo/simulation/simulator.h:182-185; list-scheduler.h:86-95,
    set-scheduler.h:86-95, heap-scheduler.h:105-114).  In modules [Sim] and
    [Nested] time is an unbounded integer; here an overflow is undefined
    behaviour, as it is in C++.

    Simplifications: those of module [Nested]. *)
From Verif Require Import Base Sim Nested Duration.
Open Scope Z_scope.

(** [ScheduleIn], whose first step is [clock_->Now() + dt], and the other calls:
    list-scheduler.h:86-95, set-scheduler.h:86-95, heap-scheduler.h:105-114.
    [clock_] is dereferenced before any check. *)
Definition act64 (I : impl) (a : action) (st : state) : outcome state :=
  match a with
  | AIn dt s =>
      if negb (s_clock st) then UB
      else
        let! t := vt_add (s_now st) dt in
        Done (sched_result t s st (schedule_at I t s st))
  | ANow s =>
      if negb (s_clock st) then UB
      else Done (sched_result (s_now st) s st (schedule_at I (s_now st) s st))
  | _ => Done (act I a st)
  end.

(** The machine of module [Nested], with [act64] for the calls of the scheduler
    and [now_ + dt] for [RunFor] (simulator.h:182-185).  The rest is the same:
    list-scheduler.h:160-168, set-scheduler.h:140-149, heap-scheduler.h:160-173,
    event-handle.h:103-112, simulator.h:112-208. *)
Fixpoint exec64 (K : kind) (p : nprogram) (fuel : nat) (k : task) (st : state)
  : option (outcome state) :=
  match fuel with
  | O => None
  | S f =>
      match k with
      | TOp o =>
          match o with
          | Act a => Some (act64 (impl_of K) a st)
          | Run => caught st (exec64 K p f (TRun None) st)
          | RunUntil t => caught st (exec64 K p f (TRun (Some t)) st)
          | RunFor dt =>
              match vt_add (s_now st) dt with
              | Done t => caught st (exec64 K p f (TRun (Some t)) st)
              | _ => Some UB
              end
          end
      | TOps [] => Some (Done st)
      | TOps (o :: r) => nbind (exec64 K p f (TOp o) st) (exec64 K p f (TOps r))
      | TCall src => exec64 K p f (TOps (p (s_trace st) src)) st
      | TNext =>
          match next_event (impl_of K) st with
          | None => Some (Done st)
          | Some k =>
              let st := set_queue st (i_during (impl_of K) (s_queue st)) in
              match nth_error (s_handles st) (snd k) with
              | None => Some UB
              | Some h =>
                  let st := log st (OTake (snd k) (s_now st) (h_sink h)) in
                  match h_sink h with
                  | None => finish K k st
                  | Some s =>
                      nbind (exec64 K p f (TCall (SSink s)) (enter (snd k) st))
                        (fun st => finish K k (leave (snd k) st))
                  end
              end
          end
      | TLoop until =>
          if s_paused st then Some (Done st)
          else match next_event (impl_of K) st with
          | None => Some (Done (match until with Some t => set_now st t | None => st end))
          | Some k =>
              if match until with Some t => t <? fst k | None => false end
              then Some (Done (match until with Some t => set_now st t | None => st end))
              else nbind (exec64 K p f TNext (set_now st (fst k))) (exec64 K p f (TLoop until))
          end
      | TRun until =>
          if negb (s_init st) then Some (Throw Uninitialized)
          else if (num_events st =? 0)%nat then Some (Throw NoScheduledEvent)
          else
            nbind (if s_started st then Some (Done st)
                   else exec64 K p f (TCall (SLife LBegin)) (log (set_started st true) (OLife LBegin)))
            (fun st =>
            nbind (exec64 K p f (TCall (SLife LRun)) (log (set_paused st false) (OLife LRun)))
            (fun st =>
            nbind (exec64 K p f (TLoop until) st)
            (fun st =>
            nbind (exec64 K p f (TCall (SLife LPause)) (log (set_paused st true) (OLife LPause)))
            (fun st =>
            if (num_events st =? 0)%nat
            then exec64 K p f (TCall (SLife LEnd)) (log st (OLife LEnd))
            else Some (Done st)))))
      end
  end.

(** The calls of the code that owns the simulator. *)
Definition nsteps64 (K : kind) (p : nprogram) (fuel : nat) (l : list op) (st : state)
  : option (outcome state) :=
  exec64 K p fuel (TOps l) st.
