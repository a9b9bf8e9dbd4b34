(** Model of the simulation module of nsfx: event handles
    (/repo/simulation/event-handle.h), the three event schedulers
    (/repo/simulation/list-scheduler.h, set-scheduler.h, heap-scheduler.h) and
    the simulator (/repo/simulation/simulator.h).

    Simplifications.  Time points are unbounded integers: the 64-bit overflow
    of [Now() + dt] is the subject of module [Duration].  Event ids are natural
    numbers: wrap-around of the 64-bit counter after 2^64 events is not
    modelled.  Reference counts of handles and sinks are not modelled: a handle
    is kept in a table for ever, indexed by its id.  Event sinks do not call
    [FireAndRemoveNextEvent], [Run], [RunUntil] or [RunFor] themselves: for runs
    within runs see module [Nested]. *)
From Coq Require Export Sorting.Permutation.
From Verif Require Import Base.
Open Scope Z_scope.

(** ** Event handles *)

(** The part of an event handle that schedulers compare: its time point [t_]
    and its id [id_] (event-handle.h:163-169). *)
Notation key := (Z * nat)%type.

(** [EventHandle::operator<]: event-handle.h:126-134. *)
Definition key_lt (a b : key) : bool :=
  if fst a <? fst b then true
  else if fst a =? fst b then (snd a <? snd b)%nat else false.

(** [EventHandle::operator==]: event-handle.h:116-119 (ids only). *)
Definition key_eqb (a b : key) : bool := (snd a =? snd b)%nat.

(** The mutable part of an event handle: the sink [sink_], [None] for a null
    pointer, and [running_]; with the constant [t_] (event-handle.h:163-169).
    Sinks are numbered; what sink [s] does when fired is given by the program,
    see [program]. *)
Record handle : Type := mk_handle { h_time : Z; h_sink : option nat; h_running : bool }.

(** The constructor of [EventHandle]: event-handle.h:43-59. *)
Definition new_handle (t : Z) (s : nat) : handle := mk_handle t (Some s) false.

(** [EventHandle::IsPending], [IsRunning], [IsValid], [Cancel]:
    event-handle.h:70-88. *)
Definition is_pending (h : handle) : bool :=
  match h_sink h with Some _ => negb (h_running h) | None => false end.
Definition is_running (h : handle) : bool :=
  match h_sink h with Some _ => h_running h | None => false end.
Definition is_valid (h : handle) : bool :=
  match h_sink h with Some _ => true | None => false end.
Definition cancel_handle (h : handle) : handle := mk_handle (h_time h) None (h_running h).

(** ** The containers of the three schedulers *)

(** What the schedulers do with their container.  [i_insert] is the container
    part of [ScheduleAt], [i_head] is [GetNextEvent].  [FireAndRemoveNextEvent]
    turns the container [q] into [i_during q], then fires the event, whose sink
    may insert more events, and finally turns the container into
    [i_after k q'] where [k] is the event that has been fired. *)
Record impl : Type := mk_impl {
  i_insert : key -> list key -> list key;
  i_head : list key -> option key;
  i_during : list key -> list key;
  i_after : key -> list key -> list key
}.

(** The insertion loop of [ListScheduler::ScheduleAt]: list-scheduler.h:117-140.
    The new event goes before the first one that is strictly later. *)
Fixpoint list_insert (k : key) (q : list key) : list key :=
  match q with
  | [] => [k]
  | x :: r => if fst k <? fst x then k :: q else x :: list_insert k r
  end.

(** [ListScheduler]: list-scheduler.h:97-168.  The event is fired while it is
    still in the list, then [pop_front] removes the front of the list. *)
Definition list_impl : impl :=
  mk_impl list_insert (@hd_error key) (fun q => q) (fun _ q => tl q).

(** [set<Ptr<EventHandle>>::insert], with the order of event-handle.h:187-191:
    a [std::set] is modelled by the sorted list of its elements; an equivalent
    element is not inserted twice. *)
Fixpoint set_insert (k : key) (q : list key) : list key :=
  match q with
  | [] => [k]
  | x :: r => if key_lt k x then k :: q
              else if key_lt x k then x :: set_insert k r else q
  end.

(** [set_.erase(it)], where [it] refers to [k]: set-scheduler.h:146. *)
Fixpoint set_erase (k : key) (q : list key) : list key :=
  match q with
  | [] => []
  | x :: r => if key_eqb k x then r else x :: set_erase k r
  end.

(** [SetScheduler]: set-scheduler.h:97-149.  The event is fired while it is
    still in the set, then it is erased through its iterator. *)
Definition set_impl : impl :=
  mk_impl set_insert (@hd_error key) (fun q => q) set_erase.

(** [HeapLessThan]: heap-scheduler.h:58-67. *)
Definition heap_less (a b : key) : bool := key_lt b a.

(** What [std::is_heap] says of a range, for the comparator [heap_less]: no
    element is smaller than one of its children. *)
Definition is_heap (l : list key) : Prop :=
  forall i a b, (0 < i)%nat -> nth_error l ((i - 1) / 2) = Some a ->
    nth_error l i = Some b -> heap_less a b = false.

(** The contract that the C++ standard gives for [std::push_heap] and
    [std::pop_heap].  The standard library itself is not part of nsfx; the
    theorems hold for every implementation that meets the contract.
    [lib_push q k] is the range after [q], a heap, is extended by [k] and
    [push_heap] is called; [lib_pop k q] is the range after [pop_heap] is called
    on the heap [k :: q], without its last element, which is [k]. *)
Record heap_lib : Type := mk_heap_lib {
  lib_push : list key -> key -> list key;
  lib_pop : key -> list key -> list key;
  lib_push_perm : forall q k, Permutation (lib_push q k) (k :: q);
  lib_push_heap : forall q k, is_heap q -> is_heap (lib_push q k);
  lib_pop_perm : forall k q, Permutation (lib_pop k q) q;
  lib_pop_heap : forall k q, is_heap (k :: q) -> is_heap (lib_pop k q)
}.

(** [HeapScheduler]: heap-scheduler.h:116-173.  [pop_heap] and [pop_back] come
    before the event is fired. *)
Definition heap_impl (lib : heap_lib) : impl :=
  mk_impl (fun k q => lib_push lib q k) (@hd_error key)
    (fun q => match q with [] => [] | k :: r => lib_pop lib k r end)
    (fun _ q => q).

(** ** Event programs *)

(** The four events of the simulator (simulator.h:212-232, 254-257). *)
Inductive life : Type := LBegin | LRun | LPause | LEnd.

(** Who is called by the simulator or the scheduler: sink [s] of an event, or
    the sinks that are connected to one of the simulator's own events, taken as
    one. *)
Inductive source : Type := SSink (s : nat) | SLife (l : life).

(** What client code does.  A null sink is [None].  [ACancel id] is [Cancel()]
    on the handle of event [id]; nothing can be done with the handle of an
    event that has not been scheduled yet. *)
Inductive action : Type :=
| AAt (t : Z) (s : option nat)
| AIn (dt : Z) (s : option nat)
| ANow (s : option nat)
| ACancel (id : nat)
| APause.

(** The record of what happened.  It is not part of the C++ code; it is what an
    observer that sees every call could write down.  [OTake id t s] is the call
    of [FireAndRemoveNextEvent] that takes event [id] while the clock reads [t];
    [s] is the sink that is invoked, or [None] if the event was cancelled. *)
Inductive obs : Type :=
| OSched (id : nat) (t : Z) (s : nat)
| OReject (e : exn)
| OCancel (id : nat)
| OPause
| OTake (id : nat) (t : Z) (s : option nat)
| OLife (l : life).

(** An event program: what a callback does, as a function of everything that
    has happened so far.  Callbacks catch the exceptions that their own calls
    raise; the boolean says that the callback ends by throwing an exception of
    its own. *)
Definition program : Type := list obs -> source -> list action * bool.

(** ** States *)

(** The simulator (simulator.h:247-252), its scheduler and all event handles.
    [s_clock] is [initialized_] of the scheduler and [s_init] is [initialized_]
    of the simulator.  [s_thrown] tells that an exception is propagating. *)
Record state : Type := mk_state {
  s_clock : bool; s_init : bool;
  s_queue : list key; s_handles : list handle;
  s_now : Z; s_paused : bool; s_started : bool;
  s_trace : list obs; s_thrown : bool
}.

(** The default constructors (list-scheduler.h:57-60, simulator.h:67-76); the
    default time point is 0 (/repo/chrono/virtual-time-point.h:68-72). *)
Definition init : state := mk_state false false [] [] 0 true false [] false.

Definition set_queue (st : state) (q : list key) : state :=
  mk_state (s_clock st) (s_init st) q (s_handles st) (s_now st) (s_paused st)
    (s_started st) (s_trace st) (s_thrown st).
Definition set_now (st : state) (t : Z) : state :=
  mk_state (s_clock st) (s_init st) (s_queue st) (s_handles st) t (s_paused st)
    (s_started st) (s_trace st) (s_thrown st).
Definition set_paused (st : state) (b : bool) : state :=
  mk_state (s_clock st) (s_init st) (s_queue st) (s_handles st) (s_now st) b
    (s_started st) (s_trace st) (s_thrown st).
Definition set_started (st : state) (b : bool) : state :=
  mk_state (s_clock st) (s_init st) (s_queue st) (s_handles st) (s_now st) (s_paused st)
    b (s_trace st) (s_thrown st).
Definition set_handles (st : state) (hs : list handle) : state :=
  mk_state (s_clock st) (s_init st) (s_queue st) hs (s_now st) (s_paused st)
    (s_started st) (s_trace st) (s_thrown st).
Definition set_thrown (st : state) (b : bool) : state :=
  mk_state (s_clock st) (s_init st) (s_queue st) (s_handles st) (s_now st) (s_paused st)
    (s_started st) (s_trace st) b.
Definition log (st : state) (o : obs) : state :=
  mk_state (s_clock st) (s_init st) (s_queue st) (s_handles st) (s_now st) (s_paused st)
    (s_started st) (s_trace st ++ [o]) (s_thrown st).

(** [IClockUser::Use] of the three schedulers (list-scheduler.h:66-80,
    set-scheduler.h:66-80, heap-scheduler.h:85-99) and [ISchedulerUser::Use] of
    the simulator (simulator.h:83-97).  The argument tells whether the pointer
    is non-null.  The clock is the simulator and the scheduler is the one
    modelled: other pairings are not modelled. *)
Definition use_clock (nonnull : bool) (st : state) : outcome state :=
  if s_clock st then Throw IllegalMethodCall
  else if negb nonnull then Throw InvalidPointer
  else Done (mk_state true (s_init st) (s_queue st) (s_handles st) (s_now st)
               (s_paused st) (s_started st) (s_trace st) (s_thrown st)).
Definition use_scheduler (nonnull : bool) (st : state) : outcome state :=
  if s_init st then Throw IllegalMethodCall
  else if negb nonnull then Throw InvalidPointer
  else Done (mk_state (s_clock st) true (s_queue st) (s_handles st) (s_now st)
               (s_paused st) (s_started st) (s_trace st) (s_thrown st)).

(** Replace element [n] of a list. *)
Fixpoint update {A} (l : list A) (n : nat) (f : A -> A) : list A :=
  match l, n with
  | [], _ => []
  | x :: r, O => f x :: r
  | x :: r, S m => x :: update r m f
  end.

(** ** Scheduling *)

(** [ScheduleAt]: list-scheduler.h:97-143, set-scheduler.h:97-122,
    heap-scheduler.h:116-143.  The next id [nextEventId_] is the number of
    handles made so far.  Returns the id of the new handle. *)
Definition schedule_at (I : impl) (t : Z) (s : option nat) (st : state)
  : outcome (nat * state) :=
  if negb (s_clock st) then Throw Uninitialized
  else match s with
  | None => Throw InvalidPointer
  | Some s =>
      if t <? s_now st then Throw InvalidArgument
      else
        let id := length (s_handles st) in
        Done (id, set_handles (set_queue st (i_insert I (t, id) (s_queue st)))
                    (s_handles st ++ [new_handle t s]))
  end.

(** [ScheduleIn] and [ScheduleNow]: list-scheduler.h:86-95, set-scheduler.h:86-95,
    heap-scheduler.h:105-114.  They dereference [clock_] before any check. *)
Definition schedule_in (I : impl) (dt : Z) (s : option nat) (st : state) :=
  if negb (s_clock st) then UB else schedule_at I (s_now st + dt) s st.
Definition schedule_now (I : impl) (s : option nat) (st : state) :=
  if negb (s_clock st) then UB else schedule_at I (s_now st) s st.

(** [GetNumEvents]: list-scheduler.h:145-148, set-scheduler.h:124-127,
    heap-scheduler.h:145-148. *)
Definition num_events (st : state) : nat := length (s_queue st).

(** [Cancel] on the handle of event [id]: event-handle.h:85-88. *)
Definition cancel (id : nat) (st : state) : state :=
  set_handles st (update (s_handles st) id cancel_handle).

(** One call by client code, written to the record. *)
Definition sched_result (time : Z) (s : option nat) (st : state)
    (r : outcome (nat * state)) : state :=
  match r with
  | Done (id, st') => log st' (OSched id time (match s with Some s => s | None => O end))
  | Throw e => log st (OReject e)
  | _ => st
  end.
Definition act (I : impl) (a : action) (st : state) : state :=
  match a with
  | AAt t s => sched_result t s st (schedule_at I t s st)
  | AIn dt s => sched_result (s_now st + dt) s st (schedule_in I dt s st)
  | ANow s => sched_result (s_now st) s st (schedule_now I s st)
  | ACancel id => if (id <? length (s_handles st))%nat
                  then log (cancel id st) (OCancel id) else st
  | APause => log (set_paused st true) OPause   (* simulator.h:187-190 *)
  end.
Definition acts (I : impl) (l : list action) (st : state) : state :=
  fold_left (fun st a => act I a st) l st.

(** Calling a sink. *)
Definition call (I : impl) (p : program) (src : source) (st : state) : state :=
  let r := p (s_trace st) src in
  set_thrown (acts I (fst r) st) (snd r).

(** ** Firing *)

(** [EventHandle::Fire]: event-handle.h:103-112. *)
Definition fire (I : impl) (p : program) (id : nat) (st : state) : state :=
  match nth_error (s_handles st) id with
  | None => st
  | Some h =>
      let st := log st (OTake id (s_now st) (h_sink h)) in
      match h_sink h with
      | None => st
      | Some s =>
          let st := set_handles st (update (s_handles st) id
                      (fun h => mk_handle (h_time h) (h_sink h) true)) in
          let st := call I p (SSink s) st in
          if s_thrown st then st
          else set_handles st (update (s_handles st) id
                 (fun h => mk_handle (h_time h) None false))
      end
  end.

(** [GetNextEvent]: list-scheduler.h:150-158, set-scheduler.h:129-138,
    heap-scheduler.h:150-158. *)
Definition next_event (I : impl) (st : state) : option key := i_head I (s_queue st).

(** [FireAndRemoveNextEvent]: list-scheduler.h:160-168, set-scheduler.h:140-149,
    heap-scheduler.h:160-173. *)
Definition fire_next (I : impl) (p : program) (st : state) : state :=
  match next_event I st with
  | None => st
  | Some k =>
      let st := set_queue st (i_during I (s_queue st)) in
      let st := fire I p (snd k) st in
      if s_thrown st then st else set_queue st (i_after I k (s_queue st))
  end.

(** ** The simulator *)

(** Firing one of the four events of the simulator (simulator.h:214-232).  The
    record entry is made even if no sink is connected. *)
Definition fire_life (I : impl) (p : program) (l : life) (st : state) : state :=
  call I p (SLife l) (log st (OLife l)).

(** The loops of [Run] and [RunUntil]: simulator.h:125-137 and 156-176.  [None]
    is the loop of [Run].  The result is [None] if [fuel] iterations are not
    enough. *)
Fixpoint loop (I : impl) (p : program) (until : option Z) (fuel : nat) (st : state)
  : option state :=
  match fuel with
  | O => None
  | S fuel =>
      if s_paused st then Some st
      else match next_event I st with
      | None => Some (match until with Some t => set_now st t | None => st end)
      | Some (t0, _) =>
          match until with
          | Some t =>
              if t <? t0 then Some (set_now st t)
              else
                let st := fire_next I p (set_now st t0) in
                if s_thrown st then Some st else loop I p until fuel st
          | None =>
              let st := fire_next I p (set_now st t0) in
              if s_thrown st then Some st else loop I p until fuel st
          end
      end
  end.

(** [Run] and [RunUntil]: simulator.h:112-180, with [CheckBeginOfSimulation]
    (193-200) and [CheckEndOfSimulation] (202-208).  [None] if the fuel does not
    suffice. *)
Definition run (I : impl) (p : program) (fuel : nat) (until : option Z) (st : state)
  : option (outcome state) :=
  if negb (s_init st) then Some (Throw Uninitialized)
  else if (num_events st =? 0)%nat then Some (Throw NoScheduledEvent)
  else
    let st := if s_started st then st else fire_life I p LBegin (set_started st true) in
    if s_thrown st then Some (Done st)
    else
      let st := fire_life I p LRun (set_paused st false) in
      if s_thrown st then Some (Done st)
      else match loop I p until fuel st with
      | None => None
      | Some st =>
          if s_thrown st then Some (Done st)
          else
            let st := fire_life I p LPause (set_paused st true) in
            if s_thrown st then Some (Done st)
            else Some (Done (if (num_events st =? 0)%nat then fire_life I p LEnd st else st))
      end.

(** [RunFor]: simulator.h:182-185. *)
Definition run_for (I : impl) (p : program) (fuel : nat) (dt : Z) (st : state) :=
  run I p fuel (Some (s_now st + dt)) st.

(** ** Driving a simulation from outside *)

(** A call by the code that owns the simulator: a client action or a run.  A
    run of which the exception is caught clears it. *)
Inductive op : Type :=
| Act (a : action)
| Run
| RunUntil (t : Z)
| RunFor (dt : Z).

Definition run_result (st : state) (r : option (outcome state)) : option state :=
  match r with
  | None => None
  | Some (Done st') => Some (set_thrown st' false)
  | Some (Throw e) => Some (log st (OReject e))
  | Some _ => Some st
  end.

Definition step (I : impl) (p : program) (fuel : nat) (o : op) (st : state) : option state :=
  match o with
  | Act a => Some (act I a st)
  | Run => run_result st (run I p fuel None st)
  | RunUntil t => run_result st (run I p fuel (Some t) st)
  | RunFor dt => run_result st (run_for I p fuel dt st)
  end.

Fixpoint steps (I : impl) (p : program) (fuel : nat) (l : list op) (st : state)
  : option state :=
  match l with
  | [] => Some st
  | o :: r => match step I p fuel o st with
              | None => None
              | Some st' => steps I p fuel r st'
              end
  end.

(** A simulator that uses a scheduler that uses it as its clock. *)
Definition ready : state :=
  mk_state true true [] [] 0 true false [] false.

(** ** Driving a scheduler without the simulator *)

(** The calls of a client that uses a scheduler with a clock of its own: client
    actions, the clock being set to any value, and [FireAndRemoveNextEvent]. *)
Inductive dop : Type :=
| DAct (a : action)
| DClock (c : Z)
| DFire.

Definition dstep (I : impl) (p : program) (o : dop) (st : state) : state :=
  match o with
  | DAct a => act I a st
  | DClock c => set_now st c
  | DFire => set_thrown (fire_next I p st) false
  end.
Definition dsteps (I : impl) (p : program) (l : list dop) (st : state) : state :=
  fold_left (fun st o => dstep I p o st) l st.
