(** Vocabulary for the properties of schedulers and simulator.  Everything is
    stated about the record of calls ([list obs]) and about what the public
    interfaces return; no container of a scheduler appears. *)
From Coq Require Import Sorting.Sorted.
From Verif Require Import Base Sim.
Open Scope Z_scope.

(** Event [id] was accepted for time [t] with sink [s]. *)
Definition scheduled (tr : list obs) (id : nat) (t : Z) (s : nat) : Prop :=
  In (OSched id t s) tr.
(** The scheduler has taken event [id] out, firing it unless cancelled. *)
Definition taken (tr : list obs) (id : nat) : Prop :=
  exists c s, In (OTake id c s) tr.
(** The sink of event [id] has been invoked. *)
Definition invoked (tr : list obs) (id : nat) : Prop :=
  exists c s, In (OTake id c (Some s)) tr.
Definition cancelled (tr : list obs) (id : nat) : Prop := In (OCancel id) tr.

Definition is_sched (o : obs) : bool :=
  match o with OSched _ _ _ => true | _ => false end.
Definition num_scheduled (tr : list obs) : nat := length (filter is_sched tr).

(** Earlier time point, or the same time point and scheduled before. *)
Definition earlier (k1 k2 : Z * nat) : Prop :=
  fst k1 < fst k2 \/ (fst k1 = fst k2 /\ (snd k1 < snd k2)%nat).

(** What may happen after [tr].  Ids are handed out in sequence.  An event is
    taken at most once, and it is the earliest, in order of scheduling, of the
    events that were accepted and not taken yet.  Its sink is invoked exactly
    when nobody has cancelled it. *)
Definition legal_next (tr : list obs) (o : obs) : Prop :=
  match o with
  | OSched id _ _ => id = num_scheduled tr
  | OCancel id => (id < num_scheduled tr)%nat
  | OTake id _ s =>
      exists t s0, scheduled tr id t s0 /\ ~ taken tr id /\
        (forall id' t' s', scheduled tr id' t' s' -> ~ taken tr id' ->
           id' = id \/ earlier (t, id) (t', id')) /\
        ((s = Some s0 /\ ~ cancelled tr id) \/ (s = None /\ cancelled tr id))
  | _ => True
  end.
Definition legal (tr : list obs) : Prop :=
  forall l1 o l2, tr = l1 ++ o :: l2 -> legal_next l1 o.

(** The sequence of (id, clock reading, sink invoked) of the events taken. *)
Definition fired (tr : list obs) : list (nat * Z * option nat) :=
  flat_map (fun o => match o with OTake id c s => [(id, c, s)] | _ => [] end) tr.
Definition fired_times (tr : list obs) : list Z := map (fun x => snd (fst x)) (fired tr).

(** What client code does inside its callbacks. *)
Definition client_obs (o : obs) : Prop :=
  match o with OTake _ _ _ | OLife _ => False | _ => True end.
Definition not_life (o : obs) : Prop := match o with OLife _ => False | _ => True end.

(** Callbacks do not throw exceptions of their own. *)
Definition tame (p : program) : Prop := forall tr src, snd (p tr src) = false.

(** Two states that no caller of the public interfaces can tell apart, [Now],
    the handles, the order of firing: only the layout of the container may
    differ. *)
Definition same_behaviour (a b : state) : Prop :=
  s_trace a = s_trace b /\ s_now a = s_now b /\ s_handles a = s_handles b /\
  s_paused a = s_paused b /\ s_started a = s_started b /\
  Permutation (s_queue a) (s_queue b).

Definition same_result (a b : option state) : Prop :=
  match a, b with
  | Some a, Some b => same_behaviour a b
  | None, None => True
  | _, _ => False
  end.

(** The three schedulers of nsfx. *)
Definition scheduler (I : impl) : Prop :=
  I = list_impl \/ I = set_impl \/ exists lib, I = heap_impl lib.

(** States that a simulator can get into. *)
Inductive reachable (I : impl) (p : program) : state -> Prop :=
| reach_ready : reachable I p ready
| reach_step fuel o st st' : reachable I p st -> step I p fuel o st = Some st' ->
    reachable I p st'.

(** The bound of a run is not in the past. *)
Definition forward (o : op) (st : state) : Prop :=
  match o with
  | RunUntil t => s_now st <= t
  | RunFor dt => 0 <= dt
  | _ => True
  end.
Fixpoint forward_ops (I : impl) (p : program) (fuel : nat) (l : list op) (st : state) : Prop :=
  match l with
  | [] => True
  | o :: r => forward o st /\
      match step I p fuel o st with
      | Some st' => forward_ops I p fuel r st'
      | None => True
      end
  end.

(** A direct client that, like the simulator, never fires an event while its
    clock is behind the time of the event. *)
Fixpoint clock_ok (I : impl) (p : program) (l : list dop) (st : state) : Prop :=
  match l with
  | [] => True
  | o :: r =>
      match o with
      | DFire => match next_event I st with Some (t, _) => t <= s_now st | None => True end
      | _ => True
      end /\ clock_ok I p r (dstep I p o st)
  end.

(** The sorted queue: the abstract scheduler that takes the first event out
    before firing it. *)
Fixpoint ordered_insert (k : key) (q : list key) : list key :=
  match q with
  | [] => [k]
  | x :: r => if key_lt k x then k :: q else x :: ordered_insert k r
  end.
Definition spec_impl : impl :=
  mk_impl ordered_insert (@hd_error key) (@tl key) (fun _ q => q).

(** What one call of [Run], [RunUntil] or [RunFor] adds to the record.  [pre] is
    the begin event with what its sinks do, [body] is everything between the run
    event and the pause event, [post] is what the sinks of the pause event do and
    [fin] is the end event with what its sinks do. *)
Record run_shape (started : bool) (tr pre body post fin : list obs) : Prop := {
  rs_split : tr = pre ++ OLife LRun :: body ++ OLife LPause :: post ++ fin;
  rs_pre : if started then pre = []
           else exists l, pre = OLife LBegin :: l /\ Forall client_obs l;
  rs_body : Forall not_life body;
  rs_post : Forall client_obs post;
  rs_fin : fin = [] \/ exists l, fin = OLife LEnd :: l /\ Forall client_obs l
}.

(** Every event accepted for a time that satisfies [P] has been taken. *)
Definition all_taken (tr : list obs) (P : Z -> Prop) : Prop :=
  forall id t s, scheduled tr id t s -> P t -> taken tr id.

(** Programs that do not care about pauses: callbacks of the simulator's own
    events do nothing, and sinks decide what to do from what has been scheduled,
    cancelled and fired. *)
Definition visible (o : obs) : bool :=
  match o with OSched _ _ _ | OCancel _ | OTake _ _ _ => true | _ => false end.
Definition oblivious (p : program) : Prop :=
  (forall tr tr' src, filter visible tr = filter visible tr' -> p tr src = p tr' src) /\
  (forall tr l, p tr (SLife l) = ([], false)).
(** The same program without its pauses. *)
Definition is_pause (a : action) : bool := match a with APause => true | _ => false end.
Definition unpaused (p : program) : program :=
  fun tr src => (filter (fun a => negb (is_pause a)) (fst (p tr src)), snd (p tr src)).
