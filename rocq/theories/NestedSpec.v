(** Vocabulary for the properties of runs within runs.  The record of calls and
    what may be said about it ([legal], [fired], ...) come from [SimSpec]. *)
From Verif Require Import Base Sim SimSpec Nested.
Open Scope Z_scope.

(** Every event is taken when the clock reads the time it was scheduled for. *)
Definition taken_on_time (tr : list obs) : Prop :=
  forall l1 id c s l2, tr = l1 ++ OTake id c s :: l2 -> exists s0, scheduled l1 id c s0.

(** A call of [Pause], or the end of a run. *)
Definition stops (o : obs) : Prop := o = OPause \/ o = OLife LPause.

(** Nothing is taken between a stop and the start of the next run. *)
Definition quiet (tr : list obs) : Prop :=
  forall l1 o l2, tr = l1 ++ o :: l2 -> stops o -> ~ In (OLife LRun) l2 -> fired l2 = [].

(** Programs whose callbacks only go forward in time: a run within a run is [Run]
    or [RunFor] a duration that is not negative, and the sinks of the begin event
    make no runs. *)
Definition onward (p : nprogram) : Prop :=
  forall tr src o, In o (p tr src) ->
    match o with
    | Act _ => True
    | Run => src <> SLife LBegin
    | RunFor dt => src <> SLife LBegin /\ 0 <= dt
    | RunUntil _ => False
    end.

(** The calls of the owner go forward in time, however long each of them takes. *)
Fixpoint onward_ops (K : kind) (p : nprogram) (l : list op) (st : state) : Prop :=
  match l with
  | [] => True
  | o :: r => forward o st /\
      forall fuel st', exec K p fuel (TOp o) st = Some (Done st') -> onward_ops K p r st'
  end.

(** A program without runs within runs, seen as a program that could make them. *)
Definition flat (p : program) : nprogram := fun tr src => map Act (fst (p tr src)).
