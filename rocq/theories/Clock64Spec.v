(** Vocabulary for the properties of the arithmetic on the simulation clock. *)
From Verif Require Import Base Sim Nested Duration DurationSpec.
Open Scope Z_scope.

(** The latest and the earliest time point. *)
Definition time_max : Z := 2 ^ 63 - 1.
Definition time_min : Z := - 2 ^ 63.

(** Calls that stay within the horizon [H]: an event is scheduled after a
    duration that is not negative and not longer than what is left between [H]
    and the latest time point. *)
Definition within (H : Z) (a : action) : Prop :=
  match a with
  | AIn dt _ => 0 <= dt <= time_max - H
  | _ => True
  end.

(** Callbacks that make no runs, and whose calls stay within the horizon. *)
Definition calm (H : Z) (p : nprogram) : Prop :=
  forall tr src o, In o (p tr src) -> exists a, o = Act a /\ within H a.

(** How far the runs of the owner can take a clock that reads at most [h]: no
    [Run] without a limit, and the limits of all runs add up to at most [H]. *)
Fixpoint reaches (H h : Z) (l : list op) : Prop :=
  match l with
  | [] => h <= H
  | Act a :: r => within H a /\ reaches H h r
  | Run :: _ => False
  | RunUntil t :: r => time_min <= t /\ reaches H (Z.max h t) r
  | RunFor dt :: r => 0 <= dt /\ reaches H (h + dt) r
  end.

(** A sink that schedules itself again, [dt] later, each time it is invoked. *)
Definition ticker (dt : Z) : nprogram := fun _ src =>
  match src with SSink s => [Act (AIn dt (Some s))] | SLife _ => [] end.
