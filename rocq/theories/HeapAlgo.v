(** Model of what [HeapScheduler] does with its vector of events, with the
    algorithms of the C++ standard library written out
    (/repo/simulation/heap-scheduler.h:139-140 and 164-168).  Module [Sim] takes
    [std::push_heap] and [std::pop_heap] by the contract of the C++ standard;
    here they are the algorithms that GCC's library uses: an element moves up
    from a hole, and a hole moves down to a leaf and then up again.

    Simplifications: the standard library is not part of /repo, so the
    algorithms are those of bits/stl_heap.h of GCC as generally known, not of a
    particular release.  Indices are natural numbers.  The vector is a list; its
    growth is not modelled. *)
From Verif Require Import Base Sim.
Open Scope nat_scope.

(** Element [i] of a vector. *)
Definition at_ (l : list key) (i : nat) : key := nth i l (0%Z, 0).

(** Moving up, called for heap-scheduler.h:140: while the parent of the hole
    comes after [v], it moves into the hole; [v] is put into the last hole. *)
Fixpoint sift_up (fuel hole : nat) (v : key) (l : list key) : list key :=
  match fuel with
  | O => upd l hole v
  | S f =>
      if hole =? 0 then upd l hole v
      else
        let parent := (hole - 1) / 2 in
        if heap_less (at_ l parent) v
        then sift_up f parent v (upd l hole (at_ l parent))
        else upd l hole v
  end.

(** [events_.push_back(handle)] and [std::push_heap]: heap-scheduler.h:139-140,
    with the comparator of heap-scheduler.h:58-67. *)
Definition push_heap (q : list key) (k : key) : list key :=
  sift_up (length q) (length q) k (q ++ [k]).

(** Moving down, called for heap-scheduler.h:164: the hole moves to the child
    that comes first, until it has no child.  The result is the hole and the
    vector. *)
Fixpoint sift_down (fuel hole : nat) (l : list key) : nat * list key :=
  match fuel with
  | O => (hole, l)
  | S f =>
      let right := 2 * hole + 2 in
      if right <? length l then
        let child := if heap_less (at_ l right) (at_ l (right - 1)) then right - 1 else right in
        sift_down f child (upd l hole (at_ l child))
      else if right =? length l then
        (right - 1, upd l hole (at_ l (right - 1)))
      else (hole, l)
  end.

(** [std::pop_heap], [events_.back()] and [events_.pop_back()]:
    heap-scheduler.h:164-168, for the vector [k :: q].  The last element fills
    the hole that [k] leaves. *)
Definition pop_heap (k : key) (q : list key) : list key :=
  match q with
  | [] => []
  | _ :: _ =>
      let v := last q k in
      let '(hole, l) := sift_down (length q) 0 (k :: removelast q) in
      sift_up hole hole v l
  end.

(** Taking all events, as a simulation does that schedules no more
    (simulator.h:125-137 with heap-scheduler.h:150-173). *)
Fixpoint drain (fuel : nat) (q : list key) : list key :=
  match fuel, q with
  | S f, k :: r => k :: drain f (pop_heap k r)
  | _, _ => []
  end.
