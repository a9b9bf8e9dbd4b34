(** Property C95: the heap algorithms of the heap scheduler. *)
From Coq Require Import Sorting.Sorted.
From Verif Require Import Base Sim SimSpec SimProofs SimProps Nested NestedSpec NestedProps
  HeapAlgo HeapAlgoProofs.
Open Scope nat_scope.

(** ** C95 *)

(** Adding an event to the vector keeps all events and makes a heap of a heap. *)
Theorem C95_push : forall q k,
  Permutation (push_heap q k) (k :: q) /\ (is_heap q -> is_heap (push_heap q k)).
Proof. intros q k. split; [apply push_perm|apply push_is_heap]. Qed.
Print Assumptions C95_push.

(** So does removing the first one, which is the one that is fired: no other event
    of the heap is earlier. *)
Theorem C95_pop : forall k q,
  Permutation (pop_heap k q) q /\
  (is_heap (k :: q) -> is_heap (pop_heap k q) /\ forall x, In x q -> ~ earlier x k).
Proof.
  intros k q. split; [apply pop_perm|]. intros H. split; [apply pop_is_heap; auto|].
  intros x Hx. apply key_lt_false. apply (heap_front (k :: q) k q H eq_refl). right. auto.
Qed.
Print Assumptions C95_pop.

(** Whatever events are added, in whatever order, they come out in the order of
    time, those of equal time in the order of their ids, each of them once. *)
Theorem C95_order : forall ks, NoDup ks ->
  let out := drain (length ks) (fold_left push_heap ks []) in
  Permutation out ks /\ StronglySorted earlier out.
Proof.
  intros ks N out.
  assert (P : Permutation out ks).
  { unfold out. rewrite drain_perm.
    - rewrite pushes_perm, app_nil_r. auto.
    - rewrite (Permutation_length (pushes_perm ks [])), app_nil_r. auto. }
  split; auto. apply sorted_strict.
  - apply drain_sorted, pushes_heap, nil_heap.
  - apply (Permutation_NoDup (Permutation_sym P) N).
Qed.
Print Assumptions C95_order.

(** So a heap scheduler with these algorithms is one of the schedulers of which
    the other theorems speak: it cannot be told from a list scheduler ... *)
Theorem C95_equivalent : forall p fuel ops, tame p ->
  same_result (steps (heap_impl gcc_lib) p fuel ops ready) (steps list_impl p fuel ops ready).
Proof.
  intros p fuel ops Ht. apply C33_schedulers_equivalent; auto.
  - right. right. exists gcc_lib. auto.
  - left. auto.
Qed.
Print Assumptions C95_equivalent.

(** ... and it takes events in order, at their times, also if sinks run the
    simulator themselves. *)
Theorem C95_nested : forall p fuel l,
  nsteps (KHeap gcc_lib) p fuel l ready = None \/
  exists st, nsteps (KHeap gcc_lib) p fuel l ready = Some (Done st) /\
    legal (s_trace st) /\ taken_on_time (s_trace st).
Proof.
  intros p fuel l. destruct (C92_heap_defined gcc_lib p fuel l) as [E|[st E]]; auto.
  right. exists st. split; auto. destruct (C92_heap gcc_lib p fuel l st E) as [A [B _]]. auto.
Qed.
Print Assumptions C95_nested.

(** An example. *)
Definition some_keys : list (Z * nat) :=
  [(30%Z, 0); (10%Z, 1); (20%Z, 2); (10%Z, 3); (40%Z, 4); (5%Z, 5); (20%Z, 6)].
Example C95_ex : NoDup some_keys /\
  fold_left push_heap some_keys [] =
    [(5%Z, 5); (10%Z, 3); (10%Z, 1); (30%Z, 0); (40%Z, 4); (20%Z, 2); (20%Z, 6)] /\
  drain 7 (fold_left push_heap some_keys []) =
    [(5%Z, 5); (10%Z, 1); (10%Z, 3); (20%Z, 2); (20%Z, 6); (30%Z, 0); (40%Z, 4)].
Proof.
  split; [|split; vm_compute; reflexivity].
  repeat (constructor; [cbn; intuition discriminate|]). constructor.
Qed.
Example C95_heap_ex : is_heap (fold_left push_heap some_keys []).
Proof. apply pushes_heap, nil_heap. Qed.
Example C95_steps_ex : tame demo /\ exists st,
  steps (heap_impl gcc_lib) demo 20 (demo_ops ++ [Run; Run]) ready = Some st /\
  length (fired (s_trace st)) = 6.
Proof.
  split; [apply demo_tame|]. eexists. split; [vm_compute; reflexivity|]. vm_compute. auto.
Qed.
