(** Specification for Log.v. *)
From Coq Require Import List NArith Arith String Bool Permutation.
From Verif Require Import Base Event LogNet LogNetSpec LogRecord Log.
Import ListNotations.
Open Scope list_scope.

(** [b] has all the named values of [a]. *)
Definition extends (a b : list (string * lvalue)) : Prop :=
  forall n v, lookup n a = Some v -> lookup n b = Some v.

Definition items_of (e : fevent) : list (string * lvalue) :=
  match e with Got _ _ l => l | Wrote _ _ l => l end.
Definition record_of (e : fevent) : option nat :=
  match e with Got _ r _ => Some r | Wrote _ _ _ => None end.

(** Some logger or sink has a pending value with that name. *)
Definition pending_somewhere (w : fworld) (n : string) : Prop :=
  exists i p, nth_error (f_parts w) i = Some p /\ In n (map fst (pa_pend p)).

(** How often the sink [s] was given the record. *)
Definition got (s : nat) (l : list fevent) : nat :=
  length (filter (fun e => match e with Got i _ _ => Nat.eqb i s | _ => false end) l).

(** The number of ways from object [i] to the sink [s] along connections. *)
Fixpoint paths (fuel : nat) (w : fworld) (i s : nat) : nat :=
  match fuel with
  | O => 0
  | S f =>
      match nth_error (f_net w) i with
      | None => 0
      | Some x =>
          match nn_kind x with
          | NLeaf => match nth_error (f_parts w) i with
                     | Some p => if pa_stream p then 0 else if Nat.eqb i s then 1 else 0
                     | None => 0
                     end
          | _ => list_sum (map (fun j => paths f w j s) (sinks (f_net w) i))
          end
      end
  end.

(** Connection tables in order, sinks that exist, and no cycle: [depth] falls
    along connections. *)
Record sound (depth : nat -> nat) (w : fworld) : Prop := {
  so_visit : forall i x, nth_error (f_net w) i = Some x -> exists v, slots_visit (nn_slots x) = Done v;
  so_sinks : forall i j, In j (sinks (f_net w) i) -> depth j < depth i /\ j < length (f_net w);
  so_parts : length (f_parts w) = length (f_net w) }.

(** Pools as [AddValue] and [UpdateValue] make them: distinct names, second
    order values. *)
Definition pool_ok (p : list (string * lvalue)) : Prop :=
  NoDup (map fst p) /\ Forall (fun e => type_of (snd e) = TLog) p.

(** The operations on a pool, and the map they stand for. *)
Inductive pop := PAdd (n : string) (v : lvalue) | PUpdate (n : string) (v : lvalue) | PRemove (n : string).
Definition p_step (o : pop) (p : list (string * lvalue)) : list (string * lvalue) :=
  match o with
  | PAdd n v => fst (pool_add n v p)
  | PUpdate n v => pool_update n v p
  | PRemove n => pool_remove n p
  end.
Definition pm_step (o : pop) (f : string -> option lvalue) : string -> option lvalue :=
  match o with
  | PAdd n v => fun m => if String.eqb m n then match f n with Some u => Some u | None => Some v end else f m
  | PUpdate n v => fun m => if String.eqb m n then Some v else f m
  | PRemove n => fun m => if String.eqb m n then None else f m
  end.

(** The pool and the map after a sequence of operations. *)
Definition p_run (ops : list pop) : list (string * lvalue) := fold_left (fun p o => p_step o p) ops [].
Definition pm_run (ops : list pop) : string -> option lvalue := fold_left (fun f o => pm_step o f) ops (fun _ => None).

(** The functors of the second-order values in a pool. *)
Definition functors (p : list (string * lvalue)) : list nat :=
  flat_map (fun e => match snd e with LCall2 f => [f] | _ => [] end) p.

(** [items] is what becomes of record [old] when the pending values [pm] are
    added to it; [before] and [after] are the functor calls before and after. *)
Definition filled (gen2 : nat -> nat -> lvalue) (pm : string -> option lvalue) (before after : list nat)
                  (old items : list (string * lvalue)) : Prop :=
  forall n,
    match lookup n old, pm n with
    | Some v, _ => lookup n items = Some v
    | None, None => lookup n items = None
    | None, Some (LCall2 f) =>
        exists k, count_occ Nat.eq_dec before f <= k < count_occ Nat.eq_dec after f /\ lookup n items = Some (gen2 f k)
    | None, Some (LConst2 u) => lookup n items = Some u
    | None, Some u => lookup n items = Some u
    end.

(** No filters, formatters everywhere, streams that exist. *)
Definition unfiltered (w : fworld) : Prop :=
  forall i p, nth_error (f_parts w) i = Some p ->
    pa_filter p = None /\ pool_ok (pa_pend p) /\
    (pa_stream p = true -> pa_fmt p = true /\ Forall (fun o => valid_out p o = true) (pa_outs p)).

(** As seen by users who wrote down what they connected and registered:
    a record fired at [i] should reach the sink [s]. *)
Inductive reaches (n : notes) : nat -> nat -> Prop :=
| reaches_user i c s : In (i, c, s) (nt_conns n) -> reaches n i s
| reaches_logger i c m s : In (m, c, i) (nt_regs n) -> reaches n m s -> reaches n i s.

(** The object is a sink of a user. *)
Definition user_sink (w : fworld) (s : nat) : Prop :=
  exists x p, nth_error (f_net w) s = Some x /\ nn_kind x = NLeaf /\ nth_error (f_parts w) s = Some p /\ pa_stream p = false.

(** Streams and files added to a stream sink. *)
Inductive sop := SStream (e : nat) | SFile.
Definition s_run (grow : nat -> nat) (ops : list sop) (p : part) : part :=
  fold_left (fun q o => match o with SStream e => add_stream e q | SFile => add_file grow q end) ops p.
Definition files_in (ops : list sop) : nat := length (filter (fun o => match o with SFile => true | _ => false end) ops).
