(** Model of how loggers connect to log sources: [Logger::Connect],
    [Logger::Disconnect], [RegisterSource], [UnregisterSource], [IsEnabled]
    (/repo/log/logger.h) and [LogSourcePool] (/repo/log/detail/log-source-pool.h).

    A network is a list of objects: plain log events ([Event<ILogEvent>] of any
    capacity above 1), loggers, and log sinks of other classes.  A logger can
    itself be registered as the source of another logger, so connecting and
    disconnecting recurse through the network; the recursion is modelled with
    fuel ([FFuel] stands for a recursion that is deeper).

    An exception leaves the changes made before it, so every operation returns
    the network together with its result.

    Not modelled: reference counts (see Component.v), sinks and sources of user
    classes that call back into the logger, memory exhaustion. *)
From Coq Require Import List NArith Arith.
From Verif Require Import Base Event.
Import ListNotations.
Open Scope list_scope.

Inductive nkind := NEvent | NLogger | NLeaf.

(** [nn_slots]: the connection table of [Event<ILogEvent>] (Event.v), for a
    logger its [logEvent_] (log/logger.h:98-100).
    [nn_pool]: [LogSourcePool::items_] (log/detail/log-source-pool.h:57-58):
    a source, or null, and the cookie of the connection to it, or 0.
    [nn_up]: [LogSourcePool::sink_] is not null (60-61); it can only be the
    logger itself (log/logger.h:116). *)
Record nnode := mk_nn {
  nn_kind : nkind;
  nn_cap : N;
  nn_slots : slots nat;
  nn_pool : list (option nat * N);
  nn_up : bool }.

Definition net := list nnode.

Inductive fail := FThrow (e : exn) | FUB | FAssert | FFuel.
Inductive res (A : Type) := RDone (a : A) | RFail (f : fail).
Arguments RDone {A}. Arguments RFail {A}.

(** Sequencing; a failure keeps the network as it is at that moment. *)
Definition rbind {A B} (m : net * res A) (k : net -> A -> net * res B) : net * res B :=
  match m with
  | (w, RDone a) => k w a
  | (w, RFail f) => (w, RFail f)
  end.

Definition set_slots (x : nnode) (s : slots nat) : nnode :=
  mk_nn (nn_kind x) (nn_cap x) s (nn_pool x) (nn_up x).
Definition set_pool (x : nnode) (p : list (option nat * N)) : nnode :=
  mk_nn (nn_kind x) (nn_cap x) (nn_slots x) p (nn_up x).
Definition set_up (x : nnode) (b : bool) : nnode :=
  mk_nn (nn_kind x) (nn_cap x) (nn_slots x) (nn_pool x) b.

(** Change object [i]; touching an object that does not exist is undefined. *)
Definition with_node {A} (i : nat) (w : net) (k : nnode -> net * res A) : net * res A :=
  match nth_error w i with
  | None => (w, RFail FUB)
  | Some x => k x
  end.

(** Assign the cookie of pool entry [k] of logger [i]
    (log-source-pool.h:97, 137, 152). *)
Definition set_cookie (i k : nat) (c : N) (w : net) : net :=
  match nth_error w i with
  | None => w
  | Some x =>
      match nth_error (nn_pool x) k with
      | None => w
      | Some (s, _) => upd w i (set_pool x (upd (nn_pool x) k (s, c)))
      end
  end.

(** [Event::Connect] on the table of object [i] (event/event.h:125-141). *)
Definition table_connect (i : nat) (s : option nat) (w : net) : net * res N :=
  with_node i w (fun x =>
    match ev_connect (nn_cap x) (nn_slots x) s with
    | Done (c, sl) => (upd w i (set_slots x sl), RDone c)
    | Throw e => (w, RFail (FThrow e))
    | AssertFail => (w, RFail FAssert)
    | UB => (w, RFail FUB)
    end).

(** [Event::Disconnect] (event/event.h:143-157). *)
Definition table_disconnect (i : nat) (c : N) (w : net) : net * res unit :=
  with_node i w (fun x =>
    match ev_disconnect (nn_slots x) (w32 c) with
    | Done sl => (upd w i (set_slots x sl), RDone tt)
    | Throw e => (w, RFail (FThrow e))
    | AssertFail => (w, RFail FAssert)
    | UB => (w, RFail FUB)
    end).

(** The loop of [LogSourcePool::Connect] (log-source-pool.h:131-139) over the
    entries [ks] of logger [i]; [conn] connects to a source. *)
Fixpoint pool_connect_loop (conn : nat -> option nat -> net -> net * res N) (i : nat) (ks : list nat) (w : net)
  : net * res unit :=
  match ks with
  | [] => (w, RDone tt)
  | k :: t =>
      with_node i w (fun x =>
        match nth_error (nn_pool x) k with
        | Some (Some src, _) =>
            rbind (conn src (Some i) w) (fun w1 c =>
              pool_connect_loop conn i t (set_cookie i k c w1))
        | Some (None, _) => pool_connect_loop conn i t w
        | None => (w, RFail FUB)
        end)
  end.

(** [LogSourcePool::Connect] (log-source-pool.h:121-140). *)
Definition pool_connect (conn : nat -> option nat -> net -> net * res N) (i : nat) (w : net) : net * res unit :=
  with_node i w (fun x =>
    if nn_up x then (w, RFail (FThrow IllegalMethodCall))
    else pool_connect_loop conn i (seq 0 (length (nn_pool x))) (upd w i (set_up x true))).

(** The loop of [LogSourcePool::Disconnect] (log-source-pool.h:144-154). *)
Fixpoint pool_disconnect_loop (disc : nat -> N -> net -> net * res unit) (i : nat) (ks : list nat) (w : net)
  : net * res unit :=
  match ks with
  | [] => (w, RDone tt)
  | k :: t =>
      with_node i w (fun x =>
        match nth_error (nn_pool x) k with
        | Some (Some src, c) =>
            rbind (disc src c w) (fun w1 _ =>
              pool_disconnect_loop disc i t (set_cookie i k 0 w1))
        | Some (None, _) => pool_disconnect_loop disc i t w
        | None => (w, RFail FUB)
        end)
  end.

(** [LogSourcePool::Disconnect] (log-source-pool.h:142-156). *)
Definition pool_disconnect (disc : nat -> N -> net -> net * res unit) (i : nat) (w : net) : net * res unit :=
  with_node i w (fun x =>
    rbind (pool_disconnect_loop disc i (seq 0 (length (nn_pool x))) w) (fun w1 _ =>
      with_node i w1 (fun y => (upd w1 i (set_up y false), RDone tt)))).

(** [ILogEvent::Connect] of object [i]: [Event::Connect], or [Logger::Connect]
    (log/logger.h:112-119). *)
Fixpoint connect (fuel i : nat) (s : option nat) (w : net) : net * res N :=
  match fuel with
  | O => (w, RFail FFuel)
  | S f =>
      with_node i w (fun x =>
        match nn_kind x with
        | NEvent => table_connect i s w
        | NLogger =>
            rbind (if (sl_num (nn_slots x) =? 0)%N then pool_connect (connect f) i w else (w, RDone tt))
              (fun w1 _ => table_connect i s w1)
        | NLeaf => (w, RFail FUB)
        end)
  end.

(** [ILogEvent::Disconnect] of object [i]: [Event::Disconnect], or
    [Logger::Disconnect] (log/logger.h:121-128). *)
Fixpoint disconnect (fuel i : nat) (c : N) (w : net) : net * res unit :=
  match fuel with
  | O => (w, RFail FFuel)
  | S f =>
      with_node i w (fun x =>
        match nn_kind x with
        | NEvent => table_disconnect i c w
        | NLogger =>
            rbind (table_disconnect i c w) (fun w1 _ =>
              with_node i w1 (fun y =>
                if (sl_num (nn_slots y) =? 0)%N then pool_disconnect (disconnect f) i w1 else (w1, RDone tt)))
        | NLeaf => (w, RFail FUB)
        end)
  end.

(** The search for an unused entry (log-source-pool.h:71-84). *)
Fixpoint free_entry (p : list (option nat * N)) : nat :=
  match p with
  | (Some _, _) :: t => S (free_entry t)
  | _ => O
  end.

(** [LogSourcePool::Register] (log-source-pool.h:66-101), [Logger::RegisterSource]
    (log/logger.h:147-150). *)
Definition register (fuel i : nat) (src : option nat) (w : net) : net * res N :=
  match src with
  | None => (w, RDone 0%N)
  | Some s =>
      with_node i w (fun x =>
        let k := free_entry (nn_pool x) in
        let cookie := (N.of_nat k + 1)%N in
        match nth_error (nn_pool x) k with
        | Some (_, c) =>
            if (c =? 0)%N
            then (* it->first = source; the cookie stays 0 *)
              let w1 := upd w i (set_pool x (upd (nn_pool x) k (Some s, 0%N))) in
              if nn_up x
              then rbind (connect fuel s (Some i) w1) (fun w2 d => (set_cookie i k d w2, RDone cookie))
              else (w1, RDone cookie)
            else (w, RFail FAssert)
        | None =>
            let w1 := upd w i (set_pool x (nn_pool x ++ [(Some s, 0%N)])) in
            if nn_up x
            then rbind (connect fuel s (Some i) w1) (fun w2 d => (set_cookie i k d w2, RDone cookie))
            else (w1, RDone cookie)
        end)
  end.

(** [LogSourcePool::Unregister] (log-source-pool.h:103-119),
    [Logger::UnregisterSource] (log/logger.h:152-155). *)
Definition unregister (fuel i : nat) (c : N) (w : net) : net * res unit :=
  with_node i w (fun x =>
    if (N.of_nat (length (nn_pool x)) <? c)%N then (w, RFail FAssert)
    else if (c =? 0)%N then (w, RDone tt)
    else
      let k := N.to_nat (c - 1) in
      match nth_error (nn_pool x) k with
      | None => (w, RFail FUB)
      | Some (s, d) =>
          rbind (if (d =? 0)%N then (w, RDone tt)
                 else match s with
                      | Some src => disconnect fuel src d w
                      | None => (w, RFail FUB)
                      end)
            (fun w1 _ => with_node i w1 (fun y =>
               (upd w1 i (set_pool y (upd (nn_pool y) k (None, 0%N))), RDone tt)))
      end).

(** The limit of [Event<ILogEvent>] (event/event.h:101), which a logger uses. *)
Definition log_limit : N := 2 ^ 32 - 1.

(** What a user can do. *)
Inductive nop :=
| NewEvent (cap : N)
| NewLogger
| NewLeaf
| Connect (i : nat) (s : option nat)
| Disconnect (i : nat) (c : N)
| RegisterSource (l : nat) (s : option nat)
| UnregisterSource (l : nat) (c : N)
| IsEnabled (l : nat).

Inductive nanswer := NUnit | NObject (i : nat) | NCookie (c : N) | NFlag (b : bool) | NFailed (f : fail).

Definition answer_of {A} (f : A -> nanswer) (m : net * res A) : net * nanswer :=
  match m with
  | (w, RDone a) => (w, f a)
  | (w, RFail e) => (w, NFailed e)
  end.

Definition n_step (fuel : nat) (o : nop) (w : net) : net * nanswer :=
  match o with
  | NewEvent cap => (w ++ [mk_nn NEvent cap slots_init [] false], NObject (length w))
  | NewLogger => (w ++ [mk_nn NLogger log_limit slots_init [] false], NObject (length w))
  | NewLeaf => (w ++ [mk_nn NLeaf 0 slots_init [] false], NObject (length w))
  | Connect i s => answer_of NCookie (connect fuel i s w)
  | Disconnect i c => answer_of (fun _ => NUnit) (disconnect fuel i c w)
  | RegisterSource l s => answer_of NCookie (register fuel l s w)
  | UnregisterSource l c => answer_of (fun _ => NUnit) (unregister fuel l c w)
  (* Logger::IsEnabled: log/logger.h:157-160 *)
  | IsEnabled l =>
      match nth_error w l with
      | None => (w, NFailed FUB)
      | Some x => (w, NFlag (negb (sl_num (nn_slots x) =? 0)%N))
      end
  end.

Fixpoint n_run (fuel : nat) (l : list nop) (w : net) : net * list nanswer :=
  match l with
  | [] => (w, [])
  | o :: t => let (w1, a) := n_step fuel o w in let (w2, r) := n_run fuel t w1 in (w2, a :: r)
  end.
