(** Specification of events: the connections after a log of what happened. *)
From Verif Require Import Base Event.
From Coq Require Import Sorting.Sorted.
Local Open Scope N_scope.

Section Spec.
Context {A : Type}.

(** The live connections, as pairs (cookie, sink). *)
Definition conn_step (l : list (N * A)) (e : ev_log A) : list (N * A) :=
  match e with
  | LConn c a => l ++ [(c, a)]
  | LDisc c => filter (fun p => negb (fst p =? c)) l
  | LCall _ _ => l
  end.

Definition conns (log : list (ev_log A)) : list (N * A) := fold_left conn_step log [].

(** What is allowed to happen after [log]: a new connection gets a nonzero
    cookie that no live connection has, within the capacity; only live
    connections are called. *)
Definition entry_ok (cap : N) (log : list (ev_log A)) (e : ev_log A) : Prop :=
  match e with
  | LConn c a => 0 < c < 2 ^ 32 /\ ~ In c (map fst (conns log))
                 /\ N.of_nat (length (conns log)) < cap
  | LDisc c => True
  | LCall c a => In (c, a) (conns log)
  end.

(** Every entry of the log is allowed by the part before it. *)
Definition log_ok (cap : N) (log : list (ev_log A)) : Prop :=
  forall before e after, log = before ++ e :: after -> entry_ok cap before e.

Definition cookie_sorted (l : list (N * A)) : Prop :=
  StronglySorted (fun p q => fst p < fst q) l.

(** The cookies of the sinks called according to a log. *)
Definition calls (log : list (ev_log A)) : list N :=
  flat_map (fun e => match e with LCall c _ => [c] | _ => [] end) log.

(** A behaviour that never fires the event again from inside a sink. *)
Definition not_nested (h : behaviour A) : Prop :=
  forall log c a, ~ In OFire (h log c a).

(** A sink disconnects only itself or sinks with smaller cookies. *)
Definition disconnects_back (h : behaviour A) : Prop :=
  forall log c a d, In (ODisconnect d) (h log c a) -> w32 d <= c.

(** Sinks that never connect new sinks. *)
Definition no_connect (h : behaviour A) : Prop :=
  forall log c a x, ~ In (OConnect x) (h log c a).

(** Sinks that leave the event alone. *)
Definition passive (h : behaviour A) : Prop := forall log c a, h log c a = [].

(** The states an event (with sinks behaving as [h]) can be in: user code runs
    any operations from outside, firing included; when a firing is cut off by
    the fuel the state is one inside a firing. *)
Definition reachable (cap : N) (st : ev_state A) : Prop :=
  exists fuel (h : behaviour A) ops, st = fst (run_ops cap (fire_void cap fuel h 0) ops ev_init).

Definition ascending (l : list N) : Prop := StronglySorted N.lt l.

End Spec.
