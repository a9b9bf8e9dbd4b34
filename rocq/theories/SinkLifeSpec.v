(** Specification of the lifetimes of event sinks: who refers to a sink,
    according to what was observed. *)
From Verif Require Import Base Event SinkLife.
Local Open Scope N_scope.

(** The number of smart pointers of user code to [s]. *)
Fixpoint holds (l : list entry) (s : nat) : nat :=
  match l with
  | [] => 0
  | HHold x :: t => if Nat.eqb x s then S (holds t s) else holds t s
  | _ :: t => holds t s
  end.

Fixpoint drops (l : list entry) (s : nat) : nat :=
  match l with
  | [] => 0
  | HDrop x :: t => if Nat.eqb x s then S (drops t s) else drops t s
  | _ :: t => drops t s
  end.

(** The connections of event or handle [e], as pairs (cookie, sink). *)
Definition conn_step (e : nat) (l : list (N * nat)) (x : entry) : list (N * nat) :=
  match x with
  | HConn e' c s => if Nat.eqb e' e then l ++ [(c, s)] else l
  | HDisc e' c => if Nat.eqb e' e then filter (fun p => negb (fst p =? c)) l else l
  | HEnd e' => if Nat.eqb e' e then [] else l
  | _ => l
  end.

Definition conns (l : list entry) (e : nat) : list (N * nat) := fold_left (conn_step e) l [].

(** Somebody refers to [s]. *)
Definition referenced (l : list entry) (s : nat) : Prop :=
  (drops l s < holds l s)%nat \/ exists e c, In (c, s) (conns l e).

(** Calls go to connected sinks that exist; a sink that uses itself exists; a
    sink is created once, and destroyed after that, once. *)
Definition entry_ok (before : list entry) (x : entry) : Prop :=
  match x with
  | HCall e c s => In (c, s) (conns before e) /\ ~ In (HDead s) before
  | HUse s => In (HNew s) before /\ ~ In (HDead s) before
  | HNew s => ~ In (HNew s) before
  | HDead s => In (HNew s) before /\ ~ In (HDead s) before
  | _ => True
  end.

Definition log_ok (l : list entry) : Prop :=
  forall before x after, l = before ++ x :: after -> entry_ok before x.

(** Sinks that keep themselves alive: no sink gives up a smart pointer, and one
    that uses itself at all begins by making a smart pointer to itself. *)
Definition keeps_itself (h : behaviour) : Prop :=
  forall l e c s,
    (forall x, ~ In (SDrop x) (h l e c s)) /\
    (In SUse (h l e c s) \/ In SSelf (h l e c s) -> exists t, h l e c s = SSelf :: t).

(** User code that keeps a smart pointer to each sink it makes, and the events
    and handles. *)
Definition keeps (o : op) : Prop :=
  match o with
  | SDrop _ | SDestroy _ | SConnectNew _ | SHandleNew => False
  | _ => True
  end.

(** Only the overload of [Fire] without arguments is used. *)
Definition plain_fire (o : op) : Prop := match o with SFire args _ => args = false | _ => True end.

(** Events and handles are not destroyed. *)
Definition not_destroy (o : op) : Prop := match o with SDestroy _ => False | _ => True end.

(** Every operation of a program, inside and outside of sinks. *)
Definition everywhere (P : op -> Prop) (h : behaviour) (ops : list op) : Prop :=
  (forall o, In o ops -> P o) /\ forall l e c s o, In o (h l e c s) -> P o.
