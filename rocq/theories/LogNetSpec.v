(** Specification for LogNet.v: what the user did, and which loggers are
    reached by it. *)
From Coq Require Import List NArith Arith Permutation.
From Verif Require Import Base Event LogNet.
Import ListNotations.
Open Scope list_scope.

(** What a user wrote down: the connections they made and did not disconnect
    (object, cookie, sink), and the sources they registered and did not
    unregister (logger, cookie, source). *)
Record notes := mk_notes {
  nt_conns : list (nat * N * nat);
  nt_regs : list (nat * N * nat) }.

Definition forget (i : nat) (c : N) (l : list (nat * N * nat)) : list (nat * N * nat) :=
  filter (fun e => negb (Nat.eqb (fst (fst e)) i && N.eqb (snd (fst e)) c)) l.

Definition note (o : nop) (a : nanswer) (n : notes) : notes :=
  match o, a with
  | Connect i (Some s), NCookie c => mk_notes ((i, c, s) :: nt_conns n) (nt_regs n)
  | Disconnect i c, NUnit => mk_notes (forget i c (nt_conns n)) (nt_regs n)
  | RegisterSource l (Some s), NCookie c => mk_notes (nt_conns n) ((l, c, s) :: nt_regs n)
  | UnregisterSource l c, NUnit => mk_notes (nt_conns n) (forget l c (nt_regs n))
  | _, _ => n
  end.

Fixpoint notes_of (h : list (nop * nanswer)) (n : notes) : notes :=
  match h with
  | [] => n
  | (o, a) :: t => notes_of t (note o a n)
  end.

Definition notes_after (h : list (nop * nanswer)) : notes := notes_of h (mk_notes [] []).

(** A record fired at a logger is wanted by someone: a user connected a sink to
    it, or it is a source of a logger that is wanted. *)
Inductive wanted (n : notes) : nat -> Prop :=
| wanted_user l c s : In (l, c, s) (nt_conns n) -> wanted n l
| wanted_logger l c m : In (m, c, l) (nt_regs n) -> wanted n m -> wanted n l.

(** The sinks connected to an object, read from its table. *)
Definition sinks (w : net) (i : nat) : list nat :=
  match nth_error w i with
  | None => []
  | Some x => match slots_visit (nn_slots x) with Done v => map snd v | _ => [] end
  end.

(** Calls as the interfaces ask for them.  [rank] orders the objects such that a
    logger only registers sources below it, so there is no cycle. *)
Definition proper (rank : nat -> nat) (n : notes) (w : net) (o : nop) : Prop :=
  match o with
  | NewEvent cap => (1 < cap < 2 ^ 32)%N
  | Connect i s => s <> None /\ exists x, nth_error w i = Some x /\ nn_kind x <> NLeaf
  | Disconnect i c => exists s, In (i, c, s) (nt_conns n)
  | RegisterSource l s =>
      (exists x, nth_error w l = Some x /\ nn_kind x = NLogger) /\
      (forall i, s = Some i -> rank i < rank l /\ exists x, nth_error w i = Some x /\ nn_kind x <> NLeaf)
  | UnregisterSource l c =>
      (exists x, nth_error w l = Some x /\ nn_kind x = NLogger) /\ (c = 0%N \/ exists s, In (l, c, s) (nt_regs n))
  | IsEnabled l => exists x, nth_error w l = Some x
  | _ => True
  end.

Definition failed (a : nanswer) : Prop := exists f, a = NFailed f.

(** A history of proper calls, none of which threw. *)
Inductive history (rank : nat -> nat) (fuel : nat) : list (nop * nanswer) -> net -> Prop :=
| hi_nil : history rank fuel [] []
| hi_snoc h w o a w' : history rank fuel h w ->
    proper rank (notes_after h) w o ->
    n_step fuel o w = (w', a) -> ~ failed a ->
    history rank fuel (h ++ [(o, a)]) w'.

(** How often the user connected sink [s] to object [i], and how often [i] is
    registered as a source of logger [l], according to the notes. *)
Definition user_count (n : notes) (i s : nat) : nat :=
  length (filter (fun e => Nat.eqb (fst (fst e)) i && Nat.eqb (snd e) s) (nt_conns n)).
Definition reg_count (n : notes) (l i : nat) : nat :=
  length (filter (fun e => Nat.eqb (fst (fst e)) l && Nat.eqb (snd e) i) (nt_regs n)).
