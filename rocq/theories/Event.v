(** Model of event/event.h and event/portainer.h: tables of slots identified by
    cookies, and the delivery loops of events. *)
From Verif Require Import Base.
Local Open Scope N_scope.

Section Slots.
Context {A : Type}.

(** Data members of class [Event] (event/event.h 304-306) and class [Portainer]
    (event/portainer.h 260-262), which are the same: [numSinks_]/[size_],
    [last_], [sinks_]/[items_].  A null smart pointer is [None]. *)
Record slots := mk_slots { sl_num : N; sl_last : N; sl_items : list (option A) }.

(** Default constructors: event/event.h 114-117, event/portainer.h 130-134. *)
Definition slots_init : slots := mk_slots 0 0 [].

(** The search loop "if (!sinks_[i])": event/event.h 166-181,
    event/portainer.h 183-199. *)
Fixpoint find_free (l : list (option A)) (i : nat) : option nat :=
  match l with
  | [] => None
  | None :: _ => Some i
  | Some _ :: t => find_free t (S i)
  end.

(** Assignment [sinks_[k] = x]; callers have checked [k] against the size. *)
Fixpoint set_nth (k : nat) (x : option A) (l : list (option A)) {struct l} : list (option A) :=
  match l, k with
  | [], _ => []
  | _ :: t, O => x :: t
  | y :: t, S k' => y :: set_nth k' x t
  end.

(** [Event::Insert], event/event.h 160-198; [Portainer::InternalAdd],
    event/portainer.h 176-216.  Simplification: the allocation in
    [emplace_back] succeeds (the [bad_alloc] branch returns cookie 0). *)
Definition slots_insert (s : slots) (a : A) : N * slots :=
  if sl_num s <? N.of_nat (length (sl_items s)) then
    match find_free (sl_items s) 0 with
    | Some i =>
        let cookie := w32 (N.of_nat i + 1) in
        (cookie,
         mk_slots (w32 (sl_num s + 1))
                  (if sl_last s <? cookie then cookie else sl_last s)
                  (set_nth i (Some a) (sl_items s)))
    | None => (0, s)
    end
  else
    let cookie := w32 (sl_num s + 1) in
    (cookie, mk_slots cookie cookie (sl_items s ++ [Some a])).

(** The loop "while (last_ && !sinks_[last_-1]) --last_": event/event.h 150-153,
    event/portainer.h 166-169. *)
Fixpoint shrink (l : list (option A)) (last : nat) : outcome nat :=
  match last with
  | O => Done O
  | S k => match nth_error l k with
           | None => UB
           | Some None => shrink l k
           | Some (Some _) => Done last
           end
  end.

(** [Event::Disconnect], event/event.h 143-157; [Portainer::Remove],
    event/portainer.h 159-173.  [cookie_t] is a 32-bit word, so [--cookie]
    wraps for cookie 0. *)
Definition slots_remove (s : slots) (cookie : N) : outcome slots :=
  let k := wsub 32 cookie 1 in
  if k <? N.of_nat (length (sl_items s)) then
    match nth_error (sl_items s) (N.to_nat k) with
    | Some (Some _) =>
        let items := set_nth (N.to_nat k) None (sl_items s) in
        let! last := shrink items (N.to_nat (sl_last s)) in
        Done (mk_slots (wsub 32 (sl_num s) 1) (N.of_nat last) items)
    | Some None => Done s
    | None => UB
    end
  else Done s.

(** [Portainer::Get], event/portainer.h 227-232 ([None] is [T()]), and the
    lookup inside [Event::GetSink], event/event.h 214-226. *)
Definition slots_get (s : slots) (cookie : N) : option A :=
  if (cookie =? 0) || (N.of_nat (length (sl_items s)) <? cookie) then None
  else match nth_error (sl_items s) (N.to_nat (wsub 32 cookie 1)) with
       | Some x => x
       | None => None
       end.

(** The loop of [Event::Visit], event/event.h 234-246, and of
    [Portainer::Visit], event/portainer.h 245-256: the visited items, from index
    [i], [n] indices to go.  The model also records the cookie (1-based index)
    of each visited item, which the visitor of the code does not get. *)
Fixpoint visit_loop (l : list (option A)) (i : nat) (n : nat) : outcome (list (N * A)) :=
  match n with
  | O => Done []
  | S n' =>
      match nth_error l i with
      | None => UB
      | Some None => visit_loop l (S i) n'
      | Some (Some a) =>
          let! r := visit_loop l (S i) n' in Done ((N.of_nat i + 1, a) :: r)
      end
  end.

Definition slots_visit (s : slots) : outcome (list (N * A)) :=
  visit_loop (sl_items s) 0 (N.to_nat (sl_last s)).

(** ** Event, capacity > 1 *)

(** [Event::Connect], event/event.h 125-141; the sink is [None] for null. *)
Definition ev_connect (cap : N) (s : slots) (sink : option A) : outcome (N * slots) :=
  match sink with
  | None => Throw InvalidPointer
  | Some a =>
      if sl_num s =? cap then Throw ConnectionLimit
      else let (cookie, s') := slots_insert s a in
           if cookie =? 0 then Throw ConnectionLimit else Done (cookie, s')
  end.

(** [Event::Disconnect], event/event.h 143-157. *)
Definition ev_disconnect (s : slots) (cookie : N) : outcome slots := slots_remove s cookie.

(** [Event::GetNumSinks], event/event.h 209-212. *)
Definition ev_num_sinks (s : slots) : N := sl_num s.

(** [Event::GetSink], event/event.h 214-226. *)
Definition ev_get_sink (s : slots) (cookie : N) : outcome A :=
  match slots_get s cookie with
  | None => Throw NoConnection
  | Some a => Done a
  end.

(** ** Event<..., 1>, event/event.h 312-418: a single pointer [sink_]. *)

(** event/event.h 326-338. *)
Definition ev1_connect (s : option A) (sink : option A) : outcome (N * option A) :=
  match sink with
  | None => Throw InvalidPointer
  | Some a => match s with
              | Some _ => Throw ConnectionLimit
              | None => Done (1, Some a)
              end
  end.

(** event/event.h 340-346. *)
Definition ev1_disconnect (s : option A) (cookie : N) : option A :=
  if cookie =? 1 then None else s.

(** event/event.h 356-359. *)
Definition ev1_num_sinks (s : option A) : N := match s with Some _ => 1 | None => 0 end.

(** event/event.h 361-368. *)
Definition ev1_get_sink (s : option A) (cookie : N) : outcome A :=
  if negb (cookie =? 1) then Throw NoConnection
  else match s with Some a => Done a | None => Throw NoConnection end.

(** event/event.h 370-378 (with the cookie recorded, see [visit_loop]). *)
Definition ev1_visit (s : option A) : list (N * A) :=
  match s with Some a => [(1, a)] | None => [] end.

(** ** Portainer *)

(** [Portainer::Add], event/portainer.h 137-157. *)
Definition po_add (cap : N) (s : slots) (item : option A) : outcome (N * slots) :=
  match item with
  | None => AssertFail
  | Some a => if sl_num s <? cap then Done (slots_insert s a) else Done (0, s)
  end.

(** [Portainer::Remove], event/portainer.h 159-173. *)
Definition po_remove (s : slots) (cookie : N) : outcome slots := slots_remove s cookie.

(** [Portainer::GetSize], event/portainer.h 222-225. *)
Definition po_size (s : slots) : N := sl_num s.

(** Portainer<T, 1>, event/portainer.h 268-349: Add 276-298, Remove 300-306,
    GetSize 312-315, Get 317-322. *)
Definition po1_add (s : option A) (item : option A) : outcome (N * option A) :=
  match item with
  | None => AssertFail
  | Some a => match s with None => Done (1, Some a) | Some _ => Done (0, s) end
  end.

Definition po1_remove (s : option A) (cookie : N) : option A :=
  if cookie =? 1 then None else s.

Definition po1_size (s : option A) : N := match s with Some _ => 1 | None => 0 end.

Definition po1_get (s : option A) (cookie : N) : option A := if cookie =? 1 then s else None.

(** ** Delivery

    Sinks are user code.  What a sink does when it is called is a list of
    operations on the event that is firing, chosen from everything that happened
    so far (the log), the cookie it is connected under and the sink itself.
    A sink may let an exception escape ([OThrow]), which ends the delivery.
    A [Connect] that throws inside a sink is caught by the sink and has no
    effect; one that is not caught is this followed by [OThrow]. *)
Inductive ev_op :=
| OConnect (sink : option A)
| ODisconnect (cookie : N)
| OFire
| OThrow.

(** What happened to the event, oldest first: accepted connections, calls of
    Disconnect, calls of sinks. *)
Inductive ev_log :=
| LConn (cookie : N) (sink : A)
| LDisc (cookie : N)
| LCall (cookie : N) (sink : A).

Record ev_state := mk_ev { ev_slots : slots; ev_hist : list ev_log }.

Definition ev_init : ev_state := mk_ev slots_init [].

(** How a delivery ends: normally, by an exception of a sink, by undefined
    behaviour, or because the model ran out of fuel. *)
Inductive status := Ok | Thrown | Undef | OutOfFuel.

Definition behaviour := list ev_log -> N -> A -> list ev_op.

(** Operations of user code on the event; [fire] is the delivery function used
    for nested firing. *)
Fixpoint run_ops (cap : N) (fire : ev_state -> ev_state * status)
         (ops : list ev_op) (st : ev_state) : ev_state * status :=
  match ops with
  | [] => (st, Ok)
  | OConnect x :: t =>
      match ev_connect cap (ev_slots st) x, x with
      | Done (c, s'), Some a => run_ops cap fire t (mk_ev s' (ev_hist st ++ [LConn c a]))
      | Done _, None => (st, Undef)
      | Throw _, _ => run_ops cap fire t st
      | _, _ => (st, Undef)
      end
  | ODisconnect c :: t =>
      match ev_disconnect (ev_slots st) (w32 c) with
      | Done s' => run_ops cap fire t (mk_ev s' (ev_hist st ++ [LDisc (w32 c)]))
      | _ => (st, Undef)
      end
  | OFire :: t =>
      match fire st with
      | (st', Ok) => run_ops cap fire t st'
      | r => r
      end
  | OThrow :: _ => (st, Thrown)
  end.

(** One call of a sink ([sinks_[i]->Fire(...)]). *)
Definition call_sink (cap : N) (fire : ev_state -> ev_state * status) (h : behaviour)
           (st : ev_state) (cookie : N) (a : A) : ev_state * status :=
  let st1 := mk_ev (ev_slots st) (ev_hist st ++ [LCall cookie a]) in
  run_ops cap fire (h (ev_hist st1) cookie a) st1.

(** [Event::Fire(void)], event/event.h 248-262, from index [i].  [last_] and the
    slot are read again in every round. *)
Fixpoint fire_void (cap : N) (fuel : nat) (h : behaviour) (i : N) (st : ev_state) {struct fuel}
  : ev_state * status :=
  match fuel with
  | O => (st, OutOfFuel)
  | S f =>
      if i <? sl_last (ev_slots st) then
        match nth_error (sl_items (ev_slots st)) (N.to_nat i) with
        | None => (st, Undef)
        | Some None => fire_void cap f h (i + 1) st
        | Some (Some a) =>
            match call_sink cap (fire_void cap f h 0) h st (i + 1) a with
            | (st', Ok) => fire_void cap f h (i + 1) st'
            | r => r
            end
        end
      else (st, Ok)
  end.

(** [Event::Fire(Args&&...)], event/event.h 273-289.  [last_ - 1] is computed on
    32-bit words.  The call after the loop is unconditional: calling through a
    null pointer or reading a slot outside the vector is [Undef]. *)
Fixpoint fire_args_loop (cap : N) (fuel : nat) (h : behaviour) (i : N) (st : ev_state) {struct fuel}
  : ev_state * status :=
  match fuel with
  | O => (st, OutOfFuel)
  | S f =>
      let nested st0 := if sl_last (ev_slots st0) =? 0 then (st0, Ok)
                        else fire_args_loop cap f h 0 st0 in
      if i <? wsub 32 (sl_last (ev_slots st)) 1 then
        match nth_error (sl_items (ev_slots st)) (N.to_nat i) with
        | None => (st, Undef)
        | Some None => fire_args_loop cap f h (i + 1) st
        | Some (Some a) =>
            match call_sink cap nested h st (i + 1) a with
            | (st', Ok) => fire_args_loop cap f h (i + 1) st'
            | r => r
            end
        end
      else
        match nth_error (sl_items (ev_slots st)) (N.to_nat i) with
        | Some (Some a) => call_sink cap nested h st (i + 1) a
        | _ => (st, Undef)
        end
  end.

Definition fire_args (cap : N) (fuel : nat) (h : behaviour) (st : ev_state) : ev_state * status :=
  if sl_last (ev_slots st) =? 0 then (st, Ok) else fire_args_loop cap fuel h 0 st.

(** Histories of calls on a Portainer, with the log of what happened: an [Add]
    that returns 0 stores nothing. *)
Inductive po_op := PAdd (item : A) | PRemove (cookie : N).

Definition po_step (cap : N) (st : outcome ev_state) (o : po_op) : outcome ev_state :=
  let! st := st in
  match o with
  | PAdd a =>
      let! r := po_add cap (ev_slots st) (Some a) in
      if fst r =? 0 then Done (mk_ev (snd r) (ev_hist st))
      else Done (mk_ev (snd r) (ev_hist st ++ [LConn (fst r) a]))
  | PRemove c =>
      let! s := po_remove (ev_slots st) (w32 c) in
      Done (mk_ev s (ev_hist st ++ [LDisc (w32 c)]))
  end.

Definition po_run (cap : N) (ops : list po_op) : outcome ev_state :=
  fold_left (po_step cap) ops (Done ev_init).

(** Histories of calls on an event from outside, and the results of the calls;
    [Disconnect] returns nothing, shown as 0. *)
Inductive ev_call := EConnect (sink : option A) | EDisconnect (cookie : N).

Fixpoint ev_calls (cap : N) (ops : list ev_call) (s : slots) : outcome (list (outcome N) * slots) :=
  match ops with
  | [] => Done ([], s)
  | EConnect x :: t =>
      match ev_connect cap s x with
      | Done (c, s') => let! r := ev_calls cap t s' in Done (Done c :: fst r, snd r)
      | Throw e => let! r := ev_calls cap t s in Done (Throw e :: fst r, snd r)
      | AssertFail => AssertFail
      | UB => UB
      end
  | EDisconnect c :: t =>
      let! s' := ev_disconnect s (w32 c) in
      let! r := ev_calls cap t s' in Done (Done 0 :: fst r, snd r)
  end.

(** The same for Event<..., 1>. *)
Fixpoint ev1_calls (ops : list ev_call) (s : option A) : list (outcome N) * option A :=
  match ops with
  | [] => ([], s)
  | EConnect x :: t =>
      match ev1_connect s x with
      | Done (c, s') => let r := ev1_calls t s' in (Done c :: fst r, snd r)
      | Throw e => let r := ev1_calls t s in (Throw e :: fst r, snd r)
      | AssertFail => ([AssertFail], s)
      | UB => ([UB], s)
      end
  | EDisconnect c :: t =>
      let r := ev1_calls t (ev1_disconnect s (w32 c)) in (Done 0 :: fst r, snd r)
  end.

(** The same for Portainer and Portainer<T, 1>. *)
Fixpoint po_calls (cap : N) (ops : list po_op) (s : slots) : outcome (list N * slots) :=
  match ops with
  | [] => Done ([], s)
  | PAdd a :: t =>
      let! q := po_add cap s (Some a) in
      let! r := po_calls cap t (snd q) in Done (fst q :: fst r, snd r)
  | PRemove c :: t =>
      let! s' := po_remove s (w32 c) in
      let! r := po_calls cap t s' in Done (0 :: fst r, snd r)
  end.

Fixpoint po1_calls (ops : list po_op) (s : option A) : outcome (list N * option A) :=
  match ops with
  | [] => Done ([], s)
  | PAdd a :: t =>
      let! q := po1_add s (Some a) in
      let! r := po1_calls t (snd q) in Done (fst q :: fst r, snd r)
  | PRemove c :: t =>
      let! r := po1_calls t (po1_remove s (w32 c)) in Done (0 :: fst r, snd r)
  end.

(** [Event<..., 1>::Fire], event/event.h 380-393, observed from outside: the
    sinks called.  (User code then acts on [sink_] through [ev1_*].) *)
Definition ev1_fire (s : option A) : list (N * A) := ev1_visit s.

End Slots.
Arguments slots A : clear implicits.
Arguments ev_op A : clear implicits.
Arguments ev_log A : clear implicits.
Arguments ev_state A : clear implicits.
Arguments behaviour A : clear implicits.
Arguments po_op A : clear implicits.
Arguments ev_call A : clear implicits.
