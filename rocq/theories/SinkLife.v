(** Model of the lifetimes of event sinks: the reference counted objects made by
    [CreateEventSink] (event/event-sink.h), held by the smart pointers of users
    (component/ptr.h), of events (event/event.h) and of event handles
    (simulation/event-handle.h), while sinks run and act on all of these. *)
From Verif Require Import Base Event.
Local Open Scope N_scope.

(** What holds sinks: an event with room for several (event/event.h 304-306), an
    event of capacity one (event/event.h 414), an event handle
    (simulation/event-handle.h 155-159). *)
Inductive table :=
| Many (cap : N) (s : slots nat)
| One (s : option nat)
| Once (s : option nat).

(** What can be observed, oldest first: a sink object is created, user code gets
    or gives up a smart pointer to it, events and handles are created, get a
    sink, give one up, are destroyed, a sink is called, uses what it captured,
    is destroyed. *)
Inductive entry :=
| HNew (s : nat)
| HHold (s : nat)
| HDrop (s : nat)
| HTable (e : nat)
| HConn (e : nat) (c : N) (s : nat)
| HDisc (e : nat) (c : N)
| HEnd (e : nat)
| HCall (e : nat) (c : N) (s : nat)
| HUse (s : nat)
| HDead (s : nat).

(** The reference counts of the sink objects in the order of their creation,
    [None] once destroyed (component/object.h 427-486, [Object]); the smart
    pointers of the users; the events and handles, [None] once destroyed. *)
Record world := mk_world {
  w_count : list (option nat);
  w_held : list nat;
  w_tabs : list (option table);
  w_log : list entry }.

Definition w_init : world := mk_world [] [] [] [].

(** Reasons for undefined behaviour: a destroyed sink uses itself, a destroyed
    event or handle is used, [Fire] with arguments calls through a null pointer
    or reads outside the array, a reference count is used after the end. *)
Inductive cause := UUse (s : nat) | UTable (e : nat) | UNull (e : nat) | UCount (s : nat).

Inductive status := Ok | Thrown | Undef (u : cause) | OutOfFuel.

Definition log (w : world) (l : list entry) : world :=
  mk_world (w_count w) (w_held w) (w_tabs w) (w_log w ++ l).

Definition set_tab (w : world) (e : nat) (t : option table) : world :=
  mk_world (w_count w) (w_held w) (upd (w_tabs w) e t) (w_log w).

Definition set_held (w : world) (l : list nat) : world :=
  mk_world (w_count w) l (w_tabs w) (w_log w).

Definition get_tab (w : world) (e : nat) : option table :=
  match nth_error (w_tabs w) e with Some (Some t) => Some t | _ => None end.

Definition alive (w : world) (s : nat) : bool :=
  match nth_error (w_count w) s with Some (Some _) => true | _ => false end.

(** [AddRef] (component/object.h 458-462). *)
Definition addref (s : nat) (w : world) : world + cause :=
  match nth_error (w_count w) s with
  | Some (Some n) => inl (mk_world (upd (w_count w) s (Some (S n))) (w_held w) (w_tabs w) (w_log w))
  | _ => inr (UCount s)
  end.

(** [Release] (component/object.h 464-472): the last one destroys the object.
    Simplification: destructors do not call back. *)
Definition release (s : nat) (w : world) : world + cause :=
  match nth_error (w_count w) s with
  | Some (Some (S (S n))) =>
      inl (mk_world (upd (w_count w) s (Some (S n))) (w_held w) (w_tabs w) (w_log w))
  | Some (Some 1%nat) =>
      inl (mk_world (upd (w_count w) s None) (w_held w) (w_tabs w) (w_log w ++ [HDead s]))
  | _ => inr (UCount s)
  end.

Fixpoint release_all (l : list nat) (w : world) : world + cause :=
  match l with
  | [] => inl w
  | s :: t => match release s w with inl w' => release_all t w' | inr u => inr u end
  end.

(** A new sink object with one reference ([CreateEventSink],
    event/event-sink.h 287-326; the smart pointer adds it, component/ptr.h 408-411). *)
Definition new_sink (w : world) : nat * world :=
  let s := length (w_count w) in
  (s, mk_world (w_count w ++ [Some 1%nat]) (w_held w) (w_tabs w) (w_log w ++ [HNew s])).

Definition new_tab (t : table) (w : world) : nat * world :=
  let e := length (w_tabs w) in
  (e, mk_world (w_count w) (w_held w) (w_tabs w ++ [Some t]) (w_log w ++ [HTable e])).

(** The sinks an event or handle holds, in the order in which its destructor
    gives them up. *)
Definition tab_sinks (t : table) : list nat :=
  match t with
  | Many _ s => flat_map (fun x => match x with Some a => [a] | None => [] end) (sl_items s)
  | One x | Once x => match x with Some a => [a] | None => [] end
  end.

(** [Connect]: event/event.h 125-141 and 326-338. A handle gets its sink when it
    is made. *)
Definition tab_connect (t : table) (s : nat) : option (N * table) :=
  match t with
  | Many cap sl => match ev_connect cap sl (Some s) with Done (c, sl') => Some (c, Many cap sl') | _ => None end
  | One x => match ev1_connect x (Some s) with Done (c, x') => Some (c, One x') | _ => None end
  | Once _ => None
  end.

(** [GetSink]: event/event.h 214-226 and 361-368. *)
Definition tab_get (t : table) (c : N) : option nat :=
  match t with
  | Many _ sl => match ev_get_sink sl c with Done a => Some a | _ => None end
  | One x => match ev1_get_sink x c with Done a => Some a | _ => None end
  | Once _ => None
  end.

(** [Disconnect] (event/event.h 143-157, 340-346) and [EventHandle::Cancel]
    (simulation/event-handle.h 80-83): the smart pointer in the slot is set to
    null, which gives the reference up.  The cookie of a handle's sink is
    taken to be 1. *)
Definition tab_disconnect (e : nat) (c : N) (w : world) : world * status :=
  match get_tab w e with
  | None => (w, Undef (UTable e))
  | Some t =>
      let finish (gone : option nat) t' c' :=
        let w1 := log (set_tab w e (Some t')) [HDisc e c'] in
        match gone with
        | None => (w1, Ok)
        | Some s => match release s w1 with inl w2 => (w2, Ok) | inr u => (w1, Undef u) end
        end in
      match t with
      | Many cap sl =>
          match ev_disconnect sl (w32 c) with
          | Done sl' => finish (slots_get sl (w32 c)) (Many cap sl') (w32 c)
          | _ => (w, Undef (UNull e))
          end
      | One x => finish (if w32 c =? 1 then x else None) (One (ev1_disconnect x (w32 c))) (w32 c)
      | Once x => finish x (Once None) 1
      end
  end.

(** What user code does, inside or outside of sinks.  Operations that name a
    sink need a smart pointer of the user to it and do nothing without one. *)
Inductive op :=
| SNew                       (* Ptr<ISink> p = CreateEventSink(...) *)
| SCopy (s : nat)            (* Ptr<ISink> q = p *)
| SDrop (s : nat)            (* p = nullptr *)
| SGet (e : nat) (c : N)     (* Ptr<ISink> p = event.GetSink(c) *)
| SSelf                      (* Ptr<ISink> p = this, in a sink *)
| SUse                       (* a sink uses what it captured *)
| SEvent (cap : N)           (* new Event<..., cap> *)
| SConnect (e : nat) (s : nat)
| SConnectNew (e : nat)      (* event.Connect(CreateEventSink(...)) *)
| SHandle (s : nat)          (* new EventHandle(..., p) *)
| SHandleNew                 (* new EventHandle(..., CreateEventSink(...)) *)
| SDisconnect (e : nat) (c : N)
| SDestroy (e : nat)         (* the event or handle is destroyed *)
| SFire (args : bool) (e : nat)
| SThrow.

(** What a sink does may depend on everything observed so far. *)
Definition behaviour := list entry -> nat -> N -> nat -> list op.

(** Taking one occurrence out of the users' pointers. *)
Fixpoint remove1 (s : nat) (l : list nat) : list nat :=
  match l with
  | [] => []
  | x :: t => if Nat.eqb x s then t else x :: remove1 s t
  end.

Definition is_held (w : world) (s : nat) : bool := existsb (Nat.eqb s) (w_held w).

(** One more smart pointer of the user to [s]. *)
Definition hold (s : nat) (w : world) : world * status :=
  match addref s w with
  | inl w1 => (log (set_held w1 (s :: w_held w1)) [HHold s], Ok)
  | inr u => (w, Undef u)
  end.

(** One operation other than firing; [self] is the running sink. *)
Definition step (self : option nat) (o : op) (w : world) : world * status :=
  match o with
  | SNew =>
      let (s, w1) := new_sink w in (log (set_held w1 (s :: w_held w1)) [HHold s], Ok)
  | SCopy s => if is_held w s then hold s w else (w, Ok)
  | SDrop s =>
      if is_held w s then
        let w1 := log (set_held w (remove1 s (w_held w))) [HDrop s] in
        match release s w1 with inl w2 => (w2, Ok) | inr u => (w1, Undef u) end
      else (w, Ok)
  | SGet e c =>
      match get_tab w e with
      | None => (w, Undef (UTable e))
      | Some t => match tab_get t (w32 c) with Some s => hold s w | None => (w, Ok) end
      end
  | SSelf =>
      match self with
      | Some s => if alive w s then hold s w else (w, Undef (UUse s))
      | None => (w, Ok)
      end
  | SUse =>
      match self with
      | Some s => if alive w s then (log w [HUse s], Ok) else (w, Undef (UUse s))
      | None => (w, Ok)
      end
  | SEvent cap =>
      if (0 <? cap) && (cap <? 2 ^ 32) then
        (snd (new_tab (if cap =? 1 then One None else Many cap slots_init) w), Ok)
      else (w, Ok)
  | SConnect e s =>
      if is_held w s then
        match get_tab w e with
        | None => (w, Undef (UTable e))
        | Some t =>
            match tab_connect t s with
            | None => (w, Ok)
            | Some (c, t') =>
                match addref s w with
                | inl w1 => (log (set_tab w1 e (Some t')) [HConn e c s], Ok)
                | inr u => (w, Undef u)
                end
            end
        end
      else (w, Ok)
  | SConnectNew e =>
      match get_tab w e with
      | None => (w, Undef (UTable e))
      | Some t =>
          let (s, w1) := new_sink w in
          match tab_connect t s with
          | Some (c, t') => (log (set_tab w1 e (Some t')) [HConn e c s], Ok)
          | None => match release s w1 with inl w2 => (w2, Ok) | inr u => (w1, Undef u) end
          end
      end
  | SHandle s =>
      if is_held w s then
        match addref s w with
        | inl w1 => let (e, w2) := new_tab (Once (Some s)) w1 in (log w2 [HConn e 1 s], Ok)
        | inr u => (w, Undef u)
        end
      else (w, Ok)
  | SHandleNew =>
      let (s, w1) := new_sink w in
      let (e, w2) := new_tab (Once (Some s)) w1 in (log w2 [HConn e 1 s], Ok)
  | SDisconnect e c => tab_disconnect e c w
  | SDestroy e =>
      match get_tab w e with
      | None => (w, Undef (UTable e))
      | Some t =>
          let w1 := log (set_tab w e None) [HEnd e] in
          match release_all (tab_sinks t) w1 with inl w2 => (w2, Ok) | inr u => (w1, Undef u) end
      end
  | SFire _ _ => (w, Ok)
  | SThrow => (w, Thrown)
  end.

(** A sequence of operations; [fire] delivers.  An exception that a call throws
    is caught by the user code; one that it lets out is [SThrow]. *)
Fixpoint run_ops (fire : bool -> nat -> world -> world * status) (self : option nat)
         (ops : list op) (w : world) : world * status :=
  match ops with
  | [] => (w, Ok)
  | o :: t =>
      match (match o with SFire a e => fire a e w | _ => step self o w end) with
      | (w', Ok) => run_ops fire self t w'
      | r => r
      end
  end.

(** One call of a sink: [sinks_[i]->Fire(...)]. *)
Definition call (fire : bool -> nat -> world -> world * status) (h : behaviour)
           (e : nat) (c : N) (s : nat) (w : world) : world * status :=
  if alive w s then
    let w1 := log w [HCall e c s] in
    run_ops fire (Some s) (h (w_log w1) e c s) w1
  else (w, Undef (UCount s)).

(** The delivery loops from index [i]: [Event::Fire(void)] (event/event.h
    248-262) if not [args], [Event::Fire(Args&&...)] (event/event.h 273-289) if
    [args]; [Event<..., 1>::Fire] (event/event.h 380-393);
    [EventHandle::Fire] (simulation/event-handle.h 98-107), where an exception
    leaves the sink in the handle.  The event is looked up again in every round:
    a sink may have destroyed it. *)
Fixpoint fire_from (fuel : nat) (h : behaviour) (args : bool) (e : nat) (i : N) (w : world) {struct fuel}
  : world * status :=
  match fuel with
  | O => (w, OutOfFuel)
  | S f =>
      let nested args' e' w' :=
        match get_tab w' e' with
        | Some (Many _ s) => if args' && (sl_last s =? 0) then (w', Ok) else fire_from f h args' e' 0 w'
        | _ => fire_from f h args' e' 0 w'
        end in
      match get_tab w e with
      | None => (w, Undef (UTable e))
      | Some (Many cap s) =>
          if i <? (if args then wsub 32 (sl_last s) 1 else sl_last s) then
            match nth_error (sl_items s) (N.to_nat i) with
            | None => (w, Undef (UNull e))
            | Some None => fire_from f h args e (i + 1) w
            | Some (Some a) =>
                match call nested h e (i + 1) a w with
                | (w', Ok) => fire_from f h args e (i + 1) w'
                | r => r
                end
            end
          else if args then
            match nth_error (sl_items s) (N.to_nat i) with
            | Some (Some a) => call nested h e (i + 1) a w
            | _ => (w, Undef (UNull e))
            end
          else (w, Ok)
      | Some (One None) => (w, Ok)
      | Some (One (Some a)) => call nested h e 1 a w
      | Some (Once None) => (w, Ok)
      | Some (Once (Some a)) =>
          match call nested h e 1 a w with
          | (w', Ok) => tab_disconnect e 1 w'
          | r => r
          end
      end
  end.

Definition fire (fuel : nat) (h : behaviour) (args : bool) (e : nat) (w : world) : world * status :=
  match get_tab w e with
  | Some (Many _ s) => if args && (sl_last s =? 0) then (w, Ok) else fire_from fuel h args e 0 w
  | _ => fire_from fuel h args e 0 w
  end.

(** A program: operations from outside of any sink. *)
Definition run (fuel : nat) (h : behaviour) (ops : list op) : world * status :=
  run_ops (fire fuel h) None ops w_init.
