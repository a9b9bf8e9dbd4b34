(** Model of the class registry: component/class-registry.h, class-factory.h and
    uid.h.

    Not modelled: the macros that register classes before [main], the lifetime of
    the registry itself (a static object), running out of memory. *)
From Verif Require Import Base Component.

(** component/uid.h 41-76: [Uid] holds a pointer to a string of static lifetime:
    the address, and the bytes that are found there.  The string ends in front of
    the first byte 0; the end of the list stands for a byte 0. *)
Record uid : Set := mk_uid { u_addr : nat; u_bytes : list N }.

(** [std::strcmp]: compares the characters as [unsigned char] up to the first
    difference or the end. *)
Fixpoint strcmp (s t : list N) : Z :=
  match s, t with
  | [], [] => 0
  | [], b :: _ => - Z.of_N b
  | a :: _, [] => Z.of_N a
  | a :: s, b :: t =>
      if (a =? b)%N then (if (a =? 0)%N then 0 else strcmp s t) else Z.of_N a - Z.of_N b
  end.

(** [std::strlen]. *)
Fixpoint strlen (s : list N) : nat :=
  match s with
  | [] => 0
  | a :: s => if (a =? 0)%N then 0 else S (strlen s)
  end.

(** component/uid.h 80-108: the comparison operators. *)
Definition uid_eqb (a b : uid) : bool := (strcmp (u_bytes a) (u_bytes b) =? 0)%Z.

(** An element of the [unordered_map], with the hash value of its key. *)
Record node : Set := mk_node { n_hash : N; n_key : uid; n_factory : nat }.

(** An object of a class that implements [IClassFactory]: its reference count, and
    the class [T] of [ClassFactory<T>] (component/class-factory.h 71-95), given by
    the objects that [new Object<T>] creates ([Component.piece]). *)
Record factory : Set := mk_factory { f_alive : bool; f_rc : Z; f_class : list piece }.

(** The registry, the factories, and the variables of type [Ptr<IClassFactory>] of
    the user. *)
Record state : Set := mk_state {
  s_map : list node;
  s_factories : list factory;
  s_vars : list (option nat)
}.
Definition init : state := mk_state [] [] [].

Definition set_map (s : state) (m : list node) : state := mk_state m (s_factories s) (s_vars s).
Definition set_factories (s : state) (l : list factory) : state := mk_state (s_map s) l (s_vars s).
Definition set_vars (s : state) (l : list (option nat)) : state := mk_state (s_map s) (s_factories s) l.

(** component/object.h 458-472: [AddRef] and [Release] of a factory; the methods of
    a deleted factory are undefined behaviour. *)
Definition get_factory (s : state) (f : nat) : outcome factory :=
  match nth_error (s_factories s) f with
  | Some x => if f_alive x then Done x else UB
  | None => UB
  end.
Definition factory_add_ref (f : nat) (s : state) : outcome state :=
  let! x := get_factory s f in
  Done (set_factories s (upd (s_factories s) f (mk_factory true (f_rc x + 1) (f_class x)))).
Definition factory_release (f : nat) (s : state) : outcome state :=
  let! x := get_factory s f in
  let n := (f_rc x - 1)%Z in
  Done (set_factories s (upd (s_factories s) f (mk_factory (negb (n =? 0)%Z) n (f_class x)))).
(** [new ClassFactoryClass], held by one smart pointer (component/ptr.h 407-445). *)
Definition factory_new (ps : list piece) (s : state) : nat * state :=
  (length (s_factories s), set_factories s (s_factories s ++ [mk_factory true 1 ps])).

(** What a call answers: nothing, a factory, or an exception. *)
Inductive result : Set := ROk | RFactory (f : nat) | RThrow (e : exn).

(** The calls of a program.

    - [NewFactory ps]: [Ptr<IClassFactory> p(new Object<ClassFactory<T>>);]
    - [Null]: [Ptr<IClassFactory> p;]
    - [ResetVar i]: the variable [i] is reset or destroyed
    - [Register i u], [RegisterMove i u]: [Register(p, u)] and
      [Register(std::move(p), u)]
    - [RegisterDefault ps u]: [RegisterDefaultClassFactory<T>(u)] or
      [RegisterClassFactory<F>(u)] (component/class-registry.h 364-399)
    - [Unregister u], [UnregisterAll], [GetClassFactory u]: the methods; the
      factory that is got is kept in a new variable *)
Inductive op : Set :=
| NewFactory (ps : list piece) | Null | ResetVar (i : nat)
| Register (i : nat) (u : uid) | RegisterMove (i : nat) (u : uid) | RegisterDefault (ps : list piece) (u : uid)
| Unregister (u : uid) | UnregisterAll | GetClassFactory (u : uid).

Section Hash.

(** [boost::hash_range] over the characters (component/uid.h 117-121). *)
Variable hash_range : list N -> N.
Definition hash_value (u : uid) : N := hash_range (firstn (strlen (u_bytes u)) (u_bytes u)).

(** [std::unordered_map::find], also used by [at], [erase] and [emplace]: the
    elements with the hash value of the key are compared with the key. *)
Definition matches (u : uid) (n : node) : bool :=
  (n_hash n =? hash_value u)%N && uid_eqb (n_key n) u.
Definition map_find (u : uid) (m : list node) : option node := find (matches u) m.

(** component/class-registry.h 300-313: [Register]; the smart pointer [factory] is a
    parameter of the method, [f] is the reference it holds.  [emplace] of the
    standard library leaves the map as it was when the key is there, whether or
    not it has moved the factory to a node; the factory is released in either case
    before the exception reaches the caller. *)
Definition register (f : option nat) (u : uid) (s : state) : outcome (state * result) :=
  match f with
  | None => Done (s, RThrow InvalidPointer)
  | Some f =>
      match map_find u (s_map s) with
      | Some _ => let! s := factory_release f s in Done (s, RThrow ClassAlreadyRegistered)
      | None => Done (set_map s (mk_node (hash_value u) u f :: s_map s), ROk)
      end
  end.

(** component/class-registry.h 315-318: [Unregister]. *)
Fixpoint erase (u : uid) (m : list node) : list node :=
  match m with
  | [] => []
  | n :: m => if matches u n then m else n :: erase u m
  end.
Definition unregister (u : uid) (s : state) : outcome (state * result) :=
  match map_find u (s_map s) with
  | None => Done (s, ROk)
  | Some n => let! s := factory_release (n_factory n) (set_map s (erase u (s_map s))) in Done (s, ROk)
  end.

(** component/class-registry.h 320-323: [UnregisterAll]. *)
Fixpoint release_all (m : list node) (s : state) : outcome state :=
  match m with
  | [] => Done s
  | n :: m => let! s := factory_release (n_factory n) s in release_all m s
  end.
Definition unregister_all (s : state) : outcome (state * result) :=
  let! s' := release_all (s_map s) s in Done (set_map s' [], ROk).

(** component/class-registry.h 325-337: [GetClassFactory]; the result is copied. *)
Definition get_class_factory (u : uid) (s : state) : outcome (state * result) :=
  match map_find u (s_map s) with
  | None => Done (s, RThrow ClassNotRegistered)
  | Some n =>
      let! s := factory_add_ref (n_factory n) s in
      Done (set_vars s (s_vars s ++ [Some (n_factory n)]), RFactory (n_factory n))
  end.

(** A variable that is not there is not a C++ program, hence [AssertFail]. *)
Definition step (o : op) (s : state) : outcome (state * result) :=
  match o with
  | NewFactory ps => let (f, s) := factory_new ps s in Done (set_vars s (s_vars s ++ [Some f]), RFactory f)
  | Null => Done (set_vars s (s_vars s ++ [None]), ROk)
  | ResetVar i =>
      match nth_error (s_vars s) i with
      | None => AssertFail
      | Some None => Done (s, ROk)
      | Some (Some f) => let! s := factory_release f s in Done (set_vars s (upd (s_vars s) i None), ROk)
      end
  | Register i u =>
      match nth_error (s_vars s) i with
      | None => AssertFail
      | Some None => register None u s
      | Some (Some f) => let! s := factory_add_ref f s in register (Some f) u s
      end
  | RegisterMove i u =>
      match nth_error (s_vars s) i with
      | None => AssertFail
      | Some f => register f u (set_vars s (upd (s_vars s) i None))
      end
  | RegisterDefault ps u => let (f, s) := factory_new ps s in register (Some f) u s
  | Unregister u => unregister u s
  | UnregisterAll => unregister_all s
  | GetClassFactory u => get_class_factory u s
  end.

Fixpoint run (os : list op) (s : state) : outcome (state * list result) :=
  match os with
  | [] => Done (s, [])
  | o :: os =>
      let! (s, r) := step o s in
      let! (s, rs) := run os s in
      Done (s, r :: rs)
  end.

End Hash.

(** component/class-factory.h 59-75 and class-registry.h 441-457: [CreateObject<I>]
    without a controller, as expressions of [Component.op].  The factory makes a
    [Ptr<IObject>] to the new object, which is moved to a [Ptr<I>] and destroyed;
    it stays behind as a null variable here. *)
Definition create_object (ps : list piece) (t : ty) (w : world) : outcome (world * Component.result) :=
  let n := length (w_vars w) in
  let! (w, r) := Component.step (New 0 ps) w in
  if t =? 0 then Done (w, r)
  else
    let! (w, r) := Component.step (MoveCtor t (At n [])) w in
    let! (w, _) := Component.step (Reset (At n [])) w in
    Done (w, r).

(** component/class-factory.h 77-84 and class-registry.h 441-457: [CreateObject<I>]
    with a controller, the object [a].  The factory makes a [Ptr<IObject>] to the
    navigator of a new [AggObject] (component/object.h 765-848), whose count is 1
    then.  When [I] is [IObject] this pointer is the result; otherwise the
    interface is queried from the navigator (component/ptr.h 92-108, object.h
    816-829) and the pointer to the navigator is released.  [None] is the exception
    [NoInterface].  The result is the pointer that the smart pointer holds. *)
Definition agg_cells (base a : nat) (ps : list piece) : list cell :=
  match new_cells base ps with
  | [] => []
  | c :: cs => mk_cell KAgg true 1 a (c_class c) (c_map c) (c_parts c) (c_fields c) :: cs
  end.
Definition create_aggregated (ps : list piece) (a : nat) (t : ty) (h : heap) : outcome (option ptr * heap) :=
  let base := length h in
  let h := h ++ agg_cells base a ps in
  if t =? 0 then Done (Some (mk_ptr base 0), h)
  else
    let! r := internal_query (S (length h)) h base t in
    match r with
    | None => let! h := run_work (work_fuel h [Drop base]) [Drop base] h in Done (None, h)
    | Some (q, h) => let! h := run_work (work_fuel h [Drop base]) [Drop base] h in Done (Some q, h)
    end.
