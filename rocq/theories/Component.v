(** Model of the component objects (component/object.h) and of the smart
    pointers to them (component/ptr.h).

    The heap is a list of cells, one for each C++ object: an [Object], a
    [StaticObject], an [AggObject] (with the [Aggregated] object inside it), a
    [MemberAggObject] (with its [Aggregated]) or a [MutualObject].  Cells are
    never removed, an object that has been deleted is marked; any access to such
    a cell is undefined behaviour.  The interfaces and the members of the user's
    class are part of the cell: the interface map, the smart pointers among its
    members ([c_fields]) and the objects it aggregates ([c_parts]).

    Not modelled: destructors with code of their own, and pointers that hold no
    reference count (apart from the pointer to the controller). *)
From Verif Require Import Base.

(** A type of pointers: an interface, or the class of an implementation.  Type
    [0] is [IObject] (component/i-object.h). *)
Definition ty := nat.

(** component/object.h 427-486, 515-568, 765-848, 881-954, 984-1057: the kinds
    of objects. *)
Inductive kind : Set := KObject | KStatic | KAgg | KMember | KMutual.

(** component/object.h 1197-1261: an entry of an interface map.  [Own t] is
    [NSFX_INTERFACE_ENTRY] or [NSFX_INTERFACE_ENTRY2]; [Via t b] is
    [NSFX_INTERFACE_AGGREGATED_ENTRY] with the navigator of the object [b].  The
    entry for [IObject] that [NSFX_INTERFACE_MAP_BEGIN] adds is implicit. *)
Inductive entry : Set := Own (t : ty) | Via (t : ty) (b : nat).

(** A non-null raw pointer of type [T*]: to the implementation in a cell, seen
    as a [T]. *)
Record ptr : Set := mk_ptr { p_addr : nat; p_ty : ty }.

(** A member or variable of type [Ptr<T>]: the type [T], and [PtrBase::p_]
    (component/ptr.h 319). *)
Definition handle : Set := (ty * option ptr)%type.

(** component/object.h 308-357: [ObjectBase], a reference count or the pointer
    to the controller.  [c_rc] is the count of an [Object], or of the navigator
    of an [AggObject]; [c_owner] is the controller of the other kinds.
    [refcount_t] is [ptrdiff_t] (config.h 224); it is not bounded here, as no
    program has memory for 2^63 references. *)
Record cell : Set := mk_cell {
  c_kind : kind;
  c_alive : bool;
  c_rc : Z;
  c_owner : nat;
  c_class : ty;
  c_map : list entry;
  c_parts : list nat;
  c_fields : list handle
}.

Definition heap := list cell.

(** [w_vars] are the smart pointers outside of objects, [w_raws] are the raw
    pointers of the user that hold a reference count. *)
Record world : Set := mk_world { w_heap : heap; w_vars : list handle; w_raws : list ptr }.

Definition set_rc (c : cell) (n : Z) : cell :=
  mk_cell (c_kind c) (c_alive c) n (c_owner c) (c_class c) (c_map c) (c_parts c) (c_fields c).
Definition set_dead (c : cell) : cell :=
  mk_cell (c_kind c) false (c_rc c) (c_owner c) (c_class c) (c_map c) (c_parts c) (c_fields c).
Definition set_fields (c : cell) (l : list handle) : cell :=
  mk_cell (c_kind c) (c_alive c) (c_rc c) (c_owner c) (c_class c) (c_map c) (c_parts c) l.
Definition set_heap (w : world) (h : heap) : world := mk_world h (w_vars w) (w_raws w).

(** Access through a pointer: the object must not have been deleted. *)
Definition get (h : heap) (a : nat) : outcome cell :=
  match nth_error h a with
  | Some c => if c_alive c then Done c else UB
  | None => UB
  end.

(** Who counts the references to the implementation in a cell: [Aggregated] and
    [MutualObject] delegate [AddRef] and [Release] to the controller
    (component/object.h 336-344, 625-633, 1029-1037), which may delegate in turn;
    an [Object] counts itself; a [StaticObject] does not count (545-553).  The
    fuel bounds the number of delegations; a controller is created before the
    objects it controls, so that [S a] is enough. *)
Fixpoint counted (fuel : nat) (h : heap) (a : nat) : outcome (option nat) :=
  match fuel with
  | O => UB
  | S f =>
      let! c := get h a in
      match c_kind c with
      | KObject => Done (Some a)
      | KStatic => Done None
      | KAgg | KMember | KMutual => counted f h (c_owner c)
      end
  end.

(** component/object.h 321-325, 458-462: [AddRef]. *)
Definition add_ref (h : heap) (a : nat) : outcome heap :=
  let! r := counted (S a) h a in
  match r with
  | None => Done h
  | Some r => let! c := get h r in Done (upd h r (set_rc c (c_rc c + 1)))
  end.

(** What remains to be done while objects are deleted: to release a reference to
    the implementation in a cell, or to end the life of a part of a deleted
    object. *)
Inductive work : Set := Rel (a : nat) | Drop (b : nat).

(** The destructors of the members of a deleted object (component/ptr.h 178-181
    [~PtrBase], object.h 449, 616, 788, 903, 1020).  C++ runs them in the reverse
    order of the declarations; here the parts come first. *)
Definition members (c : cell) : list work :=
  map Drop (c_parts c) ++
  flat_map (fun f => match snd f with Some p => [Rel (p_addr p)] | None => [] end) (c_fields c).

(** [Release] (component/object.h 327-331, 464-472, 803-811) with all the
    deletions it causes, depth first.  The part [b] of a deleted object is
    destroyed with it when it is a member ([MemberAggObject], [MutualObject]);
    an [AggObject] is held by a smart pointer to its navigator, which is
    released. *)
Fixpoint run_work (fuel : nat) (ws : list work) (h : heap) : outcome heap :=
  match ws with
  | [] => Done h
  | x :: ws =>
      match fuel with
      | O => UB
      | S f =>
          match x with
          | Rel a =>
              let! r := counted (S a) h a in
              match r with
              | None => run_work f ws h
              | Some r =>
                  let! c := get h r in
                  let c := set_rc c (c_rc c - 1) in
                  if (c_rc c =? 0)%Z
                  then run_work f (members c ++ ws) (upd h r (set_dead c))
                  else run_work f ws (upd h r c)
              end
          | Drop b =>
              let! c := get h b in
              match c_kind c with
              | KAgg =>
                  let c := set_rc c (c_rc c - 1) in
                  if (c_rc c =? 0)%Z
                  then run_work f (members c ++ ws) (upd h b (set_dead c))
                  else run_work f ws (upd h b c)
              | KMember | KMutual => run_work f (members c ++ ws) (upd h b (set_dead c))
              | KObject | KStatic => UB
              end
          end
      end
  end.

(** Enough fuel for all the objects that are left to be deleted. *)
Definition load_of (c : cell) : nat :=
  if c_alive c then 1 + length (c_parts c) + length (c_fields c) else 0.
Definition work_fuel (h : heap) (ws : list work) : nat := length ws + list_sum (map load_of h).

Definition release (h : heap) (a : nat) : outcome heap := run_work (work_fuel h [Rel a]) [Rel a] h.

(** component/object.h 1098-1141, 1206-1261: the first entry of the interface map for a
    type. *)
Definition entry_ty (e : entry) : ty := match e with Own t => t | Via t _ => t end.
Definition find_entry (t : ty) (m : list entry) : option entry := find (fun e => entry_ty e =? t) m.

(** component/object.h 1278-1295: [InternalQueryInterface], that is
    [InternalVisitInterfaceMap] with [InternalQueryInterfaceVisitor]
    (1076-1146); [None] is the exception [NoInterface].  For an aggregated
    entry the navigator is queried, which looks into its own aggregated object
    (820-833, 929-941), as the type is not [IObject].  The fuel bounds the
    nesting of aggregations. *)
Fixpoint internal_query (fuel : nat) (h : heap) (a : nat) (t : ty) : outcome (option (ptr * heap)) :=
  match fuel with
  | O => UB
  | S f =>
      let! c := get h a in
      if t =? 0 then
        let! h := add_ref h a in Done (Some (mk_ptr a t, h))
      else
        match find_entry t (c_map c) with
        | Some (Own _) => let! h := add_ref h a in Done (Some (mk_ptr a t, h))
        | Some (Via _ b) => internal_query f h b t
        | None => Done None
        end
  end.

(** component/object.h 474-477, 555-558, 638-641, 1044-1047: [QueryInterface] of
    an implementation.  [Aggregated] asks its controller. *)
Fixpoint query_from (fuel : nat) (h : heap) (a : nat) (t : ty) : outcome (option (ptr * heap)) :=
  match fuel with
  | O => UB
  | S f =>
      let! c := get h a in
      match c_kind c with
      | KAgg | KMember => query_from f h (c_owner c) t
      | KObject | KStatic | KMutual => internal_query (S (length h)) h a t
      end
  end.
Definition query (h : heap) (a : nat) (t : ty) : outcome (option (ptr * heap)) := query_from (S a) h a t.

(** component/ptr.h 70-111 ([PtrBase(p, addRef)]), and the same code after
    [Reset] in 192-234: what a [Ptr<T>] with [T = d] takes from a pointer.  When
    the types are the same the pointer is taken as it is, otherwise the
    interface is queried, which adds a reference. *)
Definition take (d : ty) (addRef : bool) (p : ptr) (h : heap) : outcome (option (ptr * heap)) :=
  if d =? p_ty p then
    if addRef then let! h := add_ref h (p_addr p) in Done (Some (p, h)) else Done (Some (p, h))
  else
    let! r := query h (p_addr p) d in
    match r with
    | None => Done None
    | Some (q, h) => if addRef then Done (Some (q, h)) else let! h := release h (p_addr p) in Done (Some (q, h))
    end.

(** Where a smart pointer is: a variable, or a member of an object. *)
Inductive loc : Set := LVar (i : nat) | LField (a k : nat).

(** Read and write [PtrBase::p_]. *)
Definition load (w : world) (l : loc) : outcome handle :=
  match l with
  | LVar i => match nth_error (w_vars w) i with Some x => Done x | None => UB end
  | LField a k =>
      let! c := get (w_heap w) a in
      match nth_error (c_fields c) k with Some x => Done x | None => UB end
  end.

Definition store (w : world) (l : loc) (v : option ptr) : outcome world :=
  match l with
  | LVar i =>
      match nth_error (w_vars w) i with
      | Some (t, _) => Done (mk_world (w_heap w) (upd (w_vars w) i (t, v)) (w_raws w))
      | None => UB
      end
  | LField a k =>
      let! c := get (w_heap w) a in
      match nth_error (c_fields c) k with
      | Some (t, _) => Done (set_heap w (upd (w_heap w) a (set_fields c (upd (c_fields c) k (t, v)))))
      | None => UB
      end
  end.

(** An expression for a smart pointer: [At i []] is the variable [i], [At i [k]]
    is the member number [k] of the object it points to, and so on. *)
Inductive slot : Set := At (i : nat) (ks : list nat).

(** [operator->] (component/ptr.h 601-605) asserts that the pointer is not null.
    Naming a variable or a member that does not exist is not a C++ program; it
    is [AssertFail] here. *)
Fixpoint walk (w : world) (l : loc) (ks : list nat) : outcome loc :=
  match ks with
  | [] => Done l
  | k :: ks =>
      let! (_, v) := load w l in
      match v with
      | None => AssertFail
      | Some p =>
          let! c := get (w_heap w) (p_addr p) in
          if k <? length (c_fields c) then walk w (LField (p_addr p) k) ks else AssertFail
      end
  end.
Definition resolve (w : world) (s : slot) : outcome loc :=
  let (i, ks) := s in
  if i <? length (w_vars w) then walk w (LVar i) ks else AssertFail.

(** component/ptr.h 183-190: [Reset].  The pointer is released first and set to
    null afterwards. *)
Definition reset (l : loc) (w : world) : outcome world :=
  let! (_, v) := load w l in
  match v with
  | None => Done w
  | Some p => let! h := release (w_heap w) (p_addr p) in store (set_heap w h) l None
  end.

(** What the caller sees. *)
Inductive result : Set := ROk | RNoInterface | RBool (b : bool).

(** One of the objects that [New] creates together: [d_owner] is the index of its
    controller among them. *)
Record piece : Set := mk_piece {
  d_kind : kind; d_owner : nat; d_class : ty; d_map : list entry; d_fields : list ty }.

Definition is_part (k : kind) : bool :=
  match k with KAgg | KMember | KMutual => true | KObject | KStatic => false end.
Definition is_navi (k : kind) : bool :=
  match k with KAgg | KMember => true | KObject | KStatic | KMutual => false end.

(** The indices of the parts of the piece [j]. *)
Definition parts_of (ps : list piece) (j : nat) : list nat :=
  filter (fun i => match nth_error ps i with
                   | Some d => is_part (d_kind d) && (d_owner d =? j)
                   | None => false
                   end) (seq 0 (length ps)).

(** The descriptions that C++ classes can give: the first piece is the whole
    object, each other piece is a part of an earlier one, the class of an
    implementation is not [IObject], and the aggregated entries of an interface
    map name navigators among the parts. *)
Definition entry_ok (ps : list piece) (j : nat) (e : entry) : bool :=
  match e with
  | Own t => 0 <? t
  | Via t b => (0 <? t) &&
      match nth_error ps b with Some d => is_navi (d_kind d) && (d_owner d =? j) | None => false end
  end.
Definition piece_ok (ps : list piece) (j : nat) : bool :=
  match nth_error ps j with
  | Some d =>
      (if j =? 0 then negb (is_part (d_kind d)) else is_part (d_kind d) && (d_owner d <? j)) &&
      (0 <? d_class d) && forallb (entry_ok ps j) (d_map d)
  | None => false
  end.
Definition pieces_ok (ps : list piece) : bool :=
  (0 <? length ps) && forallb (piece_ok ps) (seq 0 (length ps)).

(** component/object.h 311-319, 437-439, 590-599, 775-777, 890-892, 994-1003: the
    constructors.  A reference count starts at 0; the navigator of an
    [AggObject] is held by the smart pointer of its controller.  The construction
    of an object with its parts is one step: constructors that use references to
    the object under construction are not modelled. *)
Definition new_cell (base : nat) (ps : list piece) (jd : nat * piece) : cell :=
  let (j, d) := jd in
  mk_cell (d_kind d) true (match d_kind d with KAgg => 1 | _ => 0 end)%Z
          (base + d_owner d) (d_class d)
          (map (fun e => match e with Own t => Own t | Via t b => Via t (base + b) end) (d_map d))
          (map (fun b => base + b) (parts_of ps j))
          (map (fun t => (t, None)) (d_fields d)).
Definition new_cells (base : nat) (ps : list piece) : list cell :=
  map (new_cell base ps) (combine (seq 0 (length ps)) ps).

(** The expressions of a program that act on smart pointers and objects.

    - [Declare t]: [Ptr<T> p;]
    - [New t ps]: [Ptr<T> p(new Object<C>(...));] (or a static [StaticObject<C>])
    - [CopyCtor t s], [MoveCtor t s]: [Ptr<T> p(s);] and [Ptr<T> p(std::move(s));]
    - [Assign d s], [MoveAssign d s]: [d = s;] and [d = std::move(s);]
    - [Reset d]: [d.Reset();], [d = nullptr;] or the destructor of [d]
    - [Detach s]: the user keeps [s.Detach()]
    - [AddRef s]: [s->AddRef()], the user keeps [s.Get()]
    - [Release r]: [r->Release()] for a kept raw pointer
    - [ResetTo d r addRef]: [d.Reset(r, addRef)] for a kept raw pointer
    - [Swap d s]: [swap(d, s)]
    - [OfPart s k]: [Ptr<C> p(o)] for the part number [k] of the object that
      [s] points to, of type [AggObject<C>*], [MemberAggObject<C>*] or
      [MutualObject<C>*]
    - [QueryPart t s k]: [Ptr<T> p(o)] for such a part, when [T] is not [C]: the
      interface is queried from the navigator
    - [Equal s s']: [s == s'] *)
Inductive op : Set :=
| Declare (t : ty) | New (t : ty) (ps : list piece)
| CopyCtor (t : ty) (s : slot) | MoveCtor (t : ty) (s : slot)
| Assign (d s : slot) | MoveAssign (d s : slot) | Reset (d : slot)
| Detach (s : slot) | AddRef (s : slot) | Release (r : nat) | ResetTo (d : slot) (r : nat) (addRef : bool)
| Swap (d s : slot) | OfPart (s : slot) (k : nat) | QueryPart (t : ty) (s : slot) (k : nat) | Equal (s s' : slot).

Definition push_var (w : world) (h : heap) (x : handle) : world :=
  mk_world h (w_vars w ++ [x]) (w_raws w).
Fixpoint remove_nth {A} (n : nat) (l : list A) : list A :=
  match l, n with
  | [], _ => []
  | _ :: t, O => t
  | x :: t, S n => x :: remove_nth n t
  end.

(** The object that a smart pointer points to. *)
Definition target (w : world) (s : slot) : outcome nat :=
  let! l := resolve w s in
  let! (_, v) := load w l in
  match v with Some p => Done (p_addr p) | None => AssertFail end.

(** component/ptr.h 407-445: [Ptr<T>(new Object<C>)].  When the interface is not
    there the exception leaves the new object behind without any reference, as
    the documentation of [Ptr] warns (341-358). *)
Definition new_object (t : ty) (ps : list piece) (w : world) : outcome (world * result) :=
  if pieces_ok ps then
    let base := length (w_heap w) in
    let h := w_heap w ++ new_cells base ps in
    let! r := take t true (mk_ptr base (match ps with d :: _ => d_class d | [] => 0 end)) h in
    match r with
    | Some (q, h) => Done (push_var w h (t, Some q), ROk)
    | None => Done (set_heap w h, RNoInterface)
    end
  else AssertFail.

(** component/ptr.h 447-469: copy and move constructors. *)
Definition copy_ctor (t : ty) (s : slot) (w : world) : outcome (world * result) :=
  let! l := resolve w s in
  let! (_, v) := load w l in
  match v with
  | None => Done (push_var w (w_heap w) (t, None), ROk)
  | Some p =>
      let! r := take t true p (w_heap w) in
      match r with
      | Some (q, h) => Done (push_var w h (t, Some q), ROk)
      | None => Done (w, RNoInterface)
      end
  end.

Definition move_ctor (t : ty) (s : slot) (w : world) : outcome (world * result) :=
  let! l := resolve w s in
  let! (_, v) := load w l in
  match v with
  | None => Done (push_var w (w_heap w) (t, None), ROk)
  | Some p =>
      let! r := take t false p (w_heap w) in
      match r with
      | Some (q, h) =>
          let! w1 := store (set_heap w h) l None in
          Done (push_var w1 (w_heap w1) (t, Some q), ROk)
      | None => Done (w, RNoInterface)
      end
  end.

(** component/ptr.h 537-563, with 192-234: assignment.  The pointer of the source
    is read, the destination is reset, then the pointer is taken. *)
Definition assign (d s : slot) (w : world) : outcome (world * result) :=
  let! ld := resolve w d in
  let! ls := resolve w s in
  let! (_, v) := load w ls in
  let! (t, _) := load w ld in
  let! w1 := reset ld w in
  match v with
  | None => Done (w1, ROk)
  | Some p =>
      let! r := take t true p (w_heap w1) in
      match r with
      | Some (q, h) => let! w2 := store (set_heap w1 h) ld (Some q) in Done (w2, ROk)
      | None => Done (w1, RNoInterface)
      end
  end.

Definition move_assign (d s : slot) (w : world) : outcome (world * result) :=
  let! ld := resolve w d in
  let! ls := resolve w s in
  let! (_, v) := load w ls in
  let! (t, _) := load w ld in
  let! w1 := reset ld w in
  match v with
  | None => let! w2 := store w1 ls None in Done (w2, ROk)
  | Some p =>
      let! r := take t false p (w_heap w1) in
      match r with
      | Some (q, h) =>
          let! w2 := store (set_heap w1 h) ld (Some q) in
          let! w3 := store w2 ls None in
          Done (w3, ROk)
      | None => Done (w1, RNoInterface)
      end
  end.

(** component/ptr.h 524-528, 682-685: [Reset()], [operator=(nullptr_t)]; and the
    destructor (178-181), after which the variable is not used any more. *)
Definition reset_op (d : slot) (w : world) : outcome (world * result) :=
  let! l := resolve w d in
  let! w1 := reset l w in
  Done (w1, ROk).

(** component/ptr.h 768-773: [Detach]. *)
Definition detach (s : slot) (w : world) : outcome (world * result) :=
  let! l := resolve w s in
  let! (_, v) := load w l in
  match v with
  | None => Done (w, ROk)
  | Some p =>
      let! w1 := store w l None in
      Done (mk_world (w_heap w1) (w_vars w1) (w_raws w1 ++ [p]), ROk)
  end.

(** [IObject::AddRef] and [IObject::Release] called by the user. *)
Definition add_ref_op (s : slot) (w : world) : outcome (world * result) :=
  let! l := resolve w s in
  let! (_, v) := load w l in
  match v with
  | None => AssertFail
  | Some p => let! h := add_ref (w_heap w) (p_addr p) in Done (mk_world h (w_vars w) (w_raws w ++ [p]), ROk)
  end.

Definition release_op (r : nat) (w : world) : outcome (world * result) :=
  match nth_error (w_raws w) r with
  | None => AssertFail
  | Some p =>
      let! h := release (w_heap w) (p_addr p) in
      Done (mk_world h (w_vars w) (remove_nth r (w_raws w)), ROk)
  end.

(** component/ptr.h 694-711: [Reset(p, addRef)]. *)
Definition reset_to (d : slot) (r : nat) (addRef : bool) (w : world) : outcome (world * result) :=
  let! l := resolve w d in
  match nth_error (w_raws w) r with
  | None => AssertFail
  | Some p =>
      let! (t, _) := load w l in
      let! w1 := reset l w in
      let! x := take t addRef p (w_heap w1) in
      match x with
      | Some (q, h) =>
          let! w2 := store (set_heap w1 h) l (Some q) in
          Done (if addRef then w2 else mk_world (w_heap w2) (w_vars w2) (remove_nth r (w_raws w2)), ROk)
      | None => Done (w1, RNoInterface)
      end
  end.

(** component/ptr.h 780-783: [swap]; only for pointers of the same type. *)
Definition swap (d s : slot) (w : world) : outcome (world * result) :=
  let! ld := resolve w d in
  let! ls := resolve w s in
  let! (t, v) := load w ld in
  let! (u, x) := load w ls in
  if t =? u then
    let! w1 := store w ld x in
    let! w2 := store w1 ls v in
    Done (w2, ROk)
  else AssertFail.

(** component/ptr.h 110-176: [Ptr<C>] made from a pointer to an object that holds
    an implementation of class [C]. *)
Definition of_part (s : slot) (k : nat) (w : world) : outcome (world * result) :=
  let! a := target w s in
  let! c := get (w_heap w) a in
  match nth_error (c_parts c) k with
  | None => AssertFail
  | Some b =>
      let! d := get (w_heap w) b in
      let! h := add_ref (w_heap w) b in
      Done (push_var w h (c_class d, Some (mk_ptr b (c_class d))), ROk)
  end.

(** component/ptr.h 79-111 for a pointer to an [AggObject], [MemberAggObject] or
    [MutualObject] of another class, with component/object.h 820-833, 929-941,
    1044-1047.  A navigator gives [IObject] of itself; the documentation keeps
    that pointer within the controller (object.h 690-698), it is the one that
    holds the part, and is not modelled as a pointer of its own. *)
Definition query_part (t : ty) (s : slot) (k : nat) (w : world) : outcome (world * result) :=
  let! a := target w s in
  let! c := get (w_heap w) a in
  match nth_error (c_parts c) k with
  | None => AssertFail
  | Some b =>
      let! d := get (w_heap w) b in
      if is_navi (c_kind d) && (t =? 0) then AssertFail
      else
        let! r := internal_query (S (length (w_heap w))) (w_heap w) b t in
        match r with
        | Some (q, h) => Done (push_var w h (t, Some q), ROk)
        | None => Done (w, RNoInterface)
        end
  end.

(** component/ptr.h 301-316, 630-666: [operator==].  Pointers of the same type
    are compared; otherwise both objects are asked for [IObject]. *)
Definition opt_take (v : option ptr) (h : heap) : outcome (option (option ptr * heap)) :=
  match v with
  | None => Done (Some (None, h))
  | Some p =>
      let! r := take 0 true p h in
      match r with Some (q, h) => Done (Some (Some q, h)) | None => Done None end
  end.
Definition opt_release (v : option ptr) (h : heap) : outcome heap :=
  match v with None => Done h | Some p => release h (p_addr p) end.
Definition same_ptr (v v' : option ptr) : bool :=
  match v, v' with
  | None, None => true
  | Some p, Some q => p_addr p =? p_addr q
  | _, _ => false
  end.

Definition equal (s s' : slot) (w : world) : outcome (world * result) :=
  let! l := resolve w s in
  let! l' := resolve w s' in
  let! (t, v) := load w l in
  let! (u, v') := load w l' in
  if t =? u then Done (w, RBool (same_ptr v v'))
  else
    let! r := opt_take v (w_heap w) in
    match r with
    | None => Done (w, RNoInterface)
    | Some (q, h) =>
        let! r' := opt_take v' h in
        match r' with
        | None => let! h := opt_release q h in Done (set_heap w h, RNoInterface)
        | Some (q', h) =>
            let! h := opt_release q' h in
            let! h := opt_release q h in
            Done (set_heap w h, RBool (same_ptr q q'))
        end
    end.

Definition step (o : op) (w : world) : outcome (world * result) :=
  match o with
  | Declare t => Done (push_var w (w_heap w) (t, None), ROk)
  | New t ps => new_object t ps w
  | CopyCtor t s => copy_ctor t s w
  | MoveCtor t s => move_ctor t s w
  | Assign d s => assign d s w
  | MoveAssign d s => move_assign d s w
  | Reset d => reset_op d w
  | Detach s => detach s w
  | AddRef s => add_ref_op s w
  | Release r => release_op r w
  | ResetTo d r addRef => reset_to d r addRef w
  | Swap d s => swap d s w
  | OfPart s k => of_part s k w
  | QueryPart t s k => query_part t s k w
  | Equal s s' => equal s s' w
  end.

Definition init : world := mk_world [] [] [].

Fixpoint run (os : list op) (w : world) : outcome (world * list result) :=
  match os with
  | [] => Done (w, [])
  | o :: os =>
      let! (w1, r) := step o w in
      let! (w2, rs) := run os w1 in
      Done (w2, r :: rs)
  end.
