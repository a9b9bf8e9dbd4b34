(** Model of packets: network/packet/packet.h.

    A packet is a reference to a body: a buffer (Buffer.v), a list of byte tags and a list
    of packet tags (TagList.v).  The buffers of the bodies and those that the user holds are
    variables of one [Buffer.world], so that they share storages; likewise the tag lists.

    Simplifications.  The values of byte tags are opaque.  The value of a packet tag is the
    address of the body it refers to; the reference it holds is never given back, so that
    such a body lives on, and is copied when its packet is modified, even after the tag
    is gone.  Addresses are never reused.  Reference counts do not wrap around.  The buffer is
    [Buffer]: the macro NSFX_PACKET_USES_ZERO_COMPRESSED_BUFFER is not defined.
    [Packet::Clone] is declared and not defined. *)
From Verif Require Import Base.
From Verif Require Buffer TagList.

Section Packet.
Context {BV : Type}.

(** packet.h:671-697 [Body].  Its [buffer_] is variable [y_buf] of the buffers, and the
    lists of the body with address [a] are variable [a] of the byte tag lists and of the
    packet tag lists. *)
Record body := mk_body { y_rc : nat; y_buf : nat }.

(** [w_bodies]: the bodies by address, [None] when deleted.  [w_vars]: the packets of the
    program, [None] when destroyed; a packet is [body_], where [None] is null.
    [w_pins]: a body for every reference held by packet tags. *)
Record world := mk_world {
  w_buf : Buffer.world;
  w_bt : TagList.world BV;
  w_pt : TagList.world (option nat);
  w_bodies : list (option body);
  w_vars : list (option (option nat));
  w_pins : list nat
}.

Definition set_bodies (w : world) l := mk_world (w_buf w) (w_bt w) (w_pt w) l (w_vars w) (w_pins w).
Definition set_vars (w : world) l := mk_world (w_buf w) (w_bt w) (w_pt w) (w_bodies w) l (w_pins w).
Definition set_pins (w : world) l := mk_world (w_buf w) (w_bt w) (w_pt w) (w_bodies w) (w_vars w) l.

Definition var (w : world) (i : nat) : option (option nat) :=
  match nth_error (w_vars w) i with Some o => o | None => None end.
Definition set_var (w : world) (i : nat) (p : option (option nat)) : world := set_vars w (upd (w_vars w) i p).
Definition add_var (w : world) (p : option nat) : world := set_vars w (w_vars w ++ [Some p]).

(** Statements on the components of bodies. *)
Definition on_buf junk (o : Buffer.op) (w : world) : outcome world :=
  let! b := Buffer.step junk o (w_buf w) in
  Done (mk_world b (w_bt w) (w_pt w) (w_bodies w) (w_vars w) (w_pins w)).
Definition on_bt (o : TagList.op BV) (w : world) : outcome world :=
  let! t := TagList.step o (w_bt w) in
  Done (mk_world (w_buf w) t (w_pt w) (w_bodies w) (w_vars w) (w_pins w)).
Definition on_pt (o : TagList.op (option nat)) (w : world) : outcome world :=
  let! t := TagList.step o (w_pt w) in
  Done (mk_world (w_buf w) (w_bt w) t (w_bodies w) (w_vars w) (w_pins w)).

(** Dereference of [body_]. *)
Definition get_body (w : world) (a : nat) : outcome body :=
  match nth_error (w_bodies w) a with Some (Some y) => Done y | _ => UB end.
Definition put_body (w : world) (a : nat) (y : option body) : world := set_bodies w (upd (w_bodies w) a y).
(** The size of a buffer variable, buffer.h:499-507. *)
Definition buf_size (w : world) (k : nat) : nat :=
  match Buffer.var (w_buf w) k with Some b => Buffer.b_end b - Buffer.b_start b | None => 0 end.

(** packet.h:701-704 [Body()]. *)
Definition new_body junk (w : world) : outcome (world * nat) :=
  let! w1 := on_buf junk (Buffer.New 0) w in
  let! w2 := on_bt TagList.New w1 in
  let! w3 := on_pt TagList.New w2 in
  Done (set_bodies w3 (w_bodies w3 ++ [Some (mk_body 1 (length (Buffer.w_bufs (w_buf w))))]),
        length (w_bodies w)).

(** packet.h:706-712 [Body(const Body&)]. *)
Definition copy_body junk (a : nat) (y : body) (w : world) : outcome (world * nat) :=
  let! w1 := on_buf junk (Buffer.Copy (y_buf y)) w in
  let! w2 := on_bt (TagList.Copy a) w1 in
  let! w3 := on_pt (TagList.Copy a) w2 in
  Done (set_bodies w3 (w_bodies w3 ++ [Some (mk_body 1 (length (Buffer.w_bufs (w_buf w))))]),
        length (w_bodies w)).

(** The implicit destructor of [Body]. *)
Definition delete_body junk (a : nat) (y : body) (w : world) : outcome world :=
  let! w1 := on_pt (TagList.Destroy a) w in
  let! w2 := on_bt (TagList.Destroy a) w1 in
  let! w3 := on_buf junk (Buffer.Destroy (y_buf y)) w2 in
  Done (put_body w3 a None).

(** packet.h:934-940 [AddRef]. *)
Definition add_ref (p : option nat) (w : world) : outcome world :=
  match p with
  | None => Done w
  | Some a => let! y := get_body w a in Done (put_body w a (Some (mk_body (S (y_rc y)) (y_buf y))))
  end.

(** packet.h:942-952 [Release], without the assignment to [body_]. *)
Definition release junk (p : option nat) (w : world) : outcome world :=
  match p with
  | None => Done w
  | Some a =>
      let! y := get_body w a in
      match y_rc y with
      | O => UB       (* the count would wrap around *)
      | S O => delete_body junk a y w
      | S n => Done (put_body w a (Some (mk_body n (y_buf y))))
      end
  end.

(** packet.h:954-970 [MakePrivate] of variable [i] that refers to [p]; the address of the body
    it refers to afterwards. *)
Definition make_private junk (i : nat) (p : option nat) (w : world) : outcome (world * nat) :=
  match p with
  | None => let! (w1, a) := new_body junk w in Done (set_var w1 i (Some (Some a)), a)
  | Some a =>
      let! y := get_body w a in
      if 1 <? y_rc y then
        let! (w1, a') := copy_body junk a y w in
        let! y1 := get_body w1 a in
        Done (set_var (put_body w1 a (Some (mk_body (y_rc y1 - 1) (y_buf y1)))) i (Some (Some a')), a')
      else Done (w, a)
  end.

(** The three statements that most functions apply to a private body. *)
Definition mutate junk (a : nat) (ob : nat -> Buffer.op) (o1 : TagList.op BV) (o2 : TagList.op (option nat))
  (w : world) : outcome world :=
  let! y := get_body w a in
  let! w1 := on_buf junk (ob (y_buf y)) w in
  let! w2 := on_bt o1 w1 in
  on_pt o2 w2.

(** packet.h:778-785 [AddHeader(size)]: the returned buffer becomes a new buffer variable. *)
Definition add_header junk (i n : nat) (p : option nat) (w : world) : outcome world :=
  let! (w1, a) := make_private junk i p w in
  let! w2 := mutate junk a (fun k => Buffer.AddStart k n) (TagList.AddStart a n) (TagList.AddStart a n) w1 in
  let! y := get_body w2 a in
  on_buf junk (Buffer.Fragment (y_buf y) 0 n) w2.

(** packet.h:787-794 [AddTrailer(size)]. *)
Definition add_trailer junk (i n : nat) (p : option nat) (w : world) : outcome world :=
  let! (w1, a) := make_private junk i p w in
  let! w2 := mutate junk a (fun k => Buffer.AddEnd k n) (TagList.AddEnd a n) (TagList.AddEnd a n) w1 in
  let! y := get_body w2 a in
  on_buf junk (Buffer.Fragment (y_buf y) (buf_size w2 (y_buf y) - n) n) w2.

(** packet.h:796-802 [AddHeader(const ConstPacketBuffer&)] with buffer variable [k]. *)
Definition add_header_buf junk (i k : nat) (p : option nat) (w : world) : outcome world :=
  let! (w1, a) := make_private junk i p w in
  mutate junk a (fun b => Buffer.AddStartBuf b k) (TagList.AddStart a (buf_size w k))
    (TagList.AddStart a (buf_size w k)) w1.

(** packet.h:804-810 [AddTrailer(const ConstPacketBuffer&)]. *)
Definition add_trailer_buf junk (i k : nat) (p : option nat) (w : world) : outcome world :=
  let! (w1, a) := make_private junk i p w in
  mutate junk a (fun b => Buffer.AddEndBuf b k) (TagList.AddEnd a (buf_size w k))
    (TagList.AddEnd a (buf_size w k)) w1.

(** packet.h:812-818 [RemoveHeader]. *)
Definition remove_header junk (i n : nat) (p : option nat) (w : world) : outcome world :=
  let! (w1, a) := make_private junk i p w in
  mutate junk a (fun k => Buffer.RemStart k n) (TagList.RemStart a n) (TagList.RemStart a n) w1.

(** packet.h:820-826 [RemoveTrailer]. *)
Definition remove_trailer junk (i n : nat) (p : option nat) (w : world) : outcome world :=
  let! (w1, a) := make_private junk i p w in
  mutate junk a (fun k => Buffer.RemEnd k n) (TagList.RemEnd a n) (TagList.RemEnd a n) w1.

(** packet.h:828-833 [AddByteTag]. *)
Definition add_byte_tag junk (i : nat) (id : N) (v : BV) (s n : nat) (p : option nat) (w : world) : outcome world :=
  let! (w1, a) := make_private junk i p w in
  on_bt (TagList.Insert a id v s n) w1.

(** packet.h:849-860 [AddPacketTag] with a copy of packet [q] as parameter: the tag has
    another copy, then the parameter is destroyed; in effect the reference of the
    parameter goes over to the tag. *)
Definition add_packet_tag junk (i : nat) (id : N) (q : option nat) (s n : nat) (p : option nat) (w : world)
  : outcome world :=
  let! w0 := add_ref q w in
  let! (w1, a) := make_private junk i p w0 in
  let! w2 := on_pt (TagList.Insert a id q s n) w1 in
  Done (set_pins w2 (match q with Some c => c :: w_pins w2 | None => w_pins w2 end)).

(** packet.h:875-891 [CopyTagsFrom]; [GetSize] is 768-771. *)
Definition copy_tags (p q : option nat) (w : world) : outcome world :=
  match p, q with
  | Some a, Some c =>
      let! y := get_body w a in
      let! z := get_body w c in
      if negb (buf_size w (y_buf y) =? buf_size w (y_buf z)) then Throw InvalidArgument
      else
        let! w1 := on_bt (TagList.Assign a c) w in
        on_pt (TagList.Assign a c) w1
  | _, _ => Done w
  end.

(** packet.h:901-913 [AddHeader(Packet)] with a copy of packet [q] as parameter. *)
Definition add_header_pkt junk (i : nat) (q p : option nat) (w : world) : outcome world :=
  match q with
  | None => Done w
  | Some c =>
      let! w0 := add_ref q w in
      let! (w1, a) := make_private junk i p w0 in
      let! z := get_body w1 c in
      let! w2 := mutate junk a (fun k => Buffer.AddStartBuf k (y_buf z)) (TagList.AddStartList a c)
                   (TagList.AddStartList a c) w1 in
      release junk q w2
  end.

(** packet.h:915-927 [AddTrailer(Packet)]. *)
Definition add_trailer_pkt junk (i : nat) (q p : option nat) (w : world) : outcome world :=
  match q with
  | None => Done w
  | Some c =>
      let! w0 := add_ref q w in
      let! (w1, a) := make_private junk i p w0 in
      let! z := get_body w1 c in
      let! w2 := mutate junk a (fun k => Buffer.AddEndBuf k (y_buf z)) (TagList.AddEndList a c)
                   (TagList.AddEndList a c) w1 in
      release junk q w2
  end.

(** packet.h:735-739, copy constructor. *)
Definition copy_new (p : option nat) (w : world) : outcome world :=
  let! w1 := add_ref p w in Done (add_var w1 p).

(** packet.h:893-899 [MakeFragment].  For [size > GetSize() - start] the code wraps around, which the
    assertions of the tag lists are meant to catch: [AssertFail]. *)
Definition make_fragment junk (start size : nat) (p : option nat) (w : world) : outcome world :=
  let f := length (w_vars w) in
  let! w1 := copy_new p w in
  let! w2 := remove_header junk f start p w1 in
  match var w2 f with
  | Some (Some a) =>
      let! y := get_body w2 a in
      let n := buf_size w2 (y_buf y) in
      if n <? size then AssertFail else remove_trailer junk f (n - size) (Some a) w2
  | _ => UB
  end.

(** packet.h:741-750, copy assignment to [i], which refers to [p], of a packet that refers
    to [q]. *)
Definition option_eqb (p q : option nat) : bool :=
  match p, q with Some a, Some b => a =? b | None, None => true | _, _ => false end.
Definition assign junk (i : nat) (p q : option nat) (w : world) : outcome world :=
  if option_eqb p q then Done w
  else
    let! w1 := release junk p w in
    add_ref q (set_var w1 i (Some q)).

(** packet.h:752-756, move constructor. *)
Definition move_new (i : nat) (p : option nat) (w : world) : world :=
  add_var (set_var w i (Some None)) p.

(** packet.h:758-766, move assignment: [Release] sets [body_] to null, then they are swapped. *)
Definition move_assign junk (i j : nat) (p q : option nat) (w : world) : outcome world :=
  if option_eqb p q then Done w
  else
    let! w1 := release junk p w in
    Done (set_var (set_var w1 i (Some q)) j (Some None)).

(** packet.h:721-728, constructor from buffer variable [k]. *)
Definition from_buf junk (k : nat) (w : world) : outcome world :=
  let! (w1, a) := new_body junk w in
  let! w2 := mutate junk a (fun b => Buffer.Assign b k) (TagList.AddEnd a (buf_size w k))
               (TagList.AddEnd a (buf_size w k)) w1 in
  Done (add_var w2 (Some a)).

(** packet.h:773-776 [GetBuffer]: a new buffer variable. *)
Definition get_buffer junk (p : option nat) (w : world) : outcome world :=
  match p with
  | None => on_buf junk (Buffer.New 0) w
  | Some a => let! y := get_body w a in on_buf junk (Buffer.Copy (y_buf y)) w
  end.

(** packet.h:866-873 [GetPacketTag]: a new packet variable. *)
Definition get_packet_tag (id : N) (offset : nat) (p : option nat) (w : world) : outcome world :=
  match p with
  | None => Throw TagNotFound
  | Some a =>
      match TagList.var (w_pt w) a with
      | None => UB
      | Some l => let! q := TagList.get_tag id offset (TagList.w_heap (w_pt w)) l in copy_new q w
      end
  end.

(** packet.h:835-838 [HasByteTag], 861-864 [HasPacketTag], 840-847 [GetByteTag]. *)
Definition has_tag {V} (t : TagList.world V) (id : N) (offset : nat) (p : option nat) : outcome bool :=
  match p with
  | None => Done false
  | Some a =>
      match TagList.var t a with
      | None => UB
      | Some l => TagList.exists_tag id offset (TagList.w_heap t) l
      end
  end.
Definition get_byte_tag (id : N) (offset : nat) (p : option nat) (w : world) : outcome BV :=
  match p with
  | None => Throw TagNotFound
  | Some a =>
      match TagList.var (w_bt w) a with
      | None => UB
      | Some l => TagList.get_tag id offset (TagList.w_heap (w_bt w)) l
      end
  end.

(** ** Programs over any number of packets and buffers *)

Inductive op :=
| New
| FromBuf (k : nat)
| Copy (i : nat)
| MoveNew (i : nat)
| Assign (i j : nat)
| MoveAssign (i j : nat)
| Swap (i j : nat)
| Destroy (i : nat)
| AddHeader (i n : nat)
| AddTrailer (i n : nat)
| AddHeaderBuf (i k : nat)
| AddTrailerBuf (i k : nat)
| RemHeader (i n : nat)
| RemTrailer (i n : nat)
| AddHeaderPkt (i j : nat)
| AddTrailerPkt (i j : nat)
| AddByteTag (i : nat) (id : N) (v : BV) (s n : nat)
| AddPacketTag (i : nat) (id : N) (j s n : nat)
| GetPacketTag (i : nat) (id : N) (offset : nat)
| CopyTags (i j : nat)
| MakeFrag (i s n : nat)
| GetBuffer (i : nat)
| OnBuf (o : Buffer.op).          (* a statement on buffers of the user *)

(** The buffer variables that a statement names. *)
Definition mentions (o : Buffer.op) : list nat :=
  match o with
  | Buffer.New _ | Buffer.NewZero _ _ _ | Buffer.DeepCopy _ => []
  | Buffer.Copy i | Buffer.MoveNew i | Buffer.Destroy i | Buffer.AddStart i _ | Buffer.AddStartBytes i _
  | Buffer.AddEnd i _ | Buffer.AddEndBytes i _ | Buffer.RemStart i _ | Buffer.RemEnd i _
  | Buffer.Fragment i _ _ | Buffer.Write i _ _ => [i]
  | Buffer.Assign i j | Buffer.MoveAssign i j | Buffer.Swap i j | Buffer.AddStartBuf i j
  | Buffer.AddEndBuf i j => [i; j]
  end.
(** The buffer of a body is private. *)
Definition owned (w : world) (k : nat) : bool :=
  existsb (fun y => match y with Some y => k =? y_buf y | None => false end) (w_bodies w).

(** packet.h:730-733, destructor; 929-932 [swap]. *)
Definition step (junk : nat -> nat -> N) (o : op) (w : world) : outcome world :=
  let on i (f : option nat -> outcome world) :=
    match var w i with Some p => f p | None => Done w end in
  let user k (r : outcome world) :=
    if owned w k then Done w else match Buffer.var (w_buf w) k with Some _ => r | None => Done w end in
  match o with
  | New => Done (add_var w None)
  | FromBuf k => user k (from_buf junk k w)
  | Copy i => on i (fun p => copy_new p w)
  | MoveNew i => on i (fun p => Done (move_new i p w))
  | Assign i j => on i (fun p => on j (fun q => assign junk i p q w))
  | MoveAssign i j => on i (fun p => on j (fun q => move_assign junk i j p q w))
  | Swap i j => on i (fun p => on j (fun q => Done (set_var (set_var w i (Some q)) j (Some p))))
  | Destroy i => on i (fun p => let! w1 := release junk p w in Done (set_var w1 i None))
  | AddHeader i n => on i (fun p => add_header junk i n p w)
  | AddTrailer i n => on i (fun p => add_trailer junk i n p w)
  | AddHeaderBuf i k => on i (fun p => user k (add_header_buf junk i k p w))
  | AddTrailerBuf i k => on i (fun p => user k (add_trailer_buf junk i k p w))
  | RemHeader i n => on i (fun p => remove_header junk i n p w)
  | RemTrailer i n => on i (fun p => remove_trailer junk i n p w)
  | AddHeaderPkt i j => on i (fun p => on j (fun q => add_header_pkt junk i q p w))
  | AddTrailerPkt i j => on i (fun p => on j (fun q => add_trailer_pkt junk i q p w))
  | AddByteTag i id v s n => on i (fun p => add_byte_tag junk i id v s n p w)
  | AddPacketTag i id j s n => on i (fun p => on j (fun q => add_packet_tag junk i id q s n p w))
  | GetPacketTag i id k => on i (fun p => get_packet_tag id k p w)
  | CopyTags i j => on i (fun p => on j (fun q => copy_tags p q w))
  | MakeFrag i s n => on i (fun p => make_fragment junk s n p w)
  | GetBuffer i => on i (fun p => get_buffer junk p w)
  | OnBuf o => if existsb (owned w) (mentions o) then Done w else on_buf junk o w
  end.

(** The functions that throw do so before they change anything, so that a program that
    catches the exception goes on as before. *)
Fixpoint steps junk (l : list op) (w : world) : outcome world :=
  match l with
  | [] => Done w
  | o :: r =>
      match step junk o w with
      | Throw _ => steps junk r w
      | x => let! w1 := x in steps junk r w1
      end
  end.

Definition init : world := mk_world Buffer.init TagList.init TagList.init [] [] [].

End Packet.
Arguments world BV : clear implicits.
Arguments op BV : clear implicits.
