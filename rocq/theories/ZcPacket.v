(** Model of packets over zero-compressed buffers: network/packet/packet.h with
    NSFX_PACKET_USES_ZERO_COMPRESSED_BUFFER defined (network/packet/packet-buffer.h 74-78),
    over ZcBuffer.v.

    Packets over [Buffer] are in Packet.v.  Here tags are left out: the buffer is all that
    differs.  What the tag lists contribute is their assertion that no more is removed than
    there is (basic-tag-list.h 538-544, 577-583; the lists have the size of the buffer).
    Otherwise the simplifications are those of Packet.v and ZcBuffer.v. *)
From Verif Require Import Base Buffer ZcIter ZcBuffer.

(** packet.h:671-697 [Body]; its [buffer_] is variable [zy_buf] of the buffers. *)
Record zbody := mk_zbody { zy_rc : nat; zy_buf : nat }.

(** Bodies by address, [None] when deleted; packets, [None] when destroyed; a packet is
    [body_], where [None] is null. *)
Record zpworld := mk_zp {
  zp_buf : zworld;
  zp_bodies : list (option zbody);
  zp_vars : list (option (option nat))
}.

Definition zp_var (w : zpworld) (i : nat) : option (option nat) :=
  match nth_error (zp_vars w) i with Some o => o | None => None end.
Definition zp_set (w : zpworld) (i : nat) (p : option (option nat)) : zpworld :=
  mk_zp (zp_buf w) (zp_bodies w) (upd (zp_vars w) i p).
Definition zp_add (w : zpworld) (p : option nat) : zpworld :=
  mk_zp (zp_buf w) (zp_bodies w) (zp_vars w ++ [Some p]).
(** Dereference of [body_]. *)
Definition zp_get (w : zpworld) (a : nat) : outcome zbody :=
  match nth_error (zp_bodies w) a with Some (Some y) => Done y | _ => UB end.
Definition zp_put (w : zpworld) (a : nat) (y : option zbody) : zpworld :=
  mk_zp (zp_buf w) (upd (zp_bodies w) a y) (zp_vars w).
(** A statement on buffers. *)
Definition zp_on junk (zo : zop) (w : zpworld) : outcome zpworld :=
  let! b := zstep junk zo (zp_buf w) in Done (mk_zp b (zp_bodies w) (zp_vars w)).
(** zc-buffer.h:551-554 [GetSize] of a buffer variable. *)
Definition zp_size (w : zpworld) (k : nat) : nat :=
  match zvar (zp_buf w) k with Some z => z_size z | None => 0 end.

(** A body whose buffer is the next buffer variable. *)
Definition zp_body (w : zpworld) (k : nat) : zpworld * nat :=
  (mk_zp (zp_buf w) (zp_bodies w ++ [Some (mk_zbody 1 k)]) (zp_vars w), length (zp_bodies w)).
(** packet.h:701-704 [Body()]; its buffer is empty (zc-buffer.h:386-393), as one of capacity 0 is. *)
Definition zp_new_body junk (w : zpworld) : outcome (zpworld * nat) :=
  let! w1 := zp_on junk (ZBase (New 0)) w in
  Done (zp_body w1 (length (zw_bufs (zp_buf w)))).
(** packet.h:706-712 [Body(const Body&)]. *)
Definition zp_copy_body junk (y : zbody) (w : zpworld) : outcome (zpworld * nat) :=
  let! w1 := zp_on junk (ZBase (Copy (zy_buf y))) w in
  Done (zp_body w1 (length (zw_bufs (zp_buf w)))).

(** packet.h:934-940 [AddRef]. *)
Definition zp_add_ref (p : option nat) (w : zpworld) : outcome zpworld :=
  match p with
  | None => Done w
  | Some a => let! y := zp_get w a in Done (zp_put w a (Some (mk_zbody (S (zy_rc y)) (zy_buf y))))
  end.
(** packet.h:942-952 [Release], without the assignment to [body_]. *)
Definition zp_release junk (p : option nat) (w : zpworld) : outcome zpworld :=
  match p with
  | None => Done w
  | Some a =>
      let! y := zp_get w a in
      match zy_rc y with
      | O => UB
      | S O => let! w1 := zp_on junk (ZBase (Destroy (zy_buf y))) w in Done (zp_put w1 a None)
      | S n => Done (zp_put w a (Some (mk_zbody n (zy_buf y))))
      end
  end.
(** packet.h:942-952 [Release] of variable [i], which refers to [p].  Whether [body_] is
    set to null before or after the count is decremented makes no difference. *)
Definition zp_release_var junk (i : nat) (p : option nat) (w : zpworld) : outcome zpworld :=
  zp_release junk p (zp_set w i (Some None)).

(** packet.h:954-970 [MakePrivate] of variable [i], which refers to [p]; the address of the
    body it refers to afterwards. *)
Definition zp_private junk (i : nat) (p : option nat) (w : zpworld) : outcome (zpworld * nat) :=
  match p with
  | None => let! (w1, a) := zp_new_body junk w in Done (zp_set w1 i (Some (Some a)), a)
  | Some a =>
      let! y := zp_get w a in
      if 1 <? zy_rc y then
        let! (w1, a') := zp_copy_body junk y w in
        let! y1 := zp_get w1 a in
        Done (zp_set (zp_put w1 a (Some (mk_zbody (zy_rc y1 - 1) (zy_buf y1)))) i (Some (Some a')), a')
      else Done (w, a)
  end.
(** The statement that most functions apply to the buffer of a private body. *)
Definition zp_mutate junk (i : nat) (p : option nat) (f : nat -> zop) (w : zpworld) : outcome (zpworld * nat) :=
  let! (w1, a) := zp_private junk i p w in
  let! y := zp_get w1 a in
  let! w2 := zp_on junk (f (zy_buf y)) w1 in
  Done (w2, a).

(** packet.h:778-785 [AddHeader(size)]: the returned buffer becomes a new buffer variable. *)
Definition zp_add_header junk (i n : nat) (p : option nat) (w : zpworld) : outcome zpworld :=
  let! (w1, a) := zp_mutate junk i p (fun k => ZBase (AddStart k n)) w in
  let! y := zp_get w1 a in
  zp_on junk (ZBase (Fragment (zy_buf y) 0 n)) w1.
(** packet.h:787-794 [AddTrailer(size)]. *)
Definition zp_add_trailer junk (i n : nat) (p : option nat) (w : zpworld) : outcome zpworld :=
  let! (w1, a) := zp_mutate junk i p (fun k => ZBase (AddEnd k n)) w in
  let! y := zp_get w1 a in
  zp_on junk (ZBase (Fragment (zy_buf y) (zp_size w1 (zy_buf y) - n) n)) w1.
(** packet.h:796-810 [AddHeader] and [AddTrailer] of buffer variable [k]. *)
Definition zp_add_header_buf junk (i k : nat) (p : option nat) (w : zpworld) : outcome zpworld :=
  let! (w1, _) := zp_mutate junk i p (fun b => ZBase (AddStartBuf b k)) w in Done w1.
Definition zp_add_trailer_buf junk (i k : nat) (p : option nat) (w : zpworld) : outcome zpworld :=
  let! (w1, _) := zp_mutate junk i p (fun b => ZBase (AddEndBuf b k)) w in Done w1.
(** The size of a packet: packet.h:768-771 [GetSize]. *)
Definition zp_get_size (p : option nat) (w : zpworld) : outcome nat :=
  match p with
  | None => Done 0
  | Some a => let! y := zp_get w a in Done (zp_size w (zy_buf y))
  end.
(** packet.h:812-818 [RemoveHeader], 820-826 [RemoveTrailer]; the assertion is that of the tag
    lists, which comes after the buffer was changed. *)
Definition zp_remove junk (i n : nat) (f : nat -> op) (p : option nat) (w : zpworld) : outcome zpworld :=
  let! s := zp_get_size p w in
  if s <? n then AssertFail
  else let! (w1, _) := zp_mutate junk i p (fun k => ZBase (f k)) w in Done w1.
Definition zp_rem_header junk (i n : nat) := zp_remove junk i n (fun k => RemStart k n).
Definition zp_rem_trailer junk (i n : nat) := zp_remove junk i n (fun k => RemEnd k n).

(** packet.h:901-913 [AddHeader(Packet)], 915-927 [AddTrailer(Packet)], with a copy of packet
    [q] as parameter, which is destroyed at the end. *)
Definition zp_add_pkt junk (i : nat) (f : nat -> nat -> op) (q p : option nat) (w : zpworld) : outcome zpworld :=
  match q with
  | None => Done w
  | Some c =>
      let! w0 := zp_add_ref q w in
      let! z := zp_get w0 c in
      let! (w1, _) := zp_mutate junk i p (fun k => ZBase (f k (zy_buf z))) w0 in
      zp_release junk q w1
  end.

(** packet.h:735-739, copy constructor. *)
Definition zp_copy_new (p : option nat) (w : zpworld) : outcome zpworld :=
  let! w1 := zp_add_ref p w in Done (zp_add w1 p).
(** packet.h:893-899 [MakeFragment].  For a size larger than what is left the code
    wraps around, which the assertions of the tag lists catch. *)
Definition zp_make_fragment junk (start size : nat) (p : option nat) (w : zpworld) : outcome zpworld :=
  let f := length (zp_vars w) in
  let! w1 := zp_copy_new p w in
  let! w2 := zp_rem_header junk f start p w1 in
  match zp_var w2 f with
  | Some q =>
      let! n := zp_get_size q w2 in
      if n <? size then AssertFail else zp_rem_trailer junk f (n - size) q w2
  | None => UB
  end.
(** packet.h:741-750, copy assignment to [i], which refers to [p], of a packet that refers to [q]. *)
Definition zp_same (p q : option nat) : bool :=
  match p, q with Some a, Some b => a =? b | None, None => true | _, _ => false end.
Definition zp_assign junk (i : nat) (p q : option nat) (w : zpworld) : outcome zpworld :=
  if zp_same p q then Done w
  else
    let! w1 := zp_release_var junk i p w in
    zp_add_ref q (zp_set w1 i (Some q)).
(** packet.h:758-766, move assignment. *)
Definition zp_move_assign junk (i j : nat) (p q : option nat) (w : zpworld) : outcome zpworld :=
  if zp_same p q then Done w
  else
    let! w1 := zp_release_var junk i p w in
    Done (zp_set (zp_set w1 i (Some q)) j (Some None)).
(** packet.h:721-728, constructor from buffer variable [k]. *)
Definition zp_from_buf junk (k : nat) (w : zpworld) : outcome zpworld :=
  let! (w1, a) := zp_new_body junk w in
  let! y := zp_get w1 a in
  let! w2 := zp_on junk (ZBase (Buffer.Assign (zy_buf y) k)) w1 in
  Done (zp_add w2 (Some a)).
(** packet.h:773-776 [GetBuffer]: a new buffer variable. *)
Definition zp_get_buffer junk (p : option nat) (w : zpworld) : outcome zpworld :=
  match p with
  | None => zp_on junk (ZBase (New 0)) w
  | Some a => let! y := zp_get w a in zp_on junk (ZBase (Copy (zy_buf y))) w
  end.

(** ** Programs over any number of packets and buffers *)

Inductive zpop :=
| PNew
| PFromBuf (k : nat)
| PCopy (i : nat)
| PMoveNew (i : nat)
| PAssign (i j : nat)
| PMoveAssign (i j : nat)
| PSwap (i j : nat)
| PDestroy (i : nat)
| PAddHeader (i n : nat)
| PAddTrailer (i n : nat)
| PAddHeaderBuf (i k : nat)
| PAddTrailerBuf (i k : nat)
| PRemHeader (i n : nat)
| PRemTrailer (i n : nat)
| PAddHeaderPkt (i j : nat)
| PAddTrailerPkt (i j : nat)
| PMakeFrag (i s n : nat)
| PGetBuffer (i : nat)
| POnBuf (zo : zop).                  (* a statement on buffers of the user *)

(** The buffer variables that a statement names. *)
Definition zmentions (zo : zop) : list nat :=
  match zo with
  | ZBase o =>
    match o with
    | New _ | NewZero _ _ _ | DeepCopy _ => []
    | Copy i | MoveNew i | Destroy i | AddStart i _ | AddStartBytes i _
    | AddEnd i _ | AddEndBytes i _ | RemStart i _ | RemEnd i _
    | Fragment i _ _ | Write i _ _ => [i]
    | Buffer.Assign i j | MoveAssign i j | Swap i j | AddStartBuf i j | AddEndBuf i j => [i; j]
    end
  | MakeReal i | Realize i => [i]
  end.
(** The buffer of a body is private. *)
Definition zp_owned (w : zpworld) (k : nat) : bool :=
  existsb (fun y => match y with Some y => k =? zy_buf y | None => false end) (zp_bodies w).

(** One statement of a program (packet.h:730-733 destructor, 752-756 move constructor, 929-932
    [swap]).  Statements that name a variable that does not exist do nothing. *)
Definition zpstep (junk : nat -> nat -> N) (o : zpop) (w : zpworld) : outcome zpworld :=
  let on i (f : option nat -> outcome zpworld) :=
    match zp_var w i with Some p => f p | None => Done w end in
  let user k (r : outcome zpworld) :=
    if zp_owned w k then Done w else match zvar (zp_buf w) k with Some _ => r | None => Done w end in
  match o with
  | PNew => Done (zp_add w None)
  | PFromBuf k => user k (zp_from_buf junk k w)
  | PCopy i => on i (fun p => zp_copy_new p w)
  | PMoveNew i => on i (fun p => Done (zp_add (zp_set w i (Some None)) p))
  | PAssign i j => on i (fun p => on j (fun q => zp_assign junk i p q w))
  | PMoveAssign i j => on i (fun p => on j (fun q => zp_move_assign junk i j p q w))
  | PSwap i j => on i (fun p => on j (fun q => Done (zp_set (zp_set w i (Some q)) j (Some p))))
  | PDestroy i => on i (fun p => let! w1 := zp_release_var junk i p w in Done (zp_set w1 i None))
  | PAddHeader i n => on i (fun p => zp_add_header junk i n p w)
  | PAddTrailer i n => on i (fun p => zp_add_trailer junk i n p w)
  | PAddHeaderBuf i k => on i (fun p => user k (zp_add_header_buf junk i k p w))
  | PAddTrailerBuf i k => on i (fun p => user k (zp_add_trailer_buf junk i k p w))
  | PRemHeader i n => on i (fun p => zp_rem_header junk i n p w)
  | PRemTrailer i n => on i (fun p => zp_rem_trailer junk i n p w)
  | PAddHeaderPkt i j => on i (fun p => on j (fun q => zp_add_pkt junk i AddStartBuf q p w))
  | PAddTrailerPkt i j => on i (fun p => on j (fun q => zp_add_pkt junk i AddEndBuf q p w))
  | PMakeFrag i s n => on i (fun p => zp_make_fragment junk s n p w)
  | PGetBuffer i => on i (fun p => zp_get_buffer junk p w)
  | POnBuf zo => if existsb (zp_owned w) (zmentions zo) then Done w else zp_on junk zo w
  end.
Fixpoint zpsteps junk (l : list zpop) (w : zpworld) : outcome zpworld :=
  match l with
  | [] => Done w
  | o :: r => let! w1 := zpstep junk o w in zpsteps junk r w1
  end.
Definition zpinit : zpworld := mk_zp zinit [] [].
