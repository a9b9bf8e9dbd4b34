(** Specification of packets over zero-compressed buffers: byte strings. *)
From Verif Require Import Base Buffer BufferSpec ZcIter ZcBuffer ZcBufferSpec ZcPacket.

(** What a reference shows: the bytes of the buffer, which iterators read. *)
Definition zp_shows (w : zpworld) (p : option nat) : option (list N) :=
  match p with
  | None => Some []
  | Some a =>
      match nth_error (zp_bodies w) a with
      | Some (Some y) => zbytes_of (zp_buf w) (zy_buf y)
      | _ => None
      end
  end.
Definition zpacket_of (w : zpworld) (i : nat) : option (list N) :=
  match zp_var w i with Some p => zp_shows w p | None => None end.
(** What buffer variable [k] of the user shows. *)
Definition zp_user (w : zpworld) (k : nat) : option (list N) :=
  if zp_owned w k then None else zbytes_of (zp_buf w) k.
Definition zpackets (w : zpworld) : strings := map (zpacket_of w) (seq 0 (length (zp_vars w))).

(** The reference that variable [i] holds. *)
Definition zp_ref (w : zpworld) (i : nat) : option nat := match zp_var w i with Some p => p | None => None end.

(** What a statement does to packets as byte strings; [x] are the bytes that
    [AddHeader(size)] and [AddTrailer(size)] bring in, whose values nobody promises.  The
    state [w] provides the bytes of buffers of the user, and whether two packets share. *)
Definition zpspec (w : zpworld) (x : list N) (o : zpop) (A : strings) : strings :=
  let on i (f : list N -> strings) := match str A i with Some s => f s | None => A end in
  let user k (f : list N -> strings) := match zp_user w k with Some s => f s | None => A end in
  match o with
  | PNew => A ++ [Some []]
  | PFromBuf k => user k (fun s => A ++ [Some s])
  | PCopy i => on i (fun s => A ++ [Some s])
  | PMoveNew i => on i (fun s => upd A i (Some []) ++ [Some s])
  | PAssign i j => on i (fun _ => on j (fun t => upd A i (Some t)))
  | PMoveAssign i j => on i (fun _ => on j (fun t =>
      if zp_same (zp_ref w i) (zp_ref w j) then A else upd (upd A i (Some t)) j (Some [])))
  | PSwap i j => on i (fun s => on j (fun t => upd (upd A i (Some t)) j (Some s)))
  | PDestroy i => on i (fun _ => upd A i None)
  | PAddHeader i n => on i (fun s => upd A i (Some (x ++ s)))
  | PAddTrailer i n => on i (fun s => upd A i (Some (s ++ x)))
  | PAddHeaderBuf i k => on i (fun s => user k (fun t => upd A i (Some (t ++ s))))
  | PAddTrailerBuf i k => on i (fun s => user k (fun t => upd A i (Some (s ++ t))))
  | PRemHeader i n => on i (fun s => upd A i (Some (skipn n s)))
  | PRemTrailer i n => on i (fun s => upd A i (Some (drop_last n s)))
  | PAddHeaderPkt i j => on i (fun s => on j (fun t => upd A i (Some (t ++ s))))
  | PAddTrailerPkt i j => on i (fun s => on j (fun t => upd A i (Some (s ++ t))))
  | PMakeFrag i st n => on i (fun s => A ++ [Some (firstn n (skipn st s))])
  | PGetBuffer _ | POnBuf _ => A
  end.
(** The number of unspecified bytes. *)
Definition zp_extra (o : zpop) : nat := match o with PAddHeader _ n | PAddTrailer _ n => n | _ => 0 end.

(** The buffer that [AddHeader(size)], [AddTrailer(size)] and [GetBuffer] return, the last
    buffer variable, shows the new bytes, and those of the packet. *)
Definition zp_last (w : zpworld) : option (list N) := zp_user w (length (zw_bufs (zp_buf w)) - 1).
Definition zp_returned (w : zpworld) (x : list N) (o : zpop) (w' : zpworld) : Prop :=
  match o with
  | PAddHeader i _ | PAddTrailer i _ => zp_var w i <> None -> zp_last w' = Some x
  | PGetBuffer i => forall s, zpacket_of w i = Some s -> zp_last w' = Some s
  | _ => True
  end.

(** The packet refers to zeros alone, for which there is no storage. *)
Definition zp_bare (w : zpworld) (i : nat) : Prop :=
  exists a y, zp_var w i = Some (Some a) /\ nth_error (zp_bodies w) a = Some (Some y) /\
    bare (zp_buf w) (zy_buf y).

(** No buffer is made from one of another class. *)
Definition zp_no_deep (o : zpop) : Prop := match o with POnBuf zo => no_deep zo | _ => True end.
(** What is added is not made of zeros alone without a storage; what the user does with
    buffers is sensible, and iterators write only where nothing is shared. *)
Definition zp_sensible (o : zpop) (w : zpworld) : Prop :=
  match o with
  | PAddHeaderBuf _ k | PAddTrailerBuf _ k => ~ bare (zp_buf w) k
  | PAddHeaderPkt _ j | PAddTrailerPkt _ j => ~ zp_bare w j
  | POnBuf zo => sensible zo (zp_buf w) /\ zwrites_alone zo (zp_buf w)
  | _ => True
  end.
(** A program that executes only such statements. *)
Fixpoint zp_cleanly (junk : nat -> nat -> N) (l : list zpop) (w : zpworld) : Prop :=
  match l with
  | [] => True
  | o :: r => zp_no_deep o /\ zp_sensible o w /\
      match zpstep junk o w with Done w1 => zp_cleanly junk r w1 | _ => True end
  end.

(** Arguments out of range. *)
Definition zp_bad_args (o : zpop) (w : zpworld) : bool :=
  match o with
  | PRemHeader i n | PRemTrailer i n =>
      match zpacket_of w i with Some s => length s <? n | None => false end
  | PMakeFrag i st n => match zpacket_of w i with Some s => length s <? st + n | None => false end
  | POnBuf zo => if existsb (zp_owned w) (zmentions zo) then false else zbad_args zo (zp_buf w)
  | _ => false
  end.

(** How many packets refer to a body. *)
Definition zp_references (w : zpworld) (a : nat) : nat :=
  length (filter (fun p => match p with Some (Some b) => a =? b | _ => false end) (zp_vars w)).

(** Zero areas come with room for something else, so that there is a storage. *)
Definition zroom (zo : zop) : Prop := match zo with ZBase (NewZero s z e) => z = 0 \/ 0 < s + e | _ => True end.
Definition zp_roomy (o : zpop) : Prop := match o with POnBuf zo => zroom zo | _ => True end.
(** Statements that ask for nothing else: no buffer of another class, no bare zeros, no
    buffer added in front of itself, no writing through iterators. *)
Definition zp_plain (o : zpop) : Prop :=
  zp_no_deep o /\ zp_roomy o /\
  match o with
  | POnBuf (ZBase (AddStartBuf i j)) => i <> j
  | POnBuf (ZBase (Write _ _ _)) => False
  | _ => True
  end.

(** Cutting packet [i] into fragments of the given sizes from offset [off], each of which is
    added to the end of packet [f]; [g] is the first new packet. *)
Fixpoint zp_reassemble (i f off g : nat) (sizes : list nat) : list zpop :=
  match sizes with
  | [] => []
  | n :: r => PMakeFrag i off n :: PAddTrailerPkt f g :: zp_reassemble i f (off + n) (S g) r
  end.
