(** Specification of packets: byte strings with tags on ranges of their bytes. *)
From Verif Require Import Base Packet.
From Verif Require Buffer BufferSpec TagList TagListSpec.

Section Spec.
Context {BV : Type}.
Notation tag := (TagList.tag_index BV).
Notation ptag := (TagList.tag_index (option nat)).

(** Ranges are relative to the first byte of the packet.  The value of a packet tag is a
    reference to a packet. *)
Record pkt := mk_pkt { k_bytes : list N; k_tags : list tag; k_ptags : list ptag }.
Definition no_pkt : pkt := mk_pkt [] [] [].

(** What a reference shows: the bytes of the buffer and the tags that the lists show. *)
Definition content_at (w : world BV) (p : option nat) : option pkt :=
  match p with
  | None => Some no_pkt
  | Some a =>
      match nth_error (w_bodies w) a with
      | Some (Some y) =>
          match BufferSpec.bytes_of (w_buf w) (y_buf y), TagListSpec.content_of (w_bt w) a,
                TagListSpec.content_of (w_pt w) a with
          | Some s, Some (_, xs), Some (_, ys) => Some (mk_pkt s xs ys)
          | _, _, _ => None
          end
      | _ => None
      end
  end.
(** What packet variable [i] shows. *)
Definition packet_of (w : world BV) (i : nat) : option pkt :=
  match var w i with Some p => content_at w p | None => None end.
(** What buffer variable [k] of the user shows. *)
Definition buffer_of (w : world BV) (k : nat) : option (list N) :=
  if owned w k then None else BufferSpec.bytes_of (w_buf w) k.

(** Packets as independent values. *)
Notation pkts := (list (option pkt)).
Definition packets (w : world BV) : pkts := map (packet_of w) (seq 0 (length (w_vars w))).
Definition pk (A : pkts) (i : nat) : option pkt := match nth_error A i with Some o => o | None => None end.

Definition len (p : pkt) : nat := length (k_bytes p).
(** Bytes in front; tags keep their bytes. *)
Definition front (s : list N) (p : pkt) : pkt :=
  mk_pkt (s ++ k_bytes p) (map (TagListSpec.shift (Z.of_nat (length s))) (k_tags p))
    (map (TagListSpec.shift (Z.of_nat (length s))) (k_ptags p)).
Definition back (s : list N) (p : pkt) : pkt := mk_pkt (k_bytes p ++ s) (k_tags p) (k_ptags p).
(** [n] bytes from position [s] on, and the tags that have one of these bytes. *)
Definition slice (s n : nat) (p : pkt) : pkt :=
  mk_pkt (firstn n (skipn s (k_bytes p)))
    (filter (TagListSpec.touches n) (map (TagListSpec.shift (- Z.of_nat s)) (k_tags p)))
    (filter (TagListSpec.touches n) (map (TagListSpec.shift (- Z.of_nat s)) (k_ptags p))).
(** Packet [q] in front of or behind [p]: the tags of [q] are added unless there is one with the
    same id and range.  [xs] and [ys] are the tags of [q], to which also belong tags that
    lost their bytes; where these come to lie on a byte they are added as well. *)
Definition join_front (q : pkt) (xs : list tag) (ys : list ptag) (p : pkt) : pkt :=
  mk_pkt (k_bytes q ++ k_bytes p)
    (TagListSpec.add_new (map (TagListSpec.shift (Z.of_nat (len q))) (k_tags p))
       (filter (TagListSpec.touches (len p + len q)) xs))
    (TagListSpec.add_new (map (TagListSpec.shift (Z.of_nat (len q))) (k_ptags p))
       (filter (TagListSpec.touches (len p + len q)) ys)).
Definition join_back (q : pkt) (xs : list tag) (ys : list ptag) (p : pkt) : pkt :=
  mk_pkt (k_bytes p ++ k_bytes q)
    (TagListSpec.add_new (k_tags p)
       (filter (TagListSpec.touches (len p + len q)) (map (TagListSpec.shift (Z.of_nat (len p))) xs)))
    (TagListSpec.add_new (k_ptags p)
       (filter (TagListSpec.touches (len p + len q)) (map (TagListSpec.shift (Z.of_nat (len p))) ys))).

(** The reference that variable [i] holds, and all tags it refers to. *)
Definition ref (w : world BV) (i : nat) : option nat := match var w i with Some p => p | None => None end.
Definition all_in {V} (t : TagList.world V) (p : option nat) : list (TagList.tag_index V) :=
  match p with
  | Some a => match TagListSpec.full_of t a with Some (_, xs) => xs | None => [] end
  | None => []
  end.
Definition bytes_in (w : world BV) (k : nat) : list N :=
  match buffer_of w k with Some s => s | None => [] end.

(** What a statement does to packets; [x] are the bytes that [AddHeader(size)] and [AddTrailer(size)]
    bring in, whose values nobody promises.  The state [w] provides the bytes of buffers of the
    user, which variables refer to the same packet, and what references of tags show. *)
Definition pspec (w : world BV) (x : list N) (o : op BV) (A : pkts) : pkts :=
  let on i (f : pkt -> pkts) := match pk A i with Some p => f p | None => A end in
  let user k (r : pkts) := match buffer_of w k with Some _ => r | None => A end in
  match o with
  | New => A ++ [Some no_pkt]
  | FromBuf k => user k (A ++ [Some (mk_pkt (bytes_in w k) [] [])])
  | Copy i => on i (fun p => A ++ [Some p])
  | MoveNew i => on i (fun p => upd A i (Some no_pkt) ++ [Some p])
  | Assign i j => on i (fun _ => on j (fun q => upd A i (Some q)))
  | MoveAssign i j => on i (fun _ => on j (fun q =>
      if option_eqb (ref w i) (ref w j) then A else upd (upd A i (Some q)) j (Some no_pkt)))
  | Swap i j => on i (fun p => on j (fun q => upd (upd A i (Some q)) j (Some p)))
  | Destroy i => on i (fun _ => upd A i None)
  | AddHeader i n => on i (fun p => upd A i (Some (front x p)))
  | AddTrailer i n => on i (fun p => upd A i (Some (back x p)))
  | AddHeaderBuf i k => on i (fun p => user k (upd A i (Some (front (bytes_in w k) p))))
  | AddTrailerBuf i k => on i (fun p => user k (upd A i (Some (back (bytes_in w k) p))))
  | RemHeader i n => on i (fun p => upd A i (Some (slice n (len p - n) p)))
  | RemTrailer i n => on i (fun p => upd A i (Some (slice 0 (len p - n) p)))
  | AddHeaderPkt i j => on i (fun p => on j (fun q =>
      upd A i (Some (join_front q (all_in (w_bt w) (ref w j)) (all_in (w_pt w) (ref w j)) p))))
  | AddTrailerPkt i j => on i (fun p => on j (fun q =>
      upd A i (Some (join_back q (all_in (w_bt w) (ref w j)) (all_in (w_pt w) (ref w j)) p))))
  | AddByteTag i id v s n => on i (fun p => upd A i (Some (mk_pkt (k_bytes p)
      (k_tags p ++ [TagList.mk_idx id v (Z.of_nat s) (Z.of_nat (s + n))]) (k_ptags p))))
  | AddPacketTag i id j s n => on i (fun p => on j (fun _ => upd A i (Some (mk_pkt (k_bytes p) (k_tags p)
      (k_ptags p ++ [TagList.mk_idx id (ref w j) (Z.of_nat s) (Z.of_nat (s + n))])))))
  | GetPacketTag i id k => on i (fun p =>
      match find (fun x => (TagList.x_id x =? id)%N && TagListSpec.covers (Z.of_nat k) x) (k_ptags p) with
      | Some x => A ++ [content_at w (TagList.x_val x)]
      | None => A
      end)
  | CopyTags i j => on i (fun p => on j (fun q =>
      match ref w i, ref w j with
      | Some _, Some _ => upd A i (Some (mk_pkt (k_bytes p) (k_tags q) (k_ptags q)))
      | _, _ => A
      end))
  | MakeFrag i s n => on i (fun p => A ++ [Some (slice s n p)])
  | GetBuffer _ | OnBuf _ => A
  end.
(** The number of unspecified bytes. *)
Definition extra (o : op BV) : nat := match o with AddHeader _ n | AddTrailer _ n => n | _ => 0 end.

(** The buffer that [AddHeader(size)], [AddTrailer(size)] and [GetBuffer] return, the last buffer variable,
    shows the new bytes, and those of the packet. *)
Definition last_buffer (w : world BV) : option (list N) := buffer_of w (length (Buffer.w_bufs (w_buf w)) - 1).
Definition returned (w : world BV) (x : list N) (o : op BV) (w' : world BV) : Prop :=
  match o with
  | AddHeader i _ | AddTrailer i _ => var w i <> None -> last_buffer w' = Some x
  | GetBuffer i => forall p, packet_of w i = Some p -> last_buffer w' = Some (k_bytes p)
  | _ => True
  end.

(** Bytes [bs] written at position [off], and a list of such writes. *)
Definition overwrite (off : nat) (bs s : list N) : list N := firstn off s ++ bs ++ skipn (off + length bs) s.
Definition fill (ws : list (nat * list N)) (s : list N) : list N :=
  fold_left (fun s u => overwrite (fst u) (snd u) s) ws s.

(** The packets that a statement may change. *)
Definition target (o : op BV) (i : nat) : Prop :=
  match o with
  | New | FromBuf _ | Copy _ | GetPacketTag _ _ _ | MakeFrag _ _ _ | GetBuffer _ | OnBuf _ => False
  | MoveNew k | Assign k _ | Destroy k | AddHeader k _ | AddTrailer k _ | AddHeaderBuf k _
  | AddTrailerBuf k _ | RemHeader k _ | RemTrailer k _ | AddHeaderPkt k _ | AddTrailerPkt k _
  | AddByteTag k _ _ _ _ | AddPacketTag k _ _ _ _ | CopyTags k _ => i = k
  | MoveAssign k j | Swap k j => i = k \/ i = j
  end.

(** Which statements a history may contain.  The buffers that [AddHeader(size)] and
    [AddTrailer(size)] return are made in a way that spoils the bookkeeping at the other
    end of the buffer.  [lo] ([hi]) says that the history keeps it intact at the start (end).
    For [lo = hi = false] every statement is allowed. *)
Definition fits (lo hi : bool) (o : op BV) : Prop :=
  match o with
  | AddHeader _ _ => hi = false
  | AddTrailer _ _ => lo = false
  | OnBuf o => BufferSpec.keeps_dirty o \/ (lo = false /\ hi = false)
  | _ => True
  end.
(** Which statements do what they should in a state with such a history: bytes are added only
    where the bookkeeping is intact, iterators write only into buffers that share nothing, and
    [CopyTagsFrom] is only called on packets that share nothing. *)
Definition clean (lo hi : bool) (o : op BV) (w : world BV) : Prop :=
  match o with
  | AddHeaderBuf _ _ | AddHeaderPkt _ _ => lo = true
  | AddTrailerBuf _ _ | AddTrailerPkt _ _ => hi = true
  | OnBuf o =>
      (BufferSpec.adds_at_start o -> lo = true) /\ (BufferSpec.adds_at_end o -> hi = true) /\
      BufferSpec.no_self_start o /\ BufferSpec.writes_alone o (w_buf w)
  | CopyTags i _ => forall a, ref w i = Some a -> ~ In a (w_pins w) /\ forall j, j <> i -> var w j <> Some (Some a)
  | _ => True
  end.

(** A program that contains and executes only such statements. *)
Fixpoint cleanly (junk : nat -> nat -> N) (lo hi : bool) (l : list (op BV)) (w : world BV) : Prop :=
  match l with
  | [] => True
  | o :: r => fits lo hi o /\ clean lo hi o w /\
      match step junk o w with
      | Done w1 => cleanly junk lo hi r w1
      | Throw _ => cleanly junk lo hi r w
      | _ => True
      end
  end.
(** Byte [k] has a byte tag with this id; the value of the first such tag. *)
Definition on_byte {V} (id : N) (k : nat) (x : TagList.tag_index V) : bool :=
  (TagList.x_id x =? id)%N && TagListSpec.covers (Z.of_nat k) x.
Definition tagged (id : N) (k : nat) (p : pkt) : bool := existsb (on_byte id k) (k_tags p).
Definition tag_value (id : N) (k : nat) (p : pkt) : option BV :=
  option_map TagList.x_val (find (on_byte id k) (k_tags p)).
(** The references to a body: packets, and packet tags that were added. *)
Definition references (w : world BV) (a : nat) : nat :=
  length (filter (fun p => match p with Some (Some b) => a =? b | _ => false end) (w_vars w)) +
  length (filter (Nat.eqb a) (w_pins w)).

(** ** Taking packets apart and putting them together

    [mk_piece h s e t]: a packet with [h] bytes in front, then bytes [s] to [e] of the original, then
    [t] bytes. *)
Record piece := mk_piece { i_lead : nat; i_from : nat; i_to : nat; i_trail : nat }.
Definition grow_front (n : nat) (q : piece) : piece := mk_piece (n + i_lead q) (i_from q) (i_to q) (i_trail q).
Definition grow_back (n : nat) (q : piece) : piece := mk_piece (i_lead q) (i_from q) (i_to q) (i_trail q + n).
(** Without [n] bytes in front or at the end; [None] if these are not all there. *)
Definition cut_front (n : nat) (q : piece) : option piece :=
  if n <=? i_lead q then Some (mk_piece (i_lead q - n) (i_from q) (i_to q) (i_trail q))
  else if i_from q + (n - i_lead q) <=? i_to q
    then Some (mk_piece 0 (i_from q + (n - i_lead q)) (i_to q) (i_trail q))
    else None.
Definition cut_back (n : nat) (q : piece) : option piece :=
  if n <=? i_trail q then Some (mk_piece (i_lead q) (i_from q) (i_to q) (i_trail q - n))
  else if i_from q + (n - i_trail q) <=? i_to q
    then Some (mk_piece (i_lead q) (i_from q) (i_to q - (n - i_trail q)) 0)
    else None.
(** Two pieces that follow each other in the original. *)
Definition glue (q r : piece) : option piece :=
  if (i_trail q =? 0) && (i_lead r =? 0) && (i_to q =? i_from r)
  then Some (mk_piece (i_lead q) (i_from q) (i_to r) (i_trail r)) else None.
Definition piece_len (q : piece) : nat := i_lead q + (i_to q - i_from q) + i_trail q.
Definition obnd {A B} (o : option A) (f : A -> option B) : option B := match o with Some a => f a | None => None end.

(** Which packet variables are pieces, and which; [track w o g] is [g] after statement [o] in
    state [w].  Packets that get byte tags of their own are not tracked any more. *)
Definition pieces := nat -> option piece.
Definition put (g : pieces) (i : nat) (q : option piece) : pieces := fun j => if j =? i then q else g j.
Definition track (w : world BV) (o : op BV) (g : pieces) : pieces :=
  let new := length (w_vars w) in
  let on i (r : pieces) := match var w i with Some _ => r | None => g end in
  match o with
  | New | FromBuf _ => put g new None
  | GetPacketTag i _ _ => on i (put g new None)
  | Copy i => on i (put g new (g i))
  | MoveNew i => on i (put (put g i None) new (g i))
  | Assign i j => on i (on j (put g i (g j)))
  | MoveAssign i j => on i (on j (if option_eqb (ref w i) (ref w j) then g else put (put g i (g j)) j None))
  | Swap i j => on i (on j (put (put g i (g j)) j (g i)))
  | Destroy i => on i (put g i None)
  | AddHeader i n => on i (put g i (option_map (grow_front n) (g i)))
  | AddTrailer i n => on i (put g i (option_map (grow_back n) (g i)))
  | AddHeaderBuf i k => on i (put g i (option_map (grow_front (length (bytes_in w k))) (g i)))
  | AddTrailerBuf i k => on i (put g i (option_map (grow_back (length (bytes_in w k))) (g i)))
  | RemHeader i n => on i (put g i (obnd (g i) (cut_front n)))
  | RemTrailer i n => on i (put g i (obnd (g i) (cut_back n)))
  | AddHeaderPkt i j => on i (on j (put g i (obnd (g i) (fun q => obnd (g j) (fun r => glue r q)))))
  | AddTrailerPkt i j => on i (on j (put g i (obnd (g i) (fun q => obnd (g j) (fun r => glue q r)))))
  | AddByteTag i _ _ _ _ => on i (put g i None)
  | CopyTags i _ => on i (put g i None)
  | AddPacketTag _ _ _ _ _ | GetBuffer _ | OnBuf _ => g
  | MakeFrag i s n => on i (put g new (obnd (g i) (fun q => obnd (cut_front s q) (fun r => cut_back (piece_len r - n) r))))
  end.
(** A run of a program that keeps track of pieces.  A packet may be added to another one also where
    that can spoil other packets ([clean]); these are not tracked any more. *)
Definition only (i : nat) (g : pieces) : pieces := fun j => if j =? i then g j else None.
Inductive follow (junk : nat -> nat -> N) (lo hi : bool) : world BV -> pieces -> world BV -> pieces -> Prop :=
| follow_nil w g : follow junk lo hi w g w g
| follow_step o w g w1 w2 g2 : fits lo hi o -> clean lo hi o w -> step junk o w = Done w1 ->
    follow junk lo hi w1 (track w o g) w2 g2 -> follow junk lo hi w g w2 g2
| follow_join i j o w g w1 w2 g2 : o = AddHeaderPkt i j \/ o = AddTrailerPkt i j -> step junk o w = Done w1 ->
    follow junk lo hi w1 (only i (track w o g)) w2 g2 -> follow junk lo hi w g w2 g2.

End Spec.
Arguments pkt BV : clear implicits.
