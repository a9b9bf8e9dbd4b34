(** Specification of zero-compressed buffers: byte strings, in the vocabulary of
    [BufferSpec]; the string of a buffer is [expand]ed as in [ZcIterSpec]. *)
From Verif Require Import Base Buffer BufferSpec ZcIter ZcIterSpec ZcBuffer.

(** The string of variable [i]: what stands in the storage, with the zero area in its
    place.  This is what iterators read. *)
Definition zbytes_of (w : zworld) (i : nat) : option (list N) :=
  match zvar w i with
  | None => None
  | Some z =>
      match z_memory (zw_heap w) z with
      | Done m => Some (expand m (z_start z) (z_zs z) (z_ze z) (z_end z))
      | _ => None
      end
  end.
Definition ztable (w : zworld) : strings := map (zbytes_of w) (seq 0 (length (zw_bufs w))).

(** [GetSize()], zc-buffer.h:551-554, and the sizes of the header and the zero area as
    [GetStart()], [GetZeroStart()] and [GetZeroEnd()] give them, zc-buffer.h:566-579. *)
Definition zsize_of (w : zworld) (i : nat) : option nat := option_map z_size (zvar w i).
Definition zlayout (w : zworld) (i : nat) : option (nat * nat) :=
  option_map (fun z => (z_zs z - z_start z, z_ze z - z_zs z)) (zvar w i).

(** Realizing the zero area changes nothing, its copy is a copy. *)
Definition spec_zstep (extra : list N) (zo : zop) (A : strings) : strings :=
  match zo with
  | ZBase o => spec_step extra o A
  | MakeReal i => spec_step extra (Copy i) A
  | Realize _ => A
  end.
Definition extra_zlen (zo : zop) : nat := match zo with ZBase o => extra_len o | _ => 0 end.
Definition ztarget (zo : zop) (i : nat) : Prop :=
  match zo with ZBase o => target o i | MakeReal _ => False | Realize k => i = k end.

(** Variable [i] is made of zeros alone and has no storage ([GetStorage()] is null). *)
Definition bare (w : zworld) (i : nat) : Prop :=
  exists z, zvar w i = Some z /\ z_st z = None /\ 0 < z_size z.

(** Statements that do as documented.  The others are the subject of the theorems called
    [refuted]. *)
Definition sensible (zo : zop) (w : zworld) : Prop :=
  match zo with
  | ZBase (AddStartBuf i j) => i <> j /\ ~ bare w j
  | ZBase (AddEndBuf i j) => i = j \/ ~ bare w j
  | ZBase (RemStart i n) | ZBase (RemEnd i n) =>
      bare w i -> forall s, zsize_of w i = Some s -> n <= s
  | ZBase (MoveAssign i j) => i = j \/ ~ bare w i
  | _ => True
  end.

(** No construction from a buffer of another class. *)
Definition no_deep (zo : zop) : Prop := match zo with ZBase (DeepCopy _) => False | _ => True end.
(** Statements that copy the content of another buffer. *)
Definition adds_buffer (zo : zop) : Prop :=
  match zo with ZBase (AddStartBuf _ _) | ZBase (AddEndBuf _ _) => True | _ => False end.
Definition zadds_data (zo : zop) : Prop := match zo with ZBase o => adds_data o | _ => False end.

(** Statements whose arguments are out of range: fragments outside the buffer; writes
    outside the buffer, across the border of header and zero area, or into the zero
    area. *)
Definition zbad_args (zo : zop) (w : zworld) : bool :=
  match zo with
  | ZBase (Fragment i st n) => match zsize_of w i with Some s => s <? st + n | None => false end
  | ZBase (Write i off bs) =>
      match zsize_of w i, zlayout w i with
      | Some s, Some (header, zeros) =>
          (s <? off + length bs) ||
          (if off <? header then header <? off + length bs else off <? header + zeros)
      | _, _ => false
      end
  | _ => false
  end.

(** How many variables use storage [a], and its reference count. *)
Definition zuses (a : nat) (o : option zbuf) : bool :=
  match o with
  | Some z => match z_st z with Some a' => a =? a' | None => false end
  | None => false
  end.
Definition zusers (w : zworld) (a : nat) : nat := length (filter (zuses a) (zw_bufs w)).
Definition zallocated (w : zworld) (a n : nat) : Prop :=
  exists s, nth_error (zw_heap w) a = Some (Some s) /\ sg_rc s = n.
Definition zwrites_alone (zo : zop) (w : zworld) : Prop :=
  match zo with
  | ZBase (Write i _ _) => forall z a, zvar w i = Some z -> z_st z = Some a -> zusers w a = 1
  | _ => True
  end.
