(** Model of [FixedBuffer] (network/buffer/fixed-buffer.h), [ConstFixedBuffer]
    (network/buffer/const-fixed-buffer.h), their shared storage
    (network/buffer/storage/basic-buffer-storage.h 148-211), and the iterators
    that users get from them.

    Simplifications: sizes of storages are natural numbers; a storage is
    addressed by its index in a heap, a deleted one stays there as [None], and
    addresses are never reused; memory obtained by [new uint8_t[]] has the content
    [junk address offset], over which theorems quantify.  A [ConstFixedBuffer] has
    one member, a [FixedBuffer], and forwards each operation to it
    (const-fixed-buffer.h 126-205), so it is a variable like any other; that its
    iterators cannot write is checked by the compiler. *)
From Verif Require Import Base BufferIter.

(** basic-buffer-storage.h 151-172; [capacity_] is the length of [c_bytes]. *)
Record cell := mk_cell { c_rc : nat; c_bytes : list N }.
Notation heap := (list (option cell)).

Definition get (h : heap) (a : nat) : outcome cell :=
  match nth_error h a with Some (Some c) => Done c | _ => UB end.

(** [Allocate] (basic-buffer-storage.h 182-194). *)
Definition allocate (junk : nat -> nat -> N) (h : heap) (n : nat) : heap * option nat :=
  match n with
  | O => (h, None)
  | _ => (h ++ [Some (mk_cell 1 (map (junk (length h)) (seq 0 n)))], Some (length h))
  end.

(** The size of the memory block that [Allocate] asks for
    (basic-buffer-storage.h 187), in [size_t]; [sizeof] is [sizeof (BasicBufferStorage)]. *)
Definition block_size (sizeof capacity : N) : N := w64 (w64 (sizeof - 1) + capacity).

(** [AddRef] and [Release] (basic-buffer-storage.h 196-212). *)
Definition add_ref (a : nat) (h : heap) : outcome heap :=
  let! c := get h a in Done (upd h a (Some (mk_cell (S (c_rc c)) (c_bytes c)))).
Definition release (a : nat) (h : heap) : outcome heap :=
  let! c := get h a in
  match c_rc c with
  | O => AssertFail
  | S O => Done (upd h a None)
  | S n => Done (upd h a (Some (mk_cell n (c_bytes c))))
  end.

(** [FixedBuffer::Acquire] (fixed-buffer.h 240-246) and [FixedBuffer::Release] (248-256), of
    the storage that [st] points to. *)
Definition acquire (st : option nat) (h : heap) : outcome heap :=
  match st with Some a => add_ref a h | None => Done h end.
Definition give_up (st : option nat) (h : heap) : outcome heap :=
  match st with Some a => release a h | None => Done h end.

(** The memory behind [storage_]; empty for a null pointer. *)
Definition bytes_of (st : option nat) (h : heap) : outcome (list N) :=
  match st with Some a => let! c := get h a in Done (c_bytes c) | None => Done [] end.

(** The memory an iterator sees, which keeps the pointer [storage_->bytes_] only:
    nothing if it is null, nothing that may be used if it was deleted. *)
Definition iter_mem (st : option nat) (h : heap) : list N :=
  match bytes_of st h with Done m => m | _ => [] end.

(** [memmove] and [memset] to the bytes of a storage. *)
Definition store (a : nat) (bs : list N) (h : heap) : outcome heap :=
  let! c := get h a in
  match mem_store (c_bytes c) 0 bs with
  | Some m => Done (upd h a (Some (mk_cell (c_rc c) m)))
  | None => UB
  end.

(** The variables of a program: buffers, [None] once destroyed, each a pointer to
    a storage (fixed-buffer.h 152-156), and iterators. *)
Record world := mk_world {
  w_heap : heap;
  w_vars : list (option (option nat));
  w_iters : list (option nat * biter) }.
Definition w_init : world := mk_world [] [] [].

Definition var (w : world) (v : nat) : outcome (option nat) :=
  match nth_error (w_vars w) v with Some (Some st) => Done st | _ => UB end.

Inductive op :=
| ONew                                     (* FixedBuffer b; *)
| OSize (n : nat)                          (* FixedBuffer b(n); *)
| OZero (n : nat) (zero : bool)            (* FixedBuffer b(n, zero); *)
| ODeep (v : nat)                          (* FixedBuffer b(c); c a ConstFixedBuffer *)
| OConvert (data : list N)                 (* the same, from another class of buffers *)
| OCopy (v : nat)                          (* FixedBuffer b(a); ConstFixedBuffer b(a); *)
| OAssign (dst src : nat)                  (* b = a; *)
| OMove (v : nat)                          (* FixedBuffer b(std::move(a)); *)
| OMoveAssign (dst src : nat)              (* b = std::move(a); *)
| OSwap (v1 v2 : nat)
| ODestroy (v : nat)
| OGetSize (v : nat)
| OCopyTo (v : nat) (size : nat)
| OBegin (v : nat)
| OEnd (v : nat)
| OWrite (i : nat) (o : order) (n : nat) (x : N)
| ORead (i : nat) (o : order) (n : nat).

Inductive result := RNone | RVar (v : nat) | RIter (i : nat) | RSize (n : nat) | RBytes (bs : list N) | RValue (x : N).

(** A new variable. *)
Definition push (w : world) (h : heap) (st : option nat) : world * result :=
  (mk_world h (w_vars w ++ [Some st]) (w_iters w), RVar (length (w_vars w))).
Definition set_vars (w : world) (h : heap) (vs : list (option (option nat))) : world * result :=
  (mk_world h vs (w_iters w), RNone).

(** The deep copy constructor (fixed-buffer.h 188-196), from a buffer whose
    [GetSize] and [CopyTo] give [data]. *)
Definition deep (junk : nat -> nat -> N) (data : list N) (w : world) : outcome (world * result) :=
  let (h, st) := allocate junk (w_heap w) (length data) in
  match st with
  | None => Done (push w h st)
  | Some a => let! h := store a data h in Done (push w h st)
  end.

(** In the order of the operations: fixed-buffer.h 169-172, 174-177, 179-186, 188-196,
    188-196, 203-207, 209-222, 224-228, 230-238, 313-319, 198-201, 258-261, 269-279,
    281-287 (297-303 for constant iterators), 289-295 (305-311); the iterators of
    iterator/basic-buffer-iterator.h as in BufferIter.v. *)
Definition step (host : endian) (junk : nat -> nat -> N) (o : op) (w : world) : outcome (world * result) :=
  match o with
  | ONew => Done (push w (w_heap w) None)
  | OSize n => let (h, st) := allocate junk (w_heap w) n in Done (push w h st)
  | OZero n zero =>
      let (h, st) := allocate junk (w_heap w) n in
      match st with
      | Some a =>
          if zero then
            let! c := get h a in
            let! h := store a (repeat 0%N (length (c_bytes c))) h in Done (push w h st)
          else Done (push w h st)
      | None => Done (push w h st)
      end
  | ODeep v => let! st := var w v in let! data := bytes_of st (w_heap w) in deep junk data w
  | OConvert data => deep junk data w
  | OCopy v => let! st := var w v in let! h := acquire st (w_heap w) in Done (push w h st)
  | OAssign dst src =>
      let! tmp := var w dst in
      let! st := var w src in
      if Nat.eqb dst src then Done (w, RNone)
      else
        let! h := acquire st (w_heap w) in
        let! h := give_up tmp h in
        Done (set_vars w h (upd (w_vars w) dst (Some st)))
  | OMove v =>
      let! st := var w v in
      Done (push (mk_world (w_heap w) (upd (w_vars w) v (Some None)) (w_iters w)) (w_heap w) st)
  | OMoveAssign dst src =>
      let! tmp := var w dst in
      let! st := var w src in
      if Nat.eqb dst src then Done (w, RNone)
      else
        let! h := give_up tmp (w_heap w) in
        Done (set_vars w h (upd (upd (w_vars w) dst (Some st)) src (Some None)))
  | OSwap v1 v2 =>
      let! s1 := var w v1 in
      let! s2 := var w v2 in
      Done (set_vars w (w_heap w) (upd (upd (w_vars w) v1 (Some s2)) v2 (Some s1)))
  | ODestroy v =>
      let! st := var w v in
      let! h := give_up st (w_heap w) in
      Done (set_vars w h (upd (w_vars w) v None))
  | OGetSize v =>
      let! st := var w v in
      let! m := bytes_of st (w_heap w) in Done (w, RSize (length m))
  | OCopyTo v size =>
      let! st := var w v in
      let! m := bytes_of st (w_heap w) in
      let copied := if length m <=? size then length m else size in
      match mem_load m 0 copied with Some bs => Done (w, RBytes bs) | None => UB end
  | OBegin v =>
      let! st := var w v in
      let! m := bytes_of st (w_heap w) in
      Done (mk_world (w_heap w) (w_vars w) (w_iters w ++ [(st, mk_biter 0 (N.of_nat (length m)) 0)]), RIter (length (w_iters w)))
  | OEnd v =>
      let! st := var w v in
      let! m := bytes_of st (w_heap w) in
      Done (mk_world (w_heap w) (w_vars w)
              (w_iters w ++ [(st, mk_biter 0 (N.of_nat (length m)) (N.of_nat (length m)))]), RIter (length (w_iters w)))
  | OWrite i o n x =>
      match nth_error (w_iters w) i with
      | None => UB
      | Some (st, it) =>
          let! (m, it') := write_int host o n x (iter_mem st (w_heap w)) it in
          match st with
          | None => UB
          | Some a =>
              let! c := get (w_heap w) a in
              Done (mk_world (upd (w_heap w) a (Some (mk_cell (c_rc c) m))) (w_vars w) (upd (w_iters w) i (st, it')), RNone)
          end
      end
  | ORead i o n =>
      match nth_error (w_iters w) i with
      | None => UB
      | Some (st, it) =>
          let! (x, it') := read_int host o n (iter_mem st (w_heap w)) it in
          Done (mk_world (w_heap w) (w_vars w) (upd (w_iters w) i (st, it')), RValue x)
      end
  end.

(** A program and what it observes. *)
Fixpoint run (host : endian) (junk : nat -> nat -> N) (ops : list op) (w : world) : outcome (world * list result) :=
  match ops with
  | [] => Done (w, [])
  | o :: t =>
      let! (w, r) := step host junk o w in
      let! (w, rs) := run host junk t w in
      Done (w, r :: rs)
  end.
