(** Model of the resizable buffers: shared storages with a reference count and a
    dirty area (network/buffer/storage/basic-buffer-storage.h) and [Buffer]
    (network/buffer/buffer.h).

    Simplifications: sizes and offsets are natural numbers, so programs are
    assumed not to ask for sizes at which [size_t] arithmetic overflows.  A
    storage is addressed by its index in a heap, a storage that was deleted stays
    in the heap as [None], and addresses are never reused.  Memory obtained by
    [new uint8_t[]] is indeterminate: its content is given by [junk address
    offset], over which every theorem quantifies.  [ConstBuffer]
    (network/buffer/const-buffer.h), a wrapper of a [Buffer] member that offers a
    subset of the operations, is a [Buffer] variable in this model. *)
From Verif Require Import Base.

(** ** Storage *)

(** basic-buffer-storage.h:55-93.  [capacity_] is the length of [sg_bytes]. *)
Record storage := mk_storage {
  sg_rc : nat;            (* refCount_ *)
  sg_ds : nat;            (* dirtyStart_ *)
  sg_de : nat;            (* dirtyEnd_ *)
  sg_bytes : list N       (* bytes_ *)
}.
Definition sg_cap (s : storage) : nat := length (sg_bytes s).

(** The memory of the program; no line of its own in the code. *)
Notation heap := (list (option storage)).

(** Dereference of a [BufferStorage*]; a deleted storage gives undefined behaviour. *)
Definition get (h : heap) (a : nat) : outcome storage :=
  match nth_error h a with Some (Some s) => Done s | _ => UB end.
Definition put (h : heap) (a : nat) (s : storage) : heap := upd h a (Some s).

(** basic-buffer-storage.h:102-116 [Allocate]. *)
Definition allocate (junk : nat -> nat -> N) (h : heap) (capacity : nat) : heap * option nat :=
  match capacity with
  | O => (h, None)
  | _ => (h ++ [Some (mk_storage 1 0 0 (map (junk (length h)) (seq 0 capacity)))],
          Some (length h))
  end.

Definition set_rc (s : storage) (n : nat) : storage :=
  mk_storage n (sg_ds s) (sg_de s) (sg_bytes s).
Definition set_dirty (s : storage) (ds de : nat) : storage :=
  mk_storage (sg_rc s) ds de (sg_bytes s).
Definition set_bytes (s : storage) (m : list N) : storage :=
  mk_storage (sg_rc s) (sg_ds s) (sg_de s) m.

(** basic-buffer-storage.h:118-123 [AddRef]. *)
Definition add_ref (h : heap) (a : nat) : outcome heap :=
  let! s := get h a in Done (put h a (set_rc s (S (sg_rc s)))).

(** basic-buffer-storage.h:125-134 [Release]. *)
Definition release_ref (h : heap) (a : nat) : outcome heap :=
  let! s := get h a in
  match sg_rc s with
  | O => AssertFail
  | S O => Done (upd h a None)
  | S n => Done (put h a (set_rc s n))
  end.

(** [memcpy]/[memmove]/[memset] into the bytes of a storage. *)
Definition store_at (h : heap) (a : nat) (off : nat) (bs : list N) : outcome heap :=
  let! s := get h a in
  match mem_store (sg_bytes s) off bs with
  | Some m => Done (put h a (set_bytes s m))
  | None => UB
  end.

(** Reading [n] bytes of a storage. *)
Definition load_at (h : heap) (a : nat) (off n : nat) : outcome (list N) :=
  let! s := get h a in
  match mem_load (sg_bytes s) off n with
  | Some bs => Done bs
  | None => UB
  end.

(** ** Buffer *)

(** buffer.h:331-345. *)
Record buf := mk_buf { b_st : option nat; b_start : nat; b_end : nat }.

(** buffer.h:358-363. *)
Definition empty_buf : buf := mk_buf None 0 0.

(** Setting [dirtyStart_] and [dirtyEnd_] to the data area, as the constructors do
    (buffer.h:370-374, 382-387, 395-400, 410-414). *)
Definition dirty_all (h : heap) (b : buf) : outcome heap :=
  match b_st b with
  | None => Done h
  | Some a => let! s := get h a in Done (put h a (set_dirty s (b_start b) (b_end b)))
  end.

(** buffer.h:365-375 [Buffer(capacity)]. *)
Definition new_capacity junk (n : nat) (h : heap) : outcome (heap * buf) :=
  let (h1, st) := allocate junk h n in
  let b := mk_buf st n n in
  let! h2 := dirty_all h1 b in Done (h2, b).

(** buffer.h:390-401 [Buffer(startSize, zeroSize, endSize)]; buffer.h:377-388 is the
    case [endSize = 0]. *)
Definition new_zero junk (startSize zeroSize endSize : nat) (h : heap) : outcome (heap * buf) :=
  let (h1, st) := allocate junk h (startSize + zeroSize + endSize) in
  let b := mk_buf st startSize (startSize + zeroSize) in
  match st with
  | None => Done (h1, b)
  | Some a =>
      let! h2 := dirty_all h1 b in
      let! h3 := store_at h2 a startSize (repeat 0%N zeroSize) in
      Done (h3, b)
  end.

(** buffer.h:540-557 [CopyTo]: the bytes that are copied to a destination of [size]
    bytes. *)
Definition copy_to (h : heap) (b : buf) (size : nat) : outcome (list N) :=
  match b_st b with
  | None => Done []
  | Some a =>
      let dataSize := b_end b - b_start b in
      let copied := if dataSize <=? size then dataSize else size in
      load_at h a (b_start b) copied
  end.

(** buffer.h:417-427, deep copy of a buffer of another class, whose [GetSize()] and
    [CopyTo()] give [data].  The dirty area stays [0, 0). *)
Definition deep_copy junk (data : list N) (h : heap) : outcome (heap * buf) :=
  let (h1, st) := allocate junk h (length data) in
  let b := mk_buf st 0 (length data) in
  match st with
  | None => Done (h1, b)
  | Some a => let! h2 := store_at h1 a 0 data in Done (h2, b)
  end.

(** buffer.h:479-485 [Acquire]. *)
Definition acquire (h : heap) (b : buf) : outcome heap :=
  match b_st b with Some a => add_ref h a | None => Done h end.

(** buffer.h:487-497 [Release]. *)
Definition release (h : heap) (b : buf) : outcome (heap * buf) :=
  match b_st b with
  | Some a => let! h1 := release_ref h a in Done (h1, empty_buf)
  | None => Done (h, b)
  end.

(** buffer.h:684-688. *)
Definition start_adjust (size a : nat) (h : heap) (b : buf) : outcome (heap * buf) :=
  let! s := get h a in
  let start := b_start b - size in
  Done (put h a (set_dirty s start (sg_de s)), mk_buf (Some a) start (b_end b)).

(** The copy of the data area into a new storage in buffer.h:694-697 and
    buffer.h:859-862.  Without a storage the code calls [memcpy] with a null source
    and no bytes, which is modelled as doing nothing. *)
Definition move_data (h : heap) (b : buf) (a' off dataSize : nat) : outcome heap :=
  match b_st b with
  | Some a => let! bs := load_at h a (b_start b) dataSize in store_at h a' off bs
  | None => Done h
  end.
Definition release_opt (h : heap) (st : option nat) : outcome heap :=
  match st with Some a => release_ref h a | None => Done h end.

(** buffer.h:690-709.  [newCapacity] is never 0 here: it is at least [size]. *)
Definition start_realloc junk (size newCapacity newStart dataSize : nat) (h : heap) (b : buf)
  : outcome (heap * buf) :=
  match allocate junk h newCapacity with
  | (_, None) => UB
  | (h1, Some a') =>
      let! h2 := move_data h1 b a' (newStart + size) dataSize in
      let! h3 := release_opt h2 (b_st b) in
      let! s := get h3 a' in
      Done (put h3 a' (set_dirty s newStart (newStart + size + dataSize)),
            mk_buf (Some a') newStart (b_end b + (newStart + size) - b_start b))
  end.

(** buffer.h:711-724. *)
Definition start_move (size dataSize a : nat) (h : heap) (b : buf) : outcome (heap * buf) :=
  let! bs := load_at h a (b_start b) dataSize in
  let! h1 := store_at h a size bs in
  let! s := get h1 a in
  Done (put h1 a (set_dirty s 0 (size + dataSize)),
        mk_buf (Some a) 0 (b_end b + size - b_start b)).

(** buffer.h:565-660 [AddAtStart(size)]. *)
Definition add_at_start junk (size : nat) (h : heap) (b : buf) : outcome (heap * buf) :=
  if size =? 0 then Done (h, b)
  else
    let dataSize := b_end b - b_start b in
    match b_st b with
    | None => start_realloc junk size size 0 dataSize h b
    | Some a =>
        let! s := get h a in
        if sg_rc s =? 1 then
          if size <=? b_start b then start_adjust size a h b
          else if dataSize + size <=? sg_cap s then start_move size dataSize a h b
          else start_realloc junk size (size + dataSize) 0 dataSize h b
        else
          if sg_ds s =? b_start b then
            if size <=? b_start b then start_adjust size a h b
            else start_realloc junk size (size + dataSize) 0 dataSize h b
          else
            if size <=? b_start b then
              start_realloc junk size (sg_cap s) (b_start b - size) dataSize h b
            else start_realloc junk size (size + dataSize) 0 dataSize h b
    end.

(** buffer.h:848-853. *)
Definition end_adjust (size dataSize a : nat) (h : heap) (b : buf) : outcome (heap * buf) :=
  let! s := get h a in
  Done (put h a (set_dirty s (sg_ds s) (b_start b + dataSize + size)),
        mk_buf (Some a) (b_start b) (b_end b + size)).

(** buffer.h:855-874. *)
Definition end_realloc junk (size newCapacity newStart dataSize : nat) (h : heap) (b : buf)
  : outcome (heap * buf) :=
  match allocate junk h newCapacity with
  | (_, None) => UB
  | (h1, Some a') =>
      let! h2 := move_data h1 b a' newStart dataSize in
      let! h3 := release_opt h2 (b_st b) in
      let! s := get h3 a' in
      Done (put h3 a' (set_dirty s newStart (newStart + dataSize + size)),
            mk_buf (Some a') newStart (b_end b + newStart + size - b_start b))
  end.

(** buffer.h:876-890. *)
Definition end_move (size dataSize a : nat) (h : heap) (b : buf) : outcome (heap * buf) :=
  let! s0 := get h a in
  let newStart := sg_cap s0 - (dataSize + size) in
  let! bs := load_at h a (b_start b) dataSize in
  let! h1 := store_at h a newStart bs in
  let! s := get h1 a in
  Done (put h1 a (set_dirty s newStart (sg_cap s)),
        mk_buf (Some a) newStart (b_end b + newStart + size - b_start b)).

(** buffer.h:726-822 [AddAtEnd(size)]. *)
Definition add_at_end junk (size : nat) (h : heap) (b : buf) : outcome (heap * buf) :=
  if size =? 0 then Done (h, b)
  else
    let dataSize := b_end b - b_start b in
    match b_st b with
    | None => end_realloc junk size size 0 dataSize h b
    | Some a =>
        let! s := get h a in
        let postSize := sg_cap s - (b_start b + dataSize) in
        if sg_rc s =? 1 then
          if size <=? postSize then end_adjust size dataSize a h b
          else if dataSize + size <=? sg_cap s then end_move size dataSize a h b
          else end_realloc junk size (dataSize + size) 0 dataSize h b
        else
          if sg_de s =? b_start b + dataSize then
            if size <=? postSize then end_adjust size dataSize a h b
            else end_realloc junk size (dataSize + size) 0 dataSize h b
          else
            if size <=? postSize then
              end_realloc junk size (sg_cap s) (b_start b) dataSize h b
            else end_realloc junk size (size + dataSize) 0 dataSize h b
    end.

(** Writing at an offset of the data area, as [AddAtStart(src)] (at the start) and
    [AddAtEnd(src)] (at [end_ - size]) do after growing, and as an iterator obtained
    from [begin()] does. *)
Definition write_data (h : heap) (b : buf) (off : nat) (bs : list N) : outcome heap :=
  match b_st b with
  | Some a => store_at h a (b_start b + off) bs
  | None => UB
  end.

(** buffer.h:662-670 [AddAtStart(src, size)]. *)
Definition add_bytes_start junk (bs : list N) (h : heap) (b : buf) : outcome (heap * buf) :=
  if length bs =? 0 then Done (h, b)
  else
    let! (h1, b1) := add_at_start junk (length bs) h b in
    let! h2 := write_data h1 b1 0 bs in
    Done (h2, b1).

(** buffer.h:824-833 [AddAtEnd(src, size)]. *)
Definition add_bytes_end junk (bs : list N) (h : heap) (b : buf) : outcome (heap * buf) :=
  if length bs =? 0 then Done (h, b)
  else
    let! (h1, b1) := add_at_end junk (length bs) h b in
    let! h2 := write_data h1 b1 (b_end b1 - b_start b1 - length bs) bs in
    Done (h2, b1).

(** buffer.h:672-682 [AddAtStart(buffer)], with [src] another buffer; [None] means
    that the buffer is added to itself, in which case [CopyTo] is called on the
    buffer that has been grown. *)
Definition add_buf_start junk (src : option buf) (h : heap) (b : buf) : outcome (heap * buf) :=
  let c := match src with Some c => c | None => b end in
  let size := b_end c - b_start c in
  if size =? 0 then Done (h, b)
  else
    let! (h1, b1) := add_at_start junk size h b in
    let! bs := copy_to h1 (match src with Some c => c | None => b1 end) size in
    let! h2 := write_data h1 b1 0 bs in
    Done (h2, b1).

(** buffer.h:835-846 [AddAtEnd(buffer)]. *)
Definition add_buf_end junk (src : option buf) (h : heap) (b : buf) : outcome (heap * buf) :=
  let c := match src with Some c => c | None => b end in
  let size := b_end c - b_start c in
  if size =? 0 then Done (h, b)
  else
    let! (h1, b1) := add_at_end junk size h b in
    let! bs := copy_to h1 (match src with Some c => c | None => b1 end) size in
    let! h2 := write_data h1 b1 (b_end b1 - b_start b1 - size) bs in
    Done (h2, b1).

(** buffer.h:892-902 [RemoveAtStart]. *)
Definition remove_at_start (size : nat) (h : heap) (b : buf) : outcome (heap * buf) :=
  if size <=? b_end b - b_start b
  then Done (h, mk_buf (b_st b) (b_start b + size) (b_end b))
  else release h b.

(** buffer.h:904-914 [RemoveAtEnd]. *)
Definition remove_at_end (size : nat) (h : heap) (b : buf) : outcome (heap * buf) :=
  if size <=? b_end b - b_start b
  then Done (h, mk_buf (b_st b) (b_start b) (b_end b - size))
  else release h b.

(** buffer.h:916-933 [MakeFragment], with the private constructor of
    buffer.h:403-415. *)
Definition make_fragment (start size : nat) (h : heap) (b : buf) : outcome (heap * buf) :=
  if b_end b - b_start b <? start then AssertFail
  else if b_end b - b_start b - start <? size then AssertFail
  else if size =? 0 then Done (h, empty_buf)
  else
    match b_st b with
    | None => UB
    | Some a =>
        let! h1 := add_ref h a in
        let f := mk_buf (Some a) (b_start b + start) (b_start b + start + size) in
        let! h2 := dirty_all h1 f in
        Done (h2, f)
    end.

(** ** Programs over any number of buffer variables *)

(** A variable that was destroyed is [None]. *)
Record world := mk_world { w_heap : heap; w_bufs : list (option buf) }.

Inductive op :=
| New (capacity : nat)
| NewZero (startSize zeroSize endSize : nat)
| DeepCopy (data : list N)       (* from a buffer of another class *)
| Copy (i : nat)                 (* also MakeRealBuffer() and ConstBuffer(i) *)
| MoveNew (i : nat)
| Assign (i j : nat)             (* i = j *)
| MoveAssign (i j : nat)         (* i = std::move(j) *)
| Swap (i j : nat)
| Destroy (i : nat)
| AddStart (i size : nat)
| AddStartBytes (i : nat) (bs : list N)
| AddStartBuf (i j : nat)
| AddEnd (i size : nat)
| AddEndBytes (i : nat) (bs : list N)
| AddEndBuf (i j : nat)
| RemStart (i size : nat)
| RemEnd (i size : nat)
| Fragment (i start size : nat)
| Write (i off : nat) (bs : list N).  (* through an iterator *)

Definition var (w : world) (i : nat) : option buf :=
  match nth_error (w_bufs w) i with Some o => o | None => None end.
Definition add_var (h : heap) (w : world) (b : buf) : world :=
  mk_world h (w_bufs w ++ [Some b]).
Definition set_var (h : heap) (w : world) (i : nat) (b : option buf) : world :=
  mk_world h (upd (w_bufs w) i b).

Definition created (w : world) (r : outcome (heap * buf)) : outcome world :=
  let! (h, b) := r in Done (add_var h w b).
Definition changed (w : world) (i : nat) (r : outcome (heap * buf)) : outcome world :=
  let! (h, b) := r in Done (set_var h w i (Some b)).

(** buffer.h:434-440, copy constructor. *)
Definition copy_new (w : world) (b : buf) : outcome world :=
  let! h := acquire (w_heap w) b in Done (add_var h w b).

(** buffer.h:459-467, move constructor. *)
Definition move_new (w : world) (i : nat) (b : buf) : outcome world :=
  Done (add_var (w_heap w) (set_var (w_heap w) w i (Some empty_buf)) b).

(** buffer.h:442-457, copy assignment of another variable. *)
Definition assign (w : world) (i : nat) (b c : buf) : outcome world :=
  let! h1 := acquire (w_heap w) c in
  let! h2 := release_opt h1 (b_st b) in
  Done (set_var h2 w i (Some c)).

(** buffer.h:978-986 [swap]. *)
Definition swap (w : world) (i j : nat) (b c : buf) : world :=
  set_var (w_heap w) (set_var (w_heap w) w i (Some c)) j (Some b).

(** buffer.h:469-477, move assignment from another variable. *)
Definition move_assign (w : world) (i j : nat) (b c : buf) : outcome world :=
  let w1 := swap w i j b c in
  let! (h, b') := release (w_heap w1) b in
  Done (set_var h w1 j (Some b')).

(** buffer.h:429-432, destructor. *)
Definition destroy (w : world) (i : nat) (b : buf) : outcome world :=
  let! (h, _) := release (w_heap w) b in Done (set_var h w i None).

(** One statement of a program.  Statements that name a variable that does not
    exist (any more) do nothing: no such program can be written. *)
Definition step (junk : nat -> nat -> N) (o : op) (w : world) : outcome world :=
  let h := w_heap w in
  let on i (f : buf -> outcome world) :=
    match var w i with Some b => f b | None => Done w end in
  match o with
  | New n => created w (new_capacity junk n h)
  | NewZero s z e => created w (new_zero junk s z e h)
  | DeepCopy d => created w (deep_copy junk d h)
  | Copy i => on i (copy_new w)
  | MoveNew i => on i (move_new w i)
  | Assign i j => if i =? j then Done w else on i (fun b => on j (fun c => assign w i b c))
  | MoveAssign i j =>
      if i =? j then Done w else on i (fun b => on j (fun c => move_assign w i j b c))
  | Swap i j => if i =? j then Done w else on i (fun b => on j (fun c => Done (swap w i j b c)))
  | Destroy i => on i (destroy w i)
  | AddStart i n => on i (fun b => changed w i (add_at_start junk n h b))
  | AddStartBytes i bs => on i (fun b => changed w i (add_bytes_start junk bs h b))
  | AddStartBuf i j =>
      on i (fun b => on j (fun c =>
        changed w i (add_buf_start junk (if i =? j then None else Some c) h b)))
  | AddEnd i n => on i (fun b => changed w i (add_at_end junk n h b))
  | AddEndBytes i bs => on i (fun b => changed w i (add_bytes_end junk bs h b))
  | AddEndBuf i j =>
      on i (fun b => on j (fun c =>
        changed w i (add_buf_end junk (if i =? j then None else Some c) h b)))
  | RemStart i n => on i (fun b => changed w i (remove_at_start n h b))
  | RemEnd i n => on i (fun b => changed w i (remove_at_end n h b))
  | Fragment i s n => on i (fun b => created w (make_fragment s n h b))
  | Write i off bs =>
      on i (fun b =>
        if b_end b - b_start b <? off + length bs then AssertFail
        else if length bs =? 0 then Done w
        else let! h1 := write_data h b off bs in Done (set_var h1 w i (Some b)))
  end.

Fixpoint steps junk (l : list op) (w : world) : outcome world :=
  match l with
  | [] => Done w
  | o :: r => let! w1 := step junk o w in steps junk r w1
  end.

Definition init : world := mk_world [] [].
