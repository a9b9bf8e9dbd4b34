(** Model of the zero-compressed buffers: [ZcBuffer] (network/buffer/zc-buffer.h), over
    the storages of [Buffer] (network/buffer/storage/basic-buffer-storage.h).

    The data of a buffer is a header, a zero area and a trailer.  Only the header and
    the trailer are stored, the trailer right behind the header, so the bytes
    [start_, end_ - (zeroEnd_ - zeroStart_)) of the storage are in use.

    Simplifications, as in [Buffer]: sizes and offsets are natural numbers (the one
    place where [size_t] arithmetic can wrap for a plausible argument,
    [RemoveAtStart], is modelled a second time below with it), deleted storages stay in
    the heap as [None], fresh memory has the arbitrary content [junk].
    [ConstZcBuffer] (network/buffer/const-zc-buffer.h), a wrapper of a [ZcBuffer] member
    with a subset of the operations, is a [ZcBuffer] variable in this model; its move
    constructor copies (const-zc-buffer.h:220-223), which is [ZBase (Copy i)]. *)
From Verif Require Import Base Buffer ZcIter.

(** zc-buffer.h:350-375. *)
Record zbuf := mk_zbuf {
  z_st : option nat;      (* storage_ *)
  z_start : nat;          (* start_ *)
  z_zs : nat;             (* zeroStart_ *)
  z_ze : nat;             (* zeroEnd_ *)
  z_end : nat             (* end_ *)
}.

(** zc-buffer.h:386-393. *)
Definition empty_zbuf : zbuf := mk_zbuf None 0 0 0 0.

(** zc-buffer.h:551-554 [GetSize], 556-559 [GetInternalSize]. *)
Definition z_size (z : zbuf) : nat := z_end z - z_start z.
Definition z_internal (z : zbuf) : nat := (z_zs z - z_start z) + (z_end z - z_ze z).

(** Setting the dirty area to the stored data, as the constructors do
    (zc-buffer.h:402-406, 416-420, 430-434, 450-454). *)
Definition z_dirty_all (h : heap) (z : zbuf) : outcome heap :=
  match z_st z with
  | None => Done h
  | Some a =>
      let! s := get h a in
      Done (put h a (set_dirty s (z_start z) (z_end z - (z_ze z - z_zs z))))
  end.

(** zc-buffer.h:395-407 [ZcBuffer(capacity)]. *)
Definition z_new_capacity junk (n : nat) (h : heap) : outcome (heap * zbuf) :=
  let (h1, st) := allocate junk h n in
  let z := mk_zbuf st n n n n in
  let! h2 := z_dirty_all h1 z in Done (h2, z).

(** zc-buffer.h:423-435 [ZcBuffer(startSize, zeroSize, endSize)]; zc-buffer.h:409-421 is
    the case [endSize = 0]. *)
Definition z_new_zero junk (startSize zeroSize endSize : nat) (h : heap) : outcome (heap * zbuf) :=
  let (h1, st) := allocate junk h (startSize + endSize) in
  let z := mk_zbuf st startSize startSize (startSize + zeroSize) (startSize + zeroSize) in
  let! h2 := z_dirty_all h1 z in Done (h2, z).

(** zc-buffer.h:437-455, the private constructor. *)
Definition z_make (st : option nat) (start zs ze end_ : nat) (h : heap) : outcome (heap * zbuf) :=
  let z := mk_zbuf st start zs ze end_ in
  if negb ((start <=? zs) && (zs <=? ze) && (ze <=? end_)) then AssertFail
  else
    match st with
    | None => Done (h, z)
    | Some a =>
        let! s := get h a in
        if sg_cap s <? end_ - (ze - zs) then AssertFail
        else let! h1 := z_dirty_all h z in Done (h1, z)
    end.

(** zc-buffer.h:457-469, deep copy of a buffer of another class whose [GetSize()] and
    [CopyTo()] give [data].  The dirty area stays [0, 0). *)
Definition z_deep_copy junk (data : list N) (h : heap) : outcome (heap * zbuf) :=
  let (h1, st) := allocate junk h (length data) in
  let z := mk_zbuf st 0 (length data) (length data) (length data) in
  match st with
  | None => Done (h1, z)
  | Some a => let! h2 := store_at h1 a 0 data in Done (h2, z)
  end.

(** zc-buffer.h:529-535 [Acquire], 537-549 [Release]. *)
Definition z_acquire (h : heap) (z : zbuf) : outcome heap :=
  match z_st z with Some a => add_ref h a | None => Done h end.
Definition z_release (h : heap) (z : zbuf) : outcome (heap * zbuf) :=
  match z_st z with
  | Some a => let! h1 := release_ref h a in Done (h1, empty_zbuf)
  | None => Done (h, z)
  end.

(** zc-buffer.h:592-662 [CopyTo] to an array of [size] bytes: the bytes that are
    written there. *)
Definition z_copy_to (h : heap) (z : zbuf) (size : nat) : outcome (list N) :=
  match z_st z with
  | None => Done []
  | Some a =>
      if z_zs z =? z_ze z then
        let dataSize := z_internal z in
        load_at h a (z_start z) (if dataSize <=? size then dataSize else size)
      else
        let header := z_zs z - z_start z in
        let gamma := z_ze z - z_zs z in
        let trailer := z_end z - z_ze z in
        if size <=? header then load_at h a (z_start z) size
        else
          let! b1 := load_at h a (z_start z) header in
          let size := size - header in
          if size <=? gamma then Done (b1 ++ repeat 0%N size)
          else
            let size := size - gamma in
            let! b3 := load_at h a (z_zs z) (if size <=? trailer then size else trailer) in
            Done (b1 ++ repeat 0%N gamma ++ b3)
  end.

(** The same [CopyTo] (zc-buffer.h:592-662) to offset [off] of the storage [d], as
    [AddAtStart(buffer)] and [AddAtEnd(buffer)] use it.  The pieces are moved one after
    the other, so that an earlier one might overwrite what a later one reads. *)
Definition z_move (h : heap) (a from n : nat) (d off : nat) : outcome heap :=
  let! bs := load_at h a from n in store_at h d off bs.
Definition z_copy_into (h : heap) (z : zbuf) (size : nat) (d off : nat) : outcome heap :=
  match z_st z with
  | None => Done h
  | Some a =>
      if z_zs z =? z_ze z then
        let dataSize := z_internal z in
        z_move h a (z_start z) (if dataSize <=? size then dataSize else size) d off
      else
        let header := z_zs z - z_start z in
        let gamma := z_ze z - z_zs z in
        let trailer := z_end z - z_ze z in
        if size <=? header then z_move h a (z_start z) size d off
        else
          let! h1 := z_move h a (z_start z) header d off in
          let size := size - header in
          if size <=? gamma then store_at h1 d (off + header) (repeat 0%N size)
          else
            let size := size - gamma in
            let! h2 := store_at h1 d (off + header) (repeat 0%N gamma) in
            z_move h2 a (z_zs z) (if size <=? trailer then size else trailer) d (off + header + gamma)
  end.

(** ** Growing at the start *)

(** zc-buffer.h:782-786. *)
Definition z_start_adjust (size a : nat) (h : heap) (z : zbuf) : outcome (heap * zbuf) :=
  let! s := get h a in
  let start := z_start z - size in
  Done (put h a (set_dirty s start (sg_de s)), mk_zbuf (Some a) start (z_zs z) (z_ze z) (z_end z)).

(** The copy of the stored data into a new storage (zc-buffer.h:793-795, 961-963); without
    a storage the code calls [memcpy] with no bytes, which is modelled as doing nothing. *)
Definition z_move_data (h : heap) (z : zbuf) (a' off dataSize : nat) : outcome heap :=
  match z_st z with
  | Some a => let! bs := load_at h a (z_start z) dataSize in store_at h a' off bs
  | None => Done h
  end.

(** zc-buffer.h:788-809. *)
Definition z_start_realloc junk (size newCapacity newStart dataSize : nat) (h : heap) (z : zbuf)
  : outcome (heap * zbuf) :=
  match allocate junk h newCapacity with
  | (_, None) => UB
  | (h1, Some a') =>
      let! h2 := z_move_data h1 z a' (newStart + size) dataSize in
      let! h3 := release_opt h2 (z_st z) in
      let! s := get h3 a' in
      let shift x := x + (newStart + size) - z_start z in
      Done (put h3 a' (set_dirty s newStart (newStart + size + dataSize)),
            mk_zbuf (Some a') newStart (shift (z_zs z)) (shift (z_ze z)) (shift (z_end z)))
  end.

(** zc-buffer.h:811-826. *)
Definition z_start_move (size dataSize a : nat) (h : heap) (z : zbuf) : outcome (heap * zbuf) :=
  let! bs := load_at h a (z_start z) dataSize in
  let! h1 := store_at h a size bs in
  let! s := get h1 a in
  let shift x := x + size - z_start z in
  Done (put h1 a (set_dirty s 0 (size + dataSize)),
        mk_zbuf (Some a) 0 (shift (z_zs z)) (shift (z_ze z)) (shift (z_end z))).

(** zc-buffer.h:664-759 [AddAtStart(size)]. *)
Definition z_add_at_start junk (size : nat) (h : heap) (z : zbuf) : outcome (heap * zbuf) :=
  if size =? 0 then Done (h, z)
  else
    let dataSize := z_internal z in
    match z_st z with
    | None => z_start_realloc junk size size 0 dataSize h z
    | Some a =>
        let! s := get h a in
        if sg_rc s =? 1 then
          if size <=? z_start z then z_start_adjust size a h z
          else if dataSize + size <=? sg_cap s then z_start_move size dataSize a h z
          else z_start_realloc junk size (size + dataSize) 0 dataSize h z
        else
          if sg_ds s =? z_start z then
            if size <=? z_start z then z_start_adjust size a h z
            else z_start_realloc junk size (size + dataSize) 0 dataSize h z
          else
            if size <=? z_start z then
              z_start_realloc junk size (sg_cap s) (z_start z - size) dataSize h z
            else z_start_realloc junk size (size + dataSize) 0 dataSize h z
    end.

(** ** Growing at the end *)

(** zc-buffer.h:949-954. *)
Definition z_end_adjust (size dataSize a : nat) (h : heap) (z : zbuf) : outcome (heap * zbuf) :=
  let! s := get h a in
  Done (put h a (set_dirty s (sg_ds s) (z_start z + dataSize + size)),
        mk_zbuf (Some a) (z_start z) (z_zs z) (z_ze z) (z_end z + size)).

(** zc-buffer.h:956-977. *)
Definition z_end_realloc junk (size newCapacity newStart dataSize : nat) (h : heap) (z : zbuf)
  : outcome (heap * zbuf) :=
  match allocate junk h newCapacity with
  | (_, None) => UB
  | (h1, Some a') =>
      let! h2 := z_move_data h1 z a' newStart dataSize in
      let! h3 := release_opt h2 (z_st z) in
      let! s := get h3 a' in
      let shift x := x + newStart - z_start z in
      Done (put h3 a' (set_dirty s newStart (newStart + dataSize + size)),
            mk_zbuf (Some a') newStart (shift (z_zs z)) (shift (z_ze z)) (shift (z_end z) + size))
  end.

(** zc-buffer.h:979-995. *)
Definition z_end_move (size dataSize a : nat) (h : heap) (z : zbuf) : outcome (heap * zbuf) :=
  let! s0 := get h a in
  let newStart := sg_cap s0 - (dataSize + size) in
  let! bs := load_at h a (z_start z) dataSize in
  let! h1 := store_at h a newStart bs in
  let! s := get h1 a in
  let shift x := x + newStart - z_start z in
  Done (put h1 a (set_dirty s newStart (sg_cap s)),
        mk_zbuf (Some a) newStart (shift (z_zs z)) (shift (z_ze z)) (shift (z_end z) + size)).

(** zc-buffer.h:828-924 [AddAtEnd(size)]. *)
Definition z_add_at_end junk (size : nat) (h : heap) (z : zbuf) : outcome (heap * zbuf) :=
  if size =? 0 then Done (h, z)
  else
    let dataSize := z_internal z in
    match z_st z with
    | None => z_end_realloc junk size size 0 dataSize h z
    | Some a =>
        let! s := get h a in
        let postSize := sg_cap s - (z_start z + dataSize) in
        if sg_rc s =? 1 then
          if size <=? postSize then z_end_adjust size dataSize a h z
          else if dataSize + size <=? sg_cap s then z_end_move size dataSize a h z
          else z_end_realloc junk size (dataSize + size) 0 dataSize h z
        else
          if sg_de s =? z_start z + dataSize then
            if size <=? postSize then z_end_adjust size dataSize a h z
            else z_end_realloc junk size (dataSize + size) 0 dataSize h z
          else
            if size <=? postSize then
              z_end_realloc junk size (sg_cap s) (z_start z) dataSize h z
            else z_end_realloc junk size (size + dataSize) 0 dataSize h z
    end.

(** ** Growing with given bytes *)

(** [storage_->bytes_ + off] as a destination; without a storage undefined. *)
Definition z_store (h : heap) (z : zbuf) (off : nat) (bs : list N) : outcome heap :=
  match z_st z with Some a => store_at h a off bs | None => UB end.

(** zc-buffer.h:761-769 [AddAtStart(src, size)]. *)
Definition z_add_bytes_start junk (bs : list N) (h : heap) (z : zbuf) : outcome (heap * zbuf) :=
  if length bs =? 0 then Done (h, z)
  else
    let! (h1, z1) := z_add_at_start junk (length bs) h z in
    let! h2 := z_store h1 z1 (z_start z1) bs in
    Done (h2, z1).

(** zc-buffer.h:926-935 [AddAtEnd(src, size)]. *)
Definition z_add_bytes_end junk (bs : list N) (h : heap) (z : zbuf) : outcome (heap * zbuf) :=
  if length bs =? 0 then Done (h, z)
  else
    let! (h1, z1) := z_add_at_end junk (length bs) h z in
    let! h2 := z_store h1 z1 (z_end z1 - (z_ze z1 - z_zs z1) - length bs) bs in
    Done (h2, z1).

(** zc-buffer.h:771-780 [AddAtStart(buffer)] with another [ZcBuffer] [src]; [None] means
    that the buffer is added to itself, in which case [CopyTo] is called on the buffer
    that has been grown.  (A [Buffer] as source is [z_add_bytes_start] of its bytes.) *)
Definition z_add_buf_start junk (src : option zbuf) (h : heap) (z : zbuf) : outcome (heap * zbuf) :=
  let size := z_size (match src with Some c => c | None => z end) in
  if size =? 0 then Done (h, z)
  else
    let! (h1, z1) := z_add_at_start junk size h z in
    match z_st z1 with
    | None => UB
    | Some d =>
        let! h2 := z_copy_into h1 (match src with Some c => c | None => z1 end) size d (z_start z1) in
        Done (h2, z1)
    end.

(** zc-buffer.h:937-947 [AddAtEnd(buffer)]. *)
Definition z_add_buf_end junk (src : option zbuf) (h : heap) (z : zbuf) : outcome (heap * zbuf) :=
  let size := z_size (match src with Some c => c | None => z end) in
  if size =? 0 then Done (h, z)
  else
    let! (h1, z1) := z_add_at_end junk size h z in
    match z_st z1 with
    | None => UB
    | Some d =>
        let! h2 := z_copy_into h1 (match src with Some c => c | None => z1 end) size d
                     (z_end z1 - (z_ze z1 - z_zs z1) - size) in
        Done (h2, z1)
    end.

(** ** Shrinking *)

(** zc-buffer.h:997-1025 [RemoveAtStart]. *)
Definition z_remove_at_start (size : nat) (h : heap) (z : zbuf) : outcome (heap * zbuf) :=
  let newStart := z_start z + size in
  if newStart <=? z_zs z then
    Done (h, mk_zbuf (z_st z) newStart (z_zs z) (z_ze z) (z_end z))
  else if newStart <=? z_ze z then
    let delta := newStart - z_zs z in
    Done (h, mk_zbuf (z_st z) (z_zs z) (z_zs z) (z_ze z - delta) (z_end z - delta))
  else if newStart <=? z_end z then
    let delta := newStart - z_ze z in
    let gamma := z_ze z - z_zs z in
    let start := z_zs z + delta in
    Done (h, mk_zbuf (z_st z) start start start (z_end z - gamma))
  else z_release h z.

(** The same function (zc-buffer.h:997-1025) on the offsets alone, with [size_t]
    arithmetic; [None] is [Release()]. *)
Definition zn_remove_at_start (size : N) (start zs ze end_ : N) : option (N * N * N * N) :=
  let newStart := w64 (start + size) in
  if (newStart <=? zs)%N then Some (newStart, zs, ze, end_)
  else if (newStart <=? ze)%N then
    let delta := wsub 64 newStart zs in
    Some (zs, zs, wsub 64 ze delta, wsub 64 end_ delta)
  else if (newStart <=? end_)%N then
    let delta := wsub 64 newStart ze in
    let gamma := wsub 64 ze zs in
    let start := w64 (zs + delta) in
    Some (start, start, start, wsub 64 end_ gamma)
  else None.

(** zc-buffer.h:1027-1050 [RemoveAtEnd]. *)
Definition z_remove_at_end (size : nat) (h : heap) (z : zbuf) : outcome (heap * zbuf) :=
  if size <=? z_end z - z_ze z then
    Done (h, mk_zbuf (z_st z) (z_start z) (z_zs z) (z_ze z) (z_end z - size))
  else if size <=? z_end z - z_zs z then
    let delta := size - (z_end z - z_ze z) in
    Done (h, mk_zbuf (z_st z) (z_start z) (z_zs z) (z_ze z - delta) (z_ze z - delta))
  else if size <=? z_end z - z_start z then
    let delta := size - (z_end z - z_zs z) in
    let zs := z_zs z - delta in
    Done (h, mk_zbuf (z_st z) (z_start z) zs zs zs)
  else z_release h z.

(** zc-buffer.h:1052-1064 [MakeFragment]; the copy [fragment] is what is returned. *)
Definition z_make_fragment (start size : nat) (h : heap) (z : zbuf) : outcome (heap * zbuf) :=
  if z_size z <? start then AssertFail
  else if z_size z - start <? size then AssertFail
  else
    let! h1 := z_acquire h z in
    let! (h2, f) := z_remove_at_start start h1 z in
    z_remove_at_end (z_size z - (start + size)) h2 f.

(** Reading [n] bytes at an offset of the storage of [z]; no bytes need no storage. *)
Definition z_load (h : heap) (z : zbuf) (off n : nat) : outcome (list N) :=
  match z_st z with
  | Some a => load_at h a off n
  | None => if n =? 0 then Done [] else UB
  end.

(** zc-buffer.h:1077-1092 [InternalGetRealBuffer]. *)
Definition z_real junk (h : heap) (z : zbuf) : outcome (heap * zbuf) :=
  let header := z_zs z - z_start z in
  let gamma := z_ze z - z_zs z in
  let trailer := z_end z - z_ze z in
  let newCapacity := z_end z - z_start z in
  match allocate junk h newCapacity with
  | (_, None) => UB
  | (h1, Some a') =>
      let! b1 := z_load h1 z (z_start z) header in
      let! h2 := store_at h1 a' 0 b1 in
      let! h3 := store_at h2 a' header (repeat 0%N gamma) in
      let! b3 := z_load h3 z (z_zs z) trailer in
      let! h4 := store_at h3 a' (header + gamma) b3 in
      z_make (Some a') 0 (header + gamma) (header + gamma) newCapacity h4
  end.

(** zc-buffer.h:1066-1070 [MakeRealBuffer]. *)
Definition z_make_real junk (h : heap) (z : zbuf) : outcome (heap * zbuf) :=
  if z_ze z =? z_zs z then let! h1 := z_acquire h z in Done (h1, z) else z_real junk h z.

(** zc-buffer.h:1072-1075 [Realize]: the move assignment of zc-buffer.h:519-527 from the
    temporary, which then holds the old value and releases it, and the destructor of the
    temporary, which has nothing left to release unless it has no storage anyway. *)
Definition z_realize junk (h : heap) (z : zbuf) : outcome (heap * zbuf) :=
  let! (h1, z1) := z_make_real junk h z in
  let! (h2, old) := z_release h1 z in
  let! (h3, _) := z_release h2 old in
  Done (h3, z1).

(** ** Iterators *)

(** zc-buffer.h:1094-1120 [begin], [cbegin] and, with the cursor at the end, [end],
    [cend]: the memory and the iterator.  A null [bytes] is the empty memory. *)
Definition z_memory (h : heap) (z : zbuf) : outcome (list N) :=
  match z_st z with Some a => let! s := get h a in Done (sg_bytes s) | None => Done [] end.
Definition z_iter (z : zbuf) (cursor : nat) : ziter :=
  mk_ziter (N.of_nat (z_start z)) (N.of_nat (z_zs z)) (N.of_nat (z_ze z)) (N.of_nat (z_end z))
           (N.of_nat cursor).
Definition z_begin (z : zbuf) : ziter := z_iter z (z_start z).
Definition z_end_it (z : zbuf) : ziter := z_iter z (z_end z).

(** Writing [bs] at position [off] through an iterator ([begin() + off], then
    [Write(bytes, size)], zc-buffer-iterator.h:752-788 with the checks of 498-514 and
    1379-1406), here without [size_t] arithmetic. *)
Definition z_write (off : nat) (bs : list N) (h : heap) (z : zbuf) : outcome heap :=
  let cursor := z_start z + off in
  let n := length bs in
  if z_end z <? cursor + n then AssertFail
  else if ((cursor <? z_zs z) && (z_zs z <? cursor + n)) || ((cursor <? z_ze z) && (z_ze z <? cursor + n))
  then AssertFail
  else if (z_zs z <=? cursor) && (cursor <? z_ze z) then AssertFail
  else
    let offset := if cursor <? z_zs z then cursor else cursor - (z_ze z - z_zs z) in
    if n =? 0 then Done h else z_store h z offset bs.

(** ** Programs over any number of variables *)

Record zworld := mk_zworld { zw_heap : heap; zw_bufs : list (option zbuf) }.

(** The statements of [Buffer] programs, and two more. *)
Inductive zop :=
| ZBase (o : op)
| MakeReal (i : nat)
| Realize (i : nat).

Definition zvar (w : zworld) (i : nat) : option zbuf :=
  match nth_error (zw_bufs w) i with Some o => o | None => None end.
Definition zadd_var (h : heap) (w : zworld) (z : zbuf) : zworld :=
  mk_zworld h (zw_bufs w ++ [Some z]).
Definition zset_var (h : heap) (w : zworld) (i : nat) (z : option zbuf) : zworld :=
  mk_zworld h (upd (zw_bufs w) i z).
Definition zcreated (w : zworld) (r : outcome (heap * zbuf)) : outcome zworld :=
  let! (h, z) := r in Done (zadd_var h w z).
Definition zchanged (w : zworld) (i : nat) (r : outcome (heap * zbuf)) : outcome zworld :=
  let! (h, z) := r in Done (zset_var h w i (Some z)).

(** zc-buffer.h:476-484, copy constructor. *)
Definition zcopy_new (w : zworld) (z : zbuf) : outcome zworld :=
  let! h := z_acquire (zw_heap w) z in Done (zadd_var h w z).

(** zc-buffer.h:505-517, move constructor. *)
Definition zmove_new (w : zworld) (i : nat) (z : zbuf) : outcome zworld :=
  Done (zadd_var (zw_heap w) (zset_var (zw_heap w) w i (Some empty_zbuf)) z).

(** zc-buffer.h:486-503, copy assignment of another variable. *)
Definition zassign (w : zworld) (i : nat) (z c : zbuf) : outcome zworld :=
  let! h1 := z_acquire (zw_heap w) c in
  let! h2 := release_opt h1 (z_st z) in
  Done (zset_var h2 w i (Some c)).

(** zc-buffer.h:1122-1132 [swap]. *)
Definition zswap (w : zworld) (i j : nat) (z c : zbuf) : zworld :=
  zset_var (zw_heap w) (zset_var (zw_heap w) w i (Some c)) j (Some z).

(** zc-buffer.h:519-527, move assignment from another variable. *)
Definition zmove_assign (w : zworld) (i j : nat) (z c : zbuf) : outcome zworld :=
  let w1 := zswap w i j z c in
  let! (h, z') := z_release (zw_heap w1) z in
  Done (zset_var h w1 j (Some z')).

(** zc-buffer.h:471-474, destructor. *)
Definition zdestroy (w : zworld) (i : nat) (z : zbuf) : outcome zworld :=
  let! (h, _) := z_release (zw_heap w) z in Done (zset_var h w i None).

(** One statement of a program (no line of its own in the code).  Statements that name a
    variable that does not exist (any more) do nothing. *)
Definition zstep (junk : nat -> nat -> N) (zo : zop) (w : zworld) : outcome zworld :=
  let h := zw_heap w in
  let on i (f : zbuf -> outcome zworld) :=
    match zvar w i with Some z => f z | None => Done w end in
  match zo with
  | MakeReal i => on i (fun z => zcreated w (z_make_real junk h z))
  | Realize i => on i (fun z => zchanged w i (z_realize junk h z))
  | ZBase o =>
    match o with
    | New n => zcreated w (z_new_capacity junk n h)
    | NewZero s z e => zcreated w (z_new_zero junk s z e h)
    | DeepCopy d => zcreated w (z_deep_copy junk d h)
    | Copy i => on i (zcopy_new w)
    | MoveNew i => on i (zmove_new w i)
    | Assign i j => if i =? j then Done w else on i (fun z => on j (fun c => zassign w i z c))
    | MoveAssign i j =>
        if i =? j then Done w else on i (fun z => on j (fun c => zmove_assign w i j z c))
    | Swap i j => if i =? j then Done w else on i (fun z => on j (fun c => Done (zswap w i j z c)))
    | Destroy i => on i (zdestroy w i)
    | AddStart i n => on i (fun z => zchanged w i (z_add_at_start junk n h z))
    | AddStartBytes i bs => on i (fun z => zchanged w i (z_add_bytes_start junk bs h z))
    | AddStartBuf i j =>
        on i (fun z => on j (fun c =>
          zchanged w i (z_add_buf_start junk (if i =? j then None else Some c) h z)))
    | AddEnd i n => on i (fun z => zchanged w i (z_add_at_end junk n h z))
    | AddEndBytes i bs => on i (fun z => zchanged w i (z_add_bytes_end junk bs h z))
    | AddEndBuf i j =>
        on i (fun z => on j (fun c =>
          zchanged w i (z_add_buf_end junk (if i =? j then None else Some c) h z)))
    | RemStart i n => on i (fun z => zchanged w i (z_remove_at_start n h z))
    | RemEnd i n => on i (fun z => zchanged w i (z_remove_at_end n h z))
    | Fragment i s n => on i (fun z => zcreated w (z_make_fragment s n h z))
    | Write i off bs =>
        on i (fun z => let! h1 := z_write off bs h z in Done (zset_var h1 w i (Some z)))
    end
  end.

Fixpoint zsteps junk (l : list zop) (w : zworld) : outcome zworld :=
  match l with
  | [] => Done w
  | o :: r => let! w1 := zstep junk o w in zsteps junk r w1
  end.

Definition zinit : zworld := mk_zworld [] [].
