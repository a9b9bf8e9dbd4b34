(** Containers with base indices: BiVector, BiArray and BiMatrix.

    utility/array-tool.h, utility/bi-vector.h, utility/bi-array.h and
    utility/bi-matrix.h.  One element type [T] is fixed (the section variables
    below); the index bases and the storage order, which are template
    parameters of the classes, are kept with each object, so that one history
    can use containers of many instantiations.

    Simplifications.  [::operator new] never fails and [n * sizeof (T)] does
    not wrap (only [rows * columns] is modelled with its 64-bit wrap-around).
    Copying, assigning, constructing and destroying an element never throws.
    [push_back (T&&)] has the effect of [push_back (const T&)] on the vector;
    what it leaves in its argument is the business of [T] and is not modelled.
    Pointers are (block, offset) pairs and offsets are plain numbers: computing
    a pointer outside a block is harmless, only accessing it is [UB]. *)
From Verif Require Import Base.

Section Containers.

(** The element type [T], the value of [T ()], and [std::is_pod<T>::value]
    (array-tool.h uses [pod_tag<T>] to choose between the two variants of each
    helper). *)
Variable V : Type.
Variable v0 : V.
Variable pod : bool.

(** The memory of one element: no object lives there, or an object of a value.
    For a POD type [Raw] is memory that was never written. *)
Inductive slot : Type := Raw | Live (v : V).

(** Blocks obtained from [::operator new]; [None] once deleted. *)
Definition heap : Type := list (option (list slot)).

(** [T* data_]: null, or the begin of a block. *)
Definition ptr : Type := option nat.

(** Access to the element at [p + off]. *)
Definition slot_at (h : heap) (p : ptr) (off : N) : outcome slot :=
  match p with
  | None => UB
  | Some b =>
      match nth_error h b with
      | Some (Some blk) =>
          match nth_error blk (N.to_nat off) with
          | Some s => Done s
          | None => UB
          end
      | _ => UB
      end
  end.

Definition slot_put (h : heap) (p : ptr) (off : N) (s : slot) : outcome heap :=
  match p with
  | None => UB
  | Some b =>
      match nth_error h b with
      | Some (Some blk) =>
          if (N.to_nat off <? length blk)%nat
          then Done (upd h b (Some (upd blk (N.to_nat off) s)))
          else UB
      | _ => UB
      end
  end.

(** Reading [*p]; reading memory in which no object lives is [UB]. *)
Definition load (h : heap) (p : ptr) (off : N) : outcome V :=
  let! s := slot_at h p off in
  match s with Live v => Done v | Raw => UB end.

(** [*p = v]: assignment to a living object (or to any POD memory). *)
Definition store (h : heap) (p : ptr) (off : N) (v : V) : outcome heap :=
  let! s := slot_at h p off in
  match s with
  | Live _ => slot_put h p off (Live v)
  | Raw => if pod then slot_put h p off (Live v) else UB
  end.

(** [new (p) T (v)].  Constructing a non-POD object over a living one loses
    that object (its destructor never runs); the model reports it as [UB] so
    that no proved history can contain it. *)
Definition construct (h : heap) (p : ptr) (off : N) (v : V) : outcome heap :=
  let! s := slot_at h p off in
  match s with
  | Raw => slot_put h p off (Live v)
  | Live _ => if pod then slot_put h p off (Live v) else UB
  end.

(** [p->~T ()] of a non-POD object. *)
Definition destruct (h : heap) (p : ptr) (off : N) : outcome heap :=
  let! s := slot_at h p off in
  match s with
  | Live _ => slot_put h p off Raw
  | Raw => UB
  end.

(** [const T&]: a reference to an object outside of the containers, whose value
    nobody changes meanwhile, or to an element of some block. *)
Inductive src : Type :=
| SVal (v : V)
| SRef (b : nat) (off : N).

Definition read_src (h : heap) (s : src) : outcome V :=
  match s with
  | SVal v => Done v
  | SRef b off => load h (Some b) off
  end.

(** [array_init (p, size, v)], array-tool.h 55-74 and 105-110: construct (POD:
    assign) [size] elements from the referenced value, one after the other. *)
Fixpoint array_init (h : heap) (p : ptr) (off : N) (size : nat) (s : src) : outcome heap :=
  match size with
  | O => Done h
  | S k =>
      let! v := read_src h s in
      let! h1 := construct h p off v in
      array_init h1 p (off + 1) k s
  end.

(** [array_init (p, size)], array-tool.h 38-52 and 87-92: zero the memory of
    POD elements, [T ()] for the others. *)
Definition array_init0 (h : heap) (p : ptr) (size : nat) : outcome heap :=
  array_init h p 0 size (SVal v0).

(** [array_copy_init (first, last, dst)], array-tool.h 124-132: construct one
    element per element of the range.  The [memcpy] variant for POD arrays
    (135-164) has the same effect on distinct blocks. *)
Fixpoint array_copy_init (h : heap) (srcs : list src) (p : ptr) (off : N) : outcome heap :=
  match srcs with
  | [] => Done h
  | s :: rest =>
      let! v := read_src h s in
      let! h1 := construct h p off v in
      array_copy_init h1 rest p (off + 1)
  end.

(** [array_destroy (p, size)], array-tool.h 185-214: nothing for POD types. *)
Fixpoint array_destroy_loop (h : heap) (p : ptr) (off : N) (size : nat) : outcome heap :=
  match size with
  | O => Done h
  | S k =>
      let! h1 := destruct h p off in
      array_destroy_loop h1 p (off + 1) k
  end.

Definition array_destroy (h : heap) (p : ptr) (off : N) (size : nat) : outcome heap :=
  if pod then Done h else array_destroy_loop h p off size.

(** [::operator new (n * sizeof (T))] *)
Definition op_new (h : heap) (n : N) : heap * ptr :=
  (h ++ [Some (repeat Raw (N.to_nat n))], Some (length h)).

(** [::operator delete (p)]: deleting null does nothing, deleting twice is [UB]. *)
Definition op_delete (h : heap) (p : ptr) : outcome heap :=
  match p with
  | None => Done h
  | Some b =>
      match nth_error h b with
      | Some (Some _) => Done (upd h b None)
      | _ => UB
      end
  end.

(** Storage order of a matrix, bi-matrix.h 37-41. *)
Inductive layout : Set := RowMajor | ColumnMajor.

(** The containers.  [Vec]: bi-vector.h 43-49 (capacity_, size_, data_);
    [Arr]: bi-array.h 43-48 (size_, data_); [Mat]: bi-matrix.h 60-67 (size1_,
    size2_, data_).  The template parameters come first. *)
Inductive obj : Type :=
| Vec (Ib : N) (cap size : N) (data : ptr)
| Arr (Ib : N) (size : N) (data : ptr)
| Mat (L : layout) (Ib Jb : N) (rows cols : N) (data : ptr).

Definition data_of (o : obj) : ptr :=
  match o with
  | Vec _ _ _ d => d
  | Arr _ _ d => d
  | Mat _ _ _ _ _ d => d
  end.

(** [rows * columns] in [size_t]. *)
Definition mat_size (rows cols : N) : N := w64 (rows * cols).

(** The number of elements: bi-vector.h 152-156, bi-array.h 150-153,
    bi-matrix.h 413-416. *)
Definition count_of (o : obj) : N :=
  match o with
  | Vec _ _ size _ => size
  | Arr _ size _ => size
  | Mat _ _ _ r c _ => mat_size r c
  end.

(** ** Construction, copy and destruction *)

(** [bi_vector_init (vt, capacity)], bi-vector.h 63-75. *)
Definition vec_init (h : heap) (Ib cap : N) : heap * obj :=
  if (cap =? 0)%N then (h, Vec Ib 0 0 None)
  else let '(h1, d) := op_new h cap in (h1, Vec Ib cap 0 d).

(** [bi_vector_init (vt, capacity, size, v)], bi-vector.h 89-99: nothing checks
    that the size is within the capacity. *)
Definition vec_init_fill (h : heap) (Ib cap size : N) (s : src) : outcome (heap * obj) :=
  match vec_init h Ib cap with
  | (h1, Vec I1 cap1 _ d) =>
      if (size =? 0)%N then Done (h1, Vec I1 cap1 0 d)
      else let! h2 := array_init h1 d 0 (N.to_nat size) s in
           Done (h2, Vec I1 cap1 size d)
  | (h1, o) => Done (h1, o)
  end.

(** The elements [0 .. n) of a block, as the sources of a copy. *)
Definition elements (b : nat) (n : N) : list src :=
  map (fun k => SRef b (N.of_nat k)) (seq 0 (N.to_nat n)).

(** The same for a pointer; a null pointer has no elements (reading through it
    is [UB], which the model expresses by an element of a block that never
    exists only when the count is not zero). *)
Definition elements_at (h : heap) (p : ptr) (n : N) : list src :=
  match p with
  | Some b => elements b n
  | None => elements (length h) n
  end.

(** [bi_vector_copy], bi-vector.h 129-142. *)
Definition vec_copy (h : heap) (Ib cap size : N) (d : ptr) : outcome (heap * obj) :=
  match vec_init h Ib cap with
  | (h1, Vec I1 cap1 _ d1) =>
      if (size =? 0)%N then Done (h1, Vec I1 cap1 0 d1)
      else let! h2 := array_copy_init h1 (elements_at h1 d size) d1 0 in
           Done (h2, Vec I1 cap1 size d1)
  | (h1, o) => Done (h1, o)
  end.

(** [bi_array_init (ar, size)], bi-array.h 65-76. *)
Definition arr_init (h : heap) (Ib size : N) : outcome (heap * obj) :=
  if (size =? 0)%N then Done (h, Arr Ib 0 None)
  else let '(h1, d) := op_new h size in
       let! h2 := array_init0 h1 d (N.to_nat size) in
       Done (h2, Arr Ib size d).

(** [bi_array_init (ar, size, v)], bi-array.h 91-102. *)
Definition arr_init_fill (h : heap) (Ib size : N) (s : src) : outcome (heap * obj) :=
  if (size =? 0)%N then Done (h, Arr Ib 0 None)
  else let '(h1, d) := op_new h size in
       let! h2 := array_init h1 d 0 (N.to_nat size) s in
       Done (h2, Arr Ib size d).

(** [bi_array_copy], bi-array.h 134-146. *)
Definition arr_copy (h : heap) (Ib size : N) (d : ptr) : outcome (heap * obj) :=
  if (size =? 0)%N then Done (h, Arr Ib 0 None)
  else let '(h1, d1) := op_new h size in
       let! h2 := array_copy_init h1 (elements_at h1 d size) d1 0 in
       Done (h2, Arr Ib size d1).

(** [max_size1 ()] and [max_size2 ()], bi-matrix.h 2873-2887. *)
Definition mat_max : N := ((2 ^ 64 - 1) / 2)%N.

(** [BiMatrix (rows, columns)], bi-matrix.h 2793-2798, with [bi_matrix_init]
    308-321.  (The constructor of a square matrix, 2780-2785, is the case
    [rows = columns]; the default constructor 2770-2773 is [0, 0].) *)
Definition mat_init (h : heap) (L : layout) (Ib Jb r c : N) : outcome (heap * obj) :=
  if ((r <=? mat_max) && (c <=? mat_max))%N then
    if (mat_size r c =? 0)%N then Done (h, Mat L Ib Jb r c None)
    else let '(h1, d) := op_new h (mat_size r c) in
         let! h2 := array_init0 h1 d (N.to_nat (mat_size r c)) in
         Done (h2, Mat L Ib Jb r c d)
  else AssertFail.

(** [BiMatrix (rows, columns, v)], bi-matrix.h 2805-2810, with [bi_matrix_init]
    341-355. *)
Definition mat_init_fill (h : heap) (L : layout) (Ib Jb r c : N) (s : src) : outcome (heap * obj) :=
  if ((r <=? mat_max) && (c <=? mat_max))%N then
    if (mat_size r c =? 0)%N then Done (h, Mat L Ib Jb r c None)
    else let '(h1, d) := op_new h (mat_size r c) in
         let! h2 := array_init h1 d 0 (N.to_nat (mat_size r c)) s in
         Done (h2, Mat L Ib Jb r c d)
  else AssertFail.

(** [bi_matrix_copy], bi-matrix.h 379-408: a copy of a matrix without elements
    copies the (null) pointer. *)
Definition mat_copy (h : heap) (L : layout) (Ib Jb r c : N) (d : ptr) : outcome (heap * obj) :=
  if (mat_size r c =? 0)%N then Done (h, Mat L Ib Jb r c d)
  else let '(h1, d1) := op_new h (mat_size r c) in
       let! h2 := array_copy_init h1 (elements_at h1 d (mat_size r c)) d1 0 in
       Done (h2, Mat L Ib Jb r c d1).

(** Copy constructors: bi-vector.h 813-816, bi-array.h 741-744, bi-matrix.h
    2817-2820. *)
Definition copy_obj (h : heap) (o : obj) : outcome (heap * obj) :=
  match o with
  | Vec Ib cap size d => vec_copy h Ib cap size d
  | Arr Ib size d => arr_copy h Ib size d
  | Mat L Ib Jb r c d => mat_copy h L Ib Jb r c d
  end.

(** Destructors: bi-vector.h 110-117 and 808-811, bi-array.h 114-119 and
    736-739, bi-matrix.h 359-364 and 2812-2815. *)
Definition destroy_obj (h : heap) (o : obj) : outcome heap :=
  let! h1 := array_destroy h (data_of o) 0 (N.to_nat (count_of o)) in
  op_delete h1 (data_of o).

(** What the source of a move is left with: [bi_vector_init (&rhs.vt_, 0)],
    [bi_array_init (&rhs.ar_, 0)], or the swapped [bi_matrix_init (&mx_, 0, 0)]. *)
Definition empty_obj (o : obj) : obj :=
  match o with
  | Vec Ib _ _ _ => Vec Ib 0 0 None
  | Arr Ib _ _ => Arr Ib 0 None
  | Mat L Ib Jb _ _ _ => Mat L Ib Jb 0 0 None
  end.

Definition layout_eqb (a b : layout) : bool :=
  match a, b with
  | RowMajor, RowMajor | ColumnMajor, ColumnMajor => true
  | _, _ => false
  end.

(** Two objects of one instantiation; only these can be assigned or swapped. *)
Definition same_type (a b : obj) : bool :=
  match a, b with
  | Vec Ib _ _ _, Vec Ib' _ _ _ => (Ib =? Ib')%N
  | Arr Ib _ _, Arr Ib' _ _ => (Ib =? Ib')%N
  | Mat L Ib Jb _ _ _, Mat L' Ib' Jb' _ _ _ =>
      layout_eqb L L' && ((Ib =? Ib') && (Jb =? Jb'))%N
  | _, _ => false
  end.

(** ** Element access *)

(** [BOOST_ASSERT (I <= i && i < I + size)], the sum being a [size_t]. *)
Definition in_base (Ib size i : N) : bool := ((Ib <=? i) && (i <? w64 (Ib + size)))%N.

(** Offset of element [i]: [bi_vector_at] bi-vector.h 158-164, [bi_array_at]
    bi-array.h 157-161. *)
Definition at_offset (o : obj) (i : N) : outcome N :=
  match o with
  | Vec Ib _ size _ => if in_base Ib size i then Done (i - Ib)%N else AssertFail
  | Arr Ib size _ => if in_base Ib size i then Done (i - Ib)%N else AssertFail
  | Mat _ _ _ r c _ => if (i <? mat_size r c)%N then Done i else AssertFail
  end.

(** Offset of element [(i, j)] of a matrix: [bi_matrix_at] bi-matrix.h 442-449
    (row major) and 451-458 (column major).  The one-index [bi_matrix_at],
    434-440, is the last case of [at_offset]. *)
Definition mat_offset (L : layout) (Ib Jb r c i j : N) : outcome N :=
  if in_base Ib r i then
    if in_base Jb c j then
      match L with
      | RowMajor => Done ((i - Ib) * c + (j - Jb))%N
      | ColumnMajor => Done ((j - Jb) * r + (i - Ib))%N
      end
    else AssertFail
  else AssertFail.

(** [front ()]: bi-vector.h 166-172, bi-array.h 165-169, bi-matrix.h 460-466. *)
Definition front_offset (o : obj) : outcome N :=
  match o with
  | Vec _ _ size _ => if (size =? 0)%N then AssertFail else Done 0%N
  | Arr _ size _ => if (size =? 0)%N then AssertFail else Done 0%N
  | Mat _ _ _ r c _ => if (r =? 0)%N || (c =? 0)%N then AssertFail else Done 0%N
  end.

(** [back ()]: bi-vector.h 174-180, bi-array.h 173-177, bi-matrix.h 468-474
    (the subtraction is one of [size_t]). *)
Definition back_offset (o : obj) : outcome N :=
  match o with
  | Vec _ _ size _ => if (size =? 0)%N then AssertFail else Done (size - 1)%N
  | Arr _ size _ => if (size =? 0)%N then AssertFail else Done (size - 1)%N
  | Mat _ _ _ r c _ =>
      if (r =? 0)%N || (c =? 0)%N then AssertFail
      else Done (wsub 64 (mat_size r c) 1)
  end.

(** ** Filling *)

(** The loops [*p = v; p += stride;], run [n] times. *)
Fixpoint fill_loop (h : heap) (p : ptr) (off stride : N) (n : nat) (s : src) : outcome heap :=
  match n with
  | O => Done h
  | S k =>
      let! v := read_src h s in
      let! h1 := store h p off v in
      fill_loop h1 p (off + stride) stride k s
  end.

(** [fill (v)]: bi-array.h 181-189, bi-matrix.h 483-493. *)
Definition fill_all (h : heap) (o : obj) (s : src) : outcome heap :=
  fill_loop h (data_of o) 0 1 (N.to_nat (count_of o)) s.

(** [bi_matrix_fill1]: bi-matrix.h 496-508 (row major) and 511-523 (column
    major). *)
Definition mat_fill1 (h : heap) (L : layout) (Ib Jb r c : N) (d : ptr) (i : N) (s : src)
  : outcome heap :=
  if in_base Ib r i then
    match L with
    | RowMajor => fill_loop h d ((i - Ib) * c) 1 (N.to_nat c) s
    | ColumnMajor => fill_loop h d (i - Ib) r (N.to_nat c) s
    end
  else AssertFail.

(** [bi_matrix_fill2]: bi-matrix.h 526-538 (row major) and 541-553 (column
    major).  The assertion compares the column with the number of rows. *)
Definition mat_fill2 (h : heap) (L : layout) (Ib Jb r c : N) (d : ptr) (j : N) (s : src)
  : outcome heap :=
  if in_base Jb r j then
    match L with
    | RowMajor => fill_loop h d (j - Jb) c (N.to_nat r) s
    | ColumnMajor => fill_loop h d ((j - Jb) * r) 1 (N.to_nat r) s
    end
  else AssertFail.

(** ** Growing and shrinking a vector *)

(** [bi_vector_assign (vt, n, v)], bi-vector.h 182-197: when the vector has [n]
    or more elements, only the first [n] are replaced and the size is kept. *)
Definition vec_assign (h : heap) (Ib cap size : N) (d : ptr) (n : N) (s : src)
  : outcome (heap * obj) :=
  if (n <=? cap)%N then
    if (size <? n)%N then
      let! h1 := array_destroy h d 0 (N.to_nat size) in
      let! h2 := array_init h1 d 0 (N.to_nat n) s in
      Done (h2, Vec Ib cap n d)
    else
      let! h1 := array_destroy h d 0 (N.to_nat n) in
      let! h2 := array_init h1 d 0 (N.to_nat n) s in
      Done (h2, Vec Ib cap size d)
  else AssertFail.

(** [bi_vector_assign (vt, first, last)], bi-vector.h 199-218.  [srcs] are the
    elements of the range, so that [first <= last] always holds. *)
Definition vec_assign_range (h : heap) (Ib cap size : N) (d : ptr) (srcs : list src)
  : outcome (heap * obj) :=
  let n := N.of_nat (length srcs) in
  if (n <=? cap)%N then
    if (size <? n)%N then
      let! h1 := array_destroy h d 0 (N.to_nat size) in
      let! h2 := array_copy_init h1 srcs d 0 in
      Done (h2, Vec Ib cap n d)
    else
      let! h1 := array_destroy h d 0 (N.to_nat n) in
      let! h2 := array_copy_init h1 srcs d 0 in
      Done (h2, Vec Ib cap size d)
  else AssertFail.

(** [bi_vector_push_back], bi-vector.h 220-238. *)
Definition vec_push_back (h : heap) (Ib cap size : N) (d : ptr) (s : src) : outcome (heap * obj) :=
  if (size <? cap)%N then
    let! h1 := array_init h d size 1 s in
    Done (h1, Vec Ib cap (size + 1) d)
  else AssertFail.

(** [bi_vector_pop_back], bi-vector.h 240-248. *)
Definition vec_pop_back (h : heap) (Ib cap size : N) (d : ptr) : outcome (heap * obj) :=
  if (size =? 0)%N then AssertFail
  else
    let! h1 := array_destroy h d (size - 1) 1 in
    Done (h1, Vec Ib cap (size - 1) d).

(** [bi_vector_clear], bi-vector.h 250-256. *)
Definition vec_clear (h : heap) (Ib cap size : N) (d : ptr) : outcome (heap * obj) :=
  let! h1 := array_destroy h d 0 (N.to_nat size) in
  Done (h1, Vec Ib cap 0 d).

(** ** Iterators *)

(** BiVectorIterator, BiArrayIterator (a pointer), BiMatrixIterator
    (bi-matrix.h 618-796), BiMatrixRowIterator (1066-1244 and 1439-1619) and
    BiMatrixColumnIterator (1906-2086 and 2291-2468), with their const
    counterparts, which have the same arithmetic: a pointer and the distance
    between consecutive elements.  Iterators that step over adjacent elements
    do not store the distance, it is 1. *)
Record iter : Type := { it_data : ptr; it_off : Z; it_stride : N }.

(** [it + n] and [it += n]; [++it] is [it + 1], [it - n] is [it + (- n)].  The
    products [n * size1_] are computed modulo 2^64 and added to a 64-bit
    pointer, which is addition of integers. *)
Definition it_add (it : iter) (n : Z) : iter :=
  {| it_data := it_data it; it_off := (it_off it + n * Z.of_N (it_stride it))%Z;
     it_stride := it_stride it |}.

(** [a - b]: bi-matrix.h 741-744, 1189-1192, 1566-1569, 2033-2036, 2414-2417. *)
Definition it_sub (a b : iter) : Z :=
  Z.quot (it_off a - it_off b) (Z.of_N (it_stride a)).

(** [*it] *)
Definition it_load (h : heap) (it : iter) : outcome V :=
  if (it_off it <? 0)%Z then UB else load h (it_data it) (Z.to_N (it_off it)).

(** [while (it != last) { ... *it ...; ++it; }].  The loop is cut off after
    [fuel] elements; an iteration that is still running after more steps than
    the block has elements has left the block, which is [UB]. *)
Fixpoint it_loop (h : heap) (it : iter) (last : Z) (fuel : nat) : outcome (list V) :=
  if (it_off it =? last)%Z then Done []
  else match fuel with
       | O => UB
       | S k =>
           let! v := it_load h it in
           let! l := it_loop h (it_add it 1) last k in
           Done (v :: l)
       end.

Definition block_length (h : heap) (p : ptr) : nat :=
  match p with
  | Some b => match nth_error h b with Some (Some blk) => length blk | _ => O end
  | None => O
  end.

(** [begin ()] and [end ()]: bi-vector.h 258-277 and 976-1004, bi-array.h
    193-210 and 869-897, bi-matrix.h 3080-3126. *)
Definition begin_it (o : obj) : iter :=
  {| it_data := data_of o; it_off := 0; it_stride := 1 |}.
Definition end_it (o : obj) : iter := it_add (begin_it o) (Z.of_N (count_of o)).

(** The free function [detail::bi_matrix_end], bi-matrix.h 564-569, which the
    class does not use. *)
Definition detail_end (o : obj) : iter :=
  match o with
  | Mat _ _ _ r c _ => it_add (begin_it o) (Z.of_N (r + c))
  | _ => end_it o
  end.

(** [begin1 (i)], bi-matrix.h 3131-3163 and 3198-3207. *)
Definition begin1 (L : layout) (Ib Jb r c : N) (d : ptr) (i : N) : outcome iter :=
  if in_base Ib r i then
    match L with
    | RowMajor =>
        Done {| it_data := d; it_off := Z.of_N ((i - Ib) * c); it_stride := 1 |}
    | ColumnMajor =>
        Done {| it_data := d; it_off := Z.of_N (i - Ib); it_stride := r |}
    end
  else AssertFail.

(** [end1 (i)], bi-matrix.h 3209-3218. *)
Definition end1 (L : layout) (Ib Jb r c : N) (d : ptr) (i : N) : outcome iter :=
  let! it := begin1 L Ib Jb r c d i in Done (it_add it (Z.of_N c)).

(** [begin2 (j)], bi-matrix.h 3164-3196 and 3242-3251. *)
Definition begin2 (L : layout) (Ib Jb r c : N) (d : ptr) (j : N) : outcome iter :=
  if in_base Jb c j then
    match L with
    | RowMajor =>
        Done {| it_data := d; it_off := Z.of_N (j - Jb); it_stride := c |}
    | ColumnMajor =>
        Done {| it_data := d; it_off := Z.of_N ((j - Jb) * r); it_stride := 1 |}
    end
  else AssertFail.

(** [end2 (j)], bi-matrix.h 3253-3262. *)
Definition end2 (L : layout) (Ib Jb r c : N) (d : ptr) (j : N) : outcome iter :=
  let! it := begin2 L Ib Jb r c d j in Done (it_add it (Z.of_N r)).

(** ** Programs *)

(** The objects a program has constructed, in order; [None] once destroyed. *)
Record world : Type := { w_heap : heap; w_objs : list (option obj) }.

Definition init : world := {| w_heap := []; w_objs := [] |}.

(** An argument of type [const T&]: some other object, or element [k] (counted
    from the begin of the storage) of container [o]. *)
Inductive psrc : Type :=
| PVal (v : V)
| PElem (o : nat) (k : N).

Inductive op : Type :=
| ONewVec (Ib cap : N)
| ONewVecFill (Ib cap size : N) (s : psrc)
| ONewArr (Ib size : N)
| ONewArrFill (Ib size : N) (s : psrc)
| ONewMat (L : layout) (Ib Jb rows cols : N)
| ONewMatFill (L : layout) (Ib Jb rows cols : N) (s : psrc)
| OCopy (o : nat)
| OMove (o : nat)
| OAssign (dst from : nat)
| OMoveAssign (dst from : nat)
| OSwap (a b : nat)
| ODestroy (o : nat)
| OSize (o : nat)
| OCapacity (o : nat)
| OGet (o : nat) (i : N)
| OSet (o : nat) (i : N) (s : psrc)
| OGet2 (o : nat) (i j : N)
| OSet2 (o : nat) (i j : N) (s : psrc)
| OFront (o : nat)
| OBack (o : nat)
| OFill (o : nat) (s : psrc)
| OFill1 (o : nat) (i : N) (s : psrc)
| OFill2 (o : nat) (j : N) (s : psrc)
| OAssignN (o : nat) (n : N) (s : psrc)
| OAssignRange (o : nat) (l : list psrc)
| OPushBack (o : nat) (s : psrc)
| OPopBack (o : nat)
| OClear (o : nat)
| OIterate (o : nat)
| ORow (o : nat) (i : N)
| OColumn (o : nat) (j : N)
| ORowNth (o : nat) (i : N) (n : Z)
| OColumnNth (o : nat) (j : N) (n : Z)
| ORowSize (o : nat) (i : N)
| OColumnSize (o : nat) (j : N).

(** What the caller sees.  [RSkip]: the statement names an object that is not
    there, or does not type-check; such a statement is not part of a program
    and changes nothing. *)
Inductive res : Type :=
| RSkip
| RUnit
| RVal (v : V)
| RNum (n : N)
| RInt (n : Z)
| RList (l : list V).

Definition obj_at (w : world) (o : nat) : option obj :=
  match nth_error (w_objs w) o with Some (Some x) => Some x | _ => None end.

(** Binding a [const T&]; a reference to an element that does not exist is
    [UB]. *)
Definition resolve (w : world) (s : psrc) : outcome src :=
  match s with
  | PVal v => Done (SVal v)
  | PElem o k =>
      match obj_at w o with
      | Some x =>
          match data_of x with
          | Some b => if (k <? count_of x)%N then Done (SRef b k) else UB
          | None => UB
          end
      | None => UB
      end
  end.

Fixpoint resolve_all (w : world) (l : list psrc) : outcome (list src) :=
  match l with
  | [] => Done []
  | s :: t =>
      let! x := resolve w s in
      let! r := resolve_all w t in
      Done (x :: r)
  end.

Definition add_obj (w : world) (hx : heap * obj) : world * res :=
  ({| w_heap := fst hx; w_objs := w_objs w ++ [Some (snd hx)] |}, RUnit).

Definition put_obj (w : world) (o : nat) (hx : heap * obj) : world * res :=
  ({| w_heap := fst hx; w_objs := upd (w_objs w) o (Some (snd hx)) |}, RUnit).

Definition put_heap (w : world) (h : heap) : world :=
  {| w_heap := h; w_objs := w_objs w |}.

Definition skip (w : world) : outcome (world * res) := Done (w, RSkip).

(** One statement of a program.
    Copy assignment: bi-vector.h 818-826, bi-array.h 746-754, bi-matrix.h
    2822-2830.  Move construction: bi-vector.h 828-832 (the swap exchanges
    [*this], still uninitialized, with [rhs], which is initialized afterwards),
    bi-array.h 756-760, bi-matrix.h 2832-2836.  Move assignment: bi-vector.h
    834-843, bi-array.h 762-771, bi-matrix.h 2838-2847.  Swap: bi-vector.h
    967-972, bi-array.h 860-866, bi-matrix.h 3070-3078. *)
Definition step (w : world) (p : op) : outcome (world * res) :=
  let h := w_heap w in
  match p with
  | ONewVec Ib cap => Done (add_obj w (vec_init h Ib cap))
  | ONewVecFill Ib cap size s =>
      let! s' := resolve w s in
      let! hx := vec_init_fill h Ib cap size s' in
      Done (add_obj w hx)
  | ONewArr Ib size =>
      let! hx := arr_init h Ib size in Done (add_obj w hx)
  | ONewArrFill Ib size s =>
      let! s' := resolve w s in
      let! hx := arr_init_fill h Ib size s' in
      Done (add_obj w hx)
  | ONewMat L Ib Jb r c =>
      let! hx := mat_init h L Ib Jb r c in Done (add_obj w hx)
  | ONewMatFill L Ib Jb r c s =>
      let! s' := resolve w s in
      let! hx := mat_init_fill h L Ib Jb r c s' in
      Done (add_obj w hx)
  | OCopy o =>
      match obj_at w o with
      | Some x => let! hx := copy_obj h x in Done (add_obj w hx)
      | None => skip w
      end
  | OMove o =>
      match obj_at w o with
      | Some x =>
          Done ({| w_heap := h;
                   w_objs := upd (w_objs w) o (Some (empty_obj x)) ++ [Some x] |}, RUnit)
      | None => skip w
      end
  | OAssign dst from =>
      match obj_at w dst, obj_at w from with
      | Some x, Some y =>
          if same_type x y then
            if (dst =? from)%nat then Done (w, RUnit)
            else
              let! h1 := destroy_obj h x in
              let! hx := copy_obj h1 y in
              Done (put_obj w dst hx)
          else skip w
      | _, _ => skip w
      end
  | OMoveAssign dst from =>
      match obj_at w dst, obj_at w from with
      | Some x, Some y =>
          if same_type x y then
            if (dst =? from)%nat then Done (w, RUnit)
            else
              let! h1 := destroy_obj h x in
              Done ({| w_heap := h1;
                       w_objs := upd (upd (w_objs w) dst (Some y)) from (Some (empty_obj x)) |},
                    RUnit)
          else skip w
      | _, _ => skip w
      end
  | OSwap a b =>
      match obj_at w a, obj_at w b with
      | Some x, Some y =>
          if same_type x y then
            Done ({| w_heap := h;
                     w_objs := upd (upd (w_objs w) a (Some y)) b (Some x) |}, RUnit)
          else skip w
      | _, _ => skip w
      end
  | ODestroy o =>
      match obj_at w o with
      | Some x =>
          let! h1 := destroy_obj h x in
          Done ({| w_heap := h1; w_objs := upd (w_objs w) o None |}, RUnit)
      | None => skip w
      end
  | OSize o =>
      match obj_at w o with
      | Some x => Done (w, RNum (count_of x))
      | None => skip w
      end
  | OCapacity o =>
      match obj_at w o with
      | Some (Vec _ cap _ _) => Done (w, RNum cap)
      | _ => skip w
      end
  | OGet o i =>
      match obj_at w o with
      | Some x =>
          let! k := at_offset x i in
          let! v := load h (data_of x) k in
          Done (w, RVal v)
      | None => skip w
      end
  | OSet o i s =>
      match obj_at w o with
      | Some x =>
          let! k := at_offset x i in
          let! s' := resolve w s in
          let! v := read_src h s' in
          let! h1 := store h (data_of x) k v in
          Done (put_heap w h1, RUnit)
      | None => skip w
      end
  | OGet2 o i j =>
      match obj_at w o with
      | Some (Mat L Ib Jb r c d) =>
          let! k := mat_offset L Ib Jb r c i j in
          let! v := load h d k in
          Done (w, RVal v)
      | _ => skip w
      end
  | OSet2 o i j s =>
      match obj_at w o with
      | Some (Mat L Ib Jb r c d) =>
          let! k := mat_offset L Ib Jb r c i j in
          let! s' := resolve w s in
          let! v := read_src h s' in
          let! h1 := store h d k v in
          Done (put_heap w h1, RUnit)
      | _ => skip w
      end
  | OFront o =>
      match obj_at w o with
      | Some x =>
          let! k := front_offset x in
          let! v := load h (data_of x) k in
          Done (w, RVal v)
      | None => skip w
      end
  | OBack o =>
      match obj_at w o with
      | Some x =>
          let! k := back_offset x in
          let! v := load h (data_of x) k in
          Done (w, RVal v)
      | None => skip w
      end
  | OFill o s =>
      match obj_at w o with
      | Some (Vec _ _ _ _) => skip w
      | Some x =>
          let! s' := resolve w s in
          let! h1 := fill_all h x s' in
          Done (put_heap w h1, RUnit)
      | None => skip w
      end
  | OFill1 o i s =>
      match obj_at w o with
      | Some (Mat L Ib Jb r c d) =>
          let! s' := resolve w s in
          let! h1 := mat_fill1 h L Ib Jb r c d i s' in
          Done (put_heap w h1, RUnit)
      | _ => skip w
      end
  | OFill2 o j s =>
      match obj_at w o with
      | Some (Mat L Ib Jb r c d) =>
          let! s' := resolve w s in
          let! h1 := mat_fill2 h L Ib Jb r c d j s' in
          Done (put_heap w h1, RUnit)
      | _ => skip w
      end
  | OAssignN o n s =>
      match obj_at w o with
      | Some (Vec Ib cap size d) =>
          let! s' := resolve w s in
          let! hx := vec_assign h Ib cap size d n s' in
          Done (put_obj w o hx)
      | _ => skip w
      end
  | OAssignRange o l =>
      match obj_at w o with
      | Some (Vec Ib cap size d) =>
          let! l' := resolve_all w l in
          let! hx := vec_assign_range h Ib cap size d l' in
          Done (put_obj w o hx)
      | _ => skip w
      end
  | OPushBack o s =>
      match obj_at w o with
      | Some (Vec Ib cap size d) =>
          let! s' := resolve w s in
          let! hx := vec_push_back h Ib cap size d s' in
          Done (put_obj w o hx)
      | _ => skip w
      end
  | OPopBack o =>
      match obj_at w o with
      | Some (Vec Ib cap size d) =>
          let! hx := vec_pop_back h Ib cap size d in
          Done (put_obj w o hx)
      | _ => skip w
      end
  | OClear o =>
      match obj_at w o with
      | Some (Vec Ib cap size d) =>
          let! hx := vec_clear h Ib cap size d in
          Done (put_obj w o hx)
      | _ => skip w
      end
  | OIterate o =>
      match obj_at w o with
      | Some x =>
          let! l := it_loop h (begin_it x) (it_off (end_it x)) (block_length h (data_of x)) in
          Done (w, RList l)
      | None => skip w
      end
  | ORow o i =>
      match obj_at w o with
      | Some (Mat L Ib Jb r c d) =>
          let! a := begin1 L Ib Jb r c d i in
          let! b := end1 L Ib Jb r c d i in
          let! l := it_loop h a (it_off b) (block_length h d) in
          Done (w, RList l)
      | _ => skip w
      end
  | OColumn o j =>
      match obj_at w o with
      | Some (Mat L Ib Jb r c d) =>
          let! a := begin2 L Ib Jb r c d j in
          let! b := end2 L Ib Jb r c d j in
          let! l := it_loop h a (it_off b) (block_length h d) in
          Done (w, RList l)
      | _ => skip w
      end
  | ORowNth o i n =>
      match obj_at w o with
      | Some (Mat L Ib Jb r c d) =>
          let! a := begin1 L Ib Jb r c d i in
          let! v := it_load h (it_add a n) in
          Done (w, RVal v)
      | _ => skip w
      end
  | OColumnNth o j n =>
      match obj_at w o with
      | Some (Mat L Ib Jb r c d) =>
          let! a := begin2 L Ib Jb r c d j in
          let! v := it_load h (it_add a n) in
          Done (w, RVal v)
      | _ => skip w
      end
  | ORowSize o i =>
      match obj_at w o with
      | Some (Mat L Ib Jb r c d) =>
          let! a := begin1 L Ib Jb r c d i in
          let! b := end1 L Ib Jb r c d i in
          Done (w, RInt (it_sub b a))
      | _ => skip w
      end
  | OColumnSize o j =>
      match obj_at w o with
      | Some (Mat L Ib Jb r c d) =>
          let! a := begin2 L Ib Jb r c d j in
          let! b := end2 L Ib Jb r c d j in
          Done (w, RInt (it_sub b a))
      | _ => skip w
      end
  end.

(** A whole program and the results of its statements. *)
Fixpoint run (w : world) (ps : list op) : outcome (world * list res) :=
  match ps with
  | [] => Done (w, [])
  | p :: rest =>
      let! (w1, r) := step w p in
      let! (w2, rs) := run w1 rest in
      Done (w2, r :: rs)
  end.

End Containers.

Arguments Raw {V}.
Arguments Live {V} v.
Arguments SVal {V} v.
Arguments SRef {V} b off.
Arguments PVal {V} v.
Arguments PElem {V} o k.
Arguments ONewVec {V} Ib cap.
Arguments ONewVecFill {V} Ib cap size s.
Arguments ONewArr {V} Ib size.
Arguments ONewArrFill {V} Ib size s.
Arguments ONewMat {V} L Ib Jb rows cols.
Arguments ONewMatFill {V} L Ib Jb rows cols s.
Arguments OCopy {V} o.
Arguments OMove {V} o.
Arguments OAssign {V} dst from.
Arguments OMoveAssign {V} dst from.
Arguments OSwap {V} a b.
Arguments ODestroy {V} o.
Arguments OSize {V} o.
Arguments OCapacity {V} o.
Arguments OGet {V} o i.
Arguments OSet {V} o i s.
Arguments OGet2 {V} o i j.
Arguments OSet2 {V} o i j s.
Arguments OFront {V} o.
Arguments OBack {V} o.
Arguments OFill {V} o s.
Arguments OFill1 {V} o i s.
Arguments OFill2 {V} o j s.
Arguments OAssignN {V} o n s.
Arguments OAssignRange {V} o l.
Arguments OPushBack {V} o s.
Arguments OPopBack {V} o.
Arguments OClear {V} o.
Arguments OIterate {V} o.
Arguments ORow {V} o i.
Arguments OColumn {V} o j.
Arguments ORowNth {V} o i n.
Arguments OColumnNth {V} o j n.
Arguments ORowSize {V} o i.
Arguments OColumnSize {V} o j.
Arguments RSkip {V}.
Arguments RUnit {V}.
Arguments RVal {V} v.
Arguments RNum {V} n.
Arguments RInt {V} n.
Arguments RList {V} l.
Arguments w_heap {V} w.
Arguments w_objs {V} w.
Arguments init {V}.
Arguments op_new {V} h n.
Arguments op_delete {V} h p.
Arguments slot_at {V} h p off.
Arguments slot_put {V} h p off s.
Arguments load {V} h p off.
Arguments read_src {V} h s.
Arguments vec_init {V} h Ib cap.
Arguments obj_at {V} w o.
Arguments resolve {V} w s.
Arguments resolve_all {V} w l.
Arguments it_load {V} h it.
Arguments it_loop {V} h it last fuel.
Arguments block_length {V} h p.
Arguments elements {V} b n.
Arguments elements_at {V} h p n.
Arguments put_heap {V} w h.
Arguments skip {V} w.
Arguments add_obj {V} w hx.
Arguments put_obj {V} w o hx.
