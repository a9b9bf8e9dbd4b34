(** Model of the tag lists of packets: network/packet/tag/basic-tag.h,
    basic-tag-index.h, basic-tag-index-array.h and basic-tag-list.h.

    Simplifications.  Coordinates of the byte space are integers and sizes are
    natural numbers; an operation that would leave the space [0, 2^64) ends with
    [AssertFail], which is what the code asserts for the ends of the buffer,
    whereas coordinates of tags that are copied from another list would wrap
    around.  Likewise [start + size] of [Insert] does not wrap around.  An array
    is addressed by its index in a heap, a deleted array stays there as [None], and
    addresses are never reused.  Values of tags are opaque: the reference counts
    of what they refer to are not modelled. *)
From Verif Require Import Base.

Section TagList.
Context {V : Type}.

(** basic-tag.h:91-92 and basic-tag-index.h:67-70: a tag and its range. *)
Record tag_index := mk_idx { x_id : N; x_val : V; x_start : Z; x_end : Z }.

(** basic-tag-index.h:171-179 [HasTaggedByte] with four arguments. *)
Definition has_tagged (tagStart tagEnd bufferStart bufferEnd : Z) : bool :=
  ((tagStart <? bufferEnd) && (bufferStart <? tagEnd))%Z.
(** basic-tag-index.h:164-169 [HasTaggedByte] with two arguments. *)
Definition tagged (bufferStart bufferEnd : Z) (x : tag_index) : bool :=
  has_tagged (x_start x) (x_end x) bufferStart bufferEnd.

(** ** Arrays *)

(** basic-tag-index-array.h:42-45.  [dirty_] is the length of [ta_idx]: the elements
    beyond it are raw memory. *)
Record tia := mk_tia { ta_rc : nat; ta_cap : nat; ta_idx : list tag_index }.
Definition ta_dirty (t : tia) : nat := length (ta_idx t).

(** The memory of the program; no line of its own in the code. *)
Notation heap := (list (option tia)).

(** Dereference of a [TagIndexArray*]. *)
Definition get (h : heap) (a : nat) : outcome tia :=
  match nth_error h a with Some (Some t) => Done t | _ => UB end.
Definition put (h : heap) (a : nat) (t : tia) : heap := upd h a (Some t).

(** basic-tag-index-array.h:50-59 [Allocate]. *)
Definition allocate (h : heap) (capacity : nat) : outcome (heap * nat) :=
  if capacity =? 0 then AssertFail
  else Done (h ++ [Some (mk_tia 1 capacity [])], length h).

(** basic-tag-index-array.h:61-66 [AddRef]. *)
Definition add_ref (h : heap) (a : nat) : outcome heap :=
  let! t := get h a in Done (put h a (mk_tia (S (ta_rc t)) (ta_cap t) (ta_idx t))).

(** basic-tag-index-array.h:68-84 [Release]. *)
Definition release_ref (h : heap) (a : nat) : outcome heap :=
  let! t := get h a in
  match ta_rc t with
  | O => AssertFail
  | S O => Done (upd h a None)
  | S n => Done (put h a (mk_tia n (ta_cap t) (ta_idx t)))
  end.

Definition add_ref_opt (h : heap) (a : option nat) : outcome heap :=
  match a with Some a => add_ref h a | None => Done h end.
Definition release_opt (h : heap) (a : option nat) : outcome heap :=
  match a with Some a => release_ref h a | None => Done h end.

(** ** Lists *)

(** basic-tag-list.h:426-431. *)
Record tlist := mk_tl { tl_start : Z; tl_end : Z; tl_size : nat; tl_tia : option nat }.

(** basic-tag-list.h:424 [REF_POINT]. *)
Definition ref_point : Z := 9223372036854775807.
(** The byte space: the values of [size_t]. *)
Definition in_space (p : Z) : bool := ((0 <=? p) && (p <? 18446744073709551616))%Z.

(** basic-tag-list.h:436-442, default constructor. *)
Definition empty_list : tlist := mk_tl ref_point ref_point 0 None.

(** basic-tag-list.h:454-461 [BasicTagList(capacity, bufferSize)]; basic-tag-list.h:445-451
    is the case [bufferSize = 0]. *)
Definition new_list (capacity bufferSize : nat) (h : heap) : outcome (heap * tlist) :=
  let! (h1, a) := allocate h capacity in
  let start := (ref_point - Z.of_nat (bufferSize / 2))%Z in
  let stop := (start + Z.of_nat bufferSize)%Z in
  if in_space start && in_space stop then Done (h1, mk_tl start stop 0 (Some a)) else AssertFail.

(** The elements [tia_->indices_[0]] ... that a list uses.  With a null [tia_] the code
    computes [tia_->indices_ + 0] from a null pointer and does not dereference it;
    this is modelled as no elements. *)
Definition elements (h : heap) (l : tlist) : outcome (list tag_index) :=
  match tl_tia l with
  | None => if tl_size l =? 0 then Done [] else UB
  | Some a =>
      let! t := get h a in
      if tl_size l <=? ta_dirty t then Done (firstn (tl_size l) (ta_idx t)) else UB
  end.

(** basic-tag-list.h:774-777: the first loop of [Compact] over elements [head] ...
    ([n] elements up to [tail]): the first one that has no tagged byte. *)
Fixpoint skip_tagged (bs be : Z) (l : list tag_index) (head n : nat) : outcome nat :=
  match n with
  | O => Done head
  | S n' => match nth_error l head with
            | None => UB
            | Some x => if tagged bs be x then skip_tagged bs be l (S head) n' else Done head
            end
  end.

(** basic-tag-list.h:788-802: the second loop of [Compact]; [n] elements are left, [size]
    is [size_] and [dirty_]. *)
Fixpoint move_tagged (bs be : Z) (l : list tag_index) (head next n size : nat)
  : outcome (list tag_index * nat) :=
  match n with
  | O => Done (l, size)
  | S n' =>
      match nth_error l next with
      | None => UB
      | Some x =>
          if tagged bs be x then move_tagged bs be (upd l head x) (S head) (S next) n' size
          else move_tagged bs be l head (S next) n' (size - 1)
      end
  end.

(** basic-tag-list.h:756-806 [Compact]. *)
Definition compact (a : nat) (h : heap) (l : tlist) : outcome (heap * tlist) :=
  let! t := get h a in
  if negb (ta_rc t =? 1) then AssertFail
  else
    let idx := firstn (tl_size l) (ta_idx t) in    (* 764-772 *)
    let size := tl_size l in
    let! head := skip_tagged (tl_start l) (tl_end l) idx 0 size in
    let! (idx', size') :=
      (if head <? size
       then move_tagged (tl_start l) (tl_end l) idx head (S head) (size - S head) (size - 1)
       else Done (idx, size)) in
    Done (put h a (mk_tia (ta_rc t) (ta_cap t) (firstn size' idx')),
          mk_tl (tl_start l) (tl_end l) size' (Some a)).

(** basic-tag-list.h:819-832: the copying loop of [Reallocate]; [dst] are the elements
    constructed so far. *)
Fixpoint copy_tagged (bs be : Z) (src dst : list tag_index) : list tag_index :=
  match src with
  | [] => dst
  | x :: r => if tagged bs be x then copy_tagged bs be r (dst ++ [x]) else copy_tagged bs be r dst
  end.

(** basic-tag-list.h:808-838 [Reallocate]. *)
Definition reallocate (newCapacity a : nat) (h : heap) (l : tlist) : outcome (heap * tlist) :=
  let! t := get h a in
  if newCapacity <? ta_cap t then AssertFail
  else
    let! (h1, a') := allocate h newCapacity in
    let! src := elements h1 l in
    let dst := copy_tagged (tl_start l) (tl_end l) src [] in
    if newCapacity <? length dst then UB
    else
      let! h2 := release_ref (put h1 a' (mk_tia 1 newCapacity dst)) a in
      Done (h2, mk_tl (tl_start l) (tl_end l) (length dst) (Some a')).

(** basic-tag-list.h:696-754 [PrepareToInsert], with the assertions at its end. *)
Definition prepare_to_insert (h : heap) (l : tlist) : outcome (heap * tlist) :=
  let! (h', l') :=
    match tl_tia l with
    | None =>
        let! (h1, a) := allocate h 4 in
        Done (h1, mk_tl (tl_start l) (tl_end l) (tl_size l) (Some a))
    | Some a =>
        let! t := get h a in
        if ta_rc t =? 1 then
          let! (h1, l1) := compact a h l in
          let! t1 := get h1 a in
          if ta_dirty t1 =? ta_cap t1 then reallocate (ta_cap t1 * 2) a h1 l1 else Done (h1, l1)
        else if ta_dirty t =? ta_cap t then reallocate (ta_cap t * 2) a h l
        else if tl_size l =? ta_dirty t then Done (h, l)
        else reallocate (ta_cap t) a h l
    end in
  match tl_tia l' with
  | None => UB
  | Some a =>
      let! t := get h' a in
      if (ta_dirty t <? ta_cap t) && (tl_size l' =? ta_dirty t) then Done (h', l') else AssertFail
  end.

(** The construction of a new element at [tia_->indices_ + size_] and the increments
    after it: basic-tag-list.h:593-600 and 925-930. *)
Definition append (x : tag_index) (h : heap) (l : tlist) : outcome (heap * tlist) :=
  match tl_tia l with
  | None => UB
  | Some a =>
      let! t := get h a in
      if (tl_size l =? ta_dirty t) && (ta_dirty t <? ta_cap t)
      then Done (put h a (mk_tia (ta_rc t) (ta_cap t) (ta_idx t ++ [x])),
                 mk_tl (tl_start l) (tl_end l) (S (tl_size l)) (Some a))
      else UB
  end.

(** basic-tag-list.h:856-864: the first loop of [ExpandBuffer] for a shared array: the
    new [size_]. *)
Fixpoint trim (bs be : Z) (l : list tag_index) (count : nat) : outcome nat :=
  match count with
  | O => Done O
  | S n => match nth_error l n with
           | None => UB
           | Some x => if tagged bs be x then Done count else trim bs be l n
           end
  end.

(** basic-tag-list.h:865-883: the second loop: would a tag come (back) into the list? *)
Fixpoint finds_dirty (bs be bs' be' : Z) (l : list tag_index) (count : nat) : outcome bool :=
  match count with
  | O => Done false
  | S n => match nth_error l n with
           | None => UB
           | Some x => if negb (tagged bs be x) && tagged bs' be' x then Done true
                       else finds_dirty bs be bs' be' l n
           end
  end.

(** basic-tag-list.h:840-895 [ExpandBuffer]. *)
Definition expand_buffer (deltaStart deltaEnd : nat) (h : heap) (l : tlist) : outcome (heap * tlist) :=
  let bs := tl_start l in
  let be := tl_end l in
  let bs' := (bs - Z.of_nat deltaStart)%Z in
  let be' := (be + Z.of_nat deltaEnd)%Z in
  let! (h', l') :=
    match tl_tia l with
    | None => Done (h, l)
    | Some a =>
        let! t := get h a in
        if ta_rc t =? 1 then compact a h l
        else
          let! size := trim bs be (ta_idx t) (tl_size l) in
          let l1 := mk_tl bs be size (Some a) in
          let! dirty := finds_dirty bs be bs' be' (ta_idx t) size in
          if dirty then reallocate (ta_cap t) a h l1 else Done (h, l1)
    end in
  Done (h', mk_tl bs' be' (tl_size l') (tl_tia l')).

(** basic-tag-list.h:507-514 [AddAtStart(size)]. *)
Definition add_at_start (size : nat) (h : heap) (l : tlist) : outcome (heap * tlist) :=
  if in_space (tl_start l - Z.of_nat size) then expand_buffer size 0 h l else AssertFail.

(** basic-tag-list.h:546-553 [AddAtEnd(size)]. *)
Definition add_at_end (size : nat) (h : heap) (l : tlist) : outcome (heap * tlist) :=
  if in_space (tl_end l + Z.of_nat size) then expand_buffer 0 size h l else AssertFail.

(** basic-tag-list.h:538-544 [RemoveAtStart]. *)
Definition remove_at_start (size : nat) (l : tlist) : outcome tlist :=
  if (tl_start l + Z.of_nat size <=? tl_end l)%Z
  then Done (mk_tl (tl_start l + Z.of_nat size) (tl_end l) (tl_size l) (tl_tia l))
  else AssertFail.

(** basic-tag-list.h:577-583 [RemoveAtEnd]. *)
Definition remove_at_end (size : nat) (l : tlist) : outcome tlist :=
  if (tl_start l + Z.of_nat size <=? tl_end l)%Z
  then Done (mk_tl (tl_start l) (tl_end l - Z.of_nat size) (tl_size l) (tl_tia l))
  else AssertFail.

(** basic-tag-list.h:585-601 [Insert]; 603-607 makes the tag first. *)
Definition insert (id : N) (v : V) (start size : nat) (h : heap) (l : tlist)
  : outcome (heap * tlist) :=
  if negb (Z.of_nat (start + size) <=? tl_end l - tl_start l)%Z then AssertFail
  else if size =? 0 then AssertFail
  else
    let! (h1, l1) := prepare_to_insert h l in
    append (mk_idx id v (tl_start l1 + Z.of_nat start) (tl_start l1 + Z.of_nat (start + size))) h1 l1.

(** basic-tag-list.h:896-914 [HasTag]. *)
Definition has_tag (id : N) (tagStart tagEnd : Z) (h : heap) (l : tlist) : outcome bool :=
  let! xs := elements h l in
  Done (existsb (fun x => (x_id x =? id)%N && (x_start x =? tagStart)%Z && (x_end x =? tagEnd)%Z) xs).

(** basic-tag-list.h:916-931 [InsertTag]. *)
Definition insert_tag (x : tag_index) (h : heap) (l : tlist) : outcome (heap * tlist) :=
  let! found := has_tag (x_id x) (x_start x) (x_end x) h l in
  if negb found && tagged (tl_start l) (tl_end l) x then
    let! (h1, l1) := prepare_to_insert h l in append x h1 l1
  else Done (h, l).

(** The loops of basic-tag-list.h:521-536 and 560-575 over elements [k] ... ([n] of them)
    of the array [c] of the other list; coordinates move by [delta]. *)
Fixpoint copy_tags (c : nat) (delta : Z) (k n : nat) (h : heap) (l : tlist)
  : outcome (heap * tlist) :=
  match n with
  | O => Done (h, l)
  | S n' =>
      let! t := get h c in
      match nth_error (ta_idx t) k with
      | None => UB
      | Some x =>
          let s := (x_start x + delta)%Z in
          let e := (x_end x + delta)%Z in
          if in_space s && in_space e then
            let! (h1, l1) := insert_tag (mk_idx (x_id x) (x_val x) s e) h l in
            copy_tags c delta (S k) n' h1 l1
          else AssertFail
      end
  end.
Definition copy_all (r : tlist) (delta : Z) (h : heap) (l : tlist) : outcome (heap * tlist) :=
  match tl_tia r with
  | None => Done (h, l)     (* see [elements] *)
  | Some c => copy_tags c delta 0 (tl_size r) h l
  end.

(** basic-tag-list.h:516-537 [AddAtStart(rhs)].  The parameter is passed by value: it is
    a copy of [r] that lives until the function returns. *)
Definition add_list_start (r : tlist) (h : heap) (l : tlist) : outcome (heap * tlist) :=
  let! h0 := add_ref_opt h (tl_tia r) in
  let! (h1, l1) := add_at_start (Z.to_nat (tl_end r - tl_start r)) h0 l in
  let! (h2, l2) := copy_all r (tl_start l1 - tl_start r) h1 l1 in
  let! h3 := release_opt h2 (tl_tia r) in
  Done (h3, l2).

(** basic-tag-list.h:555-576 [AddAtEnd(rhs)]. *)
Definition add_list_end (r : tlist) (h : heap) (l : tlist) : outcome (heap * tlist) :=
  let! h0 := add_ref_opt h (tl_tia r) in
  let! (h1, l1) := add_at_end (Z.to_nat (tl_end r - tl_start r)) h0 l in
  let! (h2, l2) := copy_all r (tl_end l1 - tl_end r) h1 l1 in
  let! h3 := release_opt h2 (tl_tia r) in
  Done (h3, l2).

(** ** Queries *)

(** The test of the search loops of [Exists] and [Get]. *)
Definition matches (id : N) (pos : Z) (x : tag_index) : bool :=
  (x_id x =? id)%N && ((x_start x <=? pos) && (pos <? x_end x))%Z.

(** basic-tag-list.h:609-629 [Exists]. *)
Definition exists_tag (id : N) (offset : nat) (h : heap) (l : tlist) : outcome bool :=
  if negb (Z.of_nat offset <? tl_end l - tl_start l)%Z then AssertFail
  else let! xs := elements h l in Done (existsb (matches id (tl_start l + Z.of_nat offset)) xs).

(** basic-tag-list.h:631-652 [Get]; the value of the tag. *)
Definition get_tag (id : N) (offset : nat) (h : heap) (l : tlist) : outcome V :=
  if negb (Z.of_nat offset <? tl_end l - tl_start l)%Z then AssertFail
  else
    let! xs := elements h l in
    match find (matches id (tl_start l + Z.of_nat offset)) xs with
    | Some x => Done (x_val x)
    | None => Throw TagNotFound
    end.

(** basic-tag-list.h:654-669 [GetSize]. *)
Definition num_tags (h : heap) (l : tlist) : outcome nat :=
  let! xs := elements h l in Done (length (filter (tagged (tl_start l) (tl_end l)) xs)).

(** basic-tag-list.h:671-675 [GetInternalSize], 677-687 [GetBufferStart], [GetBufferEnd]. *)
Definition internal_size (l : tlist) : nat := tl_size l.

(** ** Programs over any number of list variables *)

(** A variable that was destroyed is [None]. *)
Record world := mk_world { w_heap : heap; w_lists : list (option tlist) }.

Inductive op :=
| New
| NewCap (capacity bufferSize : nat)
| Copy (i : nat)
| Assign (i j : nat)
| Swap (i j : nat)
| Destroy (i : nat)
| AddStart (i size : nat)
| AddStartList (i j : nat)
| RemStart (i size : nat)
| AddEnd (i size : nat)
| AddEndList (i j : nat)
| RemEnd (i size : nat)
| Insert (i : nat) (id : N) (v : V) (start size : nat).

Definition var (w : world) (i : nat) : option tlist :=
  match nth_error (w_lists w) i with Some o => o | None => None end.
Definition add_var (h : heap) (w : world) (l : tlist) : world :=
  mk_world h (w_lists w ++ [Some l]).
Definition set_var (h : heap) (w : world) (i : nat) (l : option tlist) : world :=
  mk_world h (upd (w_lists w) i l).
Definition created (w : world) (r : outcome (heap * tlist)) : outcome world :=
  let! (h, l) := r in Done (add_var h w l).
Definition changed (w : world) (i : nat) (r : outcome (heap * tlist)) : outcome world :=
  let! (h, l) := r in Done (set_var h w i (Some l)).

(** basic-tag-list.h:471-482, copy constructor. *)
Definition copy_new (w : world) (l : tlist) : outcome world :=
  let! h := add_ref_opt (w_heap w) (tl_tia l) in Done (add_var h w l).

(** basic-tag-list.h:484-505, copy assignment of another variable. *)
Definition assign (w : world) (i : nat) (l r : tlist) : outcome world :=
  let! h1 := add_ref_opt (w_heap w) (tl_tia r) in
  let! h2 := release_opt h1 (tl_tia l) in
  Done (set_var h2 w i (Some r)).

(** basic-tag-list.h:933-940 [swap]. *)
Definition swap (w : world) (i j : nat) (l r : tlist) : world :=
  set_var (w_heap w) (set_var (w_heap w) w i (Some r)) j (Some l).

(** basic-tag-list.h:463-469, destructor. *)
Definition destroy (w : world) (i : nat) (l : tlist) : outcome world :=
  let! h := release_opt (w_heap w) (tl_tia l) in Done (set_var h w i None).

(** One statement of a program.  Statements that name a variable that does not
    exist (any more) do nothing: no such program can be written. *)
Definition step (o : op) (w : world) : outcome world :=
  let h := w_heap w in
  let on i (f : tlist -> outcome world) :=
    match var w i with Some l => f l | None => Done w end in
  let in_place i (r : outcome tlist) := let! l := r in Done (set_var h w i (Some l)) in
  match o with
  | New => Done (add_var h w empty_list)
  | NewCap c n => created w (new_list c n h)
  | Copy i => on i (copy_new w)
  | Assign i j => if i =? j then Done w else on i (fun l => on j (fun r => assign w i l r))
  | Swap i j => if i =? j then Done w else on i (fun l => on j (fun r => Done (swap w i j l r)))
  | Destroy i => on i (destroy w i)
  | AddStart i n => on i (fun l => changed w i (add_at_start n h l))
  | AddStartList i j => on i (fun l => on j (fun r => changed w i (add_list_start r h l)))
  | RemStart i n => on i (fun l => in_place i (remove_at_start n l))
  | AddEnd i n => on i (fun l => changed w i (add_at_end n h l))
  | AddEndList i j => on i (fun l => on j (fun r => changed w i (add_list_end r h l)))
  | RemEnd i n => on i (fun l => in_place i (remove_at_end n l))
  | Insert i id v s n => on i (fun l => changed w i (insert id v s n h l))
  end.

Fixpoint steps (p : list op) (w : world) : outcome world :=
  match p with
  | [] => Done w
  | o :: r => let! w1 := step o w in steps r w1
  end.

Definition init : world := mk_world [] [].

End TagList.
Arguments tag_index V : clear implicits.
Arguments tia V : clear implicits.
Arguments world V : clear implicits.
Arguments op V : clear implicits.
