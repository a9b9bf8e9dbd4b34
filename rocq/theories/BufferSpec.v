(** Specification of buffers: byte strings. *)
From Verif Require Import Base Buffer.

(** What a client sees of variable [i]: nothing if it does not exist, else the bytes
    that [CopyTo] into a large enough array gives. *)
Definition bytes_of (w : world) (i : nat) : option (list N) :=
  match var w i with
  | None => None
  | Some b => match copy_to (w_heap w) b (b_end b - b_start b) with
              | Done bs => Some bs
              | _ => None
              end
  end.

(** [GetSize()], buffer.h:499-507. *)
Definition size_of (w : world) (i : nat) : option nat :=
  match var w i with Some b => Some (b_end b - b_start b) | None => None end.

(** Buffers as independent byte strings: a table of strings, one per variable. *)
Notation strings := (list (option (list N))).
Definition str (A : strings) (i : nat) : option (list N) :=
  match nth_error A i with Some o => o | None => None end.

Definition last_n {X} (n : nat) (l : list X) : list X := skipn (length l - n) l.
Definition drop_last {X} (n : nat) (l : list X) : list X := firstn (length l - n) l.

(** What a statement does to byte strings; [extra] are the bytes that an expansion
    brings in, whose values nobody promises. *)
Definition spec_step (extra : list N) (o : op) (A : strings) : strings :=
  let on i (f : list N -> strings) := match str A i with Some s => f s | None => A end in
  match o with
  | New _ => A ++ [Some []]
  | NewZero _ z _ => A ++ [Some (repeat 0%N z)]
  | DeepCopy d => A ++ [Some d]
  | Copy i => on i (fun s => A ++ [Some s])
  | MoveNew i => on i (fun s => upd A i (Some []) ++ [Some s])
  | Assign i j => on i (fun _ => on j (fun t => upd A i (Some t)))
  | MoveAssign i j =>
      if i =? j then A else on i (fun _ => on j (fun t => upd (upd A i (Some t)) j (Some [])))
  | Swap i j =>
      if i =? j then A else on i (fun s => on j (fun t => upd (upd A i (Some t)) j (Some s)))
  | Destroy i => on i (fun _ => upd A i None)
  | AddStart i n => on i (fun s => upd A i (Some (extra ++ s)))
  | AddStartBytes i bs => on i (fun s => upd A i (Some (bs ++ s)))
  | AddStartBuf i j => on i (fun s => on j (fun t => upd A i (Some (t ++ s))))
  | AddEnd i n => on i (fun s => upd A i (Some (s ++ extra)))
  | AddEndBytes i bs => on i (fun s => upd A i (Some (s ++ bs)))
  | AddEndBuf i j => on i (fun s => on j (fun t => upd A i (Some (s ++ t))))
  | RemStart i n => on i (fun s => upd A i (Some (skipn n s)))
  | RemEnd i n => on i (fun s => upd A i (Some (drop_last n s)))
  | Fragment i st n => on i (fun s => A ++ [Some (firstn n (skipn st s))])
  | Write i off bs =>
      on i (fun s => upd A i (Some (firstn off s ++ bs ++ skipn (off + length bs) s)))
  end.
(** The number of unspecified bytes a statement brings in. *)
Definition extra_len (o : op) : nat :=
  match o with AddStart _ n | AddEnd _ n => n | _ => 0 end.

(** The variable a statement is about, whose content it may change. *)
Definition target (o : op) (i : nat) : Prop :=
  match o with
  | New _ | NewZero _ _ _ | DeepCopy _ | Copy _ | Fragment _ _ _ => False
  | MoveNew k | Destroy k | AddStart k _ | AddStartBytes k _ | AddStartBuf k _ | AddEnd k _
  | AddEndBytes k _ | AddEndBuf k _ | RemStart k _ | RemEnd k _ | Write k _ _ | Assign k _ => i = k
  | MoveAssign k j | Swap k j => i = k \/ i = j
  end.

(** Statements that do not reset the dirty area of a storage to something smaller
    than what is in use. *)
Definition keeps_dirty (o : op) : Prop :=
  match o with Fragment _ _ _ | DeepCopy _ => False | _ => True end.
(** A buffer is not added at its own start. *)
Definition no_self_start (o : op) : Prop :=
  match o with AddStartBuf i j => i <> j | _ => True end.
Definition is_write (o : op) : Prop := match o with Write _ _ _ => True | _ => False end.

(** Statements that write given bytes into a buffer while extending it. *)
Definition adds_data (o : op) : Prop :=
  match o with
  | AddStartBytes _ _ | AddStartBuf _ _ | AddEndBytes _ _ | AddEndBuf _ _ => True
  | _ => False
  end.
(** Statements whose arguments are out of the documented range. *)
Definition bad_args (o : op) (A : strings) : bool :=
  match o with
  | Fragment i st n => match str A i with Some s => length s <? st + n | None => false end
  | Write i off bs => match str A i with Some s => length s <? off + length bs | None => false end
  | _ => false
  end.

(** How many variables use storage [a]. *)
Definition uses (a : nat) (o : option buf) : bool :=
  match o with
  | Some b => match b_st b with Some a' => a =? a' | None => false end
  | None => false
  end.
Definition users (w : world) (a : nat) : nat := length (filter (uses a) (w_bufs w)).
(** Storage [a] is allocated, with reference count [n]. *)
Definition allocated (w : world) (a n : nat) : Prop :=
  exists s, nth_error (w_heap w) a = Some (Some s) /\ sg_rc s = n.

(** If [o] writes through an iterator, then into a buffer that shares no storage. *)
Definition writes_alone (o : op) (w : world) : Prop :=
  match o with
  | Write i _ _ => forall b a, var w i = Some b -> b_st b = Some a -> users w a = 1
  | _ => True
  end.

(** The strings that the variables of a program show. *)
Definition table (w : world) : strings := map (bytes_of w) (seq 0 (length (w_bufs w))).

(** Programs in which [MakeFragment] is only used as packets do: to return the bytes that
    [AddAtStart(size)] ([AddAtEnd(size)]) just added. *)
Fixpoint headers (l : list op) : Prop :=
  match l with
  | [] => True
  | AddStart i n :: r =>
      match r with
      | Fragment j s m :: r' => (i = j /\ s = 0 /\ m = n) /\ headers r'
      | _ => headers r
      end
  | Fragment _ _ _ :: _ | DeepCopy _ :: _ => False
  | _ :: r => headers r
  end.
Definition adds_at_start (o : op) : Prop :=
  match o with AddStartBytes _ _ | AddStartBuf _ _ => True | _ => False end.
Definition adds_at_end (o : op) : Prop :=
  match o with AddEndBytes _ _ | AddEndBuf _ _ => True | _ => False end.
