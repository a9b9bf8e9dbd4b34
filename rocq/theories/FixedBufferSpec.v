(** Specification of fixed buffers: byte arrays that are never deleted, which
    variables and iterators share. *)
From Verif Require Import Base BufferIter BufferIterSpec ZcIterSpec FixedBuffer.

(** The arrays in the order of their creation; for each variable, [None] once it is
    destroyed, the array it shares, if any; for each iterator the array and the
    position in it. *)
Record aworld := mk_aworld {
  a_arrays : list (list N);
  a_vars : list (option (option nat));
  a_iters : list (option nat * nat) }.
Definition a_init : aworld := mk_aworld [] [] [].

Definition content (arrays : list (list N)) (st : option nat) : list N :=
  match st with Some a => nth a arrays [] | None => [] end.

(** Whether a variable shares array [a], and how many do. *)
Definition shares (a : nat) (v : option (option nat)) : bool :=
  match v with Some (Some b) => Nat.eqb a b | _ => false end.
Definition sharers (vars : list (option (option nat))) (a : nat) : nat := length (filter (shares a) vars).

Definition avar (w : aworld) (v : nat) : outcome (option nat) :=
  match nth_error (a_vars w) v with Some (Some st) => Done st | _ => UB end.

Definition apush (w : aworld) (arrays : list (list N)) (st : option nat) : aworld * result :=
  (mk_aworld arrays (a_vars w ++ [Some st]) (a_iters w), RVar (length (a_vars w))).

(** A variable that shares a new array, or none if the array is empty. *)
Definition afresh (w : aworld) (bytes : list N) : aworld * result :=
  match bytes with
  | [] => apush w (a_arrays w) None
  | _ => apush w (a_arrays w ++ [bytes]) (Some (length (a_arrays w)))
  end.

Definition aset (w : aworld) (vs : list (option (option nat))) : aworld * result :=
  (mk_aworld (a_arrays w) vs (a_iters w), RNone).

(** The number that bytes stand for. *)
Definition decode (host : endian) (o : order) (bs : list N) : N :=
  of_le_bytes (match o with
               | LittleOrder => bs
               | BigOrder => rev bs
               | NativeOrder => match host with LittleEndian => bs | BigEndian => rev bs end
               end).

(** An array that no variable shares any more must not be used. *)
Definition lost (w : aworld) (st : option nat) : bool :=
  match st with Some a => sharers (a_vars w) a =? 0 | None => false end.

Definition astep (host : endian) (junk : nat -> nat -> N) (o : op) (w : aworld) : outcome (aworld * result) :=
  match o with
  | ONew => Done (afresh w [])
  | OSize n => Done (afresh w (map (junk (length (a_arrays w))) (seq 0 n)))
  | OZero n zero =>
      Done (afresh w (if zero then repeat 0%N n else map (junk (length (a_arrays w))) (seq 0 n)))
  | ODeep v => let! st := avar w v in Done (afresh w (content (a_arrays w) st))
  | OConvert data => Done (afresh w data)
  | OCopy v => let! st := avar w v in Done (apush w (a_arrays w) st)
  | OAssign dst src =>
      let! _ := avar w dst in let! st := avar w src in Done (aset w (upd (a_vars w) dst (Some st)))
  | OMove v =>
      let! st := avar w v in
      Done (apush (mk_aworld (a_arrays w) (upd (a_vars w) v (Some None)) (a_iters w)) (a_arrays w) st)
  | OMoveAssign dst src =>
      let! _ := avar w dst in let! st := avar w src in
      Done (aset w (if Nat.eqb dst src then a_vars w else upd (upd (a_vars w) dst (Some st)) src (Some None)))
  | OSwap v1 v2 =>
      let! s1 := avar w v1 in let! s2 := avar w v2 in
      Done (aset w (upd (upd (a_vars w) v1 (Some s2)) v2 (Some s1)))
  | ODestroy v => let! _ := avar w v in Done (aset w (upd (a_vars w) v None))
  | OGetSize v => let! st := avar w v in Done (w, RSize (length (content (a_arrays w) st)))
  | OCopyTo v size => let! st := avar w v in Done (w, RBytes (firstn size (content (a_arrays w) st)))
  | OBegin v =>
      let! st := avar w v in
      Done (mk_aworld (a_arrays w) (a_vars w) (a_iters w ++ [(st, 0)]), RIter (length (a_iters w)))
  | OEnd v =>
      let! st := avar w v in
      Done (mk_aworld (a_arrays w) (a_vars w) (a_iters w ++ [(st, length (content (a_arrays w) st))]), RIter (length (a_iters w)))
  | OWrite i o n x =>
      match nth_error (a_iters w) i with
      | None => UB
      | Some (st, p) =>
          if p + n <=? length (content (a_arrays w) st) then
            if lost w st then UB else
            match st with
            | Some a =>
                Done (mk_aworld (upd (a_arrays w) a (overwrite p (layout o host n x) (nth a (a_arrays w) [])))
                                (a_vars w) (upd (a_iters w) i (st, p + n)), RNone)
            | None => UB
            end
          else AssertFail
      end
  | ORead i o n =>
      match nth_error (a_iters w) i with
      | None => UB
      | Some (st, p) =>
          if p + n <=? length (content (a_arrays w) st) then
            if lost w st then UB else
            Done (mk_aworld (a_arrays w) (a_vars w) (upd (a_iters w) i (st, p + n)),
                  RValue (decode host o (slice p (p + n) (content (a_arrays w) st))))
          else AssertFail
      end
  end.

Fixpoint arun (host : endian) (junk : nat -> nat -> N) (ops : list op) (w : aworld) : outcome (aworld * list result) :=
  match ops with
  | [] => Done (w, [])
  | o :: t =>
      let! (w, r) := astep host junk o w in
      let! (w, rs) := arun host junk t w in
      Done (w, r :: rs)
  end.

(** Operations with sizes that memory can have and widths that types have. *)
Definition op_ok (o : op) : Prop :=
  match o with
  | OSize n | OZero n _ => (N.of_nat n < 2 ^ 63)%N
  | OConvert data => (N.of_nat (length data) < 2 ^ 63)%N
  | OWrite _ _ n _ | ORead _ _ n => In n [1; 2; 4; 8]
  | _ => True
  end.

(** The implementation has a storage for every array that is shared, with the
    number of the variables that share it, and no other. *)
Definition represents (a : aworld) (w : world) : Prop :=
  w_vars w = a_vars a /\ length (w_heap w) = length (a_arrays a) /\
  (forall s, s < length (a_arrays a) ->
     nth_error (w_heap w) s =
     Some (match sharers (a_vars a) s with O => None | S n => Some (mk_cell (S n) (nth s (a_arrays a) [])) end)) /\
  map (fun p => (fst p, N.to_nat (it_cursor (snd p)))) (w_iters w) = a_iters a.

(** The bytes that a variable has. *)
Definition bytes_in (w : world) (v : nat) : option (list N) :=
  match nth_error (w_vars w) v with
  | Some (Some st) => match bytes_of st (w_heap w) with Done m => Some m | _ => None end
  | _ => None
  end.

(** The variables that an operation gives another value. *)
Definition assigns (o : op) (v : nat) : bool :=
  match o with
  | OAssign d _ => Nat.eqb v d
  | OMove s => Nat.eqb v s
  | OMoveAssign d s => Nat.eqb v d || Nat.eqb v s
  | OSwap a b => Nat.eqb v a || Nat.eqb v b
  | ODestroy d => Nat.eqb v d
  | _ => false
  end.
