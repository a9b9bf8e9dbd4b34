(** Model of log values and log records (/repo/log/log-value.h,
    make-log-value.h, log-record.h).

    A [LogRecord] is a handle to a shared, reference counted map from names to
    values; [Copy] makes a new map.  The map, its count and the handles are
    modelled; releasing the last handle deletes the map, and using a deleted
    map is undefined.

    Not modelled: the strings behind [const char*] values, functors with side
    effects on records, memory exhaustion, iteration order of unordered_map
    (records are never iterated over), user-defined [ITypedLogValue]s. *)
From Coq Require Import List NArith Arith String Bool.
From Verif Require Import Base.
Import ListNotations.
Open Scope list_scope.

(** Types of log values: those of the user, and [LogValue] itself. *)
Inductive ltype := TUser (t : nat) | TLog.

Definition ltype_eqb (a b : ltype) : bool :=
  match a, b with
  | TUser x, TUser y => Nat.eqb x y
  | TLog, TLog => true
  | _, _ => false
  end.

(** [LogValue] over [ITypedLogValue<T>] (log-value.h:57-102):
    [ValueBasedLogValue<T>] (make-log-value.h:39-69), [FunctorBasedLogValue<T>]
    (111-133), and the same for [T = LogValue], the second-order values.
    A functor is a number; its results are given by [gen] and [gen2] below. *)
Inductive lvalue :=
| LConst (t : nat) (x : N)
| LCall (t : nat) (f : nat)
| LConst2 (v : lvalue)
| LCall2 (f : nat).

(** [GetTypeId] (log-value.h:63-67, 117-121). *)
Definition type_of (v : lvalue) : ltype :=
  match v with
  | LConst t _ | LCall t _ => TUser t
  | LConst2 _ | LCall2 _ => TLog
  end.

(** [LogRecordImpl] (log-record.h:41-92): the count of
    [boost::intrusive_ref_counter] and [items_]. *)
Record lrec := mk_lrec { lr_count : nat; lr_items : list (string * lvalue) }.

(** [lw_heap]: the maps, [None] once deleted.  [lw_handles]: the [LogRecord]
    objects, [None] once destroyed.  [lw_calls]: the functors called so far. *)
Record lworld := mk_lw {
  lw_heap : list (option lrec);
  lw_handles : list (option nat);
  lw_calls : list nat }.

Definition lworld_init : lworld := mk_lw [] [] [].

(** unordered_map::find (log-record.h:114, 119). *)
Fixpoint lookup (n : string) (l : list (string * lvalue)) : option lvalue :=
  match l with
  | [] => None
  | (m, v) :: t => if String.eqb n m then Some v else lookup n t
  end.

(** [LogRecordImpl::Add] (log-record.h:96-100). *)
Definition put (n : string) (v : lvalue) (l : list (string * lvalue)) : list (string * lvalue) * bool :=
  match lookup n l with
  | Some _ => (l, false)
  | None => ((n, v) :: l, true)
  end.

(** [LogRecordImpl::Update] (log-record.h:102-110): emplace, or assign to the
    value found. *)
Fixpoint assign (n : string) (v : lvalue) (l : list (string * lvalue)) : list (string * lvalue) :=
  match l with
  | [] => []
  | (m, u) :: t => if String.eqb n m then (m, v) :: t else (m, u) :: assign n v t
  end.
Definition overwrite (n : string) (v : lvalue) (l : list (string * lvalue)) : list (string * lvalue) :=
  match lookup n l with
  | Some _ => assign n v l
  | None => (n, v) :: l
  end.

(** intrusive_ptr_add_ref. *)
Definition add_ref (r : nat) (heap : list (option lrec)) : outcome (list (option lrec)) :=
  match nth_error heap r with
  | Some (Some c) => Done (upd heap r (Some (mk_lrec (S (lr_count c)) (lr_items c))))
  | _ => UB
  end.

(** intrusive_ptr_release: deletes the map when the count becomes 0. *)
Definition release (r : nat) (heap : list (option lrec)) : outcome (list (option lrec)) :=
  match nth_error heap r with
  | Some (Some c) =>
      match lr_count c with
      | O => UB
      | S O => Done (upd heap r None)
      | S k => Done (upd heap r (Some (mk_lrec k (lr_items c))))
      end
  | _ => UB
  end.

(** The map behind a handle. *)
Definition handle (w : lworld) (h : nat) : outcome nat :=
  match nth_error (lw_handles w) h with
  | Some (Some r) => Done r
  | _ => UB
  end.
Definition deref (w : lworld) (r : nat) : outcome lrec :=
  match nth_error (lw_heap w) r with
  | Some (Some c) => Done c
  | _ => UB
  end.

Inductive lanswer :=
| AUnit | ANew (h : nat) | ABool (b : bool) | AVal (x : N) | ALog (v : lvalue) | AType (t : ltype) | AThrow (e : exn).

(** What a user can do with records.  Moving a record is the same as copying the
    handle: the parameters are [const LogRecord&&] (log-record.h:288-300). *)
Inductive lop :=
| RNew                                      (* LogRecord::LogRecord: 264-267 *)
| RShare (h : nat)                          (* copy and move constructor: 274-277, 288-291 *)
| RAssign (h g : nat)                       (* copy and move assignment: 279-286, 293-300 *)
| RDestroy (h : nat)
| RCopy (h : nat)                           (* Copy: 228-231, 269-272 *)
| RAdd (h : nat) (n : string) (v : lvalue)  (* 302-305 *)
| RUpdate (h : nat) (n : string) (v : lvalue) (* 307-310 *)
| RExists (h : nat) (n : string)            (* 312-315 *)
| RGet (h : nat) (n : string) (t : ltype)   (* Get<T>: 317-322 *)
| RTypeId (h : nat) (n : string).           (* 324-329 *)

Section Functors.
(** The result of the [k]-th call of functor [f]. *)
Context (gen : nat -> nat -> N) (gen2 : nat -> nat -> lvalue).

(** [LogValue::Get<T>] (log-value.h:123-138). *)
Definition get_as (t : ltype) (v : lvalue) (calls : list nat) : lanswer * list nat :=
  if ltype_eqb (type_of v) t
  then match v with
       | LConst _ x => (AVal x, calls)
       | LCall _ f => (AVal (gen f (count_occ Nat.eq_dec calls f)), calls ++ [f])
       | LConst2 u => (ALog u, calls)
       | LCall2 f => (ALog (gen2 f (count_occ Nat.eq_dec calls f)), calls ++ [f])
       end
  else (AThrow LogValueTypeMismatch, calls).

(** Change the map behind handle [h]. *)
Definition change (w : lworld) (r : nat) (c : lrec) (items : list (string * lvalue)) : lworld :=
  mk_lw (upd (lw_heap w) r (Some (mk_lrec (lr_count c) items))) (lw_handles w) (lw_calls w).

Definition l_step (o : lop) (w : lworld) : outcome (lworld * lanswer) :=
  match o with
  | RNew =>
      Done (mk_lw (lw_heap w ++ [Some (mk_lrec 1 [])]) (lw_handles w ++ [Some (length (lw_heap w))]) (lw_calls w),
            ANew (length (lw_handles w)))
  | RShare h =>
      let! r := handle w h in
      let! heap := add_ref r (lw_heap w) in
      Done (mk_lw heap (lw_handles w ++ [Some r]) (lw_calls w), ANew (length (lw_handles w)))
  | RAssign h g =>
      if Nat.eqb h g then Done (w, AUnit)
      else
        let! r := handle w h in
        let! s := handle w g in
        (* the assignment of intrusive_ptr retains the new map first *)
        let! heap1 := add_ref s (lw_heap w) in
        let! heap2 := release r heap1 in
        Done (mk_lw heap2 (upd (lw_handles w) h (Some s)) (lw_calls w), AUnit)
  | RDestroy h =>
      let! r := handle w h in
      let! heap := release r (lw_heap w) in
      Done (mk_lw heap (upd (lw_handles w) h None) (lw_calls w), AUnit)
  | RCopy h =>
      let! r := handle w h in
      let! c := deref w r in
      Done (mk_lw (lw_heap w ++ [Some (mk_lrec 1 (lr_items c))]) (lw_handles w ++ [Some (length (lw_heap w))]) (lw_calls w),
            ANew (length (lw_handles w)))
  | RAdd h n v =>
      let! r := handle w h in
      let! c := deref w r in
      let (l, b) := put n v (lr_items c) in
      Done (change w r c l, ABool b)
  | RUpdate h n v =>
      let! r := handle w h in
      let! c := deref w r in
      Done (change w r c (overwrite n v (lr_items c)), AUnit)
  | RExists h n =>
      let! r := handle w h in
      let! c := deref w r in
      Done (w, ABool (match lookup n (lr_items c) with Some _ => true | None => false end))
  | RGet h n t =>
      let! r := handle w h in
      let! c := deref w r in
      match lookup n (lr_items c) with
      | None => Done (w, AThrow LogValueNotFound)
      | Some v => let (a, calls) := get_as t v (lw_calls w) in
                  Done (mk_lw (lw_heap w) (lw_handles w) calls, a)
      end
  | RTypeId h n =>
      let! r := handle w h in
      let! c := deref w r in
      match lookup n (lr_items c) with
      | None => Done (w, AThrow LogValueNotFound)
      | Some v => Done (w, AType (type_of v))
      end
  end.

Fixpoint l_run (l : list lop) (w : lworld) : outcome (lworld * list lanswer) :=
  match l with
  | [] => Done (w, [])
  | o :: t =>
      let! (w1, a) := l_step o w in
      let! (w2, r) := l_run t w1 in
      Done (w2, a :: r)
  end.
End Functors.
