(** Specification for LogRecord.v: records as mathematical maps that handles
    refer to; nothing is ever deleted. *)
From Coq Require Import List NArith Arith String Bool.
From Verif Require Import Base LogRecord.
Import ListNotations.
Open Scope list_scope.

(** [sh_kin]: which record a handle refers to, [None] for a destroyed handle.
    [sh_mem]: the named values of each record. [sh_calls]: the functors called. *)
Record sheet := mk_sheet {
  sh_kin : list (option nat);
  sh_mem : list (string -> option lvalue);
  sh_calls : list nat }.

Definition sheet_init : sheet := mk_sheet [] [] [].

Definition kin (s : sheet) (h : nat) : option nat :=
  match nth_error (sh_kin s) h with Some (Some r) => Some r | _ => None end.
Definition mem (s : sheet) (r : nat) (n : string) : option lvalue :=
  match nth_error (sh_mem s) r with Some f => f n | None => None end.

Definition with_value (f : string -> option lvalue) (n : string) (v : lvalue) : string -> option lvalue :=
  fun m => if String.eqb m n then Some v else f m.

(** Operation by operation; [None] for a call through a destroyed handle. *)
Definition sp_step (gen : nat -> nat -> N) (gen2 : nat -> nat -> lvalue) (o : lop) (s : sheet) : option (sheet * lanswer) :=
  let use h k := match kin s h with Some r => k r | None => None end in
  let store r f := mk_sheet (sh_kin s) (upd (sh_mem s) r f) (sh_calls s) in
  match o with
  | RNew => Some (mk_sheet (sh_kin s ++ [Some (length (sh_mem s))]) (sh_mem s ++ [fun _ => None]) (sh_calls s), ANew (length (sh_kin s)))
  | RShare h => use h (fun r => Some (mk_sheet (sh_kin s ++ [Some r]) (sh_mem s) (sh_calls s), ANew (length (sh_kin s))))
  | RAssign h g => use h (fun _ => use g (fun r => Some (mk_sheet (upd (sh_kin s) h (Some r)) (sh_mem s) (sh_calls s), AUnit)))
  | RDestroy h => use h (fun _ => Some (mk_sheet (upd (sh_kin s) h None) (sh_mem s) (sh_calls s), AUnit))
  | RCopy h => use h (fun r => Some (mk_sheet (sh_kin s ++ [Some (length (sh_mem s))]) (sh_mem s ++ [mem s r]) (sh_calls s), ANew (length (sh_kin s))))
  | RAdd h n v => use h (fun r =>
      match mem s r n with
      | Some _ => Some (s, ABool false)
      | None => Some (store r (with_value (mem s r) n v), ABool true)
      end)
  | RUpdate h n v => use h (fun r => Some (store r (with_value (mem s r) n v), AUnit))
  | RExists h n => use h (fun r => Some (s, ABool (match mem s r n with Some _ => true | None => false end)))
  | RGet h n t => use h (fun r =>
      match mem s r n with
      | None => Some (s, AThrow LogValueNotFound)
      | Some v =>
          if ltype_eqb (type_of v) t
          then let times f := count_occ Nat.eq_dec (sh_calls s) f in
               let called f := mk_sheet (sh_kin s) (sh_mem s) (sh_calls s ++ [f]) in
               match v with
               | LConst _ x => Some (s, AVal x)
               | LCall _ f => Some (called f, AVal (gen f (times f)))
               | LConst2 u => Some (s, ALog u)
               | LCall2 f => Some (called f, ALog (gen2 f (times f)))
               end
          else Some (s, AThrow LogValueTypeMismatch)
      end)
  | RTypeId h n => use h (fun r =>
      Some (s, match mem s r n with None => AThrow LogValueNotFound | Some v => AType (type_of v) end))
  end.

Fixpoint sp_run gen gen2 (l : list lop) (s : sheet) : option (sheet * list lanswer) :=
  match l with
  | [] => Some (s, [])
  | o :: t =>
      match sp_step gen gen2 o s with
      | None => None
      | Some (s1, a) =>
          match sp_run gen gen2 t s1 with
          | None => None
          | Some (s2, r) => Some (s2, a :: r)
          end
      end
  end.

(** The handles that refer to record [r]. *)
Definition users (w : lworld) (r : nat) : nat :=
  length (filter (fun h => match h with Some q => Nat.eqb q r | None => false end) (lw_handles w)).

(** The value a handle shows under a name. *)
Definition view (w : lworld) (h : nat) (n : string) : option lvalue :=
  match nth_error (lw_handles w) h with
  | Some (Some r) => match nth_error (lw_heap w) r with Some (Some c) => lookup n (lr_items c) | _ => None end
  | _ => None
  end.

(** An operation that uses handle [h], to write through it or to change it. *)
Definition touches (h : nat) (o : lop) : Prop :=
  match o with
  | RAdd g _ _ | RUpdate g _ _ | RDestroy g | RShare g => g = h
  | RAssign g k => g = h \/ k = h
  | _ => False
  end.
