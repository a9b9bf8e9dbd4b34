(** What a user of BiVector, BiArray and BiMatrix may rely on: each container
    has a value of its own, and every statement has the effect written here on
    these values and on nothing else. *)
From Verif Require Import Base BiContainer.

Section Spec.
Variable V : Type.
Variable v0 : V.

(** A vector is a capacity and a sequence, an array is a sequence of fixed
    length, a matrix is the list of its rows. *)
Inductive aobj : Type :=
| AVec (base cap : N) (l : list V)
| AArr (base : N) (l : list V)
| AMat (L : layout) (base1 base2 rows cols : N) (m : list (list V)).

Definition sworld : Type := list (option aobj).

(** Column [j] of a matrix, from the first row to the last. *)
Fixpoint column (j : nat) (m : list (list V)) : list V :=
  match m with
  | [] => []
  | row :: rest =>
      match nth_error row j with
      | Some v => v :: column j rest
      | None => column j rest
      end
  end.

(** The elements of a matrix in storage order: row by row, or column by
    column. *)
Definition storage (L : layout) (cols : N) (m : list (list V)) : list V :=
  match L with
  | RowMajor => concat m
  | ColumnMajor => concat (map (fun j => column j m) (seq 0 (N.to_nat cols)))
  end.

(** Row and column of the [n]-th element in storage order. *)
Definition cell_of (L : layout) (rows cols n : N) : nat * nat :=
  match L with
  | RowMajor => (N.to_nat (n / cols), N.to_nat (n mod cols))
  | ColumnMajor => (N.to_nat (n mod rows), N.to_nat (n / rows))
  end%N.

(** Replace one cell. *)
Definition set_cell (m : list (list V)) (i j : nat) (v : V) : list (list V) :=
  match nth_error m i with
  | Some row => upd m i (upd row j v)
  | None => m
  end.

Definition get_cell (m : list (list V)) (i j : nat) : option V :=
  match nth_error m i with Some row => nth_error row j | None => None end.

Definition contents (a : aobj) : list V :=
  match a with
  | AVec _ _ l => l
  | AArr _ l => l
  | AMat L _ _ _ c m => storage L c m
  end.

(** The index [i] of a container whose indices start at [base] and that has
    [n] of them; all of them must be numbers below [2^64 - 1]. *)
Definition index (base n i : N) : option nat :=
  if ((base <=? i) && (i <? base + n) && (base + n <? 2 ^ 64))%N
  then Some (N.to_nat (i - base)) else None.

Definition aobj_at (s : sworld) (o : nat) : option aobj :=
  match nth_error s o with Some (Some a) => Some a | _ => None end.

(** The value of an argument. *)
Definition sval (s : sworld) (p : psrc V) : option V :=
  match p with
  | PVal v => Some v
  | PElem o k =>
      match aobj_at s o with
      | Some a => nth_error (contents a) (N.to_nat k)
      | None => None
      end
  end.

Fixpoint svals (s : sworld) (l : list (psrc V)) : option (list V) :=
  match l with
  | [] => Some []
  | p :: t =>
      match sval s p, svals s t with
      | Some v, Some r => Some (v :: r)
      | _, _ => None
      end
  end.

(** Does the argument refer to an element of container [o]? *)
Definition refers (o : nat) (p : psrc V) : bool :=
  match p with PVal _ => false | PElem o' _ => (o =? o')%nat end.

Definition aempty (a : aobj) : aobj :=
  match a with
  | AVec Ib _ _ => AVec Ib 0 []
  | AArr Ib _ => AArr Ib []
  | AMat L Ib Jb _ _ _ => AMat L Ib Jb 0 0 []
  end.

Definition asame_type (a b : aobj) : bool :=
  match a, b with
  | AVec Ib _ _, AVec Ib' _ _ => (Ib =? Ib')%N
  | AArr Ib _, AArr Ib' _ => (Ib =? Ib')%N
  | AMat L Ib Jb _ _ _, AMat L' Ib' Jb' _ _ _ =>
      match L, L' with
      | RowMajor, RowMajor | ColumnMajor, ColumnMajor => ((Ib =? Ib') && (Jb =? Jb'))%N
      | _, _ => false
      end
  | _, _ => false
  end.

(** [SOk]: the statement is carried out, with this effect and this result;
    [SAssert]: an assertion stops the program; [SAny]: nothing is promised. *)
Inductive sout : Type :=
| SOk (s : sworld) (r : res V)
| SAssert
| SAny.

Definition is64 (n : N) : bool := (n <? 2 ^ 64)%N.

Definition snew (s : sworld) (a : aobj) : sout := SOk (s ++ [Some a]) RUnit.
Definition sput (s : sworld) (o : nat) (a : aobj) : sout := SOk (upd s o (Some a)) RUnit.
Definition sskip (s : sworld) : sout := SOk s RSkip.
Definition sread (s : sworld) (v : option V) : sout :=
  match v with Some v => SOk s (RVal v) | None => SAssert end.

(** Three statements are described as the code has them and not as one would
    expect: [assign] with fewer elements than there are keeps the others
    (C60_assign_refuted), [fill2] compares the column with the number of rows
    (C61_fill2_refuted), and nothing is promised for [assign] from an element of
    the same vector (C60_assign_own_refuted). *)
Definition sstep (s : sworld) (p : op V) : sout :=
  match p with
  | ONewVec Ib cap => if is64 Ib && is64 cap then snew s (AVec Ib cap []) else SAny
  | ONewVecFill Ib cap size p =>
      match sval s p with
      | Some v =>
          if is64 Ib && is64 cap && (size <=? cap)%N
          then snew s (AVec Ib cap (repeat v (N.to_nat size))) else SAny
      | None => SAny
      end
  | ONewArr Ib size =>
      if is64 Ib && is64 size then snew s (AArr Ib (repeat v0 (N.to_nat size))) else SAny
  | ONewArrFill Ib size p =>
      match sval s p with
      | Some v =>
          if is64 Ib && is64 size then snew s (AArr Ib (repeat v (N.to_nat size))) else SAny
      | None => SAny
      end
  | ONewMat L Ib Jb r c =>
      if ((r <=? mat_max) && (c <=? mat_max))%N then
        if is64 Ib && is64 Jb && is64 (r * c)
        then snew s (AMat L Ib Jb r c (repeat (repeat v0 (N.to_nat c)) (N.to_nat r))) else SAny
      else SAssert
  | ONewMatFill L Ib Jb r c p =>
      match sval s p with
      | Some v =>
          if ((r <=? mat_max) && (c <=? mat_max))%N then
            if is64 Ib && is64 Jb && is64 (r * c)
            then snew s (AMat L Ib Jb r c (repeat (repeat v (N.to_nat c)) (N.to_nat r))) else SAny
          else SAssert
      | None => SAny
      end
  | OCopy o =>
      match aobj_at s o with Some a => snew s a | None => sskip s end
  | OMove o =>
      match aobj_at s o with
      | Some a => snew (upd s o (Some (aempty a))) a
      | None => sskip s
      end
  | OAssign dst from =>
      match aobj_at s dst, aobj_at s from with
      | Some a, Some b => if asame_type a b then sput s dst b else sskip s
      | _, _ => sskip s
      end
  | OMoveAssign dst from =>
      match aobj_at s dst, aobj_at s from with
      | Some a, Some b =>
          if asame_type a b then
            if (dst =? from)%nat then SOk s RUnit
            else sput (upd s dst (Some b)) from (aempty b)
          else sskip s
      | _, _ => sskip s
      end
  | OSwap x y =>
      match aobj_at s x, aobj_at s y with
      | Some a, Some b => if asame_type a b then sput (upd s x (Some b)) y a else sskip s
      | _, _ => sskip s
      end
  | ODestroy o =>
      match aobj_at s o with Some _ => SOk (upd s o None) RUnit | None => sskip s end
  | OSize o =>
      match aobj_at s o with
      | Some a => SOk s (RNum (N.of_nat (length (contents a))))
      | None => sskip s
      end
  | OCapacity o =>
      match aobj_at s o with
      | Some (AVec _ cap _) => SOk s (RNum cap)
      | _ => sskip s
      end
  | OGet o i =>
      match aobj_at s o with
      | Some (AVec Ib _ l) =>
          sread s match index Ib (N.of_nat (length l)) i with
                  | Some k => nth_error l k | None => None end
      | Some (AArr Ib l) =>
          sread s match index Ib (N.of_nat (length l)) i with
                  | Some k => nth_error l k | None => None end
      | Some (AMat L Ib Jb r c m) => sread s (nth_error (storage L c m) (N.to_nat i))
      | None => sskip s
      end
  | OSet o i p =>
      match aobj_at s o with
      | Some (AVec Ib cap l) =>
          match index Ib (N.of_nat (length l)) i with
          | Some k => match sval s p with Some v => sput s o (AVec Ib cap (upd l k v)) | None => SAny end
          | None => SAssert
          end
      | Some (AArr Ib l) =>
          match index Ib (N.of_nat (length l)) i with
          | Some k => match sval s p with Some v => sput s o (AArr Ib (upd l k v)) | None => SAny end
          | None => SAssert
          end
      | Some (AMat L Ib Jb r c m) =>
          if (i <? r * c)%N then
            match sval s p with
            | Some v =>
                sput s o (AMat L Ib Jb r c
                            (set_cell m (fst (cell_of L r c i)) (snd (cell_of L r c i)) v))
            | None => SAny
            end
          else SAssert
      | None => sskip s
      end
  | OGet2 o i j =>
      match aobj_at s o with
      | Some (AMat L Ib Jb r c m) =>
          sread s match index Ib r i, index Jb c j with
                  | Some a, Some b => get_cell m a b
                  | _, _ => None
                  end
      | _ => sskip s
      end
  | OSet2 o i j p =>
      match aobj_at s o with
      | Some (AMat L Ib Jb r c m) =>
          match index Ib r i, index Jb c j with
          | Some a, Some b =>
              match sval s p with
              | Some v => sput s o (AMat L Ib Jb r c (set_cell m a b v))
              | None => SAny
              end
          | _, _ => SAssert
          end
      | _ => sskip s
      end
  | OFront o =>
      match aobj_at s o with
      | Some a => sread s (hd_error (contents a))
      | None => sskip s
      end
  | OBack o =>
      match aobj_at s o with
      | Some a => sread s (nth_error (contents a) (length (contents a) - 1))
      | None => sskip s
      end
  | OFill o p =>
      match aobj_at s o with
      | Some (AArr Ib l) =>
          match sval s p with
          | Some v => sput s o (AArr Ib (repeat v (length l)))
          | None => SAny
          end
      | Some (AMat L Ib Jb r c m) =>
          match sval s p with
          | Some v => sput s o (AMat L Ib Jb r c (map (map (fun _ => v)) m))
          | None => SAny
          end
      | _ => sskip s
      end
  | OFill1 o i p =>
      match aobj_at s o with
      | Some (AMat L Ib Jb r c m) =>
          match sval s p with
          | Some v =>
              match index Ib r i with
              | Some a => sput s o (AMat L Ib Jb r c (upd m a (repeat v (N.to_nat c))))
              | None => SAssert
              end
          | None => SAny
          end
      | _ => sskip s
      end
  | OFill2 o j p =>
      match aobj_at s o with
      | Some (AMat L Ib Jb r c m) =>
          match sval s p with
          | Some v =>
              match index Jb r j with
              | Some b =>
                  if (N.of_nat b <? c)%N
                  then sput s o (AMat L Ib Jb r c (map (fun row => upd row b v) m))
                  else SAny
              | None => SAssert
              end
          | None => SAny
          end
      | _ => sskip s
      end
  | OAssignN o n p =>
      match aobj_at s o with
      | Some (AVec Ib cap l) =>
          match sval s p with
          | Some v =>
              if refers o p then SAny
              else if (n <=? cap)%N
              then sput s o (AVec Ib cap (repeat v (N.to_nat n) ++ skipn (N.to_nat n) l))
              else SAssert
          | None => SAny
          end
      | _ => sskip s
      end
  | OAssignRange o ps =>
      match aobj_at s o with
      | Some (AVec Ib cap l) =>
          match svals s ps with
          | Some vs =>
              if existsb (refers o) ps then SAny
              else if (N.of_nat (length vs) <=? cap)%N
              then sput s o (AVec Ib cap (vs ++ skipn (length vs) l))
              else SAssert
          | None => SAny
          end
      | _ => sskip s
      end
  | OPushBack o p =>
      match aobj_at s o with
      | Some (AVec Ib cap l) =>
          match sval s p with
          | Some v =>
              if (N.of_nat (length l) <? cap)%N then sput s o (AVec Ib cap (l ++ [v]))
              else SAssert
          | None => SAny
          end
      | _ => sskip s
      end
  | OPopBack o =>
      match aobj_at s o with
      | Some (AVec Ib cap l) =>
          match l with
          | [] => SAssert
          | _ :: _ => sput s o (AVec Ib cap (firstn (length l - 1) l))
          end
      | _ => sskip s
      end
  | OClear o =>
      match aobj_at s o with
      | Some (AVec Ib cap l) => sput s o (AVec Ib cap [])
      | _ => sskip s
      end
  | OIterate o =>
      match aobj_at s o with
      | Some a => SOk s (RList (contents a))
      | None => sskip s
      end
  | ORow o i =>
      match aobj_at s o with
      | Some (AMat L Ib Jb r c m) =>
          match index Ib r i with
          | Some a => match nth_error m a with Some row => SOk s (RList row) | None => SAny end
          | None => SAssert
          end
      | _ => sskip s
      end
  | OColumn o j =>
      match aobj_at s o with
      | Some (AMat L Ib Jb r c m) =>
          match index Jb c j with
          | Some b => SOk s (RList (column b m))
          | None => SAssert
          end
      | _ => sskip s
      end
  | ORowNth o i n =>
      match aobj_at s o with
      | Some (AMat L Ib Jb r c m) =>
          match index Ib r i with
          | Some a =>
              if (0 <=? n)%Z then
                match get_cell m a (Z.to_nat n) with
                | Some v => SOk s (RVal v)
                | None => SAny
                end
              else SAny
          | None => SAssert
          end
      | _ => sskip s
      end
  | OColumnNth o j n =>
      match aobj_at s o with
      | Some (AMat L Ib Jb r c m) =>
          match index Jb c j with
          | Some b =>
              if (0 <=? n)%Z then
                match get_cell m (Z.to_nat n) b with
                | Some v => SOk s (RVal v)
                | None => SAny
                end
              else SAny
          | None => SAssert
          end
      | _ => sskip s
      end
  | ORowSize o i =>
      match aobj_at s o with
      | Some (AMat L Ib Jb r c m) =>
          match index Ib r i with
          | Some _ => SOk s (RInt (Z.of_N c))
          | None => SAssert
          end
      | _ => sskip s
      end
  | OColumnSize o j =>
      match aobj_at s o with
      | Some (AMat L Ib Jb r c m) =>
          match index Jb c j with
          | Some _ => SOk s (RInt (Z.of_N r))
          | None => SAssert
          end
      | _ => sskip s
      end
  end.

(** A whole program. *)
Fixpoint srun (s : sworld) (ps : list (op V)) : option (sworld * list (res V)) :=
  match ps with
  | [] => Some (s, [])
  | p :: rest =>
      match sstep s p with
      | SOk s1 r =>
          match srun s1 rest with
          | Some (s2, rs) => Some (s2, r :: rs)
          | None => None
          end
      | _ => None
      end
  end.

End Spec.

Arguments AVec {V} base cap l.
Arguments AArr {V} base l.
Arguments AMat {V} L base1 base2 rows cols m.
Arguments SOk {V} s r.
Arguments SAssert {V}.
Arguments SAny {V}.
Arguments column {V} j m.
Arguments storage {V} L cols m.
Arguments set_cell {V} m i j v.
Arguments get_cell {V} m i j.
Arguments contents {V} a.
Arguments aobj_at {V} s o.
Arguments sval {V} s p.
Arguments svals {V} s l.
Arguments refers {V} o p.
Arguments aempty {V} a.
Arguments asame_type {V} a b.
Arguments snew {V} s a.
Arguments sput {V} s o a.
Arguments sskip {V} s.
Arguments sread {V} s v.
