(** Vocabulary of the statements about the test framework. *)
From Coq Require Import QArith.
From Verif Require Import Base Testing.
Open Scope N_scope.

Section Spec.
Variable S : Type.

(** All cases of a suite: its own in their order, then those of its suites in their order. *)
Fixpoint listing (p : path) (s : suite S) : list ((path * name) * body S) :=
  let '(Suite _ cs ss) := s in
  map (fun c => ((p, fst c), snd c)) cs ++ flat_map (fun x => listing (p ++ [fst x]) (snd x)) ss.

(** What a test does, seen from outside: checks that are evaluated, checks that are skipped,
    messages. *)
Inductive event : Set :=
| Evaluated (lv : level) (lineno : N) (ok : bool)
| Skipped (lv : level) (lineno : N)
| Said (m : N).

(** The code of a case, run on its own; [stop]: a required check failed before.  Its events, and
    the state and the flag after it, or the exception it throws. *)
Fixpoint play (b : body S) (stop : bool) (u : S) : (list event * (bool * S)) + exn :=
  let add ev r := match r with inl (evs, x) => inl (ev :: evs, x) | inr e => inr e end in
  match b with
  | Ret _ => inl ([], (stop, u))
  | Throws _ e => inr e
  | Do _ f k => play (k (f u)) stop (f u)
  | Check _ lv l ev k =>
      if stop then add (Skipped lv l) (play (k u) true u)
      else
        let '(ok, u') := ev u in
        add (Evaluated lv l ok)
          (play (k u') (match lv with Assert => negb ok | Expect => false end) u')
  | Message _ m k => add (Said m) (play (k u) stop u)
  | Stopped _ k => play (k stop) stop u
  end.

(** The cases one after the other, none any more once a required check has failed. *)
Fixpoint session (cs : list ((path * name) * body S)) (stop : bool) (u : S)
    : (list ((path * name) * list event) * (bool * S)) + exn :=
  match cs with
  | [] => inl ([], (stop, u))
  | (h, b) :: cs' =>
      if stop then inl ([], (true, u))
      else
        match play b false u with
        | inl (evs, (stop', u')) =>
            match session cs' stop' u' with
            | inl (tr, x) => inl ((h, evs) :: tr, x)
            | inr e => inr e
            end
        | inr e => inr e
        end
  end.

Definition failed_checks (evs : list event) : list (level * N) :=
  flat_map (fun e => match e with Evaluated lv l false => [(lv, l)] | _ => [] end) evs.
Definition failures (tr : list ((path * name) * list event)) : list ((path * name) * (level * N)) :=
  flat_map (fun x => map (fun f => (fst x, f)) (failed_checks (snd x))) tr.

(** ** What is written *)

(** The suites on the way to a case, each one blank further to the right. *)
Definition way (p : path) : list line :=
  map (fun x => LSuite (fst x) (snd x)) (combine (seq 0 (length p)) p).

(** [prev]: the suite of the last result shown. *)
Fixpoint lines_of (h : path * name) (prev : path) (evs : list event) : list line * path :=
  match evs with
  | [] => ([], prev)
  | Said m :: r => let '(ls, q) := lines_of h prev r in (LText m :: ls, q)
  | Evaluated lv l false :: r =>
      let '(ls, q) := lines_of h (fst h) r in
      ((if list_eq_dec N.eq_dec (fst h) prev then [] else way (fst h))
       ++ [LCase (length (fst h)) (snd h); LResult (length (fst h) + 2) lv l] ++ ls, q)
  | _ :: r => lines_of h prev r
  end.

(** After the [k]-th of [n] cases: tenths, when they have grown. *)
Definition progress (n k : nat) : list line :=
  if Nat.ltb (10 * (k - 1) / n) (10 * k / n) then [LProgress (10 * k / n)] else [].

Fixpoint report (n k : nat) (prev : path) (tr : list ((path * name) * list event)) : list line :=
  match tr with
  | [] => []
  | (h, evs) :: r =>
      let '(ls, prev') := lines_of h prev evs in
      ls ++ progress n k ++ report n (k + 1) prev' r
  end.

(** ** Registration *)

(** The code that is registered first under a name. *)
Definition first_case (os : list (op S)) (p : path) (n : name) : option (body S) :=
  match find (fun o => match o with OCase _ p' n' _ => path_eqb p' p && (n' =? n) | _ => false end) os with
  | Some (OCase _ _ _ b) => Some b
  | _ => None
  end.

(** The names in the order of their first occurrences. *)
Fixpoint firsts (seen l : list N) : list N :=
  match l with
  | [] => []
  | x :: r => if existsb (N.eqb x) seen then firsts seen r else x :: firsts (x :: seen) r
  end.
Definition case_names (os : list (op S)) (p : path) : list name :=
  flat_map (fun o => match o with OCase _ p' n _ => if path_eqb p' p then [n] else [] | _ => [] end) os.
End Spec.

(** Not a failed required check, and not skipped. *)
Definition calm (e : event) : Prop :=
  match e with Skipped _ _ => False | Evaluated Assert _ false => False | _ => True end.
Definition unevaluated (e : event) : Prop :=
  match e with Evaluated _ _ _ => False | _ => True end.

(** The number an operand stands for. *)
Definition number (v : value) : option Q :=
  match v with
  | VInt _ z => Some (inject_Z z)
  | VUns _ n => Some (inject_Z (Z.of_N n))
  | VReal q => q
  end.
Definition same_type (a b : value) : Prop :=
  match a, b with
  | VInt w _, VInt w' _ | VUns w _, VUns w' _ => w = w'
  | VReal _, VReal _ => True
  | _, _ => False
  end.
Definition relation (t : tool) (x y : Q) : Prop :=
  match t with
  | TEQ => x == y | TNE => ~ x == y | TLT => x < y | TLE => x <= y | TGT => y < x | TGE => y <= x
  end%Q.

(** Not of an unsigned type. *)
Definition signed (v : value) : Prop := match v with VUns _ _ => False | _ => True end.
