(** Model of the test framework: test/suite.h, case.h, runner.h, result.h, logger.h, tool.h,
    tool-iterate.h, tool-level.h, tool-type.h, builder.h.

    Simplifications: names and texts are numbers; a suite is denoted by the names on the way
    from the master suite (names are unique among siblings, so this is the same as its address);
    suites and cases are added before the tests run; results keep the level and the line of the
    check only. *)
From Coq Require Import QArith.
From Verif Require Import Base.
Open Scope N_scope.

Definition name := N.
Definition path := list name.

(** tool-level.h 39-44. *)
Inductive level : Set := Expect | Assert.

(** What is written to a stream (runner.h 126-281), line by line; a number of leading blanks where
    there are some. *)
Inductive line : Set :=
| LText (m : N)
| LProgress (tenths : nat)
| LSuite (blanks : nat) (n : name)
| LCase (blanks : nat) (n : name)
| LResult (blanks : nat) (lv : level) (lineno : N)
| LStopped
| LTotal (failures : nat).

(** ** The checks: tool.h 649, 736, 826-852 *)

(** Operands, all of one type: signed and unsigned integers of [w] bits (from [int] on), and
    floating point numbers without rounding and infinities ([None]: not a number). *)
Inductive value : Set := VInt (w : N) (z : Z) | VUns (w : N) (n : N) | VReal (q : option Q).

Definition as_int (w : N) (z : Z) : outcome value :=
  if (- 2 ^ (Z.of_N w - 1) <=? z)%Z && (z <? 2 ^ (Z.of_N w - 1))%Z then Done (VInt w z) else UB.

(** [a - b], [a * b], [-a], [a < b], [a == b] of C++; mixed types are not modelled ([UB]). *)
Definition vsub (a b : value) : outcome value :=
  match a, b with
  | VInt w x, VInt _ y => as_int w (x - y)
  | VUns w x, VUns _ y => Done (VUns w (wrap w (x + (2 ^ w - y))))
  | VReal (Some x), VReal (Some y) => Done (VReal (Some (x - y)%Q))
  | VReal _, VReal _ => Done (VReal None)
  | _, _ => UB
  end.
Definition vmul (a b : value) : outcome value :=
  match a, b with
  | VInt w x, VInt _ y => as_int w (x * y)
  | VUns w x, VUns _ y => Done (VUns w (wrap w (x * y)))
  | VReal (Some x), VReal (Some y) => Done (VReal (Some (x * y)%Q))
  | VReal _, VReal _ => Done (VReal None)
  | _, _ => UB
  end.
Definition vneg (a : value) : outcome value :=
  match a with
  | VInt w x => as_int w (- x)
  | VUns w x => Done (VUns w (wrap w (2 ^ w - x)))
  | VReal (Some x) => Done (VReal (Some (- x)%Q))
  | VReal None => Done (VReal None)
  end.
Definition vlt (a b : value) : bool :=
  match a, b with
  | VInt _ x, VInt _ y => (x <? y)%Z
  | VUns _ x, VUns _ y => x <? y
  | VReal (Some x), VReal (Some y) => negb (Qle_bool y x)
  | _, _ => false
  end.
Definition veq (a b : value) : bool :=
  match a, b with
  | VInt _ x, VInt _ y => (x =? y)%Z
  | VUns _ x, VUns _ y => x =? y
  | VReal (Some x), VReal (Some y) => Qeq_bool x y
  | _, _ => false
  end.
(** [tol2 < 0]: the literal is converted to the type of the product. *)
Definition vneg_p (a : value) : bool :=
  match a with
  | VInt _ x => (x <? 0)%Z
  | VUns _ _ => false
  | VReal (Some x) => negb (Qle_bool 0 x)
  | VReal None => false
  end.

Definition orb_o (a b : outcome bool) : outcome bool :=
  let! x := a in if x then Done true else b.

(** tool-type.h 39-51, without [PREDICATE]; the operators of tool-iterate.h 29-54. *)
Inductive tool : Set := TEQ | TNE | TLT | TLE | TGT | TGE.

Definition compare (t : tool) (a l : value) : bool :=
  match t with
  | TEQ => veq a l
  | TNE => negb (veq a l)
  | TLT => vlt a l
  | TLE => vlt a l || veq a l
  | TGT => vlt l a
  | TGE => vlt l a || veq a l
  end.

(** tool.h 829-835: absolute closeness passes. *)
Definition close_abs (a l tol : value) : outcome bool :=
  let! far := orb_o (let! d := vsub a l in Done (vlt tol d)) (let! d := vsub l a in Done (vlt tol d)) in
  Done (negb far).

(** tool.h 836-847: relative closeness passes. *)
Definition close_rel (a l tol : value) : outcome bool :=
  let! t := vmul l tol in
  let! t := (if vneg_p t then vneg t else Done t) in
  close_abs a l t.

(** ** Suites and cases *)

Section Tests.
Variable S : Type.   (** Everything test cases can read and change. *)

(** The code of a test case, as far as the framework sees it: it changes the state, checks
    something (the operands are evaluated by [ev]: do they pass, and the state after), writes a
    message, asks for the stop flag, throws, ends. *)
Inductive body :=
| Ret
| Throws (e : exn)
| Do (f : S -> S) (k : S -> body)
| Check (lv : level) (lineno : N) (ev : S -> bool * S) (k : S -> body)
| Message (m : N) (k : S -> body)
| Stopped (k : bool -> body).

(** suite.h 228-237 ([caseVector_] and [caseMap_] hold the same cases, one by order and one by
    name; likewise for suites), case.h 136-153. *)
Inductive suite := Suite (cases : list (name * body)) (subs : list (name * suite)).
Definition cases_of (s : suite) : list (name * body) := let '(Suite cs _) := s in cs.
Definition subs_of (s : suite) : list (name * suite) := let '(Suite _ ss) := s in ss.

Fixpoint at_sub (x : name) (g : suite -> option suite) (ss : list (name * suite)) : option (list (name * suite)) :=
  match ss with
  | [] => None
  | (n, s) :: r =>
      if n =? x then match g s with Some s' => Some ((n, s') :: r) | None => None end
      else match at_sub x g r with Some r' => Some ((n, s) :: r') | None => None end
  end.
(** The suite behind a pointer; [None] when there is none. *)
Fixpoint at_path (p : path) (f : suite -> suite) (s : suite) : option suite :=
  match p with
  | [] => Some (f s)
  | x :: p' =>
      let '(Suite cs ss) := s in
      match at_sub x (at_path p' f) ss with Some ss' => Some (Suite cs ss') | None => None end
  end.

(** [AddSuite]: suite.h 113-129. *)
Definition add_suite (n : name) (s : suite) : suite :=
  let '(Suite cs ss) := s in
  if existsb (fun x => fst x =? n) ss then s else Suite cs (ss ++ [(n, Suite [] [])]).
(** [AddCase]: suite.h 134-151. *)
Definition add_case (n : name) (b : body) (s : suite) : suite :=
  let '(Suite cs ss) := s in
  if existsb (fun x => fst x =? n) cs then s else Suite (cs ++ [(n, b)]) ss.

(** [GetNumberOfCases]: suite.h 158-167. *)
Fixpoint num_cases (s : suite) : nat :=
  let '(Suite cs ss) := s in
  length cs + fold_right (fun x n => num_cases (snd x) + n)%nat 0%nat ss.

(** ** The runner *)

(** runner.h 318-346.  [results_] of all cases (case.h 151) in one list with their owners, in
    the order they were added.  [w_active], [w_prev]: [None] for the null pointer.
    [w_sinks]: logger.h 142. *)
Record world := mkWorld {
  w_root : suite; w_user : S; w_stop : bool; w_active : option (path * name);
  w_results : list ((path * name) * (level * N));
  w_ncases : nat; w_tested : nat; w_next : nat; w_prev : path;
  w_sinks : list (list line) }.

(** [Runner::Runner]: runner.h 40-47, suite.h 58-62. *)
Definition w_init (u : S) : world := mkWorld (Suite [] []) u false None [] 0 0 0 [] [].

(** Assignments to the members, runner.h 318-346. *)
Definition set_root (w : world) (r : suite) : world :=
  mkWorld r (w_user w) (w_stop w) (w_active w) (w_results w) (w_ncases w) (w_tested w) (w_next w) (w_prev w) (w_sinks w).
Definition set_user (w : world) (u : S) : world :=
  mkWorld (w_root w) u (w_stop w) (w_active w) (w_results w) (w_ncases w) (w_tested w) (w_next w) (w_prev w) (w_sinks w).
Definition set_stop (w : world) : world :=
  mkWorld (w_root w) (w_user w) true (w_active w) (w_results w) (w_ncases w) (w_tested w) (w_next w) (w_prev w) (w_sinks w).
Definition set_active (w : world) (h : path * name) : world :=
  mkWorld (w_root w) (w_user w) (w_stop w) (Some h) (w_results w) (w_ncases w) (w_tested w) (w_next w) (w_prev w) (w_sinks w).
Definition add_result (w : world) (h : path * name) (x : level * N) : world :=
  mkWorld (w_root w) (w_user w) (w_stop w) (w_active w) (w_results w ++ [(h, x)]) (w_ncases w) (w_tested w) (w_next w) (w_prev w) (w_sinks w).
Definition set_progress (w : world) (t n : nat) : world :=
  mkWorld (w_root w) (w_user w) (w_stop w) (w_active w) (w_results w) (w_ncases w) t n (w_prev w) (w_sinks w).
Definition set_prev (w : world) (p : path) : world :=
  mkWorld (w_root w) (w_user w) (w_stop w) (w_active w) (w_results w) (w_ncases w) (w_tested w) (w_next w) p (w_sinks w).
(** [VisitStreams] (logger.h 128-137) with a visitor that writes these lines. *)
Definition write (w : world) (ls : list line) : world :=
  mkWorld (w_root w) (w_user w) (w_stop w) (w_active w) (w_results w) (w_ncases w) (w_tested w) (w_next w) (w_prev w)
    (map (fun s => s ++ ls) (w_sinks w)).

(** Equality of pointers to suites (runner.h 195). *)
Definition path_eqb (p q : path) : bool :=
  if list_eq_dec N.eq_dec p q then true else false.

(** [DisplaySuite]: runner.h 204-214, from the master suite down; [above] are the names so far. *)
Fixpoint display_suite (depth : nat) (p : path) : list line :=
  match p with
  | [] => []
  | n :: p' => LSuite depth n :: display_suite (Datatypes.S depth) p'
  end.

(** [ShowResult]: runner.h 178-250. *)
Definition show_result (w : world) (h : path * name) (lv : level) (lineno : N) : world :=
  let '(p, n) := h in
  let w := write w ((if path_eqb p (w_prev w) then [] else display_suite 0 p)
                    ++ [LCase (length p) n; LResult (length p + 2) lv lineno]) in
  set_prev w p.

(** [CommitResult]: runner.h 99-107; without an active case [ShowResult] reads the parent of a
    null pointer (line 249). *)
Definition commit (w : world) (lv : level) (lineno : N) : outcome world :=
  match w_active w with
  | None => UB
  | Some h =>
      let w := match lv with Assert => set_stop w | Expect => w end in
      let w := show_result w h lv lineno in
      Done (add_result w h (lv, lineno))
  end.

(** The macros [NSFX_TEST_EXPECT...], [NSFX_TEST_ASSERT...]: tool.h 254-264, 310-320, 527-537:
    nothing is evaluated once the test is stopped. *)
Definition check (w : world) (lv : level) (lineno : N) (ev : S -> bool * S) : outcome world :=
  if w_stop w then Done w
  else
    let '(ok, u) := ev (w_user w) in
    let w := set_user w u in
    if ok then Done w else commit w lv lineno.

Fixpoint exec (b : body) (w : world) : outcome world :=
  match b with
  | Ret => Done w
  | Throws e => Throw e
  | Do f k => let u := f (w_user w) in exec (k u) (set_user w u)
  | Check lv l ev k => let! w := check w lv l ev in exec (k (w_user w)) w
  | Message m k => exec (k (w_user w)) (write w [LText m])
  | Stopped k => exec (k (w_stop w)) w
  end.

(** The loop of [ShowProgress]: runner.h 166-171 ([fuel] bounds the steps: it ends when [next]
    exceeds [10 * tested / total]).  Simplification: the quotient is exact, not a [double]. *)
Fixpoint progress_loop (fuel tested total next : nat) : nat :=
  match fuel with
  | O => next
  | Datatypes.S f => if (next * total <=? tested * 10)%nat then progress_loop f tested total (Datatypes.S next) else next
  end.
(** [ShowProgress]: runner.h 148-176. *)
Definition show_progress (w : world) : world :=
  let next := progress_loop (Datatypes.S (w_tested w * 10)) (w_tested w) (w_ncases w) (w_next w) in
  let w' := set_progress w (w_tested w) next in
  if (w_next w <? next)%nat then write w' [LProgress (next - 1)] else w'.

(** [RunCase]: runner.h 296-305. *)
Definition run_case (h : path * name) (b : body) (w : world) : outcome world :=
  if w_stop w then Done w
  else
    let! w := exec b (set_active w h) in
    Done (show_progress (set_progress w (Datatypes.S (w_tested w)) (w_next w))).

(** [VisitCases]: suite.h 205-214. *)
Fixpoint visit_cases (p : path) (cs : list (name * body)) (w : world) : outcome world :=
  match cs with
  | [] => Done w
  | (n, b) :: cs => let! w := run_case (p, n) b w in visit_cases p cs w
  end.

(** [RunSuite]: runner.h 284-294; [VisitSuites]: suite.h 216-225. *)
Fixpoint run_suite (p : path) (s : suite) (w : world) : outcome world :=
  let '(Suite cs ss) := s in
  let! w := (if w_stop w then Done w else visit_cases p cs w) in
  if w_stop w then Done w
  else
    (fix visit_suites (ss : list (name * suite)) (w : world) : outcome world :=
       match ss with
       | [] => Done w
       | (n, s') :: ss => let! w := run_suite (p ++ [n]) s' w in visit_suites ss w
       end) ss w.

(** [Case::GetNumberOfFailures]: case.h 109-112; [Suite::GetNumberOfFailures]: suite.h 169-181. *)
Definition owner_eqb (h h' : path * name) : bool := path_eqb (fst h) (fst h') && (snd h =? snd h').
Definition case_failures (w : world) (h : path * name) : nat :=
  length (filter (fun x => owner_eqb (fst x) h) (w_results w)).
Fixpoint suite_failures (w : world) (p : path) (s : suite) : nat :=
  let '(Suite cs ss) := s in
  fold_right (fun c n => case_failures w (p, fst c) + n)%nat 0%nat cs
  + fold_right (fun x n => suite_failures w (p ++ [fst x]) (snd x) + n)%nat 0%nat ss.

(** [ShowSummary]: runner.h 252-281. *)
Definition show_summary (w : world) : world :=
  write w ((if w_stop w then [LStopped] else []) ++ [LTotal (suite_failures w [] (w_root w))]).

(** "Test started:". *)
Definition started : N := 0.

(** [Run]: runner.h 114-124. *)
Definition run (w : world) : outcome world :=
  let w := mkWorld (w_root w) (w_user w) (w_stop w) (w_active w) (w_results w)
             (num_cases (w_root w)) 0 1 [] (w_sinks w) in
  let w := write w [LText started] in
  let! w := run_suite [] (w_root w) w in
  Done (show_summary w).

(** ** Programs *)

Inductive op :=
| OSuite (p : path) (n : name)
| OCase (p : path) (n : name) (b : body)
| OSink
| ORun
| OCheck (lv : level) (lineno : N) (ev : S -> bool * S)
| OMessage (m : N).

Definition step (o : op) (w : world) : outcome world :=
  match o with
  | OSuite p n => match at_path p (add_suite n) (w_root w) with Some r => Done (set_root w r) | None => UB end
  | OCase p n b => match at_path p (add_case n b) (w_root w) with Some r => Done (set_root w r) | None => UB end
  | OSink =>
      Done (mkWorld (w_root w) (w_user w) (w_stop w) (w_active w) (w_results w)
              (w_ncases w) (w_tested w) (w_next w) (w_prev w) (w_sinks w ++ [[]]))
  | ORun => run w
  | OCheck lv l ev => check w lv l ev
  | OMessage m => Done (write w [LText m])
  end.

Fixpoint steps (os : list op) (w : world) : outcome world :=
  match os with
  | [] => Done w
  | o :: os => let! w := step o w in steps os w
  end.
End Tests.
