(** Vocabulary of the statements about log statements. *)
From Coq Require Import NArith String Ascii.
From Verif Require Import Base LogSite.
From Coq Require Import List.
Import ListNotations.
Open Scope string_scope.
Open Scope list_scope.

Section Program.
Context {S : Type} (vars : string -> S -> string).

(** The operands are evaluated from left to right, each once; variables mean what
    they mean where the statement is written. *)
Inductive evaluates : S -> list (operand S) -> S -> string -> Prop :=
| ev_nil s : evaluates s [] s ""
| ev_text s t r s' u : evaluates s r s' u -> evaluates s (OText t :: r) s' (t ++ u)%string
| ev_name s x r s' u : evaluates s r s' u ->
    evaluates s (OName x :: r) s' (vars x s ++ u)%string
| ev_call s f r s1 t s' u : f s = (s1, Some t) -> evaluates s1 r s' u ->
    evaluates s (OCall f :: r) s' (t ++ u)%string.

(** An operand throws; those after it are not evaluated. *)
Inductive throws : S -> list (operand S) -> S -> Prop :=
| th_text s t r s' : throws s r s' -> throws s (OText t :: r) s'
| th_name s x r s' : throws s r s' -> throws s (OName x :: r) s'
| th_call s f r s1 t s' : f s = (s1, Some t) -> throws s1 r s' -> throws s (OCall f :: r) s'
| th_here s f r s1 : f s = (s1, None) -> throws s (OCall f :: r) s1.
End Program.

(** No operand is called like the variables of the macro. *)
Definition no_capture {S} (ops : list (operand S)) : Prop :=
  forall x, In (OName x) ops -> x <> "go" /\ x <> "oss".

(** The value of a name in a record. *)
Fixpoint value (n : string) (r : record) : option field :=
  match r with
  | [] => None
  | (m, v) :: t => if m =? n then Some v else value n t
  end.

(** A record with exactly these values. *)
Definition is_record (cfg : config) (msg : string) (sev : option N) (pl : place) (r : record) : Prop :=
  value "LogMessage" r = Some (FText msg) /\
  value "LogSeverity" r = match sev with Some n => Some (FSeverity n) | None => None end /\
  value "LogLine" r = (if with_line cfg then Some (FLine (pl_line pl)) else None) /\
  value "LogFunction" r = (if with_function cfg then Some (FText (pl_function pl)) else None) /\
  value "LogFile" r = (if with_file cfg then Some (FText (pl_file pl)) else None) /\
  forall n, ~ In n ["LogMessage"; "LogSeverity"; "LogLine"; "LogFunction"; "LogFile"] ->
    value n r = None.

(** The flags with which the code compiles. *)
Definition compiles (cfg : config) : Prop := with_function cfg = false /\ with_file cfg = false.

Definition has_nul (s : string) : Prop := In zero (list_ascii_of_string s).
