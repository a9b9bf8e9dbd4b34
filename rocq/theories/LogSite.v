(** Model of log statements: the macros of log/log-tool.h, [IsLogSinkEnabled] of
    log/i-log.h, and the labels of log/log-severity.h.

    The program around the statement is a parameter: its states, what its
    expressions evaluate to, and what its log sinks do.  Records are the names and
    values that the macros put into them; how records are shared is in
    LogRecord.v, what loggers do with them in Log.v. *)
From Coq Require Import NArith String Ascii.
From Verif Require Import Base.
From Coq Require Import List.
Import ListNotations.
Open Scope string_scope.
Open Scope list_scope.

(** Values: [const char*] (make-log-value.h 80-101; with the characters of the
    [std::string] that is stored), [LogSeverity], [uint32_t]
    (std-log-value-traits.h 34-66). *)
Inductive field := FText (s : string) | FSeverity (n : N) | FLine (n : N).
Definition record := list (string * field).

(** [LogRecord::Add]: log-record.h 96-100, an existing name is kept. *)
Definition add (n : string) (v : field) (r : record) : record :=
  if existsb (fun p => fst p =? n) r then r else r ++ [(n, v)].

(** What a reader of a [const char*] sees of the characters at [c_str()]
    (make-log-value.h 94-97): those before the first NUL. *)
Fixpoint c_string (s : string) : string :=
  match s with
  | EmptyString => EmptyString
  | String c r => if Ascii.eqb c zero then EmptyString else String c (c_string r)
  end.

(** The compilation flags (log-tool.h 47-60). *)
Record config := mk_config { with_function : bool; with_file : bool; with_line : bool }.

(** The place of the statement: [__FUNCTION__], [__FILE__], [__LINE__]. *)
Record place := mk_place { pl_function : string; pl_file : string; pl_line : N }.

(** log-tool.h 36-63, [MakeLogRecord].  [None]: the code does not compile, since
    [aux::MakeConstantLogValueC] (lines 49, 54) is declared nowhere. *)
Definition make_record (cfg : config) (msg : string) (pl : place) : option record :=
  if with_function cfg || with_file cfg then None
  else
    let r := add "LogMessage" (FText msg) [] in
    Some (if with_line cfg then add "LogLine" (FLine (pl_line pl)) r else r).

(** log-tool.h 71-85, [MakeLogRecordWithSeverity]. *)
Definition make_record_severity (cfg : config) (sev : N) (msg : string) (pl : place)
  : option record :=
  match make_record cfg msg pl with
  | Some r => Some (add "LogSeverity" (FSeverity sev) r)
  | None => None
  end.

(** The type of the logger expression: the two for which [MakeLogSinkTag] is
    specialised (i-log.h 167-177), or any other one (161-165), for example
    [const Ptr<ILogEventSinkEx>] or a pointer to a class of loggers. *)
Inductive sink_type := ExPtr | ExPointer | OtherType.

(** What an operand of the statement is: a text, a variable or a call of the
    program's code. *)
Inductive operand (S : Type) :=
| OText (t : string)
| OName (x : string)
| OCall (f : S -> S * option string).     (* None: an exception leaves the call *)
Arguments OText {S}. Arguments OName {S}. Arguments OCall {S}.

Section Program.
(** States, sinks; what a variable prints; whether a sink is enabled; what a sink
    does with a record, and whether it throws. *)
Context {S L : Type} (vars : string -> S -> string) (enabled : L -> S -> bool)
  (fire : L -> record -> S -> S * bool).

Inductive finish := Completed (s : S) | Escaped (s : S).

(** i-log.h 180-201, [IsLogSinkEnabled]. *)
Definition is_enabled (ty : sink_type) (l : L) (s : S) : bool :=
  match ty with ExPtr | ExPointer => enabled l s | OtherType => true end.

(** A variable inside the loops of the macro: [go] and [oss] are those of the macro
    (log-tool.h 114-115).  [oss] is taken to mean its text so far. *)
Definition inner (text : string) (x : string) (s : S) : string :=
  if x =? "go" then "1" else if x =? "oss" then text else vars x s.

(** [oss << a << b ...]: the operands from left to right. *)
Fixpoint stream (ops : list (operand S)) (text : string) (s : S) : S * option string :=
  match ops with
  | [] => (s, Some text)
  | OText t :: r => stream r (text ++ t)%string s
  | OName x :: r => stream r (text ++ inner text x s)%string s
  | OCall f :: r =>
      match f s with
      | (s, Some t) => stream r (text ++ t)%string s
      | (s, None) => (s, None)
      end
  end.

(** log-tool.h 93-97, [CommitLogRecord]. *)
Definition commit (l : L) (r : record) (s : S) : finish :=
  match fire l r s with
  | (s, false) => Completed s
  | (s, true) => Escaped s
  end.

(** log-tool.h 113-123, [NSFX_LOG(logger) << ops], and 135-146, [NSFX_LOG_LEVEL]:
    [sev] is [None] for the first.  The logger expression is evaluated twice,
    before the operands and after them; the severity after them.  The loops run
    at most once, since both end with [go = false].  [None]: does not compile. *)
Definition log_site (cfg : config) (ty : sink_type) (logger : S -> L) (sev : option (S -> N))
    (ops : list (operand S)) (pl : place) (s : S) : option finish :=
  let make msg s := match sev with
                    | None => make_record cfg msg pl
                    | Some n => make_record_severity cfg (n s) msg pl
                    end in
  match make EmptyString s with
  | None => None
  | Some _ =>
      if is_enabled ty (logger s) s then
        match stream ops EmptyString s with
        | (s, None) => Some (Escaped s)
        | (s, Some msg) =>
            match make msg s with
            | None => None
            | Some r => Some (commit (logger s) r s)
            end
        end
      else Some (Completed s)
  end.
End Program.

(** log-severity.h 33-87 and 91-129: the levels and their labels. *)
Definition LOG_FATAL : N := 1.
Definition LOG_ERROR : N := 2.
Definition LOG_WARN : N := 4.
Definition LOG_INFO : N := 8.
Definition LOG_DEBUG : N := 16.
Definition LOG_TRACE : N := 32.
Definition LOG_NONE : N := 0.
Definition LOG_ALL : N := 4294967295.
Definition severity_label (n : N) : outcome string :=
  if (n =? LOG_FATAL)%N then Done "FATAL"
  else if (n =? LOG_ERROR)%N then Done "ERROR"
  else if (n =? LOG_WARN)%N then Done "WARN"
  else if (n =? LOG_DEBUG)%N then Done "DEBUG"
  else if (n =? LOG_INFO)%N then Done "INFO"
  else if (n =? LOG_TRACE)%N then Done "TRACE"
  else Throw InvalidArgument.
