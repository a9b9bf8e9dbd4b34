(** Log statements (C89). *)
From Coq Require Import NArith String Ascii.
From Verif Require Import Base LogSite LogSiteSpec LogSiteProofs.
From Coq Require Import List Lia.
Import ListNotations.
Open Scope string_scope.
Open Scope list_scope.

Section Program.
Context {S L : Type} (vars : string -> S -> string) (enabled : L -> S -> bool)
  (fire : L -> record -> S -> S * bool).

(** While the logger is disabled, a statement does nothing: no operand is
    evaluated, no record is made, whatever program it is in. *)
Theorem C89_disabled : forall cfg ty (logger : S -> L) sev ops pl s,
  compiles cfg -> ty <> OtherType -> enabled (logger s) s = false ->
  log_site vars enabled fire cfg ty logger sev ops pl s = Some (Completed s).
Proof using.
  intros cfg ty logger sev ops pl s Hc Ht He. unfold log_site. cbv zeta.
  assert (M : exists r, match sev with
    | None => make_record cfg "" pl | Some n => make_record_severity cfg (n s) "" pl end = Some r).
  { destruct sev as [n|]; [destruct (made_record cfg (Some (n s)) "" pl Hc) as (r & E & _)
                          |destruct (made_record cfg None "" pl Hc) as (r & E & _)]; exists r; exact E. }
  destruct M as [r ->].
  destruct ty; cbn [is_enabled]; [rewrite He; reflexivity|rewrite He; reflexivity|congruence].
Qed.

(** While it is enabled, all operands are evaluated, once each, from left to
    right; then one record is fired, which has their texts as its message, the
    severity of the statement, the line if configured, and nothing else. *)
Theorem C89_enabled : forall cfg ty (logger : S -> L) sev ops pl s s' msg,
  compiles cfg -> (ty <> OtherType -> enabled (logger s) s = true) -> no_capture ops ->
  evaluates vars s ops s' msg ->
  exists r, is_record cfg msg (match sev with Some n => Some (n s') | None => None end) pl r /\
    log_site vars enabled fire cfg ty logger sev ops pl s =
    Some (match fire (logger s') r s' with
          | (s'', false) => Completed s'' | (s'', true) => Escaped s'' end).
Proof using.
  intros cfg ty logger sev ops pl s s' msg Hc He Hn Ev.
  pose proof (stream_evaluates vars s ops s' msg Ev Hn "") as St. cbn [append] in St.
  assert (E1 : is_enabled enabled ty (logger s) s = true)
    by (destruct ty; cbn [is_enabled]; auto; apply He; discriminate).
  unfold log_site, commit. cbv zeta. rewrite E1, St.
  destruct sev as [n|].
  - destruct (made_record cfg (Some (n s)) "" pl Hc) as (r0 & E0 & _). cbn [made] in E0. rewrite E0.
    destruct (made_record cfg (Some (n s')) msg pl Hc) as (r & E & R). cbn [made] in E. rewrite E.
    exists r. auto.
  - destruct (made_record cfg None "" pl Hc) as (r0 & E0 & _). cbn [made] in E0. rewrite E0.
    destruct (made_record cfg None msg pl Hc) as (r & E & R). cbn [made] in E. rewrite E.
    exists r. auto.
Qed.

(** If an operand throws, the exception leaves the statement and nothing is fired. *)
Theorem C89_operand_throws : forall cfg ty (logger : S -> L) sev ops pl s s',
  compiles cfg -> (ty <> OtherType -> enabled (logger s) s = true) -> throws s ops s' ->
  log_site vars enabled fire cfg ty logger sev ops pl s = Some (Escaped s').
Proof using.
  intros cfg ty logger sev ops pl s s' Hc He Th.
  assert (E1 : is_enabled enabled ty (logger s) s = true)
    by (destruct ty; cbn [is_enabled]; auto; apply He; discriminate).
  unfold log_site. cbv zeta. rewrite E1, (stream_throws vars s ops s' Th "").
  destruct sev as [n|].
  - destruct (made_record cfg (Some (n s)) "" pl Hc) as (r0 & E0 & _). cbn [made] in E0. rewrite E0. reflexivity.
  - destruct (made_record cfg None "" pl Hc) as (r0 & E0 & _). cbn [made] in E0. rewrite E0. reflexivity.
Qed.

(** These are all cases. *)
Theorem C89_cases : forall ops s,
  (exists s' msg, evaluates vars s ops s' msg) \/ (exists s', throws s ops s').
Proof using. intros ops s. apply evaluates_or_throws. Qed.

(** Recording the names of functions or files does not compile. *)
Theorem C89_names_refuted : forall cfg ty (logger : S -> L) sev ops pl s,
  with_function cfg = true \/ with_file cfg = true ->
  log_site vars enabled fire cfg ty logger sev ops pl s = None.
Proof using.
  intros cfg ty logger sev ops pl s H. unfold log_site. cbv zeta.
  assert (Hc : ~ compiles cfg) by (intros [H1 H2]; destruct H; congruence).
  destruct sev as [n|].
  - pose proof (made_none cfg (Some (n s)) "" pl Hc) as E. cbn [made] in E. rewrite E. reflexivity.
  - pose proof (made_none cfg None "" pl Hc) as E. cbn [made] in E. rewrite E. reflexivity.
Qed.
End Program.
Print Assumptions C89_disabled.
Print Assumptions C89_enabled.
Print Assumptions C89_operand_throws.
Print Assumptions C89_cases.
Print Assumptions C89_names_refuted.

(** A program for the examples: a counter, one of two sinks is enabled, and all
    that was fired. *)
Record demo := mk_demo { counter : N; current : bool; on : bool; out : list (bool * record) }.
Definition demo_vars (x : string) (s : demo) : string := if x =? "go" then "yes" else "?".
Definition demo_enabled (l : bool) (s : demo) : bool := Bool.eqb l (on s).
Definition demo_fire (l : bool) (r : record) (s : demo) : demo * bool :=
  (mk_demo (counter s) (current s) (on s) (out s ++ [(l, r)]), false).
Definition count_call : operand demo :=
  OCall (fun s => (mk_demo (counter s + 1) (current s) (on s) (out s), Some "tick")).
Definition no_names : config := mk_config false false true.
Definition here : place := mk_place "f" "a.cpp" 42.

(** Disabled and enabled. *)
Example C89_disabled_ex :
  let s := mk_demo 0 false true [] in
  compiles no_names /\ demo_enabled (current s) s = false /\
  log_site demo_vars demo_enabled demo_fire no_names ExPtr current None [count_call] here s
  = Some (Completed s).
Proof. repeat split. Qed.

Example C89_enabled_ex :
  let s := mk_demo 0 true true [] in
  compiles no_names /\ demo_enabled (current s) s = true /\
  no_capture [OText "a "; count_call] /\
  evaluates demo_vars s [OText "a "; count_call] (mk_demo 1 true true []) "a tick" /\
  log_site demo_vars demo_enabled demo_fire no_names ExPtr current (Some (fun _ => LOG_WARN))
    [OText "a "; count_call] here s
  = Some (Completed (mk_demo 1 true true
      [(true, [("LogMessage", FText "a tick"); ("LogLine", FLine 42); ("LogSeverity", FSeverity 4)])])).
Proof.
  cbv zeta. split; [split; reflexivity|]. split; [reflexivity|]. split; [|split; [|reflexivity]].
  - intros x [H|[H|[]]]; discriminate.
  - change "a tick" with ("a " ++ ("tick" ++ ""))%string.
    apply ev_text. eapply ev_call; [reflexivity|]. constructor.
Qed.

Example C89_operand_throws_ex :
  let s := mk_demo 0 true true [] in
  let bad : operand demo := OCall (fun s => (s, None)) in
  throws s [count_call; bad; count_call] (mk_demo 1 true true []) /\
  log_site demo_vars demo_enabled demo_fire no_names ExPtr current None
    [count_call; bad; count_call] here s = Some (Escaped (mk_demo 1 true true [])).
Proof.
  cbv zeta. split; [|reflexivity]. eapply th_call; [reflexivity|]. apply th_here. reflexivity.
Qed.

(** A logger expression of another type, such as a constant pointer to the same
    sink, is not asked whether it is enabled: the operands are evaluated and a
    record is fired although the logger is disabled. *)
Theorem C89_other_type_refuted : exists s s' r,
  demo_enabled (current s) s = false /\ counter s' <> counter s /\ out s' = [(current s, r)] /\
  log_site demo_vars demo_enabled demo_fire no_names OtherType current None [count_call] here s
  = Some (Completed s').
Proof.
  exists (mk_demo 0 false true []). eexists _, _. split; [reflexivity|].
  split; [|split; [|reflexivity]]; [discriminate|reflexivity].
Qed.
Print Assumptions C89_other_type_refuted.

(** A variable of the program that is called [go] is not what is written. *)
Theorem C89_capture_refuted : exists s msg r,
  evaluates demo_vars s [OName "go"] s msg /\
  log_site demo_vars demo_enabled demo_fire no_names ExPtr current None [OName "go"] here s
  = Some (Completed (mk_demo 0 true true [(true, r)])) /\
  value "LogMessage" r <> Some (FText msg).
Proof.
  exists (mk_demo 0 true true []), "yes", [("LogMessage", FText "1"); ("LogLine", FLine 42)].
  split; [|split; [reflexivity|discriminate]].
  change "yes" with ("yes" ++ "")%string. apply (ev_name demo_vars _ "go"). constructor.
Qed.
Print Assumptions C89_capture_refuted.

(** The sink that gets the record need not be the one that was asked: operands can
    change the logger, so that a disabled sink gets a record. *)
Theorem C89_same_sink_refuted : exists s s' ops r,
  demo_enabled (current s) s = true /\
  log_site demo_vars demo_enabled demo_fire no_names ExPtr current None ops here s
  = Some (Completed s') /\
  out s' = [(current s', r)] /\ demo_enabled (current s') s' = false.
Proof.
  exists (mk_demo 0 true true []). eexists _.
  exists [OCall (fun s => (mk_demo (counter s) false (on s) (out s), Some "x"))]. eexists _.
  split; [reflexivity|]. split; [reflexivity|]. split; reflexivity.
Qed.
Print Assumptions C89_same_sink_refuted.

(** Reading the message: what is read is what was written, if there is no NUL. *)
Theorem C89_message : forall msg, ~ has_nul msg -> c_string msg = msg.
Proof. exact c_string_all. Qed.
Print Assumptions C89_message.

Example C89_message_ex : ~ has_nul "queue full" /\ c_string "queue full" = "queue full".
Proof.
  split; [|reflexivity]. unfold has_nul. cbn. intros H.
  repeat (destruct H as [H|H]; [discriminate|]). exact H.
Qed.

Theorem C89_message_nul_refuted : exists msg, c_string msg <> msg.
Proof. exists (String "a" (String zero (String "b" EmptyString))). discriminate. Qed.
Print Assumptions C89_message_nul_refuted.

(** The labels of the levels differ; other values have none. *)
Theorem C89_labels : forall n m,
  (forall t, severity_label n = Done t -> severity_label m = Done t -> n = m) /\
  ((exists t, severity_label n = Done t) <->
   In n [LOG_FATAL; LOG_ERROR; LOG_WARN; LOG_INFO; LOG_DEBUG; LOG_TRACE]) /\
  ((forall t, severity_label n <> Done t) -> severity_label n = Throw InvalidArgument).
Proof.
  intros n m.
  assert (C : forall k, (k = 1 \/ k = 2 \/ k = 4 \/ k = 8 \/ k = 16 \/ k = 32)%N \/
              (k <> 1 /\ k <> 2 /\ k <> 4 /\ k <> 8 /\ k <> 16 /\ k <> 32)%N) by (intros; lia).
  assert (N : forall k, (k <> 1 /\ k <> 2 /\ k <> 4 /\ k <> 8 /\ k <> 16 /\ k <> 32)%N ->
              severity_label k = Throw InvalidArgument).
  { intros k (H1 & H2 & H3 & H4 & H5 & H6). unfold severity_label.
    apply N.eqb_neq in H1, H2, H3, H4, H5, H6.
    unfold LOG_FATAL, LOG_ERROR, LOG_WARN, LOG_DEBUG, LOG_INFO, LOG_TRACE.
    rewrite H1, H2, H3, H4, H5, H6. reflexivity. }
  split; [|split].
  - intros t. destruct (C n) as [Hn|Hn]; [|rewrite (N n Hn); discriminate].
    destruct (C m) as [Hm|Hm]; [|rewrite (N m Hm); discriminate].
    intuition subst; cbn in *; congruence.
  - destruct (C n) as [Hn|Hn].
    + unfold LOG_FATAL, LOG_ERROR, LOG_WARN, LOG_DEBUG, LOG_INFO, LOG_TRACE. cbn [In].
      split; [intros _; intuition congruence|]. intros _.
      destruct Hn as [->|[->|[->|[->|[->| ->]]]]]; eexists; reflexivity.
    + rewrite (N n Hn). split; [intros [t H]; discriminate|].
      cbn [In]. unfold LOG_FATAL, LOG_ERROR, LOG_WARN, LOG_DEBUG, LOG_INFO, LOG_TRACE.
      intuition congruence.
  - intros H. destruct (C n) as [Hn|Hn]; [|exact (N n Hn)]. exfalso.
    destruct Hn as [->|[->|[->|[->|[->| ->]]]]]; eapply H; reflexivity.
Qed.
Print Assumptions C89_labels.

Example C89_labels_ex : severity_label LOG_INFO = Done "INFO" /\
  severity_label LOG_ALL = Throw InvalidArgument /\ severity_label LOG_NONE = Throw InvalidArgument.
Proof. repeat split. Qed.
