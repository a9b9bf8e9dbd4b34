(** Lemmas about log statements. *)
From Coq Require Import NArith String Ascii.
From Verif Require Import Base LogSite LogSiteSpec.
From Coq Require Import List Lia.
Import ListNotations.
Open Scope string_scope.
Open Scope list_scope.

Lemma append_assoc a b c : ((a ++ b) ++ c)%string = (a ++ (b ++ c))%string.
Proof. induction a as [|x a IH]; cbn; congruence. Qed.
Lemma append_nil a : (a ++ "")%string = a.
Proof. induction a as [|x a IH]; cbn; congruence. Qed.

Section Program.
Context {S L : Type} (vars : string -> S -> string) (enabled : L -> S -> bool)
  (fire : L -> record -> S -> S * bool).

Lemma inner_outer text x s : x <> "go" -> x <> "oss" -> inner vars text x s = vars x s.
Proof using.
  intros H1 H2. unfold inner. apply String.eqb_neq in H1, H2. rewrite H1, H2. reflexivity.
Qed.

Lemma stream_evaluates s ops s' u : evaluates vars s ops s' u -> no_capture ops ->
  forall text, stream vars ops text s = (s', Some (text ++ u)%string).
Proof using.
  induction 1 as [s|s t r s' u _ IH|s x r s' u _ IH|s f r s1 t s' u Hf _ IH]; intros Hn text;
    cbn [stream].
  - rewrite append_nil. reflexivity.
  - rewrite IH, append_assoc; [reflexivity|]. intros y Hy. apply Hn. right. exact Hy.
  - destruct (Hn x (or_introl eq_refl)). rewrite inner_outer by assumption.
    rewrite IH, append_assoc; [reflexivity|]. intros y Hy. apply Hn. right. exact Hy.
  - rewrite Hf, IH, append_assoc; [reflexivity|]. intros y Hy. apply Hn. right. exact Hy.
Qed.

Lemma stream_throws s ops s' : throws s ops s' ->
  forall text, stream vars ops text s = (s', None).
Proof using.
  induction 1 as [s t r s' _ IH|s x r s' _ IH|s f r s1 t s' Hf _ IH|s f r s1 Hf]; intros text;
    cbn [stream]; try apply IH; rewrite Hf; [apply IH|reflexivity].
Qed.

Lemma evaluates_or_throws ops : forall s,
  (exists s' u, evaluates vars s ops s' u) \/ (exists s', throws s ops s').
Proof using.
  induction ops as [|[t|x|f] r IH]; intros s.
  - left. eexists _, _. constructor.
  - destruct (IH s) as [(s' & u & H)|(s' & H)]; [left|right].
    + eexists _, _. apply ev_text. exact H.
    + eexists. apply th_text. exact H.
  - destruct (IH s) as [(s' & u & H)|(s' & H)]; [left|right].
    + eexists _, _. apply ev_name. exact H.
    + eexists. apply th_name. exact H.
  - destruct (f s) as [s1 [t|]] eqn:E.
    + destruct (IH s1) as [(s' & u & H)|(s' & H)]; [left|right].
      * eexists _, _. eapply ev_call; [exact E|exact H].
      * eexists. eapply th_call; [exact E|exact H].
    + right. eexists. apply th_here. exact E.
Qed.
End Program.

(** The record made of a message. *)
Definition made (cfg : config) (sev : option N) (msg : string) (pl : place) : option record :=
  match sev with
  | None => make_record cfg msg pl
  | Some n => make_record_severity cfg n msg pl
  end.

Lemma made_record cfg sev msg pl : compiles cfg ->
  exists r, made cfg sev msg pl = Some r /\ is_record cfg msg sev pl r.
Proof.
  intros [Hf Hg]. unfold made, make_record_severity, make_record, is_record. rewrite Hf, Hg.
  cbn [orb].
  assert (D : forall n, ~ In n ["LogMessage"; "LogSeverity"; "LogLine"; "LogFunction"; "LogFile"] ->
    ("LogMessage" =? n) = false /\ ("LogLine" =? n) = false /\ ("LogSeverity" =? n) = false).
  { intros n H. repeat split; apply String.eqb_neq; intros <-; apply H; cbn; auto. }
  destruct sev as [n|], (with_line cfg) eqn:El;
    [exists [("LogMessage", FText msg); ("LogLine", FLine (pl_line pl)); ("LogSeverity", FSeverity n)]
    |exists [("LogMessage", FText msg); ("LogSeverity", FSeverity n)]
    |exists [("LogMessage", FText msg); ("LogLine", FLine (pl_line pl))]
    |exists [("LogMessage", FText msg)]];
    (split; [reflexivity|]);
    repeat (split; [reflexivity|]); intros m Hm; destruct (D m Hm) as (D1 & D2 & D3);
    cbn [value]; rewrite ?D1, ?D2, ?D3; reflexivity.
Qed.

Lemma made_none cfg sev msg pl : ~ compiles cfg -> made cfg sev msg pl = None.
Proof.
  intros H. unfold made, make_record_severity, make_record, compiles in *.
  destruct (with_function cfg), (with_file cfg); cbn [orb]; try (destruct sev; reflexivity).
  exfalso. auto.
Qed.

Lemma c_string_all s : ~ has_nul s -> c_string s = s.
Proof.
  unfold has_nul. induction s as [|c s IH]; cbn; [reflexivity|]. intros H.
  destruct (Ascii.eqb_spec c zero) as [->|Hc]; [exfalso; auto|]. rewrite IH by tauto. reflexivity.
Qed.
