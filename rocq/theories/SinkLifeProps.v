(** Properties of the lifetimes of event sinks (C80). *)
From Verif Require Import Base Event SinkLife SinkLifeSpec SinkLifeProofs.
Local Open Scope N_scope.

(** A program for the examples: an event with room for 4 whose sinks 0 and 1
    are made in the call of [Connect]; a third sink is kept by the user.  Sink 0
    disconnects itself, without using itself after that; sink 1 makes a sink; the
    others keep themselves alive and disconnect themselves. *)
Definition ex_h : behaviour := fun l e c s =>
  match s with
  | 0%nat => [SUse; SDisconnect e c]
  | 1%nat => [SUse; SNew]
  | _ => [SSelf; SDisconnect e c; SUse]
  end.

Definition ex_ops : list op :=
  [SEvent 4; SConnectNew 0; SConnectNew 0; SNew; SConnect 0 2; SFire false 0; SFire false 0;
   SHandleNew; SFire false 1; SDestroy 0].

(** *** C80 — lifetimes *)

(** At every point of every program, whatever the sinks do: a sink that was made
    is destroyed if and only if nobody refers to it: no smart pointer of user
    code, and no event or handle that it is connected to. *)
Theorem C80_lifetime : forall fuel h ops s,
  let l := w_log (fst (run fuel h ops)) in
  In (HNew s) l -> (In (HDead s) l <-> ~ referenced l s).
Proof. intros fuel h ops s l. apply dead_iff, run_inv. Qed.
Print Assumptions C80_lifetime.

Example C80_lifetime_ex :
  let l := w_log (fst (run 20 ex_h ex_ops)) in
  In (HNew 0) l /\ In (HDead 0) l /\ In (HNew 2) l /\ ~ In (HDead 2) l /\ referenced l 2.
Proof.
  vm_compute. repeat split; auto 20; try (left; lia).
  intros H. repeat (destruct H as [H|H]; [discriminate|]). exact H.
Qed.

(** Nobody refers to a sink that does not exist, or not any more. *)
Theorem C80_referenced_exists : forall fuel h ops s,
  let l := w_log (fst (run fuel h ops)) in
  referenced l s -> In (HNew s) l /\ ~ In (HDead s) l.
Proof. intros fuel h ops s l. apply referenced_new, run_inv. Qed.
Print Assumptions C80_referenced_exists.

(** Only connected sinks that exist are called, sinks that use themselves
    exist, each sink is made once and destroyed at most once, after that. *)
Theorem C80_events_in_order : forall fuel h ops, log_ok (w_log (fst (run fuel h ops))).
Proof. intros fuel h ops. apply (v_log _ _ (run_inv h fuel ops)). Qed.
Print Assumptions C80_events_in_order.

Example C80_events_in_order_ex :
  w_log (fst (run 20 ex_h ex_ops)) =
  [HTable 0; HNew 0; HConn 0 1 0; HNew 1; HConn 0 2 1; HNew 2; HHold 2; HConn 0 3 2;
   HCall 0 1 0; HUse 0; HDisc 0 1; HDead 0; HCall 0 2 1; HUse 1; HNew 3; HHold 3;
   HCall 0 3 2; HHold 2; HDisc 0 3; HUse 2;
   HCall 0 2 1; HUse 1; HNew 4; HHold 4;
   HNew 5; HTable 1; HConn 1 1 5; HCall 1 1 5; HHold 5; HDisc 1 1; HUse 5; HDisc 1 1;
   HEnd 0; HDead 1] /\
  snd (run 20 ex_h ex_ops) = Ok.
Proof. vm_compute. auto. Qed.

(** Nothing is left over: once user code gave up its smart pointers and the
    events and handles are destroyed, so are all sinks. *)
Theorem C80_no_leak : forall fuel h ops,
  let l := w_log (fst (run fuel h ops)) in
  (forall s, holds l s = drops l s) -> (forall e, In (HTable e) l -> In (HEnd e) l) ->
  forall s, In (HNew s) l -> In (HDead s) l.
Proof.
  intros fuel h ops l Hh He s Hn. pose proof (run_inv h fuel ops) as H. apply (dead_iff _ _ H Hn).
  intros [Hd|(e & c & Hin)]; [specialize (Hh s); unfold l in *; lia|].
  destruct (conns_table _ _ _ _ H Hin) as [H1 H2]. apply H2, He, H1.
Qed.
Print Assumptions C80_no_leak.

Example C80_no_leak_ex :
  let r := run 20 ex_h [SEvent 4; SConnectNew 0; SNew; SConnect 0 1; SFire false 0; SDrop 1; SDrop 2; SDestroy 0] in
  snd r = Ok /\
  w_log (fst r) = [HTable 0; HNew 0; HConn 0 1 0; HNew 1; HHold 1; HConn 0 2 1;
    HCall 0 1 0; HUse 0; HDisc 0 1; HDead 0; HCall 0 2 1; HUse 1; HNew 2; HHold 2;
    HDrop 1; HDrop 2; HDead 2; HEnd 0; HDead 1].
Proof. vm_compute. auto. Qed.

(** *** Undefined behaviour *)

(** The only ways: a destroyed sink goes on to use itself; an event or handle is
    used that is destroyed (possibly by a sink while it fires) or never existed;
    [Fire] with arguments (see C11). Reference counts never go wrong. *)
Theorem C80_undefined_only : forall fuel h ops u,
  snd (run fuel h ops) = Undef u ->
  let l := w_log (fst (run fuel h ops)) in
  match u with
  | UUse s => In (HDead s) l
  | UTable e => In (HEnd e) l \/ ~ In (HTable e) l
  | UNull e => ~ everywhere plain_fire h ops
  | UCount _ => False
  end.
Proof.
  intros fuel h ops u Hu l.
  pose proof (g_cause _ _ _ (run_ok (fun _ => True) h fuel ops (fun _ _ _ _ _ _ => I) (fun _ _ => I))) as Hc.
  rewrite Hu in Hc. destruct u as [s|e|e|s]; try exact Hc.
  intros [H1 H2]. pose proof (g_cause _ _ _ (run_ok plain_fire h fuel ops H2 H1)) as Hp.
  rewrite Hu in Hp. discriminate.
Qed.
Print Assumptions C80_undefined_only.

(** Each of the three happens. *)
Example C80_undefined_only_ex :
  snd (run 10 (fun l e c s => [SDisconnect e c; SUse]) [SEvent 4; SConnectNew 0; SFire false 0]) = Undef (UUse 0) /\
  snd (run 10 ex_h [SEvent 4; SDestroy 0; SConnectNew 0]) = Undef (UTable 0) /\
  snd (run 10 (fun l e c s => [SDisconnect e 2]) [SEvent 4; SConnectNew 0; SConnectNew 0; SFire true 0]) = Undef (UNull 0).
Proof. vm_compute. auto. Qed.

(** Sinks that begin with a smart pointer to themselves, and no sink that gives up
    pointers: then no destroyed sink is used, whatever is done outside of sinks,
    and whatever else the sinks do: disconnect themselves and each other, cancel
    the handle that calls them, fire again, destroy events. *)
Theorem C80_self_pointer_safe : forall fuel h ops s,
  keeps_itself h -> snd (run fuel h ops) <> Undef (UUse s).
Proof. intros fuel h ops s Hk. now apply run_safe. Qed.
Print Assumptions C80_self_pointer_safe.

(** If moreover events and handles stay, and [Fire] has no arguments, a program
    has undefined behaviour only by naming an event that it did not create. *)
Theorem C80_self_pointer_defined : forall fuel h ops u,
  keeps_itself h -> everywhere (fun o => not_destroy o /\ plain_fire o) h ops ->
  snd (run fuel h ops) = Undef u ->
  exists e, u = UTable e /\ ~ In (HTable e) (w_log (fst (run fuel h ops))).
Proof. intros. now apply self_safe. Qed.
Print Assumptions C80_self_pointer_defined.

(** Sinks that disconnect or cancel themselves, each other, and fire again. *)
Definition self_h : behaviour := fun l e c s =>
  SSelf :: SDisconnect e c :: (if (length l <? 40)%nat then [SFire false e; SConnect e s] else []) ++ [SUse].

Definition self_ops : list op :=
  [SEvent 3; SConnectNew 0; SConnectNew 0; SConnectNew 0; SFire false 0; SHandleNew; SFire false 1].

Lemma self_keeps : keeps_itself self_h.
Proof.
  intros l e c s. unfold self_h. split.
  - intros x. destruct (length l <? 40)%nat; cbn; intros H; repeat (destruct H as [H|H]; [discriminate|]); exact H.
  - intros _. eauto.
Qed.

Example C80_self_pointer_ex :
  keeps_itself self_h /\ everywhere (fun o => not_destroy o /\ plain_fire o) self_h self_ops /\
  snd (run 30 self_h self_ops) = Ok /\
  In (HUse 0) (w_log (fst (run 30 self_h self_ops))) /\ In (HDisc 0 1) (w_log (fst (run 30 self_h self_ops))) /\
  snd (run 30 self_h (self_ops ++ [SFire false 7])) = Undef (UTable 7).
Proof.
  split; [exact self_keeps|]. split.
  { split.
    - intros o H. cbn in H. repeat (destruct H as [<-|H]; [split; exact I || reflexivity|]). destruct H.
    - intros l e c s o H. unfold self_h in H. destruct (length l <? 40)%nat; cbn in H;
        repeat (destruct H as [<-|H]; [split; exact I || reflexivity|]); destruct H. }
  vm_compute. repeat split; auto 30.
Qed.

(** The same holds without such pointers if user code keeps a smart pointer to
    each sink that it makes. *)
Theorem C80_kept_defined : forall fuel h ops u,
  everywhere (fun o => keeps o /\ plain_fire o) h ops ->
  snd (run fuel h ops) = Undef u ->
  exists e, u = UTable e /\ ~ In (HTable e) (w_log (fst (run fuel h ops))).
Proof. intros. now apply kept_safe. Qed.
Print Assumptions C80_kept_defined.

Example C80_kept_ex :
  let h : behaviour := fun l e c s => [SDisconnect e c; SNew; SConnect e s; SUse] in
  let ops := [SEvent 2; SNew; SConnect 0 0; SNew; SHandle 1; SFire false 0; SFire false 1] in
  everywhere (fun o => keeps o /\ plain_fire o) h ops /\ snd (run 20 h ops) = Ok /\
  In (HUse 1) (w_log (fst (run 20 h ops))) /\
  snd (run 20 h (ops ++ [SGet 5 1])) = Undef (UTable 5).
Proof.
  split.
  { split.
    - intros o H. cbn in H. repeat (destruct H as [<-|H]; [split; exact I || reflexivity|]). destruct H.
    - intros l e c s o H. cbn in H. repeat (destruct H as [<-|H]; [split; exact I || reflexivity|]). destruct H. }
  vm_compute. repeat split; auto 30.
Qed.

(** *** The same without care *)

(** A sink made in the call of [Connect] that disconnects itself is destroyed
    while it runs, and what it captured with it. *)
Theorem C80_self_disconnect_refuted : exists h ops,
  everywhere (fun o => not_destroy o /\ plain_fire o) h ops /\
  (forall l e c s, h l e c s = [SDisconnect e c; SUse]) /\
  ops = [SEvent 4; SConnectNew 0; SFire false 0] /\
  snd (run 10 h ops) = Undef (UUse 0).
Proof.
  exists (fun l e c s => [SDisconnect e c; SUse]), [SEvent 4; SConnectNew 0; SFire false 0].
  split; [|vm_compute; auto]. split.
  - intros o H. cbn in H. repeat (destruct H as [<-|H]; [split; exact I || reflexivity|]). destruct H.
  - intros l e c s o H. cbn in H. repeat (destruct H as [<-|H]; [split; exact I || reflexivity|]). destruct H.
Qed.
Print Assumptions C80_self_disconnect_refuted.

(** So is the sink of an event handle that cancels its own handle. *)
Theorem C80_self_cancel_refuted : exists h ops,
  everywhere (fun o => not_destroy o /\ plain_fire o) h ops /\
  (forall l e c s, h l e c s = [SDisconnect e c; SUse]) /\
  ops = [SHandleNew; SFire false 0] /\
  snd (run 10 h ops) = Undef (UUse 0).
Proof.
  exists (fun l e c s => [SDisconnect e c; SUse]), [SHandleNew; SFire false 0].
  split; [|vm_compute; auto]. split.
  - intros o H. cbn in H. repeat (destruct H as [<-|H]; [split; exact I || reflexivity|]). destruct H.
  - intros l e c s o H. cbn in H. repeat (destruct H as [<-|H]; [split; exact I || reflexivity|]). destruct H.
Qed.
Print Assumptions C80_self_cancel_refuted.

(** A sink that destroys the event that calls it: the delivery loop goes on with
    the destroyed event. *)
Theorem C80_destroy_refuted : exists h ops,
  keeps_itself h /\ everywhere plain_fire h ops /\
  (forall l e c s, h l e c s = [SSelf; SDestroy e; SUse]) /\
  ops = [SEvent 4; SConnectNew 0; SFire false 0] /\
  snd (run 10 h ops) = Undef (UTable 0).
Proof.
  exists (fun l e c s => [SSelf; SDestroy e; SUse]), [SEvent 4; SConnectNew 0; SFire false 0].
  split; [|split; [|vm_compute; auto]].
  - intros l e c s. split; [|eauto]. intros x H. cbn in H. repeat (destruct H as [H|H]; [discriminate|]). exact H.
  - split.
    + intros o H. cbn in H. repeat (destruct H as [<-|H]; [exact I || reflexivity|]). destruct H.
    + intros l e c s o H. cbn in H. repeat (destruct H as [<-|H]; [exact I || reflexivity|]). destruct H.
Qed.
Print Assumptions C80_destroy_refuted.
