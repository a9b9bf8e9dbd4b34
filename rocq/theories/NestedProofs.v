(** Lemmas about runs within runs. *)
From Coq Require Import Sorting.Sorted ZifyBool ZifyNat.
From Verif Require Import Base Sim SimSpec SimProofs Nested NestedSpec.
Open Scope Z_scope.

(** ** A principle of induction *)

(** What holds of every activity that is completed: a property [P k st st'] of
    an activity, the state it starts in and the state it ends in. *)
Section EXEC.
Context (K : kind) (p : nprogram) (P : task -> state -> state -> Prop).
Context
  (Hact : forall a st, P (TOp (Act a)) st (act (impl_of K) a st))
  (Hrej : forall o u st e, (o = Run /\ u = None) \/ (exists t, o = RunUntil t /\ u = Some t) \/
     (exists dt, o = RunFor dt /\ u = Some (s_now st + dt)) -> P (TOp o) st (log st (OReject e)))
  (Hop : forall o u st st', (o = Run /\ u = None) \/ (exists t, o = RunUntil t /\ u = Some t) \/
     (exists dt, o = RunFor dt /\ u = Some (s_now st + dt)) ->
     P (TRun u) st st' -> P (TOp o) st st')
  (Hnil : forall st, P (TOps []) st st)
  (Hcons : forall o r a b c, (exists f, exec K p f (TOp o) a = Some (Done b)) ->
     P (TOp o) a b -> P (TOps r) b c -> P (TOps (o :: r)) a c)
  (Hcall : forall src a b, P (TOps (p (s_trace a) src)) a b -> P (TCall src) a b)
  (Hempty : forall st, next_event (impl_of K) st = None -> P TNext st st)
  (Hskip : forall st t id h st', next_event (impl_of K) st = Some (t, id) ->
     nth_error (s_handles st) id = Some h -> h_sink h = None ->
     finish K (t, id) (log (set_queue st (i_during (impl_of K) (s_queue st)))
                         (OTake id (s_now st) None)) = Some (Done st') -> P TNext st st')
  (Hfire : forall st t id h s st1 st', next_event (impl_of K) st = Some (t, id) ->
     nth_error (s_handles st) id = Some h -> h_sink h = Some s ->
     (exists f, exec K p f (TCall (SSink s))
        (enter id (log (set_queue st (i_during (impl_of K) (s_queue st)))
           (OTake id (s_now st) (Some s)))) = Some (Done st1)) ->
     P (TCall (SSink s)) (enter id (log (set_queue st (i_during (impl_of K) (s_queue st)))
                         (OTake id (s_now st) (Some s)))) st1 ->
     finish K (t, id) (leave id st1) = Some (Done st') -> P TNext st st')
  (Hpaused : forall u st, s_paused st = true -> P (TLoop u) st st)
  (Hend : forall u st, s_paused st = false ->
     match next_event (impl_of K) st with
     | None => True
     | Some k => match u with Some t => t < fst k | None => False end
     end ->
     P (TLoop u) st (match u with Some t => set_now st t | None => st end))
  (Hloop : forall u st t id st1 st', s_paused st = false ->
     next_event (impl_of K) st = Some (t, id) ->
     match u with Some b => t <= b | None => True end ->
     P TNext (set_now st t) st1 -> P (TLoop u) st1 st' -> P (TLoop u) st st')
  (Hrun : forall u st st1 st2 st3 st4 st', s_init st = true -> num_events st <> 0%nat ->
     (if s_started st then st1 = st
      else P (TCall (SLife LBegin)) (log (set_started st true) (OLife LBegin)) st1) ->
     P (TCall (SLife LRun)) (log (set_paused st1 false) (OLife LRun)) st2 ->
     P (TLoop u) st2 st3 ->
     P (TCall (SLife LPause)) (log (set_paused st3 true) (OLife LPause)) st4 ->
     (if (num_events st4 =? 0)%nat then P (TCall (SLife LEnd)) (log st4 (OLife LEnd)) st'
      else st' = st4) -> P (TRun u) st st').

Lemma nbind_done m k st' : nbind m k = Some (Done st') ->
  exists st1, m = Some (Done st1) /\ k st1 = Some (Done st').
Proof using. destruct m as [[st1| | |]|]; cbn; intros E; try discriminate. eauto. Qed.

Lemma caught_done st m st' : caught st m = Some (Done st') ->
  m = Some (Done st') \/ exists e, m = Some (Throw e) /\ st' = log st (OReject e).
Proof using.
  destruct m as [[st1| | |e]|]; cbn; intros E; try discriminate; auto.
  right. exists e. split; auto. inversion E. auto.
Qed.

Lemma exec_ind : forall fuel k st st', exec K p fuel k st = Some (Done st') -> P k st st'.
Proof using All.
  induction fuel as [|f IH]; intros k st st' E; [discriminate|]. cbn [exec] in E.
  destruct k as [o|l|src| |u|u].
  - destruct o as [a| |t|dt].
    + inversion E. apply Hact.
    + destruct (caught_done _ _ _ E) as [E1|[e [E1 ->]]].
      * apply (Hop Run None); auto.
      * apply (Hrej Run None); auto.
    + destruct (caught_done _ _ _ E) as [E1|[e [E1 ->]]].
      * apply (Hop (RunUntil t) (Some t)); eauto.
      * apply (Hrej (RunUntil t) (Some t)); eauto.
    + destruct (caught_done _ _ _ E) as [E1|[e [E1 ->]]].
      * apply (Hop (RunFor dt) (Some (s_now st + dt))); eauto.
      * apply (Hrej (RunFor dt) (Some (s_now st + dt))); eauto.
  - destruct l as [|o r]; [inversion E; apply Hnil|].
    apply nbind_done in E. destruct E as [st1 [E1 E2]]. eapply Hcons; eauto.
  - apply Hcall. eauto.
  - destruct (next_event (impl_of K) st) as [[t id]|] eqn:En.
    2:{ inversion E. subst. auto. }
    cbn [snd set_queue s_handles s_now] in E.
    destruct (nth_error (s_handles st) id) as [h|] eqn:Eh; [|discriminate].
    destruct (h_sink h) as [s|] eqn:Es.
    + apply nbind_done in E. destruct E as [st1 [E1 E2]].
      eapply Hfire; eauto.
    + eapply Hskip; eauto.
  - destruct (s_paused st) eqn:Ep; [inversion E; subst; auto|].
    destruct (next_event (impl_of K) st) as [[t id]|] eqn:En.
    2:{ inversion E. apply Hend; auto. rewrite En. auto. }
    cbn [fst] in E.
    destruct u as [b|].
    + destruct (Z.ltb_spec b t).
      * inversion E. apply (Hend (Some b)); auto. rewrite En. auto.
      * apply nbind_done in E. destruct E as [st1 [E1 E2]]. eapply (Hloop (Some b)); eauto.
    + apply nbind_done in E. destruct E as [st1 [E1 E2]]. eapply (Hloop None); eauto.
  - destruct (s_init st) eqn:Ei; cbn [negb] in E; [|discriminate].
    destruct (Nat.eqb_spec (num_events st) 0); [discriminate|].
    apply nbind_done in E. destruct E as [st1 [E1 E]].
    apply nbind_done in E. destruct E as [st2 [E2 E]].
    apply nbind_done in E. destruct E as [st3 [E3 E]].
    apply nbind_done in E. destruct E as [st4 [E4 E5]].
    eapply (Hrun u st st1 st2 st3 st4); eauto.
    + destruct (s_started st); eauto. inversion E1. auto.
    + destruct (num_events st4 =? 0)%nat; eauto. inversion E5. auto.
Qed.
End EXEC.

(** ** Pauses *)

Lemma act_stays_paused I a st : s_paused st = true -> s_paused (act I a st) = true.
Proof.
  intros H. destruct (act_cases I a st) as [[t [s [-> Ht]]]|[[e ->]|[->|[[id [-> Hid]]| ->]]]]; auto.
Qed.

Lemma finish_done K k st st' : finish K k st = Some (Done st') ->
  after_ok K k (s_queue st) = true /\ st' = set_queue st (i_after (impl_of K) k (s_queue st)).
Proof.
  unfold finish. destruct (after_ok K k (s_queue st)); intros E; [|discriminate].
  inversion E. auto.
Qed.

(** After a run the simulator is paused, and nothing but a run changes that. *)
Definition paused_after (k : task) (st st' : state) : Prop :=
  match k with
  | TRun _ => s_paused st' = true
  | _ => s_paused st = true -> s_paused st' = true
  end.

Lemma exec_paused K p fuel k st st' : exec K p fuel k st = Some (Done st') -> paused_after k st st'.
Proof.
  apply exec_ind; clear; cbn; intros; auto.
  - apply act_stays_paused. auto.
  - apply finish_done in H2. destruct H2 as [_ ->]. auto.
  - apply finish_done in H4. destruct H4 as [_ ->]. cbn. auto.
  - destruct u; cbn; auto.
  - destruct (num_events st4 =? 0)%nat; subst; auto.
Qed.

(** Nothing happens between a stop and the next start. *)
Definition quiet_st (st : state) : Prop :=
  forall l1 o l2, s_trace st = l1 ++ o :: l2 -> stops o -> ~ In (OLife LRun) l2 ->
    s_paused st = true /\ fired l2 = [].

Lemma quiet_log st o b : quiet_st st -> fired [o] = [] ->
  (s_paused st = true -> b = true) -> (stops o -> b = true) ->
  quiet_st (set_paused (log st o) b).
Proof.
  intros H Ho Hb Hs l1 x l2 E Hx Hn. cbn in E |- *.
  destruct (snoc_split _ _ _ _ _ E) as [[-> [_ <-]]|[l2' [-> E2]]].
  - auto.
  - destruct (H _ _ _ E2 Hx) as [H1 H2].
    + intros Hi. apply Hn. apply in_or_app. auto.
    + rewrite fired_app, H2, Ho. auto.
Qed.

Lemma quiet_same st st' : quiet_st st -> s_trace st' = s_trace st ->
  (s_paused st = true -> s_paused st' = true) -> quiet_st st'.
Proof.
  intros H E Hp l1 o l2 E2 Ho Hn. rewrite E in E2. destruct (H _ _ _ E2 Ho Hn). auto.
Qed.

Lemma quiet_start st : quiet_st st -> quiet_st (log (set_paused st false) (OLife LRun)).
Proof.
  intros H l1 o l2 E Ho Hn. cbn in E.
  destruct (snoc_split _ _ _ _ _ E) as [[-> [_ <-]]|[l2' [-> E2]]].
  - destruct Ho; discriminate.
  - exfalso. apply Hn. apply in_or_app. cbn. auto.
Qed.

Lemma quiet_take st st' id c s : quiet_st st -> s_paused st = false ->
  s_trace st' = s_trace st ++ [OTake id c s] -> quiet_st st'.
Proof.
  intros H Hp E l1 o l2 E2 Ho Hn. rewrite E in E2.
  destruct (snoc_split _ _ _ _ _ E2) as [[-> [_ <-]]|[l2' [-> E3]]].
  - destruct Ho; discriminate.
  - exfalso. destruct (H _ _ _ E3 Ho) as [H1 _].
    + intros Hi. apply Hn. apply in_or_app. auto.
    + congruence.
Qed.

Lemma quiet_act I a st : quiet_st st -> quiet_st (act I a st).
Proof.
  intros H. destruct (act_cases I a st) as [[t [s [-> Ht]]]|[[e ->]|[->|[[id [-> Hid]]| ->]]]]; auto.
  - eapply quiet_same; [apply (quiet_log st (OSched (length (s_handles st)) t s) (s_paused st)); auto|..];
      try reflexivity; auto. intros [E|E]; discriminate.
  - eapply quiet_same; [apply (quiet_log st (OReject e) (s_paused st)); auto|..];
      try reflexivity; auto. intros [E|E]; discriminate.
  - eapply quiet_same; [apply (quiet_log st (OCancel id) (s_paused st)); auto|..];
      try reflexivity; auto. intros [E|E]; discriminate.
  - eapply quiet_same; [apply (quiet_log st OPause true); auto|..]; reflexivity.
Qed.

Definition quiet_after (k : task) (st st' : state) : Prop :=
  (k = TNext -> s_paused st = false) -> quiet_st st -> quiet_st st'.

Lemma quiet_log0 st o : quiet_st st -> fired [o] = [] -> ~ stops o -> quiet_st (log st o).
Proof.
  intros H Ho Hs. eapply quiet_same; [apply (quiet_log st o (s_paused st)); auto|..]; try reflexivity; auto. 
Qed.

Lemma exec_quiet K p fuel k st st' : exec K p fuel k st = Some (Done st') -> quiet_after k st st'.
Proof.
  apply exec_ind; clear; unfold quiet_after; intros.
  - apply quiet_act. auto.
  - apply quiet_log0; auto. intros [E|E]; discriminate.
  - apply H0; auto. discriminate.
  - auto.
  - apply H1; [discriminate|]. apply H0; auto. discriminate.
  - apply H; auto. discriminate.
  - auto.
  - apply finish_done in H2. destruct H2 as [_ ->].
    eapply quiet_take; [exact H4|auto|reflexivity].
  - apply finish_done in H4. destruct H4 as [_ ->].
    eapply (quiet_same st1); [|reflexivity|auto]. apply H3; [discriminate|].
    eapply quiet_take; [exact H6|auto|reflexivity].
  - auto.
  - destruct u; auto. 
  - apply H3; [discriminate|]. apply H2; auto. 
  -
    assert (Q1 : quiet_st st1).
    { destruct (s_started st); [subst; auto|]. apply H1; [discriminate|].
      apply quiet_log0; auto. intros [E|E]; discriminate. }
    assert (Q2 : quiet_st st2).
    { apply H2; [discriminate|]. apply quiet_start. auto. }
    assert (Q3 : quiet_st st3) by (apply H3; auto; discriminate).
    assert (Q4 : quiet_st st4).
    { apply H4; [discriminate|].
      eapply quiet_same; [apply (quiet_log st3 (OLife LPause) true); auto|..]; reflexivity. }
    destruct (num_events st4 =? 0)%nat; [|subst; auto].
    apply H5; [discriminate|]. apply quiet_log0; auto. intros [E|E]; discriminate.
Qed.

(** ** The invariant of the heap scheduler *)

(** What holds at every moment, inside and outside of callbacks, whatever is
    running. *)
Record ninv (st : state) : Prop := {
  n_heap : is_heap (s_queue st);
  n_nodup : NoDup (s_queue st);
  n_pend : forall t id, In (t, id) (s_queue st) <->
             (exists s, scheduled (s_trace st) id t s) /\ ~ taken (s_trace st) id;
  n_num : num_scheduled (s_trace st) = length (s_handles st);
  n_hand : forall id h, nth_error (s_handles st) id = Some h ->
    exists s, scheduled (s_trace st) id (h_time h) s /\
      (~ taken (s_trace st) id ->
        (h_sink h = Some s /\ ~ cancelled (s_trace st) id) \/
        (h_sink h = None /\ cancelled (s_trace st) id)) /\
      (taken (s_trace st) id -> is_pending h = false);
  n_legal : legal (s_trace st);
  n_time : taken_on_time (s_trace st)
}.

Lemma ninv_ready : ninv ready.
Proof.
  constructor; cbn.
  - intros i a b _ H. destruct ((i - 1) / 2)%nat; discriminate.
  - constructor.
  - intros t id. split; [intros []|]. intros [[s []] _].
  - auto.
  - intros id h H. destruct id; discriminate.
  - apply legal_nil.
  - intros l1 id c s l2 E. destruct l1; discriminate.
Qed.

Lemma ninv_same st st' : ninv st -> s_queue st' = s_queue st -> s_handles st' = s_handles st ->
  s_trace st' = s_trace st -> ninv st'.
Proof.
  intros [H1 H2 H3 H4 H5 H6 H7] E1 E2 E3. constructor; rewrite ?E1, ?E2, ?E3; auto.
Qed.

Lemma on_time_snoc tr o : taken_on_time tr ->
  (forall id c s, o = OTake id c s -> exists s0, scheduled tr id c s0) -> taken_on_time (tr ++ [o]).
Proof.
  intros H Ho l1 id c s l2 E.
  destruct (snoc_split _ _ _ _ _ E) as [[-> [<- E2]]|[l2' [-> E2]]].
  - eapply Ho; eauto.
  - eapply H; eauto.
Qed.

Lemma ninv_neutral st o : ninv st -> neutral o -> ninv (log st o).
Proof.
  intros [H1 H2 H3 H4 H5 H6 H7] Ho. constructor; cbn; auto.
  - intros t id. rewrite H3, taken_neutral by auto. setoid_rewrite scheduled_neutral; auto. reflexivity.
  - rewrite num_scheduled_snoc. destruct o; cbn in *; try tauto; lia.
  - intros id h Hh. destruct (H5 _ _ Hh) as [s [A [B C]]]. exists s.
    rewrite scheduled_neutral, taken_neutral, cancelled_neutral by auto. auto.
  - apply legal_snoc. split; auto. destruct o; cbn in *; auto; tauto.
  - apply on_time_snoc; auto. intros id c s ->. destruct Ho.
Qed.

Section HEAP.
Context (lib : heap_lib).
Notation I := (heap_impl lib).

Lemma ninv_sched t s st : ninv st -> ninv (sched_state I t s st).
Proof using.
  intros [H1 H2 H3 H4 H5 H6 H7]. set (n := length (s_handles st)) in *.
  assert (Hnt : ~ taken (s_trace st) n).
  { intros Ht. destruct (taken_scheduled _ H6 _ Ht) as [t' [s' Hs]].
    apply (scheduled_bound _ H6) in Hs. fold n in H4. lia. }
  assert (Hnq : forall t', ~ In (t', n) (s_queue st)).
  { intros t' Hi. apply H3 in Hi. destruct Hi as [[s' Hs] _].
    apply (scheduled_bound _ H6) in Hs. lia. }
  assert (Htk : forall id, taken (s_trace st ++ [OSched n t s]) id <-> taken (s_trace st) id).
  { intros id. rewrite taken_snoc. split; auto. intros [?|[c [s' E]]]; auto. discriminate. }
  assert (Hcan : forall id, cancelled (s_trace st ++ [OSched n t s]) id <-> cancelled (s_trace st) id).
  { intros id. unfold cancelled. rewrite in_snoc. split; auto. intros [?|E]; auto. discriminate. }
  assert (Hpm : Permutation (lib_push lib (s_queue st) (t, n)) ((t, n) :: s_queue st)) by apply lib_push_perm.
  unfold sched_state. fold n. constructor; cbn.
  - apply lib_push_heap. auto.
  - eapply Permutation_NoDup; [apply Permutation_sym; exact Hpm|]. constructor; auto.
  - intros t' id. rewrite Hpm. cbn [In]. rewrite H3, Htk. unfold scheduled. setoid_rewrite in_snoc.
    split.
    + intros [E|[[s' Hs] Ht]].
      * inversion E; subst. split; [exists s; auto|auto].
      * split; eauto.
    + intros [[s' [Hs|E]] Ht].
      * right. split; eauto.
      * inversion E; subst. auto.
  - rewrite num_scheduled_snoc, app_length. cbn. fold n in H4 |- *. lia.
  - intros id h Hh. destruct (Nat.lt_ge_cases id n) as [Hlt|Hge].
    + rewrite nth_error_app1 in Hh by auto. destruct (H5 _ _ Hh) as [s' [Hs [Hr Hr2]]].
      exists s'. rewrite Htk, Hcan. split; auto. apply in_snoc; left; exact Hs.
    + rewrite nth_error_app2 in Hh by auto. fold n in Hh.
      destruct (id - n)%nat as [|m] eqn:E; [|destruct m; discriminate].
      cbn in Hh. inversion Hh; subst h. assert (id = n) by lia. subst id.
      exists s. rewrite Htk, Hcan. cbn. split; [apply in_snoc; auto|]. split; [|tauto].
      intros _. left. split; auto.
      intros Hc. apply in_split in Hc. destruct Hc as [l1 [l2 E2]].
      pose proof (H6 _ _ _ E2) as Hl. cbn in Hl. rewrite E2 in H4.
      assert (num_scheduled l1 <= num_scheduled (l1 ++ OCancel n :: l2))%nat.
      { unfold num_scheduled. rewrite filter_app, app_length. lia. }
      fold n in H4. lia.
  - apply legal_snoc. split; auto. cbn. fold n in H4. lia.
  - apply on_time_snoc; auto. intros; discriminate.
Qed.

Lemma ninv_cancel id st : ninv st -> (id < length (s_handles st))%nat ->
  ninv (log (cancel id st) (OCancel id)).
Proof using.
  intros [H1 H2 H3 H4 H5 H6 H7] Hid.
  assert (Htk : forall i, taken (s_trace st ++ [OCancel id]) i <-> taken (s_trace st) i).
  { intros i. rewrite taken_snoc. split; auto. intros [?|[c [s' E]]]; auto. discriminate. }
  assert (Hsc : forall i t s, scheduled (s_trace st ++ [OCancel id]) i t s <-> scheduled (s_trace st) i t s).
  { intros i t s. unfold scheduled. rewrite in_snoc. split; auto. intros [?|E]; auto. discriminate. }
  assert (Hcan : forall i, cancelled (s_trace st ++ [OCancel id]) i <-> cancelled (s_trace st) i \/ i = id).
  { intros i. unfold cancelled. rewrite in_snoc. split; intros [?|E]; auto; try (inversion E; auto; fail); subst; auto. }
  constructor; cbn; auto.
  - intros t i. rewrite H3, Htk. setoid_rewrite Hsc. tauto.
  - rewrite num_scheduled_snoc, H4, update_length. cbn. lia.
  - intros i h Hh. rewrite nth_update in Hh. destruct (Nat.eqb_spec id i) as [<-|Hne].
    + destruct (nth_error (s_handles st) id) as [h0|] eqn:E; [|discriminate].
      cbn in Hh. inversion Hh; subst h. destruct (H5 _ _ E) as [s [Hs _]].
      exists s. cbn. rewrite Hsc, Htk, Hcan. split; auto.
    + destruct (H5 _ _ Hh) as [s [Hs [Hq Hr]]]. exists s. rewrite Hsc, Htk, Hcan.
      split; auto. split; auto. intros Hn. destruct (Hq Hn) as [[A B]|[A B]]; [left|right]; split; auto.
      intros [?|?]; auto.
  - apply legal_snoc. split; auto. cbn. lia.
  - apply on_time_snoc; auto. intros; discriminate.
Qed.

Lemma ninv_act a st : ninv st -> ninv (act I a st).
Proof using.
  intros H. destruct (act_cases I a st) as [[t [s [-> Ht]]]|[[e ->]|[->|[[id [-> Hid]]| ->]]]].
  - apply ninv_sched; auto.
  - apply ninv_neutral; cbn; auto.
  - auto.
  - apply ninv_cancel; auto.
  - apply ninv_neutral; [|cbn; auto]. eapply ninv_same; eauto.
Qed.

(** The first event is taken. *)
Lemma ninv_take st t id h f : ninv st -> next_event I st = Some (t, id) -> s_now st = t ->
  nth_error (s_handles st) id = Some h ->
  (h_time (f h) = h_time h /\ is_pending (f h) = false) ->
  ninv (set_handles (log (set_queue st (i_during I (s_queue st))) (OTake id (s_now st) (h_sink h)))
          (update (s_handles st) id f)).
Proof using.
  intros [H1 H2 H3 H4 H5 H6 H7] En Enow Eh [Hft Hfp]. unfold next_event in En. cbn in En.
  destruct (s_queue st) as [|k q] eqn:Eq; [discriminate|]. cbn in En. inversion En; subst k. clear En.
  assert (Hin : In (t, id) ((t, id) :: q)) by (left; auto).
  apply H3 in Hin. destruct Hin as [[s0 Hs0] Hnt].
  destruct (H5 _ _ Eh) as [s1 [Hs1 [Hsink _]]].
  destruct (scheduled_unique _ H6 _ _ _ _ _ Hs0 Hs1) as [E1 <-].
  set (o := OTake id (s_now st) (h_sink h)).
  assert (Hsc : forall i t s, scheduled (s_trace st ++ [o]) i t s <-> scheduled (s_trace st) i t s).
  { intros i t' s. unfold scheduled. rewrite in_snoc. split; auto. intros [?|E]; auto. discriminate. }
  assert (Hcan : forall i, cancelled (s_trace st ++ [o]) i <-> cancelled (s_trace st) i).
  { intros i. unfold cancelled. rewrite in_snoc. split; auto. intros [?|E]; auto. discriminate. }
  assert (Htk : forall i, taken (s_trace st ++ [o]) i <-> taken (s_trace st) i \/ i = id).
  { intros i. rewrite taken_snoc. split.
    - intros [?|[c [s E]]]; auto. inversion E; auto.
    - intros [?| ->]; auto. right. eexists _, _. reflexivity. }
  pose proof (lib_pop_perm lib (t, id) q) as Hpm.
  assert (Hnq : forall t', ~ In (t', id) q).
  { intros t' Hi. inversion H2 as [|? ? Hni _]; subst.
    assert (Hi2 : In (t', id) ((s_now st, id) :: q)) by (right; auto). apply H3 in Hi2.
    destruct Hi2 as [[s2 Hs2] _].
    destruct (scheduled_unique _ H6 _ _ _ _ _ Hs0 Hs2) as [<- _]. auto. }
  constructor; cbn; rewrite ?Eq; cbn.
  - apply lib_pop_heap. auto.
  - eapply Permutation_NoDup; [apply Permutation_sym; exact Hpm|]. inversion H2; auto.
  - intros t' i. rewrite Hpm, Htk. setoid_rewrite Hsc.
    specialize (H3 t' i). cbn [In] in H3. split.
    + intros Hi. destruct H3 as [H3 _]. destruct (H3 (or_intror Hi)) as [Ha Hb].
      split; auto. intros [?|Hx]; [auto|]. subst i. eapply Hnq; eauto.
    + intros [Ha Hb]. destruct H3 as [_ H3]. destruct H3 as [H3|H3]; auto.
      inversion H3; subst. exfalso. apply Hb. auto.
  - rewrite num_scheduled_snoc, H4, update_length. cbn. lia.
  - intros i h' Hh. rewrite nth_update in Hh. destruct (Nat.eqb_spec id i) as [<-|Hne].
    + rewrite Eh in Hh. cbn in Hh. inversion Hh; subst h'.
      exists s0. rewrite Hsc, Hcan, Htk, Hft. split; auto. split; [tauto|auto].
    + destruct (H5 _ _ Hh) as [s [Hs [Hq Hr']]]. exists s. rewrite Hsc, Hcan, Htk.
      split; auto. split; [tauto|]. intros [?|?]; [auto|congruence].
  - apply legal_snoc. split; auto. cbn. exists t, s0. split; auto. split; auto. split; [|tauto].
    intros id' t' s' Hs'' Hnt'.
    assert (Hq : In (t', id') ((t, id) :: q)) by (apply H3; split; eauto).
    destruct (heap_root _ _ H1 _ Hq) as [E|E]; auto. inversion E. auto.
  - apply on_time_snoc; auto. intros id' c s E. inversion E; subst. eauto.
Qed.

Lemma ninv_leave st id : ninv st -> taken (s_trace st) id -> ninv (leave id st).
Proof using.
  intros [H1 H2 H3 H4 H5 H6 H7] Ht. constructor; cbn; auto.
  - rewrite update_length. auto.
  - intros i h Hh. rewrite nth_update in Hh. destruct (Nat.eqb_spec id i) as [<-|Hne].
    + destruct (nth_error (s_handles st) id) as [h0|] eqn:E; [|discriminate].
      cbn in Hh. inversion Hh; subst h. destruct (H5 _ _ E) as [s [Hs _]].
      exists s. cbn. split; auto. split; [tauto|auto].
    + apply H5. auto.
Qed.

(** What has happened stays in the record. *)
Definition longer (st st' : state) : Prop := exists l, s_trace st' = s_trace st ++ l.
Lemma longer_trans a b c : longer a b -> longer b c -> longer a c.
Proof using. intros [l E] [l' E']. exists (l ++ l'). rewrite E', E, app_assoc. auto. Qed.
Lemma longer_taken a b id : longer a b -> taken (s_trace a) id -> taken (s_trace b) id.
Proof using.
  intros [l E] [c [s H]]. exists c, s. rewrite E. apply in_or_app. auto.
Qed.
Lemma longer_log st st' st2 o : longer (log st o) st2 -> s_trace st = s_trace st' -> longer st' st2.
Proof using. intros [l E] E2. cbn in E. rewrite E2, <- app_assoc in E. eexists; eauto. Qed.
End HEAP.

Lemma exec_longer K p fuel k st st' : exec K p fuel k st = Some (Done st') -> longer st st'.
Proof.
  revert fuel k st st'. apply (exec_ind K p (fun k st st' => longer st st')); intros; auto;
    try (exists []; rewrite app_nil_r; reflexivity).
  - destruct (grows_act (impl_of K) a st) as [tr G]. exists tr. apply G.
  - exists [OReject e]. reflexivity.
  - eapply longer_trans; eauto.
  - apply finish_done in H2. destruct H2 as [_ ->]. eexists. reflexivity.
  - apply finish_done in H4. destruct H4 as [_ ->]. destruct H3 as [l E]. cbn in E.
    rewrite <- app_assoc in E. eexists. cbn. exact E.
  - exists []. rewrite app_nil_r. destruct u; reflexivity.
  - destruct H2 as [l E]. cbn in E. eapply longer_trans; [exists l; exact E|auto].
  - assert (L1 : longer st st1).
    { destruct (s_started st); [subst; exists []; rewrite app_nil_r; reflexivity|].
      eapply longer_log; [exact H1|reflexivity]. }
    eapply longer_trans; [exact L1|].
    eapply longer_trans; [eapply longer_log; [exact H2|reflexivity]|].
    eapply longer_trans; [exact H3|].
    eapply longer_trans; [eapply longer_log; [exact H4|reflexivity]|].
    destruct (num_events st4 =? 0)%nat; [|subst; exists []; rewrite app_nil_r; reflexivity].
    eapply longer_log; [exact H5|reflexivity].
Qed.

(** ** The heap scheduler *)

Definition ninv_after (lib : heap_lib) (k : task) (st st' : state) : Prop :=
  (k = TNext -> forall t id, next_event (heap_impl lib) st = Some (t, id) -> s_now st = t) ->
  ninv st -> ninv st'.

Lemma exec_ninv lib p fuel k st st' : exec (KHeap lib) p fuel k st = Some (Done st') ->
  ninv_after lib k st st'.
Proof.
  apply exec_ind; clear; unfold ninv_after; cbn [impl_of]; intros.
  - apply ninv_act. auto.
  - apply ninv_neutral; cbn; auto.
  - apply H0; auto. discriminate.
  - auto.
  - apply H1; [discriminate|]. apply H0; auto. discriminate.
  - apply H; auto. discriminate.
  - auto.
  - apply finish_done in H2. destruct H2 as [_ ->].
    pose proof (ninv_take lib st t id h (fun h => h) H4 H (H3 eq_refl _ _ H) H0) as Hn.
    rewrite update_id, H1 in Hn. eapply ninv_same; [apply Hn|..]; try reflexivity.
    split; auto. unfold is_pending. rewrite H1. auto.
  - apply finish_done in H4. destruct H4 as [_ ->].
    assert (Hn : ninv st1).
    { apply H3; [discriminate|].
      pose proof (ninv_take lib st t id h (fun h => mk_handle (h_time h) (h_sink h) true)
        H6 H (H5 eq_refl _ _ H) H0) as Hn.
      rewrite H1 in Hn. eapply ninv_same; [apply Hn|..]; try reflexivity.
      split; auto. unfold is_pending. cbn. rewrite H1. auto. }
    eapply ninv_same; [apply (ninv_leave st1 id Hn)|..]; try reflexivity.
    destruct H2 as [f E]. apply exec_longer in E. eapply longer_taken; [exact E|].
    exists (s_now st), (Some s). cbn. apply in_or_app. cbn. auto.
  - auto.
  - destruct u; auto. eapply ninv_same; eauto.
  - apply H3; [discriminate|]. apply H2.
    + intros _ t' id' E. change (next_event (heap_impl lib) st = Some (t', id')) in E. cbn. congruence.
    + eapply ninv_same; eauto.
  - assert (Q1 : ninv st1).
    { destruct (s_started st); [subst; auto|]. apply H1; [discriminate|].
      apply ninv_neutral; [|cbn; auto]. eapply ninv_same; eauto. }
    assert (Q2 : ninv st2).
    { apply H2; [discriminate|]. apply ninv_neutral; [|cbn; auto]. eapply ninv_same; eauto. }
    assert (Q3 : ninv st3) by (apply H3; auto; discriminate).
    assert (Q4 : ninv st4).
    { apply H4; [discriminate|]. apply ninv_neutral; [|cbn; auto]. eapply ninv_same; eauto. }
    destruct (num_events st4 =? 0)%nat; [|subst; auto].
    apply H5; [discriminate|]. apply ninv_neutral; cbn; auto.
Qed.

(** The heap scheduler never does anything undefined, and no exception leaves a
    callback. *)
Definition defined (k : task) (r : option (outcome state)) : Prop :=
  match r with
  | None => True
  | Some (Done _) => True
  | Some (Throw _) => exists u, k = TRun u
  | Some _ => False
  end.

Lemma defined_bind k k' m g : defined k' m -> (forall u, k' <> TRun u) ->
  (forall st1, m = Some (Done st1) -> defined k (g st1)) -> defined k (nbind m g).
Proof.
  intros Hm Hk Hg. destruct m as [[st1| | |e]|]; cbn in *; auto.
  destruct Hm as [u E]. destruct (Hk u E).
Qed.

Lemma defined_caught u o st m : defined (TRun u) m -> defined (TOp o) (caught st m).
Proof. destruct m as [[st1| | |e]|]; cbn; auto. Qed.

Lemma defined_weak k k' m : defined k m -> (forall u, k <> TRun u) -> defined k' m.
Proof.
  intros H Hk. destruct m as [[st1| | |e]|]; cbn in *; auto. destruct H as [u E]. destruct (Hk u E).
Qed.

Lemma exec_defined lib p : forall fuel k st, ninv st ->
  (k = TNext -> forall t id, next_event (heap_impl lib) st = Some (t, id) -> s_now st = t) ->
  defined k (exec (KHeap lib) p fuel k st).
Proof.
  induction fuel as [|f IH]; intros k st Hi Hk; [exact I|]. cbn [exec].
  assert (Hlog : forall st o, ninv st -> neutral o -> ninv (log st o)) by (intros; apply ninv_neutral; auto).
  destruct k as [o|l|src| |u|u].
  - destruct o; try exact I; eapply defined_caught, IH; auto; discriminate.
  - destruct l as [|o r]; [exact I|]. eapply defined_bind.
    + apply IH; auto. discriminate.
    + discriminate.
    + intros st1 E. apply exec_ninv in E. specialize (IH (TOps r) st1).
      eapply defined_weak; [apply IH; [apply E; auto; discriminate|discriminate]|discriminate].
  - eapply defined_weak; [apply IH; [auto|discriminate]|discriminate].
  - cbn [impl_of]. destruct (next_event (heap_impl lib) st) as [[t id]|] eqn:En; [|exact I].
    cbn [snd set_queue s_handles s_now].
    assert (Hid : (id < length (s_handles st))%nat).
    { unfold next_event in En. cbn in En. destruct (s_queue st) as [|k q] eqn:Eq; [discriminate|].
      cbn in En. inversion En; subst k.
      assert (Hq : In (t, id) (s_queue st)) by (rewrite Eq; left; auto).
      apply (n_pend _ Hi) in Hq. destruct Hq as [[s Hs] _].
      apply (scheduled_bound _ (n_legal _ Hi)) in Hs. rewrite (n_num _ Hi) in Hs. auto. }
    destruct (nth_error (s_handles st) id) as [h|] eqn:Eh; [|apply nth_error_None in Eh; lia].
    destruct (h_sink h) as [s|] eqn:Es; [|exact I].
    eapply defined_bind.
    + apply IH; [|discriminate].
      pose proof (ninv_take lib st t id h (fun h => mk_handle (h_time h) (h_sink h) true)
        Hi En (Hk eq_refl _ _ eq_refl) Eh) as Hn.
      rewrite Es in Hn. eapply ninv_same; [apply Hn|..]; try reflexivity.
      split; auto. unfold is_pending. cbn. rewrite Es. auto.
    + discriminate.
    + intros st1 _. exact I.
  - destruct (s_paused st); [exact I|].
    cbn [impl_of]. destruct (next_event (heap_impl lib) st) as [[t id]|] eqn:En; [|exact I].
    destruct (match u with Some b => b <? fst (t, id) | None => false end); [exact I|].
    cbn [fst].
    assert (Hn : ninv (set_now st t)) by (eapply ninv_same; eauto).
    assert (Ht : forall t0 id0, next_event (heap_impl lib) (set_now st t) = Some (t0, id0) ->
      s_now (set_now st t) = t0).
    { intros t' id' E. change (next_event (heap_impl lib) st = Some (t', id')) in E. cbn. congruence. }
    eapply defined_bind.
    + apply IH; auto.
    + discriminate.
    + intros st1 E. apply exec_ninv in E. apply IH; [apply E; auto|discriminate].
  - destruct (s_init st); cbn [negb]; [|cbn; eauto].
    destruct (num_events st =? 0)%nat; [cbn; eauto|].
    assert (Hc : forall src st0, ninv st0 -> defined (TCall src) (exec (KHeap lib) p f (TCall src) st0)).
    { intros src st0 H. apply IH; auto. discriminate. }
    assert (Hn : forall k a b, exec (KHeap lib) p f k a = Some (Done b) -> k <> TNext -> ninv a -> ninv b).
    { intros k a b E Hne H. apply exec_ninv in E. apply E; auto. intros; contradiction. }
    assert (Hb : forall st0, ninv st0 -> forall l, ninv (log (set_started st0 true) (OLife l))).
    { intros st0 H l. apply Hlog; [|exact I]. eapply ninv_same; eauto. }
    assert (Hp : forall st0 b, ninv st0 -> forall l, ninv (log (set_paused st0 b) (OLife l))).
    { intros st0 b H l. apply Hlog; [|exact I]. eapply ninv_same; eauto. }
    eapply (defined_bind _ (TCall (SLife LBegin))).
    { destruct (s_started st); [exact I|]. apply Hc. apply Hb. auto. }
    { discriminate. }
    intros st1 E1.
    assert (H1 : ninv st1).
    { destruct (s_started st); [inversion E1; subst; auto|]. eapply Hn; [exact E1|discriminate|auto]. }
    clear E1. eapply defined_bind; [apply Hc; auto|discriminate|].
    intros st2 E2. assert (H2 : ninv st2) by (eapply Hn; [exact E2|discriminate|auto]).
    eapply defined_bind; [apply IH; auto; discriminate|discriminate|].
    intros st3 E3. assert (H3 : ninv st3) by (eapply Hn; [exact E3|discriminate|auto]).
    eapply defined_bind; [apply Hc; auto|discriminate|].
    intros st4 E4. assert (H4 : ninv st4) by (eapply Hn; [exact E4|discriminate|auto]).
    destruct (num_events st4 =? 0)%nat; [|exact I].
    eapply defined_weak; [apply Hc; apply Hlog; [auto|exact I]|discriminate].
Qed.

(** ** The clock *)

(** The clock never goes back, and events are taken in the order of time. *)
Record tinv (st : state) : Prop := {
  t_ahead : forall k, In k (s_queue st) -> s_now st <= fst k;
  t_past : Forall (fun x => x <= s_now st) (fired_times (s_trace st));
  t_sorted : StronglySorted Z.le (fired_times (s_trace st))
}.

Arguments fired_times : simpl never.

(** The first event of a heap is the earliest. *)
Lemma heap_next_le lib st t id k : is_heap (s_queue st) ->
  next_event (heap_impl lib) st = Some (t, id) -> In k (s_queue st) -> t <= fst k.
Proof.
  intros Hh En Hk. unfold next_event in En. cbn in En.
  destruct (s_queue st) as [|x q]; [discriminate|]. cbn in En. inversion En; subst x.
  destruct (heap_root _ _ Hh _ Hk) as [->|E]; [cbn; lia|]. unfold earlier in E. cbn in E. lia.
Qed.

Lemma fired_times_snoc tr o : fired_times (tr ++ [o]) =
  fired_times tr ++ match o with OTake _ c _ => [c] | _ => [] end.
Proof. rewrite fired_times_app. f_equal. destruct o; reflexivity. Qed.

Lemma tinv_log st o : tinv st -> (forall id c s, o <> OTake id c s) -> tinv (log st o).
Proof.
  intros [H1 H2 H3] Ho.
  assert (E : fired_times (s_trace (log st o)) = fired_times (s_trace st)).
  { cbn. rewrite fired_times_snoc. destruct o; rewrite ?app_nil_r; auto. edestruct Ho; reflexivity. }
  constructor; auto; rewrite E; auto.
Qed.

Lemma tinv_same st st' : tinv st -> (forall k, In k (s_queue st') -> In k (s_queue st)) ->
  s_now st' = s_now st -> s_trace st' = s_trace st -> tinv st'.
Proof. intros [H1 H2 H3] E1 E2 E3. constructor; rewrite ?E2, ?E3; auto. Qed.

Lemma tinv_act lib a st : tinv st -> tinv (act (heap_impl lib) a st).
Proof.
  intros H. destruct (act_cases (heap_impl lib) a st)
    as [[t [s [-> Ht]]]|[[e ->]|[->|[[id [-> Hid]]| ->]]]]; auto.
  - unfold sched_state. apply tinv_log; [|discriminate]. destruct H as [H1 H2 H3].
    constructor; cbn; auto. intros k Hk.
    rewrite (lib_push_perm lib) in Hk. destruct Hk as [<-|Hk]; auto.
  - apply tinv_log; [auto|discriminate].
  - apply tinv_log; [|discriminate]. eapply tinv_same; eauto.
  - apply tinv_log; [|discriminate]. eapply tinv_same; eauto.
Qed.

Lemma tinv_now st t : tinv st -> s_now st <= t -> (forall k, In k (s_queue st) -> t <= fst k) ->
  tinv (set_now st t).
Proof.
  intros [H1 H2 H3] Ht Hq. constructor; cbn; auto.
  eapply Forall_impl; [|exact H2]. cbn. intros; lia.
Qed.

Lemma sorted_snoc l x : StronglySorted Z.le l -> Forall (fun y => y <= x) l ->
  StronglySorted Z.le (l ++ [x]).
Proof.
  induction 1 as [|a l Hl IH Ha]; intros Hx; cbn; [repeat constructor|].
  inversion Hx; subst. constructor; auto. apply Forall_app. split; auto.
Qed.

Lemma tinv_take lib st t id s f : ninv st -> tinv st ->
  next_event (heap_impl lib) st = Some (t, id) -> s_now st = t ->
  tinv (set_handles (log (set_queue st (i_during (heap_impl lib) (s_queue st)))
          (OTake id (s_now st) s)) f).
Proof.
  intros Hn [H1 H2 H3] En Et. constructor; cbn.
  - intros k Hk. apply H1. unfold next_event in En. cbn in En.
    destruct (s_queue st) as [|x q]; [discriminate|]. rewrite (lib_pop_perm lib) in Hk. right. auto.
  - rewrite fired_times_snoc. apply Forall_app. split; auto. repeat constructor. lia.
  - rewrite fired_times_snoc. apply sorted_snoc; auto.
Qed.

(** What an activity needs so that time goes on. *)
Definition onward_task (p : nprogram) (k : task) (st : state) : Prop :=
  match k with
  | TOp o => forward o st
  | TOps l => forall o, In o l -> match o with Act _ | Run => True | RunFor dt => 0 <= dt | RunUntil _ => False end
  | TCall _ => True
  | TNext => True
  | TLoop (Some t) => s_paused st = true \/ s_now st <= t
  | TRun (Some t) => s_now st <= t
  | _ => True
  end.
Definition time_after (lib : heap_lib) (p : nprogram) (k : task) (st st' : state) : Prop :=
  (k = TNext -> forall t id, next_event (heap_impl lib) st = Some (t, id) -> s_now st = t) ->
  ninv st -> tinv st -> onward_task p k st ->
  ninv st' /\ tinv st' /\ s_now st <= s_now st' /\
  match k with
  | TOp (Act _) => s_now st' = s_now st
  | TOp _ | TRun _ => True
  | TOps l => (forall o, In o l -> exists a, o = Act a) -> s_now st' = s_now st
  | TCall src => src = SLife LBegin -> s_now st' = s_now st
  | _ => True
  end /\
  match k with
  | TOp _ | TOps _ | TCall _ | TNext => s_now st' = s_now st \/ s_paused st' = true
  | _ => True
  end.

Ltac same_time := split; [assumption|]; split; [assumption|]; split; [lia|]; split; auto.

Lemma exec_time lib p : onward p -> forall fuel k st st',
  exec (KHeap lib) p fuel k st = Some (Done st') ->
  paused_after k st st' /\ time_after lib p k st st'.
Proof.
  intros Hp. apply exec_ind; unfold time_after; cbn [impl_of].
  - intros a st. split; [cbn; apply act_stays_paused|]. intros _ Hn Ht _.
    assert (E : s_now (act (heap_impl lib) a st) = s_now st) by apply act_now.
    split; [apply ninv_act; auto|]. split; [apply tinv_act; auto|]. rewrite E. split; [lia|]; auto.
  - intros o u st e Ho. split; [cbn; auto|]. intros _ Hn Ht _.
    split; [apply ninv_neutral; cbn; auto|]. split; [apply tinv_log; [auto|discriminate]|].
    cbn. split; [lia|]. split; auto. destruct o; auto.
  - intros o u st st' Ho [HP H]. split; [cbn in *; auto|]. intros _ Hn Ht Hf.
    destruct H as [A [B [C [D _]]]]; auto; [discriminate| |].
    + destruct Ho as [[-> ->]|[[t [-> ->]]|[dt [-> ->]]]]; cbn in *; auto. lia.
    + split; auto. split; auto. split; auto. split; [|right; exact HP].
      destruct Ho as [[-> ->]|[[t [-> ->]]|[dt [-> ->]]]]; auto.
  - intros st. split; [cbn; auto|]. intros. same_time.
  - intros o r a b c _ [P1 H1] [P2 H2]. split; [cbn in *; auto|]. intros _ Hn Ht Hf.
    cbn [onward_task] in *.
    destruct H1 as [A [B [C [D E]]]]; auto; [discriminate| |].
    { specialize (Hf o (or_introl eq_refl)). destruct o; cbn; auto. destruct Hf. }
    destruct H2 as [A2 [B2 [C2 [D2 E2]]]]; auto; [discriminate| |].
    { intros x Hx. apply Hf. right. auto. }
    split; auto. split; auto. split; [lia|]. split.
    + intros Ha. rewrite D2 by (intros x Hx; apply Ha; right; auto).
      destruct (Ha o (or_introl eq_refl)) as [y ->]. auto.
    + destruct E as [E|E]; [|right; apply P2; auto]. destruct E2 as [E2|E2]; auto. left. congruence.
  - intros src a b [P1 H1]. split; [cbn in *; auto|]. intros _ Hn Ht _.
    destruct H1 as [A [B [C [D E]]]]; auto; [discriminate| |].
    { intros o Ho. specialize (Hp _ _ _ Ho). destruct o; tauto. }
    split; auto. split; auto. split; auto. split; auto.
    intros ->. apply D. intros o Ho. specialize (Hp _ _ _ Ho). destruct o; eauto; tauto.
  - intros st _. split; [cbn; auto|]. intros. same_time.
  - intros st t id h st' En Eh Es E. apply finish_done in E. destruct E as [_ ->].
    split; [cbn; auto|]. intros Hk Hn Ht _. specialize (Hk eq_refl _ _ En).
    split; [|split; [|cbn; split; [lia|]; auto]].
    + pose proof (ninv_take lib st t id h (fun h => h) Hn En Hk Eh) as Hm.
      rewrite update_id, Es in Hm. eapply ninv_same; [apply Hm|..]; try reflexivity.
      split; auto. unfold is_pending. rewrite Es. auto.
    + eapply tinv_same; [apply (tinv_take lib st t id None (s_handles st) Hn Ht En Hk)|..];
        try reflexivity; auto.
  - intros st t id h s st1 st' En Eh Es [f Ef] [P1 H1] E. apply finish_done in E. destruct E as [_ ->].
    split; [cbn in *; auto|]. intros Hk Hn Ht _. specialize (Hk eq_refl _ _ En).
    destruct H1 as [A [B [C [_ D]]]]; [discriminate| | |exact I|].
    + pose proof (ninv_take lib st t id h (fun h => mk_handle (h_time h) (h_sink h) true) Hn En Hk Eh) as Hm.
      rewrite Es in Hm. eapply ninv_same; [apply Hm|..]; try reflexivity.
      split; auto. unfold is_pending. cbn. rewrite Es. auto.
    + eapply tinv_same; [apply (tinv_take lib st t id (Some s) (s_handles st) Hn Ht En Hk)|..];
        try reflexivity; auto.
    + split; [|split; [|cbn in *; split; [lia|]; auto]].
      * eapply ninv_same; [apply (ninv_leave st1 id A)|..]; try reflexivity.
        apply exec_longer in Ef. eapply longer_taken; [exact Ef|].
        exists (s_now st), (Some s). cbn. apply in_or_app. cbn. auto.
      * eapply tinv_same; [exact B|..]; try reflexivity; auto.
  - intros u st Hpa. split; [cbn; auto|]. intros. same_time.
  - intros u st Hpa Hx. split; [cbn; congruence|]. intros _ Hn Ht Hf.
    destruct u as [t|]; [|same_time].
    cbn in Hf. assert (Hle : s_now st <= t) by (destruct Hf; [congruence|auto]).
    split; [eapply ninv_same; eauto|]. split; [|cbn; auto].
    apply tinv_now; auto. intros k Hk.
    destruct (next_event (heap_impl lib) st) as [[t0 id0]|] eqn:En.
    + cbn in Hx. pose proof (heap_next_le _ _ _ _ _ (n_heap _ Hn) En Hk). lia.
    + unfold next_event in En. cbn in En. destruct (s_queue st); [destruct Hk|discriminate].
  - intros u st t id st1 st' Hpa En Hu [P1 H1] [P2 H2]. split; [cbn in *; congruence|]. intros _ Hn Ht Hf.
    assert (Hq : forall k, In k (s_queue st) -> t <= fst k).
    { intros k Hk. eapply heap_next_le; eauto. apply Hn. }
    assert (Hle : s_now st <= t).
    { unfold next_event in En. cbn in En. destruct (s_queue st) as [|x q] eqn:Eq; [discriminate|].
      cbn in En. inversion En; subst x. apply (t_ahead _ Ht (t, id)). rewrite Eq. left; auto. }
    destruct H1 as [A [B [C [_ D]]]]; [| | |exact I|].
    + intros _ t' id' E. change (next_event (heap_impl lib) st = Some (t', id')) in E. cbn. congruence.
    + eapply ninv_same; eauto.
    + apply tinv_now; auto.
    + cbn in C, D. destruct H2 as [A2 [B2 [C2 _]]]; auto; [discriminate| |].
      * destruct u as [b|]; [|exact I]. cbn. destruct D as [D|D]; [right; lia|left; auto].
      * split; [auto|]. split; [auto|]. split; [lia|auto].
  - intros u st st1 st2 st3 st4 st' Hi Hne H1 [P2 H2] [P3 H3] [P4 H4] H5.
    cbn [paused_after] in *.
    assert (Hp4 : s_paused st4 = true) by (apply P4; reflexivity).
    assert (Hp' : s_paused st' = true).
    { destruct (num_events st4 =? 0)%nat; [apply H5; auto|subst; auto]. }
    split; auto. intros _ Hn Ht Hf.
    assert (Q1 : ninv st1 /\ tinv st1 /\ s_now st1 = s_now st).
    { destruct (s_started st); [subst; auto|]. destruct H1 as [_ H1].
      destruct H1 as [A [B [C [D _]]]]; [discriminate| | |exact I|].
      - apply ninv_neutral; [|exact I]. eapply ninv_same; eauto.
      - apply tinv_log; [|discriminate]. eapply tinv_same; eauto.
      - specialize (D eq_refl). auto. }
    destruct Q1 as [N1 [T1 E1]].
    destruct H2 as [N2 [T2 [C2 [_ D2]]]]; [discriminate| | |exact I|].
    { apply ninv_neutral; [|exact I]. eapply ninv_same; eauto. }
    { apply tinv_log; [|discriminate]. eapply tinv_same; eauto. }
    cbn in C2, D2.
    destruct H3 as [N3 [T3 [C3 _]]]; auto; [discriminate| |].
    { destruct u as [b|]; [|exact I]. cbn in Hf |- *. destruct D2 as [D2|D2]; [right; lia|left; auto]. }
    destruct H4 as [N4 [T4 [C4 _]]]; [discriminate| | |exact I|].
    { apply ninv_neutral; [|exact I]. eapply ninv_same; eauto. }
    { apply tinv_log; [|discriminate]. eapply tinv_same; eauto. }
    cbn in C4.
    destruct (num_events st4 =? 0)%nat.
    + destruct H5 as [_ H5]. destruct H5 as [N5 [T5 [C5 _]]]; [discriminate| | |exact I|].
      * apply ninv_neutral; [auto|exact I].
      * apply tinv_log; [auto|discriminate].
      * cbn in C5. split; auto. split; auto. split; auto. lia.
    + subst st'. split; auto. split; auto. split; auto. lia.
Qed.

(** ** More fuel does not matter *)

Lemma nbind_more m m' g g' r : (forall x, m = Some x -> m' = Some x) ->
  (forall st x, g st = Some x -> g' st = Some x) -> nbind m g = Some r -> nbind m' g' = Some r.
Proof.
  intros Hm Hg E. destruct m as [x|]; [|discriminate]. rewrite (Hm x eq_refl).
  destruct x; cbn in *; auto.
Qed.

Lemma exec_more K p : forall fuel k st r, exec K p fuel k st = Some r ->
  exec K p (S fuel) k st = Some r.
Proof.
  induction fuel as [|f IH]; intros k st r E; [discriminate|].
  set (g := S f) in *. cbn [exec]. unfold g in E. cbn [exec] in E.
  assert (Hc : forall u r, caught st (exec K p f (TRun u) st) = Some r ->
    caught st (exec K p g (TRun u) st) = Some r).
  { intros u r0 E0. destruct (exec K p f (TRun u) st) as [x|] eqn:E1; [|discriminate].
    apply IH in E1. rewrite E1. auto. }
  destruct k as [o|l|src| |u|u].
  - destruct o; auto.
  - destruct l as [|o l]; auto. eapply nbind_more; [| |exact E]; intros; apply IH; auto.
  - auto.
  - destruct (next_event (impl_of K) st) as [k|]; auto.
    destruct (nth_error _ _) as [h|]; auto. destruct (h_sink h); auto.
    eapply nbind_more; [| |exact E]; intros; [apply IH|]; auto.
  - destruct (s_paused st); auto. destruct (next_event (impl_of K) st) as [k|]; auto.
    destruct (match u with Some t => t <? fst k | None => false end); auto.
    eapply nbind_more; [| |exact E]; intros; apply IH; auto.
  - destruct (negb (s_init st)); auto. destruct (num_events st =? 0)%nat; auto.
    eapply nbind_more; [| |exact E]; [destruct (s_started st); auto|].
    intros st1 x1 E1. eapply nbind_more; [| |exact E1]; [auto|].
    intros st2 x2 E2. eapply nbind_more; [| |exact E2]; [auto|].
    intros st3 x3 E3. eapply nbind_more; [| |exact E3]; [auto|].
    intros st4 x4 E4. cbn beta in E4. destruct (num_events st4 =? 0)%nat; auto.
Qed.

Lemma exec_ge K p k st r : forall f g, (f <= g)%nat -> exec K p f k st = Some r ->
  exec K p g k st = Some r.
Proof.
  intros f g H. induction H as [|g H IH]; auto. intros E. apply exec_more. auto.
Qed.

(** ** Programs without runs within runs *)

Section FLAT.
Context (K : kind) (p : program) (Ht : tame p).
Notation I := (impl_of K).

Definition wf (st : state) : Prop :=
  s_thrown st = false /\ forall k, In k (s_queue st) -> (snd k < length (s_handles st))%nat.

Lemma insert_in k x q : In x (i_insert I k q) -> x = k \/ In x q.
Proof using.
  destruct K as [| |lib]; cbn.
  - induction q as [|y q IH]; cbn; [intuition auto|]. destruct (fst k <? fst y); cbn; intuition auto.
  - induction q as [|y q IH]; cbn; [intuition auto|]. destruct (key_lt k y); cbn; [intuition auto|].
    destruct (key_lt y k); cbn; intuition auto.
  - rewrite (lib_push_perm lib). cbn. intuition auto.
Qed.
Lemma insert_keeps k x q : In x q -> In x (i_insert I k q).
Proof using.
  destruct K as [| |lib]; cbn.
  - induction q as [|y q IH]; cbn; [intuition auto|]. destruct (fst k <? fst y); cbn; intuition auto.
  - induction q as [|y q IH]; cbn; [intuition auto|]. destruct (key_lt k y); cbn; [intuition auto|].
    destruct (key_lt y k); cbn; intuition auto.
  - rewrite (lib_push_perm lib). cbn. auto.
Qed.
Lemma during_in x q : In x (i_during I q) -> In x q.
Proof using.
  destruct K as [| |lib]; cbn; auto. destruct q as [|k q]; auto.
  rewrite (lib_pop_perm lib). cbn. auto.
Qed.
Lemma after_in k x q : In x (i_after I k q) -> In x q.
Proof using.
  destruct K as [| |lib]; cbn; auto.
  - destruct q; cbn; auto.
  - induction q as [|y q IH]; cbn; auto. destruct (key_eqb k y); cbn; intuition auto.
Qed.

Lemma wf_act a st : wf st -> wf (act I a st) /\
  (forall x, In x (s_queue st) -> In x (s_queue (act I a st))).
Proof using.
  intros [H1 H2]. destruct (act_cases I a st) as [[t [s [-> Hx]]]|[[e ->]|[->|[[id [-> Hid]]| ->]]]];
    unfold wf; cbn; auto.
  - split; [split; auto|].
    + intros k Hk. apply insert_in in Hk. rewrite app_length. cbn.
      destruct Hk as [->|Hk]; [cbn; lia|]. specialize (H2 _ Hk). lia.
    + intros x. apply insert_keeps.
  - split; auto. split; auto. rewrite update_length. auto.
Qed.

Lemma wf_acts l : forall st, wf st -> wf (acts I l st) /\
  (forall x, In x (s_queue st) -> In x (s_queue (acts I l st))).
Proof using.
  induction l as [|a l IH]; intros st H; cbn [acts fold_left]; auto.
  destruct (wf_act a st H) as [H1 H2]. destruct (IH _ H1) as [H3 H4]. split; auto.
Qed.

Lemma call_acts src st : wf st -> call I p src st = acts I (fst (p (s_trace st) src)) st.
Proof using All.
  intros H. unfold call. destruct (wf_acts (fst (p (s_trace st) src)) st H) as [[H1 _] _].
  rewrite Ht. destruct (acts I _ st); cbn in *. subst. reflexivity.
Qed.

Lemma wf_call src st : wf st -> wf (call I p src st) /\
  (forall x, In x (s_queue st) -> In x (s_queue (call I p src st))).
Proof using All. intros H. rewrite call_acts by auto. apply wf_acts. auto. Qed.

Lemma flat_ops l : forall st, exists f, exec K (flat p) f (TOps (map Act l)) st = Some (Done (acts I l st)).
Proof using.
  induction l as [|a l IH]; intros st; cbn [map acts fold_left]; [exists 1%nat; auto|].
  destruct (IH (act I a st)) as [f Hf]. exists (S (S f)).
  change (exec K (flat p) (S f) (TOps (map Act l)) (act I a st) = Some (Done (acts I l (act I a st)))).
  apply exec_more. exact Hf.
Qed.

Lemma flat_call src st : wf st -> exists f, exec K (flat p) f (TCall src) st = Some (Done (call I p src st)).
Proof using All.
  intros H. rewrite call_acts by auto. destruct (flat_ops (fst (p (s_trace st) src)) st) as [f Hf].
  exists (S f). exact Hf.
Qed.

Lemma flat_next st : wf st -> wf (fire_next I p st) /\
  exists f, exec K (flat p) f TNext st = Some (Done (fire_next I p st)).
Proof using All.
  intros H. pose proof H as [H1 H2].
  destruct (next_event I st) as [[t id]|] eqn:En.
  2:{ unfold fire_next. rewrite En. split; auto. exists 1%nat. cbn [exec]. rewrite En. auto. }
  assert (Hin : In (t, id) (s_queue st)).
  { unfold next_event in En. destruct K; cbn in En; destruct (s_queue st); inversion En; left; auto. }
  pose proof (H2 _ Hin) as Hid. cbn in Hid.
  destruct (fire_next_cases I p st t id Ht H1 En Hid) as [h [Eh Hf]].
  assert (Hfin : forall q, (forall x, In x (i_during I (s_queue st)) -> In x q) ->
    after_ok K (t, id) q = true).
  { intros q Hq. unfold next_event in En. destruct K as [| |lib]; cbn in En, Hq |- *; auto.
    - destruct q; auto. destruct (Hq _ Hin).
    - apply existsb_exists. exists (t, id). split; auto. unfold key_eqb. apply Nat.eqb_refl. }
  assert (Hw : forall st0, wf st0 -> forall k, wf (set_queue st0 (i_after I k (s_queue st0)))).
  { intros st0 [A B] k. split; auto. cbn. intros x Hx. apply after_in in Hx. auto. }
  destruct (h_sink h) as [s|] eqn:Es; cbn zeta in Hf; rewrite Hf; clear Hf.
  - set (e := entered st (i_during I (s_queue st)) id s).
    assert (We : wf e).
    { split; auto. cbn. rewrite update_length. intros k Hk. apply during_in in Hk. auto. }
    destruct (wf_call (SSink s) e We) as [Wc Hk].
    assert (Wl : wf (left_sink (call I p (SSink s) e) id)).
    { destruct Wc as [A B]. split; auto. cbn. rewrite update_length. auto. }
    split; [apply Hw; exact Wl|].
    destruct (flat_call (SSink s) e We) as [f Hf]. exists (S f). cbn [exec].
    rewrite En. cbn [snd set_queue s_handles]. rewrite Eh, Es.
    match goal with |- nbind (exec K (flat p) f (TCall (SSink s)) ?x) _ = _ => change x with e end.
    rewrite Hf. cbn [nbind]. unfold finish.
    match goal with |- context [after_ok K _ ?q] => rewrite (Hfin q) by exact Hk end. reflexivity.
  - split.
    + apply (Hw (log (set_queue st (i_during I (s_queue st))) (OTake id (s_now st) None))).
      split; auto. cbn. intros k Hk. apply during_in in Hk. auto.
    + exists 1%nat. cbn [exec]. rewrite En. cbn [snd set_queue s_handles]. rewrite Eh, Es.
      unfold finish. cbn [log s_queue]. rewrite Hfin by auto. reflexivity.
Qed.

Lemma flat_loop u : forall fuel st st', wf st -> loop I p u fuel st = Some st' ->
  wf st' /\ exists f, exec K (flat p) f (TLoop u) st = Some (Done st').
Proof using All.
  induction fuel as [|n IH]; intros st st' H E; [discriminate|]. cbn [loop] in E.
  destruct (s_paused st) eqn:Ep.
  { inversion E; subst. split; auto. exists 1%nat. cbn [exec]. rewrite Ep. auto. }
  destruct (next_event I st) as [[t0 id]|] eqn:En.
  2:{ inversion E; subst. split; [destruct u; auto|]. exists 1%nat. cbn [exec]. rewrite Ep, En. auto. }
  assert (Hl : match u with Some t => t <? t0 | None => false end = false ->
    (let st := fire_next I p (set_now st t0) in
     if s_thrown st then Some st else loop I p u n st) = Some st' ->
    wf st' /\ exists f, exec K (flat p) f (TLoop u) st = Some (Done st')).
  { intros Hu E0. cbn zeta in E0. destruct (flat_next (set_now st t0)) as [W [f Hf]]; [exact H|].
    assert (Hth : s_thrown (fire_next I p (set_now st t0)) = false) by apply W.
    rewrite Hth in E0. destruct (IH _ _ W E0) as [W2 [f2 Hf2]]. split; auto.
    exists (S (f + f2)). cbn [exec]. rewrite Ep, En. cbn [fst]. rewrite Hu.
    rewrite (exec_ge _ _ _ _ _ f (f + f2) ltac:(lia) Hf). cbn [nbind].
    apply (exec_ge _ _ _ _ _ f2); [lia|auto]. }
  destruct u as [t|]; [|apply Hl; auto].
  destruct (t <? t0) eqn:Eb; [|apply Hl; auto].
  inversion E; subst. split; auto. exists 1%nat. cbn [exec]. rewrite Ep, En. cbn [fst]. rewrite Eb. auto.
Qed.

Lemma flat_life l st : wf st -> wf (fire_life I p l st) /\
  exists f, exec K (flat p) f (TCall (SLife l)) (log st (OLife l)) = Some (Done (fire_life I p l st)).
Proof using All.
  intros H. assert (H' : wf (log st (OLife l))) by exact H. split.
  - apply wf_call; auto.
  - apply flat_call. auto.
Qed.

Lemma flat_run u fuel st r : wf st -> run I p fuel u st = Some r ->
  match r with Done st' => wf st' | _ => True end /\
  exists f, exec K (flat p) f (TRun u) st = Some r.
Proof using All.
  intros H E. unfold run in E.
  destruct (s_init st) eqn:Ei; cbn [negb] in E.
  2:{ inversion E; subst. split; auto. exists 1%nat. cbn [exec]. rewrite Ei. auto. }
  destruct (num_events st =? 0)%nat eqn:Ee.
  { inversion E; subst. split; auto. exists 1%nat. cbn [exec]. rewrite Ei, Ee. auto. }
  set (st1 := if s_started st then st else fire_life I p LBegin (set_started st true)) in E.
  assert (H1 : wf st1 /\ exists f, (if s_started st then Some (Done st)
     else exec K (flat p) f (TCall (SLife LBegin)) (log (set_started st true) (OLife LBegin))) = Some (Done st1)).
  { unfold st1. destruct (s_started st); [split; auto; exists 0%nat; auto|]. apply flat_life. exact H. }
  clearbody st1. destruct H1 as [W1 [f1 F1]].
  assert (T1 : s_thrown st1 = false) by apply W1. rewrite T1 in E. cbn zeta in E.
  destruct (flat_life LRun (set_paused st1 false) W1) as [W2 [f2 F2]].
  set (st2 := fire_life I p LRun (set_paused st1 false)) in *. clearbody st2.
  assert (T2 : s_thrown st2 = false) by apply W2. rewrite T2 in E.
  destruct (loop I p u fuel st2) as [st3|] eqn:E3; [|discriminate].
  destruct (flat_loop u fuel st2 st3 W2 E3) as [W3 [f3 F3]].
  assert (T3 : s_thrown st3 = false) by apply W3. rewrite T3 in E.
  destruct (flat_life LPause (set_paused st3 true) W3) as [W4 [f4 F4]].
  set (st4 := fire_life I p LPause (set_paused st3 true)) in *. clearbody st4.
  assert (T4 : s_thrown st4 = false) by apply W4. rewrite T4 in E.
  destruct (flat_life LEnd st4 W4) as [W5 [f5 F5]].
  inversion E; subst r. split; [destruct (num_events st4 =? 0)%nat; auto|].
  set (f := (f1 + f2 + f3 + f4 + f5)%nat). exists (S f). cbn [exec]. rewrite Ei, Ee. cbn [negb].
  assert (F1' : (if s_started st then Some (Done st)
     else exec K (flat p) f (TCall (SLife LBegin)) (log (set_started st true) (OLife LBegin))) = Some (Done st1)).
  { destruct (s_started st); auto. apply (exec_ge _ _ _ _ _ f1); [unfold f; lia|auto]. }
  rewrite F1'. cbn [nbind].
  rewrite (exec_ge _ _ _ _ _ f2 f ltac:(unfold f; lia) F2). cbn [nbind].
  rewrite (exec_ge _ _ _ _ _ f3 f ltac:(unfold f; lia) F3). cbn [nbind].
  rewrite (exec_ge _ _ _ _ _ f4 f ltac:(unfold f; lia) F4). cbn [nbind].
  destruct (num_events st4 =? 0)%nat; auto.
  apply (exec_ge _ _ _ _ _ f5); [unfold f; lia|auto].
Qed.

Lemma flat_step fuel o st st' : wf st -> step I p fuel o st = Some st' ->
  wf st' /\ exists f, exec K (flat p) f (TOp o) st = Some (Done st').
Proof using All.
  intros H E.
  assert (Hr : forall u, run_result st (run I p fuel u st) = Some st' ->
    wf st' /\ exists f, caught st (exec K (flat p) f (TRun u) st) = Some (Done st')).
  { intros u E0. destruct (run I p fuel u st) as [r|] eqn:Er; [|discriminate].
    destruct (flat_run u fuel st r H Er) as [W [f Hf]]. destruct r as [s| | |e]; cbn in E0.
    - inversion E0. assert (Hs : set_thrown s false = s).
      { destruct W as [W _]. destruct s; cbn in *. subst. reflexivity. }
      rewrite Hs. split; auto. exists f. rewrite Hf. reflexivity.
    - exfalso. clear - Er. unfold run in Er. destruct (negb (s_init st)); [discriminate|].
      destruct (num_events st =? 0)%nat; [discriminate|]. cbn zeta in Er.
      repeat match type of Er with
      | (if ?b then _ else _) = _ => destruct b; [discriminate|]
      | match ?b with Some _ => _ | None => _ end = _ => destruct b; [|discriminate]
      end. discriminate.
    - exfalso. clear - Er. unfold run in Er. destruct (negb (s_init st)); [discriminate|].
      destruct (num_events st =? 0)%nat; [discriminate|]. cbn zeta in Er.
      repeat match type of Er with
      | (if ?b then _ else _) = _ => destruct b; [discriminate|]
      | match ?b with Some _ => _ | None => _ end = _ => destruct b; [|discriminate]
      end. discriminate.
    - inversion E0. split; [exact H|]. exists f. rewrite Hf. reflexivity. }
  destruct o as [a| |t|dt]; cbn [step] in E.
  - inversion E. split; [apply wf_act; auto|]. exists 1%nat. reflexivity.
  - destruct (Hr _ E) as [W [f Hf]]. split; auto. exists (S f). exact Hf.
  - destruct (Hr _ E) as [W [f Hf]]. split; auto. exists (S f). exact Hf.
  - destruct (Hr _ E) as [W [f Hf]]. split; auto. exists (S f). exact Hf.
Qed.

Lemma flat_steps fuel l : forall st st', wf st -> steps I p fuel l st = Some st' ->
  exists f, nsteps K (flat p) f l st = Some (Done st').
Proof using All.
  induction l as [|o l IH]; intros st st' H E; cbn [steps] in E.
  - inversion E. exists 1%nat. reflexivity.
  - destruct (step I p fuel o st) as [st1|] eqn:E1; [|discriminate].
    destruct (flat_step _ _ _ _ H E1) as [W [f1 F1]]. destruct (IH _ _ W E) as [f2 F2].
    exists (S (f1 + f2)). unfold nsteps. cbn [exec].
    rewrite (exec_ge _ _ _ _ _ f1 (f1 + f2) ltac:(lia) F1). cbn [nbind].
    apply (exec_ge _ _ _ _ _ f2); [lia|exact F2].
Qed.
End FLAT.

(** ** A sink that runs the simulator, in a list or a set *)

(** Sink 0 calls [Run]. *)
Definition rerun : nprogram := fun _ src =>
  match src with SSink 0 => [Run] | _ => [] end.

Lemma rerun_nothing K f src st : src <> SSink 0 ->
  exec K rerun f (TCall src) st = None \/ exec K rerun f (TCall src) st = Some (Done st).
Proof.
  intros H. destruct f as [|[|f]]; auto. right. cbn [exec].
  assert (E : rerun (s_trace st) src = []).
  { destruct src as [[|s]|l]; auto. destruct (H eq_refl). }
  rewrite E. auto.
Qed.

Lemma rerun_endless K : K = KList \/ K = KSet -> forall n fuel t r h hs st, (fuel <= n)%nat ->
  s_init st = true -> s_started st = true -> s_queue st = (t, 0%nat) :: r ->
  s_handles st = h :: hs -> h_sink h = Some 0%nat ->
  exec K rerun fuel (TRun None) st = None.
Proof.
  intros HK. induction n as [|n IH]; intros fuel t r h hs st Hf Hi Hs Hq Hh Hsink.
  { assert (fuel = 0%nat) by lia. subst. auto. }
  destruct fuel as [|f]; auto. cbn [exec].
  assert (Hne : (num_events st =? 0)%nat = false) by (unfold num_events; rewrite Hq; auto).
  rewrite Hi, Hne, Hs. cbn [negb nbind].
  set (st2 := log (set_paused st false) (OLife LRun)).
  destruct (rerun_nothing K f (SLife LRun) st2) as [-> | ->]; [discriminate|auto|]. cbn [nbind].
  assert (El : exec K rerun f (TLoop None) st2 = None); [|rewrite El; auto].
  destruct f as [|f]; auto. cbn [exec]. cbn [s_paused st2 log set_paused].
  assert (En : next_event (impl_of K) st2 = Some (t, 0%nat)).
  { unfold next_event. cbn [s_queue st2 log set_paused]. rewrite Hq. destruct HK as [-> | ->]; auto. }
  unfold st2 in En |- *. rewrite En. cbn [fst].
  set (st3 := set_now _ t).
  assert (Ex : exec K rerun f TNext st3 = None); [|rewrite Ex; auto].
  destruct f as [|f]; auto. cbn [exec].
  change (next_event (impl_of K) st3) with (next_event (impl_of K) (log (set_paused st false) (OLife LRun))).
  rewrite En. cbn [snd]. unfold st3. cbn [set_queue s_handles set_now log set_paused]. rewrite Hh.
  cbn [nth_error]. rewrite Hsink.
  match goal with |- nbind ?x _ = _ => assert (E : x = None); [|rewrite E; auto] end.
  destruct f as [|f]; auto. cbn [exec]. cbn [rerun].
  destruct f as [|f]; auto. cbn [exec].
  match goal with |- nbind ?x _ = _ => assert (E : x = None); [|rewrite E; auto] end.
  destruct f as [|f]; auto. cbn [exec].
  match goal with |- caught _ ?x = _ => assert (E : x = None); [|rewrite E; auto] end.
  eapply (IH f t (match K with KHeap _ => [] | _ => r end)
    (mk_handle (h_time h) (h_sink h) true) hs); try reflexivity; try lia; auto.
  - unfold enter. cbn [s_queue set_handles log set_queue set_now set_paused]. rewrite Hq.
    destruct HK as [-> | ->]; auto.
  - unfold enter. cbn [s_handles set_handles log set_queue set_now set_paused update].
    rewrite Hh. auto.
Qed.
