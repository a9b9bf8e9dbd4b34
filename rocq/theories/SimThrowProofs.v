(** Lemmas for the simulator with sinks that throw exceptions. *)
From Coq Require Import Sorting.Sorted ZifyBool ZifyNat ZifyN.
From Verif Require Import Base Sim SimSpec SimProofs.
Open Scope Z_scope.

(** ** The heap scheduler, with any event program *)

(** The handle of an event that was not taken yet. *)
Definition waiting_ok (tr : list obs) (id : nat) (h : handle) : Prop :=
  exists s, scheduled tr id (h_time h) s /\
    ((h_sink h = Some s /\ ~ cancelled tr id) \/ (h_sink h = None /\ cancelled tr id)).

Record tinv (st : state) : Prop := {
  t_heap : is_heap (s_queue st);
  t_nodup : NoDup (s_queue st);
  t_pend : forall t id, In (t, id) (s_queue st) <->
             (exists s, scheduled (s_trace st) id t s) /\ ~ taken (s_trace st) id;
  t_num : num_scheduled (s_trace st) = length (s_handles st);
  t_wait : forall id h, nth_error (s_handles st) id = Some h ->
             ~ taken (s_trace st) id -> waiting_ok (s_trace st) id h;
  t_legal : legal (s_trace st);
  t_ahead : forall k, In k (s_queue st) -> s_now st <= fst k;
  t_time : forall id c s t s0, In (OTake id c s) (s_trace st) ->
             scheduled (s_trace st) id t s0 -> c = t;
  t_count : (length (s_queue st) + length (fired (s_trace st)) = num_scheduled (s_trace st))%nat
}.

Lemma taken_dec tr id : taken tr id \/ ~ taken tr id.
Proof.
  induction tr as [|o tr [[c [s H]]|H]].
  - right. intros [c [s []]].
  - left. exists c, s. right. auto.
  - destruct o as [| | | |i c s|];
      try (right; intros [c' [s' [E|E]]]; [discriminate|apply H; exists c', s'; auto]).
    destruct (Nat.eq_dec i id) as [->|Hne].
    + left. exists c, s. left. auto.
    + right. intros [c' [s' [E|E]]]; [congruence|apply H; exists c', s'; auto].
Qed.

Lemma tinv_ready : tinv ready.
Proof.
  constructor; cbn; auto.
  - intros i a b _ H _. destruct ((i - 1) / 2)%nat; discriminate.
  - constructor.
  - intros t id. split; [intros []|]. intros [[s []] _].
  - intros id h H. destruct id; discriminate.
  - apply legal_nil.
  - intros k [].
  - intros id c s t s0 [].
Qed.

Lemma fired_snoc tr o : fired (tr ++ [o]) = fired tr ++ fired [o].
Proof. unfold fired. rewrite flat_map_app. reflexivity. Qed.

Lemma tinv_same st st' : tinv st -> s_queue st' = s_queue st -> s_handles st' = s_handles st ->
  s_trace st' = s_trace st -> s_now st' = s_now st -> tinv st'.
Proof.
  intros [] E1 E2 E3 E4. constructor; rewrite ?E1, ?E2, ?E3, ?E4; auto.
Qed.

Definition plain (o : obs) : Prop :=
  match o with OReject _ | OPause | OLife _ => True | _ => False end.

Lemma tinv_plain st o : tinv st -> plain o -> tinv (log st o).
Proof.
  intros [H1 H2 H3 H4 H5 H6 H7 H8 H9] Ho.
  assert (Hsc : forall i t s, scheduled (s_trace st ++ [o]) i t s <-> scheduled (s_trace st) i t s).
  { intros i t s. unfold scheduled. rewrite in_snoc. split; auto.
    intros [?|E]; auto. subst; destruct Ho. }
  assert (Hcan : forall i, cancelled (s_trace st ++ [o]) i <-> cancelled (s_trace st) i).
  { intros i. unfold cancelled. rewrite in_snoc. split; auto.
    intros [?|E]; auto. subst; destruct Ho. }
  assert (Htk : forall i, taken (s_trace st ++ [o]) i <-> taken (s_trace st) i).
  { intros i. rewrite taken_snoc. split; auto.
    intros [?|[c [s E]]]; auto. subst; destruct Ho. }
  constructor; cbn; auto.
  - intros t id. rewrite H3, Htk. setoid_rewrite Hsc. tauto.
  - rewrite num_scheduled_snoc, H4. destruct o; cbn in *; try contradiction; lia.
  - intros id h Hh Ht. rewrite Htk in Ht. destruct (H5 _ _ Hh Ht) as [s Hs].
    exists s. rewrite Hsc, Hcan. auto.
  - apply legal_snoc. split; auto. destruct o; cbn in *; auto; contradiction.
  - intros id c s t s0 Hi Hs. rewrite in_snoc in Hi. rewrite Hsc in Hs.
    destruct Hi as [Hi|Hi]; [eauto|]. subst; destruct Ho.
  - rewrite fired_snoc, app_length, num_scheduled_snoc.
    destruct o; cbn in *; try contradiction; lia.
Qed.

Section Heap.
Variable lib : heap_lib.
Let I := heap_impl lib.

Lemma tinv_sched t s st : tinv st -> s_now st <= t -> tinv (sched_state I t s st).
Proof using All.
  intros [H1 H2 H3 H4 H5 H6 H7 H8 H9] Hle.
  set (n := length (s_handles st)) in *.
  assert (Hnt : ~ taken (s_trace st) n).
  { intros Ht. destruct (taken_scheduled _ H6 _ Ht) as [t' [s' Hs]].
    apply (scheduled_bound _ H6) in Hs. lia. }
  assert (Hni : forall t', ~ In (t', n) (s_queue st)).
  { intros t' Hi. apply H3 in Hi. destruct Hi as [[s' Hs] _].
    apply (scheduled_bound _ H6) in Hs. lia. }
  assert (Htk : forall id, taken (s_trace st ++ [OSched n t s]) id <-> taken (s_trace st) id).
  { intros id. rewrite taken_snoc. split; auto. intros [?|[c [s' E]]]; auto. discriminate. }
  assert (Hcan : forall id, cancelled (s_trace st ++ [OSched n t s]) id <-> cancelled (s_trace st) id).
  { intros id. unfold cancelled. rewrite in_snoc. split; auto. intros [?|E]; auto. discriminate. }
  pose proof (lib_push_perm lib (s_queue st) (t, n)) as Hp.
  assert (Hin : forall k, In k (lib_push lib (s_queue st) (t, n)) <-> (t, n) = k \/ In k (s_queue st)).
  { intros k. split; intros Hk.
    - apply (Permutation_in _ Hp) in Hk. exact Hk.
    - apply (Permutation_in _ (Permutation_sym Hp)). exact Hk. }
  unfold sched_state. fold n. constructor; cbn.
  - apply lib_push_heap. auto.
  - apply (Permutation_NoDup (Permutation_sym Hp)). constructor; auto.
  - intros t' id. rewrite Hin, H3, Htk. unfold scheduled. setoid_rewrite in_snoc.
    split.
    + intros [E|[[s' Hs] Ht]].
      * inversion E; subst. split; [exists s; auto|auto].
      * split; eauto.
    + intros [[s' [Hs|E]] Ht].
      * right. split; eauto.
      * inversion E; subst. auto.
  - rewrite num_scheduled_snoc, app_length. cbn. lia.
  - intros id h Hh Ht. rewrite Htk in Ht. destruct (Nat.lt_ge_cases id n) as [Hlt|Hge].
    + rewrite nth_error_app1 in Hh by auto. destruct (H5 _ _ Hh Ht) as [s' [Hs Hr]].
      exists s'. rewrite Hcan. split; auto. apply in_snoc; left; exact Hs.
    + rewrite nth_error_app2 in Hh by auto. fold n in Hh.
      destruct (id - n)%nat as [|m] eqn:E; [|destruct m; discriminate].
      cbn in Hh. inversion Hh; subst h. assert (id = n) by lia. subst id.
      exists s. rewrite Hcan. cbn. split; [apply in_snoc; auto|].
      left. split; auto.
      intros Hc. apply in_split in Hc. destruct Hc as [l1 [l2 E2]].
      pose proof (H6 _ _ _ E2) as Hl. cbn in Hl. rewrite E2 in H4.
      assert (num_scheduled l1 <= num_scheduled (l1 ++ OCancel n :: l2))%nat.
      { unfold num_scheduled. rewrite filter_app, app_length. lia. }
      lia.
  - apply legal_snoc. split; auto. cbn. lia.
  - intros k Hk. apply Hin in Hk. destruct Hk as [<-|Hk]; auto.
  - intros id c s1 t' s0 Hi Hs. rewrite in_snoc in Hi. destruct Hi as [Hi|Hi]; [|discriminate].
    unfold scheduled in Hs. rewrite in_snoc in Hs. destruct Hs as [Hs|Hs]; [eauto|].
    inversion Hs; subst. exfalso. apply Hnt. exists c, s1. auto.
  - rewrite (Permutation_length Hp), fired_snoc, app_length, num_scheduled_snoc. cbn. lia.
Qed.

Lemma tinv_cancel id st : tinv st -> (id < length (s_handles st))%nat ->
  tinv (log (cancel id st) (OCancel id)).
Proof using All.
  intros [H1 H2 H3 H4 H5 H6 H7 H8 H9] Hid.
  assert (Htk : forall i, taken (s_trace st ++ [OCancel id]) i <-> taken (s_trace st) i).
  { intros i. rewrite taken_snoc. split; auto. intros [?|[c [s' E]]]; auto. discriminate. }
  assert (Hsc : forall i t s, scheduled (s_trace st ++ [OCancel id]) i t s <-> scheduled (s_trace st) i t s).
  { intros i t s. unfold scheduled. rewrite in_snoc. split; auto. intros [?|E]; auto. discriminate. }
  assert (Hcan : forall i, cancelled (s_trace st ++ [OCancel id]) i <-> cancelled (s_trace st) i \/ i = id).
  { intros i. unfold cancelled. rewrite in_snoc. split; intros [?|E]; auto; try (inversion E; auto; fail); subst; auto. }
  constructor; cbn; auto.
  - intros t i. rewrite H3, Htk. setoid_rewrite Hsc. tauto.
  - rewrite num_scheduled_snoc, H4, update_length. cbn. lia.
  - intros i h Hh Ht. rewrite Htk in Ht. rewrite nth_update in Hh.
    destruct (Nat.eqb_spec id i) as [<-|Hne].
    + destruct (nth_error (s_handles st) id) as [h0|] eqn:E; [|discriminate].
      cbn in Hh. inversion Hh; subst h. destruct (H5 _ _ E Ht) as [s [Hs _]].
      exists s. cbn. rewrite Hsc, Hcan. split; auto.
    + destruct (H5 _ _ Hh Ht) as [s [Hs Hq]]. exists s. rewrite Hsc, Hcan.
      split; auto. destruct Hq as [[Ha Hb]|[Ha Hb]]; [left|right]; split; auto.
      intros [?|?]; auto.
  - apply legal_snoc. split; auto. cbn. lia.
  - intros i c s t s0 Hi Hs. rewrite in_snoc in Hi. rewrite Hsc in Hs.
    destruct Hi as [Hi|Hi]; [eauto|discriminate].
  - rewrite fired_snoc, app_length, num_scheduled_snoc. cbn. lia.
Qed.

Lemma tinv_act a st : tinv st -> tinv (act I a st).
Proof using All.
  intros H. destruct (act_cases I a st) as [[t [s [-> Ht]]]|[[e ->]|[->|[[id [-> Hid]]| ->]]]].
  - apply tinv_sched; auto.
  - apply tinv_plain; cbn; auto.
  - auto.
  - apply tinv_cancel; auto.
  - apply tinv_plain; [|cbn; auto]. eapply tinv_same; eauto.
Qed.

Lemma tinv_acts l : forall st, tinv st -> tinv (acts I l st).
Proof using All.
  induction l as [|a l IH]; intros st H; cbn; auto. apply IH. apply tinv_act. auto.
Qed.

Lemma tinv_call p src st : tinv st -> tinv (call I p src st).
Proof using All.
  intros H. unfold call. eapply tinv_same; [apply tinv_acts; exact H|..]; reflexivity.
Qed.

Lemma tinv_life p l st : tinv st -> tinv (fire_life I p l st).
Proof using All. intros H. apply tinv_call. apply tinv_plain; cbn; auto. Qed.

(** What is written to the handle of an event that was taken does not matter. *)
Lemma tinv_touch st id f : tinv st -> taken (s_trace st) id ->
  tinv (set_handles st (update (s_handles st) id f)).
Proof using All.
  intros [] Ht. constructor; cbn; auto.
  - rewrite update_length. auto.
  - intros i h Hh Hi. rewrite nth_update in Hh.
    destruct (Nat.eqb_spec id i) as [<-|Hne]; [contradiction|]. auto.
Qed.

Lemma tinv_take st t id q h : tinv st -> s_queue st = (t, id) :: q ->
  nth_error (s_handles st) id = Some h ->
  tinv (log (set_queue (set_now st t) (lib_pop lib (t, id) q)) (OTake id t (h_sink h))).
Proof using All.
  intros [H1 H2 H3 H4 H5 H6 H7 H8 H9] Eq Eh.
  assert (Hin : In (t, id) (s_queue st)) by (rewrite Eq; left; auto).
  pose proof (proj1 (H3 _ _) Hin) as [[s0 Hs0] Hnt].
  destruct (H5 _ _ Eh Hnt) as [s1 [Hs1 Hsink]].
  destruct (scheduled_unique _ H6 _ _ _ _ _ Hs0 Hs1) as [_ <-].
  set (o := OTake id t (h_sink h)).
  assert (Hsc : forall i t s, scheduled (s_trace st ++ [o]) i t s <-> scheduled (s_trace st) i t s).
  { intros i t' s. unfold scheduled. rewrite in_snoc. split; auto. intros [?|E]; auto. discriminate. }
  assert (Hcan : forall i, cancelled (s_trace st ++ [o]) i <-> cancelled (s_trace st) i).
  { intros i. unfold cancelled. rewrite in_snoc. split; auto. intros [?|E]; auto. discriminate. }
  assert (Htk : forall i, taken (s_trace st ++ [o]) i <-> taken (s_trace st) i \/ i = id).
  { intros i. rewrite taken_snoc. split.
    - intros [?|[c [s E]]]; auto. inversion E; auto.
    - intros [?| ->]; auto. right. eexists _, _. reflexivity. }
  pose proof (lib_pop_perm lib (t, id) q) as Hp.
  assert (Hq : forall k, In k (lib_pop lib (t, id) q) <-> In k q).
  { intros k. split; intros Hk.
    - apply (Permutation_in _ Hp) in Hk. exact Hk.
    - apply (Permutation_in _ (Permutation_sym Hp)). exact Hk. }
  rewrite Eq in *. inversion H2 as [|? ? Hni Hnd]; subst.
  constructor; cbn.
  - apply lib_pop_heap. auto.
  - apply (Permutation_NoDup (Permutation_sym Hp)). auto.
  - intros t' i. rewrite Hq, Htk. setoid_rewrite Hsc.
    pose proof (H3 t' i) as Hx. cbn in Hx. split.
    + intros Hi. destruct (proj1 Hx (or_intror Hi)) as [Ha Hb]. split; auto.
      intros [?| ->]; auto. destruct Ha as [s Ha].
      destruct (scheduled_unique _ H6 _ _ _ _ _ Hs0 Ha) as [<- _]. auto.
    + intros [Ha Hb]. destruct (proj2 Hx) as [E|?]; auto.
      inversion E; subst. tauto.
  - rewrite num_scheduled_snoc, H4. cbn. lia.
  - intros i h' Hh Hi. rewrite Htk in Hi.
    destruct (H5 _ _ Hh ltac:(tauto)) as [s [Hs Hr]].
    exists s. rewrite Hsc, Hcan. auto.
  - apply legal_snoc. split; auto. cbn. exists t, s0. split; auto. split; auto. split.
    + intros id' t' s' Hs'' Hnt'.
      assert (Hi : In (t', id') ((t, id) :: q)) by (apply H3; split; eauto).
      destruct (heap_root _ _ H1 _ Hi) as [E|E]; auto. inversion E; auto.
    + exact Hsink.
  - intros k Hk. apply Hq in Hk.
    destruct (heap_root _ _ H1 k (or_intror Hk)) as [->|E]; [cbn; lia|].
    unfold earlier in E. cbn in E. lia.
  - intros i c s t' s' Hi Hs. rewrite Hsc in Hs. rewrite in_snoc in Hi.
    destruct Hi as [Hi|Hi]; [eauto|]. unfold o in Hi. inversion Hi; subst.
    destruct (scheduled_unique _ H6 _ _ _ _ _ Hs0 Hs) as [<- _]. auto.
  - rewrite (Permutation_length Hp), fired_snoc, app_length, num_scheduled_snoc. cbn in *. lia.
Qed.

Lemma tinv_handle st t id : tinv st -> In (t, id) (s_queue st) ->
  exists h, nth_error (s_handles st) id = Some h.
Proof using All.
  intros H Hi. apply (t_pend _ H) in Hi. destruct Hi as [[s Hs] _].
  apply (scheduled_bound _ (t_legal _ H)) in Hs. rewrite (t_num _ H) in Hs.
  destruct (nth_error (s_handles st) id) as [h|] eqn:E; eauto.
  apply nth_error_None in E. lia.
Qed.

(** The record only grows. *)
Lemma grows_act a st : exists l, s_trace (act I a st) = s_trace st ++ l.
Proof using All.
  destruct (act_cases I a st) as [[t [s [-> Ht]]]|[[e ->]|[->|[[id [-> Hid]]| ->]]]];
    try (eexists; reflexivity). exists []. rewrite app_nil_r. auto.
Qed.
Lemma grows_acts l : forall st, exists m, s_trace (acts I l st) = s_trace st ++ m.
Proof using All.
  induction l as [|a l IH]; intros st; cbn.
  - exists []. rewrite app_nil_r. auto.
  - destruct (IH (act I a st)) as [m E]. destruct (grows_act a st) as [m' E'].
    exists (m' ++ m). unfold acts in E. rewrite E, E', app_assoc. auto.
Qed.
Lemma grows_call p src st : exists m, s_trace (call I p src st) = s_trace st ++ m.
Proof using All. unfold call. cbn. apply grows_acts. Qed.

(** One event. *)
Lemma tinv_fire_next p st t id : tinv st -> next_event I st = Some (t, id) ->
  let st' := fire_next I p (set_now st t) in
  tinv st' /\ exists s m, s_trace st' = s_trace st ++ OTake id t s :: m.
Proof using All.
  intros H En. unfold next_event in En. cbn in En.
  destruct (s_queue st) as [|k q] eqn:Eq; [discriminate|]. cbn in En. inversion En; subst k.
  destruct (tinv_handle st t id H) as [h Eh]; [rewrite Eq; left; auto|].
  pose proof (tinv_take st t id q h H Eq Eh) as Ht.
  unfold fire_next, next_event. cbn [i_head I heap_impl s_queue set_now]. rewrite Eq. cbn [hd_error].
  cbn [i_during i_after I heap_impl snd]. unfold fire.
  cbn [s_handles set_queue set_now s_now]. rewrite Eh.
  set (st0 := log (set_queue (set_now st t) (lib_pop lib (t, id) q)) (OTake id t (h_sink h))) in *.
  cbv zeta.
  assert (Hc : forall x, set_queue x (s_queue x) = x) by (intros []; reflexivity).
  destruct (h_sink h) as [s|] eqn:Es.
  - match goal with |- context [set_handles ?a ?b] => set (st1 := set_handles a b) in * end.
    assert (Htk : taken (s_trace st1) id).
    { unfold st1. cbn. apply taken_snoc. right. eexists _, _. reflexivity. }
    assert (H1 : tinv st1).
    { unfold st1. apply (tinv_touch st0); auto. }
    pose proof (tinv_call p (SSink s) st1 H1) as H2.
    destruct (grows_call p (SSink s) st1) as [m Em].
    set (st2 := call I p (SSink s) st1) in *.
    assert (Etr : s_trace st2 = s_trace st ++ OTake id t (Some s) :: m).
    { rewrite Em. unfold st1. cbn. rewrite <- app_assoc. reflexivity. }
    assert (Htk2 : taken (s_trace st2) id).
    { rewrite Etr. exists t, (Some s). apply in_or_app. right. left. auto. }
    destruct (s_thrown st2) eqn:E2.
    + cbn [s_thrown]. rewrite E2. split; auto. exists (Some s), m. auto.
    + cbn [s_thrown set_handles]. rewrite E2. rewrite Hc.
      split; [apply tinv_touch; auto|]. exists (Some s), m. auto.
  - change (set_queue (log _ _) _) with st0 in *.
    match goal with |- context [if s_thrown ?x then _ else _] => change x with st0 end.
    rewrite Hc. assert (Hd : (if s_thrown st0 then st0 else st0) = st0) by (destruct (s_thrown st0); auto).
    rewrite Hd. split; auto. exists None, []. cbn. auto.
Qed.

Lemma tinv_clock st t : tinv st -> (forall k, In k (s_queue st) -> t <= fst k) -> tinv (set_now st t).
Proof using All. intros [] Ht. constructor; cbn; auto. Qed.

Lemma heap_first st t id : tinv st -> next_event I st = Some (t, id) ->
  forall k, In k (s_queue st) -> t <= fst k.
Proof using All.
  intros H En k Hk. unfold next_event in En. cbn in En.
  destruct (s_queue st) as [|k0 q] eqn:Eq; [discriminate|]. cbn in En. inversion En; subst k0.
  pose proof (t_heap _ H) as Hh. rewrite Eq in Hh.
  destruct (heap_root _ _ Hh _ Hk) as [->|E]; [cbn; lia|]. unfold earlier in E. cbn in E. lia.
Qed.

Lemma tinv_loop p until fuel : forall st st', tinv st -> loop I p until fuel st = Some st' ->
  tinv st'.
Proof using All.
  induction fuel as [|fuel IH]; intros st st' H E; [discriminate|]. cbn [loop] in E.
  destruct (s_paused st); [inversion E; subst; auto|].
  destruct (next_event I st) as [[t0 id]|] eqn:En.
  - pose proof (tinv_fire_next p st t0 id H En) as [Hf _].
    destruct until as [t|].
    + destruct (Z.ltb_spec t t0).
      * inversion E; subst. apply tinv_clock; auto. intros k Hk.
        pose proof (heap_first _ _ _ H En k Hk). lia.
      * destruct (s_thrown (fire_next I p (set_now st t0))); [inversion E; subst; auto|eauto].
    + destruct (s_thrown (fire_next I p (set_now st t0))); [inversion E; subst; auto|eauto].
  - unfold next_event in En. cbn in En. destruct (s_queue st) eqn:Eq; [|discriminate].
    destruct until as [t|]; inversion E; subst; auto.
    apply tinv_clock; auto. rewrite Eq. intros k [].
Qed.

Lemma tinv_run p fuel until st st' : tinv st -> run I p fuel until st = Some (Done st') -> tinv st'.
Proof using All.
  intros H E. unfold run in E.
  destruct (s_init st); [|discriminate]. cbn [negb] in E.
  destruct (num_events st =? 0)%nat; [discriminate|].
  set (st1 := if s_started st then st else fire_life I p LBegin (set_started st true)) in *.
  assert (H1 : tinv st1).
  { unfold st1. destruct (s_started st); auto. apply tinv_life. eapply tinv_same; eauto. }
  clearbody st1. destruct (s_thrown st1); [inversion E; subst; auto|].
  set (st2 := fire_life I p LRun (set_paused st1 false)) in *.
  assert (H2 : tinv st2) by (apply tinv_life; eapply tinv_same; eauto). clearbody st2.
  destruct (s_thrown st2); [inversion E; subst; auto|].
  destruct (loop I p until fuel st2) as [st3|] eqn:El; [|discriminate].
  assert (H3 : tinv st3) by (eapply tinv_loop; eauto).
  destruct (s_thrown st3); [inversion E; subst; auto|].
  set (st4 := fire_life I p LPause (set_paused st3 true)) in *.
  assert (H4 : tinv st4) by (apply tinv_life; eapply tinv_same; eauto). clearbody st4.
  destruct (s_thrown st4); [inversion E; subst; auto|].
  destruct (num_events st4 =? 0)%nat; inversion E; subst; auto. apply tinv_life. auto.
Qed.

Lemma tinv_reachable p st : reachable I p st -> tinv st.
Proof using All.
  induction 1 as [|fuel o st st' _ IH E]; [apply tinv_ready|].
  assert (Hr : forall u, run_result st (run I p fuel u st) = Some st' -> tinv st').
  { intros u Er. destruct (run I p fuel u st) as [r|] eqn:E0; [|discriminate].
    destruct r as [s| | |e]; cbn in Er; inversion Er; subst; auto.
    - eapply tinv_same; [eapply tinv_run; eauto|..]; reflexivity.
    - apply tinv_plain; cbn; auto. }
  destruct o as [a| |t|dt]; cbn [step] in E; eauto.
  - inversion E; subst. apply tinv_act. auto.
Qed.

End Heap.

(** ** All schedulers: the event that threw *)

Definition known (st : state) : Prop :=
  forall k, In k (s_queue st) -> (snd k < length (s_handles st))%nat.

(** The containers hold only what was inserted. *)
Definition bounded (I : impl) : Prop :=
  (forall q k, i_head I q = Some k -> In k q) /\
  (forall q x, In x (i_during I q) -> In x q) /\
  (forall k q x, In x (i_insert I k q) -> x = k \/ In x q) /\
  (forall k q x, In x (i_after I k q) -> In x q).

(** The containers that fire the event before they remove it. *)
Definition keeps (I : impl) : Prop :=
  (forall q, i_head I q = hd_error q) /\ (forall q, i_during I q = q) /\
  (forall k k0 q, fst k0 <= fst k -> (snd k0 < snd k)%nat ->
     hd_error q = Some k0 -> hd_error (i_insert I k q) = Some k0).

Lemma hd_in (q : list key) k : hd_error q = Some k -> In k q.
Proof. destruct q; [discriminate|]. intros H. inversion H. left; auto. Qed.

Lemma list_bounded : bounded list_impl.
Proof.
  split; [apply hd_in|]. split; [auto|]. cbn. split.
  - intros k q. induction q as [|y q IH]; intros x; cbn; [intuition|].
    destruct (fst k <? fst y); cbn; [intuition|]. intros [?|H]; auto. apply IH in H. intuition.
  - intros _ q x Hx. destruct q; [destruct Hx|right; auto].
Qed.

Lemma set_bounded : bounded set_impl.
Proof.
  split; [apply hd_in|]. split; [auto|]. cbn. split.
  - intros k q. induction q as [|y q IH]; intros x; cbn; [intuition|].
    destruct (key_lt k y); cbn; [intuition|]. destruct (key_lt y k); cbn; [|intuition].
    intros [?|H]; auto. apply IH in H. intuition.
  - intros k q. induction q as [|y q IH]; intros x; cbn; [tauto|].
    destruct (key_eqb k y); cbn; auto. intros [?|H]; auto.
Qed.

Lemma heap_bounded lib : bounded (heap_impl lib).
Proof.
  split; [apply hd_in|]. cbn. split; [|split; auto].
  - intros [|k q] x Hx; [destruct Hx|]. right.
    eapply Permutation_in; [apply (lib_pop_perm lib)|exact Hx].
  - intros k q x Hx. apply (Permutation_in _ (lib_push_perm lib q k)) in Hx.
    destruct Hx; auto.
Qed.

Lemma scheduler_bounded I : scheduler I -> bounded I.
Proof.
  intros [->|[->|[lib ->]]]; [apply list_bounded|apply set_bounded|apply heap_bounded].
Qed.

Lemma list_keeps : keeps list_impl.
Proof.
  split; [reflexivity|]. split; [reflexivity|]. cbn.
  intros k k0 q H1 H2 Hq. destruct q as [|y q]; [discriminate|]. cbn in *. inversion Hq; subst y.
  destruct (Z.ltb_spec (fst k) (fst k0)); [lia|]. reflexivity.
Qed.

Lemma set_keeps : keeps set_impl.
Proof.
  split; [reflexivity|]. split; [reflexivity|]. cbn.
  intros k k0 q H1 H2 Hq. destruct q as [|y q]; [discriminate|]. cbn in *. inversion Hq; subst y.
  assert (E : key_lt k k0 = false).
  { apply key_lt_false. unfold earlier. lia. }
  rewrite E. destruct (key_lt k0 k); reflexivity.
Qed.

Section Any.
Variable I : impl.
Hypothesis HB : bounded I.

(** What a callback does. *)
Record client_step (st st' : state) : Prop := {
  cs_known : known st -> known st';
  cs_now : s_now st' = s_now st;
  cs_thrown : s_thrown st' = s_thrown st;
  cs_len : (length (s_handles st) <= length (s_handles st'))%nat;
  cs_rec : exists m, s_trace st' = s_trace st ++ m /\ Forall client_obs m /\
    forall id h, nth_error (s_handles st) id = Some h -> ~ In (OCancel id) m ->
      nth_error (s_handles st') id = Some h;
  cs_front : keeps I -> known st -> forall k0, hd_error (s_queue st) = Some k0 ->
    fst k0 <= s_now st -> hd_error (s_queue st') = Some k0
}.

Lemma client_refl st : client_step st st.
Proof using All.
  constructor; auto. exists []. rewrite app_nil_r. auto.
Qed.

Lemma client_trans a b c : client_step a b -> client_step b c -> client_step a c.
Proof using All.
  intros [A1 A2 A3 A4 [m [A5 [A6 A7]]] A8] [B1 B2 B3 B4 [n [B5 [B6 B7]]] B8].
  constructor; auto; try congruence; try lia.
  - exists (m ++ n). split; [rewrite B5, A5, app_assoc; auto|]. split; [apply Forall_app; auto|].
    intros id h Hh Hn. rewrite in_app_iff in Hn. apply B7; [apply A7|]; tauto.
  - intros Hk H1 k0 H2 H3. apply B8; auto. congruence.
Qed.

Lemma client_act a st : client_step st (act I a st).
Proof using All.
  destruct HB as [Hb1 [Hb2 [Hb3 Hb4]]].
  destruct (act_cases I a st) as [[t [s [-> Ht]]]|[[e ->]|[->|[[id [-> Hid]]| ->]]]].
  - unfold sched_state. constructor; cbn; auto.
    + intros Hk k Hin. cbn in *. rewrite app_length. cbn. apply Hb3 in Hin.
      destruct Hin as [->|Hin]; [cbn; lia|]. apply Hk in Hin. lia.
    + rewrite app_length. lia.
    + eexists. split; [reflexivity|]. split; [repeat constructor|].
      intros i h Hh _. rewrite nth_error_app1; auto. apply nth_error_Some. congruence.
    + intros [_ [_ Hf]] Hk k0 H1 H2. apply Hf; cbn; auto; [lia|].
      apply Hk. apply hd_in. auto.
  - constructor; cbn; auto. eexists. split; [reflexivity|]. split; [repeat constructor|auto].
  - apply client_refl.
  - constructor; cbn; auto.
    + intros Hk k Hin. cbn in *. rewrite update_length. auto.
    + rewrite update_length. lia.
    + eexists. split; [reflexivity|]. split; [repeat constructor|].
      intros i h Hh Hn. rewrite nth_update. destruct (Nat.eqb_spec id i); auto.
      subst. exfalso. apply Hn. left; auto.
  - constructor; cbn; auto. eexists. split; [reflexivity|]. split; [repeat constructor|auto].
Qed.

Lemma client_acts l : forall st, client_step st (acts I l st).
Proof using All.
  induction l as [|a l IH]; intros st; cbn; [apply client_refl|].
  eapply client_trans; [apply client_act|apply IH].
Qed.

Lemma known_call p src st : known st -> known (call I p src st).
Proof using All. intros H. apply (cs_known _ _ (client_acts (fst (p (s_trace st) src)) st) H). Qed.

(** One event. *)
Lemma fire_next_any p st t id : known st -> s_thrown st = false ->
  next_event I st = Some (t, id) ->
  let st' := fire_next I p (set_now st t) in
  known st' /\
  (s_thrown st' = true -> exists s m,
     s_trace st' = s_trace st ++ OTake id t (Some s) :: m /\ Forall client_obs m /\
     (~ In (OCancel id) m -> exists h, nth_error (s_handles st') id = Some h /\
        h_sink h = Some s /\ h_running h = true) /\
     (keeps I -> next_event I st' = Some (t, id))).
Proof using All.
  intros Hk Hth En. pose proof HB as [Hb1 [Hb2 [Hb3 Hb4]]].
  assert (Hid : (id < length (s_handles st))%nat).
  { unfold next_event in En. apply Hb1 in En. apply Hk in En. exact En. }
  destruct (nth_error (s_handles st) id) as [h|] eqn:Eh; [|apply nth_error_None in Eh; lia].
  assert (Ek : forall st1, known st1 -> known (set_queue st1 (i_after I (t, id) (s_queue st1)))).
  { intros st1 H1 k Hin. cbn in *. apply Hb4 in Hin. auto. }
  unfold fire_next. unfold next_event in *. cbn [s_queue set_now]. rewrite En. cbn [snd].
  unfold fire. cbn [s_handles set_queue set_now s_now]. rewrite Eh.
  set (st0 := log (set_queue (set_now st t) (i_during I (s_queue st))) (OTake id t (h_sink h))).
  assert (H0 : known st0).
  { intros k Hin. unfold st0 in *. cbn in *. apply Hb2 in Hin. auto. }
  cbv zeta. destruct (h_sink h) as [s|] eqn:Es.
  - match goal with |- context [set_handles ?a ?b] => set (st1 := set_handles a b) in * end.
    assert (H1 : known st1).
    { intros k Hin. unfold st1 in *. cbn in *. rewrite update_length. apply Hb2 in Hin. auto. }
    pose proof (client_acts (fst (p (s_trace st1) (SSink s))) st1) as Hc.
    pose proof (known_call p (SSink s) st1 H1) as H2.
    set (st2 := call I p (SSink s) st1) in *.
    destruct (s_thrown st2) eqn:E2.
    + cbn [s_thrown]. rewrite E2. split; auto. intros _.
      destruct Hc as [_ _ _ _ [m [C1 [C2 C3]]] C4]. exists s, m.
      split. { change (s_trace st2) with (s_trace (acts I (fst (p (s_trace st1) (SSink s))) st1)).
               rewrite C1. unfold st1. cbn. rewrite <- app_assoc. reflexivity. }
      split; auto. split.
      * intros Hn. eexists. split.
        { change (s_handles st2) with (s_handles (acts I (fst (p (s_trace st1) (SSink s))) st1)).
          apply C3; auto. unfold st1. cbn. rewrite nth_update, Nat.eqb_refl, Eh. reflexivity. }
        cbn. auto.
      * intros Hkp. pose proof Hkp as [K1 [K2 _]].
        change (s_queue st2) with (s_queue (acts I (fst (p (s_trace st1) (SSink s))) st1)).
        rewrite K1. apply C4; auto.
        -- unfold st1. cbn. rewrite K2. rewrite <- K1. auto.
        -- unfold st1. cbn. lia.
    + cbn [s_thrown set_handles]. rewrite E2. split.
      * apply Ek. intros k Hin. cbn in *. rewrite update_length. auto.
      * intros Hx. exfalso. change (s_thrown st2 = true) in Hx. congruence.
  - assert (E0 : s_thrown st0 = false) by exact Hth.
    change (set_queue (log _ _) _) with st0 in *.
    match goal with |- context [if s_thrown ?x then _ else _] => change x with st0 end.
    rewrite E0. split; [apply Ek; auto|]. cbn. rewrite Hth. discriminate.
Qed.

Lemma loop_thrown p until fuel : forall st st', known st -> s_thrown st = false ->
  loop I p until fuel st = Some st' ->
  known st' /\
  (s_thrown st' = true -> exists tr id t s m,
     s_trace st' = tr ++ OTake id t (Some s) :: m /\ Forall client_obs m /\
     (~ In (OCancel id) m -> exists h, nth_error (s_handles st') id = Some h /\
        h_sink h = Some s /\ h_running h = true) /\
     (keeps I -> next_event I st' = Some (t, id))).
Proof using All.
  induction fuel as [|fuel IH]; intros st st' Hk Hth E; [discriminate|]. cbn [loop] in E.
  destruct (s_paused st); [inversion E; subst; split; [auto|congruence]|].
  destruct (next_event I st) as [[t0 id]|] eqn:En.
  - pose proof (fire_next_any p st t0 id Hk Hth En) as [Hf Hf'].
    set (st1 := fire_next I p (set_now st t0)) in *.
    assert (Hx : (if s_thrown st1 then Some st1 else loop I p until fuel st1) = Some st' ->
      known st' /\
      (s_thrown st' = true -> exists tr id t s m,
         s_trace st' = tr ++ OTake id t (Some s) :: m /\ Forall client_obs m /\
         (~ In (OCancel id) m -> exists h, nth_error (s_handles st') id = Some h /\
            h_sink h = Some s /\ h_running h = true) /\
         (keeps I -> next_event I st' = Some (t, id)))).
    { intros E'. destruct (s_thrown st1) eqn:E1; [|eauto]. inversion E'; subst st'. split; auto.
      intros Ht. destruct (Hf' eq_refl) as [s [m Hm]]. exists (s_trace st), id, t0, s, m. auto. }
    destruct until as [t|]; [destruct (t <? t0)|]; auto.
    inversion E; subst. split; [exact Hk|]. cbn. congruence.
  - destruct until; inversion E; subst; split; auto; cbn; congruence.
Qed.

(** The last thing that is not done by a callback. *)
Lemma last_client tr1 o1 m1 tr2 o2 m2 : Forall client_obs m1 -> Forall client_obs m2 ->
  ~ client_obs o1 -> ~ client_obs o2 -> tr1 ++ o1 :: m1 = tr2 ++ o2 :: m2 ->
  tr1 = tr2 /\ o1 = o2 /\ m1 = m2.
Proof using.
  revert tr2. induction tr1 as [|x tr1 IH]; intros tr2 H1 H2 N1 N2 E.
  - destruct tr2 as [|y tr2]; cbn in E; inversion E; subst; auto.
    exfalso. rewrite Forall_forall in H1. apply N2. apply H1. apply in_or_app. right. left. auto.
  - destruct tr2 as [|y tr2]; cbn in E; inversion E; subst.
    + exfalso. rewrite Forall_forall in H2. apply N1. apply H2. apply in_or_app. right. left. auto.
    + destruct (IH tr2) as [-> [-> ->]]; auto.
Qed.

Lemma life_not l : ~ client_obs (OLife l).
Proof using. intros []. Qed.
Lemma take_not id t s : ~ client_obs (OTake id t s).
Proof using. intros []. Qed.

Lemma life_trace p l st : exists m, s_trace (fire_life I p l st) = s_trace st ++ OLife l :: m /\
  Forall client_obs m.
Proof using All.
  unfold fire_life, call.
  pose proof (cs_rec _ _ (client_acts (fst (p (s_trace (log st (OLife l))) (SLife l))) (log st (OLife l))))
    as [m [E [Hm _]]].
  exists m. split; auto. cbn in *. rewrite E, <- app_assoc. reflexivity.
Qed.

Lemma known_life p l st : known st -> known (fire_life I p l st).
Proof using All. intros H. apply known_call. exact H. Qed.

Lemma run_any p fuel until st st' : known st -> s_thrown st = false ->
  run I p fuel until st = Some (Done st') ->
  known st' /\
  (s_thrown st' = true -> forall tr id t s m,
     s_trace st' = tr ++ OTake id t s :: m -> Forall client_obs m ->
     (~ In (OCancel id) m -> exists h, nth_error (s_handles st') id = Some h /\
        h_sink h = s /\ is_running h = true) /\
     (keeps I -> next_event I st' = Some (t, id))).
Proof using All.
  intros H Hth E. unfold run in E.
  destruct (s_init st); [|discriminate]. cbn [negb] in E.
  destruct (num_events st =? 0)%nat; [discriminate|].
  assert (HL : forall l st0, known st0 -> let st' := fire_life I p l st0 in
    known st' /\
    (s_thrown st' = true -> forall tr id t s m,
     s_trace st' = tr ++ OTake id t s :: m -> Forall client_obs m ->
     (~ In (OCancel id) m -> exists h, nth_error (s_handles st') id = Some h /\
        h_sink h = s /\ is_running h = true) /\
     (keeps I -> next_event I st' = Some (t, id)))).
  { intros l st0 H0 st0'. split; [apply known_life; auto|].
    intros _ tr id t s m E1 Hm. exfalso.
    destruct (life_trace p l st0) as [m0 [E2 Hm0]]. unfold st0' in E1. rewrite E2 in E1.
    destruct (last_client _ _ _ _ _ _ Hm0 Hm (life_not l) (take_not id t s) E1) as [_ [E3 _]].
    discriminate. }
  set (st1 := if s_started st then st else fire_life I p LBegin (set_started st true)) in *.
  assert (H1 : known st1) by (unfold st1; destruct (s_started st); auto; apply known_life; exact H).
  destruct (s_thrown st1) eqn:E1.
  { inversion E; subst st'. unfold st1 in *. destruct (s_started st); [congruence|]. apply HL. exact H. }
  clearbody st1.
  destruct (s_thrown (fire_life I p LRun (set_paused st1 false))) eqn:E2.
  { inversion E; subst st'. apply HL. exact H1. }
  set (st2 := fire_life I p LRun (set_paused st1 false)) in *.
  assert (H2 : known st2) by (apply known_life; exact H1). clearbody st2.
  destruct (loop I p until fuel st2) as [st3|] eqn:El; [|discriminate].
  destruct (loop_thrown p until fuel st2 st3 H2 E2 El) as [H3 H3'].
  destruct (s_thrown st3) eqn:E3.
  { inversion E; subst st'. split; auto. intros _ tr id t s m Em Hm.
    destruct (H3' eq_refl) as [tr' [id' [t' [s' [m' [Em' [Hm' [Ha Hb]]]]]]]].
    rewrite Em' in Em.
    destruct (last_client _ _ _ _ _ _ Hm' Hm (take_not id' t' (Some s')) (take_not id t s) Em) as [-> [Eo ->]].
    inversion Eo; subst. split; auto. intros Hn. destruct (Ha Hn) as [h [X1 [X2 X3]]].
    exists h. split; auto. split; auto. unfold is_running. rewrite X2. auto. }
  destruct (s_thrown (fire_life I p LPause (set_paused st3 true))) eqn:E4.
  { inversion E; subst st'. apply HL. exact H3. }
  set (st4 := fire_life I p LPause (set_paused st3 true)) in *.
  assert (H4 : known st4) by (apply known_life; exact H3). clearbody st4.
  destruct (num_events st4 =? 0)%nat; inversion E; subst st'.
  - apply HL. exact H4.
  - split; auto. congruence.
Qed.

Lemma known_reachable p st : reachable I p st -> known st /\ s_thrown st = false.
Proof using All.
  induction 1 as [|fuel o st st' _ [IH1 IH2] E].
  - split; [intros k []|reflexivity].
  - assert (Hr : forall u, run_result st (run I p fuel u st) = Some st' -> known st' /\ s_thrown st' = false).
    { intros u Er. destruct (run I p fuel u st) as [r|] eqn:E0; [|discriminate].
      destruct r as [s| | |e]; cbn in Er; inversion Er; subst; auto.
      split; [|reflexivity]. apply (run_any _ _ _ _ _ IH1 IH2 E0). }
    destruct o as [a| |t|dt]; cbn [step] in E; eauto.
    inversion E; subst. pose proof (client_act a st) as Hc. split.
    + apply (cs_known _ _ Hc). auto.
    + rewrite (cs_thrown _ _ Hc). auto.
Qed.

End Any.
