(** Proofs about the arithmetic on the simulation clock. *)
From Coq Require Import ZifyBool ZifyNat.
From Verif Require Import Base Sim SimProofs Nested NestedProofs Duration DurationSpec DurationProofs
  Clock64 Clock64Spec.
Open Scope Z_scope.
#[local] Arguments time_min : simpl never.
#[local] Arguments time_max : simpl never.

(** ** The sum *)

Lemma vt_add_cases t d : vt_add t d = UB \/ vt_add t d = Done (t + d) /\ is_count (t + d).
Proof.
  assert (E : forall c, convert vt_den (common vt_den vt_den) c = checked c).
  { intros c. change (convert vt_den (common vt_den vt_den) c) with (checked (Z.quot c 1)).
    rewrite Z.quot_1_r. reflexivity. }
  assert (C : forall z, checked z = UB \/ checked z = Done z /\ is_count z).
  { intros z. unfold checked. destruct (in_int64 z) eqn:Ez; auto. right. split; auto.
    apply (checked_done z z). unfold checked. rewrite Ez. auto. }
  unfold vt_add, add. rewrite !E.
  destruct (C t) as [->|[-> _]]; cbn [obind]; auto.
  destruct (C d) as [->|[-> _]]; cbn [obind]; auto.
Qed.

Lemma vt_add_in t d : is_count t -> is_count d -> is_count (t + d) -> vt_add t d = Done (t + d).
Proof. intros A B C. rewrite (proj1 (vt_add_eq t d A B)). apply checked_ok. auto. Qed.

Lemma vt_add_out t d : ~ is_count (t + d) -> vt_add t d = UB.
Proof. intros H. destruct (vt_add_cases t d) as [E|[E C]]; tauto. Qed.

(** ** The clock of the scheduler is set once and for all *)

Lemma act_clock I a st : s_clock (act I a st) = s_clock st.
Proof.
  destruct (act_cases I a st) as [[t [s [-> _]]]|[[e ->]|[->|[[id [-> _]]| ->]]]]; reflexivity.
Qed.

Lemma exec_clock K p fuel k st st' : exec K p fuel k st = Some (Done st') ->
  s_clock st' = s_clock st.
Proof.
  revert k st st'. induction fuel as [|f IH]; intros k st st' E; [discriminate|]. cbn [exec] in E.
  assert (Hc : forall u, caught st (exec K p f (TRun u) st) = Some (Done st') ->
    s_clock st' = s_clock st).
  { intros u E0. apply caught_done in E0. destruct E0 as [E0|[e [E0 ->]]]; eauto. }
  destruct k as [o|l|src| |u|u].
  - destruct o; eauto. inversion E. apply act_clock.
  - destruct l as [|o l]; [inversion E; auto|]. apply nbind_done in E. destruct E as [st1 [E1 E2]].
    apply IH in E1, E2. congruence.
  - eauto.
  - destruct (next_event (impl_of K) st) as [k|]; [|inversion E; auto].
    destruct (nth_error _ _) as [h|]; [|discriminate]. destruct (h_sink h).
    + apply nbind_done in E. destruct E as [st1 [E1 E2]]. apply IH in E1. cbn in E1.
      apply finish_done in E2. destruct E2 as [_ ->]. exact E1.
    + apply finish_done in E. destruct E as [_ ->]. reflexivity.
  - destruct (s_paused st); [inversion E; auto|].
    destruct (next_event (impl_of K) st) as [k|]; [|destruct u; inversion E; auto].
    destruct (match u with Some t => t <? fst k | None => false end); [destruct u; inversion E; auto|].
    apply nbind_done in E. destruct E as [st1 [E1 E2]]. apply IH in E1, E2. cbn in E1. congruence.
  - destruct (negb (s_init st)); [discriminate|]. destruct (num_events st =? 0)%nat; [discriminate|].
    apply nbind_done in E. destruct E as [st1 [E1 E]].
    apply nbind_done in E. destruct E as [st2 [E2 E]].
    apply nbind_done in E. destruct E as [st3 [E3 E]].
    apply nbind_done in E. destruct E as [st4 [E4 E]].
    assert (C1 : s_clock st1 = s_clock st).
    { destruct (s_started st); [inversion E1; auto|]. apply IH in E1. auto. }
    apply IH in E2, E3, E4. cbn in E2, E4.
    destruct (num_events st4 =? 0)%nat; [apply IH in E; cbn in E|inversion E; subst]; congruence.
Qed.

(** ** Either overflow or the ideal machine *)

Lemma act64_cases I a st : s_clock st = true ->
  act64 I a st = UB \/ act64 I a st = Done (act I a st).
Proof.
  intros C. destruct a as [t s|dt s|s|id|]; cbn [act64 act]; auto; rewrite ?C; cbn [negb].
  - destruct (vt_add_cases (s_now st) dt) as [->|[-> _]]; cbn [obind]; auto.
    right. unfold schedule_in. rewrite C. reflexivity.
  - right. unfold schedule_now. rewrite C. reflexivity.
Qed.

Lemma nbind_either m m' g g' : m' = Some UB \/ m' = m ->
  (forall st, m = Some (Done st) -> g' st = Some UB \/ g' st = g st) ->
  nbind m' g' = Some UB \/ nbind m' g' = nbind m g.
Proof.
  intros [->| ->] Hg; [left; reflexivity|]. destruct m as [[st| | |]|]; cbn; auto.
Qed.

Lemma exec64_either K p : forall fuel k st, s_clock st = true ->
  exec64 K p fuel k st = Some UB \/ exec64 K p fuel k st = exec K p fuel k st.
Proof.
  induction fuel as [|f IH]; intros k st C; [right; reflexivity|]. cbn [exec64 exec].
  assert (Hc : forall u, caught st (exec64 K p f (TRun u) st) = Some UB \/
    caught st (exec64 K p f (TRun u) st) = caught st (exec K p f (TRun u) st)).
  { intros u. destruct (IH (TRun u) st C) as [->| ->]; auto. }
  destruct k as [o|l|src| |u|u].
  - destruct o as [a| |t|dt]; auto.
    + destruct (act64_cases (impl_of K) a st C) as [->| ->]; auto.
    + destruct (vt_add_cases (s_now st) dt) as [->|[-> _]]; auto.
  - destruct l as [|o l]; auto. apply nbind_either; [apply IH; auto|].
    intros st1 E1. apply IH. apply exec_clock in E1. congruence.
  - auto.
  - destruct (next_event (impl_of K) st) as [k|]; auto.
    destruct (nth_error _ _) as [h|]; auto. destruct (h_sink h); auto.
    apply nbind_either; [apply IH; auto|auto].
  - destruct (s_paused st); auto. destruct (next_event (impl_of K) st) as [k|]; auto.
    destruct (match u with Some t => t <? fst k | None => false end); auto.
    apply nbind_either; [apply IH; auto|]. intros st1 E1. apply IH.
    apply exec_clock in E1. cbn in E1. congruence.
  - destruct (negb (s_init st)); auto. destruct (num_events st =? 0)%nat; auto.
    apply nbind_either; [destruct (s_started st); auto|]. intros st1 E1.
    assert (C1 : s_clock st1 = true).
    { destruct (s_started st); [inversion E1; subst; auto|]. apply exec_clock in E1. cbn in E1. congruence. }
    apply nbind_either; [apply IH; auto|]. intros st2 E2. apply exec_clock in E2. cbn in E2.
    apply nbind_either; [apply IH; congruence|]. intros st3 E3. apply exec_clock in E3.
    apply nbind_either; [apply IH; cbn; congruence|]. intros st4 E4. apply exec_clock in E4. cbn in E4.
    destruct (num_events st4 =? 0)%nat; auto. apply IH. cbn. congruence.
Qed.

(** ** More fuel does not matter *)

Lemma exec64_more K p : forall fuel k st r, exec64 K p fuel k st = Some r ->
  exec64 K p (S fuel) k st = Some r.
Proof.
  induction fuel as [|f IH]; intros k st r E; [discriminate|].
  set (g := S f) in *. cbn [exec64]. unfold g in E. cbn [exec64] in E.
  assert (Hc : forall u r, caught st (exec64 K p f (TRun u) st) = Some r ->
    caught st (exec64 K p g (TRun u) st) = Some r).
  { intros u r0 E0. destruct (exec64 K p f (TRun u) st) as [x|] eqn:E1; [|discriminate].
    apply IH in E1. rewrite E1. auto. }
  destruct k as [o|l|src| |u|u].
  - destruct o; auto. destruct (vt_add (s_now st) dt); auto.
  - destruct l as [|o l]; auto. eapply nbind_more; [| |exact E]; intros; apply IH; auto.
  - auto.
  - destruct (next_event (impl_of K) st) as [k|]; auto.
    destruct (nth_error _ _) as [h|]; auto. destruct (h_sink h); auto.
    eapply nbind_more; [| |exact E]; intros; [apply IH|]; auto.
  - destruct (s_paused st); auto. destruct (next_event (impl_of K) st) as [k|]; auto.
    destruct (match u with Some t => t <? fst k | None => false end); auto.
    eapply nbind_more; [| |exact E]; intros; apply IH; auto.
  - destruct (negb (s_init st)); auto. destruct (num_events st =? 0)%nat; auto.
    eapply nbind_more; [| |exact E]; [destruct (s_started st); auto|].
    intros st1 x1 E1. eapply nbind_more; [| |exact E1]; [auto|].
    intros st2 x2 E2. eapply nbind_more; [| |exact E2]; [auto|].
    intros st3 x3 E3. eapply nbind_more; [| |exact E3]; [auto|].
    intros st4 x4 E4. cbn beta in E4. destruct (num_events st4 =? 0)%nat; auto.
Qed.

(** One more call at the end. *)
Lemma exec64_snoc K p o r : forall fuel l st st1,
  exec64 K p fuel (TOps l) st = Some (Done st1) ->
  (forall f, exec64 K p (S f) (TOp o) st1 = Some r) -> r = UB ->
  exec64 K p (S fuel) (TOps (l ++ [o])) st = Some r.
Proof.
  induction fuel as [|f IH]; intros l st st1 E H Hr; [discriminate|].
  destruct l as [|x l]; cbn [exec64] in E.
  - inversion E; subst st1. change ([] ++ [o]) with [o].
    change (exec64 K p (S (S f)) (TOps [o]) st) with
      (nbind (exec64 K p (S f) (TOp o) st) (exec64 K p (S f) (TOps []))).
    rewrite H, Hr. reflexivity.
  - apply nbind_done in E. destruct E as [st2 [E1 E2]].
    change (exec64 K p (S (S f)) (TOps ((x :: l) ++ [o])) st) with
      (nbind (exec64 K p (S f) (TOp x) st) (exec64 K p (S f) (TOps (l ++ [o])))).
    rewrite (exec64_more _ _ _ _ _ _ E1). cbn [nbind]. eapply IH; eauto.
Qed.

(** ** Within a horizon *)

(** The containers make up no events. *)
Lemma insert_in K k q x : In x (i_insert (impl_of K) k q) -> x = k \/ In x q.
Proof.
  destruct K as [| |lib]; cbn.
  - induction q as [|y q IH]; cbn [list_insert]; intros H.
    + destruct H as [<-|[]]; auto.
    + destruct (fst k <? fst y); destruct H as [<-|H]; cbn; auto. apply IH in H. tauto.
  - induction q as [|y q IH]; cbn [set_insert]; intros H.
    + destruct H as [<-|[]]; auto.
    + destruct (key_lt k y); [destruct H as [<-|H]; auto|].
      destruct (key_lt y k); [|auto]. destruct H as [<-|H]; cbn; auto. apply IH in H. tauto.
  - intros H. apply (Permutation_in _ (lib_push_perm lib q k)) in H. destruct H as [<-|H]; auto.
Qed.

Lemma during_in K q x : In x (i_during (impl_of K) q) -> In x q.
Proof.
  destruct K as [| |lib]; cbn; auto. destruct q as [|k q]; cbn; auto.
  intros H. right. apply (Permutation_in _ (lib_pop_perm lib k q)). auto.
Qed.

Lemma after_in K k q x : In x (i_after (impl_of K) k q) -> In x q.
Proof.
  destruct K as [| |lib]; cbn; auto.
  - destruct q; cbn; auto.
  - induction q as [|y q IH]; cbn [set_erase]; auto. destruct (key_eqb k y); cbn; auto.
    intros [<-|H]; auto.
Qed.

Lemma head_in K q x : i_head (impl_of K) q = Some x -> In x q.
Proof.
  destruct K as [| |lib]; cbn; destruct q; cbn; intros E; inversion E; auto.
Qed.

Section HORIZON.
Context (K : kind) (p : nprogram) (H : Z) (Hp : calm H p) (Hmax : 0 <= H <= time_max).

(** The clock reads at most [h]; nothing is pending before the earliest time
    point. *)
Record good (h : Z) (st : state) : Prop := mk_good {
  g_clock : s_clock st = true;
  g_low : time_min <= s_now st;
  g_high : s_now st <= h;
  g_queue : forall x, In x (s_queue st) -> time_min <= fst x
}.

Definition fine (a : action) : Prop := within H a.

Lemma good_le h h' st : h <= h' -> good h st -> good h' st.
Proof using. intros L [A B C D]. constructor; auto. lia. Qed.

Lemma good_same h st st' : good h st -> s_clock st' = s_clock st -> s_now st' = s_now st ->
  s_queue st' = s_queue st -> good h st'.
Proof using.
  intros [A B C D] E1 E2 E3. constructor; rewrite ?E1, ?E2, ?E3; auto.
Qed.

Lemma act_good h a st : good h st -> good h (act (impl_of K) a st).
Proof using.
  intros G. destruct (act_cases (impl_of K) a st)
    as [[t [s [-> Ht]]]|[[e ->]|[->|[[id [-> _]]| ->]]]]; auto;
    try (eapply good_same; [exact G|reflexivity..]).
  destruct G as [A B C D]. constructor; cbn; auto. intros x Hx.
  apply insert_in in Hx. destruct Hx as [->|Hx]; auto. cbn. lia.
Qed.

Lemma act64_same h a st : good h st -> h <= H -> fine a ->
  act64 (impl_of K) a st = Done (act (impl_of K) a st).
Proof using Hmax.
  intros [A B C D] L F. destruct a as [t s|dt s|s|id|]; cbn [act64 act]; auto; rewrite ?A; cbn [negb].
  - cbn in F. unfold time_max, time_min in *. rewrite vt_add_in.
    + cbn [obind]. unfold schedule_in. rewrite A. reflexivity.
    + unfold is_count. lia.
    + unfold is_count. lia.
    + unfold is_count. lia.
  - unfold schedule_now. rewrite A. reflexivity.
Qed.

(** The tasks within a run, and what they need. *)
Definition task_ok (k : task) : Prop :=
  match k with
  | TOp o => exists a, o = Act a /\ fine a
  | TOps l => forall o, In o l -> exists a, o = Act a /\ fine a
  | TLoop None => False
  | TRun None => False
  | _ => True
  end.
Definition ends (k : task) (h : Z) : Prop :=
  match k with
  | TLoop (Some t) | TRun (Some t) => time_min <= t <= h
  | _ => True
  end.

Lemma nbind_same m m' g g' (Q : state -> Prop) (R : state -> Prop) :
  m' = m /\ (forall st, m = Some (Done st) -> Q st) ->
  (forall st, Q st -> g' st = g st /\ (forall st', g st = Some (Done st') -> R st')) ->
  nbind m' g' = nbind m g /\ (forall st', nbind m g = Some (Done st') -> R st').
Proof using.
  intros [-> Hm] Hg. destruct m as [[st| | |]|]; cbn; try (split; [auto|discriminate]).
  apply Hg. auto.
Qed.

Lemma finish_good h k st : good h st -> forall st', finish K k st = Some (Done st') -> good h st'.
Proof using.
  intros G st' E. apply finish_done in E. destruct E as [_ ->]. destruct G as [A B C D].
  constructor; cbn; auto. intros x Hx. apply after_in in Hx. auto.
Qed.

Lemma exec64_same : forall fuel k st h, good h st -> h <= H -> task_ok k -> ends k h ->
  exec64 K p fuel k st = exec K p fuel k st /\
  (forall st', exec K p fuel k st = Some (Done st') -> good h st').
Proof using Hp Hmax.
  induction fuel as [|f IH]; intros k st h G L T E; [split; [auto|discriminate]|].
  cbn [exec64 exec]. destruct k as [o|l|src| |u|u].
  - destruct T as [a [-> F]]. rewrite (act64_same h) by auto. split; auto.
    intros st' Es. inversion Es. apply act_good. auto.
  - destruct l as [|o l]; [split; auto; intros st' Es; inversion Es; subst; auto|].
    apply nbind_same with (Q := good h).
    + apply IH; auto. cbn in T |- *. auto.
    + intros st1 G1. apply IH; auto. cbn in T |- *. auto.
  - apply IH; auto. cbn. intros o Ho. apply Hp in Ho. auto.
  - destruct (next_event (impl_of K) st) as [k|] eqn:En;
      [|split; auto; intros st' Es; inversion Es; subst; auto].
    assert (G1 : good h (set_queue st (i_during (impl_of K) (s_queue st)))).
    { destruct G as [A B C D]. constructor; cbn; auto. intros x Hx. apply during_in in Hx. auto. }
    destruct (nth_error _ _) as [hd|]; [|split; [auto|discriminate]].
    destruct (h_sink hd) as [s|].
    + apply nbind_same with (Q := good h).
      * apply IH; cbn; auto. eapply good_same; [exact G1|reflexivity..].
      * intros st1 G2. split; auto. apply finish_good. eapply good_same; [exact G2|reflexivity..].
    + split; auto. apply finish_good. eapply good_same; [exact G1|reflexivity..].
  - destruct u as [t|]; [|destruct T]. cbn in E.
    assert (Gt : forall st' , Some (Done (set_now st t)) = Some (Done st') -> good h st').
    { intros st' Es. inversion Es. destruct G as [A B C D]. constructor; cbn; auto; lia. }
    destruct (s_paused st); [split; auto; intros st' Es; inversion Es; subst; auto|].
    destruct (next_event (impl_of K) st) as [k|] eqn:En; [|split; auto].
    destruct (Z.ltb_spec t (fst k)); [split; auto|].
    apply nbind_same with (Q := good h).
    + apply IH; cbn; auto. apply head_in in En. destruct G as [A B C D].
      pose proof (D _ En). constructor; cbn; auto; lia.
    + intros st1 G1. apply IH; auto.
  - destruct u as [t|]; [|destruct T]. cbn in E.
    destruct (negb (s_init st)); [split; [auto|discriminate]|].
    destruct (num_events st =? 0)%nat; [split; [auto|discriminate]|].
    apply nbind_same with (Q := good h).
    { destruct (s_started st); [split; auto; intros st' Es; inversion Es; subst; auto|].
      apply IH; cbn; auto. eapply good_same; [exact G|reflexivity..]. }
    intros st1 G1. apply nbind_same with (Q := good h).
    { apply IH; cbn; auto. eapply good_same; [exact G1|reflexivity..]. }
    intros st2 G2. apply nbind_same with (Q := good h).
    { apply IH; cbn; auto. }
    intros st3 G3. apply nbind_same with (Q := good h).
    { apply IH; cbn; auto. eapply good_same; [exact G3|reflexivity..]. }
    intros st4 G4. destruct (num_events st4 =? 0)%nat.
    + apply IH; cbn; auto. eapply good_same; [exact G4|reflexivity..].
    + split; auto. intros st' Es. inversion Es; subst; auto.
Qed.

Lemma reaches_le : forall l h, reaches H h l -> h <= H.
Proof using.
  clear Hp Hmax. induction l as [|[a| |t|dt] l IH]; cbn; intros h R; auto.
  - apply IH. tauto.
  - tauto.
  - destruct R as [_ R]. apply IH in R. lia.
  - destruct R as [? R]. apply IH in R. lia.
Qed.

Lemma caught_same h st m m' : good h st ->
  m' = m /\ (forall st', m = Some (Done st') -> good h st') ->
  caught st m' = caught st m /\ (forall st', caught st m = Some (Done st') -> good h st').
Proof using.
  intros G [-> Hm]. split; auto. intros st' E. apply caught_done in E.
  destruct E as [E|[e [_ ->]]]; auto. eapply good_same; [exact G|reflexivity..].
Qed.

Lemma ops64_same : forall fuel l st h, good h st -> 0 <= h -> reaches H h l ->
  exec64 K p fuel (TOps l) st = exec K p fuel (TOps l) st /\
  (forall st', exec K p fuel (TOps l) st = Some (Done st') -> good H st').
Proof using Hp Hmax.
  induction fuel as [|f IH]; intros l st h G Lh R; [split; [auto|discriminate]|].
  pose proof (reaches_le _ _ R) as L. cbn [exec64 exec].
  destruct l as [|o l].
  { split; auto. intros st' Es. inversion Es; subst. eapply good_le; eauto. }
  destruct o as [a| |t|dt]; cbn [reaches] in R.
  - destruct R as [F R]. apply nbind_same with (Q := good h); [|intros; eapply IH; eauto; lia].
    apply exec64_same; cbn; eauto.
  - destruct R.
  - destruct R as [Lt R]. pose proof (reaches_le _ _ R).
    apply nbind_same with (Q := good (Z.max h t)); [|intros; eapply IH; eauto; lia].
    destruct f as [|f]; [split; [auto|discriminate]|]. cbn [exec64 exec].
    apply caught_same; [apply (good_le h); [lia|auto]|].
    apply exec64_same; cbn; auto; try lia. apply (good_le h); [lia|auto].
  - destruct R as [Ld R]. pose proof (reaches_le _ _ R).
    apply nbind_same with (Q := good (h + dt)); [|intros; eapply IH; eauto; lia].
    destruct f as [|f]; [split; [auto|discriminate]|]. cbn [exec64 exec].
    pose proof (g_low _ _ G). pose proof (g_high _ _ G). rewrite vt_add_in.
    + apply caught_same; [apply (good_le h); [lia|auto]|].
      apply exec64_same; cbn; auto; try lia. apply (good_le h); [lia|auto].
    + unfold is_count, time_min, time_max in *. lia.
    + unfold is_count, time_min, time_max in *. lia.
    + unfold is_count, time_min, time_max in *. lia.
Qed.

End HORIZON.

(** ** A sink that schedules itself for ever *)

Section TICKER.
Context (K : kind) (dt : Z).

Record ticking (t : Z) (st : state) : Prop := mk_ticking {
  k_clock : s_clock st = true;
  k_paused : s_paused st = false;
  k_sink : exists id s, s_queue st = [(t, id)] /\
    nth_error (s_handles st) id = Some (mk_handle t (Some s) false)
}.

Lemma insert_one k : i_insert (impl_of K) k [] = [k].
Proof using.
  destruct K as [| |lib]; cbn; auto.
  pose proof (lib_push_perm lib [] k) as Hq. apply Permutation_sym, Permutation_length_1_inv in Hq. auto.
Qed.

(** The container, once an event at [t] has scheduled another one later on. *)
Lemma one_tick t id n k : (id < n)%nat -> 0 < dt -> k = (t, id) ->
  let q := i_insert (impl_of K) (t + dt, n) (i_during (impl_of K) [k]) in
  after_ok K k q = true /\ i_after (impl_of K) k q = [(t + dt, n)].
Proof using.
  intros L D ->. destruct K as [| |lib]; cbn - [Z.ltb Z.eqb].
  - replace (t + dt <? t) with false by lia. auto.
  - unfold key_lt, key_eqb. cbn - [Z.ltb Z.eqb Nat.eqb]. replace (t + dt <? t) with false by lia.
    replace (t + dt =? t) with false by lia. replace (t <? t + dt) with true by lia.
    cbn. unfold key_eqb. cbn. rewrite Nat.eqb_refl. auto.
  - pose proof (lib_pop_perm lib (t, id) []) as Hq.
    apply Permutation_sym, Permutation_nil in Hq. rewrite Hq.
    pose proof (lib_push_perm lib [] (t + dt, n)) as H2.
    apply Permutation_sym, Permutation_length_1_inv in H2. rewrite H2. auto.
Qed.

Lemma head_one k : i_head (impl_of K) [k] = Some k.
Proof using. destruct K; reflexivity. Qed.

Lemma tick t st f : ticking t st -> 0 < dt -> is_count t -> is_count dt ->
  (~ is_count (t + dt) /\ exec64 K (ticker dt) (5 + f) TNext (set_now st t) = Some UB) \/
  (exists st', exec64 K (ticker dt) (5 + f) TNext (set_now st t) = Some (Done st') /\
    ticking (t + dt) st' /\ is_count (t + dt)).
Proof using.
  intros [C P [id [s [Q Hh]]]] D Ct Cd.
  assert (Lid : (id < length (s_handles st))%nat).
  { apply nth_error_Some. rewrite Hh. discriminate. }
  change (5 + f)%nat with (S (S (S (S (S f))))).
  cbn [exec64]. unfold next_event. cbn [set_now s_queue s_handles set_queue].
  rewrite Q, head_one. cbn [snd fst]. rewrite Hh. cbn [h_sink ticker].
  cbn [exec64 act64 enter set_handles log set_queue set_now s_clock s_now]. rewrite C. cbn [negb].
  assert (E : is_count (t + dt) \/ ~ is_count (t + dt)) by (unfold is_count; lia).
  destruct E as [E|E].
  2:{ left. split; auto. rewrite vt_add_out by auto. reflexivity. }
  right. rewrite vt_add_in by auto. cbn [obind].
  unfold schedule_at, finish, leave, enter.
  cbn [set_handles set_queue set_now log s_queue s_handles s_clock s_paused s_trace s_now nbind].
  rewrite C. cbn [negb]. replace (t + dt <? t) with false by lia. cbn [sched_result].
  cbn [set_handles set_queue set_now log s_queue s_handles s_clock s_paused s_trace s_now].
  rewrite update_length.
  destruct (one_tick t id (length (s_handles st)) (t, id)) as [A B]; auto. cbv zeta in A, B.
  rewrite A, B. eexists. split; [reflexivity|]. split; [|exact E]. constructor; cbn; auto.
  exists (length (s_handles st)), s. split; auto.
  rewrite nth_update. replace (Nat.eqb id (length (s_handles st))) with false by lia.
  rewrite nth_error_app2 by (rewrite update_length; lia). rewrite update_length, Nat.sub_diag. reflexivity.
Qed.

Lemma ticks : forall n t st, ticking t st -> 0 < dt -> is_count t -> is_count dt ->
  time_max - t < Z.of_nat n * dt ->
  exec64 K (ticker dt) (6 + n) (TLoop None) st = Some UB.
Proof using.
  induction n as [|n IH]; intros t st Tk D Ct Cd L.
  { exfalso. unfold is_count, time_max in *. lia. }
  change (6 + S n)%nat with (S (5 + S n)%nat). cbn [exec64].
  rewrite (k_paused _ _ Tk). destruct (k_sink _ _ Tk) as [id [s [Q Hh]]].
  unfold next_event. rewrite Q, head_one. cbn [fst].
  destruct (tick t st (S n) Tk D Ct Cd) as [[_ E]|[st' [E [Tk' C']]]].
  - rewrite E. reflexivity.
  - rewrite E. cbn [nbind]. replace (5 + S n)%nat with (6 + n)%nat by lia.
    eapply IH; eauto. nia.
Qed.

End TICKER.
