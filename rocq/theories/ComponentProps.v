(** Properties of smart pointers and component objects (C56, C57). *)
From Verif Require Import Base BaseProofs Component ComponentSpec ComponentProofs ComponentOps ComponentSteps ComponentRuns.
From Coq Require Import ZifyBool ZifyNat ZifyN.

(** *** An example

    A list node: class 1 with interface 2 and a member [Ptr<2> next].  A device:
    class 3 with interfaces 2 and, from an aggregated object of class 4,
    interface 5; it has a mutual object of class 6 with interface 2. *)
Definition node : list piece := [mk_piece KObject 0 1 [Own 2] [2]].
Definition device : list piece :=
  [mk_piece KObject 0 3 [Own 2; Via 5 1] []; mk_piece KAgg 0 4 [Own 5; Own 2] [];
   mk_piece KMutual 0 6 [Own 2] []].
Definition story : list op :=
  [New 1 node; New 3 device; Assign (At 0 [0]) (At 1 []); CopyCtor 5 (At 1 []); CopyCtor 0 (At 2 []);
   OfPart (At 1 []) 1; Reset (At 1 []); AddRef (At 0 []); Swap (At 0 []) (At 0 []); Release 0].

Lemma story_safe : safe_run story init.
Proof.
  unfold story. cbn [safe_run safe].
  split; [exact I|]. intros w r H. vm_compute in H. injection H as <- <-.
  split; [exact I|]. intros w r H. vm_compute in H. injection H as <- <-.
  split.
  { intros ld H. vm_compute in H. injection H as <-. intros P. inversion P. }
  intros w r H. vm_compute in H. injection H as <- <-.
  do 7 (split; [exact I|]; intros w r H; vm_compute in H; injection H as <- <-). exact I.
Qed.
Definition story_end : world :=
  match run story init with Done (w, _) => w | _ => init end.
Lemma story_run : run story init = Done (story_end, [ROk; ROk; ROk; ROk; ROk; ROk; ROk; ROk; ROk; ROk]).
Proof. vm_compute. reflexivity. Qed.

(** *** C56: lifetime *)

Lemma reached os w rs : safe_run os init -> run os init = Done (w, rs) ->
  exists f, good w f /\ (all_created os rs -> f = true).
Proof.
  intros S E. pose proof (run_good os init true init_good S) as Q. rewrite E in Q. cbn [ok_result] in Q.
  destruct Q as ((f & G & A) & _). exists f. auto.
Qed.

(** No program whose assignments are safe uses a deleted object or a member of
    it. *)
Theorem C56_no_use_after_delete : forall os, safe_run os init ->
  match run os init with UB => False | Throw _ => False | _ => True end.
Proof.
  intros os S. pose proof (run_good os init true init_good S) as Q. destruct (run os init) as [[w rs]| | |]; auto.
Qed.
Print Assumptions C56_no_use_after_delete.
Example C56_no_use_after_delete_ex : safe_run story init /\ exists w rs, run story init = Done (w, rs) /\ length rs = 10.
Proof. split; [exact story_safe|]. exists story_end, [ROk; ROk; ROk; ROk; ROk; ROk; ROk; ROk; ROk; ROk]. split; [exact story_run|reflexivity]. Qed.

(** The count of an object is the number of references to it and its parts. *)
Theorem C56_counts : forall os w rs a c, safe_run os init -> run os init = Done (w, rs) ->
  nth_error (w_heap w) a = Some c -> c_kind c = KObject -> c_alive c = true ->
  c_rc c = Z.of_nat (refs w a).
Proof.
  intros os w rs a c S E Ea K A. destruct (reached os w rs S E) as (f & [I _] & _).
  rewrite refs_total. exact (i_rc _ _ _ _ I a c Ea K A).
Qed.
Print Assumptions C56_counts.
Example C56_counts_ex : exists c, nth_error (w_heap story_end) 1 = Some c /\ c_kind c = KObject /\
  c_alive c = true /\ c_rc c = 4%Z /\ refs story_end 1 = 4.
Proof. eexists. split; [vm_compute; reflexivity|]. vm_compute. auto. Qed.

(** An object lives exactly while there are references to it or its parts. *)
Theorem C56_lifetime : forall os w rs a c, safe_run os init -> run os init = Done (w, rs) -> all_created os rs ->
  nth_error (w_heap w) a = Some c -> c_kind c = KObject ->
  (live (w_heap w) a <-> 0 < refs w a).
Proof.
  intros os w rs a c S E AC Ea K. destruct (reached os w rs S E) as (f & [I _] & F). rewrite (F AC) in I.
  rewrite refs_total, live_alive. split.
  - intros A. apply (i_full _ _ _ _ I eq_refl a c Ea K). unfold alive in A. now rewrite Ea in A.
  - apply (i_live _ _ _ _ I).
Qed.
Print Assumptions C56_lifetime.
Example C56_lifetime_ex : all_created story [ROk; ROk; ROk; ROk; ROk; ROk; ROk; ROk; ROk; ROk] /\
  exists w rs, run (story ++ [Reset (At 0 []); Reset (At 2 []); Reset (At 3 []); Reset (At 4 [])]) init = Done (w, rs) /\
    map c_alive (w_heap w) = [false; false; false; false] /\ map c_alive (w_heap story_end) = [true; true; true; true].
Proof. split; [cbn; tauto|]. eexists. eexists. split; [vm_compute; reflexivity|]. vm_compute. auto. Qed.

(** Whoever holds a reference holds an object that lives. *)
Theorem C56_held_objects_live : forall os w rs p, safe_run os init -> run os init = Done (w, rs) ->
  In p (held w) -> live (w_heap w) (p_addr p).
Proof.
  intros os w rs p S E H. destruct (reached os w rs S E) as (f & [I _] & _). exact (held_live w f p I H).
Qed.
Print Assumptions C56_held_objects_live.
Example C56_held_objects_live_ex : map p_addr (held story_end) = [0; 2; 1; 3; 1].
Proof. vm_compute. reflexivity. Qed.

(** What has been deleted is not deleted again and does not come back; what an
    object is does not change. *)
Theorem C56_deleted_once : forall os os' w rs w' rs' a c, safe_run (os ++ os') init ->
  run os init = Done (w, rs) -> run (os ++ os') init = Done (w', rs') -> nth_error (w_heap w) a = Some c ->
  exists c', nth_error (w_heap w') a = Some c' /\ (c_alive c' = true -> c_alive c = true) /\
    c_kind c' = c_kind c /\ c_owner c' = c_owner c /\ c_class c' = c_class c /\ c_map c' = c_map c /\ c_parts c' = c_parts c.
Proof.
  intros os os' w rs w' rs' a c S E E' Ea.
  assert (SP : forall os x, safe_run (os ++ os') x -> forall w rs, run os x = Done (w, rs) -> safe_run os x /\ safe_run os' w).
  { clear. induction os as [|o os IH]; intros x S w rs; cbn [run].
    - intros [= <- <-]. split; [exact I|exact S].
    - cbn [app safe_run] in *. destruct S as [So S]. destruct (step o x) as [[x1 r]| | |] eqn:E1; cbn [obind]; try discriminate.
      destruct (run os x1) as [[x2 rs2]| | |] eqn:E2; cbn [obind]; try discriminate. intros [= <- <-].
      destruct (IH x1 (S x1 r eq_refl) x2 rs2 E2) as [A B]. split; [|exact B]. split; [exact So|].
      intros y r' [= <- <-]. exact A. }
  assert (RA : forall os x w rs, run os x = Done (w, rs) -> forall w' rs', run (os ++ os') x = Done (w', rs') ->
             exists rs2, run os' w = Done (w', rs2)).
  { clear. induction os as [|o os IH]; intros x w rs; cbn [run app].
    - intros [= <- <-] w' rs' E. eauto.
    - destruct (step o x) as [[x1 r]| | |]; cbn [obind]; try discriminate.
      destruct (run os x1) as [[x2 rs2]| | |] eqn:E2; cbn [obind]; try discriminate. intros [= <- <-] w' rs'.
      destruct (run (os ++ os') x1) as [[x3 rs3]| | |] eqn:E3; cbn [obind]; try discriminate. intros [= <- <-].
      exact (IH x1 x2 rs2 E2 x3 rs3 E3). }
  destruct (SP os init S w rs E) as [S1 S2]. destruct (RA os init w rs E w' rs' E') as (rs2 & E2).
  destruct (reached os w rs S1 E) as (f & G & _). pose proof (run_good os' w f G S2) as Q. rewrite E2 in Q.
  destruct Q as (_ & GR). destruct (GR a c Ea) as (c' & Ec' & Sh & A). exists c'. unfold shape in Sh. injection Sh.
  intros. repeat split; auto.
Qed.
Print Assumptions C56_deleted_once.
Example C56_deleted_once_ex : exists w rs, run (story ++ [Reset (At 0 []); New 1 node]) init = Done (w, rs) /\
  map c_alive (w_heap w) = [false; true; true; true; true].
Proof. eexists. eexists. split; vm_compute; reflexivity. Qed.

(** What every expression does to the pointers of the program. *)
Theorem C56_effects : forall os w rs o w' r, safe_run os init -> run os init = Done (w, rs) -> safe w o ->
  step o w = Done (w', r) -> effect w o w' r.
Proof.
  intros os w rs o w' r S E So St. destruct (reached os w rs S E) as (f & G & _).
  exact (proj2 (proj2 (step_good w f o w' r G So St))).
Qed.
Print Assumptions C56_effects.
Example C56_effects_ex : exists w', step (CopyCtor 5 (At 0 [0])) story_end = Done (w', ROk) /\
  w_vars w' = w_vars story_end ++ [(5, Some (mk_ptr 2 5))].
Proof. eexists. split; vm_compute; reflexivity. Qed.

(** A program that names only what is there fails no assertion: copying from any
    pointer, also to the types it does not have, moving, resetting and releasing
    always give an answer. *)
Theorem C56_answers : forall os w rs s l, safe_run os init -> run os init = Done (w, rs) -> resolve w s = Done l ->
  forall t, (exists w' r, step (CopyCtor t s) w = Done (w', r)) /\ (exists w' r, step (MoveCtor t s) w = Done (w', r)) /\
    (exists w', step (Reset s) w = Done (w', ROk)) /\ (exists w', step (Detach s) w = Done (w', ROk)) /\
    forall d ld, resolve w d = Done ld -> apart w d s ->
      (exists w' r, step (Assign d s) w = Done (w', r)) /\ (exists w' r, step (MoveAssign d s) w = Done (w', r)).
Proof.
  intros os w rs s l S E Rs t. destruct (reached os w rs S E) as (f & [I T] & _).
  pose proof (resolve_ok w f s I) as Q. rewrite Rs in Q. destruct Q as (H & Th & ([u v] & Ev) & H0).
  pose proof (load_ok w l _ Th Ev) as Ld.
  assert (TK : forall p, v = Some p -> forall b, exists x, take t b p (w_heap w) = Done x).
  { intros p -> b. pose proof (value_reach w [] l u p H Ev) as R. destruct b.
    - rewrite (take_true _ _ _ _ _ I (reach_alive_whole _ _ _ _ I R)). eauto.
    - rewrite (take_false _ _ _ _ _ I (reach_total _ _ _ _ I R)). eauto. }
  split; [|split; [|split; [|split]]].
  - pose proof (copy_ctor_fine w f t s I) as Q. cbn [step]. revert Q. unfold copy_ctor. rewrite Rs. cbn [obind]. rewrite Ld. cbn [obind].
    destruct v as [p|]; [|eauto]. destruct (TK p eq_refl true) as (x & ->). cbn [obind]. destruct x as [[q h]|]; eauto.
  - pose proof (move_ctor_fine w f t s I) as Q. cbn [step]. revert Q. unfold move_ctor. rewrite Rs. cbn [obind]. rewrite Ld. cbn [obind].
    destruct v as [p|]; [|eauto]. pose proof (value_reach w [] l u p H Ev) as R.
    rewrite (take_false _ _ _ t _ I (reach_total _ _ _ _ I R)). destruct (taken (w_heap w) t p) as [q|]; cbn [option_map obind]; [|eauto].
    rewrite set_heap_self, (store_ok w l None _ Th Ev). cbn [obind]. eauto.
  - cbn [step]. unfold reset_op. rewrite Rs. cbn [obind]. destruct (reset_ok w [] f l u v I Th Ev H0) as (h' & -> & _). cbn [obind]. eauto.
  - cbn [step]. unfold detach. rewrite Rs. cbn [obind]. rewrite Ld. cbn [obind]. destruct v as [p|]; [|eauto].
    rewrite (store_ok w l None _ Th Ev). cbn [obind]. eauto.
  - intros d ld Rd A. pose proof (resolve_ok w f d I) as Q. rewrite Rd in Q. destruct Q as (Hd & Td & ([t' x] & Ex) & Hd0).
    destruct (resolve_apart w f d s ld l _ I A Rd Rs Ex) as [HA Nl].
    destruct (reset_fine w f ld t' x I Td Ex Hd0) as (w1 & Er & I1 & G1 & B1 & H1 & T1 & E1 & S1 & RR).
    assert (Es1 : value_at w1 l = Some (u, v)).
    { destruct B1 as (_ & _ & _ & B). rewrite (B l), Ev. cbn [changed].
      destruct (loc_eqb_spec l ld); [contradiction|reflexivity]. }
    pose proof (rooted_there w1 [] f l I1 (RR _ HA)) as Ts1.
    split; cbn [step]; unfold assign, move_assign; rewrite Rd, Rs; cbn [obind]; rewrite Ld, (load_ok w ld _ Td Ex); cbn [obind];
      rewrite Er; cbn [obind]; destruct v as [p|].
    + pose proof (value_reach w1 [] l u p (RR _ HA) Es1) as R.
      pose proof (fill_fine w1 f ld t' p I1 T1 E1 R) as Q. destruct (taken (w_heap w1) t' p) as [q|].
      * destruct Q as (h & -> & _ & St & _). cbn [obind]. rewrite St. cbn [obind]. eauto.
      * rewrite Q. cbn [obind]. eauto.
    + eauto.
    + pose proof (value_reach w1 [] l u p (RR _ HA) Es1) as R.
      pose proof (move_inv _ _ f t' p I1 R) as Q. destruct (taken (w_heap w1) t' p) as [q|].
      * destruct Q as (-> & _). cbn [obind]. rewrite set_heap_self, (store_ok w1 ld (Some q) _ T1 E1). cbn [obind].
        assert (V : value_at (put w1 ld (Some q)) l = Some (u, Some p)).
        { rewrite (value_put w1 ld (Some q) _ l E1). destruct (loc_eqb_spec ld l); [congruence|exact Es1]. }
        rewrite (store_ok (put w1 ld (Some q)) l None _ (proj2 (put_there w1 ld (Some q) l) Ts1) V). cbn [obind]. eauto.
      * rewrite Q. cbn [obind]. eauto.
    + rewrite (store_ok w1 l None _ Ts1 Es1). cbn [obind]. eauto.
Qed.
Print Assumptions C56_answers.
Example C56_answers_ex : resolve story_end (At 0 [0]) = Done (LField 0 0) /\ apart story_end (At 2 []) (At 0 [0]) /\
  exists w', step (MoveAssign (At 2 []) (At 0 [0])) story_end = Done (w', ROk).
Proof.
  split; [vm_compute; reflexivity|]. split.
  - intros ld H. vm_compute in H. injection H as <-. intros P. inversion P as [|l t p k ks L P' E1 E2]. subst.
    vm_compute in L. injection L as <- <-. inversion P'.
  - eexists. vm_compute. reflexivity.
Qed.

(** *** Assignments that are not safe *)

(** A smart pointer assigned to itself: undefined behaviour exactly when it is the
    only reference to its object. *)
Theorem C56_self_assign : forall os w rs d l t p c, safe_run os init -> run os init = Done (w, rs) -> all_created os rs ->
  resolve w d = Done l -> value_at w l = Some (t, Some p) ->
  nth_error (w_heap w) (whole (w_heap w) (p_addr p)) = Some c ->
  (c_kind c = KObject /\ refs w (whole (w_heap w) (p_addr p)) = 1 -> step (Assign d d) w = UB) /\
  (c_kind c <> KObject \/ refs w (whole (w_heap w) (p_addr p)) <> 1 ->
     exists w', step (Assign d d) w = Done (w', ROk) /\ becomes w w' [] [] (w_raws w) /\
       forall a, live (w_heap w') a <-> live (w_heap w) a).
Proof.
  intros os w rs d l t p c S E AC Rd Ev Ec. destruct (reached os w rs S E) as (f & G & F). rewrite (F AC) in G. split.
  - intros [K R]. exact (self_assign_last w d l t p c G Rd Ev Ec K R).
  - intros H. destruct G as [I T]. pose proof (resolve_ok w true d I) as Q. rewrite Rd in Q. destruct Q as (H1 & Th & _).
    pose proof (value_reach w [] l t p H1 Ev) as R. pose proof (reach_total _ _ _ _ I R) as TO. rewrite <- refs_total in TO.
    assert (K : c_kind c = KObject -> 2 <= refs w (whole (w_heap w) (p_addr p))).
    { intros K. destruct H as [H|H]; [contradiction|]. lia. }
    destruct (self_assign_many w true d l t p c (conj I T) Rd Ev Ec K) as (w' & A & B & _ & C). eauto.
Qed.
Print Assumptions C56_self_assign.
Example C56_self_assign_ex : step (Assign (At 0 []) (At 0 [])) story_end = UB /\
  exists w', step (Assign (At 2 []) (At 2 [])) story_end = Done (w', ROk).
Proof. split; [vm_compute; reflexivity|]. eexists. vm_compute. reflexivity. Qed.

(** Assignment is not safe in general: a pointer assigned to itself, and the head
    of a list moved to the next node. *)
Theorem C56_self_assign_refuted : exists os d,
  run os init <> UB /\ run (os ++ [Assign d d]) init = UB.
Proof. exists [New 1 node], (At 0 []). split; vm_compute; congruence. Qed.
Print Assumptions C56_self_assign_refuted.

Theorem C56_list_head_refuted : exists os head next,
  (exists w rs, run os init = Done (w, rs)) /\
  (exists i k, head = At i [] /\ next = At i [k]) /\
  run (os ++ [Assign head next]) init = UB /\ run (os ++ [MoveAssign head next]) init = UB.
Proof.
  exists [New 1 node; New 2 node; Assign (At 0 [0]) (At 1 []); Reset (At 1 [])], (At 0 []), (At 0 [0]).
  split; [eexists; eexists; vm_compute; reflexivity|]. split; [exists 0, 0; auto|]. split; vm_compute; reflexivity.
Qed.
Print Assumptions C56_list_head_refuted.

(** Moving a smart pointer to itself makes it null, as [Reset] does. *)
Theorem C56_self_move : forall os w rs d l, safe_run os init -> run os init = Done (w, rs) -> resolve w d = Done l ->
  step (MoveAssign d d) w = step (Reset d) w.
Proof.
  intros os w rs d l S E Rd. destruct (reached os w rs S E) as (f & [I T] & _).
  pose proof (resolve_ok w f d I) as Q. rewrite Rd in Q. destruct Q as (H & Th & ([t v] & Ev) & H0).
  cbn [step]. unfold move_assign, reset_op. rewrite Rd. cbn [obind]. rewrite (load_ok w l _ Th Ev). cbn [obind].
  destruct (reset_fine w f l t v I Th Ev H0) as (w1 & -> & I1 & G1 & B1 & H1 & T1 & E1 & S1 & RR). cbn [obind].
  assert (P1 : put w1 l None = w1) by exact (put_self w1 l t None E1).
  destruct v as [p|].
  - destruct (proj1 T l t p Ev) as [Tp _]. unfold take. rewrite Tp, Nat.eqb_refl. cbn [obind].
    rewrite set_heap_self, (store_ok w1 l (Some p) _ T1 E1). cbn [obind].
    assert (V : value_at (put w1 l (Some p)) l = Some (t, Some p)).
    { rewrite (value_put w1 l (Some p) _ l E1). destruct (loc_eqb_spec l l); [reflexivity|congruence]. }
    rewrite (store_ok (put w1 l (Some p)) l None _ (proj2 (put_there w1 l (Some p) l) T1) V). cbn [obind].
    now rewrite (put_put w1 l (Some p) None _ E1), P1.
  - rewrite (store_ok w1 l None _ T1 E1), P1. reflexivity.
Qed.
Print Assumptions C56_self_move.
Example C56_self_move_ex : exists w', step (MoveAssign (At 0 []) (At 0 [])) story_end = Done (w', ROk) /\
  nth_error (w_vars w') 0 = Some (1, None).
Proof. eexists. split; vm_compute; reflexivity. Qed.

(** When the interface is not there, the new object is never deleted. *)
Theorem C56_no_interface_leaks_refuted : exists os w rs c,
  run os init = Done (w, rs) /\ nth_error (w_heap w) 0 = Some c /\ c_kind c = KObject /\
  c_alive c = true /\ held w = [].
Proof.
  exists [New 9 node]. eexists. eexists. eexists. split; [vm_compute; reflexivity|]. vm_compute. auto.
Qed.
Print Assumptions C56_no_interface_leaks_refuted.

(** *** C57: aggregation *)

(** An object and its parts live and are deleted together. *)
Theorem C57_one_lifetime : forall os w rs a c b, safe_run os init -> run os init = Done (w, rs) ->
  nth_error (w_heap w) a = Some c -> In b (c_parts c) ->
  (live (w_heap w) a <-> live (w_heap w) b) /\ whole (w_heap w) b = whole (w_heap w) a /\
  (live (w_heap w) a <-> live (w_heap w) (whole (w_heap w) a)).
Proof.
  intros os w rs a c b S E Ea Hb. destruct (reached os w rs S E) as (f & [I _] & _).
  destruct (In_nth_error _ _ Hb) as (k & Ek). destruct (part_whole _ _ _ _ _ _ _ I Ea Ek) as (d & Ed & Pd & Od & Wb).
  rewrite !live_alive. rewrite (group_alive_iff _ _ _ a I), (group_alive_iff _ _ _ b I), Wb.
  split; [tauto|]. split; [auto|]. tauto.
Qed.
Print Assumptions C57_one_lifetime.
Example C57_one_lifetime_ex : exists c, nth_error (w_heap story_end) 1 = Some c /\ c_parts c = [2; 3] /\
  whole (w_heap story_end) 3 = 1.
Proof. eexists. split; [vm_compute; reflexivity|]. vm_compute. auto. Qed.

(** Taking or releasing a reference through any part changes the count of the
    whole object by one, and no other count. *)
Definition count_of (w : world) (a : nat) : option Z := option_map c_rc (nth_error (w_heap w) a).

Theorem C57_shared_count : forall os w rs s l t p c w' r, safe_run os init -> run os init = Done (w, rs) ->
  resolve w s = Done l -> value_at w l = Some (t, Some p) ->
  nth_error (w_heap w) (whole (w_heap w) (p_addr p)) = Some c -> c_kind c = KObject ->
  step (AddRef s) w = Done (w', r) ->
  count_of w' (whole (w_heap w) (p_addr p)) = option_map (Z.add 1) (count_of w (whole (w_heap w) (p_addr p))) /\
  (forall a, a <> whole (w_heap w) (p_addr p) -> count_of w' a = count_of w a) /\
  exists w'', step (Release (length (w_raws w))) w' = Done (w'', ROk) /\ w'' = w.
Proof.
  intros os w rs s l t p c w' r S E Rs Ev Ec K St. destruct (reached os w rs S E) as (f & [I T] & _).
  pose proof (resolve_ok w f s I) as Q. rewrite Rs in Q. destruct Q as (H & Th & _ & _).
  cbn [step] in St. unfold add_ref_op in St. rewrite Rs in St. cbn [obind] in St. rewrite (load_ok w l _ Th Ev) in St.
  cbn [obind] in St. pose proof (value_reach w [] l t p H Ev) as R. pose proof (reach_alive_whole _ _ _ _ I R) as L.
  rewrite (add_ref_ok _ _ _ _ _ I L) in St. cbn [obind] in St. injection St as <- <-.
  unfold count_of. cbn [w_heap]. unfold inc. rewrite Ec, K.
  assert (whole (w_heap w) (p_addr p) < length (w_heap w)) by (apply nth_error_Some; congruence).
  split; [|split].
  - rewrite nth_upd_eq by auto. cbn [option_map set_rc c_rc]. f_equal. lia.
  - intros a N. rewrite nth_upd_neq by congruence. reflexivity.
  - cbn [step]. unfold release_op. cbn [w_raws w_heap w_vars].
    rewrite nth_error_app2, Nat.sub_diag by lia. cbn [nth_error].
    pose proof (add_release _ _ _ _ _ I (reach_total _ _ _ _ I R) eq_refl) as Q. unfold inc in Q. rewrite Ec, K in Q.
    rewrite Q. cbn [obind]. eexists. split; [reflexivity|]. destruct w as [h vs raws]. cbn [w_heap w_vars w_raws]. f_equal.
    clear. induction raws as [|x raws IH]; [reflexivity|]. cbn. now rewrite IH.
Qed.
Print Assumptions C57_shared_count.
Example C57_shared_count_ex : value_at story_end (LVar 4) = Some (6, Some (mk_ptr 3 6)) /\
  whole (w_heap story_end) 3 = 1 /\ count_of story_end 1 = Some 4%Z /\
  exists w', step (AddRef (At 4 [])) story_end = Done (w', ROk) /\ count_of w' 1 = Some 5%Z.
Proof. split; [vm_compute; reflexivity|]. split; [vm_compute; reflexivity|]. split; [vm_compute; reflexivity|].
  eexists. split; vm_compute; reflexivity. Qed.

(** From any two pointers to an object the same interfaces are reached. *)
Theorem C57_same_interfaces : forall os w rs s s' l l' u u' p p' t w1 r1 w2 r2,
  safe_run os init -> run os init = Done (w, rs) ->
  resolve w s = Done l -> value_at w l = Some (u, Some p) ->
  resolve w s' = Done l' -> value_at w l' = Some (u', Some p') ->
  identity (w_heap w) (p_addr p) = identity (w_heap w) (p_addr p') -> t <> u -> t <> u' ->
  step (CopyCtor t s) w = Done (w1, r1) -> step (CopyCtor t s') w = Done (w2, r2) ->
  r1 = r2 /\ skipn (length (w_vars w)) (w_vars w1) = skipn (length (w_vars w)) (w_vars w2).
Proof.
  intros os w rs s s' l l' u u' p p' t w1 r1 w2 r2 S E Rs Ev Rs' Ev' Id Nu Nu' St St'.
  destruct (reached os w rs S E) as (f & G & _).
  destruct (step_good w f (CopyCtor t s) w1 r1 G Logic.I St) as (_ & _ & (x & y & z & Rx & Vx & Q)).
  destruct (step_good w f (CopyCtor t s') w2 r2 G Logic.I St') as (_ & _ & (x' & y' & z' & Rx' & Vx' & Q')).
  rewrite Rs in Rx. injection Rx as <-. rewrite Ev in Vx. injection Vx as <- <-.
  rewrite Rs' in Rx'. injection Rx' as <-. rewrite Ev' in Vx'. injection Vx' as <- <-.
  destruct G as [I [T _]]. destruct (T _ _ _ Ev) as [Tp _], (T _ _ _ Ev') as [Tp' _].
  cbn [give] in Q, Q'. unfold taken in Q, Q'. rewrite Tp in Q. rewrite Tp' in Q'.
  destruct (Nat.eqb_spec t u); [contradiction|]. destruct (Nat.eqb_spec t u'); [contradiction|]. rewrite Id in Q.
  destruct (interface (w_heap w) (identity (w_heap w) (p_addr p')) t); cbn [option_map] in *.
  - destruct Q as (-> & _ & B & _), Q' as (-> & _ & B' & _). split; congruence.
  - destruct Q as (-> & ->), Q' as (-> & ->). auto.
Qed.
Print Assumptions C57_same_interfaces.
Example C57_same_interfaces_ex : value_at story_end (LField 0 0) = Some (2, Some (mk_ptr 1 2)) /\
  value_at story_end (LVar 3) = Some (0, Some (mk_ptr 1 0)) /\
  exists w1 w2, step (CopyCtor 5 (At 0 [0])) story_end = Done (w1, ROk) /\
    step (CopyCtor 5 (At 3 [])) story_end = Done (w2, ROk) /\ last (w_vars w1) (0, None) = (5, Some (mk_ptr 2 5)).
Proof.
  split; [vm_compute; reflexivity|]. split; [vm_compute; reflexivity|]. eexists. eexists.
  split; [vm_compute; reflexivity|]. split; vm_compute; reflexivity.
Qed.

(** The pointer that is obtained belongs to the same object, has the type that
    was asked for, and its object provides that type; for [IObject] it is the
    same for all pointers to the object. *)
Theorem C57_query_keeps_identity : forall os w rs s l u p t w',
  safe_run os init -> run os init = Done (w, rs) -> resolve w s = Done l -> value_at w l = Some (u, Some p) ->
  step (CopyCtor t s) w = Done (w', ROk) ->
  exists q c, w_vars w' = w_vars w ++ [(t, Some q)] /\ p_ty q = t /\
    identity (w_heap w) (p_addr q) = identity (w_heap w) (p_addr p) /\
    (t = 0 -> p_addr q = identity (w_heap w) (p_addr p)) /\
    nth_error (w_heap w) (p_addr q) = Some c /\ (t = 0 \/ t = c_class c \/ In (Own t) (c_map c)).
Proof.
  intros os w rs s l u p t w' S E Rs Ev St. destruct (reached os w rs S E) as (f & G & _).
  destruct (step_good w f (CopyCtor t s) w' ROk G Logic.I St) as (_ & GR & (x & y & z & Rx & Vx & Q)).
  rewrite Rs in Rx. injection Rx as <-. rewrite Ev in Vx. injection Vx as <- <-.
  destruct G as [I [T _]]. destruct (T _ _ _ Ev) as [Tp Pp]. pose proof (i_wf _ _ _ _ I) as W.
  cbn [give] in Q. destruct (taken (w_heap w) t p) as [q|] eqn:K; cbn [option_map] in Q; [|destruct Q; discriminate].
  destruct Q as (_ & B1 & B2 & _). destruct (taken_provides _ _ _ _ W Pp K) as [Tq (c & Ec & Pq)].
  pose proof Pp as (cp & Ecp & _). destruct (taken_facts _ _ _ _ _ W K Ecp) as [_ Iq].
  exists q, c. split.
  - rewrite <- B2, <- (firstn_skipn (length (w_vars w)) (w_vars w')) at 1. f_equal. apply list_ext. intros i.
    destruct (Nat.lt_ge_cases i (length (w_vars w))) as [Li|Li].
    + rewrite nth_error_firstn_lt by auto. exact (B1 (LVar i) Li).
    + rewrite (proj2 (nth_error_None (w_vars w) i)) by auto. apply nth_error_None. rewrite firstn_length. lia.
  - split; [auto|]. split; [auto|]. split; [|split; [auto|]].
    + intros ->. rewrite <- Iq. symmetry. destruct Pq as [[_ P]|[P|[P _]]]; auto; exfalso.
      * pose proof (wf_class _ W _ _ Ec). lia.
      * lia.
    + destruct Pq as [[P _]|[P|[_ P]]]; rewrite Tq in P; auto.
Qed.
Print Assumptions C57_query_keeps_identity.
Example C57_query_keeps_identity_ex : exists w', step (CopyCtor 0 (At 2 [])) story_end = Done (w', ROk) /\
  value_at story_end (LVar 2) = Some (5, Some (mk_ptr 2 5)) /\ last (w_vars w') (0, None) = (0, Some (mk_ptr 1 0)) /\
  identity (w_heap story_end) 2 = 1.
Proof. eexists. split; [vm_compute; reflexivity|]. vm_compute. auto. Qed.

(** Pointers of different types are equal exactly when they belong to the same
    object, and so are [Ptr<IObject>]s; a comparison changes nothing. *)
Theorem C57_equal : forall os w rs s s' l l' t t' v v' w' r, safe_run os init -> run os init = Done (w, rs) ->
  resolve w s = Done l -> value_at w l = Some (t, v) -> resolve w s' = Done l' -> value_at w l' = Some (t', v') ->
  t <> t' \/ t = 0 -> step (Equal s s') w = Done (w', r) ->
  w' = w /\ r = RBool (match v, v' with
                       | None, None => true
                       | Some p, Some q => identity (w_heap w) (p_addr p) =? identity (w_heap w) (p_addr q)
                       | _, _ => false
                       end).
Proof.
  intros os w rs s s' l l' t t' v v' w' r S E Rs Ev Rs' Ev' D St. destruct (reached os w rs S E) as (f & G & _).
  destruct (step_good w f (Equal s s') w' r G Logic.I St) as (_ & _ & (-> & x & y & z & x' & y' & z' & Rx & Vx & Rx' & Vx' & ->)).
  rewrite Rs in Rx. injection Rx as <-. rewrite Ev in Vx. injection Vx as <- <-.
  rewrite Rs' in Rx'. injection Rx' as <-. rewrite Ev' in Vx'. injection Vx' as <- <-. split; auto. f_equal.
  destruct (Nat.eqb_spec t t') as [<-|N]; [|reflexivity]. destruct D as [D|D]; [contradiction|]. subst t.
  destruct G as [I [T _]]. pose proof (i_wf _ _ _ _ I) as W.
  assert (ID : forall l p, value_at w l = Some (0, Some p) -> identity (w_heap w) (p_addr p) = p_addr p).
  { intros m p Em. destruct (T _ _ _ Em) as [Tp (c & Ec & P)]. destruct P as [[_ P]|[P|[P _]]]; auto; exfalso.
    - pose proof (wf_class _ W _ _ Ec). lia.
    - lia. }
  destruct v as [p|], v' as [p'|]; cbn [same_ptr]; auto. now rewrite (ID _ _ Ev), (ID _ _ Ev').
Qed.
Print Assumptions C57_equal.
Example C57_equal_ex : step (Equal (At 2 []) (At 0 [0])) story_end = Done (story_end, RBool true) /\
  step (Equal (At 2 []) (At 4 [])) story_end = Done (story_end, RBool false).
Proof. split; vm_compute; reflexivity. Qed.

(** Pointers of the same type are compared by address, so that equality is not
    transitive: an interface obtained through the navigator of an aggregated
    object differs from the one obtained from the object, though both equal the
    object. *)
Theorem C57_equality_refuted : exists os w rs a b o,
  safe_run os init /\ run os init = Done (w, rs) /\
  step (Equal a o) w = Done (w, RBool true) /\ step (Equal b o) w = Done (w, RBool true) /\
  step (Equal a b) w = Done (w, RBool false).
Proof.
  exists [New 3 device; CopyCtor 2 (At 0 []); QueryPart 2 (At 0 []) 0; CopyCtor 0 (At 0 [])].
  eexists. eexists. exists (At 1 []), (At 2 []), (At 3 []). split.
  - cbn [safe_run safe].
    do 4 (split; [exact I|]; intros w r H; vm_compute in H; injection H as <- <-). exact I.
  - split; [vm_compute; reflexivity|]. split; [vm_compute; reflexivity|]. split; vm_compute; reflexivity.
Qed.
Print Assumptions C57_equality_refuted.
