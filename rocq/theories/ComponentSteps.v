(** Every expression keeps the counts of references right. *)
From Verif Require Import Base BaseProofs Component ComponentSpec ComponentProofs ComponentOps.
From Coq Require Import ZifyBool ZifyNat ZifyN.

(** *** Objects that are there later *)

Definition grows (h h' : heap) : Prop :=
  forall a c, nth_error h a = Some c ->
    exists c', nth_error h' a = Some c' /\ shape c' = shape c /\ (c_alive c' = true -> c_alive c = true).
Lemma grows_refl h : grows h h.
Proof. intros a c E. eauto. Qed.
Lemma grows_trans h1 h2 h3 : grows h1 h2 -> grows h2 h3 -> grows h1 h3.
Proof.
  intros A B a c E. destruct (A a c E) as (c' & E' & S' & L'). destruct (B a c' E') as (c'' & E'' & S'' & L'').
  exists c''. split; [auto|]. split; [congruence|auto].
Qed.
Lemma later_grows h h' : later h h' -> grows h h'.
Proof.
  intros (S & _ & L) a c E. specialize (S a). rewrite E in S. specialize (L a). unfold alive in L. rewrite E in L.
  destruct (nth_error h' a) as [c'|]; [|discriminate]. exists c'. cbn in S. split; [auto|]. split; [congruence|auto].
Qed.
Lemma put_grows w l v : grows (w_heap w) (w_heap (put w l v)).
Proof.
  intros a c E. pose proof (put_core w l v a) as C. rewrite E in C.
  destruct (nth_error (w_heap (put w l v)) a) as [c'|]; [|discriminate]. exists c'. cbn in C. unfold core in C.
  injection C. intros. split; [auto|]. split; [unfold shape; congruence|congruence].
Qed.

(** *** Values *)

Lemma loc_eqb_sym l l' : loc_eqb l l' = loc_eqb l' l.
Proof. destruct (loc_eqb_spec l l'), (loc_eqb_spec l' l); congruence. Qed.

Definition bec (w w1 : world) (ch : list (loc * option ptr)) (raws : list ptr) : Prop :=
  length (w_vars w1) = length (w_vars w) /\ length (w_heap w1) = length (w_heap w) /\ w_raws w1 = raws /\
  forall l, value_at w1 l = changed ch l (value_at w l).
Lemma bec_refl w : bec w w [] (w_raws w).
Proof. split; [auto|]. split; [auto|]. split; auto. Qed.
Lemma put_heap_len w l v : length (w_heap (put w l v)) = length (w_heap w).
Proof. symmetry. apply same_length. apply put_same. Qed.
Lemma bec_put w w1 ch raws l v y : bec w w1 ch raws -> value_at w1 l = Some y -> bec w (put w1 l v) ((l, v) :: ch) raws.
Proof.
  intros (A & A' & B & C) E. split; [now rewrite put_vars_len|]. split; [now rewrite put_heap_len|].
  split; [now rewrite put_raws|].
  intros l'. rewrite (value_put w1 l v y l' E). cbn [changed]. rewrite loc_eqb_sym.
  destruct (loc_eqb_spec l' l) as [->|N]; [|auto].
  specialize (C l). rewrite E in C. clear - C. revert C. induction ch as [|[l' u] ch IH]; cbn [changed].
  - intros <-. reflexivity.
  - destruct (loc_eqb l l'); auto. destruct (value_at w l) as [[t x]|]; [|discriminate]. cbn. intros [= ->]. reflexivity.
Qed.
Lemma bec_later w w1 ch raws h : bec w w1 ch raws -> later (w_heap w1) h -> bec w (set_heap w1 h) ch raws.
Proof.
  intros (A & A' & B & C) L. split; [auto|]. split; [cbn; rewrite <- A'; symmetry; apply same_length; exact (proj1 L)|].
  split; [auto|]. intros l. rewrite (later_value w1 h l L). auto.
Qed.
Lemma bec_raws w w1 ch raws raws' : bec w w1 ch raws -> bec w (mk_world (w_heap w1) (w_vars w1) raws') ch raws'.
Proof.
  intros (A & A' & B & C). split; [auto|]. split; [auto|]. split; [auto|]. intros l. rewrite <- (C l).
  destruct l; reflexivity.
Qed.
Lemma bec_shadow w w1 l v u ch raws : bec w w1 ((l, v) :: (l, u) :: ch) raws -> bec w w1 ((l, v) :: ch) raws.
Proof.
  intros (A & A' & B & C). split; [auto|]. split; [auto|]. split; [auto|]. intros l'. rewrite (C l'). cbn [changed].
  now destruct (loc_eqb l' l).
Qed.
Lemma bec_shadow2 w w1 l m v u x ch raws : bec w w1 ((l, v) :: (m, u) :: (m, x) :: ch) raws -> bec w w1 ((l, v) :: (m, u) :: ch) raws.
Proof.
  intros (A & A' & B & C). split; [auto|]. split; [auto|]. split; [auto|]. intros l'. rewrite (C l'). cbn [changed].
  now destruct (loc_eqb l' l), (loc_eqb l' m).
Qed.
Lemma bec_becomes w w1 ch raws : bec w w1 ch raws -> becomes w w1 ch [] raws.
Proof.
  intros (A & A' & B & C). split; [auto|]. split; [|auto]. rewrite <- A. apply skipn_all.
Qed.
Lemma bec_push w w1 ch raws h x : bec w w1 ch raws -> later (w_heap w1) h -> becomes w (push_var w1 h x) ch [x] raws.
Proof.
  intros (A & A' & B & C) L. split.
  - intros l Ol. rewrite <- (C l). destruct l as [i|a k]; cbn [value_at push_var w_vars w_heap].
    + rewrite nth_error_app1; auto. rewrite A. exact Ol.
    + exact (later_value w1 h (LField a k) L).
  - split; [|auto]. cbn [push_var w_vars]. rewrite <- A, skipn_app, skipn_all, Nat.sub_diag. reflexivity.
Qed.
Lemma push_grows w w1 ch raws h x : bec w w1 ch raws -> grows (w_heap w) h -> grows (w_heap w) (w_heap (push_var w1 h x)).
Proof. auto. Qed.

(** *** Counts *)

Lemma inv_perm h R R' f : inv h [] R f -> (forall om q, cnt om q R' = cnt om q R) -> inv h [] R' f.
Proof. intros I C. apply (inv_ext _ _ _ _ _ _ f I); auto. intros q. unfold total. now rewrite C. Qed.

Lemma cnt_outer_push om q w h t v :
  cnt om q (outer (push_var w h (t, v))) = cnt om q (oaddr v) + cnt om q (outer w).
Proof.
  unfold outer, push_var. cbn [w_vars w_raws].
  assert (A : addrs (w_vars w ++ [((t, v) : handle)]) = addrs (w_vars w) ++ oaddr v).
  { unfold addrs. rewrite flat_map_app. f_equal. destruct v; reflexivity. }
  assert (B : cnt om q (addrs (w_vars w ++ [((t, v) : handle)]) ++ map p_addr (w_raws w)) =
    cnt om q (oaddr v) + cnt om q (addrs (w_vars w) ++ map p_addr (w_raws w))) by (rewrite A, !cnt_app; lia).
  exact B.
Qed.
Lemma inv_push w h t v f : inv h [] (oaddr v ++ outer w) f -> inv h [] (outer (push_var w h (t, v))) f.
Proof.
  intros I. apply (inv_perm _ _ _ _ I). intros om q. rewrite cnt_outer_push, cnt_app. reflexivity.
Qed.
Lemma cnt_move h a b R : whole h a = whole h b -> forall q, cnt (whole h) q (a :: R) = cnt (whole h) q (b :: R).
Proof. intros E q. now rewrite !cnt_cons, E. Qed.
Lemma inv_move h a b R f : inv h [] (a :: R) f -> whole h a = whole h b -> inv h [] (b :: R) f.
Proof.
  intros I E. apply (inv_ext _ _ _ _ _ _ f I); auto. intros q. unfold total. now rewrite (cnt_move h a b R E).
Qed.

Lemma reach_alive_whole h R f a : inv h [] R f -> reach h R a -> alive h (whole h a) = true.
Proof. intros I H. apply (i_live _ _ _ _ I). now apply reach_total with (f := f). Qed.
Lemma value_reach w X l t p : rooted w X l -> value_at w l = Some (t, Some p) -> reach (w_heap w) (X ++ outer w) (p_addr p).
Proof. intros H E. exact (rooted_next w X l t p 0 H E). Qed.

(** Taking a reference. *)
Lemma take_inv h R f t p : inv h [] R f -> reach h R (p_addr p) ->
  match taken h t p with
  | Some q => take t true p h = Done (Some (q, inc h (whole h (p_addr p)))) /\
      later h (inc h (whole h (p_addr p))) /\ inv (inc h (whole h (p_addr p))) [] (p_addr q :: R) f
  | None => take t true p h = Done None
  end.
Proof.
  intros I H. pose proof (reach_alive_whole _ _ _ _ I H) as L. rewrite (take_true h R f t p I L).
  destruct (taken h t p) as [q|] eqn:T; cbn [option_map]; auto. split; auto.
  split; [apply inc_later|].
  destruct (get_alive h _ (group_alive _ _ _ _ _ I L)) as (c & Ec & _).
  destruct (taken_facts h t p q c (i_wf _ _ _ _ I) T Ec) as [Q _].
  apply (inv_move _ (p_addr p) (p_addr q) R f (inc_inv' _ _ _ _ I L)).
  pose proof (proj1 (inc_later h (whole h (p_addr p)))) as S. now rewrite <- !(whole_same _ _ _ S).
Qed.
Lemma move_inv h R f t p : inv h [] R f -> reach h R (p_addr p) ->
  match taken h t p with
  | Some q => take t false p h = Done (Some (q, h)) /\ whole h (p_addr q) = whole h (p_addr p)
  | None => take t false p h = Done None
  end.
Proof.
  intros I H. pose proof (reach_total _ _ _ _ I H) as L. rewrite (take_false h R f t p I L).
  destruct (taken h t p) as [q|] eqn:T; cbn [option_map]; auto. split; auto.
  destruct (get_alive h _ (group_alive _ _ _ _ _ I (i_live _ _ _ _ I _ L))) as (c & Ec & _).
  exact (proj1 (taken_facts h t p q c (i_wf _ _ _ _ I) T Ec)).
Qed.

(** *** Steps *)

Definition fresh (w w' : world) : Prop :=
  forall a k y, length (w_heap w) <= a -> value_at w' (LField a k) = Some y -> snd y = None.
Lemma fresh_len w w' : length (w_heap w') = length (w_heap w) -> fresh w w'.
Proof.
  intros E a k y L V. destruct (value_field_inv _ _ _ _ V) as (c & Ec & _).
  assert (a < length (w_heap w')) by (apply nth_error_Some; congruence). lia.
Qed.
Definition created (o : op) (r : result) : bool :=
  match o, r with New _ _, ROk => true | New _ _, _ => false | _, _ => true end.
Definition fine (f : bool) (o : op) (w : world) (x : outcome (world * result)) : Prop :=
  match x with
  | Done (w', r) => inv (w_heap w') [] (outer w') (f && created o r) /\ grows (w_heap w) (w_heap w') /\
      fresh w w' /\ effect w o w' r
  | AssertFail => True
  | _ => False
  end.

Lemma fine_intro f o w w' r : inv (w_heap w') [] (outer w') f -> created o r = true ->
  grows (w_heap w) (w_heap w') -> length (w_heap w') = length (w_heap w) -> effect w o w' r ->
  fine f o w (Done (w', r)).
Proof.
  intros I C G L E. cbn [fine]. rewrite C, andb_true_r. split; [auto|]. split; [auto|]. split; [now apply fresh_len | auto].
Qed.

Ltac res w f s I l H T y E H0 :=
  let Q := fresh "Q" in
  pose proof (resolve_ok w f s I) as Q;
  destruct (resolve w s) as [l| | |] eqn:?; cbn [obind]; [|exact Logic.I|destruct Q|destruct Q];
  destruct Q as (H & T & (y & E) & H0); try rewrite (load_ok w l y T E); cbn [obind].

Lemma later_len h h' : later h h' -> length h' = length h.
Proof. intros (S & _). symmetry. now apply same_length. Qed.

Lemma declare_fine w f t : inv (w_heap w) [] (outer w) f -> fine f (Declare t) w (step (Declare t) w).
Proof.
  intros I. cbn [step]. apply fine_intro; auto.
  - apply inv_push. exact I.
  - apply grows_refl.
  - cbn [effect]. split; auto. apply bec_push; [apply bec_refl | apply later_refl].
Qed.

Lemma copy_ctor_fine w f t s : inv (w_heap w) [] (outer w) f -> fine f (CopyCtor t s) w (copy_ctor t s w).
Proof.
  intros I. unfold copy_ctor. res w f s I l H T y E H0. destruct y as [u [p|]].
  - pose proof (value_reach w [] l u p H E) as R. pose proof (take_inv _ _ f t p I R) as Q.
    destruct (taken (w_heap w) t p) as [q|] eqn:K.
    + destruct Q as (-> & L & I'). cbn [obind]. apply fine_intro; auto.
      * apply inv_push. exact I'.
      * apply later_grows; auto.
      * apply later_len; auto.
      * exists l, u, (Some p). split; [auto|]. split; [auto|]. cbn [give]. rewrite K. cbn [option_map]. split; auto.
        apply bec_push; [apply bec_refl | auto].
    + rewrite Q. cbn [obind]. apply fine_intro; auto using grows_refl.
      exists l, u, (Some p). split; [auto|]. split; [auto|]. cbn [give]. rewrite K. cbn [option_map]. auto.
  - apply fine_intro; auto.
    + apply inv_push. exact I.
    + apply grows_refl.
    + exists l, u, None. split; [auto|]. split; [auto|]. cbn [give]. split; auto.
      apply bec_push; [apply bec_refl | apply later_refl].
Qed.

Lemma put_null_self w l t : value_at w l = Some (t, None) -> put w l None = w.
Proof. apply put_self. Qed.

Lemma set_heap_self w : set_heap w (w_heap w) = w.
Proof. now destruct w. Qed.

Lemma move_ctor_fine w f t s : inv (w_heap w) [] (outer w) f -> fine f (MoveCtor t s) w (move_ctor t s w).
Proof.
  intros I. unfold move_ctor. res w f s I l H T y E H0. destruct y as [u [p|]].
  - pose proof (value_reach w [] l u p H E) as R. pose proof (move_inv _ _ f t p I R) as Q.
    destruct (taken (w_heap w) t p) as [q|] eqn:K.
    + destruct Q as (-> & Wq). cbn [obind]. rewrite set_heap_self, (store_ok w l None _ T E). cbn [obind].
      apply fine_intro; auto.
      * apply inv_push. cbn [oaddr app].
        apply (put_inv w l None u (Some p) [] [] [p_addr q] f T E I).
        intros x. cbn [oaddr]. rewrite !cnt_cons, cnt_nil, Wq. lia.
      * apply put_grows.
      * apply put_heap_len.
      * exists l, u, (Some p). split; [auto|]. split; [auto|]. cbn [give]. rewrite K. cbn [option_map]. split; auto.
        apply bec_push; [|apply later_refl]. eapply bec_put; [apply bec_refl | eauto].
    + rewrite Q. cbn [obind]. apply fine_intro; auto using grows_refl.
      exists l, u, (Some p). split; [auto|]. split; [auto|]. cbn [give]. rewrite K. cbn [option_map]. auto.
  - apply fine_intro; auto.
    + apply inv_push. exact I.
    + apply grows_refl.
    + exists l, u, None. split; [auto|]. split; [auto|]. cbn [give]. split; auto.
      rewrite <- (put_null_self w l u E) at 2 3.
      apply bec_push; [|apply later_refl]. eapply bec_put; [apply bec_refl | eauto].
Qed.

(** The state after the destination has been reset. *)
Lemma reset_fine w f l t v : inv (w_heap w) [] (outer w) f -> there w l -> value_at w l = Some (t, v) ->
  rooted (put w l None) [] l ->
  exists w1, reset l w = Done w1 /\ inv (w_heap w1) [] (outer w1) f /\ grows (w_heap w) (w_heap w1) /\
    bec w w1 [(l, None)] (w_raws w) /\ rooted w1 [] l /\ there w1 l /\ value_at w1 l = Some (t, None) /\
    same (w_heap w) (w_heap w1) /\
    forall l', rooted (put w l None) [] l' -> rooted w1 [] l'.
Proof.
  intros I T E H. destruct (reset_ok w [] f l t v I T E H) as (h' & R & L & I').
  exists (set_heap (put w l None) h'). split; [auto|]. split; [exact I'|].
  split; [apply (grows_trans _ _ _ (put_grows w l None)); now apply later_grows|].
  split; [apply bec_later; auto; eapply bec_put; [apply bec_refl | eauto]|].
  assert (RR : forall l', rooted (put w l None) [] l' -> rooted (set_heap (put w l None) h') [] l').
  { intros [i|a k]; cbn [rooted set_heap w_heap]; auto. intros Q. exact (reach_later _ _ _ _ L Q). }
  split; [now apply RR|].
  split; [apply (rooted_there (set_heap (put w l None) h') [] f _ I'); now apply RR|].
  split; [|split; [|exact RR]].
  - rewrite (later_value _ h' l L), (value_put w l None _ l E). destruct (loc_eqb_spec l l); [reflexivity|congruence].
  - exact (same_trans _ _ _ (put_same w l None) (proj1 L)).
Qed.

Lemma put_give w f l t q : there w l -> value_at w l = Some (t, None) -> inv (w_heap w) [] (p_addr q :: outer w) f ->
  inv (w_heap (put w l (Some q))) [] (outer (put w l (Some q))) f.
Proof.
  intros T E I. apply (put_inv w l (Some q) t None [] [p_addr q] [] f T E I).
  intros x. cbn [oaddr]. rewrite !cnt_cons, cnt_nil. lia.
Qed.

Lemma reset_op_fine w f s : inv (w_heap w) [] (outer w) f -> fine f (Reset s) w (reset_op s w).
Proof.
  intros I. unfold reset_op. res w f s I l H T y E H0. destruct y as [t v].
  destruct (reset_fine w f l t v I T E H0) as (w1 & -> & I1 & G & B & _). cbn [obind].
  apply fine_intro; auto; [apply B|]. cbn [effect]. split; auto. exists l. split; auto. now apply bec_becomes.
Qed.

Lemma outer_set_heap w h : outer (set_heap w h) = outer w.
Proof. reflexivity. Qed.
Lemma there_later w h l : alive (w_heap w) = alive h -> there w l -> there (set_heap w h) l.
Proof. intros A. destruct l; cbn [there set_heap w_heap]; auto. now rewrite <- A. Qed.
Lemma there_inc w r l : there w l -> there (set_heap w (inc (w_heap w) r)) l.
Proof. destruct l; cbn [there set_heap w_heap]; auto. now rewrite inc_alive. Qed.

(** Giving a reference to a null pointer. *)
Lemma fill_fine w1 f l t p : inv (w_heap w1) [] (outer w1) f -> there w1 l -> value_at w1 l = Some (t, None) ->
  reach (w_heap w1) (outer w1) (p_addr p) ->
  match taken (w_heap w1) t p with
  | Some q => exists h, take t true p (w_heap w1) = Done (Some (q, h)) /\ later (w_heap w1) h /\
      store (set_heap w1 h) l (Some q) = Done (put (set_heap w1 h) l (Some q)) /\
      value_at (set_heap w1 h) l = Some (t, None) /\
      inv (w_heap (put (set_heap w1 h) l (Some q))) [] (outer (put (set_heap w1 h) l (Some q))) f
  | None => take t true p (w_heap w1) = Done None
  end.
Proof.
  intros I T E R. pose proof (take_inv _ _ f t p I R) as Q.
  destruct (taken (w_heap w1) t p) as [q|]; [|exact Q]. destruct Q as (Q1 & Q2 & Q3).
  exists (inc (w_heap w1) (whole (w_heap w1) (p_addr p))). split; [auto|]. split; [auto|].
  assert (T' : there (set_heap w1 (inc (w_heap w1) (whole (w_heap w1) (p_addr p)))) l) by now apply there_inc.
  assert (E' : value_at (set_heap w1 (inc (w_heap w1) (whole (w_heap w1) (p_addr p)))) l = Some (t, None))
    by now rewrite (later_value _ _ _ Q2).
  split; [exact (store_ok _ _ _ _ T' E')|]. split; [auto|].
  apply (put_give _ f l t q T' E'). exact Q3.
Qed.

Lemma assign_fine w f d s : inv (w_heap w) [] (outer w) f -> apart w d s -> fine f (Assign d s) w (assign d s w).
Proof.
  intros I A. unfold assign. res w f d I ld Hd Td yd Ed Hd0. res w f s I ls Hs Ts ys Es Hs0.
  destruct yd as [t x], ys as [u v]. cbn [obind].
  destruct (resolve_apart w f d s ld ls _ I A Heqo Heqo0 Ed) as [HA Nl].
  destruct (reset_fine w f ld t x I Td Ed Hd0) as (w1 & -> & I1 & G1 & B1 & H1 & T1 & E1 & S1 & RR). cbn [obind].
  destruct v as [p|].
  - assert (Es1 : value_at w1 ls = Some (u, Some p)).
    { destruct B1 as (_ & _ & _ & B1). rewrite (B1 ls), Es. cbn [changed].
      destruct (loc_eqb_spec ls ld); [contradiction|reflexivity]. }
    pose proof (value_reach w1 [] ls u p (RR _ HA) Es1) as R.
    pose proof (fill_fine w1 f ld t p I1 T1 E1 R) as Q. rewrite <- (taken_same _ _ t p S1) in Q.
    destruct (taken (w_heap w) t p) as [q|] eqn:K.
    + destruct Q as (h & -> & L & St & V & I2). cbn [obind]. rewrite St. cbn [obind].
      assert (B2 : bec w (put (set_heap w1 h) ld (Some q)) [(ld, Some q)] (w_raws w)).
      { apply (bec_shadow _ _ _ _ None []). apply (bec_put _ _ _ _ _ _ (t, None)); auto. now apply bec_later. }
      apply fine_intro; auto.
      * apply (grows_trans _ _ _ G1). apply (grows_trans _ h); [now apply later_grows|].
        apply (put_grows (set_heap w1 h) ld (Some q)).
      * apply B2.
      * exists ld, t, x, ls, u, (Some p). split; [auto|]. split; [auto|]. split; [auto|]. split; [auto|].
        cbn [give]. rewrite K. cbn [option_map]. split; auto. now apply bec_becomes.
    + rewrite Q. cbn [obind]. apply fine_intro; auto; [apply B1|].
      exists ld, t, x, ls, u, (Some p). split; [auto|]. split; [auto|]. split; [auto|]. split; [auto|].
      cbn [give]. rewrite K. cbn [option_map]. split; auto. now apply bec_becomes.
  - apply fine_intro; auto; [apply B1|].
    exists ld, t, x, ls, u, None. split; [auto|]. split; [auto|]. split; [auto|]. split; [auto|].
    cbn [give]. split; auto. now apply bec_becomes.
Qed.

Lemma put2_inv w l v t u l' v' t' u' f : there w l -> value_at w l = Some (t, u) -> there w l' ->
  value_at (put w l v) l' = Some (t', u') -> inv (w_heap w) [] (outer w) f ->
  (forall q, cnt (whole (w_heap w)) q (oaddr v) + cnt (whole (w_heap w)) q (oaddr v') =
             cnt (whole (w_heap w)) q (oaddr u) + cnt (whole (w_heap w)) q (oaddr u')) ->
  inv (w_heap (put (put w l v) l' v')) [] (outer (put (put w l v) l' v')) f.
Proof.
  intros T E T' E' I C. apply (inv_ext _ _ _ _ _ _ f I); auto.
  - intros a. rewrite (put_core w l v a). apply put_core.
  - intros q. specialize (C q).
    pose proof (total_put (whole (w_heap w)) q w l v t u [] [] T E) as Q1.
    pose proof (total_put (whole (w_heap w)) q (put w l v) l' v' t' u' [] [] (proj2 (put_there w l v l') T') E') as Q2.
    cbn [app] in Q1, Q2. lia.
Qed.

Lemma move_assign_fine w f d s : inv (w_heap w) [] (outer w) f ->
  (forall l t p, value_at w l = Some (t, Some p) -> p_ty p = t) ->
  resolve w d = resolve w s \/ apart w d s -> fine f (MoveAssign d s) w (move_assign d s w).
Proof.
  intros I TY A. unfold move_assign. res w f d I ld Hd Td yd Ed Hd0. res w f s I ls Hs Ts ys Es Hs0.
  destruct yd as [t x], ys as [u v]. cbn [obind].
  destruct (reset_fine w f ld t x I Td Ed Hd0) as (w1 & -> & I1 & G1 & B1 & H1 & T1 & E1 & S1 & RR). cbn [obind].
  destruct (loc_eqb_spec ls ld) as [->|Nl].
  - rewrite Ed in Es. injection Es as <- <-.
    assert (P1 : put w1 ld None = w1) by exact (put_self w1 ld t None E1).
    destruct x as [p|].
    + pose proof (TY ld t p Ed) as Tp. unfold take. rewrite Tp, Nat.eqb_refl. cbn [obind].
      rewrite set_heap_self, (store_ok w1 ld (Some p) _ T1 E1). cbn [obind].
      assert (V : value_at (put w1 ld (Some p)) ld = Some (t, Some p)).
      { rewrite (value_put w1 ld (Some p) _ ld E1). destruct (loc_eqb_spec ld ld); [reflexivity|congruence]. }
      rewrite (store_ok (put w1 ld (Some p)) ld None _ (proj2 (put_there w1 ld (Some p) ld) T1) V). cbn [obind].
      rewrite (put_put w1 ld (Some p) None _ E1), P1.
      apply fine_intro; auto; [apply B1|].
      exists ld, t, (Some p), ld, t, (Some p). split; [auto|]. split; [auto|]. split; [auto|]. split; [auto|].
      cbn [give]. unfold taken. rewrite Tp, Nat.eqb_refl. cbn [option_map]. split; auto.
      destruct (bec_becomes _ _ _ _ B1) as (B & BB). split; auto. intros l Ol. rewrite (B l Ol). cbn [changed].
      now destruct (loc_eqb l ld).
    + rewrite (store_ok w1 ld None _ T1 E1), P1. cbn [obind]. apply fine_intro; auto; [apply B1|].
      exists ld, t, None, ld, t, None. split; [auto|]. split; [auto|]. split; [auto|]. split; [auto|].
      cbn [give]. split; auto.
      destruct (bec_becomes _ _ _ _ B1) as (B & BB). split; auto. intros l Ol. rewrite (B l Ol). cbn [changed].
      now destruct (loc_eqb l ld).
  - destruct A as [A|A]; [congruence|].
    destruct (resolve_apart w f d s ld ls _ I A Heqo Heqo0 Ed) as [HA _].
    assert (Es1 : value_at w1 ls = Some (u, v)).
    { destruct B1 as (_ & _ & _ & B). rewrite (B ls), Es. cbn [changed].
      destruct (loc_eqb_spec ls ld); [contradiction|reflexivity]. }
    pose proof (rooted_there w1 [] f ls I1 (RR _ HA)) as Ts1.
    destruct v as [p|].
    + pose proof (value_reach w1 [] ls u p (RR _ HA) Es1) as R.
      pose proof (move_inv _ _ f t p I1 R) as Q. rewrite <- (taken_same _ _ t p S1) in Q.
      destruct (taken (w_heap w) t p) as [q|] eqn:K.
      * destruct Q as (-> & Wq). cbn [obind]. rewrite set_heap_self, (store_ok w1 ld (Some q) _ T1 E1). cbn [obind].
        assert (V : value_at (put w1 ld (Some q)) ls = Some (u, Some p)).
        { rewrite (value_put w1 ld (Some q) _ ls E1). destruct (loc_eqb_spec ld ls); [congruence|exact Es1]. }
        pose proof (proj2 (put_there w1 ld (Some q) ls) Ts1) as T2.
        rewrite (store_ok (put w1 ld (Some q)) ls None _ T2 V). cbn [obind].
        assert (B2 : bec w (put (put w1 ld (Some q)) ls None) [(ls, None); (ld, Some q)] (w_raws w)).
        { apply (bec_put _ _ _ _ _ _ (u, Some p)); auto. apply (bec_shadow _ _ _ _ None []).
          apply (bec_put _ _ _ _ _ _ (t, None)); auto. }
        apply fine_intro; auto.
        -- apply (put2_inv w1 ld (Some q) t None ls None u (Some p) f T1 E1 Ts1 V I1).
           intros z. cbn [oaddr]. rewrite !cnt_cons, !cnt_nil, Wq. lia.
        -- apply (grows_trans _ _ _ G1). apply (grows_trans _ _ _ (put_grows w1 ld (Some q))). apply put_grows.
        -- apply B2.
        -- exists ld, t, x, ls, u, (Some p). split; [auto|]. split; [auto|]. split; [auto|]. split; [auto|].
           cbn [give]. rewrite K. cbn [option_map]. split; auto. now apply bec_becomes.
      * rewrite Q. cbn [obind]. apply fine_intro; auto; [apply B1|].
        exists ld, t, x, ls, u, (Some p). split; [auto|]. split; [auto|]. split; [auto|]. split; [auto|].
        cbn [give]. rewrite K. cbn [option_map]. split; auto. now apply bec_becomes.
    + rewrite (store_ok w1 ls None _ Ts1 Es1). cbn [obind].
      rewrite (put_self w1 ls u None Es1). apply fine_intro; auto; [apply B1|].
      exists ld, t, x, ls, u, None. split; [auto|]. split; [auto|]. split; [auto|]. split; [auto|].
      cbn [give]. split; auto.
      rewrite <- (put_self w1 ls u None Es1). apply bec_becomes. apply (bec_put _ _ _ _ _ _ (u, None)); auto.
Qed.

Lemma raws_inv h w raws f : inv h [] (outer w) f -> forall X X',
  (forall q, cnt (whole h) q X' + cnt (whole h) q (map p_addr raws) =
             cnt (whole h) q X + cnt (whole h) q (map p_addr (w_raws w))) ->
  inv h [] (X ++ outer w) f -> inv h [] (X' ++ outer (mk_world h (w_vars w) raws)) f.
Proof.
  intros _ X X' C I. apply (inv_ext _ _ _ _ _ _ f I); auto. intros q. specialize (C q).
  unfold total, outer. cbn [w_vars w_raws]. rewrite !cnt_app. lia.
Qed.

Lemma detach_fine w f s : inv (w_heap w) [] (outer w) f -> fine f (Detach s) w (detach s w).
Proof.
  intros I. unfold detach. res w f s I l H T y E H0. destruct y as [u [p|]].
  - rewrite (store_ok w l None _ T E). cbn [obind].
    assert (B : bec w (put w l None) [(l, None)] (w_raws w)) by (eapply bec_put; [apply bec_refl | eauto]).
    apply fine_intro; auto.
    + cbn [w_heap]. assert (J : inv (w_heap (put w l None)) [] ([p_addr p] ++ outer (put w l None)) f).
      { apply (put_inv w l None u (Some p) [] [] [p_addr p] f T E I).
        intros x. cbn [oaddr]. rewrite !cnt_cons, cnt_nil. lia. }
      apply (inv_ext _ _ _ _ _ _ f J); auto. intros q. unfold total, outer. cbn [w_vars w_raws].
      rewrite map_app, !cnt_app. cbn [map]. lia.
    + cbn [w_heap]. apply put_grows.
    + apply put_heap_len.
    + split; auto. exists l, u, (Some p). split; [auto|]. split; [auto|]. apply bec_becomes.
      rewrite put_raws. exact (bec_raws _ _ _ _ _ B).
  - apply fine_intro; auto using grows_refl. split; auto. exists l, u, None. split; [auto|]. split; [auto|].
    rewrite app_nil_r. rewrite <- (put_null_self w l u E) at 2. apply bec_becomes. eapply bec_put; [apply bec_refl | eauto].
Qed.

Lemma add_ref_op_fine w f s : inv (w_heap w) [] (outer w) f -> fine f (AddRef s) w (add_ref_op s w).
Proof.
  intros I. unfold add_ref_op. res w f s I l H T y E H0. destruct y as [u [p|]]; [|exact Logic.I].
  pose proof (value_reach w [] l u p H E) as R. pose proof (reach_alive_whole _ _ _ _ I R) as L.
  rewrite (add_ref_ok _ _ _ _ _ I L). cbn [obind].
  pose proof (inc_later (w_heap w) (whole (w_heap w) (p_addr p))) as LT.
  pose proof (inc_inv' _ _ _ _ I L) as J.
  apply fine_intro; auto.
  - cbn [w_heap]. apply (inv_ext _ _ _ _ _ _ f J); auto. intros q. unfold total, outer. cbn [w_vars w_raws].
    rewrite map_app, cnt_cons, !cnt_app. cbn [map]. rewrite !cnt_cons, !cnt_nil. lia.
  - now apply later_grows.
  - now apply later_len.
  - split; auto. exists l, u, p. split; [auto|]. split; [auto|]. apply bec_becomes.
    apply (bec_raws w (set_heap w (inc (w_heap w) (whole (w_heap w) (p_addr p)))) [] (w_raws w)).
    apply bec_later; auto. apply bec_refl.
Qed.

Lemma cnt_remove om q k p (l : list ptr) : nth_error l k = Some p ->
  cnt om q (map p_addr l) = (if om (p_addr p) =? q then 1 else 0) + cnt om q (map p_addr (remove_nth k l)).
Proof.
  revert k. induction l as [|x l IH]; intros [|k]; cbn [nth_error remove_nth map]; try discriminate.
  - intros [= ->]. now rewrite cnt_cons.
  - intros E. rewrite !cnt_cons, (IH k E). lia.
Qed.

Lemma release_op_fine w f k : inv (w_heap w) [] (outer w) f -> fine f (Release k) w (release_op k w).
Proof.
  intros I. unfold release_op. destruct (nth_error (w_raws w) k) as [p|] eqn:E; [|exact Logic.I].
  assert (J : inv (w_heap w) [Rel (p_addr p)] (outer (mk_world (w_heap w) (w_vars w) (remove_nth k (w_raws w)))) f).
  { apply inv_rel. apply (inv_perm _ _ _ _ I). intros om q. unfold outer. cbn [w_vars w_raws].
    rewrite cnt_cons, !cnt_app, (cnt_remove om q k p _ E). lia. }
  destruct (run_work_ok (work_fuel (w_heap w) [Rel (p_addr p)]) _ _ _ _ J) as (h & Eh & Ih & Lh).
  { unfold measure, work_fuel, fsum. lia. }
  unfold release. rewrite Eh. cbn [obind]. apply fine_intro; auto.
  - now apply later_grows.
  - now apply later_len.
  - split; auto. split; [apply nth_error_Some; congruence|]. apply bec_becomes.
    apply (bec_raws w (set_heap w h) [] (w_raws w)). apply bec_later; auto. apply bec_refl.
Qed.

Lemma raw_reach w k p : nth_error (w_raws w) k = Some p -> reach (w_heap w) (outer w) (p_addr p).
Proof.
  intros E. apply reach_root. unfold outer. apply in_or_app. right. apply in_map. eapply nth_error_In; eauto.
Qed.

Lemma reset_to_fine w f d k ar : inv (w_heap w) [] (outer w) f -> fine f (ResetTo d k ar) w (reset_to d k ar w).
Proof.
  intros I. unfold reset_to. res w f d I l H T y E H0. destruct y as [t x].
  destruct (nth_error (w_raws w) k) as [p|] eqn:Ek; [|exact Logic.I]. cbn [obind].
  destruct (reset_fine w f l t x I T E H0) as (w1 & -> & I1 & G1 & B1 & H1 & T1 & E1 & S1 & RR). cbn [obind].
  assert (Ek1 : nth_error (w_raws w1) k = Some p) by (destruct B1 as (_ & _ & -> & _); exact Ek).
  pose proof (raw_reach w1 k p Ek1) as R. destruct ar.
  - pose proof (fill_fine w1 f l t p I1 T1 E1 R) as Q. rewrite <- (taken_same _ _ t p S1) in Q.
    destruct (taken (w_heap w) t p) as [q|] eqn:K.
    + destruct Q as (h & -> & L & St & V & I2). cbn [obind]. rewrite St. cbn [obind].
      assert (B2 : bec w (put (set_heap w1 h) l (Some q)) [(l, Some q)] (w_raws w)).
      { apply (bec_shadow _ _ _ _ None []). apply (bec_put _ _ _ _ _ _ (t, None)); auto. now apply bec_later. }
      apply fine_intro; auto.
      * apply (grows_trans _ _ _ G1). apply (grows_trans _ h); [now apply later_grows|].
        apply (put_grows (set_heap w1 h) l (Some q)).
      * apply B2.
      * exists l, t, x, p. split; [auto|]. split; [auto|]. split; [auto|]. rewrite K. split; auto. now apply bec_becomes.
    + rewrite Q. cbn [obind]. apply fine_intro; auto; [apply B1|].
      exists l, t, x, p. split; [auto|]. split; [auto|]. split; [auto|]. rewrite K. split; auto. now apply bec_becomes.
  - pose proof (move_inv _ _ f t p I1 R) as Q. rewrite <- (taken_same _ _ t p S1) in Q.
    destruct (taken (w_heap w) t p) as [q|] eqn:K.
    + destruct Q as (-> & Wq). cbn [obind]. rewrite set_heap_self, (store_ok w1 l (Some q) _ T1 E1). cbn [obind].
      assert (B2 : bec w (put w1 l (Some q)) [(l, Some q)] (w_raws w)).
      { apply (bec_shadow _ _ _ _ None []). apply (bec_put _ _ _ _ _ _ (t, None)); auto. }
      assert (RW : w_raws (put w1 l (Some q)) = w_raws w) by apply B2.
      apply fine_intro; auto.
      * cbn [w_heap]. apply (inv_ext _ _ _ _ _ _ f I1 (put_core w1 l (Some q))); auto. intros z.
        pose proof (total_put (whole (w_heap w1)) z w1 l (Some q) t None [] [] T1 E1) as Q.
        cbn [oaddr app] in Q. rewrite cnt_cons, cnt_nil, Wq in Q.
        assert (RW1 : w_raws w1 = w_raws w) by apply B1.
        unfold total, outer in *. cbn [w_vars w_raws]. rewrite RW in *. rewrite RW1 in *. rewrite !cnt_app in *.
        rewrite (cnt_remove _ z k p _ Ek) in Q. rewrite (cnt_remove _ z k p _ Ek). lia.
      * cbn [w_heap]. apply (grows_trans _ _ _ G1). apply put_grows.
      * apply B2.
      * exists l, t, x, p. split; [auto|]. split; [auto|]. split; [auto|]. rewrite K. split; auto. apply bec_becomes.
        rewrite RW. exact (bec_raws _ _ _ _ _ B2).
    + rewrite Q. cbn [obind]. apply fine_intro; auto; [apply B1|].
      exists l, t, x, p. split; [auto|]. split; [auto|]. split; [auto|]. rewrite K. split; auto. now apply bec_becomes.
Qed.

Lemma swap_fine w f d s : inv (w_heap w) [] (outer w) f -> fine f (Swap d s) w (swap d s w).
Proof.
  intros I. unfold swap. res w f d I ld Hd Td yd Ed Hd0. res w f s I ls Hs Ts ys Es Hs0.
  destruct yd as [t v], ys as [u x]. cbn [obind]. destruct (Nat.eqb_spec t u) as [<-|]; [|exact Logic.I].
  rewrite (store_ok w ld x _ Td Ed). cbn [obind].
  assert (V : value_at (put w ld x) ls = Some (t, x)).
  { rewrite (value_put w ld x _ ls Ed). destruct (loc_eqb_spec ld ls) as [->|]; [reflexivity|exact Es]. }
  rewrite (store_ok (put w ld x) ls v _ (proj2 (put_there w ld x ls) Ts) V). cbn [obind].
  assert (B : bec w (put (put w ld x) ls v) [(ls, v); (ld, x)] (w_raws w)).
  { apply (bec_put _ _ _ _ _ _ (t, x)); auto. apply (bec_put _ _ _ _ _ _ (t, v)); auto. apply bec_refl. }
  apply fine_intro; auto.
  - apply (put2_inv w ld x t v ls v t x f Td Ed Ts V I). intros q. lia.
  - apply (grows_trans _ _ _ (put_grows w ld x)). apply put_grows.
  - apply B.
  - split; auto. exists ld, ls, t, v, x. split; [auto|]. split; [auto|]. split; [auto|]. split; [auto|]. now apply bec_becomes.
Qed.

(** The object of a smart pointer and its parts. *)
Lemma part_whole h R f a c k b : inv h [] R f -> nth_error h a = Some c -> nth_error (c_parts c) k = Some b ->
  exists d, nth_error h b = Some d /\ is_part (c_kind d) = true /\ c_owner d = a /\ whole h b = whole h a.
Proof.
  intros I E P. pose proof (i_wf _ _ _ _ I) as W.
  destruct (proj1 (wf_parts h W a c b E) (nth_error_In _ _ P)) as (d & Ed & Pd & Od).
  exists d. rewrite (whole_part h b d W Ed Pd), Od. auto.
Qed.

Lemma of_part_fine w f s k : inv (w_heap w) [] (outer w) f -> fine f (OfPart s k) w (of_part s k w).
Proof.
  intros I. unfold of_part, target. res w f s I l H T y E H0. destruct y as [u [p|]]; [|exact Logic.I]. cbn [obind].
  pose proof (value_reach w [] l u p H E) as R. pose proof (reach_alive_whole _ _ _ _ I R) as L.
  destruct (get_alive _ _ (group_alive _ _ _ _ _ I L)) as (c & Ec & _ & ->). cbn [obind].
  destruct (nth_error (c_parts c) k) as [b|] eqn:Ek; [|exact Logic.I].
  destruct (part_whole _ _ _ _ _ _ _ I Ec Ek) as (d & Ed & Pd & Od & Wb).
  assert (Lb : alive (w_heap w) (whole (w_heap w) b) = true) by now rewrite Wb.
  destruct (get_alive _ _ (group_alive _ _ _ _ _ I Lb)) as (d' & Ed' & _ & ->). cbn [obind].
  rewrite Ed in Ed'. injection Ed' as <-.
  rewrite (add_ref_ok _ _ _ _ _ I Lb). cbn [obind].
  pose proof (inc_later (w_heap w) (whole (w_heap w) b)) as LT.
  pose proof (inc_inv' _ _ _ _ I Lb) as J.
  apply fine_intro; auto.
  - apply inv_push. exact J.
  - now apply later_grows.
  - now apply later_len.
  - split; auto. exists l, u, p, c, b, d. split; [auto|]. split; [auto|]. split; [auto|]. split; [auto|]. split; [auto|].
    apply bec_push; auto. apply bec_refl.
Qed.

Lemma query_part_fine w f t s k : inv (w_heap w) [] (outer w) f -> fine f (QueryPart t s k) w (query_part t s k w).
Proof.
  intros I. unfold query_part, target. res w f s I l H T y E H0. destruct y as [u [p|]]; [|exact Logic.I]. cbn [obind].
  pose proof (value_reach w [] l u p H E) as R. pose proof (reach_alive_whole _ _ _ _ I R) as L.
  destruct (get_alive _ _ (group_alive _ _ _ _ _ I L)) as (c & Ec & _ & ->). cbn [obind].
  destruct (nth_error (c_parts c) k) as [b|] eqn:Ek; [|exact Logic.I].
  destruct (part_whole _ _ _ _ _ _ _ I Ec Ek) as (d & Ed & Pd & Od & Wb).
  assert (Lb : alive (w_heap w) (whole (w_heap w) b) = true) by now rewrite Wb.
  destruct (get_alive _ _ (group_alive _ _ _ _ _ I Lb)) as (d' & Ed' & _ & ->). cbn [obind].
  rewrite Ed in Ed'. injection Ed' as <-. destruct (is_navi (c_kind d) && (t =? 0)) eqn:NV; [exact Logic.I|].
  assert (NV' : t = 0 -> is_navi (c_kind d) = false) by (intros ->; destruct (is_navi (c_kind d)); auto).
  pose proof (internal_query_ok _ _ _ t I (S (length (w_heap w))) b Lb ltac:(lia)) as Q.
  match goal with |- context [internal_query ?n ?h ?x ?y] => replace (internal_query n h x y) with
    (Done (option_map (fun b0 => (mk_ptr b0 t, inc (w_heap w) (whole (w_heap w) b))) (find_impl (S (length (w_heap w))) (w_heap w) b t))) by (symmetry; exact Q) end.
  cbn [obind]. destruct (find_impl (S (length (w_heap w))) (w_heap w) b t) as [x|] eqn:K; cbn [option_map].
  - destruct (find_impl_facts _ t (i_wf _ _ _ _ I) _ b x K ltac:(congruence)) as (Wx & _).
    pose proof (inc_later (w_heap w) (whole (w_heap w) b)) as LT.
    pose proof (inc_inv' _ _ _ _ I Lb) as J.
    apply fine_intro; auto.
    + apply inv_push. cbn [oaddr p_addr app]. apply (inv_move _ b x _ _ J).
      now rewrite <- !(whole_same _ _ _ (proj1 LT)).
    + now apply later_grows.
    + now apply later_len.
    + exists l, u, p, c, b, d. split; [auto|]. split; [auto|]. split; [auto|]. split; [auto|]. split; [auto|]. split; [auto|].
      unfold interface. rewrite K.
      split; auto. apply bec_push; auto. apply bec_refl.
  - apply fine_intro; auto using grows_refl.
    exists l, u, p, c, b, d. split; [auto|]. split; [auto|]. split; [auto|]. split; [auto|]. split; [auto|]. split; [auto|].
      unfold interface. rewrite K. auto.
Qed.

Lemma reach_mono h R R' a : reach h R a -> (forall x, In x R -> In x R') -> reach h R' a.
Proof.
  intros H M. induction H as [a Ha|a c a' Ha IH E Ha']; [apply reach_root; auto|].
  apply (reach_field _ _ a c); auto.
Qed.

(** Asking for [IObject]. *)
Lemma interface_zero h a : interface h a 0 = Some a.
Proof. reflexivity. Qed.
Definition itself (h : heap) (v : option ptr) : Prop :=
  match v with Some p => p_ty p = 0 -> identity h (p_addr p) = p_addr p | None => True end.
Definition obj (h : heap) (v : option ptr) : option ptr :=
  option_map (fun p => mk_ptr (identity h (p_addr p)) 0) v.
Lemma opt_take_ok h R f v : inv h [] R f -> itself h v -> (forall p, v = Some p -> reach h R (p_addr p)) ->
  exists h', opt_take v h = Done (Some (obj h v, h')) /\ later h h' /\ inv h' [] (oaddr v ++ R) f /\
    opt_release (obj h v) h' = Done h.
Proof.
  intros I T H. destruct v as [p|]; cbn [opt_take obj option_map].
  - pose proof (H p eq_refl) as R0. pose proof (take_inv h R f 0 p I R0) as Q.
    pose proof (reach_total _ _ _ _ I R0) as TO.
    assert (K : taken h 0 p = Some (mk_ptr (identity h (p_addr p)) 0)).
    { unfold taken. destruct (Nat.eqb_spec 0 (p_ty p)) as [Z|Z]; [|reflexivity].
      cbn [itself] in T. rewrite (T (eq_sym Z)). destruct p as [a u]. cbn in *. now subst u. }
    rewrite K in Q. destruct Q as (-> & L & J). cbn [obind].
    exists (inc h (whole h (p_addr p))). split; [auto|]. split; [exact L|]. split.
    + cbn [oaddr app]. apply (inv_move _ _ (p_addr p) _ _ J). cbn [p_addr].
      rewrite <- !(whole_same _ _ _ (proj1 L)). exact (whole_identity h (p_addr p) (i_wf _ _ _ _ I)).
    + cbn [opt_release p_addr]. pose proof (whole_identity h (p_addr p) (i_wf _ _ _ _ I)) as Wi.
      apply (add_release h R f _ _ I); [now rewrite Wi | now symmetry].
  - exists h. split; [auto|]. split; [apply later_refl|]. split; [exact I|reflexivity].
Qed.
Lemma identity_some_eq h v v' : same_ptr (obj h v) (obj h v') = same_object h v v'.
Proof. destruct v, v'; reflexivity. Qed.

Lemma equal_fine w f s s' : inv (w_heap w) [] (outer w) f ->
  (forall l t v, value_at w l = Some (t, v) -> itself (w_heap w) v) ->
  fine f (Equal s s') w (equal s s' w).
Proof.
  intros I TY. unfold equal. res w f s I l H T y E H0. res w f s' I l' H' T' y' E' H0'.
  destruct y as [t v], y' as [u v']. cbn [obind]. destruct (t =? u) eqn:TU.
  - apply fine_intro; auto using grows_refl. split; auto.
    exists l, t, v, l', u, v'. rewrite TU. auto.
  - destruct (opt_take_ok (w_heap w) (outer w) f v I (TY _ _ _ E)) as (h1 & -> & L1 & I1 & R1).
    { intros p ->. exact (value_reach w [] l t p H E). }
    pose proof (proj1 L1) as S1. cbn [obind]. destruct (opt_take_ok h1 (oaddr v ++ outer w) f v' I1) as (h2 & -> & S2 & I2 & R2).
    { pose proof (TY _ _ _ E') as Q. destruct v' as [p|]; cbn [itself] in *; auto. now rewrite <- (identity_same _ _ _ S1). }
    { intros p ->. pose proof (value_reach w [] l' u p H' E') as Q. cbn [app] in Q.
      apply (reach_later _ _ _ _ L1). apply (reach_mono _ _ _ _ Q). intros x Hx. apply in_or_app. auto. }
    cbn [obind]. rewrite R2. cbn [obind]. rewrite R1. cbn [obind]. rewrite set_heap_self.
    apply fine_intro; auto using grows_refl. split; auto.
    exists l, t, v, l', u, v'. rewrite TU. split; [auto|]. split; [auto|]. split; [auto|]. split; [auto|]. f_equal.
    rewrite <- identity_some_eq. destruct v as [p|], v' as [p'|]; cbn [obj option_map same_ptr p_addr]; auto.
    now rewrite (identity_same _ _ (p_addr p') S1).
Qed.

(** *** New objects *)

Lemma nth_combine_seq {A} (l : list A) : forall n j,
  nth_error (combine (seq n (length l)) l) j = option_map (fun d => (n + j, d)) (nth_error l j).
Proof.
  induction l as [|x l IH]; intros n [|j]; cbn [length seq combine nth_error option_map]; auto.
  - now rewrite Nat.add_0_r.
  - rewrite IH. now rewrite Nat.add_succ_comm.
Qed.
Lemma nth_new_cells base ps j :
  nth_error (new_cells base ps) j = option_map (fun d => new_cell base ps (j, d)) (nth_error ps j).
Proof. unfold new_cells. rewrite nth_error_map, nth_combine_seq. now destruct (nth_error ps j). Qed.
Lemma new_cells_len base ps : length (new_cells base ps) = length ps.
Proof. unfold new_cells. rewrite map_length, combine_length, seq_length. lia. Qed.

Lemma piece_facts ps j d : pieces_ok ps = true -> nth_error ps j = Some d ->
  (j = 0 -> is_part (d_kind d) = false) /\ (j <> 0 -> is_part (d_kind d) = true /\ d_owner d < j) /\
  0 < d_class d /\
  forall t b, In (Via t b) (d_map d) ->
    exists e, nth_error ps b = Some e /\ is_navi (d_kind e) = true /\ d_owner e = j.
Proof.
  unfold pieces_ok. intros H E. apply andb_prop in H. destruct H as [_ H]. rewrite forallb_forall in H.
  assert (j < length ps) by (apply nth_error_Some; congruence).
  specialize (H j). rewrite in_seq in H. specialize (H ltac:(lia)). unfold piece_ok in H. rewrite E in H.
  apply andb_prop in H. destruct H as [H M]. apply andb_prop in H. destruct H as [H C].
  split; [|split; [|split]].
  - intros ->. cbn in H. now destruct (is_part (d_kind d)).
  - intros N. destruct (Nat.eqb_spec j 0); [contradiction|]. apply andb_prop in H. split; [apply H|]. lia.
  - lia.
  - intros t b V. rewrite forallb_forall in M. specialize (M _ V). cbn [entry_ok] in M. apply andb_prop in M.
    destruct M as [_ M]. destruct (nth_error ps b) as [e|]; [|discriminate]. apply andb_prop in M. exists e.
    split; auto. split; [apply M|lia].
Qed.
Lemma parts_of_in ps j b : In b (parts_of ps j) <->
  exists d, nth_error ps b = Some d /\ is_part (d_kind d) = true /\ d_owner d = j.
Proof.
  unfold parts_of. rewrite filter_In, in_seq. split.
  - intros [_ H]. destruct (nth_error ps b) as [d|]; [|discriminate]. exists d. split; auto.
    apply andb_prop in H. split; [apply H|lia].
  - intros (d & E & P & O). assert (b < length ps) by (apply nth_error_Some; congruence). split; [lia|].
    rewrite E, P, O, Nat.eqb_refl. reflexivity.
Qed.

Section New.
Variable h : heap.
Variable ps : list piece.
Hypothesis OK : pieces_ok ps = true.
Let base := length h.
Let h' := h ++ new_cells base ps.

Lemma new_old a c : nth_error h a = Some c -> nth_error h' a = Some c.
Proof. intros E. unfold h'. rewrite nth_error_app1; auto. apply nth_error_Some. congruence. Qed.
Lemma new_cases a c : nth_error h' a = Some c -> nth_error h a = Some c \/
  exists j d, a = base + j /\ nth_error ps j = Some d /\ c = new_cell base ps (j, d).
Proof.
  intros E. destruct (Nat.lt_ge_cases a base) as [L|L].
  - left. unfold h' in E. now rewrite nth_error_app1 in E.
  - right. unfold h' in E. rewrite nth_error_app2 in E by exact L. rewrite nth_new_cells in E. fold base in E.
    destruct (nth_error ps (a - base)) as [d|] eqn:Ed; [|discriminate]. injection E as <-.
    exists (a - base), d. split; [lia|]. auto.
Qed.
Lemma new_new j d : nth_error ps j = Some d -> nth_error h' (base + j) = Some (new_cell base ps (j, d)).
Proof.
  intros E. unfold h'. rewrite nth_error_app2 by (unfold base; lia). replace (base + j - length h) with j by (unfold base; lia).
  rewrite nth_new_cells, E. reflexivity.
Qed.
Lemma old_lt a c : nth_error h a = Some c -> a < base.
Proof. intros E. apply nth_error_Some. congruence. Qed.

Lemma new_wf : wf h -> wf h'.
Proof.
  intros W. split.
  - intros a c E P. destruct (new_cases a c E) as [E0|(j & d & -> & Ed & ->)].
    + exact (wf_owner h W a c E0 P).
    + cbn in P |- *. destruct (piece_facts ps j d OK Ed) as (H0 & H1 & _).
      destruct (Nat.eq_dec j 0) as [Z|Z]; [rewrite (H0 Z) in P; discriminate|]. destruct (H1 Z). lia.
  - intros a c b E. destruct (new_cases a c E) as [E0|(j & d & -> & Ed & ->)].
    + rewrite (wf_parts h W a c b E0). split; intros (d & Ed & Pd & Od).
      * exists d. split; [now apply new_old|auto].
      * destruct (new_cases b d Ed) as [Ed0|(k & e & -> & Ek & ->)]; [eauto|]. exfalso. cbn in Od.
        pose proof (old_lt a c E0). lia.
    + cbn [new_cell c_parts]. rewrite in_map_iff. split.
      * intros (k & <- & Hk). apply parts_of_in in Hk. destruct Hk as (e & Ee & Pe & Oe).
        exists (new_cell base ps (k, e)). split; [now apply new_new|]. cbn. split; auto.
      * intros (e & Ee & Pe & Oe). destruct (new_cases b e Ee) as [Ee0|(k & g & -> & Ek & ->)].
        -- exfalso. pose proof (wf_owner h W b e Ee0 Pe). pose proof (old_lt b e Ee0). lia.
        -- exists k. split; auto. apply parts_of_in. exists g. cbn in Pe, Oe. split; auto. split; auto. lia.
  - intros a c E. destruct (new_cases a c E) as [E0|(j & d & -> & Ed & ->)].
    + exact (wf_nodup h W a c E0).
    + cbn [new_cell c_parts]. apply FinFun.Injective_map_NoDup; [intros x y; lia|].
      apply NoDup_filter. apply seq_NoDup.
  - intros a c t b E V. destruct (new_cases a c E) as [E0|(j & d & -> & Ed & ->)].
    + destruct (wf_via h W a c t b E0 V) as (e & Ee & Ne & Oe). exists e. split; [now apply new_old|auto].
    + cbn [new_cell c_map] in V. apply in_map_iff in V. destruct V as (e & Ee & Ie).
      destruct e as [u|u x]; [discriminate|]. injection Ee as <- <-.
      destruct (piece_facts ps j d OK Ed) as (_ & _ & _ & H3). destruct (H3 u x Ie) as (g & Eg & Ng & Og).
      exists (new_cell base ps (x, g)). split; [now apply new_new|]. cbn. split; auto.
  - intros a c E. destruct (new_cases a c E) as [E0|(j & d & -> & Ed & ->)].
    + exact (wf_class h W a c E0).
    + cbn. now destruct (piece_facts ps j d OK Ed) as (_ & _ & H2 & _).
Qed.

Lemma new_whole a : wf h -> a < base -> whole h' a = whole h a.
Proof.
  intros W. apply (owner_ind h (fun a => a < base -> whole h' a = whole h a) W). clear a.
  intros a IH L. destruct (nth_error h a) as [c|] eqn:E; [|apply nth_error_None in E; unfold base in L; lia].
  destruct (is_part (c_kind c)) eqn:P.
  - rewrite (whole_part h a c W E P), (whole_part h' a c (new_wf W) (new_old _ _ E) P). apply (IH c); auto.
    pose proof (wf_owner h W a c E P). lia.
  - now rewrite (whole_not_part h a c E P), (whole_not_part h' a c (new_old _ _ E) P).
Qed.
Lemma new_alive a : a < base -> alive h' a = alive h a.
Proof. intros L. unfold alive, h'. now rewrite nth_error_app1. Qed.
Lemma new_head : exists d, nth_error ps 0 = Some d /\ is_part (d_kind d) = false.
Proof.
  destruct ps as [|d l] eqn:E; [discriminate OK|]. exists d. split; [reflexivity|].
  exact (proj1 (piece_facts (d :: l) 0 d OK eq_refl) eq_refl).
Qed.
Lemma new_base : whole h' base = base /\ alive h' base = true.
Proof.
  destruct new_head as (d & E & P). pose proof (new_new 0 d E) as Q. rewrite Nat.add_0_r in Q.
  split; [exact (whole_not_part h' base _ Q P)|]. unfold alive. now rewrite Q.
Qed.

Lemma cnt_ext_in om om' q l : (forall a, In a l -> om a = om' a) -> cnt om q l = cnt om' q l.
Proof.
  induction l as [|x l IH]; intros H; auto. rewrite !cnt_cons, (H x (or_introl eq_refl)), IH; auto.
  intros a Ha. apply H. now right.
Qed.
Lemma fsum_ext_in g g' (l : heap) : (forall c, In c l -> g c = g' c) -> fsum g l = fsum g' l.
Proof.
  intros H. unfold fsum, list_sum. induction l as [|c l IH]; auto. cbn [map fold_right].
  rewrite (H c (or_introl eq_refl)), IH; auto. intros d Hd. apply H. now right.
Qed.
Lemma ref_old R f a : inv h [] R f -> 0 < total (whole h) (whole h a) h [] R -> a < base.
Proof.
  intros I T. pose proof (group_alive _ _ _ _ _ I (i_live _ _ _ _ I _ T)) as A.
  apply nth_error_Some. now apply alive_some.
Qed.
Lemma new_total R f q : inv h [] R f -> total (whole h') q h' [] R = total (whole h) q h [] R.
Proof.
  intros I. pose proof (i_wf _ _ _ _ I) as W. unfold total.
  assert (A : cnt (whole h') q R = cnt (whole h) q R).
  { apply cnt_ext_in. intros a Ha. apply new_whole; auto. apply (ref_old R f a I). unfold total.
    pose proof (cnt_pos (whole h) (whole h a) R a Ha eq_refl). lia. }
  assert (B : fsum (ccnt (whole h') q) h = fsum (ccnt (whole h) q) h).
  { apply fsum_ext_in. intros c Hc. unfold ccnt. destruct (c_alive c) eqn:Ac; auto. apply cnt_ext_in. intros a Ha.
    apply new_whole; auto. apply (ref_old R f a I). unfold total.
    destruct (In_nth_error _ _ Hc) as (i & Ei).
    pose proof (cnt_pos (whole h) (whole h a) _ a Ha eq_refl) as Q1.
    pose proof (fsum_in (ccnt (whole h) (whole h a)) h i c Ei) as Q. unfold ccnt at 1 in Q. rewrite Ac in Q. lia. }
  assert (C : fsum (ccnt (whole h') q) (new_cells base ps) = 0).
  { assert (X : forall l, (forall c, In c l -> ccnt (whole h') q c = 0) -> fsum (ccnt (whole h') q) l = 0).
    { intros l. unfold fsum, list_sum. induction l as [|c l IH]; intros H; auto. cbn [map fold_right].
      rewrite (H c (or_introl eq_refl)), IH; auto. intros d Hd. apply H. now right. }
    apply X. intros c Hc. destruct (In_nth_error _ _ Hc) as (j & Ej). rewrite nth_new_cells in Ej.
    destruct (nth_error ps j) as [d|]; [|discriminate]. injection Ej as <-.
    unfold ccnt. cbn [new_cell c_alive c_fields]. unfold addrs. clear.
    induction (d_fields d) as [|z l IHl]; [reflexivity|exact IHl]. }
  pose proof (fsum_app (ccnt (whole h') q) h (new_cells base ps)) as D. fold h' in D. rewrite D, B, C, A. cbn [rels flat_map]. rewrite !cnt_nil. lia.
Qed.

Lemma new_inv R f : inv h [] R f -> inv h' [] R false.
Proof.
  intros I. pose proof (i_wf _ _ _ _ I) as W. split.
  - exact (new_wf W).
  - intros b d E P. destruct (new_cases b d E) as [E0|(j & e & -> & Ed & ->)].
    + pose proof (i_part _ _ _ _ I b d E0 P) as Q. pose proof (wf_owner h W b d E0 P). pose proof (old_lt b d E0).
      rewrite new_alive by lia. exact Q.
    + cbn in P |- *. destruct (piece_facts ps j e OK Ed) as (H0 & H1 & _).
      destruct (Nat.eq_dec j 0) as [Z|Z]; [rewrite (H0 Z) in P; discriminate|]. destruct (H1 Z) as [_ L].
      destruct (nth_error ps (d_owner e)) as [g|] eqn:Eg.
      2:{ apply nth_error_None in Eg. assert (j < length ps) by (apply nth_error_Some; congruence). lia. }
      unfold alive. rewrite (new_new _ g Eg). cbn. tauto.
  - intros b [].
  - constructor.
  - intros r c E K A. rewrite (new_total R f r I). destruct (new_cases r c E) as [E0|(j & e & -> & Ed & ->)].
    + exact (i_rc _ _ _ _ I r c E0 K A).
    + cbn in K |- *. rewrite K. destruct (Nat.eq_dec (total (whole h) (base + j) h [] R) 0) as [Z|Z]; [now rewrite Z|].
      exfalso. pose proof (i_live _ _ _ _ I (base + j) ltac:(lia)) as Q. apply alive_some in Q. apply nth_error_Some in Q.
      unfold base in Q. lia.
  - intros r c E K A. destruct (new_cases r c E) as [E0|(j & e & -> & Ed & ->)].
    + exact (i_agg _ _ _ _ I r c E0 K A).
    + cbn in K |- *. now rewrite K.
  - intros r T. rewrite (new_total R f r I) in T. pose proof (i_live _ _ _ _ I r T) as Q.
    rewrite new_alive; auto. apply nth_error_Some. now apply alive_some.
  - discriminate.
Qed.
Lemma new_full R : inv h [] R true -> full_but base h' [] R.
Proof.
  intros I q c N E K A. rewrite (new_total R true q I). destruct (new_cases q c E) as [E0|(j & e & -> & Ed & ->)].
  - exact (i_full _ _ _ _ I eq_refl q c E0 K A).
  - exfalso. cbn in K. destruct (piece_facts ps j e OK Ed) as (_ & H1 & _).
    destruct (H1 ltac:(lia)) as [P _]. rewrite K in P. discriminate.
Qed.
Lemma new_grows : grows h h'.
Proof. intros a c E. exists c. split; [now apply new_old|auto]. Qed.
End New.

Lemma taken_base h t c p q : wf h -> taken h t p = Some q -> nth_error h (p_addr p) = Some c -> whole h (p_addr p) = p_addr p ->
  whole h (p_addr q) = p_addr p.
Proof. intros W T E H. rewrite (proj1 (taken_facts h t p q c W T E)). exact H. Qed.

Lemma new_value w ps h : later (w_heap w ++ new_cells (length (w_heap w)) ps) h ->
  (forall l, old w l -> value_at (set_heap w h) l = value_at w l) /\ fresh w (set_heap w h).
Proof.
  intros L. split.
  - intros l Ol. destruct l as [i|a k]; [reflexivity|]. cbn [value_at set_heap w_heap].
    rewrite (later_fields _ _ a L). unfold fields_of. now rewrite nth_error_app1.
  - intros a k y Ha E. cbn [value_at set_heap w_heap] in E. rewrite (later_fields _ _ a L) in E. unfold fields_of in E.
    rewrite nth_error_app2 in E by auto. rewrite nth_new_cells in E.
    destruct (nth_error ps (a - length (w_heap w))) as [d|]; [|destruct k; discriminate]. cbn [option_map new_cell c_fields] in E.
    rewrite nth_error_map in E. destruct (nth_error (d_fields d) k); [|discriminate]. now injection E as <-.
Qed.

Lemma new_object_fine w f t ps : inv (w_heap w) [] (outer w) f -> fine f (New t ps) w (new_object t ps w).
Proof.
  intros I. unfold new_object. destruct (pieces_ok ps) eqn:OK; [|exact Logic.I].
  set (h := w_heap w ++ new_cells (length (w_heap w)) ps).
  set (p := mk_ptr (length (w_heap w)) (match ps with d :: _ => d_class d | [] => 0 end)).
  pose proof (new_inv (w_heap w) ps OK _ f I) as J. fold h in J.
  destruct (new_base (w_heap w) ps OK) as [B1 B2]. fold h in B1, B2.
  assert (L : alive h (whole h (p_addr p)) = true) by (cbn [p_addr p]; now rewrite B1).
  rewrite (take_true h _ false t p J L). destruct (taken h t p) as [q|] eqn:K; cbn [option_map obind].
  - pose proof (inc_later h (whole h (p_addr p))) as LT.
    destruct (new_value w ps _ LT) as [V F].
    destruct (get_alive h _ (group_alive _ _ _ _ _ J L)) as (c & Ec & _).
    pose proof (proj1 (taken_facts h t p q c (i_wf _ _ _ _ J) K Ec)) as Wq.
    assert (IV : inv (inc h (whole h (p_addr p))) [] (p_addr q :: outer w) f).
    { apply (inv_move _ (p_addr p) (p_addr q)).
      - apply inc_inv; auto. intros ->. cbn [p_addr p]. rewrite B1. exact (new_full (w_heap w) ps OK _ I).
      - now rewrite <- !(whole_same _ _ _ (proj1 LT)). }
    cbn [fine created]. rewrite andb_true_r. split; [|split; [|split]].
    + apply inv_push. exact IV.
    + apply (grows_trans _ _ _ (new_grows (w_heap w) ps)). now apply later_grows.
    + exact F.
    + cbn [effect]. fold p. cbn [push_var w_heap]. rewrite <- (taken_same _ _ t p (proj1 LT)), K.
      split; auto. split; [|split; [|reflexivity]].
      * intros l Ol. cbn [changed]. rewrite <- (V l Ol). destruct l as [i|a k]; [|reflexivity].
        cbn [value_at push_var set_heap w_vars]. now apply nth_error_app1.
      * cbn [push_var w_vars]. rewrite skipn_app, skipn_all, Nat.sub_diag. reflexivity.
  - destruct (new_value w ps h (later_refl h)) as [V F].
    cbn [fine created]. rewrite andb_false_r. split; [|split; [|split]].
    + exact J.
    + apply new_grows.
    + exact F.
    + cbn [effect]. fold p. cbn [set_heap w_heap]. rewrite K. split; auto. split; [exact V|]. split; [|reflexivity].
      apply skipn_all.
Qed.

(** *** Types *)

(** The object of a pointer provides its type. *)
Definition provides (h : heap) (p : ptr) : Prop :=
  exists c, nth_error h (p_addr p) = Some c /\
    (p_ty p = 0 /\ identity h (p_addr p) = p_addr p \/ p_ty p = c_class c \/ 0 < p_ty p /\ In (Own (p_ty p)) (c_map c)).
Definition typed (w : world) : Prop :=
  (forall l t p, value_at w l = Some (t, Some p) -> p_ty p = t /\ provides (w_heap w) p) /\
  forall p, In p (w_raws w) -> provides (w_heap w) p.

Lemma identity_grows h h' a c : wf h -> wf h' -> grows h h' -> nth_error h a = Some c -> identity h' a = identity h a.
Proof.
  intros W W' G. revert c. apply (owner_ind h (fun a => forall c, nth_error h a = Some c -> identity h' a = identity h a) W).
  clear a. intros a IH c E. destruct (G a c E) as (c' & E' & S & _).
  assert (K : c_kind c' = c_kind c /\ c_owner c' = c_owner c) by (unfold shape in S; injection S; auto).
  destruct K as [K O]. destruct (is_navi (c_kind c)) eqn:P.
  - rewrite (identity_navi h a c W E P). rewrite (identity_navi h' a c' W' E') by now rewrite K. rewrite O.
    pose proof (wf_owner h W a c E (navi_part _ P)) as L.
    destruct (nth_error h (c_owner c)) as [d|] eqn:Ed.
    + exact (IH c E (navi_part _ P) d Ed).
    + apply nth_error_None in Ed. assert (a < length h) by (apply nth_error_Some; congruence). lia.
  - rewrite (identity_not_navi h a c E P). apply (identity_not_navi h' a c' E'). now rewrite K.
Qed.
Lemma provides_grows h h' p : wf h -> wf h' -> grows h h' -> provides h p -> provides h' p.
Proof.
  intros W W' G (c & E & H). destruct (G _ c E) as (c' & E' & S & _). exists c'. split; auto.
  rewrite (identity_grows h h' _ c W W' G E).
  assert (K : c_class c' = c_class c /\ c_map c' = c_map c) by (unfold shape in S; injection S; auto).
  destruct K as [-> ->]. exact H.
Qed.
Lemma taken_provides h t p q : wf h -> provides h p -> taken h t p = Some q -> p_ty q = t /\ provides h q.
Proof.
  intros W (c & E & H) T. unfold taken in T. destruct (Nat.eqb_spec t (p_ty p)) as [->|N].
  - injection T as <-. split; auto. exists c. auto.
  - destruct (interface h (identity h (p_addr p)) t) as [b|] eqn:F; [|discriminate]. injection T as <-. split; auto.
    destruct (identity_some h (p_addr p) c W E) as (d & Ed & _).
    destruct (interface_facts h _ t b W F) as (H1 & H2 & H3 & g & Eg & Hg); [congruence|].
    exists g. split; auto. cbn [p_addr p_ty]. destruct (Nat.eq_dec t 0) as [Z|Z].
    + left. split; auto. rewrite (H3 Z). now apply (identity_identity h _ c).
    + right. right. split; [lia|]. destruct Hg; [contradiction|auto].
Qed.
