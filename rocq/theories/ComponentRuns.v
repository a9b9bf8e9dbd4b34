(** Runs of programs on smart pointers. *)
From Verif Require Import Base BaseProofs Component ComponentSpec ComponentProofs ComponentOps ComponentSteps.
From Coq Require Import ZifyBool ZifyNat ZifyN.

(** *** Types are kept *)

Lemma changed_inv ch l x t q : changed ch l x = Some (t, Some q) ->
  x = Some (t, Some q) \/ exists u, x = Some (t, u) /\ In (l, Some q) ch.
Proof.
  induction ch as [|[l' v] ch IH]; cbn [changed]; auto. destruct (loc_eqb_spec l l') as [<-|N].
  - destruct x as [[s u]|]; [|discriminate]. cbn. intros [= <- ->]. right. exists u. split; [auto|now left].
  - intros H. destruct (IH H) as [E|(u & E & I)]; auto. right. exists u. split; [auto|now right].
Qed.

Lemma becomes_typed w w' ch new raws : wf (w_heap w) -> wf (w_heap w') -> grows (w_heap w) (w_heap w') ->
  fresh w w' -> typed w -> becomes w w' ch new raws ->
  (forall l t u q, In (l, Some q) ch -> value_at w l = Some (t, u) -> p_ty q = t /\ provides (w_heap w') q) ->
  (forall t q, In (t, Some q) new -> p_ty q = t /\ provides (w_heap w') q) ->
  (forall q, In q raws -> In q (w_raws w) \/ provides (w_heap w') q) -> typed w'.
Proof.
  intros W W' G F [T1 T2] (B1 & B2 & B3) C N R. split.
  - intros l t p E. assert (OL : old w l \/ ~ old w l) by (destruct l; cbn [old]; lia). destruct OL as [OL|OL].
    + rewrite (B1 l OL) in E. destruct (changed_inv _ _ _ _ _ E) as [E0|(u & E0 & I)].
      * destruct (T1 l t p E0) as [P1 P2]. split; auto. exact (provides_grows _ _ _ W W' G P2).
      * exact (C l t u p I E0).
    + destruct l as [i|a k]; cbn [old] in OL.
      * apply N. rewrite <- B2. apply nth_error_In with (n := i - length (w_vars w)). rewrite nth_error_skipn'.
        replace (length (w_vars w) + (i - length (w_vars w))) with i by lia. exact E.
      * specialize (F a k _ ltac:(lia) E). discriminate.
  - intros p I. rewrite B3 in I. destruct (R p I) as [I0|P]; auto. exact (provides_grows _ _ _ W W' G (T2 p I0)).
Qed.

Lemma remove_nth_in {A} k (l : list A) x : In x (remove_nth k l) -> In x l.
Proof.
  revert k. induction l as [|y l IH]; intros [|k]; cbn; auto. intros [->|H]; auto. right. eauto.
Qed.

Lemma give_provides h h' t v v' q : wf h -> wf h' -> grows h h' -> (forall p, v = Some p -> provides h p) ->
  give h t v = Some v' -> v' = Some q -> p_ty q = t /\ provides h' q.
Proof.
  intros W W' G P E ->. destruct v as [p|]; [|discriminate]. cbn [give] in E.
  destruct (taken h t p) as [x|] eqn:K; [|discriminate]. injection E as ->.
  destruct (taken_provides h t p q W (P p eq_refl) K) as [Q1 Q2]. split; auto. exact (provides_grows _ _ _ W W' G Q2).
Qed.

Lemma new_provides w w' t ps f r : inv (w_heap w) [] (outer w) f -> new_object t ps w = Done (w', r) ->
  provides (w_heap w') (mk_ptr (length (w_heap w)) (match ps with d :: _ => d_class d | [] => 0 end)).
Proof.
  intros I. unfold new_object. destruct (pieces_ok ps) eqn:OK; [|discriminate].
  set (h := w_heap w ++ new_cells (length (w_heap w)) ps).
  set (p := mk_ptr (length (w_heap w)) (match ps with d :: _ => d_class d | [] => 0 end)).
  assert (P : exists c, nth_error h (p_addr p) = Some c /\ p_ty p = c_class c).
  { destruct (new_head (w_heap w) ps OK) as (d & Ed & _). exists (new_cell (length (w_heap w)) ps (0, d)). split.
    - pose proof (new_new (w_heap w) ps OK 0 d Ed) as Q. rewrite Nat.add_0_r in Q. exact Q.
    - cbn. destruct ps; [discriminate|]. now injection Ed as ->. }
  pose proof (new_inv (w_heap w) ps OK _ f I) as J. fold h in J.
  destruct (new_base (w_heap w) ps OK) as [B1 B2]. fold h in B1, B2.
  assert (L : alive h (whole h (p_addr p)) = true) by (cbn [p_addr p]; now rewrite B1).
  rewrite (take_true h _ false t p J L). destruct (taken h t p) as [q|]; cbn [option_map obind]; intros [= <- <-].
  - cbn [push_var w_heap]. destruct P as (c & Ec & Tc).
    destruct (same_nth _ _ _ _ (proj1 (inc_later h (whole h (p_addr p)))) Ec) as (c' & Ec' & _ & _ & Cc & _).
    exists c'. split; auto. right. left. congruence.
  - destruct P as (c & Ec & Tc). exists c. auto.
Qed.

Lemma effect_typed w o w' r f f' : inv (w_heap w) [] (outer w) f -> inv (w_heap w') [] (outer w') f' ->
  grows (w_heap w) (w_heap w') -> fresh w w' -> typed w -> step o w = Done (w', r) -> effect w o w' r -> typed w'.
Proof.
  intros I I' G F T ST E. pose proof (i_wf _ _ _ _ I) as W. pose proof (i_wf _ _ _ _ I') as W'.
  pose proof T as [T1 T2].
  assert (OV : forall l u v, value_at w l = Some (u, v) -> forall p, v = Some p -> provides (w_heap w) p).
  { intros l u v Ev p ->. exact (proj2 (T1 l u p Ev)). }
  assert (NOC : forall (l : loc) (t : ty) (u : option ptr) q, In (l, Some q) [] -> value_at w l = Some (t, u) ->
             p_ty q = t /\ provides (w_heap w') q) by (intros ? ? ? ? []).
  assert (NON : forall (t : ty) q, In ((t, Some q) : handle) [] -> p_ty q = t /\ provides (w_heap w') q) by (intros ? ? []).
  assert (RAW : forall q, In q (w_raws w) -> In q (w_raws w) \/ provides (w_heap w') q) by auto.
  assert (REM : forall k q, In q (remove_nth k (w_raws w)) -> In q (w_raws w) \/ provides (w_heap w') q).
  { intros k q H. left. eapply remove_nth_in; eauto. }
  destruct o as [t|t ps|t s|t s|d s|d s|d|s|s|k|d k ar|d s|s k|t s k|s s']; cbn [effect] in E.
  - destruct E as [_ B]. apply (becomes_typed _ _ _ _ _ W W' G F T B); auto. intros u q [H|[]]; discriminate H.
  - cbn [step] in ST. pose proof (new_provides _ _ _ _ _ _ I ST) as P.
    destruct (taken (w_heap w') t _) as [q|] eqn:K; destruct E as [_ B]; apply (becomes_typed _ _ _ _ _ W W' G F T B); auto.
    intros u x [[= <- <-]|[]]. exact (taken_provides _ _ _ _ W' P K).
  - destruct E as (l & u & v & _ & Ev & E). destruct (give (w_heap w) t v) as [v'|] eqn:K.
    + destruct E as [_ B]. apply (becomes_typed _ _ _ _ _ W W' G F T B); auto. intros x q [[= <- ->]|[]].
      exact (give_provides _ _ _ _ _ q W W' G (OV _ _ _ Ev) K eq_refl).
    + destruct E as [_ ->]. exact T.
  - destruct E as (l & u & v & _ & Ev & E). destruct (give (w_heap w) t v) as [v'|] eqn:K.
    + destruct E as [_ B]. apply (becomes_typed _ _ _ _ _ W W' G F T B); auto.
      * intros ? ? ? ? [[=]|[]].
      * intros x q [[= <- ->]|[]]. exact (give_provides _ _ _ _ _ q W W' G (OV _ _ _ Ev) K eq_refl).
    + destruct E as [_ ->]. exact T.
  - destruct E as (ld & t & x & ls & u & v & _ & Ed & _ & Ev & E). destruct (give (w_heap w) t v) as [v'|] eqn:K;
      destruct E as [_ B]; apply (becomes_typed _ _ _ _ _ W W' G F T B); auto.
    + intros l t' u' q [[= <- ->]|[]] E'. rewrite Ed in E'. injection E' as <- <-.
      exact (give_provides _ _ _ _ _ q W W' G (OV _ _ _ Ev) K eq_refl).
    + intros ? ? ? ? [[=]|[]].
  - destruct E as (ld & t & x & ls & u & v & _ & Ed & _ & Ev & E). destruct (give (w_heap w) t v) as [v'|] eqn:K;
      destruct E as [_ B]; apply (becomes_typed _ _ _ _ _ W W' G F T B); auto.
    + intros l t' u' q [[=]|[[= <- ->]|[]]] E'. rewrite Ed in E'. injection E' as <- <-.
      exact (give_provides _ _ _ _ _ q W W' G (OV _ _ _ Ev) K eq_refl).
    + intros ? ? ? ? [[=]|[]].
  - destruct E as (_ & l & _ & B). apply (becomes_typed _ _ _ _ _ W W' G F T B); auto. intros ? ? ? ? [[=]|[]].
  - destruct E as (_ & l & u & v & _ & Ev & B). apply (becomes_typed _ _ _ _ _ W W' G F T B); auto.
    + intros ? ? ? ? [[=]|[]].
    + intros q H. apply in_app_or in H. destruct H as [H|H]; auto. destruct v as [p|]; [|destruct H].
      destruct H as [<-|[]]. right. exact (provides_grows _ _ _ W W' G (OV _ _ _ Ev p eq_refl)).
  - destruct E as (_ & l & u & p & _ & Ev & B). apply (becomes_typed _ _ _ _ _ W W' G F T B); auto.
    intros q H. apply in_app_or in H. destruct H as [H|H]; auto. destruct H as [<-|[]].
    right. exact (provides_grows _ _ _ W W' G (OV _ _ _ Ev p eq_refl)).
  - destruct E as (_ & _ & B). apply (becomes_typed _ _ _ _ _ W W' G F T B); auto. apply REM.
  - destruct E as (l & t & x & p & _ & Ev & Ek & E). destruct (taken (w_heap w) t p) as [q|] eqn:K;
      destruct E as [_ B]; apply (becomes_typed _ _ _ _ _ W W' G F T B); auto.
    + intros l' t' u' q' [[= <- <-]|[]] E'. rewrite Ev in E'. injection E' as <- <-.
      destruct (taken_provides _ _ _ _ W (T2 p (nth_error_In _ _ Ek)) K) as [P1 P2]. split; auto.
      exact (provides_grows _ _ _ W W' G P2).
    + destruct ar; auto. apply REM.
    + intros ? ? ? ? [[=]|[]].
  - destruct E as (_ & ld & ls & t & v & x & _ & Ed & _ & Es & B). apply (becomes_typed _ _ _ _ _ W W' G F T B); auto.
    intros l t' u' q [[= <- ->]|[[= <- ->]|[]]] E'.
    + rewrite Es in E'. injection E' as <- <-. destruct (T1 _ _ _ Ed) as [P1 P2]. split; auto.
      exact (provides_grows _ _ _ W W' G P2).
    + rewrite Ed in E'. injection E' as <- <-. destruct (T1 _ _ _ Es) as [P1 P2]. split; auto.
      exact (provides_grows _ _ _ W W' G P2).
  - destruct E as (_ & l & u & p & c & b & d & _ & _ & _ & _ & Ed & B). apply (becomes_typed _ _ _ _ _ W W' G F T B); auto.
    intros t q [[= <- <-]|[]]. split; auto. apply (provides_grows _ _ _ W W' G). exists d. auto.
  - destruct E as (l & u & p & c & b & d & _ & _ & Ec & Ek & Ed & NV & E). destruct (interface (w_heap w) b t) as [x|] eqn:K.
    + destruct E as [_ B]. apply (becomes_typed _ _ _ _ _ W W' G F T B); auto. intros t' q [[= <- <-]|[]]. split; auto.
      apply (provides_grows _ _ _ W W' G).
      destruct (interface_facts _ _ _ _ W K) as (_ & H2 & H3 & g & Eg & Hg); [congruence|].
      exists g. split; auto. cbn [p_addr p_ty]. destruct (Nat.eq_dec t 0) as [Z|Z].
      * left. split; auto. rewrite (H3 Z). exact (identity_not_navi _ _ _ Ed (NV Z)).
      * right. right. split; [lia|]. destruct Hg; [contradiction|auto].
    + destruct E as [_ ->]. exact T.
  - destruct E as [-> _]. exact T.
Qed.

(** *** Every step, every run *)

Definition good (w : world) (f : bool) : Prop := inv (w_heap w) [] (outer w) f /\ typed w.

Lemma init_good : good init true.
Proof.
  split.
  - assert (Z : forall om r, total om r [] [] [] = 0) by reflexivity.
    split; cbn [init w_heap w_vars w_raws].
    + split; intros a c; destruct a; discriminate.
    + intros [|b] d; discriminate.
    + intros b [].
    + constructor.
    + intros [|r] c; discriminate.
    + intros [|r] c; discriminate.
    + intros r H. unfold outer in H. cbn in H. lia.
    + intros _ [|r] c; discriminate.
  - split.
    + intros [[|i]|[|a] [|k]] t p; discriminate.
    + intros p [].
Qed.

Lemma step_fine w f o : good w f -> safe w o -> fine f o w (step o w).
Proof.
  intros [I T] S. destruct o; cbn [step safe] in *.
  - now apply declare_fine.
  - now apply new_object_fine.
  - now apply copy_ctor_fine.
  - now apply move_ctor_fine.
  - now apply assign_fine.
  - apply move_assign_fine; auto. intros l t p E. exact (proj1 (proj1 T l t p E)).
  - now apply reset_op_fine.
  - now apply detach_fine.
  - now apply add_ref_op_fine.
  - now apply release_op_fine.
  - now apply reset_to_fine.
  - now apply swap_fine.
  - now apply of_part_fine.
  - now apply query_part_fine.
  - apply equal_fine; auto. intros l t [p|] E; cbn [itself]; auto. intros Z.
    destruct (proj1 T l t p E) as [_ (c & Ec & [[_ H]|[H|[H _]]])]; auto.
    + pose proof (wf_class _ (i_wf _ _ _ _ I) _ c Ec). lia.
    + lia.
Qed.

Lemma step_good w f o w' r : good w f -> safe w o -> step o w = Done (w', r) ->
  good w' (f && created o r) /\ grows (w_heap w) (w_heap w') /\ effect w o w' r.
Proof.
  intros G S E. pose proof (step_fine w f o G S) as Q. rewrite E in Q. cbn [fine] in Q.
  destruct Q as (I & GR & FR & EF). split; [|auto]. split; auto.
  exact (effect_typed w o w' r f _ (proj1 G) I GR FR (proj2 G) E EF).
Qed.

Definition ok_result (x : outcome (world * list result)) (os : list op) (w : world) (f : bool) : Prop :=
  match x with
  | Done (w', rs) => (exists f', good w' f' /\ (f = true -> all_created os rs -> f' = true)) /\ grows (w_heap w) (w_heap w')
  | AssertFail => True
  | _ => False
  end.

Lemma run_good os : forall w f, good w f -> safe_run os w -> ok_result (run os w) os w f.
Proof.
  induction os as [|o os IH]; intros w f G S; cbn [run].
  - cbn [ok_result]. split; [exists f; auto | apply grows_refl].
  - destruct S as [So S]. pose proof (step_fine w f o G So) as Q.
    destruct (step o w) as [[w1 r]| | |] eqn:E; cbn [obind fine] in *; auto.
    destruct (step_good w f o w1 r G So E) as (G1 & GR & EF).
    specialize (IH w1 _ G1 (S w1 r eq_refl)). destruct (run os w1) as [[w2 rs]| | |]; cbn [obind ok_result] in *; auto.
    destruct IH as ((f' & G2 & A) & GR2). split; [|exact (grows_trans _ _ _ GR GR2)].
    exists f'. split; auto. intros -> AC.
    destruct o; cbn [all_created created andb] in *; auto. destruct AC as [-> AC]. auto.
Qed.

(** *** The specification's counts *)

Lemma map_ptrs (l : list handle) : map p_addr (ptrs l) = addrs l.
Proof.
  unfold ptrs, addrs. induction l as [|[t [p|]] l IH]; cbn [flat_map snd map app]; auto. now rewrite IH.
Qed.
Lemma filter_cnt om r l : length (filter (fun p => om (p_addr p) =? r) l) = cnt om r (map p_addr l).
Proof.
  induction l as [|p l IH]; auto. cbn [filter map]. rewrite cnt_cons. destruct (om (p_addr p) =? r); cbn [length]; lia.
Qed.
Lemma refs_total w r : refs w r = total (whole (w_heap w)) r (w_heap w) [] (outer w).
Proof.
  unfold refs, held, total, outer. rewrite filter_cnt, !map_app, !cnt_app, map_ptrs. cbn [rels flat_map]. rewrite cnt_nil.
  assert (Q : cnt (whole (w_heap w)) r (map p_addr (flat_map (fun c => if c_alive c then ptrs (c_fields c) else []) (w_heap w)))
              = fsum (ccnt (whole (w_heap w)) r) (w_heap w)).
  { unfold fsum, list_sum. set (om := whole (w_heap w)). clearbody om. induction (w_heap w) as [|c h IH]; auto.
    cbn [flat_map map fold_right]. rewrite map_app, cnt_app, IH. f_equal. unfold ccnt.
    destruct (c_alive c); [now rewrite map_ptrs|reflexivity]. }
  rewrite Q. lia.
Qed.

Lemma held_live w f p : inv (w_heap w) [] (outer w) f -> In p (held w) -> live (w_heap w) (p_addr p).
Proof.
  intros I H. apply live_alive. apply (group_alive _ _ _ _ _ I). apply (i_live _ _ _ _ I). rewrite <- refs_total.
  unfold refs. assert (Q : In p (filter (fun q => whole (w_heap w) (p_addr q) =? whole (w_heap w) (p_addr p)) (held w))).
  { apply filter_In. split; auto. apply Nat.eqb_refl. }
  destruct (filter _ (held w)); [destruct Q | cbn; lia].
Qed.

(** *** Assigning a smart pointer to itself *)

Lemma release_many h R f a c : inv h [] R f -> alive h (whole h a) = true ->
  nth_error h (whole h a) = Some c -> (c_kind c = KObject -> 2 <= total (whole h) (whole h a) h [] R) ->
  exists h1, release h a = Done h1 /\ (forall b, alive h1 b = alive h b) /\ later h h1.
Proof.
  intros I L E T. unfold release, work_fuel. cbn [length Nat.add run_work].
  rewrite (counted_ok _ _ _ _ _ I L) by lia. cbn [obind]. unfold counter. rewrite E.
  destruct (get_alive h _ L) as (c' & Ec & A & G). rewrite E in Ec. injection Ec as <-.
  destruct (c_kind c) eqn:K.
  2-5: exists h; (split; [destruct (list_sum _); reflexivity|]); split; [auto | apply later_refl].
  rewrite G. cbn [obind c_rc set_rc]. rewrite (i_rc _ _ _ _ I _ c E K A). specialize (T eq_refl).
  destruct (Z.eqb_spec (Z.of_nat (total (whole h) (whole h a) h [] R) - 1) 0) as [Z|Z]; [lia|].
  eexists. split; [destruct (list_sum _); reflexivity|]. split; [intros b; now apply alive_upd_rc|now apply later_upd_rc].
Qed.

Lemma take_same t h p : p_ty p = t -> take t true p h = (let! h1 := add_ref h (p_addr p) in Done (Some (p, h1))).
Proof. intros <-. unfold take. now rewrite Nat.eqb_refl. Qed.
Lemma taken_own h t p : p_ty p = t -> taken h t p = Some p.
Proof. intros <-. unfold taken. now rewrite Nat.eqb_refl. Qed.

Lemma bec_back w w1 l t p : value_at w l = Some (t, Some p) -> bec w w1 [(l, Some p)] (w_raws w) -> becomes w w1 [] [] (w_raws w).
Proof.
  intros E B. destruct (bec_becomes _ _ _ _ B) as (C & D). split; auto. intros x O. rewrite (C x O). cbn [changed].
  destruct (loc_eqb_spec x l) as [->|]; auto. now rewrite E.
Qed.

Lemma self_assign_many w f d l t p c : good w f -> resolve w d = Done l -> value_at w l = Some (t, Some p) ->
  nth_error (w_heap w) (whole (w_heap w) (p_addr p)) = Some c ->
  (c_kind c = KObject -> 2 <= refs w (whole (w_heap w) (p_addr p))) ->
  exists w', step (Assign d d) w = Done (w', ROk) /\ becomes w w' [] [] (w_raws w) /\ good w' f /\
    forall a, live (w_heap w') a <-> live (w_heap w) a.
Proof.
  intros [I TY] Rd E Ec T. rewrite refs_total in T. cbn [step]. unfold assign.
  pose proof (resolve_ok w f d I) as Q. rewrite Rd in *. destruct Q as (H & Th & _ & H0). cbn [obind].
  rewrite (load_ok w l _ Th E). cbn [obind].
  pose proof (value_reach w [] l t p H E) as R. pose proof (reach_alive_whole _ _ _ _ I R) as L.
  destruct (release_many _ _ _ _ _ I L Ec T) as (h1 & Eh & Ah & Lh).
  destruct (reset_fine w f l t (Some p) I Th E H0) as (w1 & Ew & I1 & G1 & B1 & H1 & T1 & E1 & S1 & RR).
  rewrite Ew. cbn [obind].
  assert (A1 : forall a, alive (w_heap w1) a = alive (w_heap w) a).
  { unfold reset in Ew. rewrite (load_ok w l _ Th E) in Ew. cbn [obind] in Ew. rewrite Eh in Ew. cbn [obind] in Ew.
    assert (Th1 : there (set_heap w h1) l).
    { destruct l; cbn [there set_heap w_heap] in *; auto. now rewrite Ah. }
    assert (V1 : value_at (set_heap w h1) l = Some (t, Some p)) by now rewrite (later_value _ _ _ Lh).
    rewrite (store_ok _ l None _ Th1 V1) in Ew. injection Ew as <-. intros a. rewrite put_alive. apply Ah. }
  destruct (proj1 TY l t p E) as [Tp Pp].
  rewrite (take_same t _ p Tp).
  assert (L1 : alive (w_heap w1) (whole (w_heap w1) (p_addr p)) = true).
  { rewrite <- (whole_same _ _ _ S1), A1. exact L. }
  rewrite (add_ref_ok _ _ _ _ _ I1 L1). cbn [obind].
  set (h2 := inc (w_heap w1) (whole (w_heap w1) (p_addr p))).
  assert (L2 : later (w_heap w1) h2) by apply inc_later.
  assert (V2 : value_at (set_heap w1 h2) l = Some (t, None)) by now rewrite (later_value _ _ _ L2).
  assert (T2 : there (set_heap w1 h2) l) by now apply there_inc.
  rewrite (store_ok _ l (Some p) _ T2 V2). cbn [obind]. eexists. split; [reflexivity|].
  assert (B2 : bec w (put (set_heap w1 h2) l (Some p)) [(l, Some p)] (w_raws w)).
  { apply (bec_shadow _ _ _ _ None []). apply (bec_put _ _ _ _ _ _ (t, None)); auto. now apply bec_later. }
  pose proof (bec_back w _ l t p E B2) as B3. split; [exact B3|].
  assert (I2 : inv (w_heap (put (set_heap w1 h2) l (Some p))) [] (outer (put (set_heap w1 h2) l (Some p))) f).
  { apply (put_give _ f l t p T2 V2). exact (inc_inv' _ _ _ _ I1 L1). }
  assert (GR : grows (w_heap w) (w_heap (put (set_heap w1 h2) l (Some p)))).
  { apply (grows_trans _ _ _ G1). apply (grows_trans _ h2); [now apply later_grows|]. apply (put_grows (set_heap w1 h2)). }
  split.
  - split; auto. refine (becomes_typed w _ [] [] _ (i_wf _ _ _ _ I) (i_wf _ _ _ _ I2) GR _ TY B3 _ _ _); auto.
    + apply fresh_len. apply B2.
    + intros ? ? ? ? [].
    + intros ? ? [].
  - intros a. rewrite !live_alive, put_alive. cbn [set_heap w_heap]. unfold h2. now rewrite inc_alive, A1.
Qed.

Lemma fsum_le g (h h' : heap) : length h = length h' ->
  (forall a c c', nth_error h a = Some c -> nth_error h' a = Some c' -> g c' <= g c) -> fsum g h' <= fsum g h.
Proof.
  unfold fsum, list_sum. revert h'. induction h as [|c h IH]; intros [|c' h'] L H; try discriminate; auto.
  cbn [map fold_right]. pose proof (H 0 c c' eq_refl eq_refl). specialize (IH h' ltac:(cbn in L; lia)).
  assert (forall a x x', nth_error h a = Some x -> nth_error h' a = Some x' -> g x' <= g x).
  { intros a x x' E E'. exact (H (S a) x x' E E'). }
  specialize (IH H1). lia.
Qed.
Lemma fsum_later om q h h' : later h h' -> fsum (ccnt om q) h' <= fsum (ccnt om q) h.
Proof.
  intros L. apply fsum_le; [symmetry; exact (later_len _ _ L)|]. intros a c c' E E'.
  destruct L as (_ & F & A). destruct (F a c E) as (x & Ex & Fx). rewrite E' in Ex. injection Ex as <-.
  specialize (A a). unfold alive in A. rewrite E, E' in A. unfold ccnt. rewrite Fx.
  destruct (c_alive c'); [now rewrite (A eq_refl)|lia].
Qed.

Lemma self_assign_last w d l t p c : good w true -> resolve w d = Done l -> value_at w l = Some (t, Some p) ->
  nth_error (w_heap w) (whole (w_heap w) (p_addr p)) = Some c -> c_kind c = KObject ->
  refs w (whole (w_heap w) (p_addr p)) = 1 -> step (Assign d d) w = UB.
Proof.
  intros [I TY] Rd E Ec K T. rewrite refs_total in T. cbn [step]. unfold assign.
  pose proof (resolve_ok w true d I) as Q. rewrite Rd in *. destruct Q as (H & Th & _ & H0). cbn [obind].
  rewrite (load_ok w l _ Th E). cbn [obind].
  destruct (reset_ok w [] true l t (Some p) I Th E H0) as (h' & Ew & Lt & I1). cbn [app] in I1.
  rewrite Ew. cbn [obind]. destruct (proj1 TY l t p E) as [Tp _]. rewrite (take_same t _ p Tp). cbn [set_heap w_heap].
  pose proof (same_trans _ _ _ (put_same w l None) (proj1 Lt)) as S.
  assert (D : alive h' (p_addr p) = false).
  { rewrite (group_alive_iff _ _ _ (p_addr p) I1), <- (whole_same _ _ _ S).
    destruct (alive h' (whole (w_heap w) (p_addr p))) eqn:A; auto. exfalso.
    destruct (get_alive _ _ A) as (c' & Ec' & Ac & _).
    destruct (same_nth _ _ _ _ S Ec) as (c2 & Ec2 & K2 & _). rewrite Ec' in Ec2. injection Ec2 as <-.
    pose proof (i_full _ _ _ _ I1 eq_refl _ c' Ec' ltac:(congruence) Ac) as F.
    assert (Z : total (whole h') (whole (w_heap w) (p_addr p)) h' [] (outer (put w l None)) <=
                total (whole (w_heap w)) (whole (w_heap w) (p_addr p)) (w_heap (put w l None)) [] (outer (put w l None))).
    { rewrite (total_ext (whole h') (whole (w_heap w))) by (intros; symmetry; now apply whole_same).
      unfold total. apply Nat.add_le_mono_l. apply fsum_later. exact Lt. }
    pose proof (total_put (whole (w_heap w)) (whole (w_heap w) (p_addr p)) w l None t (Some p) [] [] Th E) as TP.
    cbn [oaddr app] in TP. rewrite cnt_cons, cnt_nil, Nat.eqb_refl in TP. lia. }
  unfold add_ref. cbn [counted]. unfold get. unfold alive in D. destruct (nth_error h' (p_addr p)) as [x|]; [|reflexivity].
  now rewrite D.
Qed.
