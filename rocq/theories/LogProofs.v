(** Lemmas for Log.v. *)
From Coq Require Import List NArith Arith String Bool Lia Permutation.
From Verif Require Import Base BaseProofs Event EventProofs LogNet LogNetSpec LogNetProofs LogNetProps LogRecord LogRecordProofs Log LogSpec.
Import ListNotations.
Open Scope list_scope.

Lemma lookup_put n v l m : lookup m (fst (put n v l)) =
  if String.eqb m n then match lookup n l with Some u => Some u | None => Some v end else lookup m l.
Proof.
  unfold put. destruct (lookup n l) as [u|] eqn:E; cbn [fst lookup].
  - destruct (String.eqb_spec m n) as [->|]; auto.
  - reflexivity.
Qed.

Lemma extends_refl a : extends a a.
Proof. intros n v H. exact H. Qed.
Lemma extends_trans a b c : extends a b -> extends b c -> extends a c.
Proof. intros H1 H2 n v H. auto. Qed.
Lemma extends_put n v l : extends l (fst (put n v l)).
Proof.
  intros m u H. rewrite lookup_put. destruct (String.eqb_spec m n) as [->|]; [now rewrite H|exact H].
Qed.

Lemma lookup_in n l : lookup n l <> None <-> In n (map fst l).
Proof.
  induction l as [|[m v] t IH]; cbn [lookup map fst In]; [tauto|].
  destruct (String.eqb_spec n m) as [->|Hn]; [split; [auto|congruence]|].
  rewrite IH. split; [auto|]. intros [E|E]; [congruence|exact E].
Qed.

Lemma lookup_perm l l' : Permutation l l' -> NoDup (map fst l) -> forall n, lookup n l = lookup n l'.
Proof.
  induction 1 as [|[m v] l l' HP IH|[m v] [m' v'] l|l l' l'' H1 IH1 H2 IH2]; intros Hd n; cbn [lookup map fst] in *.
  - reflexivity.
  - inversion Hd; subst. destruct (String.eqb n m); [reflexivity|auto].
  - inversion Hd as [|? ? Ha Hb]; subst. cbn [In] in Ha.
    destruct (String.eqb_spec n m') as [E1|]; destruct (String.eqb_spec n m) as [E2|]; try reflexivity.
    destruct Ha. left. congruence.
  - rewrite IH1 by exact Hd. apply IH2. eapply Permutation_NoDup; [apply Permutation_map; exact H1|exact Hd].
Qed.

(** ** Pools *)

Lemma type_normalize v : type_of (normalize v) = TLog.
Proof. destruct v; reflexivity. Qed.

Lemma put_keys n v l : NoDup (map fst l) -> NoDup (map fst (fst (put n v l))).
Proof.
  intros Hd. unfold put. destruct (lookup n l) eqn:E; cbn [fst map]; [exact Hd|].
  constructor; [|exact Hd]. intros Hi. apply lookup_in in Hi. congruence.
Qed.

Lemma assign_keys n v l : map fst (assign n v l) = map fst l.
Proof.
  induction l as [|[m u] t IH]; cbn [assign map fst]; [reflexivity|].
  destruct (String.eqb n m); cbn [map fst]; [reflexivity|]. now rewrite IH.
Qed.

Lemma Forall_assign P n v l : Forall P l -> (forall m u, P (m, u) -> P (m, v)) -> Forall P (assign n v l).
Proof.
  intros Hl Hp. induction Hl as [|[m u] t H Ht IH]; cbn [assign]; [constructor|].
  destruct (String.eqb n m); constructor; eauto.
Qed.

Lemma p_step_ok o p : pool_ok p -> pool_ok (p_step o p).
Proof.
  intros [Hd Ht]. destruct o as [n v|n v|n]; cbn [p_step].
  - split; [now apply put_keys|]. unfold pool_add, put. destruct (lookup n p); cbn [fst]; [exact Ht|].
    constructor; [apply type_normalize|exact Ht].
  - unfold pool_update, overwrite. destruct (lookup n p) eqn:E.
    + split; [now rewrite assign_keys|]. apply Forall_assign; [exact Ht|]. intros; apply type_normalize.
    + split; [|constructor; [apply type_normalize|exact Ht]]. cbn [map fst]. constructor; [|exact Hd].
      intros Hi. apply lookup_in in Hi. congruence.
  - unfold pool_remove. split.
    + clear Ht. induction p as [|[m u] t IH]; cbn [filter map fst]; [constructor|].
      cbn [map fst] in Hd. inversion Hd as [|? ? Ha Hb]; subst. destruct (negb (String.eqb n m)); cbn [map fst]; [|auto].
      constructor; [|auto]. intros Hi. apply Ha. apply in_map_iff in Hi. destruct Hi as (e & He & Hi).
      apply filter_In in Hi. apply in_map_iff. exists e. tauto.
    + apply Forall_forall. intros e He. apply filter_In in He. rewrite Forall_forall in Ht. apply Ht, He.
Qed.

Lemma p_run_snoc ops o : p_run (ops ++ [o]) = p_step o (p_run ops).
Proof. unfold p_run. rewrite fold_left_app. reflexivity. Qed.
Lemma pm_run_snoc ops o : pm_run (ops ++ [o]) = pm_step o (pm_run ops).
Proof. unfold pm_run. rewrite fold_left_app. reflexivity. Qed.

Lemma p_run_ok ops : pool_ok (p_run ops).
Proof.
  induction ops as [|o ops IH] using rev_ind; [split; constructor|]. rewrite p_run_snoc. now apply p_step_ok.
Qed.

Lemma lookup_remove n l m : lookup m (pool_remove n l) = if String.eqb m n then None else lookup m l.
Proof.
  unfold pool_remove. induction l as [|[k u] t IH]; cbn [filter lookup fst]; [destruct (String.eqb m n); reflexivity|].
  destruct (String.eqb_spec n k) as [->|Hn]; cbn [negb lookup].
  - rewrite IH. destruct (String.eqb m k); reflexivity.
  - rewrite IH. destruct (String.eqb_spec m k) as [->|]; [|reflexivity].
    destruct (String.eqb_spec k n) as [->|]; [congruence|reflexivity].
Qed.

Lemma p_run_lookup ops : forall n, lookup n (p_run ops) = option_map normalize (pm_run ops n).
Proof.
  induction ops as [|o ops IH] using rev_ind; intros m; [reflexivity|].
  rewrite p_run_snoc, pm_run_snoc. destruct o as [n v|n v|n]; cbn [p_step pm_step].
  - unfold pool_add. rewrite lookup_put, !IH. destruct (String.eqb m n); [|reflexivity].
    destruct (pm_run ops n); reflexivity.
  - unfold pool_update. rewrite lookup_overwrite, IH. destruct (String.eqb m n); reflexivity.
  - rewrite lookup_remove, IH. destruct (String.eqb m n); reflexivity.
Qed.

Section Fire.
Context (gen : nat -> nat -> N) (gen2 : nat -> nat -> lvalue)
        (ord : list (string * lvalue) -> list (string * lvalue))
        (dec : nat -> list (string * lvalue) -> bool)
        (Hord : forall l, Permutation (ord l) l).

(** ** Applying a pool *)

Lemma apply_loop_frame l : forall items calls items' calls' e,
  apply_loop gen gen2 l items calls = (items', calls', e) ->
  extends items items' /\ forall n, lookup n items' <> None -> lookup n items <> None \/ In n (map fst l).
Proof.
  induction l as [|[n v] t IH]; intros items calls items' calls' e; cbn [apply_loop map fst In].
  - intros [= <- <- <-]. split; [apply extends_refl|auto].
  - destruct (get_as gen gen2 TLog v calls) as [[| | | |u| |x] c1];
      try (intros [= <- <- <-]; split; [apply extends_refl|auto]).
    intros H. apply IH in H. destruct H as [He Hn]. split; [eapply extends_trans; [apply extends_put|exact He]|].
    intros m Hm. destruct (Hn m Hm) as [Hl|Hl]; [|auto]. rewrite lookup_put in Hl.
    destruct (String.eqb_spec m n) as [->|]; auto.
Qed.

Lemma get_log v calls : type_of v = TLog ->
  exists u fs, get_as gen gen2 TLog v calls = (ALog u, calls ++ fs) /\
    match v with
    | LConst2 x => u = x /\ fs = []
    | LCall2 f => u = gen2 f (count_occ Nat.eq_dec calls f) /\ fs = [f]
    | _ => False
    end.
Proof.
  destruct v as [t x|t f|v|f]; cbn [type_of]; intros E; try discriminate; unfold get_as; cbn [type_of ltype_eqb].
  - exists v, []. rewrite app_nil_r. auto.
  - eexists. exists [f]. auto.
Qed.

(** The result of evaluating the pool [l]. *)
Lemma apply_loop_ok l : forall items calls, Forall (fun e => type_of (snd e) = TLog) l -> NoDup (map fst l) ->
  exists items', apply_loop gen gen2 l items calls = (items', calls ++ functors l, None) /\
    forall n, match lookup n items, lookup n l with
              | Some v, _ => lookup n items' = Some v
              | None, None => lookup n items' = None
              | None, Some (LConst2 u) => lookup n items' = Some u
              | None, Some (LCall2 f) => exists k, count_occ Nat.eq_dec calls f <= k < count_occ Nat.eq_dec (calls ++ functors l) f /\
                                                   lookup n items' = Some (gen2 f k)
              | None, Some _ => False
              end.
Proof.
  induction l as [|[m v] t IH]; intros items calls Ht Hd.
  - exists items. cbn [apply_loop functors flat_map]. rewrite app_nil_r. split; [reflexivity|].
    intros n. cbn [lookup]. destruct (lookup n items); reflexivity.
  - inversion Ht as [|? ? Hv Ht']; subst. cbn [map fst] in Hd. inversion Hd as [|? ? Hm Hd']; subst. cbn [snd] in Hv.
    cbn [apply_loop]. destruct (get_log v calls Hv) as (u & fs & -> & Hu).
    destruct (IH (fst (put m u items)) (calls ++ fs) Ht' Hd') as (items' & -> & Hi).
    assert (Hfs : functors ((m, v) :: t) = fs ++ functors t).
    { unfold functors. cbn [flat_map snd]. destruct v; try contradiction; destruct Hu as [_ ->]; reflexivity. }
    rewrite Hfs, app_assoc. exists items'. split; [reflexivity|]. intros n. specialize (Hi n). cbn [lookup]. rewrite lookup_put in Hi.
    destruct (String.eqb_spec n m) as [E0|Hn].
    + subst m. destruct (lookup n items) as [x|] eqn:E; [exact Hi|].
      destruct v as [| |x|f]; try contradiction; destruct Hu as [-> ->]; [exact Hi|].
      eexists. split; [|exact Hi]. rewrite !count_occ_app. cbn [count_occ]. destruct (Nat.eq_dec f f); [lia|congruence].
    + destruct (lookup n items) as [x|] eqn:E; [exact Hi|]. destruct (lookup n t) as [[| |x|f]|]; try exact Hi.
      destruct Hi as (k & Hk & Hi). exists k. split; [|exact Hi]. rewrite count_occ_app in Hk. lia.
Qed.

Lemma functors_perm l l' : Permutation l l' -> Permutation (functors l) (functors l').
Proof.
  unfold functors. induction 1 as [| | |]; cbn [flat_map]; auto.
  - now apply Permutation_app_head.
  - rewrite !app_assoc. apply Permutation_app_tail, Permutation_app_comm.
  - eapply Permutation_trans; eauto.
Qed.

Lemma ord_ok p : pool_ok p -> pool_ok (ord p).
Proof.
  intros [Hd Ht]. split.
  - eapply Permutation_NoDup; [apply Permutation_map, Permutation_sym, Hord|exact Hd].
  - apply Forall_forall. intros e He. rewrite Forall_forall in Ht. apply Ht. eapply Permutation_in; [apply Hord|exact He].
Qed.

Lemma nth_error_nth_eq {A} (l : list A) k d : nth k l d = match nth_error l k with Some x => x | None => d end.
Proof. revert k. induction l as [|a l IH]; intros [|k]; cbn; auto. Qed.

Lemma rec_set w r items calls q : rec_of (set_rec w r items calls) q =
  if Nat.eqb r q then if Nat.ltb r (length (f_recs w)) then items else [] else rec_of w q.
Proof.
  unfold rec_of, set_rec. cbn [f_recs]. destruct (Nat.eqb_spec r q) as [->|Hn].
  - destruct (Nat.ltb_spec q (length (f_recs w))).
    + rewrite (nth_error_nth _ _ _ (nth_upd_eq _ _ _ H)). reflexivity.
    + apply nth_overflow. now rewrite upd_length.
  - rewrite !nth_error_nth_eq, nth_upd_neq by congruence. reflexivity.
Qed.

(** ** What one call of [Fire] can change *)

Definition by_pool (w : fworld) (a b : list (string * lvalue)) : Prop :=
  forall n, lookup n b <> None -> lookup n a <> None \/ pending_somewhere w n.

Record Step (r : nat) (w w' : fworld) (evs : list fevent) : Prop := {
  st_net : f_net w' = f_net w;
  st_parts : f_parts w' = f_parts w;
  st_len : length (f_recs w') = length (f_recs w);
  st_other : forall q, q <> r -> rec_of w' q = rec_of w q;
  st_ext : extends (rec_of w r) (rec_of w' r);
  st_pool : by_pool w (rec_of w r) (rec_of w' r);
  st_calls : exists l, f_calls w' = f_calls w ++ l;
  st_log : f_log w' = f_log w ++ evs;
  st_evs : Forall (fun e => (forall q, record_of e = Some q -> q = r) /\
                            extends (rec_of w r) (items_of e) /\ extends (items_of e) (rec_of w' r)) evs }.

Lemma Step_refl r w : Step r w w [].
Proof.
  split; auto using extends_refl.
  - intros n H. now left.
  - exists []. now rewrite app_nil_r.
  - now rewrite app_nil_r.
Qed.

Lemma Step_trans r w1 w2 w3 e1 e2 : Step r w1 w2 e1 -> Step r w2 w3 e2 -> Step r w1 w3 (e1 ++ e2).
Proof.
  intros [a1 a2 a3 a4 a5 a6 a7 a8 a9] [b1 b2 b3 b4 b5 b6 b7 b8 b9]. split; try congruence.
  - intros q Hq. rewrite b4, a4; auto.
  - eapply extends_trans; eauto.
  - intros n Hn. destruct (b6 n Hn) as [H|H]; [now apply a6|]. right. unfold pending_somewhere in *. now rewrite a2 in H.
  - destruct a7 as (l & E1), b7 as (m & E2). exists (l ++ m). rewrite E2, E1. now rewrite app_assoc.
  - rewrite b8, a8. now rewrite app_assoc.
  - apply Forall_app. split; eapply Forall_impl; [|exact a9| |exact b9]; cbn beta; intros e (h1 & h2 & h3);
      repeat split; auto; eapply extends_trans; eauto.
Qed.

Lemma apply_step p r w w' e i : nth_error (f_parts w) i = Some p -> apply gen gen2 ord p r w = (w', e) -> Step r w w' [].
Proof.
  intros Hp. unfold apply. destruct (apply_loop gen gen2 (ord (pa_pend p)) (rec_of w r) (f_calls w)) as [[items calls] x] eqn:E.
  intros [= <- <-]. assert (Hc : forall l items calls items' calls' e,
    apply_loop gen gen2 l items calls = (items', calls', e) -> exists m, calls' = calls ++ m).
  { clear. induction l as [|[n v] t IH]; intros items calls items' calls' e; cbn [apply_loop].
    - intros [= <- <- <-]. exists []. now rewrite app_nil_r.
    - assert (Hg : exists m, snd (get_as gen gen2 TLog v calls) = calls ++ m).
      { unfold get_as. destruct (ltype_eqb (type_of v) TLog); [destruct v|]; cbn [snd]; eauto; exists []; now rewrite app_nil_r. }
      destruct (get_as gen gen2 TLog v calls) as [a c1]. cbn [snd] in Hg. destruct Hg as (m & ->).
      destruct a; try (intros [= <- <- <-]; eauto). intros H. apply IH in H. destruct H as (m' & ->).
      exists (m ++ m'). now rewrite app_assoc. }
  pose proof (Hc _ _ _ _ _ _ E) as Hcalls. apply apply_loop_frame in E. destruct E as [He Hn].
  split; cbn [set_rec f_net f_parts f_recs f_calls f_log]; auto.
  - now rewrite upd_length.
  - intros q Hq. change (rec_of (set_rec w r items calls) q = rec_of w q). rewrite rec_set.
    destruct (Nat.eqb_spec r q); [congruence|reflexivity].
  - change (extends (rec_of w r) (rec_of (set_rec w r items calls) r)). rewrite rec_set, Nat.eqb_refl.
    destruct (Nat.ltb_spec r (length (f_recs w))); [exact He|]. unfold rec_of. rewrite nth_overflow by exact H. apply extends_refl.
  - change (by_pool w (rec_of w r) (rec_of (set_rec w r items calls) r)). rewrite rec_set, Nat.eqb_refl.
    destruct (Nat.ltb_spec r (length (f_recs w))); [|intros n Hx; cbn [lookup] in Hx; congruence].
    intros n Hx. destruct (Hn n Hx) as [Hy|Hy]; [now left|]. right. exists i, p. split; [exact Hp|].
    eapply Permutation_in; [apply Permutation_map, Hord|exact Hy].
  - now rewrite app_nil_r.
Qed.

Lemma tell_step r w e : (forall q, record_of e = Some q -> q = r) -> items_of e = rec_of w r -> Step r w (tell w e) [e].
Proof.
  intros Hr Hi. split; auto using extends_refl.
  - intros n H. now left.
  - exists []. now rewrite app_nil_r.
  - constructor; [|constructor]. split; [exact Hr|]. rewrite Hi. split; apply extends_refl.
Qed.

Lemma write_all_step i p r : forall l w w' x, write_all i p l r w = (w', x) -> exists evs, Step r w w' evs.
Proof.
  induction l as [|o t IH]; intros w w' x; cbn [write_all].
  - intros [= <- <-]. exists []. apply Step_refl.
  - destruct (valid_out p o); [|intros [= <- <-]; exists []; apply Step_refl].
    intros H. apply IH in H. destruct H as (evs & H). exists ([Wrote i o (rec_of w r)] ++ evs).
    eapply Step_trans; [|exact H]. apply tell_step; [cbn; discriminate|reflexivity].
Qed.

Lemma fire_all_step fire r : (forall s w w' x, fire s r w = (w', x) -> exists evs, Step r w w' evs) ->
  forall l w w' x, fire_all fire l r w = (w', x) -> exists evs, Step r w w' evs.
Proof.
  intros Hf. induction l as [|s t IH]; intros w w' x; cbn [fire_all].
  - intros [= <- <-]. exists []. apply Step_refl.
  - destruct (fire s r w) as [w1 [u|f]] eqn:E.
    + intros H. apply Hf in E. destruct E as (e1 & E1). apply IH in H. destruct H as (e2 & E2).
      exists (e1 ++ e2). eapply Step_trans; eauto.
    + intros [= <- <-]. eapply Hf. exact E.
Qed.

Lemma fire_step r : forall fuel i w w' x, fire gen gen2 ord dec fuel i r w = (w', x) -> exists evs, Step r w w' evs.
Proof.
  assert (R : forall w, exists evs, Step r w w evs) by (intros w; exists []; apply Step_refl).
  induction fuel as [|f IH]; intros i w w' x; cbn [fire]; [intros [= <- <-]; apply R|].
  destruct (nth_error (f_net w) i) as [nd|] eqn:En; [|intros [= <- <-]; apply R].
  destruct (nth_error (f_parts w) i) as [p|] eqn:Ep; [|intros [= <- <-]; apply R].
  assert (Hall : forall l w w' x, fire_all (fire gen gen2 ord dec f) l r w = (w', x) -> exists evs, Step r w w' evs).
  { intros l. apply fire_all_step. intros s w0 w0' x0. apply IH. }
  destruct (nn_kind nd).
  - destruct (slots_visit (nn_slots nd)); try (intros [= <- <-]; apply R). apply Hall.
  - destruct (apply gen gen2 ord p r w) as [w1 [e|]] eqn:E.
    + intros [= <- <-]. exists []. eapply apply_step; eauto.
    + pose proof (apply_step _ _ _ _ _ _ Ep E) as H1. destruct (accepts dec p (rec_of w1 r)); [|intros [= <- <-]; eauto].
      destruct (slots_visit (nn_slots nd)); try (intros [= <- <-]; eauto). intros H. apply Hall in H. destruct H as (evs & H).
      exists ([] ++ evs). eapply Step_trans; eauto.
  - destruct (pa_stream p).
    + destruct (pa_fmt p); [|intros [= <- <-]; apply R].
      destruct (apply gen gen2 ord p r w) as [w1 [e|]] eqn:E.
      * intros [= <- <-]. exists []. eapply apply_step; eauto.
      * pose proof (apply_step _ _ _ _ _ _ Ep E) as H1. destruct (accepts dec p (rec_of w1 r)); [|intros [= <- <-]; eauto].
        intros H. apply write_all_step in H. destruct H as (evs & H). exists ([] ++ evs). eapply Step_trans; eauto.
    + intros [= <- <-]. eexists. apply tell_step; [cbn; congruence|reflexivity].
Qed.

(** ** Counting deliveries *)

Lemma got_app s a b : got s (a ++ b) = got s a + got s b.
Proof. unfold got. now rewrite filter_app, app_length. Qed.

Lemma paths_same w w' s : f_net w' = f_net w -> f_parts w' = f_parts w -> forall fuel i, paths fuel w' i s = paths fuel w i s.
Proof.
  intros Hn Hp. induction fuel as [|f IH]; intros i; cbn [paths]; [reflexivity|]. rewrite Hn, Hp.
  destruct (nth_error (f_net w) i) as [x|]; [|reflexivity]. destruct (nn_kind x); auto;
    f_equal; apply map_ext; auto.
Qed.

Lemma write_all_got i p r s : forall l w w' x evs, write_all i p l r w = (w', x) -> f_log w' = f_log w ++ evs -> got s evs = 0.
Proof.
  induction l as [|o t IH]; intros w w' x evs; cbn [write_all].
  - intros [= <- <-] H. rewrite <- (app_nil_r (f_log w)) in H at 1. apply app_inv_head in H. now subst evs.
  - destruct (valid_out p o).
    + intros H Hl. destruct (write_all_step _ _ _ _ _ _ _ H) as (e2 & Hs). pose proof (st_log _ _ _ _ Hs) as H2.
      pose proof (IH _ _ _ _ H H2) as H0. rewrite Hl in H2. cbn [tell f_log] in H2. rewrite <- app_assoc in H2.
      apply app_inv_head in H2. subst evs. rewrite got_app, H0. reflexivity.
    + intros [= <- <-] H. rewrite <- (app_nil_r (f_log w)) in H at 1. apply app_inv_head in H. now subst evs.
Qed.

Definition full (r s : nat) (w : fworld) (m : fworld * res unit) (bound : nat) : Prop :=
  exists evs, Step r w (fst m) evs /\ got s evs <= bound.

Lemma fire_all_paths fire r s (b : nat -> nat) w0 :
  (forall j w, f_net w = f_net w0 -> f_parts w = f_parts w0 -> full r s w (fire j r w) (b j)) ->
  forall l w, f_net w = f_net w0 -> f_parts w = f_parts w0 -> full r s w (fire_all fire l r w) (list_sum (map b l)).
Proof.
  intros Hf. induction l as [|j t IH]; intros w Hn Hp; cbn [fire_all map].
  - exists []. split; [apply Step_refl|]. cbn. lia.
  - pose proof (Hf j w Hn Hp) as (e1 & S1 & G1). destruct (fire j r w) as [w1 [u|f]]; cbn [fst] in S1.
    + destruct (IH w1) as (e2 & S2 & G2).
      * rewrite (st_net _ _ _ _ S1). exact Hn.
      * rewrite (st_parts _ _ _ _ S1). exact Hp.
      * exists (e1 ++ e2). split; [eapply Step_trans; eauto|]. rewrite got_app. cbn [list_sum fold_right] in *. unfold list_sum in *. cbn [fold_right]. lia.
    + exists e1. split; [exact S1|]. unfold list_sum. cbn [fold_right]. lia.
Qed.

Lemma sinks_visit w i x v : nth_error w i = Some x -> slots_visit (nn_slots x) = Done v -> sinks w i = map snd v.
Proof. intros H1 H2. unfold sinks. now rewrite H1, H2. Qed.

Lemma fire_paths r s : forall fuel i w, full r s w (fire gen gen2 ord dec fuel i r w) (paths fuel w i s).
Proof.
  assert (R : forall w (y : res unit) b, full r s w (w, y) b) by (intros; exists []; split; [apply Step_refl|cbn; lia]).
  induction fuel as [|f IH]; intros i w; cbn [fire]; [apply R|].
  destruct (nth_error (f_net w) i) as [nd|] eqn:En; [|apply R].
  destruct (nth_error (f_parts w) i) as [p|] eqn:Ep; [|apply R].
  cbn [paths]. rewrite En, Ep.
  assert (Hall : forall v w1, slots_visit (nn_slots nd) = Done v -> Step r w w1 [] ->
     full r s w (fire_all (fire gen gen2 ord dec f) (map snd v) r w1) (list_sum (map (fun j => paths f w j s) (sinks (f_net w) i)))).
  { intros v w1 Hv Hs. rewrite (sinks_visit _ _ _ _ En Hv).
    destruct (fire_all_paths (fire gen gen2 ord dec f) r s (fun j => paths f w j s) w) with (l := map snd v) (w := w1) as (e & S & G).
    - intros j w2 Hn Hp. rewrite <- (paths_same w w2 s Hn Hp). apply IH.
    - apply (st_net _ _ _ _ Hs).
    - apply (st_parts _ _ _ _ Hs).
    - exists ([] ++ e). split; [eapply Step_trans; eauto|exact G]. }
  destruct (nn_kind nd).
  - destruct (slots_visit (nn_slots nd)) eqn:Ev; try apply R. apply Hall; [reflexivity|apply Step_refl].
  - destruct (apply gen gen2 ord p r w) as [w1 [e|]] eqn:E; pose proof (apply_step _ _ _ _ _ _ Ep E) as H1.
    + exists []. split; [exact H1|cbn; lia].
    + destruct (accepts dec p (rec_of w1 r)); [|exists []; split; [exact H1|cbn; lia]].
      destruct (slots_visit (nn_slots nd)) eqn:Ev; try (exists []; split; [exact H1|cbn; lia]). now apply Hall.
  - destruct (pa_stream p) eqn:Es.
    + destruct (pa_fmt p); [|apply R]. destruct (apply gen gen2 ord p r w) as [w1 [e|]] eqn:E; pose proof (apply_step _ _ _ _ _ _ Ep E) as H1.
      * exists []. split; [exact H1|cbn; lia].
      * destruct (accepts dec p (rec_of w1 r)); [|exists []; split; [exact H1|cbn; lia]].
        destruct (write_all i p (pa_outs p) r w1) as [w2 y] eqn:Ew. destruct (write_all_step _ _ _ _ _ _ _ Ew) as (e2 & S2).
        exists ([] ++ e2). split; [eapply Step_trans; eauto|]. cbn [app]. rewrite (write_all_got _ _ _ s _ _ _ _ _ Ew (st_log _ _ _ _ S2)). lia.
    + eexists. split; [apply tell_step; [cbn; congruence|reflexivity]|]. unfold got. cbn [filter].
      destruct (Nat.eqb i s); cbn [length]; lia.
Qed.

(** ** Unfiltered networks *)

Lemma apply_ok p r w : pool_ok (pa_pend p) ->
  exists items, apply gen gen2 ord p r w = (set_rec w r items (f_calls w ++ functors (ord (pa_pend p))), None) /\
    forall n, match lookup n (rec_of w r), lookup n (pa_pend p) with
              | Some v, _ => lookup n items = Some v
              | None, None => lookup n items = None
              | None, Some (LConst2 u) => lookup n items = Some u
              | None, Some (LCall2 f) => exists k, count_occ Nat.eq_dec (f_calls w) f <= k < count_occ Nat.eq_dec (f_calls w ++ functors (ord (pa_pend p))) f /\
                                                   lookup n items = Some (gen2 f k)
              | None, Some _ => False
              end.
Proof.
  intros Hp. destruct (ord_ok _ Hp) as [Hd Ht]. unfold apply.
  destruct (apply_loop_ok (ord (pa_pend p)) (rec_of w r) (f_calls w) Ht Hd) as (items & -> & Hi).
  exists items. split; [reflexivity|]. intros n. specialize (Hi n). rewrite (lookup_perm _ _ (Hord (pa_pend p)) Hd) in Hi. exact Hi.
Qed.

Lemma write_all_ok i p r : forall l w, Forall (fun o => valid_out p o = true) l ->
  exists w', write_all i p l r w = (w', RDone tt) /\ f_recs w' = f_recs w /\ f_calls w' = f_calls w /\
    f_net w' = f_net w /\ f_parts w' = f_parts w /\
    f_log w' = f_log w ++ map (fun o => Wrote i o (rec_of w r)) l.
Proof.
  induction l as [|o t IH]; intros w Hl; cbn [write_all map].
  - exists w. rewrite app_nil_r. auto 10.
  - inversion Hl as [|? ? Ho Ht]; subst. rewrite Ho. destruct (IH (tell w (Wrote i o (rec_of w r))) Ht) as (w' & -> & h1 & h2 & h3 & h4 & h5).
    exists w'. repeat split; auto. rewrite h5. cbn [tell f_log]. rewrite <- app_assoc. reflexivity.
Qed.

Definition exact (r s : nat) (w : fworld) (m : fworld * res unit) (bound : nat) : Prop :=
  snd m = RDone tt /\ exists evs, Step r w (fst m) evs /\ got s evs = bound.

Lemma fire_all_exact fire r s (b : nat -> nat) w0 : forall l,
  (forall j w, In j l -> f_net w = f_net w0 -> f_parts w = f_parts w0 -> exact r s w (fire j r w) (b j)) ->
  forall w, f_net w = f_net w0 -> f_parts w = f_parts w0 -> exact r s w (fire_all fire l r w) (list_sum (map b l)).
Proof.
  induction l as [|j t IH]; intros Hf w Hn Hp; cbn [fire_all map].
  - split; [reflexivity|]. exists []. split; [apply Step_refl|reflexivity].
  - destruct (Hf j w (or_introl eq_refl) Hn Hp) as (E & e1 & S1 & G1). destruct (fire j r w) as [w1 u]. cbn [fst snd] in *. subst u.
    destruct (IH (fun k w' Hk => Hf k w' (or_intror Hk)) w1) as (E2 & e2 & S2 & G2).
    + rewrite (st_net _ _ _ _ S1). exact Hn.
    + rewrite (st_parts _ _ _ _ S1). exact Hp.
    + split; [exact E2|]. exists (e1 ++ e2). split; [eapply Step_trans; eauto|]. rewrite got_app, G1, G2. reflexivity.
Qed.

Lemma fire_exact depth r s : forall fuel i w, sound depth w -> unfiltered w -> i < length (f_net w) -> depth i < fuel ->
  exact r s w (fire gen gen2 ord dec fuel i r w) (paths fuel w i s).
Proof.
  induction fuel as [|f IH]; intros i w Hs Hu Hi Hf; [lia|]. cbn [fire paths].
  destruct (nth_error (f_net w) i) as [nd|] eqn:En; [|apply nth_error_None in En; lia].
  destruct (nth_error (f_parts w) i) as [p|] eqn:Ep; [|apply nth_error_None in Ep; rewrite (so_parts _ _ Hs) in Ep; lia].
  destruct (Hu _ _ Ep) as (Hfl & Hpo & Hst). destruct (so_visit _ _ Hs _ _ En) as (v & Hv). rewrite Hv.
  assert (Hall : forall w1, Step r w w1 [] ->
     exact r s w (fire_all (fire gen gen2 ord dec f) (map snd v) r w1) (list_sum (map (fun j => paths f w j s) (sinks (f_net w) i)))).
  { intros w1 H1. rewrite (sinks_visit _ _ _ _ En Hv).
    destruct (fire_all_exact (fire gen gen2 ord dec f) r s (fun j => paths f w j s) w (map snd v)) with (w := w1) as (E & e & S & G).
    - intros j w2 Hj Hn Hp. rewrite <- (sinks_visit _ _ _ _ En Hv) in Hj. destruct (so_sinks _ _ Hs _ _ Hj) as [Hd Hl].
      rewrite <- (paths_same w w2 s Hn Hp). apply IH.
      + destruct Hs as [a1 a2 a3]. split; rewrite ?Hn, ?Hp; auto.
      + unfold unfiltered. rewrite Hp. exact Hu.
      + rewrite Hn. exact Hl.
      + lia.
    - apply (st_net _ _ _ _ H1).
    - apply (st_parts _ _ _ _ H1).
    - split; [exact E|]. exists ([] ++ e). split; [eapply Step_trans; eauto|exact G]. }
  assert (Hac : forall l, accepts dec p l = true) by (intros l; unfold accepts; now rewrite Hfl).
  destruct (apply_ok p r w Hpo) as (items & Ha & _).
  destruct (nn_kind nd).
  - apply Hall, Step_refl.
  - rewrite Ha, Hac. apply Hall. eapply apply_step; eauto.
  - destruct (pa_stream p) eqn:Es.
    + destruct (Hst eq_refl) as [-> Hou]. rewrite Ha, Hac.
      destruct (write_all_ok i p r (pa_outs p) (set_rec w r items (f_calls w ++ functors (ord (pa_pend p)))) Hou) as (w' & Ew & _).
      rewrite Ew. split; [reflexivity|]. destruct (write_all_step _ _ _ _ _ _ _ Ew) as (e2 & S2). exists ([] ++ e2).
      split; [eapply Step_trans; [eapply apply_step; eauto|exact S2]|]. cbn [app].
      exact (write_all_got _ _ _ s _ _ _ _ _ Ew (st_log _ _ _ _ S2)).
    + split; [reflexivity|]. eexists. split; [apply tell_step; [cbn; congruence|reflexivity]|]. unfold got. cbn [filter].
      destruct (Nat.eqb i s); reflexivity.
Qed.

(** ** One logger *)

Lemma fire_all_leaves f r : forall l w,
  (forall s, In s l -> exists x p, nth_error (f_net w) s = Some x /\ nn_kind x = NLeaf /\ nth_error (f_parts w) s = Some p /\ pa_stream p = false) ->
  fire_all (fire gen gen2 ord dec (S f)) l r w =
    (mk_fw (f_net w) (f_parts w) (f_recs w) (f_calls w) (f_log w ++ map (fun s => Got s r (rec_of w r)) l), RDone tt).
Proof.
  induction l as [|s t IH]; intros w Hl; cbn [fire_all map].
  - rewrite app_nil_r. destruct w; reflexivity.
  - destruct (Hl s (or_introl eq_refl)) as (x & p & E1 & E2 & E3 & E4).
    assert (Es : fire gen gen2 ord dec (S f) s r w = (tell w (Got s r (rec_of w r)), RDone tt)).
    { cbn [fire]. rewrite E1, E3, E2, E4. reflexivity. }
    rewrite Es, IH by (intros s' Hs'; apply Hl; now right). cbn [tell f_net f_parts f_recs f_calls f_log]. rewrite <- app_assoc. reflexivity.
Qed.

Lemma filled_of gen2' ops before after old items :
  (forall n, match lookup n old, lookup n (p_run ops) with
              | Some v, _ => lookup n items = Some v
              | None, None => lookup n items = None
              | None, Some (LConst2 u) => lookup n items = Some u
              | None, Some (LCall2 f) => exists k, count_occ Nat.eq_dec before f <= k < count_occ Nat.eq_dec after f /\
                                                   lookup n items = Some (gen2' f k)
              | None, Some _ => False
              end) -> filled gen2' (pm_run ops) before after old items.
Proof.
  intros H n. specialize (H n). rewrite p_run_lookup in H. destruct (lookup n old); [exact H|].
  destruct (pm_run ops n) as [[t x|t f|v|f]|]; exact H.
Qed.
End Fire.

(** ** Files *)

Section Files.
Context (grow : nat -> nat) (Hgrow : forall c, c < grow c) (q : part)
        (Hq0 : pa_files q = 0) (Hq1 : pa_cap q = 0).

Lemma s_run_snoc ops o : s_run grow (ops ++ [o]) q =
  match o with SStream e => add_stream e (s_run grow ops q) | SFile => add_file grow (s_run grow ops q) end.
Proof. unfold s_run. rewrite fold_left_app. reflexivity. Qed.

Lemma files_snoc ops o : files_in (ops ++ [o]) = files_in ops + match o with SFile => 1 | _ => 0 end.
Proof. unfold files_in. rewrite filter_app, app_length. destruct o; reflexivity. Qed.

Lemma s_run_files ops : pa_files (s_run grow ops q) = files_in ops.
Proof.
  induction ops as [|o ops IH] using rev_ind; [exact Hq0|]. rewrite s_run_snoc, files_snoc.
  destruct o; cbn [add_stream add_file pa_files]; lia.
Qed.

Lemma s_run_kept ops : pa_stream (s_run grow ops q) = pa_stream q /\ pa_fmt (s_run grow ops q) = pa_fmt q /\
  pa_filter (s_run grow ops q) = pa_filter q /\ pa_pend (s_run grow ops q) = pa_pend q.
Proof.
  induction ops as [|o ops IH] using rev_ind; [repeat split|]. rewrite s_run_snoc. destruct o; exact IH.
Qed.

Lemma s_run_few ops : files_in ops <= grow 0 -> pa_outs q = [] ->
  (files_in ops = 0 -> pa_block (s_run grow ops q) = pa_block q /\ pa_cap (s_run grow ops q) = 0) /\
  (0 < files_in ops -> pa_block (s_run grow ops q) = S (pa_block q) /\ pa_cap (s_run grow ops q) = grow 0) /\
  Forall (fun o => match o with OutFile b k => b = S (pa_block q) /\ k < files_in ops | _ => True end) (pa_outs (s_run grow ops q)).
Proof.
  intros Hf Ho. induction ops as [|o ops IH] using rev_ind.
  - cbn. rewrite Ho, Hq1. repeat split; auto; lia.
  - rewrite files_snoc in *. rewrite s_run_snoc. destruct IH as (I0 & I1 & I2); [lia|].
    pose proof (s_run_files ops) as Hs. destruct o; cbn [add_stream add_file pa_block pa_cap pa_outs pa_files].
    + rewrite Nat.add_0_r in *. split; [exact I0|]. split; [exact I1|]. apply Forall_app. auto.
    + rewrite Hs. split; [lia|]. destruct (Nat.eq_dec (files_in ops) 0) as [E|E].
      * destruct (I0 E) as [Hb Hc]. rewrite Hc, E, Hb. cbn [Nat.eqb]. split; [auto|]. apply Forall_app. split.
        -- eapply Forall_impl; [|exact I2]. intros [e|b k]; [auto|]. rewrite E. lia.
        -- constructor; [lia|constructor].
      * destruct I1 as [Hb Hc]; [lia|]. rewrite Hc, Hb. destruct (Nat.eqb_spec (files_in ops) (grow 0)); [lia|].
        split; [auto|]. apply Forall_app. split.
        -- eapply Forall_impl; [|exact I2]. intros [e|b k]; [auto|]. lia.
        -- constructor; [lia|constructor].
Qed.

Lemma s_run_valid ops : files_in ops <= grow 0 -> pa_outs q = [] ->
  Forall (fun o => valid_out (s_run grow ops q) o = true) (pa_outs (s_run grow ops q)).
Proof.
  intros Hf Ho. destruct (s_run_few ops Hf Ho) as (_ & I1 & I2). eapply Forall_impl; [|exact I2].
  intros [e|b k]; cbn [valid_out]; [auto|]. intros [-> Hk]. rewrite s_run_files. destruct I1 as [-> _]; [lia|].
  rewrite Nat.eqb_refl. destruct (Nat.ltb_spec k (files_in ops)); [reflexivity|lia].
Qed.

Lemma s_run_many ops : pa_outs q = [] -> grow 0 < files_in ops ->
  S (pa_block q) < pa_block (s_run grow ops q) /\ exists k, In (OutFile (S (pa_block q)) k) (pa_outs (s_run grow ops q)).
Proof.
  intros Ho. induction ops as [|o ops IH] using rev_ind; [unfold files_in; cbn; lia|].
  rewrite files_snoc, s_run_snoc. intros Hf.
  destruct (Nat.le_gt_cases (files_in ops) (grow 0)) as [Hle|Hgt].
  - destruct o; [lia|]. assert (E : files_in ops = grow 0) by lia. pose proof (Hgrow 0) as Hg.
    destruct (s_run_few ops Hle Ho) as (_ & I1 & I2). destruct I1 as [Hb Hc]; [lia|].
    cbn [add_file pa_block pa_outs]. rewrite s_run_files, Hc, E, Nat.eqb_refl, Hb. split; [lia|].
    assert (Hx : exists k, In (OutFile (S (pa_block q)) k) (pa_outs (s_run grow ops q))).
    { clear - I2 E Hg Hq0. assert (Hin : exists b k, In (OutFile b k) (pa_outs (s_run grow ops q))).
      { clear I2. assert (Hp : 0 < files_in ops) by lia. clear E. revert Hp.
        induction ops as [|o ops IH] using rev_ind; [unfold files_in; cbn; lia|]. rewrite files_snoc, s_run_snoc.
        destruct o; cbn [add_stream add_file pa_outs].
        - intros H. destruct IH as (b & k & Hb); [lia|]. exists b, k. apply in_or_app. now left.
        - intros _. eexists. eexists. apply in_or_app. right. left. reflexivity. }
      destruct Hin as (b & k & Hin). rewrite Forall_forall in I2. destruct (I2 _ Hin) as [-> _]. eauto. }
    destruct Hx as (k & Hk). exists k. apply in_or_app. now left.
  - destruct (IH Hgt) as (Hb & k & Hk). destruct o; cbn [add_stream add_file pa_block pa_outs].
    + split; [exact Hb|]. exists k. apply in_or_app. now left.
    + split; [destruct (Nat.eqb _ _); lia|]. exists k. apply in_or_app. now left.
Qed.
End Files.

Lemma write_all_bad i p r : forall l w o, In o l -> valid_out p o = false -> exists w', write_all i p l r w = (w', RFail FUB).
Proof.
  induction l as [|a t IH]; intros w o Hi Ho; [destruct Hi|]. cbn [write_all]. destruct (valid_out p a) eqn:E.
  - destruct Hi as [->|Hi]; [congruence|]. eapply IH; eauto.
  - eauto.
Qed.

(** ** Networks made by histories *)

Section History.
Context (rank : nat -> nat) (fuel : nat) (Hf : forall i, rank i < fuel) (h : list (nop * nanswer)) (w : fworld)
        (Hh : history rank fuel h (f_net w)) (Hlen : length (f_parts w) = length (f_net w))
        (Hleaf : forall i c s, In (i, c, s) (nt_conns (notes_after h)) -> exists x, nth_error (f_net w) s = Some x /\ nn_kind x = NLeaf).

Definition hdepth (i : nat) : nat :=
  match nth_error (f_net w) i with
  | Some x => match nn_kind x with NLeaf => 0 | _ => S (fuel - rank i) end
  | None => 0
  end.

Lemma hist_sinks i j : In j (sinks (f_net w) i) <->
  (exists c, In (i, c, j) (nt_conns (notes_after h))) \/
  (wanted (notes_after h) j /\ exists c, In (j, c, i) (nt_regs (notes_after h))).
Proof.
  destruct (C65_exact_connections rank fuel h (f_net w) Hf Hh) as (active & Ha & HP). specialize (HP i).
  assert (HI : In j (sinks (f_net w) i) <-> In j (map snd (filter (fun e => Nat.eqb (fst (fst e)) i) (nt_conns (notes_after h))) ++
       map (fun e => fst (fst e)) (filter (fun e => Nat.eqb (snd e) i && active (fst (fst e))) (nt_regs (notes_after h))))).
  { split; apply Permutation_in; [exact HP|now apply Permutation_sym]. }
  rewrite HI, in_app_iff, !in_map_iff. split.
  - intros [([[a c] b] & E & Hi)|([[a c] b] & E & Hi)]; apply filter_In in Hi; cbn [fst snd] in *; destruct Hi as [Hi Hb].
    + apply Nat.eqb_eq in Hb. subst. eauto.
    + apply andb_true_iff in Hb. destruct Hb as [Hb Hc]. apply Nat.eqb_eq in Hb. subst. right. split; [now apply Ha|eauto].
  - intros [(c & Hc)|(Hw & c & Hc)].
    + left. exists (i, c, j). split; [reflexivity|]. apply filter_In. cbn [fst snd]. split; [exact Hc|apply Nat.eqb_refl].
    + right. exists (j, c, i). split; [reflexivity|]. apply filter_In. cbn [fst snd]. split; [exact Hc|].
      rewrite Nat.eqb_refl. apply Ha in Hw. rewrite Hw. reflexivity.
Qed.
Lemma hist_wanted_kind l : wanted (notes_after h) l -> exists x, nth_error (f_net w) l = Some x /\ nn_kind x <> NLeaf.
Proof.
  pose proof (history_top rank fuel Hf h _ Hh) as HT. pose proof HT as [(g & HI) _ Hr Hc].
  intros [l' c s' Hi|l' c m Hi _]; [now apply Hc in Hi|].
  apply Hr in Hi. destruct Hi as [_ Hi]. exact (proj2 (i_rank _ _ _ _ _ HI _ _ _ Hi)).
Qed.

Lemma hist_sound : sound hdepth w.
Proof.
  pose proof (history_top rank fuel Hf h _ Hh) as HT. pose proof HT as [(g & HI) _ Hr Hc]. split; [| |exact Hlen].
  - intros i x Hx. destruct (i_slots _ _ _ _ _ HI _ _ Hx) as [Hs _]. rewrite (slots_visit_ok _ _ Hs). eauto.
  - intros i j Hj. apply hist_sinks in Hj. destruct Hj as [(c & Hj)|(Hw & c & Hj)].
    + destruct (Hc _ _ _ Hj) as (x & Hx & Kx). destruct (Hleaf _ _ _ Hj) as (y & Hy & Ky). unfold hdepth.
      rewrite Hx, Hy, Ky. split; [destruct (nn_kind x); [lia|lia|congruence]|]. apply nth_error_Some. congruence.
    + destruct (hist_wanted_kind _ Hw) as (y & Hy & Ky). apply Hr in Hj. destruct Hj as [_ Hj].
      destruct (i_rank _ _ _ _ _ HI _ _ _ Hj) as (Hlt & x & Hx & Kx). unfold hdepth. rewrite Hx, Hy.
      pose proof (Hf i). pose proof (Hf j). split.
      * destruct (nn_kind x), (nn_kind y); try congruence; lia.
      * apply nth_error_Some. congruence.
Qed.

Lemma sum_pos {A} (b : A -> nat) l : 0 < list_sum (map b l) <-> exists j, In j l /\ 0 < b j.
Proof.
  induction l as [|a l IH]; cbn [map In]; unfold list_sum in *; cbn [fold_right].
  - split; [lia|]. intros (j & [] & _).
  - split.
    + intros H. destruct (Nat.eq_dec (b a) 0) as [E|E].
      * destruct (proj1 IH) as (j & Hj & Hb); [lia|]. exists j. auto.
      * exists a. split; [now left|lia].
    + intros (j & [->|Hj] & Hb); [lia|]. assert (0 < fold_right Nat.add 0 (map b l)) by (apply IH; eauto). lia.
Qed.

Lemma reaches_wanted i s : reaches (notes_after h) i s -> wanted (notes_after h) i.
Proof.
  induction 1 as [i c s Hi|i c m s Hi Hr IH]; [eapply wanted_user; eauto|eapply wanted_logger; eauto].
Qed.

Lemma hist_paths s : user_sink w s -> forall f i, hdepth i < f ->
  (exists x, nth_error (f_net w) i = Some x /\ nn_kind x <> NLeaf) ->
  (0 < paths f w i s <-> reaches (notes_after h) i s).
Proof.
  intros (xs & ps & Hxs & Kxs & Hps & Sps). induction f as [|f IH]; intros i Hd (x & Hx & Kx); [lia|].
  assert (Hp : paths (S f) w i s = list_sum (map (fun j => paths f w j s) (sinks (f_net w) i))).
  { cbn [paths]. rewrite Hx. destruct (nn_kind x); [reflexivity|reflexivity|congruence]. }
  rewrite Hp, sum_pos. clear Hp.
  assert (Hf1 : 1 <= f). { unfold hdepth in Hd. rewrite Hx in Hd. destruct (nn_kind x); [lia|lia|congruence]. }
  assert (HL : forall j y, nth_error (f_net w) j = Some y -> nn_kind y = NLeaf -> (0 < paths f w j s <-> j = s)).
  { intros j y Hy Ky. destruct f as [|f']; [lia|]. cbn [paths]. rewrite Hy, Ky.
    destruct (nth_error (f_parts w) j) as [p|] eqn:Ep; [|apply nth_error_None in Ep; rewrite Hlen in Ep; apply nth_error_None in Ep; congruence].
    destruct (Nat.eqb_spec j s) as [->|Hn].
    - assert (p = ps) by congruence. subst p. rewrite Sps. split; [auto|lia].
    - destruct (pa_stream p); split; try lia; congruence. }
  split.
  - intros (j & Hj & Hb). pose proof Hj as Hj0. apply hist_sinks in Hj. destruct Hj as [(c & Hj)|(Hw & c & Hj)].
    + destruct (Hleaf _ _ _ Hj) as (y & Hy & Ky). apply (HL j y Hy Ky) in Hb. subst j. eapply reaches_user; eauto.
    + eapply reaches_logger; [exact Hj|]. apply IH.
      * pose proof (so_sinks _ _ hist_sound _ _ Hj0) as [H1 _]. lia.
      * now apply hist_wanted_kind.
      * exact Hb.
  - intros HR. inversion HR as [i' c s' Hi|i' c m s' Hi Hm]; subst.
    + exists s. split; [apply hist_sinks; eauto|]. now apply (HL s xs Hxs Kxs).
    + assert (Hj : In m (sinks (f_net w) i)) by (apply hist_sinks; right; split; [eapply reaches_wanted; eauto|eauto]).
      exists m. split; [exact Hj|]. apply IH.
      * pose proof (so_sinks _ _ hist_sound _ _ Hj) as [H1 _]. lia.
      * apply hist_wanted_kind. eapply reaches_wanted; eauto.
      * exact Hm.
Qed.

Lemma hdepth_bound i : hdepth i <= S fuel.
Proof using. clear Hf Hh Hlen Hleaf. unfold hdepth. destruct (nth_error (f_net w) i) as [x|]; [destruct (nn_kind x)|]; lia. Qed.
End History.
