(** C85: the test framework runs every registered case once, in order, up to the first failed
    required check, and reports exactly the checks that failed; what the checks check. *)
From Coq Require Import QArith Qabs.
From Verif Require Import Base BaseProofs Testing TestingSpec TestingProofs.
From Coq Require Import ZifyBool ZifyNat ZifyN.
Open Scope N_scope.

(** ** Cases of an example: the state counts *)

Definition tick (n : nat) : bool * nat := (Nat.leb n 1, (n + 1)%nat).
Definition twice : body nat := Check _ Expect 10 tick (fun _ => Check _ Expect 11 tick (fun _ => Ret _)).
Definition required : body nat :=
  Check _ Assert 20 tick (fun _ => Do _ (fun n => n + 100)%nat (fun _ => Check _ Expect 21 tick (fun _ => Ret _))).
Definition program : list (op nat) :=
  [OSink _; OSuite _ [] 1; OCase _ [1] 7 twice; OCase _ [] 8 twice; OCase _ [1] 7 required; OCase _ [1] 9 required;
   OCase _ [1] 6 twice].

(** ** Registration *)

(** Whatever a program does (also run tests in between): below each suite there are the names that
    were registered, each once, in the order they first appeared, with the code that was registered
    first; no case occurs twice.  A second case with a name already taken is never run. *)
Theorem C85_registration : forall S os (u : S) w, steps S os (w_init S u) = Done w ->
  (forall p, map snd (filter (fun h => path_eqb (fst h) p) (map fst (listing S [] (w_root S w)))) = firsts [] (case_names S os p)) /\
  (forall p n b, In ((p, n), b) (listing S [] (w_root S w)) <-> first_case S os p n = Some b) /\
  NoDup (map fst (listing S [] (w_root S w))).
Proof.
  intros S os u w E. pose proof (steps_inv S os [] _ _ (init_inv S u) E) as I. cbn [app] in I. split; [|split].
  - intros p. rewrite <- (i_names _ _ _ I p), filter_map.
    pose proof (listing_at S (w_root S w) [] p (i_wf _ _ _ I)) as L. cbn [app] in L. rewrite L, !map_map.
    apply map_ext. intros c. reflexivity.
  - intros p n b. rewrite <- (i_first _ _ _ I p n b). apply (listing_in S (w_root S w) (p, n) b), (i_wf _ _ _ I).
  - apply listing_nodup, (i_wf _ _ _ I).
Qed.
Print Assumptions C85_registration.

Example C85_registration_ex : exists w, steps nat program (w_init nat 0%nat) = Done w /\
  listing nat [] (w_root nat w) = [(([], 8), twice); (([1], 7), twice); (([1], 9), required); (([1], 6), twice)].
Proof. eexists. split; reflexivity. Qed.

(** ** A run *)

(** In every state a program can reach, running the tests either does what the cases do one after
    the other and records and writes exactly that: the failed checks, with their cases; on every
    sink the same lines, and as the total the number of all failed checks on record; or throws
    what the first case that throws does. *)
Theorem C85_run : forall S os (u : S) w, steps S os (w_init S u) = Done w ->
  let cs := listing S [] (w_root S w) in
  match session S cs (w_stop S w) (w_user S w) with
  | inl (tr, (st, u')) =>
      exists w', run S w = Done w' /\ w_root S w' = w_root S w /\ w_user S w' = u' /\ w_stop S w' = st /\
        w_results S w' = w_results S w ++ failures tr /\
        w_sinks S w' = map (fun s => s ++ [LText started] ++ report (length cs) 1 [] tr ++
          (if st then [LStopped] else []) ++ [LTotal (length (w_results S w ++ failures tr))]) (w_sinks S w)
  | inr e => run S w = Throw e
  end.
Proof.
  intros S os u w E cs. pose proof (steps_inv S os [] _ _ (init_inv S u) E) as I. cbn [app] in I.
  pose proof (run_spec S w) as R. fold cs in R.
  destruct (session S cs (w_stop S w) (w_user S w)) as [[tr [st u']]|e]; [|exact R].
  destruct R as (w' & R & R1 & R2 & R3 & R4 & R5 & R6). exists w'. repeat (split; [assumption|]).
  assert (I' : inv S (os ++ [ORun _]) w') by (apply (step_inv S os w (ORun _) w' I); exact R).
  rewrite R6. apply map_ext. intros s. do 5 f_equal. f_equal.
  rewrite <- R1, (total_failures S _ _ I'), R4. reflexivity.
Qed.
Print Assumptions C85_run.

Example C85_run_ex : exists w w', steps nat program (w_init nat 0%nat) = Done w /\ run nat w = Done w' /\
  session nat (listing nat [] (w_root nat w)) false 0%nat =
    inl ([(([], 8), [Evaluated Expect 10 true; Evaluated Expect 11 true]);
          (([1], 7), [Evaluated Expect 10 false; Evaluated Expect 11 false]);
          (([1], 9), [Evaluated Assert 20 false; Skipped Expect 21])], (true, 105%nat)) /\
  w_sinks nat w' = [[LText started; LProgress 2; LSuite 0 1; LCase 1 7; LResult 3 Expect 10; LCase 1 7; LResult 3 Expect 11;
    LProgress 5; LCase 1 9; LResult 3 Assert 20; LProgress 7; LStopped; LTotal 3]].
Proof.
  eexists. eexists. split; [vm_compute; reflexivity|]. split; [vm_compute; reflexivity|]. split; vm_compute; reflexivity.
Qed.

(** ** Which cases run, which checks are evaluated *)

(** Started afresh, either all cases run, each once, in order, all of their checks are evaluated
    and no required check fails; or a required check fails: then the cases that run are the first
    ones up to the case of that check, everything before it is as above, and after it no operand of
    a check is evaluated. *)
Theorem C85_stop : forall S (w w' : world S), w_stop S w = false -> run S w = Done w' ->
  let cs := listing S [] (w_root S w) in
  exists tr, session S cs false (w_user S w) = inl (tr, (w_stop S w', w_user S w')) /\
    if w_stop S w' then
      exists tr0 h evs1 l evs2 rest,
        tr = tr0 ++ [(h, evs1 ++ Evaluated Assert l false :: evs2)] /\ map fst cs = map fst tr ++ rest /\
        Forall (fun x => Forall calm (snd x)) tr0 /\ Forall calm evs1 /\ Forall unevaluated evs2
    else map fst tr = map fst cs /\ Forall (fun x => Forall calm (snd x)) tr.
Proof.
  intros S w w' Hs E cs. pose proof (run_spec S w) as R. rewrite Hs in R. fold cs in R.
  destruct (session S cs false (w_user S w)) as [[tr [st u']]|e] eqn:Es; [|congruence].
  destruct R as (w1 & R & _ & R2 & R3 & _). rewrite R in E. injection E as ->.
  exists tr. subst. split; [reflexivity|]. apply (session_stops S cs _ _ _ _ Es).
Qed.
Print Assumptions C85_stop.

Example C85_stop_ex : exists w w', steps nat program (w_init nat 0%nat) = Done w /\ w_stop nat w = false /\
  run nat w = Done w' /\ w_stop nat w' = true.
Proof.
  eexists. eexists. split; [vm_compute; reflexivity|]. split; [reflexivity|]. split; vm_compute; reflexivity.
Qed.

(** "If the test level is ASSERT, the stop flag is set", but the code of the case goes on: what
    follows a failed required check is still done, only the checks in it are not evaluated. *)
Theorem C85_assert_continues_refuted : exists (b : body nat) evs u, play nat b false 2%nat = inl (evs, (true, u)) /\
  evs = [Evaluated Assert 20 false; Skipped Expect 21] /\ u = 103%nat.
Proof. exists required. do 2 eexists. repeat split; reflexivity. Qed.
Print Assumptions C85_assert_continues_refuted.

(** The flag is never cleared: once a required check has failed, running the tests again runs no
    case at all, and repeats the old total. *)
Theorem C85_rerun_refuted : forall S os (u : S) w, steps S os (w_init S u) = Done w -> w_stop S w = true ->
  exists w', run S w = Done w' /\ w_user S w' = w_user S w /\ w_results S w' = w_results S w /\
    w_sinks S w' = map (fun s => s ++ [LText started; LStopped; LTotal (length (w_results S w))]) (w_sinks S w).
Proof.
  intros S os u w E Hs. pose proof (C85_run S os u w E) as R. cbv zeta in R. rewrite Hs in R.
  assert (Es : session S (listing S [] (w_root S w)) true (w_user S w) = inl ([], (true, w_user S w)))
    by (destruct (listing S [] (w_root S w)) as [|[? ?] ?]; reflexivity).
  rewrite Es in R. destruct R as (w' & R & _ & R2 & _ & R4 & R5). exists w'. split; [exact R|]. split; [exact R2|].
  cbn [failures flat_map] in R4, R5. rewrite app_nil_r in R4, R5. split; [exact R4|exact R5].
Qed.
Print Assumptions C85_rerun_refuted.

Example C85_rerun_ex : exists w, steps nat (program ++ [ORun _]) (w_init nat 0%nat) = Done w /\ w_stop nat w = true /\
  w_results nat w <> [].
Proof. eexists. split; [vm_compute; reflexivity|]. split; [reflexivity|discriminate]. Qed.

(** "If the previous test result belongs to the same test case, then the test case is not displayed
    again" (runner.h 338-346): it is, before every result. *)
Theorem C85_case_line_refuted : forall (h : path * name) prev evs,
  length (filter (fun x => match x with LCase _ n => n =? snd h | _ => false end) (fst (lines_of h prev evs))) =
  length (failed_checks evs).
Proof.
  intros h prev evs. revert prev. induction evs as [|[lv l [|]|lv l|m] evs IH]; intros prev; cbn [lines_of]; try apply IH.
  - reflexivity.
  - specialize (IH (fst h)). destruct (lines_of h (fst h) evs) as [ls q]. cbn [fst] in *.
    rewrite !filter_app, !app_length.
    assert (Z : forall p k, length (filter (fun x => match x with LCase _ n => n =? snd h | _ => false end)
        (map (fun x => LSuite (fst x) (snd x)) (combine (seq k (length p)) p))) = 0%nat).
    { induction p as [|y p IHp]; intros k; [reflexivity|]. cbn. apply IHp. }
    assert (Z' : length (filter (fun x => match x with LCase _ n => n =? snd h | _ => false end)
        (if list_eq_dec N.eq_dec (fst h) prev then [] else way (fst h))) = 0%nat).
    { destruct (list_eq_dec N.eq_dec (fst h) prev); [reflexivity|]. apply Z. }
    rewrite Z'. cbn [filter]. rewrite N.eqb_refl. cbn. f_equal. exact IH.
  - specialize (IH prev). destruct (lines_of h prev evs) as [ls q]. cbn [fst filter] in *. exact IH.
Qed.
Print Assumptions C85_case_line_refuted.

Example C85_case_line_ex : lines_of ([1], 7) [1] [Evaluated Expect 10 false; Evaluated Expect 11 false] =
  ([LCase 1 7; LResult 3 Expect 10; LCase 1 7; LResult 3 Expect 11], [1]).
Proof. reflexivity. Qed.

(** A check outside of any case: if it fails before tests have been run, a null pointer is
    followed; later its failure is put down to the case that ran last. *)
Theorem C85_outside_refuted : forall S (w : world S) lv l ev u,
  w_stop S w = false -> ev (w_user S w) = (false, u) ->
  (w_active S w = None -> step S (OCheck S lv l ev) w = UB) /\
  (forall h, w_active S w = Some h -> exists w', step S (OCheck S lv l ev) w = Done w' /\
     w_results S w' = w_results S w ++ [(h, (lv, l))]).
Proof.
  intros S w lv l ev u Hs He. cbn [step]. unfold check. rewrite Hs, He. unfold commit. cbn [set_user w_active]. split.
  - intros ->. reflexivity.
  - intros [p n] ->. eexists. split; [reflexivity|]. destruct lv; reflexivity.
Qed.
Print Assumptions C85_outside_refuted.

Example C85_outside_ex : exists w, steps nat (program ++ [OCheck _ Expect 5 (fun n => (Nat.leb 1 n, n))]) (w_init nat 0%nat) = UB /\
  steps nat [OCase _ [] 8 twice; ORun _; OCheck _ Expect 5 (fun n => (Nat.leb 3 n, n))] (w_init nat 0%nat) = Done w /\
  w_results nat w = [(([], 8), (Expect, 5))].
Proof. eexists. split; [vm_compute; reflexivity|]. split; vm_compute; reflexivity. Qed.

(** ** What the checks check *)

Theorem C85_compare : forall t a l x y, same_type a l -> number a = Some x -> number l = Some y ->
  compare t a l = true <-> relation t x y.
Proof. exact compare_spec. Qed.
Print Assumptions C85_compare.

Example C85_compare_ex : compare TLE (VInt 32 (-5)) (VInt 32 7) = true /\ compare TGT (VReal (Some (1 # 2))) (VReal (Some (1 # 3))) = true.
Proof. split; reflexivity. Qed.

Lemma abs_both d t : (d <= t /\ - d <= t <-> Qabs d <= t)%Q.
Proof.
  rewrite Qabs_Qle_condition. split; intros [H1 H2]; split; try assumption.
  - rewrite <- (Qopp_involutive d). apply Qopp_le_compat. exact H2.
  - rewrite <- (Qopp_involutive t). apply Qopp_le_compat. exact H1.
Qed.

(** Signed integers, as long as nothing overflows, and numbers: closeness is what it says. *)
Theorem C85_close_abs : forall a l tol x y t b, signed a -> same_type a l -> same_type a tol ->
  number a = Some x -> number l = Some y -> number tol = Some t -> close_abs a l tol = Done b ->
  b = true <-> (Qabs (x - y) <= t)%Q.
Proof.
  intros a l tol x y t b Hg Hl Ht Na Nl Nt E. rewrite (close_abs_spec a l tol x y t b Hg Hl Ht Na Nl Nt E).
  rewrite <- abs_both. assert (O : (- (x - y) == y - x)%Q) by ring. rewrite O. reflexivity.
Qed.
Print Assumptions C85_close_abs.

Theorem C85_close_rel : forall a l tol x y t b, signed a -> same_type a l -> same_type a tol ->
  number a = Some x -> number l = Some y -> number tol = Some t -> close_rel a l tol = Done b ->
  b = true <-> (Qabs (x - y) <= Qabs y * Qabs t)%Q.
Proof.
  intros a l tol x y t b Hg Hl Ht Na Nl Nt E. rewrite (close_rel_spec a l tol x y t b Hg Hl Ht Na Nl Nt E).
  rewrite <- Qabs_Qmult, <- abs_both. assert (O : (- (x - y) == y - x)%Q) by ring. rewrite O. reflexivity.
Qed.
Print Assumptions C85_close_rel.

Example C85_close_ex : close_abs (VInt 32 7) (VInt 32 10) (VInt 32 3) = Done true /\
  close_abs (VInt 32 7) (VInt 32 11) (VInt 32 3) = Done false /\
  close_rel (VReal (Some (-9 # 1))) (VReal (Some (-10 # 1))) (VReal (Some (1 # 10))) = Done true /\
  close_rel (VReal (Some (-8 # 1))) (VReal (Some (-10 # 1))) (VReal (Some (1 # 10))) = Done false.
Proof. repeat split; reflexivity. Qed.

(** Unsigned operands: one of the two differences wraps around, so (for every tolerance in the lower
    half of the type) only equal values pass: 7 and 8 are not within 3 of each other. *)
Theorem C85_close_unsigned_refuted :
  (forall w a l t, 0 < w -> a < 2 ^ w -> l < 2 ^ w -> t < 2 ^ (w - 1) ->
    close_abs (VUns w a) (VUns w l) (VUns w t) = Done (a =? l)) /\
  exists x y t, number (VUns 32 7) = Some x /\ number (VUns 32 8) = Some y /\ number (VUns 32 3) = Some t /\
    (Qabs (x - y) <= t)%Q /\ close_abs (VUns 32 7) (VUns 32 8) (VUns 32 3) = Done false.
Proof.
  split; [exact close_unsigned|]. do 3 eexists. repeat split; try reflexivity. vm_compute. discriminate.
Qed.
Print Assumptions C85_close_unsigned_refuted.

(** What is not a number is close to everything, and everything is close to it, while it fails
    every comparison but "not equal". *)
Theorem C85_close_nan_refuted : forall q t, close_abs (VReal None) (VReal q) (VReal t) = Done true /\
  close_abs (VReal q) (VReal None) (VReal t) = Done true /\ close_rel (VReal q) (VReal None) (VReal t) = Done true /\
  (forall o, compare o (VReal None) (VReal q) = true <-> o = TNE).
Proof.
  intros [q|] [t|]; repeat split; try reflexivity; try (destruct o; cbn; intros H; try discriminate; reflexivity);
  intros ->; reflexivity.
Qed.
Print Assumptions C85_close_nan_refuted.
