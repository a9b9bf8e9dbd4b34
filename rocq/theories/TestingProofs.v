(** Proofs about the test framework. *)
From Coq Require Import QArith Qabs.
From Verif Require Import Base BaseProofs Testing TestingSpec.
From Coq Require Import ZifyBool ZifyNat ZifyN.
Open Scope N_scope.

Lemma path_eqb_true p q : path_eqb p q = true <-> p = q.
Proof. unfold path_eqb. destruct (list_eq_dec N.eq_dec p q); split; congruence. Qed.

Lemma path_eqb_refl p : path_eqb p p = true.
Proof. apply path_eqb_true. reflexivity. Qed.

Lemma owner_eqb_true h h' : owner_eqb h h' = true <-> h = h'.
Proof.
  destruct h as [p n], h' as [p' n']. unfold owner_eqb. cbn [fst snd]. rewrite Bool.andb_true_iff, path_eqb_true, N.eqb_eq.
  split; [intros [-> ->]; reflexivity|intros E; injection E; auto].
Qed.

Section P.
Variable S : Type.
Notation suite := (suite S).
Notation body := (body S).
Notation world := (world S).
Notation Suite := (Suite S).

Lemma suite_ind' (P : suite -> Prop) :
  (forall cs ss, Forall (fun x => P (snd x)) ss -> P (Suite cs ss)) -> forall s, P s.
Proof.
  intros H. fix IH 1. intros [cs ss]. apply H. induction ss as [|[n s] ss IHs]; constructor; [apply IH|exact IHs].
Qed.

(** ** The order of the cases *)

Fixpoint run_list (cs : list ((path * name) * body)) (w : world) : outcome world :=
  match cs with
  | [] => Done w
  | (h, b) :: cs => let! w := run_case S h b w in run_list cs w
  end.

Lemma run_list_stop cs w : w_stop S w = true -> run_list cs w = Done w.
Proof.
  intros H. induction cs as [|[h b] cs IH]; [reflexivity|]. cbn [run_list]. unfold run_case. rewrite H. exact IH.
Qed.

Lemma run_list_app cs cs' w : run_list (cs ++ cs') w = (let! w := run_list cs w in run_list cs' w).
Proof.
  revert w. induction cs as [|[h b] cs IH]; intros w; [reflexivity|]. cbn [app run_list].
  destruct (run_case S h b w) as [w'| | |]; cbn [obind]; [apply IH|reflexivity|reflexivity|reflexivity].
Qed.

Lemma visit_cases_list p cs : forall w, visit_cases S p cs w = run_list (map (fun c => ((p, fst c), snd c)) cs) w.
Proof.
  induction cs as [|[n b] cs IH]; intros w; [reflexivity|]. cbn [visit_cases map run_list fst snd].
  destruct (run_case S (p, n) b w); cbn [obind]; [apply IH|reflexivity|reflexivity|reflexivity].
Qed.

Lemma run_suite_list s : forall p w, run_suite S p s w = run_list (listing S p s) w.
Proof.
  induction s as [cs ss IH] using suite_ind'. intros p w. cbn [run_suite listing].
  rewrite run_list_app, <- visit_cases_list.
  destruct (w_stop S w) eqn:Hs.
  - cbn [obind]. rewrite Hs. rewrite visit_cases_list, run_list_stop by exact Hs. cbn [obind].
    rewrite run_list_stop by exact Hs. reflexivity.
  - destruct (visit_cases S p cs w) as [w'| | |]; cbn [obind]; try reflexivity.
    destruct (w_stop S w') eqn:Hs'; [rewrite run_list_stop by exact Hs'; reflexivity|]. clear Hs Hs' w. revert w'.
    induction IH as [|[n s] ss Hd Hr IHs]; intros w; [reflexivity|]. cbn [flat_map fst snd].
    rewrite run_list_app, <- Hd. cbn [snd]. destruct (run_suite S (p ++ [n]) s w); cbn [obind]; [apply IHs|reflexivity|reflexivity|reflexivity].
Qed.

(** ** One case *)

Lemma display_way p : display_suite 0 p = way p.
Proof.
  unfold way. generalize 0%nat. induction p as [|n p IH]; intros d; [reflexivity|]. cbn. f_equal. apply IH.
Qed.

Lemma write_lines (w : world) ls :
  w_sinks S (write S w ls) = map (fun s => s ++ ls) (w_sinks S w).
Proof. reflexivity. Qed.

Lemma map_app_app (sinks : list (list line)) ls ls' :
  map (fun s => s ++ ls') (map (fun s => s ++ ls) sinks) = map (fun s => s ++ (ls ++ ls')) sinks.
Proof. rewrite map_map. apply map_ext. intros s. rewrite app_assoc. reflexivity. Qed.

Lemma map_app_nil (sinks : list (list line)) : map (fun s => s ++ []) sinks = sinks.
Proof. induction sinks as [|s r IH]; [reflexivity|]. cbn. rewrite app_nil_r, IH. reflexivity. Qed.

Lemma map_lines_ext (sinks : list (list line)) ls ls' : ls = ls' -> map (fun s => s ++ ls) sinks = map (fun s => s ++ ls') sinks.
Proof. intros ->. reflexivity. Qed.

Lemma if_path {A} p q (x y : A) :
  (if path_eqb p q then x else y) = (if list_eq_dec N.eq_dec p q then x else y).
Proof. unfold path_eqb. destruct (list_eq_dec N.eq_dec p q); reflexivity. Qed.

Lemma exec_play h b : forall w, w_active S w = Some h ->
  exec S b w =
  match play S b (w_stop S w) (w_user S w) with
  | inl (evs, (st, u)) =>
      Done (mkWorld S (w_root S w) u st (Some h)
              (w_results S w ++ map (fun f => (h, f)) (failed_checks evs))
              (w_ncases S w) (w_tested S w) (w_next S w)
              (snd (lines_of h (w_prev S w) evs))
              (map (fun s => s ++ fst (lines_of h (w_prev S w) evs)) (w_sinks S w)))
  | inr e => Throw e
  end.
Proof.
  induction b as [|e|f k IH|lv l ev k IH|m k IH|k IH]; intros w Ha; cbn [exec play].
  - cbn. rewrite app_nil_r, map_app_nil. destruct w; cbn in *. subst. reflexivity.
  - reflexivity.
  - rewrite IH by exact Ha. cbn. reflexivity.
  - unfold check. destruct (w_stop S w) eqn:Hs; cbn [obind].
    + rewrite IH by exact Ha. rewrite Hs.
      destruct (play S (k (w_user S w)) true (w_user S w)) as [[evs [st u]]|e]; reflexivity.
    + destruct (ev (w_user S w)) as [ok u']. destruct ok; cbn [obind].
      * rewrite IH by exact Ha. cbn [set_user w_user w_stop w_root w_results w_ncases w_tested w_next w_prev w_sinks].
        rewrite Hs. replace (match lv with Expect => false | Assert => negb true end) with false by (destruct lv; reflexivity).
        destruct (play S (k u') false u') as [[evs [st u]]|e]; reflexivity.
      * unfold commit. cbn [set_user w_active]. rewrite Ha. cbn [obind]. destruct h as [p n].
        rewrite IH by (destruct lv; exact Ha).
        destruct lv; cbn [set_stop set_user w_user w_stop w_root w_results w_ncases w_tested w_next w_prev w_sinks show_result write set_prev add_result negb];
          rewrite ?Hs;
          match goal with |- context [play S (k u') ?b u'] => destruct (play S (k u') b u') as [[evs [st u]]|e] end; try reflexivity;
          cbn [lines_of failed_checks flat_map map fst snd];
          destruct (lines_of (p, n) p evs) as [ls q] eqn:El; cbn [fst snd];
          rewrite map_app_app, <- app_assoc, if_path, display_way; cbn [app]; do 2 f_equal;
          try (apply map_lines_ext; rewrite <- app_assoc; reflexivity).
  - rewrite IH by exact Ha. cbn. destruct (play S (k (w_user S w)) (w_stop S w) (w_user S w)) as [[evs [st u]]|e]; [|reflexivity].
    cbn [lines_of failed_checks flat_map app]. destruct (lines_of h (w_prev S w) evs) as [ls q]. cbn [fst snd].
    rewrite map_app_app. reflexivity.
  - rewrite IH by exact Ha. reflexivity.
Qed.

(** ** Progress *)

Lemma progress_loop_spec t n : (0 < n)%nat -> forall f x, (x <= 10 * t / n + 1)%nat -> (10 * t / n + 1 - x <= f)%nat ->
  progress_loop f t n x = (10 * t / n + 1)%nat.
Proof.
  intros Hn. induction f as [|f IH]; intros x Hx Hf; cbn [progress_loop]; [lia|].
  destruct (Nat.leb_spec (x * n) (t * 10)) as [H|H].
  - assert (x <= 10 * t / n)%nat by (apply Nat.div_le_lower_bound; lia). apply IH; lia.
  - assert (~ (x <= 10 * t / n)%nat).
    { intros C. assert (n * x <= n * (10 * t / n))%nat by (apply Nat.mul_le_mono_l, C).
      pose proof (Nat.mul_div_le (10 * t) n). lia. }
    lia.
Qed.

Lemma show_progress_spec (w : world) k : (0 < w_ncases S w)%nat -> w_tested S w = (k + 1)%nat ->
  w_next S w = (10 * k / w_ncases S w + 1)%nat ->
  show_progress S w = mkWorld S (w_root S w) (w_user S w) (w_stop S w) (w_active S w) (w_results S w) (w_ncases S w)
    (k + 1) (10 * (k + 1) / w_ncases S w + 1) (w_prev S w)
    (map (fun s => s ++ progress (w_ncases S w) (k + 1)) (w_sinks S w)).
Proof.
  intros Hn Ht Hx. unfold show_progress.
  assert (M : (10 * k / w_ncases S w <= 10 * (k + 1) / w_ncases S w)%nat) by (apply Nat.div_le_mono; lia).
  rewrite (progress_loop_spec (w_tested S w) (w_ncases S w) Hn).
  - rewrite Ht, Hx. unfold progress. replace (k + 1 - 1)%nat with k by lia.
    destruct (Nat.ltb_spec (10 * k / w_ncases S w + 1) (10 * (k + 1) / w_ncases S w + 1)) as [H|H].
    + destruct (Nat.ltb_spec (10 * k / w_ncases S w) (10 * (k + 1) / w_ncases S w)) as [H'|H']; [|lia].
      rewrite Nat.add_sub. reflexivity.
    + destruct (Nat.ltb_spec (10 * k / w_ncases S w) (10 * (k + 1) / w_ncases S w)) as [H'|H']; [lia|].
      rewrite map_app_nil. unfold set_progress. cbn. reflexivity.
  - rewrite Ht, Hx. lia.
  - rewrite Ht, Hx. assert (10 * (k + 1) / w_ncases S w <= 10 * (k + 1))%nat by (apply Nat.div_le_upper_bound; [lia|]; nia). lia.
Qed.

(** ** All cases *)

Lemma run_list_session cs : forall w k, (0 < w_ncases S w)%nat -> w_tested S w = k ->
  w_next S w = (10 * k / w_ncases S w + 1)%nat ->
  match session S cs (w_stop S w) (w_user S w) with
  | inl (tr, (st, u)) =>
      exists act prev, run_list cs w =
        Done (mkWorld S (w_root S w) u st act (w_results S w ++ failures tr) (w_ncases S w)
                (k + length tr) (10 * (k + length tr) / w_ncases S w + 1) prev
                (map (fun s => s ++ report (w_ncases S w) (k + 1) (w_prev S w) tr) (w_sinks S w)))
        /\ act = match rev tr with [] => w_active S w | x :: _ => Some (fst x) end
  | inr e => run_list cs w = Throw e
  end.
Proof.
  induction cs as [|[h b] cs IH]; intros w k Hn Ht Hx.
  - cbn [session]. exists (w_active S w), (w_prev S w). split; [|reflexivity].
    cbn [failures flat_map report length run_list].
    rewrite app_nil_r, map_app_nil, Nat.add_0_r. destruct w; cbn in *. subst. reflexivity.
  - cbn [session]. destruct (w_stop S w) eqn:Hs.
    + exists (w_active S w), (w_prev S w). split; [|reflexivity].
      rewrite run_list_stop by exact Hs. cbn [failures flat_map report length].
      rewrite app_nil_r, map_app_nil, Nat.add_0_r. destruct w; cbn in *. subst. reflexivity.
    + cbn [run_list]. unfold run_case. rewrite Hs. rewrite (exec_play h) by reflexivity.
      cbn [set_active w_stop w_user w_root w_results w_ncases w_tested w_next w_prev w_sinks]. rewrite Hs.
      destruct (play S b false (w_user S w)) as [[evs [st u]]|e]; [|reflexivity]. cbn [obind].
      unfold set_progress. cbn [w_stop w_user w_root w_results w_ncases w_tested w_next w_prev w_sinks w_active].
      rewrite (show_progress_spec _ k); [|exact Hn|cbn; lia|cbn; exact Hx].
      cbn [w_stop w_user w_root w_results w_ncases w_tested w_next w_prev w_sinks w_active].
      match goal with |- context [run_list cs ?x] => set (w1 := x) end.
      specialize (IH w1 (k + 1)%nat Hn eq_refl eq_refl). unfold w1 at 1 2 in IH. cbn [w_stop w_user] in IH.
      destruct (session S cs st u) as [[tr [st' u']]|e].
      * destruct IH as [act [prev [IH Hact]]]. exists act, prev. rewrite IH. unfold w1. cbn [w_stop w_user w_root w_results w_ncases w_tested w_next w_prev w_sinks w_active].
        split.
        -- f_equal. cbn [failures flat_map fst snd length report].
           destruct (lines_of h (w_prev S w) evs) as [ls q]. cbn [fst snd].
           rewrite !map_app_app, <- !app_assoc.
           replace (k + 1 + length tr)%nat with (k + Datatypes.S (length tr))%nat by lia. reflexivity.
        -- rewrite Hact. cbn [rev]. destruct (rev tr); reflexivity.
      * exact IH.
Qed.

(** ** Counting *)

Definition sum (l : list nat) : nat := fold_right Nat.add 0%nat l.

Lemma sum_app l l' : sum (l ++ l') = (sum l + sum l')%nat.
Proof.
  induction l as [|x l IH]; [reflexivity|]. cbn [app]. change (sum (x :: l ++ l')) with (x + sum (l ++ l'))%nat.
  change (sum (x :: l)) with (x + sum l)%nat. lia.
Qed.

Lemma suite_failures_sum w s : forall p,
  suite_failures S w p s = sum (map (fun x => case_failures S w (fst x)) (listing S p s)).
Proof.
  induction s as [cs ss IH] using suite_ind'. intros p. cbn [suite_failures listing]. rewrite map_app, sum_app. f_equal.
  - clear IH ss. induction cs as [|[n b] cs IHc]; [reflexivity|]. cbn. rewrite IHc. reflexivity.
  - induction IH as [|[n s] ss Hd Hr IHs]; [reflexivity|]. cbn [fold_right flat_map fst snd]. rewrite map_app, sum_app, <- Hd. cbn [snd].
    rewrite IHs. reflexivity.
Qed.

Lemma num_cases_listing s : forall p, num_cases S s = length (listing S p s).
Proof.
  induction s as [cs ss IH] using suite_ind'. intros p. cbn [num_cases listing]. rewrite app_length, map_length. f_equal.
  induction IH as [|[n s] ss Hd Hr IHs]; [reflexivity|]. cbn [fold_right flat_map fst snd]. rewrite app_length, IHs. f_equal. apply Hd.
Qed.

Lemma sum_count (hs : list (path * name)) (rs : list ((path * name) * (level * N))) :
  NoDup hs -> (forall x, In x rs -> In (fst x) hs) ->
  sum (map (fun h => length (filter (fun x => owner_eqb (fst x) h) rs)) hs) = length rs.
Proof.
  intros Hd. revert rs. induction Hd as [|h hs Hn Hd IH]; intros rs Ho.
  - destruct rs as [|x rs]; [reflexivity|]. exfalso. apply (Ho x). left. reflexivity.
  - cbn [map sum fold_right].
    assert (E : forall l : list ((path * name) * (level * N)),
      (length (filter (fun x => owner_eqb (fst x) h) l) + length (filter (fun x => negb (owner_eqb (fst x) h)) l) = length l)%nat).
    { induction l as [|x l IHl]; [reflexivity|]. cbn. destruct (owner_eqb (fst x) h); cbn; lia. }
    rewrite <- (E rs). f_equal.
    rewrite <- (IH (filter (fun x => negb (owner_eqb (fst x) h)) rs)).
    + unfold sum. f_equal. apply map_ext_in. intros h' Hh'. f_equal. clear -Hn Hh'.
      induction rs as [|x rs IHr]; [reflexivity|]. cbn. destruct (owner_eqb (fst x) h) eqn:Eh; cbn.
      * apply owner_eqb_true in Eh. destruct (owner_eqb (fst x) h') eqn:Eh'; [|exact IHr].
        apply owner_eqb_true in Eh'. exfalso. apply Hn. congruence.
      * rewrite IHr. reflexivity.
    + intros x Hx. apply filter_In in Hx. destruct Hx as [Hx Hb]. destruct (Ho x Hx) as [E'|H]; [|exact H].
      cbv beta in Hb. rewrite (proj2 (owner_eqb_true (fst x) h) (eq_sym E')) in Hb. discriminate.
Qed.

(** ** Registration *)

Fixpoint wf (s : suite) : Prop :=
  let '(Testing.Suite _ cs ss) := s in
  NoDup (map fst cs) /\ NoDup (map fst ss) /\ fold_right (fun x P => wf (snd x) /\ P) True ss.

Lemma wf_subs cs ss : wf (Suite cs ss) <-> NoDup (map fst cs) /\ NoDup (map fst ss) /\ Forall (fun x => wf (snd x)) ss.
Proof.
  cbn [wf]. assert (E : fold_right (fun x P => wf (snd x) /\ P) True ss <-> Forall (fun x => wf (snd x)) ss).
  { induction ss as [|x ss IH]; cbn; [split; auto|]. rewrite Forall_cons_iff, <- IH. reflexivity. }
  rewrite E. reflexivity.
Qed.

Fixpoint find_sub (x : name) (ss : list (name * suite)) : option suite :=
  match ss with [] => None | (n, s) :: r => if n =? x then Some s else find_sub x r end.
Fixpoint cases_at (s : suite) (p : path) : list (name * body) :=
  match p with
  | [] => cases_of S s
  | x :: p' => match find_sub x (subs_of S s) with Some s' => cases_at s' p' | None => [] end
  end.

Lemma find_sub_app x ss ss' : find_sub x (ss ++ ss') = match find_sub x ss with Some s => Some s | None => find_sub x ss' end.
Proof. induction ss as [|[n s] r IH]; [reflexivity|]. cbn. destruct (n =? x); [reflexivity|exact IH]. Qed.

Lemma at_sub_find x g ss ss' : at_sub S x g ss = Some ss' -> forall y,
  find_sub y ss' = (if y =? x then match find_sub x ss with Some s => g s | None => None end else find_sub y ss) /\
  exists s s', find_sub x ss = Some s /\ g s = Some s'.
Proof.
  revert ss'. induction ss as [|[n s] r IH]; intros ss' E y; cbn in E; [discriminate|].
  destruct (N.eqb_spec n x) as [->|Hn].
  - destruct (g s) as [s'|] eqn:Eg; [|discriminate]. injection E as <-. cbn. rewrite N.eqb_refl. split; [|eauto].
    rewrite (N.eqb_sym x y). destruct (y =? x); [rewrite Eg; reflexivity|reflexivity].
  - destruct (at_sub S x g r) as [r'|] eqn:Er; [|discriminate]. injection E as <-.
    destruct (IH r' eq_refl y) as [IH1 IH2]. cbn. destruct (N.eqb_spec n x) as [|_]; [contradiction|]. split; [|exact IH2].
    destruct (N.eqb_spec n y) as [->|Hy].
    + destruct (N.eqb_spec y x); [contradiction|reflexivity].
    + exact IH1.
Qed.

Lemma at_sub_names x g ss ss' : at_sub S x g ss = Some ss' -> map fst ss' = map fst ss.
Proof.
  revert ss'. induction ss as [|[n s] r IH]; intros ss' E; cbn in E; [discriminate|].
  destruct (n =? x).
  - destruct (g s); [|discriminate]. injection E as <-. reflexivity.
  - destruct (at_sub S x g r) as [r'|] eqn:Er; [|discriminate]. injection E as <-. cbn. f_equal. apply IH. reflexivity.
Qed.

Lemma at_sub_forall (P : suite -> Prop) x g ss ss' : at_sub S x g ss = Some ss' ->
  Forall (fun y => P (snd y)) ss -> (forall s s', P s -> g s = Some s' -> P s') -> Forall (fun y => P (snd y)) ss'.
Proof.
  revert ss'. induction ss as [|[n s] r IH]; intros ss' E H Hg; cbn in E; [discriminate|].
  inversion H as [|? ? H1 H2]; subst. cbn in H1. destruct (n =? x).
  - destruct (g s) as [s'|] eqn:Eg; [|discriminate]. injection E as <-. constructor; [cbn; eauto|exact H2].
  - destruct (at_sub S x g r) as [r'|] eqn:Er; [|discriminate]. injection E as <-. constructor; [exact H1|]. apply IH; auto.
Qed.

Lemma existsb_name {A} (l : list (name * A)) n : existsb (fun x => fst x =? n) l = true <-> In n (map fst l).
Proof.
  rewrite existsb_exists, in_map_iff. split.
  - intros [x [Hx E]]. apply N.eqb_eq in E. eauto.
  - intros [x [E Hx]]. exists x. split; [exact Hx|]. apply N.eqb_eq, E.
Qed.

Lemma existsb_name_false {A} (l : list (name * A)) n : existsb (fun x => fst x =? n) l = false <-> ~ In n (map fst l).
Proof. rewrite <- existsb_name. destruct (existsb (fun x => fst x =? n) l); split; congruence. Qed.

Lemma NoDup_snoc {A} (l : list A) x : NoDup l -> ~ In x l -> NoDup (l ++ [x]).
Proof.
  intros H Hx.
  induction H as [|y l Hy H IH]; cbn; [constructor; [intros []|constructor]|].
  constructor.
  - rewrite in_app_iff. cbn. intros [C|[C|[]]]; [contradiction|]. apply Hx. left. auto.
  - apply IH. intros C. apply Hx. right. exact C.
Qed.

Lemma at_path_wf p f : (forall s, wf s -> wf (f s)) -> forall s s', wf s -> at_path S p f s = Some s' -> wf s'.
Proof.
  intros Hf. induction p as [|x p IH]; intros s s' Hs E; cbn [at_path] in E.
  - injection E as <-. auto.
  - destruct s as [cs ss]. destruct (at_sub S x (at_path S p f) ss) as [ss'|] eqn:Es; [|discriminate]. injection E as <-.
    apply wf_subs in Hs. apply wf_subs. destruct Hs as [H1 [H2 H3]]. split; [exact H1|]. split.
    + rewrite (at_sub_names _ _ _ _ Es). exact H2.
    + apply (at_sub_forall wf x _ ss ss' Es H3). intros. eauto.
Qed.

Lemma add_case_wf n b s : wf s -> wf (add_case S n b s).
Proof.
  destruct s as [cs ss]. unfold add_case. destruct (existsb (fun x => fst x =? n) cs) eqn:E; [auto|].
  rewrite !wf_subs. intros [H1 [H2 H3]]. repeat split; try assumption.
  rewrite map_app. cbn. apply NoDup_snoc; [exact H1|]. apply existsb_name_false, E.
Qed.

Lemma add_suite_wf n s : wf s -> wf (add_suite S n s).
Proof.
  destruct s as [cs ss]. unfold add_suite. destruct (existsb (fun x => fst x =? n) ss) eqn:E; [auto|].
  rewrite !wf_subs. intros [H1 [H2 H3]]. repeat split; try assumption.
  - rewrite map_app. cbn. apply NoDup_snoc; [exact H2|]. apply existsb_name_false, E.
  - apply Forall_app. split; [exact H3|]. constructor; [|constructor]. cbn. repeat constructor.
Qed.

Definition add_name (n : name) (b : body) (cs : list (name * body)) : list (name * body) :=
  if existsb (fun x => fst x =? n) cs then cs else cs ++ [(n, b)].

Lemma add_case_at p n b : forall s s', at_path S p (add_case S n b) s = Some s' -> forall q,
  cases_at s' q = if path_eqb p q then add_name n b (cases_at s q) else cases_at s q.
Proof.
  induction p as [|x p IH]; intros s s' E q; cbn [at_path] in E.
  - injection E as <-. destruct s as [cs ss]. unfold add_case, add_name. destruct q as [|y q].
    + rewrite path_eqb_refl. cbn. destruct (existsb (fun x => fst x =? n) cs); reflexivity.
    + destruct (path_eqb [] (y :: q)) eqn:E; [apply path_eqb_true in E; discriminate|].
      destruct (existsb (fun x => fst x =? n) cs); reflexivity.
  - destruct s as [cs ss]. destruct (at_sub S x (at_path S p (add_case S n b)) ss) as [ss'|] eqn:Es; [|discriminate]. injection E as <-.
    destruct q as [|y q].
    + destruct (path_eqb (x :: p) []) eqn:E; [apply path_eqb_true in E; discriminate|]. reflexivity.
    + cbn [cases_at subs_of]. destruct (at_sub_find x _ ss ss' Es y) as [F [s0 [s1 [Hf Hg]]]]. rewrite F.
      destruct (N.eqb_spec y x) as [->|Hn].
      * rewrite Hf, Hg. rewrite (IH s0 s1 Hg q).
        replace (path_eqb (x :: p) (x :: q)) with (path_eqb p q); [reflexivity|].
        destruct (path_eqb p q) eqn:E1; symmetry.
        -- apply path_eqb_true in E1. subst. apply path_eqb_refl.
        -- destruct (path_eqb (x :: p) (x :: q)) eqn:E2; [|reflexivity]. apply path_eqb_true in E2. injection E2 as ->.
           rewrite path_eqb_refl in E1. discriminate.
      * destruct (path_eqb (x :: p) (y :: q)) eqn:E; [apply path_eqb_true in E; injection E; congruence|]. reflexivity.
Qed.

Lemma add_suite_at p n : forall s s', at_path S p (add_suite S n) s = Some s' -> forall q,
  cases_at s' q = cases_at s q.
Proof.
  induction p as [|x p IH]; intros s s' E q; cbn [at_path] in E.
  - injection E as <-. destruct s as [cs ss]. unfold add_suite.
    destruct (existsb (fun x => fst x =? n) ss) eqn:Ex; [reflexivity|].
    destruct q as [|y q]; [reflexivity|]. cbn [cases_at subs_of]. rewrite find_sub_app.
    destruct (find_sub y ss); [reflexivity|]. cbn. destruct (n =? y); [|reflexivity]. destruct q; reflexivity.
  - destruct s as [cs ss]. destruct (at_sub S x (at_path S p (add_suite S n)) ss) as [ss'|] eqn:Es; [|discriminate]. injection E as <-.
    destruct q as [|y q]; [reflexivity|]. cbn [cases_at subs_of].
    destruct (at_sub_find x _ ss ss' Es y) as [F [s0 [s1 [Hf Hg]]]]. rewrite F.
    destruct (N.eqb_spec y x) as [->|Hn]; [|reflexivity]. rewrite Hf, Hg. apply (IH s0 s1 Hg).
Qed.

(** *** The listing and the cases of a suite *)

Lemma listing_prefix s : forall p h b, In (h, b) (listing S p s) -> exists r, fst h = p ++ r.
Proof.
  induction s as [cs ss IH] using suite_ind'. intros p h b H. cbn [listing] in H. apply in_app_or in H. destruct H as [H|H].
  - apply in_map_iff in H. destruct H as [c [E _]]. injection E as <- _. exists []. rewrite app_nil_r. reflexivity.
  - apply in_flat_map in H. destruct H as [x [Hx H]]. rewrite Forall_forall in IH. destruct (IH x Hx _ _ _ H) as [r Hr].
    exists (fst x :: r). rewrite Hr, <- app_assoc. reflexivity.
Qed.

Lemma filter_none {A} (f : A -> bool) l : (forall x, In x l -> f x = false) -> filter f l = [].
Proof. induction l as [|x l IH]; intros H; [reflexivity|]. cbn. rewrite H by (left; reflexivity). apply IH. intros y Hy. apply H. right. exact Hy. Qed.

Lemma filter_every {A} (f : A -> bool) l : (forall x, In x l -> f x = true) -> filter f l = l.
Proof. induction l as [|x l IH]; intros H; [reflexivity|]. cbn. rewrite H by (left; reflexivity). f_equal. apply IH. intros y Hy. apply H. right. exact Hy. Qed.

Lemma listing_at s : forall p r, wf s ->
  filter (fun x => path_eqb (fst (fst x)) (p ++ r)) (listing S p s) =
  map (fun c => ((p ++ r, fst c), snd c)) (cases_at s r).
Proof.
  induction s as [cs ss IH] using suite_ind'. intros p r Hw. apply wf_subs in Hw. destruct Hw as [W1 [W2 W3]].
  cbn [listing]. rewrite filter_app. destruct r as [|x r].
  - rewrite app_nil_r. cbn [cases_at cases_of]. rewrite filter_every, filter_none, app_nil_r; [reflexivity| |].
    + intros [h b] H. apply in_flat_map in H. destruct H as [y [_ H]]. apply listing_prefix in H. destruct H as [r Hr].
      destruct (path_eqb _ p) eqn:E; [|reflexivity]. apply path_eqb_true in E. cbn in E. rewrite Hr in E.
      exfalso. apply (f_equal (@length name)) in E. rewrite !app_length in E. cbn in E. lia.
    + intros y H. apply in_map_iff in H. destruct H as [c [<- _]]. apply path_eqb_refl.
  - rewrite filter_none.
    + cbn [app cases_at subs_of]. clear W1 cs. revert W2 W3. induction IH as [|[n s] ss Hd Hr IHs]; intros W2 W3; [reflexivity|].
      cbn [flat_map fst snd find_sub]. rewrite filter_app. inversion W2 as [|? ? Wn W2']; subst. inversion W3 as [|? ? Ws W3']; subst.
      cbn [fst snd] in *. destruct (N.eqb_spec n x) as [->|Hn].
      * replace (p ++ x :: r) with ((p ++ [x]) ++ r) by (rewrite <- app_assoc; reflexivity).
        rewrite Hd by exact Ws. rewrite (filter_none _ (flat_map _ ss)), app_nil_r; [reflexivity|].
        intros [h b] H. apply in_flat_map in H. destruct H as [y [Hy H]]. apply listing_prefix in H. destruct H as [r' Hr'].
        destruct (path_eqb _ _) eqn:E; [|reflexivity]. apply path_eqb_true in E. cbn [fst] in E. rewrite Hr' in E.
        rewrite <- !app_assoc in E. apply app_inv_head in E. cbn in E. injection E as E _.
        exfalso. apply Wn. rewrite <- E. apply in_map, Hy.
      * rewrite (filter_none _ (listing S (p ++ [n]) s)); [apply IHs; assumption|].
        intros [h b] H. apply listing_prefix in H. destruct H as [r' Hr'].
        destruct (path_eqb _ _) eqn:E; [|reflexivity]. apply path_eqb_true in E. cbn [fst] in E. rewrite Hr' in E.
        rewrite <- app_assoc in E. apply app_inv_head in E. cbn in E. injection E as E _. contradiction.
    + intros y H. apply in_map_iff in H. destruct H as [c [<- _]]. cbn [fst]. destruct (path_eqb p (p ++ x :: r)) eqn:E; [|reflexivity].
      apply path_eqb_true in E. exfalso. apply (f_equal (@length name)) in E. rewrite app_length in E. cbn in E. lia.
Qed.

Lemma cases_at_nodup s : wf s -> forall p, NoDup (map fst (cases_at s p)).
Proof.
  induction s as [cs ss IH] using suite_ind'. intros W [|x p]; apply wf_subs in W; destruct W as [W1 [_ W3]]; [exact W1|].
  cbn [cases_at subs_of]. clear W1. induction IH as [|[n s] ss Hd Hr IHs]; cbn [find_sub]; [constructor|].
  inversion W3; subst. destruct (n =? x); [apply Hd; assumption|auto].
Qed.

Lemma nodup_by_filter {A B} (key : A -> B) (eqb : B -> B -> bool) (l : list A) :
  (forall x y, eqb x y = true <-> x = y) ->
  (forall b, NoDup (filter (fun x => eqb (key x) b) l)) -> NoDup l.
Proof.
  intros He H. induction l as [|x l IH]; constructor.
  - intros C. specialize (H (key x)). cbn in H. rewrite (proj2 (He _ _) eq_refl) in H. inversion H as [|? ? Hn _]; subst.
    apply Hn. apply filter_In. split; [exact C|]. apply He. reflexivity.
  - apply IH. intros b. specialize (H b). cbn in H. destruct (eqb (key x) b); [inversion H; assumption|exact H].
Qed.

Lemma filter_map {A B} (f : A -> B) (g : B -> bool) l : filter g (map f l) = map f (filter (fun x => g (f x)) l).
Proof. induction l as [|x l IH]; [reflexivity|]. cbn. destruct (g (f x)); cbn; rewrite IH; reflexivity. Qed.

Lemma listing_nodup s : wf s -> NoDup (map fst (listing S [] s)).
Proof.
  intros W. apply (nodup_by_filter fst path_eqb); [apply path_eqb_true|]. intros q.
  rewrite filter_map. pose proof (listing_at s [] q W) as E. cbn [app] in E. rewrite E, map_map. clear E.
  pose proof (cases_at_nodup s W q) as N. induction (cases_at s q) as [|c l IH]; [constructor|].
  cbn in N. inversion N as [|? ? Hn N']; subst. cbn. constructor; [|auto].
  intros C. apply in_map_iff in C. destruct C as [c' [E' Hc]]. cbn in E'. injection E' as E'. apply Hn. rewrite <- E'. apply in_map, Hc.
Qed.

Lemma listing_in s h b : wf s -> In (h, b) (listing S [] s) <-> In (snd h, b) (cases_at s (fst h)).
Proof.
  intros W. pose proof (listing_at s [] (fst h) W) as E. cbn [app] in E. split; intros H.
  - assert (F : In (h, b) (filter (fun x => path_eqb (fst (fst x)) (fst h)) (listing S [] s))).
    { apply filter_In. split; [exact H|]. apply path_eqb_refl. }
    rewrite E in F. apply in_map_iff in F. destruct F as [[n b'] [E' F]]. cbn in E'. injection E' as <- <-. exact F.
  - assert (F : In (h, b) (filter (fun x => path_eqb (fst (fst x)) (fst h)) (listing S [] s))).
    { rewrite E. apply in_map_iff. exists (snd h, b). split; [destruct h; reflexivity|exact H]. }
    apply filter_In in F. apply F.
Qed.

(** ** Programs *)

Lemma existsb_eqb x l : existsb (N.eqb x) l = true <-> In x l.
Proof.
  rewrite existsb_exists. split.
  - intros [y [Hy E]]. apply N.eqb_eq in E. subst. exact Hy.
  - intros H. exists x. split; [exact H|]. apply N.eqb_refl.
Qed.

Lemma firsts_snoc l x : forall seen,
  firsts seen (l ++ [x]) = firsts seen l ++ (if existsb (N.eqb x) (seen ++ l) then [] else [x]).
Proof.
  induction l as [|y l IH]; intros seen; cbn [app firsts].
  - rewrite app_nil_r. destruct (existsb (N.eqb x) seen); reflexivity.
  - destruct (existsb (N.eqb y) seen) eqn:E.
    + rewrite IH. f_equal. replace (existsb (N.eqb x) (seen ++ y :: l)) with (existsb (N.eqb x) (seen ++ l)); [reflexivity|].
      apply Bool.eq_iff_eq_true. rewrite !existsb_eqb, !in_app_iff. cbn. apply existsb_eqb in E.
      split; [tauto|]. intros [H|[->|H]]; auto.
    + rewrite IH. cbn [app]. f_equal. f_equal.
      replace (existsb (N.eqb x) (seen ++ y :: l)) with (existsb (N.eqb x) ((y :: seen) ++ l)); [reflexivity|].
      apply Bool.eq_iff_eq_true. rewrite !existsb_eqb, !in_app_iff. cbn. tauto.
Qed.

Lemma firsts_in l x : forall seen, In x (firsts seen l) <-> In x l /\ ~ In x seen.
Proof.
  induction l as [|y l IH]; intros seen; cbn [firsts]; [cbn; tauto|].
  destruct (existsb (N.eqb y) seen) eqn:E.
  - apply existsb_eqb in E. rewrite IH. cbn. split; [tauto|]. intros [[->|H] H']; [contradiction|tauto].
  - assert (~ In y seen) by (rewrite <- existsb_eqb, E; discriminate). cbn. rewrite IH. cbn.
    split; [intros [->|[H1 H2]]; tauto|]. intros [[->|H1] H2]; [tauto|]. destruct (N.eq_dec y x); [tauto|]. right. tauto.
Qed.

Lemma find_app {A} (f : A -> bool) l l' : find f (l ++ l') = match find f l with Some x => Some x | None => find f l' end.
Proof. induction l as [|x l IH]; [reflexivity|]. cbn. destruct (f x); [reflexivity|exact IH]. Qed.

Lemma first_case_snoc os o p n : first_case S (os ++ [o]) p n =
  match first_case S os p n with
  | Some b => Some b
  | None => match o with OCase _ p' n' b => if path_eqb p' p && (n' =? n) then Some b else None | _ => None end
  end.
Proof.
  unfold first_case. rewrite find_app. destruct (find _ os) as [x|] eqn:E.
  - apply find_some in E. destruct E as [_ E]. destruct x; try discriminate. reflexivity.
  - cbn. destruct o; try reflexivity. destruct (path_eqb p0 p && (n0 =? n)); reflexivity.
Qed.

Lemma case_names_snoc os o p : case_names S (os ++ [o]) p =
  case_names S os p ++ match o with OCase _ p' n _ => if path_eqb p' p then [n] else [] | _ => [] end.
Proof. unfold case_names. rewrite flat_map_app. cbn. rewrite app_nil_r. reflexivity. Qed.

Lemma steps_app os os' w : steps S (os ++ os') w = (let! w := steps S os w in steps S os' w).
Proof.
  revert w. induction os as [|o os IH]; intros w; [reflexivity|]. cbn [app steps]. destruct (step S o w); cbn [obind]; auto.
Qed.

Definition handles (s : suite) : list (path * name) := map fst (listing S [] s).

Record inv (os : list (op S)) (w : world) : Prop := mkInv {
  i_wf : wf (w_root S w);
  i_names : forall p, map fst (cases_at (w_root S w) p) = firsts [] (case_names S os p);
  i_first : forall p n b, In (n, b) (cases_at (w_root S w) p) <-> first_case S os p n = Some b;
  i_owners : forall x, In x (w_results S w) -> In (fst x) (handles (w_root S w));
  i_active : forall h, w_active S w = Some h -> In h (handles (w_root S w)) }.

Lemma handles_in s h : wf s -> In h (handles s) <-> In (snd h) (map fst (cases_at s (fst h))).
Proof.
  intros W. unfold handles. rewrite !in_map_iff. split.
  - intros [[h' b] [<- H]]. cbn. apply listing_in in H; [|exact W]. exists (snd h', b). auto.
  - intros [[n b] [E H]]. cbn in E. subst n. exists (h, b). split; [reflexivity|]. apply listing_in; assumption.
Qed.

Lemma run_spec w :
  match session S (listing S [] (w_root S w)) (w_stop S w) (w_user S w) with
  | inl (tr, (st, u)) =>
      exists w', run S w = Done w' /\ w_root S w' = w_root S w /\ w_user S w' = u /\ w_stop S w' = st /\
        w_results S w' = w_results S w ++ failures tr /\
        w_active S w' = match rev tr with [] => w_active S w | x :: _ => Some (fst x) end /\
        w_sinks S w' = map (fun s => s ++ [LText started] ++
            report (length (listing S [] (w_root S w))) 1 [] tr ++
            (if st then [LStopped] else []) ++ [LTotal (suite_failures S w' [] (w_root S w))]) (w_sinks S w)
  | inr e => run S w = Throw e
  end.
Proof.
  unfold run. cbv zeta. rewrite run_suite_list, (num_cases_listing (w_root S w) []).
  match goal with |- context [run_list (listing S [] (w_root S ?x)) _] => set (w0 := x) end.
  change (w_root S w0) with (w_root S w).
  assert (G : match session S (listing S [] (w_root S w)) (w_stop S w) (w_user S w) with
    | inl (tr, (st, u)) => exists act prev, run_list (listing S [] (w_root S w)) w0 =
        Done (mkWorld S (w_root S w) u st act (w_results S w ++ failures tr) (length (listing S [] (w_root S w)))
                (length tr) (10 * length tr / length (listing S [] (w_root S w)) + 1) prev
                (map (fun s => s ++ report (length (listing S [] (w_root S w))) 1 [] tr) (w_sinks S w0)))
        /\ act = match rev tr with [] => w_active S w | x :: _ => Some (fst x) end
    | inr e => run_list (listing S [] (w_root S w)) w0 = Throw e end).
  { destruct (listing S [] (w_root S w)) as [|c cs] eqn:El.
    - cbn [session]. exists (w_active S w), []. split; [|reflexivity]. cbn [run_list failures flat_map report length].
      rewrite app_nil_r, map_app_nil. reflexivity.
    - assert (Hz : w_next S w0 = (10 * 0 / w_ncases S w0 + 1)%nat).
      { cbn [w0 w_next w_ncases]. rewrite Nat.mul_0_r, Nat.div_0_l by (cbn; lia). reflexivity. }
      assert (Hn : (0 < w_ncases S w0)%nat) by (cbn; lia).
      pose proof (run_list_session (c :: cs) w0 0 Hn eq_refl Hz) as H.
      exact H. }
  destruct (session S (listing S [] (w_root S w)) (w_stop S w) (w_user S w)) as [[tr [st u]]|e].
  - destruct G as [act [prev [G Ha]]]. rewrite G. cbn [obind]. eexists. split; [reflexivity|].
    unfold show_summary, write. cbn [w_root w_user w_stop w_results w_active w_sinks].
    repeat (split; [reflexivity|]). split; [exact Ha|].
    unfold w0. cbn [write w_sinks]. rewrite !map_app_app. apply map_lines_ext. rewrite <- ?app_assoc. cbn [app].
    do 3 f_equal. f_equal. f_equal. rewrite !suite_failures_sum. reflexivity.
  - rewrite G. reflexivity.
Qed.

Lemma session_handles cs : forall st u tr x, session S cs st u = inl (tr, x) -> exists rest, map fst cs = map fst tr ++ rest.
Proof.
  induction cs as [|[h b] cs IH]; intros st u tr x E; cbn [session] in E.
  - injection E as <- _. exists []. reflexivity.
  - destruct st; [injection E as <- _; eexists; reflexivity|].
    destruct (play S b false u) as [[evs [st' u']]|]; [|discriminate].
    destruct (session S cs st' u') as [[tr' y]|] eqn:Es; [|discriminate]. injection E as <- _.
    destruct (IH _ _ _ _ Es) as [rest Hr]. exists rest. cbn. rewrite Hr. reflexivity.
Qed.

Lemma failures_owner tr x : In x (failures tr) -> In (fst x) (map fst tr).
Proof.
  intros H. apply in_flat_map in H. destruct H as [y [Hy H]]. apply in_map_iff in H. destruct H as [f [<- _]]. cbn. apply in_map, Hy.
Qed.

Lemma step_inv os w o w' : inv os w -> step S o w = Done w' -> inv (os ++ [o]) w'.
Proof.
  intros I E. destruct o as [p n|p n b| | |lv l ev|m]; cbn [step] in E.
  - destruct (at_path S p (add_suite S n) (w_root S w)) as [r|] eqn:Ea; [|discriminate]. injection E as <-.
    assert (Wr : wf r) by (apply (at_path_wf p _ (add_suite_wf n) _ _ (i_wf _ _ I) Ea)).
    assert (Hh : forall h, In h (handles (w_root S w)) -> In h (handles r)).
    { intros h. rewrite !handles_in by (exact Wr || apply (i_wf _ _ I)). rewrite (add_suite_at _ _ _ _ Ea). auto. }
    split; cbn [set_root w_root w_results w_active].
    + exact Wr.
    + intros q. rewrite (add_suite_at _ _ _ _ Ea), case_names_snoc, app_nil_r. apply (i_names _ _ I).
    + intros q m b. rewrite (add_suite_at _ _ _ _ Ea), first_case_snoc. rewrite (i_first _ _ I). destruct (first_case S os q m); split; congruence.
    + intros x Hx. apply Hh, (i_owners _ _ I), Hx.
    + intros h Hx. apply Hh, (i_active _ _ I), Hx.
  - destruct (at_path S p (add_case S n b) (w_root S w)) as [r|] eqn:Ea; [|discriminate]. injection E as <-.
    assert (Wr : wf r) by (apply (at_path_wf p _ (add_case_wf n b) _ _ (i_wf _ _ I) Ea)).
    assert (Hh : forall h, In h (handles (w_root S w)) -> In h (handles r)).
    { intros h. rewrite !handles_in by (exact Wr || apply (i_wf _ _ I)). rewrite (add_case_at _ _ _ _ _ Ea).
      destruct (path_eqb p (fst h)); [|auto]. unfold add_name. destruct (existsb (fun x => fst x =? n) _); [auto|].
      rewrite map_app, in_app_iff. auto. }
    split; cbn [set_root w_root w_results w_active].
    + exact Wr.
    + intros q. rewrite (add_case_at _ _ _ _ _ Ea), case_names_snoc. destruct (path_eqb p q) eqn:Ep.
      * rewrite firsts_snoc, <- (i_names _ _ I). cbn [app]. unfold add_name.
        replace (existsb (N.eqb n) (case_names S os q)) with (existsb (fun x => fst x =? n) (cases_at (w_root S w) q)).
        -- destruct (existsb (fun x => fst x =? n) (cases_at (w_root S w) q)); [rewrite app_nil_r; reflexivity|]. rewrite map_app. reflexivity.
        -- apply Bool.eq_iff_eq_true. rewrite existsb_name, existsb_eqb, (i_names _ _ I), firsts_in. cbn. tauto.
      * rewrite app_nil_r. apply (i_names _ _ I).
    + intros q m b'. rewrite (add_case_at _ _ _ _ _ Ea), first_case_snoc. destruct (path_eqb p q) eqn:Ep; cbn [andb].
      * unfold add_name. destruct (existsb (fun x => fst x =? n) (cases_at (w_root S w) q)) eqn:Ex.
        -- rewrite (i_first _ _ I). destruct (first_case S os q m) as [b0|] eqn:Ef; [reflexivity|].
           destruct (N.eqb_spec n m) as [->|Hn]; [|split; congruence].
           apply existsb_name, in_map_iff in Ex. destruct Ex as [[m' b1] [Em Hb]]. cbn in Em. subst m'.
           apply (i_first _ _ I) in Hb. congruence.
        -- rewrite in_app_iff. cbn. rewrite (i_first _ _ I). apply existsb_name_false in Ex.
           destruct (first_case S os q m) as [b0|] eqn:Ef.
           ++ split; [|auto]. intros [H|[H|[]]]; [exact H|]. injection H as -> <-. exfalso. apply Ex.
              apply (i_first _ _ I) in Ef. apply in_map_iff. exists (m, b0). auto.
           ++ destruct (N.eqb_spec n m) as [->|Hn].
              ** split; [intros [H|[H|[]]]; congruence|]. intros H. right. left. congruence.
              ** split; [intros [H|[H|[]]]; congruence|discriminate].
      * rewrite (i_first _ _ I). destruct (first_case S os q m); split; congruence.
    + intros x Hx. apply Hh, (i_owners _ _ I), Hx.
    + intros h Hx. apply Hh, (i_active _ _ I), Hx.
  - injection E as <-. destruct I as [I1 I2 I3 I4 I5]. split; cbn [w_root w_results w_active]; try assumption.
    + intros q. rewrite case_names_snoc, app_nil_r. apply I2.
    + intros q m b. rewrite I3, first_case_snoc. destruct (first_case S os q m); split; congruence.
  - pose proof (run_spec w) as R.
    destruct (session S (listing S [] (w_root S w)) (w_stop S w) (w_user S w)) as [[tr [st u]]|e] eqn:Es; [|rewrite R in E; discriminate].
    destruct R as (w1 & R & R1 & R2 & R3 & R4 & R5 & _). rewrite R in E. injection E as <-.
    destruct (session_handles _ _ _ _ _ Es) as [rest Hr]. destruct I as [I1 I2 I3 I4 I5]. split; rewrite ?R1, ?R4, ?R5; try assumption.
    + intros q. rewrite case_names_snoc, app_nil_r. apply I2.
    + intros q m b. rewrite I3, first_case_snoc. destruct (first_case S os q m); split; congruence.
    + intros x Hx. apply in_app_or in Hx. destruct Hx as [Hx|Hx]; [apply I4, Hx|]. unfold handles. rewrite Hr. apply in_or_app. left. apply failures_owner, Hx.
    + intros h Hh. destruct (rev tr) as [|x r] eqn:Er; [apply I5, Hh|]. injection Hh as <-. unfold handles. rewrite Hr. apply in_or_app. left.
      apply in_map. apply in_rev. rewrite Er. left. reflexivity.
  - unfold check in E. destruct I as [I1 I2 I3 I4 I5].
    assert (G : inv os w').
    { destruct (w_stop S w); [injection E as <-; split; assumption|].
      destruct (ev (w_user S w)) as [ok u]. destruct ok; [injection E as <-; split; assumption|].
      unfold commit in E. cbn [set_user w_active] in E. destruct (w_active S w) as [[p n]|] eqn:Ea; [|discriminate]. injection E as <-.
      assert (Ho : forall x, In x (w_results S w ++ [((p, n), (lv, l))]) -> In (fst x) (handles (w_root S w))).
      { intros x Hx. apply in_app_or in Hx. destruct Hx as [Hx|[<-|[]]]; [apply I4, Hx|]. apply I5. reflexivity. }
      destruct lv; split; try assumption; cbn; intros h Hh; apply I5; congruence. }
    destruct G as [G1 G2 G3 G4 G5]. split; try assumption.
    + intros q. rewrite case_names_snoc, app_nil_r. apply G2.
    + intros q m b. rewrite G3, first_case_snoc. destruct (first_case S os q m); split; congruence.
  - injection E as <-. destruct I as [I1 I2 I3 I4 I5]. split; cbn [write w_root w_results w_active]; try assumption.
    + intros q. rewrite case_names_snoc, app_nil_r. apply I2.
    + intros q m' b. rewrite I3, first_case_snoc. destruct (first_case S os q m'); split; congruence.
Qed.

Lemma init_inv u : inv [] (w_init S u).
Proof.
  split; cbn.
  - repeat constructor.
  - intros [|x p]; reflexivity.
  - intros [|x p] n b; cbn; split; intros H; (contradiction || discriminate).
  - intros x [].
  - discriminate.
Qed.

Lemma steps_inv os : forall os0 w w', inv os0 w -> steps S os w = Done w' -> inv (os0 ++ os) w'.
Proof.
  induction os as [|o os IH]; intros os0 w w' I E; cbn [steps] in E.
  - injection E as <-. rewrite app_nil_r. exact I.
  - destruct (step S o w) as [w1| | |] eqn:Es; try discriminate. cbn [obind] in E.
    replace (os0 ++ o :: os) with ((os0 ++ [o]) ++ os) by (rewrite <- app_assoc; reflexivity).
    apply (IH _ w1); [|exact E]. apply (step_inv _ _ _ _ I Es).
Qed.

Lemma total_failures os w : inv os w -> suite_failures S w [] (w_root S w) = length (w_results S w).
Proof.
  intros I. rewrite suite_failures_sum. unfold case_failures.
  rewrite <- (map_map fst (fun h => length (filter (fun x => owner_eqb (fst x) h) (w_results S w)))).
  apply sum_count; [apply listing_nodup, (i_wf _ _ I)|apply (i_owners _ _ I)].
Qed.

(** ** Stopping *)

Lemma play_stopped b : forall u evs st u', play S b true u = inl (evs, (st, u')) -> st = true /\ Forall unevaluated evs.
Proof.
  induction b as [|e|f k IH|lv l ev k IH|m k IH|k IH]; intros u evs st u' E; cbn [play] in E; try discriminate.
  - injection E as <- <- <-. split; [reflexivity|constructor].
  - eauto.
  - destruct (play S (k u) true u) as [[evs' [st' u1]]|] eqn:Ep; [|discriminate]. injection E as <- <- <-.
    destruct (IH _ _ _ _ _ Ep). split; [assumption|]. constructor; [exact I|assumption].
  - destruct (play S (k u) true u) as [[evs' [st' u1]]|] eqn:Ep; [|discriminate]. injection E as <- <- <-.
    destruct (IH _ _ _ _ _ Ep). split; [assumption|]. constructor; [exact I|assumption].
  - eauto.
Qed.

Lemma play_running b : forall u evs st u', play S b false u = inl (evs, (st, u')) ->
  if st then exists evs1 l evs2, evs = evs1 ++ Evaluated Assert l false :: evs2 /\ Forall calm evs1 /\ Forall unevaluated evs2
  else Forall calm evs.
Proof.
  induction b as [|e|f k IH|lv l ev k IH|m k IH|k IH]; intros u evs st u' E; cbn [play] in E; try discriminate.
  - injection E as <- <- <-. constructor.
  - apply (IH _ _ _ _ _ E).
  - destruct (ev u) as [ok u1]. destruct (match lv with Assert => negb ok | Expect => false end) eqn:El.
    + destruct lv; [discriminate|]. destruct ok; [discriminate|].
      destruct (play S (k u1) true u1) as [[evs' [st' u2]]|] eqn:Ep; [|discriminate]. injection E as <- <- <-.
      destruct (play_stopped _ _ _ _ _ Ep) as [-> H]. exists [], l, evs'. auto.
    + destruct (play S (k u1) false u1) as [[evs' [st' u2]]|] eqn:Ep; [|discriminate]. injection E as <- <- <-.
      assert (C : calm (Evaluated lv l ok)) by (destruct lv, ok; cbn; try exact I; discriminate).
      specialize (IH _ _ _ _ _ Ep). destruct st'.
      * destruct IH as (e1 & l' & e2 & -> & H1 & H2). exists (Evaluated lv l ok :: e1), l', e2. split; [reflexivity|]. split; [constructor; assumption|assumption].
      * constructor; assumption.
  - destruct (play S (k u) false u) as [[evs' [st' u1]]|] eqn:Ep; [|discriminate]. injection E as <- <- <-.
    specialize (IH _ _ _ _ _ Ep). destruct st'.
    + destruct IH as (e1 & l' & e2 & -> & H1 & H2). exists (Said m :: e1), l', e2. split; [reflexivity|]. split; [constructor; [exact I|assumption]|assumption].
    + constructor; [exact I|assumption].
  - apply (IH _ _ _ _ _ E).
Qed.

Lemma session_stops cs : forall u tr st u', session S cs false u = inl (tr, (st, u')) ->
  if st then exists tr0 h evs1 l evs2 rest,
      tr = tr0 ++ [(h, evs1 ++ Evaluated Assert l false :: evs2)] /\ map fst cs = map fst tr ++ rest /\
      Forall (fun x => Forall calm (snd x)) tr0 /\ Forall calm evs1 /\ Forall unevaluated evs2
  else map fst tr = map fst cs /\ Forall (fun x => Forall calm (snd x)) tr.
Proof.
  induction cs as [|[h b] cs IH]; intros u tr st u' E; cbn [session] in E.
  - injection E as <- <- <-. split; [reflexivity|constructor].
  - destruct (play S b false u) as [[evs [st1 u1]]|] eqn:Ep; [|discriminate]. pose proof (play_running _ _ _ _ _ Ep) as P.
    destruct st1.
    + assert (Es : session S cs true u1 = inl ([], (true, u1))) by (destruct cs as [|[? ?] ?]; reflexivity).
      rewrite Es in E. injection E as <- <- <-. destruct P as (e1 & l & e2 & -> & H1 & H2).
      exists [], h, e1, l, e2, (map fst cs). repeat split; auto.
    + destruct (session S cs false u1) as [[tr' [st' u2]]|] eqn:Es; [|discriminate]. injection E as <- <- <-.
      specialize (IH _ _ _ _ Es). destruct st'.
      * destruct IH as (tr0 & h' & e1 & l & e2 & rest & -> & H1 & H2 & H3 & H4).
        exists ((h, evs) :: tr0), h', e1, l, e2, rest. repeat split; auto.
        cbn. rewrite H1. reflexivity.
      * destruct IH as [H1 H2]. split; [cbn; rewrite H1; reflexivity|constructor; assumption].
Qed.
End P.

(** ** Checks *)

Lemma Qltb_lt x y : negb (Qle_bool y x) = true <-> (x < y)%Q.
Proof.
  rewrite Bool.negb_true_iff. split; intros H.
  - apply Qnot_le_lt. intros C. apply Qle_bool_iff in C. congruence.
  - destruct (Qle_bool y x) eqn:E; [|reflexivity]. apply Qle_bool_iff in E. exfalso. apply (Qlt_not_le _ _ H E).
Qed.

Lemma vlt_spec a b x y : same_type a b -> number a = Some x -> number b = Some y -> vlt a b = true <-> (x < y)%Q.
Proof.
  destruct a as [w z|w n|q], b as [w' z'|w' n'|q']; cbn; try contradiction; intros _ Ha Hb.
  - injection Ha as <-. injection Hb as <-. rewrite Z.ltb_lt, <- Zlt_Qlt. reflexivity.
  - injection Ha as <-. injection Hb as <-. rewrite N.ltb_lt, <- Zlt_Qlt. lia.
  - subst. apply Qltb_lt.
Qed.

Lemma veq_spec a b x y : same_type a b -> number a = Some x -> number b = Some y -> veq a b = true <-> (x == y)%Q.
Proof.
  destruct a as [w z|w n|q], b as [w' z'|w' n'|q']; cbn; try contradiction; intros _ Ha Hb.
  - injection Ha as <-. injection Hb as <-. rewrite Z.eqb_eq, inject_Z_injective. reflexivity.
  - injection Ha as <-. injection Hb as <-. rewrite N.eqb_eq, inject_Z_injective. lia.
  - subst. apply Qeq_bool_iff.
Qed.

Lemma same_sym a b : same_type a b -> same_type b a.
Proof. destruct a, b; cbn; auto. Qed.

Lemma compare_spec t a l x y : same_type a l -> number a = Some x -> number l = Some y ->
  compare t a l = true <-> relation t x y.
Proof.
  intros Hs Ha Hl. pose proof (vlt_spec a l x y Hs Ha Hl) as L1. pose proof (vlt_spec l a y x (same_sym _ _ Hs) Hl Ha) as L2.
  pose proof (veq_spec a l x y Hs Ha Hl) as E.
  destruct t; cbn [compare relation].
  - exact E.
  - rewrite Bool.negb_true_iff. rewrite <- E. destruct (veq a l); split; congruence.
  - exact L1.
  - rewrite Bool.orb_true_iff, L1, E. rewrite Qle_lteq. reflexivity.
  - exact L2.
  - rewrite Bool.orb_true_iff, L2, E. rewrite Qle_lteq. split; (intros [H|H]; [left; exact H|right; symmetry; exact H]).
Qed.

Lemma vsub_spec a b x y d : signed a -> same_type a b -> number a = Some x -> number b = Some y -> vsub a b = Done d ->
  same_type a d /\ exists z, number d = Some z /\ (z == x - y)%Q.
Proof.
  destruct a as [w z|w n|q], b as [w' z'|w' n'|q']; cbn; try contradiction; intros _ Hs Ha Hb E.
  - injection Ha as <-. injection Hb as <-. unfold as_int in E. destruct (_ && _); [|discriminate]. injection E as <-.
    split; [reflexivity|]. eexists. split; [reflexivity|]. unfold Zminus. rewrite inject_Z_plus, inject_Z_opp. reflexivity.
  - subst. injection E as <-. split; [exact I|]. eexists. split; reflexivity.
Qed.

Lemma close_abs_spec a l tol x y t b : signed a -> same_type a l -> same_type a tol ->
  number a = Some x -> number l = Some y -> number tol = Some t ->
  close_abs a l tol = Done b -> b = true <-> (x - y <= t /\ y - x <= t)%Q.
Proof.
  intros Hg Hl Ht Na Nl Nt E. unfold close_abs in E.
  destruct (vsub a l) as [d1| | |] eqn:E1; try discriminate. cbn [obind orb_o] in E.
  destruct (vsub_spec a l x y d1 Hg Hl Na Nl E1) as [T1 [z1 [M1 Z1]]].
  assert (Tt1 : same_type tol d1) by (destruct a, tol, d1; cbn in *; try contradiction; congruence).
  pose proof (vlt_spec tol d1 t z1 Tt1 Nt M1) as V1.
  destruct (vlt tol d1).
  - cbn in E. injection E as <-. split; [discriminate|]. intros [H _]. assert (L : (t < z1)%Q) by tauto. rewrite Z1 in L.
    exfalso. apply (Qlt_not_le _ _ L H).
  - destruct (vsub l a) as [d2| | |] eqn:E2; try discriminate. cbn [obind] in E.
    assert (Hgl : signed l) by (destruct a, l; cbn in *; try contradiction; auto).
    destruct (vsub_spec l a y x d2 Hgl (same_sym _ _ Hl) Nl Na E2) as [T2 [z2 [M2 Z2]]].
    assert (Tt2 : same_type tol d2) by (destruct a, l, tol, d2; cbn in *; try contradiction; congruence).
    pose proof (vlt_spec tol d2 t z2 Tt2 Nt M2) as V2. injection E as <-.
    assert (H1 : (x - y <= t)%Q).
    { rewrite <- Z1. apply Qnot_lt_le. intros C. apply V1 in C. discriminate. }
    destruct (vlt tol d2); cbn.
    + split; [discriminate|]. intros [_ H]. assert (L : (t < z2)%Q) by tauto. rewrite Z2 in L. exfalso. apply (Qlt_not_le _ _ L H).
    + split; [|reflexivity]. intros _. split; [exact H1|]. rewrite <- Z2. apply Qnot_lt_le. intros C. apply V2 in C. discriminate.
Qed.

Lemma vmul_spec a b x y d : signed a -> same_type a b -> number a = Some x -> number b = Some y -> vmul a b = Done d ->
  same_type a d /\ exists z, number d = Some z /\ (z == x * y)%Q.
Proof.
  destruct a as [w z|w n|q], b as [w' z'|w' n'|q']; cbn; try contradiction; intros _ Hs Ha Hb E.
  - injection Ha as <-. injection Hb as <-. unfold as_int in E. destruct (_ && _); [|discriminate]. injection E as <-.
    split; [reflexivity|]. eexists. split; [reflexivity|]. rewrite inject_Z_mult. reflexivity.
  - subst. injection E as <-. split; [exact I|]. eexists. split; reflexivity.
Qed.

Lemma vneg_spec a x d : signed a -> number a = Some x -> vneg a = Done d ->
  same_type a d /\ exists z, number d = Some z /\ (z == - x)%Q.
Proof.
  destruct a as [w z|w n|q]; cbn; try contradiction; intros _ Ha E.
  - injection Ha as <-. unfold as_int in E. destruct (_ && _); [|discriminate]. injection E as <-.
    split; [reflexivity|]. eexists. split; [reflexivity|]. rewrite inject_Z_opp. reflexivity.
  - subst. injection E as <-. split; [exact I|]. eexists. split; reflexivity.
Qed.

Lemma vneg_p_spec a x : signed a -> number a = Some x -> vneg_p a = true <-> (x < 0)%Q.
Proof.
  destruct a as [w z|w n|q]; cbn; try contradiction; intros _ Ha.
  - injection Ha as <-. rewrite Z.ltb_lt. change 0%Q with (inject_Z 0). rewrite <- Zlt_Qlt. reflexivity.
  - subst. apply Qltb_lt.
Qed.

Lemma same_trans a b c : same_type a b -> same_type b c -> same_type a c.
Proof. destruct a, b, c; cbn; try contradiction; congruence. Qed.

Lemma signed_same a b : signed a -> same_type a b -> signed b.
Proof. destruct a, b; cbn; auto. Qed.

Lemma close_rel_spec a l tol x y t b : signed a -> same_type a l -> same_type a tol ->
  number a = Some x -> number l = Some y -> number tol = Some t ->
  close_rel a l tol = Done b -> b = true <-> (x - y <= Qabs (y * t) /\ y - x <= Qabs (y * t))%Q.
Proof.
  intros Hg Hl Ht Na Nl Nt E. unfold close_rel in E.
  assert (Gl : signed l) by exact (signed_same _ _ Hg Hl).
  destruct (vmul l tol) as [m| | |] eqn:Em; try discriminate. cbn [obind] in E.
  assert (Hlt : same_type l tol) by exact (same_trans _ _ _ (same_sym _ _ Hl) Ht).
  destruct (vmul_spec l tol y t m Gl Hlt Nl Nt Em) as [Tm [zm [Mm Zm]]].
  assert (Gm : signed m) by exact (signed_same _ _ Gl Tm).
  pose proof (vneg_p_spec m zm Gm Mm) as V. destruct (vneg_p m).
  - destruct (vneg m) as [m'| | |] eqn:En; try discriminate. cbn [obind] in E.
    destruct (vneg_spec m zm m' Gm Mm En) as [Tn [zn [Mn Zn]]].
    assert (Ham : same_type a m') by exact (same_trans _ _ _ Hl (same_trans _ _ _ Tm Tn)).
    rewrite (close_abs_spec a l m' x y zn b Hg Hl Ham Na Nl Mn E).
    assert (L : (y * t <= 0)%Q) by (rewrite <- Zm; apply Qlt_le_weak, V; reflexivity).
    rewrite (Qabs_neg _ L), Zn, Zm. reflexivity.
  - cbn [obind] in E. assert (Ham : same_type a m) by exact (same_trans _ _ _ Hl Tm).
    rewrite (close_abs_spec a l m x y zm b Hg Hl Ham Na Nl Mm E).
    assert (L : (0 <= y * t)%Q) by (rewrite <- Zm; apply Qnot_lt_le; intros C; apply V in C; discriminate).
    rewrite (Qabs_pos _ L), Zm. reflexivity.
Qed.

Lemma close_unsigned w a l t : 0 < w -> a < 2 ^ w -> l < 2 ^ w -> t < 2 ^ (w - 1) ->
  close_abs (VUns w a) (VUns w l) (VUns w t) = Done (a =? l).
Proof.
  intros Hw Ha Hl Ht. unfold close_abs, orb_o, vsub, obind, vlt, wrap.
  assert (E : 2 ^ w = 2 * 2 ^ (w - 1)) by (replace w with (N.succ (w - 1)) at 1 by lia; apply N.pow_succ_r').
  assert (M : forall x y, x < 2 ^ w -> y < 2 ^ w -> (x + (2 ^ w - y)) mod 2 ^ w = if y <=? x then x - y else x + (2 ^ w - y)).
  { intros x y Hx Hy. destruct (N.leb_spec y x).
    - replace (x + (2 ^ w - y)) with (x - y + 1 * 2 ^ w) by lia. rewrite N.mod_add by lia. apply N.mod_small. lia.
    - apply N.mod_small. lia. }
  rewrite !M by assumption.
  destruct (N.leb_spec l a), (N.leb_spec a l), (N.eqb_spec a l); try lia;
    repeat match goal with |- context [?x <? ?y] => destruct (N.ltb_spec x y); try lia end; reflexivity.
Qed.
