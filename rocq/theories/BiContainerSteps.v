(** Every statement of a program does what the specification says. *)
From Coq Require Import ZifyBool ZifyNat ZifyN.
From Verif Require Import Base BaseProofs BiContainer BiContainerSpec BiContainerMatrix BiContainerMemory
  BiContainerProofs.

Section Steps.
Variable V : Type.
Variable v0 : V.
Variable pod : bool.
Notation heap := (heap V).
Notation holds := (holds V pod).
Notation block := (block V).
Notation aobj := (aobj V).
Notation world := (world V).
Notation shape := (shape V).
Notation alloc := (alloc V).
Notation rep := (rep V pod).
Notation agree := (agree V).
Notation R := (R V pod).
Implicit Types h : heap.
Implicit Types w : world.
Implicit Types a : aobj.
Implicit Types x : obj.

Definition RW w (s : sworld V) : Prop := R (w_heap w) (w_objs w) s.

Definition correct w (s : sworld V) (p : op V) : Prop :=
  match sstep V v0 s p with
  | SOk s' r => exists w', step V v0 pod w p = Done (w', r) /\ RW w' s'
  | SAssert => step V v0 pod w p = AssertFail
  | SAny => True
  end.

Lemma at_cases w s o : RW w s ->
  (exists x a, obj_at w o = Some x /\ aobj_at s o = Some a /\ rep (w_heap w) x a /\
     nth_error (w_objs w) o = Some (Some x) /\ nth_error s o = Some (Some a)) \/
  (obj_at w o = None /\ aobj_at s o = None).
Proof.
  intros [C _]. specialize (C o). unfold obj_at, aobj_at.
  destruct (nth_error (w_objs w) o) as [[x|]|], (nth_error s o) as [[a|]|]; try contradiction.
  - left. exists x, a. repeat split; try reflexivity; apply C.
  - right. split; reflexivity.
  - right. split; reflexivity.
Qed.

Lemma skip_ok w s : RW w s -> exists w', skip w = Done (w', RSkip) /\ RW w' s.
Proof. intros H. exists w. split; [reflexivity|exact H]. Qed.

(** ** Arguments *)

Lemma resolve_ok w s p v : RW w s -> sval s p = Some v ->
  exists c, resolve w p = Done c /\ read_src (w_heap w) c = Done v /\
    forall b off, c = SRef b off -> exists o k x, p = PElem o k /\ nth_error (w_objs w) o = Some (Some x) /\
                                                data_of x = Some b.
Proof.
  intros RR E. destruct p as [y|o k].
  - injection E as ->. exists (SVal v). split; [reflexivity|]. split; [reflexivity|]. discriminate.
  - cbn [sval] in E. cbn [resolve].
    destruct (at_cases w s o RR) as [(x & a & Ex & Ea & P & Nx & Na)|[Ex Ea]]; rewrite Ea in E; [|discriminate].
    rewrite Ex. destruct P as [S H].
    assert (K : (k < count_of x)%N) by (rewrite (count_ok V x a S); apply nth_lt in E; lia).
    destruct (data_of x) as [b|] eqn:D.
    + destruct (N.ltb_spec k (count_of x)); [|lia]. exists (SRef b k). split; [reflexivity|]. split.
      * cbn [read_src]. eapply holds_load; [exact H|exact E].
      * intros b' off [= <- <-]. exists o, k, x. repeat split; assumption.
    + destruct H as [_ H]. rewrite H in E. destruct (N.to_nat k); discriminate E.
Qed.

(** An argument that does not refer to container [o] lies outside its block. *)
Lemma resolve_out w s o x b p v : RW w s -> nth_error (w_objs w) o = Some (Some x) -> data_of x = Some b ->
  sval s p = Some v -> refers o p = false ->
  exists c, resolve w p = Done c /\ reads_out V (w_heap w) b c v.
Proof.
  intros RR E D SV RF. destruct (resolve_ok w s p v RR SV) as (c & RS & RD & OUT).
  exists c. split; [exact RS|]. split; [exact RD|]. intros off ->.
  destruct (OUT b off eq_refl) as (o' & k & y & -> & Ey & Dy). destruct RR as (_ & INJ & _).
  pose proof (INJ _ _ _ _ _ E Ey D Dy) as <-. cbn [refers] in RF. rewrite Nat.eqb_refl in RF. discriminate.
Qed.

Lemma resolve_all_out w s o x b ps vs : RW w s -> nth_error (w_objs w) o = Some (Some x) -> data_of x = Some b ->
  svals s ps = Some vs -> existsb (refers o) ps = false ->
  exists cs, resolve_all w ps = Done cs /\ Forall2 (reads_out V (w_heap w) b) cs vs.
Proof.
  intros RR E D. revert vs. induction ps as [|p ps IH]; intros vs SV RF.
  - injection SV as <-. exists []. split; [reflexivity|constructor].
  - cbn [svals existsb resolve_all] in *. apply Bool.orb_false_iff in RF. destruct RF as [RF RF'].
    destruct (sval s p) as [v|] eqn:Ev; [|discriminate]. destruct (svals s ps) as [vs'|] eqn:Evs; [|discriminate].
    injection SV as <-. destruct (resolve_out w s o x b p v RR E D Ev RF) as (c & RS & RO).
    destruct (IH vs' eq_refl RF') as (cs & RSS & F). rewrite RS, RSS. cbn [obind].
    exists (c :: cs). split; [reflexivity|constructor; assumption].
Qed.

Lemma resolve_all_len w s ps vs : RW w s -> svals s ps = Some vs ->
  exists cs, resolve_all w ps = Done cs /\ length cs = length vs.
Proof.
  intros RR. revert vs. induction ps as [|p ps IH]; intros vs SV.
  - injection SV as <-. exists []. split; reflexivity.
  - cbn [svals resolve_all] in *. destruct (sval s p) as [v|] eqn:Ev; [|discriminate].
    destruct (svals s ps) as [vs'|]; [|discriminate]. injection SV as <-.
    destruct (resolve_ok w s p v RR Ev) as (c & RS & _). destruct (IH vs' eq_refl) as (cs & RSS & L).
    rewrite RS, RSS. cbn [obind]. exists (c :: cs). split; [reflexivity|]. cbn [length]. lia.
Qed.

(** ** Shapes of updates *)

Lemma put_heap_ok w s o x a' h' : RW w s -> nth_error (w_objs w) o = Some (Some x) ->
  agree (w_heap w) h' (data_of x) -> shape x a' -> holds h' (data_of x) (alloc a') (contents a') ->
  RW (put_heap w h') (upd s o (Some a')).
Proof.
  intros RR E A S H. unfold RW, put_heap. cbn [w_heap w_objs].
  rewrite <- (upd_same (w_objs w) o (Some x) E). eapply R_update; [exact RR|exact E|exact A|reflexivity|].
  split; assumption.
Qed.

Lemma put_obj_ok w s o x x' a' h' : RW w s -> nth_error (w_objs w) o = Some (Some x) ->
  agree (w_heap w) h' (data_of x) -> data_of x' = data_of x -> shape x' a' ->
  holds h' (data_of x) (alloc a') (contents a') ->
  exists w', Done (put_obj w o (h', x')) = Done (w', @RUnit V) /\ RW w' (upd s o (Some a')).
Proof.
  intros RR E A D S H. eexists. split; [reflexivity|]. unfold RW. cbn [w_heap w_objs fst snd].
  eapply R_update; [exact RR|exact E|exact A|exact D|]. split; [exact S|]. rewrite D. exact H.
Qed.

Lemma add_obj_ok w s h' x a : RW w s -> fresh V (w_heap w) h' (data_of x) -> rep h' x a ->
  exists w', Done (add_obj w (h', x)) = Done (w', @RUnit V) /\ RW w' (s ++ [Some a]).
Proof.
  intros RR F P. eexists. split; [reflexivity|]. unfold RW. cbn [w_heap w_objs fst snd].
  eapply R_new; eassumption.
Qed.

Lemma store_holds h d n l k v : holds h d n l -> N.to_nat k < length l ->
  exists h', store V pod h d k v = Done h' /\ agree h h' d /\ holds h' d n (upd l (N.to_nat k) v).
Proof.
  intros H K. destruct d as [b|].
  - destruct H as (rest & B & L & P). rewrite (store_rest_ok V pod h b l rest k v B K).
    eexists. split; [reflexivity|]. split; [apply agree_upd|]. exists rest. split; [eapply block_upd, B|].
    rewrite upd_length. split; assumption.
  - destruct H as [_ ->]. cbn [length] in K. lia.
Qed.

Lemma fill_holds h d l off stride n c v : holds h d (length l) l ->
  (forall t, t < n -> N.to_nat off + t * N.to_nat stride < length l) -> read_src h c = Done v ->
  exists h', fill_loop V pod h d off stride n c = Done h' /\ agree h h' d /\
             holds h' d (length l) (fillp V l (N.to_nat off) (N.to_nat stride) n v).
Proof.
  intros H K RD. destruct d as [b|].
  - destruct H as (rest & B & L & P & NZ). assert (rest = []) as -> by (destruct rest; [reflexivity|cbn [length] in L; lia]).
    rewrite app_nil_r in B. rewrite (fill_loop_ok V pod n h b l off stride c v B K RD).
    eexists. split; [reflexivity|]. split; [apply agree_upd|]. exists []. rewrite app_nil_r.
    split; [eapply block_upd, B|]. rewrite fillp_length. split; [exact L|]. split; [exact P|exact NZ].
  - destruct H as [L ->]. destruct n as [|n].
    + exists h. split; [reflexivity|]. split; [apply agree_refl|]. split; reflexivity.
    + specialize (K 0 ltac:(lia)). cbn [length] in K. lia.
Qed.

(** What [assign] destroys and what remains. *)
Lemma assign_prep h b cap l n : holds h (Some b) cap l -> n <= cap ->
  exists mid rest, array_destroy V pod h (Some b) 0 (Nat.min (length l) n)
                   = Done (upd h b (Some ([] ++ mid ++ map Live (skipn n l) ++ rest))) /\
    length mid = n /\ (pod = false -> Forall (eq Raw) mid) /\
    n + (length (skipn n l) + length rest) = cap /\ (pod = false -> Forall (eq Raw) rest) /\
    b < length h.
Proof.
  intros (rest & B & L & P & NZ) K. destruct (Nat.le_gt_cases (length l) n) as [G|G].
  - rewrite Nat.min_l by exact G. exists (husk V pod l ++ firstn (n - length l) rest), (skipn (n - length l) rest).
    rewrite (array_destroy_ok V pod l h b [] rest 0 B eq_refl).
    rewrite skipn_all2 by exact G. cbn [map app length]. split; [|split; [|split; [|split; [|split]]]].
    + rewrite <- app_assoc, firstn_skipn. reflexivity.
    + rewrite app_length, husk_length, firstn_length. lia.
    + intros Q. apply Forall_app. split; [apply husk_raw, Q|].
      specialize (P Q). rewrite <- (firstn_skipn (n - length l) rest) in P. apply Forall_app in P. apply P.
    + rewrite skipn_length. lia.
    + intros Q. specialize (P Q). rewrite <- (firstn_skipn (n - length l) rest) in P. apply Forall_app in P. apply P.
    + eapply nth_lt, B.
  - rewrite Nat.min_r by lia. exists (husk V pod (firstn n l)), rest.
    assert (B2 : block h b ([] ++ map Live (firstn n l) ++ map Live (skipn n l) ++ rest)).
    { cbn [app]. rewrite app_assoc, <- map_app, firstn_skipn. exact B. }
    assert (LN : length (firstn n l) = n) by (rewrite firstn_length; lia).
    rewrite <- LN at 1. rewrite (array_destroy_ok V pod (firstn n l) h b [] _ 0 B2 eq_refl).
    split; [reflexivity|]. split; [rewrite husk_length; exact LN|]. split; [apply husk_raw|].
    split; [rewrite skipn_length; lia|]. split; [exact P|]. eapply nth_lt, B.
Qed.

Lemma assign_holds h b cap (l l' : list V) rest : b < length h -> length l' + length rest = cap -> 0 < cap ->
  (pod = false -> Forall (eq Raw) rest) ->
  holds (upd h b (Some (map Live l' ++ rest))) (Some b) cap l'.
Proof.
  intros B L NZ P. exists rest. split; [apply nth_upd_eq, B|]. split; [exact L|]. split; assumption.
Qed.

Lemma list_snoc {A} (l : list A) : l = [] \/ exists l0 y, l = l0 ++ [y].
Proof.
  destruct l as [|y l] using rev_ind; [left; reflexivity|]. right. exists l, y. reflexivity.
Qed.

(** ** One lemma per statement *)

Section One.
Variables (w : world) (s : sworld V).
Hypothesis RR : RW w s.

Ltac look o x a Ex Ea P Nx Na :=
  destruct (at_cases w s o RR) as [(x & a & Ex & Ea & P & Nx & Na)|[Ex Ea]];
  unfold correct; cbn [sstep step]; rewrite ?Ex, ?Ea; [|apply skip_ok, RR].

Lemma new_vec I1 cap : correct w s (ONewVec I1 cap).
Proof.
  unfold correct. cbn [sstep step]. unfold is64. destruct (N.ltb_spec I1 (2 ^ 64)) as [HI|]; [|exact Logic.I].
  destruct (N.ltb_spec cap (2 ^ 64)) as [HC|]; [|exact Logic.I]. cbn [andb snew].
  destruct (vec_init_ok V pod (w_heap w) I1 cap HI HC) as [F P].
  destruct (vec_init (w_heap w) I1 cap) as [h' x]. apply (add_obj_ok w s h' x); assumption.
Qed.

Lemma new_vec_fill I1 cap size p : correct w s (ONewVecFill I1 cap size p).
Proof.
  unfold correct. cbn [sstep step]. destruct (sval s p) as [v|] eqn:SV; [|exact Logic.I]. unfold is64.
  destruct (N.ltb_spec I1 (2 ^ 64)) as [HI|]; [|exact Logic.I].
  destruct (N.ltb_spec cap (2 ^ 64)) as [HC|]; [|exact Logic.I].
  destruct (N.leb_spec size cap) as [HS|]; [|exact Logic.I]. cbn [andb snew].
  destruct (resolve_ok w s p v RR SV) as (c & RS & RD & _). rewrite RS. cbn [obind].
  destruct (vec_init_fill_ok V pod (w_heap w) I1 cap size c v HI HC HS RD) as (h' & x & E & F & P).
  rewrite E. cbn [obind]. apply (add_obj_ok w s h' x); assumption.
Qed.

Lemma new_arr I1 size : correct w s (ONewArr I1 size).
Proof.
  unfold correct. cbn [sstep step]. unfold is64.
  destruct (N.ltb_spec I1 (2 ^ 64)) as [HI|]; [|exact Logic.I].
  destruct (N.ltb_spec size (2 ^ 64)) as [HS|]; [|exact Logic.I]. cbn [andb snew].
  rewrite arr_init_as_fill.
  destruct (arr_init_fill_ok V pod (w_heap w) I1 size (SVal v0) v0 HI HS eq_refl) as (h' & x & E & F & P).
  rewrite E. cbn [obind]. apply (add_obj_ok w s h' x); assumption.
Qed.

Lemma new_arr_fill I1 size p : correct w s (ONewArrFill I1 size p).
Proof.
  unfold correct. cbn [sstep step]. destruct (sval s p) as [v|] eqn:SV; [|exact Logic.I]. unfold is64.
  destruct (N.ltb_spec I1 (2 ^ 64)) as [HI|]; [|exact Logic.I].
  destruct (N.ltb_spec size (2 ^ 64)) as [HS|]; [|exact Logic.I]. cbn [andb snew].
  destruct (resolve_ok w s p v RR SV) as (c & RS & RD & _). rewrite RS. cbn [obind].
  destruct (arr_init_fill_ok V pod (w_heap w) I1 size c v HI HS RD) as (h' & x & E & F & P).
  rewrite E. cbn [obind]. apply (add_obj_ok w s h' x); assumption.
Qed.

Lemma new_mat L I1 J1 r c : correct w s (ONewMat L I1 J1 r c).
Proof.
  unfold correct. cbn [sstep step]. rewrite mat_init_as_fill.
  destruct ((r <=? mat_max)%N && (c <=? mat_max)%N) eqn:RC.
  - unfold is64.
    destruct (N.ltb_spec I1 (2 ^ 64)) as [HI|]; [|exact Logic.I].
    destruct (N.ltb_spec J1 (2 ^ 64)) as [HJ|]; [|exact Logic.I].
    destruct (N.ltb_spec (r * c) (2 ^ 64)) as [HM|]; [|exact Logic.I]. cbn [andb snew].
    apply Bool.andb_true_iff in RC. destruct RC as [HR HC]. apply N.leb_le in HR, HC.
    destruct (mat_init_fill_ok V pod (w_heap w) L I1 J1 r c (SVal v0) v0 HI HJ HR HC HM eq_refl) as (h' & x & E & F & P).
    rewrite E. cbn [obind]. apply (add_obj_ok w s h' x); assumption.
  - unfold mat_init_fill. rewrite RC. reflexivity.
Qed.

Lemma new_mat_fill L I1 J1 r c p : correct w s (ONewMatFill L I1 J1 r c p).
Proof.
  unfold correct. cbn [sstep step]. destruct (sval s p) as [v|] eqn:SV; [|exact Logic.I].
  destruct (resolve_ok w s p v RR SV) as (q & RS & RD & _). rewrite RS. cbn [obind].
  destruct ((r <=? mat_max)%N && (c <=? mat_max)%N) eqn:RC.
  - unfold is64.
    destruct (N.ltb_spec I1 (2 ^ 64)) as [HI|]; [|exact Logic.I].
    destruct (N.ltb_spec J1 (2 ^ 64)) as [HJ|]; [|exact Logic.I].
    destruct (N.ltb_spec (r * c) (2 ^ 64)) as [HM|]; [|exact Logic.I]. cbn [andb snew].
    apply Bool.andb_true_iff in RC. destruct RC as [HR HC]. apply N.leb_le in HR, HC.
    destruct (mat_init_fill_ok V pod (w_heap w) L I1 J1 r c q v HI HJ HR HC HM RD) as (h' & x & E & F & P).
    rewrite E. cbn [obind]. apply (add_obj_ok w s h' x); assumption.
  - unfold mat_init_fill. rewrite RC. reflexivity.
Qed.

Lemma copy_step o : correct w s (OCopy o).
Proof.
  look o x a Ex Ea P Nx Na. destruct (copy_ok V pod (w_heap w) x a P) as (h' & x' & E & F & P').
  rewrite E. cbn [obind snew]. apply (add_obj_ok w s h' x'); assumption.
Qed.

Lemma empty_rep h x a : rep h x a -> rep h (empty_obj x) (aempty a) /\ data_of (empty_obj x) = None.
Proof.
  intros [S _]. destruct x, a; try contradiction; cbn [empty_obj aempty data_of]; (split; [split|reflexivity]).
  - cbn [shape length] in *. destruct S as (-> & _ & _ & _ & HI & _). repeat split; lia.
  - split; reflexivity.
  - cbn [shape length] in *. destruct S as (-> & _ & HI & _). repeat split; lia.
  - split; reflexivity.
  - cbn [shape] in *. destruct S as (-> & -> & -> & _ & _ & _ & HI & HJ & _).
    repeat split; try assumption; try (unfold mat_max; lia). constructor.
  - cbn [data_of alloc contents]. split; [|destruct L0; reflexivity]. destruct L0; reflexivity.
Qed.

Lemma move_step o : correct w s (OMove o).
Proof.
  look o x a Ex Ea P Nx Na. cbn [snew]. eexists. split; [reflexivity|]. unfold RW. cbn [w_heap w_objs].
  destruct (empty_rep (w_heap w) x a P) as [PE DE].
  pose proof (R_new V pod (w_heap w) (w_heap w) (w_objs w) s (empty_obj x) (aempty a) RR
                (or_introl (conj DE eq_refl)) PE) as RN.
  pose proof (R_len V pod _ _ _ RR) as LEN.
  assert (Lo : o < length (w_objs w)) by (eapply nth_lt, Nx).
  pose proof (R_swap V pod _ _ _ o (length (w_objs w)) x (empty_obj x) a (aempty a) RN) as SW.
  rewrite (nth_error_app1 (w_objs w)), (nth_error_app1 s) in SW by lia.
  rewrite (nth_error_app2 (w_objs w)), (nth_error_app2 s) in SW by lia.
  rewrite LEN, Nat.sub_diag in SW. cbn [nth_error] in SW.
  specialize (SW Nx eq_refl Na eq_refl).
  rewrite upd_app in SW by lia. rewrite (upd_app s) in SW by lia.
  rewrite <- LEN in SW at 1. rewrite <- (upd_length (w_objs w) o (Some (empty_obj x))) in SW at 1.
  rewrite upd_last in SW. rewrite <- (upd_length s o (Some (aempty a))) in SW. rewrite upd_last in SW. exact SW.
Qed.

Lemma same_type_ok h x y a b : rep h x a -> rep h y b -> same_type x y = asame_type a b.
Proof.
  intros [S _] [S' _]. destruct x, a; try contradiction; destruct y, b; try contradiction; try reflexivity;
    cbn [shape same_type asame_type] in *.
  - destruct S as (-> & _), S' as (-> & _). reflexivity.
  - destruct S as (-> & _), S' as (-> & _). reflexivity.
  - destruct S as (-> & -> & -> & _), S' as (-> & -> & -> & _). destruct L0, L2; reflexivity.
Qed.

Lemma empty_same x y : same_type x y = true -> empty_obj x = empty_obj y.
Proof.
  destruct x, y; cbn [same_type empty_obj]; try discriminate.
  - intros E. apply N.eqb_eq in E. congruence.
  - intros E. apply N.eqb_eq in E. congruence.
  - intros E. apply Bool.andb_true_iff in E. destruct E as [EL E]. apply Bool.andb_true_iff in E.
    destruct E as [EI EJ]. apply N.eqb_eq in EI, EJ. destruct L, L0; try discriminate; congruence.
Qed.

Lemma assign_step dst from : correct w s (OAssign dst from).
Proof.
  look dst x a Ex Ea P Nx Na.
  destruct (at_cases w s from RR) as [(y & b & Ey & Eb & Q & Ny & Nb)|[Ey Eb]]; rewrite Ey, Eb; [|apply skip_ok, RR].
  rewrite (same_type_ok _ x y a b P Q). destruct (asame_type a b); [|apply skip_ok, RR].
  cbn [sput]. destruct (Nat.eqb_spec dst from) as [->|N].
  - rewrite (upd_same s from (Some b) Nb). exists w. split; [reflexivity|exact RR].
  - destruct (destroy_ok V pod (w_heap w) x a P) as (h1 & E1 & A1 & G1). rewrite E1. cbn [obind].
    pose proof (R_remove V pod _ h1 _ _ dst x RR Nx A1 G1) as R1.
    assert (Q1 : rep h1 y b).
    { destruct (R_cell V pod h1 _ _ from y R1) as (b' & Eb' & Q').
      - rewrite nth_upd_neq by congruence. exact Ny.
      - rewrite nth_upd_neq in Eb' by congruence. rewrite Nb in Eb'. injection Eb' as <-. exact Q'. }
    destruct (copy_ok V pod h1 y b Q1) as (h2 & x2 & E2 & F2 & P2). rewrite E2. cbn [obind].
    eexists. split; [reflexivity|]. unfold RW. cbn [w_heap w_objs fst snd].
    pose proof (R_place V pod h1 h2 _ _ dst x2 b R1) as RP. rewrite !upd_upd in RP. apply RP; [|exact F2|exact P2].
    apply nth_upd_eq. eapply nth_lt, Nx.
Qed.

Lemma move_assign_step dst from : correct w s (OMoveAssign dst from).
Proof.
  look dst x a Ex Ea P Nx Na.
  destruct (at_cases w s from RR) as [(y & b & Ey & Eb & Q & Ny & Nb)|[Ey Eb]]; rewrite Ey, Eb; [|apply skip_ok, RR].
  rewrite <- (same_type_ok _ x y a b P Q). destruct (same_type x y) eqn:ST; [|apply skip_ok, RR].
  destruct (Nat.eqb_spec dst from) as [->|N].
  - exists w. split; [reflexivity|exact RR].
  - destruct (destroy_ok V pod (w_heap w) x a P) as (h1 & E1 & A1 & G1). rewrite E1. cbn [obind sput].
    eexists. split; [reflexivity|]. unfold RW. cbn [w_heap w_objs fst snd].
    pose proof (R_remove V pod _ h1 _ _ dst x RR Nx A1 G1) as R1.
    assert (Q1 : rep h1 y b).
    { destruct (R_cell V pod h1 _ _ from y R1) as (b' & Eb' & Q').
      - rewrite nth_upd_neq by congruence. exact Ny.
      - rewrite nth_upd_neq in Eb' by congruence. rewrite Nb in Eb'. injection Eb' as <-. exact Q'. }
    destruct (empty_rep h1 y b Q1) as [PE DE].
    pose proof (R_place V pod h1 h1 _ _ dst (empty_obj y) (aempty b) R1) as RP. rewrite !upd_upd in RP.
    specialize (RP ltac:(apply nth_upd_eq; eapply nth_lt, Nx) (or_introl (conj DE eq_refl)) PE).
    pose proof (R_len V pod _ _ _ RR) as LEN.
    pose proof (R_swap V pod _ _ _ dst from (empty_obj y) y (aempty b) b RP) as SW.
    rewrite (nth_upd_neq (w_objs w) dst from), (nth_upd_neq s dst from) in SW by exact N.
    rewrite !nth_upd_eq in SW by (rewrite <- ?LEN; eapply nth_lt, Nx).
    specialize (SW eq_refl Ny eq_refl Nb). rewrite !upd_upd in SW. rewrite (empty_same x y ST). exact SW.
Qed.

Lemma swap_step i j : correct w s (OSwap i j).
Proof.
  look i x a Ex Ea P Nx Na.
  destruct (at_cases w s j RR) as [(y & b & Ey & Eb & Q & Ny & Nb)|[Ey Eb]]; rewrite Ey, Eb; [|apply skip_ok, RR].
  rewrite <- (same_type_ok _ x y a b P Q). destruct (same_type x y) eqn:ST; [|apply skip_ok, RR].
  cbn [sput]. eexists. split; [reflexivity|]. unfold RW. cbn [w_heap w_objs].
  apply (R_swap V pod); assumption.
Qed.

Lemma destroy_step o : correct w s (ODestroy o).
Proof.
  look o x a Ex Ea P Nx Na. destruct (destroy_ok V pod (w_heap w) x a P) as (h1 & E1 & A1 & G1).
  rewrite E1. cbn [obind]. eexists. split; [reflexivity|]. unfold RW. cbn [w_heap w_objs].
  apply (R_remove V pod _ h1 _ _ o x RR Nx A1 G1).
Qed.

Lemma size_step o : correct w s (OSize o).
Proof.
  look o x a Ex Ea P Nx Na. exists w. split; [|exact RR]. rewrite (count_ok V x a (proj1 P)). reflexivity.
Qed.

Lemma capacity_step o : correct w s (OCapacity o).
Proof.
  look o x a Ex Ea P Nx Na. destruct P as [S _]. destruct x, a; try contradiction; try apply skip_ok, RR.
  destruct S as (_ & -> & _). exists w. split; [reflexivity|exact RR].
Qed.

Lemma read_step x a k (v : V) : rep (w_heap w) x a -> nth_error (contents a) (N.to_nat k) = Some v ->
  load (w_heap w) (data_of x) k = Done v.
Proof. intros [_ H] E. eapply holds_load; eassumption. Qed.

(** The offset computed by [at]. *)
Lemma at_offset_ok x a i : shape x a ->
  at_offset x i =
  match a with
  | AVec I1 _ l => match index I1 (N.of_nat (length l)) i with Some k => Done (N.of_nat k) | None => AssertFail end
  | AArr I1 l => match index I1 (N.of_nat (length l)) i with Some k => Done (N.of_nat k) | None => AssertFail end
  | AMat _ _ _ r c _ => if (i <? r * c)%N then Done i else AssertFail
  end.
Proof.
  intros S. destruct x, a; try contradiction; cbn [shape at_offset] in *.
  - destruct S as (-> & -> & -> & LE & HI & HC). rewrite in_base_index by lia.
    destruct (index base (N.of_nat (length l)) i) as [k|] eqn:E; [|reflexivity].
    apply index_some in E. destruct E as (-> & LE2 & _). f_equal. lia.
  - destruct S as (-> & -> & HI & HS). rewrite in_base_index by lia.
    destruct (index base (N.of_nat (length l)) i) as [k|] eqn:E; [|reflexivity].
    apply index_some in E. destruct E as (-> & LE2 & _). f_equal. lia.
  - destruct S as (-> & -> & -> & -> & -> & W & HI & HJ & HR & HC & HM). rewrite mat_size_ok by exact HM. reflexivity.
Qed.

Lemma get_step o i : correct w s (OGet o i).
Proof.
  look o x a Ex Ea P Nx Na. rewrite (at_offset_ok x a i (proj1 P)). pose proof P as [S H].
  destruct a as [I1 cap l|I1 l|L I1 J1 r c m]; cbn [sread].
  - destruct (index I1 (N.of_nat (length l)) i) as [k|] eqn:E; [|reflexivity]. apply index_some in E. cbn [obind].
    destruct (nth_error l k) as [v|] eqn:F; [|apply nth_error_None in F; lia].
    rewrite (read_step x _ (N.of_nat k) v P) by (rewrite Nat2N.id; exact F). cbn [obind sread].
    exists w. split; [reflexivity|exact RR].
  - destruct (index I1 (N.of_nat (length l)) i) as [k|] eqn:E; [|reflexivity]. apply index_some in E. cbn [obind].
    destruct (nth_error l k) as [v|] eqn:F; [|apply nth_error_None in F; lia].
    rewrite (read_step x _ (N.of_nat k) v P) by (rewrite Nat2N.id; exact F). cbn [obind sread].
    exists w. split; [reflexivity|exact RR].
  - destruct x; try contradiction. destruct S as (-> & -> & -> & -> & -> & W & _).
    pose proof (storage_length V L _ c m W) as SL.
    destruct (N.ltb_spec i (r * c)) as [Hi|Hi].
    + destruct (nth_error (storage L c m) (N.to_nat i)) as [v|] eqn:F; [|apply nth_error_None in F; lia].
      cbn [obind]. rewrite (read_step _ _ i v P F). cbn [obind sread]. exists w. split; [reflexivity|exact RR].
    + assert (F : nth_error (storage L c m) (N.to_nat i) = None) by (apply nth_error_None; lia).
      rewrite F. reflexivity.
Qed.

Lemma cell_in L r c n : (n < r * c)%N ->
  fst (cell_of L r c n) < N.to_nat r /\ snd (cell_of L r c n) < N.to_nat c /\
  N.to_nat n = pos L (N.to_nat r) (N.to_nat c) (fst (cell_of L r c n)) (snd (cell_of L r c n)).
Proof.
  intros H. pose proof (cell_pos L r c n H) as E. destruct (cell_of L r c n) as [i j]. exact E.
Qed.

Lemma shape_mat d L I1 J1 r c m m' : shape (Mat L I1 J1 r c d) (AMat L I1 J1 r c m) ->
  wfm V (N.to_nat r) (N.to_nat c) m' -> shape (Mat L I1 J1 r c d) (AMat L I1 J1 r c m').
Proof.
  intros (_ & _ & _ & _ & _ & _ & T) W. repeat (split; [reflexivity|]). split; [exact W|exact T].
Qed.

Lemma set_step o i p : correct w s (OSet o i p).
Proof.
  look o x a Ex Ea P Nx Na. rewrite (at_offset_ok x a i (proj1 P)). pose proof P as [S H].
  destruct a as [I1 cap l|I1 l|L I1 J1 r c m].
  - destruct (index I1 (N.of_nat (length l)) i) as [k|] eqn:E; [|reflexivity]. apply index_some in E. cbn [obind].
    destruct (sval s p) as [v|] eqn:SV; [|exact Logic.I].
    destruct (resolve_ok w s p v RR SV) as (q & RS & RD & _). rewrite RS. cbn [obind]. rewrite RD. cbn [obind].
    destruct (store_holds (w_heap w) (data_of x) _ _ (N.of_nat k) v H) as (h' & E' & A & H').
    { rewrite Nat2N.id. cbn [contents]. lia. }
    rewrite E'. cbn [obind sput]. eexists. split; [reflexivity|]. rewrite Nat2N.id in H'.
    apply (put_heap_ok w s o x (AVec I1 cap (upd l k v)) h' RR Nx A); [|exact H'].
    destruct x; try contradiction. cbn [shape] in *. rewrite upd_length. exact S.
  - destruct (index I1 (N.of_nat (length l)) i) as [k|] eqn:E; [|reflexivity]. apply index_some in E. cbn [obind].
    destruct (sval s p) as [v|] eqn:SV; [|exact Logic.I].
    destruct (resolve_ok w s p v RR SV) as (q & RS & RD & _). rewrite RS. cbn [obind]. rewrite RD. cbn [obind].
    destruct (store_holds (w_heap w) (data_of x) _ _ (N.of_nat k) v H) as (h' & E' & A & H').
    { rewrite Nat2N.id. cbn [contents]. lia. }
    rewrite E'. cbn [obind sput]. eexists. split; [reflexivity|]. rewrite Nat2N.id in H'.
    apply (put_heap_ok w s o x (AArr I1 (upd l k v)) h' RR Nx A).
    + destruct x; try contradiction. cbn [shape] in *. rewrite upd_length. exact S.
    + cbn [alloc contents] in *. rewrite upd_length. exact H'.
  - destruct (N.ltb_spec i (r * c)) as [Hi|Hi]; [|reflexivity]. cbn [obind].
    destruct (sval s p) as [v|] eqn:SV; [|exact Logic.I].
    destruct (resolve_ok w s p v RR SV) as (q & RS & RD & _). rewrite RS. cbn [obind]. rewrite RD. cbn [obind].
    destruct x as [| |L2 I2 J2 r2 c2 d]; try contradiction. pose proof S as (-> & -> & -> & -> & -> & W & _).
    destruct (cell_in L r c i Hi) as (CI & CJ & CP).
    pose proof (storage_length V L _ c m W) as SL.
    destruct (store_holds (w_heap w) d _ _ i v H) as (h' & E' & A & H').
    { cbn [contents]. lia. }
    cbn [data_of]. rewrite E'. cbn [obind sput]. eexists. split; [reflexivity|].
    eapply (put_heap_ok w s o _ _ h' RR Nx A).
    + eapply shape_mat; [exact S|]. apply wfm_set, W.
    + cbn [data_of alloc contents] in *. rewrite (storage_set V L (N.to_nat r)) by assumption.
      rewrite upd_length, <- CP. exact H'.
Qed.

Lemma mat_offset_ok L I1 J1 r c i j : (I1 < 2 ^ 64)%N -> (J1 < 2 ^ 64)%N -> (r < 2 ^ 64)%N -> (c < 2 ^ 64)%N ->
  mat_offset L I1 J1 r c i j =
  match index I1 r i, index J1 c j with
  | Some a, Some b => Done (N.of_nat (pos L (N.to_nat r) (N.to_nat c) a b))
  | _, _ => AssertFail
  end.
Proof.
  intros HI HJ HR HC. unfold mat_offset. rewrite !in_base_index by assumption.
  destruct (index I1 r i) as [a|] eqn:EA; [|reflexivity]. destruct (index J1 c j) as [b|] eqn:EB; [|reflexivity].
  apply index_some in EA, EB. destruct EA as (-> & _), EB as (-> & _). destruct L; cbn [pos]; f_equal; lia.
Qed.

Lemma mat_max_lt n : (n <= mat_max)%N -> (n < 2 ^ 64)%N.
Proof. intros H. eapply N.le_lt_trans; [exact H|reflexivity]. Qed.

Lemma get2_step o i j : correct w s (OGet2 o i j).
Proof.
  look o x a Ex Ea P Nx Na. pose proof P as [S H].
  destruct x as [| |L2 I2 J2 r2 c2 d], a as [| |L I1 J1 r c m]; try contradiction; try apply skip_ok, RR.
  pose proof S as (-> & -> & -> & -> & -> & W & HI & HJ & HR & HC & HM).
  rewrite mat_offset_ok by (assumption || apply mat_max_lt; assumption).
  destruct (index I1 r i) as [k|] eqn:EA; [|reflexivity]. destruct (index J1 c j) as [t|] eqn:EB; [|reflexivity].
  apply index_some in EA, EB. cbn [obind].
  destruct (wfm_cell V _ _ m k t W) as [v E]; [lia|lia|]. rewrite E.
  change d with (data_of (Mat L I1 J1 r c d)).
  rewrite (read_step _ _ (N.of_nat (pos L (N.to_nat r) (N.to_nat c) k t)) v P).
  - cbn [obind sread]. exists w. split; [reflexivity|exact RR].
  - rewrite Nat2N.id. cbn [contents]. rewrite (storage_nth V L (N.to_nat r)) by (assumption || lia). exact E.
Qed.

Lemma set2_step o i j p : correct w s (OSet2 o i j p).
Proof.
  look o x a Ex Ea P Nx Na. pose proof P as [S H].
  destruct x as [| |L2 I2 J2 r2 c2 d], a as [| |L I1 J1 r c m]; try contradiction; try apply skip_ok, RR.
  pose proof S as (-> & -> & -> & -> & -> & W & HI & HJ & HR & HC & HM).
  rewrite mat_offset_ok by (assumption || apply mat_max_lt; assumption).
  destruct (index I1 r i) as [k|] eqn:EA; [|reflexivity]. destruct (index J1 c j) as [t|] eqn:EB; [|reflexivity].
  apply index_some in EA, EB. cbn [obind].
  destruct (sval s p) as [v|] eqn:SV; [|exact Logic.I].
  destruct (resolve_ok w s p v RR SV) as (q & RS & RD & _). rewrite RS. cbn [obind]. rewrite RD. cbn [obind].
  pose proof (storage_length V L _ c m W) as SL.
  assert (PL : pos L (N.to_nat r) (N.to_nat c) k t < N.to_nat r * N.to_nat c) by (apply pos_lt; lia).
  destruct (store_holds (w_heap w) d _ _ (N.of_nat (pos L (N.to_nat r) (N.to_nat c) k t)) v H) as (h' & E' & A & H').
  { rewrite Nat2N.id. cbn [contents]. lia. }
  rewrite E'. cbn [obind sput]. eexists. split; [reflexivity|].
  eapply (put_heap_ok w s o _ _ h' RR Nx A).
  + eapply shape_mat; [exact S|]. apply wfm_set, W.
  + cbn [data_of alloc contents] in *. rewrite (storage_set V L (N.to_nat r)) by (assumption || lia).
    rewrite upd_length. rewrite Nat2N.id in H'. exact H'.
Qed.

Lemma hd_nth {A} (l : list A) : hd_error l = nth_error l 0.
Proof. destruct l; reflexivity. Qed.

Lemma front_offset_ok x a : shape x a ->
  front_offset x = match contents a with [] => AssertFail | _ :: _ => Done 0%N end.
Proof.
  intros S. destruct x as [I1 cap size d|I1 size d|L I1 J1 r c d], a as [I2 cap' l|I2 l|L' I2 J2 r' c' m];
    try contradiction; cbn [shape front_offset contents] in *.
  - destruct S as (_ & _ & -> & _). destruct l; reflexivity.
  - destruct S as (_ & -> & _). destruct l; reflexivity.
  - destruct S as (-> & _ & _ & -> & -> & W & _). pose proof (storage_length V L' _ c' m W) as SL.
    destruct (N.eqb_spec r' 0) as [->|NR]; cbn [orb].
    + destruct (storage L' c' m); [reflexivity|cbn [length] in SL; lia].
    + destruct (N.eqb_spec c' 0) as [->|NC].
      * destruct (storage L' 0 m); [reflexivity|cbn [length] in SL; lia].
      * destruct (storage L' c' m); [cbn [length] in SL; nia|reflexivity].
Qed.

Lemma back_offset_ok x a : shape x a ->
  back_offset x = match contents a with [] => AssertFail | _ :: _ => Done (N.of_nat (length (contents a) - 1)) end.
Proof.
  intros S. destruct x as [I1 cap size d|I1 size d|L I1 J1 r c d], a as [I2 cap' l|I2 l|L' I2 J2 r' c' m];
    try contradiction; cbn [shape back_offset contents] in *.
  - destruct S as (_ & _ & -> & _). destruct l; [reflexivity|]. cbn [length N.of_nat N.eqb]. f_equal. lia.
  - destruct S as (_ & -> & _). destruct l; [reflexivity|]. cbn [length N.of_nat N.eqb]. f_equal. lia.
  - destruct S as (-> & _ & _ & -> & -> & W & _ & _ & _ & _ & HM). pose proof (storage_length V L' _ c' m W) as SL.
    destruct (N.eqb_spec r' 0) as [->|NR]; cbn [orb].
    + destruct (storage L' c' m); [reflexivity|cbn [length] in SL; lia].
    + destruct (N.eqb_spec c' 0) as [->|NC].
      * destruct (storage L' 0 m); [reflexivity|cbn [length] in SL; lia].
      * destruct (storage L' c' m) eqn:E; [cbn [length] in SL; nia|]. rewrite <- E in *. f_equal.
        rewrite mat_size_ok by exact HM. rewrite SL. unfold wsub, wrap.
        replace (r' * c' + (2 ^ 64 - 1))%N with ((r' * c' - 1) + 1 * 2 ^ 64)%N by nia.
        rewrite N.mod_add by (apply N.pow_nonzero; discriminate). rewrite N.mod_small by lia. nia.
Qed.

Lemma front_step o : correct w s (OFront o).
Proof.
  look o x a Ex Ea P Nx Na. rewrite (front_offset_ok x a (proj1 P)). rewrite hd_nth.
  destruct (contents a) as [|v l] eqn:E; [reflexivity|]. cbn [obind nth_error sread].
  rewrite (read_step x a 0 v P) by (rewrite E; reflexivity). exists w. split; [reflexivity|exact RR].
Qed.

Lemma back_step o : correct w s (OBack o).
Proof.
  look o x a Ex Ea P Nx Na. rewrite (back_offset_ok x a (proj1 P)).
  destruct (contents a) as [|v l] eqn:E; [reflexivity|]. rewrite <- E.
  destruct (nth_error (contents a) (length (contents a) - 1)) as [u|] eqn:F.
  - cbn [obind]. rewrite (read_step x a _ u P) by (rewrite Nat2N.id; exact F). cbn [obind sread].
    exists w. split; [reflexivity|exact RR].
  - apply nth_error_None in F. rewrite E in F. cbn [length] in F. lia.
Qed.

Lemma fill_step o p : correct w s (OFill o p).
Proof.
  look o x a Ex Ea P Nx Na. pose proof P as [S H].
  destruct x as [I1 cap size d|I1 size d|L I1 J1 r c d], a as [I2 cap' l|I2 l|L' I2 J2 r' c' m];
    try contradiction; [apply skip_ok, RR| |].
  - destruct (sval s p) as [v|] eqn:SV; [|exact Logic.I].
    destruct (resolve_ok w s p v RR SV) as (q & RS & RD & _). rewrite RS. cbn [obind].
    unfold fill_all. rewrite (count_ok V _ _ S), Nat2N.id. cbn [contents data_of alloc] in *.
    destruct (fill_holds (w_heap w) d l 0 1 (length l) q v H) as (h' & E' & A & H'); [intros; lia|exact RD|].
    rewrite E'. cbn [obind sput]. eexists. split; [reflexivity|].
    change (N.to_nat 0) with 0 in H'. change (N.to_nat 1) with 1 in H'. rewrite fillp_all in H'.
    eapply (put_heap_ok w s o _ _ h' RR Nx A).
    + cbn [shape] in *. rewrite repeat_length. exact S.
    + cbn [data_of alloc contents]. rewrite repeat_length. exact H'.
  - destruct (sval s p) as [v|] eqn:SV; [|exact Logic.I].
    destruct (resolve_ok w s p v RR SV) as (q & RS & RD & _). rewrite RS. cbn [obind].
    unfold fill_all. rewrite (count_ok V _ _ S), Nat2N.id. cbn [contents data_of alloc] in *.
    pose proof S as (-> & -> & -> & -> & -> & W & _).
    destruct (fill_holds (w_heap w) d _ 0 1 (length (storage L' c' m)) q v H) as (h' & E' & A & H'); [intros; lia|exact RD|].
    rewrite E'. cbn [obind sput]. eexists. split; [reflexivity|].
    change (N.to_nat 0) with 0 in H'. change (N.to_nat 1) with 1 in H'. rewrite fillp_all in H'.
    eapply (put_heap_ok w s o _ _ h' RR Nx A).
    + eapply shape_mat; [exact S|]. apply wfm_map; [exact W|]. intros. apply map_length.
    + cbn [data_of alloc contents]. rewrite (storage_fill V L' (N.to_nat r')) by exact W.
      rewrite repeat_length. exact H'.
Qed.

Lemma fill1_step o i p : correct w s (OFill1 o i p).
Proof.
  look o x a Ex Ea P Nx Na. pose proof P as [S H].
  destruct x as [| |L2 I2 J2 r2 c2 d], a as [| |L I1 J1 r c m];
    try contradiction; try apply skip_ok, RR.
  destruct (sval s p) as [v|] eqn:SV; [|exact Logic.I].
  destruct (resolve_ok w s p v RR SV) as (q & RS & RD & _). rewrite RS. cbn [obind].
  pose proof S as (-> & -> & -> & -> & -> & W & HI & HJ & HR & HC & HM). unfold mat_fill1.
  rewrite in_base_index by (assumption || apply mat_max_lt; assumption).
  destruct (index I1 r i) as [k|] eqn:EK; [|reflexivity]. apply index_some in EK.
  cbn [contents data_of alloc] in *. pose proof (storage_length V L _ c m W) as SL.
  assert (F : exists h', match L with
                | RowMajor => fill_loop V pod (w_heap w) d ((i - I1) * c) 1 (N.to_nat c) q
                | ColumnMajor => fill_loop V pod (w_heap w) d (i - I1) r (N.to_nat c) q
                end = Done h' /\ agree (w_heap w) h' d /\
                holds h' d (length (storage L c m)) (storage L c (upd m k (repeat v (N.to_nat c))))).
  { rewrite (storage_fill1 V L (N.to_nat r) c m k v W) by lia. destruct L.
    - destruct (fill_holds (w_heap w) d _ ((i - I1) * c) 1 (N.to_nat c) q v H) as (h' & E' & A & H').
      + intros t Ht. rewrite SL. nia.
      + exact RD.
      + exists h'. split; [exact E'|]. split; [exact A|].
        replace (k * N.to_nat c) with (N.to_nat ((i - I1) * c)) by lia. exact H'.
    - destruct (fill_holds (w_heap w) d _ (i - I1) r (N.to_nat c) q v H) as (h' & E' & A & H').
      + intros t Ht. rewrite SL. nia.
      + exact RD.
      + exists h'. split; [exact E'|]. split; [exact A|].
        replace k with (N.to_nat (i - I1)) by lia. exact H'. }
  destruct F as (h' & E' & A & H').
  match goal with |- context [obind ?q _] => replace q with (@Done heap h') by (symmetry; exact E') end.
  cbn [obind sput]. eexists. split; [reflexivity|].
  eapply (put_heap_ok w s o _ _ h' RR Nx A).
  - eapply shape_mat; [exact S|]. apply wfm_fill1, W.
  - cbn [data_of alloc contents]. rewrite (storage_length V L (N.to_nat r)) by (apply wfm_fill1, W).
    rewrite <- SL. exact H'.
Qed.

Lemma fill2_step o j p : correct w s (OFill2 o j p).
Proof.
  look o x a Ex Ea P Nx Na. pose proof P as [S H].
  destruct x as [| |L2 I2 J2 r2 c2 d], a as [| |L I1 J1 r c m];
    try contradiction; try apply skip_ok, RR.
  destruct (sval s p) as [v|] eqn:SV; [|exact Logic.I].
  destruct (resolve_ok w s p v RR SV) as (q & RS & RD & _). rewrite RS. cbn [obind].
  pose proof S as (-> & -> & -> & -> & -> & W & HI & HJ & HR & HC & HM). unfold mat_fill2.
  rewrite in_base_index by (assumption || apply mat_max_lt; assumption).
  destruct (index J1 r j) as [k|] eqn:EK; [|reflexivity]. apply index_some in EK.
  destruct (N.ltb_spec (N.of_nat k) c) as [HK|]; [|exact Logic.I].
  cbn [contents data_of alloc] in *. pose proof (storage_length V L _ c m W) as SL.
  assert (F : exists h', match L with
                | RowMajor => fill_loop V pod (w_heap w) d (j - J1) c (N.to_nat r) q
                | ColumnMajor => fill_loop V pod (w_heap w) d ((j - J1) * r) 1 (N.to_nat r) q
                end = Done h' /\ agree (w_heap w) h' d /\
                holds h' d (length (storage L c m)) (storage L c (map (fun row => upd row k v) m))).
  { rewrite (storage_fill2 V L (N.to_nat r) c m k v W) by lia. destruct L.
    - destruct (fill_holds (w_heap w) d _ (j - J1) c (N.to_nat r) q v H) as (h' & E' & A & H').
      + intros t Ht. rewrite SL. nia.
      + exact RD.
      + exists h'. split; [exact E'|]. split; [exact A|].
        replace k with (N.to_nat (j - J1)) by lia. exact H'.
    - destruct (fill_holds (w_heap w) d _ ((j - J1) * r) 1 (N.to_nat r) q v H) as (h' & E' & A & H').
      + intros t Ht. rewrite SL. nia.
      + exact RD.
      + exists h'. split; [exact E'|]. split; [exact A|].
        replace (k * N.to_nat r) with (N.to_nat ((j - J1) * r)) by lia. exact H'. }
  destruct F as (h' & E' & A & H').
  match goal with |- context [obind ?q _] => replace q with (@Done heap h') by (symmetry; exact E') end.
  cbn [obind sput]. eexists. split; [reflexivity|].
  assert (W' : wfm V (N.to_nat r) (N.to_nat c) (map (fun row => upd row k v) m))
    by (apply wfm_map; [exact W|]; intros; apply upd_length).
  eapply (put_heap_ok w s o _ _ h' RR Nx A).
  - eapply shape_mat; [exact S|exact W'].
  - cbn [data_of alloc contents]. rewrite (storage_length V L (N.to_nat r) c _ W').
    rewrite <- SL. exact H'.
Qed.

Lemma assign_n_step o n p : correct w s (OAssignN o n p).
Proof.
  look o x a Ex Ea P Nx Na. pose proof P as [S H].
  destruct x as [I1 cap size d| |], a as [I2 cap' l| |]; try contradiction; try apply skip_ok, RR.
  destruct (sval s p) as [v|] eqn:SV; [|exact Logic.I].
  destruct (refers o p) eqn:RF; [exact Logic.I|].
  destruct (resolve_ok w s p v RR SV) as (q0 & RS0 & _). pose proof S as (-> & -> & -> & LE & HI & HC).
  unfold vec_assign. destruct (N.leb_spec n cap') as [HN|HN].
  2:{ rewrite RS0. reflexivity. }
  cbn [data_of alloc contents] in H. destruct d as [b|].
  - destruct (resolve_out w s o _ b p v RR Nx eq_refl SV RF) as (q & RS & RO). rewrite RS. cbn [obind sput].
    destruct (assign_prep (w_heap w) b _ l (N.to_nat n) H ltac:(lia)) as (mid & rest & ED & LM & PM & LT & PR & LB).
    pose proof H as (rest0 & B & _ & _ & NZ).
    assert (E2 : array_init V pod (upd (w_heap w) b (Some ([] ++ mid ++ map Live (skipn (N.to_nat n) l) ++ rest)))
                   (Some b) 0 (N.to_nat n) q =
                 Done (upd (w_heap w) b (Some (map Live (repeat v (N.to_nat n) ++ skipn (N.to_nat n) l) ++ rest)))).
    { rewrite (array_init_ok V pod (N.to_nat n) _ b [] mid (map Live (skipn (N.to_nat n) l) ++ rest) 0 q v).
      - rewrite upd_upd, map_app, <- app_assoc, map_rep. reflexivity.
      - eapply block_upd, B.
      - reflexivity.
      - exact LM.
      - exact PM.
      - apply (proj1 (reads_out_upd V _ _ _ _ _ RO)). }
    pose proof (assign_holds (w_heap w) b (N.to_nat cap') l (repeat v (N.to_nat n) ++ skipn (N.to_nat n) l) rest LB) as AH.
    rewrite app_length, repeat_length in AH. specialize (AH ltac:(lia) NZ PR).
    destruct (N.ltb_spec (N.of_nat (length l)) n) as [C|C].
    + rewrite Nat.min_l in ED by lia. rewrite Nat2N.id, ED. cbn [obind]. rewrite E2. cbn [obind].
      eapply (put_obj_ok w s o _ _ _ _ RR Nx); [apply agree_upd | reflexivity | | exact AH].
      cbn [shape]. rewrite app_length, repeat_length, skipn_length. repeat split; lia.
    + rewrite Nat.min_r in ED by lia. rewrite ED. cbn [obind]. rewrite E2. cbn [obind].
      eapply (put_obj_ok w s o _ _ _ _ RR Nx); [apply agree_upd | reflexivity | | exact AH].
      cbn [shape]. rewrite app_length, repeat_length, skipn_length. repeat split; lia.
  - destruct H as [HZ HL]. subst l. assert (n = 0%N) by lia. subst n. rewrite RS0. cbn [obind].
    cbn [length N.of_nat N.ltb N.compare]. change (N.to_nat 0) with 0. rewrite array_destroy_zero. cbn [obind array_init sput repeat skipn app].
    apply (put_obj_ok w s o (Vec I2 cap' (N.of_nat 0) None) (Vec I2 cap' 0 None) (AVec I2 cap' []) (w_heap w) RR Nx);
      [apply agree_refl | reflexivity | exact S | split; [exact HZ|reflexivity]].
Qed.

Lemma assign_range_step o ps : correct w s (OAssignRange o ps).
Proof.
  look o x a Ex Ea P Nx Na. pose proof P as [S H].
  destruct x as [I1 cap size d| |], a as [I2 cap' l| |]; try contradiction; try apply skip_ok, RR.
  destruct (svals s ps) as [vs|] eqn:SV; [|exact Logic.I].
  destruct (existsb (refers o) ps) eqn:RF; [exact Logic.I|].
  destruct (resolve_all_len w s ps vs RR SV) as (q0 & RS0 & QL). pose proof S as (-> & -> & -> & LE & HI & HC).
  rewrite RS0. cbn [obind]. unfold vec_assign_range. rewrite QL.
  destruct (N.leb_spec (N.of_nat (length vs)) cap') as [HN|HN]; [|reflexivity].
  cbn [data_of alloc contents] in H. destruct d as [b|].
  - destruct (resolve_all_out w s o _ b ps vs RR Nx eq_refl SV RF) as (q & RS & RO).
    rewrite RS0 in RS. injection RS as <-. cbn [sput].
    destruct (assign_prep (w_heap w) b _ l (length vs) H ltac:(lia)) as (mid & rest & ED & LM & PM & LT & PR & LB).
    pose proof H as (rest0 & B & _ & _ & NZ).
    assert (E2 : array_copy_init V pod (upd (w_heap w) b (Some ([] ++ mid ++ map Live (skipn (length vs) l) ++ rest)))
                   q0 (Some b) 0 =
                 Done (upd (w_heap w) b (Some (map Live (vs ++ skipn (length vs) l) ++ rest)))).
    { rewrite (array_copy_init_ok V pod q0 vs _ b [] mid (map Live (skipn (length vs) l) ++ rest) 0).
      - rewrite upd_upd, map_app, <- app_assoc. reflexivity.
      - eapply block_upd, B.
      - reflexivity.
      - exact LM.
      - exact PM.
      - eapply Forall2_imp; [|exact RO]. intros y z. apply reads_out_upd. }
    pose proof (assign_holds (w_heap w) b (N.to_nat cap') l (vs ++ skipn (length vs) l) rest LB) as AH.
    rewrite app_length in AH. specialize (AH ltac:(lia) NZ PR).
    destruct (N.ltb_spec (N.of_nat (length l)) (N.of_nat (length vs))) as [C|C].
    + rewrite Nat.min_l in ED by lia. rewrite Nat2N.id, ED. cbn [obind]. rewrite E2. cbn [obind].
      eapply (put_obj_ok w s o _ _ _ _ RR Nx); [apply agree_upd | reflexivity | | exact AH].
      cbn [shape]. rewrite app_length, skipn_length. repeat split; lia.
    + rewrite Nat.min_r in ED by lia. rewrite Nat2N.id, ED. cbn [obind]. rewrite E2. cbn [obind].
      eapply (put_obj_ok w s o _ _ _ _ RR Nx); [apply agree_upd | reflexivity | | exact AH].
      cbn [shape]. rewrite app_length, skipn_length. repeat split; lia.
  - destruct H as [HZ HL]. subst l. destruct vs; [|cbn [length] in HN; lia]. destruct q0; [|discriminate QL].
    cbn [length N.of_nat N.ltb N.compare]. change (N.to_nat 0) with 0. rewrite array_destroy_zero.
    cbn [obind array_copy_init sput repeat skipn app].
    apply (put_obj_ok w s o (Vec I2 cap' (N.of_nat 0) None) (Vec I2 cap' 0 None) (AVec I2 cap' []) (w_heap w) RR Nx);
      [apply agree_refl | reflexivity | exact S | split; [exact HZ|reflexivity]].
Qed.

Lemma push_step o p : correct w s (OPushBack o p).
Proof.
  look o x a Ex Ea P Nx Na. pose proof P as [S H].
  destruct x as [I1 cap size d| |], a as [I2 cap' l| |]; try contradiction; try apply skip_ok, RR.
  destruct (sval s p) as [v|] eqn:SV; [|exact Logic.I].
  destruct (resolve_ok w s p v RR SV) as (q & RS & RD & _). rewrite RS. cbn [obind].
  pose proof S as (-> & -> & -> & LE & HI & HC). unfold vec_push_back.
  destruct (N.ltb_spec (N.of_nat (length l)) cap') as [HN|HN]; [|reflexivity].
  cbn [data_of alloc contents] in H. destruct d as [b|].
  - destruct H as (rest & B & LT & PR & NZ). destruct rest as [|y rest]; [cbn [length] in LT; lia|].
    rewrite (array_init_ok V pod 1 (w_heap w) b (map Live l) [y] rest (N.of_nat (length l)) q v).
    + cbn [obind sput repeat app].
      eapply (put_obj_ok w s o _ _ _ _ RR Nx); [apply agree_upd | reflexivity | |].
      * cbn [shape]. rewrite app_length. cbn [length]. repeat split; lia.
      * cbn [data_of alloc contents]. exists rest. split; [|split; [|split]].
        -- rewrite map_app, <- app_assoc. eapply block_upd, B.
        -- rewrite app_length. cbn [length] in *. lia.
        -- intros Q. exact (Forall_inv_tail (PR Q)).
        -- exact NZ.
    + exact B.
    + rewrite map_length, Nat2N.id. reflexivity.
    + reflexivity.
    + intros Q. specialize (PR Q). constructor; [exact (Forall_inv PR)|constructor].
    + exact RD.
  - destruct H as [HZ _]. lia.
Qed.

Lemma pop_step o : correct w s (OPopBack o).
Proof.
  look o x a Ex Ea P Nx Na. pose proof P as [S H].
  destruct x as [I1 cap size d| |], a as [I2 cap' l| |]; try contradiction; try apply skip_ok, RR.
  pose proof S as (-> & -> & -> & LE & HI & HC). unfold vec_pop_back.
  destruct (list_snoc l) as [->|(l0 & v & ->)]; [reflexivity|].
  assert (LN : length (l0 ++ [v]) = length l0 + 1) by (rewrite app_length; cbn [length]; lia).
  assert (HM : forall A (y z : A), match l0 ++ [v] with [] => y | _ :: _ => z end = z) by (intros; destruct l0; reflexivity).
  rewrite HM. replace (length (l0 ++ [v]) - 1) with (length l0) by lia.
  rewrite firstn_app, Nat.sub_diag, firstn_all. cbn [firstn]. rewrite app_nil_r.
  destruct (N.eqb_spec (N.of_nat (length (l0 ++ [v]))) 0); [lia|].
  cbn [data_of alloc contents] in H. destruct d as [b|].
  - destruct H as (rest & B & LT & PR & NZ). rewrite map_app, <- app_assoc in B.
    change 1 with (length [v]).
    rewrite (array_destroy_ok V pod [v] (w_heap w) b (map Live l0) rest _ B) by (rewrite map_length; lia).
    cbn [obind sput].
    eapply (put_obj_ok w s o _ _ _ _ RR Nx); [apply agree_upd | reflexivity | |].
    + cbn [shape]. repeat split; lia.
    + cbn [data_of alloc contents]. exists (husk V pod [v] ++ rest). split; [eapply block_upd, B|]. split; [|split].
      * rewrite app_length, husk_length. cbn [length]. lia.
      * intros Q. apply Forall_app. split; [apply husk_raw, Q|apply PR, Q].
      * exact NZ.
  - destruct H as [_ H]. destruct l0; discriminate H.
Qed.

Lemma clear_step o : correct w s (OClear o).
Proof.
  look o x a Ex Ea P Nx Na. pose proof P as [S H].
  destruct x as [I1 cap size d| |], a as [I2 cap' l| |]; try contradiction; try apply skip_ok, RR.
  pose proof S as (-> & -> & -> & LE & HI & HC). unfold vec_clear. rewrite Nat2N.id.
  cbn [data_of alloc contents sput] in *. destruct d as [b|].
  - destruct H as (rest & B & LT & PR & NZ).
    rewrite (array_destroy_ok V pod l (w_heap w) b [] rest 0 B eq_refl). cbn [obind app].
    eapply (put_obj_ok w s o _ _ _ _ RR Nx); [apply agree_upd | reflexivity | |].
    + cbn [shape length]. repeat split; lia.
    + cbn [data_of alloc contents map app]. exists (husk V pod l ++ rest). split; [eapply block_upd, B|]. split; [|split].
      * rewrite app_length, husk_length. cbn [length]. lia.
      * intros Q. apply Forall_app. split; [apply husk_raw, Q|apply PR, Q].
      * exact NZ.
  - destruct H as [HZ ->]. cbn [length]. rewrite array_destroy_zero. cbn [obind].
    apply (put_obj_ok w s o (Vec I2 cap' (N.of_nat 0) None) (Vec I2 cap' 0 None) (AVec I2 cap' []) (w_heap w) RR Nx);
      [apply agree_refl | reflexivity | exact S | split; [exact HZ|reflexivity]].
Qed.

Lemma iterate_step o : correct w s (OIterate o).
Proof.
  look o x a Ex Ea P Nx Na. pose proof P as [S H].
  rewrite (holds_block_length V pod _ _ _ _ H).
  assert (LA : length (contents a) <= alloc a).
  { destruct x, a; try contradiction; cbn [contents alloc shape] in *; lia. }
  pose proof (it_loop_ok V pod (length (contents a)) (w_heap w) (data_of x) (alloc a) (contents a) 0 1 (alloc a)
                (contents a) H ltac:(lia) eq_refl LA) as E.
  unfold end_it, begin_it, it_add. cbn [it_off it_stride it_data]. rewrite (count_ok V x a S).
  replace (0 + Z.of_N (N.of_nat (length (contents a))) * Z.of_N 1)%Z
    with (Z.of_nat (0 + length (contents a) * 1)) by lia.
  change {| it_data := data_of x; it_off := 0; it_stride := 1 |}
    with {| it_data := data_of x; it_off := Z.of_nat 0; it_stride := N.of_nat 1 |}.
  rewrite E; [|intros; f_equal; lia]. cbn [obind]. exists w. split; [reflexivity|exact RR].
Qed.

(** The distance between neighbours in a row and in a column. *)
Definition stride1 (L : layout) (r : N) : N := match L with RowMajor => 1%N | ColumnMajor => r end.
Definition stride2 (L : layout) (c : N) : N := match L with RowMajor => c | ColumnMajor => 1%N end.

Lemma begin1_ok L I1 J1 r c d i : (I1 < 2 ^ 64)%N -> (r < 2 ^ 64)%N ->
  begin1 L I1 J1 r c d i =
  match index I1 r i with
  | Some k => Done {| it_data := d; it_off := Z.of_nat (pos L (N.to_nat r) (N.to_nat c) k 0);
                      it_stride := N.of_nat (N.to_nat (stride1 L r)) |}
  | None => AssertFail
  end.
Proof.
  intros HI HR. unfold begin1. rewrite in_base_index by assumption.
  destruct (index I1 r i) as [k|] eqn:E; [|reflexivity]. apply index_some in E. destruct E as (-> & LE & LT).
  destruct L; cbn [stride1 pos]; f_equal; f_equal; lia.
Qed.

Lemma begin2_ok L I1 J1 r c d j : (J1 < 2 ^ 64)%N -> (c < 2 ^ 64)%N ->
  begin2 L I1 J1 r c d j =
  match index J1 c j with
  | Some k => Done {| it_data := d; it_off := Z.of_nat (pos L (N.to_nat r) (N.to_nat c) 0 k);
                      it_stride := N.of_nat (N.to_nat (stride2 L c)) |}
  | None => AssertFail
  end.
Proof.
  intros HI HR. unfold begin2. rewrite in_base_index by assumption.
  destruct (index J1 c j) as [k|] eqn:E; [|reflexivity]. apply index_some in E. destruct E as (-> & LE & LT).
  destruct L; cbn [stride2 pos]; f_equal; f_equal; lia.
Qed.

Lemma pos_row L r c k t : pos L r c k 0 + t * N.to_nat (stride1 L (N.of_nat r)) = pos L r c k t.
Proof. destruct L; cbn [pos stride1]; lia. Qed.

Lemma pos_col L r c k t : pos L r c 0 k + t * N.to_nat (stride2 L (N.of_nat c)) = pos L r c t k.
Proof. destruct L; cbn [pos stride2]; lia. Qed.

Lemma row_step o i : correct w s (ORow o i).
Proof.
  look o x a Ex Ea P Nx Na. pose proof P as [S H].
  destruct x as [| |L2 I2 J2 r2 c2 d], a as [| |L I1 J1 r c m]; try contradiction; try apply skip_ok, RR.
  pose proof S as (-> & -> & -> & -> & -> & W & HI & HJ & HR & HC & HM). unfold end1.
  rewrite begin1_ok by (assumption || apply mat_max_lt; assumption).
  destruct (index I1 r i) as [k|] eqn:EK; [|reflexivity]. apply index_some in EK. cbn [obind].
  destruct (wfm_row V _ _ m k W) as (row & ER & LR); [lia|]. rewrite ER.
  unfold it_add. cbn [it_off it_stride it_data].
  cbn [alloc contents data_of] in H. rewrite (holds_block_length V pod _ _ _ _ H).
  pose proof (storage_length V L _ c m W) as SL.
  replace (Z.of_nat (pos L (N.to_nat r) (N.to_nat c) k 0) + Z.of_N c * Z.of_N (N.of_nat (N.to_nat (stride1 L r))))%Z
    with (Z.of_nat (pos L (N.to_nat r) (N.to_nat c) k 0 + length row * N.to_nat (stride1 L r))) by lia.
  rewrite (it_loop_ok V pod (length row) (w_heap w) d _ _ _ _ _ row H); [| |reflexivity| |].
  - cbn [obind]. exists w. split; [reflexivity|exact RR].
  - destruct L; cbn [stride1]; lia.
  - nia.
  - intros t Ht. pose proof (pos_row L (N.to_nat r) (N.to_nat c) k t) as PR. rewrite N2Nat.id in PR. rewrite PR.
    rewrite (storage_nth V L (N.to_nat r)) by (assumption || lia). unfold get_cell. rewrite ER. reflexivity.
Qed.

Lemma column_step o j : correct w s (OColumn o j).
Proof.
  look o x a Ex Ea P Nx Na. pose proof P as [S H].
  destruct x as [| |L2 I2 J2 r2 c2 d], a as [| |L I1 J1 r c m]; try contradiction; try apply skip_ok, RR.
  pose proof S as (-> & -> & -> & -> & -> & W & HI & HJ & HR & HC & HM). unfold end2.
  rewrite begin2_ok by (assumption || apply mat_max_lt; assumption).
  destruct (index J1 c j) as [k|] eqn:EK; [|reflexivity]. apply index_some in EK. cbn [obind].
  unfold it_add. cbn [it_off it_stride it_data].
  cbn [alloc contents data_of] in H. rewrite (holds_block_length V pod _ _ _ _ H).
  pose proof (storage_length V L _ c m W) as SL.
  pose proof (column_length V _ _ m k W ltac:(lia)) as LC.
  replace (Z.of_nat (pos L (N.to_nat r) (N.to_nat c) 0 k) + Z.of_N r * Z.of_N (N.of_nat (N.to_nat (stride2 L c))))%Z
    with (Z.of_nat (pos L (N.to_nat r) (N.to_nat c) 0 k + length (column k m) * N.to_nat (stride2 L c))) by lia.
  rewrite (it_loop_ok V pod (length (column k m)) (w_heap w) d _ _ _ _ _ (column k m) H); [| |reflexivity| |].
  - cbn [obind]. exists w. split; [reflexivity|exact RR].
  - destruct L; cbn [stride2]; lia.
  - nia.
  - intros t Ht. pose proof (pos_col L (N.to_nat r) (N.to_nat c) k t) as PR. rewrite N2Nat.id in PR. rewrite PR.
    rewrite (storage_nth V L (N.to_nat r)) by (assumption || lia).
    rewrite (column_nth V (N.to_nat r) (N.to_nat c)) by (assumption || lia). reflexivity.
Qed.

Lemma get_cell_lt r c m i j (v : V) : wfm V r c m -> get_cell m i j = Some v -> i < r /\ j < c.
Proof.
  intros W E. unfold get_cell in E. destruct (nth_error m i) as [row|] eqn:ER; [|discriminate].
  pose proof W as [L F]. assert (i < r) by (apply nth_lt in ER; lia).
  destruct (wfm_row V r c m i W ltac:(lia)) as (row' & ER' & LR). rewrite ER in ER'. injection ER' as <-.
  apply nth_lt in E. lia.
Qed.

Lemma row_nth_step o i n : correct w s (ORowNth o i n).
Proof.
  look o x a Ex Ea P Nx Na. pose proof P as [S H].
  destruct x as [| |L2 I2 J2 r2 c2 d], a as [| |L I1 J1 r c m]; try contradiction; try apply skip_ok, RR.
  pose proof S as (-> & -> & -> & -> & -> & W & HI & HJ & HR & HC & HM).
  rewrite begin1_ok by (assumption || apply mat_max_lt; assumption).
  destruct (index I1 r i) as [k|] eqn:EK; [|reflexivity]. apply index_some in EK. cbn [obind].
  destruct (Z.leb_spec 0 n) as [HN|]; [|exact Logic.I].
  destruct (get_cell m k (Z.to_nat n)) as [v|] eqn:G; [|exact Logic.I].
  pose proof (get_cell_lt _ _ m k _ v W G) as [_ GJ].
  unfold it_load, it_add. cbn [it_off it_stride it_data].
  pose proof (pos_row L (N.to_nat r) (N.to_nat c) k (Z.to_nat n)) as PR. rewrite N2Nat.id in PR.
  replace (Z.of_nat (pos L (N.to_nat r) (N.to_nat c) k 0) + n * Z.of_N (N.of_nat (N.to_nat (stride1 L r))))%Z
    with (Z.of_nat (pos L (N.to_nat r) (N.to_nat c) k (Z.to_nat n))) by (rewrite <- PR; lia).
  destruct (Z.ltb_spec (Z.of_nat (pos L (N.to_nat r) (N.to_nat c) k (Z.to_nat n))) 0); [lia|].
  change d with (data_of (Mat L I1 J1 r c d)). rewrite (read_step _ _ _ v P).
  - cbn [obind]. exists w. split; [reflexivity|exact RR].
  - cbn [contents]. rewrite <- (storage_nth V L (N.to_nat r) c m) in G by (assumption || lia).
    rewrite <- G. f_equal. lia.
Qed.

Lemma column_nth_step o j n : correct w s (OColumnNth o j n).
Proof.
  look o x a Ex Ea P Nx Na. pose proof P as [S H].
  destruct x as [| |L2 I2 J2 r2 c2 d], a as [| |L I1 J1 r c m]; try contradiction; try apply skip_ok, RR.
  pose proof S as (-> & -> & -> & -> & -> & W & HI & HJ & HR & HC & HM).
  rewrite begin2_ok by (assumption || apply mat_max_lt; assumption).
  destruct (index J1 c j) as [k|] eqn:EK; [|reflexivity]. apply index_some in EK. cbn [obind].
  destruct (Z.leb_spec 0 n) as [HN|]; [|exact Logic.I].
  destruct (get_cell m (Z.to_nat n) k) as [v|] eqn:G; [|exact Logic.I].
  pose proof (get_cell_lt _ _ m _ k v W G) as [GI _].
  unfold it_load, it_add. cbn [it_off it_stride it_data].
  pose proof (pos_col L (N.to_nat r) (N.to_nat c) k (Z.to_nat n)) as PR. rewrite N2Nat.id in PR.
  replace (Z.of_nat (pos L (N.to_nat r) (N.to_nat c) 0 k) + n * Z.of_N (N.of_nat (N.to_nat (stride2 L c))))%Z
    with (Z.of_nat (pos L (N.to_nat r) (N.to_nat c) (Z.to_nat n) k)) by (rewrite <- PR; lia).
  destruct (Z.ltb_spec (Z.of_nat (pos L (N.to_nat r) (N.to_nat c) (Z.to_nat n) k)) 0); [lia|].
  change d with (data_of (Mat L I1 J1 r c d)). rewrite (read_step _ _ _ v P).
  - cbn [obind]. exists w. split; [reflexivity|exact RR].
  - cbn [contents]. rewrite <- (storage_nth V L (N.to_nat r) c m) in G by (assumption || lia).
    rewrite <- G. f_equal. lia.
Qed.

Lemma row_size_step o i : correct w s (ORowSize o i).
Proof.
  look o x a Ex Ea P Nx Na. pose proof P as [S H].
  destruct x as [| |L2 I2 J2 r2 c2 d], a as [| |L I1 J1 r c m]; try contradiction; try apply skip_ok, RR.
  pose proof S as (-> & -> & -> & -> & -> & W & HI & HJ & HR & HC & HM). unfold end1.
  rewrite begin1_ok by (assumption || apply mat_max_lt; assumption).
  destruct (index I1 r i) as [k|] eqn:EK; [|reflexivity]. apply index_some in EK. cbn [obind].
  exists w. split; [|exact RR]. unfold it_sub, it_add. cbn [it_off it_stride it_data].
  rewrite Z.add_simpl_l, Z.quot_mul; [reflexivity|]. destruct L; cbn [stride1]; lia.
Qed.

Lemma column_size_step o j : correct w s (OColumnSize o j).
Proof.
  look o x a Ex Ea P Nx Na. pose proof P as [S H].
  destruct x as [| |L2 I2 J2 r2 c2 d], a as [| |L I1 J1 r c m]; try contradiction; try apply skip_ok, RR.
  pose proof S as (-> & -> & -> & -> & -> & W & HI & HJ & HR & HC & HM). unfold end2.
  rewrite begin2_ok by (assumption || apply mat_max_lt; assumption).
  destruct (index J1 c j) as [k|] eqn:EK; [|reflexivity]. apply index_some in EK. cbn [obind].
  exists w. split; [|exact RR]. unfold it_sub, it_add. cbn [it_off it_stride it_data].
  rewrite Z.add_simpl_l, Z.quot_mul; [reflexivity|]. destruct L; cbn [stride2]; lia.
Qed.

End One.

Theorem step_ok w s p : RW w s -> correct w s p.
Proof.
  intros RR. destruct p.
  - apply new_vec, RR.
  - apply new_vec_fill, RR.
  - apply new_arr, RR.
  - apply new_arr_fill, RR.
  - apply new_mat, RR.
  - apply new_mat_fill, RR.
  - apply copy_step, RR.
  - apply move_step, RR.
  - apply assign_step, RR.
  - apply move_assign_step, RR.
  - apply swap_step, RR.
  - apply destroy_step, RR.
  - apply size_step, RR.
  - apply capacity_step, RR.
  - apply get_step, RR.
  - apply set_step, RR.
  - apply get2_step, RR.
  - apply set2_step, RR.
  - apply front_step, RR.
  - apply back_step, RR.
  - apply fill_step, RR.
  - apply fill1_step, RR.
  - apply fill2_step, RR.
  - apply assign_n_step, RR.
  - apply assign_range_step, RR.
  - apply push_step, RR.
  - apply pop_step, RR.
  - apply clear_step, RR.
  - apply iterate_step, RR.
  - apply row_step, RR.
  - apply column_step, RR.
  - apply row_nth_step, RR.
  - apply column_nth_step, RR.
  - apply row_size_step, RR.
  - apply column_size_step, RR.
Qed.

Theorem run_ok ps : forall w s s' rs, RW w s -> srun V v0 s ps = Some (s', rs) ->
  exists w', run V v0 pod w ps = Done (w', rs) /\ RW w' s'.
Proof.
  induction ps as [|p ps IH]; intros w s s' rs RR E; cbn [srun run] in *.
  - injection E as <- <-. exists w. split; [reflexivity|exact RR].
  - pose proof (step_ok w s p RR) as C. unfold correct in C. destruct (sstep V v0 s p) as [s1 r| |]; [|discriminate|discriminate].
    destruct (srun V v0 s1 ps) as [[s2 rs2]|] eqn:E2; [|discriminate]. injection E as <- <-.
    destruct C as (w1 & E1 & R1). destruct (IH w1 s1 s2 rs2 R1 E2) as (w2 & E3 & R3).
    exists w2. rewrite E1. cbn [obind]. rewrite E3. split; [reflexivity|exact R3].
Qed.

End Steps.
