(** Properties C60 and C61: vectors, arrays and matrices with a fixed index base. *)
From Coq Require Import ZifyBool ZifyNat ZifyN.
From Verif Require Import Base BaseProofs BiContainer BiContainerSpec BiContainerMatrix BiContainerMemory
  BiContainerProofs BiContainerSteps.

(** * C60: containers behave as the sequences and matrices of BiContainerSpec *)

(** [V] is the element type, [v0] what its default constructor makes, and [pod]
    says whether it is plain data: elements of other types have to be constructed
    and destroyed. *)

Lemma reached V v0 pod ps s rs : srun V v0 [] ps = Some (s, rs) ->
  exists w, run V v0 pod init ps = Done (w, rs) /\ RW V pod w s.
Proof. apply run_ok. apply R_init. Qed.

Lemma run_app V v0 pod ps qs : forall w w1 rs,
  run V v0 pod w ps = Done (w1, rs) ->
  run V v0 pod w (ps ++ qs) = (let! (w2, rs') := run V v0 pod w1 qs in Done (w2, rs ++ rs')).
Proof.
  induction ps as [|p ps IH]; intros w w1 rs E; cbn [run app] in *.
  - injection E as <- <-. destruct (run V v0 pod w qs) as [[w2 rs']| | |]; reflexivity.
  - destruct (step V v0 pod w p) as [[w3 r]| | |]; try discriminate. cbn [obind] in *.
    destruct (run V v0 pod w3 ps) as [[w4 rs4]| | |] eqn:E4; try discriminate. cbn [obind] in E. injection E as <- <-.
    rewrite (IH w3 w4 rs4 E4). destruct (run V v0 pod w4 qs) as [[w5 rs5]| | |]; reflexivity.
Qed.

Lemma after V v0 pod ps s rs qs s' rs' : srun V v0 [] ps = Some (s, rs) -> srun V v0 s qs = Some (s', rs') ->
  exists w, run V v0 pod init (ps ++ qs) = Done (w, rs ++ rs').
Proof.
  intros E1 E2. destruct (reached V v0 pod ps s rs E1) as (w1 & R1 & RR).
  destruct (run_ok V v0 pod qs w1 s s' rs' RR E2) as (w2 & R2 & _).
  exists w2. rewrite (run_app V v0 pod ps qs _ _ _ R1), R2. reflexivity.
Qed.

(** Every program to which the specification gives results runs to its end, with
    these results: no access outside an allocation, to an element that is not
    there, or to memory that has been freed. *)
Theorem C60_refines : forall V (v0 : V) pod ps s rs, srun V v0 [] ps = Some (s, rs) ->
  exists w, run V v0 pod init ps = Done (w, rs).
Proof.
  intros V v0 pod ps s rs E. destruct (reached V v0 pod ps s rs E) as (w & R1 & _). exists w. exact R1.
Qed.
Print Assumptions C60_refines.

Definition story : list (op N) :=
  [ONewVec 10 4; OPushBack 0 (PVal 7%N); OPushBack 0 (PElem 0 0); OSet 0 11 (PVal 5%N); OCopy 0; OPopBack 0;
   OAssign 0 1; OMove 1; OAssignRange 2 [PVal 1%N; PElem 0 1; PVal 3%N]; OBack 2; OGet 2 12; OIterate 0; OSize 1;
   ODestroy 0; OSwap 1 2; OIterate 1; OClear 1; OCapacity 1].

Example C60_refines_ex : exists s,
  srun N 0%N [] story =
  Some (s, [RUnit; RUnit; RUnit; RUnit; RUnit; RUnit; RUnit; RUnit; RUnit; RVal 3%N; RVal 3%N; RList [7%N; 5%N];
            RNum 0; RUnit; RUnit; RList [1%N; 5%N; 3%N]; RUnit; RNum 4]) /\
  s = [None; Some (AVec 10 4 []); Some (AVec 10 0 [])].
Proof. eexists. split; vm_compute; reflexivity. Qed.

(** Where the specification says that an assertion fails, it does. *)
Theorem C60_asserts : forall V (v0 : V) pod ps s rs p, srun V v0 [] ps = Some (s, rs) ->
  sstep V v0 s p = SAssert -> run V v0 pod init (ps ++ [p]) = AssertFail.
Proof.
  intros V v0 pod ps s rs p E A. destruct (reached V v0 pod ps s rs E) as (w & R1 & RR).
  rewrite (run_app V v0 pod ps [p] _ _ _ R1). cbn [run].
  pose proof (step_ok V v0 pod w s p RR) as C. unfold correct in C. rewrite A in C. rewrite C. reflexivity.
Qed.
Print Assumptions C60_asserts.

Example C60_asserts_ex : exists s rs, srun N 0%N [] [ONewVec 10 1; OPushBack 0 (PVal 7%N)] = Some (s, rs) /\
  Forall (fun p => sstep N 0%N s p = SAssert)
    [OPushBack 0 (PVal 8%N); OGet 0 9; OGet 0 11; OGet 0 (2 ^ 64 - 1); OAssignN 0 2 (PVal 1%N)].
Proof. eexists. eexists. split; [vm_compute; reflexivity|]. repeat constructor. Qed.

(** Memory: every allocation is held by exactly one container at any time, so
    that nothing is shared and nothing is lost. *)
Theorem C60_memory : forall V (v0 : V) pod ps s rs w, srun V v0 [] ps = Some (s, rs) ->
  run V v0 pod init ps = Done (w, rs) ->
  (forall b blk, nth_error (w_heap w) b = Some (Some blk) ->
     exists o x, nth_error (w_objs w) o = Some (Some x) /\ data_of x = Some b) /\
  (forall o x b, nth_error (w_objs w) o = Some (Some x) -> data_of x = Some b ->
     exists blk, nth_error (w_heap w) b = Some (Some blk)) /\
  (forall o o' x x' b, nth_error (w_objs w) o = Some (Some x) -> nth_error (w_objs w) o' = Some (Some x') ->
     data_of x = Some b -> data_of x' = Some b -> o = o').
Proof.
  intros V v0 pod ps s rs w E R1. destruct (reached V v0 pod ps s rs E) as (w' & R2 & RR).
  rewrite R1 in R2. injection R2 as <-. pose proof RR as (_ & INJ & OWN). split; [exact OWN|]. split; [|exact INJ].
  intros o x b Ex D. destruct (R_cell V pod _ _ _ o x RR Ex) as (a & Ea & [_ H]). rewrite D in H.
  destruct H as (rest & B & _). eexists. exact B.
Qed.
Print Assumptions C60_memory.

(** ... and once every container is destroyed, every allocation is freed. *)
Theorem C60_no_leak : forall V (v0 : V) pod ps s rs w, srun V v0 [] ps = Some (s, rs) ->
  run V v0 pod init ps = Done (w, rs) -> (forall o, aobj_at s o = None) ->
  Forall (fun b => b = None) (w_heap w).
Proof.
  intros V v0 pod ps s rs w E R1 D. destruct (reached V v0 pod ps s rs E) as (w' & R2 & RR).
  rewrite R1 in R2. injection R2 as <-. apply Forall_forall. intros [blk|] H; [|reflexivity]. exfalso.
  apply In_nth_error in H. destruct H as [b H]. pose proof RR as (_ & _ & OWN).
  destruct (OWN b blk H) as (o & x & Ex & _). destruct (R_cell V pod _ _ _ o x RR Ex) as (a & Ea & _).
  specialize (D o). unfold aobj_at in D. rewrite Ea in D. discriminate.
Qed.
Print Assumptions C60_no_leak.

Example C60_memory_ex : exists s rs w, srun N 0%N [] (story ++ [ODestroy 1; ODestroy 2]) = Some (s, rs) /\
  run N 0%N false init (story ++ [ODestroy 1; ODestroy 2]) = Done (w, rs) /\
  s = [None; None; None] /\ length (w_heap w) = 3.
Proof. eexists. eexists. eexists. split; [vm_compute; reflexivity|]. split; [vm_compute; reflexivity|]. split; reflexivity. Qed.

(** Containers are independent: a statement that names only other containers,
    as its target or its source, leaves a container's elements alone. *)
Definition names {V} (o : nat) (p : op V) : bool :=
  match p with
  | OMove x | ODestroy x | OSet x _ _ | OSet2 x _ _ _ | OFill x _ | OFill1 x _ _ | OFill2 x _ _
  | OAssignN x _ _ | OAssignRange x _ | OPushBack x _ | OPopBack x | OClear x => (o =? x)%nat
  | OAssign d _ => (o =? d)%nat
  | OMoveAssign d f => (o =? d)%nat || (o =? f)%nat
  | OSwap a b => (o =? a)%nat || (o =? b)%nat
  | _ => false
  end.

Lemma sstep_other V (v0 : V) o p s s' r a : sstep V v0 s p = SOk s' r -> names o p = false -> aobj_at s o = Some a ->
  aobj_at s' o = Some a.
Proof.
  intros E NM A. assert (LO : o < length s).
  { unfold aobj_at in A. destruct (nth_error s o) eqn:Q; [eapply nth_lt, Q|discriminate]. }
  assert (GR : forall b, aobj_at (s ++ [b]) o = Some a).
  { intros b. unfold aobj_at in *. rewrite nth_error_app1 by exact LO. exact A. }
  assert (UP : forall t x b, (o =? x)%nat = false -> aobj_at t o = Some a -> aobj_at (upd t x b) o = Some a).
  { intros t x b N T. unfold aobj_at in *. rewrite nth_upd_neq; [exact T|]. apply Nat.eqb_neq in N. congruence. }
  destruct p; cbn [names] in NM; cbn [sstep] in E; unfold snew, sput, sskip, sread in E;
    try (apply Bool.orb_false_iff in NM; destruct NM as [NM NM']);
    repeat match type of E with
           | context [match ?q with _ => _ end] => destruct q eqn:?; try discriminate E
           end;
    injection E as <- <-; try exact A; try apply GR; try (apply UP; assumption);
    try (apply UP; [assumption|apply UP; assumption]).
  unfold aobj_at in *. rewrite nth_error_app1 by (rewrite upd_length; exact LO).
  apply (UP s); assumption.
Qed.

Theorem C60_independent : forall V (v0 : V) pod ps s rs o a qs s' rs', srun V v0 [] ps = Some (s, rs) ->
  aobj_at s o = Some a -> forallb (fun p => negb (names o p)) qs = true -> srun V v0 s qs = Some (s', rs') ->
  exists w, run V v0 pod init (ps ++ [OIterate o] ++ qs ++ [OIterate o]) =
            Done (w, rs ++ [RList (contents a)] ++ rs' ++ [RList (contents a)]).
Proof.
  intros V v0 pod ps s rs o a qs s' rs' E A F Q.
  assert (A' : aobj_at s' o = Some a).
  { clear E. revert s rs' A Q. induction qs as [|q qs IH]; intros s rs' A Q; cbn [srun forallb] in *.
    - injection Q as <- <-. exact A.
    - apply Bool.andb_true_iff in F. destruct F as [F1 F2]. apply Bool.negb_true_iff in F1.
      destruct (sstep V v0 s q) as [s1 r1| |] eqn:E1; try discriminate.
      destruct (srun V v0 s1 qs) as [[s2 rs2]|] eqn:E2; [|discriminate]. injection Q as <- <-.
      exact (IH F2 s1 rs2 (sstep_other V v0 o q s s1 r1 a E1 F1 A) E2). }
  assert (SQ : forall t t' rt, srun V v0 t qs = Some (t', rt) -> aobj_at t' o = Some a ->
               srun V v0 t (qs ++ [OIterate o]) = Some (t', rt ++ [RList (contents a)])).
  { clear. induction qs as [|q qs IH]; intros t t' rt Q A; cbn [srun app] in *.
    - injection Q as <- <-. cbn [sstep]. rewrite A. reflexivity.
    - destruct (sstep V v0 t q) as [s1 r1| |]; try discriminate.
      destruct (srun V v0 s1 qs) as [[s2 rs2]|] eqn:E2; [|discriminate]. injection Q as <- <-.
      rewrite (IH s1 s2 rs2 E2 A). reflexivity. }
  apply (after V v0 pod ps s rs _ s' _ E). cbn [app srun sstep]. rewrite A.
  rewrite (SQ s s' rs' Q A'). reflexivity.
Qed.
Print Assumptions C60_independent.

Example C60_independent_ex : exists s rs s' rs', srun N 0%N [] [ONewVecFill 0 4 2 (PVal 7%N); OCopy 0] = Some (s, rs) /\
  aobj_at s 0 = Some (AVec 0 4 [7%N; 7%N]) /\
  srun N 0%N s [OSet 1 0 (PVal 1%N); OPushBack 1 (PElem 0 1); OClear 1; OAssign 1 0; ODestroy 1] = Some (s', rs').
Proof. eexists. eexists. eexists. eexists. split; [vm_compute; reflexivity|]. split; vm_compute; reflexivity. Qed.

(** [assign] is documented as replacing the contents, and the vector keeps its
    old size if that is larger (so does the specification above). *)
Theorem C60_assign_refuted : exists w,
  run N 0%N true init [ONewVecFill 0 4 3 (PVal 7%N); OAssignN 0 1 (PVal 1%N); OSize 0; OIterate 0] =
  Done (w, [RUnit; RUnit; RNum 3; RList [1%N; 7%N; 7%N]]).
Proof. eexists. vm_compute. reflexivity. Qed.
Print Assumptions C60_assign_refuted.

(** What [assign] does do, for every vector. *)
Theorem C60_assign : forall V (v0 : V) pod ps s rs o base cap l n v, srun V v0 [] ps = Some (s, rs) ->
  aobj_at s o = Some (AVec base cap l) -> (n <= cap)%N ->
  exists w, run V v0 pod init (ps ++ [OAssignN o n (PVal v); OIterate o]) =
            Done (w, rs ++ [RUnit; RList (repeat v (N.to_nat n) ++ skipn (N.to_nat n) l)]).
Proof.
  intros V v0 pod ps s rs o base cap l n v E A H. eapply after; [exact E|].
  cbn [srun sstep]. rewrite A. cbn [sval refers]. destruct (N.leb_spec n cap); [|lia].
  unfold sput. cbn [srun sstep]. unfold aobj_at in A.
  destruct (nth_error s o) as [q|] eqn:Q; [|discriminate].
  unfold aobj_at. rewrite nth_upd_eq by (eapply nth_lt, Q). reflexivity.
Qed.
Print Assumptions C60_assign.

Example C60_assign_ex : exists s rs, srun N 0%N [] [ONewVecFill 3 4 2 (PVal 7%N)] = Some (s, rs) /\
  aobj_at s 0 = Some (AVec 3 4 [7%N; 7%N]) /\ (3 <= 4)%N.
Proof. eexists. eexists. split; [vm_compute; reflexivity|]. split; [reflexivity|lia]. Qed.

(** A constructor is given a capacity and a size: nothing checks the size. *)
Theorem C60_constructor_refuted :
  run N 0%N true init [ONewVecFill 0 2 3 (PVal 7%N)] = UB.
Proof. vm_compute. reflexivity. Qed.
Print Assumptions C60_constructor_refuted.

(** [v.assign(n, v[k])] for elements that are not plain data: the elements are
    destroyed before the argument is read. *)
Theorem C60_assign_own_refuted :
  run N 0%N false init [ONewVecFill 0 4 2 (PVal 7%N); OAssignN 0 3 (PElem 0 1)] = UB.
Proof. vm_compute. reflexivity. Qed.
Print Assumptions C60_assign_own_refuted.

(** * C61: matrices *)

(** In both layouts, a pair of indices addresses an element inside the
    allocation, and different pairs address different elements. *)
Theorem C61_cells : forall L Ib Jb r c i j i' j' k k', (Ib < 2 ^ 64)%N -> (Jb < 2 ^ 64)%N ->
  (r < 2 ^ 64)%N -> (c < 2 ^ 64)%N ->
  mat_offset L Ib Jb r c i j = Done k -> mat_offset L Ib Jb r c i' j' = Done k' ->
  (k < r * c)%N /\ (k = k' -> i = i' /\ j = j').
Proof.
  intros L Ib Jb r c i j i' j' k k' HI HJ HR HC E E'.
  rewrite mat_offset_ok in E, E' by assumption.
  destruct (index Ib r i) as [a|] eqn:A; [|discriminate]. destruct (index Jb c j) as [b|] eqn:B; [|discriminate].
  destruct (index Ib r i') as [a'|] eqn:A'; [|discriminate]. destruct (index Jb c j') as [b'|] eqn:B'; [|discriminate].
  injection E as <-. injection E' as <-. apply index_some in A, B, A', B'. split.
  - pose proof (pos_lt L (N.to_nat r) (N.to_nat c) a b ltac:(lia) ltac:(lia)). lia.
  - intros E. apply Nat2N.inj in E. apply pos_inj in E; lia.
Qed.
Print Assumptions C61_cells.

Example C61_cells_ex : mat_offset ColumnMajor 5 6 3 2 7 7 = Done 5%N /\ mat_offset RowMajor 5 6 3 2 7 7 = Done 5%N /\
  mat_offset ColumnMajor 5 6 3 2 6 7 = Done 4%N /\ mat_offset RowMajor 5 6 3 2 6 7 = Done 3%N.
Proof. repeat split. Qed.

Definition is_matrix {V} (s : sworld V) (o : nat) (L : layout) (Ib Jb r c : N) : Prop :=
  exists m, aobj_at s o = Some (AMat L Ib Jb r c m) /\ (Ib + r < 2 ^ 64)%N /\ (Jb + c < 2 ^ 64)%N.

Lemma index_at base n k : (k < n)%N -> (base + n < 2 ^ 64)%N -> index base n (base + k) = Some (N.to_nat k).
Proof.
  intros H K. unfold index. destruct (N.leb_spec base (base + k)); [|lia].
  destruct (N.ltb_spec (base + k) (base + n)); [|lia]. destruct (N.ltb_spec (base + n) (2 ^ 64)); [|lia].
  cbn [andb]. f_equal. lia.
Qed.

Lemma matrix_wf V v0 ps s rs o L Ib Jb r c m : srun V v0 [] ps = Some (s, rs) ->
  aobj_at s o = Some (AMat L Ib Jb r c m) -> wfm V (N.to_nat r) (N.to_nat c) m.
Proof.
  intros E A. destruct (reached V v0 true ps s rs E) as (w & _ & RR).
  destruct (at_cases V true w s o RR) as [(x & a & _ & Ea & [S _] & _)|[_ Ea]]; [|congruence].
  assert (a = AMat L Ib Jb r c m) as -> by congruence.
  destruct x; try contradiction. apply S.
Qed.

Lemma at_upd V (s : sworld V) o a b : aobj_at s o = Some a -> aobj_at (upd s o (Some b)) o = Some b.
Proof.
  unfold aobj_at. destruct (nth_error s o) eqn:Q; [|discriminate]. intros _.
  rewrite nth_upd_eq by (eapply nth_lt, Q). reflexivity.
Qed.

(** Setting a cell changes this cell and no other. *)
Theorem C61_set_get : forall V (v0 : V) pod ps s rs o L Ib Jb r c i j i' j' v,
  srun V v0 [] ps = Some (s, rs) -> is_matrix s o L Ib Jb r c ->
  (i < r)%N -> (j < c)%N -> (i' < r)%N -> (j' < c)%N ->
  exists w u, run V v0 pod init
                (ps ++ [OGet2 o (Ib + i') (Jb + j'); OSet2 o (Ib + i) (Jb + j) (PVal v); OGet2 o (Ib + i') (Jb + j')]) =
              Done (w, rs ++ [RVal u; RUnit; RVal (if (i =? i')%N && (j =? j')%N then v else u)]).
Proof.
  intros V v0 pod ps s rs o L Ib Jb r c i j i' j' v E (m & A & HI & HJ) Hi Hj Hi' Hj'.
  pose proof (matrix_wf V v0 ps s rs o L Ib Jb r c m E A) as W.
  destruct (wfm_cell V _ _ m (N.to_nat i') (N.to_nat j') W) as [u U]; [lia|lia|].
  enough (X : exists s', srun V v0 s [OGet2 o (Ib + i') (Jb + j'); OSet2 o (Ib + i) (Jb + j) (PVal v);
                OGet2 o (Ib + i') (Jb + j')] =
              Some (s', [RVal u; RUnit; RVal (if (i =? i')%N && (j =? j')%N then v else u)])).
  { destruct X as [s' X]. destruct (after V v0 pod ps s rs _ _ _ E X) as [w Rw]. exists w, u. exact Rw. }
  cbn [srun sstep]. rewrite A. rewrite !index_at by assumption. rewrite U. cbn [sread srun sstep]. rewrite A.
  rewrite !index_at by assumption. cbn [sval]. unfold sput. cbn [srun sstep]. rewrite (at_upd V s o _ _ A).
  rewrite !index_at by assumption.
  rewrite (get_set V (N.to_nat r) (N.to_nat c)) by (assumption || lia).
  replace (N.to_nat i =? N.to_nat i')%nat with (i =? i')%N by lia.
  replace (N.to_nat j =? N.to_nat j')%nat with (j =? j')%N by lia.
  destruct ((i =? i')%N && (j =? j')%N); [|rewrite U]; cbn [sread srun]; eexists; reflexivity.
Qed.
Print Assumptions C61_set_get.

Definition mat_story (L : layout) : list (op N) :=
  [ONewMatFill L 1 2 3 2 (PVal 9%N); OSet2 0 1 2 (PVal 1%N); OSet2 0 3 3 (PVal 6%N); OFill2 0 3 (PVal 4%N);
   OFill1 0 2 (PVal 5%N)].

Example C61_set_get_ex : forall L, exists s rs, srun N 0%N [] (mat_story L) = Some (s, rs) /\ is_matrix s 0 L 1 2 3 2.
Proof.
  intros L. eexists. eexists. split; [destruct L; vm_compute; reflexivity|]. unfold is_matrix.
  destruct L; (eexists; split; [reflexivity|split; reflexivity]).
Qed.

(** Filling a row changes exactly the cells of this row. *)
Theorem C61_fill1 : forall V (v0 : V) pod ps s rs o L Ib Jb r c i i' j' v,
  srun V v0 [] ps = Some (s, rs) -> is_matrix s o L Ib Jb r c ->
  (i < r)%N -> (i' < r)%N -> (j' < c)%N ->
  exists w u, run V v0 pod init
                (ps ++ [OGet2 o (Ib + i') (Jb + j'); OFill1 o (Ib + i) (PVal v); OGet2 o (Ib + i') (Jb + j')]) =
              Done (w, rs ++ [RVal u; RUnit; RVal (if (i =? i')%N then v else u)]).
Proof.
  intros V v0 pod ps s rs o L Ib Jb r c i i' j' v E (m & A & HI & HJ) Hi Hi' Hj'.
  pose proof (matrix_wf V v0 ps s rs o L Ib Jb r c m E A) as W.
  destruct (wfm_cell V _ _ m (N.to_nat i') (N.to_nat j') W) as [u U]; [lia|lia|].
  enough (X : exists s', srun V v0 s [OGet2 o (Ib + i') (Jb + j'); OFill1 o (Ib + i) (PVal v);
                OGet2 o (Ib + i') (Jb + j')] =
              Some (s', [RVal u; RUnit; RVal (if (i =? i')%N then v else u)])).
  { destruct X as [s' X]. destruct (after V v0 pod ps s rs _ _ _ E X) as [w Rw]. exists w, u. exact Rw. }
  cbn [srun sstep]. rewrite A. rewrite !index_at by assumption. rewrite U. cbn [sread srun sstep]. rewrite A.
  cbn [sval]. rewrite !index_at by assumption. unfold sput. cbn [srun sstep]. rewrite (at_upd V s o _ _ A).
  rewrite !index_at by assumption.
  rewrite (get_fill1 V (N.to_nat r) (N.to_nat c)) by (assumption || lia).
  replace (N.to_nat i =? N.to_nat i')%nat with (i =? i')%N by lia.
  destruct (Nat.ltb_spec (N.to_nat j') (N.to_nat c)); [|lia].
  destruct (i =? i')%N; [|rewrite U]; cbn [sread srun]; eexists; reflexivity.
Qed.
Print Assumptions C61_fill1.
Example C61_fill1_ex : forall L, exists s rs, srun N 0%N [] (mat_story L) = Some (s, rs) /\ is_matrix s 0 L 1 2 3 2 /\ (2 < 3)%N.
Proof.
  intros L. destruct (C61_set_get_ex L) as (s & rs & E & M). exists s, rs. split; [exact E|]. split; [exact M|lia].
Qed.

(** Filling a column changes exactly the cells of this column, provided that the
    number of the column is also below the number of rows. *)
Theorem C61_fill2_partial : forall V (v0 : V) pod ps s rs o L Ib Jb r c j i' j' v,
  srun V v0 [] ps = Some (s, rs) -> is_matrix s o L Ib Jb r c ->
  (j < c)%N -> (j < r)%N -> (Jb + r < 2 ^ 64)%N -> (i' < r)%N -> (j' < c)%N ->
  exists w u, run V v0 pod init
                (ps ++ [OGet2 o (Ib + i') (Jb + j'); OFill2 o (Jb + j) (PVal v); OGet2 o (Ib + i') (Jb + j')]) =
              Done (w, rs ++ [RVal u; RUnit; RVal (if (j =? j')%N then v else u)]).
Proof.
  intros V v0 pod ps s rs o L Ib Jb r c j i' j' v E (m & A & HI & HJ) Hj Hjr HB Hi' Hj'.
  pose proof (matrix_wf V v0 ps s rs o L Ib Jb r c m E A) as W.
  destruct (wfm_cell V _ _ m (N.to_nat i') (N.to_nat j') W) as [u U]; [lia|lia|].
  enough (X : exists s', srun V v0 s [OGet2 o (Ib + i') (Jb + j'); OFill2 o (Jb + j) (PVal v);
                OGet2 o (Ib + i') (Jb + j')] =
              Some (s', [RVal u; RUnit; RVal (if (j =? j')%N then v else u)])).
  { destruct X as [s' X]. destruct (after V v0 pod ps s rs _ _ _ E X) as [w Rw]. exists w, u. exact Rw. }
  cbn [srun sstep]. rewrite A. rewrite !index_at by assumption. rewrite U. cbn [sread srun sstep]. rewrite A.
  cbn [sval]. rewrite !index_at by assumption. destruct (N.ltb_spec (N.of_nat (N.to_nat j)) c); [|lia].
  unfold sput. cbn [srun sstep]. rewrite (at_upd V s o _ _ A).
  rewrite !index_at by assumption.
  rewrite (get_fill2 V (N.to_nat r) (N.to_nat c)) by (assumption || lia).
  replace (N.to_nat j =? N.to_nat j')%nat with (j =? j')%N by lia.
  destruct (Nat.ltb_spec (N.to_nat i') (N.to_nat r)); [|lia].
  destruct (j =? j')%N; [|rewrite U]; cbn [sread srun]; eexists; reflexivity.
Qed.
Print Assumptions C61_fill2_partial.
Example C61_fill2_partial_ex : forall L, exists s rs, srun N 0%N [] (mat_story L) = Some (s, rs) /\ is_matrix s 0 L 1 2 3 2 /\
  (1 < 2)%N /\ (1 < 3)%N /\ (2 + 3 < 2 ^ 64)%N.
Proof.
  intros L. destruct (C61_set_get_ex L) as (s & rs & E & M). exists s, rs. split; [exact E|]. split; [exact M|]. repeat split.
Qed.

(** [fill2] checks the column against the number of rows: a column that exists is
    refused in a wide matrix, and one that does not exist is written, outside of
    the allocation, in a tall one. *)
Theorem C61_fill2_refuted : forall L,
  run N 0%N true init [ONewMat L 0 0 2 3; OFill2 0 2 (PVal 1%N)] = AssertFail /\
  run N 0%N true init [ONewMat L 0 0 3 2; OFill2 0 2 (PVal 1%N)] = UB.
Proof. intros []; split; vm_compute; reflexivity. Qed.
Print Assumptions C61_fill2_refuted.

(** In general: every existing column whose number is not below the number of
    rows is refused. *)
Theorem C61_fill2_refuses : forall V (v0 : V) pod ps s rs o L Ib Jb r c j v,
  srun V v0 [] ps = Some (s, rs) -> is_matrix s o L Ib Jb r c -> (r <= j)%N -> (j < c)%N ->
  run V v0 pod init (ps ++ [OFill2 o (Jb + j) (PVal v)]) = AssertFail.
Proof.
  intros V v0 pod ps s rs o L Ib Jb r c j v E (m & A & HI & HJ) Hr Hj. eapply C60_asserts; [exact E|].
  cbn [sstep]. rewrite A. cbn [sval]. unfold index.
  destruct (N.leb_spec Jb (Jb + j)); [|lia]. destruct (N.ltb_spec (Jb + j) (Jb + r)); [lia|]. reflexivity.
Qed.
Print Assumptions C61_fill2_refuses.
Example C61_fill2_refuses_ex : exists s rs, srun N 0%N [] [ONewMat RowMajor 0 5 2 4] = Some (s, rs) /\
  is_matrix s 0 RowMajor 0 5 2 4 /\ (2 <= 3)%N /\ (3 < 4)%N.
Proof.
  eexists. eexists. split; [vm_compute; reflexivity|]. split; [|lia]. eexists. split; [reflexivity|split; reflexivity].
Qed.

(** [fill] sets every cell. *)
Theorem C61_fill : forall V (v0 : V) pod ps s rs o L Ib Jb r c i j v,
  srun V v0 [] ps = Some (s, rs) -> is_matrix s o L Ib Jb r c -> (i < r)%N -> (j < c)%N ->
  exists w, run V v0 pod init (ps ++ [OFill o (PVal v); OGet2 o (Ib + i) (Jb + j)]) =
            Done (w, rs ++ [RUnit; RVal v]).
Proof.
  intros V v0 pod ps s rs o L Ib Jb r c i j v E (m & A & HI & HJ) Hi Hj.
  pose proof (matrix_wf V v0 ps s rs o L Ib Jb r c m E A) as W.
  destruct (wfm_cell V _ _ m (N.to_nat i) (N.to_nat j) W) as [u U]; [lia|lia|].
  eapply after; [exact E|]. cbn [srun sstep]. rewrite A. cbn [sval]. unfold sput. cbn [srun sstep].
  rewrite (at_upd V s o _ _ A). rewrite !index_at by assumption. rewrite get_fill, U. reflexivity.
Qed.
Print Assumptions C61_fill.
Example C61_fill_ex : forall L, exists s rs, srun N 0%N [] (mat_story L) = Some (s, rs) /\ is_matrix s 0 L 1 2 3 2 /\ (2 < 3)%N.
Proof. exact C61_fill1_ex. Qed.

(** [begin ()] to [end ()] yields one value for each cell, the value of that
    cell, at the position [mat_offset] gives. *)
Theorem C61_iterate : forall V (v0 : V) pod ps s rs o L Ib Jb r c,
  srun V v0 [] ps = Some (s, rs) -> is_matrix s o L Ib Jb r c ->
  exists w l, run V v0 pod init (ps ++ [OIterate o]) = Done (w, rs ++ [RList l]) /\
    length l = N.to_nat (r * c) /\
    forall i j, (i < r)%N -> (j < c)%N ->
      exists w' k u, mat_offset L Ib Jb r c (Ib + i) (Jb + j) = Done k /\ nth_error l (N.to_nat k) = Some u /\
        run V v0 pod init (ps ++ [OGet2 o (Ib + i) (Jb + j)]) = Done (w', rs ++ [RVal u]).
Proof.
  intros V v0 pod ps s rs o L Ib Jb r c E (m & A & HI & HJ).
  pose proof (matrix_wf V v0 ps s rs o L Ib Jb r c m E A) as W.
  destruct (after V v0 pod ps s rs [OIterate o] s [RList (storage L c m)] E) as [w Rw].
  { cbn [srun sstep]. rewrite A. reflexivity. }
  exists w, (storage L c m). split; [exact Rw|]. split; [rewrite (storage_length V L (N.to_nat r)) by exact W; lia|].
  intros i j Hi Hj. destruct (wfm_cell V _ _ m (N.to_nat i) (N.to_nat j) W) as [u U]; [lia|lia|].
  destruct (after V v0 pod ps s rs [OGet2 o (Ib + i) (Jb + j)] s [RVal u] E) as [w' Rw'].
  { cbn [srun sstep]. rewrite A, !index_at by assumption. rewrite U. reflexivity. }
  exists w'. rewrite mat_offset_ok by lia. rewrite !index_at by assumption. eexists. exists u.
  split; [reflexivity|]. split; [|exact Rw']. rewrite Nat2N.id, (storage_nth V L (N.to_nat r)) by (assumption || lia).
  exact U.
Qed.
Print Assumptions C61_iterate.
Example C61_iterate_ex : forall L, exists w rs, run N 0%N true init (mat_story L ++ [OIterate 0]) =
  Done (w, rs ++ [RList (match L with RowMajor => [1; 4; 5; 5; 9; 4]%N | ColumnMajor => [1; 5; 9; 4; 5; 4]%N end)]).
Proof.
  intros []; eexists; exists [RUnit; RUnit; RUnit; RUnit; RUnit]; vm_compute; reflexivity.
Qed.

(** The iterators over a row visit its cells from the first column to the last,
    and are as far apart as there are columns. *)
Theorem C61_row : forall V (v0 : V) pod ps s rs o L Ib Jb r c i,
  srun V v0 [] ps = Some (s, rs) -> is_matrix s o L Ib Jb r c -> (i < r)%N ->
  exists w l, run V v0 pod init (ps ++ [ORow o (Ib + i); ORowSize o (Ib + i)]) =
                Done (w, rs ++ [RList l; RInt (Z.of_N c)]) /\
    length l = N.to_nat c /\
    forall j, (j < c)%N -> exists w' u, nth_error l (N.to_nat j) = Some u /\
      run V v0 pod init (ps ++ [OGet2 o (Ib + i) (Jb + j); ORowNth o (Ib + i) (Z.of_N j)]) =
        Done (w', rs ++ [RVal u; RVal u]).
Proof.
  intros V v0 pod ps s rs o L Ib Jb r c i E (m & A & HI & HJ) Hi.
  pose proof (matrix_wf V v0 ps s rs o L Ib Jb r c m E A) as W.
  destruct (wfm_row V _ _ m (N.to_nat i) W) as (row & ER & LR); [lia|].
  destruct (after V v0 pod ps s rs [ORow o (Ib + i); ORowSize o (Ib + i)] s [RList row; RInt (Z.of_N c)] E) as [w Rw].
  { cbn [srun sstep]. rewrite A, !index_at by assumption. rewrite ER. cbn [srun sstep].
    rewrite A, !index_at by assumption. reflexivity. }
  exists w, row. split; [exact Rw|]. split; [exact LR|].
  intros j Hj. destruct (wfm_cell V _ _ m (N.to_nat i) (N.to_nat j) W) as [u U]; [lia|lia|].
  destruct (after V v0 pod ps s rs [OGet2 o (Ib + i) (Jb + j); ORowNth o (Ib + i) (Z.of_N j)] s [RVal u; RVal u] E) as [w' Rw'].
  { cbn [srun sstep]. rewrite A, !index_at by assumption. rewrite U. cbn [sread srun sstep].
    rewrite A, !index_at by assumption. destruct (Z.leb_spec 0 (Z.of_N j)); [|lia].
    replace (Z.to_nat (Z.of_N j)) with (N.to_nat j) by lia. rewrite U. reflexivity. }
  exists w', u. split; [|exact Rw']. unfold get_cell in U. rewrite ER in U. exact U.
Qed.
Print Assumptions C61_row.
Example C61_row_ex : forall L, exists s rs, srun N 0%N [] (mat_story L) = Some (s, rs) /\ is_matrix s 0 L 1 2 3 2 /\ (2 < 3)%N.
Proof. exact C61_fill1_ex. Qed.

(** The iterators over a column visit its cells from the first row to the last. *)
Theorem C61_column : forall V (v0 : V) pod ps s rs o L Ib Jb r c j,
  srun V v0 [] ps = Some (s, rs) -> is_matrix s o L Ib Jb r c -> (j < c)%N ->
  exists w l, run V v0 pod init (ps ++ [OColumn o (Jb + j); OColumnSize o (Jb + j)]) =
                Done (w, rs ++ [RList l; RInt (Z.of_N r)]) /\
    length l = N.to_nat r /\
    forall i, (i < r)%N -> exists w' u, nth_error l (N.to_nat i) = Some u /\
      run V v0 pod init (ps ++ [OGet2 o (Ib + i) (Jb + j); OColumnNth o (Jb + j) (Z.of_N i)]) =
        Done (w', rs ++ [RVal u; RVal u]).
Proof.
  intros V v0 pod ps s rs o L Ib Jb r c j E (m & A & HI & HJ) Hj.
  pose proof (matrix_wf V v0 ps s rs o L Ib Jb r c m E A) as W.
  destruct (after V v0 pod ps s rs [OColumn o (Jb + j); OColumnSize o (Jb + j)] s
              [RList (column (N.to_nat j) m); RInt (Z.of_N r)] E) as [w Rw].
  { cbn [srun sstep]. rewrite A, !index_at by assumption. cbn [srun sstep].
    rewrite A, !index_at by assumption. reflexivity. }
  exists w, (column (N.to_nat j) m). split; [exact Rw|].
  split; [apply (column_length V _ (N.to_nat c)); [exact W|lia]|].
  intros i Hi. destruct (wfm_cell V _ _ m (N.to_nat i) (N.to_nat j) W) as [u U]; [lia|lia|].
  destruct (after V v0 pod ps s rs [OGet2 o (Ib + i) (Jb + j); OColumnNth o (Jb + j) (Z.of_N i)] s [RVal u; RVal u] E) as [w' Rw'].
  { cbn [srun sstep]. rewrite A, !index_at by assumption. rewrite U. cbn [sread srun sstep].
    rewrite A, !index_at by assumption. destruct (Z.leb_spec 0 (Z.of_N i)); [|lia].
    replace (Z.to_nat (Z.of_N i)) with (N.to_nat i) by lia. rewrite U. reflexivity. }
  exists w', u. split; [|exact Rw'].
  rewrite (column_nth V (N.to_nat r) (N.to_nat c)) by (assumption || lia). exact U.
Qed.
Print Assumptions C61_column.
Example C61_column_ex : forall L, exists s rs, srun N 0%N [] (mat_story L) = Some (s, rs) /\ is_matrix s 0 L 1 2 3 2 /\ (1 < 2)%N.
Proof.
  intros L. destruct (C61_set_get_ex L) as (s & rs & E & M). exists s, rs. split; [exact E|]. split; [exact M|lia].
Qed.

(** The number of elements is computed in 64 bits: a matrix whose dimensions are
    accepted by the constructor may have no allocation at all, and reading a cell
    goes through a null pointer. *)
Theorem C61_size_refuted : forall L,
  run N 0%N true init [ONewMat L 0 0 (2 ^ 62) 4; OGet2 0 1 1] = UB /\
  exists w, run N 0%N true init [ONewMat L 0 0 (2 ^ 62) 4; OSize 0] = Done (w, [RUnit; RNum 0]).
Proof. intros []; (split; [|eexists]; vm_compute; reflexivity). Qed.
Print Assumptions C61_size_refuted.

(** The free function [detail::bi_matrix_end] is at [rows + columns] elements
    from the beginning: the elements after it are missed, or the range leaves the
    allocation. *)
Theorem C61_detail_end_refuted : forall L d,
  it_off (detail_end (Mat L 0 0 3 4 d)) = 7%Z /\ it_off (end_it (Mat L 0 0 3 4 d)) = 12%Z /\
  it_off (detail_end (Mat L 0 0 1 4 d)) = 5%Z /\ it_off (end_it (Mat L 0 0 1 4 d)) = 4%Z.
Proof. intros L d. repeat split. Qed.
Print Assumptions C61_detail_end_refuted.
