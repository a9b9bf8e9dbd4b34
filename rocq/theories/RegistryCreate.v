(** Lemmas on [CreateObject]. *)
From Verif Require Import Base BaseProofs Component ComponentSpec ComponentProofs ComponentOps ComponentSteps ComponentRuns ComponentProps.
From Verif Require Registry.
From Coq Require Import ZifyBool ZifyNat ZifyN.

(** What is deleted stays deleted. *)
Definition deleted (h : heap) (a : nat) : Prop := exists c, nth_error h a = Some c /\ c_alive c = false.

Lemma deleted_upd h a b c c' : deleted h a -> get h b = Done c -> deleted (upd h b c') a.
Proof.
  intros (x & E & A) G. unfold get in G. destruct (nth_error h b) as [y|] eqn:Eb; [|discriminate].
  destruct (c_alive y) eqn:Ay; [|discriminate]. exists x. split; [|auto].
  rewrite nth_upd_neq; [auto|]. intros ->. congruence.
Qed.
Lemma run_work_deleted fuel : forall ws h h' a, deleted h a -> run_work fuel ws h = Done h' -> deleted h' a.
Proof.
  induction fuel as [|fuel IH]; intros [|x ws] h h' a D; cbn [run_work]; try (now intros [= <-]); try discriminate.
  destruct x as [b|b].
  - destruct (counted (S b) h b) as [[r|]| | |]; cbn [obind]; try discriminate; [|apply IH; auto].
    destruct (get h r) as [c| | |] eqn:G; cbn [obind]; try discriminate.
    destruct (c_rc (set_rc c (c_rc c - 1)) =? 0)%Z; apply IH; eapply deleted_upd; eauto.
  - destruct (get h b) as [c| | |] eqn:G; cbn [obind]; try discriminate.
    destruct (c_kind c); try discriminate.
    + destruct (c_rc (set_rc c (c_rc c - 1)) =? 0)%Z; apply IH; eapply deleted_upd; eauto.
    + apply IH. eapply deleted_upd; eauto.
    + apply IH. eapply deleted_upd; eauto.
Qed.
Lemma deleted_not_live h a : deleted h a -> ~ live h a.
Proof. intros (c & E & A) (d & E' & A'). congruence. Qed.

(** *** Without a controller *)

Lemma create_ok w ps d t w' r : good w true -> pieces_ok ps = true -> nth_error ps 0 = Some d -> d_kind d = KObject ->
  0 < t -> Registry.create_object ps t w = Done (w', r) ->
  good w' true /\
  match taken (w_heap w') t (mk_ptr (length (w_heap w)) 0) with
  | Some q => r = ROk /\ w_vars w' = w_vars w ++ [(0, None); (t, Some q)] /\
      live (w_heap w') (length (w_heap w)) /\ refs w' (length (w_heap w)) = 1
  | None => r = RNoInterface /\ w_vars w' = w_vars w ++ [(0, None)] /\ deleted (w_heap w') (length (w_heap w))
  end.
Proof.
  intros G OK Ed K T. unfold Registry.create_object. destruct (Nat.eqb_spec t 0) as [Z|_]; [lia|].
  set (base := length (w_heap w)). set (n := length (w_vars w)).
  destruct (step (New 0 ps) w) as [[w1 r1]| | |] eqn:E1; cbn [obind]; try discriminate.
  destruct (step_good w true (New 0 ps) w1 r1 G Logic.I E1) as (G1 & GR1 & F1).
  cbn [step] in E1. unfold new_object in E1. rewrite OK in E1.
  pose proof (proj1 G) as I0. pose proof (new_inv (w_heap w) ps OK _ true I0) as J.
  destruct (new_base (w_heap w) ps OK) as [B1 B2]. fold base in B1, B2, J, E1.
  set (h := w_heap w ++ new_cells base ps) in *.
  match type of E1 with context [mk_ptr base ?x] =>
    assert (Eh : x = d_class d) by (destruct ps; [discriminate|now injection Ed as ->]); rewrite Eh in E1 end.
  assert (Cb : nth_error h base = Some (new_cell base ps (0, d))).
  { pose proof (new_new (w_heap w) ps OK 0 d) as Q. rewrite Nat.add_0_r in Q. fold base h in Q. now apply Q. }
  set (c0 := new_cell base ps (0, d)) in *.
  assert (Kc : c_kind c0 = KObject) by exact K.
  set (p := mk_ptr base (d_class d)) in *.
  assert (L : alive h (whole h (p_addr p)) = true) by (cbn [p_addr p]; now rewrite B1).
  assert (Cl : 0 < d_class d).
  { destruct (piece_facts ps 0 d OK) as (_ & _ & Q & _); [exact Ed|exact Q]. }
  assert (TK : taken h 0 p = Some (mk_ptr base 0)).
  { unfold taken. cbn [p_ty p]. destruct (Nat.eqb_spec 0 (d_class d)) as [Z|_]; [lia|].
    cbn [p_addr p]. assert (Ib : identity h base = base).
    { unfold identity. destruct base eqn:Eb; cbn [up_navi]; [reflexivity|]. rewrite Cb. cbn [is_navi]. now rewrite Kc. }
    rewrite Ib. reflexivity. }
  rewrite (take_true h _ false 0 p J L), TK in E1. cbn [option_map obind] in E1. cbn [p_addr p] in E1. rewrite B1 in E1.
  injection E1 as <- <-. cbn [created andb] in G1.
  set (h1 := inc h base) in *.
  assert (C1 : nth_error h1 base = Some (set_rc c0 1)).
  { unfold h1, inc. rewrite Cb, Kc, nth_upd_eq by (apply nth_error_Some; congruence). f_equal. f_equal.
    unfold c0. cbn [new_cell c_rc]. now rewrite K. }
  assert (Rn : resolve (push_var w h1 (0, Some (mk_ptr base 0))) (At n []) = Done (LVar n)).
  { cbn [resolve walk push_var w_vars]. rewrite app_length. cbn [length]. destruct (Nat.ltb_spec n (length (w_vars w) + 1)); [reflexivity|unfold n in *; lia]. }
  assert (Vn : value_at (push_var w h1 (0, Some (mk_ptr base 0))) (LVar n) = Some (0, Some (mk_ptr base 0))).
  { cbn [value_at push_var w_vars]. unfold n. now rewrite nth_error_app2, Nat.sub_diag by lia. }
  set (w1 := push_var w h1 (0, Some (mk_ptr base 0))) in *.
  repeat match goal with |- context [push_var w h1 ?x] => change (push_var w h1 x) with w1 end.
  repeat match goal with H : context [push_var w h1 ?x] |- _ => change (push_var w h1 x) with w1 in H end.
  assert (PE : put w1 (LVar n) None = mk_world h1 (w_vars w ++ [((0, None) : handle)]) (w_raws w)).
  { cbn [put]. cbn [value_at] in Vn. rewrite Vn. unfold w1 at 1 2 3. cbn [push_var w_heap w_vars w_raws]. f_equal.
    unfold n. apply upd_last. }
  assert (Ln : load w1 (LVar n) = Done (0, Some (mk_ptr base 0))).
  { cbn [load]. cbn [value_at] in Vn. now rewrite Vn. }
  pose proof (resolve_ok w1 true (At n []) (proj1 G1)) as RO. rewrite Rn in RO. destruct RO as (H & Th & _ & H0).
  pose proof (value_reach w1 [] (LVar n) 0 (mk_ptr base 0) H Vn) as Re. cbn [p_addr] in Re.
  destruct (step (MoveCtor t (At n [])) w1) as [[w2 r2]| | |] eqn:E2; cbn [obind]; try discriminate.
  destruct (step_good w1 true (MoveCtor t (At n [])) w2 r2 G1 Logic.I E2) as (G2 & GR2 & F2).
  cbn [created andb] in G2.
  cbn [step] in E2. unfold move_ctor in E2. rewrite Rn in E2. cbn [obind] in E2. rewrite Ln in E2. cbn [obind] in E2.
  rewrite (take_false (w_heap w1) _ true t (mk_ptr base 0) (proj1 G1) (reach_total _ _ _ _ (proj1 G1) Re)) in E2.
  change (w_heap w1) with h1 in E2. 
  destruct (taken h1 t (mk_ptr base 0)) as [q|] eqn:TQ; cbn [option_map obind] in E2.
  - change h1 with (w_heap w1) in E2. rewrite set_heap_self, (store_ok w1 (LVar n) None _ Th Vn), PE in E2. cbn [obind] in E2.
    injection E2 as <- <-.
    match type of F2 with effect _ _ ?x _ => set (w2 := x) in * end.
    assert (V2 : w_vars w2 = w_vars w ++ [(0, None); (t, Some q)]).
    { unfold w2. cbn [push_var w_vars]. now rewrite <- app_assoc. }
    assert (H2 : w_heap w2 = h1) by reflexivity.
    assert (R2 : resolve w2 (At n []) = Done (LVar n)).
    { cbn [resolve walk]. rewrite V2, app_length. cbn [length]. destruct (Nat.ltb_spec n (length (w_vars w) + 2)); [reflexivity|unfold n in *; lia]. }
    cbn [step]. unfold reset_op. rewrite R2. cbn [obind]. unfold reset. cbn [load]. rewrite V2.
    unfold n at 1. rewrite nth_error_app2, Nat.sub_diag by lia. cbn [nth_error obind]. intros [= <- <-].
    split; [exact G2|]. rewrite H2, TQ. split; [auto|]. split; [auto|]. split.
    + exists (set_rc c0 1). auto.
    + rewrite refs_total, H2. pose proof (i_rc _ _ _ _ (proj1 G2) base (set_rc c0 1)) as Q. rewrite H2 in Q.
      specialize (Q C1 Kc eq_refl). cbn [set_rc c_rc] in Q. lia.
  - injection E2 as <- <-.
    destruct (step (Reset (At n [])) w1) as [[w3 r3]| | |] eqn:E3; cbn [obind]; try discriminate. intros [= <- <-].
    destruct (step_good w1 true (Reset (At n [])) w3 r3 G1 Logic.I E3) as (G3 & GR3 & F3). cbn [created andb] in G3.
    split; [exact G3|].
    cbn [step] in E3. unfold reset_op in E3. rewrite Rn in E3. cbn [obind] in E3.
    destruct (reset_ok w1 [] true (LVar n) 0 _ (proj1 G1) Th Vn H0) as (h' & Er & Lt & _).
    assert (Er' := Er). rewrite Er in E3. cbn [obind] in E3. injection E3 as <- <-.
    assert (S' : same h1 h').
    { destruct Lt as [S _]. replace (w_heap (put w1 (LVar n) None)) with h1 in S; [exact S|].
      now rewrite PE. }
    cbn [set_heap w_heap]. rewrite <- (taken_same _ _ t (mk_ptr base 0) S'), TQ. split; [auto|].
    split.
    + transitivity (w_vars (put w1 (LVar n) None)); [reflexivity|now rewrite PE].
    + unfold reset in Er'. rewrite Ln in Er'. cbn [obind p_addr] in Er'. unfold release in Er'.
      change (w_heap w1) with h1 in Er'. unfold work_fuel in Er'. cbn [length Nat.add run_work] in Er'.
      assert (Cn : counted (S base) h1 base = Done (Some base)).
      { cbn [counted]. unfold get. rewrite C1. cbn [set_rc c_alive]. cbn [c0 new_cell c_alive obind c_kind]. now rewrite K. }
      assert (Gt : get h1 base = Done (set_rc c0 1)) by (unfold get; rewrite C1; reflexivity).
      rewrite Cn in Er'. cbn [obind] in Er'. rewrite Gt in Er'. cbn [obind] in Er'.
      change (c_rc (set_rc (set_rc c0 1) (c_rc (set_rc c0 1) - 1)) =? 0)%Z with true in Er'. cbn iota in Er'.
      set (hd := upd h1 base _) in Er'.
      destruct (run_work _ _ hd) as [h2| | |] eqn:RW; cbn [obind] in Er'; try discriminate.
      assert (D : deleted h2 base).
      { apply (run_work_deleted _ _ _ _ base) in RW; [exact RW|]. eexists. split;
          [unfold hd; apply nth_upd_eq|reflexivity]. apply nth_error_Some. congruence. }
      apply (f_equal (fun o => match o with Done x => w_heap x | _ => [] end)) in Er'.
      assert (Q : w_heap (set_heap (put w1 (LVar n) None) h') = h') by reflexivity. rewrite Q in Er'.
      cbn [store set_heap w_vars w_heap] in Er'. cbn [value_at] in Vn. rewrite Vn in Er'. cbn [w_raws w_heap] in Er'.
      subst h2. exact D.
Qed.

(** *** With a controller *)

(** The smart pointer that [CreateObject<I>] returns for an aggregated object is
    dangling: the object was deleted with its navigator. *)
Lemma aggregated_dangling ps a t h q h' d : nth_error ps 0 = Some d -> find_entry t (d_map d) = Some (Own t) -> 0 < t ->
  Registry.create_aggregated ps a t h = Done (Some q, h') -> p_addr q = length h /\ deleted h' (length h).
Proof.
  intros Ed Ef T. unfold Registry.create_aggregated. destruct (Nat.eqb_spec t 0) as [Z|_]; [lia|].
  set (base := length h). set (h0 := h ++ Registry.agg_cells base a ps).
  destruct ps as [|d0 ps0] eqn:Eps; [discriminate|]. cbn in Ed. injection Ed as ->.
  assert (M0 : forall l, find_entry t l = Some (Own t) ->
     find_entry t (map (fun e => match e with Own t => Own t | Via t b => Via t (base + b) end) l) = Some (Own t)).
  { clear. induction l as [|e l IH]; [discriminate|]. unfold find_entry in *. cbn [map find].
    destruct e as [u|u b]; cbn [entry_ty]; destruct (u =? t); auto. discriminate. }
  assert (C0 : exists c, nth_error h0 base = Some c /\ c_kind c = KAgg /\ c_alive c = true /\ c_rc c = 1%Z /\
                 find_entry t (c_map c) = Some (Own t)).
  { unfold h0. rewrite nth_error_app2, Nat.sub_diag by (unfold base; lia).
    eexists. split; [reflexivity|]. cbn [c_kind c_alive c_rc c_map new_cell]. auto. }
  destruct C0 as (c & Ec & Kc & Ac & Rc & Fc). clearbody h0. cbn [internal_query].
  assert (Gt : get h0 base = Done c) by (unfold get; now rewrite Ec, Ac).
  rewrite Gt. cbn [obind]. destruct (Nat.eqb_spec t 0) as [Z|_]; [lia|]. rewrite Fc.
  destruct (add_ref h0 base) as [h1| | |] eqn:AR; cbn [obind]; try discriminate.
  assert (E1 : nth_error h1 base = Some c).
  { unfold add_ref in AR. destruct (counted (S base) h0 base) as [[r|]| | |] eqn:Cn; cbn [obind] in AR; try discriminate.
    - destruct (get h0 r) as [cr| | |] eqn:Gr; cbn [obind] in AR; try discriminate. injection AR as <-.
      assert (Kr : forall n b, counted n h0 b = Done (Some r) -> exists x, nth_error h0 r = Some x /\ c_kind x = KObject).
      { clear. induction n as [|n IH]; intros b; cbn [counted]; [discriminate|].
        destruct (get h0 b) as [x| | |] eqn:G; cbn [obind]; try discriminate.
        assert (Eb : nth_error h0 b = Some x).
        { unfold get in G. destruct (nth_error h0 b) as [y|]; [|discriminate]. destruct (c_alive y); congruence. }
        destruct (c_kind x) eqn:K; try discriminate; try apply IH. intros [= <-]. eauto. }
      destruct (Kr _ _ Cn) as (x & Ex & Kx). rewrite nth_upd_neq; [auto|]. intros ->. congruence.
    - now injection AR as <-. }
  unfold work_fuel. cbn [length Nat.add run_work].
  assert (G1 : get h1 base = Done c) by (unfold get; now rewrite E1, Ac).
  rewrite G1. cbn [obind]. rewrite Kc, Rc. change (c_rc (set_rc c (1 - 1)) =? 0)%Z with true. cbn iota.
  set (hd := upd h1 base _).
  destruct (run_work _ _ hd) as [h2| | |] eqn:RW; cbn [obind]; try discriminate. intros [= <- <-].
  split; [reflexivity|]. apply (run_work_deleted _ _ _ _ base) in RW; [exact RW|]. eexists. split;
    [unfold hd; apply nth_upd_eq|reflexivity]. apply nth_error_Some. congruence.
Qed.

(** If the interface is missing, the object is deleted again. *)
Lemma aggregated_fails ps a t h h' d : nth_error ps 0 = Some d -> 
  Registry.create_aggregated ps a t h = Done (None, h') -> deleted h' (length h).
Proof.
  intros Ed. unfold Registry.create_aggregated. destruct (Nat.eqb_spec t 0) as [Z|_]; [discriminate|].
  set (base := length h). set (h0 := h ++ Registry.agg_cells base a ps).
  destruct ps as [|d0 ps0] eqn:Eps; [discriminate|]. cbn in Ed. injection Ed as ->.
  assert (C0 : exists c, nth_error h0 base = Some c /\ c_kind c = KAgg /\ c_alive c = true /\ c_rc c = 1%Z).
  { unfold h0. rewrite nth_error_app2, Nat.sub_diag by (unfold base; lia).
    eexists. split; [reflexivity|]. cbn [c_kind c_alive c_rc new_cell]. auto. }
  destruct C0 as (c & Ec & Kc & Ac & Rc). clearbody h0.
  destruct (internal_query (S (length h0)) h0 base t) as [[[q h1]|]| | |]; cbn [obind]; try discriminate.
  { destruct (run_work (work_fuel h1 [Drop base]) [Drop base] h1); discriminate. }
  unfold work_fuel. cbn [length Nat.add run_work].
  assert (G1 : get h0 base = Done c) by (unfold get; now rewrite Ec, Ac).
  rewrite G1. cbn [obind]. rewrite Kc, Rc. change (c_rc (set_rc c (1 - 1)) =? 0)%Z with true. cbn iota.
  set (hd := upd h0 base _).
  destruct (run_work _ _ hd) as [h2| | |] eqn:RW; cbn [obind]; try discriminate. intros [= <-].
  apply (run_work_deleted _ _ _ _ base) in RW; [exact RW|]. eexists. split;
    [unfold hd; apply nth_upd_eq|reflexivity]. apply nth_error_Some. congruence.
Qed.

Lemma deleted_no_use h a : deleted h a -> add_ref h a = UB /\ release h a = UB /\ forall t, query h a t = UB.
Proof.
  intros (c & E & A). assert (G : get h a = UB) by (unfold get; now rewrite E, A).
  unfold add_ref, release, query, work_fuel. cbn [length Nat.add run_work counted query_from]. rewrite G. auto.
Qed.
