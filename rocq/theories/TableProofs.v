(** Lemmas about distributions given by tables. *)
From Coq Require Import QArith Sorting.Sorted Lqa Qfield ZifyBool ZifyNat ZifyN Lia.
From Verif Require Import Base BaseProofs Table TableSpec.
Open Scope Q_scope.

(** ** Reading *)

Lemma read_range_skip (l : list Q) : forall n i, (i + n <= length l)%nat ->
  read_range (get l) i n = Done (firstn n (skipn i l)).
Proof.
  induction n as [|n IH]; intros i H; [reflexivity|].
  cbn [read_range]. unfold get at 1.
  destruct (nth_error l i) as [x|] eqn:E.
  2:{ apply nth_error_None in E. lia. }
  cbn [obind]. rewrite IH by lia. cbn [obind].
  assert (S : skipn i l = x :: skipn (S i) l).
  { clear IH H. revert l E. induction i as [|i IHi]; intros [|y l] E; try discriminate.
    - cbn in E. injection E as ->. reflexivity.
    - cbn [nth_error skipn] in *. apply IHi, E. }
  rewrite S. reflexivity.
Qed.

Lemma read_range_all (l : list Q) : read_range (get l) 0 (length l) = Done l.
Proof. rewrite read_range_skip by lia. cbn [skipn]. rewrite firstn_all. reflexivity. Qed.

Lemma total_qsum l : total l = qsum l.
Proof. induction l as [|x l IH]; [reflexivity|]. cbn. rewrite <- IH. reflexivity. Qed.

Lemma qsum_nonneg l : weights_ok l -> 0 <= qsum l.
Proof. induction 1; cbn [qsum]; lra. Qed.

Lemma qsum_ge l w : weights_ok l -> In w l -> w <= qsum l.
Proof.
  induction 1 as [|x l Hx Hl IH]; intros Hi; [destruct Hi|]. cbn [qsum].
  pose proof (qsum_nonneg l Hl). destruct Hi as [->|Hi]; [lra|]. specialize (IH Hi). lra.
Qed.

Lemma divide_pos a b : 0 < b -> divide a b = Some (a / b).
Proof.
  intros H. unfold divide. destruct (Qeq_bool b 0) eqn:E; [|reflexivity].
  apply Qeq_bool_eq in E. lra.
Qed.

Lemma qsum_div l t : ~ t == 0 -> qsum (map (fun w => w / t) l) == qsum l / t.
Proof.
  intros Ht. induction l as [|x l IH]; cbn [map qsum]; [field; exact Ht|].
  rewrite IH. field. exact Ht.
Qed.

(** ** What is accepted *)

Lemma Qlt_bool_iff a b : Qlt_bool a b = true <-> a < b.
Proof.
  unfold Qlt_bool. rewrite negb_true_iff. split.
  - intros H. apply Qnot_le_lt. intros H'. apply Qle_bool_iff in H'. congruence.
  - intros H. destruct (Qle_bool b a) eqn:E; [|reflexivity]. apply Qle_bool_iff in E. lra.
Qed.

Lemma d_add_iff w p q : d_add w p = Done q <->
  0 <= w /\ (N.of_nat (length p) < max_size)%N /\ q = p ++ [w].
Proof.
  unfold d_add, has_room.
  destruct (Qle_bool 0 w) eqn:E1; cbn [negb].
  - apply Qle_bool_iff in E1. destruct (N.ltb_spec (N.of_nat (length p)) max_size); cbn [negb].
    + split; [intros H0; injection H0 as <-; auto|intros (_ & _ & ->); reflexivity].
    + split; [discriminate|intros (_ & ? & _); exfalso; lia].
  - split; [discriminate|]. intros (H & _). apply Qle_bool_iff in H. congruence.
Qed.

Lemma d_build_iff l : forall p q, (N.of_nat (length p) <= max_size)%N ->
  (d_build l p = Done q <->
   weights_ok l /\ (N.of_nat (length p + length l) <= max_size)%N /\ q = p ++ l).
Proof.
  unfold weights_ok. induction l as [|w l IH]; intros p q Hp; cbn [d_build].
  - rewrite app_nil_r. cbn [length]. rewrite Nat.add_0_r. split.
    + intros H. injection H as <-. auto.
    + intros (_ & _ & ->). reflexivity.
  - destruct (d_add w p) as [p'| | |] eqn:E; cbn [obind].
    + apply d_add_iff in E. destruct E as (H1 & H2 & ->).
      rewrite IH by (rewrite app_length; cbn [length]; lia).
      rewrite app_length, <- app_assoc. cbn [length app]. split.
      * intros (Ha & Hb & Hc). split; [constructor; auto|]. split; [lia|auto].
      * intros (Ha & Hb & Hc). inversion Ha; subst. split; auto. split; [lia|auto].
    + split; [discriminate|]. intros (Ha & Hb & _). exfalso. inversion Ha; subst.
      cbn [length] in Hb.
      assert (X : d_add w p = Done (p ++ [w])) by (apply d_add_iff; repeat split; auto; lia). congruence.
    + split; [discriminate|]. intros (Ha & Hb & _). exfalso. inversion Ha; subst.
      cbn [length] in Hb.
      assert (X : d_add w p = Done (p ++ [w])) by (apply d_add_iff; repeat split; auto; lia). congruence.
    + split; [discriminate|]. intros (Ha & Hb & _). exfalso. inversion Ha; subst.
      cbn [length] in Hb.
      assert (X : d_add w p = Done (p ++ [w])) by (apply d_add_iff; repeat split; auto; lia). congruence.
Qed.

(** Appending to an increasing list. *)
Lemma increasing_snoc bs b : increasing (bs ++ [b]) <-> increasing bs /\ Forall (fun x => x < b) bs.
Proof.
  unfold increasing. induction bs as [|x bs IH]; cbn [app].
  - split; [split; constructor|]. intros _. repeat constructor.
  - split.
    + intros H. apply StronglySorted_inv in H. destruct H as [H1 H2]. apply IH in H1.
      destruct H1 as [H1 H3]. apply Forall_app in H2. destruct H2 as [H2 H4].
      inversion H4; subst. split; constructor; auto.
    + intros [H1 H2]. apply StronglySorted_inv in H1. destruct H1 as [H1 H3].
      inversion H2; subst. constructor; [apply IH; auto|]. apply Forall_app. split; auto.
Qed.

Lemma last_cons_default (l : list Q) x d : last (x :: l) d = last l x.
Proof.
  revert x d. induction l as [|y l IH]; intros x d; [reflexivity|].
  change (last (x :: y :: l) d) with (last (y :: l) d). rewrite !IH. reflexivity.
Qed.

Lemma increasing_last r x b : increasing (x :: r) ->
  (last r x < b <-> Forall (fun y => y < b) (x :: r)).
Proof.
  revert x. induction r as [|y r IH]; intros x H.
  - cbn. split; [intros; repeat constructor; auto|]. intros H0. inversion H0; auto.
  - rewrite last_cons_default. apply StronglySorted_inv in H. destruct H as [H1 H2].
    rewrite (IH y H1). split.
    + intros H3. constructor; [|exact H3]. inversion H2; inversion H3; subst. lra.
    + intros H3. inversion H3; auto.
Qed.

(** What one call does to a parameter whose bounds are increasing. *)
Lemma c_add_iff b w p q : increasing (p_bounds p) -> p_bounds p <> [] ->
  (c_add b w p = Done q <->
   0 <= w /\ (N.of_nat (length (p_bounds p)) < max_size)%N /\ increasing (p_bounds p ++ [b]) /\
   q = mk_param (p_bounds p ++ [b]) (p_weights p ++ [w])).
Proof.
  intros Hi Hn. unfold c_add, has_room. destruct (p_bounds p) as [|x r] eqn:Eb; [congruence|].
  rewrite (increasing_snoc (x :: r) b).
  pose proof (increasing_last r x b Hi) as HL.
  destruct (N.ltb_spec (N.of_nat (length (x :: r))) max_size) as [H1|H1]; cbn [negb].
  2:{ split; [discriminate|]. intros (_ & H & _). exfalso. lia. }
  destruct (Qlt_bool (last r x) b) eqn:E2; cbn [negb].
  2:{ split; [discriminate|]. intros (_ & _ & (_ & H) & _). apply HL, Qlt_bool_iff in H. congruence. }
  apply Qlt_bool_iff, HL in E2.
  destruct (Qle_bool 0 w) eqn:E3; cbn [negb].
  2:{ split; [discriminate|]. intros (H & _). apply Qle_bool_iff in H. congruence. }
  apply Qle_bool_iff in E3. split.
  - intros H. injection H as <-. auto.
  - intros (_ & _ & _ & ->). reflexivity.
Qed.

Lemma l_add_iff b w p q : increasing (p_bounds p) ->
  (l_add b w p = Done q <->
   0 <= w /\ (N.of_nat (length (p_bounds p)) < max_size)%N /\ increasing (p_bounds p ++ [b]) /\
   q = mk_param (p_bounds p ++ [b]) (p_weights p ++ [w])).
Proof.
  intros Hi. unfold l_add, has_room.
  rewrite (increasing_snoc (p_bounds p) b).
  destruct (N.ltb_spec (N.of_nat (length (p_bounds p))) max_size) as [H1|H1]; cbn [negb].
  2:{ split; [discriminate|]. intros (_ & H & _). exfalso. lia. }
  assert (E2 : (match p_bounds p with [] => false | x :: r => negb (Qlt_bool (last r x) b) end) = false
               <-> Forall (fun y => y < b) (p_bounds p)).
  { destruct (p_bounds p) as [|x r] eqn:Eb; [split; auto|].
    rewrite negb_false_iff, Qlt_bool_iff. apply increasing_last, Hi. }
  destruct (match p_bounds p with [] => false | x :: r => negb (Qlt_bool (last r x) b) end).
  1:{ split; [discriminate|]. intros (_ & _ & (_ & H) & _). apply E2 in H. discriminate. }
  pose proof (proj1 E2 eq_refl) as E4. clear E2.
  destruct (Qle_bool 0 w) eqn:E3; cbn [negb].
  2:{ split; [discriminate|]. intros (H & _). apply Qle_bool_iff in H. congruence. }
  apply Qle_bool_iff in E3. split.
  - intros H. injection H as <-. auto.
  - intros (_ & _ & _ & ->). reflexivity.
Qed.

(** Both kinds are built the same way. *)
Definition grows (l : list (Q * Q)) (p q : param) : Prop :=
  weights_ok (map snd l) /\ (N.of_nat (length (p_bounds p) + length l) <= max_size)%N /\
  increasing (p_bounds p ++ map fst l) /\
  q = mk_param (p_bounds p ++ map fst l) (p_weights p ++ map snd l).

Lemma increasing_app_l a b : increasing (a ++ b) -> increasing a.
Proof.
  unfold increasing. induction a as [|x a IH]; intros H; [constructor|].
  cbn [app] in H. apply StronglySorted_inv in H. destruct H as [H1 H2].
  constructor; [auto|]. apply Forall_app in H2. tauto.
Qed.

Section Build.
Variable add : Q -> Q -> param -> outcome param.
Variable ok : param -> Prop.
Hypothesis add_iff : forall b w p q, increasing (p_bounds p) -> ok p ->
  (add b w p = Done q <->
   0 <= w /\ (N.of_nat (length (p_bounds p)) < max_size)%N /\ increasing (p_bounds p ++ [b]) /\
   q = mk_param (p_bounds p ++ [b]) (p_weights p ++ [w])).
Hypothesis ok_add : forall b w p, ok (mk_param (p_bounds p ++ [b]) (p_weights p ++ [w])).
Variable build : list (Q * Q) -> param -> outcome param.
Hypothesis build_nil : forall p, build [] p = Done p.
Hypothesis build_cons : forall b w l p, build ((b, w) :: l) p = let! p := add b w p in build l p.

Lemma build_iff l : forall p q, increasing (p_bounds p) -> ok p ->
  (N.of_nat (length (p_bounds p)) <= max_size)%N -> (build l p = Done q <-> grows l p q).
Proof using All.
  induction l as [|[b w] l IH]; intros p q Hi Ho Hm; unfold grows.
  - rewrite build_nil. cbn [map length]. rewrite !app_nil_r, Nat.add_0_r. split.
    + intros H. injection H as <-. split; [constructor|]. destruct p; auto.
    + intros (_ & _ & _ & ->). destruct p; reflexivity.
  - rewrite build_cons. cbn [map fst snd length].
    assert (Need : weights_ok (w :: map snd l) ->
       (N.of_nat (length (p_bounds p) + S (length l)) <= max_size)%N ->
       increasing (p_bounds p ++ b :: map fst l) ->
       add b w p = Done (mk_param (p_bounds p ++ [b]) (p_weights p ++ [w]))).
    { intros Ha Hb Hc. apply add_iff; auto. inversion Ha; subst. split; auto. split; [lia|].
      split; [|reflexivity]. apply (increasing_app_l _ (map fst l)). rewrite <- app_assoc. exact Hc. }
    destruct (add b w p) as [p'| | |] eqn:E; cbn [obind].
    + apply add_iff in E; auto. destruct E as (H1 & H2 & H3 & ->).
      rewrite IH; [|exact H3|apply ok_add|cbn [p_bounds]; rewrite app_length; cbn [length]; lia].
      unfold grows. cbn [p_bounds p_weights]. rewrite app_length, <- !app_assoc. cbn [length app].
      split.
      * intros (Ha & Hb & Hc & Hd). split; [constructor; auto|]. split; [lia|auto].
      * intros (Ha & Hb & Hc & Hd). inversion Ha; subst. split; auto. split; [lia|auto].
    + split; [discriminate|]. intros (Ha & Hb & Hc & _). specialize (Need Ha Hb Hc). congruence.
    + split; [discriminate|]. intros (Ha & Hb & Hc & _). specialize (Need Ha Hb Hc). congruence.
    + split; [discriminate|]. intros (Ha & Hb & Hc & _). specialize (Need Ha Hb Hc). congruence.
Qed.
End Build.

Lemma c_build_iff b0 l q : c_build b0 l = Done q <->
  weights_ok (map snd l) /\ (N.of_nat (length l) < max_size)%N /\ increasing (b0 :: map fst l) /\
  q = mk_param (b0 :: map fst l) (map snd l).
Proof.
  unfold c_build. cbn [c_lower no_param p_bounds obind p_weights].
  rewrite (build_iff c_add (fun p => p_bounds p <> []) c_add_iff) with (build := c_build_on).
  - unfold grows. cbn [p_bounds p_weights app length]. split.
    + intros (Ha & Hb & Hc & Hd). repeat split; auto. lia.
    + intros (Ha & Hb & Hc & Hd). repeat split; auto. lia.
  - intros b w p. cbn [p_bounds]. intros H. apply app_eq_nil in H. destruct H; discriminate.
  - reflexivity.
  - reflexivity.
  - repeat constructor.
  - discriminate.
  - cbn [p_bounds length]. unfold max_size. lia.
Qed.

Lemma l_build_iff l q : l_build l no_param = Done q <->
  weights_ok (map snd l) /\ (N.of_nat (length l) <= max_size)%N /\ increasing (map fst l) /\
  q = mk_param (map fst l) (map snd l).
Proof.
  rewrite (build_iff l_add (fun _ => True)) with (build := l_build).
  - reflexivity.
  - intros b w p q0 H _. apply l_add_iff, H.
  - auto.
  - reflexivity.
  - reflexivity.
  - constructor.
  - exact I.
  - cbn. unfold max_size. lia.
Qed.

(** ** The distributions *)

Lemma d_make_spec ws : ws <> [] -> 0 < qsum ws ->
  d_make ws = Done (map (fun w => Some (w / qsum ws)) ws).
Proof.
  intros Hn Ht. unfold d_make. rewrite read_range_all. cbn [obind]. f_equal.
  unfold boost_discrete. destruct ws as [|x r] eqn:E; [congruence|]. rewrite <- E in *.
  rewrite total_qsum. apply map_ext. intros a. apply divide_pos, Ht.
Qed.

(** Numbers only. *)
Lemma widths_cons a b r : widths (a :: b :: r) = (b - a) :: widths (b :: r).
Proof. reflexivity. Qed.

Lemma c_make_spec b0 l : l <> [] -> 0 < qsum (map snd l) ->
  c_make (mk_param (b0 :: map fst l) (map snd l)) =
  Done (mk_dist (b0 :: map fst l)
    (map Some (map (fun p => fst p / qsum (map snd l) / snd p)
       (combine (map snd l) (widths (b0 :: map fst l)))))).
Proof.
  intros Hn Ht. unfold c_make. cbn [p_bounds p_weights].
  replace (length (map snd l) + 1)%nat with (length (b0 :: map fst l))
    by (cbn [length]; rewrite !map_length; lia).
  rewrite !read_range_all. cbn [obind].
  destruct l as [|[b w] l'] eqn:E; [congruence|]. rewrite <- E in *.
  assert (B : boost_constant (b0 :: map fst l) (map snd l) =
    (b0 :: map fst l,
     map (fun p => match divide (fst p) (total (map snd l)) with
                   | Some q => Some (q / snd p) | None => None end)
       (combine (map snd l) (widths (b0 :: map fst l))))) by (rewrite E; reflexivity).
  rewrite B. do 2 f_equal. rewrite map_map. apply map_ext. intros a.
  rewrite total_qsum, divide_pos by exact Ht. reflexivity.
Qed.

(** The masses. *)
Lemma mass_constant_spec t l : ~ t == 0 -> forall b0, increasing (b0 :: map fst l) ->
  mass_constant (b0 :: map fst l)
    (map (fun p => fst p / t / snd p) (combine (map snd l) (widths (b0 :: map fst l))))
  == qsum (map snd l) / t.
Proof.
  intros Ht. induction l as [|[b w] l IH]; intros b0 Hi.
  - cbn. field. exact Ht.
  - cbn [map fst snd] in *. rewrite widths_cons. cbn [combine map fst snd mass_constant].
    apply StronglySorted_inv in Hi. destruct Hi as [Hi Hb].
    change (mass_constant (b0 :: b :: map fst l)) with
      (fun ds => match ds with [] => 0 | d :: ds => d * (b - b0) + mass_constant (b :: map fst l) ds end).
    cbv beta iota. rewrite (IH b Hi). cbn [qsum].
    inversion Hb as [|? ? Hlt _]; subst.
    assert (~ b - b0 == 0) by lra. field. split; assumption.
Qed.

Lemma areas_cons a b r v w s :
  areas (a :: b :: r) (v :: w :: s) = (b - a) * (v + w) / 2 :: areas (b :: r) (w :: s).
Proof. reflexivity. Qed.

Lemma mass_linear_spec t l : ~ t == 0 ->
  mass_linear (map fst l) (map (fun w => w / t) (map snd l))
  == qsum (areas (map fst l) (map snd l)) / t.
Proof.
  intros Ht. induction l as [|[a v] [|[b w] l] IH].
  - cbn. field. exact Ht.
  - cbn. field. exact Ht.
  - cbn [map fst snd] in *. rewrite areas_cons. cbn [qsum].
    change (mass_linear (a :: b :: map fst l) (v / t :: w / t :: map (fun w => w / t) (map snd l)))
      with ((v / t + w / t) / 2 * (b - a)
            + mass_linear (b :: map fst l) (w / t :: map (fun w => w / t) (map snd l))).
    rewrite IH. field. exact Ht.
Qed.

Lemma areas_ok l : increasing (map fst l) -> weights_ok (map snd l) ->
  weights_ok (areas (map fst l) (map snd l)).
Proof.
  intros Hi Hw. induction l as [|[a v] [|[b w] l] IH]; try constructor.
  - cbn [map fst snd] in *. apply StronglySorted_inv in Hi. destruct Hi as [_ Hb].
    inversion Hb; subst. inversion Hw as [|? ? Hv Hw']; subst. inversion Hw'; subst. cbn [fst snd].
    change (0 <= (b - a) * (v + w) * (1 # 2)).
    apply Qmult_le_0_compat; [apply Qmult_le_0_compat; lra|lra].
  - apply IH; [apply StronglySorted_inv in Hi; tauto|inversion Hw; assumption].
Qed.

(** At least two bounds and a positive weight make a positive area. *)
Lemma areas_positive l : (2 <= length l)%nat -> increasing (map fst l) -> weights_ok (map snd l) ->
  0 < qsum (map snd l) -> 0 < qsum (areas (map fst l) (map snd l)).
Proof.
  intros Hl Hi Hw. induction l as [|[a v] [|[b w] l] IH]; cbn [length] in Hl; try lia.
  pose proof (areas_ok _ Hi Hw) as Ha. cbn [map fst snd] in *. rewrite areas_cons in *.
  cbn [qsum]. inversion Ha as [|? ? Ha1 Ha2]; subst. intros Hp.
  apply StronglySorted_inv in Hi. destruct Hi as [Hi Hb]. inversion Hb as [|? ? Hab _]; subst.
  inversion Hw as [|? ? Hv Hw']; subst. inversion Hw' as [|? ? Hww Hw'']; subst.
  pose proof (qsum_nonneg _ Ha2).
  destruct (Qlt_le_dec 0 (v + w)) as [H0|H0].
  - assert (0 < (b - a) * (v + w) / 2); [|lra].
    change (0 < (b - a) * (v + w) * (1 # 2)).
    apply Qmult_lt_0_compat; [apply Qmult_lt_0_compat; lra|lra].
  - assert (v == 0) by lra. assert (w == 0) by lra.
    destruct l as [|[c u] l]; [cbn [map qsum] in Hp; lra|].
    assert (0 < qsum (areas (b :: map fst ((c, u) :: l)) (w :: map snd ((c, u) :: l)))); [|cbn [map fst snd] in *; lra].
    apply IH; [cbn; lia|exact Hi|exact Hw'|]. cbn [map snd qsum] in *. lra.
Qed.

Lemma l_make_spec l : (2 <= length l)%nat -> 0 < qsum (areas (map fst l) (map snd l)) ->
  l_make (mk_param (map fst l) (map snd l)) =
  Done (mk_dist (map fst l)
    (map Some (map (fun w => w / qsum (areas (map fst l) (map snd l))) (map snd l)))).
Proof.
  intros Hl Ht. unfold l_make. cbn [p_bounds p_weights].
  rewrite read_range_all. cbn [obind].
  replace (length (map fst l)) with (length (map snd l)) by (rewrite !map_length; reflexivity).
  rewrite read_range_all. cbn [obind].
  set (t := qsum (areas (map fst l) (map snd l))) in *.
  assert (B : boost_linear (map fst l) (map snd l) =
    (map fst l, map (fun w => divide w (total (areas (map fst l) (map snd l)))) (map snd l)))
    by (destruct l as [|? [|? ?]]; cbn [length] in Hl; [lia|lia|reflexivity]).
  rewrite B. do 2 f_equal. rewrite total_qsum. fold t. rewrite (map_map _ Some).
  apply map_ext. intros a. apply divide_pos, Ht.
Qed.
