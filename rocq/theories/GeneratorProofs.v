(** Proofs about engines as components. *)
From Coq Require Import QArith Lqa.
From Verif Require Import Base BaseProofs Random RandomSpec RandomProofs PeriodSpec PeriodCount PeriodEngines Generator GeneratorSpec.
From Coq Require Import ZifyBool ZifyNat ZifyN.
Open Scope N_scope.

(** ** Streams *)

Lemma call_stream k s n :
  call k (after (k_eng k) n (seed (k_eng k) s)) = (stream k s n, after (k_eng k) (S n) (seed (k_eng k) s)).
Proof.
  unfold call, stream, output01, output. cbn [after]. destruct (k_unit k).
  - unfold draw01. destruct (draw (k_eng k) _) as [m st']. destruct (uint_to_real _ m). reflexivity.
  - destruct (draw (k_eng k) _) as [m st']. reflexivity.
Qed.

Lemma perform_consume {A} k s (t : drawing A) : forall n,
  perform k t (after (k_eng k) n (seed (k_eng k) s)) =
  (fst (consume (stream k s) t n), after (k_eng k) (snd (consume (stream k s) t n)) (seed (k_eng k) s)).
Proof.
  induction t as [a|next IH]; intros n; cbn [perform consume]; [reflexivity|].
  rewrite call_stream. apply IH.
Qed.

Lemma discard_after_add e z n st : discard e z (after e n st) = after e (n + z) st.
Proof. rewrite discard_after, Nat.add_comm, after_add. reflexivity. Qed.

Lemma seeded_low k v : e_w (k_eng k) = 32 \/ e_w (k_eng k) = 64 -> seeded k v = seed (k_eng k) (low 32 v).
Proof.
  intros Hw. unfold seeded, low. f_equal. fold (wrap 32 v).
  assert (wrap 32 v < 2 ^ 32) by (apply N.mod_lt; discriminate).
  unfold wrap at 1. apply N.mod_small. destruct Hw as [-> | ->]; [assumption|].
  eapply N.lt_trans; [eassumption|reflexivity].
Qed.

Lemma constructed_low k s :
  constructed k s = seed (k_eng k) (match s with None => 1 | Some v => low (e_w (k_eng k)) v end).
Proof. destruct s; reflexivity. Qed.

(** ** The invariant *)

Section Inv.
  Variable L : library.

  Definition width_ok (k : kind) : Prop := e_w (k_eng k) = 32 \/ e_w (k_eng k) = 64.

  Definition matches (w : world L) (i : nat) (a : alone L) : Prop :=
    width_ok (a_kind L a) /\
    nth_error (w_engs L w) i =
      Some (a_kind L a, after (k_eng (a_kind L a)) (a_used L a) (seed (k_eng (a_kind L a)) (a_seed L a))) /\
    (forall d s, nth_error (w_dists L w) d = Some (i, s) <-> a_dists L a d = Some s).

  Definition inv (w : world L) (tr : list (nat * event L)) : Prop :=
    (forall i, (i < length (w_engs L w))%nat -> exists a, history L (events_of L i tr) a /\ matches w i a) /\
    (forall i, (length (w_engs L w) <= i)%nat -> events_of L i tr = []) /\
    (forall d i s, nth_error (w_dists L w) d = Some (i, s) -> (i < length (w_engs L w))%nat).

  Definition op_ok (o : op) : Prop := match o with ONew k _ => width_ok k | _ => True end.

  Lemma events_snoc i tr j ev : events_of L i (tr ++ [(j, ev)]) =
    events_of L i tr ++ (if Nat.eqb j i then [ev] else []).
  Proof.
    unfold events_of. rewrite filter_app, map_app. cbn [filter fst]. destruct (Nat.eqb j i); reflexivity.
  Qed.

  (** An event of engine [i] that changes nothing of the others. *)
  Lemma inv_event w tr i ev w' a a' :
    inv w tr -> length (w_engs L w') = length (w_engs L w) ->
    history L (events_of L i tr) a -> matches w i a -> follows L (Some a) ev a' -> matches w' i a' ->
    (forall j, j <> i -> nth_error (w_engs L w') j = nth_error (w_engs L w) j) ->
    (forall j d s, j <> i -> (nth_error (w_dists L w') d = Some (j, s) <-> nth_error (w_dists L w) d = Some (j, s))) ->
    inv w' (tr ++ [(i, ev)]).
  Proof.
    intros [I1 [I2 I3]] Hl Ha Hm Hf Hm' Ho Hd.
    assert (Hi : (i < length (w_engs L w))%nat).
    { destruct Hm as [_ [Hm _]]. apply nth_error_Some. rewrite Hm. discriminate. }
    split; [|split].
    - intros j Hj. rewrite events_snoc. destruct (Nat.eqb i j) eqn:E.
      + apply Nat.eqb_eq in E. subst j. exists a'. split; [|exact Hm']. apply H_next with a; assumption.
      + apply Nat.eqb_neq in E. rewrite app_nil_r. rewrite Hl in Hj. destruct (I1 j Hj) as [b [Hb [Wb [Eb Db]]]].
        exists b. split; [exact Hb|]. split; [exact Wb|]. rewrite Ho by congruence. split; [exact Eb|].
        intros d s. rewrite Hd by congruence. apply Db.
    - intros j Hj. rewrite events_snoc. rewrite Hl in Hj. rewrite (I2 j Hj).
      destruct (Nat.eqb_spec i j); [lia|reflexivity].
    - intros d j s H. rewrite Hl. destruct (Nat.eq_dec j i) as [->|Hj]; [exact Hi|].
      apply Hd in H; [|exact Hj]. apply (I3 _ _ _ H).
  Qed.

  Lemma nth_upd_same {A} (l : list A) i x : (i < length l)%nat -> nth_error (upd l i x) i = Some x.
  Proof. apply nth_upd_eq. Qed.

  Lemma dists_upd (l : list (nat * l_state L)) d i s s' j d' t : nth_error l d = Some (i, s) ->
    nth_error (upd l d (i, s')) d' = Some (j, t) <->
    (if Nat.eqb d' d then j = i /\ t = s' else nth_error l d' = Some (j, t)).
  Proof.
    intros H. assert (Hd : (d < length l)%nat) by (apply nth_error_Some; rewrite H; discriminate).
    destruct (Nat.eqb_spec d' d) as [->|Hn].
    - rewrite nth_upd_eq by exact Hd. split; [intros E; injection E; auto|intros [-> ->]; reflexivity].
    - rewrite nth_upd_neq by congruence. reflexivity.
  Qed.

  Lemma step_inv w tr o w' x : inv w tr -> op_ok o -> step L o w = Done (w', x) -> inv w' (tr ++ [x]).
  Proof.
    intros I Ok E. assert (I' := I). destruct I' as [I1 [I2 I3]].
    assert (eng : forall i y, nth_error (w_engs L w) i = Some y -> exists k s n f,
      history L (events_of L i tr) (mkAlone L k s n f) /\ matches w i (mkAlone L k s n f) /\
      y = (k, after (k_eng k) n (seed (k_eng k) s)) /\ (i < length (w_engs L w))%nat).
    { intros i y Hy. assert (Hi : (i < length (w_engs L w))%nat) by (apply nth_error_Some; rewrite Hy; discriminate).
      destruct (I1 i Hi) as [[k s n f] [Ha Hm]]. exists k, s, n, f. repeat split; try assumption.
      - apply Hm. - apply Hm. - apply Hm. - apply Hm.
      - destruct Hm as [_ [Hm _]]. cbn in Hm. congruence. }
    destruct o as [k s|i v|i z|i|i p|i p|d|d]; cbn [step] in E.
    - (* new *)
      injection E as <- <-. split; [|split]; cbn [w_engs w_dists].
      + intros j Hj. rewrite events_snoc. rewrite app_length in Hj. cbn in Hj.
        destruct (Nat.eqb_spec (length (w_engs L w)) j) as [<-|Hn].
        * rewrite (I2 _ (le_n _)). exists (mkAlone L k (match s with None => 1 | Some v => low (e_w (k_eng k)) v end) 0 (fun _ => None)).
          split; [apply H_first, F_new|]. split; [exact Ok|]. cbn [a_kind a_used a_seed a_dists w_engs w_dists after].
          split.
          -- rewrite nth_error_app2, Nat.sub_diag by lia. cbn. rewrite constructed_low. reflexivity.
          -- intros d t. split; [|discriminate]. intros H. apply I3 in H. lia.
        * rewrite app_nil_r. destruct (I1 j) as [a [Ha [Wa [Ea Da]]]]; [lia|]. exists a. split; [exact Ha|].
          split; [exact Wa|]. cbn [w_engs w_dists]. rewrite nth_error_app1 by lia. split; assumption.
      + intros j Hj. rewrite app_length in Hj. cbn in Hj. rewrite events_snoc, I2 by lia.
        destruct (Nat.eqb_spec (length (w_engs L w)) j); [lia|reflexivity].
      + intros d j t H. apply I3 in H. rewrite app_length. cbn. lia.
    - (* seed *)
      unfold get_eng in E. destruct (nth_error (w_engs L w) i) as [y|] eqn:Ey; [|discriminate]. cbn [obind] in E.
      injection E as <- <-. destruct (eng i y Ey) as (k & s & n & f & Ha & Hm & -> & Hi). cbn [fst].
      eapply inv_event; [exact I| |exact Ha|exact Hm|apply F_seed| | |].
      + unfold set_rng. cbn. apply upd_length.
      + destruct Hm as [Wm [_ Dm]]. cbn [a_kind a_used a_seed a_dists] in *. split; [exact Wm|]. cbn [a_kind a_used a_seed a_dists set_rng w_engs w_dists].
        split; [|exact Dm]. rewrite nth_upd_eq by exact Hi. rewrite seeded_low by exact Wm. reflexivity.
      + intros j Hj. cbn. apply nth_upd_neq. congruence.
      + intros. reflexivity.
    - (* discard *)
      unfold get_eng in E. destruct (nth_error (w_engs L w) i) as [y|] eqn:Ey; [|discriminate]. cbn [obind] in E.
      injection E as <- <-. destruct (eng i y Ey) as (k & s & n & f & Ha & Hm & -> & Hi). cbn [fst snd].
      eapply inv_event; [exact I| |exact Ha|exact Hm|apply F_discard| | |].
      + unfold set_rng. cbn. apply upd_length.
      + destruct Hm as [Wm [_ Dm]]. split; [exact Wm|]. cbn [a_kind a_used a_seed a_dists set_rng w_engs w_dists].
        split; [|exact Dm]. rewrite nth_upd_eq by exact Hi. rewrite discard_after_add. reflexivity.
      + intros j Hj. cbn. apply nth_upd_neq. congruence.
      + intros. reflexivity.
    - (* generate *)
      unfold get_eng in E. destruct (nth_error (w_engs L w) i) as [y|] eqn:Ey; [|discriminate]. cbn [obind] in E.
      destruct (eng i y Ey) as (k & s & n & f & Ha & Hm & -> & Hi). cbn [fst snd] in E.
      rewrite call_stream in E. injection E as <- <-.
      eapply inv_event; [exact I| |exact Ha|exact Hm|apply F_generate| | |].
      + unfold set_rng. cbn. apply upd_length.
      + destruct Hm as [Wm [_ Dm]]. split; [exact Wm|]. cbn [a_kind a_used a_seed a_dists set_rng w_engs w_dists].
        split; [|exact Dm]. rewrite nth_upd_eq by exact Hi. reflexivity.
      + intros j Hj. cbn. apply nth_upd_neq. congruence.
      + intros. reflexivity.
    - (* one-shot *)
      unfold get_eng in E. destruct (nth_error (w_engs L w) i) as [y|] eqn:Ey; [|discriminate]. cbn [obind] in E.
      destruct (eng i y Ey) as (k & s & n & f & Ha & Hm & -> & Hi). cbn [fst snd] in E.
      unfold make in E. destruct (l_make L p) as [ds|] eqn:Ep; [|discriminate]. cbn [obind] in E.
      rewrite perform_consume in E. destruct (consume (stream k s) (l_draw L k ds) n) as [[v ds'] n'] eqn:Ec.
      cbn [fst snd] in E. injection E as <- <-.
      eapply inv_event; [exact I| |exact Ha|exact Hm|eapply F_generate_x; eassumption| | |].
      + unfold set_rng. cbn. apply upd_length.
      + destruct Hm as [Wm [_ Dm]]. split; [exact Wm|]. cbn [a_kind a_used a_seed a_dists set_rng w_engs w_dists].
        split; [|exact Dm]. rewrite nth_upd_eq by exact Hi. reflexivity.
      + intros j Hj. cbn. apply nth_upd_neq. congruence.
      + intros. reflexivity.
    - (* create *)
      unfold get_eng in E. destruct (nth_error (w_engs L w) i) as [y|] eqn:Ey; [|discriminate]. cbn [obind] in E.
      destruct (create_asserts p); [|discriminate].
      unfold make in E. destruct (l_make L p) as [ds|] eqn:Ep; [|discriminate]. cbn [obind] in E.
      injection E as <- <-. destruct (eng i y Ey) as (k & s & n & f & Ha & Hm & -> & Hi).
      assert (Hnone : f (length (w_dists L w)) = None).
      { destruct Hm as [_ [_ Dm]]. cbn [a_dists] in Dm. destruct (f (length (w_dists L w))) as [t|] eqn:Et; [|reflexivity].
        apply Dm in Et. assert (length (w_dists L w) < length (w_dists L w))%nat by (apply nth_error_Some; rewrite Et; discriminate). lia. }
      eapply inv_event; [exact I| |exact Ha|exact Hm|apply F_create; [exact Ep|exact Hnone]| | |].
      + reflexivity.
      + destruct Hm as [Wm [Em Dm]]. split; [exact Wm|]. cbn [a_kind a_used a_seed a_dists w_engs w_dists] in *.
        split; [exact Em|]. intros d t. unfold set_dist. destruct (Nat.eqb_spec d (length (w_dists L w))) as [->|Hn].
        * rewrite nth_error_app2, Nat.sub_diag by lia. cbn. split; congruence.
        * rewrite <- Dm. destruct (Nat.lt_ge_cases d (length (w_dists L w))) as [Hlt|Hge].
          -- rewrite nth_error_app1 by exact Hlt. reflexivity.
          -- rewrite !(proj2 (nth_error_None _ _)); [split; discriminate|lia|rewrite app_length; cbn; lia].
      + reflexivity.
      + intros j d t Hj. cbn [w_dists]. destruct (Nat.lt_ge_cases d (length (w_dists L w))) as [Hlt|Hge].
        * rewrite nth_error_app1 by exact Hlt. reflexivity.
        * rewrite nth_error_app2 by exact Hge. split; [|intros H; exfalso; rewrite (proj2 (nth_error_None _ _)) in H by exact Hge; discriminate].
          destruct (d - length (w_dists L w))%nat as [|m]; cbn; [intros H; injection H; congruence|destruct m; discriminate].
    - (* draw *)
      unfold get_dist in E. destruct (nth_error (w_dists L w) d) as [[i ds]|] eqn:Ed; [|discriminate]. cbn [obind fst snd] in E.
      unfold get_eng in E. destruct (nth_error (w_engs L w) i) as [y|] eqn:Ey; [|discriminate]. cbn [obind] in E.
      destruct (eng i y Ey) as (k & s & n & f & Ha & Hm & -> & Hi). cbn [fst snd] in E.
      rewrite perform_consume in E. destruct (consume (stream k s) (l_draw L k ds) n) as [[v ds'] n'] eqn:Ec.
      cbn [fst snd] in E. injection E as <- <-.
      assert (Hf : f d = Some ds) by (destruct Hm as [_ [_ Dm]]; apply Dm, Ed).
      eapply inv_event; [exact I| |exact Ha|exact Hm|eapply F_draw; eassumption| | |].
      + cbn. apply upd_length.
      + destruct Hm as [Wm [_ Dm]]. split; [exact Wm|]. cbn [a_kind a_used a_seed a_dists w_engs w_dists] in *.
        split; [rewrite nth_upd_eq by exact Hi; reflexivity|].
        intros d' t. rewrite (dists_upd _ _ _ _ _ _ _ _ Ed). unfold set_dist. destruct (Nat.eqb_spec d' d) as [->|Hn].
        * split; [intros [_ ->]; reflexivity|intros H; injection H; auto].
        * apply Dm.
      + intros j Hj. cbn. apply nth_upd_neq. congruence.
      + intros j d' t Hj. cbn [w_dists]. rewrite (dists_upd _ _ _ _ _ _ _ _ Ed). destruct (Nat.eqb_spec d' d) as [->|Hn]; [|reflexivity].
        rewrite Ed. split; [intros [H _]; contradiction|intros H; injection H; congruence].
    - (* reset *)
      unfold get_dist in E. destruct (nth_error (w_dists L w) d) as [[i ds]|] eqn:Ed; [|discriminate]. cbn [obind fst snd] in E.
      injection E as <- <-.
      assert (Hi : (i < length (w_engs L w))%nat) by apply (I3 _ _ _ Ed).
      destruct (nth_error (w_engs L w) i) as [y|] eqn:Ey; [|apply nth_error_None in Ey; lia].
      destruct (eng i y Ey) as (k & s & n & f & Ha & Hm & -> & _).
      assert (Hf : f d = Some ds) by (destruct Hm as [_ [_ Dm]]; apply Dm, Ed).
      eapply inv_event; [exact I| |exact Ha|exact Hm|eapply F_reset; eassumption| | |].
      + reflexivity.
      + destruct Hm as [Wm [Em Dm]]. split; [exact Wm|]. cbn [a_kind a_used a_seed a_dists w_engs w_dists] in *.
        split; [exact Em|].
        intros d' t. rewrite (dists_upd _ _ _ _ _ _ _ _ Ed). unfold set_dist. destruct (Nat.eqb_spec d' d) as [->|Hn].
        * split; [intros [_ ->]; reflexivity|intros H; injection H; auto].
        * apply Dm.
      + reflexivity.
      + intros j d' t Hj. cbn [w_dists]. rewrite (dists_upd _ _ _ _ _ _ _ _ Ed). destruct (Nat.eqb_spec d' d) as [->|Hn]; [|reflexivity].
        rewrite Ed. split; [intros [H _]; contradiction|intros H; injection H; congruence].
  Qed.

  Lemma run_inv os : forall w tr w' tr', inv w tr -> Forall op_ok os -> run L os w = Done (w', tr') -> inv w' (tr ++ tr').
  Proof.
    induction os as [|o os IH]; cbn [run]; intros w tr w' tr' I Ok E.
    - injection E as <- <-. rewrite app_nil_r. exact I.
    - inversion Ok as [|? ? Ok1 Ok2]; subst. destruct (step L o w) as [[w1 x]| | |] eqn:Es; try discriminate. cbn [obind fst snd] in E.
      destruct (run L os w1) as [[w2 tr2]| | |] eqn:Er; try discriminate. cbn [obind fst snd] in E. injection E as <- <-.
      replace (tr ++ x :: tr2) with ((tr ++ [x]) ++ tr2) by (rewrite <- app_assoc; reflexivity).
      eapply IH; [|exact Ok2|exact Er]. eapply step_inv; eassumption.
  Qed.

  Lemma init_inv : inv (w_init L) [].
  Proof.
    split; [|split]; cbn.
    - intros i Hi. lia.
    - reflexivity.
    - intros d i s H. destruct d; discriminate.
  Qed.
End Inv.

(** ** Determinism *)

Section Det.
  Variable L : library.
  Variable g : nat -> nat.
  Hypothesis ginj : forall x y, g x = g y -> x = y.

  Definition alike (a b : alone L) : Prop :=
    a_kind L a = a_kind L b /\ a_seed L a = a_seed L b /\ a_used L a = a_used L b /\
    forall d, a_dists L b (g d) = a_dists L a d.

  Lemma follows_alike oa ob e e' a' b' :
    match oa, ob with Some a, Some b => alike a b | None, None => True | _, _ => False end ->
    follows L oa e a' -> follows L ob e' b' -> input_of L g e = input_of L (fun x => x) e' ->
    alike a' b' /\ answer_of L e = answer_of L e'.
  Proof using All.
    assert (A : forall f1 f2 d (x : l_state L), (forall y, f2 (g y) = f1 y) ->
      forall y, set_dist L f2 (g d) x (g y) = set_dist L f1 d x y).
    { intros f1 f2 d x H y. unfold set_dist. destruct (Nat.eqb_spec (g y) (g d)) as [E|E]; destruct (Nat.eqb_spec y d) as [E'|E'].
      - reflexivity.
      - apply ginj in E. contradiction.
      - subst. contradiction.
      - apply H. }
    intros R Fa Fb Ei.
    destruct Fa; inversion Fb; subst; cbn in R; try contradiction; cbn [input_of] in Ei; try discriminate Ei;
      try (destruct R as (R1 & R2 & R3 & R4); cbn in R1, R2, R3, R4; subst).
    - injection Ei as -> ->. split; [repeat split|reflexivity].
    - injection Ei as ->. split; [repeat split; assumption|reflexivity].
    - injection Ei as ->. split; [repeat split; assumption|reflexivity].
    - split; [repeat split; assumption|reflexivity].
    - injection Ei as ->. rewrite H in H1. injection H1 as ->. rewrite H0 in H2. injection H2 as -> -> ->.
      split; [repeat split; assumption|reflexivity].
    - injection Ei as <- ->. rewrite H in H1. injection H1 as ->.
      split; [repeat split; intros y; apply A, R4|reflexivity].
    - injection Ei as <-. rewrite R4, H in H1. injection H1 as ->. rewrite H0 in H2. injection H2 as -> -> ->.
      split; [repeat split; intros y; apply A, R4|reflexivity].
    - injection Ei as <-. rewrite R4, H in H0. injection H0 as ->.
      split; [repeat split; intros y; apply A, R4|reflexivity].
  Qed.

  Lemma history_not_nil a : ~ history L [] a.
  Proof. intros H. inversion H as [|es ? ? ? ? ? E]. destruct es; discriminate. Qed.

  Lemma history_alike es a : history L es a -> forall es' b, history L es' b ->
    map (input_of L g) es = map (input_of L (fun x => x)) es' ->
    alike a b /\ map (answer_of L) es = map (answer_of L) es'.
  Proof using All.
    induction 1 as [e a F|es a e a' H IH F]; intros es' b Hb E; inversion Hb as [e' b0 F' E1 E2|es1 b0 e' b1 H' F' E1 E2]; subst.
    - cbn in E. injection E as E. destruct (follows_alike None None e e' a b I F F' E) as [A B].
      split; [exact A|]. cbn. rewrite B. reflexivity.
    - exfalso. destruct es1 as [|x es1]; [apply (history_not_nil _ H')|]. cbn in E. injection E as E1 E2.
      rewrite map_app in E2. destruct (map _ es1); discriminate.
    - exfalso. destruct es as [|x es]; [apply (history_not_nil _ H)|]. cbn in E. injection E as E1 E2.
      rewrite map_app in E2. destruct (map _ es); discriminate.
    - rewrite !map_app in E. cbn in E. apply app_inj_tail in E. destruct E as [E1 E2].
      destruct (IH _ _ H' E1) as [A B].
      destruct (follows_alike (Some a) (Some b0) e e' a' b A F F' E2) as [A' B'].
      split; [exact A'|]. rewrite !map_app. cbn. rewrite B, B'. reflexivity.
  Qed.
End Det.

(** ** Seeds *)

Lemma seed_inj e u v : e_w e = 64 -> (0 < state_size (e_fam e))%nat -> u < 2 ^ 64 -> v < 2 ^ 64 ->
  seed e u = seed e v -> u = v.
Proof.
  intros Hw Hn Hu Hv E.
  assert (R : reg (r_s (seed e u)) 0 = reg (r_s (seed e v)) 0) by (rewrite E; reflexivity).
  rewrite !seed_reg in R by assumption. unfold sm_output in R.
  cbn [sm_after] in R. unfold sm64_draw in R. cbn [fst] in R.
  apply sm_out_inj in R; [|apply N.mod_lt; discriminate|apply N.mod_lt; discriminate].
  unfold sm_next in R. rewrite (N.add_comm u), (N.add_comm v) in R. apply wrap_add_cancel in R.
  unfold wrap in R. rewrite !N.mod_small in R by assumption. exact R.
Qed.

(** ** Parameters *)

Lemma Qltb_lt x y : Qltb x y = true <-> (x < y)%Q.
Proof.
  unfold Qltb. rewrite Bool.negb_true_iff. split; intros H.
  - apply Qnot_le_lt. intros C. apply Qle_bool_iff in C. congruence.
  - destruct (Qle_bool y x) eqn:E; [|reflexivity]. apply Qle_bool_iff in E. exfalso. apply (Qlt_not_le _ _ H E).
Qed.

Lemma asserts_documented p :
  match p with PLaplace m _ => (0 < m)%Q | PPiecewiseConstant bs _ => bs <> [] | _ => True end ->
  create_asserts p = true <-> documented p.
Proof.
  destruct p; cbn [create_asserts documented]; intros Hm; unfold positive, is_prob;
    rewrite ?Bool.andb_true_iff, ?Qltb_lt, ?Qle_bool_iff, ?Z.leb_le; try tauto.
  destruct bounds; [congruence|]. split; reflexivity || (intros; exact I).
Qed.

(** ** Bounds of the integer engines *)

Lemma filter_pos {A} (f : A -> bool) l : (0 < length (filter f l))%nat -> exists x, In x l /\ f x = true.
Proof.
  intros H. destruct (filter f l) as [|x r] eqn:E; [cbn in H; lia|]. exists x. apply filter_In. rewrite E. left. reflexivity.
Qed.

Lemma occurs_of_count e st v m : 0 < occurrences (fun x => x =? v) e m st -> exists n, output e n st = v.
Proof.
  unfold occurrences. intros H.
  destruct (filter_pos (fun k => output e k st =? v) (seq 0 (N.to_nat m))) as [n [_ Hn]]; [lia|].
  exists n. apply N.eqb_eq, Hn.
Qed.

Lemma every_word e st v : In e full_period_engines -> rng_ok e st -> nonzero st -> v < 2 ^ e_w e ->
  exists n, output e n st = v.
Proof.
  intros He Hok Hnz Hv. apply (occurs_of_count e st v (number_of_states e - 1)).
  rewrite (equidistributed e st v He Hok Hnz Hv).
  assert (B : 2 <= 2 ^ (e_w e * N.of_nat (state_size (e_fam e) - 1))).
  { apply N.leb_le. clear - He. unfold full_period_engines in He.
    repeat (destruct He as [<-|He]; [reflexivity|]). destruct He. }
  destruct (v =? 0); lia.
Qed.

(** ** Many draws *)

Lemma call_state k st : exists v, call k st = (v, snd (draw (k_eng k) st)).
Proof.
  unfold call, draw01. destruct (draw (k_eng k) st) as [m st']. destruct (k_unit k).
  - destruct (uint_to_real _ m). eexists. reflexivity.
  - eexists. reflexivity.
Qed.

Lemma upd_twice {A} (l : list A) i x y : upd (upd l i x) i y = upd l i y.
Proof. revert i. induction l as [|z l IH]; intros [|i]; cbn; try reflexivity. f_equal. apply IH. Qed.

Lemma upd_same {A} (l : list A) i x : nth_error l i = Some x -> upd l i x = l.
Proof. revert i. induction l as [|z l IH]; intros [|i] H; cbn in *; try discriminate; f_equal; [congruence|auto]. Qed.

Lemma generate_many L z : forall i w k st, nth_error (w_engs L w) i = Some (k, st) ->
  exists tr, run L (repeat (OGenerate i) z) w = Done (set_rng L w i k (discard (k_eng k) z st), tr) /\ length tr = z.
Proof.
  induction z as [|z IH]; intros i w k st H; cbn [repeat run].
  - exists []. split; [|reflexivity]. unfold set_rng. cbn [discard]. rewrite (upd_same _ _ _ H). destruct w. reflexivity.
  - cbn [step]. unfold get_eng. rewrite H. cbn [obind fst snd].
    destruct (call_state k st) as [v Hc]. rewrite Hc. cbn [obind fst snd].
    assert (Hi : (i < length (w_engs L w))%nat) by (apply nth_error_Some; rewrite H; discriminate).
    destruct (IH i (set_rng L w i k (snd (draw (k_eng k) st))) k (snd (draw (k_eng k) st))) as [tr [E1 E2]].
    { cbn. apply nth_upd_eq, Hi. }
    rewrite E1. cbn [obind fst snd]. exists ((i, EGenerate L v) :: tr). split; [|cbn; rewrite E2; reflexivity].
    unfold set_rng. cbn [w_engs w_dists]. rewrite upd_twice. cbn [discard].
    reflexivity.
Qed.
