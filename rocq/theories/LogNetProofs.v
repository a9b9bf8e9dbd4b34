(** Proofs about LogNet.v. *)
From Coq Require Import List NArith Arith Lia Permutation.
From Coq Require Import ZifyBool ZifyNat ZifyN.
From Verif Require Import Base BaseProofs Event EventSpec EventProofs LogNet LogNetSpec.
Import ListNotations.
Open Scope list_scope.

Definition ent (w : net) (i : nat) : list (N * nat) :=
  match nth_error w i with Some x => entries 0 (sl_items (nn_slots x)) | None => [] end.

(** The source at entry [k] of logger [l]. *)
Definition psrc (w : net) (l k : nat) : option nat :=
  match nth_error w l with
  | Some x => match nth_error (nn_pool x) k with Some (s, _) => s | None => None end
  | None => None
  end.

Definition gset (g : nat -> nat -> N) (l k : nat) (c : N) : nat -> nat -> N :=
  fun l' k' => if Nat.eqb l' l && Nat.eqb k' k then c else g l' k'.

Lemma gset_eq g l k c : gset g l k c l k = c.
Proof. unfold gset. now rewrite !Nat.eqb_refl. Qed.
Lemma gset_neq g l k c l' k' : l' <> l \/ k' <> k -> gset g l k c l' k' = g l' k'.
Proof. unfold gset. intros H. destruct (Nat.eqb_spec l' l), (Nat.eqb_spec k' k); cbn; auto. destruct H; congruence. Qed.

(** What is consistent about one object that no operation is working on. *)
Definition local (g : nat -> nat -> N) (l : nat) (x : nnode) : Prop :=
  (nn_kind x = NLogger -> (nn_up x = true <-> sl_num (nn_slots x) <> 0%N)) /\
  (nn_kind x <> NLogger -> nn_pool x = []) /\
  (forall k s d, nth_error (nn_pool x) k = Some (s, d) ->
     match s with
     | None => d = 0%N
     | Some _ => g l k = d /\ (d <> 0%N <-> nn_up x = true)
     end).

Section Ranked.
Context (rank : nat -> nat).

(** [U]: connections owned by somebody outside the pools; [D]: objects being
    worked on; [g]: the cookie each pool entry owns. *)
Record Inv (U : list (nat * N * nat)) (D : nat -> Prop) (g : nat -> nat -> N) (w : net) : Prop := {
  i_slots : forall i x, nth_error w i = Some x -> slots_ok (nn_cap x) (nn_slots x) /\
    (nn_kind x <> NLeaf -> (0 < nn_cap x)%N) /\ (nn_cap x < 2 ^ 32)%N;
  i_tab : forall i c s, In (c, s) (ent w i) <->
    In (i, c, s) U \/ exists k, psrc w s k = Some i /\ g s k = c /\ c <> 0%N;
  i_U : NoDup (map fst U);
  i_disj : forall i c s l k, In (i, c, s) U -> psrc w l k = Some i -> g l k = c -> False;
  i_inj : forall i l k l' k', psrc w l k = Some i -> psrc w l' k' = Some i -> g l k = g l' k' -> g l k <> 0%N ->
    l = l' /\ k = k';
  i_rank : forall l k i, psrc w l k = Some i -> rank i < rank l /\ exists x, nth_error w i = Some x /\ nn_kind x <> NLeaf;
  i_loc : forall l x, nth_error w l = Some x -> ~ D l -> local g l x }.

Definition frame (i : nat) (w w' : net) : Prop :=
  forall j, rank i <= rank j -> j <> i -> nth_error w' j = nth_error w j.
Definition gframe (i : nat) (g g' : nat -> nat -> N) : Prop :=
  forall j k, rank i <= rank j -> j <> i -> g' j k = g j k.
Definition look (x : nnode) := (nn_kind x, nn_cap x, map fst (nn_pool x)).
Definition shape (w w' : net) : Prop :=
  forall j, option_map look (nth_error w' j) = option_map look (nth_error w j).

Lemma shape_refl w : shape w w.
Proof. intros j. reflexivity. Qed.
Lemma shape_trans a b c : shape a b -> shape b c -> shape a c.
Proof. intros H1 H2 j. now rewrite H2, H1. Qed.
Lemma frame_refl i w : frame i w w.
Proof. intros j _ _. reflexivity. Qed.
Lemma frame_trans i a b c : frame i a b -> frame i b c -> frame i a c.
Proof. intros H1 H2 j Hr Hn. now rewrite H2, H1. Qed.
Lemma gframe_refl i w : gframe i w w.
Proof. intros j k _ _. reflexivity. Qed.
Lemma gframe_trans i a b c : gframe i a b -> gframe i b c -> gframe i a c.
Proof. intros H1 H2 j k Hr Hn. now rewrite H2, H1. Qed.
Lemma frame_lower i s w w' : rank s < rank i -> frame s w w' -> frame i w w'.
Proof. intros Hr H j Hj Hn. apply H; [lia|]. intros ->. lia. Qed.
Lemma gframe_lower i s w w' : rank s < rank i -> gframe s w w' -> gframe i w w'.
Proof. intros Hr H j k Hj Hn. apply H; [lia|]. intros ->. lia. Qed.

Lemma shape_upd w i x y : nth_error w i = Some x -> look y = look x -> shape w (upd w i y).
Proof using. clear rank.
  intros Hx Hl j. rewrite nth_upd. destruct (Nat.eqb_spec i j) as [->|Hn]; [|reflexivity].
  rewrite Hx. cbn [andb]. assert (j < length w) by (apply nth_error_Some; congruence).
  destruct (Nat.ltb_spec j (length w)); [cbn [option_map]; now rewrite Hl|lia].
Qed.

Lemma frame_upd w i y : frame i w (upd w i y).
Proof. intros j _ Hn. apply nth_upd_neq. auto. Qed.

Lemma psrc_fst w l k : psrc w l k =
  match nth_error w l with Some x => match nth_error (map fst (nn_pool x)) k with Some s => s | None => None end | None => None end.
Proof.
  unfold psrc. destruct (nth_error w l) as [x|]; [|reflexivity]. rewrite nth_error_map.
  destruct (nth_error (nn_pool x) k) as [[s d]|]; reflexivity.
Qed.

Lemma shape_psrc w w' l k : shape w w' -> psrc w' l k = psrc w l k.
Proof.
  intros H. rewrite !psrc_fst. specialize (H l).
  destruct (nth_error w' l) as [x|], (nth_error w l) as [y|]; cbn in H; try discriminate; [|reflexivity].
  injection H as Hk Hc Hp. now rewrite Hp.
Qed.

Lemma shape_node w w' i x : shape w w' -> nth_error w i = Some x -> exists y, nth_error w' i = Some y /\ look y = look x.
Proof.
  intros H Hx. specialize (H i). rewrite Hx in H. destruct (nth_error w' i) as [y|]; [|discriminate].
  exists y. cbn in H. split; [reflexivity|congruence].
Qed.

Lemma shape_sym w w' : shape w w' -> shape w' w.
Proof. intros H j. now rewrite H. Qed.

Lemma look_kind x y : look y = look x -> nn_kind y = nn_kind x.
Proof. now intros [= ? _ _]. Qed.

Lemma inv_dirty U (D D' : nat -> Prop) g w : (forall j, D j -> D' j) -> Inv U D g w -> Inv U D' g w.
Proof. intros H [h1 h2 h3 h4 h5 h6 h7]. split; auto. Qed.

Lemma inv_clean U D i g w x : Inv U (fun j => D j \/ j = i) g w -> nth_error w i = Some x -> local g i x -> Inv U D g w.
Proof.
  intros [h1 h2 h3 h4 h5 h6 h7] Hx Hl. split; auto. intros l y Hy Hd.
  destruct (Nat.eq_dec l i) as [->|Hn]; [congruence|]. apply h7; [exact Hy|]. tauto.
Qed.

Lemma ent_upd w i y j : i < length w -> ent (upd w i y) j = if Nat.eqb i j then entries 0 (sl_items (nn_slots y)) else ent w j.
Proof using. clear rank.
  intros Hi. unfold ent. rewrite nth_upd. destruct (Nat.eqb_spec i j) as [->|Hn]; [|reflexivity].
  destruct (Nat.ltb_spec j (length w)); [reflexivity|lia].
Qed.

(** Changing cookies in the pool or [sink_] of an object being worked on. *)
Lemma inv_touch U (D : nat -> Prop) g w i x y : Inv U D g w -> D i -> nth_error w i = Some x ->
  look y = look x -> nn_slots y = nn_slots x -> Inv U D g (upd w i y).
Proof.
  intros [h1 h2 h3 h4 h5 h6 h7] Hd Hx Hl Hs.
  assert (Hi : i < length w) by (apply nth_error_Some; congruence).
  pose proof (shape_upd w i x y Hx Hl) as Hsh.
  assert (He : forall j, ent (upd w i y) j = ent w j).
  { intros j. rewrite ent_upd by exact Hi. destruct (Nat.eqb_spec i j) as [<-|]; [|reflexivity].
    unfold ent. now rewrite Hx, Hs. }
  split.
  - intros j z Hz. apply upd_inv in Hz. destruct Hz as [[-> ->]|[_ Hz]]; [|eauto].
    destruct (h1 _ _ Hx) as (H1 & H2 & H3). rewrite Hs. unfold look in Hl. injection Hl as -> -> _. auto.
  - intros j c s. rewrite He, h2. split; (intros [H|(k & H)]; [now left|right; exists k]);
      rewrite (shape_psrc _ _ _ _ Hsh) in *; exact H.
  - exact h3.
  - intros j c s l k Hin Hp. rewrite (shape_psrc _ _ _ _ Hsh) in Hp. eauto.
  - intros j l k l' k' Hp Hp'. rewrite (shape_psrc _ _ _ _ Hsh) in Hp. rewrite (shape_psrc _ _ _ _ Hsh) in Hp'. eauto.
  - intros l k j Hp. rewrite (shape_psrc _ _ _ _ Hsh) in Hp. destruct (h6 _ _ _ Hp) as [Hr (z & Hz & Hk)].
    split; [exact Hr|]. destruct (shape_node _ _ _ _ Hsh Hz) as (z' & Hz' & Hlz). exists z'. split; [exact Hz'|].
    now rewrite (look_kind _ _ Hlz).
  - intros l z Hz Hnd. apply upd_inv in Hz. destruct Hz as [[-> ->]|[_ Hz]]; [contradiction|eauto].
Qed.

Lemma set_cookie_touch U (D : nat -> Prop) g w i k c : Inv U D g w -> D i -> Inv U D g (set_cookie i k c w).
Proof.
  intros HI Hd. unfold set_cookie. destruct (nth_error w i) as [x|] eqn:Hx; [|exact HI].
  destruct (nth_error (nn_pool x) k) as [[s d]|] eqn:Hk; [|exact HI].
  eapply inv_touch; [exact HI|exact Hd|exact Hx| |reflexivity].
  unfold look, set_pool. cbn. rewrite map_upd. cbn [fst]. rewrite upd_same; [reflexivity|].
  rewrite nth_error_map, Hk. reflexivity.
Qed.

Lemma set_cookie_shape i k c w : shape w (set_cookie i k c w).
Proof.
  unfold set_cookie. destruct (nth_error w i) as [x|] eqn:Hx; [|apply shape_refl].
  destruct (nth_error (nn_pool x) k) as [[s d]|] eqn:Hk; [|apply shape_refl].
  eapply shape_upd; [exact Hx|]. unfold look, set_pool. cbn. rewrite map_upd. cbn [fst]. rewrite upd_same; [reflexivity|].
  rewrite nth_error_map, Hk. reflexivity.
Qed.

Lemma set_cookie_node i k c w x s d : nth_error w i = Some x -> nth_error (nn_pool x) k = Some (s, d) ->
  nth_error (set_cookie i k c w) i = Some (set_pool x (upd (nn_pool x) k (s, c))).
Proof.
  intros Hx Hk. unfold set_cookie. rewrite Hx, Hk. apply nth_upd_eq. apply nth_error_Some. congruence.
Qed.

Lemma set_cookie_frame i k c w : frame i w (set_cookie i k c w).
Proof.
  unfold set_cookie. destruct (nth_error w i) as [x|]; [|apply frame_refl].
  destruct (nth_error (nn_pool x) k) as [[s d]|]; [|apply frame_refl]. apply frame_upd.
Qed.

(** Handing a connection to a pool entry, and taking it back. *)
Lemma inv_give U (D : nat -> Prop) g w i k src c : Inv ((src, c, i) :: U) D g w -> D i ->
  psrc w i k = Some src -> g i k = 0%N -> c <> 0%N -> Inv U D (gset g i k c) w.
Proof.
  intros [h1 h2 h3 h4 h5 h6 h7] Hd Hp Hg Hc. cbn [map] in h3. inversion h3 as [|? ? Hni Hnd]; subst.
  assert (Hno : forall l k', psrc w l k' = Some src -> g l k' = c -> False).
  { intros l k' Hp' Hg'. eapply h4; [now left|exact Hp'|exact Hg']. }
  split; auto.
  - intros j e s. rewrite h2. cbn [In]. split.
    + intros [[[= <- <- <-]|H]|(k' & Hp' & Hg' & He)]; [right; exists k; rewrite gset_eq; auto|now left|].
      right. exists k'. split; [exact Hp'|]. split; [|exact He]. rewrite gset_neq; [exact Hg'|].
      destruct (Nat.eq_dec s i) as [->|]; [|auto]. right. intros ->. congruence.
    + intros [H|(k' & Hp' & Hg' & He)]; [left; now right|].
      destruct (Nat.eq_dec s i) as [->|Hs]; [destruct (Nat.eq_dec k' k) as [->|Hk]|].
      * left. left. rewrite gset_eq in Hg'. congruence.
      * right. exists k'. rewrite gset_neq in Hg' by auto. auto.
      * right. exists k'. rewrite gset_neq in Hg' by auto. auto.
  - intros j e s l k' Hin Hp' Hg'.
    destruct (Nat.eq_dec l i) as [->|Hs]; [destruct (Nat.eq_dec k' k) as [->|Hk]|].
    + rewrite gset_eq in Hg'. subst e. assert (j = src) by congruence. subst j.
      apply Hni. change (src, c) with (fst (src, c, s)). now apply in_map.
    + rewrite gset_neq in Hg' by auto. eapply h4; [right; exact Hin|exact Hp'|exact Hg'].
    + rewrite gset_neq in Hg' by auto. eapply h4; [right; exact Hin|exact Hp'|exact Hg'].
  - intros j l k1 l' k2 Hp1 Hp2. unfold gset.
    destruct (Nat.eqb_spec l i) as [->|H1]; [destruct (Nat.eqb_spec k1 k) as [->|H2]|]; cbn [andb];
    (destruct (Nat.eqb_spec l' i) as [->|H3]; [destruct (Nat.eqb_spec k2 k) as [->|H4]|]; cbn [andb]); intros Hge Hne;
      try (eapply h5; eassumption); auto; exfalso.
    + assert (j = src) by congruence. subst j. eapply Hno; [exact Hp2|]. congruence.
    + assert (j = src) by congruence. subst j. eapply Hno; [exact Hp2|]. congruence.
    + assert (j = src) by congruence. subst j. eapply Hno; [exact Hp1|exact Hge].
    + assert (j = src) by congruence. subst j. eapply Hno; [exact Hp1|exact Hge].
  - intros l x Hx Hnd'. specialize (h7 l x Hx Hnd'). destruct h7 as (a & b & e). split; [exact a|]. split; [exact b|].
    intros k' s d Hk'. specialize (e k' s d Hk'). destruct s; [|exact e]. rewrite gset_neq; [exact e|].
    left. intros ->. contradiction.
Qed.

Lemma inv_take U (D : nat -> Prop) g w i k src c : Inv U D g w -> D i ->
  psrc w i k = Some src -> g i k = c -> c <> 0%N -> Inv ((src, c, i) :: U) D (gset g i k 0%N) w.
Proof.
  intros [h1 h2 h3 h4 h5 h6 h7] Hd Hp Hg Hc. split; auto.
  - intros j e s. rewrite h2. cbn [In]. split.
    + intros [H|(k' & Hp' & Hg' & He)]; [left; now right|].
      destruct (Nat.eq_dec s i) as [->|Hs]; [destruct (Nat.eq_dec k' k) as [->|Hk]|].
      * left. left. congruence.
      * right. exists k'. rewrite gset_neq by auto. auto.
      * right. exists k'. rewrite gset_neq by auto. auto.
    + intros [[[= <- <- <-]|H]|(k' & Hp' & Hg' & He)]; [right; now exists k|now left|].
      destruct (Nat.eq_dec s i) as [->|Hs]; [destruct (Nat.eq_dec k' k) as [->|Hk]|].
      * rewrite gset_eq in Hg'. congruence.
      * right. exists k'. rewrite gset_neq in Hg' by auto. auto.
      * right. exists k'. rewrite gset_neq in Hg' by auto. auto.
  - cbn [map]. constructor; [|exact h3]. intros Hin. apply in_map_iff in Hin. destruct Hin as ([[j e] s] & [= -> ->] & Hin).
    eapply h4; eassumption.
  - intros j e s l k' [[= <- <- <-]|Hin] Hp' Hg'.
    + destruct (Nat.eq_dec l i) as [->|Hs]; [destruct (Nat.eq_dec k' k) as [->|Hk]|].
      * rewrite gset_eq in Hg'. congruence.
      * rewrite gset_neq in Hg' by auto. destruct (h5 _ _ _ _ _ Hp' Hp); congruence.
      * rewrite gset_neq in Hg' by auto. destruct (h5 _ _ _ _ _ Hp' Hp); congruence.
    + destruct (Nat.eq_dec l i) as [->|Hs]; [destruct (Nat.eq_dec k' k) as [->|Hk]|].
      * rewrite gset_eq in Hg'. subst e. assert (Ht : In (0%N, s) (ent w j)) by (apply h2; now left).
        unfold ent in Ht. destruct (nth_error w j); [|destruct Ht]. apply entries_bound in Ht. lia.
      * rewrite gset_neq in Hg' by auto. eauto.
      * rewrite gset_neq in Hg' by auto. eauto.
  - intros j l k1 l' k2 Hp1 Hp2. unfold gset.
    destruct (Nat.eqb_spec l i) as [->|H1]; [destruct (Nat.eqb_spec k1 k) as [->|H2]|]; cbn [andb];
    (destruct (Nat.eqb_spec l' i) as [->|H3]; [destruct (Nat.eqb_spec k2 k) as [->|H4]|]; cbn [andb]); intros Hge Hne;
      try (eapply h5; eassumption); auto; congruence.
  - intros l x Hx Hnd'. specialize (h7 l x Hx Hnd'). destruct h7 as (a & b & e). split; [exact a|]. split; [exact b|].
    intros k' s d Hk'. specialize (e k' s d Hk'). destruct s; [|exact e]. rewrite gset_neq; [exact e|].
    left. intros ->. contradiction.
Qed.

Lemma look_slots x s : look (set_slots x s) = look x.
Proof. reflexivity. Qed.

Lemma num_ent w i x : nth_error w i = Some x -> slots_ok (nn_cap x) (nn_slots x) -> sl_num (nn_slots x) = N.of_nat (length (ent w i)).
Proof. intros Hx [H _ _]. unfold ent. now rewrite Hx. Qed.

(** The table operations. *)
Lemma inv_table U U' (D : nat -> Prop) g w i x sl :
  Inv U D g w -> nth_error w i = Some x -> slots_ok (nn_cap x) sl -> NoDup (map fst U') ->
  (forall c s, In (c, s) (entries 0 (sl_items sl)) <-> In (i, c, s) U' \/ exists k, psrc w s k = Some i /\ g s k = c /\ c <> 0%N) ->
  (forall j c s, j <> i -> In (j, c, s) U' <-> In (j, c, s) U) ->
  (forall c s l k, In (i, c, s) U' -> psrc w l k = Some i -> g l k = c -> False) ->
  Inv U' (fun j => D j \/ j = i) g (upd w i (set_slots x sl)).
Proof.
  intros [h1 h2 h3 h4 h5 h6 h7] Hx Hsl Hnd He Ho Hdis.
  assert (Hi : i < length w) by (apply nth_error_Some; congruence).
  pose proof (shape_upd w i x (set_slots x sl) Hx eq_refl) as Hsh.
  split.
  - intros j z Hz. apply upd_inv in Hz. destruct Hz as [[-> ->]|[_ Hz]]; [|eauto].
    destruct (h1 _ _ Hx) as (H1 & H2 & H3). auto.
  - intros j c s. rewrite ent_upd by exact Hi. destruct (Nat.eqb_spec i j) as [<-|Hn].
    + cbn [nn_slots set_slots]. rewrite He. split; (intros [H|(k & H)]; [now left|right; exists k]);
      rewrite (shape_psrc _ _ _ _ Hsh) in *; exact H.
    + rewrite h2, Ho by auto. split; (intros [H|(k & H)]; [now left|right; exists k]);
      rewrite (shape_psrc _ _ _ _ Hsh) in *; exact H.
  - exact Hnd.
  - intros j c s l k Hin Hp Hg. rewrite (shape_psrc _ _ _ _ Hsh) in Hp. destruct (Nat.eq_dec j i) as [->|Hn]; [eauto|].
    apply Ho in Hin; [|exact Hn]. eauto.
  - intros j l k l' k' Hp Hp'. rewrite (shape_psrc _ _ _ _ Hsh) in Hp. rewrite (shape_psrc _ _ _ _ Hsh) in Hp'. eauto.
  - intros l k j Hp. rewrite (shape_psrc _ _ _ _ Hsh) in Hp. destruct (h6 _ _ _ Hp) as [Hr (z & Hz & Hk)].
    split; [exact Hr|]. destruct (shape_node _ _ _ _ Hsh Hz) as (z' & Hz' & Hlz). exists z'. split; [exact Hz'|].
    now rewrite (look_kind _ _ Hlz).
  - intros l z Hz Hnd'. apply upd_inv in Hz. destruct Hz as [[-> ->]|[_ Hz]]; [tauto|]. apply h7; [exact Hz|tauto].
Qed.

Lemma table_connect_ok U D g w i x s : Inv U D g w -> nth_error w i = Some x -> nn_kind x <> NLeaf ->
  (exists c sl, table_connect i (Some s) w = (upd w i (set_slots x sl), RDone c) /\ c <> 0%N /\ sl_num sl <> 0%N /\
     Inv ((i, c, s) :: U) (fun j => D j \/ j = i) g (upd w i (set_slots x sl))) \/
  table_connect i (Some s) w = (w, RFail (FThrow ConnectionLimit)).
Proof.
  intros HI Hx Hk. pose proof HI as [h1 h2 h3 h4 h5 h6 h7]. destruct (h1 _ _ Hx) as (Hs & Hpos & Hlt).
  specialize (Hpos Hk). unfold table_connect, with_node. rewrite Hx. unfold ev_connect.
  destruct (N.eqb_spec (sl_num (nn_slots x)) (nn_cap x)) as [Hfull|Hnf]; [right; reflexivity|left].
  assert (Hlt' : (sl_num (nn_slots x) < nn_cap x)%N).
  { pose proof (entries_length_le (sl_items (nn_slots x)) 0). destruct Hs. lia. }
  destruct (slots_insert_ok (nn_cap x) _ s (conj Hpos Hlt) Hs Hlt') as (c & sl & Hi & Hs' & Hc & HP & Hfresh & _ & _).
  rewrite Hi. replace (N.eqb c 0) with false by lia. exists c, sl. split; [reflexivity|]. split; [lia|]. split.
  { rewrite (so_num _ _ Hs'), (Permutation_length HP). cbn [length]. lia. }
  assert (Hen : forall s', ~ In (c, s') (ent w i)).
  { intros s' Hin. apply Hfresh. unfold ent in Hin. rewrite Hx in Hin. change c with (fst (c, s')). now apply in_map. }
  eapply inv_table; [exact HI|exact Hx|exact Hs'| | | |].
  - cbn [map]. constructor; [|exact h3]. intros Hin. apply in_map_iff in Hin. destruct Hin as ([[j e] s'] & [= -> ->] & Hin).
    apply (Hen s'). apply h2. now left.
  - intros c' s'. split.
    + intros Hin. apply (Permutation_in _ HP) in Hin. destruct Hin as [[= <- <-]|Hin]; [left; now left|].
      assert (Hin' : In (c', s') (ent w i)) by (unfold ent; now rewrite Hx). apply h2 in Hin'.
      destruct Hin' as [H|H]; [left; now right|now right].
    + intros H. apply (Permutation_in _ (Permutation_sym HP)). destruct H as [[[= <- <-]|H]|H]; [now left|right..].
      * assert (H' : In (c', s') (ent w i)) by (apply h2; now left). unfold ent in H'. now rewrite Hx in H'.
      * assert (H' : In (c', s') (ent w i)) by (apply h2; now right). unfold ent in H'. now rewrite Hx in H'.
  - intros j c' s' Hn. cbn [In]. split; [intros [[= <- _ _]|H]; [congruence|exact H]|now right].
  - intros c' s' l k [[= <- <-]|Hin] Hp Hg; [|eauto].
    apply (Hen l). apply h2. right. exists k. split; [exact Hp|]. split; [exact Hg|lia].
Qed.

Lemma ent_unique w i c s s' : In (c, s) (ent w i) -> In (c, s') (ent w i) -> s = s'.
Proof.
  unfold ent. destruct (nth_error w i); [|intros []]. intros H1 H2. apply entries_in in H1, H2.
  destruct H1 as [_ H1], H2 as [_ H2]. congruence.
Qed.

Lemma table_disconnect_ok U D g w i x c s : Inv ((i, c, s) :: U) D g w -> nth_error w i = Some x ->
  exists sl, table_disconnect i c w = (upd w i (set_slots x sl), RDone tt) /\
     Inv U (fun j => D j \/ j = i) g (upd w i (set_slots x sl)).
Proof.
  intros HI Hx. pose proof HI as [h1 h2 h3 h4 h5 h6 h7]. destruct (h1 _ _ Hx) as (Hs & _ & Hlt).
  unfold table_disconnect, with_node. rewrite Hx. unfold ev_disconnect.
  assert (Hin : In (c, s) (ent w i)) by (apply h2; left; now left).
  assert (Hc : (0 < c <= nn_cap x)%N).
  { unfold ent in Hin. rewrite Hx in Hin. apply entries_bound in Hin. destruct Hs. lia. }
  assert (Hw : w32 c = c) by (unfold w32, wrap; apply N.mod_small; lia). rewrite Hw.
  destruct (slots_remove_ok (nn_cap x) _ c (conj (N.lt_le_trans _ _ _ (proj1 Hc) (proj2 Hc)) Hlt) ltac:(lia) Hs) as (sl & Hr & Hs' & He & _ & _).
  rewrite Hr. exists sl. split; [reflexivity|]. cbn [map] in h3. inversion h3 as [|? ? Hni Hnd]; subst.
  eapply inv_table; [exact HI|exact Hx|exact Hs'|exact Hnd| | |].
  - intros c' s'. rewrite He, filter_In. cbn [fst].
    assert (Heq : In (c', s') (entries 0 (sl_items (nn_slots x))) <-> In (c', s') (ent w i)) by (unfold ent; rewrite Hx; reflexivity).
    rewrite Heq. split.
    + intros [H Hne]. apply h2 in H. destruct H as [[[= -> ->]|H]|H]; [|now left|now right].
      rewrite N.eqb_refl in Hne. discriminate.
    + intros H. split; [apply h2; destruct H as [H|H]; [left; now right|now right]|].
      destruct (N.eqb_spec c' c) as [->|Hne]; [exfalso|reflexivity]. destruct H as [H|(k & Hp & Hg & _)].
      * apply Hni. change (i, c) with (fst (i, c, s')). now apply in_map.
      * eapply h4; [now left|exact Hp|exact Hg].
  - intros j c' s' Hn. cbn [In]. split; [now right|]. intros [[= <- _ _]|H]; [congruence|exact H].
  - intros c' s' l k Hi Hp Hg. eapply h4; [right; exact Hi|exact Hp|exact Hg].
Qed.

Definition connect_spec (f i : nat) : Prop := forall s U (D : nat -> Prop) g w x,
  Inv U D g w -> (forall j, D j -> rank i <= rank j /\ j <> i) -> nth_error w i = Some x -> nn_kind x <> NLeaf ->
  match connect f i (Some s) w with
  | (w', RDone c) => c <> 0%N /\ exists g', Inv ((i, c, s) :: U) D g' w' /\ frame i w w' /\ shape w w' /\ gframe i g g'
  | (_, RFail e) => e = FThrow ConnectionLimit
  end.

Lemma pool_connect_loop_ok f i : (forall j, rank j < rank i -> connect_spec f j) ->
  forall ks U (D : nat -> Prop) g w x, NoDup ks ->
  Inv U D g w -> D i -> (forall j, D j -> rank i <= rank j) -> nth_error w i = Some x ->
  (forall k, In k ks -> k < length (nn_pool x)) -> (forall k, In k ks -> g i k = 0%N) ->
  match pool_connect_loop (connect f) i ks w with
  | (w', RDone _) => exists g' y, Inv U D g' w' /\ frame i w w' /\ shape w w' /\ gframe i g g' /\
      nth_error w' i = Some y /\ nn_up y = nn_up x /\ nn_slots y = nn_slots x /\
      (forall k, ~ In k ks -> nth_error (nn_pool y) k = nth_error (nn_pool x) k /\ g' i k = g i k) /\
      (forall k src d, In k ks -> nth_error (nn_pool x) k = Some (Some src, d) ->
         g' i k <> 0%N /\ nth_error (nn_pool y) k = Some (Some src, g' i k)) /\
      (forall k d, nth_error (nn_pool x) k = Some (None, d) -> nth_error (nn_pool y) k = Some (None, d))
  | (_, RFail e) => e = FThrow ConnectionLimit
  end.
Proof.
  intros Hspec ks. induction ks as [|k t IH]; intros U D g w x Hnd HI Hd HD Hx Hlen Hg0; cbn [pool_connect_loop].
  - exists g, x. split; [exact HI|]. split; [apply frame_refl|]. split; [apply shape_refl|]. split; [apply gframe_refl|].
    split; [exact Hx|]. split; [reflexivity|]. split; [reflexivity|]. split; [auto|]. split; [intros ? ? ? []|auto].
  - unfold with_node. rewrite Hx. inversion Hnd as [|? ? Hnk Hnt]; subst.
    destruct (nth_error (nn_pool x) k) as [[[src|] d]|] eqn:Hk.
    3:{ apply nth_error_None in Hk. specialize (Hlen k (or_introl eq_refl)). lia. }
    + assert (Hp : psrc w i k = Some src) by (unfold psrc; now rewrite Hx, Hk).
      destruct (i_rank _ _ _ _ HI _ _ _ Hp) as [Hr (z & Hz & Hzk)].
      pose proof (Hspec src Hr i U D g w z HI) as Hc.
      assert (HDs : forall j, D j -> rank src <= rank j /\ j <> src).
      { intros j Hj. apply HD in Hj. split; [lia|]. intros ->. lia. }
      specialize (Hc HDs Hz Hzk). destruct (connect f src (Some i) w) as [w1 [c|e]]; cbn [rbind]; [|exact Hc].
      destruct Hc as (Hc0 & g1 & HI1 & Hf1 & Hs1 & Hg1).
      assert (Hx1 : nth_error w1 i = Some x).
      { rewrite (Hf1 i); [exact Hx|lia|]. intros ->. lia. }
      assert (Hgi : g1 i k = 0%N).
      { rewrite (Hg1 i k); [apply Hg0; now left|lia|]. intros ->. lia. }
      assert (Hp1 : psrc w1 i k = Some src) by (rewrite (shape_psrc _ _ _ _ Hs1); exact Hp).
      pose proof (inv_give _ _ _ _ _ _ _ _ HI1 Hd Hp1 Hgi Hc0) as HI2.
      pose proof (set_cookie_touch _ _ _ _ i k c HI2 Hd) as HI3.
      pose proof (set_cookie_node i k c w1 x _ _ Hx1 Hk) as Hx3.
      assert (Hk0 : k < length (nn_pool x)) by (apply Hlen; now left).
      specialize (IH U D (gset g1 i k c) (set_cookie i k c w1) _ Hnt HI3 Hd HD Hx3).
      cbn [nn_pool set_pool] in IH. rewrite upd_length in IH.
      specialize (IH (fun k' Hk' => Hlen k' (or_intror Hk'))).
      assert (Hg0' : forall k', In k' t -> gset g1 i k c i k' = 0%N).
      { intros k' Hk'. rewrite gset_neq by (right; congruence). rewrite (Hg1 i k'); [apply Hg0; now right|lia|]. intros ->. lia. }
      specialize (IH Hg0').
      destruct (pool_connect_loop (connect f) i t (set_cookie i k c w1)) as [w' [[]|e]]; [|exact IH].
      destruct IH as (g' & y & HI' & Hf' & Hs' & Hg' & Hy & Hup & Hsl & Hout & Hin & Hnone).
      exists g', y. split; [exact HI'|].
      split; [eapply frame_trans; [eapply frame_lower; eassumption|]; eapply frame_trans; [apply set_cookie_frame|exact Hf']|].
      split; [eapply shape_trans; [exact Hs1|]; eapply shape_trans; [apply set_cookie_shape|exact Hs']|].
      split.
      { intros j k' Hj Hn. rewrite (Hg' j k' Hj Hn), gset_neq by auto. apply Hg1; [lia|]. intros ->. lia. }
      split; [exact Hy|]. split; [exact Hup|]. split; [exact Hsl|]. split; [|split].
      * intros k' Hk'. cbn [In] in Hk'. destruct (Hout k') as [H1 H2]; [tauto|]. split.
        -- rewrite H1. apply nth_upd_neq. intros ->. tauto.
        -- rewrite H2, gset_neq by (right; intros ->; tauto). apply Hg1; [lia|]. intros ->. lia.
      * intros k' src' d' [<-|Hk'] Hpk.
        -- destruct (Hout k Hnk) as [H1 H2]. rewrite gset_eq in H2. rewrite H2. split; [exact Hc0|].
           rewrite H1, nth_upd_eq by exact Hk0. congruence.
        -- apply (Hin k' src' d' Hk'). rewrite nth_upd_neq by congruence. exact Hpk.
      * intros k' d' Hpk. apply Hnone. rewrite nth_upd_neq by congruence. exact Hpk.
    + specialize (IH U D g w x Hnt HI Hd HD Hx (fun k' Hk' => Hlen k' (or_intror Hk')) (fun k' Hk' => Hg0 k' (or_intror Hk'))).
      destruct (pool_connect_loop (connect f) i t w) as [w' [[]|e]]; [|exact IH].
      destruct IH as (g' & y & HI' & Hf' & Hs' & Hg' & Hy & Hup & Hsl & Hout & Hin & Hnone).
      exists g', y. split; [exact HI'|]. split; [exact Hf'|]. split; [exact Hs'|]. split; [exact Hg'|]. split; [exact Hy|].
      split; [exact Hup|]. split; [exact Hsl|]. split; [|split; [|exact Hnone]].
      * intros k' Hk'. apply Hout. cbn [In] in Hk'. tauto.
      * intros k' src' d' [<-|Hk'] Hpk; [congruence|eauto].
Qed.

Lemma connect_ok f : forall i, rank i < f -> connect_spec f i.
Proof.
  induction f as [|f IH]; intros i Hf; [lia|]. intros s U D g w x HI HD Hx Hk.
  cbn [connect]. unfold with_node at 1. rewrite Hx. destruct (nn_kind x) eqn:Ek; [| |congruence].
  - (* event *)
    destruct (table_connect_ok U D g w i x s HI Hx ltac:(congruence)) as [(c & sl & -> & Hc & Hn & HI')| ->]; [|reflexivity].
    split; [exact Hc|]. exists g. split; [|split; [apply frame_upd|split; [eapply shape_upd; [exact Hx|reflexivity]|apply gframe_refl]]].
    eapply inv_clean; [exact HI'|apply nth_upd_eq; apply nth_error_Some; congruence|].
    assert (Hloc : ~ D i) by (intros H; apply HD in H; tauto).
    destruct (i_loc _ _ _ _ HI i x Hx Hloc) as (a & b & e). split; [|split]; cbn [nn_kind nn_pool nn_up nn_slots set_slots]; auto.
    congruence.
  - (* logger *)
    assert (Hloc : ~ D i) by (intros H; apply HD in H; tauto).
    destruct (i_loc _ _ _ _ HI i x Hx Hloc) as (Hup & _ & Hent). specialize (Hup Ek).
    assert (Hi : i < length w) by (apply nth_error_Some; congruence).
    destruct (N.eqb_spec (sl_num (nn_slots x)) 0) as [Hz|Hnz].
    + assert (Hdown : nn_up x = false) by (destruct (nn_up x); [destruct (proj1 Hup eq_refl Hz)|reflexivity]).
      unfold pool_connect, with_node at 1. rewrite Hx, Hdown.
      set (x1 := set_up x true). assert (HI1 : Inv U (fun j => D j \/ j = i) g (upd w i x1)).
      { eapply inv_touch; [eapply inv_dirty; [|exact HI]; auto|now right|exact Hx|reflexivity|reflexivity]. }
      pose proof (pool_connect_loop_ok f i) as HL.
      assert (Hsp : forall j, rank j < rank i -> connect_spec f j) by (intros j Hj; apply IH; lia).
      specialize (HL Hsp (seq 0 (length (nn_pool x))) U _ g (upd w i x1) x1 (seq_NoDup _ _) HI1 (or_intror eq_refl)).
      assert (HD' : forall j, D j \/ j = i -> rank i <= rank j) by (intros j [Hj| ->]; [apply HD in Hj; lia|lia]).
      specialize (HL HD' (nth_upd_eq _ _ _ Hi)).
      assert (Hl1 : forall k, In k (seq 0 (length (nn_pool x))) -> k < length (nn_pool x1)).
      { intros k Hin. apply in_seq in Hin. cbn. lia. }
      specialize (HL Hl1).
      assert (Hg0 : forall k, In k (seq 0 (length (nn_pool x))) -> forall src d, nth_error (nn_pool x) k = Some (Some src, d) -> g i k = 0%N).
      { intros k _ src d Hpk. specialize (Hent k _ _ Hpk). cbn in Hent. destruct Hent as [-> Hd0].
        destruct (N.eq_dec d 0) as [|Hne]; [assumption|]. apply Hd0 in Hne. congruence. }
      (* ghosts of empty entries are irrelevant: normalise them *)
      set (g0 := fun l k => match psrc w l k with Some _ => g l k | None => 0%N end).
      assert (Hg00 : forall l k sr, psrc w l k = Some sr -> g0 l k = g l k) by (intros l k sr Hp; unfold g0; now rewrite Hp).
      assert (Hsh1 : shape w (upd w i x1)) by (eapply shape_upd; [exact Hx|reflexivity]).
      clear HL.
      assert (HI0 : Inv U (fun j => D j \/ j = i) g0 (upd w i x1)).
      { destruct HI1 as [h1 h2 h3 h4 h5 h6 h7]. split; auto.
        - intros j c s'. rewrite h2. split; (intros [H|(k & Hp & Hg & Hc)]; [now left|right; exists k]);
            rewrite (shape_psrc _ _ _ _ Hsh1) in Hp; rewrite (shape_psrc _ _ _ _ Hsh1), ?(Hg00 _ _ _ Hp) in *; auto.
        - intros j c s' l k Hin Hp Hg. pose proof Hp as Hp'. rewrite (shape_psrc _ _ _ _ Hsh1) in Hp'. rewrite (Hg00 _ _ _ Hp') in Hg. eauto.
        - intros j l k l' k' Hp Hp'. pose proof Hp as Hp1. pose proof Hp' as Hp2.
          rewrite (shape_psrc _ _ _ _ Hsh1) in Hp1. rewrite (shape_psrc _ _ _ _ Hsh1) in Hp2. rewrite (Hg00 _ _ _ Hp1), (Hg00 _ _ _ Hp2). eauto.
        - intros l z Hzl Hnd. destruct (h7 l z Hzl Hnd) as (a & b & e). split; [exact a|]. split; [exact b|].
          intros k s' d Hpk. specialize (e k s' d Hpk). destruct s' as [sr|]; [|exact e].
          rewrite (Hg00 l k sr); [exact e|]. rewrite <- (shape_psrc _ _ _ _ Hsh1). unfold psrc. now rewrite Hzl, Hpk. }
      assert (Hz0 : forall k, In k (seq 0 (length (nn_pool x))) -> g0 i k = 0%N).
      { intros k Hin. unfold g0, psrc. rewrite Hx. destruct (nth_error (nn_pool x) k) as [[[sr|] d]|] eqn:Hpk; auto. eapply Hg0; eassumption. }
      pose proof (pool_connect_loop_ok f i Hsp (seq 0 (length (nn_pool x))) U _ g0 (upd w i x1) x1 (seq_NoDup _ _) HI0
                    (or_intror eq_refl) HD' (nth_upd_eq _ _ _ Hi) Hl1 Hz0) as HL.
      destruct (pool_connect_loop (connect f) i (seq 0 (length (nn_pool x))) (upd w i x1)) as [w1 [[]|e]]; cbn [rbind]; [|exact HL].
      destruct HL as (g1 & y & HIy & Hfy & Hsy & Hgy & Hy & Hupy & Hsly & _ & Hin & Hnone).
      assert (Hsw1 : shape w w1) by (eapply shape_trans; eassumption).
      assert (Hyk : nn_kind y = NLogger).
      { pose proof (Hsy i) as H. rewrite Hy, (nth_upd_eq _ _ _ Hi) in H. cbn [option_map] in H. injection H as H _ _. cbn in H. congruence. }
      destruct (table_connect_ok U _ g1 w1 i y s HIy Hy ltac:(congruence)) as [(c & sl & -> & Hc & Hn & HI')| ->]; [|reflexivity].
      split; [exact Hc|].
      assert (Hpool : forall k s' d, nth_error (nn_pool y) k = Some (s', d) ->
                match s' with None => d = 0%N | Some _ => g1 i k = d /\ d <> 0%N end).
      { intros k s' d Hpk.
        assert (Hk1 : k < length (nn_pool x)).
        { pose proof (Hsy i) as H. rewrite Hy, (nth_upd_eq _ _ _ Hi) in H. cbn [option_map] in H. injection H as _ _ H. cbn in H.
          apply (f_equal (@length _)) in H. rewrite !map_length in H.
          assert (k < length (nn_pool y)) by (apply nth_error_Some; congruence). lia. }
        destruct (nth_error (nn_pool x) k) as [[[sr|] d0]|] eqn:Hpx.
        - destruct (Hin k sr d0) as [Hne Hpy]; [apply in_seq; lia|exact Hpx|]. rewrite Hpk in Hpy. injection Hpy as -> ->. auto.
        - pose proof (Hnone k d0 Hpx) as Hpy. rewrite Hpk in Hpy. injection Hpy as -> ->. exact (Hent k _ _ Hpx).
        - apply nth_error_None in Hpx. lia. }
      (* forget the normalisation again *)
      set (g2 := fun l k => if andb (Nat.leb (rank i) (rank l)) (negb (Nat.eqb l i)) then g l k else g1 l k).
      assert (Hg2 : forall l k sr, psrc w l k = Some sr -> g2 l k = g1 l k).
      { intros l k sr Hp. unfold g2. destruct (Nat.leb_spec (rank i) (rank l)), (Nat.eqb_spec l i); cbn [andb negb]; try reflexivity.
        rewrite (Hgy l k) by auto. symmetry. eapply Hg00; eassumption. }
      assert (Hsh2 : shape w (upd w1 i (set_slots y sl))).
      { eapply shape_trans; [exact Hsw1|]. eapply shape_upd; [exact Hy|reflexivity]. }
      assert (Hi1 : i < length w1) by (apply nth_error_Some; congruence).
      exists g2. split; [|split; [|split; [exact Hsh2|]]].
      * assert (HI2 : Inv ((i, c, s) :: U) (fun j => D j \/ j = i) g1 (upd w1 i (set_slots y sl))).
        { eapply inv_dirty; [|exact HI']. cbn. tauto. }
        eapply inv_clean with (i := i).
        -- clear HI'. destruct HI2 as [h1 h2 h3 h4 h5 h6 h7]. split; auto.
           ++ intros j c' s'. rewrite h2. split; (intros [H|(k & Hp & Hg & Hc')]; [now left|right; exists k]);
              rewrite (shape_psrc _ _ _ _ Hsh2) in Hp; rewrite (shape_psrc _ _ _ _ Hsh2), ?(Hg2 _ _ _ Hp) in *; auto.
           ++ intros j c' s' l k Hin' Hp Hg. pose proof Hp as Hp'. rewrite (shape_psrc _ _ _ _ Hsh2) in Hp'. rewrite (Hg2 _ _ _ Hp') in Hg. eauto.
           ++ intros j l k l' k' Hp Hp'. pose proof Hp as Hp1. pose proof Hp' as Hp2.
              rewrite (shape_psrc _ _ _ _ Hsh2) in Hp1. rewrite (shape_psrc _ _ _ _ Hsh2) in Hp2. rewrite (Hg2 _ _ _ Hp1), (Hg2 _ _ _ Hp2). eauto.
           ++ intros l z Hzl Hnd. destruct (h7 l z Hzl Hnd) as (a & b & e). split; [exact a|]. split; [exact b|].
              intros k s' d Hpk. specialize (e k s' d Hpk). destruct s' as [sr|]; [|exact e].
              rewrite (Hg2 l k sr); [exact e|]. rewrite <- (shape_psrc _ _ _ _ Hsh2). unfold psrc. now rewrite Hzl, Hpk.
        -- apply nth_upd_eq. exact Hi1.
        -- split; [|split]; cbn [nn_kind nn_pool nn_up nn_slots set_slots].
           ++ intros _. rewrite Hupy. cbn. tauto.
           ++ congruence.
           ++ intros k s' d Hpk. specialize (Hpool k s' d Hpk). destruct s' as [sr|]; [|exact Hpool].
              unfold g2. rewrite Nat.eqb_refl. cbn [negb]. rewrite Bool.andb_false_r. rewrite Hupy. cbn. tauto.
      * eapply frame_trans; [apply (frame_upd w i x1)|]. eapply frame_trans; [exact Hfy|]. apply frame_upd.
      * intros j k Hj Hn'. unfold g2. destruct (Nat.leb_spec (rank i) (rank j)); [|lia].
        destruct (Nat.eqb_spec j i); [congruence|]. reflexivity.
    + cbn [rbind].
      destruct (table_connect_ok U D g w i x s HI Hx ltac:(congruence)) as [(c & sl & -> & Hc & Hn & HI')| ->]; [|reflexivity].
      split; [exact Hc|]. exists g. split; [|split; [apply frame_upd|split; [eapply shape_upd; [exact Hx|reflexivity]|apply gframe_refl]]].
      eapply inv_clean; [exact HI'|apply nth_upd_eq; exact Hi|].
      split; [|split]; cbn [nn_kind nn_pool nn_up nn_slots set_slots]; [|congruence|exact Hent].
      intros _. split; [auto|]. intros _. now apply Hup.
Qed.

Definition disconnect_spec (f i : nat) : Prop := forall c s U (D : nat -> Prop) g w x,
  Inv ((i, c, s) :: U) D g w -> (forall j, D j -> rank i <= rank j /\ j <> i) -> nth_error w i = Some x -> nn_kind x <> NLeaf ->
  exists w' g', disconnect f i c w = (w', RDone tt) /\ Inv U D g' w' /\ frame i w w' /\ shape w w' /\ gframe i g g'.

Lemma pool_disconnect_loop_ok f i : (forall j, rank j < rank i -> disconnect_spec f j) ->
  forall ks U (D : nat -> Prop) g w x, NoDup ks ->
  Inv U D g w -> D i -> (forall j, D j -> rank i <= rank j) -> nth_error w i = Some x ->
  (forall k, In k ks -> k < length (nn_pool x)) ->
  (forall k src d, In k ks -> nth_error (nn_pool x) k = Some (Some src, d) -> g i k = d /\ d <> 0%N) ->
  exists w' g' y, pool_disconnect_loop (disconnect f) i ks w = (w', RDone tt) /\
      Inv U D g' w' /\ frame i w w' /\ shape w w' /\ gframe i g g' /\
      nth_error w' i = Some y /\ nn_slots y = nn_slots x /\
      (forall k, ~ In k ks -> nth_error (nn_pool y) k = nth_error (nn_pool x) k /\ g' i k = g i k) /\
      (forall k src d, In k ks -> nth_error (nn_pool x) k = Some (Some src, d) ->
         g' i k = 0%N /\ nth_error (nn_pool y) k = Some (Some src, 0%N)) /\
      (forall k d, nth_error (nn_pool x) k = Some (None, d) -> nth_error (nn_pool y) k = Some (None, d)).
Proof.
  intros Hspec ks. induction ks as [|k t IH]; intros U D g w x Hnd HI Hd HD Hx Hlen Hg0; cbn [pool_disconnect_loop].
  - exists w, g, x. split; [reflexivity|]. split; [exact HI|]. split; [apply frame_refl|]. split; [apply shape_refl|]. split; [apply gframe_refl|].
    split; [exact Hx|]. split; [reflexivity|]. split; [auto|]. split; [intros ? ? ? []|auto].
  - unfold with_node. rewrite Hx. inversion Hnd as [|? ? Hnk Hnt]; subst.
    destruct (nth_error (nn_pool x) k) as [[[src|] d]|] eqn:Hk.
    3:{ apply nth_error_None in Hk. specialize (Hlen k (or_introl eq_refl)). lia. }
    + assert (Hp : psrc w i k = Some src) by (unfold psrc; now rewrite Hx, Hk).
      destruct (i_rank _ _ _ _ HI _ _ _ Hp) as [Hr (z & Hz & Hzk)].
      destruct (Hg0 k src d (or_introl eq_refl) Hk) as [Hgk Hd0].
      pose proof (inv_take _ _ _ _ _ _ _ _ HI Hd Hp Hgk Hd0) as HI0.
      assert (HDs : forall j, D j -> rank src <= rank j /\ j <> src).
      { intros j Hj. apply HD in Hj. split; [lia|]. intros ->. lia. }
      destruct (Hspec src Hr d i U D _ w z HI0 HDs Hz Hzk) as (w1 & g1 & Hdc & HI1 & Hf1 & Hs1 & Hg1). rewrite Hdc. cbn [rbind].
      assert (Hx1 : nth_error w1 i = Some x).
      { rewrite (Hf1 i); [exact Hx|lia|]. intros ->. lia. }
      assert (Hgi : g1 i k = 0%N).
      { rewrite (Hg1 i k); [apply gset_eq|lia|]. intros ->. lia. }
      assert (Hgo : forall k', k' <> k -> g1 i k' = g i k').
      { intros k' Hk'. rewrite (Hg1 i k'); [now rewrite gset_neq by auto|lia|]. intros ->. lia. }
      pose proof (set_cookie_touch _ _ _ _ i k 0%N HI1 Hd) as HI3.
      pose proof (set_cookie_node i k 0%N w1 x _ _ Hx1 Hk) as Hx3.
      assert (Hk0 : k < length (nn_pool x)) by (apply Hlen; now left).
      destruct (IH U D g1 (set_cookie i k 0 w1) _ Hnt HI3 Hd HD Hx3) as
        (w' & g' & y & -> & HI' & Hf' & Hs' & Hg' & Hy & Hsl & Hout & Hin & Hnone).
      { intros k' Hk'. cbn [nn_pool set_pool]. rewrite upd_length. apply Hlen. now right. }
      { intros k' src' d' Hk'. cbn [nn_pool set_pool]. rewrite nth_upd_neq by congruence. intros Hpk.
        rewrite Hgo by congruence. apply (Hg0 k' src' d'); [now right|exact Hpk]. }
      exists w', g', y. split; [reflexivity|]. split; [exact HI'|].
      split; [eapply frame_trans; [eapply frame_lower; eassumption|]; eapply frame_trans; [apply set_cookie_frame|exact Hf']|].
      split; [eapply shape_trans; [exact Hs1|]; eapply shape_trans; [apply set_cookie_shape|exact Hs']|].
      split.
      { intros j k' Hj Hn. rewrite (Hg' j k' Hj Hn). rewrite (Hg1 j k'); [now rewrite gset_neq by auto|lia|]. intros ->. lia. }
      split; [exact Hy|]. split; [exact Hsl|]. cbn [nn_pool set_pool] in *. split; [|split].
      * intros k' Hk'. cbn [In] in Hk'. destruct (Hout k') as [H1 H2]; [tauto|]. split.
        -- rewrite H1. apply nth_upd_neq. intros ->. tauto.
        -- rewrite H2. apply Hgo. intros ->. tauto.
      * intros k' src' d' [<-|Hk'] Hpk.
        -- destruct (Hout k Hnk) as [H1 H2]. rewrite H2. split; [exact Hgi|].
           rewrite H1, nth_upd_eq by exact Hk0. congruence.
        -- apply (Hin k' src' d' Hk'). rewrite nth_upd_neq by congruence. exact Hpk.
      * intros k' d' Hpk. apply Hnone. rewrite nth_upd_neq by congruence. exact Hpk.
    + destruct (IH U D g w x Hnt HI Hd HD Hx (fun k' Hk' => Hlen k' (or_intror Hk')) (fun k' s' d' Hk' => Hg0 k' s' d' (or_intror Hk'))) as
        (w' & g' & y & -> & HI' & Hf' & Hs' & Hg' & Hy & Hsl & Hout & Hin & Hnone).
      exists w', g', y. split; [reflexivity|]. split; [exact HI'|]. split; [exact Hf'|]. split; [exact Hs'|]. split; [exact Hg'|]. split; [exact Hy|].
      split; [exact Hsl|]. split; [|split; [|exact Hnone]].
      * intros k' Hk'. apply Hout. cbn [In] in Hk'. tauto.
      * intros k' src' d' [<-|Hk'] Hpk; [congruence|eauto].
Qed.

Lemma disconnect_ok f : forall i, rank i < f -> disconnect_spec f i.
Proof.
  induction f as [|f IH]; intros i Hf; [lia|]. intros c s U D g w x HI HD Hx Hk.
  assert (Hloc : ~ D i) by (intros H; apply HD in H; tauto).
  destruct (i_loc _ _ _ _ HI i x Hx Hloc) as (Hup & Hnp & Hent).
  assert (Hi : i < length w) by (apply nth_error_Some; congruence).
  destruct (table_disconnect_ok U D g w i x c s HI Hx) as (sl & Htd & HI').
  cbn [disconnect]. unfold with_node at 1. rewrite Hx. destruct (nn_kind x) eqn:Ek; [| |congruence].
  - rewrite Htd. exists (upd w i (set_slots x sl)), g. split; [reflexivity|].
    split; [|split; [apply frame_upd|split; [eapply shape_upd; [exact Hx|reflexivity]|apply gframe_refl]]].
    eapply inv_clean; [exact HI'|apply nth_upd_eq; exact Hi|].
    split; [|split]; cbn [nn_kind nn_pool nn_up nn_slots set_slots]; [congruence|intros _; apply Hnp; congruence|exact Hent].
  - rewrite Htd. cbn [rbind]. unfold with_node at 1. rewrite (nth_upd_eq _ _ _ Hi). cbn [nn_slots set_slots].
    assert (Hnz : sl_num (nn_slots x) <> 0%N).
    { destruct (i_slots _ _ _ _ HI _ _ Hx) as (Hs & _). rewrite (num_ent w i x Hx Hs).
      assert (Hin : In (c, s) (ent w i)) by (apply (i_tab _ _ _ _ HI); left; now left).
      destruct (ent w i); [destruct Hin|cbn [length]; lia]. }
    assert (Hu : nn_up x = true) by (apply Hup; auto).
    destruct (N.eqb_spec (sl_num sl) 0) as [Hz|Hn0].
    + unfold pool_disconnect, with_node at 1. rewrite (nth_upd_eq _ _ _ Hi).
      assert (Hsp : forall j, rank j < rank i -> disconnect_spec f j) by (intros j Hj; apply IH; lia).
      assert (HD' : forall j, D j \/ j = i -> rank i <= rank j) by (intros j [Hj| ->]; [apply HD in Hj; lia|lia]).
      destruct (pool_disconnect_loop_ok f i Hsp (seq 0 (length (nn_pool (set_slots x sl)))) U _ g _ _ (seq_NoDup _ _) HI'
                  (or_intror eq_refl) HD' (nth_upd_eq _ _ _ Hi)) as
        (w' & g' & y & -> & HIy & Hfy & Hsy & Hgy & Hy & Hsly & _ & Hin & Hnone).
      { intros k Hin. apply in_seq in Hin. cbn. cbn in Hin. lia. }
      { intros k src d _ Hpk. specialize (Hent k _ _ Hpk). cbn in Hent. destruct Hent as [H1 H2]. split; [exact H1|]. now apply H2. }
      cbn [rbind]. unfold with_node. rewrite Hy.
      assert (Hi1 : i < length w') by (apply nth_error_Some; congruence).
      exists (upd w' i (set_up y false)), g'. split; [reflexivity|].
      assert (Hyl : look y = look x).
      { pose proof (Hsy i) as H. rewrite Hy, (nth_upd_eq _ _ _ Hi) in H. cbn [option_map] in H. injection H as H1 H2 H3.
        unfold look. cbn in *. congruence. }
      split; [|split; [|split]].
      * eapply inv_clean with (i := i).
        -- eapply inv_touch; [exact HIy|now right|exact Hy|reflexivity|reflexivity].
        -- apply nth_upd_eq. exact Hi1.
        -- split; [|split]; cbn [nn_kind nn_pool nn_up nn_slots set_up].
           ++ intros _. rewrite Hsly. cbn [nn_slots set_slots]. split; [discriminate|congruence].
           ++ rewrite (look_kind _ _ Hyl). congruence.
           ++ intros k s' d Hpk.
              assert (Hk1 : k < length (nn_pool x)).
              { unfold look in Hyl. injection Hyl as _ _ H. apply (f_equal (@length _)) in H. rewrite !map_length in H.
                assert (k < length (nn_pool y)) by (apply nth_error_Some; congruence). lia. }
              destruct (nth_error (nn_pool x) k) as [[[sr|] d0]|] eqn:Hpx.
              ** destruct (Hin k sr d0) as [Hg0 Hpy]; [apply in_seq; cbn; lia|exact Hpx|]. rewrite Hpk in Hpy. injection Hpy as -> ->.
                 split; [exact Hg0|]. split; [congruence|discriminate].
              ** pose proof (Hnone k d0 Hpx) as Hpy. rewrite Hpk in Hpy. injection Hpy as -> ->. exact (Hent k _ _ Hpx).
              ** apply nth_error_None in Hpx. lia.
      * eapply frame_trans; [apply (frame_upd w i (set_slots x sl))|]. eapply frame_trans; [exact Hfy|]. apply frame_upd.
      * eapply shape_trans; [eapply (shape_upd w i x (set_slots x sl)); [exact Hx|reflexivity]|].
        eapply shape_trans; [exact Hsy|]. eapply shape_upd; [exact Hy|reflexivity].
      * exact Hgy.
    + exists (upd w i (set_slots x sl)), g. split; [reflexivity|].
      split; [|split; [apply frame_upd|split; [eapply shape_upd; [exact Hx|reflexivity]|apply gframe_refl]]].
      eapply inv_clean; [exact HI'|apply nth_upd_eq; exact Hi|].
      split; [|split]; cbn [nn_kind nn_pool nn_up nn_slots set_slots]; [|congruence|exact Hent].
      intros _. tauto.
Qed.


Lemma inv_perm U U' D g w : Permutation U U' -> Inv U D g w -> Inv U' D g w.
Proof.
  intros HP [h1 h2 h3 h4 h5 h6 h7]. split; auto.
  - intros i c s. rewrite h2. split; (intros [H|H]; [left|now right]).
    + eapply Permutation_in; eassumption.
    + eapply Permutation_in; [apply Permutation_sym|]; eassumption.
  - eapply Permutation_NoDup; [|exact h3]. now apply Permutation_map.
  - intros i c s l k Hin. apply (h4 i c s). eapply Permutation_in; [apply Permutation_sym|]; eassumption.
Qed.

Lemma inv_new U D g w x : Inv U D g w -> nn_slots x = slots_init -> nn_pool x = [] -> nn_up x = false ->
  (nn_kind x <> NLeaf -> (0 < nn_cap x)%N) -> (nn_cap x < 2 ^ 32)%N -> Inv U D g (w ++ [x]).
Proof.
  intros [h1 h2 h3 h4 h5 h6 h7] Hs Hp Hu Hc Hc'.
  assert (Hnth : forall j, nth_error (w ++ [x]) j = if Nat.eqb j (length w) then Some x else nth_error w j).
  { intros j. destruct (Nat.eqb_spec j (length w)) as [->|Hn].
    - rewrite nth_error_app2, Nat.sub_diag by lia. reflexivity.
    - destruct (Nat.ltb_spec j (length w)); [now rewrite nth_error_app1 by lia|].
      rewrite (proj2 (nth_error_None w j)) by lia. apply nth_error_None. rewrite app_length. cbn. lia. }
  assert (He : forall j, ent (w ++ [x]) j = ent w j).
  { intros j. unfold ent. rewrite Hnth. destruct (Nat.eqb_spec j (length w)) as [->|]; [|reflexivity].
    rewrite (proj2 (nth_error_None w (length w))) by lia. rewrite Hs. reflexivity. }
  assert (Hq : forall l k, psrc (w ++ [x]) l k = psrc w l k).
  { intros l k. unfold psrc. rewrite Hnth. destruct (Nat.eqb_spec l (length w)) as [->|]; [|reflexivity].
    rewrite (proj2 (nth_error_None w (length w))) by lia. rewrite Hp. destruct k; reflexivity. }
  split; auto.
  - intros j z. rewrite Hnth. destruct (Nat.eqb_spec j (length w)) as [->|]; [|eauto].
    intros [= <-]. rewrite Hs. split; [apply slots_ok_init|auto].
  - intros j c s. rewrite He, h2. setoid_rewrite Hq. reflexivity.
  - intros j c s l k. rewrite Hq. eauto.
  - intros j l k l' k'. rewrite !Hq. eauto.
  - intros l k j. rewrite Hq. intros H. apply h6 in H. destruct H as [Hr (z & Hz & Hk)]. split; [exact Hr|].
    exists z. split; [|exact Hk]. rewrite nth_error_app1; [exact Hz|]. apply nth_error_Some. congruence.
  - intros l z. rewrite Hnth. destruct (Nat.eqb_spec l (length w)) as [->|]; [|eauto].
    intros [= <-] _. split; [|split].
    + intros _. rewrite Hu, Hs. cbn. split; [discriminate|congruence].
    + auto.
    + intros k s d. rewrite Hp. destruct k; discriminate.
Qed.

(** Changing which source an unconnected entry of a logger has. *)
Lemma inv_entry U (D : nat -> Prop) g w l x k p s' :
  Inv U D g w -> D l -> nth_error w l = Some x -> (psrc w l k = None \/ g l k = 0%N) ->
  (forall k', psrc (upd w l (set_pool x p)) l k' = if Nat.eqb k' k then s' else psrc w l k') ->
  (forall s, s' = Some s -> rank s < rank l /\ exists y, nth_error w s = Some y /\ nn_kind y <> NLeaf) ->
  Inv U D (gset g l k 0%N) (upd w l (set_pool x p)).
Proof.
  intros [h1 h2 h3 h4 h5 h6 h7] Hd Hx H0 Hp Hs'.
  assert (Hl : l < length w) by (apply nth_error_Some; congruence).
  assert (He : forall j, ent (upd w l (set_pool x p)) j = ent w j).
  { intros j. rewrite ent_upd by exact Hl. destruct (Nat.eqb_spec l j) as [<-|]; [|reflexivity].
    unfold ent. rewrite Hx. reflexivity. }
  assert (Hq : forall l' k', l' <> l \/ k' <> k -> psrc (upd w l (set_pool x p)) l' k' = psrc w l' k').
  { intros l' k' H. destruct (Nat.eq_dec l' l) as [->|Hn].
    - rewrite Hp. destruct (Nat.eqb_spec k' k); [destruct H; congruence|reflexivity].
    - unfold psrc. rewrite nth_upd_neq by auto. reflexivity. }
  assert (Hcase : forall l' k', (l' = l /\ k' = k) \/ (l' <> l \/ k' <> k)).
  { intros l' k'. destruct (Nat.eq_dec l' l), (Nat.eq_dec k' k); tauto. }
  split.
  - intros j z Hz. apply upd_inv in Hz. destruct Hz as [[-> ->]|[_ Hz]]; [|eauto].
    destruct (h1 _ _ Hx) as (H1 & H2 & H3). auto.
  - intros j c s. rewrite He, h2. split; (intros [H|(k' & Hpk & Hgk & Hc)]; [now left|right; exists k']);
      (destruct (Hcase s k') as [[-> ->]|Hne]; [|rewrite ?Hq, ?gset_neq in * by exact Hne; auto]).
    + exfalso. destruct H0; congruence.
    + rewrite gset_eq in Hgk. congruence.
  - exact h3.
  - intros j c s l' k' Hin Hpk Hgk. destruct (Hcase l' k') as [[-> ->]|Hne].
    + rewrite gset_eq in Hgk. subst c. assert (Ht : In (0%N, s) (ent w j)) by (apply h2; now left).
      unfold ent in Ht. destruct (nth_error w j); [|destruct Ht]. apply entries_bound in Ht. lia.
    + rewrite Hq in Hpk by exact Hne. rewrite gset_neq in Hgk by exact Hne. eauto.
  - intros j l1 k1 l2 k2 Hp1 Hp2 Hge Hne.
    destruct (Hcase l1 k1) as [[-> ->]|H1]; [rewrite gset_eq in Hne; congruence|].
    destruct (Hcase l2 k2) as [[-> ->]|H2]; [rewrite Hge, gset_eq in Hne; congruence|].
    rewrite Hq in Hp1 by exact H1. rewrite Hq in Hp2 by exact H2. rewrite !gset_neq in Hge by assumption.
    rewrite gset_neq in Hne by assumption. eauto.
  - intros l' k' j Hpk.
    assert (Hr : rank j < rank l' /\ exists y, nth_error w j = Some y /\ nn_kind y <> NLeaf).
    { destruct (Hcase l' k') as [[-> ->]|Hne]; [rewrite Hp, Nat.eqb_refl in Hpk; auto|]. rewrite Hq in Hpk by exact Hne. eauto. }
    destruct Hr as [Hr (y & Hy & Hk)]. split; [exact Hr|]. destruct (Nat.eq_dec l j) as [<-|Hn].
    + exists (set_pool x p). split; [now apply nth_upd_eq|]. assert (y = x) by congruence. subst y. exact Hk.
    + exists y. split; [now rewrite nth_upd_neq|exact Hk].
  - intros l' z Hz Hnd. apply upd_inv in Hz. destruct Hz as [[-> ->]|[Hn Hz]]; [contradiction|].
    destruct (h7 l' z Hz Hnd) as (a & b & e). split; [exact a|]. split; [exact b|].
    intros k' s d Hk'. specialize (e k' s d Hk'). destruct s; [|exact e]. rewrite gset_neq by auto. exact e.
Qed.

End Ranked.

(** Bookkeeping of the notes. *)
Lemma forget_in i c l e : In e (forget i c l) <-> In e l /\ fst e <> (i, c).
Proof.
  unfold forget. rewrite filter_In. destruct e as [[j d] s]. cbn [fst snd].
  destruct (Nat.eqb_spec j i), (N.eqb_spec d c); cbn [andb negb]; subst; intuition congruence.
Qed.

Lemma forget_none i c l : ~ In (i, c) (map fst l) -> forget i c l = l.
Proof.
  intros H. unfold forget. induction l as [|[[j d] s] t IH]; [reflexivity|]. cbn [filter fst snd map In] in *.
  destruct (Nat.eqb_spec j i), (N.eqb_spec d c); cbn [andb negb]; subst; try (f_equal; apply IH; tauto); tauto.
Qed.

Lemma forget_perm i c s l : NoDup (map fst l) -> In (i, c, s) l -> Permutation l ((i, c, s) :: forget i c l).
Proof.
  intros Hnd Hin. induction l as [|e t IH]; [destruct Hin|]. cbn [map] in Hnd. inversion Hnd as [|? ? Hn Ht]; subst.
  destruct Hin as [->|Hin].
  - unfold forget. cbn [filter fst snd]. rewrite Nat.eqb_refl, N.eqb_refl. cbn [andb negb].
    change (filter _ t) with (forget i c t). rewrite forget_none by exact Hn. reflexivity.
  - unfold forget. cbn [filter]. destruct e as [[j d] s']. cbn [fst snd] in *.
    destruct (Nat.eqb_spec j i), (N.eqb_spec d c); cbn [andb negb];
      [exfalso; subst; apply Hn; change (i, c) with (fst (i, c, s)); now apply in_map| | |];
      (eapply perm_trans; [apply perm_skip, IH; assumption|apply perm_swap]).
Qed.

Lemma forget_nodup i c l : NoDup (map fst l) -> NoDup (map fst (forget i c l)).
Proof.
  intros H. unfold forget. induction l as [|e t IH]; [constructor|]. cbn [map] in H. inversion H as [|? ? Hn Ht]; subst.
  cbn [filter]. destruct (negb _); [|auto]. cbn [map]. constructor; [|auto]. intros Hin. apply Hn.
  apply in_map_iff in Hin. destruct Hin as (y & Hy & Hin). apply filter_In in Hin. apply in_map_iff. exists y. tauto.
Qed.

Definition none : nat -> Prop := fun _ => False.

Record Top (rank : nat -> nat) (n : notes) (w : net) : Prop := {
  t_inv : exists g, Inv rank (nt_conns n) none g w;
  t_regs : NoDup (map fst (nt_regs n));
  t_regs_in : forall l c s, In (l, c, s) (nt_regs n) <-> c <> 0%N /\ psrc w l (N.to_nat (c - 1)) = Some s;
  t_conns : forall i c s, In (i, c, s) (nt_conns n) -> exists x, nth_error w i = Some x /\ nn_kind x <> NLeaf }.

Lemma free_entry_le p : free_entry p <= length p.
Proof. induction p as [|[[s|] d] t IH]; cbn; lia. Qed.

Lemma free_entry_free p : match nth_error p (free_entry p) with Some (Some _, _) => False | _ => True end.
Proof. induction p as [|[[s|] d] t IH]; cbn; auto. Qed.

Lemma local_ext g g' l x : (forall k, g' l k = g l k) -> local g l x -> local g' l x.
Proof.
  intros H (a & b & e). split; [exact a|]. split; [exact b|]. intros k s d Hk. specialize (e k s d Hk).
  destruct s; [now rewrite H|exact e].
Qed.

Section Steps.
Context (rank : nat -> nat) (fuel : nat) (Hfuel : forall i, rank i < fuel).

Lemma top_shape n w w' conns : Top rank n w -> shape w w' -> (exists g, Inv rank conns none g w') ->
  (forall i c s, In (i, c, s) conns -> In (i, c, s) (nt_conns n) \/ exists x, nth_error w i = Some x /\ nn_kind x <> NLeaf) ->
  Top rank (mk_notes conns (nt_regs n)) w'.
Proof.
  intros [h1 h2 h3 h4] Hs Hi Hc. split; cbn [nt_conns nt_regs]; auto.
  - intros l c s. rewrite h3, (shape_psrc _ _ _ _ Hs). reflexivity.
  - intros i c s Hin. apply Hc in Hin. assert (H : exists x, nth_error w i = Some x /\ nn_kind x <> NLeaf).
    { destruct Hin as [Hin|H]; [eauto|exact H]. }
    destruct H as (x & Hx & Hk). destruct (shape_node _ _ _ _ Hs Hx) as (y & Hy & Hl). exists y. split; [exact Hy|].
    now rewrite (look_kind _ _ Hl).
Qed.

(** What an entry change does to the notes of registrations. *)
Lemma psrc_set w l x k s p : nth_error w l = Some x -> 
  (forall k', k' <> k -> nth_error p k' = nth_error (nn_pool x) k' \/ (nth_error p k' = None /\ nth_error (nn_pool x) k' = None)) ->
  match nth_error p k with Some (s0, _) => s0 | None => None end = s ->
  forall k', psrc (upd w l (set_pool x p)) l k' = if Nat.eqb k' k then s else psrc w l k'.
Proof.
  intros Hx Ho Hk k'. unfold psrc. rewrite nth_upd_eq by (apply nth_error_Some; congruence). cbn [nn_pool set_pool].
  destruct (Nat.eqb_spec k' k) as [->|Hn]; [exact Hk|]. rewrite Hx. destruct (Ho k' Hn) as [->|[-> ->]]; reflexivity.
Qed.

Lemma register_ok n w l s x y : Top rank n w -> nth_error w l = Some x -> nn_kind x = NLogger ->
  rank s < rank l -> nth_error w s = Some y -> nn_kind y <> NLeaf ->
  match register fuel l (Some s) w with
  | (w', RDone c) => Top rank (mk_notes (nt_conns n) ((l, c, s) :: nt_regs n)) w'
  | (_, RFail f) => f = FThrow ConnectionLimit
  end.
Proof.
  intros [(g & HI) hnd hin hcon] Hx Hk Hr Hy Hyk.
  unfold register, with_node at 1. rewrite Hx. cbv zeta. set (k := free_entry (nn_pool x)).
  assert (Hl : l < length w) by (apply nth_error_Some; congruence).
  destruct (i_loc _ _ _ _ _ HI l x Hx (fun H => H)) as (Hup & _ & Hent). specialize (Hup Hk).
  assert (Hfree : psrc w l k = None).
  { unfold psrc. rewrite Hx. unfold k. pose proof (free_entry_free (nn_pool x)) as H.
    destruct (nth_error (nn_pool x) (free_entry (nn_pool x))) as [[[s0|] d]|]; [destruct H|reflexivity|reflexivity]. }
  (* the common part: [p] is the pool with the new entry *)
  assert (Hmain : forall p, k < length p -> nth_error p k = Some (Some s, 0%N) ->
    (forall k', k' <> k -> nth_error p k' = nth_error (nn_pool x) k') ->
    match (if nn_up x
       then rbind (connect fuel s (Some l) (upd w l (set_pool x p))) (fun w2 d => (set_cookie l k d w2, RDone (N.of_nat k + 1)%N))
       else (upd w l (set_pool x p), RDone (N.of_nat k + 1)%N)) with
    | (w', RDone c) => Top rank (mk_notes (nt_conns n) ((l, c, s) :: nt_regs n)) w'
    | (_, RFail f) => f = FThrow ConnectionLimit
    end).
  { intros p Hkp Hpk Hpo. set (w1 := upd w l (set_pool x p)).
    assert (Hps : forall k', psrc w1 l k' = if Nat.eqb k' k then Some s else psrc w l k').
    { apply psrc_set with (k := k); [exact Hx|intros k' Hn; left; now apply Hpo|now rewrite Hpk]. }
    assert (Hpo' : forall l' k', l' <> l -> psrc w1 l' k' = psrc w l' k').
    { intros l' k' Hn. unfold psrc, w1. now rewrite nth_upd_neq by auto. }
    assert (HI1 : Inv rank (nt_conns n) (fun j => none j \/ j = l) (gset g l k 0%N) w1).
    { apply inv_entry with (s' := Some s); auto.
      - eapply inv_dirty; [|exact HI]. auto.
      - intros s0 [= <-]. split; [exact Hr|]. exists y. auto. }
    assert (Hx1 : nth_error w1 l = Some (set_pool x p)) by (apply nth_upd_eq; exact Hl).
    assert (Hregs : forall w', shape w1 w' -> forall l' c' s', In (l', c', s') ((l, (N.of_nat k + 1)%N, s) :: nt_regs n) <->
        c' <> 0%N /\ psrc w' l' (N.to_nat (c' - 1)) = Some s').
    { intros w' Hsh l' c' s'. rewrite (shape_psrc _ _ _ _ Hsh). cbn [In]. rewrite hin.
      destruct (Nat.eq_dec l' l) as [->|Hn].
      - rewrite Hps. destruct (Nat.eqb_spec (N.to_nat (c' - 1)) k) as [He|He].
        + split.
          * intros [[= <- <-]|[H1 H2]]; [split; [lia|reflexivity]|]. rewrite He, Hfree in H2. discriminate.
          * intros [H1 [= <-]]. left. f_equal. f_equal. lia.
        + split; [|now right]. intros [[= <- <-]|H]; [|exact H]. exfalso. apply He. lia.
      - rewrite Hpo' by exact Hn. split; [|now right]. intros [[= <- _ _]|H]; [congruence|exact H]. }
    assert (Hnd' : NoDup (map fst ((l, (N.of_nat k + 1)%N, s) :: nt_regs n))).
    { cbn [map fst]. constructor; [|exact hnd]. intros H. apply in_map_iff in H. destruct H as ([[l' c'] s'] & [= -> ->] & H).
      apply hin in H. destruct H as [_ H]. replace (N.to_nat (N.of_nat k + 1 - 1)) with k in H by lia. congruence. }
    assert (Hw1n : forall j z, nth_error w j = Some z -> exists z', nth_error w1 j = Some z' /\ nn_kind z' = nn_kind z).
    { intros j z Hz. destruct (Nat.eq_dec l j) as [<-|Hn].
      - exists (set_pool x p). split; [exact Hx1|]. cbn. congruence.
      - exists z. unfold w1. rewrite nth_upd_neq by exact Hn. auto. }
    assert (Hcon : forall w', shape w1 w' -> forall i c s', In (i, c, s') (nt_conns n) -> exists z, nth_error w' i = Some z /\ nn_kind z <> NLeaf).
    { intros w' Hsh i c s' Hin. destruct (hcon _ _ _ Hin) as (z & Hz & Hzk). destruct (Hw1n _ _ Hz) as (z' & Hz' & Hk').
      destruct (shape_node _ _ _ _ Hsh Hz') as (z2 & Hz2 & Hl2). exists z2. split; [exact Hz2|]. rewrite (look_kind _ _ Hl2), Hk'. exact Hzk. }
    destruct (nn_up x) eqn:Eu.
    - destruct (Hw1n s y Hy) as (y' & Hy' & Hyk').
      pose proof (connect_ok rank fuel s (Hfuel s) l (nt_conns n) _ _ w1 y' HI1) as HC.
      assert (HD : forall j, none j \/ j = l -> rank s <= rank j /\ j <> s).
      { intros j [[]| ->]. split; [lia|]. intros ->. lia. }
      specialize (HC HD Hy' ltac:(congruence)). destruct (connect fuel s (Some l) w1) as [w2 [c|f]]; cbn [rbind]; [|exact HC].
      destruct HC as (Hc & g2 & HI2 & Hf2 & Hs2 & Hg2).
      assert (Hx2 : nth_error w2 l = Some (set_pool x p)).
      { rewrite (Hf2 l); [exact Hx1|lia|]. intros ->. lia. }
      assert (Hgl : forall k', g2 l k' = gset g l k 0%N l k').
      { intros k'. apply Hg2; [lia|]. intros ->. lia. }
      assert (HI3 : Inv rank (nt_conns n) (fun j => none j \/ j = l) (gset g2 l k c) (set_cookie l k c w2)).
      { apply set_cookie_touch; [|now right]. eapply inv_give with (src := s); [exact HI2|now right| | |exact Hc].
        - rewrite (shape_psrc _ _ _ _ Hs2), Hps, Nat.eqb_refl. reflexivity.
        - rewrite Hgl. apply gset_eq. }
      pose proof (set_cookie_node l k c w2 _ _ _ Hx2 Hpk) as Hx3.
      assert (Hsh3 : shape w1 (set_cookie l k c w2)) by (eapply shape_trans; [exact Hs2|apply set_cookie_shape]).
      split; cbn [nt_conns nt_regs]; [|exact Hnd'|apply Hregs; exact Hsh3|apply Hcon; exact Hsh3].
      exists (gset g2 l k c). eapply inv_clean with (i := l); [exact HI3|exact Hx3|].
      split; [|split]; cbn [nn_kind nn_pool nn_up nn_slots set_pool]; [intros _; rewrite Eu; exact Hup|congruence|].
      intros k' s' d' Hk'. rewrite Eu. destruct (Nat.eq_dec k' k) as [->|Hn].
      + rewrite nth_upd_eq in Hk' by exact Hkp. injection Hk' as <- <-. rewrite gset_eq. split; [reflexivity|]. split; auto.
      + rewrite nth_upd_neq, Hpo in Hk' by auto. specialize (Hent k' s' d' Hk'). destruct s' as [s0|]; [|exact Hent].
        rewrite gset_neq, Hgl, gset_neq by auto. exact Hent.
    - split; cbn [nt_conns nt_regs]; [|exact Hnd'|apply Hregs; apply shape_refl|apply Hcon; apply shape_refl].
      exists (gset g l k 0%N). eapply inv_clean with (i := l); [exact HI1|exact Hx1|].
      split; [|split]; cbn [nn_kind nn_pool nn_up nn_slots set_pool]; [intros _; rewrite Eu; exact Hup|congruence|].
      intros k' s' d' Hk'. rewrite Eu. destruct (Nat.eq_dec k' k) as [->|Hn].
      + rewrite Hpk in Hk'. injection Hk' as <- <-. rewrite gset_eq. split; [reflexivity|]. split; congruence.
      + rewrite Hpo in Hk' by auto. specialize (Hent k' s' d' Hk'). destruct s' as [s0|]; [|exact Hent].
        rewrite gset_neq by auto. exact Hent. }
  destruct (nth_error (nn_pool x) k) as [[s0 d]|] eqn:Ek.
  - assert (Hs0 : s0 = None).
    { unfold psrc in Hfree. rewrite Hx, Ek in Hfree. exact Hfree. }
    subst s0. pose proof (Hent k None d Ek) as Hd. cbn in Hd. subst d. rewrite N.eqb_refl.
    assert (Hkl : k < length (nn_pool x)) by (apply nth_error_Some; congruence).
    apply (Hmain (upd (nn_pool x) k (Some s, 0%N))); [rewrite upd_length; exact Hkl|now apply nth_upd_eq|].
    intros k' Hn. apply nth_upd_neq. auto.
  - assert (Hkl : k = length (nn_pool x)).
    { apply nth_error_None in Ek. pose proof (free_entry_le (nn_pool x)). unfold k in *. lia. }
    apply (Hmain (nn_pool x ++ [(Some s, 0%N)])).
    + rewrite app_length. cbn. lia.
    + rewrite nth_error_app2 by lia. replace (k - length (nn_pool x)) with 0 by lia. reflexivity.
    + intros k' Hn. destruct (Nat.ltb_spec k' k); [now rewrite nth_error_app1 by lia|].
      rewrite (proj2 (nth_error_None (nn_pool x) k')) by lia. apply nth_error_None. rewrite app_length. cbn. lia.
Qed.

Lemma unregister_ok n w l c x : Top rank n w -> nth_error w l = Some x -> nn_kind x = NLogger ->
  (c = 0%N \/ exists s, In (l, c, s) (nt_regs n)) ->
  exists w', unregister fuel l c w = (w', RDone tt) /\ Top rank (mk_notes (nt_conns n) (forget l c (nt_regs n))) w'.
Proof.
  intros HT Hx Hk Hc. pose proof HT as [(g & HI) hnd hin hcon].
  unfold unregister, with_node at 1. rewrite Hx.
  assert (Hl : l < length w) by (apply nth_error_Some; congruence).
  destruct (i_loc _ _ _ _ _ HI l x Hx (fun H => H)) as (Hup & _ & Hent). specialize (Hup Hk).
  destruct Hc as [->|(s & Hin)].
  - destruct (N.ltb_spec (N.of_nat (length (nn_pool x))) 0); [lia|]. cbn [N.eqb]. exists w. split; [reflexivity|].
    rewrite forget_none; [destruct n; exact HT|]. intros Hm. apply in_map_iff in Hm. destruct Hm as ([[l' c'] s'] & [= -> ->] & Hm).
    apply hin in Hm. lia.
  - pose proof Hin as Hin0. apply hin in Hin. destruct Hin as [Hc0 Hp]. set (k := N.to_nat (c - 1)) in *.
    assert (He : exists d, nth_error (nn_pool x) k = Some (Some s, d)).
    { unfold psrc in Hp. rewrite Hx in Hp. destruct (nth_error (nn_pool x) k) as [[s0 d]|]; [|discriminate]. exists d. congruence. }
    destruct He as (d & He). assert (Hkl : k < length (nn_pool x)) by (apply nth_error_Some; congruence).
    destruct (N.ltb_spec (N.of_nat (length (nn_pool x))) c); [lia|]. destruct (N.eqb_spec c 0); [congruence|].
    rewrite He. destruct (Hent k _ _ He) as [Hgk Hd].
    assert (Hmid : exists w1 g1, (if (d =? 0)%N then (w, RDone tt) else disconnect fuel s d w) = (w1, RDone tt) /\
      Inv rank (nt_conns n) (fun j => none j \/ j = l) g1 w1 /\ g1 l k = 0%N /\ nth_error w1 l = Some x /\ shape w w1 /\
      (forall k', k' <> k -> g1 l k' = g l k')).
    { destruct (N.eqb_spec d 0) as [->|Hd0].
      - exists w, g. split; [reflexivity|]. split; [eapply inv_dirty; [|exact HI]; auto|]. split; [exact Hgk|]. split; [exact Hx|].
        split; [apply shape_refl|auto].
      - assert (HI0 : Inv rank ((s, d, l) :: nt_conns n) (fun j => none j \/ j = l) (gset g l k 0%N) w).
        { apply inv_take; auto. eapply inv_dirty; [|exact HI]. auto. }
        destruct (i_rank _ _ _ _ _ HI _ _ _ Hp) as [Hr (y & Hy & Hyk)].
        assert (HD : forall j, none j \/ j = l -> rank s <= rank j /\ j <> s).
        { intros j [[]| ->]. split; [lia|]. intros ->. lia. }
        destruct (disconnect_ok rank fuel s (Hfuel s) _ _ _ _ _ _ _ HI0 HD Hy Hyk) as (w1 & g1 & Hdc & HI1 & Hf1 & Hs1 & Hg1).
        assert (Hne : l <> s) by (intros ->; lia).
        exists w1, g1. split; [exact Hdc|]. split; [exact HI1|].
        split; [rewrite (Hg1 l k) by (auto; lia); apply gset_eq|]. split; [rewrite (Hf1 l) by (auto; lia); exact Hx|].
        split; [exact Hs1|]. intros k' Hk'. rewrite (Hg1 l k') by (auto; lia). now rewrite gset_neq by auto. }
    destruct Hmid as (w1 & g1 & Hrun & HI1 & Hg0 & Hx1 & Hs1 & Hgo). rewrite Hrun. cbn [rbind]. unfold with_node. rewrite Hx1.
    assert (Hl1 : l < length w1) by (apply nth_error_Some; congruence).
    set (p := upd (nn_pool x) k (None, 0%N)). eexists. split; [reflexivity|].
    assert (Hpo : forall k', k' <> k -> nth_error p k' = nth_error (nn_pool x) k') by (intros k' Hn; apply nth_upd_neq; auto).
    assert (Hpk : nth_error p k = Some (None, 0%N)) by (apply nth_upd_eq; exact Hkl).
    assert (Hps : forall k', psrc (upd w1 l (set_pool x p)) l k' = if Nat.eqb k' k then None else psrc w1 l k').
    { apply psrc_set with (k := k); [exact Hx1|intros k' Hn; left; now apply Hpo|now rewrite Hpk]. }
    split; cbn [nt_conns nt_regs].
    + exists (gset g1 l k 0%N). eapply inv_clean with (i := l); [| apply nth_upd_eq; exact Hl1|].
      * eapply inv_entry with (s' := None); auto. discriminate.
      * split; [|split]; cbn [nn_kind nn_pool nn_up nn_slots set_pool]; [auto|congruence|].
        intros k' s' d' Hk'. destruct (Nat.eq_dec k' k) as [->|Hn].
        -- rewrite Hpk in Hk'. injection Hk' as <- <-. reflexivity.
        -- rewrite Hpo in Hk' by auto. specialize (Hent k' s' d' Hk'). destruct s' as [s0|]; [|exact Hent].
           rewrite gset_neq, Hgo by auto. exact Hent.
    + apply forget_nodup. exact hnd.
    + intros l' c' s'. rewrite forget_in, hin. cbn [fst]. destruct (Nat.eq_dec l' l) as [->|Hn].
      * rewrite Hps, (shape_psrc _ _ _ _ Hs1). destruct (Nat.eqb_spec (N.to_nat (c' - 1)) k) as [Hek|Hek].
        -- split; [|intros [_ Hbad]; discriminate]. intros [[H1 _] H2]. exfalso. apply H2. f_equal. unfold k in Hek. lia.
        -- split; [tauto|]. intros H1. split; [exact H1|]. intros [= ->]. apply Hek. reflexivity.
      * assert (Hq : psrc (upd w1 l (set_pool x p)) l' (N.to_nat (c' - 1)) = psrc w l' (N.to_nat (c' - 1))).
        { transitivity (psrc w1 l' (N.to_nat (c' - 1))); [|apply shape_psrc; exact Hs1]. unfold psrc. now rewrite nth_upd_neq by auto. }
        rewrite Hq. split; [tauto|]. intros H1. split; [exact H1|]. congruence.
    + intros i ci si Hi. destruct (hcon _ _ _ Hi) as (z & Hz & Hzk). destruct (shape_node _ _ _ _ Hs1 Hz) as (z' & Hz' & Hlz).
      destruct (Nat.eq_dec l i) as [<-|Hn].
      * exists (set_pool x p). split; [apply nth_upd_eq; exact Hl1|]. cbn. congruence.
      * exists z'. rewrite nth_upd_neq by exact Hn. split; [exact Hz'|]. now rewrite (look_kind _ _ Hlz).
Qed.

Lemma top_new n w x : Top rank n w -> nn_slots x = slots_init -> nn_pool x = [] -> nn_up x = false ->
  (nn_kind x <> NLeaf -> (0 < nn_cap x)%N) -> (nn_cap x < 2 ^ 32)%N -> Top rank n (w ++ [x]).
Proof.
  intros [(g & HI) h2 h3 h4] H1 H2 H3 H4 H5. split; auto.
  - exists g. apply inv_new; auto.
  - intros l c s. rewrite h3.
    assert (Hq : psrc (w ++ [x]) l (N.to_nat (c - 1)) = psrc w l (N.to_nat (c - 1))).
    { unfold psrc. destruct (Nat.ltb_spec l (length w)); [now rewrite nth_error_app1 by lia|].
      rewrite (proj2 (nth_error_None w l)) by lia. rewrite nth_error_app2 by lia.
      destruct (l - length w) as [|m]; cbn [nth_error]; [rewrite H2; destruct (N.to_nat (c - 1)); reflexivity|destruct m; reflexivity]. }
    now rewrite Hq.
  - intros i c s Hin. destruct (h4 _ _ _ Hin) as (z & Hz & Hk). exists z. split; [|exact Hk].
    rewrite nth_error_app1; [exact Hz|]. apply nth_error_Some. congruence.
Qed.

Lemma step_top n w o : Top rank n w -> proper rank n w o ->
  match n_step fuel o w with
  | (_, NFailed f) => f = FThrow ConnectionLimit
  | (w', a) => Top rank (note o a n) w'
  end.
Proof.
  intros HT Hp. destruct o as [cap| | |i s|i c|l s|l c|l]; cbn [n_step proper note] in *.
  - apply top_new; cbn [nn_slots nn_pool nn_up nn_kind nn_cap]; auto; intros; lia.
  - apply top_new; cbn [nn_slots nn_pool nn_up nn_kind nn_cap]; auto; unfold log_limit; intros; lia.
  - apply top_new; cbn [nn_slots nn_pool nn_up nn_kind nn_cap]; auto; try congruence; intros; lia.
  - destruct Hp as [Hs (x & Hx & Hk)]. destruct s as [s|]; [|congruence]. pose proof HT as [(g & HI) h2 h3 h4].
    pose proof (connect_ok rank fuel i (Hfuel i) s _ _ g w x HI (fun j (H : none j) => match H with end) Hx Hk) as HC.
    destruct (connect fuel i (Some s) w) as [w' [c|f]]; cbn [answer_of]; [|exact HC].
    destruct HC as (Hc & g' & HI' & _ & Hsh & _). cbn [note].
    eapply top_shape; [exact HT|exact Hsh|eauto|]. intros j c' s' [[= <- <- <-]|Hin]; [right; eauto|now left].
  - destruct Hp as (s & Hin). pose proof HT as [(g & HI) h2 h3 h4]. destruct (h4 _ _ _ Hin) as (x & Hx & Hk).
    pose proof (inv_perm _ _ _ _ _ _ (forget_perm _ _ _ _ (i_U _ _ _ _ _ HI) Hin) HI) as HI0.
    destruct (disconnect_ok rank fuel i (Hfuel i) _ _ _ _ _ _ x HI0 (fun j (H : none j) => match H with end) Hx Hk)
      as (w' & g' & -> & HI' & _ & Hsh & _). cbn [answer_of note].
    eapply top_shape; [exact HT|exact Hsh|eauto|]. intros j c' s' Hj. apply forget_in in Hj. now left.
  - destruct Hp as [(x & Hx & Hk) Hs]. destruct s as [s|].
    + destruct (Hs s eq_refl) as [Hr (y & Hy & Hyk)].
      pose proof (register_ok n w l s x y HT Hx Hk Hr Hy Hyk) as HR.
      destruct (register fuel l (Some s) w) as [w' [c|f]]; cbn [answer_of]; exact HR.
    + cbn [register answer_of note]. destruct n. exact HT.
  - destruct Hp as [(x & Hx & Hk) Hc]. destruct (unregister_ok n w l c x HT Hx Hk Hc) as (w' & -> & HT'). exact HT'.
  - destruct Hp as (x & ->). destruct n. exact HT.
Qed.

Lemma notes_of_app h h' n : notes_of (h ++ h') n = notes_of h' (notes_of h n).
Proof. revert n. induction h as [|[o a] t IH]; intros n; cbn; auto. Qed.

Lemma history_top h w : history rank fuel h w -> Top rank (notes_after h) w.
Proof.
  induction 1 as [|h w o a w' Hh IH Hp Hs Ha].
  - split; cbn.
    + exists (fun _ _ => 0%N). split; cbn; auto.
      * intros i x H. destruct i; discriminate.
      * intros i c s. unfold ent. destruct i; cbn; (split; [intros []|intros [[]|(k & Hq & _)]]); unfold psrc in Hq; destruct s; discriminate.
      * constructor.
      * intros i l k l' k' Hq. unfold psrc in Hq. destruct l; discriminate.
      * intros l k i Hq. unfold psrc in Hq. destruct l; discriminate.
      * intros l x H. destruct l; discriminate.
    + constructor.
    + intros l c s. split; [intros []|]. intros [_ Hq]. unfold psrc in Hq. destruct l; discriminate.
    + intros i c s [].
  - unfold notes_after. rewrite notes_of_app. cbn [notes_of].
    pose proof (step_top _ _ _ IH Hp) as H. rewrite Hs in H. destruct a; try exact H. exfalso. apply Ha. eexists. reflexivity.
Qed.

(** Who is connected to an object. *)
Lemma ent_wanted n w g : Top rank n w -> Inv rank (nt_conns n) none g w -> forall i, ent w i <> [] <-> wanted n i.
Proof.
  intros [_ hnd hin hcon] HI.
  assert (Hreg : forall m k l, psrc w m k = Some l -> In (m, (N.of_nat k + 1)%N, l) (nt_regs n)).
  { intros m k l Hq. apply hin. split; [lia|]. now replace (N.to_nat (N.of_nat k + 1 - 1)) with k by lia. }
  assert (Hup : forall m k l, psrc w m k = Some l -> (g m k <> 0%N <-> ent w m <> [])).
  { intros m k l Hq. unfold psrc in Hq. destruct (nth_error w m) as [x|] eqn:Hx; [|discriminate].
    destruct (nth_error (nn_pool x) k) as [[s d]|] eqn:Hk; [|discriminate]. subst s.
    destruct (i_loc _ _ _ _ _ HI m x Hx (fun H => H)) as (Hu & Hnl & Hent).
    destruct (Hent k _ _ Hk) as [-> Hd]. rewrite Hd.
    assert (Hlg : nn_kind x = NLogger).
    { destruct (nn_kind x) eqn:E; [|reflexivity|]; rewrite Hnl in Hk by congruence; destruct k; discriminate. }
    rewrite (Hu Hlg). destruct (i_slots _ _ _ _ _ HI m x Hx) as [Hs _]. rewrite (num_ent w m x Hx Hs).
    destruct (ent w m); cbn [length]; split; (congruence || lia || (intros _; lia) || (intros _; congruence)). }
  intros i. split.
  - assert (Hind : forall b i, fuel - rank i <= b -> ent w i <> [] -> wanted n i).
    { induction b as [|b IH]; intros j Hb Hne; [specialize (Hfuel j); lia|].
      destruct (ent w j) as [|[c s] t] eqn:E; [congruence|].
      assert (Hin : In (c, s) (ent w j)) by (rewrite E; now left). apply (i_tab _ _ _ _ _ HI) in Hin.
      destruct Hin as [Hin|(k & Hq & Hg & Hc)]; [eapply wanted_user; exact Hin|].
      eapply wanted_logger; [eapply Hreg; exact Hq|]. apply IH.
      - destruct (i_rank _ _ _ _ _ HI _ _ _ Hq) as [Hr _]. specialize (Hfuel s). lia.
      - apply (Hup _ _ _ Hq). congruence. }
    intros H. eapply Hind; [|exact H]. reflexivity.
  - induction 1 as [l c s Hin|l c m Hin Hw IH].
    + intros E. assert (H : In (c, s) (ent w l)) by (apply (i_tab _ _ _ _ _ HI); now left). rewrite E in H. destruct H.
    + apply hin in Hin. destruct Hin as [_ Hq]. apply (Hup _ _ _ Hq) in IH. intros E.
      assert (H : In (g m (N.to_nat (c - 1)), m) (ent w l)) by (apply (i_tab _ _ _ _ _ HI); right; eauto).
      rewrite E in H. destruct H.
Qed.

Lemma NoDup_map_inj {A B} (f : A -> B) l : (forall x y, In x l -> In y l -> f x = f y -> x = y) -> NoDup l -> NoDup (map f l).
Proof.
  intros H Hn. induction l as [|x t IH]; [constructor|]. inversion Hn as [|? ? Hx Ht]; subst. cbn [map]. constructor.
  - intros Hin. apply in_map_iff in Hin. destruct Hin as (y & He & Hin). apply Hx. rewrite (H x y); [exact Hin|now left|now right|now symmetry].
  - apply IH; [|exact Ht]. intros a b Ha Hb. apply H; now right.
Qed.

Lemma NoDup_keys {A B} (l : list (A * B)) : NoDup (map fst l) -> NoDup l.
Proof.
  intros H. induction l as [|x t IH]; [constructor|]. cbn [map] in H. inversion H as [|? ? Hn Ht]; subst.
  constructor; [|auto]. intros Hin. apply Hn. now apply in_map.
Qed.

Lemma NoDup_app2 {A} (l1 l2 : list A) : NoDup l1 -> NoDup l2 -> (forall x, In x l1 -> In x l2 -> False) -> NoDup (l1 ++ l2).
Proof.
  intros H1 H2 Hd. induction l1 as [|x t IH]; [exact H2|]. inversion H1 as [|? ? Hn Ht]; subst. cbn [app]. constructor.
  - rewrite in_app_iff. intros [H|H]; [now apply Hn|]. eapply Hd; [now left|exact H].
  - apply IH; [exact Ht|]. intros y Hy. apply Hd. now right.
Qed.

Definition act (w : net) (l : nat) : bool := match ent w l with [] => false | _ => true end.

Lemma act_spec w l : act w l = true <-> ent w l <> [].
Proof. unfold act. destruct (ent w l); split; congruence. Qed.

Lemma sinks_ent g U w i : Inv rank U none g w -> sinks w i = map snd (ent w i).
Proof.
  intros HI. unfold sinks, ent. destruct (nth_error w i) as [x|] eqn:Hx; [|reflexivity].
  destruct (i_slots _ _ _ _ _ HI _ _ Hx) as [Hs _]. rewrite (slots_visit_ok _ _ Hs). reflexivity.
Qed.

Lemma ent_nodup w i : NoDup (ent w i).
Proof.
  unfold ent. destruct (nth_error w i); [|constructor]. apply NoDup_keys. apply sorted_nodup.
  pose proof (entries_sorted (sl_items (nn_slots n)) 0) as H. unfold cookie_sorted in H. unfold ascending.
  induction H as [|a t Hs IH Hall]; [constructor|]. cbn [map]. constructor; [exact IH|].
  apply Forall_forall. intros c Hc. apply in_map_iff in Hc. destruct Hc as (y & <- & Hy). rewrite Forall_forall in Hall. auto.
Qed.

Lemma top_sinks n w i : Top rank n w ->
  Permutation (sinks w i)
    (map snd (filter (fun e => Nat.eqb (fst (fst e)) i) (nt_conns n)) ++
     map (fun e => fst (fst e)) (filter (fun e => Nat.eqb (snd e) i && act w (fst (fst e))) (nt_regs n))).
Proof.
  intros HT. pose proof HT as [(g & HI) hnd hin hcon]. rewrite (sinks_ent g _ _ _ HI).
  pose proof (ent_wanted _ _ _ HT HI) as Hw.
  set (A := filter (fun e => Nat.eqb (fst (fst e)) i) (nt_conns n)).
  set (B := filter (fun e => Nat.eqb (snd e) i && act w (fst (fst e))) (nt_regs n)).
  set (fa := fun e : nat * N * nat => (snd (fst e), snd e)).
  set (fb := fun e : nat * N * nat => (g (fst (fst e)) (N.to_nat (snd (fst e) - 1)), fst (fst e))).
  assert (Hup : forall m k l, psrc w m k = Some l -> (g m k <> 0%N <-> act w m = true)).
  { intros m k l Hq. rewrite act_spec. unfold psrc in Hq. destruct (nth_error w m) as [x|] eqn:Hx; [|discriminate].
    destruct (nth_error (nn_pool x) k) as [[s d]|] eqn:Hk; [|discriminate]. subst s.
    destruct (i_loc _ _ _ _ _ HI m x Hx (fun H => H)) as (Hu & Hnl & Hent).
    destruct (Hent k _ _ Hk) as [-> Hd]. rewrite Hd.
    assert (Hlg : nn_kind x = NLogger).
    { destruct (nn_kind x) eqn:E; [|reflexivity|]; rewrite Hnl in Hk by congruence; destruct k; discriminate. }
    rewrite (Hu Hlg). destruct (i_slots _ _ _ _ _ HI m x Hx) as [Hs _]. rewrite (num_ent w m x Hx Hs).
    destruct (ent w m); cbn [length]; split; (congruence || lia || (intros _; lia) || (intros _; congruence)). }
  assert (HinA : forall e, In e A <-> In e (nt_conns n) /\ fst (fst e) = i).
  { intros e. unfold A. rewrite filter_In, Nat.eqb_eq. reflexivity. }
  assert (HinB : forall l c s, In (l, c, s) B <-> In (l, c, s) (nt_regs n) /\ s = i /\ g l (N.to_nat (c - 1)) <> 0%N).
  { intros l c s. unfold B. rewrite filter_In. cbn [fst snd]. rewrite Bool.andb_true_iff, Nat.eqb_eq.
    split; (intros (H1 & H2 & H3); split; [exact H1|]; split; [exact H2|]);
      pose proof H1 as H1'; apply hin in H1'; destruct H1' as [_ H1']; apply (Hup _ _ _ H1'); exact H3. }
  assert (HP : Permutation (ent w i) (map fa A ++ map fb B)).
  { apply NoDup_Permutation.
    - apply ent_nodup.
    - apply NoDup_app2.
      + apply NoDup_map_inj.
        * intros [[j c] s] [[j' c'] s'] H1 H2 [= <- <-]. apply HinA in H1, H2. cbn in *. destruct H1 as [_ ->], H2 as [_ ->]. reflexivity.
        * apply NoDup_filter. apply NoDup_keys. exact (i_U _ _ _ _ _ HI).
      + apply NoDup_map_inj.
        * intros [[l c] s] [[l' c'] s'] H1 H2 [= Hg <-]. apply HinB in H1, H2. destruct H1 as (H1 & -> & Hg1), H2 as (H2 & -> & Hg2).
          apply hin in H1, H2. cbn [fst snd] in Hg.
          destruct (i_inj _ _ _ _ _ HI i _ _ _ _ (proj2 H1) (proj2 H2) Hg Hg1) as [_ He].
          do 2 f_equal. lia.
        * apply NoDup_filter. apply NoDup_keys. exact hnd.
      + intros [c s] H1 H2. apply in_map_iff in H1, H2. destruct H1 as ([[j c1] s1] & [= <- <-] & H1).
        destruct H2 as ([[l c2] s2] & [= Hg <-] & H2). apply HinA in H1. apply HinB in H2. cbn [fst snd] in *.
        destruct H1 as [H1 ->], H2 as (H2 & -> & Hg2). apply hin in H2.
        eapply (i_disj _ _ _ _ _ HI); [exact H1|exact (proj2 H2)|exact Hg].
    - intros [c s]. rewrite (i_tab _ _ _ _ _ HI), in_app_iff, !in_map_iff. split.
      + intros [H|(k & Hq & Hg & Hc)].
        * left. exists (i, c, s). split; [reflexivity|]. apply HinA. auto.
        * right. exists (s, (N.of_nat k + 1)%N, i). unfold fb. cbn [fst snd].
          replace (N.to_nat (N.of_nat k + 1 - 1)) with k by lia. split; [congruence|]. apply HinB. split; [|split; [reflexivity|]].
          -- apply hin. split; [lia|]. now replace (N.to_nat (N.of_nat k + 1 - 1)) with k by lia.
          -- replace (N.to_nat (N.of_nat k + 1 - 1)) with k by lia. congruence.
      + intros [([[j c1] s1] & [= <- <-] & H)|([[l c2] s2] & [= Hg <-] & H)].
        * apply HinA in H. cbn in H. destruct H as [H ->]. now left.
        * apply HinB in H. destruct H as (H & -> & Hg2). apply hin in H. cbn [fst snd] in *.
          right. exists (N.to_nat (c2 - 1)). split; [exact (proj2 H)|]. split; [exact Hg|congruence]. }
  apply (Permutation_map snd) in HP. rewrite map_app, !map_map in HP. exact HP.
Qed.

End Steps.
