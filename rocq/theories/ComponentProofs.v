(** Lemmas about smart pointers and component objects. *)
From Verif Require Import Base BaseProofs Component ComponentSpec.
From Coq Require Import Permutation ZifyBool ZifyNat ZifyN.

(** *** Structure: what never changes about an object *)

Definition shape (c : cell) := (c_kind c, c_owner c, c_class c, c_map c, c_parts c).
Definition same (h h' : heap) : Prop :=
  forall a, option_map shape (nth_error h a) = option_map shape (nth_error h' a).

Lemma same_refl h : same h h.
Proof. intros a. reflexivity. Qed.
Lemma same_sym h h' : same h h' -> same h' h.
Proof. intros H a. symmetry. apply H. Qed.
Lemma same_trans h1 h2 h3 : same h1 h2 -> same h2 h3 -> same h1 h3.
Proof. intros H K a. now rewrite H. Qed.
Lemma same_nth h h' a c : same h h' -> nth_error h a = Some c ->
  exists c', nth_error h' a = Some c' /\ c_kind c' = c_kind c /\ c_owner c' = c_owner c /\
    c_class c' = c_class c /\ c_map c' = c_map c /\ c_parts c' = c_parts c.
Proof.
  intros H E. specialize (H a). rewrite E in H. cbn in H.
  destruct (nth_error h' a) as [c'|]; [|discriminate]. exists c'. unfold shape in H. injection H. intros. repeat split; congruence.
Qed.
Lemma same_upd h a c c' : nth_error h a = Some c -> shape c' = shape c -> same h (upd h a c').
Proof.
  intros E H b. rewrite nth_upd. destruct (Nat.eqb_spec a b) as [->|]; cbn [andb]; auto.
  destruct (Nat.ltb_spec b (length h)); auto. rewrite E. cbn. now rewrite H.
Qed.
Lemma same_length h h' : same h h' -> length h = length h'.
Proof.
  intros H. destruct (Nat.lt_trichotomy (length h) (length h')) as [L|[L|L]]; auto; exfalso.
  - specialize (H (length h)). rewrite (proj2 (nth_error_None h (length h))) in H by lia.
    destruct (nth_error h' (length h)) eqn:E; [discriminate|]. apply nth_error_None in E. lia.
  - specialize (H (length h')). rewrite (proj2 (nth_error_None h' (length h'))) in H by lia.
    destruct (nth_error h (length h')) eqn:E; [discriminate|]. apply nth_error_None in E. lia.
Qed.

Record wf (h : heap) : Prop := {
  wf_owner : forall a c, nth_error h a = Some c -> is_part (c_kind c) = true -> c_owner c < a;
  wf_parts : forall a c b, nth_error h a = Some c ->
    (In b (c_parts c) <-> exists d, nth_error h b = Some d /\ is_part (c_kind d) = true /\ c_owner d = a);
  wf_nodup : forall a c, nth_error h a = Some c -> NoDup (c_parts c);
  wf_via : forall a c t b, nth_error h a = Some c -> In (Via t b) (c_map c) ->
    exists d, nth_error h b = Some d /\ is_navi (c_kind d) = true /\ c_owner d = a;
  wf_class : forall a c, nth_error h a = Some c -> 0 < c_class c
}.

Lemma wf_same h h' : same h h' -> wf h -> wf h'.
Proof.
  intros S W. pose proof (same_sym _ _ S) as S'. split.
  - intros a c E P. destruct (same_nth _ _ _ _ S' E) as (c' & E' & K & O & _).
    rewrite <- O. apply (wf_owner h W a c' E'). now rewrite K.
  - intros a c b E. destruct (same_nth _ _ _ _ S' E) as (c' & E' & _ & _ & _ & _ & P).
    rewrite <- P, (wf_parts h W a c' b E'). split.
    + intros (d & Ed & Pd & Od). destruct (same_nth _ _ _ _ S Ed) as (d' & Ed' & K & O & _).
      exists d'. rewrite K, O. auto.
    + intros (d & Ed & Pd & Od). destruct (same_nth _ _ _ _ S' Ed) as (d' & Ed' & K & O & _).
      exists d'. rewrite K, O. auto.
  - intros a c E. destruct (same_nth _ _ _ _ S' E) as (c' & E' & _ & _ & _ & _ & P).
    rewrite <- P. exact (wf_nodup h W a c' E').
  - intros a c t b E V. destruct (same_nth _ _ _ _ S' E) as (c' & E' & _ & _ & _ & M & _).
    rewrite <- M in V. destruct (wf_via h W a c' t b E' V) as (d & Ed & Nd & Od).
    destruct (same_nth _ _ _ _ S Ed) as (d' & Ed' & K & O & _). exists d'. rewrite K, O. auto.
  - intros a c E. destruct (same_nth _ _ _ _ S' E) as (c' & E' & _ & _ & C & _).
    rewrite <- C. exact (wf_class h W a c' E').
Qed.

Lemma navi_part k : is_navi k = true -> is_part k = true.
Proof. destruct k; auto. Qed.

Lemma up_same h h' n a : same h h' -> up n h a = up n h' a.
Proof.
  intros S. revert a. induction n as [|n IH]; intros a; cbn [up]; auto. specialize (S a) as Sa.
  destruct (nth_error h a) as [c|], (nth_error h' a) as [c'|]; try discriminate; auto.
  cbn in Sa. unfold shape in Sa. injection Sa. intros. assert (K : c_kind c = c_kind c') by congruence.
  assert (O : c_owner c = c_owner c') by congruence. rewrite K, O. destruct (is_part (c_kind c')); auto.
Qed.
Lemma whole_same h h' a : same h h' -> whole h a = whole h' a.
Proof. apply up_same. Qed.
Lemma up_navi_same h h' n a : same h h' -> up_navi n h a = up_navi n h' a.
Proof.
  intros S. revert a. induction n as [|n IH]; intros a; cbn [up_navi]; auto. specialize (S a) as Sa.
  destruct (nth_error h a) as [c|], (nth_error h' a) as [c'|]; try discriminate; auto.
  cbn in Sa. unfold shape in Sa. injection Sa. intros. assert (K : c_kind c = c_kind c') by congruence.
  assert (O : c_owner c = c_owner c') by congruence. rewrite K, O. destruct (is_navi (c_kind c')); auto.
Qed.
Lemma identity_same h h' a : same h h' -> identity h a = identity h' a.
Proof. apply up_navi_same. Qed.

Lemma up_enough h n m a : wf h -> a <= n -> a <= m -> up n h a = up m h a.
Proof.
  intros W. revert m a. induction n as [|n IH]; intros m a Hn Hm.
  - assert (a = 0) by lia. subst a. destruct m; auto. cbn [up].
    destruct (nth_error h 0) as [c|] eqn:E; auto. destruct (is_part (c_kind c)) eqn:P; auto.
    pose proof (wf_owner h W 0 c E P). lia.
  - destruct m as [|m].
    + assert (a = 0) by lia. subst a. cbn [up].
      destruct (nth_error h 0) as [c|] eqn:E; auto. destruct (is_part (c_kind c)) eqn:P; auto.
      pose proof (wf_owner h W 0 c E P). lia.
    + cbn [up]. destruct (nth_error h a) as [c|] eqn:E; auto. destruct (is_part (c_kind c)) eqn:P; auto.
      pose proof (wf_owner h W a c E P). apply IH; lia.
Qed.
Lemma whole_part h a c : wf h -> nth_error h a = Some c -> is_part (c_kind c) = true ->
  whole h a = whole h (c_owner c).
Proof.
  intros W E P. pose proof (wf_owner h W a c E P). unfold whole. destruct a as [|a]; [lia|].
  cbn [up]. rewrite E, P. apply up_enough; auto; lia.
Qed.
Lemma whole_not_part h a c : nth_error h a = Some c -> is_part (c_kind c) = false -> whole h a = a.
Proof. intros E P. unfold whole. destruct a as [|a]; auto. cbn [up]. now rewrite E, P. Qed.
Lemma whole_out h a : nth_error h a = None -> whole h a = a.
Proof. intros E. unfold whole. destruct a as [|a]; auto. cbn [up]. now rewrite E. Qed.

Lemma up_navi_enough h n m a : wf h -> a <= n -> a <= m -> up_navi n h a = up_navi m h a.
Proof.
  intros W. revert m a. induction n as [|n IH]; intros m a Hn Hm.
  - assert (a = 0) by lia. subst a. destruct m; auto. cbn [up_navi].
    destruct (nth_error h 0) as [c|] eqn:E; auto. destruct (is_navi (c_kind c)) eqn:P; auto.
    pose proof (wf_owner h W 0 c E (navi_part _ P)). lia.
  - destruct m as [|m].
    + assert (a = 0) by lia. subst a. cbn [up_navi].
      destruct (nth_error h 0) as [c|] eqn:E; auto. destruct (is_navi (c_kind c)) eqn:P; auto.
      pose proof (wf_owner h W 0 c E (navi_part _ P)). lia.
    + cbn [up_navi]. destruct (nth_error h a) as [c|] eqn:E; auto. destruct (is_navi (c_kind c)) eqn:P; auto.
      pose proof (wf_owner h W a c E (navi_part _ P)). apply IH; lia.
Qed.
Lemma identity_navi h a c : wf h -> nth_error h a = Some c -> is_navi (c_kind c) = true ->
  identity h a = identity h (c_owner c).
Proof.
  intros W E P. pose proof (wf_owner h W a c E (navi_part _ P)). unfold identity. destruct a as [|a]; [lia|].
  cbn [up_navi]. rewrite E, P. apply up_navi_enough; auto; lia.
Qed.
Lemma identity_not_navi h a c : nth_error h a = Some c -> is_navi (c_kind c) = false -> identity h a = a.
Proof. intros E P. unfold identity. destruct a as [|a]; auto. cbn [up_navi]. now rewrite E, P. Qed.

(** Induction from an object to its parts. *)
Lemma owner_ind h (P : nat -> Prop) : wf h ->
  (forall a, (forall c, nth_error h a = Some c -> is_part (c_kind c) = true -> P (c_owner c)) -> P a) ->
  forall a, P a.
Proof.
  intros W H a. induction a as [a IH] using lt_wf_ind. apply H. intros c E Pc.
  apply IH. exact (wf_owner h W a c E Pc).
Qed.

Lemma whole_kind h a c : wf h -> nth_error h a = Some c ->
  exists r, nth_error h (whole h a) = Some r /\ is_part (c_kind r) = false.
Proof.
  intros W. revert c. apply (owner_ind h (fun a => forall c, nth_error h a = Some c ->
    exists r, nth_error h (whole h a) = Some r /\ is_part (c_kind r) = false) W). clear a.
  intros a IH c E. destruct (is_part (c_kind c)) eqn:P.
  - rewrite (whole_part h a c W E P). destruct (IH c E P) with (c := nth (c_owner c) h c) as (r & Hr & Pr).
    + pose proof (wf_owner h W a c E P). apply nth_error_nth'.
      assert (a < length h) by (apply nth_error_Some; congruence). lia.
    + eauto.
  - rewrite (whole_not_part h a c E P). eauto.
Qed.
Lemma whole_whole h a : wf h -> whole h (whole h a) = whole h a.
Proof.
  intros W. destruct (nth_error h a) as [c|] eqn:E.
  - destruct (whole_kind h a c W E) as (r & Hr & Pr). exact (whole_not_part h _ r Hr Pr).
  - now rewrite (whole_out h a E), (whole_out h a E).
Qed.

Lemma identity_some h a c : wf h -> nth_error h a = Some c ->
  exists d, nth_error h (identity h a) = Some d /\ is_navi (c_kind d) = false.
Proof.
  intros W. revert c. apply (owner_ind h (fun a => forall c, nth_error h a = Some c ->
    exists r, nth_error h (identity h a) = Some r /\ is_navi (c_kind r) = false) W). clear a.
  intros a IH c E. destruct (is_navi (c_kind c)) eqn:P.
  - rewrite (identity_navi h a c W E P). pose proof (navi_part _ P) as Q.
    destruct (IH c E Q) with (c := nth (c_owner c) h c) as (r & Hr & Pr).
    + pose proof (wf_owner h W a c E Q). apply nth_error_nth'.
      assert (a < length h) by (apply nth_error_Some; congruence). lia.
    + eauto.
  - rewrite (identity_not_navi h a c E P). eauto.
Qed.
Lemma identity_identity h a c : wf h -> nth_error h a = Some c -> identity h (identity h a) = identity h a.
Proof.
  intros W E. destruct (identity_some h a c W E) as (d & Ed & Nd). exact (identity_not_navi h _ d Ed Nd).
Qed.
Lemma whole_identity h a : wf h -> whole h (identity h a) = whole h a.
Proof.
  intros W. apply (owner_ind h (fun a => whole h (identity h a) = whole h a) W). clear a.
  intros a IH. destruct (nth_error h a) as [c|] eqn:E.
  - destruct (is_navi (c_kind c)) eqn:P.
    + rewrite (identity_navi h a c W E P), (whole_part h a c W E (navi_part _ P)).
      apply IH; auto. now apply navi_part.
    + now rewrite (identity_not_navi h a c E P).
  - f_equal. unfold identity. destruct a as [|a]; auto. cbn [up_navi]. now rewrite E.
Qed.

(** *** Counting references *)

Definition addrs (l : list handle) : list nat :=
  flat_map (fun x => match snd x with Some p => [p_addr p] | None => [] end) l.
Definition oaddr (v : option ptr) : list nat := match v with Some p => [p_addr p] | None => [] end.
Definition rels (ws : list work) : list nat :=
  flat_map (fun x => match x with Rel a => [a] | Drop _ => [] end) ws.
Definition drops (ws : list work) : list nat :=
  flat_map (fun x => match x with Rel _ => [] | Drop b => [b] end) ws.

Definition cnt (om : nat -> nat) (r : nat) (l : list nat) : nat :=
  length (filter (fun a => om a =? r) l).
Definition ccnt (om : nat -> nat) (r : nat) (c : cell) : nat :=
  if c_alive c then cnt om r (addrs (c_fields c)) else 0.
Definition fsum (g : cell -> nat) (h : heap) : nat := list_sum (map g h).
Definition total (om : nat -> nat) (r : nat) (h : heap) (ws : list work) (R : list nat) : nat :=
  cnt om r R + cnt om r (rels ws) + fsum (ccnt om r) h.

Lemma cnt_app om r l l' : cnt om r (l ++ l') = cnt om r l + cnt om r l'.
Proof. unfold cnt. now rewrite filter_app, app_length. Qed.
Lemma cnt_cons om r a l : cnt om r (a :: l) = (if om a =? r then 1 else 0) + cnt om r l.
Proof. unfold cnt. cbn [filter]. now destruct (om a =? r). Qed.
Lemma cnt_nil om r : cnt om r [] = 0.
Proof. reflexivity. Qed.
Lemma cnt_pos om r l a : In a l -> om a = r -> 0 < cnt om r l.
Proof.
  induction l as [|x l IH]; [contradiction|]. intros [->|H] E; rewrite cnt_cons.
  - rewrite E, Nat.eqb_refl. lia.
  - specialize (IH H E). lia.
Qed.
Lemma cnt_ext om om' r l : (forall a, om a = om' a) -> cnt om r l = cnt om' r l.
Proof. intros H. induction l as [|a l IH]; auto. now rewrite !cnt_cons, H, IH. Qed.
Lemma fsum_upd g h a c c' : nth_error h a = Some c -> fsum g (upd h a c') + g c = fsum g h + g c'.
Proof.
  revert a. unfold fsum, list_sum. induction h as [|x h IH]; intros [|a]; cbn; try discriminate.
  - intros [= ->]. lia.
  - intros E. specialize (IH a E). lia.
Qed.
Lemma fsum_ext g g' h : (forall c, g c = g' c) -> fsum g h = fsum g' h.
Proof. intros H. unfold fsum. f_equal. apply map_ext. exact H. Qed.
Lemma fsum_app g h h' : fsum g (h ++ h') = fsum g h + fsum g h'.
Proof. unfold fsum, list_sum. rewrite map_app. induction (map g h) as [|x l IH]; cbn; lia. Qed.
Lemma fsum_in g h a c : nth_error h a = Some c -> g c <= fsum g h.
Proof.
  revert a. unfold fsum, list_sum. induction h as [|x h IH]; intros [|a]; cbn; try discriminate.
  - intros [= ->]. lia.
  - intros E. specialize (IH a E). lia.
Qed.
Lemma total_ext om om' r h ws R : (forall a, om a = om' a) -> total om r h ws R = total om' r h ws R.
Proof.
  intros H. unfold total. rewrite !(cnt_ext om om') by auto. f_equal.
  apply fsum_ext. intros c. unfold ccnt. destruct (c_alive c); auto. now apply cnt_ext.
Qed.
Lemma rels_app x y : rels (x ++ y) = rels x ++ rels y.
Proof. apply flat_map_app. Qed.
Lemma drops_app x y : drops (x ++ y) = drops x ++ drops y.
Proof. apply flat_map_app. Qed.
Lemma in_drops b ws : In b (drops ws) <-> In (Drop b) ws.
Proof.
  unfold drops. rewrite in_flat_map. split.
  - intros ([a|d] & H & I); cbn in I; [contradiction|]. destruct I as [<-|[]]. auto.
  - intros H. exists (Drop b). cbn; auto.
Qed.
Lemma rels_members c : rels (members c) = addrs (c_fields c).
Proof.
  unfold members. rewrite rels_app.
  assert (E : rels (map Drop (c_parts c)) = []) by (induction (c_parts c); auto).
  rewrite E. cbn [app]. induction (c_fields c) as [|[t v] l IH]; auto. cbn.
  rewrite rels_app, IH. now destruct v.
Qed.
Lemma drops_members c : drops (members c) = c_parts c.
Proof.
  unfold members. rewrite drops_app.
  assert (E : drops (map Drop (c_parts c)) = c_parts c).
  { induction (c_parts c) as [|b l IH]; auto. cbn. now rewrite <- IH at 2. }
  rewrite E. rewrite <- (app_nil_r (c_parts c)) at 2. f_equal.
  clear E. induction (c_fields c) as [|[t v] l IH]; auto. cbn. rewrite drops_app, IH. now destruct v.
Qed.
Lemma members_length c : length (members c) <= length (c_parts c) + length (c_fields c).
Proof.
  unfold members. rewrite app_length, map_length.
  enough (H : length (flat_map (fun f : handle => match snd f with Some p => [Rel (p_addr p)] | None => [] end)
    (c_fields c)) <= length (c_fields c)) by (revert H; unfold handle; lia).
  induction (c_fields c) as [|[t v] l IH]; auto. cbn. rewrite app_length. destruct v; cbn; lia.
Qed.

(** *** The invariant of the heap *)

Definition alive (h : heap) (a : nat) : bool :=
  match nth_error h a with Some c => c_alive c | None => false end.
Lemma live_alive h a : live h a <-> alive h a = true.
Proof.
  unfold live, alive. destruct (nth_error h a) as [c|]; split.
  - intros (d & [= <-] & H). auto.
  - intros H. eauto.
  - intros (d & [=] & _).
  - discriminate.
Qed.

Record inv (h : heap) (ws : list work) (R : list nat) (full : bool) : Prop := {
  i_wf : wf h;
  i_part : forall b d, nth_error h b = Some d -> is_part (c_kind d) = true ->
    (c_alive d = true <-> alive h (c_owner d) = true \/ In (Drop b) ws);
  i_drop : forall b, In (Drop b) ws -> exists d, nth_error h b = Some d /\
    is_part (c_kind d) = true /\ alive h (c_owner d) = false;
  i_nodup : NoDup (drops ws);
  i_rc : forall r c, nth_error h r = Some c -> c_kind c = KObject -> c_alive c = true ->
    c_rc c = Z.of_nat (total (whole h) r h ws R);
  i_agg : forall r c, nth_error h r = Some c -> c_kind c = KAgg -> c_alive c = true -> c_rc c = 1%Z;
  i_live : forall r, 0 < total (whole h) r h ws R -> alive h r = true;
  i_full : full = true -> forall r c, nth_error h r = Some c -> c_kind c = KObject ->
    c_alive c = true -> 0 < total (whole h) r h ws R
}.

Lemma group_alive h ws R f a : inv h ws R f -> alive h (whole h a) = true -> alive h a = true.
Proof.
  intros I. apply (owner_ind h (fun a => alive h (whole h a) = true -> alive h a = true) (i_wf _ _ _ _ I)).
  clear a. intros a IH. destruct (nth_error h a) as [c|] eqn:E.
  - destruct (is_part (c_kind c)) eqn:P.
    + rewrite (whole_part h a c (i_wf _ _ _ _ I) E P). intros L. specialize (IH c eq_refl P L).
      unfold alive. rewrite E. apply (i_part _ _ _ _ I a c E P). auto.
    + now rewrite (whole_not_part h a c E P).
  - now rewrite (whole_out h a E).
Qed.
Lemma group_alive_iff h R f a : inv h [] R f -> alive h a = alive h (whole h a).
Proof.
  intros I. apply (owner_ind h (fun a => alive h a = alive h (whole h a)) (i_wf _ _ _ _ I)).
  clear a. intros a IH. destruct (nth_error h a) as [c|] eqn:E.
  - destruct (is_part (c_kind c)) eqn:P.
    + rewrite (whole_part h a c (i_wf _ _ _ _ I) E P), <- (IH c eq_refl P).
      unfold alive at 1. rewrite E. pose proof (i_part _ _ _ _ I a c E P) as Q. cbn in Q.
      destruct (c_alive c), (alive h (c_owner c)); intuition congruence.
    + now rewrite (whole_not_part h a c E P).
  - now rewrite (whole_out h a E).
Qed.

Lemma get_alive h a : alive h a = true -> exists c, nth_error h a = Some c /\ c_alive c = true /\ get h a = Done c.
Proof.
  unfold alive, get. destruct (nth_error h a) as [c|]; [|discriminate]. intros H. exists c. rewrite H. auto.
Qed.

(** Who counts the references to [a]. *)
Definition counter (h : heap) (a : nat) : option nat :=
  match nth_error h (whole h a) with
  | Some c => match c_kind c with KObject => Some (whole h a) | _ => None end
  | None => None
  end.

Lemma counted_ok h ws R f a : inv h ws R f -> alive h (whole h a) = true ->
  forall n, a < n -> counted n h a = Done (counter h a).
Proof.
  intros I. pose proof (i_wf _ _ _ _ I) as W.
  apply (owner_ind h (fun a => alive h (whole h a) = true -> forall n, a < n -> counted n h a = Done (counter h a)) W).
  clear a. intros a IH L n Hn. destruct n as [|n]; [lia|]. cbn [counted].
  destruct (get_alive h a (group_alive _ _ _ _ _ I L)) as (c & E & A & ->). cbn [obind].
  destruct (is_part (c_kind c)) eqn:P.
  - pose proof (wf_owner h W a c E P) as O. pose proof (whole_part h a c W E P) as Q.
    assert (C : counted n h (c_owner c) = Done (counter h (c_owner c))).
    { apply (IH c E P); [now rewrite <- Q | lia]. }
    unfold counter in C |- *. rewrite Q. destruct (c_kind c); try discriminate; exact C.
  - unfold counter. rewrite (whole_not_part h a c E P), E. destruct (c_kind c); auto; discriminate.
Qed.

Lemma total_inc om r h ws R a : total om r h ws (a :: R) = (if om a =? r then 1 else 0) + total om r h ws R.
Proof. unfold total. rewrite cnt_cons. lia. Qed.
Lemma total_rel om r h ws R a : total om r h (Rel a :: ws) R = (if om a =? r then 1 else 0) + total om r h ws R.
Proof. unfold total. change (rels (Rel a :: ws)) with (a :: rels ws). rewrite cnt_cons. lia. Qed.
Lemma total_upd_rc om r h ws R a c n : nth_error h a = Some c ->
  total om r (upd h a (set_rc c n)) ws R = total om r h ws R.
Proof.
  intros E. unfold total. pose proof (fsum_upd (ccnt om r) h a c (set_rc c n) E) as H.
  change (ccnt om r (set_rc c n)) with (ccnt om r c) in H. lia.
Qed.
Lemma total_kill om r h ws R a c n : nth_error h a = Some c -> c_alive c = true ->
  total om r (upd h a (set_dead (set_rc c n))) (members c ++ ws) R = total om r h ws R.
Proof.
  intros E A. unfold total. pose proof (fsum_upd (ccnt om r) h a c (set_dead (set_rc c n)) E) as H.
  rewrite rels_app, rels_members, cnt_app.
  change (ccnt om r (set_dead (set_rc c n))) with 0 in H. unfold ccnt at 2 in H. rewrite A in H. lia.
Qed.
Lemma alive_upd h a c c' b : nth_error h a = Some c ->
  alive (upd h a c') b = if b =? a then c_alive c' else alive h b.
Proof.
  intros E. unfold alive. rewrite nth_upd, Nat.eqb_sym.
  assert (a < length h) by (apply nth_error_Some; congruence).
  destruct (Nat.eqb_spec b a) as [->|]; cbn [andb]; auto. destruct (Nat.ltb_spec a (length h)); auto; lia.
Qed.
Lemma alive_upd_rc h a c n b : nth_error h a = Some c -> alive (upd h a (set_rc c n)) b = alive h b.
Proof.
  intros E. rewrite (alive_upd h a c _ b E). destruct (Nat.eqb_spec b a) as [->|]; auto.
  unfold alive. now rewrite E.
Qed.
Lemma members_set_rc c n : members (set_rc c n) = members c.
Proof. reflexivity. Qed.

(** What a [Release] leaves unchanged. *)
Definition later (h h' : heap) : Prop :=
  same h h' /\
  (forall a c, nth_error h a = Some c -> exists c', nth_error h' a = Some c' /\ c_fields c' = c_fields c) /\
  (forall a, alive h' a = true -> alive h a = true).
Lemma later_refl h : later h h.
Proof. split; [apply same_refl|]. split; eauto. Qed.
Lemma later_trans h1 h2 h3 : later h1 h2 -> later h2 h3 -> later h1 h3.
Proof.
  intros (A & B & C) (A' & B' & C'). split; [eapply same_trans; eauto|]. split; auto.
  intros a c E. destruct (B a c E) as (c' & E' & F). destruct (B' a c' E') as (c'' & E'' & F').
  exists c''. split; congruence.
Qed.
Lemma later_upd_rc h a c n : nth_error h a = Some c -> later h (upd h a (set_rc c n)).
Proof.
  intros E. split; [now apply (same_upd h a c)|]. split.
  - intros b d Eb. rewrite nth_upd. destruct (Nat.eqb_spec a b) as [->|]; cbn [andb]; eauto.
    destruct (Nat.ltb_spec b (length h)); eauto. rewrite E in Eb. injection Eb as <-. eauto.
  - intros b. now rewrite (alive_upd_rc h a c n b E).
Qed.
Lemma later_kill h a c n : nth_error h a = Some c -> later h (upd h a (set_dead (set_rc c n))).
Proof.
  intros E. split; [now apply (same_upd h a c)|]. split.
  - intros b d Eb. rewrite nth_upd. destruct (Nat.eqb_spec a b) as [->|]; cbn [andb]; eauto.
    destruct (Nat.ltb_spec b (length h)); eauto. rewrite E in Eb. injection Eb as <-. eauto.
  - intros b. rewrite (alive_upd h a c _ b E). destruct (Nat.eqb_spec b a); auto. discriminate.
Qed.

(** A reference is released and others remain. *)
Lemma inv_dec h ws R f a r c : inv h (Rel a :: ws) R f -> whole h a = r ->
  nth_error h r = Some c -> c_kind c = KObject -> c_alive c = true -> (c_rc c - 1)%Z <> 0%Z ->
  inv (upd h r (set_rc c (c_rc c - 1))) ws R f.
Proof.
  intros I Er E Kc A Z. set (h' := upd h r (set_rc c (c_rc c - 1))).
  assert (S : same h h') by now apply (same_upd h r c).
  assert (AL : forall b, alive h' b = alive h b) by (intros; now apply alive_upd_rc).
  assert (TO : forall q, total (whole h) q h (Rel a :: ws) R = (if r =? q then 1 else 0) + total (whole h') q h' ws R).
  { intros q. rewrite total_rel, Er. f_equal. unfold h'. rewrite (total_upd_rc _ _ _ _ _ _ _ _ E).
    apply total_ext. intros x. now apply whole_same. }
  pose proof (i_rc _ _ _ _ I r c E Kc A) as RC. rewrite (TO r), Nat.eqb_refl in RC.
  split.
  - exact (wf_same _ _ S (i_wf _ _ _ _ I)).
  - intros b d Eb Pb. destruct (same_nth _ _ _ _ (same_sym _ _ S) Eb) as (d0 & E0 & K0 & O0 & _).
    rewrite AL. pose proof (i_part _ _ _ _ I b d0 E0) as Q. rewrite K0, O0 in Q. specialize (Q Pb).
    assert (LA : c_alive d = c_alive d0). { specialize (AL b). unfold alive in AL. now rewrite Eb, E0 in AL. }
    rewrite LA, Q. cbn [In]. intuition congruence.
  - intros b Hb. destruct (i_drop _ _ _ _ I b (or_intror Hb)) as (d & E0 & P0 & A0).
    destruct (same_nth _ _ _ _ S E0) as (d' & E' & K' & O' & _). exists d'. rewrite AL, K', O'. auto.
  - exact (i_nodup _ _ _ _ I).
  - intros q d Eq Kd Ad. destruct (Nat.eqb_spec q r) as [->|N].
    + unfold h' in Eq. rewrite nth_upd_eq in Eq by (apply nth_error_Some; congruence). injection Eq as <-.
      cbn [c_rc set_rc]. lia.
    + pose proof Eq as Eq'. unfold h' in Eq'. rewrite nth_upd_neq in Eq' by auto.
      rewrite (i_rc _ _ _ _ I q d Eq' Kd Ad), TO. destruct (Nat.eqb_spec r q); [congruence|]. reflexivity.
  - intros q d Eq Kd Ad. destruct (Nat.eqb_spec q r) as [->|N].
    + unfold h' in Eq. rewrite nth_upd_eq in Eq by (apply nth_error_Some; congruence). injection Eq as <-.
      cbn in Kd. congruence.
    + unfold h' in Eq. rewrite nth_upd_neq in Eq by auto. exact (i_agg _ _ _ _ I q d Eq Kd Ad).
  - intros q Hq. rewrite AL. apply (i_live _ _ _ _ I). rewrite TO. lia.
  - intros F q d Eq Kd Ad. destruct (Nat.eqb_spec q r) as [->|N]; [lia|].
    pose proof Eq as Eq'. unfold h' in Eq'. rewrite nth_upd_neq in Eq' by auto.
    pose proof (i_full _ _ _ _ I F q d Eq' Kd Ad) as Q. rewrite TO in Q.
    destruct (Nat.eqb_spec r q); [congruence|]. exact Q.
Qed.

(** An object is deleted. *)
Lemma inv_kill h ws x R f r c n : inv h (x :: ws) R f ->
  nth_error h r = Some c -> c_alive c = true -> rels [x] = [] \/ (exists a, x = Rel a /\ whole h a = r) ->
  (forall q, total (whole h) q h ws R = 0 \/ q <> r) ->
  (is_part (c_kind c) = true -> x = Drop r) -> (is_part (c_kind c) = false -> exists a, x = Rel a) ->
  inv (upd h r (set_dead (set_rc c n))) (members c ++ ws) R f.
Proof.
  intros I E A X Z XD XR. set (h' := upd h r (set_dead (set_rc c n))).
  pose proof (i_wf _ _ _ _ I) as W.
  assert (S : same h h') by now apply (same_upd h r c).
  assert (AL : forall b, alive h' b = if b =? r then false else alive h b).
  { intros b. unfold h'. now rewrite (alive_upd h r c _ b E). }
  assert (TO : forall q, total (whole h') q h' (members c ++ ws) R = total (whole h) q h ws R).
  { intros q. unfold h'. rewrite total_kill by auto. apply total_ext. intros y. symmetry. now apply whole_same. }
  assert (TX : forall q, q <> r -> total (whole h) q h (x :: ws) R = total (whole h) q h ws R).
  { intros q Nq. destruct X as [X|(a & -> & Ea)].
    - unfold total. change (rels (x :: ws)) with (rels ([x] ++ ws)). now rewrite rels_app, X.
    - rewrite total_rel, Ea. destruct (Nat.eqb_spec r q); [congruence|]. reflexivity. }
  assert (NT : total (whole h) r h ws R = 0) by (destruct (Z r); congruence).
  assert (Pnot : forall b, In b (c_parts c) -> ~ In (Drop b) (x :: ws)).
  { intros b Hb Hd. apply (wf_parts h W r c b E) in Hb. destruct Hb as (d & Ed & Pd & Od).
    destruct (i_drop _ _ _ _ I b Hd) as (d' & Ed' & _ & Ad). rewrite Ed in Ed'. injection Ed' as <-.
    rewrite Od in Ad. unfold alive in Ad. rewrite E in Ad. congruence. }
  assert (INM : forall b, In (Drop b) (members c ++ ws) <-> In b (c_parts c) \/ In (Drop b) ws).
  { intros b. rewrite <- !in_drops, drops_app, drops_members, in_app_iff. reflexivity. }
  assert (ND : NoDup (drops (x :: ws))) by exact (i_nodup _ _ _ _ I).
  assert (RNW : ~ In (Drop r) ws).
  { intros H. destruct (is_part (c_kind c)) eqn:P.
    - rewrite (XD eq_refl) in ND. cbn in ND. inversion ND; subst. now apply in_drops in H.
    - destruct (i_drop _ _ _ _ I r (or_intror H)) as (d & Ed & Pd & _). congruence. }
  split.
  - exact (wf_same _ _ S W).
  - intros b d Eb Pb. destruct (same_nth _ _ _ _ (same_sym _ _ S) Eb) as (d0 & E0 & K0 & O0 & _).
    pose proof (i_part _ _ _ _ I b d0 E0) as Q. rewrite K0, O0 in Q. specialize (Q Pb).
    rewrite AL, INM. destruct (Nat.eqb_spec b r) as [->|Nb].
    + unfold h' in Eb. rewrite nth_upd_eq in Eb by (apply nth_error_Some; congruence). injection Eb as <-.
      cbn [c_alive set_dead]. split; [discriminate|]. intros H. exfalso.
      rewrite E in E0. injection E0 as <-.
      assert (P : is_part (c_kind c) = true) by now rewrite K0. pose proof (XD P) as ->.
      destruct (i_drop _ _ _ _ I r (or_introl eq_refl)) as (d & Ed & _ & Ao).
      rewrite E in Ed. injection Ed as <-. rewrite O0 in Ao.
      destruct H as [H|[H|H]]; auto.
      * destruct (Nat.eqb_spec (c_owner (set_dead (set_rc c n))) r); [discriminate|]. congruence.
      * apply (wf_parts h W r c r E) in H. destruct H as (d & Ed & Pd & Od).
        rewrite E in Ed. injection Ed as <-. pose proof (wf_owner h W r c E P). lia.
    + assert (ED : nth_error h b = Some d) by (unfold h' in Eb; rewrite nth_upd_neq in Eb by auto; auto).
      rewrite E0 in ED. injection ED as <-. rewrite Q. cbn [In].
      destruct (Nat.eqb_spec (c_owner d0) r) as [Or|Or].
      * split; [intros _|intros _].
        -- right. left. apply (wf_parts h W r c b E). exists d0. auto.
        -- left. rewrite Or. unfold alive. now rewrite E.
      * split.
        -- intros [H|[H|H]]; auto. subst x. exfalso.
           destruct (is_part (c_kind c)) eqn:P; [injection (XD eq_refl); congruence|].
           destruct (XR eq_refl) as (a & [=]).
        -- intros [H|[H|H]]; auto. exfalso. apply (wf_parts h W r c b E) in H.
           destruct H as (d & Ed & _ & Od). rewrite E0 in Ed. injection Ed as <-. congruence.
  - intros b Hb. apply INM in Hb. destruct Hb as [Hb|Hb].
    + apply (wf_parts h W r c b E) in Hb. destruct Hb as (d & Ed & Pd & Od).
      destruct (same_nth _ _ _ _ S Ed) as (d' & Ed' & Kd & Od' & _).
      exists d'. rewrite Kd, Od', AL, Od, Nat.eqb_refl. auto.
    + destruct (i_drop _ _ _ _ I b (or_intror Hb)) as (d & Ed & Pd & Ad).
      destruct (same_nth _ _ _ _ S Ed) as (d' & Ed' & Kd & Od' & _).
      exists d'. rewrite Kd, Od', AL. destruct (c_owner d =? r); auto.
  - rewrite drops_app, drops_members.
    assert (N1 : NoDup (drops ws)). { destruct x; cbn in ND; auto. now inversion ND. }
    pose proof (wf_nodup h W r c E) as N2.
    assert (DJ : forall b, In b (c_parts c) -> ~ In b (drops ws)).
    { intros b Hb Hd. apply in_drops in Hd. exact (Pnot b Hb (or_intror Hd)). }
    clear - N1 N2 DJ. induction (c_parts c) as [|b l IH]; auto. cbn. inversion N2; subst. constructor.
    + rewrite in_app_iff. intros [H|H]; [auto|]. exact (DJ b (or_introl eq_refl) H).
    + apply IH; auto. intros b' Hb'. apply DJ. now right.
  - intros q d Eq Kd Ad. rewrite TO. destruct (Nat.eqb_spec q r) as [->|N].
    + unfold h' in Eq. rewrite nth_upd_eq in Eq by (apply nth_error_Some; congruence). injection Eq as <-. discriminate.
    + unfold h' in Eq. rewrite nth_upd_neq in Eq by auto.
      rewrite (i_rc _ _ _ _ I q d Eq Kd Ad), TX by auto. reflexivity.
  - intros q d Eq Kd Ad. destruct (Nat.eqb_spec q r) as [->|N].
    + unfold h' in Eq. rewrite nth_upd_eq in Eq by (apply nth_error_Some; congruence). injection Eq as <-. discriminate.
    + unfold h' in Eq. rewrite nth_upd_neq in Eq by auto. exact (i_agg _ _ _ _ I q d Eq Kd Ad).
  - intros q Hq. rewrite TO in Hq. rewrite AL. destruct (Nat.eqb_spec q r) as [->|N]; [lia|].
    apply (i_live _ _ _ _ I). now rewrite TX.
  - intros F q d Eq Kd Ad. rewrite TO. destruct (Nat.eqb_spec q r) as [->|N].
    + unfold h' in Eq. rewrite nth_upd_eq in Eq by (apply nth_error_Some; congruence). injection Eq as <-. discriminate.
    + unfold h' in Eq. rewrite nth_upd_neq in Eq by auto.
      rewrite <- TX by auto. exact (i_full _ _ _ _ I F q d Eq Kd Ad).
Qed.

(** A reference to an object that does not count. *)
Lemma inv_skip h ws R f a : inv h (Rel a :: ws) R f -> counter h a = None -> alive h (whole h a) = true ->
  inv h ws R f.
Proof.
  intros I C L.
  assert (TX : forall q, q <> whole h a -> total (whole h) q h (Rel a :: ws) R = total (whole h) q h ws R).
  { intros q Nq. rewrite total_rel. destruct (Nat.eqb_spec (whole h a) q); [congruence|]. reflexivity. }
  assert (NK : forall c, nth_error h (whole h a) = Some c -> c_kind c <> KObject).
  { intros c E K. unfold counter in C. rewrite E, K in C. discriminate. }
  split.
  - exact (i_wf _ _ _ _ I).
  - intros b d Eb Pb. rewrite (i_part _ _ _ _ I b d Eb Pb). cbn [In]. intuition congruence.
  - intros b Hb. exact (i_drop _ _ _ _ I b (or_intror Hb)).
  - exact (i_nodup _ _ _ _ I).
  - intros q d Eq Kd Ad. rewrite (i_rc _ _ _ _ I q d Eq Kd Ad). rewrite TX; auto. intros ->. exact (NK d Eq Kd).
  - exact (i_agg _ _ _ _ I).
  - intros q Hq. apply (i_live _ _ _ _ I). rewrite total_rel. lia.
  - intros F q d Eq Kd Ad. rewrite <- TX; [exact (i_full _ _ _ _ I F q d Eq Kd Ad)|]. intros ->. exact (NK d Eq Kd).
Qed.

Definition measure (ws : list work) (h : heap) : nat := length ws + fsum load_of h.

(** Releases never fail, whatever they delete. *)
Lemma run_work_ok fuel : forall ws h R f, inv h ws R f -> measure ws h <= fuel ->
  exists h', run_work fuel ws h = Done h' /\ inv h' [] R f /\ later h h'.
Proof.
  induction fuel as [|fuel IH]; intros ws h R f I M.
  - destruct ws as [|x ws]; [|unfold measure in M; cbn in M; lia].
    exists h. split; [reflexivity|]. split; [exact I | apply later_refl].
  - destruct ws as [|x ws]; [exists h; split; [reflexivity|]; split; [exact I | apply later_refl]|].
    cbn [run_work]. unfold measure in M. cbn [length] in M.
    assert (KILL : forall r c n, nth_error h r = Some c -> c_alive c = true ->
      measure (members c ++ ws) (upd h r (set_dead (set_rc c n))) <= fuel).
    { intros r c n E A. unfold measure. rewrite app_length.
      pose proof (fsum_upd load_of h r c (set_dead (set_rc c n)) E) as Q.
      change (load_of (set_dead (set_rc c n))) with 0 in Q. unfold load_of at 2 in Q. rewrite A in Q.
      pose proof (members_length c). lia. }
    assert (DEC : forall r c n, nth_error h r = Some c -> measure ws (upd h r (set_rc c n)) <= fuel).
    { intros r c n E. unfold measure. pose proof (fsum_upd load_of h r c (set_rc c n) E) as Q.
      change (load_of (set_rc c n)) with (load_of c) in Q. lia. }
    destruct x as [a|b].
    + assert (L : alive h (whole h a) = true).
      { apply (i_live _ _ _ _ I). rewrite total_rel, Nat.eqb_refl. lia. }
      rewrite (counted_ok _ _ _ _ _ I L) by lia. cbn [obind].
      destruct (counter h a) as [r|] eqn:C.
      * unfold counter in C. destruct (nth_error h (whole h a)) as [c|] eqn:E; [|discriminate].
        assert (Kc : c_kind c = KObject) by (destruct (c_kind c); congruence). rewrite Kc in C. injection C as <-.
        destruct (get_alive h _ L) as (c' & E' & A & ->). rewrite E in E'. injection E' as <-. cbn [obind].
        cbn [c_rc set_rc]. destruct (Z.eqb_spec (c_rc c - 1) 0) as [Z|Z].
        -- rewrite members_set_rc.
           destruct (IH (members c ++ ws) (upd h (whole h a) (set_dead (set_rc c (c_rc c - 1)))) R f) as (h' & Eh & Ih & Lh).
           ++ apply (inv_kill h ws (Rel a) R f (whole h a) c (c_rc c - 1)%Z I E A).
              ** right. eauto.
              ** intros q. destruct (Nat.eqb_spec q (whole h a)) as [->|]; auto. left.
                 pose proof (i_rc _ _ _ _ I _ c E Kc A) as RC. rewrite total_rel, Nat.eqb_refl in RC. lia.
              ** rewrite Kc. discriminate.
              ** eauto.
           ++ now apply KILL.
           ++ exists h'. split; [exact Eh|]. split; [exact Ih|].
              eapply later_trans; [|exact Lh]. now apply later_kill.
        -- destruct (IH ws (upd h (whole h a) (set_rc c (c_rc c - 1))) R f) as (h' & Eh & Ih & Lh).
           ++ now apply (inv_dec h ws R f a (whole h a) c).
           ++ now apply DEC.
           ++ exists h'. split; [exact Eh|]. split; [exact Ih|].
              eapply later_trans; [|exact Lh]. now apply later_upd_rc.
      * destruct (IH ws h R f) as (h' & Eh & Ih & Lh).
        -- now apply (inv_skip h ws R f a).
        -- unfold measure. lia.
        -- eauto.
    + destruct (i_drop _ _ _ _ I b (or_introl eq_refl)) as (c & E & P & Ao).
      assert (A : c_alive c = true) by (apply (i_part _ _ _ _ I b c E P); right; now left).
      unfold get. rewrite E, A. cbn [obind].
      assert (NW : total (whole h) b h ws R = 0 \/ b <> b).
      { left. destruct (total (whole h) b h ws R) eqn:TB; auto. exfalso.
        assert (X : forall l, cnt (whole h) b l = 0).
        { intros l. induction l as [|y l IHl]; auto. rewrite cnt_cons, IHl.
          destruct (Nat.eqb_spec (whole h y) b) as [Eb|]; auto. exfalso.
          destruct (nth_error h y) as [d|] eqn:Ey.
          - destruct (whole_kind h y d (i_wf _ _ _ _ I) Ey) as (r & Hr & Pr). rewrite Eb in Hr. congruence.
          - rewrite (whole_out h y Ey) in Eb. congruence. }
        unfold total in TB. rewrite !X in TB. unfold fsum in TB.
        assert (Y : map (ccnt (whole h) b) h = map (fun _ => 0) h).
        { apply map_ext. intros d. unfold ccnt. destruct (c_alive d); auto. }
        rewrite Y in TB. clear - TB. induction h as [|d h IHh]; cbn in TB; [discriminate|auto]. }
      assert (STEP : forall n, exists h', run_work fuel (members c ++ ws) (upd h b (set_dead (set_rc c n))) = Done h' /\
                inv h' [] R f /\ later h h').
      { intros n. destruct (IH (members c ++ ws) (upd h b (set_dead (set_rc c n))) R f) as (h' & Eh & Ih & Lh).
        - apply (inv_kill h ws (Drop b) R f b c n I E A); auto.
          + intros q. destruct (Nat.eqb_spec q b) as [->|]; auto.
          + rewrite P. discriminate.
        - now apply KILL.
        - exists h'. split; [exact Eh|]. split; [exact Ih|]. eapply later_trans; [|exact Lh]. now apply later_kill. }
      assert (SELF : upd h b (set_dead c) = upd h b (set_dead (set_rc c (c_rc c)))) by now destruct c.
      destruct (c_kind c) eqn:Kc; try discriminate.
      * rewrite (i_agg _ _ _ _ I b c E Kc A). cbn -[run_work members]. rewrite members_set_rc. apply STEP.
      * rewrite SELF. apply STEP.
      * rewrite SELF. apply STEP.
Qed.
