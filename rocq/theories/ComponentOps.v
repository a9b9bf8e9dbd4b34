(** Lemmas about the operations on smart pointers. *)
From Verif Require Import Base BaseProofs Component ComponentSpec ComponentProofs.
From Coq Require Import ZifyBool ZifyNat ZifyN.

(** *** Taking references *)

Definition inc (h : heap) (r : nat) : heap :=
  match nth_error h r with
  | Some c => match c_kind c with KObject => upd h r (set_rc c (c_rc c + 1)) | _ => h end
  | None => h
  end.

Lemma add_ref_ok h ws R f a : inv h ws R f -> alive h (whole h a) = true ->
  add_ref h a = Done (inc h (whole h a)).
Proof.
  intros I L. unfold add_ref. rewrite (counted_ok _ _ _ _ _ I L) by lia. cbn [obind].
  destruct (get_alive h _ L) as (c & E & A & G).
  unfold counter, inc. rewrite E. destruct (c_kind c); auto. now rewrite G.
Qed.

Lemma inc_cases h r : inc h r = h \/
  exists c, nth_error h r = Some c /\ c_kind c = KObject /\ inc h r = upd h r (set_rc c (c_rc c + 1)).
Proof.
  unfold inc. destruct (nth_error h r) as [c|] eqn:E; auto. destruct (c_kind c) eqn:K; auto. right. eauto.
Qed.
Lemma inc_later h r : later h (inc h r).
Proof.
  destruct (inc_cases h r) as [->|(c & E & _ & ->)]; [apply later_refl | now apply later_upd_rc].
Qed.
Lemma inc_alive h r a : alive (inc h r) a = alive h a.
Proof. destruct (inc_cases h r) as [->|(c & E & _ & ->)]; auto. now apply alive_upd_rc. Qed.
Lemma inc_total om q h ws R r : total om q (inc h r) ws R = total om q h ws R.
Proof. destruct (inc_cases h r) as [->|(c & E & _ & ->)]; auto. now apply total_upd_rc. Qed.

(** All objects have their references, but [r] may have none. *)
Definition full_but (r : nat) (h : heap) (ws : list work) (R : list nat) : Prop :=
  forall q c, q <> r -> nth_error h q = Some c -> c_kind c = KObject ->
    c_alive c = true -> 0 < total (whole h) q h ws R.

Lemma inc_inv h R f a : inv h [] R false -> alive h (whole h a) = true ->
  (f = true -> full_but (whole h a) h [] R) -> inv (inc h (whole h a)) [] (a :: R) f.
Proof.
  intros I L F. set (r := whole h a). set (h' := inc h r).
  assert (LT : later h h') by apply inc_later. pose proof (proj1 LT) as S.
  assert (AL : forall b, alive h' b = alive h b) by (intros; apply inc_alive).
  assert (TO : forall q, total (whole h') q h' [] (a :: R) = (if r =? q then 1 else 0) + total (whole h) q h [] R).
  { intros q. rewrite total_inc. rewrite <- (whole_same h h' a S). fold r. f_equal.
    unfold h'. rewrite inc_total. apply total_ext. intros x. symmetry. now apply whole_same. }
  destruct (get_alive h r L) as (c0 & E0 & A0 & _).
  assert (CELL : forall q d, nth_error h' q = Some d ->
            (q <> r -> nth_error h q = Some d) /\
            (q = r -> d = match c_kind c0 with KObject => set_rc c0 (c_rc c0 + 1) | _ => c0 end)).
  { intros q d Eq. unfold h', inc in Eq. rewrite E0 in Eq. split; intros N.
    - destruct (c_kind c0); auto. now rewrite nth_upd_neq in Eq by auto.
    - subst q. destruct (c_kind c0); try congruence.
      rewrite nth_upd_eq in Eq by (apply nth_error_Some; congruence). congruence. }
  split.
  - exact (wf_same _ _ S (i_wf _ _ _ _ I)).
  - intros b d Eb Pb. destruct (same_nth _ _ _ _ (same_sym _ _ S) Eb) as (d0 & Ed & K0 & O0 & _).
    rewrite AL. pose proof (i_part _ _ _ _ I b d0 Ed) as Q. rewrite K0, O0 in Q. specialize (Q Pb).
    assert (LA : c_alive d = c_alive d0). { specialize (AL b). unfold alive in AL. now rewrite Eb, Ed in AL. }
    now rewrite LA, Q.
  - intros b [].
  - constructor.
  - intros q d Eq Kd Ad. rewrite TO. destruct (CELL q d Eq) as [C1 C2].
    destruct (Nat.eqb_spec r q) as [N|N].
    + rewrite (C2 (eq_sym N)) in *. rewrite <- N. destruct (c_kind c0) eqn:K0; try congruence. cbn [c_rc set_rc].
      rewrite (i_rc _ _ _ _ I r c0 E0 K0 A0). lia.
    + rewrite (i_rc _ _ _ _ I q d (C1 ltac:(congruence)) Kd Ad). reflexivity.
  - intros q d Eq Kd Ad. destruct (CELL q d Eq) as [C1 C2]. destruct (Nat.eq_dec q r) as [N|N].
    + rewrite (C2 N) in *. destruct (c_kind c0) eqn:K0; try (cbn in Kd; congruence).
      exact (i_agg _ _ _ _ I r c0 E0 K0 A0).
    + exact (i_agg _ _ _ _ I q d (C1 N) Kd Ad).
  - intros q Hq. rewrite AL. rewrite TO in Hq. destruct (Nat.eqb_spec r q) as [N|N]; [now rewrite <- N|].
    apply (i_live _ _ _ _ I). exact Hq.
  - intros Hf q d Eq Kd Ad. rewrite TO. destruct (CELL q d Eq) as [C1 C2].
    destruct (Nat.eqb_spec r q) as [Rq|N]; [lia|].
    apply (F Hf q d); auto.
Qed.

Lemma inv_weak h ws R f : inv h ws R f -> inv h ws R false.
Proof. intros [A B C D E F G H]. split; auto. discriminate. Qed.
Lemma inc_inv' h R f a : inv h [] R f -> alive h (whole h a) = true ->
  inv (inc h (whole h a)) [] (a :: R) f.
Proof.
  intros I L. apply inc_inv; auto; [exact (inv_weak _ _ _ _ I)|].
  intros -> q c _ E K A. exact (i_full _ _ _ _ I eq_refl q c E K A).
Qed.

(** *** Interfaces *)

Lemma find_impl_facts h t : wf h -> forall n a b, find_impl n h a t = Some b ->
  nth_error h a <> None ->
  whole h b = whole h a /\ identity h b = identity h a /\ (t = 0 -> b = a) /\
  exists c, nth_error h b = Some c /\ (t = 0 \/ In (Own t) (c_map c)).
Proof.
  intros W. induction n as [|n IH]; intros a b; cbn [find_impl]; [discriminate|].
  intros H Na. destruct (nth_error h a) as [c|] eqn:E; [|congruence].
  destruct (Nat.eqb_spec t 0) as [->|Nt].
  - injection H as <-. repeat split; auto. exists c. auto.
  - destruct (find_entry t (c_map c)) as [e|] eqn:Fe; [|discriminate].
    unfold find_entry in Fe. apply find_some in Fe. destruct Fe as [In1 Et]. apply Nat.eqb_eq in Et.
    destruct e as [u|u x]; cbn [entry_ty] in Et; subst u.
    + injection H as <-. split; [auto|]. split; [auto|]. split; [lia|]. exists c. auto.
    + destruct (wf_via h W a c t x E In1) as (d & Ed & Nd & Od).
      destruct (IH x b H) as (H1 & H2 & H3 & H4); [congruence|].
      rewrite (whole_part h x d W Ed (navi_part _ Nd)), Od in H1.
      rewrite (identity_navi h x d W Ed Nd), Od in H2. split; [auto|]. split; [auto|]. split; [lia|]. exact H4.
Qed.

Lemma find_impl_same h h' t : same h h' -> forall n a, find_impl n h a t = find_impl n h' a t.
Proof.
  intros S. induction n as [|n IH]; intros a; cbn [find_impl]; auto.
  destruct (t =? 0); auto. specialize (S a) as Sa.
  destruct (nth_error h a) as [c|], (nth_error h' a) as [c'|]; try discriminate; auto.
  cbn in Sa. unfold shape in Sa. injection Sa. intros. assert (M : c_map c = c_map c') by congruence. rewrite M.
  destruct (find_entry t (c_map c')) as [[u|u x]|]; auto.
Qed.
Lemma interface_same h h' a t : same h h' -> interface h a t = interface h' a t.
Proof. intros S. unfold interface. rewrite (same_length h h' S). now apply find_impl_same. Qed.
Lemma taken_same h h' t p : same h h' -> taken h t p = taken h' t p.
Proof.
  intros S. unfold taken. rewrite (identity_same h h' (p_addr p) S). now rewrite (interface_same h h' _ t S).
Qed.

Lemma internal_query_ok h R f t : inv h [] R f -> forall n a, alive h (whole h a) = true ->
  length h - a < n ->
  internal_query n h a t =
    Done (option_map (fun b => (mk_ptr b t, inc h (whole h a))) (find_impl n h a t)).
Proof.
  intros I. pose proof (i_wf _ _ _ _ I) as W. induction n as [|n IH]; intros a L Hn; [lia|].
  cbn [internal_query find_impl].
  destruct (get_alive h a (group_alive _ _ _ _ _ I L)) as (c & E & A & ->). cbn [obind]. rewrite E.
  destruct (Nat.eqb_spec t 0) as [->|Nt].
  - rewrite (add_ref_ok _ _ _ _ _ I L). reflexivity.
  - destruct (find_entry t (c_map c)) as [e|] eqn:Fe; [|reflexivity].
    unfold find_entry in Fe. apply find_some in Fe. destruct Fe as [In1 Et]. apply Nat.eqb_eq in Et.
    destruct e as [u|u x]; cbn [entry_ty] in Et; subst u.
    + rewrite (add_ref_ok _ _ _ _ _ I L). reflexivity.
    + destruct (wf_via h W a c t x E In1) as (d & Ed & Nd & Od).
      pose proof (wf_owner h W x d Ed (navi_part _ Nd)) as Lx.
      assert (Wx : whole h x = whole h a) by (rewrite (whole_part h x d W Ed (navi_part _ Nd)), Od; reflexivity).
      assert (x < length h) by (apply nth_error_Some; congruence).
      rewrite IH; [now rewrite Wx | now rewrite Wx | lia].
Qed.

Lemma query_from_ok h R f t : inv h [] R f -> forall n a, alive h (whole h a) = true -> a < n ->
  query_from n h a t = internal_query (S (length h)) h (identity h a) t.
Proof.
  intros I. pose proof (i_wf _ _ _ _ I) as W. induction n as [|n IH]; intros a L Hn; [lia|].
  cbn [query_from]. destruct (get_alive h a (group_alive _ _ _ _ _ I L)) as (c & E & A & ->). cbn [obind].
  destruct (is_navi (c_kind c)) eqn:P.
  - pose proof (wf_owner h W a c E (navi_part _ P)) as O.
    pose proof (whole_part h a c W E (navi_part _ P)) as Q.
    assert (X : query_from n h (c_owner c) t = internal_query (S (length h)) h (identity h a) t).
    { rewrite IH; [|now rewrite <- Q|lia]. now rewrite (identity_navi h a c W E P). }
    destruct (c_kind c); try discriminate; exact X.
  - rewrite (identity_not_navi h a c E P). destruct (c_kind c); try discriminate; reflexivity.
Qed.
Lemma query_ok h R f t a : inv h [] R f -> alive h (whole h a) = true ->
  query h a t = Done (option_map (fun b => (mk_ptr b t, inc h (whole h a))) (interface h (identity h a) t)).
Proof.
  intros I L. unfold query. rewrite (query_from_ok _ _ _ _ I) by (auto; lia).
  pose proof (whole_identity h a (i_wf _ _ _ _ I)) as Q.
  assert (H : length h - identity h a < S (length h)) by lia.
  assert (L' : alive h (whole h (identity h a)) = true) by now rewrite Q.
  pose proof (internal_query_ok h R f t I (S (length h)) (identity h a) L' H) as X. rewrite X, Q. reflexivity.
Qed.

(** Releasing a reference that is not the last one. *)
Lemma add_release h R f a a' : inv h [] R f -> 0 < total (whole h) (whole h a) h [] R ->
  whole h a' = whole h a -> release (inc h (whole h a')) a = Done h.
Proof.
  intros I T E. pose proof (i_live _ _ _ _ I _ T) as L. rewrite E.
  destruct (get_alive h _ L) as (c & Ec & A & _).
  pose proof (inc_inv' h R f a I L) as I'. pose proof (proj1 (inc_later h (whole h a))) as S.
  unfold release, work_fuel. cbn [length Nat.add run_work].
  assert (L' : alive (inc h (whole h a)) (whole (inc h (whole h a)) a) = true).
  { rewrite <- (whole_same _ _ a S), inc_alive. exact L. }
  rewrite (counted_ok _ _ _ _ _ I' L') by lia. cbn [obind].
  assert (CO : counter (inc h (whole h a)) a = match c_kind c with KObject => Some (whole h a) | _ => None end).
  { unfold counter. rewrite <- (whole_same _ _ a S). destruct (same_nth _ _ _ _ S Ec) as (c' & -> & -> & _). reflexivity. }
  rewrite CO. unfold inc. rewrite Ec. destruct (c_kind c) eqn:K.
  2-5: destruct (list_sum _); reflexivity.
  assert (Lt : whole h a < length h) by (apply nth_error_Some; congruence).
  unfold get. rewrite nth_upd_eq by auto. cbn [c_alive set_rc]. rewrite A. cbn [obind c_rc set_rc].
  pose proof (i_rc _ _ _ _ I _ c Ec K A) as RC.
  destruct (Z.eqb_spec (c_rc c + 1 - 1) 0) as [Z|Z]; [lia|].
  replace (c_rc c + 1 - 1)%Z with (c_rc c) by lia.
  assert (U : upd (upd h (whole h a) (set_rc c (c_rc c + 1))) (whole h a)
                  (set_rc (set_rc c (c_rc c + 1)) (c_rc c)) = h).
  { apply list_ext. intros i. rewrite nth_upd, upd_length. destruct (Nat.eqb_spec (whole h a) i) as [<-|N]; cbn [andb].
    - destruct (Nat.ltb_spec (whole h a) (length h)); [|lia]. rewrite Ec. now destruct c.
    - now apply nth_upd_neq. }
  rewrite U. destruct (list_sum _); reflexivity.
Qed.

Lemma take_true h R f d p : inv h [] R f -> alive h (whole h (p_addr p)) = true ->
  take d true p h = Done (option_map (fun q => (q, inc h (whole h (p_addr p)))) (taken h d p)).
Proof.
  intros I L. unfold take, taken. destruct (d =? p_ty p).
  - now rewrite (add_ref_ok _ _ _ _ _ I L).
  - rewrite (query_ok _ _ _ _ _ I L). cbn [obind].
    destruct (interface h (identity h (p_addr p)) d); reflexivity.
Qed.
Lemma take_false h R f d p : inv h [] R f -> 0 < total (whole h) (whole h (p_addr p)) h [] R ->
  take d false p h = Done (option_map (fun q => (q, h)) (taken h d p)).
Proof.
  intros I T. unfold take, taken. destruct (d =? p_ty p); [reflexivity|].
  rewrite (query_ok _ _ _ _ _ I (i_live _ _ _ _ I _ T)). cbn [obind].
  destruct (interface h (identity h (p_addr p)) d); [|reflexivity]. cbn [option_map obind].
  now rewrite (add_release _ _ _ _ _ I T eq_refl).
Qed.

Lemma alive_some h a : alive h a = true -> nth_error h a <> None.
Proof. unfold alive. destruct (nth_error h a); congruence. Qed.
Lemma interface_facts h o t b : wf h -> interface h o t = Some b -> nth_error h o <> None ->
  whole h b = whole h o /\ identity h b = identity h o /\ (t = 0 -> b = o) /\
  exists c, nth_error h b = Some c /\ (t = 0 \/ In (Own t) (c_map c)).
Proof. intros W H N. exact (find_impl_facts h t W _ o b H N). Qed.
Lemma taken_facts h t p q c : wf h -> taken h t p = Some q -> nth_error h (p_addr p) = Some c ->
  whole h (p_addr q) = whole h (p_addr p) /\ identity h (p_addr q) = identity h (p_addr p).
Proof.
  intros W H E. unfold taken in H. destruct (t =? p_ty p); [injection H as <-; auto|].
  destruct (interface h (identity h (p_addr p)) t) as [b|] eqn:F; [|discriminate]. injection H as <-.
  destruct (identity_some h (p_addr p) c W E) as (d & Ed & _).
  destruct (interface_facts h _ t b W F) as (H1 & H2 & _); [congruence|]. cbn [p_addr].
  rewrite H1, H2. split; [now apply whole_identity | now apply (identity_identity h _ c)].
Qed.

(** *** Locations *)

Definition put (w : world) (l : loc) (v : option ptr) : world :=
  match l with
  | LVar i =>
      match nth_error (w_vars w) i with
      | Some (t, _) => mk_world (w_heap w) (upd (w_vars w) i (t, v)) (w_raws w)
      | None => w
      end
  | LField a k =>
      match nth_error (w_heap w) a with
      | Some c =>
          match nth_error (c_fields c) k with
          | Some (t, _) => set_heap w (upd (w_heap w) a (set_fields c (upd (c_fields c) k (t, v))))
          | None => w
          end
      | None => w
      end
  end.

Definition there (w : world) (l : loc) : Prop :=
  match l with LVar _ => True | LField a _ => alive (w_heap w) a = true end.

Lemma value_field w a k c : nth_error (w_heap w) a = Some c -> value_at w (LField a k) = nth_error (c_fields c) k.
Proof. intros E. cbn. unfold fields_of. now rewrite E. Qed.
Lemma value_field_inv w a k x : value_at w (LField a k) = Some x ->
  exists c, nth_error (w_heap w) a = Some c /\ nth_error (c_fields c) k = Some x.
Proof.
  cbn. unfold fields_of. destruct (nth_error (w_heap w) a) as [c|]; eauto. destruct k; discriminate.
Qed.

Lemma load_ok w l x : there w l -> value_at w l = Some x -> load w l = Done x.
Proof.
  destruct l as [i|a k]; cbn [there value_at load]; intros L E; [now rewrite E|].
  destruct (get_alive _ _ L) as (c & Ec & _ & ->). cbn [obind].
  unfold fields_of in E. rewrite Ec in E. now rewrite E.
Qed.
Lemma store_ok w l v x : there w l -> value_at w l = Some x -> store w l v = Done (put w l v).
Proof.
  destruct l as [i|a k]; cbn [there value_at store put]; intros L E; [rewrite E; now destruct x|].
  destruct (get_alive _ _ L) as (c & Ec & _ & ->). cbn [obind].
  unfold fields_of in E. rewrite Ec in *. rewrite E. now destruct x.
Qed.

Lemma loc_eqb_spec l l' : reflect (l = l') (loc_eqb l l').
Proof.
  destruct l as [i|a k], l' as [j|b n]; cbn [loc_eqb].
  - destruct (Nat.eqb_spec i j); constructor; congruence.
  - constructor; congruence.
  - constructor; congruence.
  - destruct (Nat.eqb_spec a b), (Nat.eqb_spec k n); cbn [andb]; constructor; congruence.
Qed.

Lemma value_put w l v x l' : value_at w l = Some x ->
  value_at (put w l v) l' = if loc_eqb l l' then Some (fst x, v) else value_at w l'.
Proof.
  intros E. destruct l as [i|a k].
  - cbn [value_at] in E. cbn [put]. rewrite E. destruct x as [t u].
    assert (i < length (w_vars w)) by (apply nth_error_Some; congruence).
    destruct l' as [j|b n]; cbn [value_at w_vars w_heap loc_eqb]; [|reflexivity].
    rewrite nth_upd. destruct (Nat.eqb_spec i j) as [->|]; cbn [andb fst]; auto.
    destruct (Nat.ltb_spec j (length (w_vars w))); auto; lia.
  - destruct (value_field_inv _ _ _ _ E) as (c & Ec & Ek). cbn [put]. rewrite Ec, Ek. destruct x as [t u].
    assert (a < length (w_heap w)) by (apply nth_error_Some; congruence).
    assert (k < length (c_fields c)) by (apply nth_error_Some; congruence).
    destruct l' as [j|b n]; cbn [value_at w_vars w_heap set_heap loc_eqb]; [reflexivity|].
    unfold fields_of. rewrite nth_upd. destruct (Nat.eqb_spec a b) as [<-|]; cbn [andb]; auto.
    destruct (Nat.ltb_spec a (length (w_heap w))); [|lia]. cbn [c_fields set_fields].
    rewrite nth_upd. rewrite Ec. destruct (Nat.eqb_spec k n) as [<-|]; cbn [andb fst]; auto.
    destruct (Nat.ltb_spec k (length (c_fields c))); auto; lia.
Qed.

Lemma put_same w l v : same (w_heap w) (w_heap (put w l v)).
Proof.
  destruct l as [i|a k]; cbn [put].
  - destruct (nth_error (w_vars w) i) as [[t u]|]; apply same_refl.
  - destruct (nth_error (w_heap w) a) as [c|] eqn:E; [|apply same_refl].
    destruct (nth_error (c_fields c) k) as [[t u]|]; [|apply same_refl]. now apply (same_upd _ a c).
Qed.
Lemma put_alive w l v a : alive (w_heap (put w l v)) a = alive (w_heap w) a.
Proof.
  destruct l as [i|b k]; cbn [put].
  - destruct (nth_error (w_vars w) i) as [[t u]|]; reflexivity.
  - destruct (nth_error (w_heap w) b) as [c|] eqn:E; [|reflexivity].
    destruct (nth_error (c_fields c) k) as [[t u]|]; [|reflexivity]. cbn [w_heap set_heap].
    rewrite (alive_upd _ b c _ a E). destruct (Nat.eqb_spec a b) as [->|]; auto. unfold alive. now rewrite E.
Qed.
Lemma put_raws w l v : w_raws (put w l v) = w_raws w.
Proof.
  destruct l as [i|a k]; cbn [put].
  - destruct (nth_error (w_vars w) i) as [[t u]|]; reflexivity.
  - destruct (nth_error (w_heap w) a) as [c|]; [|reflexivity].
    destruct (nth_error (c_fields c) k) as [[t u]|]; reflexivity.
Qed.
Lemma put_vars_len w l v : length (w_vars (put w l v)) = length (w_vars w).
Proof.
  destruct l as [i|a k]; cbn [put].
  - destruct (nth_error (w_vars w) i) as [[t u]|]; cbn; auto. apply upd_length.
  - destruct (nth_error (w_heap w) a) as [c|]; [|reflexivity].
    destruct (nth_error (c_fields c) k) as [[t u]|]; reflexivity.
Qed.
Lemma put_there w l v l' : there (put w l v) l' <-> there w l'.
Proof. destruct l' as [i|a k]; cbn [there]; [tauto|]. now rewrite put_alive. Qed.

Definition outer (w : world) : list nat := addrs (w_vars w) ++ map p_addr (w_raws w).

Lemma cnt_addrs_upd om r (l : list handle) k t u v : nth_error l k = Some ((t, u) : handle) ->
  cnt om r (addrs (upd l k ((t, v) : handle))) + cnt om r (oaddr u) = cnt om r (addrs l) + cnt om r (oaddr v).
Proof.
  revert k. induction l as [|[t' u'] l IH]; intros [|k]; cbn [nth_error upd]; try discriminate.
  - intros [= -> ->]. unfold addrs. cbn [flat_map snd]. rewrite !cnt_app. unfold oaddr. lia.
  - intros E. specialize (IH k E). unfold addrs in *. cbn [flat_map snd]. rewrite !cnt_app. lia.
Qed.

(** Same objects, same counts. *)
Definition core (c : cell) := (shape c, c_alive c, c_rc c).
Lemma inv_ext h h' ws ws' R R' f : inv h ws R f ->
  (forall a, option_map core (nth_error h a) = option_map core (nth_error h' a)) ->
  drops ws' = drops ws ->
  (forall q, total (whole h) q h ws R = total (whole h) q h' ws' R') ->
  inv h' ws' R' f.
Proof.
  intros I C D T.
  assert (S : same h h').
  { intros a. specialize (C a). destruct (nth_error h a), (nth_error h' a); try discriminate; auto.
    cbn in C |- *. unfold core in C. congruence. }
  assert (T' : forall q, total (whole h') q h' ws' R' = total (whole h) q h ws R).
  { intros q. rewrite T. apply total_ext. intros x. symmetry. now apply whole_same. }
  assert (CC : forall a d, nth_error h' a = Some d -> exists e, nth_error h a = Some e /\
     shape e = shape d /\ c_alive e = c_alive d /\ c_rc e = c_rc d).
  { intros a d E. specialize (C a). rewrite E in C. destruct (nth_error h a) as [e|]; [|discriminate].
    exists e. cbn in C. unfold core in C. injection C. intros. unfold shape. repeat split; congruence. }
  assert (AL : forall a, alive h' a = alive h a).
  { intros a. specialize (C a). unfold alive. destruct (nth_error h a), (nth_error h' a); try discriminate; auto.
    cbn in C. unfold core in C. congruence. }
  assert (ID : forall b, In (Drop b) ws' <-> In (Drop b) ws).
  { intros b. now rewrite <- !in_drops, D. }
  assert (SH : forall e d, shape e = shape d -> c_kind e = c_kind d /\ c_owner e = c_owner d).
  { intros e d Q. unfold shape in Q. injection Q. auto. }
  split.
  - exact (wf_same _ _ S (i_wf _ _ _ _ I)).
  - intros b d E P. destruct (CC b d E) as (e & Ee & Se & Ae & _). destruct (SH _ _ Se) as [Ke Oe].
    rewrite <- Ae, <- Oe, AL, ID. apply (i_part _ _ _ _ I b e Ee). now rewrite Ke.
  - intros b Hb. apply ID in Hb. destruct (i_drop _ _ _ _ I b Hb) as (d & E & P & A).
    destruct (same_nth _ _ _ _ S E) as (d' & E' & K' & O' & _). exists d'. rewrite AL, K', O'. auto.
  - rewrite D. exact (i_nodup _ _ _ _ I).
  - intros q d E K A. destruct (CC q d E) as (e & Ee & Se & Ae & Re). destruct (SH _ _ Se) as [Ke Oe].
    rewrite <- Re, T'. apply (i_rc _ _ _ _ I q e Ee); congruence.
  - intros q d E K A. destruct (CC q d E) as (e & Ee & Se & Ae & Re). destruct (SH _ _ Se) as [Ke Oe].
    rewrite <- Re. apply (i_agg _ _ _ _ I q e Ee); congruence.
  - intros q Hq. rewrite T' in Hq. rewrite AL. exact (i_live _ _ _ _ I q Hq).
  - intros F q d E K A. destruct (CC q d E) as (e & Ee & Se & Ae & Re). destruct (SH _ _ Se) as [Ke Oe].
    rewrite T'. apply (i_full _ _ _ _ I F q e Ee); congruence.
Qed.

Lemma put_core w l v : forall a, option_map core (nth_error (w_heap w) a) = option_map core (nth_error (w_heap (put w l v)) a).
Proof.
  intros a. destruct l as [i|b k]; cbn [put].
  - destruct (nth_error (w_vars w) i) as [[t u]|]; reflexivity.
  - destruct (nth_error (w_heap w) b) as [c|] eqn:E; [|reflexivity].
    destruct (nth_error (c_fields c) k) as [[t u]|]; [|reflexivity]. cbn [w_heap set_heap].
    rewrite nth_upd. destruct (Nat.eqb_spec b a) as [->|]; cbn [andb]; auto.
    destruct (a <? length (w_heap w)); auto. rewrite E. reflexivity.
Qed.

Lemma total_put om q w l v t u ws X : there w l -> value_at w l = Some (t, u) ->
  total om q (w_heap (put w l v)) ws (X ++ outer (put w l v)) + cnt om q (oaddr u) =
  total om q (w_heap w) ws (X ++ outer w) + cnt om q (oaddr v).
Proof.
  intros L E. unfold total, outer. rewrite !cnt_app, put_raws. destruct l as [i|a k].
  - cbn [value_at] in E. cbn [put]. rewrite E. cbn [w_heap w_vars].
    pose proof (cnt_addrs_upd om q (w_vars w) i t u v E). lia.
  - destruct (value_field_inv _ _ _ _ E) as (c & Ec & Ek). cbn [put there] in *. rewrite Ec, Ek.
    cbn [w_heap w_vars set_heap].
    pose proof (fsum_upd (ccnt om q) (w_heap w) a c (set_fields c (upd (c_fields c) k (t, v))) Ec) as Q.
    unfold alive in L. rewrite Ec in L.
    unfold ccnt at 2 4 in Q. cbn [c_alive c_fields set_fields] in Q. rewrite L in Q.
    pose proof (cnt_addrs_upd om q (c_fields c) k t u v Ek). lia.
Qed.

Lemma put_inv w l v t u ws X X' f : there w l -> value_at w l = Some (t, u) ->
  inv (w_heap w) ws (X ++ outer w) f ->
  (forall q, cnt (whole (w_heap w)) q X' + cnt (whole (w_heap w)) q (oaddr v) =
             cnt (whole (w_heap w)) q X + cnt (whole (w_heap w)) q (oaddr u)) ->
  inv (w_heap (put w l v)) ws (X' ++ outer (put w l v)) f.
Proof.
  intros L E I C. apply (inv_ext _ _ _ _ _ _ f I (put_core w l v)); auto.
  intros q. pose proof (total_put (whole (w_heap w)) q w l v t u ws X' L E) as Q. specialize (C q).
  unfold total in *. rewrite !cnt_app in *. lia.
Qed.

Lemma inv_rel h p R f : inv h [] (p :: R) f -> inv h [Rel p] R f.
Proof.
  intros I. apply (inv_ext _ _ _ _ _ _ f I); auto. intros q. now rewrite total_inc, total_rel.
Qed.

(** *** What a release does not touch *)

Definition refield (a : nat) (fl : list handle) (h : heap) : heap :=
  match nth_error h a with Some c => upd h a (set_fields c fl) | None => h end.

Lemma refield_nth a fl h b : nth_error (refield a fl h) b =
  if a =? b then option_map (fun c => set_fields c fl) (nth_error h b) else nth_error h b.
Proof.
  unfold refield. destruct (nth_error h a) as [c|] eqn:E.
  - rewrite nth_upd. destruct (Nat.eqb_spec a b) as [<-|]; cbn [andb]; auto.
    destruct (Nat.ltb_spec a (length h)) as [|L]; [now rewrite E|].
    apply nth_error_None in L. congruence.
  - destruct (Nat.eqb_spec a b) as [<-|]; auto. now rewrite E.
Qed.
Lemma refield_alive a fl h b : alive (refield a fl h) b = alive h b.
Proof.
  unfold alive. rewrite refield_nth. destruct (a =? b); auto. destruct (nth_error h b); reflexivity.
Qed.
Lemma counted_refield a fl h : forall n x, counted n (refield a fl h) x = counted n h x.
Proof.
  induction n as [|n IH]; intros x; cbn [counted]; auto. unfold get. rewrite refield_nth.
  destruct (a =? x); destruct (nth_error h x) as [c|]; cbn [option_map obind]; auto.
  - change (c_alive (set_fields c fl)) with (c_alive c). destruct (c_alive c); cbn [obind]; auto.
    cbn [c_kind c_owner set_fields]. destruct (c_kind c); auto.
  - destruct (c_alive c); cbn [obind]; auto. destruct (c_kind c); auto.
Qed.
Lemma refield_upd a fl h r c g : nth_error h r = Some c ->
  (forall d, set_fields (g d) fl = g (set_fields d fl)) ->
  refield a fl (upd h r (g c)) = upd (refield a fl h) r (g (if a =? r then set_fields c fl else c)).
Proof.
  intros E G. assert (L : r < length h) by (apply nth_error_Some; congruence).
  assert (LR : length (refield a fl h) = length h).
  { unfold refield. destruct (nth_error h a); auto. apply upd_length. }
  apply list_ext. intros i. rewrite refield_nth, !nth_upd, LR.
  destruct (Nat.eqb_spec r i) as [<-|N]; cbn [andb].
  - destruct (Nat.ltb_spec r (length h)); [|lia]. destruct (a =? r); auto. cbn. now rewrite G.
  - now rewrite refield_nth.
Qed.

Lemma run_work_mono fuel : forall ws h h' a, run_work fuel ws h = Done h' -> alive h' a = true -> alive h a = true.
Proof.
  induction fuel as [|fuel IH]; intros [|x ws] h h' a; cbn [run_work]; try discriminate; try congruence.
  destruct x as [b|b].
  - destruct (counted (S b) h b) as [r| | |]; try discriminate. cbn [obind]. destruct r as [r|]; [|apply IH].
    unfold get. destruct (nth_error h r) as [c|] eqn:E; [|discriminate].
    destruct (c_alive c) eqn:A; [|discriminate]. cbn [obind].
    destruct (c_rc (set_rc c (c_rc c - 1)) =? 0)%Z; intros H L; specialize (IH _ _ _ _ H L).
    + rewrite (alive_upd h r c _ a E) in IH. destruct (Nat.eqb_spec a r); auto. discriminate.
    + now rewrite (alive_upd_rc h r c _ a E) in IH.
  - unfold get. destruct (nth_error h b) as [c|] eqn:E; [|discriminate].
    destruct (c_alive c) eqn:A; [|discriminate]. cbn [obind].
    assert (D : forall c', c_alive c' = false -> alive (upd h b c') a = true -> alive h a = true).
    { intros c' Hc Hl. rewrite (alive_upd h b c _ a E) in Hl. destruct (Nat.eqb_spec a b); auto. congruence. }
    destruct (c_kind c); try discriminate.
    + destruct (c_rc (set_rc c (c_rc c - 1)) =? 0)%Z; intros H L; specialize (IH _ _ _ _ H L).
      * exact (D (set_dead (set_rc c (c_rc c - 1))) eq_refl IH).
      * now rewrite (alive_upd_rc h b c _ a E) in IH.
    + intros H L. exact (D (set_dead c) eq_refl (IH _ _ _ _ H L)).
    + intros H L. exact (D (set_dead c) eq_refl (IH _ _ _ _ H L)).
Qed.

Lemma run_work_refield a fl fuel : forall ws h h', run_work fuel ws h = Done h' -> alive h' a = true ->
  run_work fuel ws (refield a fl h) = Done (refield a fl h').
Proof.
  induction fuel as [|fuel IH]; intros [|x ws] h h'; cbn [run_work]; try discriminate; try congruence.
  assert (GET : forall r, get (refield a fl h) r =
     obind (get h r) (fun c => Done (if a =? r then set_fields c fl else c))).
  { intros r. unfold get. rewrite refield_nth. destruct (Nat.eqb_spec a r); destruct (nth_error h r) as [c|]; cbn; auto;
      destruct (c_alive c); auto. }
  assert (RC : forall r c n, nth_error h r = Some c ->
     upd (refield a fl h) r (set_rc (if a =? r then set_fields c fl else c) n) = refield a fl (upd h r (set_rc c n))).
  { intros r c n E. symmetry. exact (refield_upd a fl h r c (fun d => set_rc d n) E (fun d => eq_refl)). }
  assert (KI : forall r c n ws', nth_error h r = Some c ->
     run_work fuel (members c ++ ws') (upd h r (set_dead (set_rc c n))) = Done h' -> alive h' a = true ->
     run_work fuel (members (if a =? r then set_fields c fl else c) ++ ws')
        (upd (refield a fl h) r (set_dead (set_rc (if a =? r then set_fields c fl else c) n))) = Done (refield a fl h')).
  { intros r c n ws' E H L. pose proof (run_work_mono _ _ _ _ _ H L) as M.
    rewrite (alive_upd h r c _ a E) in M. destruct (Nat.eqb_spec a r) as [->|N]; [discriminate|].
    specialize (IH _ _ _ H L). rewrite <- IH. f_equal. symmetry.
    pose proof (refield_upd a fl h r c (fun d => set_dead (set_rc d n)) E (fun d => eq_refl)) as Q. cbn beta in Q.
    destruct (Nat.eqb_spec a r); [congruence|]. exact Q. }
  destruct x as [b|b].
  - rewrite counted_refield. destruct (counted (S b) h b) as [r| | |]; try discriminate. cbn [obind].
    destruct r as [r|]; [|apply IH]. rewrite GET. unfold get.
    destruct (nth_error h r) as [c|] eqn:E; [|discriminate].
    destruct (c_alive c) eqn:A; [|discriminate]. cbn [obind c_rc set_rc].
    assert (RR : c_rc (if a =? r then set_fields c fl else c) = c_rc c) by now destruct (a =? r).
    rewrite RR. destruct (c_rc c - 1 =? 0)%Z; intros H L.
    + rewrite members_set_rc in H |- *. exact (KI r c _ ws E H L).
    + rewrite RC by auto. exact (IH _ _ _ H L).
  - rewrite GET. unfold get. destruct (nth_error h b) as [c|] eqn:E; [|discriminate].
    destruct (c_alive c) eqn:A; [|discriminate]. cbn [obind c_rc set_rc].
    assert (RR : c_rc (if a =? b then set_fields c fl else c) = c_rc c) by now destruct (a =? b).
    assert (RK : c_kind (if a =? b then set_fields c fl else c) = c_kind c) by now destruct (a =? b).
    rewrite RK, RR.
    assert (SELF : forall d, set_dead d = set_dead (set_rc d (c_rc d))) by now intros [].
    destruct (c_kind c); try discriminate.
    + destruct (c_rc c - 1 =? 0)%Z; intros H L.
      * rewrite members_set_rc in H |- *. exact (KI b c _ ws E H L).
      * rewrite RC by auto. exact (IH _ _ _ H L).
    + intros H L. rewrite (SELF c) in H. rewrite (SELF (if a =? b then set_fields c fl else c)), RR. exact (KI b c _ ws E H L).
    + intros H L. rewrite (SELF c) in H. rewrite (SELF (if a =? b then set_fields c fl else c)), RR. exact (KI b c _ ws E H L).
Qed.

(** *** Objects that are reached from outside *)

Inductive reach (h : heap) (R : list nat) : nat -> Prop :=
| reach_root a : In a R -> reach h R a
| reach_field a c a' : reach h R a -> nth_error h a = Some c -> In a' (addrs (c_fields c)) -> reach h R a'.

Lemma reach_alive h R f a : inv h [] R f -> reach h R a -> alive h a = true.
Proof.
  intros I. induction 1 as [a Ha|a c a' Ha IH E Ha'].
  - apply (group_alive _ _ _ _ _ I). apply (i_live _ _ _ _ I). unfold total.
    pose proof (cnt_pos (whole h) (whole h a) R a Ha eq_refl). lia.
  - apply (group_alive _ _ _ _ _ I). apply (i_live _ _ _ _ I). unfold total.
    pose proof (cnt_pos (whole h) (whole h a') _ a' Ha' eq_refl) as Q.
    pose proof (fsum_in (ccnt (whole h) (whole h a')) h a c E) as Q2. unfold ccnt at 1 in Q2.
    unfold alive in IH. rewrite E in IH. rewrite IH in Q2. lia.
Qed.
Lemma reach_total h R f a : inv h [] R f -> reach h R a -> 0 < total (whole h) (whole h a) h [] R.
Proof.
  intros I H. destruct H as [a Ha|a c a' Ha E Ha'].
  - unfold total. pose proof (cnt_pos (whole h) (whole h a) R a Ha eq_refl). lia.
  - pose proof (reach_alive _ _ _ _ I Ha) as A. unfold total.
    pose proof (cnt_pos (whole h) (whole h a') _ a' Ha' eq_refl) as Q.
    pose proof (fsum_in (ccnt (whole h) (whole h a')) h a c E) as Q2. unfold ccnt at 1 in Q2.
    unfold alive in A. rewrite E in A. rewrite A in Q2. lia.
Qed.
Lemma reach_later h h' R a : later h h' -> reach h R a -> reach h' R a.
Proof.
  intros (_ & F & _). induction 1 as [a Ha|a c a' Ha IH E Ha'].
  - now apply reach_root.
  - destruct (F a c E) as (c' & E' & Fc). apply (reach_field _ _ a c'); auto. now rewrite Fc.
Qed.
Lemma later_value w h' l : later (w_heap w) h' -> value_at (set_heap w h') l = value_at w l.
Proof.
  intros (S & F & _). destruct l as [i|a k]; cbn [value_at set_heap w_vars w_heap]; auto.
  unfold fields_of. destruct (nth_error (w_heap w) a) as [c|] eqn:E.
  - destruct (F a c E) as (c' & -> & ->). reflexivity.
  - specialize (S a). rewrite E in S. destruct (nth_error h' a); [discriminate|]. reflexivity.
Qed.

Lemma in_addrs l k t p : nth_error l k = Some (t, Some p) -> In (p_addr p) (addrs l).
Proof.
  intros E. unfold addrs. apply in_flat_map. exists (t, Some p). split; [eapply nth_error_In; eauto|]. now left.
Qed.

(** The object with the smart pointer [l] is reached from outside. *)
Definition rooted (w : world) (X : list nat) (l : loc) : Prop :=
  match l with LVar _ => True | LField a _ => reach (w_heap w) (X ++ outer w) a end.

Lemma rooted_next w X l t p k : rooted w X l -> value_at w l = Some (t, Some p) -> rooted w X (LField (p_addr p) k).
Proof.
  destruct l as [i|a n]; cbn [rooted value_at]; intros H E.
  - apply reach_root. apply in_or_app. right. unfold outer. apply in_or_app. left. eapply in_addrs; eauto.
  - unfold fields_of in E. destruct (nth_error (w_heap w) a) as [c|] eqn:Ec; [|destruct n; discriminate].
    apply (reach_field _ _ a c); auto. eapply in_addrs; eauto.
Qed.
Lemma rooted_there w X f l : inv (w_heap w) [] (X ++ outer w) f -> rooted w X l -> there w l.
Proof. intros I. destruct l as [i|a k]; cbn [rooted there]; auto. now apply reach_alive with (f := f). Qed.

Lemma walk_ok w X f : inv (w_heap w) [] (X ++ outer w) f -> forall ks l x, rooted w X l -> value_at w l = Some x ->
  match walk w l ks with
  | Done l' => rooted w X l' /\ exists y, value_at w l' = Some y
  | AssertFail => True
  | _ => False
  end.
Proof.
  intros I. induction ks as [|k ks IH]; intros l x H E; cbn [walk]; eauto.
  pose proof (rooted_there w X f l I H) as T. rewrite (load_ok w l x T E). cbn [obind]. destruct x as [t v].
  destruct v as [p|]; auto. pose proof (rooted_next w X l t p k H E) as N.
  pose proof (rooted_there w X f _ I N) as TN. cbn [there] in TN.
  destruct (get_alive _ _ TN) as (c & Ec & _ & ->). cbn [obind].
  destruct (Nat.ltb_spec k (length (c_fields c))) as [Lk|]; auto.
  destruct (nth_error (c_fields c) k) as [y|] eqn:Ek; [|apply nth_error_None in Ek; lia].
  apply (IH _ y N). now rewrite (value_field w _ k c Ec).
Qed.

(** The location [x] set to null: what is still reached. *)
Lemma walk_avoid w X f x y : inv (w_heap w) [] (X ++ outer w) f -> value_at w x = Some y ->
  forall ks l l' z, walk w l ks = Done l' -> value_at w l = Some z -> rooted w X l ->
  rooted (put w x None) X l -> ~ passes w x l ks ->
  rooted (put w x None) X l' /\ l' <> x.
Proof.
  intros I Ex. induction ks as [|k ks IH]; intros l l' z; cbn [walk].
  - intros [= <-] _ _ H N. split; auto. intros ->. apply N. constructor.
  - intros Wk E Hw H N. pose proof (rooted_there w X f l I Hw) as T. rewrite (load_ok w l z T E) in Wk. cbn [obind] in Wk.
    destruct z as [t [p|]]; [|discriminate].
    assert (Nl : l <> x) by (intros ->; apply N; constructor).
    assert (E' : value_at (put w x None) l = Some (t, Some p)).
    { rewrite (value_put w x None y l Ex). destruct (loc_eqb_spec x l) as [El|]; [exfalso; apply Nl; now symmetry|exact E]. }
    pose proof (rooted_next w X l t p k Hw E) as Hn.
    pose proof (rooted_there w X f _ I Hn) as TN. cbn [there] in TN.
    destruct (get_alive _ _ TN) as (c & Ec & _ & Gc). rewrite Gc in Wk. cbn [obind] in Wk.
    destruct (Nat.ltb_spec k (length (c_fields c))) as [Lk|]; [|discriminate].
    destruct (nth_error (c_fields c) k) as [y'|] eqn:Ek; [|apply nth_error_None in Ek; lia].
    apply (IH _ l' y' Wk); auto.
    + now rewrite (value_field w _ k c Ec).
    + exact (rooted_next _ X l t p k H E').
    + intros P. apply N. apply (passes_next w x l t p k ks); [exact (load_ok w l _ T E)|exact P].
Qed.

Lemma walk_target w X f x y : inv (w_heap w) [] (X ++ outer w) f -> value_at w x = Some y ->
  forall ks l z, walk w l ks = Done x -> value_at w l = Some z -> rooted w X l ->
  rooted (put w x None) X l -> rooted (put w x None) X x.
Proof.
  intros I Ex. induction ks as [|k ks IH]; intros l z; cbn [walk].
  - now intros [= <-].
  - intros Wk E Hw H. pose proof (rooted_there w X f l I Hw) as T. rewrite (load_ok w l z T E) in Wk. cbn [obind] in Wk.
    destruct z as [t [p|]]; [|discriminate].
    destruct (loc_eqb_spec l x) as [->|Nl]; auto.
    assert (E' : value_at (put w x None) l = Some (t, Some p)).
    { rewrite (value_put w x None y l Ex). destruct (loc_eqb_spec x l) as [El|]; [exfalso; apply Nl; now symmetry|exact E]. }
    pose proof (rooted_next w X l t p k Hw E) as Hn.
    pose proof (rooted_there w X f _ I Hn) as TN. cbn [there] in TN.
    destruct (get_alive _ _ TN) as (c & Ec & _ & Gc). rewrite Gc in Wk. cbn [obind] in Wk.
    destruct (Nat.ltb_spec k (length (c_fields c))) as [Lk|]; [|discriminate].
    destruct (nth_error (c_fields c) k) as [y'|] eqn:Ek; [|apply nth_error_None in Ek; lia].
    apply (IH _ y' Wk); auto.
    + now rewrite (value_field w _ k c Ec).
    + exact (rooted_next _ X l t p k H E').
Qed.

Lemma resolve_ok w f s : inv (w_heap w) [] (outer w) f ->
  match resolve w s with
  | Done l => rooted w [] l /\ there w l /\ (exists y, value_at w l = Some y) /\ rooted (put w l None) [] l
  | AssertFail => True
  | _ => False
  end.
Proof.
  intros I. destruct s as [i ks]. cbn [resolve]. destruct (Nat.ltb_spec i (length (w_vars w))) as [L|]; auto.
  destruct (nth_error (w_vars w) i) as [x|] eqn:E; [|apply nth_error_None in E; lia].
  pose proof (walk_ok w [] f I ks (LVar i) x Logic.I E) as Q.
  destruct (walk w (LVar i) ks) as [l| | |] eqn:Wk; auto. destruct Q as [H (y & Hy)].
  pose proof (walk_target w [] f l y I Hy ks (LVar i) x Wk E Logic.I Logic.I) as H'.
  repeat split; eauto. exact (rooted_there w [] f l I H).
Qed.
Lemma resolve_apart w f d s ld ls y : inv (w_heap w) [] (outer w) f -> apart w d s ->
  resolve w d = Done ld -> resolve w s = Done ls -> value_at w ld = Some y ->
  rooted (put w ld None) [] ls /\ ls <> ld.
Proof.
  intros I A Ed Es Ey. destruct s as [i ks]. cbn [resolve apart] in *.
  destruct (Nat.ltb_spec i (length (w_vars w))) as [L|]; [|discriminate].
  destruct (nth_error (w_vars w) i) as [x|] eqn:E; [|apply nth_error_None in E; lia].
  exact (walk_avoid w [] f ld y I Ey ks (LVar i) ls x Es E Logic.I Logic.I (A ld Ed)).
Qed.

(** *** Reset *)

Lemma put_self w l t u : value_at w l = Some (t, u) -> put w l u = w.
Proof.
  intros E. destruct l as [i|a k].
  - cbn [value_at] in E. cbn [put]. rewrite E. destruct w as [h vs rs]. cbn [w_vars w_heap w_raws] in *. f_equal.
    apply list_ext. intros j. rewrite nth_upd. destruct (Nat.eqb_spec i j) as [<-|]; cbn [andb]; auto.
    destruct (i <? length vs); auto.
  - destruct (value_field_inv _ _ _ _ E) as (c & Ec & Ek). cbn [put]. rewrite Ec, Ek.
    assert (Q : upd (c_fields c) k (t, u) = c_fields c).
    { apply list_ext. intros j. rewrite nth_upd. destruct (Nat.eqb_spec k j) as [<-|]; cbn [andb]; auto.
      destruct (k <? length (c_fields c)); auto. }
    rewrite Q. destruct w as [h vs rs]. cbn [w_vars w_heap w_raws set_heap] in *. unfold set_heap. cbn. f_equal.
    apply list_ext. intros j. rewrite nth_upd. destruct (Nat.eqb_spec a j) as [<-|]; cbn [andb]; auto.
    destruct (a <? length h); auto. rewrite Ec. now destruct c.
Qed.
Lemma upd_upd {A} (l : list A) i x y : upd (upd l i x) i y = upd l i y.
Proof. revert i. induction l as [|z l IH]; intros [|i]; cbn; auto. now rewrite IH. Qed.
Lemma put_put w l u v x : value_at w l = Some x -> put (put w l u) l v = put w l v.
Proof.
  intros E. destruct l as [i|a k], x as [t y].
  - cbn [value_at] in E. cbn [put]. rewrite E. cbn [w_vars w_heap w_raws].
    assert (i < length (w_vars w)) by (apply nth_error_Some; congruence).
    rewrite nth_upd_eq by auto. now rewrite upd_upd.
  - destruct (value_field_inv _ _ _ _ E) as (c & Ec & Ek). cbn [put]. rewrite Ec, Ek. cbn [w_heap set_heap].
    assert (a < length (w_heap w)) by (apply nth_error_Some; congruence).
    assert (k < length (c_fields c)) by (apply nth_error_Some; congruence).
    rewrite nth_upd_eq by auto. cbn [c_fields set_fields]. rewrite nth_upd_eq by auto.
    unfold set_heap. cbn [w_heap w_vars w_raws]. rewrite upd_upd. unfold set_fields. cbn. now rewrite upd_upd.
Qed.

Lemma set_heap_put_refield w a k v h x : value_at w (LField a k) = Some x -> same (w_heap w) h ->
  set_heap (put w (LField a k) v) (refield a (upd (fields_of (w_heap w) a) k (fst x, v)) h) =
  set_heap w (refield a (upd (fields_of (w_heap w) a) k (fst x, v)) h).
Proof.
  intros E S. destruct (value_field_inv _ _ _ _ E) as (c & Ec & Ek). cbn [put]. rewrite Ec, Ek. now destruct x.
Qed.

Lemma later_fields h h' a : later h h' -> fields_of h' a = fields_of h a.
Proof.
  intros (S & F & _). unfold fields_of. destruct (nth_error h a) as [c|] eqn:E.
  - destruct (F a c E) as (c' & -> & ->). reflexivity.
  - specialize (S a). rewrite E in S. destruct (nth_error h' a); [discriminate|]. reflexivity.
Qed.
Lemma refield_self h a : refield a (fields_of h a) h = h.
Proof.
  unfold refield, fields_of. destruct (nth_error h a) as [c|] eqn:E; auto.
  apply list_ext. intros j. rewrite nth_upd. destruct (Nat.eqb_spec a j) as [<-|]; cbn [andb]; auto.
  destruct (a <? length h); auto. rewrite E. now destruct c.
Qed.
Lemma refield_refield h a x y : refield a x (refield a y h) = refield a x h.
Proof.
  apply list_ext. intros j. rewrite !refield_nth. destruct (a =? j); auto. now destruct (nth_error h j).
Qed.
Lemma fsum_refield a fl h : length fl = length (fields_of h a) -> fsum load_of (refield a fl h) = fsum load_of h.
Proof.
  intros L. unfold refield, fields_of in *. destruct (nth_error h a) as [c|] eqn:E; auto.
  pose proof (fsum_upd load_of h a c (set_fields c fl) E) as Q. unfold load_of at 2 4 in Q.
  cbn [c_alive c_parts c_fields set_fields] in Q. rewrite L in Q. lia.
Qed.

Lemma put_field w a k v x : value_at w (LField a k) = Some x ->
  put w (LField a k) v = set_heap w (refield a (upd (fields_of (w_heap w) a) k (fst x, v)) (w_heap w)).
Proof.
  intros E. destruct (value_field_inv _ _ _ _ E) as (c & Ec & Ek). cbn [put]. unfold refield, fields_of.
  rewrite Ec, Ek. now destruct x.
Qed.

(** [Reset]: the pointer becomes null and its object loses a reference. *)
Lemma reset_ok w X f l t v : inv (w_heap w) [] (X ++ outer w) f -> there w l -> value_at w l = Some (t, v) ->
  rooted (put w l None) X l ->
  exists h', reset l w = Done (set_heap (put w l None) h') /\ later (w_heap (put w l None)) h' /\
    inv h' [] (X ++ outer (put w l None)) f.
Proof.
  intros I T E H. unfold reset. rewrite (load_ok w l _ T E). cbn [obind]. destruct v as [p|].
  2:{ exists (w_heap w). rewrite (put_self w l t None E). split; [now destruct w|].
      split; [apply later_refl | exact I]. }
  assert (I0 : inv (w_heap (put w l None)) [Rel (p_addr p)] (X ++ outer (put w l None)) f).
  { apply inv_rel. apply (put_inv w l None t (Some p) [] X (p_addr p :: X) f T E I).
    intros q. cbn [oaddr]. rewrite !cnt_cons, cnt_nil. lia. }
  destruct (run_work_ok (work_fuel (w_heap (put w l None)) [Rel (p_addr p)]) _ _ _ _ I0) as (h0 & Eh & Ih & Lh).
  { unfold measure, work_fuel, fsum. lia. }
  exists h0. split; [|split; [exact Lh | exact Ih]]. unfold release.
  destruct l as [i|a k].
  - assert (Q : w_heap (put w (LVar i) None) = w_heap w).
    { cbn [put]. destruct (nth_error (w_vars w) i) as [[t' u']|]; reflexivity. }
    rewrite Q in *. rewrite Eh. cbn [obind].
    rewrite (store_ok (set_heap w h0) (LVar i) None (t, Some p) Logic.I E).
    cbn [put set_heap w_vars]. cbn [value_at] in E. rewrite E. reflexivity.
  - cbn [rooted] in H. pose proof (reach_later _ _ _ _ Lh H) as H0.
    pose proof (reach_alive _ _ _ _ Ih H0) as A0.
    pose proof (run_work_refield a (fields_of (w_heap w) a) _ _ _ _ Eh A0) as RF.
    rewrite (put_field w a k None _ E) in RF. cbn [w_heap set_heap fst] in RF.
    rewrite refield_refield in RF. rewrite refield_self in RF.
    assert (WF : work_fuel (w_heap w) [Rel (p_addr p)] =
       work_fuel (refield a (upd (fields_of (w_heap w) a) k (t, None)) (w_heap w)) [Rel (p_addr p)]).
    { unfold work_fuel. f_equal. symmetry. apply fsum_refield. apply upd_length. }
    rewrite WF, RF. cbn [obind].
    destruct (value_field_inv _ _ _ _ E) as (c & Ec & Ek).
    assert (V : value_at (set_heap w (refield a (fields_of (w_heap w) a) h0)) (LField a k) = Some (t, Some p)).
    { cbn [value_at set_heap w_heap]. unfold fields_of. rewrite refield_nth, Nat.eqb_refl.
      unfold alive in A0. destruct (nth_error h0 a) as [c0|]; [|discriminate]. cbn [option_map c_fields set_fields].
      unfold fields_of. now rewrite Ec. }
    rewrite (store_ok _ (LField a k) None (t, Some p)); [|cbn [there set_heap w_heap]; now rewrite refield_alive | exact V].
    f_equal. rewrite (put_field _ a k None _ V). rewrite (put_field w a k None _ E).
    unfold set_heap. cbn [w_heap w_vars w_raws fst]. f_equal. rewrite refield_refield.
    rewrite <- (refield_self h0 a) at 3. f_equal.
    rewrite (later_fields _ _ a Lh). rewrite (put_field w a k None _ E). cbn [w_heap set_heap fst].
    assert (FR : forall g x y z, nth_error g x = Some z -> fields_of (refield x y g) x = y).
    { intros g x y z Ez. unfold fields_of. rewrite refield_nth, Nat.eqb_refl, Ez. reflexivity. }
    unfold alive in A0. destruct (nth_error h0 a) as [c0|] eqn:E0; [|discriminate].
    rewrite (FR _ _ _ _ E0), (FR _ _ _ _ Ec). reflexivity.
Qed.
