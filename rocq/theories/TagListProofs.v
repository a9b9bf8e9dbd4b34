(** Lemmas about tag lists. *)
From Verif Require Import Base BaseProofs TagList TagListSpec.
From Coq Require Import ZifyBool ZifyNat ZifyN Permutation.

Lemma filter_all {A} (f : A -> bool) (l : list A) : Forall (fun q : A => f q = true) l -> filter f l = l.
Proof. induction 1 as [|? ? H F IH]; cbn; [reflexivity|]. rewrite H, IH. reflexivity. Qed.
Lemma filter_idem {A} (f : A -> bool) (l : list A) : filter f (filter f l) = filter f l.
Proof.
  apply filter_all, Forall_forall. intros ? H. apply filter_In in H. tauto.
Qed.
Lemma filter_len {A} (f : A -> bool) (l : list A) : length (filter f l) <= length l.
Proof. induction l as [|q l IH]; cbn; [lia|]. destruct (f q); cbn; lia. Qed.
Lemma filter_full {A} (f : A -> bool) (l : list A) : length (filter f l) = length l -> filter f l = l.
Proof.
  induction l as [|q l IH]; cbn; [reflexivity|]. destruct (f q); cbn; intros E.
  - f_equal. apply IH. lia.
  - pose proof (filter_len f l). lia.
Qed.

(** The variables that exist. *)
Fixpoint somes {A} (L : list (option A)) : list A :=
  match L with [] => [] | Some x :: q => x :: somes q | None :: q => somes q end.
Lemma somes_app {A} (L M : list (option A)) : somes (L ++ M) = somes L ++ somes M.
Proof. induction L as [|[e|] L IH]; cbn; rewrite ?IH; reflexivity. Qed.
Lemma somes_take {A} (L : list (option A)) : forall i e, nth_error L i = Some (Some e) ->
  Permutation (somes L) (e :: somes (upd L i None)).
Proof.
  induction L as [|[u|] L IH]; intros [|i] e H; cbn in *; try discriminate.
  - inversion H; subst. apply Permutation_refl.
  - rewrite (IH i e H). apply perm_swap.
  - apply IH, H.
Qed.
Lemma somes_give {A} (L : list (option A)) i e : i < length L ->
  Permutation (somes (upd L i (Some e))) (e :: somes (upd L i None)).
Proof.
  intros H. rewrite <- (upd_upd L i (Some e) None). apply somes_take. apply nth_upd_eq, H.
Qed.
Lemma in_somes {A} (L : list (option A)) e : In e (somes L) <-> In (Some e) L.
Proof.
  induction L as [|[u|] L IH]; cbn; [tauto| |].
  - rewrite IH. split; intros [H|H]; auto; left; congruence.
  - rewrite IH. split; [auto|]. intros [H|H]; [discriminate|exact H].
Qed.

Section Proofs.
Context {V : Type}.
Notation heap := (list (option (tia V))).
Implicit Types (h : heap) (l r : tlist) (L R : list tlist) (t : tia V) (x y : tag_index V).

(** ** What a list holds *)

Definition raw h l : list (tag_index V) :=
  match tl_tia l with
  | None => []
  | Some a => match nth_error h a with
              | Some (Some t) => firstn (tl_size l) (ta_idx t)
              | _ => []
              end
  end.
Definition live h l := filter (tagged (tl_start l) (tl_end l)) (raw h l).

Definition cnt (a : nat) L : nat := length (filter (uses a) L).

Definition ok h l : Prop :=
  (tl_start l <= tl_end l)%Z /\
  match tl_tia l with
  | None => tl_size l = 0
  | Some a => exists t, nth_error h a = Some (Some t) /\ tl_size l <= length (ta_idx t)
  end.
Definition ok_array t : Prop :=
  0 < ta_rc t /\ 0 < ta_cap t /\ length (ta_idx t) <= ta_cap t /\
  Forall (fun x => (x_start x < x_end x)%Z) (ta_idx t).
Definition inv h L : Prop :=
  (forall a, match nth_error h a with
             | Some (Some t) => ta_rc t = cnt a L /\ ok_array t
             | _ => cnt a L = 0
             end) /\ Forall (ok h) L.
Definition keeps h h' R : Prop := Forall (fun r => raw h' r = raw h r) R.

Lemma raw_elements h l : ok h l -> elements h l = Done (raw h l).
Proof.
  intros [_ H]. unfold elements, raw. destruct (tl_tia l) as [a|].
  - destruct H as (t & E & H). unfold get. rewrite E. cbn. unfold ta_dirty.
    destruct (Nat.leb_spec (tl_size l) (length (ta_idx t))); [reflexivity|lia].
  - rewrite H. reflexivity.
Qed.

Lemma cnt_perm a L L' : Permutation L L' -> cnt a L = cnt a L'.
Proof.
  intros P. unfold cnt. induction P; cbn; auto; try (repeat destruct (uses a _); cbn; congruence).
Qed.
Lemma inv_perm h L L' : Permutation L L' -> inv h L -> inv h L'.
Proof.
  intros P [H1 H2]. split.
  - intros a. rewrite <- (cnt_perm a L L' P). apply H1.
  - rewrite Forall_forall in *. intros x Hx. apply H2. eapply Permutation_in; [symmetry; exact P|exact Hx].
Qed.
Lemma keeps_perm h h' L L' : Permutation L L' -> keeps h h' L -> keeps h h' L'.
Proof.
  intros P H. unfold keeps in *. rewrite Forall_forall in *. intros x Hx. apply H.
  eapply Permutation_in; [symmetry; exact P|exact Hx].
Qed.
Lemma keeps_refl h R : keeps h h R.
Proof. apply Forall_forall. reflexivity. Qed.
Lemma keeps_trans h1 h2 h3 R : keeps h1 h2 R -> keeps h2 h3 R -> keeps h1 h3 R.
Proof.
  unfold keeps. rewrite !Forall_forall. intros A B x Hx. rewrite (B x Hx). apply A, Hx.
Qed.

Lemma cnt_cons a l L : cnt a (l :: L) = (if uses a l then 1 else 0) + cnt a L.
Proof. unfold cnt. cbn. destruct (uses a l); reflexivity. Qed.
Lemma cnt_some b a l L : tl_tia l = Some a -> cnt b (l :: L) = (if b =? a then 1 else 0) + cnt b L.
Proof. intros E. rewrite cnt_cons. unfold uses. rewrite E. reflexivity. Qed.
Lemma cnt_none b l L : tl_tia l = None -> cnt b (l :: L) = cnt b L.
Proof. intros E. rewrite cnt_cons. unfold uses. rewrite E. reflexivity. Qed.
Lemma uses_iff a l : uses a l = true <-> tl_tia l = Some a.
Proof.
  unfold uses. destruct (tl_tia l) as [b|]; [|split; discriminate].
  rewrite Nat.eqb_eq. split; [intros ->; reflexivity|intros E; inversion E; reflexivity].
Qed.
Lemma cnt_zero a L : cnt a L = 0 -> Forall (fun r => tl_tia r <> Some a) L.
Proof.
  induction L as [|l L IH]; intros H; constructor.
  - intros E. apply uses_iff in E. rewrite cnt_cons, E in H. lia.
  - apply IH. rewrite cnt_cons in H. lia.
Qed.

(** The array of a list. *)
Lemma inv_array h l R a : inv h (l :: R) -> tl_tia l = Some a ->
  exists t, nth_error h a = Some (Some t) /\ tl_size l <= length (ta_idx t) /\
    ta_rc t = S (cnt a R) /\ ok_array t.
Proof.
  intros [H1 H2] E. inversion H2 as [|? ? [_ O] _]; subst. rewrite E in O. destruct O as (t & G & S).
  exists t. specialize (H1 a). rewrite G in H1. destruct H1 as [C O].
  rewrite cnt_cons, (proj2 (uses_iff a l) E) in C. auto.
Qed.
Lemma get_some h a t : nth_error h a = Some (Some t) -> get h a = Done t.
Proof. intros E. unfold get. rewrite E. reflexivity. Qed.
Lemma ok_head h l R : inv h (l :: R) -> ok h l.
Proof. intros [_ H]. inversion H; auto. Qed.
Lemma ok_in h r R : inv h R -> In r R -> ok h r.
Proof. intros [_ H]. rewrite Forall_forall in H. auto. Qed.

(** The sole user changes the array. *)
Lemma put_sole h l R a t t' l' : inv h (l :: R) -> tl_tia l = Some a ->
  nth_error h a = Some (Some t) -> ta_rc t = 1 -> ta_rc t' = 1 -> ok_array t' ->
  tl_tia l' = Some a -> tl_size l' <= length (ta_idx t') -> (tl_start l' <= tl_end l')%Z ->
  inv (put h a t') (l' :: R) /\ keeps h (put h a t') R.
Proof.
  intros I E G C C' O' E' S' P'. pose proof (nth_lt _ _ _ G) as La.
  destruct (inv_array h l R a I E) as (t0 & G0 & _ & C0 & _). rewrite G in G0. inversion G0; subst t0.
  rewrite C in C0. assert (Z0 : cnt a R = 0) by lia. apply cnt_zero in Z0.
  destruct I as [I1 I2]. split.
  - split.
    + intros b. unfold put. rewrite nth_upd. specialize (I1 b).
      rewrite cnt_cons in *. destruct (Nat.eqb_spec a b) as [->|Ne].
      * rewrite G in I1. rewrite (proj2 (uses_iff b l) E) in I1. rewrite (proj2 (uses_iff b l') E').
        destruct (b <? length h) eqn:Lb; [|lia]. split; [lia|exact O'].
      * assert (U : uses b l = false) by (unfold uses; rewrite E; destruct (Nat.eqb_spec b a); congruence).
        assert (U' : uses b l' = false) by (unfold uses; rewrite E'; destruct (Nat.eqb_spec b a); congruence).
        rewrite U in I1. rewrite U'. exact I1.
    + inversion I2 as [|? ? _ I3]; subst. constructor.
      * split; [exact P'|]. rewrite E'. exists t'. unfold put. rewrite nth_upd_eq by exact La. auto.
      * rewrite Forall_forall in *. intros r Hr. destruct (I3 r Hr) as [Pr Or]. split; [exact Pr|].
        destruct (tl_tia r) as [b|] eqn:Er; [|exact Or]. destruct Or as (u & Gu & Su). exists u. split; [|exact Su].
        unfold put. rewrite nth_upd_neq; [exact Gu|]. intros ->. apply (Z0 r Hr). exact Er.
  - unfold keeps. rewrite Forall_forall in *. intros r Hr. unfold raw. destruct (tl_tia r) as [b|] eqn:Er; [|reflexivity].
    unfold put. rewrite nth_upd_neq; [reflexivity|]. intros ->. apply (Z0 r Hr). exact Er.
Qed.

(** A change at the end of the array. *)
Lemma put_append h l R a t x l' : inv h (l :: R) -> tl_tia l = Some a ->
  nth_error h a = Some (Some t) -> length (ta_idx t) < ta_cap t -> (x_start x < x_end x)%Z ->
  tl_tia l' = Some a -> tl_size l' <= S (length (ta_idx t)) -> (tl_start l' <= tl_end l')%Z ->
  inv (put h a (mk_tia (ta_rc t) (ta_cap t) (ta_idx t ++ [x]))) (l' :: R) /\
  keeps h (put h a (mk_tia (ta_rc t) (ta_cap t) (ta_idx t ++ [x]))) R.
Proof.
  intros I E G C Px E' S' P'. pose proof (nth_lt _ _ _ G) as La.
  destruct I as [I1 I2]. inversion I2 as [|? ? _ I3]; subst. split.
  - split.
    + intros b. unfold put. rewrite nth_upd. specialize (I1 b). rewrite cnt_cons in *.
      destruct (Nat.eqb_spec a b) as [->|Ne].
      * rewrite G in I1. rewrite (proj2 (uses_iff b l) E) in I1. rewrite (proj2 (uses_iff b l') E').
        destruct (b <? length h) eqn:Lb; [|lia]. destruct I1 as [I1 (A1 & A2 & A3 & A4)].
        split; [exact I1|]. repeat split; cbn; auto; try (rewrite app_length; cbn; lia).
        apply Forall_app. split; [exact A4|]. constructor; [exact Px|constructor].
      * assert (U : uses b l = false) by (unfold uses; rewrite E; destruct (Nat.eqb_spec b a); congruence).
        assert (U' : uses b l' = false) by (unfold uses; rewrite E'; destruct (Nat.eqb_spec b a); congruence).
        rewrite U in I1. rewrite U'. exact I1.
    + constructor.
      * split; [exact P'|]. rewrite E'. eexists. unfold put. rewrite nth_upd_eq by exact La.
        split; [reflexivity|]. cbn. rewrite app_length. cbn. lia.
      * rewrite Forall_forall in *. intros r Hr. destruct (I3 r Hr) as [Pr Or]. split; [exact Pr|].
        destruct (tl_tia r) as [b|] eqn:Er; [|exact Or]. destruct Or as (u & Gu & Su).
        unfold put. rewrite nth_upd. destruct (Nat.eqb_spec a b) as [->|Ne].
        -- destruct (b <? length h) eqn:Lb; [|lia]. eexists. split; [reflexivity|]. cbn. rewrite app_length.
           rewrite G in Gu. inversion Gu; subst. lia.
        -- exists u. split; [exact Gu|exact Su].
  - unfold keeps. rewrite Forall_forall in *. intros r Hr. unfold raw. destruct (tl_tia r) as [b|] eqn:Er; [|reflexivity].
    unfold put. rewrite nth_upd. destruct (Nat.eqb_spec a b) as [->|Ne]; [|reflexivity].
    destruct (b <? length h) eqn:Lb; [|lia]. rewrite G. cbn. destruct (I3 r Hr) as [_ Or]. rewrite Er in Or.
    destruct Or as (u & Gu & Su). rewrite G in Gu. inversion Gu; subst u.
    rewrite firstn_app. replace (tl_size r - length (ta_idx t)) with 0 by lia. rewrite firstn_O, app_nil_r. reflexivity.
Qed.

(** ** The loops *)

Lemma skip_tagged_spec bs be (l : list (tag_index V)) : forall n head,
  head + n = length l -> Forall (fun x => tagged bs be x = true) (firstn head l) ->
  exists k, skip_tagged bs be l head n = Done k /\ k <= length l /\
    Forall (fun x => tagged bs be x = true) (firstn k l) /\
    (k < length l -> exists x, nth_error l k = Some x /\ tagged bs be x = false).
Proof.
  induction n as [|n IH]; intros head E F; cbn.
  - exists head. repeat split; auto; lia.
  - destruct (nth_error l head) as [x|] eqn:G; [|apply nth_error_None in G; lia].
    destruct (tagged bs be x) eqn:T.
    + destruct (IH (S head)) as (k & A); [lia| |exists k; exact A].
      replace (firstn (S head) l) with (firstn head l ++ [x]).
      * apply Forall_app. split; [exact F|]. constructor; [exact T|constructor].
      * clear -G. revert head G. induction l as [|y l IH]; intros [|head] G; cbn in *; try discriminate.
        -- inversion G; reflexivity.
        -- rewrite <- (IH head G). reflexivity.
    + exists head. repeat split; auto; [apply nth_lt in G; lia|]. intros _. exists x. auto.
Qed.

(** The second loop: the elements before [head] are done, those from [next] on are left. *)
Lemma move_tagged_spec bs be : forall n (l : list (tag_index V)) head next size,
  next + n = length l -> head < next -> size = head + n ->
  exists (l' : list (tag_index V)) size', move_tagged bs be l head next n size = Done (l', size') /\
    firstn size' l' = firstn head l ++ filter (tagged bs be) (skipn next l).
Proof.
  induction n as [|n IH]; intros l head next size E Hn Hs; cbn.
  - exists l, size. split; [reflexivity|]. rewrite skipn_all2 by lia. cbn. rewrite app_nil_r. f_equal. lia.
  - destruct (nth_error l next) as [x|] eqn:G; [|apply nth_error_None in G; lia].
    assert (Sk : skipn next l = x :: skipn (S next) l).
    { clear -G. revert next G. induction l as [|y l IH]; intros [|next] G; cbn in *; try discriminate.
      - inversion G; reflexivity.
      - apply IH, G. }
    rewrite Sk. cbn [filter]. destruct (tagged bs be x) eqn:T.
    + destruct (IH (upd l head x) (S head) (S next) size) as (l' & s' & A & B); [rewrite upd_length; lia|lia|lia|].
      exists l', s'. split; [exact A|]. rewrite B.
      assert (F : firstn (S head) (upd l head x) = firstn head l ++ [x]).
      { clear - Hn E. assert (H : head < length l) by lia. clear -H. revert head H.
        induction l as [|y l IH]; intros [|head] H; cbn in *; try lia; [reflexivity|].
        rewrite <- IH by lia. reflexivity. }
      assert (K : skipn (S next) (upd l head x) = skipn (S next) l).
      { clear - Hn. apply list_ext. intros i. rewrite !nth_error_skipn', nth_upd.
        destruct (Nat.eqb_spec head (S next + i)); [lia|reflexivity]. }
      rewrite F, K, <- app_assoc. reflexivity.
    + destruct (IH l head (S next) (size - 1)) as (l' & s' & A & B); [lia|lia|lia|]. exists l', s'. auto.
Qed.

Lemma compact_ok h l R a t : inv h (l :: R) -> tl_tia l = Some a -> nth_error h a = Some (Some t) ->
  ta_rc t = 1 ->
  exists h' l' t', compact a h l = Done (h', l') /\ inv h' (l' :: R) /\ keeps h h' R /\
    raw h' l' = live h l /\ tl_start l' = tl_start l /\ tl_end l' = tl_end l /\
    tl_tia l' = Some a /\ nth_error h' a = Some (Some t') /\ ta_rc t' = 1 /\ ta_cap t' = ta_cap t /\
    length (ta_idx t') = tl_size l'.
Proof.
  intros I E G C. unfold compact. rewrite (get_some _ _ _ G). cbn [obind]. rewrite C. cbn [negb Nat.eqb].
  set (idx := firstn (tl_size l) (ta_idx t)).
  destruct (inv_array h l R a I E) as (t0 & G0 & Sz & _ & O). rewrite G in G0. inversion G0; subst t0.
  assert (Li : length idx = tl_size l) by (unfold idx; rewrite firstn_length; lia).
  assert (Hraw : raw h l = idx) by (unfold raw; rewrite E, G; reflexivity).
  set (bs := tl_start l). set (be := tl_end l).
  destruct (skip_tagged_spec bs be idx (tl_size l) 0) as (k & K1 & K2 & K3 & K4); [lia|constructor|].
  rewrite K1. cbn [obind].
  assert (exists idx' size', (if k <? tl_size l
       then move_tagged bs be idx k (S k) (tl_size l - S k) (tl_size l - 1)
       else Done (idx, tl_size l)) = Done (idx', size') /\ firstn size' idx' = filter (tagged bs be) idx) as (idx' & size' & M1 & M2).
  { destruct (Nat.ltb_spec k (tl_size l)) as [H|H].
    - destruct (move_tagged_spec bs be (tl_size l - S k) idx k (S k) (tl_size l - 1)) as (l' & s' & A & B); [lia|lia|lia|].
      exists l', s'. split; [exact A|]. rewrite B. destruct K4 as (x & X1 & X2); [lia|].
      rewrite <- (firstn_skipn k idx) at 3. rewrite filter_app, (filter_all _ _ K3). f_equal.
      assert (Sk : skipn k idx = x :: skipn (S k) idx).
      { clear -X1. revert k X1. induction idx as [|y q IH]; intros [|k] X; cbn in *; try discriminate.
        - inversion X; reflexivity.
        - apply IH, X. }
      rewrite Sk. cbn [filter]. rewrite X2. reflexivity.
    - exists idx, (tl_size l). split; [reflexivity|]. rewrite firstn_all2 by lia. symmetry. apply filter_all.
      rewrite firstn_all2 in K3 by lia. exact K3. }
  rewrite M1. cbn [obind]. rewrite M2.
  assert (Sub : incl (filter (tagged bs be) idx) (ta_idx t)).
  { intros x Hx. apply filter_In in Hx. destruct Hx as [Hx _]. unfold idx in Hx.
    rewrite <- (firstn_skipn (tl_size l) (ta_idx t)). apply in_or_app. left. exact Hx. }
  assert (Ls : size' = length (filter (tagged bs be) idx)).
  { assert (B : size' <= length idx').
    { destruct (Nat.ltb_spec k (tl_size l)) as [H|H].
      - clear - M1 Li H. assert (Gn : forall n (q : list (tag_index V)) hd nx s q' s', move_tagged bs be q hd nx n s = Done (q', s') -> length q' = length q /\ s' <= s).
        { induction n as [|n IH]; intros q hd nx s q' s' X; cbn in X; [inversion X; auto|].
          destruct (nth_error q nx) as [e|]; [|discriminate]. destruct (tagged bs be e); apply IH in X; rewrite ?upd_length in X; lia. }
        apply Gn in M1. lia.
      - inversion M1; subst. lia. }
    rewrite <- M2, firstn_length. lia. }
  destruct O as (O1 & O2 & O3 & O4).
  assert (Lf : length (filter (tagged bs be) idx) <= ta_cap t).
  { pose proof (filter_len (tagged bs be) idx). lia. }
  destruct (put_sole h l R a t (mk_tia 1 (ta_cap t) (filter (tagged bs be) idx)) (mk_tl bs be size' (Some a))) as [P1 P2]; auto.
  { repeat split; cbn; auto; try lia. rewrite Forall_forall in *. intros x Hx. apply O4, Sub, Hx. }
  { cbn. lia. }
  { pose proof (ok_head _ _ _ I) as [? _]. cbn. exact H. }
  pose proof (nth_lt _ _ _ G) as La.
  eexists _, _, (mk_tia 1 (ta_cap t) (filter (tagged bs be) idx)).
  split; [reflexivity|]. split; [exact P1|]. split; [exact P2|].
  split; [|repeat split; try (unfold put; rewrite nth_upd_eq by exact La; reflexivity); cbn; auto].
  unfold raw, live. cbn. unfold put. rewrite nth_upd_eq by exact La. cbn. rewrite Hraw. rewrite Ls, firstn_all. reflexivity.
Qed.

Lemma copy_tagged_spec bs be (src : list (tag_index V)) : forall dst,
  copy_tagged bs be src dst = dst ++ filter (tagged bs be) src.
Proof.
  induction src as [|x src IH]; intros dst; cbn; [rewrite app_nil_r; reflexivity|].
  destruct (tagged bs be x); rewrite IH; [rewrite <- app_assoc|]; reflexivity.
Qed.

(** Taking and giving back references. *)
Lemma add_ref_ok h R r : inv h R -> In r R ->
  exists h', add_ref_opt h (tl_tia r) = Done h' /\ inv h' (r :: R) /\ keeps h h' (r :: R).
Proof.
  intros I Hr. pose proof (ok_in _ _ _ I Hr) as Or. unfold add_ref_opt, add_ref.
  destruct (tl_tia r) as [a|] eqn:E.
  - assert (exists t, nth_error h a = Some (Some t) /\ tl_size r <= length (ta_idx t)) as (t & G & Sz).
    { destruct Or as [_ Or]. rewrite E in Or. exact Or. }
    rewrite (get_some _ _ _ G). cbn [obind]. eexists. split; [reflexivity|].
    pose proof (nth_lt _ _ _ G) as La. destruct I as [I1 I2]. split; [split|].
    + intros b. unfold put. rewrite nth_upd. specialize (I1 b). rewrite !(cnt_some _ _ _ _ E).
      rewrite (Nat.eqb_sym b a). destruct (Nat.eqb_spec a b) as [->|Ne].
      * destruct (b <? length h) eqn:Lb; [|lia]. rewrite G in I1. destruct I1 as [C (O1 & O2 & O3 & O4)].
        split; [cbn; lia|]. repeat split; cbn; auto; lia.
      * exact I1.
    + assert (K : forall q, ok h q -> ok (put h a (mk_tia (S (ta_rc t)) (ta_cap t) (ta_idx t))) q).
      { intros q [P Q]. split; [exact P|]. destruct (tl_tia q) as [b|]; [|exact Q]. destruct Q as (u & U1 & U2).
        unfold put. rewrite nth_upd. destruct (Nat.eqb_spec a b) as [->|Ne]; [|exists u; split; [exact U1|exact U2]].
        destruct (b <? length h) eqn:Lb; [|lia]. rewrite G in U1. inversion U1; subst u. eexists; split; [reflexivity|exact U2]. }
      constructor; [apply K, Or|]. rewrite Forall_forall in *. auto.
    + unfold keeps. apply Forall_forall. intros q _. unfold raw. destruct (tl_tia q) as [b|]; [|reflexivity].
      unfold put. rewrite nth_upd. destruct (Nat.eqb_spec a b) as [->|Ne]; [|reflexivity].
      destruct (b <? length h) eqn:Lb; [|lia]. rewrite G. reflexivity.
  - exists h. split; [reflexivity|]. split; [|apply keeps_refl]. destruct I as [I1 I2]. split.
    + intros a. specialize (I1 a). rewrite !(cnt_none _ _ _ E). exact I1.
    + constructor; auto.
Qed.

Lemma release_ok h R r : inv h (r :: R) ->
  exists h', release_opt h (tl_tia r) = Done h' /\ inv h' R /\ keeps h h' R.
Proof.
  intros I. unfold release_opt, release_ref. destruct (tl_tia r) as [a|] eqn:E.
  - destruct (inv_array h r R a I E) as (t & G & Sz & C & O). rewrite (get_some _ _ _ G). cbn [obind]. rewrite C.
    pose proof (nth_lt _ _ _ G) as La. destruct I as [I1 I2]. inversion I2 as [|? ? Or I3]; subst.
    destruct (cnt a R) as [|n] eqn:Z0.
    + eexists. split; [reflexivity|]. apply cnt_zero in Z0 as F. rewrite Forall_forall in F. split; [split|].
      * intros b. rewrite nth_upd. specialize (I1 b). rewrite !(cnt_some _ _ _ _ E) in I1.
        rewrite (Nat.eqb_sym b a) in I1. destruct (Nat.eqb_spec a b) as [Eb|Ne].
        -- subst b. destruct (a <? length h) eqn:Lb; [exact Z0|lia].
        -- exact I1.
      * rewrite Forall_forall in *. intros q Hq. destruct (I3 q Hq) as [P Q]. split; [exact P|].
        destruct (tl_tia q) as [b|] eqn:Eq; [|exact Q]. rewrite nth_upd_neq; [exact Q|]. intros ->. apply (F q Hq). exact Eq.
      * unfold keeps. rewrite Forall_forall. intros q Hq. unfold raw. destruct (tl_tia q) as [b|] eqn:Eq; [|reflexivity].
        rewrite nth_upd_neq; [reflexivity|]. intros ->. apply (F q Hq). exact Eq.
    + eexists. split; [reflexivity|]. split; [split|].
      * intros b. unfold put. rewrite nth_upd. specialize (I1 b). rewrite !(cnt_some _ _ _ _ E) in I1.
        rewrite (Nat.eqb_sym b a) in I1. destruct (Nat.eqb_spec a b) as [Eb|Ne].
        -- subst b. destruct (a <? length h) eqn:Lb; [|lia]. split; [cbn; lia|]. destruct O as (O1 & O2 & O3 & O4).
           repeat split; cbn; auto; lia.
        -- exact I1.
      * rewrite Forall_forall in *. intros q Hq. destruct (I3 q Hq) as [P Q]. split; [exact P|].
        destruct (tl_tia q) as [b|] eqn:Eq; [|exact Q]. destruct Q as (u & U1 & U2).
        unfold put. rewrite nth_upd. destruct (Nat.eqb_spec a b) as [->|Ne]; [|exists u; split; [exact U1|exact U2]].
        destruct (b <? length h) eqn:Lb; [|lia]. rewrite G in U1. inversion U1; subst u. eexists; split; [reflexivity|exact U2].
      * unfold keeps. apply Forall_forall. intros q _. unfold raw. destruct (tl_tia q) as [b|]; [|reflexivity].
        unfold put. rewrite nth_upd. destruct (Nat.eqb_spec a b) as [->|Ne]; [|reflexivity].
        destruct (b <? length h) eqn:Lb; [|lia]. rewrite G. reflexivity.
  - exists h. split; [reflexivity|]. split; [|apply keeps_refl]. destruct I as [I1 I2]. inversion I2; subst. split; [|assumption].
    intros a. specialize (I1 a). rewrite !(cnt_none _ _ _ E) in I1. exact I1.
Qed.

(** A new array for a list that has none. *)
Lemma alloc_ok h R t l' : inv h R -> ta_rc t = 1 -> ok_array t -> tl_tia l' = Some (length h) ->
  tl_size l' <= length (ta_idx t) -> (tl_start l' <= tl_end l')%Z ->
  inv (h ++ [Some t]) (l' :: R) /\ keeps h (h ++ [Some t]) R.
Proof.
  intros [I1 I2] C O E Sz P. rewrite Forall_forall in I2. split; [split|].
  - intros b. specialize (I1 b). rewrite !(cnt_some _ _ _ _ E).
    destruct (Nat.eqb_spec b (length h)) as [->|Ne].
    + rewrite (proj2 (nth_error_None h (length h)) (Nat.le_refl _)) in I1.
      rewrite nth_error_app2, Nat.sub_diag by lia. cbn. split; [lia|exact O].
    + destruct (Nat.lt_ge_cases b (length h)) as [H|H].
      * rewrite nth_error_app1 by exact H. exact I1.
      * rewrite (proj2 (nth_error_None h b) H) in I1. rewrite (proj2 (nth_error_None (h ++ [Some t]) b)); [exact I1|].
        rewrite app_length. cbn. lia.
  - constructor.
    + split; [exact P|]. rewrite E. exists t. rewrite nth_error_app2, Nat.sub_diag by lia. auto.
    + apply Forall_forall. intros q Hq. destruct (I2 q Hq) as [Pq Q]. split; [exact Pq|].
      destruct (tl_tia q) as [b|]; [|exact Q]. destruct Q as (u & U1 & U2). exists u.
      rewrite nth_error_app1 by (apply nth_lt in U1; exact U1). auto.
  - apply Forall_forall. intros q Hq. destruct (I2 q Hq) as [_ Q]. unfold raw. destruct (tl_tia q) as [b|]; [|reflexivity].
    destruct Q as (u & U1 & _). rewrite nth_error_app1 by (apply nth_lt in U1; exact U1). reflexivity.
Qed.

Lemma in_raw h l R a t : inv h (l :: R) -> tl_tia l = Some a -> nth_error h a = Some (Some t) ->
  incl (raw h l) (ta_idx t) /\ length (raw h l) = tl_size l.
Proof.
  intros I E G. destruct (inv_array h l R a I E) as (t0 & G0 & Sz & _ & _). rewrite G in G0. inversion G0; subst t0.
  unfold raw. rewrite E, G. split.
  - intros x Hx. rewrite <- (firstn_skipn (tl_size l) (ta_idx t)). apply in_or_app. left. exact Hx.
  - rewrite firstn_length. lia.
Qed.

Lemma reallocate_ok h l R a t n : inv h (l :: R) -> tl_tia l = Some a -> nth_error h a = Some (Some t) ->
  ta_cap t <= n ->
  exists h' l' t', reallocate n a h l = Done (h', l') /\ inv h' (l' :: R) /\ keeps h h' R /\
    raw h' l' = live h l /\ tl_start l' = tl_start l /\ tl_end l' = tl_end l /\
    tl_tia l' = Some (length h) /\ nth_error h' (length h) = Some (Some t') /\ ta_cap t' = n /\
    length (ta_idx t') = tl_size l'.
Proof.
  intros I E G Hn. pose proof (ok_head _ _ _ I) as Ol.
  destruct (in_raw _ _ _ _ _ I E G) as [Sub Lr].
  destruct (inv_array h l R a I E) as (t0 & G0 & Sz & C & O). rewrite G in G0. inversion G0; subst t0. clear G0.
  destruct O as (O1 & O2 & O3 & O4).
  unfold reallocate. rewrite (get_some _ _ _ G). cbn [obind]. destruct (Nat.ltb_spec n (ta_cap t)); [lia|].
  unfold allocate. destruct (Nat.eqb_spec n 0); [lia|]. cbn [obind].
  assert (Oe : ok (h ++ [Some (mk_tia 1 n [])]) l).
  { destruct Ol as [P Q]. split; [exact P|]. rewrite E in *. exists t. rewrite nth_error_app1 by (apply nth_lt in G; exact G). auto. }
  rewrite (raw_elements _ _ Oe). cbn [obind].
  assert (Rw : raw (h ++ [Some (mk_tia 1 n [])]) l = raw h l).
  { unfold raw. rewrite E. rewrite nth_error_app1 by (apply nth_lt in G; exact G). reflexivity. }
  rewrite Rw, copy_tagged_spec. cbn [app]. fold (live h l).
  assert (Lv : length (live h l) <= tl_size l) by (unfold live; rewrite filter_len; lia).
  destruct (Nat.ltb_spec n (length (live h l))); [lia|].
  unfold put. rewrite upd_last.
  set (t' := mk_tia 1 n (live h l)).
  set (l' := mk_tl (tl_start l) (tl_end l) (length (live h l)) (Some (length h))).
  destruct (alloc_ok h (l :: R) t' l') as [I1 K1]; auto.
  { repeat split; cbn; auto; try lia. rewrite Forall_forall in *. intros x Hx. apply O4, Sub.
    unfold live in Hx. apply filter_In in Hx. tauto. }
  { cbn. apply Ol. }
  assert (P : Permutation (l' :: l :: R) (l :: l' :: R)) by apply perm_swap.
  destruct (release_ok (h ++ [Some t']) (l' :: R) l) as (h2 & D & I2 & K2); [eapply inv_perm; [exact P|exact I1]|].
  rewrite E in D. cbn [release_opt] in D. rewrite D. cbn [obind].
  assert (N2 : nth_error h2 (length h) = Some (Some t')).
  { unfold release_ref in D. rewrite (get_some (h ++ [Some t']) a t) in D
      by (rewrite nth_error_app1 by (apply nth_lt in G; exact G); exact G).
    cbn [obind] in D. rewrite C in D. apply nth_lt in G.
    destruct (cnt a R); inversion D; unfold put; (rewrite nth_upd_neq by lia); rewrite nth_error_app2, Nat.sub_diag by lia; reflexivity. }
  eexists _, _, t'. split; [reflexivity|]. split; [exact I2|].
  split; [inversion K1; inversion K2; subst; eapply keeps_trans; eassumption|].
  split; [|repeat split; auto].
  unfold raw. cbn. rewrite N2. cbn. rewrite firstn_all. reflexivity.
Qed.


(** ** The operations on one list

    [good h l R r P]: operation [r] on [l], where [R] are the other lists, does not touch
    memory it must not touch, keeps the invariant and what the other lists hold, and ends
    in a state with [P]. *)
Definition good h l R (r : outcome (heap * tlist)) (P : heap -> tlist -> Prop) : Prop :=
  exists h' l', r = Done (h', l') /\ inv h' (l' :: R) /\ keeps h h' R /\ P h' l'.

Definition same_place l l' := tl_start l' = tl_start l /\ tl_end l' = tl_end l.

Lemma live_raw_live h l : filter (tagged (tl_start l) (tl_end l)) (live h l) = live h l.
Proof. apply filter_idem. Qed.

Lemma prepare_ok h l R : inv h (l :: R) ->
  good h l R (prepare_to_insert h l) (fun h' l' => same_place l l' /\
    (raw h' l' = raw h l \/ raw h' l' = live h l) /\
    exists a t, tl_tia l' = Some a /\ nth_error h' a = Some (Some t) /\
      tl_size l' = length (ta_idx t) /\ length (ta_idx t) < ta_cap t).
Proof.
  intros I. unfold prepare_to_insert.
  assert (Fin : forall h' l' a t, tl_tia l' = Some a -> nth_error h' a = Some (Some t) ->
    tl_size l' = length (ta_idx t) -> length (ta_idx t) < ta_cap t ->
    match tl_tia l' with
    | None => UB
    | Some a => let! t := get h' a in
        if (ta_dirty t <? ta_cap t) && (tl_size l' =? ta_dirty t) then Done (h', l') else AssertFail
    end = Done (h', l')).
  { intros h' l' a t E G S1 S2. rewrite E, (get_some _ _ _ G). cbn [obind]. unfold ta_dirty.
    destruct (Nat.ltb_spec (length (ta_idx t)) (ta_cap t)); [|lia].
    destruct (Nat.eqb_spec (tl_size l') (length (ta_idx t))); [reflexivity|lia]. }
  destruct (tl_tia l) as [a|] eqn:E.
  - destruct (inv_array h l R a I E) as (t & G & Sz & C & O). rewrite (get_some _ _ _ G). cbn [obind].
    destruct O as (O1 & O2 & O3 & O4). unfold ta_dirty.
    destruct (Nat.eqb_spec (ta_rc t) 1) as [C1|C1].
    + destruct (compact_ok h l R a t I E G C1) as (h1 & l1 & t1 & D & I1 & K1 & Rw & P1 & P2 & E1 & G1 & C2 & Cp & Sz1).
      rewrite D. cbn [obind]. rewrite (get_some _ _ _ G1). cbn [obind].
      destruct (Nat.eqb_spec (length (ta_idx t1)) (ta_cap t1)) as [F|F].
      * destruct (reallocate_ok h1 l1 R a t1 (ta_cap t1 * 2) I1 E1 G1) as (h2 & l2 & t2 & D2 & I2 & K2 & Rw2 & P3 & P4 & E2 & G2 & Cp2 & Sz2); [lia|].
        rewrite D2. cbn [obind]. pose proof (in_raw _ _ _ _ _ I2 E2 G2) as [_ Lr].
        assert (length (raw h2 l2) <= length (ta_idx t1)).
        { rewrite Rw2. unfold live. rewrite filter_len. rewrite (proj2 (in_raw _ _ _ _ _ I1 E1 G1)). lia. }
        exists h2, l2. split; [apply (Fin h2 l2 _ t2 E2 G2); lia|]. split; [exact I2|]. split; [eapply keeps_trans; eassumption|].
        split; [split; congruence|]. split.
        -- right. rewrite Rw2. unfold live. rewrite Rw, P1, P2. apply live_raw_live.
        -- exists (length h1), t2. repeat split; auto; lia.
      * pose proof (inv_array _ _ _ _ I1 E1) as (t1' & G1' & _ & _ & (_ & _ & X & _)). rewrite G1 in G1'. inversion G1'; subst t1'.
        exists h1, l1. split; [apply (Fin h1 l1 a t1 E1 G1); lia|]. split; [exact I1|]. split; [exact K1|].
        split; [split; congruence|]. split; [right; exact Rw|]. exists a, t1. repeat split; auto; lia.
    + destruct (Nat.eqb_spec (length (ta_idx t)) (ta_cap t)) as [F|F];
      [|destruct (Nat.eqb_spec (tl_size l) (length (ta_idx t))) as [F2|F2]].
      * destruct (reallocate_ok h l R a t (ta_cap t * 2) I E G) as (h2 & l2 & t2 & D2 & I2 & K2 & Rw2 & P3 & P4 & E2 & G2 & Cp2 & Sz2); [lia|].
        rewrite D2. cbn [obind]. pose proof (in_raw _ _ _ _ _ I2 E2 G2) as [_ Lr].
        assert (length (raw h2 l2) <= length (ta_idx t)).
        { rewrite Rw2. unfold live. rewrite filter_len. rewrite (proj2 (in_raw _ _ _ _ _ I E G)). lia. }
        exists h2, l2. split; [apply (Fin h2 l2 _ t2 E2 G2); lia|]. split; [exact I2|]. split; [exact K2|].
        split; [split; congruence|]. split; [right; exact Rw2|]. exists (length h), t2. repeat split; auto; lia.
      * cbn [obind]. exists h, l. split; [apply (Fin h l a t E G); lia|]. split; [exact I|].
        split; [apply keeps_refl|]. split; [split; reflexivity|]. split; [left; reflexivity|]. exists a, t. repeat split; auto; lia.
      * destruct (reallocate_ok h l R a t (ta_cap t) I E G) as (h2 & l2 & t2 & D2 & I2 & K2 & Rw2 & P3 & P4 & E2 & G2 & Cp2 & Sz2); [lia|].
        rewrite D2. cbn [obind]. pose proof (in_raw _ _ _ _ _ I2 E2 G2) as [_ Lr].
        assert (length (raw h2 l2) <= tl_size l).
        { rewrite Rw2. unfold live. rewrite filter_len. rewrite (proj2 (in_raw _ _ _ _ _ I E G)). lia. }
        exists h2, l2. split; [apply (Fin h2 l2 _ t2 E2 G2); lia|]. split; [exact I2|]. split; [exact K2|].
        split; [split; congruence|]. split; [right; exact Rw2|]. exists (length h), t2. repeat split; auto; lia.
  - pose proof (ok_head _ _ _ I) as [P Q]. rewrite E in Q.
    unfold allocate. cbn [Nat.eqb obind].
    set (t := mk_tia 1 4 []). set (l' := mk_tl (tl_start l) (tl_end l) (tl_size l) (Some (length h))).
    assert (I0 : inv h R).
    { destruct I as [I1 I2]. inversion I2; subst. split; [|assumption]. intros b. specialize (I1 b).
      rewrite !(cnt_none _ _ _ E) in I1. exact I1. }
    destruct (alloc_ok h R t l') as [I1 K1]; auto.
    { repeat split; cbn; auto; lia. }
    { cbn. lia. }
    assert (G : nth_error (h ++ [Some t]) (length h) = Some (Some t))
      by (rewrite nth_error_app2, Nat.sub_diag by lia; reflexivity).
    exists (h ++ [Some t]), l'. split; [apply (Fin (h ++ [Some t]) l' (length h) t eq_refl G); cbn; lia|]. split; [exact I1|]. split; [exact K1|]. split; [split; reflexivity|].
    split.
    + left. unfold raw. rewrite E. cbn [tl_tia]. change (tl_tia l') with (Some (length h)). cbn [tl_size]. rewrite G. cbn. apply firstn_nil.
    + exists (length h), t. repeat split; auto; cbn; lia.
Qed.

Lemma append_ok h l R a t x : inv h (l :: R) -> tl_tia l = Some a -> nth_error h a = Some (Some t) ->
  tl_size l = length (ta_idx t) -> length (ta_idx t) < ta_cap t -> (x_start x < x_end x)%Z ->
  good h l R (append x h l) (fun h' l' => same_place l l' /\ raw h' l' = raw h l ++ [x]).
Proof.
  intros I E G S1 S2 Px. unfold append. rewrite E, (get_some _ _ _ G). cbn [obind]. unfold ta_dirty.
  destruct (Nat.eqb_spec (tl_size l) (length (ta_idx t))); [|lia].
  destruct (Nat.ltb_spec (length (ta_idx t)) (ta_cap t)); [|lia]. cbn [andb].
  destruct (put_append h l R a t x (mk_tl (tl_start l) (tl_end l) (S (tl_size l)) (Some a))) as [I1 K1]; auto.
  { cbn. lia. }
  { cbn. apply (ok_head _ _ _ I). }
  eexists _, _. split; [reflexivity|]. split; [exact I1|]. split; [exact K1|]. split; [split; reflexivity|].
  unfold raw. rewrite E, G. cbn [tl_tia tl_size]. unfold put. rewrite nth_upd_eq by (apply nth_lt in G; exact G).
  cbn [ta_idx]. rewrite !firstn_all2 by (try rewrite app_length; cbn; lia). reflexivity.
Qed.

Lemma good_trans h l R (P Q : heap -> tlist -> Prop) (r1 : outcome (heap * tlist)) f : good h l R r1 P ->
  (forall h1 l1, inv h1 (l1 :: R) -> P h1 l1 -> good h1 l1 R (f (h1, l1)) Q) ->
  good h l R (obind r1 f) Q.
Proof.
  intros (h1 & l1 & D & I1 & K1 & H1) F. destruct (F h1 l1 I1 H1) as (h2 & l2 & D2 & I2 & K2 & H2).
  exists h2, l2. rewrite D. cbn [obind]. repeat split; auto; try apply I2. eapply keeps_trans; eassumption.
Qed.
Lemma good_weak h l R (r : outcome (heap * tlist)) (P Q : heap -> tlist -> Prop) : good h l R r P ->
  (forall h' l', inv h' (l' :: R) -> P h' l' -> Q h' l') -> good h l R r Q.
Proof. intros (h1 & l1 & D & I1 & K1 & H1) F. exists h1, l1. auto. Qed.

Lemma insert_good h l R id v s n : inv h (l :: R) ->
  (Z.of_nat (s + n) <= tl_end l - tl_start l)%Z -> n <> 0 ->
  good h l R (insert id v s n h l) (fun h' l' => same_place l l' /\
    live h' l' = live h l ++ [mk_idx id v (tl_start l + Z.of_nat s) (tl_start l + Z.of_nat (s + n))]).
Proof.
  intros I B Hn. unfold insert.
  destruct (Z.leb_spec (Z.of_nat (s + n)) (tl_end l - tl_start l)); [cbn [negb]|lia].
  destruct (Nat.eqb_spec n 0); [lia|].
  eapply good_trans; [apply prepare_ok, I|]. intros h1 l1 I1 ((P1 & P2) & Rw & a & t & E & G & S1 & S2).
  eapply good_weak; [eapply append_ok; eauto; cbn; lia|].
  intros h2 l2 I2 ((P3 & P4) & Rw2). split; [split; congruence|]. unfold live. rewrite Rw2, filter_app.
  rewrite P3, P4, P1, P2. f_equal.
  - destruct Rw as [-> | ->]; [reflexivity|apply live_raw_live].
  - cbn. unfold tagged, has_tagged. cbn [x_start x_end].
    destruct (Z.ltb_spec (tl_start l + Z.of_nat s) (tl_end l)); [|lia].
    destruct (Z.ltb_spec (tl_start l) (tl_start l + Z.of_nat (s + n))); [reflexivity|lia].
Qed.

(** Adding a tag unless there is one with its id and range. *)
Definition add1 xs x := if existsb (same_range x) xs then xs else xs ++ [x].

Lemma same_tagged bs be x y : same_range x y = true -> tagged bs be y = tagged bs be x.
Proof.
  unfold same_range, tagged, has_tagged. intros H. apply andb_prop in H. destruct H as [H H3].
  apply andb_prop in H. destruct H as [_ H2]. apply Z.eqb_eq in H2, H3. rewrite H2, H3. reflexivity.
Qed.
Lemma existsb_filter bs be x xs : tagged bs be x = true ->
  existsb (same_range x) (filter (tagged bs be) xs) = existsb (same_range x) xs.
Proof.
  intros T. induction xs as [|y xs IH]; cbn; [reflexivity|]. destruct (tagged bs be y) eqn:Ty; cbn; rewrite IH.
  - reflexivity.
  - destruct (same_range x y) eqn:Sr; [|reflexivity]. apply (same_tagged bs be) in Sr. congruence.
Qed.

Lemma insert_tag_good h l R x : inv h (l :: R) -> (x_start x < x_end x)%Z ->
  good h l R (insert_tag x h l) (fun h' l' => same_place l l' /\
    live h' l' = (if tagged (tl_start l) (tl_end l) x then add1 (live h l) x else live h l) /\
    incl (raw h' l') (raw h l ++ [x])).
Proof.
  intros I Px. unfold insert_tag, has_tag. rewrite (raw_elements _ _ (ok_head _ _ _ I)). cbn [obind].
  set (ex := existsb _ (raw h l)).
  assert (Ex : ex = existsb (same_range x) (raw h l)) by reflexivity.
  destruct (tagged (tl_start l) (tl_end l) x) eqn:T.
  - unfold add1. unfold live at 2. rewrite existsb_filter by exact T. rewrite <- Ex. destruct ex; cbn [negb andb].
    + exists h, l. split; [reflexivity|]. split; [exact I|]. split; [apply keeps_refl|]. split; [split; reflexivity|].
      split; [reflexivity|apply incl_appl, incl_refl].
    + eapply good_trans; [apply prepare_ok, I|]. intros h1 l1 I1 ((P1 & P2) & Rw & a & t & E & G & S1 & S2).
      eapply good_weak; [eapply append_ok; eauto|].
      intros h2 l2 I2 ((P3 & P4) & Rw2). split; [split; congruence|]. split.
      * unfold live. rewrite Rw2, filter_app. rewrite P3, P4, P1, P2. cbn [filter]. rewrite T. f_equal.
        destruct Rw as [-> | ->]; [reflexivity|apply live_raw_live].
      * rewrite Rw2. apply incl_app; [|apply incl_appr, incl_refl]. apply incl_appl.
        destruct Rw as [-> | ->]; [apply incl_refl|]. intros y Hy. apply filter_In in Hy. apply Hy.
  - rewrite andb_false_r. exists h, l. split; [reflexivity|]. split; [exact I|]. split; [apply keeps_refl|]. split; [split; reflexivity|].
    split; [reflexivity|apply incl_appl, incl_refl].
Qed.

(** ** Growing *)

Lemma trim_spec bs be (xs : list (tag_index V)) : forall n, n <= length xs ->
  exists k, trim bs be xs n = Done k /\ k <= n /\
    filter (tagged bs be) (firstn k xs) = filter (tagged bs be) (firstn n xs).
Proof.
  induction n as [|n IH]; intros H; cbn [trim].
  - exists 0. auto.
  - destruct (nth_error xs n) as [x|] eqn:G; [|apply nth_error_None in G; lia].
    assert (F : firstn (S n) xs = firstn n xs ++ [x]).
    { clear -G. revert n G. induction xs as [|y q IH]; intros [|n] G; cbn in *; try discriminate.
      - inversion G; reflexivity.
      - f_equal. apply IH, G. }
    destruct (tagged bs be x) eqn:T.
    + exists (S n). auto.
    + destruct IH as (k & K1 & K2 & K3); [lia|]. exists k. split; [exact K1|]. split; [lia|].
      rewrite K3, F, filter_app. cbn. rewrite T, app_nil_r. reflexivity.
Qed.

Lemma finds_dirty_spec bs be bs' be' (xs : list (tag_index V)) : forall n, n <= length xs ->
  exists b, finds_dirty bs be bs' be' xs n = Done b /\
    (b = false -> Forall (fun x => tagged bs be x = false -> tagged bs' be' x = false) (firstn n xs)).
Proof.
  induction n as [|n IH]; intros H; cbn [finds_dirty].
  - exists false. split; [reflexivity|]. intros _. constructor.
  - destruct (nth_error xs n) as [x|] eqn:G; [|apply nth_error_None in G; lia].
    assert (F : firstn (S n) xs = firstn n xs ++ [x]).
    { clear -G. revert n G. induction xs as [|y q IH]; intros [|n] G; cbn in *; try discriminate.
      - inversion G; reflexivity.
      - f_equal. apply IH, G. }
    destruct (negb (tagged bs be x) && tagged bs' be' x) eqn:T.
    + exists true. split; [reflexivity|discriminate].
    + destruct IH as (b & B1 & B2); [lia|]. exists b. split; [exact B1|]. intros Hb. rewrite F. apply Forall_app.
      split; [apply B2, Hb|]. constructor; [|constructor]. intros Tx. rewrite Tx in T. exact T.
Qed.

Lemma tagged_grow bs be bs' be' x : (bs' <= bs)%Z -> (be <= be')%Z -> tagged bs be x = true -> tagged bs' be' x = true.
Proof.
  unfold tagged, has_tagged. intros A B H. apply andb_prop in H. destruct H as [H1 H2].
  apply Z.ltb_lt in H1, H2. apply andb_true_intro. split; apply Z.ltb_lt; lia.
Qed.

Lemma expand_good h l R ds de : inv h (l :: R) ->
  good h l R (expand_buffer ds de h l) (fun h' l' =>
    tl_start l' = (tl_start l - Z.of_nat ds)%Z /\ tl_end l' = (tl_end l + Z.of_nat de)%Z /\
    live h' l' = live h l /\
    (live h l = raw h l -> raw h' l' = live h' l') /\ incl (raw h' l') (raw h l)).
Proof.
  intros I. pose proof (ok_head _ _ _ I) as [Po Ol]. unfold expand_buffer.
  set (bs := tl_start l). set (be := tl_end l). set (bs' := (bs - Z.of_nat ds)%Z). set (be' := (be + Z.of_nat de)%Z).
  (* moving the ends once the array is in order *)
  assert (Mv : forall h1 l1, inv h1 (l1 :: R) -> tl_start l1 = bs -> tl_end l1 = be ->
    keeps h h1 R -> filter (tagged bs be) (raw h1 l1) = live h l ->
    Forall (fun x => tagged bs be x = false -> tagged bs' be' x = false) (raw h1 l1) ->
    (live h l = raw h l -> raw h1 l1 = live h l) -> incl (raw h1 l1) (raw h l) ->
    good h l R (Done (h1, mk_tl bs' be' (tl_size l1) (tl_tia l1))) (fun h' l' =>
      tl_start l' = bs' /\ tl_end l' = be' /\ live h' l' = live h l /\
      (live h l = raw h l -> raw h' l' = live h' l') /\ incl (raw h' l') (raw h l))).
  { intros h1 l1 I1 E1 E2 K F D W Ic. exists h1, (mk_tl bs' be' (tl_size l1) (tl_tia l1)). split; [reflexivity|].
    assert (Rw : raw h1 (mk_tl bs' be' (tl_size l1) (tl_tia l1)) = raw h1 l1) by reflexivity.
    assert (Lv : filter (tagged bs' be') (raw h1 l1) = live h l).
    { rewrite <- F. clear -D. revert D. induction (raw h1 l1) as [|x q IH]; intros D; cbn; [reflexivity|].
      inversion D as [|? ? Dx Dq]; subst. rewrite IH by exact Dq. destruct (tagged bs be x) eqn:T.
      - rewrite (tagged_grow bs be bs' be' x); auto; unfold bs', be'; lia.
      - rewrite Dx by reflexivity. reflexivity. }
    split; [|split; [exact K|]].
    - destruct I1 as [J1 J2]. split.
      + intros b. specialize (J1 b). rewrite cnt_cons in *. exact J1.
      + inversion J2 as [|? ? J3 J4]; subst. constructor; [|exact J4]. destruct J3 as [J3 J5]. split; [cbn; unfold bs', be'; lia|exact J5].
    - cbn [tl_start tl_end]. split; [reflexivity|]. split; [reflexivity|]. unfold live at 1 4. cbn [tl_start tl_end]. rewrite Rw.
      split; [exact Lv|]. split; [|exact Ic]. intros X. rewrite Lv. apply W, X. }
  destruct (tl_tia l) as [a|] eqn:E.
  - destruct (inv_array h l R a I E) as (t & G & Sz & C & O). rewrite (get_some _ _ _ G). cbn [obind].
    destruct (Nat.eqb_spec (ta_rc t) 1) as [C1|C1].
    + destruct (compact_ok h l R a t I E G C1) as (h1 & l1 & t1 & D & I1 & K1 & Rw & P1 & P2 & E1 & G1 & C2 & Cp & Sz1).
      rewrite D. cbn [obind]. apply Mv; auto.
      * rewrite Rw. apply live_raw_live.
      * rewrite Rw. apply Forall_forall. intros x Hx Tx. unfold live in Hx. apply filter_In in Hx. fold bs be in Hx. destruct Hx; congruence.
      * rewrite Rw. intros x Hx. apply filter_In in Hx. apply Hx.
    + destruct (trim_spec bs be (ta_idx t) (tl_size l) Sz) as (k & K1 & K2 & K3). rewrite K1. cbn [obind].
      destruct (finds_dirty_spec bs be bs' be' (ta_idx t) k) as (b & B1 & B2); [lia|]. rewrite B1. cbn [obind].
      set (l1 := mk_tl bs be k (Some a)).
      assert (I1 : inv h (l1 :: R)).
      { destruct I as [J1 J2]. split.
        - intros c. specialize (J1 c). rewrite !(cnt_some c a l) in J1 by exact E. rewrite !(cnt_some c a l1) by reflexivity. exact J1.
        - inversion J2; subst. constructor; [|assumption]. split; [exact Po|]. cbn. exists t. split; [exact G|lia]. }
      assert (Rl : raw h l1 = firstn k (ta_idx t)) by (unfold raw; cbn; rewrite G; reflexivity).
      assert (R0 : raw h l = firstn (tl_size l) (ta_idx t)) by (unfold raw; rewrite E, G; reflexivity).
      assert (Ll : live h l1 = live h l).
      { unfold live. rewrite Rl, R0. exact K3. }
      destruct b.
      * destruct (reallocate_ok h l1 R a t (ta_cap t) I1 eq_refl G) as (h2 & l2 & t2 & D2 & I2 & Kp & Rw2 & P3 & P4 & E2 & G2 & Cp2 & Sz2); [lia|].
        rewrite D2. cbn [obind]. apply Mv; auto.
        -- rewrite Rw2. rewrite <- Ll. apply (live_raw_live h l1).
        -- rewrite Rw2. apply Forall_forall. intros x Hx Tx. unfold live in Hx. apply filter_In in Hx. cbn in Hx. destruct Hx; congruence.
        -- intros _. rewrite Rw2. exact Ll.
        -- rewrite Rw2, Ll. intros x Hx. apply filter_In in Hx. apply Hx.
      * cbn [obind]. apply (Mv h l1); auto.
        -- apply keeps_refl.
        -- rewrite Rl. apply B2. reflexivity.
        -- intros X. rewrite <- Ll. symmetry. unfold live. rewrite Rl. cbn [tl_start tl_end l1]. apply filter_full.
           assert (Q : length (filter (tagged bs be) (firstn k (ta_idx t))) = length (firstn (tl_size l) (ta_idx t))).
           { rewrite K3. unfold live in X. rewrite R0 in X. fold bs be in X. rewrite X. reflexivity. }
           pose proof (filter_len (tagged bs be) (firstn k (ta_idx t))). rewrite Q in *. rewrite !firstn_length in *. lia.
        -- rewrite Rl, R0. intros x Hx. replace k with (Nat.min k (tl_size l)) in Hx by lia.
           rewrite <- firstn_firstn in Hx. rewrite <- (firstn_skipn k (firstn (tl_size l) (ta_idx t))). apply in_or_app. left. exact Hx.
  - cbn [obind]. apply Mv; auto.
    + apply keeps_refl.
    + unfold raw. rewrite E. constructor.
    + apply incl_refl.
Qed.

(** ** Adding a list to another one *)

Definition fair h l R (r : outcome (heap * tlist)) (P : heap -> tlist -> Prop) : Prop :=
  r = AssertFail \/ good h l R r P.

Lemma fair_trans h l R (P Q : heap -> tlist -> Prop) (r1 : outcome (heap * tlist)) f : fair h l R r1 P ->
  (forall h1 l1, inv h1 (l1 :: R) -> keeps h h1 R -> P h1 l1 -> fair h1 l1 R (f (h1, l1)) Q) ->
  fair h l R (obind r1 f) Q.
Proof.
  intros [E|(h1 & l1 & D & I1 & K1 & H1)] F; [left; rewrite E; reflexivity|].
  destruct (F h1 l1 I1 K1 H1) as [E|(h2 & l2 & D2 & I2 & K2 & H2)].
  - left. rewrite D. exact E.
  - right. exists h2, l2. rewrite D. cbn [obind]. repeat split; auto; try apply I2. eapply keeps_trans; eassumption.
Qed.
Lemma fair_weak h l R (r : outcome (heap * tlist)) (P Q : heap -> tlist -> Prop) : fair h l R r P ->
  (forall h' l', inv h' (l' :: R) -> keeps h h' R -> P h' l' -> Q h' l') -> fair h l R r Q.
Proof. intros [E|(h1 & l1 & D & I1 & K1 & H1)] F; [left; exact E|]. right. exists h1, l1. auto 6. Qed.

Definition add_tags l (acc xs : list (tag_index V)) :=
  fold_left (fun acc x => if tagged (tl_start l) (tl_end l) x then add1 acc x else acc) xs acc.

Lemma raw_pos h R r : inv h R -> In r R -> Forall (fun x => (x_start x < x_end x)%Z) (raw h r).
Proof.
  intros I Hr. pose proof (ok_in _ _ _ I Hr) as [_ O]. unfold raw. destruct (tl_tia r) as [a|]; [|constructor].
  destruct O as (t & G & _). rewrite G. destruct I as [I _]. specialize (I a). rewrite G in I.
  destruct I as [_ (_ & _ & _ & F)]. rewrite Forall_forall in *. intros x Hx. apply F.
  rewrite <- (firstn_skipn (tl_size r) (ta_idx t)). apply in_or_app. left. exact Hx.
Qed.

Lemma copy_tags_ok r c delta : tl_tia r = Some c -> forall n k h l R, inv h (l :: R) -> In r R ->
  k + n = tl_size r ->
  fair h l R (copy_tags c delta k n h l) (fun h' l' => same_place l l' /\
    live h' l' = add_tags l (live h l) (map (shift delta) (skipn k (raw h r))) /\
    incl (raw h' l') (raw h l ++ map (shift delta) (raw h r))).
Proof.
  intros E. induction n as [|n IH]; intros k h l R I Hr B; cbn [copy_tags].
  - right. exists h, l. split; [reflexivity|]. split; [exact I|]. split; [apply keeps_refl|]. split; [split; reflexivity|].
    assert (length (raw h r) = tl_size r) as Lr.
    { pose proof (ok_in _ r _ I (or_intror Hr)) as [_ O]. unfold raw. rewrite E in *. destruct O as (t & G & Sz). rewrite G, firstn_length. lia. }
    rewrite skipn_all2 by lia. split; [reflexivity|apply incl_appl, incl_refl].
  - pose proof (ok_in _ r _ I (or_intror Hr)) as [_ O]. rewrite E in O. destruct O as (t & G & Sz).
    rewrite (get_some _ _ _ G). cbn [obind].
    destruct (nth_error (ta_idx t) k) as [x|] eqn:X; [|apply nth_error_None in X; lia].
    destruct (in_space (x_start x + delta) && in_space (x_end x + delta)); [|left; reflexivity].
    assert (Rw : raw h r = firstn (tl_size r) (ta_idx t)) by (unfold raw; rewrite E, G; reflexivity).
    assert (Xr : nth_error (raw h r) k = Some x) by (rewrite Rw, nth_error_firstn_lt by lia; exact X).
    pose proof (raw_pos h (l :: R) r I (or_intror Hr)) as F. rewrite Forall_forall in F.
    pose proof (F x (nth_error_In _ _ Xr)) as Px.
    eapply fair_trans; [right; apply (insert_tag_good h l R (shift delta x) I); cbn; lia|].
    intros h1 l1 I1 K1 ((P1 & P2) & Lv & Ic). eapply fair_weak; [apply (IH (S k) h1 l1 R I1 Hr); lia|].
    intros h2 l2 I2 K2 ((P3 & P4) & Lv2 & Ic2). split; [split; congruence|]. rewrite Lv2, Lv.
    unfold keeps in K1. rewrite Forall_forall in K1. rewrite (K1 r Hr) in *. split.
    2: { eapply incl_tran; [exact Ic2|]. apply incl_app; [|apply incl_appr, incl_refl].
         eapply incl_tran; [exact Ic|]. apply incl_app; [apply incl_appl, incl_refl|]. apply incl_appr. intros y [<-|[]].
         apply in_map. eapply nth_error_In, Xr. }
    assert (Sk : skipn k (raw h r) = x :: skipn (S k) (raw h r)).
    { clear - Xr. revert k Xr. induction (raw h r) as [|y q IH]; intros [|k] H; cbn in *; try discriminate.
      - inversion H; reflexivity.
      - apply IH, H. }
    rewrite Sk. unfold add_tags. cbn [map fold_left]. rewrite P1, P2. reflexivity.
Qed.

Lemma copy_all_ok r delta h l R : inv h (l :: R) -> In r R ->
  fair h l R (copy_all r delta h l) (fun h' l' => same_place l l' /\
    live h' l' = add_tags l (live h l) (map (shift delta) (raw h r)) /\
    incl (raw h' l') (raw h l ++ map (shift delta) (raw h r))).
Proof.
  intros I Hr. unfold copy_all. destruct (tl_tia r) as [c|] eqn:E.
  - apply (copy_tags_ok r c delta E (tl_size r) 0 h l R I Hr). lia.
  - right. exists h, l. split; [reflexivity|]. split; [exact I|]. split; [apply keeps_refl|]. split; [split; reflexivity|].
    assert (raw h r = []) as -> by (unfold raw; rewrite E; reflexivity). split; [reflexivity|apply incl_appl, incl_refl].
Qed.

Lemma add_tags_filter l xs : forall acc,
  add_tags l acc xs = add_new acc (filter (tagged (tl_start l) (tl_end l)) xs).
Proof.
  unfold add_tags, add_new. induction xs as [|x xs IH]; intros acc; cbn; [reflexivity|].
  destruct (tagged (tl_start l) (tl_end l) x); cbn; apply IH.
Qed.

Lemma keeps_live h h' l : raw h' l = raw h l -> live h' l = live h l.
Proof. unfold live. intros ->. reflexivity. Qed.

(** Both [AddAtStart(rhs)] and [AddAtEnd(rhs)]. *)
Lemma add_list_ok r ds de (origin : tlist -> Z) h l R (pre : bool) : inv h (l :: R) -> In r (l :: R) ->
  fair h l R
    (let! h0 := add_ref_opt h (tl_tia r) in
     let! (h1, l1) := (if pre then expand_buffer ds de h0 l else AssertFail) in
     let! (h2, l2) := copy_all r (origin l1) h1 l1 in
     let! h3 := release_opt h2 (tl_tia r) in
     Done (h3, l2))
    (fun h' l' => tl_start l' = (tl_start l - Z.of_nat ds)%Z /\ tl_end l' = (tl_end l + Z.of_nat de)%Z /\
      exists l1, tl_start l1 = tl_start l' /\ tl_end l1 = tl_end l' /\
      live h' l' = add_tags l' (live h l) (map (shift (origin l1)) (raw h r)) /\
      incl (raw h' l') (raw h l ++ map (shift (origin l1)) (raw h r))).
Proof.
  intros I Hr. destruct (add_ref_ok h (l :: R) r I Hr) as (h0 & D0 & I0 & K0). rewrite D0. cbn [obind].
  destruct pre; [|left; reflexivity].
  assert (I0' : inv h0 (l :: r :: R)) by (eapply inv_perm; [apply perm_swap|exact I0]).
  destruct (expand_good h0 l (r :: R) ds de I0') as (h1 & l1 & D1 & I1 & K1 & S1 & E1 & L1 & _ & Ic1).
  rewrite D1. cbn [obind].
  destruct (copy_all_ok r (origin l1) h1 l1 (r :: R) I1 (or_introl eq_refl)) as [F|(h2 & l2 & D2 & I2 & K2 & (S2 & E2) & L2 & Ic2)];
    [left; rewrite F; reflexivity|].
  rewrite D2. cbn [obind].
  destruct (release_ok h2 (l2 :: R) r) as (h3 & D3 & I3 & K3); [eapply inv_perm; [apply perm_swap|exact I2]|].
  rewrite D3. cbn [obind]. right. exists h3, l2. split; [reflexivity|]. split; [exact I3|].
  unfold keeps in *. rewrite Forall_forall in K0, K1, K2, K3. split.
  { apply Forall_forall. intros q Hq. rewrite (K3 q), (K2 q), (K1 q), (K0 q); cbn; auto. }
  split; [congruence|]. split; [congruence|]. exists l1. split; [congruence|]. split; [congruence|].
  split.
  2: { rewrite (K3 l2) by (cbn; auto). eapply incl_tran; [exact Ic2|]. rewrite (K1 r), (K0 r) by (cbn; auto).
       apply incl_app; [|apply incl_appr, incl_refl]. apply incl_appl. eapply incl_tran; [exact Ic1|].
       rewrite (K0 l) by (cbn; auto). apply incl_refl. }
  rewrite (keeps_live h2 h3) by (apply K3; cbn; auto). rewrite L2, L1.
  rewrite (K1 r) by (cbn; auto). rewrite (K0 r) by (cbn; auto).
  rewrite (keeps_live h h0 l) by (apply K0; cbn; auto). unfold add_tags. rewrite S2, E2. reflexivity.
Qed.

(** ** Programs *)

Definition cont h l : nat * list (tag_index V) :=
  (Z.to_nat (tl_end l - tl_start l), map (shift (- tl_start l)) (live h l)).

Definition winv (w : world V) : Prop := inv (w_heap w) (somes (w_lists w)).

Lemma touches_shift h l x : ok h l ->
  touches (Z.to_nat (tl_end l - tl_start l)) (shift (- tl_start l) x) = tagged (tl_start l) (tl_end l) x.
Proof.
  intros [P _]. unfold touches, tagged, has_tagged, shift. cbn [x_start x_end]. rewrite Z2Nat.id by lia.
  f_equal; apply Bool.eq_true_iff_eq; rewrite !Z.ltb_lt; lia.
Qed.

Lemma content_cont h l : ok h l ->
  let n := Z.to_nat (tl_end l - tl_start l) in
  (n, filter (touches n) (map (shift (- tl_start l)) (raw h l))) = cont h l.
Proof.
  intros O. cbn zeta. unfold cont. f_equal. unfold live. induction (raw h l) as [|x q IH]; cbn [map filter]; [reflexivity|].
  rewrite (touches_shift h l x O). destruct (tagged (tl_start l) (tl_end l) x); cbn [map]; rewrite IH; reflexivity.
Qed.

Lemma var_in (w : world V) i l : var w i = Some l -> nth_error (w_lists w) i = Some (Some l).
Proof. unfold var. destruct (nth_error (w_lists w) i) as [o|]; [|discriminate]. intros ->. reflexivity. Qed.
Lemma winv_ok (w : world V) i l : winv w -> var w i = Some l -> ok (w_heap w) l.
Proof.
  intros I E. apply var_in, nth_error_In in E. apply (ok_in _ _ _ I), in_somes, E.
Qed.
Lemma content_of_cont (w : world V) i : winv w -> content_of w i = option_map (cont (w_heap w)) (var w i).
Proof.
  intros I. unfold content_of. destruct (var w i) as [l|] eqn:E; [|reflexivity].
  pose proof (winv_ok w i l I E) as O. rewrite (raw_elements _ _ O). cbn [option_map]. f_equal. apply (content_cont _ _ O).
Qed.
Lemma table_map (w : world V) : winv w ->
  table w = map (option_map (cont (w_heap w))) (w_lists w).
Proof.
  intros I. apply list_ext. intros i. unfold table. rewrite !nth_error_map.
  destruct (Nat.lt_ge_cases i (length (w_lists w))) as [H|H].
  - rewrite (nth_error_nth' (seq 0 (length (w_lists w))) 0) by (rewrite seq_length; exact H). rewrite seq_nth by exact H.
    cbn [option_map Nat.add]. rewrite content_of_cont by exact I. unfold var.
    destruct (nth_error (w_lists w) i) eqn:E; [reflexivity|]. apply nth_error_None in E. lia.
  - rewrite (proj2 (nth_error_None (seq 0 _) i)) by (rewrite seq_length; exact H).
    rewrite (proj2 (nth_error_None (w_lists w) i)) by exact H. reflexivity.
Qed.
Lemma con_table (w : world V) i : winv w -> con (table w) i = option_map (cont (w_heap w)) (var w i).
Proof.
  intros I. rewrite (table_map w I). unfold con, var. rewrite nth_error_map.
  destruct (nth_error (w_lists w) i); reflexivity.
Qed.

Lemma cont_keeps h h' l : raw h' l = raw h l -> cont h' l = cont h l.
Proof. intros E. unfold cont. rewrite (keeps_live _ _ _ E). reflexivity. Qed.

Lemma table_upd (w : world V) h' i o : winv w -> winv (mk_world h' (upd (w_lists w) i o)) ->
  keeps (w_heap w) h' (somes (upd (w_lists w) i None)) ->
  table (mk_world h' (upd (w_lists w) i o)) = upd (table w) i (option_map (cont h') o).
Proof.
  intros I I' K. rewrite (table_map _ I'), (table_map _ I). cbn [w_heap w_lists].
  apply list_ext. intros k. rewrite nth_error_map, !nth_upd, map_length, nth_error_map.
  destruct (Nat.eqb_spec i k) as [->|Ne].
  - destruct (Nat.ltb_spec k (length (w_lists w))) as [B|B]; [reflexivity|].
    rewrite (proj2 (nth_error_None (w_lists w) k) B). reflexivity.
  - destruct (nth_error (w_lists w) k) as [[l|]|] eqn:E; cbn [option_map]; try reflexivity.
    cbn [andb option_map]. do 2 f_equal. apply cont_keeps. unfold keeps in K. rewrite Forall_forall in K. apply K, in_somes.
    rewrite <- (nth_upd_neq (w_lists w) i k None) in E by exact Ne. eapply nth_error_In, E.
Qed.

Lemma winv_take (w : world V) i l : winv w -> var w i = Some l ->
  inv (w_heap w) (l :: somes (upd (w_lists w) i None)).
Proof. intros I E. eapply inv_perm; [|exact I]. apply somes_take, var_in, E. Qed.
Lemma var_lt (w : world V) i l : var w i = Some l -> i < length (w_lists w).
Proof. intros E. apply var_in, nth_lt in E. exact E. Qed.

Lemma changed_ok (w : world V) i l (r : outcome (heap * tlist)) (P : heap -> tlist -> Prop) : winv w -> var w i = Some l ->
  fair (w_heap w) l (somes (upd (w_lists w) i None)) r P ->
  changed w i r = AssertFail \/
  exists h' l', changed w i r = Done (mk_world h' (upd (w_lists w) i (Some l'))) /\
    winv (mk_world h' (upd (w_lists w) i (Some l'))) /\
    keeps (w_heap w) h' (somes (upd (w_lists w) i None)) /\ P h' l'.
Proof.
  intros I E [F|(h' & l' & D & I1 & K & Q)]; unfold changed.
  - left. rewrite F. reflexivity.
  - right. exists h', l'. rewrite D. cbn [obind]. split; [reflexivity|]. split; [|auto].
    unfold winv. cbn [w_heap w_lists]. eapply inv_perm; [symmetry; apply somes_give, (var_lt _ _ _ E)|exact I1].
Qed.

Lemma shift_shift a b x : shift a (shift b x) = shift (b + a) x.
Proof. unfold shift. cbn. f_equal; lia. Qed.
Lemma map_shift_shift a b (xs : list (tag_index V)) : map (shift a) (map (shift b) xs) = map (shift (b + a)) xs.
Proof. rewrite map_map. apply map_ext. intros x. apply shift_shift. Qed.
Lemma shift_0 x : shift 0 x = x.
Proof. destruct x. unfold shift. cbn. f_equal; lia. Qed.
Lemma map_shift_0 (xs : list (tag_index V)) : map (shift 0) xs = xs.
Proof. rewrite (map_ext _ (fun x => x)); [apply map_id|apply shift_0]. Qed.

Lemma same_shift d x y : same_range (shift d x) (shift d y) = same_range x y.
Proof.
  unfold same_range, shift. cbn. f_equal; [f_equal|]; apply Bool.eq_true_iff_eq; rewrite !Z.eqb_eq; lia.
Qed.
Lemma add_new_shift d (xs : list (tag_index V)) : forall acc,
  map (shift d) (add_new acc xs) = add_new (map (shift d) acc) (map (shift d) xs).
Proof.
  unfold add_new. induction xs as [|x xs IH]; intros acc; cbn [fold_left map]; [reflexivity|]. rewrite IH. f_equal.
  assert (Ex : existsb (same_range (shift d x)) (map (shift d) acc) = existsb (same_range x) acc).
  { clear IH. induction acc as [|y acc IH]; cbn; [reflexivity|]. rewrite IH, same_shift. reflexivity. }
  rewrite Ex. destruct (existsb (same_range x) acc); [reflexivity|]. rewrite map_app. reflexivity.
Qed.

Lemma cont_expand h l h' l' ds de : ok h l ->
  tl_start l' = (tl_start l - Z.of_nat ds)%Z -> tl_end l' = (tl_end l + Z.of_nat de)%Z ->
  live h' l' = live h l ->
  cont h' l' = (fst (cont h l) + ds + de, map (shift (Z.of_nat ds)) (snd (cont h l))).
Proof.
  intros [P _] E1 E2 Lv. unfold cont. cbn [fst snd]. rewrite Lv, E1, E2, map_shift_shift. f_equal; [lia|].
  do 2 f_equal. lia.
Qed.

Lemma filter_shrink bs be bs' be' (xs : list (tag_index V)) : (bs <= bs')%Z -> (be' <= be)%Z ->
  filter (tagged bs' be') (filter (tagged bs be) xs) = filter (tagged bs' be') xs.
Proof.
  intros A B. induction xs as [|x xs IH]; cbn; [reflexivity|].
  destruct (tagged bs be x) eqn:T; cbn; [destruct (tagged bs' be' x); rewrite IH; reflexivity|].
  destruct (tagged bs' be' x) eqn:T'; [|exact IH]. rewrite (tagged_grow bs' be' bs be x) in T; auto; discriminate.
Qed.
Lemma cont_shrink h l a b : ok h l -> (Z.of_nat (a + b) <= tl_end l - tl_start l)%Z ->
  let l' := mk_tl (tl_start l + Z.of_nat a) (tl_end l - Z.of_nat b) (tl_size l) (tl_tia l) in
  cont h l' = (fst (cont h l) - a - b,
    filter (touches (fst (cont h l) - a - b)) (map (shift (- Z.of_nat a)) (snd (cont h l)))).
Proof.
  intros [P Q] B l'. unfold cont. cbn [fst snd].
  assert (En : Z.to_nat (tl_end l' - tl_start l') = Z.to_nat (tl_end l - tl_start l) - a - b) by (cbn; lia).
  rewrite <- En. f_equal.
  assert (O' : ok h l') by (split; [cbn; lia|exact Q]).
  assert (Lv : live h l' = filter (tagged (tl_start l') (tl_end l')) (live h l)).
  { unfold live at 2. rewrite filter_shrink by (cbn; lia). reflexivity. }
  rewrite Lv, map_shift_shift. replace (- tl_start l + - Z.of_nat a)%Z with (- tl_start l')%Z by (cbn; lia).
  clear Lv. induction (live h l) as [|x q IH]; cbn [filter map]; [reflexivity|]. rewrite (touches_shift h l' x O').
  destruct (tagged (tl_start l') (tl_end l') x); cbn [map]; rewrite IH; reflexivity.
Qed.

Lemma raw_whole h l n : ok h l -> num_tags h l = Done n -> n = tl_size l -> raw h l = live h l.
Proof.
  intros O H E. unfold num_tags in H. rewrite (raw_elements _ _ O) in H. cbn [obind] in H. inversion H as [H1].
  symmetry. unfold live. apply filter_full. rewrite H1, E. destruct O as [_ O]. unfold raw. destruct (tl_tia l) as [a|].
  - destruct O as (t & G & Sz). rewrite G, firstn_length. lia.
  - cbn. exact O.
Qed.

Lemma live_pos_tagged h l l' d : (tl_start l' <= tl_start l + d)%Z -> (tl_end l + d <= tl_end l')%Z ->
  filter (tagged (tl_start l') (tl_end l')) (map (shift d) (live h l)) = map (shift d) (live h l).
Proof.
  intros A B. apply filter_all, Forall_forall. intros y Hy. apply in_map_iff in Hy. destruct Hy as (x & <- & Hx).
  unfold live in Hx. apply filter_In in Hx. destruct Hx as [_ T]. unfold tagged, has_tagged in *. cbn [shift x_start x_end].
  apply andb_prop in T. destruct T as [T1 T2]. apply Z.ltb_lt in T1, T2. apply andb_true_intro. split; apply Z.ltb_lt; lia.
Qed.

Definition fullc h l : nat * list (tag_index V) :=
  (Z.to_nat (tl_end l - tl_start l), map (shift (- tl_start l)) (raw h l)).
Lemma full_of_fullc (w : world V) i : winv w -> full_of w i = option_map (fullc (w_heap w)) (var w i).
Proof.
  intros I. unfold full_of. destruct (var w i) as [l|] eqn:E; [|reflexivity].
  pose proof (winv_ok w i l I E) as O. rewrite (raw_elements _ _ O). reflexivity.
Qed.
Lemma full_content (w : world V) i :
  content_of w i = option_map (fun c => (fst c, filter (touches (fst c)) (snd c))) (full_of w i).
Proof.
  unfold content_of, full_of. destruct (var w i) as [l|]; [|reflexivity]. destruct (elements (w_heap w) l); reflexivity.
Qed.

(** What a statement does. *)
Definition effect (o : op V) (w w' : world V) : Prop :=
  winv w' /\
  (forall i, i < length (w_lists w) -> ~ target o i -> full_of w' i = full_of w i) /\
  table w' = spec_exact (sources o w) o (table w).

Lemma con_upd (A : list (option (nat * list (tag_index V)))) i k o : i <> k -> con (upd A i o) k = con A k.
Proof. intros H. unfold con. rewrite nth_upd_neq by exact H. reflexivity. Qed.
Lemma con_app (A B : list (option (nat * list (tag_index V)))) k : k < length A -> con (A ++ B) k = con A k.
Proof. intros H. unfold con. rewrite nth_error_app1 by exact H. reflexivity. Qed.
Lemma table_length (w : world V) : length (table w) = length (w_lists w).
Proof. unfold table. rewrite map_length, seq_length. reflexivity. Qed.

Lemma table_add (w : world V) h' l' : winv w -> winv (mk_world h' (w_lists w ++ [Some l'])) ->
  keeps (w_heap w) h' (somes (w_lists w)) ->
  table (mk_world h' (w_lists w ++ [Some l'])) = table w ++ [Some (cont h' l')].
Proof.
  intros I I' K. rewrite (table_map _ I'), (table_map _ I). cbn [w_heap w_lists]. rewrite map_app. f_equal.
  apply map_ext_in. intros [l|] H; [|reflexivity]. cbn. f_equal. apply cont_keeps.
  unfold keeps in K. rewrite Forall_forall in K. apply K, in_somes, H.
Qed.

Lemma winv_add (w : world V) h' l' : inv h' (l' :: somes (w_lists w)) -> winv (mk_world h' (w_lists w ++ [Some l'])).
Proof.
  intros I. unfold winv. cbn [w_heap w_lists]. rewrite somes_app. cbn [somes].
  eapply inv_perm; [|exact I]. apply Permutation_cons_append.
Qed.

(** A statement that changes variable [i] only. *)
Lemma effect_upd (o : op V) (w : world V) i h' o' : winv w -> target o i ->
  winv (mk_world h' (upd (w_lists w) i o')) ->
  keeps (w_heap w) h' (somes (upd (w_lists w) i None)) ->
  spec_exact (sources o w) o (table w) = upd (table w) i (option_map (cont h') o') ->
  effect o w (mk_world h' (upd (w_lists w) i o')).
Proof.
  intros I T I' K S'. pose proof (table_upd w h' i o' I I' K) as E. split; [exact I'|]. split.
  - intros k _ Nk. rewrite !full_of_fullc by assumption. unfold var. cbn [w_lists w_heap].
    assert (Ne : i <> k) by (intros ->; apply Nk, T). rewrite nth_upd_neq by exact Ne.
    destruct (nth_error (w_lists w) k) as [[l|]|] eqn:N; [|reflexivity..]. cbn. unfold fullc. do 3 f_equal.
    unfold keeps in K. rewrite Forall_forall in K. apply K, in_somes.
    rewrite <- (nth_upd_neq (w_lists w) i k None) in N by exact Ne. eapply nth_error_In, N.
  - rewrite E. symmetry. exact S'.
Qed.
Lemma effect_add (o : op V) (w : world V) h' l' : winv w ->
  inv h' (l' :: somes (w_lists w)) -> keeps (w_heap w) h' (somes (w_lists w)) ->
  spec_exact (sources o w) o (table w) = table w ++ [Some (cont h' l')] ->
  effect o w (mk_world h' (w_lists w ++ [Some l'])).
Proof.
  intros I I' K S'. apply winv_add in I'. pose proof (table_add w h' l' I I' K) as E. split; [exact I'|]. split.
  - intros k B _. rewrite !full_of_fullc by assumption. unfold var. cbn [w_lists w_heap].
    rewrite nth_error_app1 by exact B. destruct (nth_error (w_lists w) k) as [[l|]|] eqn:N; [|reflexivity..].
    cbn. unfold fullc. do 3 f_equal. unfold keeps in K. rewrite Forall_forall in K. apply K, in_somes.
    eapply nth_error_In, N.
  - rewrite E. symmetry. exact S'.
Qed.
Lemma effect_none (o : op V) (w : world V) : winv w -> spec_exact (sources o w) o (table w) = table w -> effect o w w.
Proof. intros I S'. split; [exact I|]. split; [reflexivity|]. symmetry. exact S'. Qed.

Definition outcome_ok (o : op V) (w : world V) : Prop :=
  (step o w = AssertFail /\ (grows o \/ bad_args o (table w) = true)) \/
  (exists w', step o w = Done w' /\ bad_args o (table w) = false /\ effect o w w').

Lemma in_take (w : world V) i j l r : winv w -> var w i = Some l -> var w j = Some r ->
  In r (l :: somes (upd (w_lists w) i None)).
Proof.
  intros I Ei Ej. apply var_in in Ei. eapply Permutation_in; [apply somes_take, Ei|].
  apply in_somes. apply var_in in Ej. eapply nth_error_In, Ej.
Qed.

Lemma step_grow (o : op V) w i l (a b : nat) (pre : bool) (f : outcome (heap * tlist)) : winv w -> var w i = Some l ->
  grows o -> bad_args o (table w) = false -> target o i ->
  f = (if pre then expand_buffer a b (w_heap w) l else AssertFail) ->
  step o w = changed w i f ->
  spec_exact (sources o w) o (table w) = upd (table w) i (Some (fst (cont (w_heap w) l) + a + b,
    map (shift (Z.of_nat a)) (snd (cont (w_heap w) l)))) -> outcome_ok o w.
Proof.
  intros I E G B T F St Sp. unfold outcome_ok. rewrite St, F. destruct pre; [|left; auto].
  destruct (changed_ok w i l _ _ I E (or_intror (expand_good (w_heap w) l _ a b (winv_take w i l I E)))) as [X|X]; [left; auto|].
  destruct X as (h' & l' & X & I' & K & S1 & E1 & L1 & _ & _). right. eexists. split; [exact X|]. split; [exact B|].
  apply effect_upd; auto. rewrite Sp. cbn [option_map]. do 2 f_equal. symmetry.
  apply cont_expand; auto. apply (winv_ok w i l I E).
Qed.

Lemma step_list (o : op V) w i j l r (a b : nat) (d : Z) (origin : tlist -> Z) (pre : bool) (f : outcome (heap * tlist)) :
  winv w -> var w i = Some l -> var w j = Some r ->
  grows o -> bad_args o (table w) = false -> target o i ->
  (a = Z.to_nat (tl_end r - tl_start r) /\ b = 0 /\ d = 0%Z /\ (forall q, origin q = (tl_start q - tl_start r)%Z) \/
   b = Z.to_nat (tl_end r - tl_start r) /\ a = 0 /\ d = Z.of_nat (fst (cont (w_heap w) l)) /\ (forall q, origin q = (tl_end q - tl_end r)%Z)) ->
  f = (let! h0 := add_ref_opt (w_heap w) (tl_tia r) in
     let! (h1, l1) := (if pre then expand_buffer a b h0 l else AssertFail) in
     let! (h2, l2) := copy_all r (origin l1) h1 l1 in
     let! h3 := release_opt h2 (tl_tia r) in
     Done (h3, l2)) ->
  step o w = changed w i f ->
  spec_exact (sources o w) o (table w) = upd (table w) i (Some (fst (cont (w_heap w) l) + a + b,
    add_new (map (shift (Z.of_nat a)) (snd (cont (w_heap w) l)))
      (filter (touches (fst (cont (w_heap w) l) + a + b)) (map (shift d) (snd (fullc (w_heap w) r)))))) -> outcome_ok o w.
Proof.
  intros I Ei Ej G B T Cs F St Sp. unfold outcome_ok. rewrite St, F.
  pose proof (winv_ok w i l I Ei) as Ol. pose proof (winv_ok w j r I Ej) as Or.
  destruct (changed_ok w i l _ _ I Ei (add_list_ok r a b origin (w_heap w) l _ pre (winv_take w i l I Ei) (in_take w i j l r I Ei Ej))) as [X|X]; [left; auto|].
  destruct X as (h' & l' & X & I' & K & S1 & E1 & l1 & Q1 & Q2 & L1 & _). right. eexists. split; [exact X|]. split; [exact B|].
  apply effect_upd; auto. rewrite Sp. cbn [option_map]. do 2 f_equal.
  assert (Eq : cont h' l' = (fst (cont (w_heap w) l) + a + b, map (shift (- tl_start l')) (live h' l'))).
  { unfold cont. cbn [fst snd]. f_equal. destruct Ol as [P _]. rewrite S1, E1. lia. }
  assert (Ol' : ok h' l').
  { apply (winv_ok (mk_world h' (upd (w_lists w) i (Some l'))) i l' I'). unfold var. cbn [w_lists].
    rewrite nth_upd_eq by (apply (var_lt _ _ _ Ei)). reflexivity. }
  rewrite Eq. f_equal. rewrite L1, add_tags_filter.
  assert (Pl : (tl_start l <= tl_end l)%Z) by apply Ol. assert (Pr : (tl_start r <= tl_end r)%Z) by apply Or.
  rewrite add_new_shift. f_equal.
  - unfold cont. cbn [fst snd]. rewrite !map_shift_shift. do 2 f_equal. lia.
  - assert (Fs : forall xs : list (tag_index V), map (shift (- tl_start l')) (filter (tagged (tl_start l') (tl_end l')) xs)
        = filter (touches (Z.to_nat (tl_end l' - tl_start l'))) (map (shift (- tl_start l')) xs)).
    { induction xs as [|x xs IH]; cbn [filter map]; [reflexivity|]. rewrite (touches_shift h' l' x Ol').
      destruct (tagged (tl_start l') (tl_end l') x); cbn [map]; rewrite IH; reflexivity. }
    rewrite Fs. replace (Z.to_nat (tl_end l' - tl_start l')) with (fst (cont (w_heap w) l) + a + b)
      by (unfold cont; cbn [fst]; lia).
    f_equal. unfold fullc. cbn [snd]. rewrite !map_shift_shift. do 2 f_equal.
    destruct Cs as [(-> & -> & -> & Or')|(-> & -> & -> & Or')]; rewrite Or'; unfold cont; cbn [fst]; lia.
Qed.

Lemma on_none (A : list (option (nat * list (tag_index V)))) (w : world V) i : winv w -> var w i = None ->
  con (table w) i = None.
Proof. intros I E. rewrite (con_table w i I), E. reflexivity. Qed.
Lemma on_some (w : world V) i l : winv w -> var w i = Some l ->
  con (table w) i = Some (cont (w_heap w) l).
Proof. intros I E. rewrite (con_table w i I), E. reflexivity. Qed.

Lemma upd_con (A : list (option (nat * list (tag_index V)))) i c : con A i = Some c -> upd A i (Some c) = A.
Proof.
  unfold con. destruct (nth_error A i) as [o|] eqn:E; [|discriminate]. intros ->. apply upd_same, E.
Qed.

Lemma somes_upd_none {A} (L : list (option A)) : forall i, nth_error L i = Some None \/ nth_error L i = None -> somes (upd L i None) = somes L.
Proof.
  intros i [H|H]; [rewrite (upd_same _ _ _ H); reflexivity|]. apply nth_error_None in H. rewrite (upd_beyond _ _ _ H). reflexivity.
Qed.

Lemma step_ok o (w : world V) : winv w -> outcome_ok o w.
Proof.
  intros I.
  assert (Idle : forall o', step o' w = Done w -> bad_args o' (table w) = false -> spec_exact (sources o' w) o' (table w) = table w -> outcome_ok o' w).
  { intros o' E B Sp. right. exists w. split; [exact E|]. split; [exact B|]. apply effect_none; assumption. }
  assert (No : forall i, var w i = None -> con (table w) i = None) by (intros i; apply (on_none [] w i I)).
  destruct o as [|c n|i|i j|i j|i|i n|i j|i n|i n|i j|i n|i id v s n].
  - right. eexists. split; [reflexivity|]. split; [reflexivity|]. apply effect_add; auto.
    + destruct I as [I1 I2]. split.
      * intros a. specialize (I1 a). rewrite !(cnt_none a empty_list) by reflexivity. exact I1.
      * constructor; [|exact I2]. split; [apply Z.le_refl|reflexivity].
    + apply keeps_refl.
  - cbn [step]. unfold outcome_ok, created. cbn [step]. unfold created, new_list, allocate. destruct (Nat.eqb_spec c 0) as [C|C].
    + left. split; [reflexivity|]. left. exact Logic.I.
    + cbn [obind]. generalize (ref_point - Z.of_nat (n / 2))%Z. intros st.
      destruct (in_space st && in_space (st + Z.of_nat n)); [|left; split; [reflexivity|left; exact Logic.I]].
      right. eexists. split; [reflexivity|]. split; [cbn; apply Nat.eqb_neq, C|].
      set (l' := mk_tl st (st + Z.of_nat n) 0 (Some (length (w_heap w)))).
      destruct (alloc_ok (w_heap w) (somes (w_lists w)) (mk_tia 1 c []) l') as [I1 K1]; auto.
      { repeat split; cbn; auto; lia. }
      { cbn. lia. }
      apply effect_add; auto. cbn [spec_exact sources spec_step]. do 2 f_equal. unfold cont, live, raw. cbn [l' tl_tia tl_start tl_end tl_size].
      rewrite nth_error_app2, Nat.sub_diag by lia. cbn. do 2 f_equal. lia.
  - destruct (var w i) as [l|] eqn:E.
    + destruct (add_ref_ok (w_heap w) (somes (w_lists w)) l I) as (h' & D & I1 & K1).
      { apply in_somes. apply var_in in E. eapply nth_error_In, E. }
      right. eexists. split; [cbn [step]; rewrite E; unfold copy_new; rewrite D; reflexivity|]. split; [reflexivity|].
      apply effect_add; auto.
      * inversion K1; auto.
      * cbn [spec_exact sources spec_step]. rewrite (on_some w i l I E). destruct (cont (w_heap w) l) as [n xs] eqn:C. do 2 f_equal.
        rewrite <- C. f_equal. symmetry. apply cont_keeps. inversion K1; auto.
    + apply Idle; cbn; rewrite ?E, ?No by exact E; reflexivity.
  - destruct (Nat.eqb_spec i j) as [<-|Ne].
    + apply Idle; [cbn; rewrite Nat.eqb_refl; reflexivity|reflexivity|]. cbn. destruct (con (table w) i) as [[n xs]|] eqn:C; [|reflexivity].
      apply upd_con, C.
    + destruct (var w i) as [l|] eqn:Ei; [destruct (var w j) as [r|] eqn:Ej|].
      * destruct (add_ref_ok (w_heap w) (somes (w_lists w)) r I) as (h1 & D1 & I1 & K1).
        { apply in_somes. apply var_in in Ej. eapply nth_error_In, Ej. }
        assert (Pm : Permutation (r :: somes (w_lists w)) (l :: r :: somes (upd (w_lists w) i None))).
        { rewrite (somes_take _ _ _ (var_in _ _ _ Ei)). apply perm_swap. }
        destruct (release_ok h1 (r :: somes (upd (w_lists w) i None)) l) as (h2 & D2 & I2 & K2); [eapply inv_perm; eassumption|].
        pose proof (keeps_perm _ _ _ _ Pm K1) as K1'. inversion K1' as [|? ? _ K1'']; subst.
        pose proof (keeps_trans _ _ _ _ K1'' K2) as K3. inversion K3 as [|? ? Kr K4]; subst.
        right. eexists. split.
        { cbn [step]. apply Nat.eqb_neq in Ne. rewrite Ne, Ei, Ej. unfold assign. rewrite D1. cbn [obind]. rewrite D2. reflexivity. }
        split; [reflexivity|]. apply effect_upd; auto.
        -- reflexivity.
        -- unfold winv. cbn [w_heap w_lists]. eapply inv_perm; [symmetry; apply somes_give, (var_lt _ _ _ Ei)|exact I2].
        -- cbn [spec_exact sources spec_step]. rewrite (on_some w i l I Ei), (on_some w j r I Ej). cbn [option_map].
           rewrite (cont_keeps _ _ _ Kr). destruct (cont (w_heap w) l), (cont (w_heap w) r). reflexivity.
      * apply Idle; cbn; apply Nat.eqb_neq in Ne; rewrite ?Ne, ?Ei, ?Ej, ?(No _ Ej); auto.
        destruct (con (table w) i) as [[? ?]|]; reflexivity.
      * apply Idle; cbn; apply Nat.eqb_neq in Ne; rewrite ?Ne, ?Ei, ?(No _ Ei); auto.
  - destruct (Nat.eqb_spec i j) as [<-|Ne].
    + apply Idle; cbn; rewrite ?Nat.eqb_refl; reflexivity.
    + destruct (var w i) as [l|] eqn:Ei; [destruct (var w j) as [r|] eqn:Ej|].
      * right. eexists. split; [cbn [step]; apply Nat.eqb_neq in Ne; rewrite Ne, Ei, Ej; reflexivity|]. split; [reflexivity|].
        set (w' := swap w i j l r).
        pose proof (var_lt _ _ _ Ei) as Li. pose proof (var_lt _ _ _ Ej) as Lj.
        assert (I' : winv w').
        { unfold winv, w', swap, set_var. cbn [w_heap w_lists]. eapply inv_perm; [|exact I].
          rewrite (somes_take _ _ _ (var_in _ _ _ Ei)).
          rewrite (somes_give (upd (w_lists w) i (Some r)) j l) by (rewrite upd_length; exact Lj). constructor.
          assert (Ej' : nth_error (upd (w_lists w) i None) j = Some (Some r)) by (rewrite nth_upd_neq by exact Ne; apply var_in, Ej).
          rewrite (somes_take _ _ _ Ej').
          assert (Ei' : nth_error (upd (upd (w_lists w) i (Some r)) j None) i = Some (Some r)) by (rewrite nth_upd_neq by auto; apply nth_upd_eq, Li).
          rewrite (somes_take _ _ _ Ei'). constructor.
          assert (Eq : upd (upd (w_lists w) i None) j None = upd (upd (upd (w_lists w) i (Some r)) j None) i None).
          { apply list_ext. intros k. rewrite !nth_upd, !upd_length. destruct (Nat.eqb_spec i k), (Nat.eqb_spec j k); subst; try tauto;
            repeat match goal with |- context [?a <? ?b] => destruct (a <? b) eqn:?; [|lia] end; cbn; try reflexivity. }
          rewrite Eq. reflexivity. }
        assert (Tb : table w' = upd (upd (table w) i (Some (cont (w_heap w) r))) j (Some (cont (w_heap w) l))).
        { rewrite (table_map _ I'), (table_map _ I). unfold w', swap, set_var. cbn [w_heap w_lists]. rewrite !map_upd. reflexivity. }
        split; [exact I'|]. split.
        -- intros k _ Nk. cbn in Nk. rewrite !full_of_fullc by assumption. unfold var, w', swap, set_var. cbn [w_lists w_heap].
           rewrite !nth_upd_neq by (intros ->; apply Nk; auto). reflexivity.
        -- rewrite Tb. cbn [spec_exact sources spec_step]. apply Nat.eqb_neq in Ne. rewrite Ne, (on_some w i l I Ei), (on_some w j r I Ej).
           destruct (cont (w_heap w) l), (cont (w_heap w) r). reflexivity.
      * apply Idle; cbn; apply Nat.eqb_neq in Ne; rewrite ?Ne, ?Ei, ?Ej, ?(No _ Ej); auto.
        destruct (con (table w) i) as [[? ?]|]; reflexivity.
      * apply Idle; cbn; apply Nat.eqb_neq in Ne; rewrite ?Ne, ?Ei, ?(No _ Ei); auto.
  - destruct (var w i) as [l|] eqn:E.
    + destruct (release_ok (w_heap w) (somes (upd (w_lists w) i None)) l (winv_take w i l I E)) as (h' & D & I1 & K1).
      right. eexists. split; [cbn [step]; rewrite E; unfold destroy; rewrite D; reflexivity|]. split; [reflexivity|].
      apply effect_upd; auto; [reflexivity|]. cbn [spec_exact sources spec_step]. rewrite (on_some w i l I E).
      destruct (cont (w_heap w) l). reflexivity.
    + apply Idle; cbn; rewrite ?E, ?(No _ E); reflexivity.
  - destruct (var w i) as [l|] eqn:E.
    + eapply (step_grow (AddStart i n) w i l n 0 (in_space (tl_start l - Z.of_nat n))); auto; try reflexivity; try exact Logic.I.
      * cbn [step]. rewrite E. reflexivity.
      * cbn [spec_exact sources spec_step]. rewrite (on_some w i l I E). destruct (cont (w_heap w) l) as [m xs]. cbn [fst snd]. rewrite Nat.add_0_r. reflexivity.
    + apply Idle; cbn; rewrite ?E, ?(No _ E); reflexivity.
  - destruct (var w i) as [l|] eqn:Ei; [destruct (var w j) as [r|] eqn:Ej|].
    + eapply (step_list (AddStartList i j) w i j l r (Z.to_nat (tl_end r - tl_start r)) 0 0 (fun q => (tl_start q - tl_start r)%Z)
        (in_space (tl_start l - Z.of_nat (Z.to_nat (tl_end r - tl_start r))))); auto; try reflexivity; try exact Logic.I.
      * cbn [step]. rewrite Ei, Ej. reflexivity.
      * cbn [spec_exact sources spec_step]. rewrite (full_of_fullc w j I), Ej, (on_some w i l I Ei), (on_some w j r I Ej). cbn [option_map]. unfold cont, fullc. cbn [fst snd]. rewrite Nat.add_0_r, map_shift_0. reflexivity.
    + apply Idle; cbn; rewrite ?Ei, ?Ej, ?(No _ Ej); auto. destruct (con (table w) i) as [[? ?]|]; reflexivity.
    + apply Idle; cbn; rewrite ?Ei, ?(No _ Ei); auto.
  - destruct (var w i) as [l|] eqn:E.
    + pose proof (winv_ok w i l I E) as Ol. unfold outcome_ok. cbn [step bad_args]. rewrite E, (on_some w i l I E). unfold remove_at_start.
      unfold cont at 1 2. destruct Ol as [Pl Ql].
      destruct (Z.leb_spec (tl_start l + Z.of_nat n) (tl_end l)) as [B|B]; cbn [obind].
      * right. eexists. split; [reflexivity|]. split; [apply Nat.ltb_ge; lia|]. apply effect_upd; auto.
        -- reflexivity.
        -- unfold winv. cbn [w_heap w_lists]. eapply inv_perm; [symmetry; apply somes_give, (var_lt _ _ _ E)|].
           pose proof (winv_take w i l I E) as [J1 J2]. split; [intros a; specialize (J1 a); rewrite cnt_cons in *; exact J1|].
           inversion J2; subst. constructor; auto. split; [cbn; lia|exact Ql].
        -- apply keeps_refl.
        -- cbn [spec_exact sources spec_step option_map]. rewrite (on_some w i l I E).
           pose proof (cont_shrink (w_heap w) l n 0 (conj Pl Ql)) as C. cbn zeta in C. rewrite Z.sub_0_r in C. rewrite C by lia.
           destruct (cont (w_heap w) l) as [m xs]. cbn [fst snd]. rewrite Nat.sub_0_r. reflexivity.
      * left. split; [reflexivity|]. right. apply Nat.ltb_lt. lia.
    + apply Idle; cbn; rewrite ?E, ?(No _ E); reflexivity.
  - destruct (var w i) as [l|] eqn:E.
    + eapply (step_grow (AddEnd i n) w i l 0 n (in_space (tl_end l + Z.of_nat n))); auto; try reflexivity; try exact Logic.I.
      * cbn [step]. rewrite E. reflexivity.
      * cbn [spec_exact sources spec_step]. rewrite (on_some w i l I E). destruct (cont (w_heap w) l) as [m xs]. cbn [fst snd].
        rewrite Nat.add_0_r. change (Z.of_nat 0) with 0%Z. rewrite map_shift_0. reflexivity.
    + apply Idle; cbn; rewrite ?E, ?(No _ E); reflexivity.
  - destruct (var w i) as [l|] eqn:Ei; [destruct (var w j) as [r|] eqn:Ej|].
    + eapply (step_list (AddEndList i j) w i j l r 0 (Z.to_nat (tl_end r - tl_start r)) (Z.of_nat (fst (cont (w_heap w) l))) (fun q => (tl_end q - tl_end r)%Z)
        (in_space (tl_end l + Z.of_nat (Z.to_nat (tl_end r - tl_start r))))); auto; try reflexivity; try exact Logic.I.
      * cbn [step]. rewrite Ei, Ej. reflexivity.
      * cbn [spec_exact sources spec_step]. rewrite (full_of_fullc w j I), Ej, (on_some w i l I Ei), (on_some w j r I Ej). cbn [option_map]. unfold cont, fullc. cbn [fst snd].
        rewrite Nat.add_0_r. change (Z.of_nat 0) with 0%Z. rewrite map_shift_0. reflexivity.
    + apply Idle; cbn; rewrite ?Ei, ?Ej, ?(No _ Ej); auto. destruct (con (table w) i) as [[? ?]|]; reflexivity.
    + apply Idle; cbn; rewrite ?Ei, ?(No _ Ei); auto.
  - destruct (var w i) as [l|] eqn:E.
    + pose proof (winv_ok w i l I E) as Ol. unfold outcome_ok. cbn [step bad_args]. rewrite E, (on_some w i l I E). unfold remove_at_end.
      unfold cont at 1 2. destruct Ol as [Pl Ql].
      destruct (Z.leb_spec (tl_start l + Z.of_nat n) (tl_end l)) as [B|B]; cbn [obind].
      * right. eexists. split; [reflexivity|]. split; [apply Nat.ltb_ge; lia|]. apply effect_upd; auto.
        -- reflexivity.
        -- unfold winv. cbn [w_heap w_lists]. eapply inv_perm; [symmetry; apply somes_give, (var_lt _ _ _ E)|].
           pose proof (winv_take w i l I E) as [J1 J2]. split; [intros a; specialize (J1 a); rewrite cnt_cons in *; exact J1|].
           inversion J2; subst. constructor; auto. split; [cbn; lia|exact Ql].
        -- apply keeps_refl.
        -- cbn [spec_exact sources spec_step option_map]. rewrite (on_some w i l I E).
           pose proof (cont_shrink (w_heap w) l 0 n (conj Pl Ql)) as C. cbn zeta in C. change (Z.of_nat 0) with 0%Z in C. rewrite Z.add_0_r in C.
           rewrite C by lia. change (- 0)%Z with 0%Z. rewrite map_shift_0. destruct (cont (w_heap w) l) as [m xs]. cbn [fst snd]. rewrite Nat.sub_0_r. reflexivity.
      * left. split; [reflexivity|]. right. apply Nat.ltb_lt. lia.
    + apply Idle; cbn; rewrite ?E, ?(No _ E); reflexivity.
  - destruct (var w i) as [l|] eqn:E.
    + pose proof (winv_ok w i l I E) as Ol. pose proof Ol as [Pl Ql]. unfold outcome_ok. cbn [step bad_args]. rewrite E, (on_some w i l I E).
      unfold cont at 1 2.
      destruct (Z.leb_spec (Z.of_nat (s + n)) (tl_end l - tl_start l)) as [B|B].
      * destruct (Nat.eqb_spec n 0) as [N0|N0].
        { left. split; [|right; apply orb_true_r]. unfold insert. apply Z.leb_le in B. rewrite B, N0. reflexivity. }
        destruct (changed_ok w i l _ _ I E (or_intror (insert_good (w_heap w) l _ id v s n (winv_take w i l I E) B N0))) as [X|X].
        { exfalso. destruct (insert_good (w_heap w) l _ id v s n (winv_take w i l I E) B N0) as (h' & l' & D & _).
          unfold changed in X. rewrite D in X. discriminate. }
        destruct X as (h' & l' & X & I' & K & (S1 & E1) & L1). right. eexists. split; [exact X|].
        split; [apply orb_false_intro; [apply Nat.ltb_ge; lia|reflexivity]|]. apply effect_upd; auto; [reflexivity|].
        cbn [spec_exact sources spec_step option_map]. rewrite (on_some w i l I E). unfold cont. cbn [fst snd].
        rewrite L1, S1, E1, map_app. do 4 f_equal. cbn [map]. unfold shift. cbn. do 2 f_equal; lia.
      * left. split; [|right; apply orb_true_intro; left; apply Nat.ltb_lt; lia]. unfold insert.
        destruct (Z.leb_spec (Z.of_nat (s + n)) (tl_end l - tl_start l)); [lia|]. reflexivity.
    + apply Idle; cbn; rewrite ?E, ?(No _ E); reflexivity.
Qed.

(** Nothing is hidden in a whole list. *)
Lemma whole_exact o (w : world V) : winv w -> sources_whole o w ->
  spec_exact (sources o w) o (table w) = spec_step o (table w).
Proof.
  intros I W.
  assert (H : forall j m ys n d, con (table w) j = Some (m, ys) -> whole w j -> (0 <= d)%Z -> (d + Z.of_nat m <= Z.of_nat n)%Z ->
            filter (touches n) (map (shift d) match full_of w j with Some (_, ys) => ys | None => [] end) = map (shift d) ys).
  { intros j m ys n d C Wj D1 D2. rewrite (con_table w j I) in C. rewrite (full_of_fullc w j I).
    destruct (var w j) as [r|] eqn:Ej; [|discriminate]. cbn [option_map] in *. pose proof (winv_ok w j r I Ej) as Or.
    assert (Rl : raw (w_heap w) r = live (w_heap w) r) by (eapply raw_whole; [exact Or|apply (Wj r Ej)|reflexivity]).
    unfold fullc. rewrite Rl. unfold cont in C. injection C as C1 C2. rewrite C2. apply filter_all, Forall_forall.
    intros y Hy. apply in_map_iff in Hy. destruct Hy as (x & <- & Hx). rewrite <- C2 in Hx.
    apply in_map_iff in Hx. destruct Hx as (z & <- & Hz). unfold live in Hz. apply filter_In in Hz. destruct Hz as [_ T].
    rewrite <- (touches_shift _ _ _ Or), C1 in T. unfold touches in *.
    change (x_start (shift d (shift (- tl_start r) z))) with (x_start (shift (- tl_start r) z) + d)%Z.
    change (x_end (shift d (shift (- tl_start r) z))) with (x_end (shift (- tl_start r) z) + d)%Z.
    apply andb_prop in T. destruct T as [T1 T2]. apply Z.ltb_lt in T1, T2. apply andb_true_intro. split; apply Z.ltb_lt; lia. }
  destruct o; try reflexivity; cbn [spec_exact spec_step sources sources_whole] in *.
  - destruct (con (table w) i) as [[n xs]|]; [|reflexivity]. destruct (con (table w) j) as [[m ys]|] eqn:C; [|reflexivity].
    do 4 f_equal. rewrite <- (map_shift_0 match full_of w j with Some (_, ys) => ys | None => [] end).
    rewrite (H j m ys (n + m) 0%Z C W) by lia. apply map_shift_0.
  - destruct (con (table w) i) as [[n xs]|]; [|reflexivity]. destruct (con (table w) j) as [[m ys]|] eqn:C; [|reflexivity].
    do 4 f_equal. apply (H j m ys (n + m) (Z.of_nat n) C W); lia.
Qed.

Lemma init_winv : winv (init : world V).
Proof. split; [intros [|a]; reflexivity|constructor]. Qed.

Lemma steps_winv p : forall w w' : world V, winv w -> steps p w = Done w' -> winv w'.
Proof.
  induction p as [|o p IH]; intros w w' I H; cbn in H; [inversion H; subst; exact I|].
  destruct (step_ok o w I) as [[E _]|(w1 & E & _ & (I1 & _))]; rewrite E in H; [discriminate|]. eapply IH; [exact I1|exact H].
Qed.
Lemma steps_outcome p : forall w : world V, winv w -> (exists w', steps p w = Done w') \/ steps p w = AssertFail.
Proof.
  induction p as [|o p IH]; intros w I; cbn; [left; eauto|].
  destruct (step_ok o w I) as [[E _]|(w1 & E & _ & (I1 & _))]; rewrite E; cbn [obind]; [right; reflexivity|]. apply IH, I1.
Qed.

Lemma content_l (w : world V) i n xs l : winv w -> content_of w i = Some (n, xs) -> var w i = Some l ->
  cont (w_heap w) l = (n, xs) /\ ok (w_heap w) l.
Proof.
  intros I C E. rewrite (content_of_cont w i I), E in C. inversion C as [C1]. split; [reflexivity|apply (winv_ok w i l I E)].
Qed.

(** Tags that contain a byte of the buffer touch it. *)
Lemma matches_live h l id k : (Z.of_nat k < tl_end l - tl_start l)%Z -> ok h l ->
  forall x, matches id (tl_start l + Z.of_nat k) x = true -> tagged (tl_start l) (tl_end l) x = true.
Proof.
  intros B [P _] x M. unfold matches in M. apply andb_prop in M. destruct M as [_ M]. apply andb_prop in M. destruct M as [M1 M2].
  apply Z.leb_le in M1. apply Z.ltb_lt in M2. unfold tagged, has_tagged. apply andb_true_intro. split; apply Z.ltb_lt; lia.
Qed.
Lemma matches_shift s id k x : matches id (s + Z.of_nat k) x = ((x_id (shift (- s) x) =? id)%N && covers (Z.of_nat k) (shift (- s) x)).
Proof.
  unfold matches, covers, shift. cbn. f_equal. f_equal; apply Bool.eq_true_iff_eq; rewrite ?Z.leb_le, ?Z.ltb_lt; lia.
Qed.

Lemma exists_spec (w : world V) i n xs l id k : winv w -> content_of w i = Some (n, xs) -> var w i = Some l ->
  exists_tag id k (w_heap w) l =
  if k <? n then Done (existsb (fun x => (x_id x =? id)%N && covers (Z.of_nat k) x) xs) else AssertFail.
Proof.
  intros I C E. destruct (content_l w i n xs l I C E) as [Cl O]. unfold exists_tag.
  assert (n = Z.to_nat (tl_end l - tl_start l)) as -> by (unfold cont in Cl; congruence).
  assert (xs = map (shift (- tl_start l)) (live (w_heap w) l)) as -> by (unfold cont in Cl; congruence).
  destruct (Z.ltb_spec (Z.of_nat k) (tl_end l - tl_start l)) as [B|B]; cbn [negb].
  - rewrite (raw_elements _ _ O). cbn [obind]. destruct (Nat.ltb_spec k (Z.to_nat (tl_end l - tl_start l))); [|lia].
    f_equal. unfold live. pose proof (matches_live (w_heap w) l id k B O) as M.
    induction (raw (w_heap w) l) as [|x q IH]; cbn [existsb filter map]; [reflexivity|].
    rewrite IH. destruct (tagged (tl_start l) (tl_end l) x) eqn:T; cbn [map existsb].
    + rewrite <- matches_shift. reflexivity.
    + destruct (matches id (tl_start l + Z.of_nat k) x) eqn:Mx; [rewrite (M x Mx) in T; discriminate|reflexivity].
  - destruct (Nat.ltb_spec k (Z.to_nat (tl_end l - tl_start l))); [lia|reflexivity].
Qed.

Lemma get_spec (w : world V) i n xs l id k : winv w -> content_of w i = Some (n, xs) -> var w i = Some l ->
  get_tag id k (w_heap w) l =
  if k <? n then
    match find (fun x => (x_id x =? id)%N && covers (Z.of_nat k) x) xs with
    | Some x => Done (x_val x)
    | None => Throw TagNotFound
    end
  else AssertFail.
Proof.
  intros I C E. destruct (content_l w i n xs l I C E) as [Cl O]. unfold get_tag.
  assert (n = Z.to_nat (tl_end l - tl_start l)) as -> by (unfold cont in Cl; congruence).
  assert (xs = map (shift (- tl_start l)) (live (w_heap w) l)) as -> by (unfold cont in Cl; congruence).
  destruct (Z.ltb_spec (Z.of_nat k) (tl_end l - tl_start l)) as [B|B]; cbn [negb].
  - rewrite (raw_elements _ _ O). cbn [obind]. destruct (Nat.ltb_spec k (Z.to_nat (tl_end l - tl_start l))); [|lia].
    unfold live. pose proof (matches_live (w_heap w) l id k B O) as M.
    induction (raw (w_heap w) l) as [|x q IH]; cbn [find filter map]; [reflexivity|].
    destruct (tagged (tl_start l) (tl_end l) x) eqn:T; cbn [map find].
    + rewrite <- matches_shift. destruct (matches id (tl_start l + Z.of_nat k) x); [reflexivity|exact IH].
    + destruct (matches id (tl_start l + Z.of_nat k) x) eqn:Mx; [rewrite (M x Mx) in T; discriminate|exact IH].
  - destruct (Nat.ltb_spec k (Z.to_nat (tl_end l - tl_start l))); [lia|reflexivity].
Qed.

Lemma count_spec (w : world V) i n xs l : winv w -> content_of w i = Some (n, xs) -> var w i = Some l ->
  num_tags (w_heap w) l = Done (length xs).
Proof.
  intros I C E. destruct (content_l w i n xs l I C E) as [Cl O]. unfold num_tags. rewrite (raw_elements _ _ O). cbn [obind].
  unfold cont in Cl. inversion Cl as [[C1 C2]]. rewrite map_length. reflexivity.
Qed.
Lemma size_spec (w : world V) i n xs l : winv w -> content_of w i = Some (n, xs) -> var w i = Some l ->
  Z.of_nat n = (tl_end l - tl_start l)%Z.
Proof.
  intros I C E. destruct (content_l w i n xs l I C E) as [Cl [O _]]. unfold cont in Cl. inversion Cl. lia.
Qed.

Lemma touches_spec n x : 0 < n -> (x_start x < x_end x)%Z ->
  touches n x = true <-> exists p, p < n /\ covers (Z.of_nat p) x = true.
Proof.
  intros Hn Hx. unfold touches, covers. rewrite andb_true_iff, !Z.ltb_lt. split.
  - intros [A B]. exists (Z.to_nat (Z.max 0 (x_start x))). split; [lia|]. apply andb_true_intro. rewrite Z.leb_le, Z.ltb_lt. lia.
  - intros (p & B & C). apply andb_prop in C. rewrite Z.leb_le, Z.ltb_lt in C. lia.
Qed.

Lemma listed (w : world V) i n xs x : winv w -> content_of w i = Some (n, xs) -> In x xs ->
  (x_start x < x_end x)%Z /\ touches n x = true.
Proof.
  intros I C Hx. destruct (var w i) as [l|] eqn:E; [|unfold content_of in C; rewrite E in C; discriminate].
  destruct (content_l w i n xs l I C E) as [Cl O]. unfold cont in Cl. inversion Cl as [[C1 C2]]. subst n xs.
  apply in_map_iff in Hx. destruct Hx as (y & <- & Hy). unfold live in Hy. apply filter_In in Hy. destruct Hy as [Hr T].
  rewrite (touches_shift (w_heap w) l y O). split; [|exact T].
  assert (In l (somes (w_lists w))) as Hl by (apply in_somes; apply var_in in E; eapply nth_error_In, E).
  pose proof (raw_pos _ _ _ I Hl) as F. rewrite Forall_forall in F. specialize (F y Hr). cbn. lia.
Qed.

Lemma users_cnt (w : world V) a : users w a = cnt a (somes (w_lists w)).
Proof.
  unfold users, cnt. induction (w_lists w) as [|[l|] L IH]; cbn; auto. destruct (uses a l); cbn; auto.
Qed.
Lemma count_exact (w : world V) a : winv w ->
  (0 < users w a -> allocated w a (users w a)) /\ (users w a = 0 -> forall n, ~ allocated w a n).
Proof.
  intros [I _]. specialize (I a). rewrite users_cnt. unfold allocated. destruct (nth_error (w_heap w) a) as [[t|]|].
  - destruct I as [C (O1 & _)]. split; [intros _; exists t; auto|]. intros Z0. lia.
  - split; [lia|]. intros _ n (t & X & _). discriminate.
  - split; [lia|]. intros _ n (t & X & _). discriminate.
Qed.

(** ** Values *)

(** All tags in memory have values with property [P]. *)
Definition vals (P : V -> Prop) (h : heap) : Prop :=
  forall a t, nth_error h a = Some (Some t) -> Forall (fun x => P (x_val x)) (ta_idx t).

Section Vals.
Context (P : V -> Prop).
Let Pv x := P (x_val x).

Lemma vals_get h a (t : tia V) : vals P h -> get h a = Done t -> Forall Pv (ta_idx t).
Proof. intros H G. unfold get in G. destruct (nth_error h a) as [[u|]|] eqn:E; inversion G; subst. eapply H, E. Qed.
Lemma vals_put h a (t : tia V) : vals P h -> Forall Pv (ta_idx t) -> vals P (put h a t).
Proof.
  intros H F b u E. unfold put in E. apply upd_inv in E. destruct E as [[_ E]|[_ E]]; [inversion E; subst; exact F|eapply H, E].
Qed.
Lemma vals_drop h a : vals P h -> vals P (upd h a None).
Proof. intros H b u E. apply upd_inv in E. destruct E as [[_ E]|[_ E]]; [discriminate|eapply H, E]. Qed.
Lemma vals_app h (t : tia V) : vals P h -> Forall Pv (ta_idx t) -> vals P (h ++ [Some t]).
Proof.
  intros H F b u E. destruct (Nat.lt_ge_cases b (length h)).
  - rewrite nth_error_app1 in E by assumption. eapply H, E.
  - rewrite nth_error_app2 in E by assumption. destruct (b - length h) as [|[|q]]; inversion E; subst; exact F.
Qed.
Lemma vals_firstn n (l : list (tag_index V)) : Forall Pv l -> Forall Pv (firstn n l).
Proof. rewrite !Forall_forall. intros H x Hx. apply H. rewrite <- (firstn_skipn n l). apply in_or_app. left. exact Hx. Qed.
Lemma vals_upd (l : list (tag_index V)) i x : Forall Pv l -> Pv x -> Forall Pv (upd l i x).
Proof.
  intros H Hx. apply Forall_forall. intros y Hy. apply In_nth_error in Hy. destruct Hy as [k E].
  apply upd_inv in E. rewrite Forall_forall in H. destruct E as [[_ E]|[_ E]]; [congruence|]. eapply H, nth_error_In, E.
Qed.

Lemma vals_add_ref h o h' : vals P h -> add_ref_opt h o = Done h' -> vals P h'.
Proof.
  intros H E. destruct o as [a|]; cbn in E; [|inversion E; subst; exact H]. unfold add_ref in E.
  destruct (get h a) as [t| | |] eqn:G; inversion E. apply vals_put; [exact H|]. exact (vals_get _ _ _ H G).
Qed.
Lemma vals_release_ref h a h' : vals P h -> release_ref h a = Done h' -> vals P h'.
Proof.
  intros H E. unfold release_ref in E. destruct (get h a) as [t| | |] eqn:G; cbn in E; try discriminate.
  destruct (ta_rc t) as [|[|n]]; inversion E; [apply vals_drop, H|]. apply vals_put; [exact H|]. exact (vals_get _ _ _ H G).
Qed.
Lemma vals_release h o h' : vals P h -> release_opt h o = Done h' -> vals P h'.
Proof. intros H E. destruct o as [a|]; cbn in E; [eapply vals_release_ref; eauto|inversion E; subst; exact H]. Qed.
Lemma vals_elements h l xs : vals P h -> elements h l = Done xs -> Forall Pv xs.
Proof.
  intros H E. unfold elements in E. destruct (tl_tia l) as [a|].
  - destruct (get h a) as [t| | |] eqn:G; cbn in E; try discriminate. destruct (_ <=? _); inversion E.
    apply vals_firstn, (vals_get _ _ _ H G).
  - destruct (_ =? _); inversion E. constructor.
Qed.
Lemma vals_move bs be : forall n (l : list (tag_index V)) head next size (l' : list (tag_index V)) size', Forall Pv l ->
  move_tagged bs be l head next n size = Done (l', size') -> Forall Pv l'.
Proof.
  induction n as [|n IH]; intros l head next size l' size' H E; cbn in E; [inversion E; subst; exact H|].
  destruct (nth_error l next) as [x|] eqn:N; [|discriminate].
  destruct (tagged bs be x); [|eapply IH; eauto]. eapply IH; [|exact E]. apply vals_upd; [exact H|].
  rewrite Forall_forall in H. eapply H, nth_error_In, N.
Qed.
Lemma vals_compact a h l h' l' : vals P h -> compact a h l = Done (h', l') -> vals P h'.
Proof.
  intros H E. unfold compact in E. destruct (get h a) as [t| | |] eqn:G; cbn [obind] in E; try discriminate.
  destruct (negb _); [discriminate|]. destruct (skip_tagged _ _ _ _ _) as [k| | |]; cbn [obind] in E; try discriminate.
  pose proof (vals_firstn (tl_size l) _ (vals_get _ _ _ H G)) as F.
  destruct (k <? tl_size l).
  - destruct (move_tagged _ _ _ _ _ _ _) as [[i s]| | |] eqn:M; cbn [obind] in E; try discriminate.
    inversion E. apply vals_put; [exact H|]. cbn [ta_idx]. apply vals_firstn. eapply vals_move; eauto.
  - cbn [obind] in E. inversion E. apply vals_put; [exact H|]. cbn [ta_idx]. apply vals_firstn, F.
Qed.
Lemma vals_copy bs be : forall src dst, Forall Pv src -> Forall Pv dst -> Forall Pv (copy_tagged bs be src dst).
Proof.
  induction src as [|x src IH]; intros dst H F; cbn; [exact F|]. inversion H; subst.
  destruct (tagged bs be x); apply IH; auto. apply Forall_app. auto.
Qed.
Lemma vals_reallocate n a h l h' l' : vals P h -> reallocate n a h l = Done (h', l') -> vals P h'.
Proof.
  intros H E. unfold reallocate in E. destruct (get h a) as [t| | |]; cbn [obind] in E; try discriminate.
  destruct (_ <? _); [discriminate|]. unfold allocate in E. destruct (n =? 0); cbn [obind] in E; [discriminate|].
  set (h1 := h ++ [Some (mk_tia 1 n [])]) in *. assert (H1 : vals P h1) by (apply vals_app; [exact H|constructor]).
  destruct (elements h1 l) as [xs| | |] eqn:El; cbn [obind] in E; try discriminate.
  destruct (_ <? _); [discriminate|].
  match type of E with obind (release_ref ?q a) _ = _ => destruct (release_ref q a) as [h2| | |] eqn:R end;
    cbn [obind] in E; try discriminate. inversion E; subst. eapply vals_release_ref; [|exact R].
  apply vals_put; [exact H1|]. cbn [ta_idx]. apply vals_copy; [|constructor]. apply (vals_elements _ _ _ H1 El).
Qed.
Lemma vals_prepare h l h' l' : vals P h -> prepare_to_insert h l = Done (h', l') -> vals P h'.
Proof.
  intros H E. unfold prepare_to_insert in E.
  match type of E with obind ?r _ = _ => destruct r as [[h1 l1]| | |] eqn:R end; cbn [obind] in E; try discriminate.
  assert (H1 : vals P h1).
  { destruct (tl_tia l) as [a|].
    - destruct (get h a) as [t| | |] eqn:G; cbn [obind] in R; try discriminate. destruct (ta_rc t =? 1).
      + destruct (compact a h l) as [[h2 l2]| | |] eqn:C; cbn [obind] in R; try discriminate.
        pose proof (vals_compact _ _ _ _ _ H C) as H2. destruct (get h2 a) as [t1| | |]; cbn [obind] in R; try discriminate.
        destruct (_ =? _); [eapply vals_reallocate; eauto|inversion R; subst; exact H2].
      + destruct (_ =? _); [eapply vals_reallocate; eauto|]. destruct (_ =? _); [inversion R; subst; exact H|eapply vals_reallocate; eauto].
    - unfold allocate in R. cbn in R. inversion R. apply vals_app; [exact H|constructor]. }
  destruct (tl_tia l1) as [a|]; [|discriminate]. destruct (get h1 a) as [t| | |]; cbn [obind] in E; try discriminate.
  destruct (_ && _); [inversion E; subst; exact H1|discriminate].
Qed.
Lemma vals_append x h l h' l' : vals P h -> Pv x -> append x h l = Done (h', l') -> vals P h'.
Proof.
  intros H Hx E. unfold append in E. destruct (tl_tia l) as [a|]; [|discriminate].
  destruct (get h a) as [t| | |] eqn:G; cbn [obind] in E; try discriminate. destruct (_ && _); inversion E.
  apply vals_put; [exact H|]. cbn [ta_idx]. apply Forall_app. split; [apply (vals_get _ _ _ H G)|constructor; [exact Hx|constructor]].
Qed.
Lemma vals_expand a b h l h' l' : vals P h -> expand_buffer a b h l = Done (h', l') -> vals P h'.
Proof.
  intros H E. unfold expand_buffer in E. destruct (tl_tia l) as [c|]; [|inversion E; subst; exact H].
  destruct (get h c) as [t| | |]; cbn [obind] in E; try discriminate. destruct (ta_rc t =? 1).
  - destruct (compact c h l) as [[h1 l1]| | |] eqn:C; cbn [obind] in E; try discriminate. inversion E; subst.
    eapply vals_compact; eauto.
  - destruct (trim _ _ _ _) as [k| | |]; cbn [obind] in E; try discriminate.
    destruct (finds_dirty _ _ _ _ _ _) as [[|]| | |]; cbn [obind] in E; try discriminate.
    + match type of E with obind ?r _ = _ => destruct r as [[h1 l1]| | |] eqn:R end; cbn [obind] in E; try discriminate.
      inversion E; subst. eapply vals_reallocate; eauto.
    + inversion E; subst. exact H.
Qed.
Lemma vals_insert_tag x h l h' l' : vals P h -> Pv x -> insert_tag x h l = Done (h', l') -> vals P h'.
Proof.
  intros H Hx E. unfold insert_tag in E. destruct (has_tag _ _ _ _ _) as [f| | |]; cbn [obind] in E; try discriminate.
  destruct (_ && _); [|inversion E; subst; exact H]. destruct (prepare_to_insert h l) as [[h1 l1]| | |] eqn:R; cbn [obind] in E; try discriminate.
  eapply vals_append; [|exact Hx|exact E]. eapply vals_prepare; eauto.
Qed.
Lemma vals_copy_tags c d : forall n k h l h' l', vals P h -> copy_tags c d k n h l = Done (h', l') -> vals P h'.
Proof.
  induction n as [|n IH]; intros k h l h' l' H E; cbn in E; [inversion E; subst; exact H|].
  destruct (get h c) as [t| | |] eqn:G; cbn [obind] in E; try discriminate.
  destruct (nth_error (ta_idx t) k) as [x|] eqn:N; [|discriminate]. destruct (_ && _); [|discriminate].
  match type of E with obind ?r _ = _ => destruct r as [[h1 l1]| | |] eqn:R end; cbn [obind] in E; try discriminate.
  eapply IH; [|exact E]. eapply vals_insert_tag; [exact H| |exact R].
  pose proof (vals_get _ _ _ H G) as F. rewrite Forall_forall in F. apply (F x (nth_error_In _ _ N)).
Qed.

(** The value that a statement brings in. *)
Definition new_value (o : op V) : Prop := match o with Insert _ _ v _ _ => P v | _ => True end.
Lemma vals_list r h l h' l' pre a b d : vals P h ->
  (let! h0 := add_ref_opt h (tl_tia r) in
   let! (h1, l1) := (if (pre : bool) then expand_buffer a b h0 l else AssertFail) in
   let! (h2, l2) := copy_all r (d l1) h1 l1 in
   let! h3 := release_opt h2 (tl_tia r) in
   Done (h3, l2)) = Done (h', l') -> vals P h'.
Proof.
  intros H E. destruct (add_ref_opt h (tl_tia r)) as [h0| | |] eqn:R0; cbn [obind] in E; try discriminate.
  destruct pre; [|discriminate].
  destruct (expand_buffer a b h0 l) as [[h1 l1]| | |] eqn:R1; cbn [obind] in E; try discriminate.
  destruct (copy_all r (d l1) h1 l1) as [[h2 l2]| | |] eqn:R2; cbn [obind] in E; try discriminate.
  destruct (release_opt h2 (tl_tia r)) as [h3| | |] eqn:R3; cbn [obind] in E; try discriminate. inversion E; subst.
  eapply vals_release; [|exact R3]. pose proof (vals_expand _ _ _ _ _ _ (vals_add_ref _ _ _ H R0) R1) as H1.
  unfold copy_all in R2. destruct (tl_tia r); [eapply vals_copy_tags; eauto|inversion R2; subst; exact H1].
Qed.
Lemma vals_step o (w w' : world V) : vals P (w_heap w) -> new_value o -> step o w = Done w' -> vals P (w_heap w').
Proof.
  intros H N E.
  assert (Ch : forall i (r : outcome (heap * tlist)), changed w i r = Done w' -> (forall h l, r = Done (h, l) -> vals P h) -> vals P (w_heap w')).
  { intros i r X F. unfold changed in X. destruct r as [[h l]| | |]; inversion X. cbn. eapply F. reflexivity. }
  destruct o; cbn [step] in E;
    repeat match type of E with
    | context [if ?i =? ?j then _ else _] => destruct (i =? j)
    | context [match var w ?i with _ => _ end] => destruct (var w i)
    end; try (inversion E; subst; exact H).
  - unfold created, new_list, allocate in E. destruct (capacity =? 0); cbn [obind] in E; [discriminate|].
    revert E. generalize (ref_point - Z.of_nat (bufferSize / 2))%Z. intros st E.
    destruct (in_space st && _); cbn [obind] in E; [|discriminate]. injection E as <-. apply vals_app; [exact H|constructor].
  - unfold copy_new in E. destruct (add_ref_opt _ _) as [h| | |] eqn:R; inversion E. eapply vals_add_ref; eauto.
  - unfold assign in E. destruct (add_ref_opt _ _) as [h| | |] eqn:R; cbn [obind] in E; try discriminate.
    destruct (release_opt _ _) as [h2| | |] eqn:R2; inversion E. eapply vals_release; [|exact R2]. eapply vals_add_ref; eauto.
  - unfold destroy in E. destruct (release_opt _ _) as [h2| | |] eqn:R2; inversion E. eapply vals_release; eauto.
  - eapply Ch; [exact E|]. intros h l R. unfold add_at_start in R. destruct (in_space _); [eapply vals_expand; eauto|discriminate].
  - eapply Ch; [exact E|]. intros h l R. unfold add_list_start, add_at_start in R. eapply vals_list; [exact H|exact R].
  - destruct (remove_at_start _ _); inversion E. exact H.
  - eapply Ch; [exact E|]. intros h l R. unfold add_at_end in R. destruct (in_space _); [eapply vals_expand; eauto|discriminate].
  - eapply Ch; [exact E|]. intros h l R. unfold add_list_end, add_at_end in R. eapply vals_list; [exact H|exact R].
  - destruct (remove_at_end _ _); inversion E. exact H.
  - eapply Ch; [exact E|]. intros h l R. unfold insert in R. destruct (negb _); [discriminate|]. destruct (_ =? 0); [discriminate|].
    destruct (prepare_to_insert _ _) as [[h1 l1]| | |] eqn:Q; cbn [obind] in R; try discriminate.
    eapply vals_append; [| |exact R]; [eapply vals_prepare; eauto|exact N].
Qed.
Lemma vals_init : vals P (w_heap (init : world V)).
Proof. intros [|a] t E; discriminate. Qed.
End Vals.
Lemma vals_mono (P Q : V -> Prop) h : (forall v, P v -> Q v) -> vals P h -> vals Q h.
Proof. intros M H a t E. eapply Forall_impl; [|exact (H a t E)]. cbn. auto. Qed.
Lemma vals_get_tag (P : V -> Prop) id k h l v : vals P h -> get_tag id k h l = Done v -> P v.
Proof.
  intros H E. unfold get_tag in E. destruct (negb _); [discriminate|].
  destruct (elements h l) as [xs| | |] eqn:El; cbn [obind] in E; try discriminate.
  destruct (find _ xs) as [x|] eqn:F; inversion E; subst. apply find_some in F. destruct F as [F _].
  pose proof (vals_elements P _ _ _ H El) as Fx. rewrite Forall_forall in Fx. apply (Fx x F).
Qed.

(** ** All tags of a list *)

Lemma full_copy i (w w' : world V) c : winv w -> step (Copy i) w = Done w' -> full_of w i = Some c ->
  full_of w' (length (w_lists w)) = Some c.
Proof.
  intros I E F. cbn [step] in E. unfold full_of in F. destruct (var w i) as [l|] eqn:Ei; [|discriminate].
  destruct (add_ref_ok (w_heap w) (somes (w_lists w)) l I) as (h' & D & I1 & K1).
  { apply in_somes. apply var_in in Ei. eapply nth_error_In, Ei. }
  unfold copy_new in E. rewrite D in E. injection E as <-. unfold full_of, var, add_var. cbn [w_lists w_heap].
  rewrite nth_error_app2, Nat.sub_diag by lia. cbn [nth_error].
  rewrite (raw_elements _ _ (ok_head _ _ _ I1)). rewrite (raw_elements _ _ (winv_ok w i l I Ei)) in F.
  assert (raw h' l = raw (w_heap w) l) as -> by (inversion K1; auto). exact F.
Qed.
Lemma full_assign i j (w w' : world V) c d : winv w -> step (Assign i j) w = Done w' -> full_of w i = Some c ->
  full_of w j = Some d -> full_of w' i = Some d.
Proof.
  intros I E Fi Fj. cbn [step] in E. destruct (Nat.eqb_spec i j) as [<-|Ne]; [congruence|].
  unfold full_of in Fi, Fj. destruct (var w i) as [l|] eqn:Ei; [|discriminate]. destruct (var w j) as [r|] eqn:Ej; [|discriminate].
  destruct (add_ref_ok (w_heap w) (somes (w_lists w)) r I) as (h1 & D1 & I1 & K1).
  { apply in_somes. apply var_in in Ej. eapply nth_error_In, Ej. }
  assert (Pm : Permutation (r :: somes (w_lists w)) (l :: r :: somes (upd (w_lists w) i None))).
  { rewrite (somes_take _ _ _ (var_in _ _ _ Ei)). apply perm_swap. }
  destruct (release_ok h1 (r :: somes (upd (w_lists w) i None)) l) as (h2 & D2 & I2 & K2); [eapply inv_perm; eassumption|].
  unfold assign in E. rewrite D1 in E. cbn [obind] in E. rewrite D2 in E. injection E as <-.
  unfold full_of, var, set_var. cbn [w_lists w_heap]. rewrite nth_upd_eq by (apply (var_lt _ _ _ Ei)).
  rewrite (raw_elements _ _ (ok_head _ _ _ I2)). rewrite (raw_elements _ _ (winv_ok w j r I Ej)) in Fj.
  assert (raw h2 r = raw (w_heap w) r) as ->; [|exact Fj].
  inversion K1; inversion K2; congruence.
Qed.
Lemma full_rem_start i k (w w' : world V) n xs : winv w -> step (RemStart i k) w = Done w' -> full_of w i = Some (n, xs) ->
  full_of w' i = Some (n - k, map (shift (- Z.of_nat k)) xs).
Proof.
  intros I E F. cbn [step] in E. unfold full_of in F. destruct (var w i) as [l|] eqn:Ei; [|discriminate].
  pose proof (winv_ok w i l I Ei) as O. rewrite (raw_elements _ _ O) in F. unfold remove_at_start in E.
  destruct (Z.leb_spec (tl_start l + Z.of_nat k) (tl_end l)); [|discriminate]. cbn [obind] in E. injection E as <-.
  unfold full_of, var, set_var. cbn [w_lists w_heap]. rewrite nth_upd_eq by (apply (var_lt _ _ _ Ei)).
  rewrite raw_elements by (destruct O; split; [cbn; lia|assumption]). injection F as <- <-. cbn [tl_start tl_end].
  rewrite map_shift_shift. do 2 f_equal; [lia|]. f_equal. f_equal. lia.
Qed.
Lemma full_rem_end i k (w w' : world V) n xs : winv w -> step (RemEnd i k) w = Done w' -> full_of w i = Some (n, xs) ->
  full_of w' i = Some (n - k, xs).
Proof.
  intros I E F. cbn [step] in E. unfold full_of in F. destruct (var w i) as [l|] eqn:Ei; [|discriminate].
  pose proof (winv_ok w i l I Ei) as O. rewrite (raw_elements _ _ O) in F. unfold remove_at_end in E.
  destruct (Z.leb_spec (tl_start l + Z.of_nat k) (tl_end l)); [|discriminate]. cbn [obind] in E. injection E as <-.
  unfold full_of, var, set_var. cbn [w_lists w_heap]. rewrite nth_upd_eq by (apply (var_lt _ _ _ Ei)).
  rewrite raw_elements by (destruct O; split; [cbn; lia|assumption]). injection F as <- <-. cbn [tl_start tl_end].
  do 2 f_equal; lia.
Qed.
Lemma full_list (w w' : world V) i j n m xs ys (ahead : bool) : winv w ->
  step (if ahead then AddStartList i j else AddEndList i j) w = Done w' ->
  full_of w i = Some (n, xs) -> full_of w j = Some (m, ys) ->
  exists zs, full_of w' i = Some (n + m, zs) /\
    incl zs (if ahead then map (shift (Z.of_nat m)) xs ++ ys else xs ++ map (shift (Z.of_nat n)) ys).
Proof.
  intros I E Fi Fj. unfold full_of in Fi, Fj. destruct (var w i) as [l|] eqn:Ei; [|discriminate].
  destruct (var w j) as [r|] eqn:Ej; [|discriminate].
  pose proof (winv_ok w i l I Ei) as Ol. pose proof (winv_ok w j r I Ej) as Or.
  rewrite (raw_elements _ _ Ol) in Fi. rewrite (raw_elements _ _ Or) in Fj. injection Fi as <- <-. injection Fj as <- <-.
  pose proof Ol as [Pl _]. pose proof Or as [Pr _].
  assert (Fin : forall h' l', winv (mk_world h' (upd (w_lists w) i (Some l'))) ->
    full_of (mk_world h' (upd (w_lists w) i (Some l'))) i = Some (fullc h' l')).
  { intros h' l' I'. rewrite full_of_fullc by exact I'. unfold var. cbn [w_lists w_heap].
    rewrite nth_upd_eq by (apply (var_lt _ _ _ Ei)). reflexivity. }
  destruct ahead; cbn [step] in E; rewrite Ei, Ej in E.
  - destruct (changed_ok w i l _ _ I Ei (add_list_ok r (Z.to_nat (tl_end r - tl_start r)) 0 (fun q => (tl_start q - tl_start r)%Z) (w_heap w) l _
      (in_space (tl_start l - Z.of_nat (Z.to_nat (tl_end r - tl_start r)))) (winv_take w i l I Ei) (in_take w i j l r I Ei Ej))) as [X|X].
    { exfalso. assert (changed w i (add_list_start r (w_heap w) l) = AssertFail) by exact X. congruence. }
    destruct X as (h' & l' & X & I' & K & S1 & E1 & l1 & Q1 & Q2 & L1 & Ic).
    assert (X' : changed w i (add_list_start r (w_heap w) l) = Done (mk_world h' (upd (w_lists w) i (Some l')))) by exact X.
    rewrite X' in E. injection E as <-. rewrite Fin by exact I'. unfold fullc. eexists. split.
    { do 2 f_equal. rewrite S1, E1. lia. }
    intros y Hy. apply in_map_iff in Hy. destruct Hy as (z & <- & Hz). apply Ic, in_app_or in Hz. apply in_or_app.
    destruct Hz as [Hz|Hz]; [left|right].
    + rewrite map_shift_shift. apply in_map_iff. exists z. split; [f_equal; lia|exact Hz].
    + apply in_map_iff in Hz. destruct Hz as (u & <- & Hu). apply in_map_iff. exists u. split; [|exact Hu].
      rewrite shift_shift. f_equal. lia.
  - destruct (changed_ok w i l _ _ I Ei (add_list_ok r 0 (Z.to_nat (tl_end r - tl_start r)) (fun q => (tl_end q - tl_end r)%Z) (w_heap w) l _
      (in_space (tl_end l + Z.of_nat (Z.to_nat (tl_end r - tl_start r)))) (winv_take w i l I Ei) (in_take w i j l r I Ei Ej))) as [X|X].
    { exfalso. assert (changed w i (add_list_end r (w_heap w) l) = AssertFail) by exact X. congruence. }
    destruct X as (h' & l' & X & I' & K & S1 & E1 & l1 & Q1 & Q2 & L1 & Ic).
    assert (X' : changed w i (add_list_end r (w_heap w) l) = Done (mk_world h' (upd (w_lists w) i (Some l')))) by exact X.
    rewrite X' in E. injection E as <-. rewrite Fin by exact I'. unfold fullc. eexists. split.
    { do 2 f_equal. rewrite S1, E1. lia. }
    intros y Hy. apply in_map_iff in Hy. destruct Hy as (z & <- & Hz). apply Ic, in_app_or in Hz. apply in_or_app.
    destruct Hz as [Hz|Hz]; [left|right].
    + apply in_map_iff. exists z. split; [f_equal; lia|exact Hz].
    + apply in_map_iff in Hz. destruct Hz as (u & <- & Hu). rewrite map_shift_shift. apply in_map_iff. exists u. split; [|exact Hu].
      rewrite shift_shift. f_equal. lia.
Qed.

Lemma full_grow (w w' : world V) i n k xs (ahead : bool) : winv w ->
  step (if ahead then AddStart i k else AddEnd i k) w = Done w' -> full_of w i = Some (n, xs) ->
  exists zs, full_of w' i = Some (n + k, zs) /\ incl zs (if ahead then map (shift (Z.of_nat k)) xs else xs).
Proof.
  intros I E Fi. unfold full_of in Fi. destruct (var w i) as [l|] eqn:Ei; [|discriminate].
  pose proof (winv_ok w i l I Ei) as Ol. rewrite (raw_elements _ _ Ol) in Fi. injection Fi as <- <-. pose proof Ol as [Pl _].
  assert (Fin : forall h' l', winv (mk_world h' (upd (w_lists w) i (Some l'))) ->
    full_of (mk_world h' (upd (w_lists w) i (Some l'))) i = Some (fullc h' l')).
  { intros h' l' I'. rewrite full_of_fullc by exact I'. unfold var. cbn [w_lists w_heap].
    rewrite nth_upd_eq by (apply (var_lt _ _ _ Ei)). reflexivity. }
  assert (G : forall ds de, changed w i (expand_buffer ds de (w_heap w) l) = Done w' ->
    exists zs, full_of w' i = Some (Z.to_nat (tl_end l - tl_start l) + ds + de, zs) /\ incl zs (map (shift (Z.of_nat ds - tl_start l)) (raw (w_heap w) l))).
  { intros ds de Eq. destruct (changed_ok w i l _ _ I Ei (or_intror (expand_good (w_heap w) l _ ds de (winv_take w i l I Ei)))) as [X|X]; [congruence|].
    destruct X as (h' & l' & X & I' & K & S1 & E1 & _ & _ & Ic). rewrite X in Eq. injection Eq as <-. rewrite Fin by exact I'. unfold fullc. eexists. split.
    { do 2 f_equal. rewrite S1, E1. lia. }
    intros y Hy. apply in_map_iff in Hy. destruct Hy as (z & <- & Hz). apply Ic in Hz. apply in_map_iff. exists z. split; [f_equal; lia|exact Hz]. }
  destruct ahead; cbn [step] in E; rewrite Ei in E; unfold add_at_start, add_at_end in E; destruct (in_space _); try discriminate; apply G in E; destruct E as (zs & -> & Ic); exists zs.
  - split; [do 2 f_equal; lia|]. rewrite map_shift_shift. replace (- tl_start l + Z.of_nat k)%Z with (Z.of_nat k - tl_start l)%Z by lia. exact Ic.
  - split; [do 2 f_equal; lia|]. exact Ic.
Qed.

End Proofs.
