(** Proofs about the heap algorithms. *)
From Coq Require Import ZifyBool ZifyNat.
From Verif Require Import Base BaseProofs Sim SimSpec SimProofs HeapAlgo.
Open Scope nat_scope.

Ltac Zify.zify_post_hook ::= Z.to_euclidean_division_equations.

(** ** The order *)

(** [a] may stand above [b]. *)
Definition above (a b : key) : Prop := key_lt b a = false.

Lemma above_refl a : above a a.
Proof. apply key_lt_false. unfold earlier. lia. Qed.
Lemma above_trans a b c : above a b -> above b c -> above a c.
Proof. unfold above. rewrite !key_lt_false. unfold earlier. lia. Qed.
Lemma less_above a b : heap_less a b = true -> above b a.
Proof. unfold heap_less, above. rewrite key_lt_spec, key_lt_false. unfold earlier. lia. Qed.
Lemma not_less_above a b : heap_less a b = false -> above a b.
Proof. auto. Qed.

(** ** Vectors *)

Lemma at_upd_eq l i x : i < length l -> at_ (upd l i x) i = x.
Proof.
  intros H. unfold at_. apply nth_error_nth. apply nth_upd_eq. auto.
Qed.
Lemma at_upd_neq l i j x : i <> j -> at_ (upd l i x) j = at_ l j.
Proof.
  intros H. unfold at_. destruct (nth_error l j) as [y|] eqn:E.
  - rewrite (nth_error_nth _ _ _ E). apply nth_error_nth. rewrite nth_upd_neq; auto.
  - apply nth_error_None in E. rewrite !nth_overflow; auto. rewrite upd_length. auto.
Qed.
Lemma nth_at l i : i < length l -> nth_error l i = Some (at_ l i).
Proof. intros H. apply nth_error_nth'. auto. Qed.

(** Writing [v] into one hole or into another, after the element there has
    moved. *)
Lemma upd_split {A} (l : list A) i x y : nth_error l i = Some y ->
  exists a b, l = a ++ y :: b /\ length a = i /\ upd l i x = a ++ x :: b.
Proof.
  revert i. induction l as [|z l IH]; intros [|i] E; try discriminate.
  - inversion E; subst. exists [], l. auto.
  - destruct (IH i E) as (a & b & -> & <- & Hu). exists (z :: a), b. cbn. rewrite Hu. auto.
Qed.

Lemma upd_perm {A} (l : list A) i x y : nth_error l i = Some y ->
  Permutation (y :: upd l i x) (x :: l).
Proof.
  intros E. destruct (upd_split l i x y E) as (a & b & -> & _ & ->).
  rewrite <- !Permutation_middle. apply perm_swap.
Qed.

Lemma move_perm l i j v : i < length l -> j < length l -> i <> j ->
  Permutation (upd (upd l i (at_ l j)) j v) (upd l i v).
Proof.
  intros Hi Hj D.
  pose proof (upd_perm (upd l i (at_ l j)) j v (at_ l j)) as P1.
  rewrite nth_upd_neq in P1 by auto. specialize (P1 (nth_at _ _ Hj)).
  pose proof (upd_perm l i (at_ l j) _ (nth_at _ _ Hi)) as P2.
  pose proof (upd_perm l i v _ (nth_at _ _ Hi)) as P3.
  apply (Permutation_cons_inv (a := at_ l j)). apply (Permutation_cons_inv (a := at_ l i)).
  transitivity (at_ l i :: v :: upd l i (at_ l j)); [apply perm_skip, P1|].
  transitivity (v :: at_ l i :: upd l i (at_ l j)); [apply perm_swap|].
  transitivity (v :: at_ l j :: l); [apply perm_skip, P2|].
  transitivity (at_ l j :: v :: l); [apply perm_swap|].
  transitivity (at_ l j :: at_ l i :: upd l i v); [apply perm_skip; symmetry; exact P3|apply perm_swap].
Qed.

Lemma same_at (l1 l2 : list key) : length l1 = length l2 ->
  (forall i, i < length l1 -> at_ l1 i = at_ l2 i) -> l1 = l2.
Proof. intros L E. apply (nth_ext _ _ (0%Z,0) (0%Z,0)); auto. Qed.

(** ** Heaps by index *)

Definition parent (i : nat) : nat := (i - 1) / 2.

Lemma heap_at l : is_heap l <-> (forall i, 0 < i < length l -> above (at_ l (parent i)) (at_ l i)).
Proof.
  split.
  - intros H i Hi. apply (H i); [lia|apply nth_at; unfold parent; lia|apply nth_at; lia].
  - intros H i a b Hi Ha Hb. pose proof (nth_lt _ _ _ Hb) as L.
    rewrite nth_at in Hb by auto. rewrite nth_at in Ha by lia.
    inversion Ha; inversion Hb; subst. apply (H i). lia.
Qed.

(** ** Moving up *)

Lemma sift_up_length : forall fuel hole v l, length (sift_up fuel hole v l) = length l.
Proof.
  induction fuel as [|f IH]; intros hole v l; cbn [sift_up]; [apply upd_length|].
  destruct (hole =? 0); [apply upd_length|].
  destruct (heap_less _ _); [rewrite IH|]; apply upd_length.
Qed.

Lemma sift_up_perm : forall fuel hole v l, hole < length l ->
  Permutation (sift_up fuel hole v l) (upd l hole v).
Proof.
  induction fuel as [|f IH]; intros hole v l H; cbn [sift_up]; auto.
  destruct (Nat.eqb_spec hole 0); auto. destruct (heap_less _ _); auto.
  rewrite IH by (rewrite upd_length; lia). apply move_perm; auto; lia.
Qed.

(** What holds while the hole moves up: all but the hole are in place, and the
    parent of the hole may stand above the children of the hole. *)
Definition up_ok (hole : nat) (v : key) (l : list key) : Prop :=
  (forall i, 0 < i < length l -> i <> hole -> parent i <> hole -> above (at_ l (parent i)) (at_ l i)) /\
  (forall i, 0 < i < length l -> parent i = hole -> above v (at_ l i)) /\
  (forall i, 0 < i < length l -> parent i = hole -> 0 < hole -> above (at_ l (parent hole)) (at_ l i)).

Lemma up_done hole v l : hole < length l -> up_ok hole v l ->
  (0 < hole -> above (at_ l (parent hole)) v) -> is_heap (upd l hole v).
Proof.
  intros Hh (A & B & C) D. apply heap_at. rewrite upd_length. intros i Hi.
  destruct (Nat.eq_dec i hole) as [->|Ni].
  - rewrite at_upd_eq by auto. rewrite at_upd_neq by (unfold parent; lia). apply D. lia.
  - rewrite (at_upd_neq l hole i) by auto. destruct (Nat.eq_dec (parent i) hole) as [E|Np].
    + rewrite E, at_upd_eq by auto. auto.
    + rewrite at_upd_neq by auto. auto.
Qed.

Lemma sift_up_heap : forall fuel hole v l, hole <= fuel -> hole < length l -> up_ok hole v l ->
  is_heap (sift_up fuel hole v l).
Proof.
  induction fuel as [|f IH]; intros hole v l F Hh U; cbn [sift_up].
  - apply up_done; auto. lia.
  - destruct (Nat.eqb_spec hole 0); [apply up_done; auto; lia|].
    change ((hole - 1) / 2) with (parent hole).
    destruct (heap_less (at_ l (parent hole)) v) eqn:E.
    2:{ apply up_done; auto. }
    assert (Pl : parent hole < hole) by (unfold parent; lia).
    apply IH; [lia|rewrite upd_length; lia|]. destruct U as (A & B & C).
    apply less_above in E. unfold up_ok. rewrite upd_length. split; [|split].
    + intros i Hi N1 N2. destruct (Nat.eq_dec i hole) as [->|Ni].
      * exfalso. apply N2. auto.
      * rewrite (at_upd_neq l hole i) by auto. destruct (Nat.eq_dec (parent i) hole) as [Ep|Np].
        -- rewrite Ep, at_upd_eq by lia. apply C; auto. lia.
        -- rewrite at_upd_neq by auto. apply A; auto.
    + intros i Hi Ep. destruct (Nat.eq_dec i hole) as [->|Ni].
      * rewrite at_upd_eq by lia. auto.
      * rewrite at_upd_neq by auto. apply (above_trans _ (at_ l (parent hole))); auto.
        rewrite <- Ep. apply A; auto. lia.
    + intros i Hi Ep Hp. rewrite (at_upd_neq l hole (parent (parent hole))) by (unfold parent in *; lia).
      assert (Q : above (at_ l (parent (parent hole))) (at_ l (parent hole))).
      { apply A; unfold parent in *; lia. }
      destruct (Nat.eq_dec i hole) as [->|Ni].
      * rewrite at_upd_eq by lia. auto.
      * rewrite at_upd_neq by auto. apply (above_trans _ (at_ l (parent hole))); auto.
        rewrite <- Ep. apply A; auto. lia.
Qed.

(** ** [push_heap] *)

Lemma push_perm q k : Permutation (push_heap q k) (k :: q).
Proof.
  unfold push_heap. rewrite sift_up_perm by (rewrite app_length; cbn; lia).
  rewrite upd_last. symmetry. apply Permutation_cons_append.
Qed.

Lemma push_is_heap q k : is_heap q -> is_heap (push_heap q k).
Proof.
  intros H. rewrite heap_at in H. unfold push_heap.
  assert (L : length (q ++ [k]) = S (length q)) by (rewrite app_length; cbn; lia).
  assert (P : forall i, i < length q -> at_ (q ++ [k]) i = at_ q i).
  { intros i Hi. unfold at_. apply app_nth1. auto. }
  apply sift_up_heap; [lia|lia|]. unfold up_ok. rewrite L. split; [|split].
  - intros i Hi N1 N2. rewrite !P by (unfold parent; lia). apply H. lia.
  - intros i Hi E. unfold parent in E. lia.
  - intros i Hi E. unfold parent in E. lia.
Qed.

(** ** Moving down *)

(** What holds while the hole moves down. *)
Definition down_ok (hole : nat) (l : list key) : Prop :=
  (forall i, 0 < i < length l -> i <> hole -> parent i <> hole -> above (at_ l (parent i)) (at_ l i)) /\
  (forall i, 0 < i < length l -> parent i = hole -> 0 < hole -> above (at_ l (parent hole)) (at_ l i)).

(** The hole moves to a child that may stand above the other one. *)
Lemma down_step hole child l : down_ok hole l -> 0 < child < length l -> parent child = hole ->
  (forall i, 0 < i < length l -> parent i = hole -> above (at_ l child) (at_ l i)) ->
  down_ok child (upd l hole (at_ l child)).
Proof.
  intros (A & B) Hc Ec M.
  assert (Lh : hole < child) by (unfold parent in Ec; lia).
  unfold down_ok. rewrite upd_length. split.
  - intros i Hi N1 N2. destruct (Nat.eq_dec i hole) as [->|Ni].
    + rewrite at_upd_eq by lia. rewrite at_upd_neq by (unfold parent; lia).
      apply B; auto. lia.
    + rewrite (at_upd_neq l hole i) by auto. destruct (Nat.eq_dec (parent i) hole) as [E|Np].
      * rewrite E, at_upd_eq by lia. apply M; auto.
      * rewrite at_upd_neq by auto. apply A; auto.
  - intros i Hi Ei Hp. rewrite Ec, at_upd_eq by lia.
    rewrite at_upd_neq by (unfold parent in *; lia).
    rewrite <- Ei. apply A; auto; unfold parent in *; lia.
Qed.

Lemma sift_down_ok v : forall fuel hole l, length l <= fuel + hole -> hole < length l -> down_ok hole l ->
  let '(h, l') := sift_down fuel hole l in
  h < length l' /\ length l' = length l /\ down_ok h l' /\ length l <= 2 * h + 1 /\
  Permutation (upd l' h v) (upd l hole v).
Proof.
  induction fuel as [|f IH]; intros hole l F Hh D; cbn [sift_down].
  - lia.
  - set (right := 2 * hole + 2). destruct (Nat.ltb_spec right (length l)) as [Hr|Hr].
    + set (child := if heap_less (at_ l right) (at_ l (right - 1)) then right - 1 else right).
      assert (Hc : hole < child /\ child < length l /\ parent child = hole).
      { unfold child, right, parent in *. destruct (heap_less _ _); lia. }
      assert (M : forall i, 0 < i < length l -> parent i = hole -> above (at_ l child) (at_ l i)).
      { intros i Hi Ei. assert (Ci : i = right \/ i = right - 1) by (unfold parent, right in *; lia).
        unfold child. destruct (heap_less (at_ l right) (at_ l (right - 1))) eqn:E.
        - apply less_above in E. destruct Ci as [->| ->]; auto. apply above_refl.
        - apply not_less_above in E. destruct Ci as [->| ->]; auto. apply above_refl. }
      clearbody child. destruct Hc as (H1 & H2 & H3).
      specialize (IH child (upd l hole (at_ l child))). rewrite upd_length in IH.
      specialize (IH ltac:(lia) H2 ltac:(apply down_step; auto; lia)).
      destruct (sift_down f child _) as [h l']. destruct IH as (I1 & I2 & I3 & I4 & I5).
      repeat split; auto; try apply I3. rewrite I5. apply move_perm; auto; lia.
    + destruct (Nat.eqb_spec right (length l)) as [Er|Nr].
      * rewrite upd_length. assert (Hc : right - 1 < length l) by (unfold right in *; lia).
        assert (Ds : down_ok (right - 1) (upd l hole (at_ l (right - 1)))).
        { apply down_step; auto; [unfold right in *; lia|unfold right, parent; lia|].
          intros i Hi Ei. assert (i = right - 1) by (unfold parent, right in *; lia). subst i.
          apply above_refl. }
        repeat split; auto; try apply Ds; try (unfold right in *; lia).
        apply move_perm; auto. unfold right. lia.
      * repeat split; auto; try apply D. unfold right in *; lia.
Qed.

(** ** [pop_heap] *)

Lemma last_removelast (q : list key) k : q <> [] -> q = removelast q ++ [last q k].
Proof. apply app_removelast_last. Qed.

Lemma pop_facts k q : is_heap (k :: q) -> q <> [] ->
  exists h l, pop_heap k q = sift_up h h (last q k) l /\ h < length l /\ down_ok h l /\
    length l <= 2 * h + 1 /\ length l = length q /\
    Permutation (upd l h (last q k)) q.
Proof.
  intros H Hq. set (l0 := k :: removelast q).
  assert (L : length l0 = length q).
  { unfold l0. rewrite (last_removelast q k Hq) at 2. rewrite app_length. cbn. lia. }
  assert (Lq : 0 < length q) by (destruct q; [congruence|cbn; lia]).
  assert (P : forall i, i < length q -> at_ (k :: q) i = at_ l0 i).
  { intros i Hi. unfold l0, at_. rewrite (last_removelast q k Hq) at 1.
    change (k :: removelast q ++ [last q k]) with ((k :: removelast q) ++ [last q k]).
    apply app_nth1. fold l0. lia. }
  assert (D : down_ok 0 l0).
  { rewrite heap_at in H. split; [|lia]. intros i Hi N1 N2. rewrite <- !P by (unfold parent; lia).
    apply H. cbn. lia. }
  pose proof (sift_down_ok (last q k) (length q) 0 l0 ltac:(lia) ltac:(lia) D) as S.
  assert (E : pop_heap k q = let '(h, l) := sift_down (length q) 0 l0 in sift_up h h (last q k) l).
  { unfold pop_heap. destruct q; [congruence|reflexivity]. }
  destruct (sift_down (length q) 0 l0) as [h l]. destruct S as (S1 & S2 & S3 & S4 & S5).
  exists h, l. repeat split; auto; try apply S3; try lia.
  rewrite S5. unfold l0. cbn [upd]. rewrite (last_removelast q k Hq) at 3.
  apply Permutation_cons_append.
Qed.

Lemma pop_is_heap k q : is_heap (k :: q) -> is_heap (pop_heap k q).
Proof.
  intros H. destruct q as [|x q].
  { cbn. intros i a b _ E. destruct ((i - 1) / 2); discriminate. }
  destruct (pop_facts k (x :: q) H) as (h & l & -> & A & (D1 & D2) & C & _ & _); [discriminate|].
  apply sift_up_heap; auto. split; [auto|]. split; intros i Hi E; unfold parent in E; lia.
Qed.

(** The elements stay the same even if the vector is no heap. *)
Lemma sift_down_perm v : forall fuel hole l, hole < length l ->
  let '(h, l') := sift_down fuel hole l in
  h < length l' /\ Permutation (upd l' h v) (upd l hole v).
Proof.
  induction fuel as [|f IH]; intros hole l Hh; cbn [sift_down]; [auto|].
  set (right := 2 * hole + 2). destruct (Nat.ltb_spec right (length l)) as [Hr|Hr].
  - set (child := if heap_less (at_ l right) (at_ l (right - 1)) then right - 1 else right).
    assert (Hc : hole < child /\ child < length l).
    { unfold child, right in *. destruct (heap_less _ _); lia. }
    clearbody child. destruct Hc as (H1 & H2).
    specialize (IH child (upd l hole (at_ l child))). rewrite upd_length in IH. specialize (IH H2).
    destruct (sift_down f child _) as [h l']. destruct IH as (I1 & I2). split; auto.
    rewrite I2. apply move_perm; auto; lia.
  - destruct (Nat.eqb_spec right (length l)) as [Er|Nr]; [|auto].
    rewrite upd_length. split; [unfold right in *; lia|]. apply move_perm; unfold right in *; lia.
Qed.

Lemma pop_perm k q : Permutation (pop_heap k q) q.
Proof.
  destruct q as [|x q]; auto. set (q' := x :: q). assert (Hq : q' <> []) by discriminate.
  set (l0 := k :: removelast q').
  pose proof (sift_down_perm (last q' k) (length q') 0 l0 ltac:(cbn; lia)) as S.
  assert (E : pop_heap k q' = let '(h, l) := sift_down (length q') 0 l0 in sift_up h h (last q' k) l)
    by reflexivity.
  rewrite E. destruct (sift_down (length q') 0 l0) as [h l]. destruct S as (S1 & S2).
  rewrite sift_up_perm by auto. rewrite S2. unfold l0. cbn [upd].
  rewrite (last_removelast q' k Hq) at 3. apply Permutation_cons_append.
Qed.

(** The library that the algorithms make up. *)
Definition gcc_lib : heap_lib :=
  mk_heap_lib push_heap pop_heap push_perm push_is_heap pop_perm pop_is_heap.

(** ** The front and taking all *)

Lemma heap_front q k r : is_heap q -> q = k :: r -> forall x, In x q -> above k x.
Proof.
  intros H -> x Hx. rewrite heap_at in H. apply In_nth with (d := (0%Z, 0)) in Hx.
  destruct Hx as (i & Hi & <-). change (above k (at_ (k :: r) i)).
  induction i as [i IH] using (well_founded_induction lt_wf).
  destruct (Nat.eq_dec i 0) as [->|Hn]; [apply above_refl|].
  apply (above_trans _ (at_ (k :: r) (parent i))); [apply IH; unfold parent; lia|apply H; lia].
Qed.

Lemma drain_perm : forall fuel q, length q <= fuel -> Permutation (drain fuel q) q.
Proof.
  induction fuel as [|f IH]; intros q L; destruct q as [|k r]; cbn in *; auto; [lia|].
  apply perm_skip. rewrite IH by (rewrite (Permutation_length (pop_perm k r)); lia). apply pop_perm.
Qed.

Lemma drain_sorted : forall fuel q, is_heap q -> Sorted.StronglySorted above (drain fuel q).
Proof.
  induction fuel as [|f IH]; intros q H; [constructor|]. destruct q as [|k r]; cbn [drain]; [constructor|].
  constructor; [apply IH, pop_is_heap, H|]. apply Forall_forall. intros x Hx.
  apply (heap_front (k :: r) k r H eq_refl). right.
  apply (Permutation_in _ (pop_perm k r)). revert Hx. generalize (pop_heap k r). clear.
  induction f as [|f IH]; intros [|k q]; cbn [drain]; try (intros []; fail).
  intros [<-|Hx]; [left; auto|]. right. apply IH in Hx. apply (Permutation_in _ (pop_perm k q)). auto.
Qed.

Lemma pushes_heap : forall ks q, is_heap q -> is_heap (fold_left push_heap ks q).
Proof. induction ks as [|k ks IH]; intros q H; cbn; auto. apply IH, push_is_heap, H. Qed.
Lemma pushes_perm : forall ks q, Permutation (fold_left push_heap ks q) (ks ++ q).
Proof.
  induction ks as [|k ks IH]; intros q; cbn; auto. rewrite IH, push_perm. symmetry. apply Permutation_middle.
Qed.
Lemma nil_heap : is_heap [].
Proof. intros i a b _ E. destruct ((i - 1) / 2); discriminate. Qed.

Lemma above_earlier a b : above a b -> a <> b -> earlier a b.
Proof.
  unfold above. rewrite key_lt_false. destruct a as [t i], b as [u j]. unfold earlier. cbn. intros H N.
  destruct (Z.eq_dec t u) as [->|]; [|lia]. destruct (Nat.eq_dec i j) as [->|]; [congruence|lia].
Qed.

Lemma sorted_strict l : Sorted.StronglySorted above l -> NoDup l -> Sorted.StronglySorted earlier l.
Proof.
  induction 1 as [|k l S IH F]; intros N; [constructor|]. inversion N as [|? ? Hn Hd]; subst.
  constructor; auto. rewrite Forall_forall in F |- *. intros x Hx. apply above_earlier; auto.
  intros ->. auto.
Qed.
