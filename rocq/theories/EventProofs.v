(** Lemmas about events. *)
From Verif Require Import Base BaseProofs Event EventSpec.
From Coq Require Import ZifyBool ZifyNat ZifyN Sorting.Sorted Permutation.
Ltac Zify.zify_post_hook ::= Z.div_mod_to_equations.
Local Open Scope N_scope.

Lemma wsub32_1 c : 0 < c < 2 ^ 32 -> wsub 32 c 1 = c - 1.
Proof.
  intros H. unfold wsub, wrap. replace (c + (2 ^ 32 - 1)) with (c - 1 + 1 * 2 ^ 32) by lia.
  rewrite N.mod_add by discriminate. apply N.mod_small. lia.
Qed.

Lemma wsub32_0 : wsub 32 0 1 = 2 ^ 32 - 1.
Proof. reflexivity. Qed.

Lemma w32_small c : c < 2 ^ 32 -> w32 c = c.
Proof. apply wrap_small. Qed.

Section P.
Context {A : Type}.
Implicit Types (l : list (option A)) (a : A) (c : N).

Fixpoint entries (i : N) (l : list (option A)) : list (N * A) :=
  match l with
  | [] => []
  | None :: t => entries (i + 1) t
  | Some a :: t => (i + 1, a) :: entries (i + 1) t
  end.

Lemma entries_in l : forall i c a,
  In (c, a) (entries i l) <-> i < c /\ nth_error l (N.to_nat (c - i - 1)) = Some (Some a).
Proof.
  induction l as [|x t IH]; intros i c a; cbn [entries].
  - split; [intros []|intros [_ H]]. destruct (N.to_nat (c - i - 1)); discriminate.
  - assert (Ht : In (c, a) (entries (i + 1) t) <->
                 i + 1 < c /\ nth_error (x :: t) (N.to_nat (c - i - 1)) = Some (Some a)).
    { rewrite IH. split; intros [H1 H2]; (split; [exact H1|]).
      - replace (N.to_nat (c - i - 1)) with (S (N.to_nat (c - (i + 1) - 1))) by lia. exact H2.
      - replace (N.to_nat (c - i - 1)) with (S (N.to_nat (c - (i + 1) - 1))) in H2 by lia. exact H2. }
    destruct x as [b|]; [cbn [In]|]; rewrite Ht; clear Ht IH.
    + split.
      * intros [[= <- <-]|[H1 H2]]; [|split; [lia|exact H2]].
        split; [lia|]. replace (N.to_nat (i + 1 - i - 1)) with 0%nat by lia. reflexivity.
      * intros [H1 H2]. destruct (N.eq_dec c (i + 1)) as [->|Hn]; [left|right; split; [lia|exact H2]].
        replace (N.to_nat (i + 1 - i - 1)) with 0%nat in H2 by lia. cbn in H2. congruence.
    + split; intros [H1 H2]; (split; [|exact H2]); [lia|].
      destruct (N.eq_dec c (i + 1)) as [->|Hn]; [|lia].
      replace (N.to_nat (i + 1 - i - 1)) with 0%nat in H2 by lia. discriminate.
Qed.

Lemma entries_sorted l i : cookie_sorted (entries i l).
Proof.
  unfold cookie_sorted.
  revert i; induction l as [|[a|] t IH]; intros i; cbn [entries]; [constructor| |apply IH].
  constructor; [apply IH|]. apply Forall_forall. intros [c b] H. apply entries_in in H. cbn. lia.
Qed.

Lemma entries_bound l i c a : In (c, a) (entries i l) -> i < c <= i + N.of_nat (length l).
Proof.
  intros H. apply entries_in in H. destruct H as [H1 H2]. split; [exact H1|].
  assert (N.to_nat (c - i - 1) < length l)%nat; [|lia].
  apply nth_error_Some. congruence.
Qed.

Lemma entries_app l1 l2 i :
  entries i (l1 ++ l2) = entries i l1 ++ entries (i + N.of_nat (length l1)) l2.
Proof.
  revert i; induction l1 as [|[a|] t IH]; intros i; cbn [app entries length].
  - f_equal. lia.
  - rewrite IH. cbn. do 3 f_equal. lia.
  - rewrite IH. do 2 f_equal. lia.
Qed.

Lemma entries_length_le l i : (length (entries i l) <= length l)%nat.
Proof. revert i; induction l as [|[a|] t IH]; intros i; cbn; [lia| |]; specialize (IH (i + 1)); lia. Qed.

Lemma entries_full l i : length (entries i l) = length l -> forall k, nth_error l k <> Some None.
Proof.
  revert i; induction l as [|[a|] t IH]; intros i H k; cbn in *.
  - destruct k; discriminate.
  - destruct k; [discriminate|]. apply (IH (i + 1)). lia.
  - pose proof (entries_length_le t (i + 1)). lia.
Qed.

Lemma find_free_some l : forall i j,
  find_free l i = Some j -> (i <= j)%nat /\ nth_error l (j - i) = Some None.
Proof.
  induction l as [|[a|] t IH]; intros i j H; cbn in H; [discriminate| |].
  - apply IH in H. destruct H as [H1 H2]. split; [lia|].
    replace (j - i)%nat with (S (j - S i)) by lia. exact H2.
  - injection H as ->. split; [lia|]. rewrite Nat.sub_diag. reflexivity.
Qed.

Lemma find_free_none l : forall i j, find_free l i = None -> length (entries j l) = length l.
Proof.
  induction l as [|[a|] t IH]; intros i j H; cbn in H; [reflexivity| |discriminate].
  cbn. f_equal. eapply IH, H.
Qed.

Lemma set_nth_length k x l : length (set_nth k x l) = length l.
Proof. revert k; induction l as [|y t IH]; intros k; [reflexivity|]. destruct k; cbn; [reflexivity|now rewrite IH]. Qed.

Lemma nth_set_nth k x l j :
  nth_error (set_nth k x l) j =
  if Nat.eqb j k then (if Nat.ltb k (length l) then Some x else None) else nth_error l j.
Proof.
  revert k j; induction l as [|y t IH]; intros k j.
  - cbn. destruct k, j; try reflexivity. cbn. destruct (Nat.eqb j k); reflexivity.
  - destruct k, j; cbn [set_nth nth_error Nat.eqb length]; try reflexivity. rewrite IH. reflexivity.
Qed.

Lemma entries_clear l : forall i k a,
  nth_error l k = Some (Some a) ->
  entries i (set_nth k None l) = filter (fun p => negb (fst p =? i + N.of_nat k + 1)) (entries i l).
Proof.
  assert (Hall : forall l i c, c <= i -> filter (fun p => negb (fst p =? c)) (entries i l) = entries i l).
  { intros t i c Hc. assert (H : forall p, In p (entries i t) -> c < fst p).
    { intros [d b] Hp. apply entries_bound in Hp. cbn. lia. }
    clear Hc. induction (entries i t) as [|p r IHr]; [reflexivity|]. cbn [filter].
    replace (fst p =? c) with false by (specialize (H p (or_introl eq_refl)); lia). cbn [negb].
    f_equal. apply IHr. intros q Hq. apply H. now right. }
  induction l as [|x t IH]; intros i k a H; [destruct k; discriminate|].
  destruct k as [|k].
  - cbn in H. injection H as ->. cbn [set_nth entries filter fst].
    replace (i + 1 =? i + N.of_nat 0 + 1) with true by lia. cbn [negb]. symmetry. apply Hall. lia.
  - cbn in H. assert (He := IH (i + 1) k a H).
    replace (i + 1 + N.of_nat k + 1) with (i + N.of_nat (S k) + 1) in He by lia.
    destruct x as [b|]; cbn [set_nth entries filter fst]; [|exact He].
    replace (i + 1 =? i + N.of_nat (S k) + 1) with false by lia. cbn [negb]. now rewrite He.
Qed.

Lemma entries_set l : forall i k a,
  nth_error l k = Some None ->
  Permutation (entries i (set_nth k (Some a) l)) ((i + N.of_nat k + 1, a) :: entries i l).
Proof.
  induction l as [|x t IH]; intros i k a H; [destruct k; discriminate|].
  destruct k as [|k].
  - cbn in H. injection H as ->. cbn [set_nth entries].
    replace (i + N.of_nat 0 + 1) with (i + 1) by lia. reflexivity.
  - cbn in H. specialize (IH (i + 1) k a H).
    replace (i + 1 + N.of_nat k + 1) with (i + N.of_nat (S k) + 1) in IH by lia.
    destruct x as [b|]; cbn [set_nth entries]; [|exact IH].
    etransitivity; [apply perm_skip, IH|]. apply perm_swap.
Qed.

(** [last] is one past the last occupied slot. *)
Definition last_ok l (last : nat) : Prop :=
  (last <= length l)%nat /\
  (forall k a, nth_error l k = Some (Some a) -> (k < last)%nat) /\
  (last <> 0%nat -> exists a, nth_error l (last - 1) = Some (Some a)).

Lemma shrink_ok l last :
  (last <= length l)%nat ->
  (forall k a, nth_error l k = Some (Some a) -> (k < last)%nat) ->
  exists n, shrink l last = Done n /\ last_ok l n.
Proof.
  induction last as [|k IH]; intros Hle Hall; cbn [shrink].
  - exists 0%nat. split; [reflexivity|]. split; [exact Hle|]. split; [exact Hall|lia].
  - destruct (nth_error l k) as [[a|]|] eqn:E.
    + exists (S k). split; [reflexivity|]. split; [exact Hle|]. split; [exact Hall|].
      intros _. exists a. now rewrite Nat.sub_succ, Nat.sub_0_r.
    + apply IH; [lia|]. intros j a Hj. pose proof (Hall j a Hj). destruct (Nat.eq_dec j k); [congruence|lia].
    + apply nth_error_None in E. lia.
Qed.

Lemma visit_loop_ok l n : forall i,
  (i + n <= length l)%nat ->
  (forall k a, nth_error l k = Some (Some a) -> (k < i + n)%nat) ->
  visit_loop l i n = Done (entries (N.of_nat i) (skipn i l)).
Proof.
  induction n as [|n IH]; intros i Hle Hall; cbn [visit_loop].
  - f_equal. assert (Hn : forall j x, nth_error (skipn i l) j = Some x -> x = None).
    { intros j [x|] Hx; [|reflexivity]. rewrite nth_error_skipn' in Hx. apply Hall in Hx. lia. }
    clear Hall Hle. generalize (N.of_nat i). induction (skipn i l) as [|[a|] t IHt]; intros m; cbn.
    + reflexivity.
    + specialize (Hn 0%nat (Some a) eq_refl). discriminate.
    + apply IHt. intros j x Hx. apply (Hn (S j) x Hx).
  - destruct (nth_error l i) as [x|] eqn:E; [|apply nth_error_None in E; lia].
    assert (Hs : skipn i l = x :: skipn (S i) l).
    { clear -E. revert i E; induction l as [|y t IHl]; intros i E; [destruct i; discriminate|].
      destruct i; cbn in E; [injection E as ->; reflexivity|]. cbn [skipn]. now apply IHl. }
    rewrite Hs. cbn [entries].
    assert (Hr : visit_loop l (S i) n = Done (entries (N.of_nat i + 1) (skipn (S i) l))).
    { rewrite IH; [do 2 f_equal; lia|lia|]. intros k a Hk. apply Hall in Hk. lia. }
    rewrite Hr. destruct x; reflexivity.
Qed.

(** Invariant of the slot table. *)
Record slots_ok (cap : N) (s : slots A) : Prop := {
  so_num : sl_num s = N.of_nat (length (entries 0 (sl_items s)));
  so_last : last_ok (sl_items s) (N.to_nat (sl_last s));
  so_cap : N.of_nat (length (sl_items s)) <= cap }.

Lemma slots_ok_init cap : slots_ok cap (@slots_init A).
Proof.
  split; cbn; [reflexivity| |lia]. split; [cbn; lia|]. split; [|cbn; congruence].
  intros k a. destruct k; discriminate.
Qed.

Lemma slots_visit_ok cap s : slots_ok cap s -> slots_visit s = Done (entries 0 (sl_items s)).
Proof.
  intros [_ (H1 & H2 & _) _]. unfold slots_visit. rewrite visit_loop_ok; [reflexivity|lia|].
  intros k a Hk. apply H2 in Hk. lia.
Qed.

Lemma slots_insert_ok cap s a :
  0 < cap < 2 ^ 32 -> slots_ok cap s -> sl_num s < cap ->
  exists c s', slots_insert s a = (c, s') /\ slots_ok cap s' /\ 0 < c <= cap /\
    Permutation (entries 0 (sl_items s')) ((c, a) :: entries 0 (sl_items s)) /\
    ~ In c (map fst (entries 0 (sl_items s))) /\
    sl_last s <= sl_last s' /\
    (forall k b, nth_error (sl_items s) k = Some (Some b) -> nth_error (sl_items s') k = Some (Some b)).
Proof.
  intros Hcap [Hnum Hlast Hlen] Hlt. unfold slots_insert.
  pose proof (entries_length_le (sl_items s) 0) as Hel.
  destruct (N.ltb_spec (sl_num s) (N.of_nat (length (sl_items s)))) as [Hfree|Hfull].
  - destruct (find_free (sl_items s) 0) as [i|] eqn:E.
    2:{ apply (find_free_none _ _ 0) in E. lia. }
    apply find_free_some in E. destruct E as [_ E]. rewrite Nat.sub_0_r in E.
    assert (Hi : (i < length (sl_items s))%nat) by (apply nth_error_Some; congruence).
    rewrite !w32_small by lia. eexists _, _. split; [reflexivity|]. cbn [sl_items sl_num sl_last].
    pose proof (entries_set (sl_items s) 0 i a E) as HP. rewrite N.add_0_l in HP.
    split; [split|].
    + cbn [sl_items sl_num sl_last]. rewrite (Permutation_length HP). cbn [length]. lia.
    + cbn [sl_items sl_num sl_last]. destruct Hlast as (L1 & L2 & L3). split; [|split].
      * rewrite set_nth_length. destruct (N.ltb_spec (sl_last s) (N.of_nat i + 1)); lia.
      * intros k b Hk. rewrite nth_set_nth in Hk.
        destruct (Nat.eqb_spec k i) as [->|Hne]; [destruct (N.ltb_spec (sl_last s) (N.of_nat i + 1)); lia|].
        apply L2 in Hk. destruct (N.ltb_spec (sl_last s) (N.of_nat i + 1)); lia.
      * intros _. destruct (N.ltb_spec (sl_last s) (N.of_nat i + 1)) as [Hl|Hl].
        -- exists a. rewrite nth_set_nth. replace (Nat.eqb _ i) with true by (symmetry; apply Nat.eqb_eq; lia).
           replace (Nat.ltb i (length (sl_items s))) with true by (symmetry; apply Nat.ltb_lt; lia). reflexivity.
        -- destruct L3 as [b Hb]; [lia|]. exists b. rewrite nth_set_nth.
           destruct (Nat.eqb_spec (N.to_nat (sl_last s) - 1) i) as [Heq|]; [|exact Hb].
           rewrite Heq in Hb. congruence.
    + cbn [sl_items]. rewrite set_nth_length. exact Hlen.
    + split; [lia|]. split; [exact HP|]. split; [|split].
      * intros Hin. apply in_map_iff in Hin. destruct Hin as [[c b] [Hc Hin]]. cbn in Hc. subst c.
        apply entries_in in Hin. destruct Hin as [_ Hin].
        replace (N.to_nat (N.of_nat i + 1 - 0 - 1)) with i in Hin by lia. congruence.
      * destruct (N.ltb_spec (sl_last s) (N.of_nat i + 1)); lia.
      * intros k b Hk. rewrite nth_set_nth. destruct (Nat.eqb_spec k i) as [->|]; [congruence|exact Hk].
  - rewrite !w32_small by lia. eexists _, _. split; [reflexivity|].
    assert (Hll : N.of_nat (length (sl_items s)) = sl_num s) by lia.
    assert (HE : entries 0 (sl_items s ++ [Some a]) = entries 0 (sl_items s) ++ [(sl_num s + 1, a)]).
    { rewrite entries_app. cbn [entries]. rewrite Hll, N.add_0_l. reflexivity. }
    assert (Hnew : forall k b, nth_error (sl_items s) k = Some (Some b) ->
                               nth_error (sl_items s ++ [Some a]) k = Some (Some b)).
    { intros k b Hk. rewrite nth_error_app1; [exact Hk|]. apply nth_error_Some. congruence. }
    split; [split|]; cbn [sl_items sl_num sl_last].
    + rewrite HE, app_length. cbn [length]. lia.
    + split; [|split].
      * rewrite app_length. cbn. lia.
      * intros k b Hk. assert (k < length (sl_items s ++ [Some a]))%nat by (apply nth_error_Some; congruence).
        rewrite app_length in H. cbn in H. lia.
      * intros _. exists a. replace (N.to_nat (sl_num s + 1) - 1)%nat with (length (sl_items s)) by lia.
        rewrite nth_error_app2, Nat.sub_diag by lia. reflexivity.
    + rewrite app_length. cbn [length]. lia.
    + split; [lia|]. split; [|split; [|split]].
      * rewrite HE. symmetry. apply Permutation_cons_append.
      * intros Hin. apply in_map_iff in Hin. destruct Hin as [[c b] [Hc Hin]]. cbn in Hc. subst c.
        apply entries_bound in Hin. lia.
      * destruct Hlast as (L1 & _). lia.
      * exact Hnew.
Qed.

Lemma slots_remove_ok cap s c :
  0 < cap < 2 ^ 32 -> c < 2 ^ 32 -> slots_ok cap s ->
  exists s', slots_remove s c = Done s' /\ slots_ok cap s' /\
    entries 0 (sl_items s') = filter (fun p => negb (fst p =? c)) (entries 0 (sl_items s)) /\
    length (sl_items s') = length (sl_items s) /\
    (forall k, c <> N.of_nat k + 1 -> nth_error (sl_items s') k = nth_error (sl_items s) k).
Proof.
  intros Hcap Hc [Hnum Hlast Hlen]. unfold slots_remove.
  assert (Hsame : ~ In c (map fst (entries 0 (sl_items s))) ->
                  entries 0 (sl_items s) = filter (fun p => negb (fst p =? c)) (entries 0 (sl_items s))).
  { generalize (entries 0 (sl_items s)). clear.
    intros e Hn. induction e as [|p r IH]; [reflexivity|]. cbn [filter map In] in *.
    replace (fst p =? c) with false by (symmetry; apply N.eqb_neq; intuition). cbn [negb].
    f_equal. apply IH. intuition. }
  assert (Hid : ~ In c (map fst (entries 0 (sl_items s))) ->
    exists s', Done s = Done s' /\ slots_ok cap s' /\
      entries 0 (sl_items s') = filter (fun p => negb (fst p =? c)) (entries 0 (sl_items s)) /\
      length (sl_items s') = length (sl_items s) /\
      (forall k, c <> N.of_nat k + 1 -> nth_error (sl_items s') k = nth_error (sl_items s) k)).
  { intros Hn. exists s. repeat split; try assumption; try apply Hlast. now apply Hsame. }
  destruct (N.ltb_spec (wsub 32 c 1) (N.of_nat (length (sl_items s)))) as [Hk|Hk].
  2:{ apply Hid. intros Hin. apply in_map_iff in Hin. destruct Hin as [[d b] [<- Hin]].
      apply entries_bound in Hin. cbn [fst] in *. rewrite wsub32_1 in Hk by lia. lia. }
  assert (Hc0 : 0 < c).
  { destruct (N.eq_dec c 0) as [->|]; [|lia]. rewrite wsub32_0 in Hk. lia. }
  rewrite wsub32_1 in Hk by lia. rewrite wsub32_1 by lia.
  destruct (nth_error (sl_items s) (N.to_nat (c - 1))) as [[a|]|] eqn:E.
  - assert (Hcl := entries_clear (sl_items s) 0 _ a E).
    replace (0 + N.of_nat (N.to_nat (c - 1)) + 1) with c in Hcl by lia.
    set (items := set_nth (N.to_nat (c - 1)) None (sl_items s)) in *.
    destruct Hlast as (L1 & L2 & L3).
    assert (Hnth : forall k, k <> N.to_nat (c - 1) -> nth_error items k = nth_error (sl_items s) k).
    { intros k Hne. unfold items. rewrite nth_set_nth. destruct (Nat.eqb_spec k (N.to_nat (c - 1))); congruence. }
    destruct (shrink_ok items (N.to_nat (sl_last s))) as (n & Hn & Hln).
    + unfold items. rewrite set_nth_length. exact L1.
    + intros k b Hkb. apply (L2 k b). rewrite <- Hnth; [exact Hkb|]. intros ->.
      unfold items in Hkb. rewrite nth_set_nth, Nat.eqb_refl in Hkb. destruct (Nat.ltb _ _); discriminate.
    + rewrite Hn. cbn [obind]. eexists. split; [reflexivity|]. cbn [sl_items sl_num sl_last].
      assert (Hcount : N.of_nat (length (entries 0 items)) = sl_num s - 1 /\ 1 <= sl_num s).
      { assert (HP : Permutation (entries 0 (sl_items s)) ((c, a) :: entries 0 items)).
        { assert (Ei : nth_error items (N.to_nat (c - 1)) = Some None).
          { unfold items. rewrite nth_set_nth, Nat.eqb_refl.
            replace (Nat.ltb _ _) with true by (symmetry; apply Nat.ltb_lt; lia). reflexivity. }
          pose proof (entries_set items 0 _ a Ei) as HP.
          replace (0 + N.of_nat (N.to_nat (c - 1)) + 1) with c in HP by lia.
          replace (set_nth (N.to_nat (c - 1)) (Some a) items) with (sl_items s) in HP; [exact HP|].
          apply list_ext. intros k. rewrite nth_set_nth. unfold items. rewrite set_nth_length, nth_set_nth.
          destruct (Nat.eqb_spec k (N.to_nat (c - 1))) as [->|]; [|reflexivity].
          replace (Nat.ltb _ _) with true by (symmetry; apply Nat.ltb_lt; lia). exact E. }
        apply Permutation_length in HP. cbn [length] in HP. lia. }
      pose proof (entries_length_le (sl_items s) 0).
      split; [split|]; cbn [sl_items sl_num sl_last].
      * rewrite wsub32_1 by lia. lia.
      * rewrite Nat2N.id. exact Hln.
      * unfold items. rewrite set_nth_length. exact Hlen.
      * split; [exact Hcl|]. split; [apply set_nth_length|].
        intros k Hne. apply Hnth. lia.
  - apply Hid. intros Hin. apply in_map_iff in Hin. destruct Hin as [[d b] [Hd Hin]]. cbn in Hd. subst d.
    apply entries_in in Hin. destruct Hin as [_ Hin].
    replace (N.to_nat (c - 0 - 1)) with (N.to_nat (c - 1)) in Hin by lia. congruence.
  - apply nth_error_None in E. lia.
Qed.

Lemma slots_get_iff cap s c a :
  0 < cap < 2 ^ 32 -> slots_ok cap s ->
  slots_get s c = Some a <-> In (c, a) (entries 0 (sl_items s)).
Proof.
  intros Hcap [Hnum Hlast Hlen]. unfold slots_get. rewrite entries_in.
  destruct (N.eqb_spec c 0) as [->|Hc0]; cbn [orb].
  { split; [discriminate|]. intros [H _]. lia. }
  destruct (N.ltb_spec (N.of_nat (length (sl_items s))) c) as [Hl|Hl].
  { split; [discriminate|]. intros [_ H]. assert (N.to_nat (c - 0 - 1) < length (sl_items s))%nat.
    { apply nth_error_Some. congruence. } lia. }
  rewrite wsub32_1 by lia. replace (c - 0 - 1) with (c - 1) by lia.
  destruct (nth_error (sl_items s) (N.to_nat (c - 1))) as [x|] eqn:E.
  - split; [intros ->; split; [lia|reflexivity]|]. intros [_ H]. congruence.
  - apply nth_error_None in E. lia.
Qed.

(** ** Histories *)

Lemma conns_app (l1 l2 : list (ev_log A)) : @conns A (l1 ++ l2) = fold_left conn_step l2 (conns l1).
Proof. apply fold_left_app. Qed.

Lemma conns_snoc (l : list (ev_log A)) e : @conns A (l ++ [e]) = conn_step (conns l) e.
Proof. rewrite conns_app. reflexivity. Qed.

Lemma log_ok_nil cap : @log_ok A cap [].
Proof. intros b e t H. destruct b; discriminate. Qed.

Lemma log_ok_snoc cap (l : list (ev_log A)) e : log_ok cap l -> entry_ok cap l e -> @log_ok A cap (l ++ [e]).
Proof.
  intros Hl He b x t H. destruct t as [|y t].
  - apply app_inj_tail in H. destruct H as [-> ->]. exact He.
  - assert (Hs : exists t', y :: t = t' ++ [e] /\ l = b ++ x :: t').
    { destruct (exists_last (l := y :: t) ltac:(discriminate)) as [t' [z Hz]].
      rewrite Hz in H. change (x :: t' ++ [z]) with ((x :: t') ++ [z]) in H. rewrite app_assoc in H.
      apply app_inj_tail in H. destruct H as [-> ->]. exists t'. split; [exact Hz|reflexivity]. }
    destruct Hs as (t' & _ & ->). eapply Hl. reflexivity.
Qed.

Record inv (cap : N) (st : ev_state A) : Prop := {
  iv_slots : slots_ok cap (ev_slots st);
  iv_conns : Permutation (entries 0 (sl_items (ev_slots st))) (conns (ev_hist st));
  iv_log : log_ok cap (ev_hist st) }.

Lemma inv_init cap : inv cap ev_init.
Proof. split; [apply slots_ok_init|reflexivity|apply log_ok_nil]. Qed.

Lemma inv_num cap st : inv cap st -> sl_num (ev_slots st) = N.of_nat (length (conns (ev_hist st))).
Proof. intros [[H _ _] HP _]. rewrite H. now rewrite (Permutation_length HP). Qed.

Lemma filter_perm {B} (f : B -> bool) (l1 l2 : list B) : Permutation l1 l2 -> Permutation (filter f l1) (filter f l2).
Proof.
  induction 1 as [|x l l' H IH|x y l|l l' l'' H1 IH1 H2 IH2]; cbn.
  - constructor.
  - destruct (f x); [now constructor|exact IH].
  - destruct (f x), (f y); try reflexivity. apply perm_swap.
  - etransitivity; eassumption.
Qed.

Lemma ev_connect_ok cap st a :
  0 < cap < 2 ^ 32 -> inv cap st ->
  (N.of_nat (length (conns (ev_hist st))) = cap /\
     ev_connect cap (ev_slots st) (Some a) = Throw ConnectionLimit) \/
  (N.of_nat (length (conns (ev_hist st))) < cap /\
   exists c s', ev_connect cap (ev_slots st) (Some a) = Done (c, s') /\
     inv cap (mk_ev s' (ev_hist st ++ [LConn c a])) /\
     0 < c <= cap /\ ~ In c (map fst (conns (ev_hist st))) /\
     sl_last (ev_slots st) <= sl_last s' /\
     (forall k b, nth_error (sl_items (ev_slots st)) k = Some (Some b) ->
                  nth_error (sl_items s') k = Some (Some b))).
Proof.
  intros Hcap Hinv. pose proof (inv_num _ _ Hinv) as Hnum. destruct Hinv as [Hs HP Hlog].
  pose proof (entries_length_le (sl_items (ev_slots st)) 0).
  unfold ev_connect. destruct (N.eqb_spec (sl_num (ev_slots st)) cap) as [He|Hne]; [left; split; [lia|reflexivity]|].
  right. assert (Hlt : sl_num (ev_slots st) < cap) by (destruct Hs; lia). split; [lia|].
  destruct (slots_insert_ok cap _ a Hcap Hs Hlt) as (c & s' & Hi & Hs' & Hc & HP' & Hfresh & Hl & Hk).
  rewrite Hi. replace (c =? 0) with false by lia. exists c, s'. split; [reflexivity|].
  assert (Hfresh' : ~ In c (map fst (conns (ev_hist st)))).
  { intros Hin. apply Hfresh. eapply Permutation_in; [|exact Hin]. apply Permutation_map. now symmetry. }
  split; [|tauto]. split; cbn [ev_slots ev_hist].
  - exact Hs'.
  - rewrite conns_snoc. cbn [conn_step]. rewrite HP', HP. apply Permutation_cons_append.
  - apply log_ok_snoc; [exact Hlog|]. cbn [entry_ok]. split; [lia|]. split; [exact Hfresh'|lia].
Qed.

Lemma ev_disconnect_ok cap st c :
  0 < cap < 2 ^ 32 -> c < 2 ^ 32 -> inv cap st ->
  exists s', ev_disconnect (ev_slots st) c = Done s' /\
    inv cap (mk_ev s' (ev_hist st ++ [LDisc c])) /\
    (forall k, c <> N.of_nat k + 1 -> nth_error (sl_items s') k = nth_error (sl_items (ev_slots st)) k).
Proof.
  intros Hcap Hc [Hs HP Hlog]. unfold ev_disconnect.
  destruct (slots_remove_ok cap _ c Hcap Hc Hs) as (s' & Hr & Hs' & He & _ & Hk).
  exists s'. split; [exact Hr|]. split; [|exact Hk]. split; cbn [ev_slots ev_hist].
  - exact Hs'.
  - rewrite conns_snoc. cbn [conn_step]. rewrite He. now apply filter_perm.
  - apply log_ok_snoc; [exact Hlog|exact I].
Qed.

Lemma inv_call cap st i a :
  inv cap st -> nth_error (sl_items (ev_slots st)) (N.to_nat i) = Some (Some a) ->
  inv cap (mk_ev (ev_slots st) (ev_hist st ++ [LCall (i + 1) a])).
Proof.
  intros [Hs HP Hlog] H. split; cbn [ev_slots ev_hist].
  - exact Hs.
  - rewrite conns_snoc. exact HP.
  - apply log_ok_snoc; [exact Hlog|]. cbn [entry_ok]. eapply Permutation_in; [exact HP|].
    apply entries_in. split; [lia|]. replace (i + 1 - 0 - 1) with i by lia. exact H.
Qed.

Lemma w32_lt c : w32 c < 2 ^ 32.
Proof. apply wrap_lt. Qed.

(** Safety of user code, given safety of nested firing. *)
Lemma run_ops_safe cap fire (P : ev_state A -> Prop) :
  0 < cap < 2 ^ 32 ->
  (forall st, inv cap st -> inv cap (fst (fire st)) /\ snd (fire st) <> Undef) ->
  forall ops st, inv cap st ->
    inv cap (fst (run_ops cap fire ops st)) /\ snd (run_ops cap fire ops st) <> Undef.
Proof.
  intros Hcap Hfire. induction ops as [|o t IH]; intros st Hst; cbn [run_ops].
  { split; [exact Hst|discriminate]. }
  destruct o as [[a|]|c| |].
  - destruct (ev_connect_ok cap st a Hcap Hst) as [[_ H]|[_ (c & s' & H & Hi & _)]]; rewrite H.
    + now apply IH.
    + now apply IH.
  - cbn [ev_connect]. now apply IH.
  - destruct (ev_disconnect_ok cap st (w32 c) Hcap (w32_lt c) Hst) as (s' & H & Hi & _). rewrite H. now apply IH.
  - destruct (Hfire st Hst) as [H1 H2]. destruct (fire st) as [st' [| | |]]; cbn [fst snd] in *;
      try (split; [exact H1|congruence]). now apply IH.
  - split; [exact Hst|discriminate].
Qed.

Lemma fire_void_safe cap (h : behaviour A) : 0 < cap < 2 ^ 32 ->
  forall fuel i st, inv cap st ->
    inv cap (fst (fire_void cap fuel h i st)) /\ snd (fire_void cap fuel h i st) <> Undef.
Proof.
  intros Hcap. induction fuel as [|f IH]; intros i st Hst; cbn [fire_void].
  { split; [exact Hst|discriminate]. }
  destruct (N.ltb_spec i (sl_last (ev_slots st))) as [Hi|Hi]; [|split; [exact Hst|discriminate]].
  destruct (nth_error (sl_items (ev_slots st)) (N.to_nat i)) as [[a|]|] eqn:E.
  - unfold call_sink.
    pose proof (run_ops_safe cap (fire_void cap f h 0) (fun _ => True) Hcap
      (fun s Hs => IH 0 s Hs) (h (ev_hist (mk_ev (ev_slots st) (ev_hist st ++ [LCall (i + 1) a]))) (i + 1) a)
      _ (inv_call cap st i a Hst E)) as [H1 H2].
    destruct (run_ops _ _ _ _) as [st' [| | |]]; cbn [fst snd] in *; try (split; [exact H1|congruence]).
    now apply IH.
  - now apply IH.
  - exfalso. apply nth_error_None in E. destruct Hst as [[_ (L1 & _) _] _ _]. lia.
Qed.

(** ** What a firing without nesting does, call by call *)

Lemma run_ops_ext cap fire :
  0 < cap < 2 ^ 32 ->
  forall ops st st' s, ~ In OFire ops -> inv cap st -> run_ops cap fire ops st = (st', s) ->
    inv cap st' /\ s <> Undef /\ s <> OutOfFuel /\
    exists sfx, ev_hist st' = ev_hist st ++ sfx /\ calls sfx = [] /\
      (forall c, In (LDisc c) sfx -> exists d, c = w32 d /\ In (ODisconnect d) ops).
Proof.
  intros Hcap. induction ops as [|o t IH]; intros st st' s Hn Hst H; cbn [run_ops] in H.
  { injection H as <- <-. split; [exact Hst|]. split; [discriminate|]. split; [discriminate|].
    exists []. rewrite app_nil_r. cbn. intuition. }
  assert (Hn' : ~ In OFire t) by (cbn in Hn; intuition).
  assert (Hstep : forall st1 e, inv cap st1 -> ev_hist st1 = ev_hist st ++ [e] ->
    calls [e] = [] -> (forall c, e = LDisc c -> exists d, c = w32 d /\ o = ODisconnect d) ->
    run_ops cap fire t st1 = (st', s) ->
    inv cap st' /\ s <> Undef /\ s <> OutOfFuel /\
    exists sfx, ev_hist st' = ev_hist st ++ sfx /\ calls sfx = [] /\
      (forall c, In (LDisc c) sfx -> exists d, c = w32 d /\ In (ODisconnect d) (o :: t))).
  { intros st1 e Hi1 He Hc Hd Hr. destruct (IH st1 st' s Hn' Hi1 Hr) as (Hi & Hs & Hf & sfx & Hx & Hcx & Hdx).
    split; [exact Hi|]. split; [exact Hs|]. split; [exact Hf|]. exists (e :: sfx).
    rewrite Hx, He, <- app_assoc. split; [reflexivity|]. split.
    - change (e :: sfx) with ([e] ++ sfx). unfold calls in *. rewrite flat_map_app, Hc, Hcx. reflexivity.
    - intros c [Hce|Hin].
      + destruct (Hd c Hce) as (d & -> & ->). exists d. split; [reflexivity|now left].
      + destruct (Hdx c Hin) as (d & -> & Hd'). exists d. split; [reflexivity|now right]. }
  assert (Hskip : run_ops cap fire t st = (st', s) ->
    inv cap st' /\ s <> Undef /\ s <> OutOfFuel /\
    exists sfx, ev_hist st' = ev_hist st ++ sfx /\ calls sfx = [] /\
      (forall c, In (LDisc c) sfx -> exists d, c = w32 d /\ In (ODisconnect d) (o :: t))).
  { intros Hr. destruct (IH st st' s Hn' Hst Hr) as (Hi & Hs & Hf & sfx & Hx & Hcx & Hdx).
    split; [exact Hi|]. split; [exact Hs|]. split; [exact Hf|]. exists sfx. split; [exact Hx|]. split; [exact Hcx|].
    intros c Hin. destruct (Hdx c Hin) as (d & -> & Hd'). exists d. split; [reflexivity|now right]. }
  destruct o as [[a|]|c| |].
  - destruct (ev_connect_ok cap st a Hcap Hst) as [[_ H']|[_ (c & s' & H' & Hi & _)]]; rewrite H' in H.
    + now apply Hskip.
    + eapply Hstep; [exact Hi|reflexivity|reflexivity| |exact H]. intros d Hd. discriminate.
  - now apply Hskip.
  - destruct (ev_disconnect_ok cap st (w32 c) Hcap (w32_lt c) Hst) as (s' & H' & Hi & _). rewrite H' in H.
    eapply Hstep; [exact Hi|reflexivity|reflexivity| |exact H]. intros d [= <-]. now exists c.
  - cbn in Hn. intuition.
  - injection H as <- <-. split; [exact Hst|]. split; [discriminate|]. split; [discriminate|].
    exists []. rewrite app_nil_r. cbn. intuition.
Qed.

Lemma conns_keep (c : N) a : forall sfx (l : list (N * A)),
  In (c, a) l -> ~ In (LDisc c) sfx -> In (c, a) (fold_left (@conn_step A) sfx l).
Proof.
  induction sfx as [|e t IH]; intros l Hin Hn; cbn [fold_left]; [exact Hin|].
  apply IH; [|cbn in Hn; intuition]. destruct e as [d b|d|d b]; cbn [conn_step].
  - apply in_or_app. now left.
  - apply filter_In. split; [exact Hin|]. cbn [fst]. cbn in Hn.
    destruct (N.eqb_spec c d) as [->|]; [intuition|reflexivity].
  - exact Hin.
Qed.

Lemma inv_live cap st i a :
  inv cap st -> In (i + 1, a) (conns (ev_hist st)) ->
  i < sl_last (ev_slots st) /\ nth_error (sl_items (ev_slots st)) (N.to_nat i) = Some (Some a).
Proof.
  intros [[_ (L1 & L2 & _) _] HP _] Hin. apply (Permutation_in _ (Permutation_sym HP)) in Hin.
  apply entries_in in Hin. destruct Hin as [_ Hin]. replace (i + 1 - 0 - 1) with i in Hin by lia.
  split; [|exact Hin]. apply L2 in Hin. lia.
Qed.

Lemma calls_app (l1 l2 : list (ev_log A)) : calls (l1 ++ l2) = calls l1 ++ calls l2.
Proof. apply flat_map_app. Qed.

Lemma fire_void_calls cap (h : behaviour A) : 0 < cap < 2 ^ 32 -> not_nested h ->
  forall fuel i st st' s, inv cap st -> fire_void cap fuel h i st = (st', s) ->
    exists sfx, ev_hist st' = ev_hist st ++ sfx /\
      ascending (calls sfx) /\ Forall (fun c => i < c) (calls sfx) /\
      (s = Ok -> forall c a, i < c -> In (c, a) (conns (ev_hist st)) -> ~ In (LDisc c) sfx ->
         In (LCall c a) sfx).
Proof.
  intros Hcap Hh. induction fuel as [|f IH]; intros i st st' s Hst H; cbn [fire_void] in H.
  { injection H as <- <-. exists []. rewrite app_nil_r. repeat split; try constructor. discriminate. }
  destruct (N.ltb_spec i (sl_last (ev_slots st))) as [Hi|Hi].
  2:{ injection H as <- <-. exists []. rewrite app_nil_r. repeat split; try constructor.
      intros _ c a Hc Hin. exfalso. replace c with (c - 1 + 1) in Hin by lia.
      apply (inv_live cap) in Hin; [|exact Hst]. lia. }
  destruct (nth_error (sl_items (ev_slots st)) (N.to_nat i)) as [[a|]|] eqn:E.
  - unfold call_sink in H. set (st1 := mk_ev (ev_slots st) (ev_hist st ++ [LCall (i + 1) a])) in *.
    assert (Hst1 : inv cap st1) by (apply inv_call; assumption).
    destruct (run_ops cap (fire_void cap f h 0) (h (ev_hist st1) (i + 1) a) st1) as [st2 s2] eqn:Er.
    destruct (run_ops_ext cap _ Hcap _ _ _ _ (Hh (ev_hist st1) (i + 1) a) Hst1 Er)
      as (Hst2 & _ & _ & sfx1 & Hx1 & Hc1 & _).
    cbn [ev_hist] in Hx1. unfold st1 in Hx1. cbn [ev_hist] in Hx1. rewrite <- app_assoc in Hx1. cbn [app] in Hx1.
    assert (Hstop : (st2, s2) = (st', s) -> s <> Ok ->
      exists sfx, ev_hist st' = ev_hist st ++ sfx /\
        ascending (calls sfx) /\ Forall (fun c => i < c) (calls sfx) /\
        (s = Ok -> forall c a, i < c -> In (c, a) (conns (ev_hist st)) -> ~ In (LDisc c) sfx ->
           In (LCall c a) sfx)).
    { intros [= <- <-] Hne. exists (LCall (i + 1) a :: sfx1). split; [exact Hx1|].
      change (LCall (i + 1) a :: sfx1) with ([LCall (i + 1) a] ++ sfx1). rewrite calls_app, Hc1. cbn.
      repeat split; try (repeat constructor; lia). congruence. }
    destruct s2; try (apply Hstop; [exact H|intros ->; congruence]).
    destruct (IH (i + 1) st2 st' s Hst2 H) as (sfx2 & Hx2 & Hasc & Hall & Hdone).
    exists (LCall (i + 1) a :: sfx1 ++ sfx2). split; [|split; [|split]].
    + rewrite Hx2, Hx1, <- app_assoc. reflexivity.
    + change (LCall (i + 1) a :: sfx1 ++ sfx2) with ([LCall (i + 1) a] ++ sfx1 ++ sfx2).
      rewrite !calls_app, Hc1. cbn. constructor; [exact Hasc|exact Hall].
    + change (LCall (i + 1) a :: sfx1 ++ sfx2) with ([LCall (i + 1) a] ++ sfx1 ++ sfx2).
      rewrite !calls_app, Hc1. cbn. constructor; [lia|].
      eapply Forall_impl; [|exact Hall]. cbn. intros c Hc. lia.
    + intros Hok c b Hc Hin Hnd. destruct (N.eq_dec c (i + 1)) as [->|Hne].
      * left. apply (inv_live cap) in Hin; [|exact Hst]. destruct Hin as [_ Hin]. congruence.
      * right. apply in_or_app. right. apply (Hdone Hok c b); [lia| |].
        -- rewrite Hx1, conns_app. apply conns_keep; [exact Hin|].
           cbn. intros [Hd|Hd]; [discriminate|]. apply Hnd. right. apply in_or_app. now left.
        -- intros Hd. apply Hnd. right. apply in_or_app. now right.
  - destruct (IH (i + 1) st st' s Hst H) as (sfx & Hx & Hasc & Hall & Hdone).
    exists sfx. split; [exact Hx|]. split; [exact Hasc|]. split.
    + eapply Forall_impl; [|exact Hall]. cbn. intros c Hc. lia.
    + intros Hok c b Hc Hin Hnd. apply (Hdone Hok c b); try assumption.
      destruct (N.eq_dec c (i + 1)) as [->|]; [|lia].
      apply (inv_live cap) in Hin; [|exact Hst]. destruct Hin as [_ Hin]. congruence.
  - apply nth_error_None in E. destruct Hst as [[_ (L1 & _) _] _ _]. lia.
Qed.

(** ** Passive sinks *)

Lemma fire_void_passive cap (h : behaviour A) : passive h ->
  forall n fuel i st,
    N.to_nat (sl_last (ev_slots st)) = (N.to_nat i + n)%nat ->
    (N.to_nat (sl_last (ev_slots st)) <= length (sl_items (ev_slots st)))%nat -> (n < fuel)%nat ->
    exists v : list (N * A), visit_loop (sl_items (ev_slots st)) (N.to_nat i) n = Done v /\
      fire_void cap fuel h i st =
      (mk_ev (ev_slots st) (ev_hist st ++ map (fun p => LCall (fst p) (snd p)) v), Ok).
Proof.
  intros Hh. induction n as [|n IH]; intros fuel i st Hl Hle Hf; (destruct fuel as [|f]; [lia|]); cbn [fire_void visit_loop].
  - exists []. split; [reflexivity|]. replace (i <? sl_last (ev_slots st)) with false by lia.
    cbn. rewrite app_nil_r. now destruct st.
  - replace (i <? sl_last (ev_slots st)) with true by lia.
    destruct (nth_error (sl_items (ev_slots st)) (N.to_nat i)) as [[a|]|] eqn:E.
    + unfold call_sink. rewrite Hh. cbn [run_ops].
      destruct (IH f (i + 1) (mk_ev (ev_slots st) (ev_hist st ++ [LCall (i + 1) a]))) as (v & Hv & Hr).
      * cbn [ev_slots]. lia.
      * cbn [ev_slots]. lia.
      * lia.
      * cbn [ev_slots ev_hist] in *. replace (N.to_nat (i + 1)) with (S (N.to_nat i)) in Hv by lia.
        rewrite Hv. cbn [obind]. eexists. split; [reflexivity|].
        rewrite Hr. cbn [map fst snd]. rewrite <- app_assoc. cbn [app].
        replace (N.of_nat (N.to_nat i) + 1) with (i + 1) by lia. reflexivity.
    + destruct (IH f (i + 1) st) as (v & Hv & Hr); try lia.
      replace (N.to_nat (i + 1)) with (S (N.to_nat i)) in Hv by lia. exists v. split; assumption.
    + apply nth_error_None in E. lia.
Qed.

Lemma fire_args_passive cap (h : behaviour A) : passive h ->
  forall n fuel i st,
    0 < sl_last (ev_slots st) < 2 ^ 32 ->
    N.to_nat (sl_last (ev_slots st)) = (N.to_nat i + S n)%nat ->
    (exists a, nth_error (sl_items (ev_slots st)) (N.to_nat (sl_last (ev_slots st)) - 1) = Some (Some a)) ->
    (n < fuel)%nat ->
    exists v : list (N * A), visit_loop (sl_items (ev_slots st)) (N.to_nat i) (S n) = Done v /\
      fire_args_loop cap fuel h i st =
      (mk_ev (ev_slots st) (ev_hist st ++ map (fun p => LCall (fst p) (snd p)) v), Ok).
Proof.
  intros Hh. induction n as [|n IH]; intros fuel i st Hr Hl Hlast Hf; (destruct fuel as [|f]; [lia|]).
  - cbn [fire_args_loop visit_loop]. rewrite wsub32_1 by lia.
    replace (i <? sl_last (ev_slots st) - 1) with false by lia.
    destruct Hlast as [a Ha]. replace (N.to_nat (sl_last (ev_slots st)) - 1)%nat with (N.to_nat i) in Ha by lia.
    rewrite Ha. unfold call_sink. rewrite Hh. cbn [run_ops obind].
    eexists. split; [reflexivity|]. cbn [map fst snd].
    replace (N.of_nat (N.to_nat i) + 1) with (i + 1) by lia. reflexivity.
  - cbn [fire_args_loop]. change (visit_loop ?l ?i (S (S n))) with
      (match nth_error l i with None => UB | Some None => visit_loop l (S i) (S n)
       | Some (Some a) => let! r := visit_loop l (S i) (S n) in Done ((N.of_nat i + 1, a) :: r) end).
    rewrite wsub32_1 by lia. replace (i <? sl_last (ev_slots st) - 1) with true by lia.
    destruct (nth_error (sl_items (ev_slots st)) (N.to_nat i)) as [[a|]|] eqn:E.
    + unfold call_sink. rewrite Hh. cbn [run_ops].
      destruct (IH f (i + 1) (mk_ev (ev_slots st) (ev_hist st ++ [LCall (i + 1) a]))) as (v & Hv & Hrr).
      * exact Hr.
      * cbn [ev_slots]. lia.
      * exact Hlast.
      * lia.
      * cbn [ev_slots ev_hist] in *. replace (N.to_nat (i + 1)) with (S (N.to_nat i)) in Hv by lia.
        rewrite Hv. cbn [obind]. eexists. split; [reflexivity|].
        rewrite Hrr. cbn [map fst snd]. rewrite <- app_assoc. cbn [app].
        replace (N.of_nat (N.to_nat i) + 1) with (i + 1) by lia. reflexivity.
    + destruct (IH f (i + 1) st) as (v & Hv & Hrr); try lia; try assumption.
      replace (N.to_nat (i + 1)) with (S (N.to_nat i)) in Hv by lia. exists v. split; assumption.
    + exfalso. destruct Hlast as [a Ha]. apply nth_error_None in E.
      assert (N.to_nat (sl_last (ev_slots st)) - 1 < length (sl_items (ev_slots st)))%nat
        by (apply nth_error_Some; congruence). lia.
Qed.

(** ** Firing with arguments when sinks disconnect backwards only *)

Lemma run_ops_back cap fire i :
  0 < cap < 2 ^ 32 ->
  forall ops st st' s, ~ In OFire ops -> (forall d, In (ODisconnect d) ops -> w32 d <= i + 1) ->
    inv cap st -> i + 1 < sl_last (ev_slots st) -> run_ops cap fire ops st = (st', s) ->
    inv cap st' /\ s <> Undef /\ i + 1 < sl_last (ev_slots st').
Proof.
  intros Hcap. induction ops as [|o t IH]; intros st st' s Hn Hb Hst Hl H; cbn [run_ops] in H.
  { injection H as <- <-. repeat split; try apply Hst; try assumption. discriminate. }
  assert (Hn' : ~ In OFire t) by (cbn in Hn; intuition).
  assert (Hb' : forall d, In (ODisconnect d) t -> w32 d <= i + 1) by (intros d Hd; apply Hb; now right).
  destruct o as [[a|]|c| |].
  - destruct (ev_connect_ok cap st a Hcap Hst) as [[_ H']|[_ (c & s' & H' & Hi & _ & _ & Hlast & _)]]; rewrite H' in H.
    + eapply IH; eassumption.
    + eapply IH; try eassumption. cbn [ev_slots]. lia.
  - eapply IH; eassumption.
  - destruct (ev_disconnect_ok cap st (w32 c) Hcap (w32_lt c) Hst) as (s' & H' & Hi & Hk). rewrite H' in H.
    eapply IH; try eassumption. cbn [ev_slots].
    specialize (Hb c (or_introl eq_refl)).
    destruct Hst as [[_ (L1 & L2 & L3) _] _ _]. destruct L3 as [b Hb3]; [lia|].
    destruct Hi as [[_ (_ & L2' & _) _] _ _]. cbn [ev_slots] in L2'.
    assert (Hx : nth_error (sl_items s') (N.to_nat (sl_last (ev_slots st)) - 1) = Some (Some b)).
    { rewrite Hk; [exact Hb3|lia]. }
    apply L2' in Hx. lia.
  - cbn in Hn. intuition.
  - injection H as <- <-. repeat split; try apply Hst; try assumption. discriminate.
Qed.

Lemma inv_last_lt cap st : 0 < cap < 2 ^ 32 -> inv cap st -> sl_last (ev_slots st) < 2 ^ 32.
Proof. intros Hcap [[_ (L1 & _) Hc] _ _]. lia. Qed.

Lemma fire_args_back_safe cap (h : behaviour A) : 0 < cap < 2 ^ 32 -> not_nested h -> disconnects_back h ->
  forall fuel i st st' s, inv cap st -> i < sl_last (ev_slots st) ->
    fire_args_loop cap fuel h i st = (st', s) -> inv cap st' /\ s <> Undef.
Proof.
  intros Hcap Hnn Hdb. induction fuel as [|f IH]; intros i st st' s Hst Hi H; cbn [fire_args_loop] in H.
  { injection H as <- <-. split; [exact Hst|discriminate]. }
  pose proof (inv_last_lt cap st Hcap Hst) as Hlt.
  rewrite wsub32_1 in H by lia. unfold call_sink in H.
  set (st1 a := mk_ev (ev_slots st) (ev_hist st ++ [LCall (i + 1) a])) in H.
  assert (Hst1 : forall a, nth_error (sl_items (ev_slots st)) (N.to_nat i) = Some (Some a) -> inv cap (st1 a))
    by (intros a Ha; apply inv_call; assumption).
  destruct (N.ltb_spec i (sl_last (ev_slots st) - 1)) as [Hlo|Hhi].
  - destruct (nth_error (sl_items (ev_slots st)) (N.to_nat i)) as [[a|]|] eqn:E.
    + 
      destruct (run_ops cap _ _ _) as [st2 s2] eqn:Er in H.
      destruct (run_ops_back cap _ i Hcap _ (st1 a) st2 s2 (Hnn _ _ _) (fun d Hd => Hdb _ _ _ d Hd) (Hst1 a eq_refl)
                 ltac:(unfold st1; cbn [ev_slots]; lia) Er) as (Hi2 & Hs2 & Hl2).
      destruct s2; try (injection H as <- <-; split; [exact Hi2|congruence]).
      eapply IH; [exact Hi2| |exact H]. exact Hl2.
    + eapply IH; [exact Hst| |exact H]. lia.
    + exfalso. apply nth_error_None in E. destruct Hst as [[_ (L1 & _) _] _ _]. lia.
  - assert (Hx : exists a, nth_error (sl_items (ev_slots st)) (N.to_nat i) = Some (Some a)).
    { destruct Hst as [[_ (_ & _ & L3) _] _ _]. destruct L3 as [a Ha]; [lia|]. exists a.
      replace (N.to_nat i) with (N.to_nat (sl_last (ev_slots st)) - 1)%nat by lia. exact Ha. }
    destruct Hx as [a Ha]. rewrite Ha in H.
    destruct (run_ops_ext cap _ Hcap _ _ _ _ (Hnn _ _ _) (Hst1 a Ha) H) as (Hi2 & Hs2 & _).
    split; assumption.
Qed.

(** ** Termination *)

Lemma run_ops_last cap fire :
  0 < cap < 2 ^ 32 ->
  forall ops st st' s, ~ In OFire ops -> (forall x, ~ In (OConnect x) ops) ->
    inv cap st -> run_ops cap fire ops st = (st', s) ->
    inv cap st' /\ sl_last (ev_slots st') <= sl_last (ev_slots st) /\ s <> OutOfFuel.
Proof.
  intros Hcap. induction ops as [|o t IH]; intros st st' s Hn Hc Hst H; cbn [run_ops] in H.
  { injection H as <- <-. repeat split; try apply Hst; try lia. discriminate. }
  assert (Hn' : ~ In OFire t) by (cbn in Hn; intuition).
  assert (Hc' : forall x, ~ In (OConnect x) t) by (intros x Hx; apply (Hc x); now right).
  destruct o as [x|c| |].
  - exfalso. apply (Hc x). now left.
  - destruct (ev_disconnect_ok cap st (w32 c) Hcap (w32_lt c) Hst) as (s' & H' & Hi & Hk). rewrite H' in H.
    destruct (IH _ _ _ Hn' Hc' Hi H) as (Hi' & Hl & Hs). split; [exact Hi'|]. split; [|exact Hs].
    cbn [ev_slots] in Hl. etransitivity; [exact Hl|].
    destruct Hi as [[_ (_ & _ & L3') _] _ _]. destruct Hst as [[_ (_ & L2 & _) _] _ _]. cbn [ev_slots] in *.
    destruct (N.eq_dec (sl_last s') 0) as [|Hne]; [lia|]. destruct L3' as [b Hb]; [lia|].
    destruct (N.eq_dec (w32 c) (sl_last s')) as [He|He].
    + unfold ev_disconnect, slots_remove in H'. rewrite He in H'.
      destruct (N.ltb_spec (wsub 32 (sl_last s') 1) (N.of_nat (length (sl_items (ev_slots st))))) as [Hlt|Hge].
      * rewrite wsub32_1 in H' by (pose proof (w32_lt c); lia).
        destruct (nth_error (sl_items (ev_slots st)) (N.to_nat (sl_last s' - 1))) as [[b'|]|] eqn:Eb; [| |discriminate].
        -- apply L2 in Eb. lia.
        -- injection H' as <-. lia.
      * injection H' as <-. lia.
    + rewrite Hk in Hb by lia. apply L2 in Hb. lia.
  - cbn in Hn. intuition.
  - injection H as <- <-. repeat split; try apply Hst; try lia. discriminate.
Qed.

Lemma fire_void_terminates cap (h : behaviour A) :
  0 < cap < 2 ^ 32 -> not_nested h -> no_connect h ->
  forall fuel i st, inv cap st -> (0 < fuel)%nat ->
    (N.to_nat (sl_last (ev_slots st)) < N.to_nat i + fuel)%nat ->
    snd (fire_void cap fuel h i st) <> OutOfFuel.
Proof.
  intros Hcap Hnn Hnc. induction fuel as [|f IH]; intros i st Hst H0 Hf; cbn [fire_void].
  - lia.
  - destruct (N.ltb_spec i (sl_last (ev_slots st))) as [Hi|Hi]; [|discriminate].
    destruct (nth_error (sl_items (ev_slots st)) (N.to_nat i)) as [[a|]|] eqn:E; [| |discriminate].
    + unfold call_sink. destruct (run_ops cap _ _ _) as [st2 s2] eqn:Er.
      destruct (run_ops_last cap _ Hcap _ _ _ _ (Hnn _ _ _) (fun x => Hnc _ _ _ x)
                  (inv_call cap st i a Hst E) Er) as (Hi2 & Hl2 & Hs2). cbn [ev_slots] in Hl2.
      destruct s2; cbn [snd]; try congruence. apply IH; [exact Hi2| |]; lia.
    + apply IH; [exact Hst| |]; lia.
Qed.

(** ** Observations in reachable states *)

Lemma reachable_inv cap st : 0 < cap < 2 ^ 32 -> reachable cap st -> inv cap st.
Proof.
  intros Hcap (fuel & h & ops & ->).
  apply (run_ops_safe cap _ (fun _ => True) Hcap (fun s Hs => fire_void_safe cap h Hcap fuel 0 s Hs) ops).
  apply inv_init.
Qed.

Lemma inv_observe cap st : 0 < cap < 2 ^ 32 -> inv cap st ->
  ev_num_sinks (ev_slots st) = N.of_nat (length (conns (ev_hist st))) /\
  (forall c a, ev_get_sink (ev_slots st) c = Done a <-> In (c, a) (conns (ev_hist st))) /\
  (forall c, (forall a, ~ In (c, a) (conns (ev_hist st))) -> ev_get_sink (ev_slots st) c = Throw NoConnection) /\
  (exists v, slots_visit (ev_slots st) = Done v /\ cookie_sorted v /\ Permutation v (conns (ev_hist st))).
Proof.
  intros Hcap Hst. pose proof (inv_num _ _ Hst) as Hn. destruct Hst as [Hs HP Hl].
  assert (Hg : forall c a, slots_get (ev_slots st) c = Some a <-> In (c, a) (conns (ev_hist st))).
  { intros c a. rewrite (slots_get_iff cap) by assumption.
    split; apply Permutation_in; [exact HP|now symmetry]. }
  split; [exact Hn|]. split; [|split].
  - intros c a. unfold ev_get_sink. rewrite <- Hg. destruct (slots_get (ev_slots st) c); split; congruence.
  - intros c Hno. unfold ev_get_sink. destruct (slots_get (ev_slots st) c) as [a|] eqn:E; [|reflexivity].
    apply Hg in E. exfalso. exact (Hno a E).
  - exists (entries 0 (sl_items (ev_slots st))). split; [eapply slots_visit_ok, Hs|].
    split; [apply entries_sorted|exact HP].
Qed.

Lemma inv_connect_spec cap st : 0 < cap < 2 ^ 32 -> inv cap st ->
  ev_connect cap (ev_slots st) None = Throw InvalidPointer /\
  N.of_nat (length (conns (ev_hist st))) <= cap /\
  forall a, if N.of_nat (length (conns (ev_hist st))) =? cap
    then ev_connect cap (ev_slots st) (Some a) = Throw ConnectionLimit
    else exists c s', ev_connect cap (ev_slots st) (Some a) = Done (c, s') /\ 0 < c <= cap /\
         ~ In c (map fst (conns (ev_hist st))).
Proof.
  intros Hcap Hst. split; [reflexivity|]. split.
  - rewrite <- (inv_num _ _ Hst). destruct Hst as [[H _ Hc] _ _].
    pose proof (entries_length_le (sl_items (ev_slots st)) 0). lia.
  - intros a. destruct (ev_connect_ok cap st a Hcap Hst) as [[He H]|[Hlt (c & s' & H & _ & Hc & Hf & _)]].
    + rewrite He, N.eqb_refl. exact H.
    + replace (_ =? cap) with false by lia. exists c, s'. tauto.
Qed.

Lemma fire_delivers cap (h : behaviour A) st :
  0 < cap < 2 ^ 32 -> inv cap st -> passive h ->
  exists v, slots_visit (ev_slots st) = Done v /\ cookie_sorted v /\
    Permutation v (conns (ev_hist st)) /\
    (forall fuel, (N.to_nat cap < fuel)%nat ->
      fire_void cap fuel h 0 st
        = (mk_ev (ev_slots st) (ev_hist st ++ map (fun p => LCall (fst p) (snd p)) v), Ok) /\
      fire_args cap fuel h st
        = (mk_ev (ev_slots st) (ev_hist st ++ map (fun p => LCall (fst p) (snd p)) v), Ok)).
Proof.
  intros Hcap Hst Hh. destruct (inv_observe cap st Hcap Hst) as (_ & _ & _ & v & Hv & Hso & HP).
  exists v. split; [exact Hv|]. split; [exact Hso|]. split; [exact HP|]. intros fuel Hf.
  destruct Hst as [[_ (L1 & _ & L3) Hc] _ _]. unfold slots_visit in Hv. split.
  - destruct (fire_void_passive cap h Hh (N.to_nat (sl_last (ev_slots st))) fuel 0 st) as (v' & Hv' & Hr); try lia.
    change (N.to_nat 0) with 0%nat in Hv'. rewrite Hv in Hv'. injection Hv' as <-. exact Hr.
  - unfold fire_args. destruct (N.eqb_spec (sl_last (ev_slots st)) 0) as [He|Hne].
    + rewrite He in Hv. cbn in Hv. injection Hv as <-. cbn. rewrite app_nil_r. now destruct st.
    + destruct (fire_args_passive cap h Hh (N.to_nat (sl_last (ev_slots st)) - 1) fuel 0 st) as (v' & Hv' & Hr); try lia.
      * apply L3. lia.
      * change (N.to_nat 0) with 0%nat in Hv'.
        replace (S (N.to_nat (sl_last (ev_slots st)) - 1)) with (N.to_nat (sl_last (ev_slots st))) in Hv' by lia.
        rewrite Hv in Hv'. injection Hv' as <-. exact Hr.
Qed.

Lemma sorted_nodup (l : list N) : ascending l -> NoDup l.
Proof.
  induction 1 as [|x l Hs IH Hall]; constructor; [|exact IH].
  intros Hin. rewrite Forall_forall in Hall. specialize (Hall x Hin). lia.
Qed.

Lemma fire_void_once cap (h : behaviour A) fuel st st' :
  0 < cap < 2 ^ 32 -> inv cap st -> not_nested h -> fire_void cap fuel h 0 st = (st', Ok) ->
  exists sfx, ev_hist st' = ev_hist st ++ sfx /\ ascending (calls sfx) /\
    (forall c a, In (c, a) (conns (ev_hist st)) -> ~ In (LDisc c) sfx ->
       In (LCall c a) sfx /\ count_occ N.eq_dec (calls sfx) c = 1%nat).
Proof.
  intros Hcap Hst Hh H. destruct (fire_void_calls cap h Hcap Hh fuel 0 st st' Ok Hst H) as (sfx & Hx & Ha & _ & Hd).
  exists sfx. split; [exact Hx|]. split; [exact Ha|]. intros c a Hin Hnd.
  assert (Hc : 0 < c).
  { destruct Hst as [_ HP _]. apply (Permutation_in _ (Permutation_sym HP)) in Hin.
    apply entries_in in Hin. lia. }
  pose proof (Hd eq_refl c a Hc Hin Hnd) as Hcall. split; [exact Hcall|].
  assert (Hic : In c (calls sfx)).
  { unfold calls. apply in_flat_map. exists (LCall c a). split; [exact Hcall|now left]. }
  apply sorted_nodup in Ha. apply (NoDup_count_occ' N.eq_dec); assumption.
Qed.

Lemma inv_capacity cap (st : ev_state A) : 0 < cap < 2 ^ 32 -> inv cap st ->
  ev_num_sinks (ev_slots st) <= cap /\
  ev_connect cap (ev_slots st) None = Throw InvalidPointer /\
  forall a, (ev_num_sinks (ev_slots st) = cap <->
             ev_connect cap (ev_slots st) (Some a) = Throw ConnectionLimit) /\
            (ev_num_sinks (ev_slots st) < cap <->
             exists r, ev_connect cap (ev_slots st) (Some a) = Done r).
Proof.
  intros Hcap Hst. pose proof (inv_num _ _ Hst) as Hn. unfold ev_num_sinks.
  destruct (inv_connect_spec cap st Hcap Hst) as (H1 & H2 & H3). rewrite Hn. split; [exact H2|]. split; [exact H1|].
  intros a. specialize (H3 a). destruct (N.eqb_spec (N.of_nat (length (conns (ev_hist st)))) cap) as [He|Hne].
  - rewrite H3. split; [tauto|]. split; [lia|intros [r Hr]; discriminate].
  - destruct H3 as (c & s' & H & _). rewrite H. split; split; try lia; try discriminate.
    + intros _. now exists (c, s').
Qed.

Lemma fire_void_log cap (h : behaviour A) fuel (st : ev_state A) : 0 < cap < 2 ^ 32 -> inv cap st ->
  snd (fire_void cap fuel h 0 st) <> Undef /\
  log_ok cap (ev_hist (fst (fire_void cap fuel h 0 st))).
Proof.
  intros Hcap Hst. destruct (fire_void_safe cap h Hcap fuel 0 st Hst) as [H1 H2]. split; [exact H2|apply H1].
Qed.

Lemma fire_void_ends cap (h : behaviour A) fuel (st : ev_state A) : 0 < cap < 2 ^ 32 -> inv cap st ->
  not_nested h -> no_connect h -> (N.to_nat (sl_last (ev_slots st)) < fuel)%nat ->
  snd (fire_void cap fuel h 0 st) = Ok \/ snd (fire_void cap fuel h 0 st) = Thrown.
Proof.
  intros Hcap Hst Hn Hc Hf. destruct (fire_void_safe cap h Hcap fuel 0 st Hst) as [_ H2].
  pose proof (fire_void_terminates cap h Hcap Hn Hc fuel 0 st Hst ltac:(lia) ltac:(lia)) as H3.
  destruct (snd (fire_void cap fuel h 0 st)); tauto.
Qed.

Lemma fire_args_back cap (h : behaviour A) fuel (st : ev_state A) : 0 < cap < 2 ^ 32 -> inv cap st ->
  not_nested h -> disconnects_back h ->
  snd (fire_args cap fuel h st) <> Undef /\
  log_ok cap (ev_hist (fst (fire_args cap fuel h st))).
Proof.
  intros Hcap Hst Hn Hd. unfold fire_args.
  destruct (N.eqb_spec (sl_last (ev_slots st)) 0) as [He|Hne]; [split; [discriminate|apply Hst]|].
  destruct (fire_args_loop cap fuel h 0 st) as [st' s] eqn:E. cbn [fst snd].
  destruct (fire_args_back_safe cap h Hcap Hn Hd fuel 0 st st' s Hst ltac:(lia) E) as [Hi Hs].
  split; [exact Hs|apply Hi].
Qed.

(** ** Capacity 1 *)

Definition single (s : slots A) (o : option A) : Prop :=
  (s = slots_init /\ o = None) \/ (exists a, s = mk_slots 1 1 [Some a] /\ o = Some a) \/
  (s = mk_slots 0 0 [None] /\ o = None).

Lemma single_disconnect s o c : c < 2 ^ 32 -> single s o ->
  exists s', slots_remove s c = Done s' /\ single s' (if c =? 1 then None else o).
Proof.
  intros Hc [[-> ->]|[[a [-> ->]]|[-> ->]]].
  - exists slots_init. unfold slots_remove. cbn [sl_items length slots_init].
    destruct (N.ltb_spec (wsub 32 c 1) (N.of_nat 0)); [lia|]. split; [reflexivity|]. left. now destruct (c =? 1).
  - unfold slots_remove. cbn [sl_items length sl_last sl_num].
    destruct (N.eqb_spec c 1) as [->|Hne].
    + eexists. split; [reflexivity|]. right. right. split; reflexivity.
    + exists (mk_slots 1 1 [Some a]). split; [|right; left; now exists a].
      destruct (N.eq_dec c 0) as [->|]; [reflexivity|]. rewrite wsub32_1 by lia.
      destruct (N.ltb_spec (c - 1) (N.of_nat 1)); [lia|reflexivity].
  - exists (mk_slots 0 0 [None]). unfold slots_remove. cbn [sl_items length sl_last sl_num].
    split; [|right; right; now destruct (c =? 1)].
    destruct (N.eq_dec c 0) as [->|]; [reflexivity|]. rewrite wsub32_1 by lia.
    destruct (N.ltb_spec (c - 1) (N.of_nat 1)) as [Hl|]; [|reflexivity].
    replace (N.to_nat (c - 1)) with 0%nat by lia. reflexivity.
Qed.

Lemma single_insert s a : single s None -> slots_insert s a = (1, mk_slots 1 1 [Some a]).
Proof. intros [[-> _]|[[b [_ H]]|[-> _]]]; [reflexivity|discriminate|reflexivity]. Qed.

Lemma single_observe s o : single s o ->
  ev_num_sinks s = ev1_num_sinks o /\ slots_visit s = Done (ev1_visit o) /\
  (forall c, ev_get_sink s c = ev1_get_sink o c) /\ (forall c, slots_get s c = po1_get o c).
Proof.
  assert (Hg : forall s o c, single s o -> slots_get s c = if c =? 1 then o else None).
  { clear. intros s o c [[-> ->]|[[a [-> ->]]|[-> ->]]]; unfold slots_get; cbn [sl_items length slots_init].
    - destruct (N.eqb_spec c 0) as [->|]; [reflexivity|]. cbn [orb].
      destruct (N.ltb_spec (N.of_nat 0) c); [|lia]. now destruct (c =? 1).
    - destruct (N.eqb_spec c 1) as [->|]; [reflexivity|].
      destruct (N.eqb_spec c 0) as [->|]; [reflexivity|]. cbn [orb].
      destruct (N.ltb_spec (N.of_nat 1) c); [reflexivity|lia].
    - destruct (N.eqb_spec c 1) as [->|]; [reflexivity|].
      destruct (N.eqb_spec c 0) as [->|]; [reflexivity|]. cbn [orb].
      destruct (N.ltb_spec (N.of_nat 1) c); [reflexivity|lia]. }
  intros H. split; [|split; [|split]].
  - destruct H as [[-> ->]|[[a [-> ->]]|[-> ->]]]; reflexivity.
  - destruct H as [[-> ->]|[[a [-> ->]]|[-> ->]]]; reflexivity.
  - intros c. unfold ev_get_sink, ev1_get_sink. rewrite (Hg s o c H). destruct (c =? 1); cbn [negb]; [|reflexivity].
    destruct o; reflexivity.
  - intros c. exact (Hg s o c H).
Qed.

Lemma single_calls : forall ops s o, single s o ->
  exists s', ev_calls 1 ops s = Done (fst (ev1_calls ops o), s') /\ single s' (snd (ev1_calls ops o)).
Proof.
  induction ops as [|[x|c] t IH]; intros s o H; cbn [ev_calls ev1_calls].
  - exists s. split; [reflexivity|exact H].
  - destruct x as [a|]; cbn [ev_connect ev1_connect].
    + destruct o as [b|].
      * replace (sl_num s =? 1) with true.
        -- destruct (IH s (Some b) H) as (s' & H1 & H2). exists s'. rewrite H1. split; [reflexivity|exact H2].
        -- destruct H as [[_ H]|[[d [-> _]]|[_ H]]]; try discriminate. reflexivity.
      * replace (sl_num s =? 1) with false.
        -- rewrite single_insert by exact H. cbn [N.eqb].
           destruct (IH (mk_slots 1 1 [Some a]) (Some a)) as (s' & H1 & H2); [right; left; now exists a|].
           exists s'. rewrite H1. split; [reflexivity|exact H2].
        -- destruct H as [[-> _]|[[d [_ H]]|[-> _]]]; [reflexivity|discriminate|reflexivity].
    + destruct (IH s o H) as (s' & H1 & H2). exists s'. rewrite H1. split; [reflexivity|exact H2].
  - unfold ev_disconnect, ev1_disconnect.
    destruct (single_disconnect s o (w32 c) (w32_lt c) H) as (s1 & Hr & Hs1). rewrite Hr. cbn [obind].
    destruct (IH s1 _ Hs1) as (s' & H1 & H2). exists s'. rewrite H1. split; [reflexivity|exact H2].
Qed.

Lemma single_po_calls : forall ops s o, single s o ->
  exists s' r, po_calls 1 ops s = Done (fst r, s') /\ po1_calls ops o = Done r /\ single s' (snd r).
Proof.
  induction ops as [|[a|c] t IH]; intros s o H; cbn [po_calls po1_calls].
  - exists s, ([], o). repeat split. exact H.
  - cbn [po_add po1_add]. destruct o as [b|].
    + replace (sl_num s <? 1) with false.
      * cbn [obind fst snd]. destruct (IH s (Some b) H) as (s' & r & H1 & H2 & H3).
        exists s', (0 :: fst r, snd r). rewrite H1, H2. repeat split. exact H3.
      * destruct H as [[_ H]|[[d [-> _]]|[_ H]]]; try discriminate. reflexivity.
    + replace (sl_num s <? 1) with true.
      * rewrite single_insert by exact H. cbn [obind fst snd].
        destruct (IH (mk_slots 1 1 [Some a]) (Some a)) as (s' & r & H1 & H2 & H3); [right; left; now exists a|].
        exists s', (1 :: fst r, snd r). rewrite H1, H2. repeat split. exact H3.
      * destruct H as [[-> _]|[[d [_ H]]|[-> _]]]; [reflexivity|discriminate|reflexivity].
  - unfold po_remove, po1_remove.
    destruct (single_disconnect s o (w32 c) (w32_lt c) H) as (s1 & Hr & Hs1). rewrite Hr. cbn [obind].
    destruct (IH s1 _ Hs1) as (s' & r & H1 & H2 & H3). exists s', (0 :: fst r, snd r). rewrite H1, H2.
    repeat split. exact H3.
Qed.

Lemma ev1_equiv (ops : list (ev_call A)) : exists s,
  ev_calls 1 ops slots_init = Done (fst (ev1_calls ops None), s) /\
  ev_num_sinks s = ev1_num_sinks (snd (ev1_calls ops None)) /\
  slots_visit s = Done (ev1_visit (snd (ev1_calls ops None))) /\
  (forall c, ev_get_sink s c = ev1_get_sink (snd (ev1_calls ops None)) c).
Proof.
  destruct (single_calls ops slots_init None) as (s & H1 & H2); [now left|].
  exists s. split; [exact H1|]. destruct (single_observe _ _ H2) as (Ha & Hb & Hc & _). tauto.
Qed.

Lemma po1_equiv (ops : list (po_op A)) : exists s r,
  po_calls 1 ops slots_init = Done (fst r, s) /\ po1_calls ops None = Done r /\
  po_size s = po1_size (snd r) /\
  (forall c, slots_get s c = po1_get (snd r) c) /\
  slots_visit s = Done (match snd r with Some a => [(1, a)] | None => [] end).
Proof.
  destruct (single_po_calls ops slots_init None) as (s & r & H1 & H2 & H3); [now left|].
  exists s, r. destruct (single_observe _ _ H3) as (Ha & Hb & Hc & Hd). tauto.
Qed.

(** ** Portainer *)

Lemma po_step_ok cap st o : 0 < cap < 2 ^ 32 -> inv cap st ->
  exists st', po_step cap (Done st) o = Done st' /\ inv cap st'.
Proof.
  intros Hcap Hst. destruct o as [a|c]; cbn [po_step obind].
  - unfold po_add. destruct (N.ltb_spec (sl_num (ev_slots st)) cap) as [Hlt|Hge].
    + cbn [obind]. destruct (ev_connect_ok cap st a Hcap Hst) as [[He _]|[_ (c & s' & H & Hi & Hc & _)]].
      * rewrite (inv_num _ _ Hst) in Hlt. lia.
      * unfold ev_connect in H. replace (sl_num (ev_slots st) =? cap) with false in H by lia.
        destruct (slots_insert (ev_slots st) a) as [c' s'']. cbn [fst snd].
        destruct (N.eqb_spec c' 0); [discriminate|]. injection H as -> ->. eexists. split; [reflexivity|exact Hi].
    + cbn. eexists. split; [reflexivity|]. now destruct st.
  - destruct (ev_disconnect_ok cap st (w32 c) Hcap (w32_lt c) Hst) as (s' & H & Hi & _).
    unfold po_remove. unfold ev_disconnect in H. rewrite H. cbn [obind]. eexists. split; [reflexivity|exact Hi].
Qed.

Lemma po_run_ok cap (ops : list (po_op A)) : 0 < cap < 2 ^ 32 -> exists st, po_run cap ops = Done st /\ inv cap st.
Proof.
  intros Hcap. unfold po_run. assert (H : forall st, inv cap st ->
    exists st', fold_left (po_step cap) ops (Done st) = Done st' /\ inv cap st').
  { induction ops as [|o t IH]; intros st Hst; cbn [fold_left]; [now exists st|].
    destruct (po_step_ok cap st o Hcap Hst) as (st' & -> & Hi). now apply IH. }
  apply H, inv_init.
Qed.

Lemma po_map cap (ops : list (po_op A)) : 0 < cap < 2 ^ 32 ->
  exists st, po_run cap ops = Done st /\ log_ok cap (ev_hist st) /\
    po_size (ev_slots st) = N.of_nat (length (conns (ev_hist st))) /\
    (forall c a, slots_get (ev_slots st) c = Some a <-> In (c, a) (conns (ev_hist st))) /\
    (exists v, slots_visit (ev_slots st) = Done v /\ cookie_sorted v /\ Permutation v (conns (ev_hist st))) /\
    (forall a, exists c s', po_add cap (ev_slots st) (Some a) = Done (c, s') /\
       if N.of_nat (length (conns (ev_hist st))) <? cap
       then 0 < c <= cap /\ ~ In c (map fst (conns (ev_hist st)))
       else c = 0 /\ s' = ev_slots st).
Proof.
  intros Hcap. destruct (po_run_ok cap ops Hcap) as (st & Hr & Hi). exists st. split; [exact Hr|].
  split; [apply Hi|]. destruct (inv_observe cap st Hcap Hi) as (Hn & _ & _ & Hv).
  split; [exact Hn|]. split; [|split; [exact Hv|]].
  - intros c a. destruct Hi as [Hs HP _]. rewrite (slots_get_iff cap) by assumption.
    split; apply Permutation_in; [exact HP|now symmetry].
  - intros a. unfold po_add. unfold ev_num_sinks in Hn. rewrite <- Hn.
    destruct (N.ltb_spec (sl_num (ev_slots st)) cap) as [Hlt|Hge].
    + destruct (ev_connect_ok cap st a Hcap Hi) as [[He _]|[_ (c & s' & H & _ & Hc & Hf & _)]]; [lia|].
      unfold ev_connect in H. replace (sl_num (ev_slots st) =? cap) with false in H by lia.
      destruct (slots_insert (ev_slots st) a) as [c' s'']. exists c', s''. split; [reflexivity|].
      destruct (N.eqb_spec c' 0); [discriminate|]. injection H as -> ->. tauto.
    + exists 0, (ev_slots st). repeat split.
Qed.

End P.

Lemma fire_args_null_call :
  exists cap (h : behaviour N) fuel (st : ev_state N),
    0 < cap < 2 ^ 32 /\ reachable cap st /\ not_nested h /\
    snd (fire_args cap fuel h st) = Undef.
Proof.
  set (h := (fun _ _ a => if a =? 10 then [ODisconnect 2] else []) : behaviour N).
  exists 8, h, 20%nat,
    (fst (run_ops 8 (fire_void 8 20 h 0) [OConnect (Some 10); OConnect (Some 11)] ev_init)).
  split; [lia|]. split; [eexists 20%nat, h, _; reflexivity|]. split; [|reflexivity].
  intros log c a. unfold h. destruct (a =? 10); cbn; intuition discriminate.
Qed.
