(** Lemmas about words, bytes and memory images. *)
From Verif Require Import Base.
From Coq Require Import ZifyBool ZifyNat ZifyN.
Ltac Zify.zify_post_hook ::= Z.div_mod_to_equations.

(** Split the [if]s of the goal on comparisons of [N]. *)
Ltac case_ifs :=
  repeat match goal with
  | |- context [if N.ltb ?a ?b then _ else _] => destruct (N.ltb_spec a b)
  | |- context [if N.leb ?a ?b then _ else _] => destruct (N.leb_spec a b)
  | |- context [if N.eqb ?a ?b then _ else _] => destruct (N.eqb_spec a b)
  end.

Lemma wrap_lt w x : (wrap w x < 2 ^ w)%N.
Proof. unfold wrap. apply N.mod_lt. apply N.pow_nonzero. discriminate. Qed.

Lemma wrap_small w x : (x < 2 ^ w)%N -> wrap w x = x.
Proof. intros H. unfold wrap. apply N.mod_small. exact H. Qed.

Lemma wrap_wrap w x : wrap w (wrap w x) = wrap w x.
Proof. apply wrap_small, wrap_lt. Qed.

Lemma wrap_add_l w x y : wrap w (wrap w x + y) = wrap w (x + y).
Proof. unfold wrap. apply N.add_mod_idemp_l. apply N.pow_nonzero. discriminate. Qed.

Lemma wrap_add_r w x y : wrap w (x + wrap w y) = wrap w (x + y).
Proof. unfold wrap. apply N.add_mod_idemp_r. apply N.pow_nonzero. discriminate. Qed.

Lemma wrap_mul_l w x y : wrap w (wrap w x * y) = wrap w (x * y).
Proof. unfold wrap. apply N.mul_mod_idemp_l. apply N.pow_nonzero. discriminate. Qed.

Lemma wrap_mul_r w x y : wrap w (x * wrap w y) = wrap w (x * y).
Proof. unfold wrap. apply N.mul_mod_idemp_r. apply N.pow_nonzero. discriminate. Qed.

Lemma w64_small x : (x < 2 ^ 64)%N -> w64 x = x.
Proof. apply wrap_small. Qed.

Lemma w64_lt x : (w64 x < 2 ^ 64)%N.
Proof. apply wrap_lt. Qed.

Lemma pow2_pos w : (0 < 2 ^ w)%N.
Proof. apply N.neq_0_lt_0, N.pow_nonzero. discriminate. Qed.

Lemma le_bytes_length n v : length (le_bytes n v) = n.
Proof. revert v; induction n as [|n IH]; intros v; cbn [le_bytes length]; [reflexivity|now rewrite IH]. Qed.

Lemma le_bytes_bytes n v : Forall is_byte (le_bytes n v).
Proof.
  revert v; induction n as [|n IH]; intros v; cbn [le_bytes]; constructor; [|apply IH].
  unfold is_byte. apply N.mod_lt. discriminate.
Qed.

Lemma pow256_S n : (256 ^ N.of_nat (S n) = 256 * 256 ^ N.of_nat n)%N.
Proof. rewrite Nat2N.inj_succ, N.pow_succ_r'. reflexivity. Qed.

Lemma of_le_bytes_le_bytes n v : of_le_bytes (le_bytes n v) = (v mod 256 ^ N.of_nat n)%N.
Proof.
  revert v; induction n as [|n IH]; intros v; cbn [le_bytes of_le_bytes].
  - change (256 ^ N.of_nat 0)%N with 1%N. now rewrite N.mod_1_r.
  - rewrite IH, pow256_S.
    rewrite N.mod_mul_r; [reflexivity|discriminate|apply N.pow_nonzero; discriminate].
Qed.

Lemma of_le_bytes_lt l : Forall is_byte l -> (of_le_bytes l < 256 ^ N.of_nat (length l))%N.
Proof.
  induction 1 as [|b l Hb Hl IH]; cbn [of_le_bytes length].
  - reflexivity.
  - rewrite pow256_S. unfold is_byte in Hb.
    remember (256 ^ N.of_nat (length l))%N as p eqn:Ep. clear Ep. lia.
Qed.

Lemma le_bytes_of_le_bytes l : Forall is_byte l -> le_bytes (length l) (of_le_bytes l) = l.
Proof.
  induction 1 as [|b l Hb Hl IH]; cbn [of_le_bytes length le_bytes]; [reflexivity|].
  unfold is_byte in Hb. f_equal.
  - lia.
  - transitivity (le_bytes (length l) (of_le_bytes l)); [f_equal; lia | exact IH].
Qed.

Lemma of_le_bytes_app a b :
  of_le_bytes (a ++ b) = (of_le_bytes a + 256 ^ N.of_nat (length a) * of_le_bytes b)%N.
Proof.
  induction a as [|x a IH]; cbn [app of_le_bytes length].
  - change (256 ^ N.of_nat 0)%N with 1%N. lia.
  - rewrite IH, pow256_S.
    remember (256 ^ N.of_nat (length a))%N as p eqn:Ep. clear Ep. lia.
Qed.

Lemma le_bytes_app n m v :
  le_bytes (n + m) v = le_bytes n v ++ le_bytes m (v / 256 ^ N.of_nat n)%N.
Proof.
  revert v; induction n as [|n IH]; intros v; cbn [le_bytes Nat.add app].
  - change (256 ^ N.of_nat 0)%N with 1%N. now rewrite N.div_1_r.
  - rewrite IH, pow256_S, N.div_div; [reflexivity|discriminate|apply N.pow_nonzero; discriminate].
Qed.

Lemma pow256_pow2 n : (256 ^ N.of_nat n = 2 ^ (8 * N.of_nat n))%N.
Proof. change 256%N with (2 ^ 8)%N. now rewrite <- N.pow_mul_r. Qed.

Lemma mem_bytes_length h n v : length (mem_bytes h n v) = n.
Proof. destruct h; cbn [mem_bytes]; rewrite ?rev_length; apply le_bytes_length. Qed.

Lemma mem_bytes_bytes h n v : Forall is_byte (mem_bytes h n v).
Proof. destruct h; cbn [mem_bytes]; [|apply Forall_rev]; apply le_bytes_bytes. Qed.

Lemma of_mem_bytes_mem_bytes h n v :
  (v < 2 ^ (8 * N.of_nat n))%N -> of_mem_bytes h (mem_bytes h n v) = v.
Proof.
  intros H. rewrite <- pow256_pow2 in H.
  destruct h; cbn [mem_bytes of_mem_bytes]; rewrite ?rev_involutive, of_le_bytes_le_bytes;
    now apply N.mod_small.
Qed.

Lemma mem_bytes_of_mem_bytes h l :
  Forall is_byte l -> mem_bytes h (length l) (of_mem_bytes h l) = l.
Proof.
  intros H. destruct h; cbn [mem_bytes of_mem_bytes].
  - now apply le_bytes_of_le_bytes.
  - rewrite <- (rev_length l), le_bytes_of_le_bytes by now apply Forall_rev.
    apply rev_involutive.
Qed.

Lemma of_mem_bytes_lt h l :
  Forall is_byte l -> (of_mem_bytes h l < 2 ^ (8 * N.of_nat (length l)))%N.
Proof.
  intros H. rewrite <- pow256_pow2. destruct h; cbn [of_mem_bytes].
  - now apply of_le_bytes_lt.
  - rewrite <- (rev_length l). apply of_le_bytes_lt, Forall_rev, H.
Qed.

(** *** Loads and stores *)

Lemma mem_store_length mem off bs mem' :
  mem_store mem off bs = Some mem' -> length mem' = length mem.
Proof.
  unfold mem_store. destruct (Nat.leb_spec (off + length bs) (length mem)); [|discriminate].
  intros [= <-]. rewrite !app_length, firstn_length, skipn_length. lia.
Qed.

Lemma mem_store_some mem off bs :
  off + length bs <= length mem -> exists mem', mem_store mem off bs = Some mem'.
Proof.
  intros H. unfold mem_store. destruct (Nat.leb_spec (off + length bs) (length mem)); [eauto|lia].
Qed.

Lemma mem_load_some mem off n :
  off + n <= length mem -> mem_load mem off n = Some (firstn n (skipn off mem)).
Proof.
  intros H. unfold mem_load. destruct (Nat.leb_spec (off + n) (length mem)); [reflexivity|lia].
Qed.

Lemma mem_store_load mem off bs mem' :
  mem_store mem off bs = Some mem' -> mem_load mem' off (length bs) = Some bs.
Proof.
  intros H. pose proof (mem_store_length _ _ _ _ H) as Hl. revert H.
  unfold mem_store, mem_load.
  destruct (Nat.leb_spec (off + length bs) (length mem)) as [H|H]; [|discriminate].
  intros [= <-]. rewrite Hl.
  destruct (Nat.leb_spec (off + length bs) (length mem)) as [H'|H']; [|lia].
  f_equal.
  rewrite skipn_app, skipn_all2 by (rewrite firstn_length; lia).
  rewrite firstn_length. replace (off - min off (length mem)) with 0 by lia.
  cbn [skipn app]. rewrite firstn_app, Nat.sub_diag, firstn_all. cbn [firstn]. apply app_nil_r.
Qed.

Lemma nth_error_skipn' {A} k (l : list A) i :
  nth_error (skipn k l) i = nth_error l (k + i).
Proof.
  revert l; induction k as [|k IH]; intros l; [reflexivity|].
  destruct l as [|x l]; cbn [skipn Nat.add nth_error]; [now destruct i|apply IH].
Qed.

Lemma nth_error_firstn_lt {A} k (l : list A) i :
  i < k -> nth_error (firstn k l) i = nth_error l i.
Proof.
  revert l i; induction k as [|k IH]; intros l i H; [lia|].
  destruct l as [|x l]; [reflexivity|]. destruct i as [|i]; [reflexivity|].
  cbn [firstn nth_error]. apply IH. lia.
Qed.

Lemma nth_error_firstn_ge {A} k (l : list A) i :
  k <= i -> nth_error (firstn k l) i = None.
Proof. intros H. apply nth_error_None. rewrite firstn_length. lia. Qed.

Lemma list_ext {A} (l l' : list A) : (forall i, nth_error l i = nth_error l' i) -> l = l'.
Proof.
  revert l'; induction l as [|x l IH]; intros [|y l'] H; [reflexivity|specialize (H 0); discriminate| specialize (H 0); discriminate|].
  pose proof (H 0) as H0. cbn in H0. injection H0 as ->. f_equal. apply IH.
  intros i. exact (H (S i)).
Qed.

Lemma mem_store_other mem off bs mem' i :
  mem_store mem off bs = Some mem' ->
  i < off \/ off + length bs <= i ->
  nth_error mem' i = nth_error mem i.
Proof.
  unfold mem_store. destruct (Nat.leb_spec (off + length bs) (length mem)) as [H|H]; [|discriminate].
  intros [= <-] Hi. destruct Hi as [Hi|Hi].
  - rewrite nth_error_app1 by (rewrite firstn_length; lia).
    now apply nth_error_firstn_lt.
  - rewrite nth_error_app2 by (rewrite firstn_length; lia).
    rewrite firstn_length. replace (min off (length mem)) with off by lia.
    rewrite nth_error_app2 by lia. rewrite nth_error_skipn'. f_equal. lia.
Qed.

Lemma mem_store_byte mem off bs mem' i b :
  mem_store mem off bs = Some mem' ->
  nth_error bs i = Some b -> nth_error mem' (off + i) = Some b.
Proof.
  unfold mem_store. destruct (Nat.leb_spec (off + length bs) (length mem)) as [H|H]; [|discriminate].
  intros [= <-] Hb. assert (Hlt : i < length bs) by (apply nth_error_Some; congruence).
  rewrite nth_error_app2 by (rewrite firstn_length; lia).
  rewrite firstn_length. replace (off + i - min off (length mem)) with i by lia.
  now rewrite nth_error_app1.
Qed.

Lemma mem_store_bytes mem off bs mem' :
  mem_store mem off bs = Some mem' -> Forall is_byte mem -> Forall is_byte bs ->
  Forall is_byte mem'.
Proof.
  unfold mem_store. destruct (Nat.leb_spec (off + length bs) (length mem)) as [H|H]; [|discriminate].
  intros [= <-] Hm Hb. rewrite !Forall_app. repeat split; [|exact Hb|].
  - apply Forall_forall. intros x Hx. rewrite Forall_forall in Hm. apply Hm.
    rewrite <- (firstn_skipn off mem). apply in_or_app. now left.
  - apply Forall_forall. intros x Hx. rewrite Forall_forall in Hm. apply Hm.
    rewrite <- (firstn_skipn (off + length bs) mem). apply in_or_app. now right.
Qed.

(** ** Updating lists *)

Lemma upd_length {A} (l : list A) i x : length (upd l i x) = length l.
Proof. revert i. induction l; intros [|i]; cbn; auto. Qed.
Lemma nth_upd_eq {A} (l : list A) i x : i < length l -> nth_error (upd l i x) i = Some x.
Proof. revert i. induction l; intros [|i] H; cbn in *; try lia; auto. apply IHl. lia. Qed.
Lemma nth_upd_neq {A} (l : list A) i j x : i <> j -> nth_error (upd l i x) j = nth_error l j.
Proof. revert i j. induction l; intros [|i] [|j] H; cbn; auto; try lia. Qed.
Lemma nth_upd {A} (l : list A) i j x : nth_error (upd l i x) j =
  if (i =? j) && (j <? length l) then Some x else nth_error l j.
Proof.
  destruct (Nat.eqb_spec i j) as [-> |H]; cbn [andb].
  - destruct (Nat.ltb_spec j (length l)).
    + apply nth_upd_eq; auto.
    + rewrite (proj2 (nth_error_None (upd l j x) j)) by (rewrite upd_length; auto).
      symmetry. apply nth_error_None. auto.
  - apply nth_upd_neq; auto.
Qed.
Lemma upd_app {A} (l r : list A) i x : i < length l -> upd (l ++ r) i x = upd l i x ++ r.
Proof. revert i. induction l; intros [|i] H; cbn in *; try lia; auto. f_equal. apply IHl. lia. Qed.
Lemma upd_last {A} (l : list A) x y : upd (l ++ [x]) (length l) y = l ++ [y].
Proof. induction l; cbn; auto. f_equal. auto. Qed.
Lemma map_upd {A B} (f : A -> B) l i x : map f (upd l i x) = upd (map f l) i (f x).
Proof. revert i. induction l; intros [|i]; cbn; auto. f_equal. auto. Qed.
Lemma nth_lt {A} (l : list A) i x : nth_error l i = Some x -> i < length l.
Proof. intros H. apply nth_error_Some. congruence. Qed.

Lemma upd_inv {A} (l : list A) i x j y : nth_error (upd l i x) j = Some y ->
  (i = j /\ y = x) \/ (i <> j /\ nth_error l j = Some y).
Proof.
  intros H. destruct (Nat.eq_dec i j) as [<-|Hn].
  - left. split; auto. assert (i < length l).
    { apply nth_lt in H. rewrite upd_length in H. auto. }
    rewrite nth_upd_eq in H by auto. congruence.
  - right. rewrite nth_upd_neq in H by auto. auto.
Qed.
Lemma upd_beyond {A} (l : list A) i x : length l <= i -> upd l i x = l.
Proof.
  revert i. induction l as [|y l IH]; intros [|i] H; cbn in *; auto; try lia. f_equal. apply IH. lia.
Qed.
Lemma upd_same {A} (l : list A) i x : nth_error l i = Some x -> upd l i x = l.
Proof.
  revert i. induction l as [|y l IH]; intros [|i] H; cbn in *; try discriminate.
  - inversion H; auto.
  - f_equal. apply IH; auto.
Qed.
Lemma upd_upd {A} (l : list A) i x y : upd (upd l i x) i y = upd l i y.
Proof. revert i. induction l as [|z l IH]; intros [|i]; cbn; auto. f_equal. auto. Qed.
