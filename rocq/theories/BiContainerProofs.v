(** The model of the containers carries out every statement as specified. *)
From Coq Require Import ZifyBool ZifyNat ZifyN.
From Verif Require Import Base BaseProofs BiContainer BiContainerSpec BiContainerMatrix BiContainerMemory.

Section Proofs.
Variable V : Type.
Variable v0 : V.
Variable pod : bool.
Notation heap := (heap V).
Notation holds := (holds V pod).
Notation block := (block V).
Notation aobj := (aobj V).
Implicit Types h : heap.
Implicit Types a : aobj.
Implicit Types x : obj.

Definition shape x a : Prop :=
  match x, a with
  | Vec I1 cap size _, AVec I2 cap' l =>
      I1 = I2 /\ cap = cap' /\ size = N.of_nat (length l) /\ (N.of_nat (length l) <= cap)%N /\
      (I1 < 2 ^ 64)%N /\ (cap < 2 ^ 64)%N
  | Arr I1 size _, AArr I2 l =>
      I1 = I2 /\ size = N.of_nat (length l) /\ (I1 < 2 ^ 64)%N /\ (size < 2 ^ 64)%N
  | Mat L1 I1 J1 r1 c1 _, AMat L2 I2 J2 r2 c2 m =>
      L1 = L2 /\ I1 = I2 /\ J1 = J2 /\ r1 = r2 /\ c1 = c2 /\
      wfm V (N.to_nat r2) (N.to_nat c2) m /\ (I1 < 2 ^ 64)%N /\ (J1 < 2 ^ 64)%N /\
      (r1 <= mat_max)%N /\ (c1 <= mat_max)%N /\ (r1 * c1 < 2 ^ 64)%N
  | _, _ => False
  end.

(** Number of slots of the block of a container. *)
Definition alloc a : nat :=
  match a with AVec _ cap _ => N.to_nat cap | _ => length (contents a) end.

Definition rep h x a : Prop := shape x a /\ holds h (data_of x) (alloc a) (contents a).

Definition agree h h' (p : ptr) : Prop := forall b, p <> Some b -> nth_error h' b = nth_error h b.

Definition cell h (q : option (option obj)) (r : option (option aobj)) : Prop :=
  match q, r with
  | Some (Some x), Some (Some a) => rep h x a
  | Some None, Some None => True
  | None, None => True
  | _, _ => False
  end.

(** The memory and the objects represent the values [s]: object by object, no
    two objects share a block, and every block that was not deleted belongs to
    an object. *)
Definition R h (os : list (option obj)) (s : sworld V) : Prop :=
  (forall o, cell h (nth_error os o) (nth_error s o)) /\
  (forall o o' x x' b, nth_error os o = Some (Some x) -> nth_error os o' = Some (Some x') ->
     data_of x = Some b -> data_of x' = Some b -> o = o') /\
  (forall b blk, nth_error h b = Some (Some blk) ->
     exists o x, nth_error os o = Some (Some x) /\ data_of x = Some b).

Lemma R_init : R [] [] [].
Proof.
  split; [|split].
  - intros [|o]; exact Logic.I.
  - intros [|o]; discriminate.
  - intros [|b]; discriminate.
Qed.

Lemma R_len h os s : R h os s -> length os = length s.
Proof.
  intros [C _]. destruct (Nat.lt_trichotomy (length os) (length s)) as [L|[L|L]]; [|exact L|].
  - specialize (C (length os)). assert (E : nth_error os (length os) = None) by (apply nth_error_None; lia).
    rewrite E in C. apply nth_error_Some in L. destruct (nth_error s (length os)); [contradiction|congruence].
  - specialize (C (length s)). assert (E : nth_error s (length s) = None) by (apply nth_error_None; lia).
    rewrite E in C. apply nth_error_Some in L. destruct (nth_error os (length s)) as [[|]|]; [contradiction..|congruence].
Qed.

Lemma R_cell h os s o x : R h os s -> nth_error os o = Some (Some x) ->
  exists a, nth_error s o = Some (Some a) /\ rep h x a.
Proof.
  intros [C _] E. specialize (C o). rewrite E in C. destruct (nth_error s o) as [[a|]|]; try contradiction.
  exists a. split; [reflexivity|exact C].
Qed.

Lemma holds_agree h h' d n l p : holds h d n l -> agree h h' p -> (d = p -> d = None) -> holds h' d n l.
Proof.
  intros H A N. destruct d as [b|]; [|exact H]. destruct H as (rest & B & L & P). exists rest.
  split; [|split; assumption]. unfold BiContainerMemory.block in *. rewrite A; [exact B|].
  intros E. symmetry in E. specialize (N E). discriminate.
Qed.

Lemma holds_live h b n l : holds h (Some b) n l -> exists blk, nth_error h b = Some (Some blk).
Proof. intros (rest & B & _). eexists. exact B. Qed.

Lemma rep_live h x a b : rep h x a -> data_of x = Some b -> b < length h.
Proof. intros [_ H] E. rewrite E in H. apply holds_live in H. destruct H as [blk H]. eapply nth_lt, H. Qed.

Lemma R_update h h' os s o x x' a' : R h os s -> nth_error os o = Some (Some x) ->
  agree h h' (data_of x) -> data_of x' = data_of x -> rep h' x' a' ->
  R h' (upd os o (Some x')) (upd s o (Some a')).
Proof.
  intros RR E A D P. pose proof (R_len h os s RR) as LEN. destruct RR as (C & INJ & OWN).
  assert (Lo : o < length os) by (eapply nth_lt, E).
  split; [|split].
  - intros k. destruct (Nat.eq_dec o k) as [<-|N].
    + rewrite !nth_upd_eq by lia. exact P.
    + rewrite !nth_upd_neq by exact N. specialize (C k).
      destruct (nth_error os k) as [[y|]|] eqn:Ek, (nth_error s k) as [[b|]|]; try exact C.
      destruct C as [S H]. split; [exact S|]. eapply holds_agree; [exact H|exact A|].
      intros Q. destruct (data_of y) as [b0|] eqn:Y; [|reflexivity]. exfalso. apply N.
      eapply INJ; [exact E|exact Ek|symmetry; exact Q|exact Y].
  - intros k k' y y' b Ey Ey' Dy Dy'.
    assert (F : forall j z, nth_error (upd os o (Some x')) j = Some (Some z) -> data_of z = Some b ->
                exists z', nth_error os j = Some (Some z') /\ data_of z' = Some b).
    { intros j z Ez Dz. apply upd_inv in Ez. destruct Ez as [[<- Ez]|[_ Ez]].
      - injection Ez as ->. exists x. split; [exact E|congruence].
      - exists z. split; assumption. }
    destruct (F k y Ey Dy) as (z & Ez & Dz). destruct (F k' y' Ey' Dy') as (z' & Ez' & Dz').
    eapply INJ; [exact Ez|exact Ez'|exact Dz|exact Dz'].
  - intros b blk B. destruct (data_of x) as [b0|] eqn:Dx.
    + destruct (Nat.eq_dec b0 b) as [->|N].
      * exists o, x'. split; [apply nth_upd_eq; lia|congruence].
      * rewrite A in B by congruence. apply OWN in B. destruct B as (k & y & Ek & Dk). exists k, y.
        split; [|exact Dk]. rewrite nth_upd_neq; [exact Ek|]. intros <-. rewrite E in Ek. injection Ek as <-. congruence.
    + rewrite A in B by discriminate. apply OWN in B. destruct B as (k & y & Ek & Dk). exists k, y.
      split; [|exact Dk]. rewrite nth_upd_neq; [exact Ek|]. intros <-. rewrite E in Ek. injection Ek as <-. congruence.
Qed.

Definition fresh h h' (d : ptr) : Prop :=
  (d = None /\ h' = h) \/ (d = Some (length h) /\ exists blk, h' = h ++ [Some blk]).

Lemma R_place h h' os s o x a : R h os s -> nth_error os o = Some None -> fresh h h' (data_of x) ->
  rep h' x a -> R h' (upd os o (Some x)) (upd s o (Some a)).
Proof.
  intros RR E FR P. pose proof (R_len h os s RR) as LEN. pose proof RR as (C & INJ & OWN).
  assert (Lo : o < length os) by (eapply nth_lt, E).
  assert (KEEP : forall b, b < length h -> nth_error h' b = nth_error h b).
  { intros b Hb. destruct FR as [[_ ->]|[_ [blk ->]]]; [reflexivity|]. apply nth_error_app1, Hb. }
  assert (OLD : forall k y b, nth_error os k = Some (Some y) -> data_of y = Some b -> b < length h).
  { intros k y b Ek Dy. destruct (R_cell h os s k y RR Ek) as (a0 & _ & RP). eapply rep_live; eassumption. }
  assert (NEW : forall b, data_of x = Some b -> b = length h).
  { intros b D. destruct FR as [[F _]|[F _]]; congruence. }
  split; [|split].
  - intros k. destruct (Nat.eq_dec o k) as [<-|N].
    + rewrite !nth_upd_eq by lia. exact P.
    + rewrite !nth_upd_neq by exact N. specialize (C k).
      destruct (nth_error os k) as [[y|]|] eqn:Ek, (nth_error s k) as [[b|]|]; try exact C.
      destruct C as [S H]. split; [exact S|]. destruct (data_of y) as [b0|] eqn:Y; [|exact H].
      destruct H as (rest & B & L & Q). exists rest. split; [|split; assumption].
      unfold BiContainerMemory.block in *. rewrite KEEP; [exact B|]. eapply nth_lt, B.
  - intros k k' y y' b Ey Ey' Dy Dy'. apply upd_inv in Ey, Ey'.
    destruct Ey as [[<- Ey]|[N Ey]], Ey' as [[<- Ey']|[N' Ey']].
    + reflexivity.
    + injection Ey as ->. apply NEW in Dy. specialize (OLD _ _ _ Ey' Dy'). lia.
    + injection Ey' as ->. apply NEW in Dy'. specialize (OLD _ _ _ Ey Dy). lia.
    + eapply INJ; [exact Ey|exact Ey'|exact Dy|exact Dy'].
  - intros b blk B. destruct (Nat.lt_ge_cases b (length h)) as [Hb|Hb].
    + rewrite KEEP in B by exact Hb. apply OWN in B. destruct B as (k & y & Ek & Dk). exists k, y.
      split; [|exact Dk]. rewrite nth_upd_neq; [exact Ek|]. intros <-. congruence.
    + exists o, x. split; [apply nth_upd_eq; lia|]. destruct FR as [[_ ->]|[D [blk' ->]]].
      * apply nth_lt in B. lia.
      * apply nth_lt in B. rewrite app_length in B. cbn [length] in B. rewrite D. f_equal. lia.
Qed.

Lemma R_grow h os s : R h os s -> R h (os ++ [None]) (s ++ [None]).
Proof.
  intros RR. pose proof (R_len h os s RR) as LEN. destruct RR as (C & INJ & OWN).
  assert (F : forall k y, nth_error (os ++ [None]) k = Some (Some y) -> nth_error os k = Some (Some y)).
  { intros k y E. destruct (Nat.lt_ge_cases k (length os)) as [Hk|Hk].
    - rewrite nth_error_app1 in E by exact Hk. exact E.
    - rewrite nth_error_app2 in E by exact Hk. destruct (k - length os) as [|[|]]; discriminate E. }
  split; [|split].
  - intros k. destruct (Nat.lt_ge_cases k (length os)) as [Hk|Hk].
    + rewrite !nth_error_app1 by lia. apply C.
    + rewrite !nth_error_app2 by lia. rewrite LEN. destruct (k - length s) as [|[|]]; exact Logic.I.
  - intros k k' y y' b Ey Ey'. apply F in Ey, Ey'. eapply INJ; eassumption.
  - intros b blk B. apply OWN in B. destruct B as (k & y & Ek & Dk). exists k, y. split; [|exact Dk].
    rewrite nth_error_app1; [exact Ek|]. eapply nth_lt, Ek.
Qed.

Lemma R_new h h' os s x a : R h os s -> fresh h h' (data_of x) -> rep h' x a ->
  R h' (os ++ [Some x]) (s ++ [Some a]).
Proof.
  intros RR FR P. pose proof (R_len h os s RR) as LEN. apply R_grow in RR.
  rewrite <- (upd_last os None (Some x)), <- (upd_last s None (Some a)). rewrite <- LEN.
  apply (R_place h); [exact RR | | exact FR | exact P].
  rewrite nth_error_app2 by lia. rewrite Nat.sub_diag. reflexivity.
Qed.

Lemma R_remove h h' os s o x : R h os s -> nth_error os o = Some (Some x) ->
  agree h h' (data_of x) -> (forall b blk, data_of x = Some b -> nth_error h' b <> Some (Some blk)) ->
  R h' (upd os o None) (upd s o None).
Proof.
  intros RR E A G. pose proof (R_len h os s RR) as LEN. destruct RR as (C & INJ & OWN).
  assert (Lo : o < length os) by (eapply nth_lt, E).
  split; [|split].
  - intros k. destruct (Nat.eq_dec o k) as [<-|N].
    + rewrite !nth_upd_eq by lia. exact Logic.I.
    + rewrite !nth_upd_neq by exact N. specialize (C k).
      destruct (nth_error os k) as [[y|]|] eqn:Ek, (nth_error s k) as [[b|]|]; try exact C.
      destruct C as [S H]. split; [exact S|]. eapply holds_agree; [exact H|exact A|].
      intros Q. destruct (data_of y) as [b0|] eqn:Y; [|reflexivity]. exfalso. apply N.
      eapply INJ; [exact E|exact Ek|symmetry; exact Q|exact Y].
  - intros k k' y y' b Ey Ey' Dy Dy'. apply upd_inv in Ey, Ey'.
    destruct Ey as [[<- Ey]|[N Ey]]; [discriminate|]. destruct Ey' as [[<- Ey']|[N' Ey']]; [discriminate|].
    eapply INJ; [exact Ey|exact Ey'|exact Dy|exact Dy'].
  - intros b blk B. destruct (data_of x) as [b0|] eqn:Dx.
    + destruct (Nat.eq_dec b0 b) as [->|N].
      * exfalso. exact (G b blk eq_refl B).
      * rewrite A in B by congruence. apply OWN in B. destruct B as (k & y & Ek & Dk). exists k, y.
        split; [|exact Dk]. rewrite nth_upd_neq; [exact Ek|]. intros <-. rewrite E in Ek. injection Ek as <-. congruence.
    + rewrite A in B by discriminate. apply OWN in B. destruct B as (k & y & Ek & Dk). exists k, y.
      split; [|exact Dk]. rewrite nth_upd_neq; [exact Ek|]. intros <-. rewrite E in Ek. injection Ek as <-. congruence.
Qed.

Lemma R_swap h os s i j x y a b : R h os s ->
  nth_error os i = Some (Some x) -> nth_error os j = Some (Some y) ->
  nth_error s i = Some (Some a) -> nth_error s j = Some (Some b) ->
  R h (upd (upd os i (Some y)) j (Some x)) (upd (upd s i (Some b)) j (Some a)).
Proof.
  intros RR Ei Ej Si Sj. pose proof (R_len h os s RR) as LEN. pose proof RR as (C & INJ & OWN).
  assert (Li : i < length os) by (eapply nth_lt, Ei). assert (Lj : j < length os) by (eapply nth_lt, Ej).
  set (f := fun k => if (k =? j)%nat then i else if (k =? i)%nat then j else k).
  assert (Fo : forall k, nth_error (upd (upd os i (Some y)) j (Some x)) k = nth_error os (f k)).
  { intros k. unfold f. rewrite !nth_upd, upd_length.
    destruct (Nat.eqb_spec j k) as [<-|]; cbn [andb].
    - rewrite Nat.eqb_refl. destruct (Nat.ltb_spec j (length os)); [congruence|lia].
    - destruct (Nat.eqb_spec k j); [congruence|]. destruct (Nat.eqb_spec i k) as [<-|]; cbn [andb].
      + rewrite Nat.eqb_refl. destruct (Nat.ltb_spec i (length os)); [congruence|lia].
      + destruct (Nat.eqb_spec k i); [congruence|reflexivity]. }
  assert (Fs : forall k, nth_error (upd (upd s i (Some b)) j (Some a)) k = nth_error s (f k)).
  { intros k. unfold f. rewrite !nth_upd, upd_length.
    destruct (Nat.eqb_spec j k) as [<-|]; cbn [andb].
    - rewrite Nat.eqb_refl. destruct (Nat.ltb_spec j (length s)); [congruence|lia].
    - destruct (Nat.eqb_spec k j); [congruence|]. destruct (Nat.eqb_spec i k) as [<-|]; cbn [andb].
      + rewrite Nat.eqb_refl. destruct (Nat.ltb_spec i (length s)); [congruence|lia].
      + destruct (Nat.eqb_spec k i); [congruence|reflexivity]. }
  assert (Finv : forall k, f (f k) = k).
  { intros k. unfold f. destruct (Nat.eqb_spec k j) as [->|].
    - destruct (Nat.eqb_spec i j); [congruence|]. rewrite Nat.eqb_refl. reflexivity.
    - destruct (Nat.eqb_spec k i) as [->|].
      + rewrite Nat.eqb_refl. reflexivity.
      + destruct (Nat.eqb_spec k j); [congruence|]. destruct (Nat.eqb_spec k i); congruence. }
  split; [|split].
  - intros k. rewrite Fo, Fs. apply C.
  - intros k k' z z' b0 Ez Ez' Dz Dz'. rewrite Fo in Ez, Ez'.
    pose proof (INJ _ _ _ _ _ Ez Ez' Dz Dz') as Q. rewrite <- (Finv k), Q. apply Finv.
  - intros b0 blk B. apply OWN in B. destruct B as (k & z & Ek & Dk). exists (f k), z.
    split; [|exact Dk]. rewrite Fo, Finv. exact Ek.
Qed.

(** ** Sizes, indices *)

Lemma mat_size_ok r c : (r * c < 2 ^ 64)%N -> mat_size r c = (r * c)%N.
Proof. intros H. apply w64_small, H. Qed.

Lemma count_ok x a : shape x a -> count_of x = N.of_nat (length (contents a)).
Proof.
  destruct x, a; cbn [shape]; try contradiction; cbn [count_of contents].
  - tauto.
  - tauto.
  - intros (-> & _ & _ & -> & -> & W & _ & _ & _ & _ & Z). rewrite mat_size_ok by exact Z.
    rewrite (storage_length V L0 _ cols0 m W). lia.
Qed.

Lemma in_base_index I1 n i : (I1 < 2 ^ 64)%N -> (n < 2 ^ 64)%N ->
  in_base I1 n i = match index I1 n i with Some _ => true | None => false end.
Proof.
  intros HI HN. unfold in_base, index.
  destruct (N.leb_spec I1 i); cbn [andb]; [|reflexivity].
  destruct (N.ltb_spec (I1 + n) (2 ^ 64)) as [F|F]; cbn [andb].
  - rewrite w64_small by exact F. rewrite Bool.andb_true_r. destruct (i <? I1 + n)%N; reflexivity.
  - rewrite Bool.andb_false_r.
    assert (E : w64 (I1 + n) = (I1 + n - 2 ^ 64)%N).
    { unfold w64, wrap. replace (I1 + n)%N with ((I1 + n - 2 ^ 64) + 1 * 2 ^ 64)%N at 1 by lia.
      rewrite N.mod_add by (apply N.pow_nonzero; discriminate). apply N.mod_small. lia. }
    rewrite E. destruct (N.ltb_spec i (I1 + n - 2 ^ 64)); [lia|reflexivity].
Qed.

Lemma index_some I1 n i k : index I1 n i = Some k ->
  k = N.to_nat (i - I1) /\ (I1 <= i)%N /\ k < N.to_nat n /\ (I1 + n < 2 ^ 64)%N.
Proof.
  unfold index. destruct (N.leb_spec I1 i); cbn [andb]; [|discriminate].
  destruct (N.ltb_spec i (I1 + n)); cbn [andb]; [|discriminate].
  destruct (N.ltb_spec (I1 + n) (2 ^ 64)); cbn [andb]; [|discriminate].
  intros [= <-]. repeat split; lia.
Qed.

(** ** Construction, copy, destruction *)

Lemma agree_upd h b z : agree h (upd h b z) (Some b).
Proof. intros k N. apply nth_upd_neq. congruence. Qed.

Lemma agree_refl h p : agree h h p.
Proof. intros b _. reflexivity. Qed.

Lemma destroy_ok h x a : rep h x a -> exists h', destroy_obj V pod h x = Done h' /\
  agree h h' (data_of x) /\ (forall b blk, data_of x = Some b -> nth_error h' b <> Some (Some blk)).
Proof.
  intros [S H]. unfold destroy_obj. rewrite (count_ok x a S), Nat2N.id. destruct (data_of x) as [b|].
  - destruct H as (rest & B & L & P).
    rewrite (array_destroy_ok V pod (contents a) h b [] rest 0) by (exact B || reflexivity).
    cbn [obind op_delete app].
    assert (B2 : nth_error (upd h b (Some (husk V pod (contents a) ++ rest))) b = Some (Some (husk V pod (contents a) ++ rest))).
    { apply nth_upd_eq. eapply nth_lt, B. }
    rewrite B2, upd_upd. eexists. split; [reflexivity|]. split; [apply agree_upd|].
    intros b' blk [= <-]. rewrite nth_upd_eq by (eapply nth_lt, B). discriminate.
  - destruct H as [_ E]. rewrite E. cbn [length]. rewrite array_destroy_zero. cbn [obind op_delete].
    exists h. split; [reflexivity|]. split; [apply agree_refl|]. discriminate.
Qed.

Lemma block_new h n : block (h ++ [Some (repeat Raw (N.to_nat n))]) (length h) (repeat Raw (N.to_nat n)).
Proof. unfold BiContainerMemory.block. rewrite nth_error_app2 by lia. rewrite Nat.sub_diag. reflexivity. Qed.

Lemma raws n : Forall (eq (@Raw V)) (repeat Raw n).
Proof. apply Forall_forall. intros x H. apply repeat_spec in H. congruence. Qed.

Lemma read_grow h blk s v : read_src h s = Done v -> read_src (h ++ [Some blk]) s = Done v.
Proof.
  destruct s as [w|b off]; [exact (fun e => e)|]. cbn [read_src]. intros E. apply load_inv in E.
  destruct E as (bl & B & E). eapply load_ok; [|exact E]. unfold BiContainerMemory.block in *.
  rewrite nth_error_app1; [exact B|]. eapply nth_lt, B.
Qed.

Lemma upd_app_last h z z' : upd (h ++ [z]) (length h) z' = h ++ [z'].
Proof. apply upd_last. Qed.

Lemma map_rep (v : V) k : map Live (repeat v k) = repeat (Live v) k.
Proof. induction k; cbn [repeat map]; congruence. Qed.

(** Allocating [n] slots and constructing [k] copies of a value. *)
Lemma alloc_init h n k s v : (0 < n)%N -> k <= N.to_nat n -> read_src h s = Done v ->
  exists blk, array_init V pod (h ++ [Some (repeat Raw (N.to_nat n))]) (Some (length h)) 0 k s
              = Done (h ++ [Some blk]) /\ holds (h ++ [Some blk]) (Some (length h)) (N.to_nat n) (repeat v k).
Proof.
  intros NZ K RD. set (rest := repeat (@Raw V) (N.to_nat n - k)).
  assert (SP : repeat (@Raw V) (N.to_nat n) = [] ++ repeat Raw k ++ rest).
  { cbn [app]. unfold rest. rewrite <- repeat_app. f_equal. lia. }
  pose proof (block_new h n) as B. rewrite SP in B at 2.
  rewrite (array_init_ok V pod k _ _ [] (repeat Raw k) rest 0 s v B).
  - rewrite upd_app_last. eexists. split; [reflexivity|]. exists rest. split; [|split].
    + unfold BiContainerMemory.block. rewrite nth_error_app2 by lia. rewrite Nat.sub_diag. cbn [nth_error app].
      rewrite map_rep. reflexivity.
    + unfold rest. rewrite ?repeat_length. lia.
    + split; [intros _; apply raws|lia].
  - reflexivity.
  - apply repeat_length.
  - intros _. apply raws.
  - apply read_grow, RD.
Qed.

Lemma fresh_app h blk : fresh h (h ++ [Some blk]) (Some (length h)).
Proof. right. split; [reflexivity|]. eexists. reflexivity. Qed.

Lemma vec_init_ok h I1 cap : (I1 < 2 ^ 64)%N -> (cap < 2 ^ 64)%N ->
  fresh h (fst (vec_init h I1 cap)) (data_of (snd (vec_init h I1 cap))) /\
  rep (fst (vec_init h I1 cap)) (snd (vec_init h I1 cap)) (AVec I1 cap []).
Proof.
  intros HI HC. unfold vec_init. destruct (N.eqb_spec cap 0) as [->|N].
  - cbn [fst snd data_of]. split; [left; split; reflexivity|]. split.
    + cbn [shape length]. repeat split; lia.
    + cbn [data_of alloc contents]. split; reflexivity.
  - cbn [op_new fst snd data_of]. split; [apply fresh_app|]. split.
    + cbn [shape length]. repeat split; lia.
    + cbn [data_of alloc contents]. exists (repeat Raw (N.to_nat cap)). split; [apply block_new|].
      split; [rewrite repeat_length; reflexivity|]. split; [intros _; apply raws|lia].
Qed.

Lemma vec_init_fill_ok h I1 cap size s v : (I1 < 2 ^ 64)%N -> (cap < 2 ^ 64)%N -> (size <= cap)%N ->
  read_src h s = Done v ->
  exists h' x, vec_init_fill V pod h I1 cap size s = Done (h', x) /\ fresh h h' (data_of x) /\
               rep h' x (AVec I1 cap (repeat v (N.to_nat size))).
Proof.
  intros HI HC HS RD. unfold vec_init_fill.
  destruct (N.eqb_spec size 0) as [->|NS].
  - pose proof (vec_init_ok h I1 cap HI HC) as [F P]. unfold vec_init in *.
    destruct (N.eqb_spec cap 0) as [->|NC]; cbn [op_new fst snd] in *; cbn [N.to_nat repeat] in *;
      (eexists; eexists; split; [reflexivity|]; split; [exact F|exact P]).
  - unfold vec_init. destruct (N.eqb_spec cap 0) as [->|NC]; [lia|]. cbn [op_new].
    destruct (alloc_init h cap (N.to_nat size) s v ltac:(lia) ltac:(lia) RD) as (blk & E & H).
    rewrite E. cbn [obind]. eexists. eexists. split; [reflexivity|]. split; [apply fresh_app|]. split.
    + cbn [shape]. rewrite repeat_length. repeat split; lia.
    + exact H.
Qed.

Lemma arr_init_fill_ok h I1 size s v : (I1 < 2 ^ 64)%N -> (size < 2 ^ 64)%N ->
  read_src h s = Done v ->
  exists h' x, arr_init_fill V pod h I1 size s = Done (h', x) /\ fresh h h' (data_of x) /\
               rep h' x (AArr I1 (repeat v (N.to_nat size))).
Proof.
  intros HI HS RD. unfold arr_init_fill. destruct (N.eqb_spec size 0) as [->|NS].
  - eexists. eexists. split; [reflexivity|]. split; [left; split; reflexivity|]. split.
    + cbn [shape N.to_nat repeat length]. repeat split; lia.
    + split; reflexivity.
  - cbn [op_new]. destruct (alloc_init h size (N.to_nat size) s v ltac:(lia) ltac:(lia) RD) as (blk & E & H).
    rewrite E. cbn [obind]. eexists. eexists. split; [reflexivity|]. split; [apply fresh_app|]. split.
    + cbn [shape]. rewrite repeat_length. repeat split; lia.
    + cbn [data_of alloc contents]. rewrite repeat_length. exact H.
Qed.

Lemma arr_init_as_fill h I1 size : arr_init V v0 pod h I1 size = arr_init_fill V pod h I1 size (SVal v0).
Proof. reflexivity. Qed.

Lemma mat_init_as_fill h L I1 J1 r c :
  mat_init V v0 pod h L I1 J1 r c = mat_init_fill V pod h L I1 J1 r c (SVal v0).
Proof. reflexivity. Qed.

Lemma storage_repeatN L r c (v : V) :
  storage L c (repeat (repeat v (N.to_nat c)) (N.to_nat r)) = repeat v (N.to_nat (r * c)).
Proof.
  rewrite <- (N2Nat.id c) at 1. rewrite storage_repeat. f_equal. lia.
Qed.

Lemma mat_init_fill_ok h L I1 J1 r c s v : (I1 < 2 ^ 64)%N -> (J1 < 2 ^ 64)%N ->
  (r <= mat_max)%N -> (c <= mat_max)%N -> (r * c < 2 ^ 64)%N -> read_src h s = Done v ->
  exists h' x, mat_init_fill V pod h L I1 J1 r c s = Done (h', x) /\ fresh h h' (data_of x) /\
               rep h' x (AMat L I1 J1 r c (repeat (repeat v (N.to_nat c)) (N.to_nat r))).
Proof.
  intros HI HJ HR HC HM RD. unfold mat_init_fill.
  destruct (N.leb_spec r mat_max); [|lia]. destruct (N.leb_spec c mat_max); [|lia]. cbn [andb].
  rewrite mat_size_ok by exact HM.
  assert (S : forall d, shape (Mat L I1 J1 r c d)
                 (AMat L I1 J1 r c (repeat (repeat v (N.to_nat c)) (N.to_nat r)))).
  { intros d. cbn [shape]. repeat (split; [first [reflexivity | apply wfm_repeat | assumption]|]). exact HM. }
  destruct (N.eqb_spec (r * c) 0) as [Z|NZ].
  - eexists. eexists. split; [reflexivity|]. split; [left; split; reflexivity|]. split; [apply S|].
    cbn [data_of alloc contents]. rewrite storage_repeatN, Z. split; reflexivity.
  - cbn [op_new].
    destruct (alloc_init h (r * c) (N.to_nat (r * c)) s v ltac:(lia) ltac:(lia) RD) as (blk & E & HB).
    rewrite E. cbn [obind]. eexists. eexists. split; [reflexivity|]. split; [apply fresh_app|]. split; [apply S|].
    cbn [data_of alloc contents]. rewrite storage_repeatN, repeat_length. exact HB.
Qed.

(** Copying the elements of one block to a new one. *)
Lemma elements_read h d n l z k : holds h d n l -> k = length l ->
  Forall2 (reads_out V (h ++ [z]) (length h)) (elements_at (h ++ [z]) d (N.of_nat k)) l.
Proof.
  intros H ->. destruct d as [b|].
  - destruct H as (rest & B & _). unfold elements_at, elements. rewrite Nat2N.id.
    assert (G : forall l0 i, (forall t v, nth_error l0 t = Some v ->
                              load (h ++ [z]) (Some b) (N.of_nat (i + t)) = Done v) ->
              Forall2 (reads_out V (h ++ [z]) (length h))
                (map (fun k => SRef b (N.of_nat k)) (seq i (length l0))) l0).
    { induction l0 as [|v l0 IH]; intros i Q; cbn [length seq map]; [constructor|]. constructor.
      - split.
        + cbn [read_src]. specialize (Q 0 v eq_refl). rewrite Nat.add_0_r in Q. exact Q.
        + intros off E. injection E as E _. apply nth_lt in B. lia.
      - apply IH. intros t w E. specialize (Q (S t) w E). rewrite Nat.add_succ_r in Q. exact Q. }
    apply G. intros t v E. cbn [Nat.add]. eapply load_ok.
    + unfold BiContainerMemory.block in *. rewrite nth_error_app1 by (eapply nth_lt, B). exact B.
    + rewrite Nat2N.id. rewrite nth_error_app1 by (rewrite map_length; eapply nth_lt, E).
      rewrite nth_error_map, E. reflexivity.
  - destruct H as [_ ->]. constructor.
Qed.

Lemma alloc_copy h d n l cap : (0 < cap)%N -> holds h d n l -> length l <= N.to_nat cap ->
  exists blk, array_copy_init V pod (h ++ [Some (repeat Raw (N.to_nat cap))])
                (elements_at (h ++ [Some (repeat Raw (N.to_nat cap))]) d (N.of_nat (length l)))
                (Some (length h)) 0 = Done (h ++ [Some blk]) /\
              holds (h ++ [Some blk]) (Some (length h)) (N.to_nat cap) l.
Proof.
  intros NZ H K. set (rest := repeat (@Raw V) (N.to_nat cap - length l)).
  assert (SP : repeat (@Raw V) (N.to_nat cap) = [] ++ repeat Raw (length l) ++ rest).
  { cbn [app]. unfold rest. rewrite <- repeat_app. f_equal. lia. }
  pose proof (block_new h cap) as B. rewrite SP in B at 2.
  rewrite (array_copy_init_ok V pod _ l _ _ [] (repeat Raw (length l)) rest 0 B).
  - rewrite upd_app_last. eexists. split; [reflexivity|]. exists rest. split; [|split].
    + unfold BiContainerMemory.block. rewrite nth_error_app2 by lia. rewrite Nat.sub_diag. reflexivity.
    + unfold rest. rewrite ?repeat_length. lia.
    + split; [intros _; apply raws|lia].
  - reflexivity.
  - apply repeat_length.
  - intros _. apply raws.
  - eapply elements_read; [exact H|reflexivity].
Qed.

Lemma copy_ok h x a : rep h x a -> exists h' x', copy_obj V pod h x = Done (h', x') /\
  fresh h h' (data_of x') /\ rep h' x' a.
Proof.
  intros [S H]. destruct x as [I1 cap size d|I1 size d|L I1 J1 r c d], a as [I2 cap' l|I2 l|L' I2 J2 r' c' m];
    try contradiction; cbn [copy_obj data_of] in *.
  - pose proof S as (-> & -> & -> & LE & HI & HC). cbn [alloc contents] in H. unfold vec_copy, vec_init.
    destruct (N.eqb_spec cap' 0) as [->|NC].
    + destruct (N.eqb_spec (N.of_nat (length l)) 0) as [Z|Z]; [|lia].
      destruct l; [|cbn [length] in Z; lia].
      eexists. eexists. split; [reflexivity|]. split; [left; split; reflexivity|]. split; [exact S|split; reflexivity].
    + cbn [op_new]. destruct (N.eqb_spec (N.of_nat (length l)) 0) as [Z|Z].
      * destruct l; [|cbn [length] in Z; lia].
        eexists. eexists. split; [reflexivity|]. split; [apply fresh_app|]. split; [exact S|].
        cbn [data_of alloc contents]. exists (repeat Raw (N.to_nat cap')). split; [apply block_new|].
        split; [rewrite repeat_length; reflexivity|]. split; [intros _; apply raws|lia].
      * destruct (alloc_copy h d (N.to_nat cap') l cap' ltac:(lia) H ltac:(lia)) as (blk & E & H2).
        rewrite E. cbn [obind]. eexists. eexists. split; [reflexivity|]. split; [apply fresh_app|].
        split; [exact S|exact H2].
  - pose proof S as (-> & -> & HI & HS). cbn [alloc contents] in H. unfold arr_copy.
    destruct (N.eqb_spec (N.of_nat (length l)) 0) as [Z|Z].
    + destruct l; [|cbn [length] in Z; lia]. eexists. eexists. split; [reflexivity|].
      split; [left; split; reflexivity|]. split; [exact S|split; reflexivity].
    + cbn [op_new]. destruct (alloc_copy h d (length l) l (N.of_nat (length l)) ltac:(lia) H ltac:(lia)) as (blk & E & H2).
      rewrite E. cbn [obind]. eexists. eexists. split; [reflexivity|]. split; [apply fresh_app|].
      split; [exact S|]. cbn [data_of alloc contents]. rewrite Nat2N.id in H2. exact H2.
  - pose proof S as (-> & -> & -> & -> & -> & W & HI & HJ & HR & HC & HM). cbn [alloc contents] in H.
    pose proof (storage_length V L' _ c' m W) as SL. unfold mat_copy. rewrite mat_size_ok by exact HM.
    destruct (N.eqb_spec (r' * c') 0) as [Z|Z].
    + destruct d as [b|].
      * (* a block of zero slots is never allocated; the pointer would be shared *)
        destruct H as (rest & _ & _ & _ & H). lia.
      * eexists. eexists. split; [reflexivity|]. split; [left; split; reflexivity|]. split; [exact S|exact H].
    + cbn [op_new]. assert (E0 : (r' * c')%N = N.of_nat (length (storage L' c' m))) by lia. rewrite E0.
      destruct (alloc_copy h d _ (storage L' c' m) (N.of_nat (length (storage L' c' m))) ltac:(lia) H ltac:(lia)) as (blk & E & H2).
      rewrite E. cbn [obind]. eexists. eexists. split; [reflexivity|]. split; [apply fresh_app|].
      split; [exact S|]. cbn [data_of alloc contents]. rewrite Nat2N.id in H2. exact H2.
Qed.

End Proofs.
