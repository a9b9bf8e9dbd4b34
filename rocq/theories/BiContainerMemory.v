(** Lemmas on the memory helpers: what the loops of array-tool.h and the fill
    loops do to one block. *)
From Coq Require Import ZifyBool ZifyNat ZifyN.
From Verif Require Import Base BaseProofs BiContainer BiContainerSpec BiContainerMatrix.

Lemma Forall2_imp {A B} (P Q : A -> B -> Prop) l l' : (forall x y, P x y -> Q x y) ->
  Forall2 P l l' -> Forall2 Q l l'.
Proof. intros H F. induction F; constructor; auto. Qed.

Section Memory.
Variable V : Type.
Variable v0 : V.
Variable pod : bool.
Notation heap := (heap V).
Notation slot := (slot V).
Notation src := (src V).
Implicit Types h : heap.
Implicit Types s : src.

Definition block h (b : nat) (blk : list slot) : Prop := nth_error h b = Some (Some blk).

Lemma block_upd h b blk blk' : block h b blk -> block (upd h b (Some blk')) b blk'.
Proof. intros H. apply nth_upd_eq. eapply nth_lt, H. Qed.

Lemma slot_put_ok h b blk off x : block h b blk -> N.to_nat off < length blk ->
  slot_put h (Some b) off x = Done (upd h b (Some (upd blk (N.to_nat off) x))).
Proof.
  intros H L. unfold slot_put. unfold block in H. rewrite H. destruct (Nat.ltb_spec (N.to_nat off) (length blk)); [reflexivity|lia].
Qed.

Lemma slot_at_ok h b blk off x : block h b blk -> nth_error blk (N.to_nat off) = Some x ->
  slot_at h (Some b) off = Done x.
Proof. intros H L. unfold slot_at. unfold block in H. rewrite H, L. reflexivity. Qed.

Lemma load_ok h b blk off v : block h b blk -> nth_error blk (N.to_nat off) = Some (Live v) ->
  load h (Some b) off = Done v.
Proof. intros H L. unfold load. rewrite (slot_at_ok h b blk off _ H L). reflexivity. Qed.

Lemma load_inv h b off v : load h (Some b) off = Done v ->
  exists blk, block h b blk /\ nth_error blk (N.to_nat off) = Some (Live v).
Proof.
  unfold load, slot_at. destruct (nth_error h b) as [[blk|]|] eqn:E; cbn [obind]; try discriminate.
  destruct (nth_error blk (N.to_nat off)) as [[|x]|] eqn:F; cbn [obind]; try discriminate.
  intros [= ->]. exists blk. split; [exact E|exact F].
Qed.

(** Writing a value somewhere does not change what a reference to that value
    reads. *)
Lemma read_put h b blk k s v : block h b blk -> k < length blk -> read_src h s = Done v ->
  read_src (upd h b (Some (upd blk k (Live v)))) s = Done v.
Proof.
  intros H K R. destruct s as [x|b' off]; [exact R|]. cbn [read_src] in *. apply load_inv in R.
  destruct R as (blk' & B & E). destruct (Nat.eq_dec b' b) as [->|N].
  - unfold block in H, B. rewrite H in B. injection B as <-. eapply load_ok; [eapply block_upd, H|]. rewrite nth_upd.
    destruct (Nat.eqb_spec k (N.to_nat off)); cbn [andb]; [|exact E].
    destruct (Nat.ltb_spec (N.to_nat off) (length blk)); [reflexivity|lia].
  - eapply load_ok; [|exact E]. unfold block. rewrite nth_upd_neq by congruence. exact B.
Qed.

Lemma read_other h b x s v : read_src h s = Done v -> (forall off, s <> SRef b off) ->
  read_src (upd h b x) s = Done v.
Proof.
  intros R N. destruct s as [y|b' off]; [exact R|]. cbn [read_src] in *. apply load_inv in R.
  destruct R as (blk & B & E). eapply load_ok; [|exact E]. unfold block. rewrite nth_upd_neq; [exact B|].
  intros ->. eapply N. reflexivity.
Qed.

Lemma nth_mid {A} (a : list A) x z : nth_error (a ++ x :: z) (length a) = Some x.
Proof. rewrite nth_error_app2 by lia. rewrite Nat.sub_diag. reflexivity. Qed.

Lemma upd_mid {A} (a : list A) x y z : upd (a ++ x :: z) (length a) y = a ++ y :: z.
Proof. induction a as [|w a IH]; [reflexivity|]. cbn [app length upd]. f_equal. exact IH. Qed.

Lemma upd_block h b blk x y : block h b blk -> upd (upd h b x) b y = upd h b y.
Proof. intros _. apply upd_upd. Qed.

Lemma construct_ok h b a x z off v : block h b (a ++ x :: z) -> length a = N.to_nat off ->
  (pod = false -> x = Raw) ->
  construct V pod h (Some b) off v = Done (upd h b (Some (a ++ Live v :: z))).
Proof.
  intros H L P. unfold construct. rewrite (slot_at_ok h b _ off x H) by (rewrite <- L; apply nth_mid).
  cbn [obind].
  assert (E : slot_put h (Some b) off (Live v) = Done (upd h b (Some (a ++ Live v :: z)))).
  { rewrite (slot_put_ok h b _ off _ H) by (rewrite app_length; cbn [length]; lia).
    rewrite <- L, upd_mid. reflexivity. }
  destruct x as [|w]; [exact E|]. destruct pod; [exact E|]. discriminate (P eq_refl).
Qed.

Lemma array_init_ok n : forall h b a mid z off s v,
  block h b (a ++ mid ++ z) -> length a = N.to_nat off -> length mid = n ->
  (pod = false -> Forall (eq Raw) mid) -> read_src h s = Done v ->
  array_init V pod h (Some b) off n s = Done (upd h b (Some (a ++ repeat (Live v) n ++ z))).
Proof.
  induction n as [|n IH]; intros h b a mid z off s v B L M P R.
  - destruct mid; [|discriminate M]. cbn [array_init repeat app] in *. f_equal. symmetry. apply upd_same, B.
  - destruct mid as [|x mid]; [discriminate M|]. cbn [array_init]. rewrite R. cbn [obind].
    cbn [app] in B.
    rewrite (construct_ok h b a x (mid ++ z) off v B L) by (intros Q; specialize (P Q); inversion P; congruence).
    cbn [obind].
    pose proof (block_upd h b _ (a ++ Live v :: mid ++ z) B) as B1.
    assert (B2 : block (upd h b (Some (a ++ Live v :: mid ++ z))) b ((a ++ [Live v]) ++ mid ++ z)).
    { rewrite <- app_assoc. exact B1. }
    rewrite (IH _ b (a ++ [Live v]) mid z (off + 1)%N s v B2).
    + rewrite upd_upd, <- app_assoc. reflexivity.
    + rewrite app_length. cbn [length]. lia.
    + cbn [length] in M. lia.
    + intros Q. specialize (P Q). inversion P; assumption.
    + pose proof (read_put h b _ (length a) s v B ltac:(rewrite app_length; cbn [length]; lia) R) as RP.
      rewrite upd_mid in RP. exact RP.
Qed.

Lemma array_init_zero h p off s : array_init V pod h p off 0 s = Done h.
Proof. reflexivity. Qed.

(** Sources that do not live in block [b]. *)
Definition reads_out h (b : nat) s (v : V) : Prop :=
  read_src h s = Done v /\ forall off, s <> SRef b off.

Lemma reads_out_upd h b x s v : reads_out h b s v -> reads_out (upd h b x) b s v.
Proof. intros [R N]. split; [apply read_other; assumption | exact N]. Qed.

Lemma array_copy_init_ok srcs : forall vs h b a mid z off,
  block h b (a ++ mid ++ z) -> length a = N.to_nat off -> length mid = length vs ->
  (pod = false -> Forall (eq Raw) mid) -> Forall2 (reads_out h b) srcs vs ->
  array_copy_init V pod h srcs (Some b) off = Done (upd h b (Some (a ++ map Live vs ++ z))).
Proof.
  induction srcs as [|s srcs IH]; intros vs h b a mid z off B L M P F.
  - inversion F; subst. destruct mid; [|discriminate M]. cbn [array_copy_init map app] in *. f_equal.
    symmetry. apply upd_same, B.
  - inversion F as [|s' v srcs' vs' RO F' E1 E2]; subst. destruct mid as [|x mid]; [discriminate M|].
    cbn [array_copy_init]. destruct RO as [R NR]. rewrite R. cbn [obind]. cbn [app] in B.
    rewrite (construct_ok h b a x (mid ++ z) off v B L) by (intros Q; specialize (P Q); inversion P; congruence).
    cbn [obind].
    assert (B2 : block (upd h b (Some (a ++ Live v :: mid ++ z))) b ((a ++ [Live v]) ++ mid ++ z)).
    { rewrite <- app_assoc. eapply block_upd, B. }
    rewrite (IH vs' _ b (a ++ [Live v]) mid z (off + 1)%N B2).
    + rewrite upd_upd, <- app_assoc. reflexivity.
    + rewrite app_length. cbn [length]. lia.
    + cbn [length] in M. lia.
    + intros Q. specialize (P Q). inversion P; assumption.
    + eapply Forall2_imp; [|exact F']. intros y w. apply reads_out_upd.
Qed.

Lemma destruct_ok h b a v z off : block h b (a ++ Live v :: z) -> length a = N.to_nat off ->
  destruct V h (Some b) off = Done (upd h b (Some (a ++ Raw :: z))).
Proof.
  intros H L. unfold destruct. rewrite (slot_at_ok h b _ off (Live v) H) by (rewrite <- L; apply nth_mid).
  cbn [obind]. rewrite (slot_put_ok h b _ off _ H) by (rewrite app_length; cbn [length]; lia).
  rewrite <- L, upd_mid. reflexivity.
Qed.

Lemma array_destroy_loop_ok l : forall h b a z off,
  block h b (a ++ map Live l ++ z) -> length a = N.to_nat off ->
  array_destroy_loop V h (Some b) off (length l) = Done (upd h b (Some (a ++ repeat Raw (length l) ++ z))).
Proof.
  induction l as [|v l IH]; intros h b a z off B L.
  - cbn [array_destroy_loop length map repeat app] in *. f_equal. symmetry. apply upd_same, B.
  - cbn [array_destroy_loop length map app] in *.
    rewrite (destruct_ok h b a v _ off B L). cbn [obind].
    assert (B2 : block (upd h b (Some (a ++ Raw :: map Live l ++ z))) b ((a ++ [Raw]) ++ map Live l ++ z)).
    { rewrite <- app_assoc. eapply block_upd, B. }
    rewrite (IH _ b (a ++ [Raw]) z (off + 1)%N B2).
    + rewrite upd_upd, <- app_assoc. reflexivity.
    + rewrite app_length. cbn [length]. lia.
Qed.

(** What destroying leaves behind: raw memory, or for POD types the values. *)
Definition husk (l : list V) : list slot := if pod then map Live l else repeat Raw (length l).

Lemma husk_length l : length (husk l) = length l.
Proof. unfold husk. destruct pod; [apply map_length | apply repeat_length]. Qed.

Lemma husk_raw l : pod = false -> Forall (eq Raw) (husk l).
Proof.
  intros E. unfold husk. rewrite E. apply Forall_forall. intros x H. apply repeat_spec in H. congruence.
Qed.

Lemma array_destroy_ok l h b a z off :
  block h b (a ++ map Live l ++ z) -> length a = N.to_nat off ->
  array_destroy V pod h (Some b) off (length l) = Done (upd h b (Some (a ++ husk l ++ z))).
Proof.
  intros B L. unfold array_destroy, husk. destruct pod.
  - f_equal. symmetry. apply upd_same, B.
  - apply array_destroy_loop_ok; assumption.
Qed.

Lemma array_destroy_zero h p off : array_destroy V pod h p off 0 = Done h.
Proof. unfold array_destroy. destruct pod; reflexivity. Qed.

Lemma store_ok h b l k v : block h b (map Live l) -> N.to_nat k < length l ->
  store V pod h (Some b) k v = Done (upd h b (Some (map Live (upd l (N.to_nat k) v)))).
Proof.
  intros B K. unfold store. destruct (nth_error l (N.to_nat k)) as [x|] eqn:E; [|apply nth_error_None in E; lia].
  rewrite (slot_at_ok h b _ k (Live x) B) by (rewrite nth_error_map, E; reflexivity).
  cbn [obind]. rewrite (slot_put_ok h b _ k _ B) by (rewrite map_length; exact K). rewrite map_upd. reflexivity.
Qed.

Lemma store_rest_ok h b l rest k v : block h b (map Live l ++ rest) -> N.to_nat k < length l ->
  store V pod h (Some b) k v = Done (upd h b (Some (map Live (upd l (N.to_nat k) v) ++ rest))).
Proof.
  intros B K. unfold store. destruct (nth_error l (N.to_nat k)) as [x|] eqn:E; [|apply nth_error_None in E; lia].
  rewrite (slot_at_ok h b _ k (Live x) B).
  - cbn [obind]. rewrite (slot_put_ok h b _ k _ B) by (rewrite app_length, map_length; lia).
    rewrite upd_app by (rewrite map_length; exact K). rewrite map_upd. reflexivity.
  - rewrite nth_error_app1 by (rewrite map_length; exact K). rewrite nth_error_map, E. reflexivity.
Qed.

Lemma fill_loop_ok n : forall h b l off stride s v,
  block h b (map Live l) -> (forall t, t < n -> N.to_nat off + t * N.to_nat stride < length l) ->
  read_src h s = Done v ->
  fill_loop V pod h (Some b) off stride n s =
  Done (upd h b (Some (map Live (fillp V l (N.to_nat off) (N.to_nat stride) n v)))).
Proof.
  induction n as [|n IH]; intros h b l off stride s v B H R.
  - cbn [fill_loop fillp]. f_equal. symmetry. apply upd_same, B.
  - cbn [fill_loop fillp]. rewrite R. cbn [obind].
    assert (K : N.to_nat off < length l) by (specialize (H 0 ltac:(lia)); lia).
    rewrite (store_ok h b l off v B K). cbn [obind].
    rewrite (IH _ b (upd l (N.to_nat off) v) (off + stride)%N stride s v).
    + rewrite upd_upd, N2Nat.inj_add. reflexivity.
    + eapply block_upd, B.
    + intros t Ht. rewrite upd_length. specialize (H (S t) ltac:(lia)). lia.
    + pose proof (read_put h b _ (N.to_nat off) s v B ltac:(rewrite map_length; exact K) R) as RP.
      rewrite map_upd. exact RP.
Qed.

(** ** Iteration *)

(** [d] is null and nothing is stored, or [d] is a block of [n > 0] slots that
    starts with the elements [l]; the other slots of a non-POD block are raw. *)
Definition holds h (d : ptr) (n : nat) (l : list V) : Prop :=
  match d with
  | None => n = 0 /\ l = []
  | Some b => exists rest, block h b (map Live l ++ rest) /\ length l + length rest = n /\
                           (pod = false -> Forall (eq Raw) rest) /\ 0 < n
  end.

Lemma holds_load h d n l k v : holds h d n l -> nth_error l (N.to_nat k) = Some v ->
  load h d k = Done v.
Proof.
  intros H E. destruct d as [b|].
  - destruct H as (rest & B & _). eapply load_ok; [exact B|].
    rewrite nth_error_app1 by (rewrite map_length; eapply nth_lt, E).
    rewrite nth_error_map, E. reflexivity.
  - destruct H as [_ ->]. destruct (N.to_nat k); discriminate E.
Qed.

Lemma holds_block_length h d n l : holds h d n l -> block_length h d = n.
Proof.
  intros H. destruct d as [b|].
  - destruct H as (rest & B & L & _). cbn [block_length]. unfold block in B. rewrite B, app_length, map_length. exact L.
  - destruct H as [-> _]. reflexivity.
Qed.

(** An iteration visits the elements at distance [stride], [k] of them. *)
Lemma it_loop_ok k : forall h d n l off stride fuel vs,
  holds h d n l -> 0 < stride -> length vs = k -> k <= fuel ->
  (forall t, t < k -> nth_error l (off + t * stride) = nth_error vs t) ->
  it_loop h {| it_data := d; it_off := Z.of_nat off; it_stride := N.of_nat stride |}
    (Z.of_nat (off + k * stride)) fuel = Done vs.
Proof.
  induction k as [|k IH]; intros h d n l off stride fuel vs H S L F E.
  - destruct vs; [|discriminate L]. destruct fuel; cbn [it_loop it_off];
      destruct (Z.eqb_spec (Z.of_nat off) (Z.of_nat (off + 0 * stride))); try reflexivity; lia.
  - destruct vs as [|v vs]; [discriminate L|]. destruct fuel as [|fuel]; [lia|]. cbn [it_loop it_off].
    destruct (Z.eqb_spec (Z.of_nat off) (Z.of_nat (off + Datatypes.S k * stride))); [nia|].
    assert (LD : it_load h {| it_data := d; it_off := Z.of_nat off; it_stride := N.of_nat stride |} = Done v).
    { unfold it_load. cbn [it_off it_data]. destruct (Z.ltb_spec (Z.of_nat off) 0); [lia|].
      eapply holds_load; [exact H|]. specialize (E 0 ltac:(lia)). cbn [nth_error] in E. rewrite <- E. f_equal. lia. }
    rewrite LD. cbn [obind].
    replace (it_add {| it_data := d; it_off := Z.of_nat off; it_stride := N.of_nat stride |} 1)
      with {| it_data := d; it_off := Z.of_nat (off + stride); it_stride := N.of_nat stride |}
      by (unfold it_add; cbn [it_data it_off it_stride]; f_equal; lia).
    replace (Z.of_nat (off + Datatypes.S k * stride)) with (Z.of_nat ((off + stride) + k * stride)) by lia.
    rewrite (IH h d n l (off + stride) stride fuel vs H S); [reflexivity | | lia |].
    + cbn [length] in L. lia.
    + intros t Ht. specialize (E (Datatypes.S t) ltac:(lia)). cbn [nth_error] in E. rewrite <- E. f_equal. lia.
Qed.

End Memory.
