(** Lemmas about packets. *)
From Verif Require Import Base BaseProofs Packet PacketSpec PacketParts.
From Verif Require Buffer BufferSpec BufferProofs TagList TagListSpec TagListProofs.
From Coq Require Import ZifyBool ZifyNat ZifyN.

(** ** Worlds *)

Section World.
Context {BV : Type} (lo hi : bool).
Implicit Type w : world BV.
Notation safe := (BufferProofs.safe lo hi).

Definition live w (a : nat) (y : body) : Prop := nth_error (w_bodies w) a = Some (Some y).
Definition refers (a : nat) (p : option (option nat)) : bool :=
  match p with Some (Some b) => a =? b | _ => false end.
(** References to body [a]: variables, tags, and those in [T] of functions that run. *)
Definition refs w (T : list nat) (a : nat) : nat :=
  cnt (refers a) (w_vars w) + cnt (Nat.eqb a) (w_pins w) + cnt (Nat.eqb a) T.
Definition olist (p : option nat) : list nat := match p with Some a => [a] | None => [] end.

Record pinv (T : list nat) w : Prop := {
  p_buf : binv (w_buf w);
  p_safe : safe (w_buf w);
  p_bt : winv (w_bt w);
  p_pt : winv (w_pt w);
  p_lbt : length (TagList.w_lists (w_bt w)) = length (w_bodies w);
  p_lpt : length (TagList.w_lists (w_pt w)) = length (w_bodies w);
  p_live : forall a y, live w a y -> exists n xs ys, size_of (w_buf w) (y_buf y) = Some n /\
    full_of (w_bt w) a = Some (n, xs) /\ full_of (w_pt w) a = Some (n, ys);
  p_inj : forall a b y z, live w a y -> live w b z -> y_buf y = y_buf z -> a = b;
  p_rc : forall a y, live w a y -> y_rc y = refs w T a;
  p_dead : forall a, 0 < refs w T a -> exists y, live w a y;
  p_pos : forall a y, live w a y -> 0 < y_rc y;
  p_vals : TagListProofs.vals (fun v => forall c, v = Some c -> In c (w_pins w)) (TagList.w_heap (w_pt w))
}.

Definition view w (p : option nat) (s : list N) (xs : list (TagList.tag_index BV)) (ys : list (TagList.tag_index (option nat))) : Prop :=
  match p with
  | None => s = [] /\ xs = [] /\ ys = []
  | Some a => exists y, live w a y /\ bytes_of (w_buf w) (y_buf y) = Some s /\
      full_of (w_bt w) a = Some (length s, xs) /\ full_of (w_pt w) a = Some (length s, ys)
  end.

Definition same (C : Prop) w w' a k : Prop :=
  Buffer.var (w_buf w') k = Buffer.var (w_buf w) k /\ full_of (w_bt w') a = full_of (w_bt w) a /\
  full_of (w_pt w') a = full_of (w_pt w) a /\ (C -> bytes_of (w_buf w') k = bytes_of (w_buf w) k).
(** From [w] to [w'] only bodies in [X] change; those of buffers if [C]. *)
Record frame (C : Prop) (X : nat -> Prop) w w' : Prop := {
  fr_bodies : length (w_bodies w) <= length (w_bodies w');
  fr_bufs : length (Buffer.w_bufs (w_buf w)) <= length (Buffer.w_bufs (w_buf w'));
  fr_old : forall a y', a < length (w_bodies w) -> live w' a y' ->
    exists y, live w a y /\ y_buf y = y_buf y' /\ (~ X a -> same C w w' a (y_buf y));
  fr_user : forall k, k < length (Buffer.w_bufs (w_buf w)) -> owned w k = false ->
    owned w' k = false /\ Buffer.var (w_buf w') k = Buffer.var (w_buf w) k /\
    (C -> bytes_of (w_buf w') k = bytes_of (w_buf w) k)
}.

Lemma frame_refl C X w : frame C X w w.
Proof.
  split; auto. intros a y' _ L. exists y'. split; [exact L|]. split; [reflexivity|]. intros _. repeat split.
Qed.
Lemma frame_trans C X Y w1 w2 w3 : frame C X w1 w2 -> frame C Y w2 w3 -> frame C (fun a => X a \/ Y a) w1 w3.
Proof.
  intros F G. split.
  - pose proof (fr_bodies _ _ _ _ F). pose proof (fr_bodies _ _ _ _ G). lia.
  - pose proof (fr_bufs _ _ _ _ F). pose proof (fr_bufs _ _ _ _ G). lia.
  - intros a y3 La L3. pose proof (fr_bodies _ _ _ _ F). destruct (fr_old _ _ _ _ G a y3) as (y2 & L2 & E2 & S2); [lia|exact L3|].
    destruct (fr_old _ _ _ _ F a y2 La L2) as (y1 & L1 & E1 & S1). exists y1. split; [exact L1|]. split; [congruence|].
    intros N. destruct S1 as (A1 & A2 & A3 & A4); [tauto|]. destruct S2 as (B1 & B2 & B3 & B4); [tauto|]. rewrite <- E1 in *.
    repeat split; try congruence. intros c. rewrite B4, A4; auto.
  - intros k Hk O. pose proof (fr_bufs _ _ _ _ F). destruct (fr_user _ _ _ _ F k Hk O) as (O2 & V2 & C2).
    destruct (fr_user _ _ _ _ G k) as (O3 & V3 & C3); [lia|exact O2|]. split; [exact O3|]. split; [congruence|]. intros c. rewrite C3, C2; auto.
Qed.
Lemma frame_mono (C D : Prop) (X Y : nat -> Prop) w w' : frame C X w w' -> (D -> C) ->
  (forall a, X a -> Y a) -> frame D Y w w'.
Proof.
  intros F Hc Hx. split; try apply F.
  - intros a y' La L. destruct (fr_old _ _ _ _ F a y' La L) as (y & L1 & E & S1). exists y. split; [exact L1|]. split; [exact E|].
    intros N. destruct S1 as (A1 & A2 & A3 & A4); [auto|]. repeat split; auto.
  - intros k Hk O. destruct (fr_user _ _ _ _ F k Hk O) as (O2 & V2 & C2). auto.
Qed.

Lemma live_lt w a y : live w a y -> a < length (w_bodies w).
Proof. apply nth_lt. Qed.
Lemma live_fun w a y z : live w a y -> live w a z -> y = z.
Proof. unfold live. congruence. Qed.
Lemma get_body_ok w a y : live w a y -> get_body w a = Done y.
Proof. unfold live, get_body. intros ->. reflexivity. Qed.
Lemma owned_true w k : owned w k = true <-> exists a y, live w a y /\ y_buf y = k.
Proof.
  unfold owned. rewrite existsb_exists. split.
  - intros [[y|] [I E]]; [|discriminate]. apply In_nth_error in I. destruct I as [a Ha]. exists a, y. split; [exact Ha|]. lia.
  - intros (a & y & L & E). exists (Some y). split; [eapply nth_error_In, L|]. lia.
Qed.
Lemma owned_false w k : owned w k = false <-> forall a y, live w a y -> y_buf y <> k.
Proof.
  rewrite <- Bool.not_true_iff_false, owned_true. split.
  - intros N a y L E. apply N. eauto.
  - intros N (a & y & L & E). exact (N a y L E).
Qed.

Lemma view_some T w a y : pinv T w -> live w a y -> exists s xs ys, view w (Some a) s xs ys /\ bytes_of (w_buf w) (y_buf y) = Some s.
Proof.
  intros I L. destruct (p_live _ _ I a y L) as (n & xs & ys & E & F1 & F2). rewrite size_bytes in E by apply I.
  destruct (bytes_of (w_buf w) (y_buf y)) as [s|] eqn:B; [|discriminate]. injection E as <-.
  exists s, xs, ys. split; [|reflexivity]. exists y. auto.
Qed.
Lemma view_content w p s xs ys : view w p s xs ys ->
  content_at w p = Some (mk_pkt s (filter (touches (length s)) xs) (filter (touches (length s)) ys)).
Proof.
  destruct p as [a|]; cbn [view content_at].
  - intros (y & L & B & F1 & F2). unfold live in L. rewrite L, B, (full_some _ _ _ _ F1), (full_some _ _ _ _ F2). reflexivity.
  - intros (-> & -> & ->). reflexivity.
Qed.
Lemma view_frame C X w w' a s xs ys y' : frame C X w w' -> C -> ~ X a -> live w' a y' -> view w (Some a) s xs ys ->
  view w' (Some a) s xs ys.
Proof.
  intros F c N L' (y & L & B & F1 & F2). destruct (fr_old _ _ _ _ F a y' (live_lt _ _ _ L) L') as (z & Lz & E & S1).
  rewrite (live_fun _ _ _ _ Lz L) in *. destruct (S1 N) as (S2 & S3 & S4 & S5). exists y'. split; [exact L'|]. rewrite <- E, S3, S4, S5; auto.
Qed.

(** Assignments to variables and the list of tags' references. *)
Lemma pinv_move T T' w w' : pinv T w -> w_buf w' = w_buf w -> w_bt w' = w_bt w -> w_pt w' = w_pt w -> w_bodies w' = w_bodies w ->
  incl (w_pins w) (w_pins w') -> (forall a, refs w' T' a = refs w T a) -> pinv T' w'.
Proof.
  intros I E1 E2 E3 E4 P R. destruct I. split; unfold live in *; rewrite ?E1, ?E2, ?E3, ?E4; auto.
  - intros a y L. rewrite R. auto.
  - intros a. rewrite R. auto.
  - eapply TagListProofs.vals_mono; [|exact p_vals0]. cbn. intros v H c Hc. auto.
Qed.
Lemma frame_vars C X w w' : w_buf w' = w_buf w -> w_bt w' = w_bt w -> w_pt w' = w_pt w -> w_bodies w' = w_bodies w -> frame C X w w'.
Proof.
  intros E1 E2 E3 E4. unfold live. split.
  - rewrite E4. lia.
  - rewrite E1. lia.
  - unfold live. rewrite E4. intros a y' _ L. exists y'. split; [exact L|]. split; [reflexivity|]. unfold same. rewrite E1, E2, E3. auto.
  - intros k _ O. unfold owned in *. rewrite E4, E1. auto.
Qed.
Lemma cnt_olist a p : cnt (Nat.eqb a) (olist p) = b2n (refers a (Some p)).
Proof. destruct p as [b|]; cbn; unfold cnt; cbn; [destruct (a =? b); reflexivity|reflexivity]. Qed.
Lemma var_nth w i p : var w i = Some p <-> nth_error (w_vars w) i = Some (Some p).
Proof. unfold var. destruct (nth_error (w_vars w) i) as [[q|]|]; split; congruence. Qed.
Lemma refs_set_var w i p q T : var w i = Some p -> forall a, refs (set_var w i (Some q)) (olist p ++ T) a = refs w (olist q ++ T) a.
Proof.
  intros V a. apply var_nth in V. unfold refs, set_var, set_vars. cbn [w_vars w_pins]. rewrite !BufferProofs.cnt_app, !cnt_olist.
  pose proof (BufferProofs.cnt_upd (refers a) _ _ _ (Some q) V). lia.
Qed.
Lemma set_var_ok w i p q T : pinv (olist q ++ T) w -> var w i = Some p -> pinv (olist p ++ T) (set_var w i (Some q)).
Proof.
  intros I V. eapply pinv_move; [exact I|..]; try reflexivity; [apply incl_refl|]. apply refs_set_var, V.
Qed.
Lemma drop_var_ok w i p T : pinv T w -> var w i = Some p -> pinv (olist p ++ T) (set_var w i None).
Proof.
  intros I V. eapply pinv_move; [exact I|..]; try reflexivity; [apply incl_refl|]. intros a. apply var_nth in V.
  unfold refs, set_var, set_vars. cbn [w_vars w_pins]. rewrite !BufferProofs.cnt_app, !cnt_olist.
  pose proof (BufferProofs.cnt_upd (refers a) _ _ _ None V). cbn [refers b2n] in *. lia.
Qed.
Lemma add_var_ok w q T : pinv (olist q ++ T) w -> pinv T (add_var w q).
Proof.
  intros I. eapply pinv_move; [exact I|..]; try reflexivity; [apply incl_refl|]. intros a.
  unfold refs, add_var, set_vars. cbn [w_vars w_pins]. rewrite !BufferProofs.cnt_app, !cnt_olist. unfold cnt at 2. cbn [filter length].
  destruct (refers a (Some q)); cbn; lia.
Qed.
Lemma pins_ok w q T : pinv (olist q ++ T) w -> pinv T (set_pins w (match q with Some c => c :: w_pins w | None => w_pins w end)).
Proof.
  intros I. eapply pinv_move; [exact I|..]; try reflexivity.
  - destruct q; cbn; [apply incl_tl|]; apply incl_refl.
  - intros a. unfold refs, set_pins. cbn [w_vars w_pins]. rewrite !BufferProofs.cnt_app, !cnt_olist. destruct q as [c|]; cbn; unfold cnt; cbn; [destruct (a =? c); cbn|]; lia.
Qed.

(** References *)
Lemma var_live T w i a : pinv T w -> var w i = Some (Some a) -> exists y, live w a y.
Proof.
  intros I V. apply (p_dead _ _ I). apply var_nth in V. unfold refs.
  pose proof (BufferProofs.cnt_one (refers a) _ _ _ V (Nat.eqb_refl a)). lia.
Qed.
Lemma pin_live T w a : pinv T w -> In a (w_pins w) -> exists y, live w a y.
Proof.
  intros I V. apply (p_dead _ _ I). apply In_nth_error in V. destruct V as [i V]. unfold refs.
  pose proof (BufferProofs.cnt_one (Nat.eqb a) _ _ _ V (Nat.eqb_refl a)). lia.
Qed.
Lemma temp_live T w a : pinv T w -> In a T -> exists y, live w a y.
Proof.
  intros I V. apply (p_dead _ _ I). apply In_nth_error in V. destruct V as [i V]. unfold refs.
  pose proof (BufferProofs.cnt_one (Nat.eqb a) _ _ _ V (Nat.eqb_refl a)). lia.
Qed.

Lemma put_live w a y b z : live (put_body w a (Some y)) b z <->
  (a = b /\ a < length (w_bodies w) /\ z = y) \/ (a <> b /\ live w b z).
Proof.
  unfold live, put_body, set_bodies. cbn [w_bodies]. rewrite nth_upd.
  destruct (Nat.eqb_spec a b) as [->|N]; cbn [andb]; [|tauto]. destruct (Nat.ltb_spec b (length (w_bodies w))) as [L|L].
  - split; [intros E; injection E as <-; auto|]. intros [(_ & _ & ->)|[N _]]; [reflexivity|congruence].
  - rewrite (proj2 (nth_error_None _ _)) by exact L. split; [discriminate|]. intros [(_ & H & _)|[N _]]; [lia|congruence].
Qed.
(** A change of a reference count. *)
Lemma put_rc_ok T T' w a y n : pinv T w -> live w a y -> 0 < n -> n = refs w T' a -> (forall b, b <> a -> refs w T' b = refs w T b) ->
  pinv T' (put_body w a (Some (mk_body n (y_buf y)))) /\ frame True (fun _ => False) w (put_body w a (Some (mk_body n (y_buf y)))).
Proof.
  intros I L Hn En Hb. pose proof (live_lt _ _ _ L) as Lt.
  assert (Lv : forall b z, live (put_body w a (Some (mk_body n (y_buf y)))) b z -> exists z', live w b z' /\ y_buf z' = y_buf z).
  { intros b z H. apply put_live in H. destruct H as [(<- & _ & ->)|[N H]]; [exists y|exists z]; auto. }
  split.
  - assert (R : forall b, refs (put_body w a (Some (mk_body n (y_buf y)))) T' b = refs w T' b) by reflexivity.
    pose proof (p_live _ _ I) as P1. pose proof (p_inj _ _ I) as P2. pose proof (p_rc _ _ I) as P3. pose proof (p_dead _ _ I) as P4. pose proof (p_pos _ _ I) as P5.
    split; try apply I.
    + unfold put_body, set_bodies. cbn. rewrite upd_length. apply I.
    + unfold put_body, set_bodies. cbn. rewrite upd_length. apply I.
    + intros b z H. destruct (Lv b z H) as (z' & H' & <-). apply P1, H'.
    + intros b c z v H1 H2. destruct (Lv _ _ H1) as (z' & H1' & <-), (Lv _ _ H2) as (v' & H2' & <-). apply (P2 _ _ _ _ H1' H2').
    + intros b z H. rewrite R. apply put_live in H. destruct H as [(<- & _ & ->)|[N H]]; [exact En|]. rewrite Hb by auto. apply P3, H.
    + intros b. rewrite R. intros H. destruct (Nat.eq_dec b a) as [->|N].
      * exists (mk_body n (y_buf y)). apply put_live. auto.
      * rewrite Hb in H by exact N. destruct (P4 b H) as [z Hz]. exists z. apply put_live. auto.
    + intros b z H. apply put_live in H. destruct H as [(<- & _ & ->)|[N H]]; [exact Hn|]. apply (P5 b z H).
  - split; auto.
    + unfold put_body, set_bodies. cbn. rewrite upd_length. lia.
    + intros b z _ H. destruct (Lv b z H) as (z' & H' & E). exists z'. split; [exact H'|]. split; [exact E|]. repeat split.
    + intros k Hk O. split; [|auto]. rewrite owned_false in *. intros b z H. destruct (Lv b z H) as (z' & H' & <-). apply (O b z' H').
Qed.

Lemma refs_cons w T a b : refs w (a :: T) b = refs w T b + b2n (b =? a).
Proof. unfold refs. change (a :: T) with (olist (Some a) ++ T). rewrite BufferProofs.cnt_app, cnt_olist. cbn [refers]. lia. Qed.
Lemma add_ref_ok T w p : pinv T w -> (forall a, p = Some a -> exists y, live w a y) ->
  wp (add_ref p w) (fun w' => pinv (olist p ++ T) w' /\ frame True (fun _ => False) w w' /\ w_vars w' = w_vars w /\ w_pins w' = w_pins w).
Proof.
  intros I H. destruct p as [a|]; cbn [add_ref olist app]; [|split; [exact I|]; split; [apply frame_refl|auto]].
  destruct (H a eq_refl) as [y L]. rewrite (get_body_ok _ _ _ L). cbn [obind wp].
  destruct (put_rc_ok T (a :: T) w a y (S (y_rc y)) I L) as [I' F]; [lia| | |].
  - rewrite refs_cons, Nat.eqb_refl, (p_rc _ _ I a y L). cbn. lia.
  - intros b N. rewrite refs_cons. destruct (Nat.eqb_spec b a); [congruence|]. cbn. lia.
  - auto.
Qed.

(** Statements on components. *)
Definition with_buf w b : world BV := mk_world b (w_bt w) (w_pt w) (w_bodies w) (w_vars w) (w_pins w).
Definition with_bt w t : world BV := mk_world (w_buf w) t (w_pt w) (w_bodies w) (w_vars w) (w_pins w).
Definition with_pt w t : world BV := mk_world (w_buf w) (w_bt w) t (w_bodies w) (w_vars w) (w_pins w).
Lemma buf_bind {A} junk o w (f : world BV -> outcome A) P Q : wp (Buffer.step junk o (w_buf w)) Q ->
  (forall b, Q b -> wp (f (with_buf w b)) P) -> wp (obind (on_buf junk o w) f) P.
Proof. unfold on_buf. destruct (Buffer.step junk o (w_buf w)); cbn; auto. intros q F. apply F, q. Qed.
Lemma bt_bind {A} o w (f : world BV -> outcome A) P Q : wp (TagList.step o (w_bt w)) Q ->
  (forall t, Q t -> wp (f (with_bt w t)) P) -> wp (obind (on_bt o w) f) P.
Proof. unfold on_bt. destruct (TagList.step o (w_bt w)); cbn; auto. intros q F. apply F, q. Qed.
Lemma pt_bind {A} o w (f : world BV -> outcome A) P Q (R : option nat -> Prop) : wp (TagList.step o (w_pt w)) Q ->
  TagListProofs.vals R (TagList.w_heap (w_pt w)) -> TagListProofs.new_value R o ->
  (forall t, Q t -> TagListProofs.vals R (TagList.w_heap t) -> wp (f (with_pt w t)) P) -> wp (obind (on_pt o w) f) P.
Proof.
  unfold on_pt. intros q V N F. destruct (TagList.step o (w_pt w)) eqn:E; cbn in *; auto. apply F; [exact q|]. eapply TagListProofs.vals_step; eauto.
Qed.
Lemma on_buf_id junk o w : on_buf junk o w = obind (on_buf junk o w) Done.
Proof. destruct (on_buf junk o w); reflexivity. Qed.
Lemma on_bt_id o w : on_bt o w = obind (on_bt o w) Done.
Proof. destruct (on_bt o w); reflexivity. Qed.
Lemma on_pt_id o w : on_pt o w = obind (on_pt o w) Done.
Proof. destruct (on_pt o w); reflexivity. Qed.

Lemma delete_ok junk T w a y : pinv (a :: T) w -> live w a y -> y_rc y = 1 ->
  wp (delete_body junk a y w) (fun w' => pinv T w' /\ frame True (fun _ => False) w w' /\ w_vars w' = w_vars w /\ w_pins w' = w_pins w).
Proof.
  intros I L R1. unfold delete_body. destruct (p_live _ _ I a y L) as (n & xs & ys & Sz & F1 & F2).
  assert (R0 : refs w T a = 0).
  { pose proof (p_rc _ _ I a y L) as R. rewrite refs_cons, Nat.eqb_refl in R. cbn in R. lia. }
  rewrite size_bytes in Sz by apply I. destruct (bytes_of (w_buf w) (y_buf y)) as [s|] eqn:B; [|discriminate].
  eapply pt_bind; [apply (tag_destroy a _ _ (p_pt _ _ I) F2)|apply I|exact Logic.I|]. intros t2 (W2 & L2 & K2) V2.
  eapply bt_bind; [apply (tag_destroy a _ _ (p_bt _ _ I) F1)|]. intros t1 (W1 & L1 & K1).
  eapply buf_bind; [apply (buf_destroy lo hi junk _ _ s (p_buf _ _ I) (p_safe _ _ I) B)|]. intros b (Ib & Sb & Lb & Kb).
  cbn [wp]. set (w' := put_body _ a None).
  assert (Lv : forall c z, live w' c z <-> c <> a /\ live w c z).
  { intros c z. unfold live, w', put_body, set_bodies. cbn. rewrite nth_upd. destruct (Nat.eqb_spec a c) as [<-|N]; cbn [andb].
    - rewrite (proj2 (Nat.ltb_lt _ _) (live_lt _ _ _ L)). split; [discriminate|]. intros [N _]. congruence.
    - split; [auto|tauto]. }
  assert (Nb : forall c z, live w' c z -> y_buf z <> y_buf y).
  { intros c z H E. apply Lv in H. destruct H as [N H]. apply N. symmetry. apply (p_inj _ _ I _ _ _ _ L H). auto. }
  assert (R : forall c, c <> a -> refs w' T c = refs w (a :: T) c).
  { intros c N. rewrite refs_cons. destruct (Nat.eqb_spec c a); [congruence|]. cbn. rewrite Nat.add_0_r. reflexivity. }
  split; [|split; [|auto]].
  - split; auto.
    + unfold w', put_body, set_bodies. cbn. rewrite upd_length, L1. apply I.
    + unfold w', put_body, set_bodies. cbn. rewrite upd_length, L2. apply I.
    + intros c z H. pose proof (Nb c z H) as N. apply Lv in H. destruct H as [Nc H]. destruct (p_live _ _ I c z H) as (m & us & vs & Q1 & Q2 & Q3).
      exists m, us, vs. unfold w'. cbn. unfold size_of. rewrite (proj1 (Kb _ N)), K1, K2 by auto. auto.
    + intros c d z v H1 H2. apply Lv in H1, H2. destruct H1 as [_ H1], H2 as [_ H2]. apply (p_inj _ _ I _ _ _ _ H1 H2).
    + intros c z H. apply Lv in H. destruct H as [N H]. rewrite R by exact N. apply (p_rc _ _ I c z H).
    + intros c H. destruct (Nat.eq_dec c a) as [->|N]; [change (refs w' T a) with (refs w T a) in H; lia|].
      rewrite R in H by exact N. destruct (p_dead _ _ I c H) as [z Hz]. exists z. apply Lv. auto.
    + intros c z H. apply Lv in H. apply (p_pos _ _ I c z), H.
  - split.
    + unfold w', put_body, set_bodies. cbn. rewrite upd_length. lia.
    + unfold w'. cbn. lia.
    + intros c z _ H. pose proof (Nb c z H) as N. apply Lv in H. destruct H as [Nc H]. exists z. split; [exact H|]. split; [reflexivity|].
      intros _. unfold same, w'. cbn. destruct (Kb _ N) as [-> ->]. rewrite K1, K2 by auto. auto.
    + intros k _ O. rewrite owned_false in O. split.
      * apply owned_false. intros c z H. apply Lv in H. apply (O c z), H.
      * unfold w'. cbn. assert (N : k <> y_buf y) by (intros ->; apply (O a y L); reflexivity). destruct (Kb _ N) as [-> ->]. auto.
Qed.
Lemma release_ok junk T w p : pinv (olist p ++ T) w ->
  wp (release junk p w) (fun w' => pinv T w' /\ frame True (fun _ => False) w w' /\ w_vars w' = w_vars w /\ w_pins w' = w_pins w).
Proof.
  intros I. destruct p as [a|]; cbn [release olist app] in *; [|split; [exact I|]; split; [apply frame_refl|auto]].
  destruct (temp_live _ _ a I) as [y L]; [left; reflexivity|]. rewrite (get_body_ok _ _ _ L). cbn [obind].
  pose proof (p_rc _ _ I a y L) as R. rewrite refs_cons, Nat.eqb_refl in R. cbn [b2n] in R.
  destruct (y_rc y) as [|[|n]] eqn:E; [lia| |].
  - apply delete_ok; auto.
  - cbn [wp]. destruct (put_rc_ok (a :: T) T w a y (S n) I L) as [I' F]; [lia|lia| |auto].
    intros b N. rewrite refs_cons. destruct (Nat.eqb_spec b a); [congruence|]. cbn. lia.
Qed.

(** New bodies *)
Lemma fresh_refs T w : pinv T w -> refs w T (length (w_bodies w)) = 0.
Proof.
  intros I. destruct (Nat.eq_0_gt_0_cases (refs w T (length (w_bodies w)))) as [E|H]; [exact E|].
  destruct (p_dead _ _ I _ H) as [y L]. apply live_lt in L. lia.
Qed.
Lemma fresh_ok T w b t1 t2 s xs ys : pinv T w ->
  binv b -> safe b -> length (Buffer.w_bufs b) = S (length (Buffer.w_bufs (w_buf w))) ->
  (forall j, j < length (Buffer.w_bufs (w_buf w)) -> Buffer.var b j = Buffer.var (w_buf w) j /\ bytes_of b j = bytes_of (w_buf w) j) ->
  bytes_of b (length (Buffer.w_bufs (w_buf w))) = Some s ->
  winv t1 -> length (TagList.w_lists t1) = S (length (TagList.w_lists (w_bt w))) ->
  (forall j, j < length (TagList.w_lists (w_bt w)) -> full_of t1 j = full_of (w_bt w) j) ->
  full_of t1 (length (TagList.w_lists (w_bt w))) = Some (length s, xs) ->
  winv t2 -> length (TagList.w_lists t2) = S (length (TagList.w_lists (w_pt w))) ->
  (forall j, j < length (TagList.w_lists (w_pt w)) -> full_of t2 j = full_of (w_pt w) j) ->
  full_of t2 (length (TagList.w_lists (w_pt w))) = Some (length s, ys) ->
  TagListProofs.vals (fun v => forall c, v = Some c -> In c (w_pins w)) (TagList.w_heap t2) ->
  let w' := mk_world b t1 t2 (w_bodies w ++ [Some (mk_body 1 (length (Buffer.w_bufs (w_buf w))))]) (w_vars w) (w_pins w) in
  pinv (length (w_bodies w) :: T) w' /\ frame True (fun _ => False) w w' /\
  live w' (length (w_bodies w)) (mk_body 1 (length (Buffer.w_bufs (w_buf w)))) /\
  view w' (Some (length (w_bodies w))) s xs ys /\
  (forall a y, live w a y -> live w' a y).
Proof.
  intros I Ib Sb Lb Kb Bb W1 L1 K1 F1 W2 L2 K2 F2 V2 w'.
  pose proof (p_lbt _ _ I) as E1. pose proof (p_lpt _ _ I) as E2.
  assert (Lv : forall c z, live w' c z -> live w c z \/ (c = length (w_bodies w) /\ z = mk_body 1 (length (Buffer.w_bufs (w_buf w))))).
  { intros c z H. unfold live, w' in H. cbn in H. destruct (Nat.lt_ge_cases c (length (w_bodies w))).
    - rewrite nth_error_app1 in H by assumption. auto.
    - rewrite nth_error_app2 in H by assumption. destruct (c - length (w_bodies w)) as [|m] eqn:D; cbn in H.
      + injection H as <-. right. split; [lia|reflexivity].
      + destruct m; discriminate. }
  assert (Lo : forall c z, live w c z -> live w' c z).
  { intros c z H. unfold live, w'. cbn. rewrite nth_error_app1 by apply (live_lt _ _ _ H). exact H. }
  assert (Ln : live w' (length (w_bodies w)) (mk_body 1 (length (Buffer.w_bufs (w_buf w))))).
  { unfold live, w'. cbn. rewrite nth_error_app2, Nat.sub_diag by lia. reflexivity. }
  assert (Lk : forall c z, live w c z -> y_buf z < length (Buffer.w_bufs (w_buf w))).
  { intros c z H. destruct (p_live _ _ I c z H) as (m & us & vs & Q & _). unfold size_of, Buffer.var in Q.
    destruct (nth_error (Buffer.w_bufs (w_buf w)) (y_buf z)) eqn:E; [|discriminate]. apply nth_lt in E. exact E. }
  pose proof (fresh_refs _ _ I) as R0.
  split; [|split; [|split; [exact Ln|split; [|exact Lo]]]].
  - split; auto.
    + unfold w'. cbn. rewrite app_length. cbn. lia.
    + unfold w'. cbn. rewrite app_length. cbn. lia.
    + intros c z H. apply Lv in H. destruct H as [H|[-> ->]].
      * destruct (p_live _ _ I c z H) as (m & us & vs & Q1 & Q2 & Q3). pose proof (live_lt _ _ _ H).
        exists m, us, vs. unfold w'. cbn. unfold size_of. rewrite (proj1 (Kb _ (Lk _ _ H))), K1, K2 by lia. auto.
      * exists (length s), xs, ys. unfold w'. cbn. rewrite size_bytes, Bb by exact Ib. rewrite <- E1, F1, E1, <- E2, F2. auto.
    + intros c d z v H1 H2 E. apply Lv in H1, H2. destruct H1 as [H1|[-> ->]], H2 as [H2|[-> ->]]; [|cbn in E; pose proof (Lk _ _ H1); lia|cbn in E; pose proof (Lk _ _ H2); lia|reflexivity].
      apply (p_inj _ _ I _ _ _ _ H1 H2 E).
    + intros c z H. rewrite refs_cons. change (refs w' T c) with (refs w T c). apply Lv in H. destruct H as [H|[-> ->]].
      * pose proof (live_lt _ _ _ H). destruct (Nat.eqb_spec c (length (w_bodies w))); [lia|]. cbn. rewrite Nat.add_0_r. apply (p_rc _ _ I c z H).
      * rewrite Nat.eqb_refl, R0. reflexivity.
    + intros c. rewrite refs_cons. change (refs w' T c) with (refs w T c). destruct (Nat.eqb_spec c (length (w_bodies w))) as [->|N].
      * intros _. eexists. exact Ln.
      * cbn. rewrite Nat.add_0_r. intros H. destruct (p_dead _ _ I c H) as [z Hz]. exists z. apply Lo, Hz.
    + intros c z H. apply Lv in H. destruct H as [H|[-> ->]]; [apply (p_pos _ _ I c z H)|cbn; lia].
  - split.
    + unfold w'. cbn. rewrite app_length. lia.
    + unfold w'. cbn. lia.
    + intros c z Hc H. apply Lv in H. destruct H as [H|[-> _]]; [|lia]. exists z. split; [exact H|]. split; [reflexivity|].
      intros _. unfold same, w'. cbn. destruct (Kb _ (Lk _ _ H)) as [-> ->]. rewrite K1, K2 by lia. auto.
    + intros k Hk O. rewrite owned_false in O. split.
      * apply owned_false. intros c z H. apply Lv in H. destruct H as [H|[-> ->]]; [apply (O c z H)|cbn; lia].
      * unfold w'. cbn. destruct (Kb _ Hk) as [-> ->]. auto.
  - exists (mk_body 1 (length (Buffer.w_bufs (w_buf w)))). split; [exact Ln|]. unfold w'. cbn. rewrite <- E1 at 1. rewrite <- E2. auto.
Qed.

Lemma new_body_ok junk T w : pinv T w -> wp (new_body junk w) (fun r => let w' := fst r in let a := snd r in
  a = length (w_bodies w) /\ pinv (a :: T) w' /\ frame True (fun _ => False) w w' /\ w_vars w' = w_vars w /\ w_pins w' = w_pins w /\
  live w' a (mk_body 1 (length (Buffer.w_bufs (w_buf w)))) /\ view w' (Some a) [] [] [] /\ (forall a y, live w a y -> live w' a y)).
Proof.
  intros I. unfold new_body.
  eapply buf_bind; [apply (buf_create lo hi junk (Buffer.New 0) _ [] (p_buf _ _ I) (p_safe _ _ I)); left; auto|]. intros b (Ib & Sb & Lb & Kb & Bb).
  eapply bt_bind; [apply (tag_new _ (p_bt _ _ I))|]. intros t1 (W1 & L1 & K1 & F1).
  eapply pt_bind; [apply (tag_new _ (p_pt _ _ I))|apply I|exact Logic.I|]. intros t2 (W2 & L2 & K2 & F2) V2.
  cbn [wp fst snd].
  destruct (fresh_ok T w b t1 t2 [] [] [] I) as (Q1 & Q2 & Q3 & Q4 & Q5); auto. { apply Sb. left. exact Logic.I. }
  exact (conj eq_refl (conj Q1 (conj Q2 (conj eq_refl (conj eq_refl (conj Q3 (conj Q4 Q5))))))).
Qed.
Lemma copy_body_ok junk T w a y s xs ys : pinv T w -> live w a y -> view w (Some a) s xs ys ->
  wp (copy_body junk a y w) (fun r => let w' := fst r in let a' := snd r in
  a' = length (w_bodies w) /\ pinv (a' :: T) w' /\ frame True (fun _ => False) w w' /\ w_vars w' = w_vars w /\ w_pins w' = w_pins w /\
  live w' a' (mk_body 1 (length (Buffer.w_bufs (w_buf w)))) /\ view w' (Some a') s xs ys /\ (forall a y, live w a y -> live w' a y)).
Proof.
  intros I L (z & Lz & B & F1 & F2). rewrite (live_fun _ _ _ _ Lz L) in B. clear z Lz. unfold copy_body.
  eapply buf_bind; [apply (buf_create lo hi junk (Buffer.Copy (y_buf y)) _ s (p_buf _ _ I) (p_safe _ _ I)); right; exists (y_buf y), s; split; [exact B|left; auto]|]. intros b (Ib & Sb & Lb & Kb & Bb).
  eapply bt_bind; [apply (tag_copy a _ _ (p_bt _ _ I) F1)|]. intros t1 (W1 & L1 & K1 & G1).
  eapply pt_bind; [apply (tag_copy a _ _ (p_pt _ _ I) F2)|apply I|exact Logic.I|]. intros t2 (W2 & L2 & K2 & G2) V2.
  cbn [wp fst snd].
  destruct (fresh_ok T w b t1 t2 s xs ys I) as (Q1 & Q2 & Q3 & Q4 & Q5); auto. { apply Sb. left. exact Logic.I. }
  exact (conj eq_refl (conj Q1 (conj Q2 (conj eq_refl (conj eq_refl (conj Q3 (conj Q4 Q5))))))).
Qed.

Lemma make_private_ok junk T w i p s xs ys : pinv T w -> var w i = Some p -> view w p s xs ys ->
  wp (make_private junk i p w) (fun r => let w' := fst r in let a := snd r in
  pinv T w' /\ frame True (fun _ => False) w w' /\ w_vars w' = upd (w_vars w) i (Some (Some a)) /\ w_pins w' = w_pins w /\
  refs w' T a = 1 /\ view w' (Some a) s xs ys /\ (p = Some a \/ length (w_bodies w) <= a)).
Proof.
  intros I V Vw. destruct p as [a|]; cbn [make_private].
  - destruct (var_live _ _ _ _ I V) as [y L]. rewrite (get_body_ok _ _ _ L). cbn [obind]. destruct (Nat.ltb_spec 1 (y_rc y)) as [R|R].
    + eapply wp_bind; [apply (copy_body_ok junk T w a y s xs ys I L Vw)|]. intros [w1 a'] (Ea & I1 & F1 & E1 & E2 & L1 & V1 & K1). cbn [fst snd] in *. subst a'.
      rewrite (get_body_ok _ _ _ (K1 _ _ L)). cbn [obind wp fst snd].
      assert (V2 : var w1 i = Some (Some a)) by (unfold var in *; rewrite E1; exact V).
      pose proof (set_var_ok w1 i (Some a) (Some (length (w_bodies w))) T I1 V2) as I2. cbn [olist app] in I2.
      set (w2 := set_var w1 i (Some (Some (length (w_bodies w))))) in *.
      assert (L2 : live w2 a y) by apply (K1 _ _ L).
      destruct (put_rc_ok (a :: T) T w2 a y (y_rc y - 1) I2 L2) as [I3 F3]; [lia| | |].
      { rewrite (p_rc _ _ I2 a y L2), refs_cons, Nat.eqb_refl. cbn. lia. }
      { intros b N. rewrite refs_cons. destruct (Nat.eqb_spec b a); [congruence|]. cbn. lia. }
      assert (N : a <> length (w_bodies w)) by (pose proof (live_lt _ _ _ L); lia).
      assert (L3 : live (put_body w2 a (Some (mk_body (y_rc y - 1) (y_buf y)))) (length (w_bodies w)) (mk_body 1 (length (Buffer.w_bufs (w_buf w))))).
      { apply put_live. right. split; [exact N|exact L1]. }
      split; [exact I3|]. split.
      { eapply frame_mono; [eapply frame_trans; [exact F1|eapply frame_trans; [apply (frame_vars True (fun _ => False) w1 w2); reflexivity|exact F3]]|auto|cbn; tauto]. }
      split; [unfold put_body, set_bodies, w2, set_var, set_vars; cbn; rewrite E1; reflexivity|]. split; [exact E2|]. split.
      { change (refs (put_body w2 a (Some (mk_body (y_rc y - 1) (y_buf y)))) T (length (w_bodies w)) = 1). rewrite <- (p_rc _ _ I3 _ _ L3). reflexivity. }
      split; [|right; lia]. destruct V1 as (z & Lz & B & G1 & G2). rewrite (live_fun _ _ _ _ Lz L1) in B.
      exists (mk_body 1 (length (Buffer.w_bufs (w_buf w)))). split; [exact L3|]. auto.
    + cbn [wp fst snd]. split; [exact I|]. split; [apply frame_refl|]. split; [symmetry; apply upd_same; apply var_nth, V|]. split; [reflexivity|].
      split; [|split; [exact Vw|auto]]. pose proof (p_pos _ _ I a y L). rewrite <- (p_rc _ _ I a y L). lia.
  - eapply wp_bind; [apply (new_body_ok junk T w I)|]. intros [w1 a] (Ea & I1 & F1 & E1 & E2 & L1 & V1 & _). cbn [fst snd wp] in *. subst a.
    assert (V2 : var w1 i = Some None) by (unfold var in *; rewrite E1; exact V).
    pose proof (set_var_ok w1 i None (Some (length (w_bodies w))) T I1 V2) as I2. cbn [olist app] in I2.
    split; [exact I2|]. split.
    { eapply frame_mono; [eapply frame_trans; [exact F1|apply (frame_vars True (fun _ => False)); reflexivity]|auto|cbn; tauto]. }
    split; [unfold set_var, set_vars; cbn; rewrite E1; reflexivity|]. split; [exact E2|].
    assert (L3 : live (set_var w1 i (Some (Some (length (w_bodies w))))) (length (w_bodies w)) (mk_body 1 (length (Buffer.w_bufs (w_buf w))))) by exact L1.
    split; [rewrite <- (p_rc _ _ I2 _ _ L3); reflexivity|]. cbn [view] in Vw. destruct Vw as (-> & -> & ->). split; [exact V1|auto].
Qed.

(** What [mutate] expects. *)
Definition eok w (a : nat) (y : body) (e : edit) (s t : list N) us vs : Prop :=
  (forall j, esrc e = Some j -> j <> y_buf y /\ bytes_of (w_buf w) j = Some t) /\
  (forall c, elist e = Some c -> c <> a /\ full_of (w_bt w) c = Some (length t, us) /\ full_of (w_pt w) c = Some (length t, vs)) /\
  match e with
  | EBufStart _ m | EBufEnd _ m => m = length t
  | ESet _ m => m = length t /\ s = []
  | _ => True
  end.
Lemma ebytes_length w a y e s t us vs x : eok w a y e s t us vs -> length x = elen e ->
  length (ebytes x t e s) = esize (length t) e (length s).
Proof.
  intros (_ & _ & H) L. destruct e; cbn in *; rewrite ?app_length, ?skipn_length; try lia.
  - unfold BufferSpec.drop_last. rewrite firstn_length. lia.
  - destruct H as [-> ->]. cbn. lia.
Qed.
Lemma mutate_ok junk T w a y e s xs ys t us vs : pinv T w -> live w a y -> view w (Some a) s xs ys -> eok w a y e s t us vs ->
  wp (mutate junk a (eb e) (et e a) (et e a) w) (fun w' =>
    pinv T w' /\ frame (eside lo hi e) (eq a) w w' /\ w_bodies w' = w_bodies w /\ w_vars w' = w_vars w /\ w_pins w' = w_pins w /\
    length (Buffer.w_bufs (w_buf w')) = length (Buffer.w_bufs (w_buf w)) /\
    Buffer.step junk (eb e (y_buf y)) (w_buf w) = Done (w_buf w') /\
    exists x xs' ys', length x = elen e /\ view w' (Some a) (ebytes x t e s) xs' ys' /\
      efull e (length s) xs (length t) us xs' /\ efull e (length s) ys (length t) vs ys' /\
      filter (touches (esize (length t) e (length s))) xs' = etags (length t) us e (length s) (filter (touches (length s)) xs) /\
      filter (touches (esize (length t) e (length s))) ys' = etags (length t) vs e (length s) (filter (touches (length s)) ys)).
Proof.
  intros I L (z & Lz & B & F1 & F2) Ok. rewrite (live_fun _ _ _ _ Lz L) in B. clear z Lz. unfold mutate.
  pose proof Ok as (Oj & Oc & _). rewrite (get_body_ok _ _ _ L). cbn [obind].
  assert (Wb : wp (Buffer.step junk (eb e (y_buf y)) (w_buf w)) (fun b' => Buffer.step junk (eb e (y_buf y)) (w_buf w) = Done b' /\
    binv b' /\ safe b' /\ length (Buffer.w_bufs b') = length (Buffer.w_bufs (w_buf w)) /\
    (forall j, j <> y_buf y -> Buffer.var b' j = Buffer.var (w_buf w) j) /\
    (eside lo hi e -> forall j, j <> y_buf y -> bytes_of b' j = bytes_of (w_buf w) j) /\
    exists x, length x = elen e /\ bytes_of b' (y_buf y) = Some (ebytes x t e s))).
  { pose proof (buf_edit lo hi junk e (y_buf y) (w_buf w) s (p_buf _ _ I) (p_safe _ _ I) B) as H.
    assert (Hj : forall j, esrc e = Some j -> j <> y_buf y /\ exists t, bytes_of (w_buf w) j = Some t).
    { intros j E. destruct (Oj j E) as [N Bj]. split; [exact N|]. exists t. exact Bj. }
    specialize (H Hj). destruct (Buffer.step junk (eb e (y_buf y)) (w_buf w)) as [b'| | |]; cbn [wp] in *; auto.
    destruct H as (Q1 & Q2 & Q3 & Q4 & Q5 & x & Q6 & Q7). repeat (split; [solve [auto]|]). exists x. split; [exact Q6|].
    rewrite Q7. f_equal. destruct e; cbn [ebytes esrc] in *; try reflexivity; rewrite (proj2 (Oj _ eq_refl)); reflexivity. }
  eapply buf_bind; [exact Wb|]. intros b (Hb & Ib & Sb & Lb & Vb & Kb & x & Lx & Bx). clear Wb.
  eapply bt_bind. { apply (tag_edit e a _ (length s) xs (length t) us (p_bt _ _ I) F1). intros c E. destruct (Oc c E) as (N & G1 & _). auto. }
  intros t1 (W1 & L1 & K1 & xs' & G1 & Fu1 & Fi1). rewrite on_pt_id.
  eapply pt_bind. { apply (tag_edit e a _ (length s) ys (length t) vs (p_pt _ _ I) F2). intros c E. destruct (Oc c E) as (N & _ & G2). auto. }
  { apply I. } { destruct e; exact Logic.I. }
  intros t2 (W2 & L2 & K2 & ys' & G2 & Fu2 & Fi2) V2. cbn [wp]. set (w' := with_pt _ t2).
  pose proof (ebytes_length _ _ _ _ _ _ _ _ x Ok Lx) as Le.
  assert (Nb : forall c z, live w c z -> c <> a -> y_buf z <> y_buf y).
  { intros c z H N E. apply N. apply (p_inj _ _ I _ _ _ _ H L E). }
  split; [|split; [|split; [reflexivity|split; [reflexivity|split; [reflexivity|split; [exact Lb|split; [exact Hb|]]]]]]].
  - split; auto.
    + unfold w'. cbn. rewrite L1. apply I.
    + unfold w'. cbn. rewrite L2. apply I.
    + intros c z H. change (live w c z) in H. destruct (Nat.eq_dec c a) as [->|N].
      * rewrite (live_fun _ _ _ _ H L). exists (length (ebytes x t e s)), xs', ys'. unfold w'. cbn. rewrite size_bytes, Bx by exact Ib. cbn [option_map]. rewrite G1, G2, Le. auto.
      * destruct (p_live _ _ I c z H) as (m & us' & vs' & Q1 & Q2 & Q3). exists m, us', vs'. unfold w'. cbn. unfold size_of.
        rewrite Vb, K1, K2 by eauto. auto.
    + apply (p_inj _ _ I).
    + apply (p_rc _ _ I).
    + apply (p_dead _ _ I).
    + apply (p_pos _ _ I).
  - split; auto.
    + unfold w'. cbn. lia.
    + intros c z _ H. change (live w c z) in H. exists z. split; [exact H|]. split; [reflexivity|]. intros N. unfold same, w'. cbn.
      assert (N' : c <> a) by auto. rewrite Vb, K1, K2 by eauto. repeat split. intros C. apply Kb; eauto.
    + intros k _ O. split; [exact O|]. rewrite owned_false in O. assert (N : k <> y_buf y) by (intros ->; exact (O a y L eq_refl)).
      unfold w'. cbn. split; [apply Vb, N|]. intros C. apply Kb; auto.
  - exists x, xs', ys'. split; [exact Lx|]. split; [|auto]. exists y. split; [exact L|]. unfold w'. cbn. rewrite Le. auto.
Qed.

(** ** Statements on variables *)

Lemma release_vars junk p w l : release junk p (set_vars w l) = obind (release junk p w) (fun w1 => Done (set_vars w1 l)).
Proof.
  destruct p as [a|]; [|reflexivity]. cbn [release]. unfold get_body. change (w_bodies (set_vars w l)) with (w_bodies w).
  destruct (nth_error (w_bodies w) a) as [[y|]|]; cbn [obind]; try reflexivity. destruct (y_rc y) as [|[|n]]; try reflexivity.
  unfold delete_body, on_pt, on_bt, on_buf. cbn [w_pt w_bt w_buf set_vars].
  destruct (TagList.step (TagList.Destroy a) (w_pt w)); cbn [obind w_pt w_bt w_buf]; try reflexivity.
  destruct (TagList.step (TagList.Destroy a) (w_bt w)); cbn [obind w_pt w_bt w_buf]; try reflexivity.
  destruct (Buffer.step junk (Buffer.Destroy (y_buf y)) (w_buf w)); reflexivity.
Qed.
Lemma add_ref_vars p w l : add_ref p (set_vars w l) = obind (add_ref p w) (fun w1 => Done (set_vars w1 l)).
Proof.
  destruct p as [a|]; [|reflexivity]. cbn [add_ref]. unfold get_body. change (w_bodies (set_vars w l)) with (w_bodies w).
  destruct (nth_error (w_bodies w) a) as [[y|]|]; reflexivity.
Qed.
Lemma set_vars_twice w l l' : set_vars (set_vars w l) l' = set_vars w l'.
Proof. reflexivity. Qed.
Lemma set_vars_id w : set_vars w (w_vars w) = w.
Proof. destruct w. reflexivity. Qed.

Lemma release_keeps junk p w w1 : release junk p w = Done w1 -> w_vars w1 = w_vars w.
Proof.
  intros E. pose proof (release_vars junk p w (w_vars w)) as R. rewrite set_vars_id, E in R. cbn in R. injection R as R. rewrite R. reflexivity.
Qed.

(** [w'] has the variables [l], and all bodies are as before. *)
Definition moved w w' l : Prop :=
  pinv [] w' /\ frame True (fun _ => False) w w' /\ w_vars w' = l /\ w_pins w' = w_pins w.

Lemma frame_tt w1 w2 w3 : frame True (fun _ => False) w1 w2 -> frame True (fun _ => False) w2 w3 -> frame True (fun _ => False) w1 w3.
Proof. intros F G. eapply frame_mono; [eapply frame_trans; eauto|auto|cbn; tauto]. Qed.
Lemma frame_setvars w l : frame True (fun _ => False) w (set_vars w l).
Proof. apply frame_vars; reflexivity. Qed.

Lemma copy_new_ok w p : pinv [] w -> (forall a, p = Some a -> exists y, live w a y) ->
  wp (copy_new p w) (fun w' => moved w w' (w_vars w ++ [Some p])).
Proof.
  intros I H. unfold copy_new. eapply wp_bind; [apply (add_ref_ok [] w p I H)|]. intros w1 (I1 & F1 & E1 & E2). cbn [wp].
  split; [apply add_var_ok, I1|]. split; [eapply frame_tt; [exact F1|apply frame_setvars]|]. split; [cbn; rewrite E1; reflexivity|exact E2].
Qed.
(** The reference of variable [i] is given up. *)
Lemma let_go_ok junk w i p : pinv [] w -> var w i = Some p ->
  wp (release junk p w) (fun w1 => w_vars w1 = w_vars w /\ w_pins w1 = w_pins w /\ frame True (fun _ => False) w w1 /\
    pinv [] (set_var w1 i (Some None))).
Proof.
  intros I V. pose proof (set_var_ok w i p None [] I V) as I1. cbn [olist app] in I1. unfold set_var in *.
  pose proof (release_ok junk [] _ p I1) as R. rewrite release_vars in R.
  destruct (release junk p w) as [w1| | |] eqn:R0; cbn [obind wp] in *; auto. destruct R as (I2 & F2 & E1 & E2). cbn in E1, E2.
  assert (F : frame True (fun _ => False) w w1).
  { eapply frame_tt; [apply (frame_setvars w (upd (w_vars w) i (Some None)))|]. eapply frame_tt; [exact F2|]. apply frame_vars; reflexivity. }
  pose proof (release_keeps _ _ _ _ R0) as Ev. split; [exact Ev|]. split; [exact E2|]. split; [exact F|]. rewrite Ev. exact I2.
Qed.
Lemma var_upd w w' i q j : w_vars w' = upd (w_vars w) i q -> i < length (w_vars w) -> var w' j = if i =? j then q else var w j.
Proof.
  intros E L. unfold var. rewrite E, nth_upd. destruct (Nat.eqb_spec i j) as [->|N]; cbn [andb]; [|reflexivity].
  rewrite (proj2 (Nat.ltb_lt _ _) L). reflexivity.
Qed.
Lemma var_lt w i p : var w i = Some p -> i < length (w_vars w).
Proof. intros V. apply var_nth in V. eapply nth_lt, V. Qed.
Lemma option_eqb_spec p q : option_eqb p q = true <-> p = q.
Proof.
  destruct p as [a|], q as [b|]; cbn; try (split; [discriminate|congruence]).
  - rewrite Nat.eqb_eq. split; congruence.
  - split; auto.
Qed.
Lemma assign_ok junk w i j p q : pinv [] w -> var w i = Some p -> var w j = Some q ->
  wp (assign junk i p q w) (fun w' => moved w w' (upd (w_vars w) i (Some q))).
Proof.
  intros I Vi Vj. unfold assign. destruct (option_eqb p q) eqn:E.
  - apply option_eqb_spec in E. subst q. cbn [wp]. split; [exact I|]. split; [apply frame_refl|]. split; [|reflexivity].
    symmetry. apply upd_same, var_nth, Vi.
  - eapply wp_bind; [apply (let_go_ok junk w i p I Vi)|]. intros w1 (E1 & E2 & F1 & I1).
    assert (Nij : i <> j). { intros ->. rewrite Vi in Vj. injection Vj as ->. apply Bool.not_true_iff_false in E. apply E, option_eqb_spec. reflexivity. }
    assert (Li : i < length (w_vars w1)) by (rewrite E1; eapply var_lt, Vi).
    assert (V1 : var (set_var w1 i (Some None)) j = Some q).
    { rewrite (var_upd w1 _ i (Some None)) by auto. destruct (Nat.eqb_spec i j); [congruence|]. unfold var in *. rewrite E1. exact Vj. }
    assert (A : wp (add_ref q (set_var w1 i (Some None))) (fun w' => pinv (olist q ++ []) w' /\
       frame True (fun _ => False) (set_var w1 i (Some None)) w' /\ w_vars w' = w_vars (set_var w1 i (Some None)) /\ w_pins w' = w_pins (set_var w1 i (Some None)))).
    { apply add_ref_ok; [exact I1|]. intros a ->. eapply var_live; [exact I1|exact V1]. }
    unfold set_var in *. rewrite add_ref_vars in *. destruct (add_ref q w1) as [w2| | |]; cbn [obind wp] in *; auto.
    destruct A as (I2 & F2 & E3 & E4).
    assert (V2 : var (set_vars w2 (upd (w_vars w1) i (Some None))) i = Some None).
    { rewrite (var_upd w1 _ i (Some None)) by auto. rewrite Nat.eqb_refl. reflexivity. }
    pose proof (set_var_ok _ i None q [] I2 V2) as I3. unfold set_var in I3. cbn [w_vars set_vars olist app] in I3.
    rewrite upd_upd in I3. split; [exact I3|]. split; [|split; [cbn; rewrite E1; reflexivity|cbn; cbn in E4; congruence]].
    eapply frame_tt; [exact F1|]. eapply frame_tt; [apply (frame_setvars w1)|]. eapply frame_tt; [exact F2|]. apply frame_vars; reflexivity.
Qed.
Lemma move_assign_ok junk w i j p q : pinv [] w -> var w i = Some p -> var w j = Some q ->
  wp (move_assign junk i j p q w) (fun w' => moved w w' (if option_eqb p q then w_vars w else upd (upd (w_vars w) i (Some q)) j (Some None))).
Proof.
  intros I Vi Vj. unfold move_assign. destruct (option_eqb p q) eqn:E.
  - cbn [wp]. split; [exact I|]. split; [apply frame_refl|]. auto.
  - eapply wp_bind; [apply (let_go_ok junk w i p I Vi)|]. intros w1 (E1 & E2 & F1 & I1).
    assert (Nij : i <> j). { intros ->. rewrite Vi in Vj. injection Vj as ->. apply Bool.not_true_iff_false in E. apply E, option_eqb_spec. reflexivity. }
    pose proof (var_lt _ _ _ Vi) as Li. pose proof (var_lt _ _ _ Vj) as Lj.
    assert (Ej : nth_error (upd (w_vars w) i (Some None)) j = Some (Some q)) by (rewrite nth_upd_neq by exact Nij; apply var_nth, Vj).
    assert (Ei : nth_error (upd (upd (w_vars w) i (Some None)) j (Some None)) i = Some (Some None)).
    { rewrite nth_upd_neq by auto. apply nth_upd_eq, Li. }
    cbn [wp]. unfold set_var in *. cbn [w_vars set_vars]. rewrite E1 in *. rewrite set_vars_twice. split.
    + eapply pinv_move; [exact I1|..]; try reflexivity; [apply incl_refl|]. intros a. unfold refs. cbn [w_vars w_pins set_vars].
      pose proof (BufferProofs.cnt_upd (refers a) _ _ _ (Some None) Ej) as C1.
      pose proof (BufferProofs.cnt_upd (refers a) _ _ _ (Some q) Ei) as C2.
      assert (upd (upd (w_vars w) i (Some q)) j (Some None) = upd (upd (upd (w_vars w) i (Some None)) j (Some None)) i (Some q)) as ->.
      { apply list_ext. intros k. rewrite !nth_upd, !upd_length. destruct (i =? k) eqn:?, (j =? k) eqn:?; cbn [andb]; try reflexivity.
        - lia.
        - rewrite (proj2 (Nat.ltb_lt k _)) by lia. reflexivity. }
      cbn [refers b2n] in *. lia.
    + split; [eapply frame_tt; [exact F1|apply frame_vars; reflexivity]|]. split; [reflexivity|exact E2].
Qed.
Lemma move_new_ok w i p : pinv [] w -> var w i = Some p -> moved w (move_new i p w) (upd (w_vars w) i (Some None) ++ [Some p]).
Proof.
  intros I V. unfold move_new. pose proof (set_var_ok w i p None [] I V) as I1. split; [apply add_var_ok, I1|].
  split; [apply frame_vars; reflexivity|]. split; reflexivity.
Qed.
Lemma swap_ok w i j p q : pinv [] w -> var w i = Some p -> var w j = Some q ->
  moved w (set_var (set_var w i (Some q)) j (Some p)) (upd (upd (w_vars w) i (Some q)) j (Some p)).
Proof.
  intros I Vi Vj. split; [|split; [apply frame_vars; reflexivity|split; reflexivity]].
  eapply pinv_move; [exact I|..]; try reflexivity; [apply incl_refl|]. intros a. unfold refs, set_var, set_vars. cbn [w_vars w_pins].
  pose proof Vi as Ei. apply var_nth in Ei. pose proof (BufferProofs.cnt_upd (refers a) _ _ _ (Some q) Ei) as C1.
  assert (Ej : nth_error (upd (w_vars w) i (Some q)) j = Some (Some q)).
  { destruct (Nat.eq_dec i j) as [<-|N]; [apply nth_upd_eq; eapply var_lt, Vi|]. rewrite nth_upd_neq by exact N. apply var_nth, Vj. }
  pose proof (BufferProofs.cnt_upd (refers a) _ _ _ (Some p) Ej) as C2. lia.
Qed.
Lemma destroy_ok junk w i p : pinv [] w -> var w i = Some p ->
  wp (obind (release junk p w) (fun w1 => Done (set_var w1 i None))) (fun w' => moved w w' (upd (w_vars w) i None)).
Proof.
  intros I V. eapply wp_bind; [apply (let_go_ok junk w i p I V)|]. intros w1 (E1 & E2 & F1 & I1). cbn [wp].
  assert (V1 : var (set_var w1 i (Some None)) i = Some None).
  { rewrite (var_upd w1 _ i (Some None)); [rewrite Nat.eqb_refl; reflexivity|reflexivity|rewrite E1; eapply var_lt, V]. }
  pose proof (drop_var_ok _ i None [] I1 V1) as I2. unfold set_var in *. cbn [w_vars set_vars olist app] in *. rewrite upd_upd in I2.
  split; [exact I2|]. split; [eapply frame_tt; [exact F1|apply frame_vars; reflexivity]|]. split; [cbn; rewrite E1; reflexivity|exact E2].
Qed.

(** ** Statements on the body of a variable *)

(** In [w'] variable [i] has a body of its own, and only that is new. *)
Definition edited (C : Prop) T w i w' s xs ys : Prop := exists a,
  pinv T w' /\ frame C (eq a) w w' /\ w_vars w' = upd (w_vars w) i (Some (Some a)) /\ w_pins w' = w_pins w /\
  refs w' T a = 1 /\ view w' (Some a) s xs ys.

Lemma view_fun w p s xs ys s' xs' ys' : view w p s xs ys -> view w p s' xs' ys' -> s = s' /\ xs = xs' /\ ys = ys'.
Proof.
  destruct p as [a|]; cbn [view].
  - intros (y & L & B & F1 & F2) (z & L' & B' & F1' & F2'). rewrite (live_fun _ _ _ _ L' L) in B'. repeat split; congruence.
  - intros (-> & -> & ->) (-> & -> & ->). auto.
Qed.
Lemma view_var T w i p : pinv T w -> var w i = Some p -> exists s xs ys, view w p s xs ys.
Proof.
  intros I V. destruct p as [a|]; [|exists [], [], []; cbn; auto]. destruct (var_live _ _ _ _ I V) as [y L].
  destruct (view_some _ _ _ _ I L) as (s & xs & ys & H & _). eauto.
Qed.

(** The conditions on what is added to variable [i], before it got a body of its own. *)
Definition src_ok T w (e : edit) (s t : list N) us vs : Prop :=
  match e with
  | EBufStart k m | EBufEnd k m => owned w k = false /\ bytes_of (w_buf w) k = Some t /\ m = length t
  | ESet _ _ => False
  | EListStart c k | EListEnd c k => In c T /\ view w (Some c) t us vs /\ exists z, live w c z /\ y_buf z = k
  | _ => t = []
  end.
Lemma bytes_lt b k s : bytes_of b k = Some s -> k < length (Buffer.w_bufs b).
Proof. unfold bytes_of, Buffer.var. intros H. destruct (nth_error (Buffer.w_bufs b) k) eqn:E; [eapply nth_lt, E|discriminate]. Qed.
Lemma cnt_in a l : In a l -> 1 <= cnt (Nat.eqb a) l.
Proof. intros H. apply In_nth_error in H. destruct H as [i H]. apply (BufferProofs.cnt_one _ _ _ _ H (Nat.eqb_refl a)). Qed.
(** A body with one reference, that of variable [i], is nobody else's. *)
Lemma alone_temp T w i a c : var w i = Some (Some a) -> refs w T a = 1 -> In c T -> c <> a.
Proof.
  intros V R H ->. apply var_nth in V. unfold refs in R. pose proof (BufferProofs.cnt_one (refers a) _ _ _ V (Nat.eqb_refl a)).
  pose proof (cnt_in _ _ H). lia.
Qed.
Lemma alone_pin T w i a : var w i = Some (Some a) -> refs w T a = 1 -> ~ In a (w_pins w).
Proof.
  intros V R H. apply var_nth in V. unfold refs in R. pose proof (BufferProofs.cnt_one (refers a) _ _ _ V (Nat.eqb_refl a)).
  pose proof (cnt_in _ _ H). lia.
Qed.
Lemma alone_var T w i a j : var w i = Some (Some a) -> refs w T a = 1 -> var w j = Some (Some a) -> i = j.
Proof.
  intros V R H. destruct (Nat.eq_dec i j) as [|N]; [assumption|]. apply var_nth in V, H. unfold refs in R.
  pose proof (BufferProofs.cnt_two (refers a) _ _ _ _ _ V H N (Nat.eqb_refl a) (Nat.eqb_refl a)). lia.
Qed.

Lemma edit_ok junk T w w0 i p e s xs ys t us vs (f : nat -> Buffer.op) : pinv T w -> var w i = Some p -> view w p s xs ys -> src_ok T w e s t us vs ->
  (forall k, f k = eb e k) -> w0 = w ->
  wp (obind (make_private junk i p w0) (fun r => let (w1, a) := r in mutate junk a f (et e a) (et e a) w1)) (fun w' =>
    exists x xs' ys', length x = elen e /\ edited (eside lo hi e) T w i w' (ebytes x t e s) xs' ys' /\
      efull e (length s) xs (length t) us xs' /\ efull e (length s) ys (length t) vs ys' /\
      filter (touches (esize (length t) e (length s))) xs' = etags (length t) us e (length s) (filter (touches (length s)) xs) /\
      filter (touches (esize (length t) e (length s))) ys' = etags (length t) vs e (length s) (filter (touches (length s)) ys)).
Proof.
  intros I V Vw Hs Hf ->. pose proof (var_lt _ _ _ V) as Li.
  eapply wp_bind; [apply (make_private_ok junk T w i p s xs ys I V Vw)|]. intros [w1 a] (I1 & F1 & E1 & E2 & R1 & V1 & Ha). cbn [fst snd] in *.
  pose proof V1 as (y & L1 & B1 & _).
  assert (Vi : var w1 i = Some (Some a)) by (rewrite (var_upd w _ _ _ i E1 Li), Nat.eqb_refl; reflexivity).
  assert (Ok : eok w1 a y e s t us vs).
  { assert (U : forall k, owned w k = false -> bytes_of (w_buf w) k = Some t -> k <> y_buf y /\ bytes_of (w_buf w1) k = Some t).
    { intros k O B. destruct (fr_user _ _ _ _ F1 k (bytes_lt _ _ _ B) O) as (O1 & _ & B'). rewrite B' by exact Logic.I. split; [|exact B].
      rewrite owned_false in O1. intros ->. exact (O1 a y L1 eq_refl). }
    assert (W : forall c k, In c T -> view w (Some c) t us vs -> (exists z, live w c z /\ y_buf z = k) ->
      c <> a /\ k <> y_buf y /\ bytes_of (w_buf w1) k = Some t /\ full_of (w_bt w1) c = Some (length t, us) /\ full_of (w_pt w1) c = Some (length t, vs)).
    { intros c k Ic Vc (z & Lz & Ez). pose proof (alone_temp _ _ _ _ _ Vi R1 Ic) as Nc. destruct (temp_live _ _ _ I1 Ic) as [z1 Lz1].
      destruct (fr_old _ _ _ _ F1 c z1 (live_lt _ _ _ Lz) Lz1) as (z2 & Lz2 & Ez2 & _). rewrite (live_fun _ _ _ _ Lz2 Lz) in Ez2.
      destruct (view_frame _ _ _ _ c t us vs z1 F1 Logic.I (fun x => x) Lz1 Vc) as (z3 & Lz3 & B3 & G1 & G2).
      rewrite (live_fun _ _ _ _ Lz3 Lz1) in B3. rewrite <- Ez2, Ez in B3. split; [exact Nc|]. split; [|auto].
      intros E. apply Nc. apply (p_inj _ _ I1 _ _ _ _ Lz1 L1). congruence. }
    destruct e; cbn [src_ok] in Hs; unfold eok; cbn [esrc elist];
      (split; [intros j Ej; try discriminate; try (injection Ej as <-)|split; [intros c' Ec; try discriminate; try (injection Ec as <-)|]]); try exact Logic.I.
    all: try (destruct Hs as (O & B & Em); try exact Em; apply (U _ O B)).
    all: try (destruct Hs as (Ic & Vc & Ez); destruct (W _ _ Ic Vc Ez) as (Q1 & Q2 & Q3 & Q4 & Q5); auto).
    all: contradiction. }
  assert (Em : mutate junk a f (et e a) (et e a) w1 = mutate junk a (eb e) (et e a) (et e a) w1).
  { unfold mutate. destruct (get_body w1 a); cbn [obind]; auto. rewrite Hf. reflexivity. }
  rewrite Em. eapply wp_mono; [apply (mutate_ok junk T w1 a y e s xs ys t us vs I1 L1 V1 Ok)|].
  intros w' (I2 & F2 & E3 & E4 & E5 & Lb & _ & x & xs' & ys' & Lx & V2 & Q1 & Q2 & Q3 & Q4). exists x, xs', ys'.
  split; [exact Lx|]. split; [|auto]. exists a. split; [exact I2|]. split.
  { eapply frame_mono; [eapply frame_trans; [eapply frame_mono; [exact F1|intros _; exact Logic.I|intros b X; exact X]|exact F2]|auto|cbn; tauto]. }
  split; [congruence|]. split; [congruence|]. split; [|exact V2]. unfold refs in *. rewrite E4, E5. exact R1.
Qed.

(** What the variables show. *)
Lemma packets_length w : length (packets w) = length (w_vars w).
Proof. unfold packets. rewrite map_length, seq_length. reflexivity. Qed.
Lemma pk_packets w i : pk (packets w) i = packet_of w i.
Proof.
  unfold pk, packets. rewrite nth_error_map. destruct (Nat.lt_ge_cases i (length (w_vars w))).
  - rewrite BufferProofs.nth_error_seq' by assumption. reflexivity.
  - rewrite (proj2 (nth_error_None _ _)) by (rewrite seq_length; assumption). unfold packet_of, var.
    rewrite (proj2 (nth_error_None _ _)) by assumption. reflexivity.
Qed.
Lemma packets_ext w (A : list (option (pkt BV))) : length (w_vars w) = length A -> (forall i, i < length A -> packet_of w i = pk A i) -> packets w = A.
Proof.
  intros L H. apply list_ext. intros i. destruct (Nat.lt_ge_cases i (length A)) as [Hi|Hi].
  - specialize (H i Hi). unfold packets. rewrite nth_error_map, BufferProofs.nth_error_seq' by lia. cbn [option_map Nat.add]. rewrite H.
    unfold pk. destruct (nth_error A i) eqn:E; [reflexivity|]. apply nth_error_None in E. lia.
  - rewrite !(proj2 (nth_error_None _ _)); [reflexivity|lia|rewrite packets_length; lia].
Qed.
(** References that are kept show the same. *)
Lemma keep_view C X T w w' a s xs ys : pinv T w' -> frame C X w w' -> C -> ~ X a -> 0 < refs w' T a -> view w (Some a) s xs ys -> view w' (Some a) s xs ys.
Proof. intros I' F c N R V. destruct (p_dead _ _ I' a R) as [y L]. eapply view_frame; eauto. Qed.
Lemma keep_content C X T T' w w' a : pinv T w -> pinv T' w' -> frame C X w w' -> C -> ~ X a -> 0 < refs w T a -> 0 < refs w' T' a ->
  content_at w' (Some a) = content_at w (Some a).
Proof.
  intros I I' F c N R R'. destruct (p_dead _ _ I a R) as [y L]. destruct (view_some _ _ _ _ I L) as (s & xs & ys & V & _).
  rewrite (view_content _ _ _ _ _ V). apply view_content. eapply keep_view; eauto.
Qed.
Lemma refs_var T w i a : var w i = Some (Some a) -> 0 < refs w T a.
Proof. intros V. apply var_nth in V. unfold refs. pose proof (BufferProofs.cnt_one (refers a) _ _ _ V (Nat.eqb_refl a)). lia. Qed.
Lemma refs_pin T w a : In a (w_pins w) -> 0 < refs w T a.
Proof. intros V. unfold refs. pose proof (cnt_in _ _ V). lia. Qed.
Lemma keep_var C X T T' w w' i j p : pinv T w -> pinv T' w' -> frame C X w w' -> C -> var w i = Some p -> var w' j = Some p ->
  (forall a, p = Some a -> ~ X a) -> packet_of w' j = packet_of w i.
Proof.
  intros I I' F c Vi Vj N. unfold packet_of. rewrite Vi, Vj. destruct p as [a|]; [|reflexivity].
  eapply keep_content; eauto; eapply refs_var; eauto.
Qed.

Lemma pk_upd (A : list (option (pkt BV))) i x j : i < length A -> pk (upd A i x) j = if i =? j then x else pk A j.
Proof.
  intros L. unfold pk. rewrite nth_upd. destruct (Nat.eqb_spec i j) as [->|N]; cbn [andb]; [|reflexivity].
  rewrite (proj2 (Nat.ltb_lt _ _) L). reflexivity.
Qed.
Lemma pk_app (A : list (option (pkt BV))) x j : pk (A ++ [x]) j = if j =? length A then x else pk A j.
Proof.
  unfold pk. destruct (Nat.lt_trichotomy j (length A)) as [H|[->|H]].
  - rewrite nth_error_app1 by exact H. destruct (Nat.eqb_spec j (length A)); [lia|]. reflexivity.
  - rewrite nth_error_app2, Nat.sub_diag, Nat.eqb_refl by lia. reflexivity.
  - rewrite !(proj2 (nth_error_None _ _)) by (rewrite ?app_length; cbn; lia). destruct (Nat.eqb_spec j (length A)); [lia|]. reflexivity.
Qed.
Definition var_in (l : list (option (option nat))) i := match nth_error l i with Some o => o | None => None end.
Lemma var_in_eq w i : var w i = var_in (w_vars w) i.
Proof. reflexivity. Qed.

(** Variables that are moved around take along what they show. *)
Lemma moved_packets w w' l (A : list (option (pkt BV))) : pinv [] w -> moved w w' l -> length A = length l ->
  (forall j, j < length l -> match var_in l j with
    | None => pk A j = None
    | Some None => pk A j = Some no_pkt
    | Some (Some a) => (exists i, var w i = Some (Some a) /\ pk A j = packet_of w i) \/ (In a (w_pins w) /\ pk A j = content_at w (Some a))
    end) -> packets w' = A.
Proof.
  intros I (I' & F & <- & Ep) LA H. apply packets_ext; [auto|]. intros j Hj. rewrite LA in Hj. specialize (H j Hj). rewrite <- var_in_eq in H.
  destruct (var w' j) as [[a|]|] eqn:V.
  - destruct H as [(i & Vi & ->)|[P ->]].
    + eapply keep_var; eauto. 
    + unfold packet_of. rewrite V. eapply keep_content; eauto; [eapply refs_pin; exact P|eapply refs_var; exact V].
  - unfold packet_of. rewrite V, H. reflexivity.
  - unfold packet_of. rewrite V, H. reflexivity.
Qed.
Lemma edited_packets C T T1 T2 w i p w' s xs ys w2 : pinv T1 w -> var w i = Some p -> edited C T w i w' s xs ys -> C ->
  pinv T2 w2 -> frame True (fun _ => False) w' w2 -> w_vars w2 = w_vars w' ->
  packets w2 = upd (packets w) i (Some (mk_pkt s (filter (touches (length s)) xs) (filter (touches (length s)) ys))).
Proof.
  intros I V (a & I1 & F1 & E1 & E2 & R1 & V1) c I2 F2 E3. pose proof (var_lt _ _ _ V) as Li.
  assert (Vi : var w' i = Some (Some a)) by (rewrite (var_upd w _ _ _ i E1 Li), Nat.eqb_refl; reflexivity).
  assert (F : frame C (eq a) w w2).
  { eapply frame_mono; [eapply frame_trans; [exact F1|eapply frame_mono; [exact F2|intros _; exact Logic.I|intros b X; exact X]]|auto|cbn; tauto]. }
  apply packets_ext; [rewrite E3, E1, !upd_length, packets_length; reflexivity|].
  intros j Hj. rewrite upd_length, packets_length in Hj. rewrite pk_upd by (rewrite packets_length; exact Li).
  assert (Vj : var w2 j = var w' j) by (unfold var; rewrite E3; reflexivity). rewrite (var_upd w _ _ _ j E1 Li) in Vj.
  destruct (Nat.eqb_spec i j) as [<-|N].
  - unfold packet_of. rewrite Vj. apply view_content. eapply keep_view; [exact I2|exact F2|exact Logic.I|tauto|eapply refs_var; exact Vj|exact V1].
  - rewrite pk_packets. destruct (var w j) as [q|] eqn:E; [|unfold packet_of; rewrite Vj, E; reflexivity].
    eapply keep_var; [exact I|exact I2|exact F|exact c|exact E|exact Vj|]. intros b -> <-. apply N.
    eapply alone_var; [exact Vi|exact R1|]. rewrite (var_upd w _ _ _ j E1 Li). destruct (Nat.eqb_spec i j); [congruence|exact E].
Qed.

(** ** Statements *)

(** What is left alone: packets in tags, and the buffers of the user. *)
(** [Z]: the variables that may change. *)
Definition kept (C : Prop) (Z : nat -> Prop) w w' : Prop :=
  incl (w_pins w) (w_pins w') /\ (forall a, In a (w_pins w) -> C -> content_at w' (Some a) = content_at w (Some a)) /\
  length (Buffer.w_bufs (w_buf w)) <= length (Buffer.w_bufs (w_buf w')) /\
  (forall k, k < length (Buffer.w_bufs (w_buf w)) -> owned w k = false ->
    owned w' k = false /\ (C -> bytes_of (w_buf w') k = bytes_of (w_buf w) k)) /\
  (forall j p s xs ys, C -> ~ Z j -> var w j = Some p -> view w p s xs ys -> var w' j = Some p /\ view w' p s xs ys).
Lemma kept_trans C Z w1 w2 w3 : kept C Z w1 w2 -> kept C Z w2 w3 -> kept C Z w1 w3.
Proof.
  intros (A1 & A2 & A3 & A4 & A5) (B1 & B2 & B3 & B4 & B5). split; [eapply incl_tran; eauto|]. split; [|split; [lia|split]].
  - intros a H c. rewrite B2, A2; auto.
  - intros k Hk O. destruct (A4 k Hk O) as (O2 & K2). destruct (B4 k ltac:(lia) O2) as (O3 & K3). split; [exact O3|].
    intros c. rewrite K3, K2; auto.
  - intros j p s xs ys c N V Vw. destruct (A5 j p s xs ys c N V Vw) as [V2 Vw2]. exact (B5 j p s xs ys c N V2 Vw2).
Qed.
Lemma kept_mono C (Z Z' : nat -> Prop) w w' : kept C Z w w' -> (forall j, j < length (w_vars w) -> Z j -> Z' j) -> kept C Z' w w'.
Proof.
  intros (A1 & A2 & A3 & A4 & A5) H. split; [exact A1|]. split; [exact A2|]. split; [exact A3|]. split; [exact A4|].
  intros j p s xs ys c N V Vw. apply A5; auto. intros z. apply N, H; [eapply var_lt, V|exact z].
Qed.
Lemma kept_frame (C D : Prop) (Z : nat -> Prop) X T T' w w' : pinv T w -> pinv T' w' -> frame D X w w' -> (C -> D) ->
  (forall a, C -> In a (w_pins w) -> ~ X a) -> incl (w_pins w) (w_pins w') ->
  (forall j p, C -> ~ Z j -> var w j = Some p -> var w' j = Some p /\ forall a, p = Some a -> ~ X a) -> kept C Z w w'.
Proof.
  intros I I' F Hc Hx Hp Hz. split; [exact Hp|]. split; [|split; [apply F|split]].
  - intros a H c. destruct (pin_live _ _ _ I H) as [y L]. destruct (view_some _ _ _ _ I L) as (s & xs & ys & V & _).
    rewrite (view_content _ _ _ _ _ V). apply view_content. eapply keep_view; [exact I'|exact F|auto|apply (Hx a c H)|apply refs_pin, Hp, H|exact V].
  - intros k Hk O. destruct (fr_user _ _ _ _ F k Hk O) as (Q1 & Q2 & Q3). auto.
  - intros j p s xs ys c N V Vw. destruct (Hz j p c N V) as [V' Na]. split; [exact V'|]. destruct p as [a|]; [|exact Vw].
    eapply keep_view; [exact I'|exact F|auto|apply Na; reflexivity|eapply refs_var; exact V'|exact Vw].
Qed.
Lemma kept_moved C (Z : nat -> Prop) w w' l : pinv [] w -> moved w w' l ->
  (forall j, ~ Z j -> j < length (w_vars w) -> nth_error l j = nth_error (w_vars w) j) -> kept C Z w w'.
Proof.
  intros I (I' & F & E1 & E) H. eapply kept_frame; eauto; [rewrite E; apply incl_refl|]. intros j p c N V. split; [|tauto].
  pose proof (var_lt _ _ _ V). unfold var in *. rewrite E1, H by auto. exact V.
Qed.
Lemma kept_edited (C D : Prop) (Z : nat -> Prop) T w i p w' s xs ys : pinv T w -> var w i = Some p -> edited D T w i w' s xs ys -> (C -> D) -> Z i -> kept C Z w w'.
Proof.
  intros I V (a & I' & F & E1 & E2 & R1 & V1) H Hz. pose proof (var_lt _ _ _ V) as Li. eapply kept_frame; eauto; [|rewrite E2; apply incl_refl|].
  - intros b _ Hb <-. rewrite <- E2 in Hb. revert Hb. eapply (alone_pin T w' i); [|exact R1]. rewrite (var_upd w _ _ _ i E1 Li), Nat.eqb_refl. reflexivity.
  - intros j q c N Vj. pose proof (var_upd w _ _ _ j E1 Li) as Q. destruct (Nat.eqb_spec i j) as [->|Nj]; [tauto|]. split; [congruence|].
    intros b -> <-. apply Nj. eapply alone_var; [|exact R1|rewrite Q; exact Vj]. rewrite (var_upd w _ _ _ i E1 Li), Nat.eqb_refl. reflexivity.
Qed.

(** An edit in terms of packets. *)
Definition eapp (e : edit) (x t : list N) us vs (p : pkt BV) : pkt BV :=
  mk_pkt (ebytes x t e (k_bytes p)) (etags (length t) us e (len p) (k_tags p)) (etags (length t) vs e (len p) (k_ptags p)).
Definition shown s xs ys : pkt BV := mk_pkt s (filter (touches (length s)) xs) (filter (touches (length s)) ys).

(** [i] is edited by [e], and then nothing else happens. *)
Lemma edit_packets junk w i p e s xs ys t us vs f : pinv [] w -> var w i = Some p -> view w p s xs ys -> src_ok [] w e s t us vs ->
  (forall k, f k = eb e k) ->
  wp (obind (make_private junk i p w) (fun r => let (w1, a) := r in mutate junk a f (et e a) (et e a) w1)) (fun w' =>
    pinv [] w' /\ kept (eside lo hi e) (eq i) w w' /\ w_pins w' = w_pins w /\
    exists x xs' ys', length x = elen e /\ edited (eside lo hi e) [] w i w' (ebytes x t e s) xs' ys' /\
      efull e (length s) xs (length t) us xs' /\ efull e (length s) ys (length t) vs ys' /\
      shown (ebytes x t e s) xs' ys' = eapp e x t us vs (shown s xs ys) /\
      (eside lo hi e -> packets w' = upd (packets w) i (Some (eapp e x t us vs (shown s xs ys))))).
Proof.
  intros I V Vw Hs Hf. pose proof (edit_ok junk [] w w i p e s xs ys t us vs f I V Vw Hs Hf eq_refl) as H.
  eapply wp_mono; [exact H|]. clear H. intros w' (x & xs' & ys' & Lx & Ed & Q1 & Q2 & Q3 & Q4).
  assert (Le : length (ebytes x t e s) = esize (length t) e (length s)).
  { destruct e; cbn in *; rewrite ?app_length, ?skipn_length; try lia. unfold BufferSpec.drop_last. rewrite firstn_length. lia. }
  assert (Sh : shown (ebytes x t e s) xs' ys' = eapp e x t us vs (shown s xs ys)).
  { unfold shown, eapp, len. cbn [k_bytes k_tags k_ptags]. rewrite Le, Q3, Q4. reflexivity. }
  pose proof Ed as (a & I' & F' & E1 & E2 & R1 & V1).
  split; [exact I'|]. split; [eapply kept_edited; eauto|]. split; [exact E2|]. exists x, xs', ys'.
  split; [exact Lx|]. split; [exact Ed|]. split; [exact Q1|]. split; [exact Q2|]. split; [exact Sh|].
  intros c. rewrite <- Sh. eapply edited_packets; eauto. apply frame_refl.
Qed.
Lemma var_packet w i p s xs ys : var w i = Some p -> view w p s xs ys -> packet_of w i = Some (shown s xs ys).
Proof. intros V H. unfold packet_of. rewrite V. apply view_content, H. Qed.

Record good (o : op BV) w w' : Prop := {
  g_inv : pinv [] w';
  g_spec : clean lo hi o w -> exists x, length x = extra o /\ packets w' = pspec w x o (packets w) /\ returned w x o w';
  g_pins : incl (w_pins w) (w_pins w');
  g_pin : forall a, In a (w_pins w) -> clean lo hi o w -> content_at w' (Some a) = content_at w (Some a);
  g_len : length (Buffer.w_bufs (w_buf w)) <= length (Buffer.w_bufs (w_buf w'));
  g_view : forall j p s xs ys, clean lo hi o w -> ~ target o j -> var w j = Some p -> view w p s xs ys -> var w' j = Some p /\ view w' p s xs ys;
  g_user : forall k, k < length (Buffer.w_bufs (w_buf w)) -> owned w k = false -> owned w' k = false /\
    ((forall b, o = OnBuf b -> ~ BufferSpec.target b k) -> clean lo hi o w -> bytes_of (w_buf w') k = bytes_of (w_buf w) k)
}.
Lemma good_kept o w w' : pinv [] w' -> kept (clean lo hi o w) (target o) w w' ->
  (clean lo hi o w -> exists x, length x = extra o /\ packets w' = pspec w x o (packets w) /\ returned w x o w') -> good o w w'.
Proof.
  intros I (K1 & K2 & K3 & K4 & K5) H. split; auto. intros k Hk O. destruct (K4 k Hk O) as (O' & B). auto.
Qed.
Lemma good_same o w : pinv [] w -> (forall x, packets w = pspec w x o (packets w)) -> (forall x, returned w x o w) -> good o w w.
Proof.
  intros I H R. apply good_kept; auto.
  - split; [apply incl_refl|]. split; auto.
  - intros _. exists (repeat 0%N (extra o)). split; [apply repeat_length|]. auto.
Qed.
Lemma packet_none w i : var w i = None -> packet_of w i = None.
Proof. intros V. unfold packet_of. rewrite V. reflexivity. Qed.
Lemma pk_none w i : var w i = None -> pk (packets w) i = None.
Proof. intros V. rewrite pk_packets. apply packet_none, V. Qed.
Lemma pk_shown w i p s xs ys : var w i = Some p -> view w p s xs ys -> pk (packets w) i = Some (shown s xs ys).
Proof. intros V H. rewrite pk_packets. eapply var_packet; eauto. Qed.

Lemma firstn_skipn_all n (s : list N) : firstn (length s - n) (skipn n s) = skipn n s.
Proof. apply firstn_all2. rewrite skipn_length. lia. Qed.
Lemma eapp_rem_start n us vs p : eapp (ERemStart n) [] [] us vs p = slice n (len p - n) p.
Proof. unfold eapp, slice. cbn. unfold len. rewrite firstn_skipn_all. reflexivity. Qed.
Lemma map_shift0 {V} (l : list (TagList.tag_index V)) : map (shift (- Z.of_nat 0)) l = l.
Proof. rewrite <- (map_id l) at 2. apply map_ext. intros [id v s e]. unfold TagListSpec.shift. cbn. rewrite !Z.add_0_r. reflexivity. Qed.
Lemma eapp_rem_end n us vs p : eapp (ERemEnd n) [] [] us vs p = slice 0 (len p - n) p.
Proof. unfold eapp, slice. cbn [ebytes etags skipn]. rewrite !map_shift0. reflexivity. Qed.

Lemma remove_header_ok junk w i n p : pinv [] w -> var w i = Some p -> wp (remove_header junk i n p w) (good (RemHeader i n) w).
Proof.
  intros I V. destruct (view_var _ _ _ _ I V) as (s & xs & ys & Vw). unfold remove_header.
  eapply wp_mono; [apply (edit_packets junk w i p (ERemStart n) s xs ys [] [] [] _ I V Vw); [reflexivity|intros k; reflexivity]|].
  intros w' (I' & K & _ & x & xs' & ys' & Lx & _ & _ & _ & _ & P). apply good_kept; [exact I'|eapply kept_mono; [exact K|cbn; auto]|].
  intros _. exists x. split; [exact Lx|]. split; [|exact Logic.I]. rewrite (P Logic.I). cbn [pspec]. rewrite (pk_shown _ _ _ _ _ _ V Vw).
  destruct x; [|discriminate]. rewrite eapp_rem_start. reflexivity.
Qed.
Lemma remove_trailer_ok junk w i n p : pinv [] w -> var w i = Some p -> wp (remove_trailer junk i n p w) (good (RemTrailer i n) w).
Proof.
  intros I V. destruct (view_var _ _ _ _ I V) as (s & xs & ys & Vw). unfold remove_trailer.
  eapply wp_mono; [apply (edit_packets junk w i p (ERemEnd n) s xs ys [] [] [] _ I V Vw); [reflexivity|intros k; reflexivity]|].
  intros w' (I' & K & _ & x & xs' & ys' & Lx & _ & _ & _ & _ & P). apply good_kept; [exact I'|eapply kept_mono; [exact K|cbn; auto]|].
  intros _. exists x. split; [exact Lx|]. split; [|exact Logic.I]. rewrite (P Logic.I). cbn [pspec]. rewrite (pk_shown _ _ _ _ _ _ V Vw).
  destruct x; [|discriminate]. rewrite eapp_rem_end. reflexivity.
Qed.
Lemma buf_size_ok w k t : binv (w_buf w) -> bytes_of (w_buf w) k = Some t -> buf_size w k = length t.
Proof.
  intros I B. pose proof (size_bytes (w_buf w) k I) as E. unfold size_of in E. rewrite B in E. unfold buf_size.
  destruct (Buffer.var (w_buf w) k); [|discriminate]. injection E as ->. reflexivity.
Qed.
Lemma user_bytes w k c : binv (w_buf w) -> owned w k = false -> Buffer.var (w_buf w) k = Some c -> exists t, bytes_of (w_buf w) k = Some t /\
  buffer_of w k = Some t /\ bytes_in w k = t.
Proof.
  intros I O V. destruct (bytes_var _ _ _ I V) as (t & B & _). exists t. unfold bytes_in, buffer_of. rewrite O, B. auto.
Qed.
Lemma add_header_buf_ok junk w i k p c : pinv [] w -> var w i = Some p -> owned w k = false -> Buffer.var (w_buf w) k = Some c ->
  wp (add_header_buf junk i k p w) (good (AddHeaderBuf i k) w).
Proof.
  intros I V O Vk. destruct (view_var _ _ _ _ I V) as (s & xs & ys & Vw). destruct (user_bytes _ _ _ (p_buf _ _ I) O Vk) as (t & B & B1 & B2).
  unfold add_header_buf. rewrite (buf_size_ok _ _ _ (p_buf _ _ I) B).
  eapply wp_mono; [apply (edit_packets junk w i p (EBufStart k (length t)) s xs ys t [] [] _ I V Vw); [cbn; auto|intros k'; reflexivity]|].
  intros w' (I' & K & _ & x & xs' & ys' & Lx & _ & _ & _ & _ & P). apply good_kept; [exact I'|eapply kept_mono; [exact K|cbn; auto]|].
  intros Cl. exists x. split; [exact Lx|]. split; [|exact Logic.I]. rewrite (P Cl). cbn [pspec]. rewrite (pk_shown _ _ _ _ _ _ V Vw), B1, B2. reflexivity.
Qed.
Lemma add_trailer_buf_ok junk w i k p c : pinv [] w -> var w i = Some p -> owned w k = false -> Buffer.var (w_buf w) k = Some c ->
  wp (add_trailer_buf junk i k p w) (good (AddTrailerBuf i k) w).
Proof.
  intros I V O Vk. destruct (view_var _ _ _ _ I V) as (s & xs & ys & Vw). destruct (user_bytes _ _ _ (p_buf _ _ I) O Vk) as (t & B & B1 & B2).
  unfold add_trailer_buf. rewrite (buf_size_ok _ _ _ (p_buf _ _ I) B).
  eapply wp_mono; [apply (edit_packets junk w i p (EBufEnd k (length t)) s xs ys t [] [] _ I V Vw); [cbn; auto|intros k'; reflexivity]|].
  intros w' (I' & K & _ & x & xs' & ys' & Lx & _ & _ & _ & _ & P). apply good_kept; [exact I'|eapply kept_mono; [exact K|cbn; auto]|].
  intros Cl. exists x. split; [exact Lx|]. split; [|exact Logic.I]. rewrite (P Cl). cbn [pspec]. rewrite (pk_shown _ _ _ _ _ _ V Vw), B1, B2. reflexivity.
Qed.

(** Packets in front and behind. *)
Lemma packets_same T T' w w' : pinv T w -> pinv T' w' -> frame True (fun _ => False) w w' -> w_vars w' = w_vars w -> packets w' = packets w.
Proof.
  intros I I' F E. apply packets_ext; [rewrite packets_length, E; reflexivity|]. intros i _. rewrite pk_packets.
  assert (V : var w' i = var w i) by (unfold var; rewrite E; reflexivity). destruct (var w i) as [p|] eqn:Vi; [|rewrite !packet_none; auto].
  eapply keep_var; eauto.
Qed.
Lemma all_in_view w p t us vs : view w p t us vs -> all_in (w_bt w) p = us /\ all_in (w_pt w) p = vs.
Proof.
  destruct p as [c|]; cbn [view all_in].
  - intros (y & _ & _ & -> & ->). auto.
  - intros (_ & -> & ->). auto.
Qed.
Lemma add_new_nil {V} (l : list (TagList.tag_index V)) : add_new l [] = l.
Proof. reflexivity. Qed.
Lemma map_shift_nil {V} (l : list (TagList.tag_index V)) : map (shift (Z.of_nat 0)) l = l.
Proof. rewrite <- (map_id l) at 2. apply map_ext. intros [id v s e]. unfold TagListSpec.shift. cbn. rewrite !Z.add_0_r. reflexivity. Qed.
Lemma pkt_eta (p : pkt BV) : mk_pkt (k_bytes p) (k_tags p) (k_ptags p) = p.
Proof. destruct p. reflexivity. Qed.
Lemma upd_pk (A : list (option (pkt BV))) i p : pk A i = Some p -> upd A i (Some p) = A.
Proof. intros H. apply upd_same. unfold pk in H. destruct (nth_error A i) eqn:E; [|discriminate]. congruence. Qed.

Definition frame_tc C w w' (F : frame True (fun _ => False) w w') : frame C (fun _ => False) w w' :=
  frame_mono _ _ _ _ _ _ F (fun _ => Logic.I) (fun _ x => x).
Lemma kept_tt C Z T T' w w' : pinv T w -> pinv T' w' -> frame True (fun _ => False) w w' -> w_pins w' = w_pins w -> w_vars w' = w_vars w -> kept C Z w w'.
Proof. intros I I' F E E'. eapply kept_frame; eauto; [rewrite E; apply incl_refl|]. intros j p c N V. split; [|tauto]. unfold var in *. rewrite E'. exact V. Qed.

(** What both have in common; [e z] is the edit, [f] the statement on buffers. *)
Lemma join_ok junk w i j c p (e : nat -> edit) : pinv [] w -> var w i = Some p -> var w j = Some (Some c) ->
  (forall k, e k = EListStart c k) \/ (forall k, e k = EListEnd c k) ->
  wp (let! w0 := add_ref (Some c) w in
      let! (w1, a) := make_private junk i p w0 in
      let! z := get_body w1 c in
      let! w2 := mutate junk a (eb (e (y_buf z))) (et (e 0) a) (et (e 0) a) w1 in
      release junk (Some c) w2) (fun w' =>
    pinv [] w' /\ kept (eside lo hi (e 0)) (eq i) w w' /\ w_pins w' = w_pins w /\
    forall s xs ys t us vs, view w p s xs ys -> view w (Some c) t us vs ->
    exists a xs' ys', w_vars w' = upd (w_vars w) i (Some (Some a)) /\ frame (eside lo hi (e 0)) (eq a) w w' /\ refs w' [] a = 1 /\
      view w' (Some a) (ebytes [] t (e 0) s) xs' ys' /\
      efull (e 0) (length s) xs (length t) us xs' /\ efull (e 0) (length s) ys (length t) vs ys' /\
      shown (ebytes [] t (e 0) s) xs' ys' = eapp (e 0) [] t us vs (shown s xs ys) /\
      (eside lo hi (e 0) -> packets w' = upd (packets w) i (Some (eapp (e 0) [] t us vs (shown s xs ys))))).
Proof.
  intros I Vi Vj He. destruct (view_var _ _ _ _ I Vi) as (s & xs & ys & Vw). destruct (view_var _ _ _ _ I Vj) as (t & us & vs & Vc).
  eapply wp_bind; [apply (add_ref_ok [] w (Some c) I); intros b E; injection E as <-; eapply var_live; eauto|].
  intros w0 (I0 & F0 & E1 & E2). cbn [olist app] in I0.
  assert (Vi0 : var w0 i = Some p) by (unfold var in *; rewrite E1; exact Vi).
  assert (Vj0 : var w0 j = Some (Some c)) by (unfold var in *; rewrite E1; exact Vj).
  assert (Vw0 : view w0 p s xs ys).
  { destruct p as [a|]; [|exact Vw]. eapply keep_view; [exact I0|exact F0|exact Logic.I|tauto|eapply refs_var; exact Vi0|exact Vw]. }
  assert (Vc0 : view w0 (Some c) t us vs) by (eapply keep_view; [exact I0|exact F0|exact Logic.I|tauto|eapply refs_var; exact Vj0|exact Vc]).
  destruct (var_live _ _ _ _ I0 Vj0) as [z Lz].
  assert (Hs : src_ok [c] w0 (e (y_buf z)) s t us vs).
  { destruct He as [He|He]; rewrite He; cbn [src_ok]; (split; [left; reflexivity|]); (split; [exact Vc0|]); exists z; auto. }
  assert (Et : forall V k a, et (e k) a = et (e 0) a :> TagList.op V) by (intros V k a; destruct He as [He|He]; rewrite !He; reflexivity).
  assert (Es : forall k, eside lo hi (e k) = eside lo hi (e 0)) by (intros k; destruct He as [He|He]; rewrite !He; reflexivity).
  assert (Ex : forall k, elen (e k) = 0) by (intros k; destruct He as [He|He]; rewrite !He; reflexivity).
  assert (Eb : forall k x, ebytes x t (e k) s = ebytes [] t (e 0) s) by (intros k x; destruct He as [He|He]; rewrite !He; reflexivity).
  assert (El : length (ebytes [] t (e 0) s) = length s + length t) by (destruct He as [He|He]; rewrite !He; cbn; rewrite app_length; lia).
  pose proof (edit_ok junk [c] w0 w0 i p (e (y_buf z)) s xs ys t us vs (eb (e (y_buf z))) I0 Vi0 Vw0 Hs (fun _ => eq_refl) eq_refl) as H.
  pose proof (make_private_ok junk [c] w0 i p s xs ys I0 Vi0 Vw0) as M.
  destruct (make_private junk i p w0) as [[w1 a]| | |]; cbn [obind wp] in *; auto.
  destruct M as (I1 & F1 & _). cbn [fst snd] in *. destruct (temp_live _ _ c I1 (or_introl eq_refl)) as [z1 Lz1].
  destruct (fr_old _ _ _ _ F1 c z1 (live_lt _ _ _ Lz) Lz1) as (z2 & Lz2 & Ez & _). rewrite (live_fun _ _ _ _ Lz2 Lz) in Ez. clear z2 Lz2.
  rewrite (get_body_ok _ _ _ Lz1). cbn [obind]. rewrite <- Ez. rewrite (Et BV (y_buf z)), (Et (option nat) (y_buf z)) in H.
  eapply wp_bind; [exact H|]. clear H. intros w2 (x & xs' & ys' & Lx & Ed & Q1 & Q2 & Q3 & Q4).
  rewrite Ex in Lx. destruct x; [|discriminate]. rewrite Eb, Es in Ed. pose proof Ed as (a' & I2 & F2 & E3 & E4 & R2 & V2).
  eapply wp_mono; [apply (release_ok junk [] w2 (Some c) I2)|]. intros w3 (I3 & F3 & E5 & E6).
  assert (V3 : var w3 i = Some (Some a')).
  { unfold var. rewrite E5, E3, nth_upd_eq; [reflexivity|]. eapply var_lt, Vi0. }
  split; [exact I3|]. split; [|split; [congruence|]].
  { eapply kept_trans; [eapply kept_tt; [exact I|exact I0|exact F0|exact E2|exact E1]|]. eapply kept_trans; [eapply kept_edited; [exact I0|exact Vi0|exact Ed|auto|reflexivity]|].
    eapply kept_tt; [exact I2|exact I3|exact F3|exact E6|exact E5]. }
  intros s0 xs0 ys0 t0 us0 vs0 A B. destruct (view_fun _ _ _ _ _ _ _ _ A Vw) as (-> & -> & ->). destruct (view_fun _ _ _ _ _ _ _ _ B Vc) as (-> & -> & ->).
  exists a', xs', ys'. split; [rewrite E5, E3, E1; reflexivity|]. split.
  { eapply frame_mono; [eapply frame_trans; [apply frame_tc, F0|eapply frame_trans; [exact F2|apply frame_tc, F3]]|auto|cbn; tauto]. }
  split.
  { pose proof (refs_var [] _ _ _ V3) as Q. unfold refs in *. rewrite E5, E6 in *. change (cnt (Nat.eqb a') []) with 0 in *. lia. }
  split; [eapply keep_view; [exact I3|exact F3|exact Logic.I|tauto|eapply refs_var; exact V3|exact V2]|].
  assert (Ef : forall V k (us xs xs' : list (TagList.tag_index V)), efull (e k) (length s) xs (length t) us xs' -> efull (e 0) (length s) xs (length t) us xs').
  { intros V k us1 xs1 xs2. destruct He as [He|He]; rewrite !He; auto. }
  split; [eapply Ef, Q1|]. split; [eapply Ef, Q2|].
  assert (Sh : shown (ebytes [] t (e 0) s) xs' ys' = eapp (e 0) [] t us vs (shown s xs ys)).
  { unfold shown, eapp, len. cbn [k_bytes k_tags k_ptags]. rewrite El.
    assert (Ez0 : forall k, esize (length t) (e k) (length s) = length s + length t) by (intros k; destruct He as [He|He]; rewrite !He; reflexivity).
    rewrite Ez0 in Q3, Q4. rewrite Q3, Q4. destruct He as [He|He]; rewrite !He; reflexivity. }
  split; [exact Sh|]. intros C. rewrite <- Sh. rewrite <- (packets_same _ _ _ _ I I0 F0 E1).
  eapply edited_packets; [exact I0|exact Vi0|exact Ed|exact C|exact I3|exact F3|exact E5].
Qed.
Lemma add_header_pkt_ok junk w i j q p : pinv [] w -> var w i = Some p -> var w j = Some q ->
  wp (add_header_pkt junk i q p w) (good (AddHeaderPkt i j) w).
Proof.
  intros I Vi Vj. destruct (view_var _ _ _ _ I Vi) as (s & xs & ys & Vw). destruct (view_var _ _ _ _ I Vj) as (t & us & vs & Vc).
  destruct (all_in_view _ _ _ _ _ Vc) as [A1 A2].
  assert (Er : ref w j = q) by (unfold ref; rewrite Vj; reflexivity).
  destruct q as [c|]; cbn [add_header_pkt].
  - eapply wp_mono; [apply (join_ok junk w i j c p (fun k => EListStart c k) I Vi Vj); left; reflexivity|].
    intros w' (I' & K & _ & H). destruct (H s xs ys t us vs Vw Vc) as (a & xs' & ys' & _ & _ & _ & _ & _ & _ & _ & P). apply good_kept; [exact I'|eapply kept_mono; [exact K|cbn; auto]|].
    intros Cl. exists []. split; [reflexivity|]. split; [|exact Logic.I]. rewrite (P Cl). cbn [pspec].
    rewrite (pk_shown _ _ _ _ _ _ Vi Vw), (pk_shown _ _ _ _ _ _ Vj Vc), Er, A1, A2. reflexivity.
  - apply good_same; [exact I| |intros x; exact Logic.I]. intros x. cbn [pspec].
    rewrite (pk_shown _ _ _ _ _ _ Vi Vw), (pk_shown _ _ _ _ _ _ Vj Vc), Er, A1, A2. cbn [view] in Vc. destruct Vc as (-> & -> & ->).
    symmetry. apply upd_pk. rewrite (pk_shown _ _ _ _ _ _ Vi Vw). f_equal. unfold join_front, len. cbn [k_bytes k_tags k_ptags shown length filter app].
    rewrite !map_shift_nil. reflexivity.
Qed.
Lemma add_trailer_pkt_ok junk w i j q p : pinv [] w -> var w i = Some p -> var w j = Some q ->
  wp (add_trailer_pkt junk i q p w) (good (AddTrailerPkt i j) w).
Proof.
  intros I Vi Vj. destruct (view_var _ _ _ _ I Vi) as (s & xs & ys & Vw). destruct (view_var _ _ _ _ I Vj) as (t & us & vs & Vc).
  destruct (all_in_view _ _ _ _ _ Vc) as [A1 A2].
  assert (Er : ref w j = q) by (unfold ref; rewrite Vj; reflexivity).
  destruct q as [c|]; cbn [add_trailer_pkt].
  - eapply wp_mono; [apply (join_ok junk w i j c p (fun k => EListEnd c k) I Vi Vj); right; reflexivity|].
    intros w' (I' & K & _ & H). destruct (H s xs ys t us vs Vw Vc) as (a & xs' & ys' & _ & _ & _ & _ & _ & _ & _ & P). apply good_kept; [exact I'|eapply kept_mono; [exact K|cbn; auto]|].
    intros Cl. exists []. split; [reflexivity|]. split; [|exact Logic.I]. rewrite (P Cl). cbn [pspec].
    rewrite (pk_shown _ _ _ _ _ _ Vi Vw), (pk_shown _ _ _ _ _ _ Vj Vc), Er, A1, A2. reflexivity.
  - apply good_same; [exact I| |intros x; exact Logic.I]. intros x. cbn [pspec].
    rewrite (pk_shown _ _ _ _ _ _ Vi Vw), (pk_shown _ _ _ _ _ _ Vj Vc), Er, A1, A2. cbn [view] in Vc. destruct Vc as (-> & -> & ->).
    symmetry. apply upd_pk. rewrite (pk_shown _ _ _ _ _ _ Vi Vw). f_equal. unfold join_back, len. cbn [k_bytes k_tags k_ptags shown length filter map].
    rewrite app_nil_r. reflexivity.
Qed.

(** Tags *)
Lemma lists_ok T T' w a y s xs ys t1 t2 xs' ys' pins : pinv T w -> live w a y -> view w (Some a) s xs ys ->
  winv t1 -> length (TagList.w_lists t1) = length (TagList.w_lists (w_bt w)) -> (forall b, b <> a -> full_of t1 b = full_of (w_bt w) b) ->
  full_of t1 a = Some (length s, xs') ->
  winv t2 -> length (TagList.w_lists t2) = length (TagList.w_lists (w_pt w)) -> (forall b, b <> a -> full_of t2 b = full_of (w_pt w) b) ->
  full_of t2 a = Some (length s, ys') ->
  TagListProofs.vals (fun v => forall c, v = Some c -> In c pins) (TagList.w_heap t2) ->
  let w' := mk_world (w_buf w) t1 t2 (w_bodies w) (w_vars w) pins in
  (forall b, refs w' T' b = refs w T b) ->
  pinv T' w' /\ frame True (eq a) w w' /\ view w' (Some a) s xs' ys'.
Proof.
  intros I L (z & Lz & B & F1 & F2) W1 L1 K1 G1 W2 L2 K2 G2 V2 w' R. rewrite (live_fun _ _ _ _ Lz L) in B. clear z Lz.
  split; [|split].
  - destruct I. split; auto.
    + unfold w'. cbn. congruence.
    + unfold w'. cbn. congruence.
    + intros c z H. change (live w c z) in H. destruct (p_live0 c z H) as (n & us & vs & Q1 & Q2 & Q3). destruct (Nat.eq_dec c a) as [->|N].
      * exists n, xs', ys'. unfold w'. cbn. rewrite G1, G2. rewrite F1 in Q2. injection Q2 as <- <-. auto.
      * exists n, us, vs. unfold w'. cbn. rewrite K1, K2 by exact N. auto.
    + intros c z H. rewrite R. apply p_rc0, H.
    + intros c. rewrite R. apply p_dead0.
  - split; auto. intros c z _ H. exists z. split; [exact H|]. split; [reflexivity|]. intros N. unfold same, w'. cbn. rewrite K1, K2 by auto. auto.
  - exists y. split; [exact L|]. auto.
Qed.
Lemma add_byte_tag_ok junk w i id v st n p : pinv [] w -> var w i = Some p -> wp (add_byte_tag junk i id v st n p w) (good (AddByteTag i id v st n) w).
Proof.
  intros I V. destruct (view_var _ _ _ _ I V) as (s & xs & ys & Vw). pose proof (var_lt _ _ _ V) as Li. unfold add_byte_tag.
  eapply wp_bind; [apply (make_private_ok junk [] w i p s xs ys I V Vw)|]. intros [w1 a] (I1 & F1 & E1 & E2 & R1 & V1 & _). cbn [fst snd] in *.
  pose proof V1 as (y & L & B & G1 & G2). rewrite on_bt_id.
  eapply bt_bind; [apply (tag_insert a id v st n _ (length s) xs (p_bt _ _ I1) G1)|]. intros t1 (W1 & L1 & K1 & zs & H1 & H2). cbn [wp].
  destruct (lists_ok [] [] w1 a y s xs ys t1 (w_pt w1) zs ys (w_pins w1) I1 L V1) as (I2 & F2 & V2); auto; try apply I1.
  change (mk_world (w_buf w1) t1 (w_pt w1) (w_bodies w1) (w_vars w1) (w_pins w1)) with (with_bt w1 t1) in *.
  assert (Ed : edited True [] w i (with_bt w1 t1) s zs ys).
  { exists a. split; [exact I2|]. split; [eapply frame_mono; [eapply frame_trans; [exact F1|exact F2]|auto|cbn; tauto]|]. auto. }
  apply good_kept; [exact I2|eapply kept_edited; [exact I|exact V|exact Ed|auto|reflexivity]|]. intros _. exists []. split; [reflexivity|]. split; [|exact Logic.I].
  cbn [pspec]. rewrite (pk_shown _ _ _ _ _ _ V Vw). cbn [shown k_bytes k_tags k_ptags].
  rewrite (edited_packets True [] [] [] w i p (with_bt w1 t1) s zs ys (with_bt w1 t1) I V Ed Logic.I I2 (frame_refl _ _ _) eq_refl), H2. reflexivity.
Qed.
Lemma add_packet_tag_full junk w i id j st n q p : pinv [] w -> var w i = Some p -> var w j = Some q ->
  wp (add_packet_tag junk i id q st n p w) (fun w' => good (AddPacketTag i id j st n) w w' /\
    (forall s xs ys, view w p s xs ys -> exists p' zs, var w' i = Some p' /\ view w' p' s xs zs) /\
    (forall c, q = Some c -> In c (w_pins w') /\ content_at w' (Some c) = content_at w (Some c))).
Proof.
  intros I V Vj. destruct (view_var _ _ _ _ I V) as (s & xs & ys & Vw). pose proof (var_lt _ _ _ V) as Li. destruct (view_var _ _ _ _ I Vj) as (t & us & vs & Vc).
  unfold add_packet_tag. eapply wp_bind; [apply (add_ref_ok [] w q I); intros b ->; eapply var_live; eauto|].
  intros w0 (I0 & F0 & E1 & E2). rewrite app_nil_r in I0.
  assert (V0 : var w0 i = Some p) by (unfold var in *; rewrite E1; exact V).
  assert (Vw0 : view w0 p s xs ys).
  { destruct p as [a|]; [|exact Vw]. eapply keep_view; [exact I0|exact F0|exact Logic.I|tauto|eapply refs_var; exact V0|exact Vw]. }
  eapply wp_bind; [apply (make_private_ok junk _ w0 i p s xs ys I0 V0 Vw0)|]. intros [w1 a] (I1 & F1 & E3 & E4 & R1 & V1 & _). cbn [fst snd] in *.
  pose proof V1 as (y & L & B & G1 & G2). set (pins := match q with Some c => c :: w_pins w1 | None => w_pins w1 end).
  eapply (pt_bind _ _ _ _ _ (fun v => forall c, v = Some c -> In c pins)); [apply (tag_insert a id q st n _ (length s) ys (p_pt _ _ I1) G2)| | |].
  { eapply TagListProofs.vals_mono; [|apply (p_vals _ _ I1)]. cbn. intros v H c Ec. unfold pins. destruct q; [right|]; auto. }
  { cbn. intros c ->. left. reflexivity. }
  intros t2 (W2 & L2 & K2 & zs & H1 & H2) V2'. cbn [wp].
  destruct (lists_ok (olist q) [] w1 a y s xs ys (w_bt w1) t2 xs zs pins I1 L V1) as (I2 & F2 & V2); auto; try apply I1.
  { intros b. unfold refs, pins. cbn. destruct q as [c|]; cbn; unfold cnt; cbn; [destruct (b =? c); cbn|]; lia. }
  change (set_pins (with_pt w1 t2) match q with Some c => c :: w_pins (with_pt w1 t2) | None => w_pins (with_pt w1 t2) end)
    with (mk_world (w_buf w1) (w_bt w1) t2 (w_bodies w1) (w_vars w1) pins).
  set (w2 := mk_world (w_buf w1) (w_bt w1) t2 (w_bodies w1) (w_vars w1) pins) in *.
  assert (F : frame True (eq a) w w2).
  { eapply frame_mono; [eapply frame_trans; [exact F0|eapply frame_trans; [exact F1|exact F2]]|auto|cbn; tauto]. }
  assert (Ev : w_vars w2 = upd (w_vars w) i (Some (Some a))) by (unfold w2; cbn; congruence).
  assert (Vi1 : var w1 i = Some (Some a)) by (unfold var; rewrite E3, nth_upd_eq; [reflexivity|rewrite E1; exact Li]).
  assert (Hp : incl (w_pins w) (w_pins w2)) by (unfold w2, pins; cbn; rewrite E4, E2; destruct q; [apply incl_tl|]; apply incl_refl).
  split; cycle 1.
  { split.
    - intros s0 xs0 ys0 Vw1. destruct (view_fun _ _ _ _ _ _ _ _ Vw1 Vw) as (-> & -> & ->). exists (Some a), zs. split; [exact Vi1|exact V2].
    - intros c ->. assert (Hc : In c pins) by (left; reflexivity). split; [exact Hc|].
      eapply keep_content; [exact I|exact I2|exact F|exact Logic.I| |eapply refs_var; exact Vj|apply refs_pin; exact Hc].
      intros ->. exact (alone_temp _ _ _ _ _ Vi1 R1 (or_introl eq_refl) eq_refl). }
  apply good_kept; [exact I2| |].
  { eapply kept_frame; [exact I|exact I2|exact F|auto| |exact Hp|].
    - intros b _ Hb <-. rewrite <- E2, <- E4 in Hb. exact (alone_pin _ _ _ _ Vi1 R1 Hb).
    - cbn [target]. intros k r _ N E. pose proof (var_upd w w2 i _ k Ev Li) as Vk. destruct (Nat.eqb_spec i k) as [->|Nk]; [tauto|]. split; [congruence|].
      intros b -> <-. apply N. symmetry. eapply alone_var; [exact Vi1|exact R1|]. unfold var. rewrite E3, nth_upd_neq by exact Nk. rewrite E1. exact E. }
  intros _. exists []. split; [reflexivity|]. split; [|exact Logic.I]. cbn [pspec]. rewrite (pk_shown _ _ _ _ _ _ V Vw), (pk_shown _ _ _ _ _ _ Vj Vc). cbn [shown k_bytes k_tags k_ptags].
  assert (Er : ref w j = q) by (unfold ref; rewrite Vj; reflexivity). rewrite Er.
  apply packets_ext; [rewrite Ev, !upd_length, packets_length; reflexivity|].
  intros k Hk. rewrite upd_length, packets_length in Hk. rewrite pk_upd by (rewrite packets_length; exact Li).
  pose proof (var_upd w w2 i _ k Ev Li) as Vk. destruct (Nat.eqb_spec i k) as [<-|N].
  - unfold packet_of. rewrite Vk. rewrite (view_content _ _ _ _ _ V2), H2. reflexivity.
  - rewrite pk_packets. destruct (var w k) as [r|] eqn:E; [|rewrite !packet_none; auto].
    eapply keep_var; [exact I|exact I2|exact F|exact Logic.I|exact E|exact Vk|]. intros b -> <-. apply N.
    eapply alone_var; [exact Vi1|exact R1|]. unfold var. rewrite E3, nth_upd_neq by exact N. rewrite E1. exact E.
Qed.

(** Buffers *)
Lemma add_packet_tag_ok junk w i id j st n q p : pinv [] w -> var w i = Some p -> var w j = Some q ->
  wp (add_packet_tag junk i id q st n p w) (good (AddPacketTag i id j st n) w).
Proof. intros I V Vj. eapply wp_mono; [apply (add_packet_tag_full junk w i id j); auto|]. intros w' [G _]. exact G. Qed.
Lemma user_buf_ok T w b : pinv T w -> binv b -> safe b -> (forall a y, live w a y -> Buffer.var b (y_buf y) = Buffer.var (w_buf w) (y_buf y)) ->
  pinv T (with_buf w b).
Proof.
  intros I Ib Sb K. destruct I. split; auto. intros a y L. change (live w a y) in L. destruct (p_live0 a y L) as (n & xs & ys & Q1 & Q2 & Q3).
  exists n, xs, ys. cbn. unfold size_of in *. rewrite (K a y L). auto.
Qed.
Lemma live_buf T w a y : pinv T w -> live w a y -> y_buf y < length (Buffer.w_bufs (w_buf w)).
Proof.
  intros I L. destruct (view_some _ _ _ _ I L) as (s & _ & _ & _ & B). eapply bytes_lt, B.
Qed.
Lemma new_buf_frame T w b : pinv T w -> length (Buffer.w_bufs b) = S (length (Buffer.w_bufs (w_buf w))) ->
  (forall j, j < length (Buffer.w_bufs (w_buf w)) -> Buffer.var b j = Buffer.var (w_buf w) j /\ bytes_of b j = bytes_of (w_buf w) j) ->
  frame True (fun _ => False) w (with_buf w b).
Proof.
  intros I Lb Kb. split; auto.
  - cbn. lia.
  - intros a y _ L. exists y. split; [exact L|]. split; [reflexivity|]. intros _. unfold same. cbn. destruct (Kb _ (live_buf _ _ _ _ I L)) as [-> ->]. auto.
  - intros k Hk O. split; [exact O|]. cbn. destruct (Kb _ Hk) as [-> ->]. auto.
Qed.
Lemma last_new T w b s : pinv T w -> length (Buffer.w_bufs b) = S (length (Buffer.w_bufs (w_buf w))) ->
  bytes_of b (length (Buffer.w_bufs (w_buf w))) = Some s -> last_buffer (with_buf w b) = Some s.
Proof.
  intros I Lb B. unfold last_buffer. cbn. rewrite Lb. cbn. rewrite Nat.sub_0_r. unfold buffer_of.
  replace (owned (with_buf w b) (length (Buffer.w_bufs (w_buf w)))) with false; [exact B|]. symmetry. apply owned_false.
  intros a y L E. pose proof (live_buf _ _ _ _ I L). lia.
Qed.
(** A new buffer variable of the user. *)
Lemma new_buf_ok junk T w o s : pinv T w ->
  (o = Buffer.New 0 /\ s = [] \/ exists k t, bytes_of (w_buf w) k = Some t /\
     (o = Buffer.Copy k /\ s = t \/ exists st n, o = Buffer.Fragment k st n /\ s = firstn n (skipn st t))) ->
  (forall b, Buffer.step junk o (w_buf w) = Done b -> BufferSpec.keeps_dirty o \/ safe b) ->
  wp (on_buf junk o w) (fun w' => pinv T w' /\ frame True (fun _ => False) w w' /\ w_vars w' = w_vars w /\ w_pins w' = w_pins w /\
    last_buffer w' = Some s).
Proof.
  intros I Ho Sf. rewrite on_buf_id.
  assert (W : wp (Buffer.step junk o (w_buf w)) (fun b' => Buffer.step junk o (w_buf w) = Done b' /\
    binv b' /\ (BufferSpec.keeps_dirty o \/ (lo = false /\ hi = false) -> safe b') /\
    length (Buffer.w_bufs b') = S (length (Buffer.w_bufs (w_buf w))) /\
    (forall j, j < length (Buffer.w_bufs (w_buf w)) -> Buffer.var b' j = Buffer.var (w_buf w) j /\ bytes_of b' j = bytes_of (w_buf w) j) /\
    bytes_of b' (length (Buffer.w_bufs (w_buf w))) = Some s)).
  { pose proof (buf_create lo hi junk o (w_buf w) s (p_buf _ _ I) (p_safe _ _ I) Ho) as H.
    destruct (Buffer.step junk o (w_buf w)); cbn [wp] in *; auto. }
  eapply buf_bind; [exact W|]. intros b (E & Ib & Sb & Lb & Kb & Bb). cbn [wp].
  split; [|split; [eapply new_buf_frame; eauto|split; [reflexivity|split; [reflexivity|eapply last_new; eauto]]]].
  apply user_buf_ok; [exact I|exact Ib|destruct (Sf b E); auto|]. intros a y L. apply Kb. eapply live_buf; eauto.
Qed.
Lemma get_buffer_ok junk w i p : pinv [] w -> var w i = Some p -> wp (get_buffer junk p w) (good (GetBuffer i) w).
Proof.
  intros I V. destruct (view_var _ _ _ _ I V) as (s & xs & ys & Vw).
  assert (G : forall w', pinv [] w' /\ frame True (fun _ => False) w w' /\ w_vars w' = w_vars w /\ w_pins w' = w_pins w /\ last_buffer w' = Some s -> good (GetBuffer i) w w').
  { intros w' (I' & F & E1 & E2 & Lb). apply good_kept; [exact I'|eapply kept_tt; eauto|]. intros _. exists []. split; [reflexivity|].
    split; [apply (packets_same _ _ _ _ I I' F E1)|]. cbn. rewrite (var_packet _ _ _ _ _ _ V Vw). intros k E. injection E as <-. exact Lb. }
  destruct p as [a|]; cbn [get_buffer].
  - destruct Vw as (y & L & B & _). rewrite (get_body_ok _ _ _ L). cbn [obind]. eapply wp_mono; [apply (new_buf_ok junk [] w _ s I)|exact G].
    + right. exists (y_buf y), s. auto.
    + intros b _. left. exact Logic.I.
  - cbn [view] in Vw. eapply wp_mono; [apply (new_buf_ok junk [] w _ s I)|exact G].
    + left. tauto.
    + intros b _. left. exact Logic.I.
Qed.
(** What variable [i] shows after edit [e]. *)
Definition own w w' i p (e : edit) : Prop := forall s xs ys, view w p s xs ys ->
  exists x p' xs' ys', length x = elen e /\ var w' i = Some p' /\ view w' p' (ebytes x [] e s) xs' ys' /\
    efull e (length s) xs 0 [] xs' /\ filter (touches (esize 0 e (length s))) xs' = etags 0 [] e (length s) (filter (touches (length s)) xs).
Lemma add_header_full junk w i n p : hi = false -> pinv [] w -> var w i = Some p ->
  wp (add_header junk i n p w) (fun w' => good (AddHeader i n) w w' /\ own w w' i p (EAddStart n)).
Proof.
  intros Hh I V. destruct (view_var _ _ _ _ I V) as (s & xs & ys & Vw). pose proof (var_lt _ _ _ V) as Li. unfold add_header.
  eapply wp_bind; [apply (make_private_ok junk [] w i p s xs ys I V Vw)|]. intros [w1 a] (I1 & F1 & E1 & E2 & R1 & V1 & _). cbn [fst snd] in *.
  pose proof V1 as (y & L & B & G1 & G2).
  assert (Ok : eok w1 a y (EAddStart n) s [] [] []) by (split; [intros j E; discriminate|split; [intros c E; discriminate|exact Logic.I]]).
  eapply wp_bind; [apply (mutate_ok junk [] w1 a y (EAddStart n) s xs ys [] [] [] I1 L V1 Ok)|].
  intros w2 (I2 & F2 & E3 & E4 & E5 & Lb & Hb & x & xs' & ys' & Lx & V2 & Q1 & _ & Q3 & Q4). cbn [eb elen esize etags ebytes eside length] in *.
  assert (L2 : live w2 a y) by (unfold live; rewrite E3; exact L). rewrite (get_body_ok _ _ _ L2). cbn [obind].
  assert (Ed : edited True [] w i w2 (x ++ s) xs' ys').
  { exists a. split; [exact I2|]. split; [eapply frame_mono; [eapply frame_trans; [exact F1|exact F2]|auto|cbn; tauto]|].
    split; [congruence|]. split; [congruence|]. split; [|exact V2]. unfold refs in *. rewrite E4, E5. exact R1. }
  pose proof V2 as (y2 & L2' & B2 & _). rewrite (live_fun _ _ _ _ L2' L2) in B2.
  eapply wp_mono; [apply (new_buf_ok junk [] w2 (Buffer.Fragment (y_buf y) 0 n) x I2)|].
  - right. exists (y_buf y), (x ++ s). split; [exact B2|]. right. exists 0, n. split; [reflexivity|]. cbn [skipn]. rewrite <- Lx, firstn_app, Nat.sub_diag, firstn_all. cbn. rewrite app_nil_r. reflexivity.
  - intros b E. right. eapply header_safe; [exact Hh|apply I1|apply I1|exact Hb|exact E].
  - intros w3 (I3 & F3 & E6 & E7 & La). split; cycle 1.
    { intros s0 xs0 ys0 Vw0. destruct (view_fun _ _ _ _ _ _ _ _ Vw0 Vw) as (-> & -> & ->). exists x, (Some a), xs', ys'.
      assert (Vi3 : var w3 i = Some (Some a)).
      { destruct Ed as (a0 & _ & _ & Ea & _). unfold var. rewrite E6, E4, E1, nth_upd_eq by exact Li. reflexivity. }
      split; [exact Lx|]. split; [exact Vi3|]. split; [eapply keep_view; [exact I3|exact F3|exact Logic.I|tauto|eapply refs_var; exact Vi3|exact V2]|auto]. }
    apply good_kept; [exact I3| |].
    { eapply kept_trans; [eapply kept_edited; [exact I|exact V|exact Ed|auto|reflexivity]|eapply kept_tt; [exact I2|exact I3|exact F3|exact E7|exact E6]]. }
    intros _. exists x. split; [exact Lx|]. split; [|intros _; exact La]. cbn [pspec]. rewrite (pk_shown _ _ _ _ _ _ V Vw).
    rewrite (edited_packets True [] [] [] w i p w2 (x ++ s) xs' ys' w3 I V Ed Logic.I I3 F3 E6). rewrite app_length, (Nat.add_comm (length x)), Lx, Q3, Q4.
    unfold front, shown. cbn [k_bytes k_tags k_ptags]. rewrite Lx. reflexivity.
Qed.
Lemma add_header_ok junk w i n p : hi = false -> pinv [] w -> var w i = Some p -> wp (add_header junk i n p w) (good (AddHeader i n) w).
Proof. intros Hh I V. eapply wp_mono; [apply add_header_full; auto|]. intros w' [G _]. exact G. Qed.
Lemma add_trailer_full junk w i n p : lo = false -> pinv [] w -> var w i = Some p ->
  wp (add_trailer junk i n p w) (fun w' => good (AddTrailer i n) w w' /\ own w w' i p (EAddEnd n)).
Proof.
  intros Hh I V. destruct (view_var _ _ _ _ I V) as (s & xs & ys & Vw). pose proof (var_lt _ _ _ V) as Li. unfold add_trailer.
  eapply wp_bind; [apply (make_private_ok junk [] w i p s xs ys I V Vw)|]. intros [w1 a] (I1 & F1 & E1 & E2 & R1 & V1 & _). cbn [fst snd] in *.
  pose proof V1 as (y & L & B & G1 & G2).
  assert (Ok : eok w1 a y (EAddEnd n) s [] [] []) by (split; [intros j E; discriminate|split; [intros c E; discriminate|exact Logic.I]]).
  eapply wp_bind; [apply (mutate_ok junk [] w1 a y (EAddEnd n) s xs ys [] [] [] I1 L V1 Ok)|].
  intros w2 (I2 & F2 & E3 & E4 & E5 & Lb & Hb & x & xs' & ys' & Lx & V2 & Q1 & _ & Q3 & Q4). cbn [eb elen esize etags ebytes eside length] in *.
  assert (L2 : live w2 a y) by (unfold live; rewrite E3; exact L). rewrite (get_body_ok _ _ _ L2). cbn [obind].
  assert (Ed : edited True [] w i w2 (s ++ x) xs' ys').
  { exists a. split; [exact I2|]. split; [eapply frame_mono; [eapply frame_trans; [exact F1|exact F2]|auto|cbn; tauto]|].
    split; [congruence|]. split; [congruence|]. split; [|exact V2]. unfold refs in *. rewrite E4, E5. exact R1. }
  pose proof V2 as (y2 & L2' & B2 & _). rewrite (live_fun _ _ _ _ L2' L2) in B2.
  rewrite (buf_size_ok _ _ _ (p_buf _ _ I2) B2), app_length, Lx, Nat.add_sub.
  eapply wp_mono; [apply (new_buf_ok junk [] w2 (Buffer.Fragment (y_buf y) (length s) n) x I2)|].
  - right. exists (y_buf y), (s ++ x). split; [exact B2|]. right. exists (length s), n. split; [reflexivity|].
    rewrite skipn_app, skipn_all, Nat.sub_diag. cbn [skipn app]. rewrite <- Lx, firstn_all. reflexivity.
  - intros b E. right. eapply trailer_safe; [exact Hh|apply I1|apply I1|exact Hb|exact E|].
    intros c Ec. destruct (bytes_var (w_buf w2) (y_buf y) c) as (s2 & B3 & Ls); [apply I2|apply BufferProofs.var_some, Ec|].
    rewrite B2 in B3. injection B3 as <-. rewrite app_length, Lx in Ls. exact Ls.
  - intros w3 (I3 & F3 & E6 & E7 & La). split; cycle 1.
    { intros s0 xs0 ys0 Vw0. destruct (view_fun _ _ _ _ _ _ _ _ Vw0 Vw) as (-> & -> & ->). exists x, (Some a), xs', ys'.
      assert (Vi3 : var w3 i = Some (Some a)).
      { destruct Ed as (a0 & _ & _ & Ea & _). unfold var. rewrite E6, E4, E1, nth_upd_eq by exact Li. reflexivity. }
      split; [exact Lx|]. split; [exact Vi3|]. split; [eapply keep_view; [exact I3|exact F3|exact Logic.I|tauto|eapply refs_var; exact Vi3|exact V2]|auto]. }
    apply good_kept; [exact I3| |].
    { eapply kept_trans; [eapply kept_edited; [exact I|exact V|exact Ed|auto|reflexivity]|eapply kept_tt; [exact I2|exact I3|exact F3|exact E7|exact E6]]. }
    intros _. exists x. split; [exact Lx|]. split; [|intros _; exact La]. cbn [pspec]. rewrite (pk_shown _ _ _ _ _ _ V Vw).
    rewrite (edited_packets True [] [] [] w i p w2 (s ++ x) xs' ys' w3 I V Ed Logic.I I3 F3 E6). rewrite app_length, Lx, Q3, Q4. reflexivity.
Qed.
Lemma add_trailer_ok junk w i n p : lo = false -> pinv [] w -> var w i = Some p -> wp (add_trailer junk i n p w) (good (AddTrailer i n) w).
Proof. intros Hh I V. eapply wp_mono; [apply add_trailer_full; auto|]. intros w' [G _]. exact G. Qed.
Lemma mentions_target o k : BufferSpec.target o k -> In k (mentions o).
Proof. destruct o; cbn; intuition. Qed.
Lemma on_buf_ok junk w o : fits lo hi (OnBuf o : op BV) -> pinv [] w -> existsb (owned w) (mentions o) = false -> wp (on_buf junk o w) (good (OnBuf o) w).
Proof.
  intros Hf I M.
  assert (Mt : forall a y, live w a y -> ~ BufferSpec.target o (y_buf y)).
  { intros a y L T. apply mentions_target in T. apply Bool.not_true_iff_false in M. apply M. apply existsb_exists. exists (y_buf y).
    split; [exact T|]. apply owned_true. eauto. }
  rewrite on_buf_id. pose proof (buf_op lo hi junk o (w_buf w) (p_buf _ _ I) (p_safe _ _ I)) as H. pose proof (step_len junk o (w_buf w)) as SL.
  unfold on_buf. destruct (Buffer.step junk o (w_buf w)) as [b| | |]; cbn [obind wp] in *; auto. destruct H as (Ib & Sb & G). destruct (SL b eq_refl) as [L1 L2]. clear SL.
  change (mk_world b (w_bt w) (w_pt w) (w_bodies w) (w_vars w) (w_pins w)) with (with_buf w b).
  assert (I' : pinv [] (with_buf w b)).
  { apply user_buf_ok; auto. intros a y L. apply L2; [eapply live_buf; eauto|eapply Mt; eauto]. }
  assert (Lb : length (Buffer.w_bufs (w_buf w)) <= length (Buffer.w_bufs b)) by lia.
  assert (Kb : clean lo hi (OnBuf o : op BV) w -> forall k, k < length (Buffer.w_bufs (w_buf w)) -> ~ BufferSpec.target o k -> bytes_of b k = bytes_of (w_buf w) k).
  { intros (C1 & C2 & C3 & C4) k Hk N. destruct (G C3) as (x & _ & _ & Ga). rewrite <- !str_table, Ga; [|destruct o; cbn in *; intuition|exact C4].
    apply spec_frame; [rewrite table_len; exact Hk|exact N]. }
  assert (Kc : clean lo hi (OnBuf o : op BV) w -> forall a, content_at (with_buf w b) (Some a) = content_at w (Some a)).
  { intros C a. cbn [content_at with_buf w_bodies w_bt w_pt w_buf]. destruct (nth_error (w_bodies w) a) as [[y|]|] eqn:E; try reflexivity.
    rewrite (Kb C); [reflexivity|eapply live_buf; eauto|eapply Mt; eauto]. }
  split; auto.
  - intros C. exists []. split; [reflexivity|]. split; [|exact Logic.I]. cbn [pspec]. apply packets_ext; [rewrite packets_length; reflexivity|].
    intros i _. rewrite pk_packets. unfold packet_of. change (var (with_buf w b) i) with (var w i). destruct (var w i) as [[a|]|]; try reflexivity. apply (Kc C).
  - apply incl_refl.
  - intros j p s xs ys C _ V Vw. split; [exact V|]. destruct p as [a|]; [|exact Vw]. destruct Vw as (y & L & B & F1 & F2). exists y.
    split; [exact L|]. split; [|auto]. rewrite <- B. apply (Kb C); [eapply live_buf; eauto|eapply Mt; eauto].
Qed.
Lemma from_buf_ok junk w k c : pinv [] w -> owned w k = false -> Buffer.var (w_buf w) k = Some c -> wp (from_buf junk k w) (good (FromBuf k) w).
Proof.
  intros I O Vk. destruct (user_bytes _ _ _ (p_buf _ _ I) O Vk) as (t & B & B1 & B2). unfold from_buf. rewrite (buf_size_ok _ _ _ (p_buf _ _ I) B).
  eapply wp_bind; [apply (new_body_ok junk [] w I)|]. intros [w1 a] (Ea & I1 & F1 & E1 & E2 & L1 & V1 & K1). cbn [fst snd] in *.
  destruct (fr_user _ _ _ _ F1 k (bytes_lt _ _ _ B) O) as (O1 & _ & Bk). specialize (Bk Logic.I). rewrite B in Bk.
  set (y := mk_body 1 (length (Buffer.w_bufs (w_buf w)))) in *.
  assert (Ok : eok w1 a y (ESet k (length t)) [] t [] []).
  { split; [|split; [intros d E; discriminate|auto]]. intros j E. injection E as <-. split; [|exact Bk]. cbn. pose proof (bytes_lt _ _ _ B). lia. }
  eapply wp_bind; [apply (mutate_ok junk [a] w1 a y (ESet k (length t)) [] [] [] t [] [] I1 L1 V1 Ok)|].
  intros w2 (I2 & F2 & E3 & E4 & E5 & Lb & Hb & x & xs' & ys' & Lx & V2 & _ & _ & Q3 & Q4). cbn [wp eb elen esize etags ebytes eside length Nat.add filter] in *.
  assert (I3 : pinv [] (add_var w2 (Some a))) by apply (add_var_ok w2 (Some a) [] I2).
  assert (F : frame True (eq a) w (add_var w2 (Some a))).
  { eapply frame_mono; [eapply frame_trans; [exact F1|eapply frame_trans; [exact F2|apply (frame_vars True (fun _ => False)); reflexivity]]|auto|cbn; tauto]. }
  assert (Na : forall b, 0 < refs w [] b -> a <> b).
  { intros b R <-. subst a. rewrite (fresh_refs _ _ I) in R. lia. }
  apply good_kept; [exact I3| |].
  - eapply kept_frame; [exact I|exact I3|exact F|auto| |cbn; rewrite E5, E2; apply incl_refl|].
    + intros b _ Hb'. apply Na, refs_pin, Hb'.
    + intros j q _ _ Vj. split; [|intros b ->; apply Na; eapply refs_var, Vj]. pose proof (var_lt _ _ _ Vj). unfold var, add_var in *. cbn.
      rewrite E4, E1, nth_error_app1 by lia. exact Vj.
  - intros _. exists []. split; [reflexivity|]. split; [|exact Logic.I]. cbn [pspec]. rewrite B1, B2.
    apply packets_ext; [cbn; rewrite !app_length, packets_length, E4, E1; reflexivity|]. intros j Hj. rewrite app_length, packets_length in Hj. cbn in Hj.
    assert (Ev : var (add_var w2 (Some a)) j = if j =? length (w_vars w) then Some (Some a) else var w j).
    { unfold var, add_var. cbn. rewrite E4, E1. destruct (Nat.eqb_spec j (length (w_vars w))) as [->|N].
      - rewrite nth_error_app2, Nat.sub_diag by lia. reflexivity.
      - rewrite nth_error_app1 by lia. reflexivity. }
    rewrite pk_app, packets_length. destruct (Nat.eqb_spec j (length (w_vars w))) as [->|N].
    + unfold packet_of. rewrite Ev. assert (V3 : view (add_var w2 (Some a)) (Some a) t xs' ys') by exact V2.
      rewrite (view_content _ _ _ _ _ V3), Q3, Q4. reflexivity.
    + rewrite pk_packets. destruct (var w j) as [q|] eqn:E; [|rewrite !packet_none; auto].
      eapply keep_var; [exact I|exact I3|exact F|exact Logic.I|exact E|exact Ev|]. intros b ->. apply Na. eapply refs_var, E.
Qed.
Lemma copy_tags_ok w i j p q : pinv [] w -> var w i = Some p -> var w j = Some q -> wp (copy_tags p q w) (good (CopyTags i j) w).
Proof.
  intros I Vi Vj. destruct (view_var _ _ _ _ I Vi) as (s & xs & ys & Vw). destruct (view_var _ _ _ _ I Vj) as (t & us & vs & Vc).
  assert (Ei : ref w i = p) by (unfold ref; rewrite Vi; reflexivity). assert (Ej : ref w j = q) by (unfold ref; rewrite Vj; reflexivity).
  assert (Nop : (p = None \/ q = None) -> good (CopyTags i j) w w).
  { intros H. apply good_same; [exact I| |intros x; exact Logic.I]. intros x. cbn [pspec]. rewrite (pk_shown _ _ _ _ _ _ Vi Vw), (pk_shown _ _ _ _ _ _ Vj Vc), Ei, Ej.
    destruct H as [-> | ->]; [|destruct p]; reflexivity. }
  destruct p as [a|]; [|apply Nop; auto]. destruct q as [c|]; [|apply Nop; auto]. clear Nop. cbn [copy_tags].
  pose proof Vw as (y & L & B & G1 & G2). pose proof Vc as (z & Lz & Bz & H1 & H2). rewrite (get_body_ok _ _ _ L), (get_body_ok _ _ _ Lz). cbn [obind].
  rewrite (buf_size_ok _ _ _ (p_buf _ _ I) B), (buf_size_ok _ _ _ (p_buf _ _ I) Bz). destruct (Nat.eqb_spec (length s) (length t)) as [El|]; cbn [negb]; [|exact Logic.I].
  eapply bt_bind; [apply (tag_assign a c _ _ _ (p_bt _ _ I) G1 H1)|]. intros t1 (W1 & L1 & K1 & A1). rewrite on_pt_id.
  eapply pt_bind; [apply (tag_assign a c _ _ _ (p_pt _ _ I) G2 H2)|apply I|exact Logic.I|]. intros t2 (W2 & L2 & K2 & A2) Vl. cbn [wp].
  rewrite <- El in A1, A2. destruct (lists_ok [] [] w a y s xs ys t1 t2 us vs (w_pins w) I L Vw) as (I2 & F2 & V2); auto.
  change (mk_world (w_buf w) t1 t2 (w_bodies w) (w_vars w) (w_pins w)) with (with_pt (with_bt w t1) t2) in *. set (w' := with_pt (with_bt w t1) t2) in *.
  apply good_kept; [exact I2| |].
  - eapply kept_frame; [exact I|exact I2|exact F2|auto| |apply incl_refl|].
    + intros b Cl Hb <-. cbn in Cl. destruct (Cl a Ei) as [N _]. exact (N Hb).
    + intros k r Cl N Vk. split; [exact Vk|]. intros b -> <-. destruct (Cl a Ei) as [_ N']. exact (N' k N Vk).
  - intros Cl. cbn in Cl. destruct (Cl a Ei) as [_ N]. exists []. split; [reflexivity|]. split; [|exact Logic.I]. cbn [pspec].
    rewrite (pk_shown _ _ _ _ _ _ Vi Vw), (pk_shown _ _ _ _ _ _ Vj Vc), Ei, Ej. pose proof (var_lt _ _ _ Vi) as Li.
    apply packets_ext; [rewrite upd_length, packets_length; reflexivity|]. intros k Hk. rewrite pk_upd by (rewrite packets_length; exact Li).
    destruct (Nat.eqb_spec i k) as [<-|Nk].
    + unfold packet_of. change (var w' i) with (var w i). rewrite Vi, (view_content _ _ _ _ _ V2). cbn [shown k_bytes k_tags k_ptags]. rewrite El. reflexivity.
    + rewrite pk_packets. destruct (var w k) as [r|] eqn:E; [|rewrite !packet_none; auto].
      eapply keep_var; [exact I|exact I2|exact F2|exact Logic.I|exact E|exact E|]. intros b -> <-. apply (N k); auto.
Qed.
Lemma get_packet_tag_ok w i id k p : pinv [] w -> var w i = Some p -> wp (get_packet_tag id k p w) (good (GetPacketTag i id k) w).
Proof.
  intros I V. destruct (view_var _ _ _ _ I V) as (s & xs & ys & Vw). destruct p as [a|]; cbn [get_packet_tag]; [|exact Logic.I].
  pose proof Vw as (y & L & B & G1 & G2). destruct (TagList.var (w_pt w) a) as [l|] eqn:E; [|unfold full_of in G2; rewrite E in G2; discriminate].
  pose proof (TagListProofs.get_spec (w_pt w) a (length s) _ l id k (p_pt _ _ I) (full_some _ _ _ _ G2) E) as Gt. rewrite Gt. revert Gt.
  destruct (k <? length s); [|intros _; exact Logic.I]. destruct (find _ _) as [x|] eqn:Fd. 2: { intros _. exact Logic.I. } intros Gt'. cbn [obind].
  pose proof (TagListProofs.vals_get_tag _ _ _ _ _ _ (p_vals _ _ I) Gt') as Hp. cbn in Hp.
  eapply wp_mono; [apply (copy_new_ok w (TagList.x_val x) I); intros c Ec; eapply pin_live; eauto|]. intros w' M.
  apply good_kept; [apply M|eapply kept_moved; [exact I|exact M|intros j _ Hj; apply nth_error_app1, Hj]|]. intros _. exists []. split; [reflexivity|]. split; [|exact Logic.I].
  cbn [pspec]. rewrite (pk_shown _ _ _ _ _ _ V Vw). cbn [shown k_ptags]. rewrite Fd. 
  eapply moved_packets; [exact I|exact M|rewrite !app_length, packets_length; reflexivity|]. intros j Hj. rewrite app_length in Hj. cbn in Hj.
  rewrite pk_app, packets_length. unfold var_in. destruct (Nat.eqb_spec j (length (w_vars w))) as [->|N].
  - rewrite nth_error_app2, Nat.sub_diag by lia. cbn [nth_error]. destruct (TagList.x_val x) as [c|]; [right|reflexivity]. split; [auto|reflexivity].
  - rewrite nth_error_app1 by lia. rewrite pk_packets. fold (var w j). destruct (var w j) as [[b|]|] eqn:Vj; [left; exists j; auto| |]; unfold packet_of; rewrite Vj; reflexivity.
Qed.
Lemma make_fragment_full junk w i st n p : pinv [] w -> var w i = Some p ->
  wp (make_fragment junk st n p w) (fun w' => good (MakeFrag i st n) w w' /\
    forall s xs ys, view w p s xs ys -> st + n <= length s + (st - length s) /\ exists p' zs, var w' (length (w_vars w)) = Some p' /\
      view w' p' (BufferSpec.drop_last (length s - st - n) (skipn st s)) (map (shift (- Z.of_nat st)) xs) zs).
Proof.
  intros I V. destruct (view_var _ _ _ _ I V) as (s & xs & ys & Vw). unfold make_fragment. set (f := length (w_vars w)).
  eapply wp_bind; [apply (copy_new_ok w p I); intros c ->; eapply var_live; eauto|]. intros w1 M. pose proof M as (I1 & F1 & E1 & E2).
  assert (Vf : var w1 f = Some p) by (unfold var, f; rewrite E1, nth_error_app2, Nat.sub_diag by lia; reflexivity).
  assert (Vw1 : view w1 p s xs ys).
  { destruct p as [a|]; [|exact Vw]. eapply keep_view; [exact I1|exact F1|exact Logic.I|tauto|eapply refs_var; exact Vf|exact Vw]. }
  assert (P1 : packets w1 = packets w ++ [Some (shown s xs ys)]).
  { eapply moved_packets; [exact I|exact M|rewrite !app_length, packets_length; reflexivity|]. intros j Hj. rewrite app_length in Hj. cbn in Hj.
    rewrite pk_app, packets_length. unfold var_in. destruct (Nat.eqb_spec j (length (w_vars w))) as [->|N].
    - rewrite nth_error_app2, Nat.sub_diag by lia. cbn [nth_error]. destruct p as [c|].
      + left. exists i. split; [exact V|]. symmetry. eapply var_packet; eauto.
      + cbn [view] in Vw. destruct Vw as (-> & -> & ->). reflexivity.
    - rewrite nth_error_app1 by lia. rewrite pk_packets. fold (var w j). destruct (var w j) as [[b|]|] eqn:Vj; [left; exists j; auto| |]; unfold packet_of; rewrite Vj; reflexivity. }
  eapply wp_bind. { apply (edit_packets junk w1 f p (ERemStart st) s xs ys [] [] [] _ I1 Vf Vw1); [reflexivity|intros k; reflexivity]. }
  intros w2 (I2 & K2 & _ & x & xs2 & ys2 & Lx & (a & _ & _ & E3 & _ & _ & V2) & Q2 & _ & Sh2 & P2). specialize (P2 Logic.I). destruct x; [|discriminate].
  assert (Lf : f < length (w_vars w1)) by (eapply var_lt, Vf).
  assert (Vf2 : var w2 f = Some (Some a)) by (rewrite (var_upd w1 _ _ _ f E3 Lf), Nat.eqb_refl; reflexivity). rewrite Vf2.
  pose proof V2 as (y & L & B & _). rewrite (get_body_ok _ _ _ L). cbn [obind]. rewrite (buf_size_ok _ _ _ (p_buf _ _ I2) B).
  cbn [ebytes] in *. rewrite skipn_length. destruct (Nat.ltb_spec (length s - st) n) as [|Hn]; [exact Logic.I|].
  eapply wp_mono. { apply (edit_packets junk w2 f (Some a) (ERemEnd (length s - st - n)) (skipn st s) xs2 ys2 [] [] [] _ I2 Vf2 V2); [reflexivity|intros k; reflexivity]. }
  intros w3 (I3 & K3 & _ & x & xs3 & ys3 & Lx3 & Ed3 & Q3 & _ & _ & P3). specialize (P3 Logic.I). destruct x; [|discriminate].
  split; cycle 1.
  { intros s0 xs0 ys0 Vw0. destruct (view_fun _ _ _ _ _ _ _ _ Vw0 Vw) as (-> & -> & ->). split; [lia|]. destruct Ed3 as (b & _ & _ & E4 & _ & _ & V3).
    exists (Some b), ys3. split.
    - unfold var. fold f. rewrite E4, nth_upd_eq; [reflexivity|]. rewrite E3, upd_length. exact Lf.
    - cbn [efull] in Q2, Q3. subst xs3 xs2. exact V3. }
  apply good_kept; [exact I3| |].
  { apply (kept_mono _ (fun j => f <= j)); [|intros j Hj Hf; unfold f in Hf; lia].
    eapply kept_trans; [eapply kept_moved; [exact I|exact M|]|eapply kept_trans; (eapply kept_mono; [eassumption|intros j _ <-; auto])].
    intros j _ Hj. apply nth_error_app1, Hj. }
  intros _. exists []. split; [reflexivity|]. split; [|exact Logic.I]. rewrite P3, P2, P1, Sh2. cbn [pspec]. rewrite (pk_shown _ _ _ _ _ _ V Vw).
  unfold f. rewrite <- packets_length, !upd_last, eapp_rem_start, eapp_rem_end. do 2 f_equal. f_equal.
  unfold slice, len. cbn [shown k_bytes k_tags k_ptags]. rewrite !map_shift0, firstn_skipn_all, skipn_length. cbn [skipn].
  replace (length s - st - (length s - st - n)) with n by lia.
  assert (Ff : forall V (l : list (TagList.tag_index V)), filter (touches n) (filter (touches (length s - st)) l) = filter (touches n) l).
  { intros V0 l. induction l as [|z l IH]; [reflexivity|]. cbn [filter]. destruct (touches (length s - st) z) eqn:T; cbn [filter]; rewrite IH; [reflexivity|].
    replace (touches n z) with false; [reflexivity|]. symmetry. unfold TagListSpec.touches in *. lia. }
  rewrite !Ff. reflexivity.
Qed.

Lemma make_fragment_ok junk w i st n p : pinv [] w -> var w i = Some p -> wp (make_fragment junk st n p w) (good (MakeFrag i st n) w).
Proof. intros I V. eapply wp_mono; [apply (make_fragment_full junk w i); auto|]. intros w' [G _]. exact G. Qed.

(** ** All statements *)

Lemma assign_good junk w i j p q : pinv [] w -> var w i = Some p -> var w j = Some q -> wp (assign junk i p q w) (good (Assign i j) w).
Proof.
  intros I Vi Vj. destruct (view_var _ _ _ _ I Vi) as (s & xs & ys & Vw). destruct (view_var _ _ _ _ I Vj) as (t & us & vs & Vc).
  eapply wp_mono; [apply (assign_ok junk w i j p q I Vi Vj)|]. intros w' M. apply good_kept; [apply M|eapply kept_moved; [exact I|exact M|intros k N _; apply nth_upd_neq; intros <-; apply N; reflexivity]|].
  intros _. exists []. split; [reflexivity|]. split; [|exact Logic.I]. cbn [pspec]. rewrite (pk_shown _ _ _ _ _ _ Vi Vw), (pk_shown _ _ _ _ _ _ Vj Vc).
  pose proof (var_lt _ _ _ Vi) as Li. eapply moved_packets; [exact I|exact M|rewrite !upd_length, packets_length; reflexivity|].
  intros k Hk. rewrite pk_upd by (rewrite packets_length; exact Li). unfold var_in. rewrite nth_upd.
  destruct (Nat.eqb_spec i k) as [<-|N]; cbn [andb].
  - rewrite (proj2 (Nat.ltb_lt _ _) Li). destruct q as [c|].
    + left. exists j. split; [exact Vj|]. symmetry. eapply var_packet; eauto.
    + cbn [view] in Vc. destruct Vc as (-> & -> & ->). reflexivity.
  - rewrite pk_packets. fold (var w k). destruct (var w k) as [[b|]|] eqn:E; [left; exists k; auto| |]; unfold packet_of; rewrite E; reflexivity.
Qed.
(** The general case of variables that are moved around. *)
Lemma moved_good o w w' l (A : list (option (pkt BV))) : pinv [] w -> moved w w' l -> extra o = 0 -> (forall x, returned w x o w') ->
  length A = length l -> (clean lo hi o w -> pspec w [] o (packets w) = A) ->
  (forall j, ~ target o j -> j < length (w_vars w) -> nth_error l j = nth_error (w_vars w) j) ->
  (forall k, k < length l -> match var_in l k with
    | None => pk A k = None
    | Some None => pk A k = Some no_pkt
    | Some (Some a) => exists i, var w i = Some (Some a) /\ pk A k = packet_of w i
    end) -> good o w w'.
Proof.
  intros I M Ex Rt La Ps Hk H. apply good_kept; [apply M|eapply kept_moved; [exact I|exact M|exact Hk]|]. intros C. exists []. split; [auto|]. split; [|apply Rt].
  rewrite (Ps C). eapply moved_packets; [exact I|exact M|exact La|]. intros k Hl. specialize (H k Hl). destruct (var_in l k) as [[a|]|]; auto.
Qed.
Lemma same_var w k : match var w k with
    | None => pk (packets w) k = None
    | Some None => pk (packets w) k = Some no_pkt
    | Some (Some a) => exists i, var w i = Some (Some a) /\ pk (packets w) k = packet_of w i
    end.
Proof. rewrite pk_packets. destruct (var w k) as [[a|]|] eqn:E; [exists k; auto| |]; unfold packet_of; rewrite E; reflexivity. Qed.
Lemma app_var (l : list (option (option nat))) x k : k < S (length l) -> var_in (l ++ [x]) k = if k =? length l then x else var_in l k.
Proof.
  intros H. unfold var_in. destruct (Nat.eqb_spec k (length l)) as [->|N].
  - rewrite nth_error_app2, Nat.sub_diag by lia. reflexivity.
  - rewrite nth_error_app1 by lia. reflexivity.
Qed.
Lemma upd_var (l : list (option (option nat))) i x k : i < length l -> var_in (upd l i x) k = if i =? k then x else var_in l k.
Proof.
  intros L. unfold var_in. rewrite nth_upd. destruct (Nat.eqb_spec i k) as [->|N]; cbn [andb]; [|reflexivity].
  rewrite (proj2 (Nat.ltb_lt _ _) L). reflexivity.
Qed.
Lemma one_var w i p : var w i = Some p -> match p with
    | None => packet_of w i = Some no_pkt
    | Some a => exists k, var w k = Some (Some a) /\ packet_of w i = packet_of w k
    end.
Proof. intros V. destruct p as [a|]; [exists i; auto|]. unfold packet_of. rewrite V. reflexivity. Qed.

Theorem step_good junk o w : pinv [] w -> fits lo hi o -> wp (step junk o w) (good o w).
Proof.
  intros I Hf.
  assert (On : forall i f, (forall p, var w i = Some p -> wp (f p) (good o w)) ->
    (var w i = None -> good o w w) -> wp (match var w i with Some p => f p | None => Done w end) (good o w)).
  { intros i f H N. destruct (var w i); auto. cbn [wp]. auto. }
  assert (Us : forall k r, (forall c, owned w k = false -> Buffer.var (w_buf w) k = Some c -> wp r (good o w)) ->
    (buffer_of w k = None -> good o w w) ->
    wp (if owned w k then Done w else match Buffer.var (w_buf w) k with Some _ => r | None => Done w end) (good o w)).
  { intros k r H N. unfold buffer_of in N. destruct (owned w k); [cbn [wp]; auto|]. destruct (Buffer.var (w_buf w) k) eqn:E; [eauto|].
    cbn [wp]. apply N. unfold bytes_of. rewrite E. reflexivity. }
  assert (No : forall i, var w i = None -> forall x, (forall A, pk A i = None -> pspec w x o A = A) -> packets w = pspec w x o (packets w)).
  { intros i N x H. symmetry. apply H, pk_none, N. }
  destruct o; cbn [step fits] in *.
  - (* New *)
    pose proof (copy_new_ok w None I) as M. cbn [copy_new add_ref obind wp] in M. cbn [wp].
    eapply (moved_good _ _ _ _ (packets w ++ [Some no_pkt]) I (M ltac:(discriminate))); [reflexivity|intros x; exact Logic.I| |reflexivity|intros j _ Hj; apply nth_error_app1, Hj|].
    + rewrite !app_length, packets_length. reflexivity.
    + intros k Hk. rewrite app_length in Hk. cbn in Hk. rewrite app_var, pk_app, packets_length by lia.
      destruct (k =? length (w_vars w)); [reflexivity|]. rewrite <- var_in_eq. apply same_var.
  - (* FromBuf *)
    apply Us; [intros c O Vk; eapply from_buf_ok; eauto|]. intros N. apply good_same; [exact I| |intros x; exact Logic.I]. intros x. cbn. rewrite N. reflexivity.
  - (* Copy *)
    apply On.
    + intros p V. eapply wp_mono; [apply (copy_new_ok w p I); intros c ->; eapply var_live; eauto|]. intros w' M.
      eapply (moved_good _ _ _ _ (packets w ++ [packet_of w i]) I M); [reflexivity|intros x; exact Logic.I| | |intros j _ Hj; apply nth_error_app1, Hj|].
      * rewrite !app_length, packets_length. reflexivity.
      * intros _. cbn. rewrite pk_packets. destruct (view_var _ _ _ _ I V) as (s & xs & ys & Vw). rewrite (var_packet _ _ _ _ _ _ V Vw). reflexivity.
      * intros k Hk. rewrite app_length in Hk. cbn in Hk. rewrite app_var, pk_app, packets_length by lia.
        destruct (k =? length (w_vars w)); [apply one_var, V|]. rewrite <- var_in_eq. apply same_var.
    + intros N. apply good_same; [exact I| |intros x; exact Logic.I]. intros x. apply (No i N). intros A H. cbn. rewrite H. reflexivity.
  - (* MoveNew *)
    apply On.
    + intros p V. pose proof (move_new_ok w i p I V) as M. pose proof (var_lt _ _ _ V) as Li. cbn [wp].
      eapply (moved_good _ _ _ _ (upd (packets w) i (Some no_pkt) ++ [packet_of w i]) I M); [reflexivity|intros x; exact Logic.I| | |intros j N Hj; rewrite nth_error_app1 by (rewrite upd_length; exact Hj); apply nth_upd_neq; intros <-; apply N; reflexivity|].
      * rewrite !app_length, !upd_length, packets_length. reflexivity.
      * intros _. cbn. rewrite pk_packets. destruct (view_var _ _ _ _ I V) as (s & xs & ys & Vw). rewrite (var_packet _ _ _ _ _ _ V Vw). reflexivity.
      * intros k Hk. rewrite app_length, upd_length in Hk. cbn in Hk. rewrite app_var, pk_app, !upd_length, packets_length by (rewrite upd_length; lia).
        destruct (k =? length (w_vars w)); [apply one_var, V|]. rewrite upd_var, pk_upd by (rewrite ?packets_length; exact Li).
        destruct (i =? k); [reflexivity|]. rewrite <- var_in_eq. apply same_var.
    + intros N. apply good_same; [exact I| |intros x; exact Logic.I]. intros x. apply (No i N). intros A H. cbn. rewrite H. reflexivity.
  - (* Assign *)
    apply On; [intros p V; apply On; [intros q Vj; apply assign_good; auto|]|]; intros N; (apply good_same; [exact I| |intros x; exact Logic.I]); intros x.
    + apply (No j N). intros A H. cbn. rewrite H. destruct (pk A i); reflexivity.
    + apply (No i N). intros A H. cbn. rewrite H. reflexivity.
  - (* MoveAssign *)
    apply On; [intros p V; apply On; [intros q Vj|]|]; [|intros N; (apply good_same; [exact I| |intros x; exact Logic.I]); intros x..].
    + pose proof (var_lt _ _ _ V) as Li. pose proof (var_lt _ _ _ Vj) as Lj. eapply wp_mono; [apply (move_assign_ok junk w i j p q I V Vj)|]. intros w' M.
      eapply (moved_good _ _ _ _ (if option_eqb p q then packets w else upd (upd (packets w) i (packet_of w j)) j (Some no_pkt)) I M); [reflexivity|intros x; exact Logic.I| | |intros k N _; destruct (option_eqb p q); [reflexivity|]; rewrite !nth_upd_neq by (intros <-; apply N; cbn; auto); reflexivity|].
      * destruct (option_eqb p q); rewrite ?upd_length, packets_length; reflexivity.
      * intros _. cbn. unfold ref. rewrite !pk_packets, V, Vj. destruct (view_var _ _ _ _ I V) as (s & xs & ys & Vw). rewrite (var_packet _ _ _ _ _ _ V Vw).
        destruct (view_var _ _ _ _ I Vj) as (t & us & vs & Vc). rewrite (var_packet _ _ _ _ _ _ Vj Vc). reflexivity.
      * intros k Hk. destruct (option_eqb p q); [rewrite <- var_in_eq; apply same_var|].
        rewrite !upd_var, !pk_upd by (rewrite ?upd_length, ?packets_length; assumption). destruct (j =? k); [reflexivity|]. destruct (i =? k); [apply one_var, Vj|].
        rewrite <- var_in_eq. apply same_var.
    + apply (No j N). intros A H. cbn. rewrite H. destruct (pk A i); reflexivity.
    + apply (No i N). intros A H. cbn. rewrite H. reflexivity.
  - (* Swap *)
    apply On; [intros p V; apply On; [intros q Vj|]|]; [|intros N; (apply good_same; [exact I| |intros x; exact Logic.I]); intros x..].
    + pose proof (var_lt _ _ _ V) as Li. pose proof (var_lt _ _ _ Vj) as Lj. cbn [wp]. pose proof (swap_ok w i j p q I V Vj) as M.
      eapply (moved_good _ _ _ _ (upd (upd (packets w) i (packet_of w j)) j (packet_of w i)) I M); [reflexivity|intros x; exact Logic.I| | |intros k N _; rewrite !nth_upd_neq by (intros <-; apply N; cbn; auto); reflexivity|].
      * rewrite ?upd_length, packets_length; reflexivity.
      * intros _. cbn. rewrite !pk_packets. destruct (view_var _ _ _ _ I V) as (s & xs & ys & Vw). rewrite (var_packet _ _ _ _ _ _ V Vw).
        destruct (view_var _ _ _ _ I Vj) as (t & us & vs & Vc). rewrite (var_packet _ _ _ _ _ _ Vj Vc). reflexivity.
      * intros k Hk. rewrite !upd_var, !pk_upd by (rewrite ?upd_length, ?packets_length; assumption). destruct (j =? k); [apply one_var, V|]. destruct (i =? k); [apply one_var, Vj|].
        rewrite <- var_in_eq. apply same_var.
    + apply (No j N). intros A H. cbn. rewrite H. destruct (pk A i); reflexivity.
    + apply (No i N). intros A H. cbn. rewrite H. reflexivity.
  - (* Destroy *)
    apply On; [intros p V|]; [|intros N; (apply good_same; [exact I| |intros x; exact Logic.I]); intros x].
    + pose proof (var_lt _ _ _ V) as Li. eapply wp_mono; [apply (destroy_ok junk w i p I V)|]. intros w' M.
      eapply (moved_good _ _ _ _ (upd (packets w) i None) I M); [reflexivity|intros x; exact Logic.I| | |intros k N _; apply nth_upd_neq; intros <-; apply N; reflexivity|].
      * rewrite ?upd_length, packets_length; reflexivity.
      * intros _. cbn. rewrite !pk_packets. destruct (view_var _ _ _ _ I V) as (s & xs & ys & Vw). rewrite (var_packet _ _ _ _ _ _ V Vw). reflexivity.
      * intros k Hk. rewrite !upd_var, !pk_upd by (rewrite ?upd_length, ?packets_length; assumption). destruct (i =? k); [reflexivity|].
        rewrite <- var_in_eq. apply same_var.
    + apply (No i N). intros A H. cbn. rewrite H. reflexivity.
  - (* AddHeader *)
    apply On; [intros p V; apply add_header_ok; auto|]. intros N. apply good_same; [exact I| |intros x H; congruence]. intros x. apply (No i N). intros A H. cbn. rewrite H. reflexivity.
  - apply On; [intros p V; apply add_trailer_ok; auto|]. intros N. apply good_same; [exact I| |intros x H; congruence]. intros x. apply (No i N). intros A H. cbn. rewrite H. reflexivity.
  - (* AddHeaderBuf *)
    apply On; [intros p V; apply Us; [intros c O Vk; eapply add_header_buf_ok; eauto|]|]; intros N; (apply good_same; [exact I| |intros x; exact Logic.I]); intros x.
    + cbn. rewrite N. destruct (pk (packets w) i); reflexivity.
    + apply (No i N). intros A H. cbn. rewrite H. reflexivity.
  - apply On; [intros p V; apply Us; [intros c O Vk; eapply add_trailer_buf_ok; eauto|]|]; intros N; (apply good_same; [exact I| |intros x; exact Logic.I]); intros x.
    + cbn. rewrite N. destruct (pk (packets w) i); reflexivity.
    + apply (No i N). intros A H. cbn. rewrite H. reflexivity.
  - (* RemHeader *)
    apply On; [intros p V; apply remove_header_ok; auto|]. intros N. apply good_same; [exact I| |intros x; exact Logic.I]. intros x. apply (No i N). intros A H. cbn. rewrite H. reflexivity.
  - apply On; [intros p V; apply remove_trailer_ok; auto|]. intros N. apply good_same; [exact I| |intros x; exact Logic.I]. intros x. apply (No i N). intros A H. cbn. rewrite H. reflexivity.
  - (* AddHeaderPkt *)
    apply On; [intros p V; apply On; [intros q Vj; apply add_header_pkt_ok; auto|]|]; intros N; (apply good_same; [exact I| |intros x; exact Logic.I]); intros x.
    + apply (No j N). intros A H. cbn. rewrite H. destruct (pk A i); reflexivity.
    + apply (No i N). intros A H. cbn. rewrite H. reflexivity.
  - apply On; [intros p V; apply On; [intros q Vj; apply add_trailer_pkt_ok; auto|]|]; intros N; (apply good_same; [exact I| |intros x; exact Logic.I]); intros x.
    + apply (No j N). intros A H. cbn. rewrite H. destruct (pk A i); reflexivity.
    + apply (No i N). intros A H. cbn. rewrite H. reflexivity.
  - (* AddByteTag *)
    apply On; [intros p V; apply add_byte_tag_ok; auto|]. intros N. apply good_same; [exact I| |intros x; exact Logic.I]. intros x. apply (No i N). intros A H. cbn. rewrite H. reflexivity.
  - (* AddPacketTag *)
    apply On; [intros p V; apply On; [intros q Vj; apply add_packet_tag_ok; auto|]|]; intros N; (apply good_same; [exact I| |intros x; exact Logic.I]); intros x.
    + apply (No j N). intros A H. cbn. rewrite H. destruct (pk A i); reflexivity.
    + apply (No i N). intros A H. cbn. rewrite H. reflexivity.
  - (* GetPacketTag *)
    apply On; [intros p V; apply get_packet_tag_ok; auto|]. intros N. apply good_same; [exact I| |intros x; exact Logic.I]. intros x. apply (No i N). intros A H. cbn. rewrite H. reflexivity.
  - (* CopyTags *)
    apply On; [intros p V; apply On; [intros q Vj; apply copy_tags_ok; auto|]|]; intros N; (apply good_same; [exact I| |intros x; exact Logic.I]); intros x.
    + apply (No j N). intros A H. cbn. rewrite H. destruct (pk A i); reflexivity.
    + apply (No i N). intros A H. cbn. rewrite H. reflexivity.
  - (* MakeFrag *)
    apply On; [intros p V; apply make_fragment_ok; auto|]. intros N. apply good_same; [exact I| |intros x; exact Logic.I]. intros x. apply (No i N). intros A H. cbn. rewrite H. reflexivity.
  - (* GetBuffer *)
    apply On; [intros p V; apply get_buffer_ok; auto|]. intros N. apply good_same; [exact I|reflexivity|]. intros x q Hq. rewrite packet_none in Hq by exact N. discriminate.
  - (* OnBuf *)
    destruct (existsb (owned w) (mentions o)) eqn:E; [|apply on_buf_ok; auto]. apply good_same; [exact I|reflexivity|intros x; exact Logic.I].
Qed.
Lemma init_pinv : pinv [] (init : world BV).
Proof.
  assert (N : forall a y, ~ live (init : world BV) a y) by (intros [|a] y L; discriminate).
  split; try (intros; exfalso; eapply N; eassumption); auto.
  - apply BufferProofs.init_inv.
  - apply BufferProofs.init_safe.
  - apply TagListProofs.init_winv.
  - apply TagListProofs.init_winv.
  - intros a H. unfold refs in H. cbn in H. lia.
  - apply TagListProofs.vals_init.
Qed.
Lemma steps_pinv junk l : forall w, pinv [] w -> Forall (fits lo hi) l -> wp (steps junk l w) (pinv []).
Proof.
  induction l as [|o l IH]; intros w I Hf; cbn [steps]; [exact I|]. inversion Hf; subst. pose proof (step_good junk o w I H1) as G.
  destruct (step junk o w) as [w1| | |]; cbn [obind wp] in *; auto. apply IH; [apply G|assumption].
Qed.
End World.
