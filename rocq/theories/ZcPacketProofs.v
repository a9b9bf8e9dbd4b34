(** Lemmas about packets over zero-compressed buffers. *)
From Verif Require Import Base BaseProofs Buffer BufferSpec ZcIter ZcBuffer ZcBufferSpec ZcBufferProofs ZcPacket ZcPacketSpec.
From Coq Require Import ZifyBool ZifyNat ZifyN.

(** ** Counting references *)

Definition isa (a : nat) (p : option (option nat)) : bool := match p with Some (Some b) => a =? b | _ => false end.
Definition b2n (b : bool) : nat := if b then 1 else 0.
Definition refs (X : list nat) (w : zpworld) (a : nat) : nat :=
  length (filter (isa a) (zp_vars w)) + length (filter (Nat.eqb a) X).
Definition live (w : zpworld) (a : nat) (y : zbody) : Prop := nth_error (zp_bodies w) a = Some (Some y).
(** Pending references: those held by parameters and temporaries. *)
Definition pend (p : option nat) : list nat := match p with Some a => [a] | None => [] end.

Lemma filter_upd {A} (f : A -> bool) l i x y : nth_error l i = Some y ->
  length (filter f (upd l i x)) + b2n (f y) = length (filter f l) + b2n (f x).
Proof.
  revert i. induction l as [|z l IH]; intros [|i] H; cbn in H; try discriminate.
  - injection H as ->. cbn. destruct (f x), (f y); cbn; lia.
  - specialize (IH _ H). cbn [upd filter]. destruct (f z); cbn [length]; lia.
Qed.
Lemma zp_var_nth w i p : zp_var w i = Some p <-> nth_error (zp_vars w) i = Some (Some p).
Proof. unfold zp_var. destruct (nth_error (zp_vars w) i) as [[q|]|]; split; congruence. Qed.
Lemma zp_var_lt w i p : zp_var w i = Some p -> i < length (zp_vars w).
Proof. intros H. apply zp_var_nth in H. eapply nth_lt; eauto. Qed.
Lemma refs_cons X w a c : refs (c :: X) w a = refs X w a + b2n (a =? c).
Proof. unfold refs. cbn [filter]. destruct (a =? c); cbn; lia. Qed.
Lemma refs_pend X w a p : refs (pend p ++ X) w a = refs X w a + b2n (isa a (Some p)).
Proof. destruct p as [c|]; cbn [pend app]; [apply refs_cons|cbn; lia]. Qed.
Lemma refs_set X w i p q a : zp_var w i = Some p ->
  refs X (zp_set w i q) a + b2n (isa a (Some p)) = refs X w a + b2n (isa a q).
Proof.
  intros H. apply zp_var_nth in H. unfold refs. cbn [zp_set zp_vars].
  pose proof (filter_upd (isa a) _ _ q _ H). lia.
Qed.
Lemma refs_add X w p a : refs X (zp_add w p) a = refs X w a + b2n (isa a (Some p)).
Proof. unfold refs. cbn [zp_add zp_vars]. rewrite filter_app, app_length. cbn [filter]. destruct (isa a (Some p)); cbn; lia. Qed.
Lemma filter_pos {A} (f : A -> bool) l i x : nth_error l i = Some x -> f x = true -> 0 < length (filter f l).
Proof.
  revert i. induction l as [|z l IH]; intros [|i] H F; cbn in H; try discriminate.
  - injection H as ->. cbn. rewrite F. cbn. lia.
  - specialize (IH _ H F). cbn. destruct (f z); cbn; lia.
Qed.
Lemma filter_two {A} (f : A -> bool) l i j x y : i <> j -> nth_error l i = Some x -> nth_error l j = Some y ->
  f x = true -> f y = true -> 1 < length (filter f l).
Proof.
  revert i j. induction l as [|z l IH]; intros [|i] [|j] N H1 H2 F1 F2; cbn in H1, H2; try discriminate; try congruence.
  - injection H1 as ->. cbn. rewrite F1. cbn. pose proof (filter_pos f l j y H2 F2). lia.
  - injection H2 as ->. cbn. rewrite F2. cbn. pose proof (filter_pos f l i x H1 F1). lia.
  - pose proof (IH i j ltac:(congruence) H1 H2 F1 F2). cbn. destruct (f z); cbn; lia.
Qed.
Lemma isa_eq a b : isa a (Some (Some b)) = true <-> a = b.
Proof. cbn. apply Nat.eqb_eq. Qed.
Lemma refs_var X w i a : zp_var w i = Some (Some a) -> 0 < refs X w a.
Proof. intros H. apply zp_var_nth in H. pose proof (filter_pos (isa a) _ _ _ H (Nat.eqb_refl a)). unfold refs. lia. Qed.
Lemma refs_alone X w i j a : refs X w a = 1 -> zp_var w i = Some (Some a) -> zp_var w j = Some (Some a) -> i = j.
Proof.
  intros R Hi Hj. destruct (Nat.eq_dec i j); auto. apply zp_var_nth in Hi, Hj.
  pose proof (filter_two (isa a) _ _ _ _ _ n Hi Hj (Nat.eqb_refl a) (Nat.eqb_refl a)). unfold refs in R. lia.
Qed.

(** ** The invariant *)

Record pinv (X : list nat) (w : zpworld) : Prop := {
  p_z : zinv (zp_buf w);
  p_safe : zsafe (zp_buf w);
  p_buf : forall a y, live w a y -> exists z, zvar (zp_buf w) (zy_buf y) = Some z;
  p_inj : forall a b y z, live w a y -> live w b z -> zy_buf y = zy_buf z -> a = b;
  p_rc : forall a y, live w a y -> zy_rc y = refs X w a /\ 0 < zy_rc y;
  p_ref : forall a, 0 < refs X w a -> exists y, live w a y
}.

(** The bytes of a body. *)
Definition view (w : zpworld) (a : nat) : option (list N) := zp_shows w (Some a).
Lemma view_live w a y : live w a y -> view w a = zbytes_of (zp_buf w) (zy_buf y).
Proof. intros L. unfold view, zp_shows, live in *. rewrite L. reflexivity. Qed.
Lemma zbytes_var b k z : zinv b -> zvar b k = Some z -> exists s, zbytes_of b k = Some s /\ length s = z_size z.
Proof.
  intros I V. rewrite zbytes_of_str, str_zabs, V by exact I. cbn. eexists. split; [reflexivity|].
  apply zvar_some in V. apply zdata_length; [eapply I; eauto|eapply zworld_holds; eauto].
Qed.
Lemma view_some X w a y : pinv X w -> live w a y -> exists s, view w a = Some s /\ zp_size w (zy_buf y) = length s.
Proof.
  intros I L. rewrite (view_live _ _ _ L). destruct (p_buf _ _ I _ _ L) as [z V].
  destruct (zbytes_var _ _ _ (p_z _ _ I) V) as (s & E & Ls). exists s. split; [exact E|]. unfold zp_size. rewrite V. lia.
Qed.
Lemma view_inv w a s : view w a = Some s -> exists y, live w a y.
Proof. unfold view, zp_shows, live. destruct (nth_error _ a) as [[y|]|]; try discriminate. eauto. Qed.
Lemma shows_some X w i p : pinv X w -> zp_var w i = Some p -> exists s, zp_shows w p = Some s.
Proof.
  intros I V. destruct p as [a|]; [|cbn; eauto]. destruct (p_ref _ _ I a (refs_var _ _ _ _ V)) as [y L].
  destruct (view_some _ _ _ _ I L) as (s & E & _). eauto.
Qed.
Lemma owned_false w k : zp_owned w k = false <-> forall a y, live w a y -> zy_buf y <> k.
Proof.
  unfold zp_owned, live. split.
  - intros H a y L E. apply nth_error_In in L.
    assert (C : existsb (fun y => match y with Some y => k =? zy_buf y | None => false end) (zp_bodies w) = true).
    { apply existsb_exists. exists (Some y). split; [exact L|]. apply Nat.eqb_eq. congruence. }
    congruence.
  - intros H. destruct (existsb _ _) eqn:E; [|reflexivity]. exfalso. apply existsb_exists in E.
    destruct E as ([y|] & Hin & Hk); [|discriminate]. apply In_nth_error in Hin. destruct Hin as [a L].
    apply Nat.eqb_eq in Hk. eapply H; eauto.
Qed.

(** Nothing that exists in both states has changed, but [T]; bodies do not come back, and
    buffers of the user are left alone. *)
Record pres (T : option nat) (w w' : zpworld) : Prop := {
  r_len : length (zp_bodies w) <= length (zp_bodies w');
  r_view : forall c s, c < length (zp_bodies w) -> T <> Some c -> view w' c = Some s -> view w c = Some s;
  r_blen : length (zw_bufs (zp_buf w)) <= length (zw_bufs (zp_buf w'));
  r_user : forall k, k < length (zw_bufs (zp_buf w)) -> zp_owned w k = false ->
    zp_owned w' k = false /\ zbytes_of (zp_buf w') k = zbytes_of (zp_buf w) k
}.
Lemma pres_refl T w : pres T w w.
Proof. split; auto. Qed.
Lemma pres_trans T w w1 w2 : pres T w w1 -> pres T w1 w2 -> pres T w w2.
Proof.
  intros A B. split.
  - pose proof (r_len _ _ _ A). pose proof (r_len _ _ _ B). lia.
  - intros c s Hc Hn E. apply (r_view _ _ _ A); auto. apply (r_view _ _ _ B); auto. pose proof (r_len _ _ _ A). lia.
  - pose proof (r_blen _ _ _ A). pose proof (r_blen _ _ _ B). lia.
  - intros k Hk O. destruct (r_user _ _ _ A k Hk O) as [O1 E1].
    destruct (r_user _ _ _ B k ltac:(pose proof (r_blen _ _ _ A); lia) O1) as [O2 E2]. split; [exact O2|congruence].
Qed.
Lemma pres_weak T w w' : pres None w w' -> pres T w w'.
Proof. intros A. split; try apply A. intros c s Hc _ E. apply (r_view _ _ _ A); auto. discriminate. Qed.

(** ** Statements on buffers *)

Lemma buf_step junk zo b b' : zinv b -> zsafe b -> zstep junk zo b = Done b' -> no_deep zo -> sensible zo b ->
  zwrites_alone zo b ->
  zinv b' /\ zsafe b' /\ exists x, length x = extra_zlen zo /\ zabs b' = spec_zstep x zo (zabs b).
Proof.
  intros I S E D Se Al. pose proof (zstep_done _ _ _ _ I E) as F. split; [apply F|]. split; [apply F; auto|].
  destruct (zf_good _ _ _ F Se (or_introl S)) as [x G]. exists x. split; [apply G|]. apply G; auto.
Qed.
Lemma buf_done junk zo b : zinv b -> zbad_args zo b = false -> exists b', zstep junk zo b = Done b'.
Proof. intros I H. destruct (zstep_main junk zo b I) as [[C _]|[_ [b' [E _]]]]; [congruence|eauto]. Qed.
Lemma str_app_l A B i : i < length A -> str (A ++ B) i = str A i.
Proof. intros H. unfold str. rewrite nth_error_app1 by exact H. reflexivity. Qed.
Lemma str_app_new A x : str (A ++ [x]) (length A) = x.
Proof. unfold str. rewrite nth_error_app2, Nat.sub_diag by auto. reflexivity. Qed.
Lemma str_upd_eq A i x : i < length A -> str (upd A i x) i = x.
Proof. intros H. unfold str. rewrite nth_upd_eq by exact H. reflexivity. Qed.
Lemma str_upd_neq A i j x : i <> j -> str (upd A i x) j = str A j.
Proof. intros H. unfold str. rewrite nth_upd_neq by exact H. reflexivity. Qed.
Lemma str_lt A i s : str A i = Some s -> i < length A.
Proof. unfold str. destruct (nth_error A i) eqn:E; [|discriminate]. intros _. eapply nth_lt; eauto. Qed.
Lemma zvar_lt b k z : zvar b k = Some z -> k < length (zw_bufs b).
Proof. intros H. apply zvar_some in H. eapply nth_lt; eauto. Qed.
Lemma zvar_str b k : (exists z, zvar b k = Some z) <-> exists s, str (zabs b) k = Some s.
Proof. rewrite str_zabs. destruct (zvar b k); cbn; split; intros [y H]; try discriminate; eauto. Qed.

(** A new buffer: [New 0], [Copy k] or [Fragment]; the others stay as they are. *)
Lemma buf_new junk zo b s : zinv b -> zsafe b -> zbad_args zo b = false -> no_deep zo -> sensible zo b -> zwrites_alone zo b ->
  (forall x, spec_zstep x zo (zabs b) = zabs b ++ [Some s]) ->
  (forall r, zstep junk zo b = Done r -> exists h z, r = zadd_var h b z) ->
  exists b' z, zstep junk zo b = Done b' /\ zinv b' /\ zsafe b' /\ zw_bufs b' = zw_bufs b ++ [Some z] /\
    zbytes_of b' (length (zw_bufs b)) = Some s /\
    (forall k, k < length (zw_bufs b) -> zbytes_of b' k = zbytes_of b k).
Proof.
  intros I S Bd D Se Al Sp Sh. destruct (buf_done junk zo b I Bd) as [b' E]. destruct (Sh _ E) as (h & z & Eb).
  destruct (buf_step _ _ _ _ I S E D Se Al) as (I' & S' & x & _ & A). rewrite Sp in A.
  exists b', z. split; [exact E|]. split; [exact I'|]. split; [exact S'|]. split; [rewrite Eb; reflexivity|].
  rewrite zbytes_of_str, A by exact I'. rewrite <- (zabs_length b), str_app_new. split; [reflexivity|].
  intros k Hk. rewrite !zbytes_of_str, A, str_app_l by (auto; lia). reflexivity.
Qed.
Lemma zcreated_shape b r c : zcreated b r = Done c -> exists h z, c = zadd_var h b z.
Proof. unfold zcreated. destruct r as [[h z]| | |]; cbn [obind]; intros H; try discriminate. injection H as <-. eauto. Qed.
Lemma buf_new0 junk b : zinv b -> zsafe b ->
  exists b' z, zstep junk (ZBase (New 0)) b = Done b' /\ zinv b' /\ zsafe b' /\ zw_bufs b' = zw_bufs b ++ [Some z] /\
    zbytes_of b' (length (zw_bufs b)) = Some [] /\ (forall k, k < length (zw_bufs b) -> zbytes_of b' k = zbytes_of b k).
Proof.
  intros I S. apply (buf_new junk (ZBase (New 0)) b []); try exact Logic.I; auto.
  intros r H. exact (zcreated_shape _ _ _ H).
Qed.
Lemma buf_copy junk b k s : zinv b -> zsafe b -> zbytes_of b k = Some s ->
  exists b' z, zstep junk (ZBase (Copy k)) b = Done b' /\ zinv b' /\ zsafe b' /\ zw_bufs b' = zw_bufs b ++ [Some z] /\
    zbytes_of b' (length (zw_bufs b)) = Some s /\ (forall k, k < length (zw_bufs b) -> zbytes_of b' k = zbytes_of b k).
Proof.
  intros I S Hs. pose proof Hs as Ha. rewrite zbytes_of_str in Ha by exact I. apply (buf_new junk (ZBase (Copy k)) b s); try exact Logic.I; auto.
  - intros x. cbn. rewrite Ha. reflexivity.
  - intros r. cbn [zstep]. destruct (zvar b k) as [z|] eqn:V.
    + unfold zcopy_new. destruct (z_acquire _ _); cbn [obind]; intros H; try discriminate. injection H as <-. eauto.
    + rewrite str_zabs, V in Ha. discriminate.
Qed.
Lemma buf_frag junk b k st n s : zinv b -> zsafe b -> zbytes_of b k = Some s -> st + n <= length s ->
  exists b' z, zstep junk (ZBase (Fragment k st n)) b = Done b' /\ zinv b' /\ zsafe b' /\ zw_bufs b' = zw_bufs b ++ [Some z] /\
    zbytes_of b' (length (zw_bufs b)) = Some (firstn n (skipn st s)) /\
    (forall k, k < length (zw_bufs b) -> zbytes_of b' k = zbytes_of b k).
Proof.
  intros I S Hs Hn. pose proof Hs as Ha. rewrite zbytes_of_str in Ha by exact I.
  assert (V : exists z, zvar b k = Some z) by (apply zvar_str; eauto). destruct V as [z V].
  destruct (zbytes_var _ _ _ I V) as (s' & Es & Ls). rewrite Hs in Es. injection Es as <-.
  apply (buf_new junk (ZBase (Fragment k st n)) b (firstn n (skipn st s))); try exact Logic.I; auto.
  - cbn [zbad_args]. unfold zsize_of. rewrite V. cbn [option_map]. apply Nat.ltb_ge. lia.
  - intros x. cbn. rewrite Ha. reflexivity.
  - intros r. cbn [zstep]. rewrite V. apply zcreated_shape.
Qed.
(** A statement that only changes variable [k]. *)
Lemma buf_change junk zo b k : zinv b -> zsafe b -> zbad_args zo b = false -> no_deep zo -> sensible zo b -> zwrites_alone zo b ->
  forall f : list N -> option (list N),
  (exists z, zvar b k = Some z) -> (forall x, length x = extra_zlen zo -> exists v, spec_zstep x zo (zabs b) = upd (zabs b) k v /\ f x = v) ->
  exists b' x, zstep junk zo b = Done b' /\ zinv b' /\ zsafe b' /\ length (zw_bufs b') = length (zw_bufs b) /\
    length x = extra_zlen zo /\ zbytes_of b' k = f x /\ (forall j, j <> k -> zbytes_of b' j = zbytes_of b j).
Proof.
  intros I S Bd D Se Al f [z V] Sp. destruct (buf_done junk zo b I Bd) as [b' E].
  destruct (buf_step _ _ _ _ I S E D Se Al) as (I' & S' & x & Lx & A). destruct (Sp x Lx) as (v & Ev & Fv). rewrite Ev in A.
  exists b', x. split; [exact E|]. split; [exact I'|]. split; [exact S'|].
  split; [rewrite <- !zabs_length, A, upd_length; reflexivity|]. split; [exact Lx|].
  split; [rewrite zbytes_of_str, A, str_upd_eq by (auto; rewrite zabs_length; eapply zvar_lt; eauto); auto|].
  intros j Hj. rewrite !zbytes_of_str, A, str_upd_neq by auto. reflexivity.
Qed.

(** ** References *)

Lemma pinv_refs X X' w w' : pinv X w -> zp_buf w' = zp_buf w -> zp_bodies w' = zp_bodies w ->
  (forall a, refs X' w' a = refs X w a) -> pinv X' w'.
Proof.
  intros I Eb Ey Er. unfold live in *. split; unfold live; rewrite ?Eb, ?Ey.
  - apply I.
  - apply I.
  - apply I.
  - apply I.
  - intros a y L. rewrite Er. apply (p_rc _ _ I). exact L.
  - intros a. rewrite Er. apply (p_ref _ _ I).
Qed.
Lemma pres_vars T w w' : zp_buf w' = zp_buf w -> zp_bodies w' = zp_bodies w -> pres T w w'.
Proof.
  intros Eb Ey. split; unfold view, zp_shows, zp_owned; rewrite ?Eb, ?Ey; auto.
Qed.
Lemma live_lt w a y : live w a y -> a < length (zp_bodies w).
Proof. apply nth_lt. Qed.
Lemma live_fun w a y z : live w a y -> live w a z -> y = z.
Proof. unfold live. congruence. Qed.
Lemma live_put w a y c z : live (zp_put w a y) c z -> (c = a /\ y = Some z) \/ (c <> a /\ live w c z).
Proof.
  unfold live, zp_put. cbn [zp_bodies]. intros H. destruct (Nat.eq_dec c a) as [->|N].
  - left. split; [reflexivity|]. assert (a < length (zp_bodies w)) by (apply nth_lt in H; rewrite upd_length in H; exact H).
    rewrite nth_upd_eq in H by assumption. congruence.
  - right. rewrite nth_upd_neq in H by auto. auto.
Qed.
Lemma put_live w a y z : live w a z -> live (zp_put w a (Some y)) a y.
Proof. intros L. unfold live, zp_put. cbn. apply nth_upd_eq. apply (live_lt _ _ _ L). Qed.
Lemma put_live_neq w a y c z : c <> a -> live w c z -> live (zp_put w a y) c z.
Proof. intros N L. unfold live, zp_put. cbn. rewrite nth_upd_neq by auto. exact L. Qed.

(** Changing a count. *)
Lemma put_count X X' w a y n : pinv X w -> live w a y -> 0 < n ->
  (forall c, refs X' w c = if c =? a then n else refs X w c) ->
  pinv X' (zp_put w a (Some (mk_zbody n (zy_buf y)))) /\ (forall T, pres T w (zp_put w a (Some (mk_zbody n (zy_buf y))))).
Proof.
  intros I L Hn Hr. set (w' := zp_put w a (Some (mk_zbody n (zy_buf y)))).
  assert (LL : forall c z, live w' c z -> exists z0, live w c z0 /\ zy_buf z0 = zy_buf z /\ (c <> a -> z0 = z) /\ (c = a -> zy_rc z = n)).
  { intros c z H. apply live_put in H. destruct H as [[-> H]|[N H]].
    - injection H as <-. exists y. repeat split; auto; congruence.
    - exists z. repeat split; auto; congruence. }
  split.
  - split.
    + apply I.
    + apply I.
    + intros c z H. destruct (LL _ _ H) as (z0 & H0 & E & _). rewrite <- E. apply (p_buf _ _ I _ _ H0).
    + intros c d z z' H H' E. destruct (LL _ _ H) as (z0 & H0 & E0 & _). destruct (LL _ _ H') as (z1 & H1 & E1 & _).
      apply (p_inj _ _ I _ _ _ _ H0 H1). congruence.
    + intros c z H. destruct (LL _ _ H) as (z0 & H0 & E & E1 & E2). change (refs X' w' c) with (refs X' w c). rewrite Hr.
      destruct (Nat.eqb_spec c a) as [->|N]; [rewrite E2 by reflexivity; lia|]. rewrite E1 in H0 by exact N. apply (p_rc _ _ I _ _ H0).
    + intros c H. change (refs X' w' c) with (refs X' w c) in H. rewrite Hr in H. destruct (Nat.eq_dec c a) as [Ec|N].
      * rewrite Ec. eexists. eapply put_live; eauto.
      * rewrite (proj2 (Nat.eqb_neq c a) N) in H. destruct (p_ref _ _ I c H) as [z Lz]. exists z. apply put_live_neq; auto.
  - intros T. split; auto.
    + unfold w', zp_put. cbn [zp_bodies]. rewrite upd_length. auto.
    + intros c s _ _ E. destruct (view_inv _ _ _ E) as [z Lz]. destruct (LL _ _ Lz) as (z0 & H0 & Eb & _).
      rewrite (view_live _ _ _ Lz) in E. rewrite (view_live _ _ _ H0), Eb. exact E.
    + intros k _ O. split; [|reflexivity]. rewrite owned_false in *. intros c z H. destruct (LL _ _ H) as (z0 & H0 & Eb & _).
      rewrite <- Eb. eapply O; eauto.
Qed.

Lemma add_ref_ok X w p : pinv X w -> (forall a, p = Some a -> exists y, live w a y) ->
  exists w1, zp_add_ref p w = Done w1 /\ pinv (pend p ++ X) w1 /\ (forall T, pres T w w1) /\ zp_vars w1 = zp_vars w /\
    zp_buf w1 = zp_buf w /\ (forall c y, live w c y -> exists y1, live w1 c y1 /\ zy_buf y1 = zy_buf y).
Proof.
  intros I Hp. destruct p as [a|]; cbn [zp_add_ref pend app].
  - destruct (Hp a eq_refl) as [y L]. unfold zp_get. rewrite L. cbn [obind]. eexists. split; [reflexivity|].
    destruct (p_rc _ _ I _ _ L) as [Hr _].
    destruct (put_count X (a :: X) w a y (S (zy_rc y)) I L ltac:(lia)) as [I' P].
    { intros c. rewrite refs_cons. destruct (Nat.eqb_spec c a) as [->|N]; cbn; lia. }
    split; [exact I'|]. split; [exact P|]. split; [reflexivity|]. split; [reflexivity|].
    intros c z Lz. destruct (Nat.eq_dec c a) as [->|N].
    + rewrite (live_fun _ _ _ _ Lz L). eexists. split; [eapply put_live; eauto|reflexivity].
    + exists z. split; [apply put_live_neq; auto|reflexivity].
  - exists w. split; [reflexivity|]. split; [exact I|]. split; [intros T; apply pres_refl|]. split; [reflexivity|]. split; [reflexivity|]. eauto.
Qed.

Lemma release_ok junk X w p : pinv (pend p ++ X) w ->
  exists w1, zp_release junk p w = Done w1 /\ pinv X w1 /\ (forall T, pres T w w1) /\ zp_vars w1 = zp_vars w.
Proof.
  intros I. destruct p as [a|]; cbn [zp_release pend app] in *.
  2: { exists w. split; [reflexivity|]. split; [exact I|]. split; [intros T; apply pres_refl|reflexivity]. }
  destruct (p_ref _ _ I a) as [y L]. { rewrite refs_cons, Nat.eqb_refl. cbn. lia. }
  destruct (p_rc _ _ I _ _ L) as [Hr Hp]. rewrite refs_cons, Nat.eqb_refl in Hr. cbn in Hr.
  unfold zp_get. rewrite L. cbn [obind]. destruct (zy_rc y) as [|[|n]] eqn:Ey; [lia| |].
  - destruct (p_buf _ _ I _ _ L) as [z V].
    assert (Sp : forall x, spec_zstep x (ZBase (Destroy (zy_buf y))) (zabs (zp_buf w)) = upd (zabs (zp_buf w)) (zy_buf y) None).
    { intros x. cbn. rewrite str_zabs, V. reflexivity. }
    destruct (buf_change junk (ZBase (Destroy (zy_buf y))) (zp_buf w) (zy_buf y) (p_z _ _ I) (p_safe _ _ I) eq_refl Logic.I Logic.I Logic.I
      (fun _ => None) (ex_intro _ z V) (fun x _ => ex_intro _ None (conj (Sp x) eq_refl)))
      as (b' & x & E & I' & S' & Lb & _ & B1 & B2).
    unfold zp_on. rewrite E. cbn [obind]. eexists. split; [reflexivity|]. set (w0 := mk_zp b' (zp_bodies w) (zp_vars w)).
    assert (LL : forall c d, live (zp_put w0 a None) c d -> c <> a /\ live w c d).
    { intros c d H. apply live_put in H. destruct H as [[_ H]|H]; [discriminate|exact H]. }
    assert (NB : forall c d, c <> a -> live w c d -> zy_buf d <> zy_buf y).
    { intros c d N Lc E1. apply N. apply (p_inj _ _ I _ _ _ _ Lc L E1). }
    split; [split|split; [intros T; split|]].
    + exact I'.
    + exact S'.
    + intros c d H. destruct (LL _ _ H) as [N Lc]. destruct (p_buf _ _ I _ _ Lc) as [zc Vc]. cbn [zp_buf zp_put w0].
      apply zvar_str. rewrite <- zbytes_of_str, B2 by (auto; eapply NB; eauto).
      rewrite zbytes_of_str by apply I. apply zvar_str. eauto.
    + intros c d y1 y2 H1 H2. destruct (LL _ _ H1), (LL _ _ H2). eapply p_inj; eauto.
    + intros c d H. destruct (LL _ _ H) as [N Lc]. destruct (p_rc _ _ I _ _ Lc) as [R1 R2]. rewrite refs_cons in R1.
      rewrite (proj2 (Nat.eqb_neq c a) N) in R1. cbn in R1. change (refs X (zp_put w0 a None) c) with (refs X w c). lia.
    + intros c H. change (refs X (zp_put w0 a None) c) with (refs X w c) in H. assert (N : c <> a) by (intros ->; lia).
      destruct (p_ref _ _ I c) as [d Ld]. { rewrite refs_cons. lia. } exists d. apply put_live_neq; auto.
    + cbn [zp_put zp_bodies w0]. rewrite upd_length. auto.
    + intros c s _ _ Hv. destruct (view_inv _ _ _ Hv) as [d Ld]. destruct (LL _ _ Ld) as [N Lc].
      rewrite (view_live _ _ _ Ld) in Hv. rewrite (view_live _ _ _ Lc). cbn [zp_buf zp_put w0] in Hv. rewrite B2 in Hv by (eapply NB; eauto). exact Hv.
    + cbn [zp_buf zp_put w0]. lia.
    + intros k _ O. rewrite owned_false in *. split.
      * intros c d H. destruct (LL _ _ H) as [_ Lc]. eapply O; eauto.
      * cbn [zp_buf zp_put w0]. apply B2. intros ->. eapply O; eauto.
    + reflexivity.
  - eexists. split; [reflexivity|]. destruct (put_count (a :: X) X w a y (S n) I L ltac:(lia)) as [I' P].
    { intros c. rewrite refs_cons. destruct (Nat.eqb_spec c a) as [->|N]; cbn; lia. }
    split; [exact I'|]. split; [exact P|reflexivity].
Qed.

(** A new body. *)
Lemma body_ok X w b' z s : pinv X w -> zinv b' -> zsafe b' -> zw_bufs b' = zw_bufs (zp_buf w) ++ [Some z] ->
  zbytes_of b' (length (zw_bufs (zp_buf w))) = Some s ->
  (forall k, k < length (zw_bufs (zp_buf w)) -> zbytes_of b' k = zbytes_of (zp_buf w) k) ->
  let r := zp_body (mk_zp b' (zp_bodies w) (zp_vars w)) (length (zw_bufs (zp_buf w))) in
  let w1 := fst r in let a := snd r in
  a = length (zp_bodies w) /\ pinv (a :: X) w1 /\ (forall T, pres T w w1) /\ zp_vars w1 = zp_vars w /\
  view w1 a = Some s /\ live w1 a (mk_zbody 1 (length (zw_bufs (zp_buf w)))) /\ (forall c y, live w c y -> live w1 c y) /\
  refs X w1 a = 0.
Proof.
  intros I I' S' Eb Bn Bo. cbv zeta. cbn [zp_body fst snd]. set (n := length (zw_bufs (zp_buf w))). set (a := length (zp_bodies w)).
  cbn [zp_buf zp_bodies zp_vars]. fold a. set (w1 := mk_zp b' _ (zp_vars w)).
  assert (R0 : refs X w a = 0).
  { destruct (Nat.eq_dec (refs X w a) 0) as [E|N]; [exact E|]. exfalso. destruct (p_ref _ _ I a ltac:(lia)) as [y L]. apply live_lt in L. unfold a in L. lia. }
  assert (LO : forall c y, live w c y -> live w1 c y).
  { intros c y L. unfold live, w1. cbn [zp_bodies]. rewrite nth_error_app1 by (apply (live_lt _ _ _ L)). exact L. }
  assert (LA : live w1 a (mk_zbody 1 n)).
  { unfold live, w1, a. cbn [zp_bodies]. rewrite nth_error_app2, Nat.sub_diag by auto. reflexivity. }
  assert (LL : forall c y, live w1 c y -> (c = a /\ y = mk_zbody 1 n) \/ (c < a /\ live w c y)).
  { intros c y L. unfold live, w1 in L. cbn [zp_bodies] in L. destruct (Nat.lt_ge_cases c a) as [H|H].
    - right. rewrite nth_error_app1 in L by exact H. auto.
    - left. rewrite nth_error_app2 in L by exact H. destruct (c - length (zp_bodies w)) as [|m] eqn:Ec; cbn in L.
      + split; [unfold a; fold a in Ec; lia|congruence].
      + destruct m; discriminate. }
  assert (BL : forall c y, live w c y -> zy_buf y < n).
  { intros c y L. destruct (p_buf _ _ I _ _ L) as [zc V]. unfold n. eapply zvar_lt; eauto. }
  split; [reflexivity|]. split; [split|split; [intros T; split|]].
  - exact I'.
  - exact S'.
  - intros c y L. destruct (LL _ _ L) as [[-> ->]|[_ Lc]]; cbn [zp_buf w1 zy_buf].
    + apply zvar_str. rewrite <- zbytes_of_str by exact I'. eauto.
    + apply zvar_str. rewrite <- zbytes_of_str, Bo by (auto; eapply BL; eauto). rewrite zbytes_of_str by apply I. apply zvar_str. eapply p_buf; eauto.
  - intros c d y1 y2 H1 H2 E. destruct (LL _ _ H1) as [[-> ->]|[_ L1]], (LL _ _ H2) as [[-> ->]|[_ L2]]; cbn [zy_buf] in E; auto.
    + pose proof (BL _ _ L2). lia.
    + pose proof (BL _ _ L1). lia.
    + eapply p_inj; eauto.
  - intros c y L. rewrite refs_cons. change (refs X w1 c) with (refs X w c). destruct (LL _ _ L) as [[-> ->]|[N Lc]].
    + rewrite Nat.eqb_refl, R0. cbn. lia.
    + rewrite (proj2 (Nat.eqb_neq c a)) by lia. cbn. rewrite Nat.add_0_r. eapply p_rc; eauto.
  - intros c H. rewrite refs_cons in H. change (refs X w1 c) with (refs X w c) in H. destruct (Nat.eq_dec c a) as [Ec|N].
    + rewrite Ec. eauto.
    + rewrite (proj2 (Nat.eqb_neq c a) N) in H. cbn in H. rewrite Nat.add_0_r in H. destruct (p_ref _ _ I c H) as [y L]. eauto.
  - unfold w1. cbn [zp_bodies]. rewrite app_length. lia.
  - intros c t Hc _ Hv. destruct (view_inv _ _ _ Hv) as [y Ly]. destruct (LL _ _ Ly) as [[-> _]|[_ Lc]]; [unfold a in Hc; lia|].
    rewrite (view_live _ _ _ Ly) in Hv. rewrite (view_live _ _ _ Lc). cbn [zp_buf w1] in Hv. rewrite Bo in Hv by (eapply BL; eauto). exact Hv.
  - unfold w1. cbn [zp_buf]. rewrite Eb, app_length. lia.
  - intros k Hk O. rewrite owned_false in *. split; [|cbn [zp_buf w1]; apply Bo; exact Hk].
    intros c y L. destruct (LL _ _ L) as [[-> ->]|[_ Lc]]; [cbn [zy_buf]; fold n in Hk; lia|eapply O; eauto].
  - split; [reflexivity|]. split; [rewrite (view_live _ _ _ LA); exact Bn|]. split; [exact LA|]. split; [exact LO|exact R0].
Qed.

(** Same bodies, other variables. *)
Lemma set_ok X X' w i p q : pinv X w -> zp_var w i = Some p ->
  (forall c, refs X' w c + b2n (isa c q) = refs X w c + b2n (isa c (Some p))) ->
  pinv X' (zp_set w i q) /\ (forall T, pres T w (zp_set w i q)).
Proof.
  intros I V H. split; [|intros T; apply pres_vars; reflexivity]. apply (pinv_refs X X' w); auto.
  intros a. pose proof (refs_set X' w i p q a V). specialize (H a). lia.
Qed.

Lemma private_ok junk X w i p s : pinv X w -> zp_var w i = Some p -> zp_shows w p = Some s ->
  exists w1 a y, zp_private junk i p w = Done (w1, a) /\ pinv X w1 /\ live w1 a y /\ refs X w1 a = 1 /\
    zp_vars w1 = upd (zp_vars w) i (Some (Some a)) /\ view w1 a = Some s /\ (forall T, pres T w w1) /\
    (exists l, zw_bufs (zp_buf w1) = zw_bufs (zp_buf w) ++ l) /\
    (forall c d, live w c d -> exists d1, live w1 c d1 /\ zy_buf d1 = zy_buf d).
Proof.
  intros I V Hs. pose proof (zp_var_lt _ _ _ V) as Hi. destruct p as [a|]; cbn [zp_private].
  - destruct (p_ref _ _ I a (refs_var _ _ _ _ V)) as [y L]. destruct (p_rc _ _ I _ _ L) as [Hr Hp].
    unfold zp_get at 1. rewrite L. cbn [obind]. destruct (Nat.ltb_spec 1 (zy_rc y)) as [H|H].
    + change (view w a = Some s) in Hs. pose proof Hs as Hb. rewrite (view_live _ _ _ L) in Hb.
      destruct (buf_copy junk (zp_buf w) (zy_buf y) s (p_z _ _ I) (p_safe _ _ I) Hb) as (b' & z & E & I' & S' & Eb & Bn & Bo).
      unfold zp_copy_body, zp_on. rewrite E. cbn [obind].
      pose proof (body_ok X w b' z s I I' S' Eb Bn Bo) as B. cbv zeta in B.
      set (r := zp_body _ _) in *. destruct r as [w1 a'] eqn:Er. cbn [fst snd] in B.
      destruct B as (Ea & I1 & P1 & V1 & W1 & L1 & O1 & R1).
      assert (Eb1 : zw_bufs (zp_buf w1) = zw_bufs (zp_buf w) ++ [Some z]).
      { change w1 with (fst (w1, a')). rewrite <- Er. unfold r. cbn. exact Eb. }
      pose proof (live_lt _ _ _ L) as La. assert (Na : a <> a') by lia.
      pose proof (O1 _ _ L) as L1a. unfold zp_get. rewrite L1a. cbn [obind].
      assert (V1' : zp_var w1 i = Some (Some a)) by (unfold zp_var; rewrite V1; exact V).
      set (w2 := zp_put w1 a (Some (mk_zbody (zy_rc y - 1) (zy_buf y)))).
      assert (LL : forall c z, live w2 c z -> exists z0, live w1 c z0 /\ zy_buf z0 = zy_buf z /\ zy_rc z = zy_rc z0 - b2n (c =? a)).
      { intros c d Hd. apply live_put in Hd. destruct Hd as [[-> Hd]|[N Hd]].
        - injection Hd as <-. exists y. rewrite Nat.eqb_refl. cbn. auto.
        - exists d. rewrite (proj2 (Nat.eqb_neq c a) N). cbn. repeat split; auto; lia. }
      assert (LR : forall c z, live w1 c z -> exists z1, live w2 c z1 /\ zy_buf z1 = zy_buf z).
      { intros c d Hd. destruct (Nat.eq_dec c a) as [->|N].
        - rewrite (live_fun _ _ _ _ Hd L1a). eexists. split; [eapply put_live; eauto|reflexivity].
        - exists d. split; [apply put_live_neq; auto|reflexivity]. }
      set (w3 := zp_set w2 i (Some (Some a'))).
      assert (R3 : forall c, refs X w3 c + b2n (c =? a) = refs (a' :: X) w1 c).
      { intros c. rewrite refs_cons. pose proof (refs_set X w2 i (Some a) (Some (Some a')) c V1') as RS. cbn [isa] in RS.
        change (refs X w2 c) with (refs X w1 c) in RS. fold w3 in RS. lia. }
      exists w3, a', (mk_zbody 1 (length (zw_bufs (zp_buf w)))). split; [reflexivity|].
      assert (L3 : live w3 a' (mk_zbody 1 (length (zw_bufs (zp_buf w))))) by (apply (put_live_neq w1 a _ a' _ ltac:(auto) L1)).
      assert (P3 : forall T, pres T w1 w3).
      { intros T. split; auto.
        - unfold w3, w2. cbn [zp_set zp_put zp_bodies]. rewrite upd_length. auto.
        - intros c t _ _ Hv. destruct (view_inv _ _ _ Hv) as [d Ld]. destruct (LL _ _ Ld) as (d0 & H0 & Ebd & _).
          rewrite (view_live _ _ _ Ld) in Hv. rewrite (view_live _ _ _ H0), Ebd. exact Hv.
        - intros k _ O. split; [|reflexivity]. rewrite owned_false in *. intros c d Hd. destruct (LL _ _ Hd) as (d0 & H0 & Ebd & _). rewrite <- Ebd. eapply O; eauto. }
      split; [split|].
      * apply I1.
      * apply I1.
      * intros c d Hd. destruct (LL _ _ Hd) as (d0 & H0 & Ebd & _). rewrite <- Ebd. apply (p_buf _ _ I1 _ _ H0).
      * intros c e d1 d2 H1 H2 E1. destruct (LL _ _ H1) as (d3 & H3 & E3 & _). destruct (LL _ _ H2) as (d4 & H4 & E4 & _).
        eapply (p_inj _ _ I1); eauto. congruence.
      * intros c d Hd. destruct (LL _ _ Hd) as (d0 & H0 & Ebd & Erc). destruct (p_rc _ _ I1 _ _ H0) as [Q1 Q2].
        specialize (R3 c). rewrite Erc. destruct (Nat.eq_dec c a) as [Ec|N].
        { rewrite Ec in *. rewrite Nat.eqb_refl in *. rewrite (live_fun _ _ _ _ H0 L1a) in *. cbn [b2n] in *. lia. }
        { rewrite (proj2 (Nat.eqb_neq c a) N) in *. cbn [b2n] in *. lia. }
      * intros c Hc. destruct (p_ref _ _ I1 c) as [d Ld]. { specialize (R3 c). lia. } destruct (LR _ _ Ld) as (d1 & H1 & _). exists d1. exact H1.
      * split; [exact L3|]. split.
        { specialize (R3 a'). rewrite refs_cons, R1, Nat.eqb_refl, (proj2 (Nat.eqb_neq a' a)) in R3 by auto. cbn [b2n] in R3. lia. }
        split; [unfold w3, w2; cbn [zp_set zp_put zp_vars]; rewrite V1; reflexivity|].
        split; [rewrite (view_live _ _ _ L3); rewrite (view_live _ _ _ L1) in W1; exact W1|].
        split; [intros T; eapply pres_trans; [apply P1|apply P3]|].
        split; [exists [Some z]; exact Eb1|].
        intros c d Ld. destruct (LR _ _ (O1 _ _ Ld)) as (d1 & H1 & E1). eauto.
    + exists w, a, y. split; [reflexivity|]. split; [exact I|]. split; [exact L|]. split; [lia|].
      split; [|split; [exact Hs|split; [intros T; apply pres_refl|split; [exists []; rewrite app_nil_r; reflexivity|eauto]]]].
      apply list_ext. intros j. destruct (Nat.eq_dec i j) as [<-|N].
      * rewrite nth_upd_eq by exact Hi. apply zp_var_nth, V.
      * rewrite nth_upd_neq by exact N. reflexivity.
  - injection Hs as <-. destruct (buf_new0 junk (zp_buf w) (p_z _ _ I) (p_safe _ _ I)) as (b' & z & E & I' & S' & Eb & Bn & Bo).
    unfold zp_new_body, zp_on. rewrite E. cbn [obind].
    pose proof (body_ok X w b' z [] I I' S' Eb Bn Bo) as B. cbv zeta in B.
    set (r := zp_body _ _) in *. destruct r as [w1 a'] eqn:Er. cbn [fst snd] in B.
    destruct B as (Ea & I1 & P1 & V1 & W1 & L1 & O1 & R1).
    assert (Eb1 : zw_bufs (zp_buf w1) = zw_bufs (zp_buf w) ++ [Some z]).
    { change w1 with (fst (w1, a')). rewrite <- Er. unfold r. cbn. exact Eb. }
    assert (V1' : zp_var w1 i = Some None) by (unfold zp_var; rewrite V1; exact V).
    cbn [obind]. exists (zp_set w1 i (Some (Some a'))), a'. eexists. split; [reflexivity|].
    destruct (set_ok (a' :: X) X w1 i None (Some (Some a')) I1 V1') as [I2 P2].
    { intros c. rewrite refs_cons. cbn [isa]. cbn [b2n]. lia. }
    split; [exact I2|]. split; [exact L1|]. split.
    { pose proof (refs_set X w1 i None (Some (Some a')) a' V1') as RS. cbn [isa] in RS. rewrite R1, Nat.eqb_refl in RS. cbn [b2n] in RS. lia. }
    split; [cbn [zp_set zp_vars]; rewrite V1; reflexivity|]. split; [exact W1|].
    split; [intros T; eapply pres_trans; [apply P1|apply P2]|]. split; [exists [Some z]; exact Eb1|]. intros c d Ld. exists d. split; [exact (O1 _ _ Ld)|reflexivity].
Qed.

(** A statement on the buffer of a body. *)
Lemma own_ok junk X w a y zo (g : list N -> list N) : pinv X w -> live w a y -> zbad_args zo (zp_buf w) = false ->
  no_deep zo -> sensible zo (zp_buf w) -> zwrites_alone zo (zp_buf w) ->
  (forall x, length x = extra_zlen zo -> spec_zstep x zo (zabs (zp_buf w)) = upd (zabs (zp_buf w)) (zy_buf y) (Some (g x))) ->
  exists w1 x, zp_on junk zo w = Done w1 /\ pinv X w1 /\ zp_bodies w1 = zp_bodies w /\ zp_vars w1 = zp_vars w /\
    length x = extra_zlen zo /\ view w1 a = Some (g x) /\ pres (Some a) w w1 /\
    length (zw_bufs (zp_buf w1)) = length (zw_bufs (zp_buf w)) /\ zbytes_of (zp_buf w1) (zy_buf y) = Some (g x).
Proof.
  intros I L Bd D Se Al Sp. pose proof (p_buf _ _ I _ _ L) as V.
  destruct (buf_change junk zo (zp_buf w) (zy_buf y) (p_z _ _ I) (p_safe _ _ I) Bd D Se Al (fun x => Some (g x)) V)
    as (b' & x & E & I' & S' & Lb & Lx & B1 & B2).
  { intros x Lx. eexists. split; [apply Sp; exact Lx|reflexivity]. }
  unfold zp_on. rewrite E. cbn [obind]. set (w1 := mk_zp b' (zp_bodies w) (zp_vars w)). exists w1, x.
  assert (NB : forall c d, live w c d -> c <> a -> zy_buf d <> zy_buf y).
  { intros c d Lc N E1. apply N. apply (p_inj _ _ I _ _ _ _ Lc L E1). }
  split; [reflexivity|]. split; [split|].
  - exact I'.
  - exact S'.
  - intros c d Ld. cbn [zp_buf w1]. apply zvar_str. rewrite <- zbytes_of_str by exact I'. destruct (Nat.eq_dec c a) as [->|N].
    + rewrite (live_fun _ _ _ _ Ld L), B1. eauto.
    + rewrite B2 by (eapply NB; eauto). rewrite zbytes_of_str by apply I. apply zvar_str. apply (p_buf _ _ I _ _ Ld).
  - apply I.
  - apply I.
  - apply I.
  - split; [reflexivity|]. split; [reflexivity|]. split; [exact Lx|].
    assert (L1 : live w1 a y) by exact L. split; [rewrite (view_live _ _ _ L1); exact B1|].
    split; [split|split; [exact Lb|exact B1]].
    + auto.
    + intros c s _ N Hv. destruct (view_inv _ _ _ Hv) as [d Ld]. rewrite (view_live _ _ _ Ld) in Hv. rewrite (view_live w c d Ld).
      cbn [zp_buf w1] in Hv. rewrite B2 in Hv; [exact Hv|]. apply (NB c); [exact Ld|congruence].
    + unfold w1. cbn [zp_buf]. lia.
    + intros k _ O. split; [exact O|]. cbn [zp_buf w1]. apply B2. rewrite owned_false in O. intros ->. exact (O _ _ L eq_refl).
Qed.
