(** Programs in which no buffer is made of zeros alone. *)
From Verif Require Import Base BaseProofs Buffer BufferSpec ZcIter ZcBuffer ZcBufferSpec ZcBufferProofs ZcPacket ZcPacketSpec ZcPacketProofs ZcPacketSteps.
From Coq Require Import ZifyBool ZifyNat ZifyN.

Definition zfit (z : zbuf) : Prop := z_st z = None -> z_size z = 0.
Definition fits (b : zworld) : Prop := forall k z, zvar b k = Some z -> zfit z.

Lemma fits_bare b k : fits b -> ~ bare b k.
Proof. intros F (z & V & N & P). specialize (F k z V N). lia. Qed.
Lemma fit_empty : zfit empty_zbuf.
Proof. intros _. reflexivity. Qed.
Lemma fit_some z a : z_st z = Some a -> zfit z.
Proof. intros H E. congruence. Qed.

Ltac dn H := cbn [obind] in H;
  match type of H with
  | (let! _ := ?e in _) = Done _ => let E := fresh "E" in destruct e eqn:E; cbn [obind] in H; try discriminate H
  | obind ?e _ = Done _ => let E := fresh "E" in destruct e eqn:E; cbn [obind] in H; try discriminate H
  | match ?e with _ => _ end = Done _ => let E := fresh "E" in destruct e eqn:E; try discriminate H
  | (if ?e then _ else _) = Done _ => let E := fresh "E" in destruct e eqn:E; try discriminate H
  end.
Ltac dn_all H := repeat dn H; try (injection H as <- <-).

Lemma make_fit st a b c d h h' z : z_make st a b c d h = Done (h', z) -> st <> None -> zfit z.
Proof. unfold z_make. intros H N. destruct st as [p|]; [|congruence]. dn_all H; apply (fit_some _ p); reflexivity. Qed.
Lemma start_realloc_fit junk n c s d h z h' z' : z_start_realloc junk n c s d h z = Done (h', z') -> zfit z'.
Proof. unfold z_start_realloc. intros H. dn_all H; eapply fit_some; reflexivity. Qed.
Lemma end_realloc_fit junk n c s d h z h' z' : z_end_realloc junk n c s d h z = Done (h', z') -> zfit z'.
Proof. unfold z_end_realloc. intros H. dn_all H; eapply fit_some; reflexivity. Qed.
Lemma start_adjust_fit n a h z h' z' : z_start_adjust n a h z = Done (h', z') -> zfit z'.
Proof. unfold z_start_adjust. intros H. dn_all H; eapply fit_some; reflexivity. Qed.
Lemma end_adjust_fit n d a h z h' z' : z_end_adjust n d a h z = Done (h', z') -> zfit z'.
Proof. unfold z_end_adjust. intros H. dn_all H; eapply fit_some; reflexivity. Qed.
Lemma start_move_fit n d a h z h' z' : z_start_move n d a h z = Done (h', z') -> zfit z'.
Proof. unfold z_start_move. intros H. dn_all H; eapply fit_some; reflexivity. Qed.
Lemma end_move_fit n d a h z h' z' : z_end_move n d a h z = Done (h', z') -> zfit z'.
Proof. unfold z_end_move. intros H. dn_all H; eapply fit_some; reflexivity. Qed.
Lemma add_start_fit junk n h z h' z' : zfit z -> z_add_at_start junk n h z = Done (h', z') -> zfit z'.
Proof.
  unfold z_add_at_start. intros F H. repeat dn H; try (injection H as <- <-; exact F);
    first [eapply start_realloc_fit; exact H|eapply start_adjust_fit; exact H|eapply start_move_fit; exact H].
Qed.
Lemma add_end_fit junk n h z h' z' : zfit z -> z_add_at_end junk n h z = Done (h', z') -> zfit z'.
Proof.
  unfold z_add_at_end. intros F H. repeat dn H; try (injection H as <- <-; exact F);
    first [eapply end_realloc_fit; exact H|eapply end_adjust_fit; exact H|eapply end_move_fit; exact H].
Qed.
Lemma add_bytes_start_fit junk n h z h' z' : zfit z -> z_add_bytes_start junk n h z = Done (h', z') -> zfit z'.
Proof. unfold z_add_bytes_start. intros F H. dn_all H; auto; eapply add_start_fit; eauto. Qed.
Lemma add_bytes_end_fit junk n h z h' z' : zfit z -> z_add_bytes_end junk n h z = Done (h', z') -> zfit z'.
Proof. unfold z_add_bytes_end. intros F H. dn_all H; auto; eapply add_end_fit; eauto. Qed.
Lemma add_buf_start_fit junk n h z h' z' : zfit z -> z_add_buf_start junk n h z = Done (h', z') -> zfit z'.
Proof. unfold z_add_buf_start. cbv zeta. intros F H. dn H; [injection H as <- <-; exact F|]. dn_all H; auto; eapply add_start_fit; eauto. Qed.
Lemma add_buf_end_fit junk n h z h' z' : zfit z -> z_add_buf_end junk n h z = Done (h', z') -> zfit z'.
Proof. unfold z_add_buf_end. cbv zeta. intros F H. dn H; [injection H as <- <-; exact F|]. dn_all H; auto; eapply add_end_fit; eauto. Qed.
Lemma release_fit h z h' z' : zfit z -> z_release h z = Done (h', z') -> zfit z'.
Proof. unfold z_release. intros F H. dn_all H; auto using fit_empty. Qed.
Lemma rem_start_fit n h z h' z' : zok z -> zfit z -> z_remove_at_start n h z = Done (h', z') -> zfit z'.
Proof.
  intros K F H. unfold z_remove_at_start in H. cbv zeta in H. unfold zfit, z_size in *.
  repeat dn H; try (injection H as <- <-; cbn; intros Hz; specialize (F Hz); destruct K; lia).
  eapply release_fit; eauto.
Qed.
Lemma rem_end_fit n h z h' z' : zok z -> zfit z -> z_remove_at_end n h z = Done (h', z') -> zfit z'.
Proof.
  intros K F H. unfold z_remove_at_end in H. cbv zeta in H. unfold zfit, z_size in *.
  repeat dn H; try (injection H as <- <-; cbn; intros Hz; specialize (F Hz); destruct K; lia).
  eapply release_fit; eauto.
Qed.
Lemma fragment_fit st n h z h' z' : zok z -> zfit z -> z_make_fragment st n h z = Done (h', z') -> zfit z'.
Proof.
  intros K F H. unfold z_make_fragment in H. repeat dn H. destruct a0 as [h2 f]. 
  eapply rem_end_fit; [|eapply rem_start_fit; eauto|exact H].
  unfold z_remove_at_start in E2. cbv zeta in E2. unfold zok, z_release in *. 
  repeat dn E2; injection E2 as <- <-; cbn; lia.
Qed.
Lemma real_fit junk h z h' z' : z_real junk h z = Done (h', z') -> zfit z'.
Proof. unfold z_real. cbv zeta. intros H. repeat dn H. eapply make_fit; [exact H|discriminate]. Qed.
Lemma make_real_fit junk h z h' z' : zfit z -> z_make_real junk h z = Done (h', z') -> zfit z'.
Proof. unfold z_make_real. intros F H. dn H; [dn H; injection H as <- <-; exact F|eapply real_fit; exact H]. Qed.
Lemma realize_fit junk h z h' z' : zfit z -> z_realize junk h z = Done (h', z') -> zfit z'.
Proof. unfold z_realize. intros F H. repeat dn H. injection H as <- <-. eapply make_real_fit; eauto. Qed.
Lemma alloc_none junk h n h' : allocate junk h n = (h', None) -> n = 0.
Proof. destruct n; cbn; [auto|discriminate]. Qed.
Lemma new_fit junk n h h' z' : z_new_capacity junk n h = Done (h', z') -> zfit z'.
Proof. unfold z_new_capacity. intros H. destruct (allocate junk h n) as [h1 st]. dn H. injection H as <- <-. intros _. unfold z_size. cbn. lia. Qed.
Lemma new_zero_fit junk s z e h h' z' : z = 0 \/ 0 < s + e -> z_new_zero junk s z e h = Done (h', z') -> zfit z'.
Proof.
  unfold z_new_zero. intros R H. destruct (allocate junk h (s + e)) as [h1 st] eqn:A. dn H. injection H as <- <-. unfold zfit, z_size. cbn. intros ->.
  apply alloc_none in A. lia.
Qed.
Lemma deep_fit junk d h h' z' : z_deep_copy junk d h = Done (h', z') -> zfit z'.
Proof.
  unfold z_deep_copy. intros H. destruct (allocate junk h (length d)) as [h1 [a|]] eqn:A.
  - dn H. injection H as <- <-. eapply fit_some. reflexivity.
  - injection H as <- <-. apply alloc_none in A. unfold zfit, z_size. cbn. lia.
Qed.

Lemma fits_set h b i o : fits b -> (forall z, o = Some z -> zfit z) -> fits (zset_var h b i o).
Proof.
  intros F H k z V. unfold zvar, zset_var in V. cbn [zw_bufs] in V. destruct (Nat.eq_dec i k) as [<-|N].
  - destruct (Nat.lt_ge_cases i (length (zw_bufs b))) as [L|L]; [rewrite nth_upd_eq in V by exact L; auto|].
    rewrite (proj2 (nth_error_None _ _)) in V by (rewrite upd_length; exact L). discriminate.
  - rewrite nth_upd_neq in V by exact N. exact (F k z V).
Qed.
Lemma fits_add h b c : fits b -> zfit c -> fits (zadd_var h b c).
Proof.
  intros F H k z V. unfold zvar, zadd_var in V. cbn [zw_bufs] in V. destruct (Nat.lt_ge_cases k (length (zw_bufs b))) as [L|L].
  - rewrite nth_error_app1 in V by exact L. exact (F k z V).
  - rewrite nth_error_app2 in V by exact L. destruct (k - length (zw_bufs b)) as [|[|m]]; cbn in V; try discriminate. injection V as <-. exact H.
Qed.
Lemma fits_created b r b' : fits b -> (forall h z, r = Done (h, z) -> zfit z) -> zcreated b r = Done b' -> fits b'.
Proof. unfold zcreated. intros F H E. destruct r as [[h z]| | |]; cbn [obind] in E; try discriminate. injection E as <-. apply fits_add; eauto. Qed.
Lemma fits_changed b i r b' : fits b -> (forall h z, r = Done (h, z) -> zfit z) -> zchanged b i r = Done b' -> fits b'.
Proof.
  unfold zchanged. intros F H E. destruct r as [[h z]| | |]; cbn [obind] in E; try discriminate. injection E as <-. apply fits_set; auto.
  intros z' Ez. injection Ez as <-. eauto.
Qed.

Lemma fits_step junk zo b b' : zinv b -> fits b -> zroom zo -> zstep junk zo b = Done b' -> fits b'.
Proof.
  intros I F R E.
  assert (K : forall k z, zvar b k = Some z -> zok z). { intros k z V. apply zvar_some in V. eapply I; eauto. }
  destruct zo as [o|i|i]; cbn [zstep] in E.
  - destruct o as [n|s z e|d|i|i|i j|i j|i j|i|i n|i bs|i j|i n|i bs|i j|i n|i n|i st n|i off bs]; cbn in R.
    + eapply fits_created; [exact F| |exact E]. intros h z. apply new_fit.
    + eapply fits_created; [exact F| |exact E]. intros h' z'. apply new_zero_fit, R.
    + eapply fits_created; [exact F| |exact E]. intros h z. apply deep_fit.
    + destruct (zvar b i) as [z|] eqn:V; [|injection E as <-; exact F]. unfold zcopy_new in E. dn E. injection E as <-. apply fits_add; eauto.
    + destruct (zvar b i) as [z|] eqn:V; [|injection E as <-; exact F]. unfold zmove_new in E. injection E as <-. apply fits_add; eauto.
      apply fits_set; auto. intros z' Ez. injection Ez as <-. apply fit_empty.
    + dn E; [injection E as <-; exact F|]. destruct (zvar b i) as [z|] eqn:V; [|injection E as <-; exact F].
      destruct (zvar b j) as [c|] eqn:Vc; [|injection E as <-; exact F]. unfold zassign in E. repeat dn E; injection E as <-;
      apply fits_set; auto; intros z' Ez. injection Ez as <-. eauto.
    + dn E; [injection E as <-; exact F|]. destruct (zvar b i) as [z|] eqn:V; [|injection E as <-; exact F].
      destruct (zvar b j) as [c|] eqn:Vc; [|injection E as <-; exact F]. unfold zmove_assign, zswap in E. cbv zeta in E. dn E. destruct a as [h z'].
      injection E as <-. repeat apply fits_set; auto; intros z1 Ez; injection Ez as <-;
        first [exact (F _ _ Vc)|exact (F _ _ V)|eapply release_fit; [exact (F _ _ V)|eassumption]].
    + dn E; [injection E as <-; exact F|]. destruct (zvar b i) as [z|] eqn:V; [|injection E as <-; exact F].
      destruct (zvar b j) as [c|] eqn:Vc; [|injection E as <-; exact F]. unfold zswap in E.
      injection E as <-. repeat apply fits_set; auto; intros z1 Ez; injection Ez as <-; first [exact (F _ _ Vc)|exact (F _ _ V)].
    + destruct (zvar b i) as [z|] eqn:V; [|injection E as <-; exact F]. unfold zdestroy in E. dn E. destruct a as [h z']. injection E as <-.
      apply fits_set; auto. discriminate.
    + destruct (zvar b i) as [z|] eqn:V; [|injection E as <-; exact F]. eapply fits_changed; [exact F| |exact E]. intros h z'. apply add_start_fit. eauto.
    + destruct (zvar b i) as [z|] eqn:V; [|injection E as <-; exact F]. eapply fits_changed; [exact F| |exact E]. intros h z'. apply add_bytes_start_fit. eauto.
    + destruct (zvar b i) as [z|] eqn:V; [|injection E as <-; exact F]. destruct (zvar b j) as [c|] eqn:Vc; [|injection E as <-; exact F].
      eapply fits_changed; [exact F| |exact E]. intros h z'. apply add_buf_start_fit. eauto.
    + destruct (zvar b i) as [z|] eqn:V; [|injection E as <-; exact F]. eapply fits_changed; [exact F| |exact E]. intros h z'. apply add_end_fit. eauto.
    + destruct (zvar b i) as [z|] eqn:V; [|injection E as <-; exact F]. eapply fits_changed; [exact F| |exact E]. intros h z'. apply add_bytes_end_fit. eauto.
    + destruct (zvar b i) as [z|] eqn:V; [|injection E as <-; exact F]. destruct (zvar b j) as [c|] eqn:Vc; [|injection E as <-; exact F].
      eapply fits_changed; [exact F| |exact E]. intros h z'. apply add_buf_end_fit. eauto.
    + destruct (zvar b i) as [z|] eqn:V; [|injection E as <-; exact F]. eapply fits_changed; [exact F| |exact E]. intros h z'. apply rem_start_fit; eauto.
    + destruct (zvar b i) as [z|] eqn:V; [|injection E as <-; exact F]. eapply fits_changed; [exact F| |exact E]. intros h z'. apply rem_end_fit; eauto.
    + destruct (zvar b i) as [z|] eqn:V; [|injection E as <-; exact F]. eapply fits_created; [exact F| |exact E]. intros h z'. apply fragment_fit; eauto.
    + destruct (zvar b i) as [z|] eqn:V; [|injection E as <-; exact F]. dn E. injection E as <-.
      apply fits_set; auto. intros z1 Ez. injection Ez as <-. exact (F _ _ V).
  - destruct (zvar b i) as [z|] eqn:V; [|injection E as <-; exact F]. eapply fits_created; [exact F| |exact E]. intros h z'. apply make_real_fit. eauto.
  - destruct (zvar b i) as [z|] eqn:V; [|injection E as <-; exact F]. eapply fits_changed; [exact F| |exact E]. intros h z'. apply realize_fit. eauto.
Qed.

(** ** Packets *)

Definition roomy (w : zpworld) : Prop := zinv (zp_buf w) /\ fits (zp_buf w).
Definition to_roomy {A} (g : A -> zpworld) (r : outcome A) : Prop := forall x, r = Done x -> roomy (g x).

Lemma roomy_on junk zo w : roomy w -> zroom zo -> to_roomy (fun w => w) (zp_on junk zo w).
Proof.
  intros [I F] R w' E. unfold zp_on in E. dn E. injection E as <-. pose proof (zstep_done _ _ _ _ I E0) as D.
  split; [apply D|]. eapply fits_step; eauto.
Qed.
Lemma roomy_bind {A B} (g : A -> zpworld) (g' : B -> zpworld) (r : outcome A) (f : A -> outcome B) :
  to_roomy g r -> (forall x, roomy (g x) -> to_roomy g' (f x)) -> to_roomy g' (obind r f).
Proof. intros H1 H2 y E. destruct r as [x| | |]; cbn [obind] in E; try discriminate. eapply H2; eauto. Qed.
Lemma roomy_get {B} (g' : B -> zpworld) w a f : (forall y, to_roomy g' (f y)) -> to_roomy g' (obind (zp_get w a) f).
Proof. intros H y E. destruct (zp_get w a) as [x| | |]; cbn [obind] in E; try discriminate. eapply H; eauto. Qed.
Lemma roomy_done w : roomy w -> to_roomy (fun w => w) (Done w).
Proof. intros H x E. injection E as <-. exact H. Qed.
Lemma roomy_pair w (a : nat) : roomy w -> to_roomy fst (Done (w, a)).
Proof. intros H x E. injection E as <-. exact H. Qed.

Lemma roomy_add_ref p w : roomy w -> to_roomy (fun w => w) (zp_add_ref p w).
Proof. intros R. destruct p; cbn; [apply roomy_get; intros y|]; apply roomy_done; exact R. Qed.
Lemma roomy_release junk p w : roomy w -> to_roomy (fun w => w) (zp_release junk p w).
Proof.
  intros R. destruct p; cbn; [|apply roomy_done; exact R]. apply roomy_get. intros y. destruct (zy_rc y) as [|[|n']].
  - intros x E. discriminate.
  - eapply roomy_bind; [apply roomy_on; [exact R|exact Logic.I]|]. intros w1 R1. apply roomy_done. exact R1.
  - apply roomy_done. exact R.
Qed.
Lemma roomy_private junk i p w : roomy w -> to_roomy fst (zp_private junk i p w).
Proof.
  intros R. destruct p; cbn [zp_private].
  - apply roomy_get. intros y. destruct (1 <? zy_rc y); [|apply roomy_pair; exact R].
    eapply (roomy_bind fst).
    + unfold zp_copy_body. eapply roomy_bind; [apply roomy_on; [exact R|exact Logic.I]|]. intros w1 R1. unfold zp_body. apply roomy_pair. exact R1.
    + intros [w1 a'] R1. cbn [fst] in R1. apply roomy_get. intros y1. apply roomy_pair. exact R1.
  - eapply (roomy_bind fst).
    + unfold zp_new_body. eapply roomy_bind; [apply roomy_on; [exact R|exact Logic.I]|]. intros w1 R1. unfold zp_body. apply roomy_pair. exact R1.
    + intros [w1 a'] R1. cbn [fst] in R1. apply roomy_pair. exact R1.
Qed.
Lemma roomy_mutate junk i p f w : roomy w -> (forall k, zroom (f k)) -> to_roomy fst (zp_mutate junk i p f w).
Proof.
  intros R Hf. unfold zp_mutate. eapply roomy_bind; [apply roomy_private; exact R|]. intros [w1 a] R1. apply roomy_get. intros y.
  eapply roomy_bind; [apply roomy_on; [exact R1|apply Hf]|]. intros w2 R2. apply roomy_pair. exact R2.
Qed.
Lemma roomy_remove junk i n f p w : roomy w -> (forall k, zroom (ZBase (f k))) -> to_roomy (fun w => w) (zp_remove junk i n f p w).
Proof.
  intros R Hf x E. unfold zp_remove in E. dn E. dn E. revert x E. eapply roomy_bind; [apply roomy_mutate; [exact R|exact Hf]|].
  intros [w1 a1] R1. apply roomy_done. exact R1.
Qed.
Lemma roomy_copy p w : roomy w -> to_roomy (fun w => w) (zp_copy_new p w).
Proof. intros R. unfold zp_copy_new. eapply roomy_bind; [apply roomy_add_ref; exact R|]. intros w1 R1. apply roomy_done. exact R1. Qed.

Lemma roomy_step junk o w : roomy w -> (forall zo, o = POnBuf zo -> zroom zo) -> to_roomy (fun w => w) (zpstep junk o w).
Proof.
  intros R Ho. pose proof (roomy_done w R) as Same.
  destruct o as [|k|i|i|i j|i j|i j|i|i n|i n|i k|i k|i n|i n|i j|i j|i st n|i|zo]; cbn [zpstep];
    try (destruct (zp_var w i) as [p|]; [|exact Same]); try (destruct (zp_var w j) as [q|]; [|exact Same]);
    try (destruct (zp_owned w k); [exact Same|]; destruct (zvar (zp_buf w) k); [|exact Same]).
  - apply roomy_done. exact R.
  - unfold zp_from_buf, zp_new_body. eapply (roomy_bind fst).
    + eapply roomy_bind; [apply roomy_on; [exact R|exact Logic.I]|]. intros w1 R1. unfold zp_body. apply roomy_pair. exact R1.
    + intros [w1 a] R1. apply roomy_get. intros y. eapply roomy_bind; [apply roomy_on; [exact R1|exact Logic.I]|].
      intros w2 R2. apply roomy_done. exact R2.
  - apply roomy_copy. exact R.
  - apply roomy_done. exact R.
  - unfold zp_assign. destruct (zp_same p q); [exact Same|]. unfold zp_release_var. eapply roomy_bind; [apply roomy_release; exact R|].
    intros w1 R1. apply roomy_add_ref. exact R1.
  - unfold zp_move_assign. destruct (zp_same p q); [exact Same|]. unfold zp_release_var. eapply roomy_bind; [apply roomy_release; exact R|].
    intros w1 R1. apply roomy_done. exact R1.
  - apply roomy_done. exact R.
  - unfold zp_release_var. eapply roomy_bind; [apply roomy_release; exact R|]. intros w1 R1. apply roomy_done. exact R1.
  - unfold zp_add_header. eapply roomy_bind; [apply roomy_mutate; [exact R|exact (fun _ => Logic.I)]|]. intros [w1 a] R1. apply roomy_get. intros y.
    apply roomy_on; [exact R1|exact Logic.I].
  - unfold zp_add_trailer. eapply roomy_bind; [apply roomy_mutate; [exact R|exact (fun _ => Logic.I)]|]. intros [w1 a] R1. apply roomy_get. intros y.
    apply roomy_on; [exact R1|exact Logic.I].
  - unfold zp_add_header_buf. eapply roomy_bind; [apply roomy_mutate; [exact R|exact (fun _ => Logic.I)]|]. intros [w1 a] R1. apply roomy_done. exact R1.
  - unfold zp_add_trailer_buf. eapply roomy_bind; [apply roomy_mutate; [exact R|exact (fun _ => Logic.I)]|]. intros [w1 a] R1. apply roomy_done. exact R1.
  - apply roomy_remove; [exact R|exact (fun _ => Logic.I)].
  - apply roomy_remove; [exact R|exact (fun _ => Logic.I)].
  - unfold zp_add_pkt. destruct q as [c|]; [|exact Same]. eapply roomy_bind; [apply roomy_add_ref; exact R|]. intros w0 R0. apply roomy_get. intros z.
    eapply roomy_bind; [apply roomy_mutate; [exact R0|exact (fun _ => Logic.I)]|]. intros [w1 a] R1. apply roomy_release. exact R1.
  - unfold zp_add_pkt. destruct q as [c|]; [|exact Same]. eapply roomy_bind; [apply roomy_add_ref; exact R|]. intros w0 R0. apply roomy_get. intros z.
    eapply roomy_bind; [apply roomy_mutate; [exact R0|exact (fun _ => Logic.I)]|]. intros [w1 a] R1. apply roomy_release. exact R1.
  - unfold zp_make_fragment. eapply roomy_bind; [apply roomy_copy; exact R|]. intros w1 R1.
    eapply roomy_bind; [apply roomy_remove; [exact R1|exact (fun _ => Logic.I)]|]. intros w2 R2.
    destruct (zp_var w2 (length (zp_vars w))) as [q|]; [|intros x E; discriminate]. intros x E. dn E. dn E. revert x E.
    apply roomy_remove; [exact R2|exact (fun _ => Logic.I)].
  - unfold zp_get_buffer. destruct p as [a|]; [apply roomy_get; intros y|]; apply roomy_on; try exact R; exact Logic.I.
  - destruct (existsb (zp_owned w) (zmentions zo)); [exact Same|]. apply roomy_on; [exact R|apply Ho; reflexivity].
Qed.
Lemma roomy_init : roomy zpinit.
Proof. split; [apply zinit_inv|]. intros [|k] z V; discriminate. Qed.
Lemma roomy_bare w i : roomy w -> ~ zp_bare w i.
Proof. intros [_ F] (a & y & _ & _ & B). exact (fits_bare _ _ F B). Qed.
Lemma roomy_steps junk l : forall w w', roomy w -> Forall zp_roomy l -> zpsteps junk l w = Done w' -> roomy w'.
Proof.
  induction l as [|o l IH]; intros w w' R H E; cbn [zpsteps] in E; [injection E as <-; exact R|].
  inversion H as [|? ? Ho Hl]; subst. dn E. apply (IH a w'); auto. apply (roomy_step junk o w R); auto. intros zo ->. exact Ho.
Qed.
Lemma plain_cleanly junk l : forall w, roomy w -> Forall zp_plain l -> zp_cleanly junk l w.
Proof.
  induction l as [|o l IH]; intros w R H; cbn [zp_cleanly]; [exact Logic.I|]. inversion H as [|? ? Ho Hl]; subst. destruct Ho as (D & Rm & Pl).
  split; [exact D|]. split.
  - destruct o; try exact Logic.I; cbn [zp_sensible]; try (apply fits_bare, R); try (apply roomy_bare, R). cbn in Pl.
    pose proof (fun k => fits_bare (zp_buf w) k (proj2 R)) as Nb.
    destruct zo as [o|i|i]; [destruct o|..]; cbn in Pl |- *; repeat split; auto; try contradiction; try (intros B; destruct (Nb _ B)).
  - destruct (zpstep junk o w) as [w1| | |] eqn:E; try exact Logic.I. apply IH; [|exact Hl]. apply (roomy_step junk o w R); auto. intros zo ->. exact Rm.
Qed.

(** ** Fragments *)

Lemma roomy_next junk o w w1 : roomy w -> zp_roomy o -> zpstep junk o w = Done w1 -> roomy w1.
Proof. intros R H E. apply (roomy_step junk o w R); auto. intros zo ->. exact H. Qed.

Lemma reassemble_ok junk i f s sizes : forall off w t, pinv [] w -> roomy w -> i <> f ->
  zpacket_of w i = Some s -> zpacket_of w f = Some t -> off + list_sum sizes <= length s ->
  exists w', zpsteps junk (zp_reassemble i f off (length (zp_vars w)) sizes) w = Done w' /\
    zpacket_of w' f = Some (t ++ firstn (list_sum sizes) (skipn off s)) /\
    forall j, j < length (zp_vars w) -> j <> f -> zpacket_of w' j = zpacket_of w j.
Proof.
  induction sizes as [|n r IH]; intros off w t I R Nif Hi Hf Hn; cbn [zp_reassemble zpsteps list_sum fold_right] in *.
  { exists w. split; [reflexivity|]. rewrite firstn_O, app_nil_r. auto. }
  change (fold_right Nat.add 0 r) with (list_sum r) in *.
  set (g := length (zp_vars w)).
  assert (Lv : forall k u, zpacket_of w k = Some u -> k < g).
  { intros k u Hk. unfold zpacket_of in Hk. destruct (zp_var w k) eqn:V; [|discriminate]. eapply zp_var_lt; eauto. }
  pose proof (Lv _ _ Hi) as Li. pose proof (Lv _ _ Hf) as Lf.
  pose proof (zp_step_ok junk (PMakeFrag i off n) w I) as H1. cbn [zp_bad_args] in H1. rewrite Hi in H1.
  rewrite (proj2 (Nat.ltb_ge (length s) (off + n))) in H1 by lia. destruct (H1 Logic.I Logic.I) as (w1 & x1 & E1 & I1 & _ & K1 & _).
  rewrite E1. cbn [obind]. pose proof (roomy_next junk (PMakeFrag i off n) _ _ R Logic.I E1) as R1.
  cbn [zpspec] in K1. rewrite str_packets, Hi in K1.
  assert (Lw1 : length (zp_vars w1) = S g). { rewrite <- packets_length, K1, app_length, packets_length. cbn. unfold g. lia. }
  assert (P1 : forall j, j < g -> zpacket_of w1 j = zpacket_of w j).
  { intros j Hj. rewrite <- !str_packets, K1, str_app_l by (rewrite packets_length; exact Hj). reflexivity. }
  assert (G1 : zpacket_of w1 g = Some (firstn n (skipn off s))).
  { rewrite <- str_packets, K1. unfold g. rewrite <- (packets_length w), str_app_new. reflexivity. }
  pose proof (zp_step_ok junk (PAddTrailerPkt f g) w1 I1) as H2. cbn [zp_bad_args] in H2.
  destruct (H2 Logic.I (roomy_bare w1 g R1)) as (w2 & x2 & E2 & I2 & _ & K2 & _).
  rewrite E2. cbn [obind]. pose proof (roomy_next junk (PAddTrailerPkt f g) _ _ R1 Logic.I E2) as R2.
  cbn [zpspec] in K2. rewrite !str_packets, (P1 f Lf), Hf, G1 in K2.
  assert (Lw2 : length (zp_vars w2) = S g) by (rewrite <- packets_length, K2, upd_length, packets_length; exact Lw1).
  assert (P2 : forall j, j <> f -> zpacket_of w2 j = zpacket_of w1 j).
  { intros j Hj. rewrite <- !str_packets, K2, str_upd_neq by auto. reflexivity. }
  assert (F2 : zpacket_of w2 f = Some (t ++ firstn n (skipn off s))).
  { rewrite <- str_packets, K2. apply str_upd_eq. rewrite packets_length. lia. }
  destruct (IH (off + n) w2 (t ++ firstn n (skipn off s)) I2 R2 Nif) as (w3 & E3 & F3 & O3).
  { rewrite P2, P1 by auto. exact Hi. }
  { exact F2. }
  { lia. }
  rewrite Lw2 in E3. exists w3. split; [exact E3|]. split.
  - rewrite F3. rewrite <- app_assoc. do 2 f_equal.
    assert (E : forall (m k : nat) (u : list N), firstn (m + k) u = firstn m u ++ firstn k (skipn m u)).
    { induction m as [|m IHm]; intros k [|v u]; cbn; rewrite ?firstn_nil; auto. f_equal. apply IHm. }
    rewrite E. f_equal. f_equal.
    assert (E' : forall (m k : nat) (u : list N), skipn (k + m) u = skipn m (skipn k u)).
    { intros m k. induction k as [|k IHk]; intros [|v u]; cbn; rewrite ?skipn_nil; auto. }
    apply E'.
  - intros j Hj Nj. rewrite O3 by (auto; lia). rewrite P2, P1 by auto. reflexivity.
Qed.
