(** Proofs about LogRecord.v. *)
From Coq Require Import List NArith Arith String Bool Lia.
From Coq Require Import ZifyBool ZifyNat.
From Verif Require Import Base BaseProofs LogRecord LogRecordSpec.
Import ListNotations.
Open Scope list_scope.

Definition is_at (r : nat) (h : option nat) : bool := match h with Some q => Nat.eqb q r | None => false end.
Definition cnt (l : list (option nat)) (r : nat) : nat := length (filter (is_at r) l).

Lemma users_cnt w r : users w r = cnt (lw_handles w) r.
Proof. reflexivity. Qed.

Lemma cnt_app l m r : cnt (l ++ m) r = cnt l r + cnt m r.
Proof. unfold cnt. now rewrite filter_app, app_length. Qed.

Lemma cnt_one q r : cnt [Some q] r = if Nat.eqb q r then 1 else 0.
Proof. unfold cnt. cbn. destruct (Nat.eqb q r); reflexivity. Qed.

Lemma cnt_upd l : forall i x y r, nth_error l i = Some x ->
  cnt (upd l i y) r + (if is_at r x then 1 else 0) = cnt l r + (if is_at r y then 1 else 0).
Proof.
  induction l as [|z t IH]; intros [|i] x y r H; cbn [nth_error] in H; try discriminate.
  - injection H as ->. unfold cnt. cbn [upd filter]. destruct (is_at r x), (is_at r y); cbn [length]; lia.
  - specialize (IH i x y r H). unfold cnt in *. cbn [upd filter]. destruct (is_at r z); cbn [length]; lia.
Qed.

Lemma cnt_pos l i r : nth_error l i = Some (Some r) -> 0 < cnt l r.
Proof.
  revert i. induction l as [|z t IH]; intros [|i] H; cbn [nth_error] in H; try discriminate; unfold cnt; cbn [filter].
  - injection H as ->. cbn. rewrite Nat.eqb_refl. cbn. lia.
  - specialize (IH i H). unfold cnt in IH. destruct (is_at r z); cbn [length]; lia.
Qed.

Lemma lookup_assign n v l m : lookup n l <> None -> lookup m (assign n v l) = if String.eqb m n then Some v else lookup m l.
Proof.
  induction l as [|[k u] t IH]; cbn [lookup assign]; [congruence|].
  destruct (String.eqb_spec n k) as [->|Hn]; cbn [lookup].
  - intros _. destruct (String.eqb m k); reflexivity.
  - intros H. rewrite IH by exact H. destruct (String.eqb_spec m k) as [->|]; [|reflexivity].
    destruct (String.eqb_spec k n); [congruence|reflexivity].
Qed.

Lemma lookup_overwrite n v l m : lookup m (overwrite n v l) = if String.eqb m n then Some v else lookup m l.
Proof.
  unfold overwrite. destruct (lookup n l) eqn:E; [apply lookup_assign; congruence|]. reflexivity.
Qed.

(** The sheet and the memory tell the same story. *)
Record R (s : sheet) (w : lworld) : Prop := {
  r_kin : sh_kin s = lw_handles w;
  r_len : length (sh_mem s) = length (lw_heap w);
  r_calls : sh_calls s = lw_calls w;
  r_range : forall h r, nth_error (lw_handles w) h = Some (Some r) -> r < length (lw_heap w);
  r_cell : forall r x, nth_error (lw_heap w) r = Some x ->
    match x with
    | Some c => lr_count c = cnt (lw_handles w) r /\ 0 < lr_count c /\ forall n, lookup n (lr_items c) = mem s r n
    | None => cnt (lw_handles w) r = 0
    end }.

Lemma R_init : R sheet_init lworld_init.
Proof. split; try reflexivity; cbn; [intros [|h] r H|intros [|r] x H]; discriminate. Qed.

Lemma kin_handle s w h r : R s w -> kin s h = Some r -> handle w h = Done r /\ nth_error (lw_handles w) h = Some (Some r).
Proof.
  intros HR. unfold kin, handle. rewrite (r_kin _ _ HR). destruct (nth_error (lw_handles w) h) as [[q|]|]; try discriminate.
  intros [= ->]. auto.
Qed.

Lemma live s w h r : R s w -> nth_error (lw_handles w) h = Some (Some r) ->
  exists c, nth_error (lw_heap w) r = Some (Some c) /\ lr_count c = cnt (lw_handles w) r /\ 0 < lr_count c /\
    forall n, lookup n (lr_items c) = mem s r n.
Proof.
  intros HR Hh. pose proof (r_range _ _ HR _ _ Hh) as Hr.
  destruct (nth_error (lw_heap w) r) as [x|] eqn:E; [|apply nth_error_None in E; lia].
  pose proof (r_cell _ _ HR _ _ E) as H. pose proof (cnt_pos _ _ _ Hh). destruct x as [c|]; [|lia]. exists c. auto.
Qed.

Lemma mem_upd s r f q : r < length (sh_mem s) -> forall n,
  match nth_error (upd (sh_mem s) r f) q with Some g => g n | None => None end = if Nat.eqb r q then f n else mem s q n.
Proof.
  intros Hr n. rewrite nth_upd. destruct (Nat.eqb_spec r q) as [->|]; cbn [andb]; [|reflexivity].
  destruct (Nat.ltb_spec q (length (sh_mem s))); [reflexivity|lia].
Qed.

Lemma mem_app s f q n : match nth_error (sh_mem s ++ [f]) q with Some g => g n | None => None end =
  if Nat.eqb q (length (sh_mem s)) then f n else mem s q n.
Proof.
  destruct (Nat.eqb_spec q (length (sh_mem s))) as [->|Hn].
  - rewrite nth_error_app2, Nat.sub_diag by lia. reflexivity.
  - unfold mem. destruct (Nat.ltb_spec q (length (sh_mem s))); [now rewrite nth_error_app1 by lia|].
    rewrite (proj2 (nth_error_None (sh_mem s) q)) by lia.
    rewrite (proj2 (nth_error_None (sh_mem s ++ [f]) q)); [reflexivity|]. rewrite app_length. cbn. lia.
Qed.

(** A new map with one handle. *)
Lemma R_alloc s w f items : R s w -> (forall n, lookup n items = f n) ->
  R (mk_sheet (sh_kin s ++ [Some (length (sh_mem s))]) (sh_mem s ++ [f]) (sh_calls s))
    (mk_lw (lw_heap w ++ [Some (mk_lrec 1 items)]) (lw_handles w ++ [Some (length (lw_heap w))]) (lw_calls w)).
Proof.
  intros HR Hf. pose proof HR as [h1 h2 h3 h4 h5]. split; cbn [sh_kin sh_mem sh_calls lw_heap lw_handles lw_calls].
  - now rewrite h1, h2.
  - rewrite !app_length. cbn. lia.
  - exact h3.
  - intros h r H. rewrite app_length. cbn [length]. destruct (Nat.ltb_spec h (length (lw_handles w))).
    + rewrite nth_error_app1 in H by lia. specialize (h4 _ _ H). lia.
    + rewrite nth_error_app2 in H by lia. destruct (h - length (lw_handles w)) as [|m]; cbn in H; [injection H as <-; lia|destruct m; discriminate].
  - intros r x H.
    assert (Hnew : cnt (lw_handles w) (length (lw_heap w)) = 0).
    { destruct (cnt (lw_handles w) (length (lw_heap w))) eqn:E; [reflexivity|exfalso].
      unfold cnt in E. destruct (filter (is_at (length (lw_heap w))) (lw_handles w)) as [|o t] eqn:F; [discriminate|].
      assert (Ho : In o (filter (is_at (length (lw_heap w))) (lw_handles w))) by (rewrite F; now left).
      apply filter_In in Ho. destruct Ho as [Ho Hat]. destruct o as [q|]; [|discriminate]. cbn in Hat. apply Nat.eqb_eq in Hat. subst q.
      apply In_nth_error in Ho. destruct Ho as [h Ho]. apply h4 in Ho. lia. }
    rewrite cnt_app, cnt_one.
    destruct (Nat.ltb_spec r (length (lw_heap w))).
    + rewrite nth_error_app1 in H by lia. specialize (h5 _ _ H). destruct (Nat.eqb_spec (length (lw_heap w)) r) as [|Hne0]; [lia|].
      rewrite !Nat.add_0_r. destruct x as [c|]; [|exact h5]. destruct h5 as (a & b & e). split; [exact a|]. split; [exact b|].
      intros n. rewrite e. unfold mem at 2. cbn [sh_mem]. rewrite mem_app. destruct (Nat.eqb_spec r (length (sh_mem s))); [lia|reflexivity].
    + rewrite nth_error_app2 in H by lia. destruct (r - length (lw_heap w)) as [|m] eqn:Em; cbn in H; [|destruct m; discriminate].
      injection H as <-. assert (r = length (lw_heap w)) by lia. subst r. rewrite Nat.eqb_refl, Hnew. cbn [length lr_count lr_items].
      split; [reflexivity|]. split; [lia|]. intros n. rewrite Hf. unfold mem. cbn [sh_mem]. rewrite mem_app, h2, Nat.eqb_refl. reflexivity.
Qed.

(** Writing to a map. *)
Lemma R_write s w h r c f items : R s w -> nth_error (lw_handles w) h = Some (Some r) -> nth_error (lw_heap w) r = Some (Some c) ->
  (forall n, lookup n items = f n) ->
  R (mk_sheet (sh_kin s) (upd (sh_mem s) r f) (sh_calls s)) (change w r c items).
Proof.
  intros HR Hh Hc Hf. pose proof HR as [h1 h2 h3 h4 h5]. pose proof (h4 _ _ Hh) as Hr.
  split; cbn [sh_kin sh_mem sh_calls lw_heap lw_handles lw_calls change]; auto.
  - now rewrite !upd_length.
  - intros g q H. rewrite upd_length. eauto.
  - intros q x H. apply upd_inv in H. destruct H as [[<- ->]|[Hn H]].
    + cbn [lr_count lr_items]. destruct (h5 _ _ Hc) as (a & b & e). split; [exact a|]. split; [exact b|].
      intros n. rewrite Hf. unfold mem. cbn [sh_mem]. rewrite mem_upd by lia. now rewrite Nat.eqb_refl.
    + specialize (h5 _ _ H). destruct x as [d|]; [|exact h5]. destruct h5 as (a & b & e). split; [exact a|]. split; [exact b|].
      intros n. rewrite e. unfold mem at 2. cbn [sh_mem]. rewrite mem_upd by lia. destruct (Nat.eqb_spec r q); [congruence|reflexivity].
Qed.

Lemma add_ref_ok heap r c : nth_error heap r = Some (Some c) ->
  add_ref r heap = Done (upd heap r (Some (mk_lrec (S (lr_count c)) (lr_items c)))).
Proof. unfold add_ref. now intros ->. Qed.

Definition drop_ref (c : lrec) : option lrec :=
  match lr_count c with S (S k) => Some (mk_lrec (S k) (lr_items c)) | _ => None end.

Lemma release_ok heap r c : nth_error heap r = Some (Some c) -> 0 < lr_count c -> release r heap = Done (upd heap r (drop_ref c)).
Proof.
  unfold release, drop_ref. intros -> H. destruct (lr_count c) as [|[|k]]; [lia|reflexivity|reflexivity].
Qed.

(** Changing where handles point and adjusting the counts. *)
Lemma R_handles s w handles heap : R s w -> length heap = length (lw_heap w) ->
  (forall h r, nth_error handles h = Some (Some r) -> r < length heap) ->
  (forall r x, nth_error (lw_heap w) r = Some x -> exists y, nth_error heap r = Some y /\
     match x with
     | None => y = None /\ cnt handles r = 0
     | Some c => (cnt handles r = 0 /\ y = None) \/
                 (0 < cnt handles r /\ y = Some (mk_lrec (cnt handles r) (lr_items c)))
     end) ->
  R (mk_sheet handles (sh_mem s) (sh_calls s)) (mk_lw heap handles (lw_calls w)).
Proof.
  intros [h1 h2 h3 h4 h5] Hl Hr Hx. split; cbn [sh_kin sh_mem sh_calls lw_heap lw_handles lw_calls]; auto; [lia|].
  intros r y Hy. assert (Hlt : r < length (lw_heap w)) by (rewrite <- Hl; apply nth_error_Some; congruence).
  destruct (nth_error (lw_heap w) r) as [x|] eqn:E; [|apply nth_error_None in E; lia].
  destruct (Hx r x E) as (y' & Hy' & H). assert (y' = y) by congruence. subst y'. specialize (h5 _ _ E).
  destruct x as [c|].
  - destruct H as [[H ->]|[H ->]]; [exact H|]. cbn [lr_count lr_items]. split; [reflexivity|]. split; [exact H|]. apply h5.
  - destruct H as [-> H]. exact H.
Qed.

Lemma step_ok gen gen2 o s w s' a : R s w -> sp_step gen gen2 o s = Some (s', a) ->
  exists w', l_step gen gen2 o w = Done (w', a) /\ R s' w'.
Proof.
  intros HR. pose proof HR as [h1 h2 h3 h4 h5].
  destruct o as [|h|h g|h|h|h n v|h n v|h n|h n t|h n]; cbn [sp_step l_step].
  - intros [= <- <-]. eexists. split; [rewrite h1; reflexivity|]. apply R_alloc; auto.
  - destruct (kin s h) as [r|] eqn:Ek; [|discriminate]. intros [= <- <-].
    destruct (kin_handle _ _ _ _ HR Ek) as [-> Hh]. destruct (live _ _ _ _ HR Hh) as (c & Hc & Hn & Hp & Hm).
    cbn [obind]. rewrite (add_ref_ok _ _ _ Hc). cbn [obind]. eexists. split; [rewrite h1; reflexivity|].
    rewrite h1. apply R_handles; auto; [now rewrite upd_length| |].
    + intros k q H. rewrite upd_length. destruct (Nat.ltb_spec k (length (lw_handles w))).
      * rewrite nth_error_app1 in H by lia. eauto.
      * rewrite nth_error_app2 in H by lia. destruct (k - length (lw_handles w)) as [|m]; cbn in H; [|destruct m; discriminate].
        injection H as <-. eauto.
    + intros q x Hx. assert (Hq : q < length (lw_heap w)) by (apply nth_error_Some; congruence).
      rewrite cnt_app, cnt_one. rewrite nth_upd.
      destruct (Nat.eqb_spec r q) as [->|Hne]; cbn [andb].
      * assert (x = Some c) by congruence. subst x. destruct (Nat.ltb_spec q (length (lw_heap w))); [|lia].
        eexists. split; [reflexivity|]. right. split; [lia|]. rewrite Hn. do 2 f_equal. lia.
      * exists x. split; [exact Hx|]. specialize (h5 _ _ Hx). rewrite Nat.add_0_r. destruct x as [d|]; [|auto].
        destruct h5 as (a & b & _). right. rewrite <- a. split; [exact b|]. destruct d; reflexivity.
  - destruct (kin s h) as [r|] eqn:Ek; [|discriminate]. destruct (kin s g) as [q|] eqn:Eg; [|discriminate]. intros [= <- <-].
    destruct (kin_handle _ _ _ _ HR Ek) as [Hd Hh]. destruct (kin_handle _ _ _ _ HR Eg) as [Hd' Hg].
    destruct (live _ _ _ _ HR Hh) as (c & Hc & Hn & Hp & Hm). destruct (live _ _ _ _ HR Hg) as (c' & Hc' & Hn' & Hp' & Hm').
    destruct (Nat.eqb_spec h g) as [->|Hne].
    + exists w. split; [reflexivity|]. assert (q = r) by congruence. subst q. rewrite h1. rewrite upd_same by exact Hh.
      destruct s as [k m cl]; cbn in *. now subst.
    + rewrite Hd, Hd'. cbn [obind]. rewrite (add_ref_ok _ _ _ Hc'). cbn [obind].
      set (c1 := if Nat.eqb q r then mk_lrec (S (lr_count c)) (lr_items c) else c).
      assert (Hc1 : nth_error (upd (lw_heap w) q (Some (mk_lrec (S (lr_count c')) (lr_items c')))) r = Some (Some c1)).
      { rewrite nth_upd. unfold c1. destruct (Nat.eqb_spec q r) as [->|]; cbn [andb]; [|exact Hc].
        assert (r < length (lw_heap w)) by eauto. destruct (Nat.ltb_spec r (length (lw_heap w))); [|lia]. congruence. }
      assert (Hp1 : 0 < lr_count c1) by (unfold c1; destruct (Nat.eqb q r); cbn; lia).
      rewrite (release_ok _ _ _ Hc1 Hp1). cbn [obind]. eexists. split; [reflexivity|]. rewrite h1.
      apply R_handles; auto; [now rewrite !upd_length| |].
      * intros k p H. rewrite !upd_length. apply upd_inv in H. destruct H as [[_ [= ->]]|[_ H]]; eauto.
      * intros p x Hx. assert (Hl : p < length (lw_heap w)) by (apply nth_error_Some; congruence).
        pose proof (cnt_upd _ _ _ (Some q) p Hh) as Hcu. cbn [is_at] in Hcu. specialize (h5 _ _ Hx).
        rewrite nth_upd, upd_length. destruct (Nat.eqb_spec r p) as [->|Hrp]; cbn [andb].
        -- destruct (Nat.ltb_spec p (length (lw_heap w))); [|lia]. assert (x = Some c) by congruence. subst x.
           eexists. split; [reflexivity|]. unfold c1, drop_ref. destruct (Nat.eqb_spec q p) as [->|Hqp]; cbn [lr_count lr_items].
           ++ destruct (lr_count c) eqn:E; [lia|]. right. split; [lia|]. do 2 f_equal. lia.
           ++ destruct (lr_count c) as [|[|k]] eqn:E; [lia|left; split; [lia|reflexivity]|right; split; [lia|]].
              do 2 f_equal. lia.
        -- rewrite nth_upd. destruct (Nat.eqb_spec q p) as [->|Hqp]; cbn [andb].
           ++ destruct (Nat.ltb_spec p (length (lw_heap w))); [|lia]. assert (x = Some c') by congruence. subst x.
              eexists. split; [reflexivity|]. right. split; [lia|]. do 2 f_equal. lia.
           ++ exists x. split; [exact Hx|]. destruct x as [d|]; [|split; [reflexivity|lia]]. destruct h5 as (a & b & _).
              right. replace (cnt (upd (lw_handles w) h (Some q)) p) with (lr_count d) by lia. split; [exact b|]. destruct d; reflexivity.
  - destruct (kin s h) as [r|] eqn:Ek; [|discriminate]. intros [= <- <-].
    destruct (kin_handle _ _ _ _ HR Ek) as [-> Hh]. destruct (live _ _ _ _ HR Hh) as (c & Hc & Hn & Hp & Hm).
    cbn [obind]. rewrite (release_ok _ _ _ Hc Hp). cbn [obind]. eexists. split; [reflexivity|]. rewrite h1.
    apply R_handles; auto; [now rewrite upd_length| |].
    + intros k p H. rewrite upd_length. apply upd_inv in H. destruct H as [[_ H]|[_ H]]; [discriminate|eauto].
    + intros p x Hx. assert (Hl : p < length (lw_heap w)) by (apply nth_error_Some; congruence).
      pose proof (cnt_upd _ _ _ None p Hh) as Hcu. cbn [is_at] in Hcu. specialize (h5 _ _ Hx).
      rewrite nth_upd. destruct (Nat.eqb_spec r p) as [->|Hrp]; cbn [andb].
      * destruct (Nat.ltb_spec p (length (lw_heap w))); [|lia]. assert (x = Some c) by congruence. subst x.
        eexists. split; [reflexivity|]. unfold drop_ref.
        destruct (lr_count c) as [|[|k]] eqn:E; [lia|left; split; [lia|reflexivity]|right; split; [lia|]]. do 2 f_equal. lia.
      * exists x. split; [exact Hx|]. destruct x as [d|]; [|split; [reflexivity|lia]]. destruct h5 as (a & b & _).
        right. replace (cnt (upd (lw_handles w) h None) p) with (lr_count d) by lia. split; [exact b|]. destruct d; reflexivity.
  - destruct (kin s h) as [r|] eqn:Ek; [|discriminate]. intros [= <- <-].
    destruct (kin_handle _ _ _ _ HR Ek) as [-> Hh]. destruct (live _ _ _ _ HR Hh) as (c & Hc & Hn & Hp & Hm).
    cbn [obind]. unfold deref. rewrite Hc. cbn [obind]. eexists. split; [rewrite h1; reflexivity|]. apply R_alloc; auto.
  - destruct (kin s h) as [r|] eqn:Ek; [|discriminate].
    destruct (kin_handle _ _ _ _ HR Ek) as [-> Hh]. destruct (live _ _ _ _ HR Hh) as (c & Hc & Hn & Hp & Hm).
    cbn [obind]. unfold deref. rewrite Hc. cbn [obind]. unfold put. rewrite Hm.
    destruct (mem s r n) eqn:Em; intros [= <- <-]; (eexists; split; [reflexivity|]).
    + unfold change. rewrite upd_same; [destruct w; exact HR|]. rewrite Hc. now destruct c.
    + eapply R_write; eauto. intros m. cbn [lookup]. unfold with_value. rewrite Hm. reflexivity.
  - destruct (kin s h) as [r|] eqn:Ek; [|discriminate].
    destruct (kin_handle _ _ _ _ HR Ek) as [-> Hh]. destruct (live _ _ _ _ HR Hh) as (c & Hc & Hn & Hp & Hm).
    cbn [obind]. unfold deref. rewrite Hc. cbn [obind]. intros [= <- <-]. eexists. split; [reflexivity|].
    eapply R_write; eauto. intros m. rewrite lookup_overwrite, Hm. reflexivity.
  - destruct (kin s h) as [r|] eqn:Ek; [|discriminate].
    destruct (kin_handle _ _ _ _ HR Ek) as [-> Hh]. destruct (live _ _ _ _ HR Hh) as (c & Hc & Hn & Hp & Hm).
    cbn [obind]. unfold deref. rewrite Hc. cbn [obind]. intros [= <- <-]. eexists. split; [rewrite Hm; reflexivity|exact HR].
  - destruct (kin s h) as [r|] eqn:Ek; [|discriminate].
    destruct (kin_handle _ _ _ _ HR Ek) as [-> Hh]. destruct (live _ _ _ _ HR Hh) as (c & Hc & Hn & Hp & Hm).
    cbn [obind]. unfold deref. rewrite Hc. cbn [obind]. rewrite Hm.
    destruct (mem s r n) as [v|]; [|intros [= <- <-]; eauto]. unfold get_as. rewrite h3.
    assert (HR' : forall cl, R (mk_sheet (sh_kin s) (sh_mem s) cl) (mk_lw (lw_heap w) (lw_handles w) cl)).
    { intros cl. split; cbn; auto. }
    destruct (ltype_eqb (type_of v) t); [destruct v|]; intros [= <- <-]; (eexists; split; [reflexivity|]); try apply HR';
      destruct s, w; cbn in *; subst; exact HR.
  - destruct (kin s h) as [r|] eqn:Ek; [|discriminate].
    destruct (kin_handle _ _ _ _ HR Ek) as [-> Hh]. destruct (live _ _ _ _ HR Hh) as (c & Hc & Hn & Hp & Hm).
    cbn [obind]. unfold deref. rewrite Hc. cbn [obind]. rewrite Hm. intros [= <- <-].
    destruct (mem s r n); eexists; (split; [reflexivity|exact HR]).
Qed.

Lemma run_ok gen gen2 l : forall s w s' a, R s w -> sp_run gen gen2 l s = Some (s', a) ->
  exists w', l_run gen gen2 l w = Done (w', a) /\ R s' w'.
Proof.
  induction l as [|o t IH]; intros s w s' a HR; cbn [sp_run l_run].
  - intros [= <- <-]. eauto.
  - destruct (sp_step gen gen2 o s) as [[s1 a1]|] eqn:E; [|discriminate].
    destruct (step_ok _ _ _ _ _ _ _ HR E) as (w1 & -> & HR1). cbn [obind].
    destruct (sp_run gen gen2 t s1) as [[s2 r]|] eqn:E2; [|discriminate]. intros [= <- <-].
    destruct (IH _ _ _ _ HR1 E2) as (w2 & -> & HR2). cbn [obind]. eauto.
Qed.

Lemma view_mem s w h n : R s w -> view w h n = match kin s h with Some r => mem s r n | None => None end.
Proof.
  intros HR. unfold view. destruct (nth_error (lw_handles w) h) as [[r|]|] eqn:E.
  - destruct (live _ _ _ _ HR E) as (c & -> & _ & _ & Hm). unfold kin. rewrite (r_kin _ _ HR), E. apply Hm.
  - unfold kin. now rewrite (r_kin _ _ HR), E.
  - unfold kin. now rewrite (r_kin _ _ HR), E.
Qed.

(** A record that only handle [h] refers to. *)
Definition alone (s : sheet) (h r : nat) : Prop :=
  kin s h = Some r /\ r < length (sh_mem s) /\ forall g, g <> h -> kin s g <> Some r.

Lemma kin_app s x g : match nth_error (sh_kin s ++ [x]) g with Some (Some r) => Some r | _ => None end =
  if Nat.eqb g (length (sh_kin s)) then x else kin s g.
Proof.
  destruct (Nat.eqb_spec g (length (sh_kin s))) as [->|Hn].
  - rewrite nth_error_app2, Nat.sub_diag by lia. destruct x; reflexivity.
  - unfold kin. destruct (Nat.ltb_spec g (length (sh_kin s))); [now rewrite nth_error_app1 by lia|].
    rewrite (proj2 (nth_error_None (sh_kin s) g)) by lia.
    rewrite (proj2 (nth_error_None (sh_kin s ++ [x]) g)); [reflexivity|]. rewrite app_length. cbn. lia.
Qed.

Lemma kin_upd s i x g : match nth_error (upd (sh_kin s) i x) g with Some (Some r) => Some r | _ => None end =
  if Nat.eqb i g && Nat.ltb g (length (sh_kin s)) then x else kin s g.
Proof. rewrite nth_upd. destruct (_ && _)%bool; [destruct x; reflexivity|reflexivity]. Qed.

Lemma step_alone gen gen2 o s s' a h r : sp_step gen gen2 o s = Some (s', a) -> alone s h r -> ~ touches h o ->
  alone s' h r /\ forall n, mem s' r n = mem s r n.
Proof.
  intros Hs (Hk & Hl & Ho) Ht.
  assert (Hlt : h < length (sh_kin s)).
  { unfold kin in Hk. apply nth_error_Some. destruct (nth_error (sh_kin s) h); discriminate. }
  destruct o as [|k|k g|k|k|k n v|k n v|k n|k n t|k n]; cbn [sp_step touches] in *;
    repeat match type of Hs with
    | match kin s ?x with _ => _ end = _ => destruct (kin s x) as [?q|] eqn:?Hq; [|discriminate Hs]
    end.
  - injection Hs as <- <-. split; [|intros n; unfold mem at 1; cbn [sh_mem]; rewrite mem_app; destruct (Nat.eqb_spec r (length (sh_mem s))); [lia|reflexivity]].
    split; [unfold kin; cbn [sh_kin]; rewrite kin_app; destruct (Nat.eqb_spec h (length (sh_kin s))); [lia|exact Hk]|].
    split; [cbn [sh_mem]; rewrite app_length; lia|]. intros g Hg. unfold kin. cbn [sh_kin]. rewrite kin_app.
    destruct (Nat.eqb_spec g (length (sh_kin s))); [intros [= E]; lia|auto].
  - injection Hs as <- <-. split; [|reflexivity].
    split; [unfold kin; cbn [sh_kin]; rewrite kin_app; destruct (Nat.eqb_spec h (length (sh_kin s))); [lia|exact Hk]|].
    split; [exact Hl|]. intros g Hg. unfold kin. cbn [sh_kin]. rewrite kin_app.
    destruct (Nat.eqb_spec g (length (sh_kin s))); [intros [= E]; subst; exact (Ho k Ht Hq)|auto].
  - injection Hs as <- <-. split; [|reflexivity].
    split; [unfold kin; cbn [sh_kin]; rewrite kin_upd; destruct (Nat.eqb_spec k h); [tauto|exact Hk]|].
    split; [exact Hl|]. intros x Hx. unfold kin. cbn [sh_kin]. rewrite kin_upd.
    destruct (Nat.eqb k x && Nat.ltb x (length (sh_kin s)))%bool; [|auto]. intros [= E]. subst. apply (Ho g); [tauto|assumption].
  - injection Hs as <- <-. split; [|reflexivity].
    split; [unfold kin; cbn [sh_kin]; rewrite kin_upd; destruct (Nat.eqb_spec k h); [tauto|exact Hk]|].
    split; [exact Hl|]. intros x Hx. unfold kin. cbn [sh_kin]. rewrite kin_upd.
    destruct (Nat.eqb k x && Nat.ltb x (length (sh_kin s)))%bool; [discriminate|auto].
  - injection Hs as <- <-. split; [|intros n; unfold mem at 1; cbn [sh_mem]; rewrite mem_app; destruct (Nat.eqb_spec r (length (sh_mem s))); [lia|reflexivity]].
    split; [unfold kin; cbn [sh_kin]; rewrite kin_app; destruct (Nat.eqb_spec h (length (sh_kin s))); [lia|exact Hk]|].
    split; [cbn [sh_mem]; rewrite app_length; lia|]. intros g Hg. unfold kin. cbn [sh_kin]. rewrite kin_app.
    destruct (Nat.eqb_spec g (length (sh_kin s))); [intros [= E]; lia|auto].
  - assert (Hne : q <> r) by (intros ->; exact (Ho k Ht Hq)).
    destruct (mem s q n); injection Hs as <- <-; [split; [split; [|split]; auto|reflexivity]|].
    split; [split; [exact Hk|]; split; [cbn [sh_mem]; rewrite upd_length; exact Hl|exact Ho]|].
    intros m. unfold mem at 1. cbn [sh_mem]. rewrite nth_upd. destruct (Nat.eqb_spec q r); [congruence|reflexivity].
  - assert (Hne : q <> r) by (intros ->; exact (Ho k Ht Hq)). injection Hs as <- <-.
    split; [split; [exact Hk|]; split; [cbn [sh_mem]; rewrite upd_length; exact Hl|exact Ho]|].
    intros m. unfold mem at 1. cbn [sh_mem]. rewrite nth_upd. destruct (Nat.eqb_spec q r); [congruence|reflexivity].
  - injection Hs as <- <-. split; [split; [|split]; auto|reflexivity].
  - destruct (mem s q n) as [v|]; [destruct (ltype_eqb _ _); [destruct v|]|]; injection Hs as <- <-;
      (split; [split; [|split]; auto|reflexivity]).
  - injection Hs as <- <-. split; [split; [|split]; auto|reflexivity].
Qed.

Lemma run_alone gen gen2 l : forall s s' a h r, sp_run gen gen2 l s = Some (s', a) -> alone s h r -> Forall (fun o => ~ touches h o) l ->
  alone s' h r /\ forall n, mem s' r n = mem s r n.
Proof.
  induction l as [|o t IH]; intros s s' a h r; cbn [sp_run].
  - intros [= <- <-]. auto.
  - destruct (sp_step gen gen2 o s) as [[s1 a1]|] eqn:E; [|discriminate].
    destruct (sp_run gen gen2 t s1) as [[s2 x]|] eqn:E2; [|discriminate]. intros [= <- <-] Ha Ht.
    inversion Ht as [|? ? H1 H2]; subst. destruct (step_alone _ _ _ _ _ _ _ _ E Ha H1) as [Ha1 Hm1].
    destruct (IH _ _ _ _ _ E2 Ha1 H2) as [Ha2 Hm2]. split; [exact Ha2|]. intros n. now rewrite Hm2.
Qed.
