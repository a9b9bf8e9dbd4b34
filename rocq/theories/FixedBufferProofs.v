(** Lemmas about fixed buffers. *)
From Verif Require Import Base BaseProofs BufferIter BufferIterSpec BufferIterProofs ZcIterSpec ZcIterProofs
  FixedBuffer FixedBufferSpec.
From Coq Require Import ZifyBool ZifyNat ZifyN.

Lemma Forall2_length {A B} (R : A -> B -> Prop) l l' : Forall2 R l l' -> length l = length l'.
Proof. induction 1; cbn; congruence. Qed.

(** ** Counting *)

Definition one (b : bool) : nat := if b then 1 else 0.

Lemma sharers_app l v a : sharers (l ++ [v]) a = sharers l a + one (shares a v).
Proof. unfold sharers. rewrite filter_app, app_length. cbn. destruct (shares a v); reflexivity. Qed.

Lemma sharers_upd l i old new a : nth_error l i = Some old ->
  sharers (upd l i new) a + one (shares a old) = sharers l a + one (shares a new).
Proof.
  unfold sharers. revert i; induction l as [|x l IH]; intros [|i] H; try discriminate; cbn [nth_error] in H.
  - injection H as ->. cbn [upd filter]. destruct (shares a old), (shares a new); cbn [one length]; lia.
  - specialize (IH i H). cbn [upd filter]. destruct (shares a x); cbn [length]; lia.
Qed.

Lemma sharers_pos l i a : nth_error l i = Some (Some (Some a)) -> 0 < sharers l a.
Proof.
  intros H. pose proof (sharers_upd l i _ None a H) as E. cbn [shares] in E. rewrite Nat.eqb_refl in E. cbn [one] in E. lia.
Qed.

(** ** Heaps *)

(** The heap that stands for the arrays, with [cnt] references to each. *)
Definition hrep (h : heap) (arrays : list (list N)) (cnt : nat -> nat) : Prop :=
  length h = length arrays /\
  forall s, s < length arrays ->
    nth_error h s = Some (match cnt s with O => None | S n => Some (mk_cell (S n) (nth s arrays [])) end).

Lemma hrep_ext h arrays c1 c2 : (forall s, s < length arrays -> c1 s = c2 s) -> hrep h arrays c1 -> hrep h arrays c2.
Proof. intros E [L H]. split; auto. intros s Hs. rewrite <- (E s Hs). auto. Qed.

Lemma hrep_get h arrays cnt a : hrep h arrays cnt -> a < length arrays -> 0 < cnt a ->
  get h a = Done (mk_cell (cnt a) (nth a arrays [])).
Proof. intros [L H] Ha Hc. unfold get. rewrite (H a Ha). destruct (cnt a); [lia|reflexivity]. Qed.

Lemma hrep_lost h arrays cnt a : hrep h arrays cnt -> a < length arrays -> cnt a = 0 -> get h a = UB.
Proof. intros [L H] Ha Hc. unfold get. rewrite (H a Ha), Hc. reflexivity. Qed.

Lemma hrep_upd h arrays cnt a n : hrep h arrays cnt -> a < length arrays ->
  hrep (upd h a (match n with O => None | S _ => Some (mk_cell n (nth a arrays [])) end)) arrays
       (fun s => if Nat.eqb s a then n else cnt s).
Proof.
  intros [L H] Ha. split; [now rewrite upd_length|]. intros s Hs. destruct (Nat.eqb_spec s a) as [->|Hn].
  - rewrite nth_upd_eq by lia. destruct n; reflexivity.
  - rewrite nth_upd_neq by auto. auto.
Qed.

Lemma hrep_acquire h arrays cnt st : hrep h arrays cnt ->
  match st with Some a => a < length arrays /\ 0 < cnt a | None => True end ->
  exists h', acquire st h = Done h' /\ hrep h' arrays (fun s => cnt s + one (shares s (Some st))).
Proof.
  intros H Hs. destruct st as [a|]; cbn [acquire shares].
  - destruct Hs as [Ha Hc]. unfold add_ref. rewrite (hrep_get _ _ _ _ H Ha Hc). cbn [obind c_rc c_bytes].
    eexists. split; [reflexivity|]. eapply hrep_ext; [|apply (hrep_upd h arrays cnt a (S (cnt a)) H Ha)].
    intros s _. cbn beta. destruct (Nat.eqb_spec s a) as [->|]; cbn; lia.
  - exists h. split; auto. eapply hrep_ext; [|exact H]. intros s _. cbn. lia.
Qed.

Lemma hrep_give_up h arrays cnt st : hrep h arrays cnt ->
  match st with Some a => a < length arrays /\ 0 < cnt a | None => True end ->
  exists h', give_up st h = Done h' /\ hrep h' arrays (fun s => cnt s - one (shares s (Some st))).
Proof.
  intros H Hs. destruct st as [a|]; cbn [give_up shares].
  - destruct Hs as [Ha Hc]. unfold release. rewrite (hrep_get _ _ _ _ H Ha Hc). cbn [obind c_rc c_bytes].
    destruct (cnt a) as [|[|n]] eqn:E; [lia| |]; eexists; (split; [reflexivity|]).
    + eapply hrep_ext; [|apply (hrep_upd h arrays cnt a 0 H Ha)].
      intros s _. cbn beta. destruct (Nat.eqb_spec s a) as [->|]; cbn; lia.
    + eapply hrep_ext; [|apply (hrep_upd h arrays cnt a (S n) H Ha)].
      intros s _. cbn beta. destruct (Nat.eqb_spec s a) as [->|]; cbn; lia.
  - exists h. split; auto. eapply hrep_ext; [|exact H]. intros s _. cbn. lia.
Qed.

Lemma hrep_new h arrays cnt bytes : hrep h arrays cnt ->
  hrep (h ++ [Some (mk_cell 1 bytes)]) (arrays ++ [bytes]) (fun s => if Nat.eqb s (length arrays) then 1 else cnt s).
Proof.
  intros [L H]. split; [rewrite !app_length; cbn; lia|]. intros s Hs. rewrite app_length in Hs. cbn in Hs.
  destruct (Nat.eqb_spec s (length arrays)) as [->|Hn].
  - rewrite nth_error_app2 by lia. rewrite L, Nat.sub_diag. cbn [nth_error].
    rewrite app_nth2 by lia. rewrite Nat.sub_diag. reflexivity.
  - rewrite nth_error_app1 by lia. rewrite (H s) by lia. rewrite app_nth1 by lia. reflexivity.
Qed.

Lemma nth_upd_list (l : list (list N)) a s m : a < length l -> nth s (upd l a m) [] = if Nat.eqb s a then m else nth s l [].
Proof.
  intros Ha. destruct (Nat.ltb_spec s (length l)) as [Hs|Hs].
  - assert (E : forall l' : list (list N), s < length l' -> nth_error l' s = Some (nth s l' [])) by (intros; now apply nth_error_nth').
    pose proof (E (upd l a m) ltac:(rewrite upd_length; lia)) as E1. pose proof (E l Hs) as E2.
    destruct (Nat.eqb_spec s a) as [->|Hn].
    + rewrite nth_upd_eq in E1 by auto. now injection E1.
    + rewrite nth_upd_neq in E1 by auto. rewrite E2 in E1. now injection E1.
  - rewrite !nth_overflow by (rewrite ?upd_length; lia). destruct (Nat.eqb_spec s a); [lia|reflexivity].
Qed.

Lemma hrep_store h arrays cnt a m : hrep h arrays cnt -> a < length arrays -> 0 < cnt a ->
  hrep (upd h a (Some (mk_cell (cnt a) m))) (upd arrays a m) cnt.
Proof.
  intros [L H] Ha Hc. split; [now rewrite !upd_length|]. intros s Hs. rewrite upd_length in Hs.
  rewrite nth_upd_list by auto. destruct (Nat.eqb_spec s a) as [->|Hn].
  - rewrite nth_upd_eq by lia. destruct (cnt a); [lia|reflexivity].
  - rewrite nth_upd_neq by auto. auto.
Qed.

(** ** Iterators *)

Definition it_at (len p : nat) : biter := mk_biter 0 (N.of_nat len) (N.of_nat p).

Lemma write_at host o n x m len p : p <= len -> (N.of_nat len < 2 ^ 63)%N -> In n [1; 2; 4; 8] -> (length m = len \/ m = []) ->
  write_int host o n x m (it_at len p) =
  if p + n <=? len then
    match m with [] => UB | _ => Done (overwrite p (layout o host n x) m, it_at len (p + n)) end
  else AssertFail.
Proof.
  intros Hp Hl Hn Hm. assert (Hn' : 0 < n <= 8) by (destruct Hn as [<-|[<-|[<-|[<-|[]]]]]; lia).
  unfold write_int, can_move_forward, it_at, set_cursor. cbn [it_start it_cursor it_end]. rewrite w64_small by lia.
  destruct (N.leb_spec (N.of_nat p + N.of_nat n) (N.of_nat len)); destruct (Nat.leb_spec (p + n) len); try lia; [|reflexivity].
  cbv zeta. rewrite keep_mem_bytes, Nat2N.id. unfold mem_store. rewrite layout_length.
  destruct m as [|b m].
  - destruct (Nat.leb_spec (p + n) (@length N [])); [cbn in *; lia|reflexivity].
  - destruct Hm as [Hm|Hm]; [|discriminate]. rewrite Hm. destruct (Nat.leb_spec (p + n) len); [|lia].
    rewrite <- Nat2N.inj_add. unfold overwrite. rewrite layout_length. reflexivity.
Qed.

Lemma read_at host o n m len p : p <= len -> (N.of_nat len < 2 ^ 63)%N -> In n [1; 2; 4; 8] -> (length m = len \/ m = []) ->
  read_int host o n m (it_at len p) =
  if p + n <=? len then
    match m with [] => UB | _ => Done (decode host o (slice p (p + n) m), it_at len (p + n)) end
  else AssertFail.
Proof.
  intros Hp Hl Hn Hm. assert (Hn' : 0 < n <= 8) by (destruct Hn as [<-|[<-|[<-|[<-|[]]]]]; lia).
  unfold read_int, can_move_forward, it_at, set_cursor. cbn [it_start it_cursor it_end]. rewrite w64_small by lia.
  destruct (N.leb_spec (N.of_nat p + N.of_nat n) (N.of_nat len)); destruct (Nat.leb_spec (p + n) len); try lia; [|reflexivity].
  rewrite Nat2N.id. unfold mem_load, slice. replace (p + n - p) with n by lia.
  destruct m as [|b m].
  - destruct (Nat.leb_spec (p + n) (@length N [])); [cbn in *; lia|reflexivity].
  - destruct Hm as [Hm|Hm]; [|discriminate]. rewrite Hm. destruct (Nat.leb_spec (p + n) len); [|lia].
    rewrite <- Nat2N.inj_add. f_equal. f_equal. unfold decode, of_mem_bytes, keep_endian.
    destruct o, host; cbn; rewrite ?rev_involutive; reflexivity.
Qed.

(** ** The invariant *)

Definition in_arrays (arrays : list (list N)) (st : option nat) : Prop :=
  match st with Some a => a < length arrays | None => True end.

Record inv (a : aworld) (w : world) : Prop := {
  i_vars : w_vars w = a_vars a;
  i_heap : hrep (w_heap w) (a_arrays a) (sharers (a_vars a));
  i_in : forall v st, nth_error (a_vars a) v = Some (Some st) -> in_arrays (a_arrays a) st;
  i_size : Forall (fun l => l <> [] /\ (N.of_nat (length l) < 2 ^ 63)%N) (a_arrays a);
  i_iters : Forall2 (fun x y => fst x = fst y /\ in_arrays (a_arrays a) (fst y) /\
      snd y <= length (content (a_arrays a) (fst y)) /\
      snd x = it_at (length (content (a_arrays a) (fst y))) (snd y)) (w_iters w) (a_iters a) }.

Lemma inv_represents a w : inv a w -> represents a w.
Proof.
  intros [V [L H] _ _ I]. split; [exact V|]. split; [exact L|]. split; [exact H|].
  clear -I. induction I as [|x y lx ly (E1 & _ & _ & E2) _ IH]; [reflexivity|]. cbn [map]. rewrite IH, E1, E2.
  cbn [it_at it_cursor]. rewrite Nat2N.id. now destruct y.
Qed.

Lemma inv_init : inv a_init w_init.
Proof.
  split; cbn; auto; try constructor; auto; try (intros [|v] st; discriminate).
  intros s Hs. cbn in Hs. lia.
Qed.

Lemma sharers_fresh vars arrays : (forall v st, nth_error vars v = Some (Some st) -> in_arrays arrays st) ->
  sharers vars (length arrays) = 0.
Proof.
  intros H. unfold sharers. destruct (filter (shares (length arrays)) vars) as [|x l] eqn:E; [reflexivity|exfalso].
  assert (Hx : In x (filter (shares (length arrays)) vars)) by (rewrite E; now left).
  apply filter_In in Hx. destruct Hx as [Hx Hs]. destruct x as [[b|]|]; try discriminate. cbn in Hs.
  apply Nat.eqb_eq in Hs. apply In_nth_error in Hx. destruct Hx as [v Hv]. specialize (H v _ Hv). cbn in H. lia.
Qed.

(** What a variable has in both worlds. *)
Lemma inv_var a w v : inv a w -> var w v = avar a v.
Proof. intros H. unfold var, avar. now rewrite (i_vars _ _ H). Qed.

Lemma avar_done a v st : avar a v = Done st -> nth_error (a_vars a) v = Some (Some st).
Proof. unfold avar. destruct (nth_error (a_vars a) v) as [[x|]|]; try discriminate. now intros [= ->]. Qed.

Lemma avar_cases a v : (exists st, avar a v = Done st) \/ avar a v = UB.
Proof. unfold avar. destruct (nth_error (a_vars a) v) as [[x|]|]; eauto. Qed.

Lemma inv_ref a w v st : inv a w -> nth_error (a_vars a) v = Some (Some st) ->
  match st with Some s => s < length (a_arrays a) /\ 0 < sharers (a_vars a) s | None => True end.
Proof.
  intros H E. destruct st as [s|]; [|exact I]. split; [exact (i_in _ _ H v _ E)|eapply sharers_pos; eassumption].
Qed.

Lemma inv_bytes a w v st : inv a w -> nth_error (a_vars a) v = Some (Some st) ->
  bytes_of st (w_heap w) = Done (content (a_arrays a) st).
Proof.
  intros H E. pose proof (inv_ref a w v st H E) as R. destruct st as [s|]; [|reflexivity]. destruct R as [R1 R2].
  cbn [bytes_of content]. now rewrite (hrep_get _ _ _ _ (i_heap _ _ H) R1 R2).
Qed.

(** Results that agree. *)
Definition agree (r : outcome (world * result)) (r' : outcome (aworld * result)) : Prop :=
  match r, r' with
  | Done (w, x), Done (a, y) => x = y /\ inv a w
  | AssertFail, AssertFail | UB, UB => True
  | _, _ => False
  end.

Lemma iters_ext arrays arrays' lx ly :
  (forall st, in_arrays arrays st -> in_arrays arrays' st /\ length (content arrays' st) = length (content arrays st)) ->
  Forall2 (fun x y => fst x = fst y /\ in_arrays arrays (fst y) /\ snd y <= length (content arrays (fst y)) /\
      snd x = it_at (length (content arrays (fst y))) (snd y)) lx ly ->
  Forall2 (fun (x : option nat * biter) (y : option nat * nat) => fst x = fst y /\ in_arrays arrays' (fst y) /\ snd y <= length (content arrays' (fst y)) /\
      snd x = it_at (length (content arrays' (fst y))) (snd y)) lx ly.
Proof.
  intros E. induction 1 as [|x y lx ly (H1 & H2 & H3 & H4) _ IH]; constructor; auto.
  destruct (E _ H2) as [E1 E2]. rewrite E2. auto.
Qed.

Lemma vars_app arrays vars st : (forall v st, nth_error vars v = Some (Some st) -> in_arrays arrays st) -> in_arrays arrays st ->
  forall v st', nth_error (vars ++ [Some st]) v = Some (Some st') -> in_arrays arrays st'.
Proof.
  intros H Hs v st' E. destruct (Nat.ltb_spec v (length vars)).
  - rewrite nth_error_app1 in E by auto. eauto.
  - rewrite nth_error_app2 in E by auto. destruct (v - length vars) as [|[|k]]; cbn in E; try discriminate. now injection E as <-.
Qed.

Lemma vars_upd arrays vars i x : (forall v st, nth_error vars v = Some (Some st) -> in_arrays arrays st) ->
  match x with Some st => in_arrays arrays st | None => True end ->
  forall v st', nth_error (upd vars i x) v = Some (Some st') -> in_arrays arrays st'.
Proof.
  intros H Hs v st' E. apply upd_inv in E. destruct E as [[-> <-]|[_ E]]; [exact Hs|eauto].
Qed.

Lemma inv_fresh a w bytes : inv a w -> bytes <> [] -> (N.of_nat (length bytes) < 2 ^ 63)%N ->
  inv (fst (apush a (a_arrays a ++ [bytes]) (Some (length (a_arrays a)))))
      (fst (push w (w_heap w ++ [Some (mk_cell 1 bytes)]) (Some (length (w_heap w))))).
Proof.
  intros [V H I Z T] Hb Hn. unfold apush, push. cbn [fst]. pose proof (proj1 H) as L.
  assert (In' : forall st, in_arrays (a_arrays a) st -> in_arrays (a_arrays a ++ [bytes]) st /\
            length (content (a_arrays a ++ [bytes]) st) = length (content (a_arrays a) st)).
  { intros [s|] Hs; cbn in *; [|auto]. rewrite app_length, app_nth1 by auto. split; [lia|reflexivity]. }
  split; cbn [w_vars a_vars w_heap a_arrays w_iters a_iters].
  - now rewrite V, L.
  - eapply hrep_ext; [|apply hrep_new, H]. intros s Hs. cbn beta. rewrite sharers_app. cbn [shares].
    pose proof (sharers_fresh _ _ I) as F. destruct (Nat.eqb_spec s (length (a_arrays a))) as [->|]; cbn [one]; cbv iota; lia.
  - apply vars_app; [|cbn; rewrite app_length; cbn; lia]. intros v st E. apply In', (I v st E).
  - apply Forall_app. split; [exact Z|]. constructor; auto.
  - eapply iters_ext; [exact In'|exact T].
Qed.

Lemma inv_vars a w h vs : inv a w -> hrep h (a_arrays a) (sharers vs) ->
  (forall v st, nth_error vs v = Some (Some st) -> in_arrays (a_arrays a) st) ->
  inv (mk_aworld (a_arrays a) vs (a_iters a)) (mk_world h vs (w_iters w)).
Proof. intros [V H I Z T] H' I'. split; cbn; auto. Qed.

Lemma alloc_agree junk a w bytes n : inv a w -> (N.of_nat n < 2 ^ 63)%N ->
  bytes = map (junk (length (w_heap w))) (seq 0 n) ->
  let (h, st) := allocate junk (w_heap w) n in
  agree (Done (push w h st)) (Done (afresh a bytes)).
Proof.
  intros H Hn ->. unfold allocate, afresh. destruct n as [|n].
  - cbn. split; [now rewrite (i_vars _ _ H)|]. rewrite (i_vars _ _ H). apply (inv_vars a w (w_heap w)); auto.
    + eapply hrep_ext; [|apply (i_heap _ _ H)]. intros s _. rewrite sharers_app. cbn. lia.
    + apply vars_app; [apply (i_in _ _ H)|exact I].
  - set (bytes := map (junk (length (w_heap w))) (seq 0 (S n))).
    assert (Hb : length bytes = S n) by (unfold bytes; now rewrite map_length, seq_length).
    assert (E : bytes <> []) by (intros E; rewrite E in Hb; discriminate).
    pose proof (inv_fresh a w bytes H E ltac:(lia)) as F.
    destruct bytes as [|b bs]; [congruence|]. cbn [agree]. split; [cbn; now rewrite (i_vars _ _ H)|exact F].
Qed.

Lemma store_new h a rc m data : length data = length m ->
  nth_error h a = Some (Some (mk_cell rc m)) -> store a data h = Done (upd h a (Some (mk_cell rc data))).
Proof.
  intros L E. unfold store, get. rewrite E. cbn [obind c_bytes c_rc]. unfold mem_store. cbn [Nat.add].
  destruct (Nat.leb_spec (length data) (length m)); [|lia]. cbn [firstn app].
  rewrite skipn_all2 by lia. now rewrite app_nil_r.
Qed.

Lemma deep_agree junk a w data : inv a w -> (N.of_nat (length data) < 2 ^ 63)%N ->
  agree (deep junk data w) (Done (afresh a data)).
Proof.
  intros H Hn. unfold deep, allocate. destruct (length data) as [|k] eqn:Ek.
  - destruct data; [|discriminate]. exact (alloc_agree junk a w [] 0 H eq_refl eq_refl).
  - rewrite (store_new _ _ 1 (map (junk (length (w_heap w))) (seq 0 (S k)))).
    + cbn [obind]. rewrite upd_last. assert (E : data <> []) by (intros ->; discriminate).
      pose proof (inv_fresh a w data H E ltac:(lia)) as F. unfold afresh. destruct data as [|d l]; [congruence|].
      cbn [agree]. split; [cbn; now rewrite (i_vars _ _ H)|exact F].
    + now rewrite map_length, seq_length.
    + rewrite nth_error_app2 by lia. now rewrite Nat.sub_diag.
Qed.

Lemma content_lt a w st : inv a w -> in_arrays (a_arrays a) st -> (N.of_nat (length (content (a_arrays a) st)) < 2 ^ 63)%N.
Proof.
  intros H Hs. destruct st as [s|]; cbn in *; [|lia]. pose proof (i_size _ _ H) as Z. rewrite Forall_forall in Z.
  apply Z, nth_In, Hs.
Qed.

Lemma iters_nth a w i : inv a w ->
  match nth_error (w_iters w) i, nth_error (a_iters a) i with
  | Some (st, it), Some (st', p) => st = st' /\ in_arrays (a_arrays a) st /\ p <= length (content (a_arrays a) st) /\
      it = it_at (length (content (a_arrays a) st)) p
  | None, None => True
  | _, _ => False
  end.
Proof.
  intros H. pose proof (i_iters _ _ H) as T. revert i. induction T as [|[st it] [st' p] lx ly (E & H1 & H2 & H3) _ IH]; intros [|i]; cbn [nth_error]; auto.
  - cbn [fst snd] in *. subst st'. auto.
  - apply IH.
Qed.

Lemma iter_mem_cases a w st : inv a w -> in_arrays (a_arrays a) st ->
  iter_mem st (w_heap w) = if lost a st then [] else content (a_arrays a) st.
Proof.
  intros H Hs. unfold iter_mem, lost. destruct st as [s|]; [|reflexivity]. cbn [bytes_of content]. cbn in Hs.
  destruct (sharers (a_vars a) s) as [|n] eqn:E.
  - rewrite (hrep_lost _ _ _ _ (i_heap _ _ H) Hs E). reflexivity.
  - rewrite (hrep_get _ _ _ _ (i_heap _ _ H) Hs) by lia. reflexivity.
Qed.

Lemma iters_upd arrays lx ly i st p :
  Forall2 (fun x y => fst x = fst y /\ in_arrays arrays (fst y) /\ snd y <= length (content arrays (fst y)) /\
      snd x = it_at (length (content arrays (fst y))) (snd y)) lx ly ->
  in_arrays arrays st -> p <= length (content arrays st) ->
  Forall2 (fun (x : option nat * biter) (y : option nat * nat) => fst x = fst y /\ in_arrays arrays (fst y) /\ snd y <= length (content arrays (fst y)) /\
      snd x = it_at (length (content arrays (fst y))) (snd y)) (upd lx i (st, it_at (length (content arrays st)) p)) (upd ly i (st, p)).
Proof.
  intros H Hs Hp. revert i. induction H as [|x y lx ly Hx Hl IH]; intros [|i]; cbn [upd]; constructor; auto.
Qed.

Lemma step_agree host junk o a w : op_ok o -> inv a w -> agree (step host junk o w) (astep host junk o a).
Proof.
  intros Ho H. pose proof H as [V HH HI HZ HT].
  destruct o as [|n|n zero|v|data|v|dst src|v|dst src|v1 v2|v|v|v size|v|v|i o n x|i o n]; cbn [step astep op_ok] in *.
  - exact (alloc_agree junk a w [] 0 H eq_refl eq_refl).
  - pose proof (alloc_agree junk a w _ n H Ho eq_refl) as A. rewrite (proj1 HH) in A.
    destruct (allocate junk (w_heap w) n). exact A.
  - destruct zero.
    + destruct n as [|n]; [exact (alloc_agree junk a w [] 0 H eq_refl eq_refl)|].
      cbn [allocate]. set (m := map (junk (length (w_heap w))) (seq 0 (S n))).
      assert (Em : nth_error (w_heap w ++ [Some (mk_cell 1 m)]) (length (w_heap w)) = Some (Some (mk_cell 1 m))).
      { rewrite nth_error_app2 by lia. now rewrite Nat.sub_diag. }
      assert (Lm : length m = S n) by (unfold m; now rewrite map_length, seq_length).
      unfold get. rewrite Em. cbn [obind c_bytes]. rewrite Lm.
      rewrite (store_new _ _ 1 m (repeat 0%N (S n))); [|now rewrite repeat_length|exact Em]. cbn [obind]. rewrite upd_last.
      assert (F := inv_fresh a w (repeat 0%N (S n)) H ltac:(discriminate) ltac:(rewrite repeat_length; lia)).
      split; [cbn; now rewrite V|exact F].
    + pose proof (alloc_agree junk a w _ n H Ho eq_refl) as A. rewrite (proj1 HH) in A.
      destruct (allocate junk (w_heap w) n) as [h [st|]]; exact A.
  - rewrite (inv_var a w v H). destruct (avar_cases a v) as [[st E]|E]; rewrite E; cbn [obind]; [|exact I].
    apply avar_done in E. rewrite (inv_bytes a w v st H E). cbn [obind]. apply deep_agree; auto.
    apply (content_lt a w); auto. exact (HI v st E).
  - apply deep_agree; auto.
  - rewrite (inv_var a w v H). destruct (avar_cases a v) as [[st E]|E]; rewrite E; cbn [obind]; [|exact I].
    apply avar_done in E. destruct (hrep_acquire _ _ _ st HH (inv_ref a w v st H E)) as (h & -> & H'). cbn [obind agree push apush].
    split; [now rewrite V|]. rewrite V. apply inv_vars; auto.
    + eapply hrep_ext; [|exact H']. intros s _. cbn beta. now rewrite sharers_app.
    + apply vars_app; [exact HI|exact (HI v st E)].
  - rewrite (inv_var a w dst H), (inv_var a w src H).
    destruct (avar_cases a dst) as [[tmp E]|E]; rewrite E; cbn [obind]; [|exact I].
    destruct (avar_cases a src) as [[st E']|E']; rewrite E'; cbn [obind]; [|exact I].
    apply avar_done in E. apply avar_done in E'. destruct (Nat.eqb_spec dst src) as [<-|Hd].
    + split; [reflexivity|]. rewrite E in E'. injection E' as ->. rewrite (upd_same _ _ _ E). now destruct a.
    + destruct (hrep_acquire _ _ _ st HH (inv_ref a w src st H E')) as (h & -> & H1). cbn [obind].
      destruct (hrep_give_up h _ _ tmp H1) as (h2 & -> & H2).
      { pose proof (inv_ref a w dst tmp H E) as R. destruct tmp; [|exact I]. lia. }
      cbn [obind agree set_vars aset]. split; [reflexivity|]. rewrite V. apply inv_vars; auto.
      * eapply hrep_ext; [|exact H2]. intros s _. cbn beta. pose proof (sharers_upd _ _ _ (Some st) s E). lia.
      * apply vars_upd; [exact HI|exact (HI src st E')].
  - rewrite (inv_var a w v H). destruct (avar_cases a v) as [[st E]|E]; rewrite E; cbn [obind]; [|exact I].
    apply avar_done in E. cbn [agree push apush w_vars w_heap w_iters a_vars a_arrays a_iters].
    split; [now rewrite V|]. rewrite V. apply inv_vars; auto.
    + eapply hrep_ext; [|exact HH]. intros s _. rewrite sharers_app. pose proof (sharers_upd _ _ _ (Some None) s E). cbn [shares one] in *. lia.
    + apply vars_app; [apply vars_upd; [exact HI|exact I]|exact (HI v st E)].
  - rewrite (inv_var a w dst H), (inv_var a w src H).
    destruct (avar_cases a dst) as [[tmp E]|E]; rewrite E; cbn [obind]; [|exact I].
    destruct (avar_cases a src) as [[st E']|E']; rewrite E'; cbn [obind]; [|exact I].
    apply avar_done in E. apply avar_done in E'. destruct (Nat.eqb_spec dst src) as [<-|Hd].
    + split; [reflexivity|]. now destruct a.
    + destruct (hrep_give_up _ _ _ tmp HH (inv_ref a w dst tmp H E)) as (h & -> & H').
      cbn [obind agree set_vars aset]. split; [reflexivity|]. rewrite V. apply inv_vars; auto.
      * eapply hrep_ext; [|exact H']. intros s _. cbn beta. pose proof (sharers_upd _ _ _ (Some st) s E) as S1.
        assert (E2 : nth_error (upd (a_vars a) dst (Some st)) src = Some (Some st)) by (rewrite nth_upd_neq; auto).
        pose proof (sharers_upd _ _ _ (Some None) s E2) as S2. cbn [shares one] in *. lia.
      * apply vars_upd; [apply vars_upd; [exact HI|exact (HI src st E')]|exact I].
  - rewrite (inv_var a w v1 H), (inv_var a w v2 H).
    destruct (avar_cases a v1) as [[s1 E]|E]; rewrite E; cbn [obind]; [|exact I].
    destruct (avar_cases a v2) as [[s2 E']|E']; rewrite E'; cbn [obind]; [|exact I].
    apply avar_done in E. apply avar_done in E'. cbn [agree set_vars aset]. split; [reflexivity|]. rewrite V. apply inv_vars; auto.
    + eapply hrep_ext; [|exact HH]. intros s _. pose proof (sharers_upd _ _ _ (Some s2) s E) as S1.
      assert (E2 : nth_error (upd (a_vars a) v1 (Some s2)) v2 = Some (Some s2)).
      { destruct (Nat.eq_dec v1 v2) as [<-|Hd]; [apply nth_upd_eq, (nth_lt _ _ _ E)|rewrite nth_upd_neq; auto]. }
      pose proof (sharers_upd _ _ _ (Some s1) s E2) as S2. lia.
    + apply vars_upd; [apply vars_upd; [exact HI|exact (HI v2 s2 E')]|exact (HI v1 s1 E)].
  - rewrite (inv_var a w v H). destruct (avar_cases a v) as [[st E]|E]; rewrite E; cbn [obind]; [|exact I].
    apply avar_done in E. destruct (hrep_give_up _ _ _ st HH (inv_ref a w v st H E)) as (h & -> & H').
    cbn [obind agree set_vars aset]. split; [reflexivity|]. rewrite V. apply inv_vars; auto.
    + eapply hrep_ext; [|exact H']. intros s _. cbn beta. pose proof (sharers_upd _ _ _ None s E) as S1. cbn [one] in S1.
      change (shares s None) with false in S1. cbn [one] in S1. lia.
    + apply vars_upd; [exact HI|exact I].
  - rewrite (inv_var a w v H). destruct (avar_cases a v) as [[st E]|E]; rewrite E; cbn [obind]; [|exact I].
    apply avar_done in E. rewrite (inv_bytes a w v st H E). cbn [obind agree]. auto.
  - rewrite (inv_var a w v H). destruct (avar_cases a v) as [[st E]|E]; rewrite E; cbn [obind]; [|exact I].
    apply avar_done in E. rewrite (inv_bytes a w v st H E). cbn [obind]. set (m := content (a_arrays a) st).
    unfold mem_load. cbn [Nat.add skipn].
    destruct (Nat.leb_spec (length m) size).
    + destruct (Nat.leb_spec (length m) (length m)); [|lia]. cbn [agree]. split; auto. now rewrite !firstn_all2 by lia.
    + destruct (Nat.leb_spec size (length m)); [|lia]. cbn [agree]. auto.
  - rewrite (inv_var a w v H). destruct (avar_cases a v) as [[st E]|E]; rewrite E; cbn [obind]; [|exact I].
    apply avar_done in E. rewrite (inv_bytes a w v st H E). cbn [obind agree].
    split; [f_equal; eapply Forall2_length; exact HT|]. split; cbn; auto. apply Forall2_app; [exact HT|]. constructor; [|constructor].
    cbn. split; auto. split; [exact (HI v st E)|]. split; [lia|reflexivity].
  - rewrite (inv_var a w v H). destruct (avar_cases a v) as [[st E]|E]; rewrite E; cbn [obind]; [|exact I].
    apply avar_done in E. rewrite (inv_bytes a w v st H E). cbn [obind agree].
    split; [f_equal; eapply Forall2_length; exact HT|]. split; cbn; auto. apply Forall2_app; [exact HT|]. constructor; [|constructor].
    cbn. split; auto. split; [exact (HI v st E)|]. split; [lia|reflexivity].
  - pose proof (iters_nth a w i H) as T. destruct (nth_error (w_iters w) i) as [[st it]|], (nth_error (a_iters a) i) as [[st' p]|]; try contradiction; [|exact I].
    destruct T as (<- & T1 & T2 & ->). rewrite (iter_mem_cases a w st H T1).
    rewrite write_at; auto; [|now apply (content_lt a w)|destruct (lost a st); auto].
    destruct (Nat.leb_spec (p + n) (length (content (a_arrays a) st))) as [L|L]; [|exact I].
    destruct (lost a st) eqn:El; [exact I|].
    assert (Hn : 0 < n) by (destruct Ho as [<-|[<-|[<-|[<-|[]]]]]; lia).
    destruct (content (a_arrays a) st) as [|b m] eqn:Ec; [cbn in L; lia|]. rewrite <- Ec in *. cbn [obind].
    destruct st as [s|]; [|discriminate]. cbn [content in_arrays lost] in *.
    assert (Sp : 0 < sharers (a_vars a) s) by (destruct (sharers (a_vars a) s); [discriminate|lia]).
    rewrite (hrep_get _ _ _ _ HH T1 Sp). cbn [obind agree c_rc]. split; [reflexivity|].
    set (m' := overwrite p (layout o host n x) (nth s (a_arrays a) [])).
    assert (Lm : length m' = length (nth s (a_arrays a) [])) by (apply overwrite_length; rewrite layout_length; exact L).
    assert (IA : forall st, in_arrays (a_arrays a) st -> in_arrays (upd (a_arrays a) s m') st /\
              length (content (upd (a_arrays a) s m') st) = length (content (a_arrays a) st)).
    { intros [q|] Hq; cbn in *; [|auto]. rewrite upd_length, nth_upd_list by auto.
      destruct (Nat.eqb_spec q s) as [->|]; auto. }
    split; cbn [w_vars a_vars w_heap a_arrays w_iters a_iters]; auto.
    + now apply hrep_store.
    + intros v st E. apply IA, (HI v st E).
    + rewrite Forall_forall in *. intros l Hl. apply In_nth_error in Hl. destruct Hl as [q Hq]. apply upd_inv in Hq.
      destruct Hq as [[-> <-]|[_ Hq]]; [|apply HZ; eapply nth_error_In; eassumption].
      pose proof (HZ _ (nth_In (a_arrays a) [] T1)) as [Z1 Z2]. rewrite Lm. split; [|exact Z2].
      intros E0. rewrite E0 in Lm. cbn in Lm. lia.
    + rewrite <- Lm. pose proof (IA (Some s) T1) as [T1' _]. 
      replace (length m') with (length (content (upd (a_arrays a) s m') (Some s))).
      2:{ cbn. rewrite nth_upd_list by auto. now rewrite Nat.eqb_refl. }
      apply iters_upd; auto; [eapply iters_ext; [exact IA|exact HT]|].
      cbn. rewrite nth_upd_list by auto. rewrite Nat.eqb_refl. lia.
  - pose proof (iters_nth a w i H) as T. destruct (nth_error (w_iters w) i) as [[st it]|], (nth_error (a_iters a) i) as [[st' p]|]; try contradiction; [|exact I].
    destruct T as (<- & T1 & T2 & ->). rewrite (iter_mem_cases a w st H T1).
    rewrite read_at; auto; [|now apply (content_lt a w)|destruct (lost a st); auto].
    destruct (Nat.leb_spec (p + n) (length (content (a_arrays a) st))) as [L|L]; [|exact I].
    destruct (lost a st) eqn:El; [exact I|].
    assert (Hn : 0 < n) by (destruct Ho as [<-|[<-|[<-|[<-|[]]]]]; lia).
    destruct (content (a_arrays a) st) as [|b m] eqn:Ec; [cbn in L; lia|]. rewrite <- Ec in *. cbn [obind agree].
    split; [reflexivity|]. split; cbn [w_vars a_vars w_heap a_arrays w_iters a_iters]; auto. apply iters_upd; auto.
Qed.

Lemma run_agree host junk ops : Forall op_ok ops -> forall a w, inv a w ->
  match run host junk ops w, arun host junk ops a with
  | Done (w, x), Done (a, y) => x = y /\ inv a w
  | AssertFail, AssertFail | UB, UB => True
  | _, _ => False
  end.
Proof.
  induction 1 as [|o ops Ho Hops IH]; intros a w H; cbn [run arun]; [auto|].
  pose proof (step_agree host junk o a w Ho H) as S. unfold agree in S.
  destruct (step host junk o w) as [[w1 r1]| | |], (astep host junk o a) as [[a1 r1']| | |]; try contradiction; cbn [obind]; auto.
  destruct S as [<- H1]. specialize (IH a1 w1 H1).
  destruct (run host junk ops w1) as [[w2 r2]| | |], (arun host junk ops a1) as [[a2 r2']| | |]; try contradiction; cbn [obind]; auto.
  destruct IH as [<- H2]. auto.
Qed.

Lemma inv_bytes_in a w v : inv a w ->
  bytes_in w v = match nth_error (a_vars a) v with Some (Some st) => Some (content (a_arrays a) st) | _ => None end.
Proof.
  intros H. unfold bytes_in. rewrite (i_vars _ _ H). destruct (nth_error (a_vars a) v) as [[st|]|] eqn:E; auto.
  now rewrite (inv_bytes a w v st H E).
Qed.

Lemma content_app arrays b st : in_arrays arrays st -> content (arrays ++ [b]) st = content arrays st.
Proof. destruct st as [s|]; cbn; intros; auto. now rewrite app_nth1. Qed.

Lemma afresh_frame a w data v : inv a w -> v < length (a_vars a) ->
  let a' := fst (afresh a data) in
  match nth_error (a_vars a') v with Some (Some st) => Some (content (a_arrays a') st) | _ => None end =
  match nth_error (a_vars a) v with Some (Some st) => Some (content (a_arrays a) st) | _ => None end.
Proof.
  intros H Hv. destruct data as [|d l]; cbn; rewrite nth_error_app1 by auto; [reflexivity|].
  destruct (nth_error (a_vars a) v) as [[st|]|] eqn:E; auto. rewrite content_app; auto. exact (i_in _ _ H v st E).
Qed.

Lemma astep_frame host junk o a w a' r v : inv a w -> astep host junk o a = Done (a', r) ->
  assigns o v = false -> v < length (a_vars a) -> match o with OWrite _ _ _ _ => False | _ => True end ->
  match nth_error (a_vars a') v with Some (Some st) => Some (content (a_arrays a') st) | _ => None end =
  match nth_error (a_vars a) v with Some (Some st) => Some (content (a_arrays a) st) | _ => None end.
Proof.
  intros H E Ha Hv Hw.
  destruct o as [|n|n zero|u|data|u|dst src|u|dst src|v1 v2|u|u|u size|u|u|i o n x|i o n]; cbn [astep assigns] in *; try contradiction.
  1,2,3,5: match type of E with Done (afresh _ ?d) = _ => pose proof (afresh_frame a w d v H Hv) as F; cbv zeta in F; apply (f_equal (fun q => match q with Done z => fst z | _ => a end)) in E; cbv beta iota in E; rewrite E in F; exact F end.
  all: repeat match type of E with
    | context [avar ?b ?x] => let st := fresh "st" in let X := fresh "X" in
        destruct (avar_cases b x) as [[st X]|X]; rewrite X in E; [clear X|discriminate]
    end; cbn [obind] in E.
  - match type of E with Done (afresh _ ?d) = _ => pose proof (afresh_frame a w d v H Hv) as F; cbv zeta in F; apply (f_equal (fun q => match q with Done z => fst z | _ => a end)) in E; cbv beta iota in E; rewrite E in F; exact F end.
  - injection E as <- _. cbn. rewrite nth_error_app1 by auto. reflexivity.
  - injection E as <- _. cbn. rewrite nth_upd_neq by lia. reflexivity.
  - injection E as <- _. cbn. rewrite nth_error_app1 by (rewrite upd_length; auto). rewrite nth_upd_neq by lia. reflexivity.
  - injection E as <- _. cbn. destruct (dst =? src); [reflexivity|]. rewrite !nth_upd_neq by lia. reflexivity.
  - injection E as <- _. cbn. rewrite !nth_upd_neq by lia. reflexivity.
  - injection E as <- _. cbn. rewrite nth_upd_neq by lia. reflexivity.
  - injection E as <- _. reflexivity.
  - injection E as <- _. reflexivity.
  - injection E as <- _. reflexivity.
  - injection E as <- _. reflexivity.
  - destruct (nth_error (a_iters a) i) as [[st p]|]; [|discriminate].
    destruct (p + n <=? length (content (a_arrays a) st)); [|discriminate]. destruct (lost a st); [discriminate|].
    injection E as <- _. reflexivity.
Qed.

Lemma reached_inv host junk ops w rs : Forall op_ok ops -> run host junk ops w_init = Done (w, rs) -> exists a, inv a w.
Proof.
  intros Ho E. pose proof (run_agree host junk ops Ho a_init w_init inv_init) as R. rewrite E in R.
  destruct (arun host junk ops a_init) as [[a y]| | |]; try contradiction. exists a. apply R.
Qed.
