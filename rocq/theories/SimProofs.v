(** Lemmas about the schedulers and the simulator. *)
From Coq Require Import Sorting.Sorted ZifyBool ZifyNat.
From Verif Require Import Base BaseProofs Sim SimSpec.
Open Scope Z_scope.

(** ** The order on events *)

Lemma key_lt_spec a b : key_lt a b = true <-> earlier a b.
Proof.
  unfold key_lt, earlier. destruct (Z.ltb_spec (fst a) (fst b)).
  - split; auto.
  - destruct (Z.eqb_spec (fst a) (fst b)).
    + destruct (Nat.ltb_spec (snd a) (snd b)); split; intros; try lia; auto; discriminate.
    + split; intros; [discriminate|lia].
Qed.

Lemma key_lt_false a b : key_lt a b = false <-> ~ earlier a b.
Proof. rewrite <- key_lt_spec. destruct (key_lt a b); split; intros; congruence. Qed.

Lemma earlier_trans a b c : earlier a b -> earlier b c -> earlier a c.
Proof. unfold earlier. lia. Qed.

Lemma earlier_irrefl a : ~ earlier a a.
Proof. unfold earlier. lia. Qed.

Lemma earlier_total a b : a = b \/ earlier a b \/ earlier b a.
Proof.
  destruct a as [t n], b as [t' n']. unfold earlier; cbn [fst snd].
  destruct (Z.lt_trichotomy t t') as [|[->|]]; auto.
  destruct (Nat.lt_trichotomy n n') as [|[->|]]; auto 6.
Qed.

Definition sorted (q : list key) : Prop := StronglySorted earlier q.

Lemma ordered_insert_in k q x : In x (ordered_insert k q) <-> x = k \/ In x q.
Proof.
  induction q as [|y q IH]; cbn [ordered_insert].
  - cbn. intuition.
  - destruct (key_lt k y); cbn [In]; rewrite ?IH; intuition.
Qed.

Lemma ordered_insert_perm k q : Permutation (ordered_insert k q) (k :: q).
Proof.
  induction q as [|y q IH]; cbn [ordered_insert]; auto.
  destruct (key_lt k y); auto. rewrite IH. apply perm_swap.
Qed.

Lemma ordered_insert_sorted k q : sorted q -> ~ In k q -> sorted (ordered_insert k q).
Proof.
  intros H. induction H as [|y q Hs IH Hf]; intros Hn; cbn [ordered_insert].
  - repeat constructor.
  - destruct (key_lt k y) eqn:E.
    + apply key_lt_spec in E. constructor; [constructor; auto|].
      constructor; auto. rewrite Forall_forall in *. intros z Hz.
      eapply earlier_trans; eauto.
    + apply key_lt_false in E. constructor.
      * apply IH. intros Hk; apply Hn; right; auto.
      * rewrite Forall_forall in *. intros z Hz. apply ordered_insert_in in Hz.
        destruct Hz as [->|Hz]; auto.
        destruct (earlier_total k y) as [->|[?|?]]; auto; [|contradiction].
        exfalso. apply Hn. left; auto.
Qed.

Lemma sorted_nodup q : sorted q -> NoDup q.
Proof.
  intros H. induction H as [|y q Hs IH Hf]; constructor; auto.
  intros Hy. rewrite Forall_forall in Hf. apply (earlier_irrefl y); auto.
Qed.

(** ** Containers refine the sorted queue *)

(** All ids of a queue are below a bound. *)
Definition fresh (n : nat) (q : list key) : Prop := forall x, In x q -> (snd x < n)%nat.

Record refines (causal : Prop) (I : impl) (rel : list key -> list key -> Prop)
    (relrun : key -> list key -> list key -> Prop) : Prop := {
  r_nil : rel [] [];
  r_perm : forall q qa, rel q qa -> Permutation q qa;
  r_head : forall q qa, rel q qa -> sorted qa -> i_head I q = hd_error qa;
  r_during : forall q k qa, rel q (k :: qa) -> sorted (k :: qa) -> relrun k (i_during I q) qa;
  r_insert : forall q qa k, rel q qa -> sorted qa -> fresh (snd k) qa ->
    rel (i_insert I k q) (ordered_insert k qa);
  r_insert_run : forall k0 q qa k, relrun k0 q qa -> sorted qa -> fresh (snd k) (k0 :: qa) ->
    (causal -> fst k0 <= fst k) -> relrun k0 (i_insert I k q) (ordered_insert k qa);
  r_after : forall k q qa, relrun k q qa -> sorted qa -> ~ In k qa ->
    (forall x, In x qa -> snd x <> snd k) -> rel (i_after I k q) qa
}.

Lemma list_insert_ordered k q : fresh (snd k) q -> list_insert k q = ordered_insert k q.
Proof.
  induction q as [|x q IH]; intros H; cbn [list_insert ordered_insert]; auto.
  assert (Hx : (snd x < snd k)%nat) by (apply H; left; auto).
  assert (E : key_lt k x = (fst k <? fst x)).
  { unfold key_lt. destruct (fst k <? fst x); auto.
    destruct (fst k =? fst x); auto. apply Nat.ltb_ge. lia. }
  rewrite E. destruct (fst k <? fst x); auto. rewrite IH; auto.
  intros y Hy; apply H; right; auto.
Qed.

Lemma list_refines : refines True list_impl (fun q qa => q = qa) (fun k q qa => q = k :: qa).
Proof.
  constructor; cbn; intros; subst; auto.
  - apply list_insert_ordered; auto.
  - assert (fst k0 <= fst k) by auto.
    cbn [list_insert]. replace (fst k <? fst k0) with false by lia.
    f_equal. apply list_insert_ordered. intros y Hy; apply H1; right; auto.
Qed.

Lemma set_insert_ordered k q : ~ In k q -> set_insert k q = ordered_insert k q.
Proof.
  induction q as [|x q IH]; intros H; cbn [set_insert ordered_insert]; auto.
  destruct (key_lt k x) eqn:E; auto.
  assert (E2 : key_lt x k = true).
  { apply key_lt_spec. apply key_lt_false in E.
    destruct (earlier_total k x) as [->|[?|?]]; auto; [|contradiction].
    exfalso; apply H; left; auto. }
  rewrite E2, IH; auto. intros Hk; apply H; right; auto.
Qed.

Lemma ordered_insert_comm a b q : sorted q -> a <> b ->
  ordered_insert a (ordered_insert b q) = ordered_insert b (ordered_insert a q).
Proof.
  intros Hs Hab. induction Hs as [|x q Hs IH Hf]; cbn [ordered_insert].
  - destruct (key_lt a b) eqn:E1, (key_lt b a) eqn:E2; auto.
    + apply key_lt_spec in E1, E2. unfold earlier in *; lia.
    + apply key_lt_false in E1, E2. destruct (earlier_total a b) as [?|[?|?]]; contradiction.
  - destruct (key_lt a x) eqn:Ea, (key_lt b x) eqn:Eb; cbn [ordered_insert].
    + rewrite Ea, Eb.
      destruct (key_lt a b) eqn:E1, (key_lt b a) eqn:E2; auto.
      * apply key_lt_spec in E1, E2. unfold earlier in *; lia.
      * apply key_lt_false in E1, E2. destruct (earlier_total a b) as [?|[?|?]]; contradiction.
    + rewrite Ea. destruct (key_lt b a) eqn:E2.
      * exfalso. apply key_lt_spec in E2, Ea. apply key_lt_false in Eb. apply Eb.
        eapply earlier_trans; eauto.
      * rewrite Eb. auto.
    + rewrite Eb. destruct (key_lt a b) eqn:E2.
      * exfalso. apply key_lt_spec in E2, Eb. apply key_lt_false in Ea. apply Ea.
        eapply earlier_trans; eauto.
      * rewrite Ea. auto.
    + rewrite Ea, Eb, IH. auto.
Qed.

Lemma set_erase_ordered k q : (forall x, In x q -> snd x <> snd k) ->
  set_erase k (ordered_insert k q) = q.
Proof.
  induction q as [|x q IH]; intros H; cbn [ordered_insert set_erase].
  - unfold key_eqb. rewrite Nat.eqb_refl. auto.
  - destruct (key_lt k x); cbn [set_erase]; unfold key_eqb.
    + rewrite Nat.eqb_refl. auto.
    + destruct (Nat.eqb_spec (snd k) (snd x)).
      * exfalso. apply (H x); [left|]; auto.
      * fold (key_eqb). rewrite IH; auto. intros; apply H; right; auto.
Qed.

Lemma fresh_notin k q : fresh (snd k) q -> ~ In k q.
Proof. intros H Hk. specialize (H _ Hk). lia. Qed.

Lemma set_refines : refines False set_impl (fun q qa => q = qa)
  (fun k q qa => ~ In k qa /\ q = ordered_insert k qa).
Proof.
  constructor; cbn; intros; subst; auto.
  - assert (~ In k qa).
    { pose proof (sorted_nodup _ H0) as Hn. inversion Hn; auto. }
    split; auto. destruct qa as [|x qa]; cbn; auto.
    inversion H0 as [|? ? Hs Hf]; subst. inversion Hf as [|? ? He]; subst.
    apply key_lt_spec in He. rewrite He. auto.
  - apply set_insert_ordered. apply fresh_notin. auto.
  - destruct H as [H ->]. assert (k0 <> k).
    { intros ->. apply (fresh_notin _ _ H1). left; auto. }
    split.
    + rewrite ordered_insert_in. intros [?|?]; auto.
    + rewrite set_insert_ordered. apply ordered_insert_comm; auto.
      rewrite ordered_insert_in. intros [?|Hk]; [auto|].
      apply (fresh_notin _ _ H1). right; auto.
  - destruct H as [H ->]. apply set_erase_ordered. auto.
Qed.

(** The root of a heap is the earliest event. *)
Lemma heap_root l k : is_heap (k :: l) -> forall x, In x (k :: l) -> x = k \/ earlier k x.
Proof.
  intros H.
  assert (G : forall n i x, (i <= n)%nat -> nth_error (k :: l) i = Some x -> x = k \/ earlier k x).
  { induction n as [|n IH]; intros i x Hi Hx.
    - assert (i = 0)%nat by lia. subst i. cbn in Hx. inversion Hx; auto.
    - destruct i as [|i]; [cbn in Hx; inversion Hx; auto|].
      set (j := ((S i - 1) / 2)%nat).
      assert (Hj : (j < S i)%nat) by (unfold j; apply Nat.div_lt_upper_bound; lia).
      destruct (nth_error (k :: l) j) as [a|] eqn:Ea.
      + assert (Ha : a = k \/ earlier k a) by (apply (IH j); [lia|auto]).
        specialize (H (S i) a x ltac:(lia) Ea Hx).
        unfold heap_less in H. apply key_lt_false in H.
        destruct (earlier_total a x) as [->|[E|E]]; auto; [|contradiction].
        destruct Ha as [->|Ha]; auto. right. eapply earlier_trans; eauto.
      + exfalso. apply nth_error_None in Ea.
        assert (S i < length (k :: l))%nat by (apply nth_error_Some; congruence). lia. }
  intros x Hx. destruct (In_nth_error _ _ Hx) as [i Hi]. eapply G; eauto.
Qed.

Lemma heap_refines lib : refines False (heap_impl lib)
  (fun q qa => is_heap q /\ Permutation q qa) (fun _ q qa => is_heap q /\ Permutation q qa).
Proof.
  constructor; cbn [i_insert i_head i_during i_after heap_impl].
  - split; auto. intros i a b _ H _. destruct ((i - 1) / 2)%nat; discriminate.
  - tauto.
  - intros q qa [Hh Hp] Hs. destruct q as [|k q].
    + apply Permutation_nil in Hp. subst. auto.
    + destruct qa as [|x qa]; [apply Permutation_sym, Permutation_nil in Hp; discriminate|].
      cbn. f_equal. inversion Hs; subst. rewrite Forall_forall in H2.
      assert (H3 : x = k \/ earlier k x).
      { eapply heap_root; eauto. rewrite Hp. left; auto. }
      assert (H4 : In k (x :: qa)) by (rewrite <- Hp; left; auto).
      destruct H3 as [|H3]; auto. destruct H4 as [|H4]; auto.
      exfalso. apply (earlier_irrefl k). eapply earlier_trans; eauto.
  - intros q k qa [Hh Hp] Hs.
    assert (Hk : hd_error q = Some k).
    { destruct q as [|y q].
      - apply Permutation_nil in Hp. discriminate.
      - cbn. f_equal. inversion Hs; subst. rewrite Forall_forall in H2.
        assert (H3 : k = y \/ earlier y k).
        { eapply heap_root; eauto. rewrite Hp. left; auto. }
        assert (H4 : In y (k :: qa)) by (rewrite <- Hp; left; auto).
        destruct H3 as [|H3]; auto. destruct H4 as [|H4]; auto.
        exfalso. apply (earlier_irrefl y). eapply earlier_trans; eauto. }
    destruct q as [|y q]; [discriminate|]. inversion Hk; subst y.
    split; [apply lib_pop_heap; auto|].
    rewrite (lib_pop_perm lib). eapply Permutation_cons_inv; eauto.
  - intros q qa k [Hh Hp] _ _. split; [apply lib_push_heap; auto|].
    rewrite (lib_push_perm lib), ordered_insert_perm. auto.
  - intros _ q qa k [Hh Hp] _ _ _. split; [apply lib_push_heap; auto|].
    rewrite (lib_push_perm lib), ordered_insert_perm. auto.
  - tauto.
Qed.

Lemma spec_refines : refines False spec_impl (fun q qa => q = qa) (fun _ q qa => q = qa).
Proof. constructor; cbn; intros; subst; auto. Qed.

(** ** Legal records *)

Lemma snoc_split {A} (tr : list A) o l1 x l2 : tr ++ [o] = l1 ++ x :: l2 ->
  (l2 = [] /\ tr = l1 /\ o = x) \/ exists l2', l2 = l2' ++ [o] /\ tr = l1 ++ x :: l2'.
Proof.
  destruct l2 as [|y l2] using rev_ind; intros H.
  - left. apply app_inj_tail in H. intuition.
  - right. exists l2. clear IHl2. rewrite app_comm_cons, app_assoc in H.
    apply app_inj_tail in H. destruct H as [-> ->]. auto.
Qed.

Lemma legal_snoc tr o : legal (tr ++ [o]) <-> legal tr /\ legal_next tr o.
Proof.
  split.
  - intros H. split.
    + intros l1 x l2 ->. apply (H l1 x (l2 ++ [o])). rewrite <- app_assoc. auto.
    + apply (H tr o []). auto.
  - intros [H1 H2] l1 x l2 E. apply snoc_split in E.
    destruct E as [[-> [-> ->]]|[l2' [-> E]]]; eauto.
Qed.

Lemma legal_nil : legal [].
Proof. intros l1 o l2 H. destruct l1; discriminate. Qed.

Lemma num_scheduled_snoc tr o :
  num_scheduled (tr ++ [o]) = (num_scheduled tr + if is_sched o then 1 else 0)%nat.
Proof.
  unfold num_scheduled. rewrite filter_app, app_length. cbn. destruct (is_sched o); auto.
Qed.

Lemma in_snoc {A} (x o : A) tr : In x (tr ++ [o]) <-> In x tr \/ o = x.
Proof. rewrite in_app_iff. cbn. intuition. Qed.

Lemma scheduled_bound tr : legal tr -> forall id t s, scheduled tr id t s ->
  (id < num_scheduled tr)%nat.
Proof.
  induction tr as [|o tr IH] using rev_ind; intros H id t s Hs; [destruct Hs|].
  apply legal_snoc in H. destruct H as [H Hn]. unfold scheduled in Hs.
  apply in_snoc in Hs. rewrite num_scheduled_snoc.
  destruct Hs as [Hs| ->].
  - specialize (IH H _ _ _ Hs). lia.
  - cbn in Hn |- *. lia.
Qed.

Lemma scheduled_unique tr : legal tr -> forall id t s t' s',
  scheduled tr id t s -> scheduled tr id t' s' -> t = t' /\ s = s'.
Proof.
  induction tr as [|o tr IH] using rev_ind; intros H id t s t' s' H1 H2; [destruct H1|].
  apply legal_snoc in H. destruct H as [H Hn]. unfold scheduled in *.
  apply in_snoc in H1. apply in_snoc in H2.
  destruct H1 as [H1|H1], H2 as [H2|H2].
  - eapply IH; eauto.
  - subst o. cbn in Hn. apply (scheduled_bound _ H) in H1. lia.
  - subst o. cbn in Hn. apply (scheduled_bound _ H) in H2. lia.
  - subst o. inversion H2. auto.
Qed.

Lemma taken_scheduled tr : legal tr -> forall id, taken tr id -> exists t s, scheduled tr id t s.
Proof.
  intros H id [c [s Hi]]. apply in_split in Hi. destruct Hi as [l1 [l2 ->]].
  destruct (H _ _ _ eq_refl) as [t [s0 [Hs _]]]. exists t, s0.
  unfold scheduled in *. apply in_or_app. auto.
Qed.

Lemma taken_snoc tr o id : taken (tr ++ [o]) id <-> taken tr id \/ exists c s, o = OTake id c s.
Proof.
  unfold taken. split.
  - intros [c [s H]]. apply in_snoc in H. destruct H as [H|H]; eauto.
  - intros [[c [s H]]|[c [s H]]]; exists c, s; apply in_snoc; auto.
Qed.

(** ** The invariant of the abstract scheduler *)

Definition handle_ok (r : option nat) (tr : list obs) (id : nat) (h : handle) : Prop :=
  exists s, scheduled tr id (h_time h) s /\
    ((h_sink h = Some s /\ ~ cancelled tr id /\ (~ taken tr id \/ r = Some id)) \/
     (h_sink h = None /\ (cancelled tr id \/ (taken tr id /\ r <> Some id)))) /\
    (h_running h = true -> r = Some id).

Record inv (r : option nat) (st : state) : Prop := {
  i_sorted : sorted (s_queue st);
  i_pend : forall t id, In (t, id) (s_queue st) <->
             (exists s, scheduled (s_trace st) id t s) /\ ~ taken (s_trace st) id;
  i_num : num_scheduled (s_trace st) = length (s_handles st);
  i_hand : forall id h, nth_error (s_handles st) id = Some h -> handle_ok r (s_trace st) id h;
  i_run : forall id, r = Some id -> taken (s_trace st) id;
  i_legal : legal (s_trace st)
}.

Lemma inv_fresh r st : inv r st -> fresh (length (s_handles st)) (s_queue st).
Proof.
  intros H [t id] Hx. apply (i_pend _ _ H) in Hx. destruct Hx as [[s Hx] _]. cbn.
  rewrite <- (i_num _ _ H). eapply scheduled_bound; eauto. apply H.
Qed.

Lemma inv_init c i : inv None (mk_state c i [] [] 0 true false [] false).
Proof.
  constructor; cbn.
  - constructor.
  - intros t id. split; [intros []|]. intros [[s []] _].
  - auto.
  - intros id h H. destruct id; discriminate.
  - discriminate.
  - apply legal_nil.
Qed.

(** Recording something that is neither a scheduling, a cancellation nor a
    removal. *)
Arguments num_scheduled : simpl never.
Arguments fresh : simpl never.
Arguments scheduled : simpl never.
Arguments taken : simpl never.
Arguments cancelled : simpl never.

Definition neutral (o : obs) : Prop :=
  match o with OReject _ | OPause | OLife _ => True | _ => False end.

Lemma scheduled_neutral tr o id t s : neutral o -> scheduled (tr ++ [o]) id t s <-> scheduled tr id t s.
Proof.
  intros H. unfold scheduled. rewrite in_snoc. split; auto. intros [?| ->]; auto. destruct H.
Qed.
Lemma taken_neutral tr o id : neutral o -> taken (tr ++ [o]) id <-> taken tr id.
Proof.
  intros H. rewrite taken_snoc. split; auto. intros [?|[c [s ->]]]; auto. destruct H.
Qed.
Lemma cancelled_neutral tr o id : neutral o -> cancelled (tr ++ [o]) id <-> cancelled tr id.
Proof.
  intros H. unfold cancelled. rewrite in_snoc. split; auto. intros [?| ->]; auto. destruct H.
Qed.

Lemma inv_neutral r st o : inv r st -> neutral o -> inv r (log st o).
Proof.
  intros [H1 H2 H3 H4 H5 H6] Hn. constructor; cbn.
  - auto.
  - intros t id. rewrite H2. setoid_rewrite (scheduled_neutral _ _ id t); auto.
    rewrite taken_neutral; tauto.
  - rewrite num_scheduled_snoc, H3. destruct o; cbn in *; try tauto; lia.
  - intros id h Hh. destruct (H4 _ _ Hh) as [s [Hs Hr]]. exists s.
    rewrite scheduled_neutral, cancelled_neutral, taken_neutral by auto. auto.
  - intros id Hr. rewrite taken_neutral by auto. auto.
  - apply legal_snoc. split; auto. destruct o; cbn in *; tauto.
Qed.

Lemma inv_same r st st' : inv r st -> s_queue st' = s_queue st -> s_handles st' = s_handles st ->
  s_trace st' = s_trace st -> inv r st'.
Proof.
  intros [H1 H2 H3 H4 H5 H6] E1 E2 E3. constructor; rewrite ?E1, ?E2, ?E3; auto.
Qed.

(** Scheduling. *)
Definition sched_state (I : impl) (t : Z) (s : nat) (st : state) : state :=
  log (set_handles (set_queue st (i_insert I (t, length (s_handles st)) (s_queue st)))
         (s_handles st ++ [new_handle t s])) (OSched (length (s_handles st)) t s).

Lemma inv_sched r t s st : inv r st -> inv r (sched_state spec_impl t s st).
Proof.
  intros H. pose proof (inv_fresh _ _ H) as Hf. destruct H as [H1 H2 H3 H4 H5 H6].
  set (n := length (s_handles st)) in *.
  assert (Hnt : ~ taken (s_trace st) n).
  { intros Ht. destruct (taken_scheduled _ H6 _ Ht) as [t' [s' Hs]].
    apply (scheduled_bound _ H6) in Hs. fold n in H3. lia. }
  assert (Htk : forall id, taken (s_trace st ++ [OSched n t s]) id <-> taken (s_trace st) id).
  { intros id. rewrite taken_snoc. split; auto. intros [?|[c [s' E]]]; auto. discriminate. }
  assert (Hcan : forall id, cancelled (s_trace st ++ [OSched n t s]) id <-> cancelled (s_trace st) id).
  { intros id. unfold cancelled. rewrite in_snoc. split; auto. intros [?|E]; auto. discriminate. }
  unfold sched_state. fold n. constructor; cbn.
  - apply ordered_insert_sorted; auto. apply fresh_notin. auto.
  - intros t' id. rewrite ordered_insert_in, H2, Htk. unfold scheduled. setoid_rewrite in_snoc.
    split.
    + intros [E|[[s' Hs] Ht]].
      * inversion E; subst. split; [exists s; auto|auto].
      * split; eauto.
    + intros [[s' [Hs|E]] Ht].
      * right. split; eauto.
      * inversion E; subst. auto.
  - rewrite num_scheduled_snoc, app_length. cbn. fold n in H3 |- *. lia.
  - intros id h Hh. destruct (Nat.lt_ge_cases id n) as [Hlt|Hge].
    + rewrite nth_error_app1 in Hh by auto. destruct (H4 _ _ Hh) as [s' [Hs Hr]].
      exists s'. rewrite Htk, Hcan. split; auto. apply in_snoc; left; exact Hs.
    + rewrite nth_error_app2 in Hh by auto. fold n in Hh.
      destruct (id - n)%nat as [|m] eqn:E; [|destruct m; discriminate].
      cbn in Hh. inversion Hh; subst h. assert (id = n) by lia. subst id.
      exists s. rewrite Htk, Hcan. cbn. split; [apply in_snoc; auto|]. split; [|discriminate].
      left. split; auto. split; auto.
      intros Hc. apply in_split in Hc. destruct Hc as [l1 [l2 E2]].
      pose proof (H6 _ _ _ E2) as Hl. cbn in Hl. rewrite E2 in H3. 
      assert (num_scheduled l1 <= num_scheduled (l1 ++ OCancel n :: l2))%nat.
      { unfold num_scheduled. rewrite filter_app, app_length. lia. }
      fold n in H3. lia.
  - intros id Hr. apply Htk. auto.
  - apply legal_snoc. split; auto. cbn. fold n in H3. lia.
Qed.

Lemma nth_update {A} (l : list A) f : forall n m,
  nth_error (update l n f) m =
  if Nat.eqb n m then option_map f (nth_error l m) else nth_error l m.
Proof.
  induction l as [|x l IH]; intros [|n] [|m]; cbn; auto.
  destruct (Nat.eqb n m); auto.
Qed.
Lemma update_length {A} (l : list A) f : forall n, length (update l n f) = length l.
Proof. induction l as [|x l IH]; intros [|n]; cbn; auto. Qed.

(** Cancellation. *)
Lemma inv_cancel r id st : inv r st -> (id < length (s_handles st))%nat ->
  inv r (log (cancel id st) (OCancel id)).
Proof.
  intros [H1 H2 H3 H4 H5 H6] Hid.
  assert (Htk : forall i, taken (s_trace st ++ [OCancel id]) i <-> taken (s_trace st) i).
  { intros i. rewrite taken_snoc. split; auto. intros [?|[c [s' E]]]; auto. discriminate. }
  assert (Hsc : forall i t s, scheduled (s_trace st ++ [OCancel id]) i t s <-> scheduled (s_trace st) i t s).
  { intros i t s. unfold scheduled. rewrite in_snoc. split; auto. intros [?|E]; auto. discriminate. }
  assert (Hcan : forall i, cancelled (s_trace st ++ [OCancel id]) i <-> cancelled (s_trace st) i \/ i = id).
  { intros i. unfold cancelled. rewrite in_snoc. split; intros [?|E]; auto; try (inversion E; auto; fail); subst; auto. }
  constructor; cbn.
  - auto.
  - intros t i. rewrite H2, Htk. setoid_rewrite Hsc. tauto.
  - rewrite num_scheduled_snoc, H3, update_length. cbn. lia.
  - intros i h Hh. rewrite nth_update in Hh. destruct (Nat.eqb_spec id i) as [<-|Hne].
    + destruct (nth_error (s_handles st) id) as [h0|] eqn:E; [|discriminate].
      cbn in Hh. inversion Hh; subst h. destruct (H4 _ _ E) as [s [Hs [_ Hr]]].
      exists s. cbn. rewrite Hsc, Htk, Hcan. split; auto. split; auto. 
    + destruct (H4 _ _ Hh) as [s [Hs [Hq Hr]]]. exists s. rewrite Hsc, Htk, Hcan.
      split; auto. split; auto.
      destruct Hq as [[Ha [Hb Hc]]|[Ha Hb]]; [left|right]; split; auto.
      * split; auto. intros [?|?]; auto.
      * destruct Hb; auto.
  - intros i Hr. apply Htk. auto.
  - apply legal_snoc. split; auto. cbn. lia.
Qed.

(** ** The effect of one client action, for every container *)

(** What [act] does, apart from the container. *)
Lemma act_cases I a st :
  (exists t s, act I a st = sched_state I t s st /\ s_now st <= t) \/
  (exists e, act I a st = log st (OReject e)) \/
  act I a st = st \/
  (exists id, act I a st = log (cancel id st) (OCancel id) /\ (id < length (s_handles st))%nat) \/
  act I a st = log (set_paused st true) OPause.
Proof.
  assert (Hs : forall t s,
    (exists t' s', sched_result t s st (schedule_at I t s st) = sched_state I t' s' st /\ s_now st <= t') \/
    (exists e, sched_result t s st (schedule_at I t s st) = log st (OReject e))).
  { intros t s. unfold schedule_at. destruct (s_clock st); cbn [negb]; [|right; eexists; reflexivity].
    destruct s as [s|]; [|right; eexists; reflexivity].
    destruct (Z.ltb_spec t (s_now st)); [right; eexists; reflexivity|].
    left. exists t, s. split; auto. }
  destruct a as [t s|dt s|s|id|]; cbn [act].
  - destruct (Hs t s) as [?|?]; auto.
  - unfold schedule_in. destruct (s_clock st) eqn:E; cbn [negb]; [|cbn; auto].
    destruct (Hs (s_now st + dt) s) as [?|?]; auto.
  - unfold schedule_now. destruct (s_clock st) eqn:E; cbn [negb]; [|cbn; auto].
    destruct (Hs (s_now st) s) as [?|?]; auto.
  - destruct (Nat.ltb_spec id (length (s_handles st))); auto.
    right. right. right. left. exists id. auto.
  - auto 6.
Qed.

Lemma inv_act r a st : inv r st -> inv r (act spec_impl a st).
Proof.
  intros H. destruct (act_cases spec_impl a st) as [[t [s [-> Ht]]]|[[e ->]|[->|[[id [-> Hid]]| ->]]]].
  - apply inv_sched; auto.
  - apply inv_neutral; cbn; auto.
  - auto.
  - apply inv_cancel; auto.
  - apply inv_neutral; [|cbn; auto]. eapply inv_same; eauto.
Qed.

Lemma inv_acts r l : forall st, inv r st -> inv r (acts spec_impl l st).
Proof.
  induction l as [|a l IH]; intros st H; cbn; auto. apply IH. apply inv_act. auto.
Qed.

Lemma inv_call r p src st : inv r st -> inv r (call spec_impl p src st).
Proof.
  intros H. unfold call. eapply inv_same; [apply inv_acts; exact H|..]; reflexivity.
Qed.

(** ** Firing *)

Lemma inv_take st t id q h (r : option nat) (f : handle -> handle) :
  inv None st -> s_queue st = (t, id) :: q -> nth_error (s_handles st) id = Some h ->
  (r = None \/ r = Some id) -> h_time (f h) = h_time h ->
  ((h_sink (f h) = h_sink h /\ h_sink h <> None /\ r = Some id) \/
   (h_sink (f h) = None /\ (h_sink h = None \/ r <> Some id))) ->
  (h_running (f h) = true -> r = Some id) ->
  inv r (set_handles (log (set_queue st q) (OTake id (s_now st) (h_sink h)))
           (update (s_handles st) id f)).
Proof.
  intros H Eq Eh Hr Hft Hfs Hfr.
  assert (Hin : In (t, id) (s_queue st)) by (rewrite Eq; left; auto).
  apply (i_pend _ _ H) in Hin. destruct Hin as [[s0 Hs0] Hnt].
  pose proof H as [H1 H2 H3 H4 H5 H6].
  destruct (H4 _ _ Eh) as [s1 [Hs1 [Hsink Hrun]]].
  destruct (scheduled_unique _ H6 _ _ _ _ _ Hs0 Hs1) as [E1 <-].
  set (o := OTake id (s_now st) (h_sink h)).
  assert (Hsc : forall i t s, scheduled (s_trace st ++ [o]) i t s <-> scheduled (s_trace st) i t s).
  { intros i t' s. unfold scheduled. rewrite in_snoc. split; auto. intros [?|E]; auto. discriminate. }
  assert (Hcan : forall i, cancelled (s_trace st ++ [o]) i <-> cancelled (s_trace st) i).
  { intros i. unfold cancelled. rewrite in_snoc. split; auto. intros [?|E]; auto. discriminate. }
  assert (Htk : forall i, taken (s_trace st ++ [o]) i <-> taken (s_trace st) i \/ i = id).
  { intros i. rewrite taken_snoc. split.
    - intros [?|[c [s E]]]; auto. inversion E; auto.
    - intros [?| ->]; auto. right. eexists _, _. reflexivity. }
  assert (Hs' : (h_sink (f h) = Some s0 /\ ~ cancelled (s_trace st) id /\ r = Some id) \/
     (h_sink (f h) = None /\ (cancelled (s_trace st) id \/ r <> Some id))).
  { destruct Hfs as [[Ha [Hb Hc]]|[Ha Hb]].
    - destruct Hsink as [[Hx [Hy _]]|[Hx _]]; [left; rewrite Ha; auto|contradiction].
    - right. split; auto. destruct Hb as [Hb|Hb]; auto.
      destruct Hsink as [[Hx _]|[_ [Hx|[Hx _]]]]; [congruence|auto|contradiction]. }
  constructor; cbn.
  - rewrite Eq in H1. inversion H1; auto.
  - intros t' i. rewrite Htk. setoid_rewrite Hsc.
    assert (Hq : In (t', i) (s_queue st) <-> In (t', i) q \/ (t' = t /\ i = id)).
    { rewrite Eq. cbn. split; intros [E|E]; auto; [inversion E; auto|].
      destruct E as [-> ->]; auto. }
    rewrite H2 in Hq.
    assert (Hnq : forall t', ~ In (t', id) q).
    { intros t'' Hi. rewrite Eq in H1. pose proof (sorted_nodup _ H1) as Hnd.
      inversion Hnd as [|? ? Hni _]; subst.
      assert (In (t'', id) (s_queue st)) as Hi2 by (rewrite Eq; right; auto).
      apply H2 in Hi2. destruct Hi2 as [[s2 Hs2] _].
      destruct (scheduled_unique _ H6 _ _ _ _ _ Hs0 Hs2) as [<- _]. auto. }
    split.
    + intros Hi. split; [apply Hq; auto|]. intros [Hx|Hx].
      * apply Hq in Hx; auto.
      * subst i. eapply Hnq; eauto.
    + intros [Hs Hx]. destruct Hq as [Hq _]. destruct Hq as [Hq|[-> ->]]; auto; tauto.
  - rewrite num_scheduled_snoc, H3, update_length. cbn. lia.
  - intros i h' Hh. rewrite nth_update in Hh. destruct (Nat.eqb_spec id i) as [<-|Hne].
    + rewrite Eh in Hh. cbn in Hh. inversion Hh; subst h'.
      exists s0. rewrite Hsc, Hcan, Htk, Hft. split; auto. split; auto.
      destruct Hs' as [[Ha [Hb Hc]]|[Ha Hb]]; [left|right]; auto.
      split; auto. destruct Hb; auto.
    + destruct (H4 _ _ Hh) as [s [Hs [Hq Hr']]]. exists s. rewrite Hsc, Hcan, Htk.
      split; auto. split.
      * destruct Hq as [[Ha [Hb Hc]]|[Ha Hb]]; [left|right]; split; auto.
        -- split; auto. left. intros [?|?]; [|congruence]. destruct Hc; [auto|discriminate].
        -- destruct Hb as [Hb|[Hb _]]; auto. right. split; auto.
           destruct Hr as [-> | ->]; [discriminate|]. intros E; inversion E; congruence.
      * intros Hx. apply Hr' in Hx. discriminate.
  - intros i Hri. rewrite Htk. destruct Hr as [->| ->]; [discriminate|]. inversion Hri; auto.
  - apply legal_snoc. split; auto. cbn. exists t, s0. split; auto. split; auto. split.
    + intros id' t' s' Hs'' Hnt'.
      assert (Hq : In (t', id') (s_queue st)) by (apply H2; split; eauto).
      rewrite Eq in Hq. destruct Hq as [Hq|Hq]; [inversion Hq; auto|]. right.
      rewrite Eq in H1. inversion H1 as [|? ? _ Hf]; subst. rewrite Forall_forall in Hf. auto.
    + destruct Hsink as [[Ha [Hb _]]|[Ha [Hb|[Hb _]]]]; auto; contradiction.
Qed.

Lemma inv_leave st id : inv (Some id) st ->
  inv None (set_handles st (update (s_handles st) id (fun h => mk_handle (h_time h) None false))).
Proof.
  intros [H1 H2 H3 H4 H5 H6]. constructor; cbn; auto.
  - rewrite update_length. auto.
  - intros i h Hh. rewrite nth_update in Hh. destruct (Nat.eqb_spec id i) as [<-|Hne].
    + destruct (nth_error (s_handles st) id) as [h0|] eqn:E; [|discriminate].
      cbn in Hh. inversion Hh; subst h. destruct (H4 _ _ E) as [s [Hs _]].
      exists s. cbn. split; auto. split; [|discriminate]. right. split; auto. right.
      split; [auto|discriminate].
    + destruct (H4 _ _ Hh) as [s [Hs [Hq Hr]]]. exists s. split; auto. split.
      * destruct Hq as [[Ha [Hb Hc]]|[Ha Hb]]; [left|right]; split; auto.
        -- split; auto. destruct Hc as [Hc|Hc]; auto. inversion Hc; congruence.
        -- destruct Hb as [Hb|[Hb _]]; auto. right. split; [auto|discriminate].
      * intros Hx. apply Hr in Hx. inversion Hx; congruence.
  - intros i Hi. discriminate.
Qed.

Lemma update_id {A} (l : list A) : forall n, update l n (fun x => x) = l.
Proof. induction l as [|x l IH]; intros [|n]; cbn; auto. f_equal. auto. Qed.

Lemma call_thrown I p src st : tame p -> s_thrown (call I p src st) = false.
Proof. intros H. unfold call. cbn. apply H. Qed.

(** The state in which the sink of the first event is entered. *)
Definition entered (st : state) (q : list key) (id : nat) (s : nat) : state :=
  set_handles (log (set_queue st q) (OTake id (s_now st) (Some s)))
    (update (s_handles st) id (fun h => mk_handle (h_time h) (h_sink h) true)).
Definition left_sink (st : state) (id : nat) : state :=
  set_handles st (update (s_handles st) id (fun h => mk_handle (h_time h) None false)).

(** [FireAndRemoveNextEvent] in two cases. *)
Lemma fire_next_cases I p st t id : tame p -> s_thrown st = false ->
  next_event I st = Some (t, id) -> (id < length (s_handles st))%nat ->
  exists h, nth_error (s_handles st) id = Some h /\
  match h_sink h with
  | Some s => fire_next I p st =
      let st1 := left_sink (call I p (SSink s) (entered st (i_during I (s_queue st)) id s)) id in
      set_queue st1 (i_after I (t, id) (s_queue st1))
  | None => fire_next I p st =
      set_queue (log st (OTake id (s_now st) None)) (i_after I (t, id) (i_during I (s_queue st)))
  end.
Proof.
  intros Ht Hth Hn Hid. unfold fire_next. rewrite Hn. cbn [snd]. unfold fire. cbn [s_handles set_queue].
  destruct (nth_error (s_handles st) id) as [h|] eqn:Eh; [|apply nth_error_None in Eh; lia].
  exists h. split; auto. destruct (h_sink h) as [s|] eqn:Es.
  - rewrite call_thrown by auto. fold (left_sink).
    match goal with |- context [s_thrown (set_handles ?a ?b)] =>
      change (s_thrown (set_handles a b)) with (s_thrown a) end.
    rewrite call_thrown by auto. reflexivity.
  - cbn. rewrite Hth. reflexivity.
Qed.

Lemma inv_next_bound r st t id : inv r st -> next_event spec_impl st = Some (t, id) ->
  (id < length (s_handles st))%nat /\ exists q, s_queue st = (t, id) :: q.
Proof.
  intros H Hn. unfold next_event in Hn. cbn in Hn.
  destruct (s_queue st) as [|k q] eqn:Eq; [discriminate|]. inversion Hn; subst k.
  split; [|eauto]. apply (inv_fresh _ _ H (t, id)). rewrite Eq. left; auto.
Qed.

Lemma inv_enter st t id q h s : inv None st -> s_queue st = (t, id) :: q ->
  nth_error (s_handles st) id = Some h -> h_sink h = Some s -> inv (Some id) (entered st q id s).
Proof.
  intros H Eq Eh Es. unfold entered. rewrite <- Es. eapply inv_take; eauto; cbn; auto.
  left. rewrite Es. split; auto. split; auto. discriminate.
Qed.

Lemma inv_fire_next p st : tame p -> s_thrown st = false -> inv None st ->
  inv None (fire_next spec_impl p st).
Proof.
  intros Ht Hth H. destruct (next_event spec_impl st) as [[t id]|] eqn:En.
  2:{ unfold fire_next. rewrite En. auto. }
  destruct (inv_next_bound _ _ _ _ H En) as [Hid [q Eq]].
  destruct (fire_next_cases spec_impl p st t id Ht Hth En Hid) as [h [Eh Hf]].
  destruct (h_sink h) as [s|] eqn:Es; rewrite Hf; clear Hf; cbn [i_after i_during spec_impl].
  - rewrite Eq. cbn [tl].
    pose proof (inv_enter _ _ _ _ _ _ H Eq Eh Es) as Hi.
    apply (inv_call _ p (SSink s)), inv_leave in Hi.
    eapply inv_same; [exact Hi|..]; reflexivity.
  - rewrite Eq. cbn [tl].
    assert (Hm : inv None (set_handles (log (set_queue st q) (OTake id (s_now st) (h_sink h)))
       (update (s_handles st) id (fun h => h)))).
    { eapply inv_take; eauto.
      intros Hr. destruct (i_hand _ _ H _ _ Eh) as [? [_ [_ Hx]]]. auto. }
    rewrite update_id, Es in Hm. eapply inv_same; [exact Hm|..]; reflexivity.
Qed.

(** ** Simulation between a container and the sorted queue *)

Lemma act_queue I a s q :
  (s_queue (act spec_impl a s) = s_queue s /\
   act I a (set_queue s q) = set_queue (act spec_impl a s) q) \/
  (exists t, s_now s <= t /\
   s_queue (act spec_impl a s) = ordered_insert (t, length (s_handles s)) (s_queue s) /\
   act I a (set_queue s q) =
     set_queue (act spec_impl a s) (i_insert I (t, length (s_handles s)) q)).
Proof.
  assert (Hs : forall t o,
    let A := sched_result t o s (schedule_at spec_impl t o s) in
    let B := sched_result t o (set_queue s q) (schedule_at I t o (set_queue s q)) in
    (s_queue A = s_queue s /\ B = set_queue A q) \/
    (exists t, s_now s <= t /\
     s_queue A = ordered_insert (t, length (s_handles s)) (s_queue s) /\
     B = set_queue A (i_insert I (t, length (s_handles s)) q))).
  { intros t o. unfold schedule_at. cbn [s_clock set_queue s_now].
    destruct (s_clock s); cbn [negb]; [|left; split; reflexivity].
    destruct o as [o|]; [|left; split; reflexivity].
    destruct (Z.ltb_spec t (s_now s)); [left; split; reflexivity|].
    right. exists t. split; auto. }
  destruct a as [t o|dt o|o|id|]; cbn [act].
  - apply Hs.
  - unfold schedule_in. cbn [s_clock set_queue s_now].
    destruct (s_clock s) eqn:E; cbn [negb]; [|left; split; reflexivity]. apply Hs.
  - unfold schedule_now. cbn [s_clock set_queue s_now].
    destruct (s_clock s) eqn:E; cbn [negb]; [|left; split; reflexivity]. apply Hs.
  - cbn [s_handles set_queue]. destruct (id <? length (s_handles s))%nat; left; split; reflexivity.
  - left; split; reflexivity.
Qed.

Lemma act_now I a st : s_now (act I a st) = s_now st /\
  (length (s_handles st) <= length (s_handles (act I a st)))%nat.
Proof.
  destruct (act_cases I a st) as [[t [s [-> Ht]]]|[[e ->]|[->|[[id [-> Hid]]| ->]]]]; cbn; auto.
  - rewrite app_length. split; auto. lia.
  - rewrite update_length. auto.
Qed.

Definition sim (rel : list key -> list key -> Prop) (c s : state) : Prop :=
  c = set_queue s (s_queue c) /\ rel (s_queue c) (s_queue s).

Lemma sim_act (rel : list key -> list key -> Prop) (P : key -> Prop) I :
  (forall q qa k, rel q qa -> sorted qa -> fresh (snd k) qa -> P k ->
     rel (i_insert I k q) (ordered_insert k qa)) ->
  forall r a c s, sim rel c s -> inv r s ->
  (forall t n, s_now s <= t -> (length (s_handles s) <= n)%nat -> P (t, n)) ->
  sim rel (act I a c) (act spec_impl a s).
Proof.
  intros Hins r a c s [Hc Hr] Hi HP. rewrite Hc.
  destruct (act_queue I a s (s_queue c)) as [[E1 E2]|[t [Ht [E1 E2]]]]; rewrite E2.
  - split; [reflexivity|]. cbn [s_queue set_queue]. rewrite E1. auto.
  - split; [reflexivity|]. cbn [s_queue set_queue]. rewrite E1. apply Hins; auto.
    + apply Hi.
    + cbn. eapply inv_fresh; eauto.
Qed.

Lemma sim_acts (rel : list key -> list key -> Prop) (P : key -> Prop) I :
  (forall q qa k, rel q qa -> sorted qa -> fresh (snd k) qa -> P k ->
     rel (i_insert I k q) (ordered_insert k qa)) ->
  forall r l c s, sim rel c s -> inv r s ->
  (forall t n, s_now s <= t -> (length (s_handles s) <= n)%nat -> P (t, n)) ->
  sim rel (acts I l c) (acts spec_impl l s).
Proof.
  intros Hins r l. induction l as [|a l IH]; intros c s Hs Hi HP; cbn [acts fold_left]; auto.
  apply IH.
  - eapply sim_act; eauto.
  - apply inv_act; auto.
  - intros t n Ht Hn. destruct (act_now spec_impl a s) as [E1 E2]. apply HP; lia.
Qed.

Lemma sim_call (rel : list key -> list key -> Prop) (P : key -> Prop) I :
  (forall q qa k, rel q qa -> sorted qa -> fresh (snd k) qa -> P k ->
     rel (i_insert I k q) (ordered_insert k qa)) ->
  forall p src r c s, sim rel c s -> inv r s ->
  (forall t n, s_now s <= t -> (length (s_handles s) <= n)%nat -> P (t, n)) ->
  sim rel (call I p src c) (call spec_impl p src s).
Proof.
  intros Hins p src r c s Hs Hi HP. unfold call.
  assert (E : s_trace c = s_trace s) by (destruct Hs as [-> _]; reflexivity).
  rewrite E.
  assert (H : sim rel (acts I (fst (p (s_trace s) src)) c)
                (acts spec_impl (fst (p (s_trace s) src)) s)) by (eapply sim_acts; eauto).
  revert H. generalize (acts I (fst (p (s_trace s) src)) c).
  generalize (acts spec_impl (fst (p (s_trace s) src)) s). intros s' c' [H1 H2].
  split; auto. rewrite H1 at 1. reflexivity.
Qed.

(** Fire and remove. *)
Lemma acts_now I l : forall st, s_now (acts I l st) = s_now st /\
  (length (s_handles st) <= length (s_handles (acts I l st)))%nat.
Proof.
  induction l as [|a l IH]; intros st; cbn [acts fold_left]; auto.
  destruct (IH (act I a st)) as [E1 E2]. destruct (act_now I a st) as [E3 E4].
  unfold acts in *. split; [congruence|lia].
Qed.

Section SIM.
Context (causal : Prop) (I : impl) (rel : list key -> list key -> Prop)
  (relrun : key -> list key -> list key -> Prop) (RF : refines causal I rel relrun).

Lemma sim_next c s r : sim rel c s -> inv r s -> next_event I c = next_event spec_impl s.
Proof.
  intros [_ H] Hi. unfold next_event. cbn. eapply r_head; eauto. apply Hi.
Qed.

Lemma sim_empty c s : sim rel c s -> num_events c = num_events s.
Proof.
  intros [_ H]. unfold num_events. apply Permutation_length. eapply r_perm; eauto.
Qed.

Lemma sim_fire_next p c s : tame p -> s_thrown s = false -> sim rel c s -> inv None s ->
  (causal -> forall t id, next_event spec_impl s = Some (t, id) -> t <= s_now s) ->
  sim rel (fire_next I p c) (fire_next spec_impl p s).
Proof.
  intros Ht Hth Hs Hi Hc. pose proof (sim_next _ _ _ Hs Hi) as En.
  destruct (next_event spec_impl s) as [[t id]|] eqn:Es.
  2:{ unfold fire_next. rewrite En, Es. auto. }
  destruct (inv_next_bound _ _ _ _ Hi Es) as [Hid [q Eq]].
  destruct Hs as [Hc1 Hc2].
  assert (Hhand : s_handles c = s_handles s) by (rewrite Hc1; reflexivity).
  assert (Hthc : s_thrown c = false) by (rewrite Hc1; exact Hth).
  assert (Hsort : sorted ((t, id) :: q)) by (rewrite <- Eq; apply Hi).
  assert (Hnq : forall x, In x q -> snd x <> id).
  { intros [t' i] Hx. cbn. intros ->.
    assert (Hx1 : In (t', id) (s_queue s)) by (rewrite Eq; right; auto).
    assert (Hx2 : In (t, id) (s_queue s)) by (rewrite Eq; left; auto).
    apply (i_pend _ _ Hi) in Hx1, Hx2. destruct Hx1 as [[s1 Hx1] _], Hx2 as [[s2 Hx2] _].
    destruct (scheduled_unique _ (i_legal _ _ Hi) _ _ _ _ _ Hx1 Hx2) as [-> _].
    pose proof (sorted_nodup _ Hsort) as Hn. inversion Hn; auto. }
  rewrite Eq in Hc2.
  pose proof (r_during _ _ _ _ RF _ _ _ Hc2 Hsort) as Hr0.
  set (qc := i_during I (s_queue c)) in *.
  destruct (fire_next_cases spec_impl p s t id Ht Hth Es Hid) as [h [Eh Hf]].
  destruct (fire_next_cases I p c t id Ht Hthc En ltac:(rewrite Hhand; auto)) as [h' [Eh' Hf']].
  assert (h' = h) by congruence. subst h'. fold qc in Hf'.
  pose proof (inv_fire_next p s Ht Hth Hi) as Hi'.
  destruct (h_sink h) as [sk|] eqn:Esk; rewrite Hf in Hi' |- *; rewrite Hf'; clear Hf Hf';
    cbn [i_after i_during spec_impl] in Hi' |- *; rewrite Eq in Hi' |- *; cbn [tl] in Hi' |- *.
  - pose proof (inv_enter _ _ _ _ _ _ Hi Eq Eh Esk) as Hi2.
    assert (Hcall : sim (relrun (t, id)) (call I p (SSink sk) (entered c qc id sk))
              (call spec_impl p (SSink sk) (entered s q id sk))).
    { eapply (sim_call (relrun (t, id))
         (fun k => (causal -> t <= fst k) /\ (id < snd k)%nat)); eauto.
      - intros q0 qa k Hq0 Hsq Hf [HP1 HP2]. eapply r_insert_run; eauto.
        intros x [<-|Hx]; [exact HP2|]. apply Hf; auto.
      - split; [|exact Hr0]. rewrite Hc1. reflexivity.
      - intros t' n Ht' Hn. cbn in Ht', Hn |- *. rewrite update_length in Hn. split; [|lia].
        intros Hca. specialize (Hc Hca t id eq_refl). lia. }
    set (c2 := call I p (SSink sk) (entered c qc id sk)) in *.
    set (s2 := call spec_impl p (SSink sk) (entered s q id sk)) in *.
    assert (Hi3 : inv (Some id) s2) by (apply inv_call; auto).
    clearbody c2 s2. destruct Hcall as [Hx1 Hx2].
    split; [rewrite Hx1; reflexivity|]. cbn.
    assert (Hni : forall x, In x (s_queue s2) -> snd x <> id).
    { intros [t' i] Hx. cbn. intros ->. apply (i_pend _ _ Hi3) in Hx.
      destruct Hx as [_ Hx]. apply Hx. apply (i_run _ _ Hi3). auto. }
    eapply r_after; eauto.
    + apply Hi3.
    + intros Hx. apply (Hni _ Hx). auto.
  - split; [rewrite Hc1; reflexivity|]. cbn.
    eapply r_after; eauto.
    + inversion Hsort; auto.
    + intros Hx. apply (Hnq _ Hx). auto.
Qed.

Definition good (s : state) : Prop := inv None s /\ s_thrown s = false.

Lemma act_thrown J a st : s_thrown (act J a st) = s_thrown st.
Proof.
  destruct (act_cases J a st) as [[t [s [-> Ht]]]|[[e ->]|[->|[[id [-> Hid]]| ->]]]]; reflexivity.
Qed.

Lemma good_act a s : good s -> good (act spec_impl a s).
Proof. intros [H1 H2]. split; [apply inv_act; auto|]. rewrite act_thrown. auto. Qed.

Lemma fire_next_thrown J p st : tame p -> s_thrown st = false -> s_thrown (fire_next J p st) = false.
Proof.
  intros Ht H. unfold fire_next. destruct (next_event J st) as [k|]; auto.
  assert (E : s_thrown (fire J p (snd k) (set_queue st (i_during J (s_queue st)))) = false).
  { unfold fire. cbn [s_handles set_queue].
    destruct (nth_error (s_handles st) (snd k)) as [h|]; [|exact H].
    destruct (h_sink h); [|exact H]. rewrite call_thrown by auto.
    match goal with |- s_thrown (set_handles ?a ?b) = _ =>
      change (s_thrown a = false) end. apply call_thrown. auto. }
  rewrite E. exact E.
Qed.

Lemma good_fire_next p s : tame p -> good s -> good (fire_next spec_impl p s).
Proof.
  intros Ht [H1 H2]. split; [apply inv_fire_next; auto|]. apply fire_next_thrown; auto.
Qed.

Lemma good_set_now s t : good s -> good (set_now s t).
Proof. intros [H1 H2]. split; auto. eapply inv_same; eauto. Qed.
Lemma good_set_paused s b : good s -> good (set_paused s b).
Proof. intros [H1 H2]. split; auto. eapply inv_same; eauto. Qed.
Lemma good_set_started s b : good s -> good (set_started s b).
Proof. intros [H1 H2]. split; auto. eapply inv_same; eauto. Qed.

Lemma good_fire_life p l s : tame p -> good s -> good (fire_life spec_impl p l s).
Proof.
  intros Ht [H1 H2]. unfold fire_life. split; [|apply call_thrown; auto].
  apply inv_call. apply inv_neutral; cbn; auto.
Qed.

Lemma sim_set (f : state -> state) c s :
  (forall st q, f (set_queue st q) = set_queue (f st) q) ->
  sim rel c s -> sim rel (f c) (f s).
Proof.
  intros Hf [H1 H2]. rewrite H1. split.
  - rewrite Hf. reflexivity.
  - rewrite Hf. cbn. replace (s_queue (f s)) with (s_queue s); auto.
    change (s_queue s) with (s_queue (set_queue (f s) (s_queue s))). rewrite <- Hf.
    destruct s; reflexivity.
Qed.

Lemma sim_insert : forall q qa k, rel q qa -> sorted qa -> fresh (snd k) qa -> True ->
     rel (i_insert I k q) (ordered_insert k qa).
Proof. intros. eapply r_insert; eauto. Qed.

Lemma sim_act_idle a c s : sim rel c s -> good s -> sim rel (act I a c) (act spec_impl a s).
Proof.
  intros H [Hi _]. apply (sim_act rel (fun _ => True) I sim_insert None); auto.
Qed.

Lemma sim_fire_life p l c s : sim rel c s -> good s ->
  sim rel (fire_life I p l c) (fire_life spec_impl p l s).
Proof.
  intros H [Hi _]. unfold fire_life.
  apply (sim_call rel (fun _ => True) I sim_insert p (SLife l) None); auto.
  - apply (sim_set (fun st => log st (OLife l))); auto.
  - apply inv_neutral; cbn; auto.
Qed.

Lemma sim_loop p until : tame p -> forall fuel c s, sim rel c s -> good s ->
  match loop I p until fuel c, loop spec_impl p until fuel s with
  | Some c', Some s' => sim rel c' s' /\ good s'
  | None, None => True
  | _, _ => False
  end.
Proof.
  intros Ht. induction fuel as [|fuel IH]; intros c s Hs Hg; cbn [loop]; auto.
  replace (s_paused c) with (s_paused s) by (destruct Hs as [-> _]; reflexivity).
  destruct (s_paused s) eqn:Ep; auto.
  rewrite (sim_next _ _ _ Hs (proj1 Hg)).
  destruct (next_event spec_impl s) as [[t0 id]|] eqn:En.
  2:{ destruct until as [t|]; auto. split; [|apply good_set_now; auto].
      apply (sim_set (fun st => set_now st t)); auto. }
  assert (Hstep : sim rel (fire_next I p (set_now c t0)) (fire_next spec_impl p (set_now s t0)) /\
     good (fire_next spec_impl p (set_now s t0))).
  { assert (Hg' : good (set_now s t0)) by (apply good_set_now; auto).
    split; [|apply good_fire_next; auto].
    apply sim_fire_next; auto; try apply Hg'.
    - apply (sim_set (fun st => set_now st t0)); auto.
    - intros _ t id' E. change (next_event spec_impl (set_now s t0)) with (next_event spec_impl s) in E.
      rewrite En in E. inversion E. cbn. lia. }
  assert (Hrec : match
    (let st := fire_next I p (set_now c t0) in if s_thrown st then Some st else loop I p until fuel st),
    (let st := fire_next spec_impl p (set_now s t0) in if s_thrown st then Some st else loop spec_impl p until fuel st)
    with
    | Some c', Some s' => sim rel c' s' /\ good s'
    | None, None => True
    | _, _ => False
    end).
  { cbn zeta. destruct Hstep as [Ha Hb].
    assert (E : s_thrown (fire_next I p (set_now c t0)) = s_thrown (fire_next spec_impl p (set_now s t0)))
      by (destruct Ha as [-> _]; reflexivity).
    rewrite E. rewrite (proj2 Hb). apply IH; auto. }
  destruct until as [t|]; auto. destruct (t <? t0); auto.
  split; [|apply good_set_now; auto]. apply (sim_set (fun st => set_now st t)); auto.
Qed.

Lemma fire_life_thrown J p l st : tame p -> s_thrown (fire_life J p l st) = false.
Proof. intros. apply call_thrown. auto. Qed.

Lemma sim_run p fuel until c s : tame p -> sim rel c s -> good s ->
  match run I p fuel until c, run spec_impl p fuel until s with
  | Some (Done c'), Some (Done s') => sim rel c' s' /\ good s'
  | Some (Throw e), Some (Throw e') => e = e'
  | None, None => True
  | _, _ => False
  end.
Proof.
  intros Ht Hs Hg. unfold run. rewrite (sim_empty _ _ Hs).
  replace (s_init c) with (s_init s) by (destruct Hs as [-> _]; reflexivity).
  destruct (s_init s) eqn:Ei; cbn [negb]; auto.
  destruct (num_events s =? 0)%nat eqn:En; auto.
  replace (s_started c) with (s_started s) by (destruct Hs as [-> _]; reflexivity).
  set (c1 := if s_started s then c else _). set (s1 := if s_started s then s else _).
  assert (H1 : sim rel c1 s1 /\ good s1).
  { unfold c1, s1. destruct (s_started s); auto. split.
    - apply sim_fire_life; [|apply good_set_started; auto].
      apply (sim_set (fun st => set_started st true)); auto.
    - apply good_fire_life; auto. apply good_set_started; auto. }
  destruct H1 as [H1 G1].
  replace (s_thrown c1) with (s_thrown s1) by (destruct H1 as [-> _]; reflexivity).
  rewrite (proj2 G1). clearbody c1 s1.
  assert (G2 : good (fire_life spec_impl p LRun (set_paused s1 false))).
  { apply good_fire_life; auto. apply good_set_paused; auto. }
  assert (H2 : sim rel (fire_life I p LRun (set_paused c1 false)) (fire_life spec_impl p LRun (set_paused s1 false))).
  { apply sim_fire_life; [|apply good_set_paused; auto].
    apply (sim_set (fun st => set_paused st false)); auto. }
  rewrite !fire_life_thrown by auto.
  pose proof (sim_loop p until Ht fuel _ _ H2 G2) as HL.
  destruct (loop I p until fuel _) as [c2|], (loop spec_impl p until fuel _) as [s2|]; try tauto.
  destruct HL as [H3 G3].
  replace (s_thrown c2) with (s_thrown s2) by (destruct H3 as [-> _]; reflexivity).
  rewrite (proj2 G3).
  assert (G4 : good (fire_life spec_impl p LPause (set_paused s2 true))).
  { apply good_fire_life; auto. apply good_set_paused; auto. }
  assert (H4 : sim rel (fire_life I p LPause (set_paused c2 true)) (fire_life spec_impl p LPause (set_paused s2 true))).
  { apply sim_fire_life; [|apply good_set_paused; auto].
    apply (sim_set (fun st => set_paused st true)); auto. }
  rewrite !fire_life_thrown by auto. rewrite (sim_empty _ _ H4). clear En.
  destruct (num_events (fire_life spec_impl p LPause (set_paused s2 true)) =? 0)%nat; auto.
  split; [apply sim_fire_life; auto|]. apply good_fire_life; auto.
Qed.

Lemma sim_step p fuel o c s : tame p -> sim rel c s -> good s ->
  match step I p fuel o c, step spec_impl p fuel o s with
  | Some c', Some s' => sim rel c' s' /\ good s'
  | None, None => True
  | _, _ => False
  end.
Proof.
  intros Ht Hs Hg.
  assert (Hrun : forall u,
    match run_result c (run I p fuel u c), run_result s (run spec_impl p fuel u s) with
    | Some c', Some s' => sim rel c' s' /\ good s'
    | None, None => True
    | _, _ => False
    end).
  { intros u. pose proof (sim_run p fuel u c s Ht Hs Hg) as H. unfold run_result.
    destruct (run I p fuel u c) as [[c'| | |e]|], (run spec_impl p fuel u s) as [[s'| | |e']|];
      try tauto; auto.
    - destruct H as [H1 H2]. split; [apply (sim_set (fun st => set_thrown st false)); auto|].
      split; [|reflexivity]. eapply inv_same; [apply H2|..]; reflexivity.
    - subst e'. split; [apply (sim_set (fun st => log st (OReject e))); auto|].
      split; [|apply Hg]. apply inv_neutral; [apply Hg|cbn; auto]. }
  destruct o as [a| |t|dt]; cbn [step].
  - split; [apply sim_act_idle; auto|apply good_act; auto].
  - apply Hrun.
  - apply Hrun.
  - unfold run_for. replace (s_now c) with (s_now s) by (destruct Hs as [-> _]; reflexivity). apply Hrun.
Qed.

Lemma sim_steps p fuel l : tame p -> forall c s, sim rel c s -> good s ->
  match steps I p fuel l c, steps spec_impl p fuel l s with
  | Some c', Some s' => sim rel c' s' /\ good s'
  | None, None => True
  | _, _ => False
  end.
Proof.
  intros Ht. induction l as [|o l IH]; intros c s Hs Hg; cbn [steps]; auto.
  pose proof (sim_step p fuel o c s Ht Hs Hg) as H.
  destruct (step I p fuel o c), (step spec_impl p fuel o s); try tauto.
  apply IH; tauto.
Qed.

Lemma sim_ready : sim rel ready ready /\ good ready.
Proof.
  split; [|split; [apply inv_init|reflexivity]].
  split; [reflexivity|]. cbn. eapply r_nil; eauto.
Qed.

(** Direct use. *)
Lemma sim_dstep p o c s : tame p -> sim rel c s -> good s ->
  (causal -> o = DFire -> forall t id, next_event spec_impl s = Some (t, id) -> t <= s_now s) ->
  sim rel (dstep I p o c) (dstep spec_impl p o s) /\ good (dstep spec_impl p o s).
Proof.
  intros Ht Hs Hg Hc. destruct o as [a|t|]; cbn [dstep].
  - split; [apply sim_act_idle; auto|apply good_act; auto].
  - split; [apply (sim_set (fun st => set_now st t)); auto|apply good_set_now; auto].
  - assert (H : sim rel (fire_next I p c) (fire_next spec_impl p s)).
    { apply sim_fire_next; auto; [apply Hg|apply Hg|]. intros Hca t id E. eapply Hc; eauto. }
    split; [apply (sim_set (fun st => set_thrown st false)); auto|].
    pose proof (good_fire_next p s Ht Hg) as [H1 H2].
    split; [|reflexivity]. eapply inv_same; [apply H1|..]; reflexivity.
Qed.

Lemma sim_dsteps p l : tame p -> forall c s, sim rel c s -> good s ->
  (causal -> clock_ok I p l c) ->
  sim rel (dsteps I p l c) (dsteps spec_impl p l s) /\ good (dsteps spec_impl p l s).
Proof.
  intros Ht. induction l as [|o l IH]; intros c s Hs Hg Hc; cbn [dsteps fold_left]; auto.
  assert (H : sim rel (dstep I p o c) (dstep spec_impl p o s) /\ good (dstep spec_impl p o s)).
  { apply sim_dstep; auto. intros Hca -> t id En. specialize (Hc Hca). cbn [clock_ok] in Hc.
    destruct Hc as [Hc _]. rewrite (sim_next _ _ _ Hs (proj1 Hg)), En in Hc.
    replace (s_now s) with (s_now c) by (destruct Hs as [-> _]; reflexivity). auto. }
  apply IH; try tauto. intros Hca. specialize (Hc Hca). cbn [clock_ok] in Hc. tauto.
Qed.
End SIM.

(** ** What the record gains *)

(** [grows st st' tr]: between the two states the entries [tr] were added, all
    of them made by client code. *)
Record grows (st st' : state) (tr : list obs) : Prop := {
  g_trace : s_trace st' = s_trace st ++ tr;
  g_client : Forall client_obs tr;
  g_paused : s_paused st' = true <-> s_paused st = true \/ In OPause tr;
  g_started : s_started st' = s_started st;
  g_init : s_init st' = s_init st;
  g_now : s_now st' = s_now st
}.

Lemma grows_refl st : grows st st [].
Proof. constructor; auto; cbn; [rewrite app_nil_r; auto|tauto]. Qed.

Lemma grows_trans a b c t1 t2 : grows a b t1 -> grows b c t2 -> grows a c (t1 ++ t2).
Proof.
  intros [A1 A2 A3 A4 A5 A6] [B1 B2 B3 B4 B5 B6]. constructor; try congruence.
  - rewrite B1, A1, app_assoc. auto.
  - apply Forall_app; auto.
  - rewrite B3, A3, in_app_iff. tauto.
Qed.

Lemma grows_act I a st : exists tr, grows st (act I a st) tr.
Proof.
  destruct (act_cases I a st) as [[t [s [-> Ht]]]|[[e ->]|[->|[[id [-> Hid]]| ->]]]].
  - eexists [_]. constructor; cbn; auto; [repeat constructor|].
    split; auto. intros [?|[?|[]]]; [auto|discriminate].
  - eexists [_]. constructor; cbn; auto; [repeat constructor|].
    split; auto. intros [?|[?|[]]]; [auto|discriminate].
  - exists []. apply grows_refl.
  - eexists [_]. constructor; cbn; auto; [repeat constructor|].
    split; auto. intros [?|[?|[]]]; [auto|discriminate].
  - eexists [_]. constructor; cbn; auto; [repeat constructor|]. split; auto.
Qed.

Lemma grows_acts I l : forall st, exists tr, grows st (acts I l st) tr.
Proof.
  induction l as [|a l IH]; intros st; cbn [acts fold_left]; [exists []; apply grows_refl|].
  destruct (grows_act I a st) as [t1 H1]. destruct (IH (act I a st)) as [t2 H2].
  exists (t1 ++ t2). eapply grows_trans; eauto.
Qed.

Lemma grows_call I p src st : exists tr, grows st (call I p src st) tr.
Proof.
  unfold call. destruct (grows_acts I (fst (p (s_trace st) src)) st) as [tr [H1 H2 H3 H4 H5 H6]].
  exists tr. constructor; auto.
Qed.

Lemma fire_life_trace I p l st : exists tr, grows (log st (OLife l)) (fire_life I p l st) tr.
Proof. apply grows_call. Qed.

(** No pending event lies in the past of the clock. *)
Definition ahead (st : state) : Prop := forall k, In k (s_queue st) -> s_now st <= fst k.

Lemma ahead_act a st : ahead st -> ahead (act spec_impl a st).
Proof.
  intros H. destruct (act_cases spec_impl a st) as [[t [s [-> Ht]]]|[[e ->]|[->|[[id [-> Hid]]| ->]]]]; auto.
  intros k Hk. cbn in Hk |- *. apply ordered_insert_in in Hk. destruct Hk as [->|Hk]; auto.
Qed.
Lemma ahead_acts l : forall st, ahead st -> ahead (acts spec_impl l st).
Proof. induction l as [|a l IH]; intros st H; cbn; auto. apply IH. apply ahead_act. auto. Qed.
Lemma ahead_call p src st : ahead st -> ahead (call spec_impl p src st).
Proof. intros H. unfold call. apply (ahead_acts _ _ H). Qed.
Lemma ahead_fire_life p l st : ahead st -> ahead (fire_life spec_impl p l st).
Proof. intros H. apply ahead_call. exact H. Qed.

(** One iteration of the simulator's loop. *)
Lemma fire_next_trace p st t id : tame p -> good st -> ahead st -> s_paused st = false ->
  next_event spec_impl st = Some (t, id) ->
  exists s tr s0, scheduled (s_trace st) id t s0 /\
    let st' := fire_next spec_impl p (set_now st t) in
    s_trace st' = s_trace st ++ OTake id t s :: tr /\ Forall client_obs tr /\
    (s_paused st' = true <-> In OPause tr) /\
    s_started st' = s_started st /\ s_init st' = s_init st /\ s_now st' = t /\
    s_now st <= t /\ ahead st' /\ good st'.
Proof.
  intros Ht Hg Ha Hp En. pose proof Hg as [Hi Hth].
  destruct (inv_next_bound _ _ _ _ Hi En) as [Hid [q Eq]].
  assert (Hle : s_now st <= t).
  { change t with (fst (t, id)). apply Ha. rewrite Eq. left; auto. }
  assert (Hq : In (t, id) (s_queue st)) by (rewrite Eq; left; auto).
  apply (i_pend _ _ Hi) in Hq. destruct Hq as [[s0 Hs0] _].
  assert (Hg' : good (fire_next spec_impl p (set_now st t))).
  { apply good_fire_next; auto. apply good_set_now. auto. }
  assert (Hsort : sorted ((t, id) :: q)) by (rewrite <- Eq; apply Hi).
  assert (Hahead : forall x, In x q -> t <= fst x).
  { inversion Hsort as [|? ? _ Hf]; subst. rewrite Forall_forall in Hf.
    intros x Hx. specialize (Hf x Hx). unfold earlier in Hf. cbn in Hf. lia. }
  destruct (fire_next_cases spec_impl p (set_now st t) t id Ht Hth En Hid) as [h [Eh Hf]].
  destruct (h_sink h) as [s|].
  - cbn [i_during i_after spec_impl s_queue set_now] in Hf. rewrite Eq in Hf. cbn [tl] in Hf.
    set (e := entered (set_now st t) q id s) in *.
    destruct (grows_call spec_impl p (SSink s) e) as [tr [G1 G2 G3 G4 G5 G6]].
    assert (Hac : ahead (call spec_impl p (SSink s) e)).
    { apply (ahead_call p (SSink s) e). intros x Hx. cbn in Hx |- *. auto. }
    exists (Some s), tr, s0. split; auto. cbn zeta. rewrite Hf in Hg' |- *. clear Hf.
    set (cc := call spec_impl p (SSink s) e) in *. clearbody cc.
    split; [|split; [|split; [|split; [|split; [|split; [|split; [|split]]]]]]]; auto.
    + cbn. rewrite G1. cbn. rewrite <- app_assoc. auto.
    + cbn. rewrite G3. cbn. rewrite Hp. intuition discriminate.
  - cbn [i_during i_after spec_impl s_queue set_now] in Hf. rewrite Eq in Hf. cbn [tl] in Hf.
    exists None, [], s0. split; auto. cbn zeta. rewrite Hf in Hg' |- *. cbn in Hg' |- *.
    split; [|split; [|split; [|split; [|split; [|split; [|split; [|split]]]]]]]; auto.
    rewrite Hp. intuition discriminate.
Qed.

Lemma fired_app a b : fired (a ++ b) = fired a ++ fired b.
Proof. unfold fired. apply flat_map_app. Qed.
Lemma fired_times_app a b : fired_times (a ++ b) = fired_times a ++ fired_times b.
Proof. unfold fired_times. rewrite fired_app, map_app. auto. Qed.
Lemma fired_client tr : Forall client_obs tr -> fired tr = [].
Proof.
  induction 1 as [|o tr H _ IH]; cbn; auto. destruct o; cbn in *; tauto.
Qed.
Lemma fired_times_client tr : Forall client_obs tr -> fired_times tr = [].
Proof. intros H. unfold fired_times. rewrite fired_client; auto. Qed.
Lemma client_not_life tr : Forall client_obs tr -> Forall not_life tr.
Proof. apply Forall_impl. intros o; destruct o; cbn; tauto. Qed.

(** Every clock reading at a removal is the time of the event. *)
Definition on_time (tr : list obs) : Prop :=
  forall id c s, In (OTake id c s) tr -> exists s0, scheduled tr id c s0.

Lemma on_time_client tr l : on_time tr -> Forall client_obs l -> on_time (tr ++ l).
Proof.
  intros H Hc id c s Hi. apply in_app_or in Hi. destruct Hi as [Hi|Hi].
  - destruct (H _ _ _ Hi) as [s0 Hs]. exists s0. apply in_or_app. auto.
  - rewrite Forall_forall in Hc. apply Hc in Hi. destruct Hi.
Qed.
Lemma on_time_life tr l : on_time tr -> on_time (tr ++ [OLife l]).
Proof.
  intros H id c s Hi. apply in_snoc in Hi. destruct Hi as [Hi|Hi]; [|discriminate].
  destruct (H _ _ _ Hi) as [s0 Hs]. exists s0. apply in_or_app. auto.
Qed.
Lemma on_time_take tr id t s s0 : on_time tr -> scheduled tr id t s0 -> on_time (tr ++ [OTake id t s]).
Proof.
  intros H Hs i c s' Hi. apply in_snoc in Hi. destruct Hi as [Hi|Hi].
  - destruct (H _ _ _ Hi) as [s1 Hs1]. exists s1. apply in_or_app. auto.
  - inversion Hi; subst. exists s0. apply in_or_app. auto.
Qed.

Definition fine (st : state) : Prop := good st /\ ahead st /\ on_time (s_trace st).

(** The loop. *)
Record loop_facts (bound : option Z) (st st' : state) (tr : list obs) : Prop := {
  l_fine : fine st';
  l_trace : s_trace st' = s_trace st ++ tr;
  l_nolife : Forall not_life tr;
  l_started : s_started st' = s_started st;
  l_init : s_init st' = s_init st;
  l_pause_iff : s_paused st' = true <-> s_paused st = true \/ In OPause tr;
  l_paused : s_paused st = true -> tr = [];
  l_stop : forall l1 l2, tr = l1 ++ OPause :: l2 -> fired l2 = [];
  l_exit : s_paused st' = false ->
    match bound with
    | None => s_queue st' = []
    | Some t => s_now st' = t /\ forall k, In k (s_queue st') -> t < fst k
    end;
  l_bound : match bound with
    | None => True
    | Some t => Forall (fun x => x <= t) (fired_times tr)
    end;
  l_mono : match bound with None => True | Some t => s_now st <= t end ->
    s_now st <= s_now st' /\
    match bound with None => True | Some t => s_now st' <= t end /\
    StronglySorted Z.le (fired_times tr) /\
    Forall (fun x => s_now st <= x <= s_now st') (fired_times tr)
}.

Lemma loop_spec p bound : tame p -> forall fuel st st', fine st ->
  loop spec_impl p bound fuel st = Some st' -> exists tr, loop_facts bound st st' tr.
Proof.
  intros Ht. induction fuel as [|fuel IH]; intros st st' Hfine E; cbn [loop] in E; [discriminate|].
  destruct (s_paused st) eqn:Ep.
  { inversion E; subst st'. exists []. constructor; auto; try (cbn; rewrite ?app_nil_r; auto; fail).
    - cbn. tauto.
    - intros l1 l2 H. destruct l1; discriminate.
    - congruence.
    - destruct bound; cbn; auto.
    - intros Hb. cbn. split; [lia|]. split; [destruct bound; auto; lia|]. split; constructor. }
  assert (Hend : forall t, bound = Some t -> (forall k, In k (s_queue st) -> t < fst k) ->
     exists tr, loop_facts bound st (set_now st t) tr).
  { intros t Hb Hq. exists []. destruct Hfine as [[Hi Hth] [Ha Ho]]. constructor; cbn; auto.
    - split; [|split; auto].
      + apply good_set_now. split; auto.
      + intros k Hk. cbn in Hk |- *. specialize (Hq k Hk). lia.
    - rewrite app_nil_r. auto.
    - tauto.
    - intros l1 l2 H. destruct l1; discriminate.
    - rewrite Hb. auto.
    - destruct bound; constructor.
    - rewrite Hb. intros Hn. cbn. split; [lia|]. split; [lia|]. split; constructor. }
  destruct (next_event spec_impl st) as [[t0 id]|] eqn:En.
  2:{ assert (Eq : s_queue st = []).
      { unfold next_event in En. cbn in En. destruct (s_queue st); [auto|discriminate]. }
      destruct bound as [t|]; inversion E; subst st'.
      - apply Hend; auto. rewrite Eq. intros k [].
      - exists []. constructor; cbn; auto.
        + rewrite app_nil_r. auto.
        + tauto.
        + intros l1 l2 H. destruct l1; discriminate.
        + intros _. split; [lia|]. split; auto. split; constructor. }
  destruct Hfine as [Hg [Ha Ho]].
  destruct (fire_next_trace p st t0 id Ht Hg Ha Ep En)
    as [s [tr1 [s0 [Hs0 [F1 [F2 [F3 [F4 [F5 [F6 [F7 [F8 F9]]]]]]]]]]]].
  set (st1 := fire_next spec_impl p (set_now st t0)) in *.
  assert (Hf1 : fine st1).
  { split; auto. split; auto. rewrite F1.
    replace (s_trace st ++ OTake id t0 s :: tr1) with ((s_trace st ++ [OTake id t0 s]) ++ tr1)
      by (rewrite <- app_assoc; auto).
    apply on_time_client; auto. eapply on_time_take; eauto. }
  (* the rest of the loop *)
  assert (Hgo : match bound with None => True | Some t => t0 <= t end ->
     loop spec_impl p bound fuel st1 = Some st' -> exists tr, loop_facts bound st st' tr).
  { intros Hb El. destruct (IH _ _ Hf1 El) as [tr2 [G1 G2 G3 G4 G5 G6 G7 G8 G9 G10 G11]].
    exists (OTake id t0 s :: tr1 ++ tr2). constructor; auto.
    - rewrite G2, F1, <- app_assoc. auto.
    - constructor; [cbn; auto|]. apply Forall_app. split; auto. apply client_not_life; auto.
    - congruence.
    - congruence.
    - rewrite G6, F3, Ep. cbn. rewrite in_app_iff. intuition discriminate.
    - congruence.
    - intros l1 l2 E1. destruct l1 as [|x l1]; [discriminate|]. inversion E1 as [[Ex E2]].
      clear E1. (* where is the pause? *)
      destruct (s_paused st1) eqn:Hp1.
      + rewrite (G7 eq_refl) in E2. rewrite app_nil_r in E2. subst tr1.
        apply Forall_app in F2. destruct F2 as [_ F2]. apply Forall_inv_tail in F2.
        apply fired_client; auto.
      + assert (Hnin : ~ In OPause tr1) by (intros H; apply F3 in H; discriminate).
        assert (Hl : exists m, l1 = tr1 ++ m /\ tr2 = m ++ OPause :: l2).
        { clear - E2 Hnin. revert l1 E2 Hnin. induction tr1 as [|y tr1 IH]; intros l1 E2 Hnin.
          - exists l1. auto.
          - destruct l1 as [|z l1]; cbn in E2; inversion E2; subst.
            + exfalso. apply Hnin. left; auto.
            + destruct (IH _ H1) as [m [-> ->]]; [intros H; apply Hnin; right; auto|].
              exists m. auto. }
        destruct Hl as [m [-> Hm]]. eapply G8; eauto.
    - destruct bound as [t|]; auto.
      change (fired_times (OTake id t0 s :: tr1 ++ tr2)) with (t0 :: fired_times (tr1 ++ tr2)).
      rewrite fired_times_app, fired_times_client by auto. cbn. constructor; auto.
    - intros Hn. assert (Hn1 : match bound with Some t => s_now st1 <= t | None => True end)
        by (destruct bound; lia || auto).
      destruct (G11 Hn1) as [M1 [M2 [M3 M4]]]. rewrite F6 in M1, M4.
      change (fired_times (OTake id t0 s :: tr1 ++ tr2)) with (t0 :: fired_times (tr1 ++ tr2)).
      rewrite fired_times_app, (fired_times_client tr1) by auto. cbn [app].
      split; [lia|]. split; auto. split.
      + constructor; auto. eapply Forall_impl; [|exact M4]. cbn. lia.
      + constructor; [lia|]. eapply Forall_impl; [|exact M4]. cbn. lia. }
  destruct bound as [t|].
  - destruct (Z.ltb_spec t t0) as [Hlt|Hge].
    + inversion E; subst st'. apply Hend; auto.
      destruct (inv_next_bound _ _ _ _ (proj1 Hg) En) as [Hid [q Eq]].
      intros k Hk. rewrite Eq in Hk. destruct Hk as [<-|Hk]; auto.
      pose proof (i_sorted _ _ (proj1 Hg)) as Hsort. rewrite Eq in Hsort.
      apply StronglySorted_inv in Hsort. destruct Hsort as [_ Hf]. rewrite Forall_forall in Hf.
      specialize (Hf k Hk). unfold earlier in Hf. cbn in Hf. lia.
    + fold st1 in E. rewrite (proj2 F9) in E. apply Hgo; auto.
  - fold st1 in E. rewrite (proj2 F9) in E. apply Hgo; auto.
Qed.

(** ** A whole run *)

Lemma fine_fire_life p l st : tame p -> fine st -> fine (fire_life spec_impl p l st).
Proof.
  intros Ht [Hg [Ha Ho]]. split; [apply good_fire_life; auto|]. split; [apply ahead_fire_life; auto|].
  destruct (fire_life_trace spec_impl p l st) as [tr G]. rewrite (g_trace _ _ _ G). cbn.
  apply on_time_client; [apply on_time_life; auto|apply G].
Qed.

Lemma fine_same st st' : fine st -> s_queue st' = s_queue st -> s_handles st' = s_handles st ->
  s_trace st' = s_trace st -> s_now st' = s_now st -> s_thrown st' = false -> fine st'.
Proof.
  intros [[Hi Hth] [Ha Ho]] E1 E2 E3 E4 E5. split; [split; auto|].
  - eapply inv_same; eauto.
  - split; [|rewrite E3; auto]. intros k Hk. rewrite E1 in Hk. rewrite E4. auto.
Qed.

Lemma fine_no_events st : fine st -> (num_events st = 0%nat <-> all_taken (s_trace st) (fun _ => True)).
Proof.
  intros [[Hi _] _]. unfold num_events. split.
  - intros H id t s Hs _. destruct (s_queue st) as [|k q] eqn:Eq; [|discriminate].
    destruct (in_dec Nat.eq_dec id (map (fun x => fst (fst x)) (fired (s_trace st)))) as [Hin|Hnin].
    + apply in_map_iff in Hin. destruct Hin as [[[i c] s'] [E Hin]]. cbn in E. subst i.
      unfold fired in Hin. apply in_flat_map in Hin. destruct Hin as [o [Ho Hx]].
      destruct o; cbn in Hx; try tauto. destruct Hx as [Hx|[]]. inversion Hx; subst.
      eexists _, _; eauto.
    + exfalso. assert (Hn : ~ taken (s_trace st) id).
      { intros [c [s' Hx]]. apply Hnin. apply in_map_iff. exists (id, c, s'). split; auto.
        unfold fired. apply in_flat_map. exists (OTake id c s'). split; auto. left; auto. }
      assert (Hq : In (t, id) (s_queue st)) by (apply (i_pend _ _ Hi); eauto).
      rewrite Eq in Hq. destruct Hq.
  - intros H. destruct (s_queue st) as [|[t id] q] eqn:Eq; auto. exfalso.
    assert (Hq : In (t, id) (s_queue st)) by (rewrite Eq; left; auto).
    apply (i_pend _ _ Hi) in Hq. destruct Hq as [[s Hs] Hn]. apply Hn. eapply H; eauto.
Qed.

Lemma taken_dec tr id : taken tr id \/ ~ taken tr id.
Proof.
  induction tr as [|o tr IH] using rev_ind.
  - right. intros [c [s []]].
  - destruct IH as [IH|IH].
    + left. apply taken_snoc. auto.
    + destruct o as [| | | |i c s|]; try (right; rewrite taken_snoc; intros [?|[? [? ?]]]; [auto|discriminate]).
      destruct (Nat.eq_dec i id) as [->|Hne].
      * left. apply taken_snoc. right. eauto.
      * right. rewrite taken_snoc. intros [?|[? [? E]]]; [auto|inversion E; auto].
Qed.

Record run_facts (bound : option Z) (st st' : state) (pre body post fin : list obs) : Prop := {
  f_shape : exists tr, s_trace st' = s_trace st ++ tr /\
              run_shape (s_started st) tr pre body post fin;
  f_started : s_started st' = true;
  f_init : s_init st' = s_init st;
  f_paused : s_paused st' = true;
  f_stop : forall l1 l2, body = l1 ++ OPause :: l2 -> fired l2 = [];
  f_exit : ~ In OPause body ->
    match bound with
    | None => all_taken (s_trace st ++ pre ++ OLife LRun :: body) (fun _ => True)
    | Some t => s_now st' = t /\
                all_taken (s_trace st ++ pre ++ OLife LRun :: body) (fun x => x <= t)
    end;
  f_bound : match bound with
    | None => True
    | Some t => Forall (fun x => x <= t) (fired_times body)
    end;
  f_mono : match bound with None => True | Some t => s_now st <= t end ->
    s_now st <= s_now st' /\
    match bound with None => True | Some t => s_now st' <= t end /\
    StronglySorted Z.le (fired_times body) /\
    Forall (fun x => s_now st <= x <= s_now st') (fired_times body);
  f_end : fin <> [] <->
    all_taken (s_trace st ++ pre ++ OLife LRun :: body ++ OLife LPause :: post) (fun _ => True)
}.

Lemma run_spec p fuel bound st st' : tame p -> fine st ->
  run spec_impl p fuel bound st = Some (Done st') ->
  fine st' /\ exists pre body post fin, run_facts bound st st' pre body post fin.
Proof.
  intros Ht Hf E. unfold run in E.
  destruct (s_init st) eqn:Ei; cbn [negb] in E; [|discriminate].
  destruct (num_events st =? 0)%nat eqn:Ene; [discriminate|].
  (* begin *)
  assert (Hbegin : exists pre st1,
    (if s_started st then st else fire_life spec_impl p LBegin (set_started st true)) = st1 /\
    fine st1 /\ s_trace st1 = s_trace st ++ pre /\ s_started st1 = true /\
    s_init st1 = true /\ s_now st1 = s_now st /\ fired pre = [] /\
    (if s_started st then pre = []
     else exists l, pre = OLife LBegin :: l /\ Forall client_obs l)).
  { destruct (s_started st) eqn:Es.
    - exists [], st. rewrite app_nil_r. auto 10.
    - destruct (fire_life_trace spec_impl p LBegin (set_started st true)) as [tr [G1 G2 G3 G4 G5 G6]].
      exists (OLife LBegin :: tr), (fire_life spec_impl p LBegin (set_started st true)).
      split; auto. split; [|split; [|split; [|split; [|split; [|split]]]]].
      + apply fine_fire_life; auto. eapply fine_same; eauto. apply (proj2 (proj1 Hf)).
      + rewrite G1. cbn. rewrite <- app_assoc. auto.
      + rewrite G4. auto.
      + rewrite G5. auto.
      + rewrite G6. auto.
      + cbn. apply fired_client. auto.
      + exists tr. auto. }
  destruct Hbegin as [pre [st1 [E1 [Hf1 [T1 [S1 [I1 [N1 [Fp P1]]]]]]]]].
  rewrite E1 in E. rewrite (proj2 (proj1 Hf1)) in E.
  (* run event *)
  destruct (fire_life_trace spec_impl p LRun (set_paused st1 false)) as [lr [G1 G2 G3 G4 G5 G6]].
  set (st2 := fire_life spec_impl p LRun (set_paused st1 false)) in *.
  assert (Hf2 : fine st2).
  { apply fine_fire_life; auto. eapply fine_same; eauto. apply (proj2 (proj1 Hf1)). }
  rewrite (proj2 (proj1 Hf2)) in E.
  destruct (loop spec_impl p bound fuel st2) as [st3|] eqn:El; [|discriminate].
  destruct (loop_spec p bound Ht fuel st2 st3 Hf2 El) as [ll [L1 L2 L3 L4 L5 L6 L7 L8 L9 L10 L11]].
  rewrite (proj2 (proj1 L1)) in E.
  (* pause event *)
  destruct (fire_life_trace spec_impl p LPause (set_paused st3 true)) as [lp [Q1 Q2 Q3 Q4 Q5 Q6]].
  set (st4 := fire_life spec_impl p LPause (set_paused st3 true)) in *.
  assert (Hf4 : fine st4).
  { apply fine_fire_life; auto. eapply fine_same; eauto. apply (proj2 (proj1 L1)). }
  rewrite (proj2 (proj1 Hf4)) in E.
  clearbody st2 st4.
  cbn in G1, G3, G4, G5, G6, Q1, Q3, Q4, Q5, Q6.
  assert (Tb : s_trace st3 = s_trace st ++ pre ++ OLife LRun :: lr ++ ll).
  { rewrite L2, G1, T1. rewrite <- !app_assoc. auto. }
  assert (T4 : s_trace st4 = s_trace st ++ pre ++ OLife LRun :: (lr ++ ll) ++ OLife LPause :: lp).
  { rewrite Q1, Tb. rewrite <- !app_assoc. cbn. rewrite <- !app_assoc. auto. }
  (* end event *)
  assert (Hend : exists fin, s_trace st' = s_trace st4 ++ fin /\ fine st' /\
     s_started st' = true /\ s_init st' = true /\ s_paused st' = true /\ s_now st' = s_now st3 /\
     (fin = [] \/ exists l, fin = OLife LEnd :: l /\ Forall client_obs l) /\
     (fin <> [] <-> num_events st4 = 0%nat)).
  { destruct (num_events st4 =? 0)%nat eqn:En; inversion E; subst st'.
    - apply Nat.eqb_eq in En.
      destruct (fire_life_trace spec_impl p LEnd st4) as [le [R1 R2 R3 R4 R5 R6]].
      assert (Hfe : fine (fire_life spec_impl p LEnd st4)) by (apply fine_fire_life; auto).
      set (st5 := fire_life spec_impl p LEnd st4) in *. clearbody st5.
      cbn in R1, R3, R4, R5, R6.
      exists (OLife LEnd :: le). split; [rewrite R1, <- app_assoc; auto|].
      split; [exact Hfe|].
      split; [congruence|]. split; [congruence|]. split; [apply R3; left; apply Q3; auto|].
      split; [congruence|]. split; [eauto|]. split; auto. discriminate.
    - apply Nat.eqb_neq in En. exists []. rewrite app_nil_r. split; auto. split; auto.
      split; [congruence|]. split; [congruence|]. split; [apply Q3; auto|].
      split; [congruence|]. split; auto. split; intros; congruence. }
  destruct Hend as [fin [T5 [Hf5 [S5 [I5 [P5 [N5 [R5 R6]]]]]]]].
  split; auto. exists pre, (lr ++ ll), lp, fin.
  assert (Hnl : fired_times lr = []) by (apply fired_times_client; auto).
  constructor; auto.
  - exists (pre ++ OLife LRun :: (lr ++ ll) ++ OLife LPause :: lp ++ fin). split.
    + rewrite T5, T4. rewrite <- !app_assoc. cbn. rewrite <- !app_assoc. auto.
    + constructor; auto. apply Forall_app. split; auto. apply client_not_life. auto.
  - congruence.
  - (* stop *)
    intros l1 l2 Eb. destruct (s_paused st2) eqn:Hp2.
    + assert (Hll : ll = []) by (apply L7; auto). subst ll. rewrite app_nil_r in Eb. subst lr.
      apply Forall_app in G2. destruct G2 as [_ G2]. apply Forall_inv_tail in G2.
      apply fired_client; auto.
    + assert (Hnin : ~ In OPause lr).
      { intros H. assert (false = true) by (apply G3; auto). discriminate. }
      assert (Hl : exists m, l1 = lr ++ m /\ ll = m ++ OPause :: l2).
      { clear - Eb Hnin. revert l1 Eb Hnin. induction lr as [|y lr IH]; intros l1 Eb Hnin.
        - exists l1. auto.
        - destruct l1 as [|z l1]; cbn in Eb; inversion Eb; subst.
          + exfalso. apply Hnin. left; auto.
          + destruct (IH _ H1) as [m [-> ->]]; [intros H; apply Hnin; right; auto|].
            exists m. auto. }
      destruct Hl as [m [-> Hm]]. eapply L8; eauto.
  - (* exit *)
    intros Hnp. rewrite <- Tb.
    assert (Hp3 : s_paused st3 = false).
    { destruct (s_paused st3) eqn:Hp; auto. exfalso. apply Hnp. apply in_or_app.
      destruct L6 as [L6 _]. destruct (L6 eq_refl) as [Hx|Hx]; auto.
      left. apply G3 in Hx. destruct Hx; [discriminate|auto]. }
    specialize (L9 Hp3). destruct L1 as [[Hi3 _] _]. destruct bound as [t|].
    + destruct L9 as [L9 L9']. split; [congruence|].
      intros id x s Hs Hx. destruct (taken_dec (s_trace st3) id) as [|Hn]; auto. exfalso.
      assert (Hq : In (x, id) (s_queue st3)) by (apply (i_pend _ _ Hi3); eauto).
      specialize (L9' _ Hq). cbn in L9'. lia.
    + intros id x s Hs Hx. destruct (taken_dec (s_trace st3) id) as [|Hn]; auto. exfalso.
      assert (Hq : In (x, id) (s_queue st3)) by (apply (i_pend _ _ Hi3); eauto).
      rewrite L9 in Hq. destruct Hq.
  - destruct bound; auto. rewrite fired_times_app, Hnl. auto.
  - rewrite fired_times_app, Hnl, N5. cbn [app]. rewrite G6, N1 in L11. auto.
  - rewrite R6. rewrite (fine_no_events st4 Hf4), T4. rewrite <- app_assoc. tauto.
Qed.

Lemma fine_act a st : fine st -> fine (act spec_impl a st).
Proof.
  intros [Hg [Ha Ho]]. split; [apply good_act; auto|]. split; [apply ahead_act; auto|].
  destruct (grows_act spec_impl a st) as [tr G]. rewrite (g_trace _ _ _ G).
  apply on_time_client; auto. apply G.
Qed.

Lemma fine_step p fuel o st st' : tame p -> fine st -> step spec_impl p fuel o st = Some st' -> fine st'.
Proof.
  intros Ht Hf E.
  assert (Hrun : forall u, run_result st (run spec_impl p fuel u st) = Some st' -> fine st').
  { intros u H. unfold run_result in H.
    destruct (run spec_impl p fuel u st) as [[s'| | |e]|] eqn:Er; inversion H; subst; auto.
    - destruct (run_spec p fuel u st s' Ht Hf Er) as [Hf' _].
      eapply fine_same; eauto.
    - destruct Hf as [Hg [Ha Ho]]. split; [|split].
      + destruct Hg. split; auto. apply inv_neutral; cbn; auto.
      + exact Ha.
      + cbn. apply on_time_client; auto. repeat constructor. }
  destruct o as [a| |t|dt]; cbn [step] in E; eauto.
  inversion E. apply fine_act. auto.
Qed.

Lemma fine_steps p fuel l : tame p -> forall st st', fine st ->
  steps spec_impl p fuel l st = Some st' -> fine st'.
Proof.
  intros Ht. induction l as [|o l IH]; intros st st' Hf E; cbn [steps] in E.
  - inversion E; subst; auto.
  - destruct (step spec_impl p fuel o st) as [st1|] eqn:E1; [|discriminate].
    eapply IH; [|eauto]. eapply fine_step; eauto.
Qed.

Lemma fine_ready : fine ready.
Proof.
  split; [split; [apply inv_init|reflexivity]|]. split; [intros k []|]. intros id c s [].
Qed.

(** ** The three schedulers *)

Lemma scheduler_refines I : scheduler I -> exists causal rel relrun, refines causal I rel relrun.
Proof.
  intros [-> |[-> |[lib ->]]].
  - eexists _, _, _. apply list_refines.
  - eexists _, _, _. apply set_refines.
  - eexists _, _, _. apply heap_refines.
Qed.

Lemma sim_same (rel : list key -> list key -> Prop) c s : (forall q qa, rel q qa -> Permutation q qa) -> sim rel c s ->
  s_trace c = s_trace s /\ s_now c = s_now s /\ s_handles c = s_handles s /\
  s_paused c = s_paused s /\ s_started c = s_started s /\ s_init c = s_init s /\
  s_clock c = s_clock s /\ Permutation (s_queue c) (s_queue s).
Proof. intros Hp [H1 H2]. rewrite H1. cbn. auto 10. Qed.

(** Every run of a program has the same behaviour on the sorted queue. *)
Lemma steps_spec I p fuel l : scheduler I -> tame p ->
  same_result (steps I p fuel l ready) (steps spec_impl p fuel l ready).
Proof.
  intros HI Ht. destruct (scheduler_refines I HI) as [ca [rel [rr RF]]].
  destruct (sim_ready ca I rel rr RF) as [Hs Hg].
  pose proof (sim_steps ca I rel rr RF p fuel l Ht ready ready Hs Hg) as H.
  unfold same_result. destruct (steps I p fuel l ready), (steps spec_impl p fuel l ready); try tauto.
  destruct H as [H _]. apply sim_same in H; [|eapply r_perm; eauto].
  unfold same_behaviour. intuition.
Qed.

Lemma same_result_trans a b c : same_result a c -> same_result b c -> same_result a b.
Proof.
  destruct a, b, c; cbn; try tauto. unfold same_behaviour. intros H1 H2.
  decompose [and] H1. decompose [and] H2.
  split; [congruence|]. split; [congruence|]. split; [congruence|]. split; [congruence|].
  split; [congruence|]. etransitivity; eauto. apply Permutation_sym. auto.
Qed.

Lemma reachable_spec I p st : scheduler I -> tame p -> reachable I p st ->
  exists s, fine s /\ s_trace st = s_trace s /\ s_now st = s_now s /\ s_handles st = s_handles s /\
    s_paused st = s_paused s /\ s_started st = s_started s /\ s_init st = s_init s /\
    s_clock st = s_clock s /\ Permutation (s_queue st) (s_queue s) /\
    (forall fuel o, match step I p fuel o st, step spec_impl p fuel o s with
       | Some c', Some s' => s_trace c' = s_trace s' /\ s_now c' = s_now s'
       | None, None => True
       | _, _ => False
       end) /\
    forall fuel bound, match run I p fuel bound st, run spec_impl p fuel bound s with
      | Some (Done c'), Some (Done s') =>
          s_trace c' = s_trace s' /\ s_now c' = s_now s' /\ s_handles c' = s_handles s' /\
          s_paused c' = s_paused s' /\ s_started c' = s_started s' /\ s_init c' = s_init s' /\
          s_clock c' = s_clock s' /\ Permutation (s_queue c') (s_queue s')
      | Some (Throw e), Some (Throw e') => e = e'
      | None, None => True
      | _, _ => False
      end.
Proof.
  intros HI Ht Hre. destruct (scheduler_refines I HI) as [ca [rel [rr RF]]].
  assert (Hex : exists s, sim rel st s /\ fine s).
  { induction Hre as [|fuel o st st' _ IH E].
    - exists ready. split; [eapply sim_ready; eauto|apply fine_ready].
    - destruct IH as [s [H Hf]].
      pose proof (sim_step ca I rel rr RF p fuel o st s Ht H (proj1 Hf)) as Hx.
      rewrite E in Hx. destruct (step spec_impl p fuel o s) as [s'|] eqn:E2; [|tauto].
      exists s'. split; [tauto|]. eapply fine_step; eauto. }
  destruct Hex as [s [H Hf]]. pose proof (proj1 Hf) as Hg'.
  exists s. split; auto. pose proof (sim_same rel st s (r_perm _ _ _ _ RF) H) as Hx.
  decompose [and] Hx. repeat (split; [assumption|]). split.
  - intros fuel' o. pose proof (sim_step ca I rel rr RF p fuel' o st s Ht H Hg') as Hr.
    destruct (step I p fuel' o st), (step spec_impl p fuel' o s); try tauto.
    destruct Hr as [Hr _]. apply sim_same in Hr; [|apply (r_perm _ _ _ _ RF)]. tauto.
  - intros fuel' bound. pose proof (sim_run ca I rel rr RF p fuel' bound st s Ht H Hg') as Hr.
    destruct (run I p fuel' bound st) as [[c'| | |e]|], (run spec_impl p fuel' bound s) as [[s'| | |e']|]; try tauto.
    destruct Hr as [Hr _]. apply (sim_same rel); auto. apply (r_perm _ _ _ _ RF).
Qed.

(** The facts about a run, for the three schedulers. *)
Lemma run_facts_reachable I p fuel bound st st' : scheduler I -> tame p -> reachable I p st ->
  run I p fuel bound st = Some (Done st') ->
  exists pre body post fin, run_facts bound st st' pre body post fin.
Proof.
  intros HI Ht Hr E.
  destruct (reachable_spec I p st HI Ht Hr) as [s [Hf [T [N [H [P [S [In [C [Q [_ R]]]]]]]]]]].
  specialize (R fuel bound). rewrite E in R.
  destruct (run spec_impl p fuel bound s) as [[s'| | |e']|] eqn:E2; try tauto.
  destruct R as [T' [N' [H' [P' [S' [I' [C' Q']]]]]]].
  destruct (run_spec p fuel bound s s' Ht Hf E2) as [_ [pre [body [post [fin F]]]]].
  exists pre, body, post, fin. destruct F as [F1 F2 F3 F4 F5 F6 F7 F8 F9].
  constructor; rewrite ?T, ?N, ?S, ?T', ?N', ?S', ?P', ?I', ?In; auto.
Qed.

Lemma reachable_facts I p st : scheduler I -> tame p -> reachable I p st ->
  legal (s_trace st) /\ on_time (s_trace st) /\
  num_scheduled (s_trace st) = length (s_handles st) /\
  (forall id h, nth_error (s_handles st) id = Some h -> handle_ok None (s_trace st) id h) /\
  (forall t id, In (t, id) (s_queue st) <->
     (exists s, scheduled (s_trace st) id t s) /\ ~ taken (s_trace st) id) /\
  (num_events st = 0%nat <-> all_taken (s_trace st) (fun _ => True)) /\
  ahead st.
Proof.
  intros HI Ht Hr.
  destruct (reachable_spec I p st HI Ht Hr) as [s [Hf [T [N [H [P [S [In' [C [Q [_ _]]]]]]]]]]].
  pose proof Hf as [[Hi Hth] [Ha Ho]]. rewrite T, H.
  split; [apply Hi|]. split; auto. split; [apply Hi|]. split; [apply Hi|]. split.
  - intros t id. rewrite <- (i_pend _ _ Hi). split; intros Hx.
    + eapply Permutation_in; eauto.
    + eapply Permutation_in; [apply Permutation_sym; exact Q|exact Hx].
  - split.
    + rewrite <- (fine_no_events s Hf). unfold num_events. rewrite (Permutation_length Q). tauto.
    + intros k Hk. rewrite N. apply Ha. eapply Permutation_in; eauto.
Qed.

(** ** Pauses do not change what is fired *)

Definition same_but_pauses (a b : state) : Prop :=
  s_clock a = s_clock b /\ s_init a = s_init b /\ s_queue a = s_queue b /\
  s_handles a = s_handles b /\ s_now a = s_now b /\ s_thrown a = s_thrown b /\
  filter visible (s_trace a) = filter visible (s_trace b).

Lemma sbp_refl a : same_but_pauses a a.
Proof. unfold same_but_pauses. auto 10. Qed.
Lemma sbp_sym a b : same_but_pauses a b -> same_but_pauses b a.
Proof. unfold same_but_pauses. intuition. Qed.
Lemma sbp_trans a b c : same_but_pauses a b -> same_but_pauses b c -> same_but_pauses a c.
Proof. unfold same_but_pauses. intuition congruence. Qed.

Ltac sbp := unfold same_but_pauses in *; cbn in *; intuition (try congruence).

Lemma visible_snoc tr o : filter visible (tr ++ [o]) =
  filter visible tr ++ (if visible o then [o] else []).
Proof. rewrite filter_app. cbn. destruct (visible o); auto. Qed.

Lemma sbp_log a b o : same_but_pauses a b -> same_but_pauses (log a o) (log b o).
Proof.
  intros H. unfold same_but_pauses in *. cbn -[filter]. rewrite !visible_snoc. intuition congruence.
Qed.
Lemma sbp_log_invisible a o : visible o = false -> same_but_pauses (log a o) a.
Proof.
  intros H. unfold same_but_pauses. cbn -[filter]. rewrite visible_snoc, H, app_nil_r. auto 10.
Qed.

Lemma sbp_act I a x y : is_pause a = false -> same_but_pauses x y ->
  same_but_pauses (act I a x) (act I a y).
Proof.
  intros Hp H. pose proof H as [H1 [H2 [H3 [H4 [H5 [H6 H7]]]]]].
  assert (Hs : forall t o, same_but_pauses (sched_result t o x (schedule_at I t o x))
      (sched_result t o y (schedule_at I t o y))).
  { intros t o. unfold schedule_at. rewrite H1, H5. destruct (s_clock y) eqn:Ecl; cbn [negb];
      [|apply sbp_log; auto].
    destruct o as [o|]; [|apply sbp_log; auto].
    destruct (t <? s_now y); [apply sbp_log; auto|]. unfold sched_result. rewrite H4.
    apply sbp_log. unfold same_but_pauses. cbn -[filter]. rewrite H3. intuition congruence. }
  destruct a as [t o|dt o|o|id|]; cbn [act].
  - apply Hs.
  - unfold schedule_in. rewrite H1, H5. destruct (s_clock y) eqn:Ecl; cbn [negb]; [apply Hs|exact H].
  - unfold schedule_now. rewrite H1, H5. destruct (s_clock y) eqn:Ecl; cbn [negb]; [apply Hs|exact H].
  - rewrite H4. destruct (id <? length (s_handles y))%nat; auto.
    apply sbp_log. unfold same_but_pauses, cancel. cbn -[filter update]. rewrite H4. intuition congruence.
  - discriminate.
Qed.

Lemma sbp_acts I l : forall x y, same_but_pauses x y ->
  same_but_pauses (acts I l x) (acts I (filter (fun a => negb (is_pause a)) l) y).
Proof.
  induction l as [|a l IH]; intros x y H; cbn [acts fold_left filter]; auto.
  destruct (is_pause a) eqn:E; cbn [negb].
  - apply IH. destruct a; try discriminate. cbn [act]. eapply sbp_trans; [|exact H].
    eapply sbp_trans; [apply sbp_log_invisible; auto|]. unfold same_but_pauses. cbn. auto 10.
  - cbn [fold_left]. apply IH. apply sbp_act; auto.
Qed.

Section SPLIT.
Context (p : program) (Hp : oblivious p) (Ht : tame p).

Lemma sbp_call src x y : same_but_pauses x y ->
  same_but_pauses (call spec_impl p src x) (call spec_impl (unpaused p) src y).
Proof.
  intros H. unfold call. cbn [fst snd unpaused].
  assert (E : p (s_trace x) src = p (s_trace y) src) by (apply Hp; apply H).
  unfold unpaused. cbn [fst snd]. rewrite E.
  pose proof (sbp_acts spec_impl (fst (p (s_trace y) src)) x y H) as Ha.
  unfold same_but_pauses in *. cbn -[filter acts]. intuition.
Qed.

Lemma tame_unpaused : tame (unpaused p).
Proof. intros tr src. cbn. apply Ht. Qed.

Lemma sbp_fire_next x y : s_thrown x = false -> same_but_pauses x y ->
  (forall t id, next_event spec_impl x = Some (t, id) -> (id < length (s_handles x))%nat) ->
  same_but_pauses (fire_next spec_impl p x) (fire_next spec_impl (unpaused p) y).
Proof.
  intros Hth H Hb. pose proof H as [H1 [H2 [H3 [H4 [H5 [H6 H7]]]]]].
  assert (En : next_event spec_impl x = next_event spec_impl y)
    by (unfold next_event; rewrite H3; auto).
  destruct (next_event spec_impl x) as [[t id]|] eqn:Ex.
  2:{ unfold fire_next. rewrite Ex, <- En. auto. }
  specialize (Hb t id eq_refl).
  destruct (fire_next_cases spec_impl p x t id Ht Hth Ex Hb) as [h [Eh Hf]].
  destruct (fire_next_cases spec_impl (unpaused p) y t id tame_unpaused
     ltac:(congruence) ltac:(congruence) ltac:(rewrite <- H4; auto)) as [h' [Eh' Hf']].
  assert (h' = h) by congruence. subst h'. destruct (h_sink h) as [s|].
  - rewrite Hf, Hf'. cbn [i_during i_after spec_impl].
    assert (Hc : same_but_pauses (call spec_impl p (SSink s) (entered x (tl (s_queue x)) id s))
       (call spec_impl (unpaused p) (SSink s) (entered y (tl (s_queue y)) id s))).
    { apply sbp_call. unfold entered. rewrite H3, H4, H5.
      unfold same_but_pauses. cbn -[filter update]. rewrite !visible_snoc, H7. intuition congruence. }
    revert Hc. generalize (call spec_impl p (SSink s) (entered x (tl (s_queue x)) id s)).
    generalize (call spec_impl (unpaused p) (SSink s) (entered y (tl (s_queue y)) id s)).
    intros v u [C1 [C2 [C3 [C4 [C5 [C6 C7]]]]]]. unfold same_but_pauses. cbn -[filter update].
    rewrite C4. intuition congruence.
  - rewrite Hf, Hf', H3, H5. cbn [i_during i_after spec_impl].
    unfold same_but_pauses. cbn -[filter]. rewrite !visible_snoc, H7. intuition congruence.
Qed.

(** Some iterations of the loop. *)
Inductive iters (pr : program) : state -> state -> Prop :=
| iters_refl st : iters pr st st
| iters_step st st' t id : next_event spec_impl st = Some (t, id) ->
    iters pr (fire_next spec_impl pr (set_now st t)) st' -> iters pr st st'.

Lemma iters_trans pr a b c : iters pr a b -> iters pr b c -> iters pr a c.
Proof. induction 1; intros; auto. econstructor; eauto. Qed.

Lemma fine_fire_next pr st t id : tame pr -> fine st -> next_event spec_impl st = Some (t, id) ->
  fine (fire_next spec_impl pr (set_now st t)).
Proof.
  intros Hpr Hf En. assert (Hf' : fine (set_paused st false)).
  { eapply fine_same; eauto. apply Hf. }
  (* the pause flag plays no role in firing *)
  destruct Hf as [Hg [Ha Ho]].
  destruct (inv_next_bound _ _ _ _ (proj1 Hg) En) as [Hid [q Eq]].
  destruct (fire_next_trace pr (set_paused st false) t id Hpr (proj1 Hf') (proj1 (proj2 Hf')) eq_refl En)
    as [s [tr1 [s0 [Hs0 [F1 [F2 [F3 [F4 [F5 [F6 [F7 [F8 F9]]]]]]]]]]]].
  split; [apply good_fire_next; auto; apply good_set_now; auto|].
  destruct (fire_next_cases spec_impl pr (set_now st t) t id Hpr (proj2 Hg) En Hid) as [h [Eh Hfn]].
  assert (Hsort : sorted ((t, id) :: q)) by (rewrite <- Eq; apply Hg).
  assert (Hahead : forall x, In x q -> t <= fst x).
  { apply StronglySorted_inv in Hsort. destruct Hsort as [_ Hfa]. rewrite Forall_forall in Hfa.
    intros x Hx. specialize (Hfa x Hx). unfold earlier in Hfa. cbn in Hfa. lia. }
  assert (Hsch : exists s0, scheduled (s_trace st) id t s0).
  { assert (Hq : In (t, id) (s_queue st)) by (rewrite Eq; left; auto).
    apply (i_pend _ _ (proj1 Hg)) in Hq. tauto. }
  destruct Hsch as [s1 Hs1].
  destruct (h_sink h) as [sk|]; rewrite Hfn; cbn [i_during i_after spec_impl s_queue set_now];
    rewrite Eq; cbn [tl].
  - set (e := entered (set_now st t) q id sk).
    assert (Hae : ahead e) by (intros x Hx; cbn in Hx |- *; auto).
    pose proof (ahead_call pr (SSink sk) e Hae) as Hac.
    destruct (grows_call spec_impl pr (SSink sk) e) as [tr G].
    assert (Htr : on_time (s_trace (call spec_impl pr (SSink sk) e))).
    { rewrite (g_trace _ _ _ G). apply on_time_client; [|apply G]. cbn. eapply on_time_take; eauto. }
    revert Hac Htr. generalize (call spec_impl pr (SSink sk) e). intros u Hac Htr. split; auto.
  - split; [intros x Hx; cbn in Hx |- *; auto|]. cbn. eapply on_time_take; eauto.
Qed.

Lemma loop_iters pr : tame pr -> forall fuel st st', fine st ->
  loop spec_impl pr None fuel st = Some st' ->
  iters pr st st' /\ (s_paused st' = false -> s_queue st' = []).
Proof.
  intros Hpr. induction fuel as [|fuel IH]; intros st st' Hf E; cbn [loop] in E; [discriminate|].
  destruct (s_paused st) eqn:Ep; [inversion E; subst; split; [constructor|congruence]|].
  destruct (next_event spec_impl st) as [[t0 id]|] eqn:En.
  - pose proof (fine_fire_next pr st t0 id Hpr Hf En) as Hf1.
    rewrite (proj2 (proj1 Hf1)) in E. destruct (IH _ _ Hf1 E) as [H1 H2].
    split; auto. econstructor; eauto.
  - inversion E; subst st'. split; [constructor|]. intros _.
    unfold next_event in En. cbn in En. destruct (s_queue st); [auto|discriminate].
Qed.

(** Iterations of the program with pauses are iterations of the one without. *)
Lemma iters_unpaused x x' : iters p x x' -> forall y, fine x -> same_but_pauses x y ->
  exists y', iters (unpaused p) y y' /\ same_but_pauses x' y'.
Proof.
  induction 1 as [st|st st' t id En Hi IH]; intros y Hf H.
  - exists y. split; [constructor|auto].
  - assert (En' : next_event spec_impl y = Some (t, id)).
    { unfold next_event in *. destruct H as [_ [_ [<- _]]]. auto. }
    assert (H1 : same_but_pauses (fire_next spec_impl p (set_now st t))
               (fire_next spec_impl (unpaused p) (set_now y t))).
    { apply sbp_fire_next.
      - apply Hf.
      - unfold same_but_pauses in *. cbn. tauto.
      - intros t' id' E. apply (inv_next_bound None _ t' id'); auto.
        eapply inv_same; [apply Hf|..]; reflexivity. }
    destruct (IH _ (fine_fire_next p st t id Ht Hf En) H1) as [y' [Hy1 Hy2]].
    exists y'. split; auto. econstructor; eauto.
Qed.

(** A program without pauses does not pause. *)
Lemma act_unpaused I a st : is_pause a = false -> s_paused (act I a st) = s_paused st.
Proof.
  intros H. destruct (act_cases I a st) as [[t [s [-> _]]]|[[e ->]|[->|[[id [-> _]]|E]]]]; auto.
  destruct a as [t o|dt o|o|id|]; cbn [act] in *; try discriminate.
  - unfold schedule_at in *. destruct (s_clock st); cbn [negb]; [|reflexivity].
    destruct o; [|reflexivity]. destruct (t <? s_now st); reflexivity.
  - unfold schedule_in, schedule_at in *. destruct (s_clock st); cbn [negb]; [|reflexivity].
    destruct o; [|reflexivity]. destruct (s_now st + dt <? s_now st); reflexivity.
  - unfold schedule_now, schedule_at in *. destruct (s_clock st); cbn [negb]; [|reflexivity].
    destruct o; [|reflexivity]. destruct (s_now st <? s_now st); reflexivity.
  - destruct (id <? length (s_handles st))%nat; reflexivity.
Qed.
Lemma acts_unpaused I l : forall st,
  s_paused (acts I (filter (fun a => negb (is_pause a)) l) st) = s_paused st.
Proof.
  induction l as [|a l IH]; intros st; cbn [filter acts fold_left]; auto.
  destruct (is_pause a) eqn:E; cbn [negb]; [apply IH|]. cbn [fold_left].
  unfold acts in IH. rewrite IH. apply act_unpaused. auto.
Qed.
Lemma call_unpaused src st : s_paused (call spec_impl (unpaused p) src st) = s_paused st.
Proof. unfold call, unpaused. cbn -[filter acts]. apply acts_unpaused. Qed.
Lemma fire_next_unpaused st : s_paused (fire_next spec_impl (unpaused p) st) = s_paused st.
Proof.
  unfold fire_next. destruct (next_event spec_impl st) as [k|]; auto.
  assert (E : s_paused (fire spec_impl (unpaused p) (snd k)
                (set_queue st (i_during spec_impl (s_queue st)))) = s_paused st).
  { unfold fire. cbn [s_handles set_queue].
    destruct (nth_error (s_handles st) (snd k)) as [h|]; auto.
    destruct (h_sink h) as [s|]; auto.
    match goal with |- context [call ?J ?P ?S ?u] =>
      pose proof (call_unpaused S u) as Hc; revert Hc; generalize (call J P S u) end.
    intros u Hc. cbn in Hc. destruct (s_thrown u); cbn; auto. }
  destruct (s_thrown _); auto.
Qed.

Lemma iters_loop y y' : iters (unpaused p) y y' -> fine y -> s_paused y = false ->
  s_queue y' = [] -> exists fuel, loop spec_impl (unpaused p) None fuel y = Some y'.
Proof.
  induction 1 as [st|st st' t id En Hi IH]; intros Hf Hpa Hq.
  - exists 1%nat. cbn [loop]. rewrite Hpa. unfold next_event. cbn. rewrite Hq. auto.
  - pose proof (fine_fire_next (unpaused p) st t id tame_unpaused Hf En) as Hf1.
    assert (Hp1 : s_paused (fire_next spec_impl (unpaused p) (set_now st t)) = false)
      by (rewrite fire_next_unpaused; auto).
    destruct (IH Hf1 Hp1 Hq) as [fuel Hl]. exists (S fuel). cbn [loop].
    rewrite Hpa, En, (proj2 (proj1 Hf1)). auto.
Qed.

(** Callbacks of the simulator's events do nothing. *)
Lemma sbp_fire_life l x : s_thrown x = false -> same_but_pauses (fire_life spec_impl p l x) x.
Proof.
  intros Hx. unfold fire_life, call. destruct Hp as [_ Hl]. rewrite Hl. cbn [fst snd acts fold_left].
  unfold same_but_pauses. cbn -[filter]. rewrite visible_snoc, app_nil_r. auto 10.
Qed.
Lemma unpaused_oblivious : oblivious (unpaused p).
Proof.
  destruct Hp as [H1 H2]. split.
  - intros tr tr' src E. unfold unpaused. rewrite (H1 _ _ _ E). auto.
  - intros tr l. unfold unpaused. rewrite H2. auto.
Qed.
Lemma sbp_fire_life_u l x : s_thrown x = false ->
  same_but_pauses (fire_life spec_impl (unpaused p) l x) x /\
  s_paused (fire_life spec_impl (unpaused p) l x) = s_paused x.
Proof.
  intros Hx. unfold fire_life, call. destruct unpaused_oblivious as [_ Hl]. rewrite Hl.
  cbn [fst snd acts fold_left].
  unfold same_but_pauses. cbn -[filter]. rewrite visible_snoc, app_nil_r. auto 10.
Qed.

(** One call of [Run], with pauses. *)
Lemma run_iters fuel x x' : fine x -> run spec_impl p fuel None x = Some (Done x') ->
  exists y y', same_but_pauses x y /\ iters p y y' /\ same_but_pauses y' x' /\ fine y.
Proof.
  intros Hf E. unfold run in E.
  destruct (s_init x); cbn [negb] in E; [|discriminate].
  destruct (num_events x =? 0)%nat; [discriminate|].
  set (x1 := if s_started x then x else fire_life spec_impl p LBegin (set_started x true)) in E.
  assert (H1 : fine x1 /\ same_but_pauses x1 x).
  { unfold x1. destruct (s_started x); [split; [auto|apply sbp_refl]|].
    assert (fine (set_started x true)) by (eapply fine_same; eauto; apply Hf).
    split; [apply fine_fire_life; auto|].
    eapply sbp_trans; [apply sbp_fire_life; apply Hf|]. unfold same_but_pauses. cbn. auto 10. }
  destruct H1 as [Hf1 H1]. rewrite (proj2 (proj1 Hf1)) in E.
  set (x2 := fire_life spec_impl p LRun (set_paused x1 false)) in E.
  assert (H2 : fine x2 /\ same_but_pauses x2 x).
  { unfold x2. assert (fine (set_paused x1 false)) by (eapply fine_same; eauto; apply Hf1).
    split; [apply fine_fire_life; auto|].
    eapply sbp_trans; [apply sbp_fire_life; apply Hf1|]. eapply sbp_trans; [|exact H1].
    unfold same_but_pauses. cbn. auto 10. }
  destruct H2 as [Hf2 H2]. rewrite (proj2 (proj1 Hf2)) in E.
  destruct (loop spec_impl p None fuel x2) as [x3|] eqn:El; [|discriminate].
  destruct (loop_iters p Ht _ _ _ Hf2 El) as [Hit _].
  destruct (loop_spec p None Ht _ _ _ Hf2 El) as [ll L]. pose proof (l_fine _ _ _ _ L) as Hf3.
  rewrite (proj2 (proj1 Hf3)) in E.
  set (x4 := fire_life spec_impl p LPause (set_paused x3 true)) in E.
  assert (H4 : fine x4 /\ same_but_pauses x4 x3).
  { unfold x4. assert (fine (set_paused x3 true)) by (eapply fine_same; eauto; apply Hf3).
    split; [apply fine_fire_life; auto|].
    eapply sbp_trans; [apply sbp_fire_life; apply Hf3|]. unfold same_but_pauses. cbn. auto 10. }
  destruct H4 as [Hf4 H4]. rewrite (proj2 (proj1 Hf4)) in E.
  exists x2, x3. split; [apply sbp_sym; auto|]. split; auto. split; auto.
  destruct (num_events x4 =? 0)%nat; inversion E; subst x'; apply sbp_sym; auto.
  eapply sbp_trans; [apply sbp_fire_life; apply Hf4|auto].
Qed.

(** Any number of calls of [Run], with pauses. *)
Lemma runs_iters fuel n : forall x x', fine x -> steps spec_impl p fuel (repeat Run n) x = Some x' ->
  forall y, fine y -> same_but_pauses x y ->
  exists y', iters (unpaused p) y y' /\ same_but_pauses x' y'.
Proof.
  induction n as [|n IH]; intros x x' Hf E y Hy H; cbn [repeat steps] in E.
  - inversion E; subst. exists y. split; [constructor|auto].
  - destruct (step spec_impl p fuel Run x) as [x1|] eqn:E1; [|discriminate].
    pose proof (fine_step p fuel Run x x1 Ht Hf E1) as Hf1.
    cbn [step] in E1. unfold run_result in E1.
    assert (Hmid : exists y1, iters (unpaused p) y y1 /\ same_but_pauses x1 y1).
    { destruct (run spec_impl p fuel None x) as [[u| | |e]|] eqn:Er; inversion E1; subst x1.
      - destruct (run_iters _ _ _ Hf Er) as [v [v' [H1 [H2 [H3 H4]]]]].
        destruct (iters_unpaused _ _ H2 y H4) as [y' [H5 H6]].
        { eapply sbp_trans; [apply sbp_sym; exact H1|exact H]. }
        exists y'. split; auto. eapply sbp_trans; [|exact H6].
        apply sbp_sym in H3. eapply sbp_trans; [|exact H3].
        destruct (run_spec p fuel None x u Ht Hf Er) as [Hfu _].
        unfold same_but_pauses. cbn. rewrite (proj2 (proj1 Hfu)). auto 10.
      - exists y. split; [constructor|exact H].
      - exists y. split; [constructor|exact H].
      - exists y. split; [constructor|]. eapply sbp_trans; [|exact H].
        apply sbp_log_invisible. auto. }
    destruct Hmid as [y1 [H1 H2]].
    assert (Hfy1 : fine y1).
    { clear - H1 Hy Ht. induction H1; auto. apply IHiters. eapply fine_fire_next; eauto using tame_unpaused. }
    destruct (IH x1 x' Hf1 E y1 Hfy1 H2) as [y' [H3 H4]].
    exists y'. split; auto. eapply iters_trans; eauto.
Qed.

Lemma split_spec fuel n x x' : fine x -> s_init x = true -> num_events x <> 0%nat ->
  steps spec_impl p fuel (repeat Run n) x = Some x' -> num_events x' = 0%nat ->
  exists fuel' y', run spec_impl (unpaused p) fuel' None x = Some (Done y') /\
    fired (s_trace y') = fired (s_trace x') /\ s_now y' = s_now x'.
Proof.
  intros Hf Hin Hne E Hd.
  set (x1 := if s_started x then x else fire_life spec_impl (unpaused p) LBegin (set_started x true)).
  assert (H1 : fine x1 /\ same_but_pauses x1 x).
  { unfold x1. destruct (s_started x); [split; [auto|apply sbp_refl]|].
    assert (fine (set_started x true)) by (eapply fine_same; eauto; apply Hf).
    split; [apply fine_fire_life; auto; apply tame_unpaused|].
    eapply sbp_trans; [apply sbp_fire_life_u; apply Hf|]. unfold same_but_pauses. cbn. auto 10. }
  destruct H1 as [Hf1 H1].
  set (x2 := fire_life spec_impl (unpaused p) LRun (set_paused x1 false)).
  assert (H2 : fine x2 /\ same_but_pauses x2 x /\ s_paused x2 = false).
  { unfold x2. assert (fine (set_paused x1 false)) by (eapply fine_same; eauto; apply Hf1).
    split; [apply fine_fire_life; auto; apply tame_unpaused|].
    destruct (sbp_fire_life_u LRun (set_paused x1 false) (proj2 (proj1 Hf1))) as [Ha Hb].
    split; auto. eapply sbp_trans; [exact Ha|]. eapply sbp_trans; [|exact H1].
    unfold same_but_pauses. cbn. auto 10. }
  destruct H2 as [Hf2 [H2 Hp2]].
  destruct (runs_iters fuel n x x' Hf E x2 Hf2 (sbp_sym _ _ H2)) as [y' [Hy1 Hy2]].
  assert (Hq : s_queue y' = []).
  { destruct Hy2 as [_ [_ [<- _]]]. unfold num_events in Hd. destruct (s_queue x'); [auto|discriminate]. }
  destruct (iters_loop x2 y' Hy1 Hf2 Hp2 Hq) as [fuel' Hl].
  destruct (loop_spec (unpaused p) None tame_unpaused _ _ _ Hf2 Hl) as [ll L].
  pose proof (l_fine _ _ _ _ L) as Hf3.
  set (x4 := fire_life spec_impl (unpaused p) LPause (set_paused y' true)).
  assert (H4 : fine x4 /\ same_but_pauses x4 y').
  { unfold x4. assert (fine (set_paused y' true)) by (eapply fine_same; eauto; apply Hf3).
    split; [apply fine_fire_life; auto; apply tame_unpaused|].
    eapply sbp_trans; [apply sbp_fire_life_u; apply Hf3|]. unfold same_but_pauses. cbn. auto 10. }
  destruct H4 as [Hf4 H4].
  set (x5 := if (num_events x4 =? 0)%nat then fire_life spec_impl (unpaused p) LEnd x4 else x4).
  exists fuel', x5.
  assert (H5 : same_but_pauses x5 x').
  { eapply sbp_trans; [|apply sbp_sym; exact Hy2]. eapply sbp_trans; [|exact H4].
    unfold x5. destruct (num_events x4 =? 0)%nat; [|apply sbp_refl].
    apply sbp_fire_life_u. apply Hf4. }
  split.
  - unfold run. rewrite Hin. cbn [negb].
    destruct (Nat.eqb_spec (num_events x) 0); [contradiction|].
    fold x1. rewrite (proj2 (proj1 Hf1)). fold x2. rewrite (proj2 (proj1 Hf2)), Hl.
    rewrite (proj2 (proj1 Hf3)). fold x4. rewrite (proj2 (proj1 Hf4)). reflexivity.
  - destruct H5 as [_ [_ [_ [_ [H5 [_ H6]]]]]]. split; auto.
    assert (Hv : forall tr, fired tr = fired (filter visible tr)).
    { intros tr. induction tr as [|o tr IHt]; cbn; auto. destruct o; cbn; auto. f_equal. auto. }
    rewrite (Hv (s_trace x5)), (Hv (s_trace x')), H6. auto.
Qed.
End SPLIT.

(** The same for a scheduler that refines the sorted queue. *)
Lemma split_scheduler I p fuel n ops st st' : scheduler I -> tame p -> oblivious p ->
  (forall o, In o ops -> exists a, o = Act a) ->
  steps I p fuel ops ready = Some st -> num_events st <> 0%nat ->
  steps I p fuel (repeat Run n) st = Some st' -> num_events st' = 0%nat ->
  exists fuel' st'', run I (unpaused p) fuel' None st = Some (Done st'') /\
    fired (s_trace st'') = fired (s_trace st') /\ s_now st'' = s_now st'.
Proof.
  intros HI Ht Hob Hops E1 Hne E2 Hd. destruct (scheduler_refines I HI) as [ca [rel [rr RF]]].
  destruct (sim_ready ca I rel rr RF) as [Hs0 Hg0].
  pose proof (sim_steps ca I rel rr RF p fuel ops Ht ready ready Hs0 Hg0) as H.
  rewrite E1 in H. destruct (steps spec_impl p fuel ops ready) as [s|] eqn:F1; [|tauto].
  destruct H as [Hs Hg]. pose proof (fine_steps p fuel ops Ht _ _ fine_ready F1) as Hf.
  assert (Hin : s_init s = true).
  { clear - Hops F1. revert F1. generalize (eq_refl : s_init ready = true). generalize ready.
    induction ops as [|o ops IH]; intros x Hx F; cbn [steps] in F; [inversion F; subst; auto|].
    destruct (Hops o (or_introl eq_refl)) as [a ->]. cbn [step] in F.
    destruct (grows_act spec_impl a x) as [tr G].
    apply (IH (fun o H => Hops o (or_intror H)) _ (eq_trans (g_init _ _ _ G) Hx) F). }
  pose proof (sim_steps ca I rel rr RF p fuel (repeat Run n) Ht st s Hs Hg) as H2.
  rewrite E2 in H2. destruct (steps spec_impl p fuel (repeat Run n) s) as [s'|] eqn:F2; [|tauto].
  destruct H2 as [Hs' Hg'].
  rewrite (sim_empty _ _ _ _ RF _ _ Hs) in Hne. rewrite (sim_empty _ _ _ _ RF _ _ Hs') in Hd.
  destruct (split_spec p Hob Ht fuel n s s' Hf Hin Hne F2 Hd) as [fuel' [y' [R1 [R2 R3]]]].
  pose proof (sim_run ca I rel rr RF (unpaused p) fuel' None st s (tame_unpaused p Ht) Hs Hg) as H3.
  rewrite R1 in H3.
  destruct (run I (unpaused p) fuel' None st) as [[c'| | |e]|] eqn:F3; try tauto.
  destruct H3 as [H3 _]. exists fuel', c'. split; auto.
  pose proof (sim_same rel c' y' (r_perm _ _ _ _ RF) H3) as Hx.
  pose proof (sim_same rel st' s' (r_perm _ _ _ _ RF) Hs') as Hy.
  destruct Hx as [Hx1 [Hx2 _]], Hy as [Hy1 [Hy2 _]]. split; congruence.
Qed.

(** ** Direct use of a scheduler *)

Lemma direct_legal causal I rel relrun p l : refines causal I rel relrun -> tame p ->
  (causal -> clock_ok I p l ready) -> legal (s_trace (dsteps I p l ready)).
Proof.
  intros RF Ht Hc. destruct (sim_ready causal I rel relrun RF) as [Hs Hg].
  destruct (sim_dsteps causal I rel relrun RF p l Ht ready ready Hs Hg Hc) as [H1 [H2 _]].
  apply sim_same in H1; [|apply (r_perm _ _ _ _ RF)]. destruct H1 as [-> _]. apply H2.
Qed.

(** ** Consequences of a legal record *)

Lemma legal_once tr id c s l1 l2 : legal tr -> tr = l1 ++ OTake id c s :: l2 ->
  ~ taken l1 id /\ ~ taken l2 id.
Proof.
  intros H E. split.
  - destruct (H _ _ _ E) as [t [s0 [_ [Hn _]]]]. auto.
  - intros [c' [s' Hi]]. apply in_split in Hi. destruct Hi as [m1 [m2 ->]].
    assert (E' : tr = (l1 ++ OTake id c s :: m1) ++ OTake id c' s' :: m2)
      by (rewrite E, <- app_assoc; auto).
    destruct (H _ _ _ E') as [t [s0 [_ [Hn _]]]]. apply Hn. exists c, s.
    apply in_or_app. right. left. auto.
Qed.

Lemma fired_in tr id c s : In (id, c, s) (fired tr) <-> In (OTake id c s) tr.
Proof.
  unfold fired. rewrite in_flat_map. split.
  - intros [o [Ho Hx]]. destruct o; cbn in Hx; try tauto. destruct Hx as [Hx|[]]. congruence.
  - intros H. eexists; split; [exact H|]. left. auto.
Qed.

Lemma legal_nodup tr : legal tr -> NoDup (map (fun x => fst (fst x)) (fired tr)).
Proof.
  induction tr as [|o tr IH] using rev_ind; intros H; [constructor|].
  apply legal_snoc in H. destruct H as [H Hn]. rewrite fired_app, map_app.
  destruct o; cbn [fired flat_map app map]; rewrite ?app_nil_r; auto.
  cbn in Hn. destruct Hn as [t' [s0 [_ [Hn _]]]].
  apply (Permutation_NoDup (Permutation_cons_append _ _)). constructor; auto.
  intros Hi. apply in_map_iff in Hi. destruct Hi as [[[i c] s'] [E Hi]]. cbn in E. subst i.
  apply fired_in in Hi. apply Hn. eexists _, _; eauto.
Qed.

Lemma legal_sched tr : legal tr -> forall id, (id < num_scheduled tr)%nat -> exists t s, scheduled tr id t s.
Proof.
  induction tr as [|o tr IH] using rev_ind; intros H id Hid; [unfold num_scheduled in Hid; cbn in Hid; lia|].
  apply legal_snoc in H. destruct H as [H Hn]. rewrite num_scheduled_snoc in Hid.
  destruct (Nat.lt_ge_cases id (num_scheduled tr)) as [Hlt|Hge].
  - destruct (IH H id Hlt) as [t [s Hs]]. exists t, s. apply in_or_app. auto.
  - destruct o as [i t s| | | | |]; cbn in Hid; try lia. cbn in Hn. assert (id = i) by lia. subst i.
    exists t, s. apply in_snoc. right. congruence.
Qed.

Lemma drained_perm tr : legal tr -> all_taken tr (fun _ => True) ->
  Permutation (map (fun x => fst (fst x)) (fired tr)) (seq 0 (num_scheduled tr)).
Proof.
  intros H Ha. apply NoDup_Permutation.
  - apply legal_nodup; auto.
  - apply seq_NoDup.
  - intros id. rewrite in_seq, in_map_iff. split.
    + intros [[[i c] s] [E Hi]]. cbn in E. subst i. apply fired_in in Hi.
      destruct (taken_scheduled tr H id) as [t [s' Hs]]; [eexists _, _; eauto|].
      apply (scheduled_bound _ H) in Hs. lia.
    + intros Hi. destruct (legal_sched tr H id ltac:(lia)) as [t [s Hs]].
      destruct (Ha _ _ _ Hs I) as [c [s' Ht]]. exists (id, c, s'). split; auto. apply fired_in. auto.
Qed.

Lemma legal_cancel tr l1 l2 id : legal tr -> tr = l1 ++ OCancel id :: l2 -> ~ invoked l2 id.
Proof.
  intros H E [c [s Hi]]. apply in_split in Hi. destruct Hi as [m1 [m2 ->]].
  assert (E' : tr = (l1 ++ OCancel id :: m1) ++ OTake id c (Some s) :: m2)
    by (rewrite E, <- app_assoc; auto).
  destruct (H _ _ _ E') as [t [s0 [_ [_ [_ [[_ Hn]|[Hx _]]]]]]]; [|discriminate].
  apply Hn. apply in_or_app. right. left. auto.
Qed.

Lemma legal_order tr l1 l2 l3 id1 c1 s1 id2 c2 s2 t1 k1 t2 k2 : legal tr ->
  tr = l1 ++ OTake id1 c1 s1 :: l2 ++ OTake id2 c2 s2 :: l3 ->
  scheduled l1 id1 t1 k1 -> scheduled l1 id2 t2 k2 -> earlier (t1, id1) (t2, id2).
Proof.
  intros H E H1 H2. destruct (H _ _ _ E) as [t [s0 [Hs [Hn [Hmin _]]]]].
  assert (Hl : legal l1).
  { intros a o b ->. apply (H a o (b ++ OTake id1 c1 s1 :: l2 ++ OTake id2 c2 s2 :: l3)).
    rewrite E, <- app_assoc. auto. }
  destruct (scheduled_unique _ Hl _ _ _ _ _ H1 Hs) as [<- _].
  assert (E' : tr = (l1 ++ OTake id1 c1 s1 :: l2) ++ OTake id2 c2 s2 :: l3)
    by (rewrite E, <- app_assoc; auto).
  destruct (H _ _ _ E') as [_ [_ [_ [Hn2 _]]]].
  destruct (Hmin id2 t2 k2 H2) as [->|]; auto.
  - intros [c [s Hi]]. apply Hn2. exists c, s. apply in_or_app. auto.
  - exfalso. apply Hn2. exists c1, s1. apply in_or_app. right. left. auto.
Qed.

(** ** Begin event *)

Definition quiet (o : obs) : Prop := match o with OTake _ _ _ | OLife _ => False | _ => True end.

Definition begun (st : state) : Prop :=
  if s_started st then exists l1 l2, s_trace st = l1 ++ OLife LBegin :: l2 /\
    Forall client_obs l1 /\ ~ In (OLife LBegin) l2
  else Forall client_obs (s_trace st).

Lemma client_no_life tr l : Forall client_obs tr -> ~ In (OLife l) tr.
Proof. intros H Hi. rewrite Forall_forall in H. apply H in Hi. destruct Hi. Qed.
Lemma not_life_no_life tr l : Forall not_life tr -> ~ In (OLife l) tr.
Proof. intros H Hi. rewrite Forall_forall in H. apply H in Hi. destruct Hi. Qed.

Lemma begun_run I p fuel bound st st' : scheduler I -> tame p -> reachable I p st ->
  begun st -> run I p fuel bound st = Some (Done st') -> begun st'.
Proof.
  intros HI Ht Hr Hb E.
  destruct (run_facts_reachable I p fuel bound st st' HI Ht Hr E) as [pre [body [post [fin F]]]].
  destruct (f_shape _ _ _ _ _ _ _ F) as [tr [T [S1 S2 S3 S4 S5]]].
  unfold begun in *. rewrite (f_started _ _ _ _ _ _ _ F).
  assert (Hrest : ~ In (OLife LBegin) (OLife LRun :: body ++ OLife LPause :: post ++ fin)).
  { intros [Hx|Hx]; [discriminate|]. apply in_app_or in Hx. destruct Hx as [Hx|[Hx|Hx]].
    - eapply not_life_no_life; eauto.
    - discriminate.
    - apply in_app_or in Hx. destruct Hx as [Hx|Hx].
      + eapply client_no_life; eauto.
      + destruct S5 as [-> |[l [-> Hl]]]; [destruct Hx|]. destruct Hx as [Hx|Hx]; [discriminate|].
        eapply client_no_life; eauto. }
  destruct (s_started st).
  - destruct Hb as [l1 [l2 [E1 [E2 E3]]]]. subst pre. exists l1, (l2 ++ tr).
    split; [rewrite T, E1, <- app_assoc; auto|]. split; auto.
    intros Hx. apply in_app_or in Hx. destruct Hx as [Hx|Hx]; [exact (E3 Hx)|].
    apply Hrest. rewrite S1 in Hx. exact Hx.
  - destruct S2 as [l [-> Hl]]. exists (s_trace st), (l ++ OLife LRun :: body ++ OLife LPause :: post ++ fin).
    split; [rewrite T, S1; reflexivity|]. split; auto.
    intros Hx. apply in_app_or in Hx. destruct Hx as [Hx|Hx]; [|exact (Hrest Hx)].
    exact (client_no_life _ _ Hl Hx).
Qed.

Lemma begun_same st st' : begun st -> s_started st' = s_started st -> s_trace st' = s_trace st -> begun st'.
Proof. unfold begun. intros H -> ->. auto. Qed.

Lemma begun_client st st' tr : begun st -> Forall client_obs tr ->
  s_started st' = s_started st -> s_trace st' = s_trace st ++ tr -> begun st'.
Proof.
  unfold begun. intros H Hc -> ->. destruct (s_started st).
  - destruct H as [l1 [l2 [E1 [E2 E3]]]]. exists l1, (l2 ++ tr).
    split; [rewrite E1, <- app_assoc; auto|]. split; auto.
    intros Hx. apply in_app_or in Hx. destruct Hx as [Hx|Hx]; auto. eapply client_no_life; eauto.
  - apply Forall_app. auto.
Qed.

Lemma reachable_begun I p st : scheduler I -> tame p -> reachable I p st -> begun st.
Proof.
  intros HI Ht Hr. induction Hr as [|fuel o st st' Hr IH E].
  - constructor.
  - assert (Hrun : forall u, run_result st (run I p fuel u st) = Some st' -> begun st').
    { intros u H. unfold run_result in H.
      destruct (run I p fuel u st) as [[s'| | |e]|] eqn:Er; inversion H; subst; auto.
      - eapply begun_same; [eapply begun_run; eauto|..]; reflexivity.
      - eapply (begun_client st _ [OReject e]); eauto. repeat constructor. }
    destruct o as [a| |t|dt]; cbn [step] in E; eauto.
    inversion E; subst st'. destruct (grows_act I a st) as [tr G].
    apply (begun_client st _ tr IH); apply G.
Qed.

(** ** Counting *)

Lemma nodup_app {A} (a b : list A) : NoDup a -> NoDup b -> (forall x, In x a -> ~ In x b) ->
  NoDup (a ++ b).
Proof.
  intros Ha Hb Hd. induction Ha as [|x a Hx Ha IH]; cbn; auto. constructor.
  - rewrite in_app_iff. intros [H|H]; [auto|]. apply (Hd x); cbn; auto.
  - apply IH. intros y Hy. apply Hd. cbn; auto.
Qed.

Lemma reachable_count I p st : scheduler I -> tame p -> reachable I p st ->
  (num_events st + length (fired (s_trace st)) = num_scheduled (s_trace st))%nat.
Proof.
  intros HI Ht Hr. destruct (reachable_facts I p st HI Ht Hr) as [Hl [_ [_ [_ [Hq _]]]]].
  destruct (reachable_spec I p st HI Ht Hr) as [s [[[Hi _] _] [_ [_ [_ [_ [_ [_ [_ [Q _]]]]]]]]]].
  assert (Hn : NoDup (s_queue st)).
  { eapply Permutation_NoDup; [apply Permutation_sym; exact Q|]. apply sorted_nodup. apply Hi. }
  set (ids := map (fun x => fst (fst x)) (fired (s_trace st))).
  assert (Hids : NoDup (map snd (s_queue st))).
  { assert (Hu : forall a b, In a (s_queue st) -> In b (s_queue st) -> snd a = snd b -> a = b).
    { intros [t i] [t' i'] Ha Hb E. cbn in E. subst i'. apply Hq in Ha. apply Hq in Hb.
      destruct Ha as [[s1 H1] _], Hb as [[s2 H2] _].
      destruct (scheduled_unique _ Hl _ _ _ _ _ H1 H2) as [-> _]. auto. }
    clear - Hn Hu. induction (s_queue st) as [|k q IH]; cbn; constructor.
    - inversion Hn; subst. intros Hi. apply in_map_iff in Hi. destruct Hi as [k' [E Hk]].
      assert (k' = k) by (apply Hu; [right|left|]; auto). subst. auto.
    - inversion Hn; subst. apply IH; auto. intros; apply Hu; auto; right; auto. }
  assert (Hall : NoDup (map snd (s_queue st) ++ ids)).
  { apply nodup_app; [exact Hids|apply legal_nodup; auto|]. intros i H1 H2.
    apply in_map_iff in H1. destruct H1 as [[t i'] [E H1]]. cbn in E. subst i'.
    apply Hq in H1. apply H1. apply in_map_iff in H2. destruct H2 as [[[i' c] o] [E H2]]. cbn in E.
    subst i'. apply fired_in in H2. exists c, o. auto. }
  assert (HP : Permutation (map snd (s_queue st) ++ ids) (seq 0 (num_scheduled (s_trace st)))).
  { apply NoDup_Permutation; auto; [apply seq_NoDup|]. intros i. rewrite in_app_iff, in_seq. split.
    - intros [Hi'|Hi'].
      + apply in_map_iff in Hi'. destruct Hi' as [[t i'] [E Hi']]. cbn in E. subst i'.
        apply Hq in Hi'. destruct Hi' as [[s0 Hs] _]. split; [lia|]. cbn. eapply scheduled_bound; eauto.
      + apply in_map_iff in Hi'. destruct Hi' as [[[i' c] o] [E Hi']]. cbn in E. subst i'.
        apply fired_in in Hi'. apply in_split in Hi'. destruct Hi' as [l1 [l2 Es]].
        destruct (Hl _ _ _ Es) as [t [s0 [Hs _]]]. split; [lia|]. cbn.
        apply (scheduled_bound _ Hl i t s0). rewrite Es. apply in_or_app. left. exact Hs.
    - intros [_ Hi']. cbn in Hi'. destruct (taken_dec (s_trace st) i) as [[c [o Ht']]|Ht'].
      + right. apply in_map_iff. exists (i, c, o). split; auto. apply fired_in. auto.
      + left. destruct (legal_sched _ Hl i Hi') as [t [s0 Hs]]. apply in_map_iff. exists (t, i).
        split; auto. apply Hq. split; eauto. }
  apply Permutation_length in HP. rewrite app_length, seq_length, map_length in HP. unfold ids in HP.
  rewrite map_length in HP. exact HP.
Qed.

(** ** An implementation of the heap functions of the standard library *)

Fixpoint isort (q : list key) : list key :=
  match q with [] => [] | k :: r => ordered_insert k (isort r) end.

Lemma isort_perm q : Permutation (isort q) q.
Proof. induction q as [|k q IH]; cbn; auto. rewrite ordered_insert_perm. auto. Qed.

Definition weakly (q : list key) : Prop := StronglySorted (fun a b => ~ earlier b a) q.

Lemma ordered_insert_weakly k q : weakly q -> weakly (ordered_insert k q).
Proof.
  intros H. induction H as [|y q Hs IH Hf]; cbn [ordered_insert]; [repeat constructor|].
  destruct (key_lt k y) eqn:E.
  - apply key_lt_spec in E. constructor; [constructor; auto|]. constructor.
    + intros E2. apply (earlier_irrefl k). eapply earlier_trans; eauto.
    + rewrite Forall_forall in *. intros z Hz E2. apply (Hf z Hz). eapply earlier_trans; eauto.
  - apply key_lt_false in E. constructor; auto.
    rewrite Forall_forall in *. intros z Hz. apply ordered_insert_in in Hz. destruct Hz as [->|Hz]; auto.
Qed.
Lemma isort_weakly q : weakly (isort q).
Proof. induction q as [|k q IH]; cbn; [constructor|]. apply ordered_insert_weakly. auto. Qed.

Lemma weakly_nth q : weakly q -> forall i j a b, (i < j)%nat -> nth_error q i = Some a ->
  nth_error q j = Some b -> ~ earlier b a.
Proof.
  intros H. induction H as [|y q Hs IH Hf]; intros i j a b Hij Ha Hb; [destruct i; discriminate|].
  destruct i as [|i], j as [|j]; try lia; cbn in Ha, Hb.
  - inversion Ha; subst y. rewrite Forall_forall in Hf. apply Hf. eapply nth_error_In; eauto.
  - eapply (IH i j); eauto. lia.
Qed.

Lemma weakly_heap q : weakly q -> is_heap q.
Proof.
  intros H i a b Hi Ha Hb. unfold heap_less. apply key_lt_false.
  eapply (weakly_nth q H); [|exact Ha|exact Hb]. apply Nat.div_lt_upper_bound; lia.
Qed.

Definition sorting_lib : heap_lib.
Proof.
  refine (mk_heap_lib (fun q k => isort (k :: q)) (fun _ q => isort q) _ _ _ _).
  - intros. apply isort_perm.
  - intros. apply weakly_heap, isort_weakly.
  - intros. apply isort_perm.
  - intros. apply weakly_heap, isort_weakly.
Defined.
