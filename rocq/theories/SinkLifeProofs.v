(** Lemmas about the lifetimes of event sinks. *)
From Verif Require Import Base BaseProofs Event EventProofs SinkLife SinkLifeSpec.
From Coq Require Import Sorting.Sorted Permutation ZifyBool ZifyNat ZifyN.
Local Open Scope N_scope.

Notation cnt := (count_occ Nat.eq_dec).

(** The connections of a table. *)
Definition tab_entries (t : table) : list (N * nat) :=
  match t with
  | Many _ s => entries 0 (sl_items s)
  | One (Some a) | Once (Some a) => [(1, a)]
  | _ => []
  end.

Definition tab_ok (t : table) : Prop :=
  match t with Many cap s => 0 < cap < 2 ^ 32 /\ slots_ok cap s | _ => True end.

Definition otab_sinks (o : option table) : list nat :=
  match o with Some t => map snd (tab_entries t) | None => [] end.

Definition tabrefs (tabs : list (option table)) (s : nat) : nat := cnt (flat_map otab_sinks tabs) s.

Arguments tabrefs : simpl never.
Arguments conns : simpl never.

Lemma tab_sinks_entries t : tab_sinks t = map snd (tab_entries t).
Proof.
  destruct t as [cap s|[a|]|[a|]]; cbn; try reflexivity.
  generalize 0 as i. induction (sl_items s) as [|[a|] l IH]; intros i; cbn; [reflexivity| |apply IH].
  f_equal. apply IH.
Qed.

Lemma tabrefs_app a b s : tabrefs (a ++ b) s = (tabrefs a s + tabrefs b s)%nat.
Proof. unfold tabrefs. now rewrite flat_map_app, count_occ_app. Qed.

Lemma tabrefs_upd tabs e o o' s :
  nth_error tabs e = Some o ->
  (tabrefs (upd tabs e o') s + cnt (otab_sinks o) s = tabrefs tabs s + cnt (otab_sinks o') s)%nat.
Proof.
  unfold tabrefs. revert e; induction tabs as [|x t IH]; intros e H; [destruct e; discriminate|].
  destruct e as [|e]; cbn in *.
  - injection H as ->. rewrite !count_occ_app. lia.
  - rewrite !count_occ_app. specialize (IH e H). lia.
Qed.

Lemma tabrefs_in tabs e t c s :
  nth_error tabs e = Some (Some t) -> In (c, s) (tab_entries t) -> (0 < tabrefs tabs s)%nat.
Proof.
  intros H Hin. unfold tabrefs. apply (count_occ_In Nat.eq_dec). apply in_flat_map.
  exists (Some t). split; [eapply nth_error_In, H|]. cbn. apply in_map_iff. now exists (c, s).
Qed.

Lemma tabrefs_ex tabs s : (0 < tabrefs tabs s)%nat ->
  exists e t c, nth_error tabs e = Some (Some t) /\ In (c, s) (tab_entries t).
Proof.
  unfold tabrefs. intros H. apply (count_occ_In Nat.eq_dec) in H. apply in_flat_map in H.
  destruct H as ([t|] & H1 & H2); [|destruct H2]. cbn in H2. apply in_map_iff in H2.
  destruct H2 as ([c x] & E & H2). cbn in E. subst x. apply In_nth_error in H1. destruct H1 as [e H1].
  now exists e, t, c.
Qed.

(** ** The log *)

Lemma holds_app a b s : holds (a ++ b) s = (holds a s + holds b s)%nat.
Proof. induction a as [|x t IH]; cbn; [reflexivity|]. destruct x; try exact IH. destruct (Nat.eqb s0 s); lia. Qed.

Lemma drops_app a b s : drops (a ++ b) s = (drops a s + drops b s)%nat.
Proof. induction a as [|x t IH]; cbn; [reflexivity|]. destruct x; try exact IH. destruct (Nat.eqb s0 s); lia. Qed.

Lemma conns_snoc l x e : conns (l ++ [x]) e = conn_step e (conns l e) x.
Proof. unfold conns. rewrite fold_left_app. reflexivity. Qed.

Lemma log_ok_nil : log_ok [].
Proof. intros b x a H. destruct b; discriminate. Qed.

Lemma log_ok_snoc l x : log_ok l -> entry_ok l x -> log_ok (l ++ [x]).
Proof.
  intros Hl Hx b y t H. destruct t as [|z t].
  - apply app_inj_tail in H. destruct H as [-> ->]. exact Hx.
  - assert (Hs : exists t', z :: t = t' ++ [x] /\ l = b ++ y :: t').
    { destruct (exists_last (l := z :: t) ltac:(discriminate)) as [t' [u Hu]].
      rewrite Hu in H. change (y :: t' ++ [u]) with ((y :: t') ++ [u]) in H. rewrite app_assoc in H.
      apply app_inj_tail in H. destruct H as [-> ->]. now exists t'. }
    destruct Hs as (t' & _ & ->). now apply (Hl b y t').
Qed.

(** ** The invariant, with temporary smart pointers [X] *)

Definition refs (X : list nat) (w : world) (s : nat) : nat :=
  (cnt X s + cnt (w_held w) s + tabrefs (w_tabs w) s)%nat.

Definition tab_conns (w : world) (e : nat) : list (N * nat) :=
  match get_tab w e with Some t => tab_entries t | None => [] end.

Arguments refs : simpl never.
Arguments tab_conns : simpl never.

Record inv (X : list nat) (w : world) : Prop := {
  v_count : forall s, match nth_error (w_count w) s with
                      | Some (Some n) => n = refs X w s /\ (0 < n)%nat
                      | _ => refs X w s = 0%nat
                      end;
  v_tab : forall e t, nth_error (w_tabs w) e = Some (Some t) -> tab_ok t;
  v_held : forall s, holds (w_log w) s = (drops (w_log w) s + cnt (w_held w) s)%nat;
  v_conn : forall e, Permutation (conns (w_log w) e) (tab_conns w e);
  v_new : forall s, In (HNew s) (w_log w) <-> (s < length (w_count w))%nat;
  v_dead : forall s, In (HDead s) (w_log w) <-> nth_error (w_count w) s = Some None;
  v_end : forall e, In (HEnd e) (w_log w) <-> nth_error (w_tabs w) e = Some None;
  v_table : forall e, In (HTable e) (w_log w) <-> (e < length (w_tabs w))%nat;
  v_log : log_ok (w_log w) }.

Lemma inv_init : inv [] w_init.
Proof.
  split; cbn; intros; try (destruct e; discriminate); try reflexivity.
  - destruct s; reflexivity.
  - unfold tab_conns, get_tab. cbn. destruct e; constructor.
  - split; [intros []|lia].
  - split; [intros []|destruct s; discriminate].
  - split; [intros []|destruct e; discriminate].
  - split; [intros []|lia].
  - apply log_ok_nil.
Qed.

Lemma alive_iff X w s : inv X w -> alive w s = true <-> (0 < refs X w s)%nat.
Proof.
  intros H. pose proof (v_count _ _ H s) as Hs. unfold alive.
  destruct (nth_error (w_count w) s) as [[n|]|]; (split; [intros E|intros E]); try discriminate; lia.
Qed.

Lemma get_tab_nth w e t : get_tab w e = Some t <-> nth_error (w_tabs w) e = Some (Some t).
Proof.
  unfold get_tab. destruct (nth_error (w_tabs w) e) as [[u|]|]; split; intros H; inversion H; reflexivity.
Qed.

Lemma in_snoc {A} (l : list A) (x y : A) : In x (l ++ [y]) <-> In x l \/ y = x.
Proof. rewrite in_app_iff. cbn. tauto. Qed.

Ltac logs :=
  repeat (rewrite holds_app || rewrite drops_app || rewrite conns_snoc || rewrite in_snoc);
  cbn [holds drops conn_step].

Lemma nth_upd' {A} (l : list A) i j x y : nth_error l i = Some y ->
  nth_error (upd l i x) j = if Nat.eqb i j then Some x else nth_error l j.
Proof.
  intros H. apply nth_lt in H. rewrite nth_upd. destruct (Nat.eqb_spec i j) as [->|]; [|reflexivity].
  destruct (Nat.ltb_spec j (length l)); [reflexivity|lia].
Qed.

(** AddRef. *)
Lemma addref_ok X w s : inv X w -> (0 < refs X w s)%nat ->
  exists w', addref s w = inl w' /\ inv (s :: X) w' /\ w_log w' = w_log w /\
    w_held w' = w_held w /\ w_tabs w' = w_tabs w.
Proof.
  intros H Hp. pose proof (v_count _ _ H s) as Hs. unfold addref.
  destruct (nth_error (w_count w) s) as [[n|]|] eqn:E; try lia.
  eexists. split; [reflexivity|]. split; [|auto]. destruct H. split; cbn; try assumption.
  - intros x. rewrite (nth_upd' _ _ _ _ _ E). unfold refs in *; cbn [w_held w_tabs count_occ].
    destruct (Nat.eqb_spec s x) as [->|Hn].
    + destruct (Nat.eq_dec x x); [|congruence]. lia.
    + destruct (Nat.eq_dec s x); [congruence|]. apply v_count0.
  - intros x. rewrite upd_length. apply v_new0.
  - intros x. rewrite v_dead0, (nth_upd' _ _ _ _ _ E). destruct (Nat.eqb_spec s x) as [->|Hn]; [|tauto].
    rewrite E. split; intros; discriminate.
Qed.

(** Release. *)
Lemma release_ok X w s : inv (s :: X) w ->
  exists w', release s w = inl w' /\ inv X w' /\ w_held w' = w_held w /\ w_tabs w' = w_tabs w /\
    (w_log w' = w_log w \/ w_log w' = w_log w ++ [HDead s]).
Proof.
  intros H. pose proof (v_count _ _ H s) as Hs. unfold release.
  assert (Hr : forall Y, refs (s :: Y) w s = S (refs Y w s)).
  { intros Y. unfold refs. cbn [count_occ]. destruct (Nat.eq_dec s s); [lia|congruence]. }
  assert (Hr' : forall Y x, s <> x -> refs (s :: Y) w x = refs Y w x).
  { intros Y x Hx. unfold refs. cbn [count_occ]. destruct (Nat.eq_dec s x); [congruence|reflexivity]. }
  rewrite Hr in Hs.
  destruct (nth_error (w_count w) s) as [[n|]|] eqn:E; try lia. destruct Hs as [-> _].
  assert (Hlt : (s < length (w_count w))%nat) by (eapply nth_lt, E).
  destruct (refs X w s) as [|n] eqn:En.
  - eexists. split; [reflexivity|]. split; [|cbn; auto]. destruct H. split; cbn.
    + intros x. rewrite (nth_upd' _ _ _ _ _ E). fold (refs X w x). change (refs X _ x) with (refs X w x).
      destruct (Nat.eqb_spec s x) as [->|Hn].
      * exact En.
      * rewrite <- (Hr' X x Hn). apply v_count0.
    + exact v_tab0.
    + intros x. logs. rewrite v_held0. cbn [holds drops]. lia.
    + intros e. logs. exact (v_conn0 e).
    + intros x. logs. rewrite upd_length, v_new0. split; [intros [Hx|Hx]; [exact Hx|discriminate]|auto].
    + intros x. logs. rewrite (nth_upd' _ _ _ _ _ E). destruct (Nat.eqb_spec s x) as [->|Hn].
      * split; auto.
      * rewrite <- v_dead0. split; [intros [Hx|Hx]; [exact Hx|congruence]|auto].
    + intros x. logs. rewrite v_end0. split; [intros [Hx|Hx]; [exact Hx|discriminate]|auto].
    + intros x. logs. rewrite v_table0. split; [intros [Hx|Hx]; [exact Hx|discriminate]|auto].
    + apply log_ok_snoc; [exact v_log0|]. cbn. rewrite v_new0, v_dead0. split; [exact Hlt|congruence].
  - eexists. split; [reflexivity|]. split; [|cbn; auto]. destruct H. split; cbn; try assumption.
    + intros x. rewrite (nth_upd' _ _ _ _ _ E). change (refs X _ x) with (refs X w x).
      destruct (Nat.eqb_spec s x) as [->|Hn].
      * lia.
      * rewrite <- (Hr' X x Hn). apply v_count0.
    + intros x. rewrite upd_length. apply v_new0.
    + intros x. rewrite v_dead0, (nth_upd' _ _ _ _ _ E). destruct (Nat.eqb_spec s x) as [->|Hn]; [|tauto].
      rewrite E. split; intros; discriminate.
Qed.

Lemma release_all_ok l : forall X w, inv (l ++ X) w ->
  exists w', release_all l w = inl w' /\ inv X w' /\ w_held w' = w_held w /\ w_tabs w' = w_tabs w /\
    exists d, w_log w' = w_log w ++ d /\ forall x, In x d -> exists s, x = HDead s.
Proof.
  induction l as [|s t IH]; intros X w H; cbn [release_all app] in *.
  - exists w. split; [reflexivity|]. split; [exact H|]. split; [reflexivity|]. split; [reflexivity|].
    exists []. rewrite app_nil_r. split; [reflexivity|intros x []].
  - destruct (release_ok _ _ _ H) as (w1 & -> & H1 & E1 & E2 & E3).
    destruct (IH _ _ H1) as (w2 & -> & H2 & E4 & E5 & (d & E6 & E7)).
    exists w2. split; [reflexivity|]. split; [exact H2|]. rewrite E4, E5, E6.
    split; [exact E1|]. split; [exact E2|].
    destruct E3 as [-> | ->]; [now exists d|]. exists ([HDead s] ++ d).
    split; [now rewrite <- app_assoc|]. intros x [<-|Hx]; eauto.
Qed.

(** A user's smart pointer is made from a temporary one. *)
Lemma take_ok X w s : inv (s :: X) w -> inv X (log (set_held w (s :: w_held w)) [HHold s]).
Proof.
  intros H. destruct H. split; cbn.
  - intros x. specialize (v_count0 x). unfold refs in *. cbn [w_held w_tabs log set_held] in *. cbn in *.
    destruct (nth_error (w_count w) x) as [[n|]|]; destruct (Nat.eq_dec s x); lia.
  - exact v_tab0.
  - intros x. logs. rewrite v_held0. destruct (Nat.eqb_spec s x), (Nat.eq_dec s x); try congruence; lia.
  - intros e. logs. exact (v_conn0 e).
  - intros x. logs. rewrite v_new0. split; [intros [Hx|Hx]; [exact Hx|discriminate]|auto].
  - intros x. logs. rewrite v_dead0. split; [intros [Hx|Hx]; [exact Hx|discriminate]|auto].
  - intros x. logs. rewrite v_end0. split; [intros [Hx|Hx]; [exact Hx|discriminate]|auto].
  - intros x. logs. rewrite v_table0. split; [intros [Hx|Hx]; [exact Hx|discriminate]|auto].
  - apply log_ok_snoc; [exact v_log0|exact I].
Qed.

Lemma remove1_cnt s l x : In s l -> cnt l x = (cnt (remove1 s l) x + if Nat.eq_dec s x then 1 else 0)%nat.
Proof.
  induction l as [|y t IH]; intros H; [destruct H|]. cbn [remove1].
  destruct (Nat.eqb_spec y s) as [->|Hn].
  - cbn. destruct (Nat.eq_dec s x); lia.
  - destruct H as [H|H]; [congruence|]. specialize (IH H). cbn. destruct (Nat.eq_dec y x); lia.
Qed.

Lemma is_held_in w s : is_held w s = true <-> In s (w_held w).
Proof.
  unfold is_held. rewrite existsb_exists. split.
  - intros (x & H & E). apply Nat.eqb_eq in E. now subst.
  - intros H. exists s. split; [exact H|apply Nat.eqb_refl].
Qed.

Lemma held_refs X w s : In s (w_held w) -> (0 < refs X w s)%nat.
Proof. intros H. apply (count_occ_In Nat.eq_dec) in H. unfold refs. lia. Qed.

(** ... and given up. *)
Lemma give_ok X w s : inv X w -> In s (w_held w) ->
  inv (s :: X) (log (set_held w (remove1 s (w_held w))) [HDrop s]).
Proof.
  intros H Hin. destruct H. split; cbn.
  - intros x. specialize (v_count0 x). unfold refs in *. cbn [w_held w_tabs log set_held count_occ] in *.
    pose proof (remove1_cnt s (w_held w) x Hin).
    destruct (nth_error (w_count w) x) as [[n|]|]; destruct (Nat.eq_dec s x); lia.
  - exact v_tab0.
  - intros x. logs. rewrite v_held0. pose proof (remove1_cnt s (w_held w) x Hin).
    destruct (Nat.eqb_spec s x), (Nat.eq_dec s x); try congruence; lia.
  - intros e. logs. exact (v_conn0 e).
  - intros x. logs. rewrite v_new0. split; [intros [Hx|Hx]; [exact Hx|discriminate]|auto].
  - intros x. logs. rewrite v_dead0. split; [intros [Hx|Hx]; [exact Hx|discriminate]|auto].
  - intros x. logs. rewrite v_end0. split; [intros [Hx|Hx]; [exact Hx|discriminate]|auto].
  - intros x. logs. rewrite v_table0. split; [intros [Hx|Hx]; [exact Hx|discriminate]|auto].
  - apply log_ok_snoc; [exact v_log0|exact I].
Qed.

Lemma new_sink_ok X w : inv X w ->
  inv (fst (new_sink w) :: X) (snd (new_sink w)) /\ fst (new_sink w) = length (w_count w) /\
  w_held (snd (new_sink w)) = w_held w /\ w_tabs (snd (new_sink w)) = w_tabs w /\
  w_log (snd (new_sink w)) = w_log w ++ [HNew (length (w_count w))].
Proof.
  intros H. unfold new_sink; cbn [fst snd]. split; [|auto]. destruct H.
  set (s := length (w_count w)) in *.
  assert (H0 : refs X w s = 0%nat).
  { specialize (v_count0 s). destruct (nth_error (w_count w) s) eqn:E; [|exact v_count0].
    apply nth_lt in E. subst s. lia. }
  split; cbn.
  - intros x. specialize (v_count0 x). unfold refs in *. cbn [w_held w_tabs count_occ] in *.
    destruct (Nat.eq_dec s x) as [<-|Hn].
    + unfold s at 1. rewrite nth_error_app2, Nat.sub_diag by lia. cbn. lia.
    + destruct (Nat.lt_ge_cases x s) as [Hl|Hl].
      * rewrite nth_error_app1 by exact Hl. exact v_count0.
      * assert (E1 : nth_error (w_count w ++ [Some 1%nat]) x = None).
        { apply nth_error_None. rewrite app_length. cbn. unfold s in *. lia. }
        assert (E2 : nth_error (w_count w) x = None) by (apply nth_error_None; exact Hl).
        rewrite E1. rewrite E2 in v_count0. exact v_count0.
  - exact v_tab0.
  - intros x. logs. rewrite v_held0. lia.
  - intros e. logs. exact (v_conn0 e).
  - intros x. logs. rewrite v_new0, app_length. cbn. split.
    + intros [Hx|Hx]; [lia|injection Hx as <-; unfold s; lia].
    + intros Hx. destruct (Nat.eq_dec x s) as [->|]; [now right|left; unfold s in *; lia].
  - intros x. logs. rewrite v_dead0. split.
    + intros [Hx|Hx]; [|discriminate]. rewrite nth_error_app1; [exact Hx|eapply nth_lt, Hx].
    + intros Hx. left. destruct (Nat.lt_ge_cases x s) as [Hl|Hl].
      * rewrite nth_error_app1 in Hx by exact Hl. exact Hx.
      * rewrite nth_error_app2 in Hx by exact Hl. destruct (x - length (w_count w))%nat as [|[|]]; discriminate.
  - intros x. logs. rewrite v_end0. split; [intros [Hx|Hx]; [exact Hx|discriminate]|auto].
  - intros x. logs. rewrite v_table0. split; [intros [Hx|Hx]; [exact Hx|discriminate]|auto].
  - apply log_ok_snoc; [exact v_log0|]. cbn. rewrite v_new0. unfold s. lia.
Qed.

(** A new event or handle, holding nothing yet or what was a temporary. *)
Lemma new_tab_ok X w t : inv X w -> tab_ok t -> tab_entries t = [] ->
  inv X (snd (new_tab t w)).
Proof.
  intros H Ht He. unfold new_tab; cbn [snd]. destruct H. set (e := length (w_tabs w)) in *.
  assert (Hc : conns (w_log w) e = []).
  { specialize (v_conn0 e). unfold tab_conns, get_tab in v_conn0.
    assert (E : nth_error (w_tabs w) e = None) by (apply nth_error_None; unfold e; lia).
    rewrite E in v_conn0. now apply Permutation_sym, Permutation_nil in v_conn0. }
  split; cbn.
  - intros x. specialize (v_count0 x). unfold refs in *. cbn [w_held w_tabs] in *.
    rewrite tabrefs_app. assert (E0 : tabrefs [Some t] x = 0%nat).
    { unfold tabrefs. cbn [flat_map otab_sinks]. rewrite He. reflexivity. }
    rewrite E0, Nat.add_0_r. exact v_count0.
  - intros x u Hx. destruct (Nat.lt_ge_cases x e) as [Hl|Hl].
    + rewrite nth_error_app1 in Hx by exact Hl. eapply v_tab0, Hx.
    + rewrite nth_error_app2 in Hx by exact Hl. destruct (x - length (w_tabs w))%nat as [|[|]]; try discriminate.
      cbn in Hx. injection Hx as <-. exact Ht.
  - intros x. logs. rewrite v_held0. lia.
  - intros x. logs. specialize (v_conn0 x). unfold tab_conns, get_tab in *. cbn [w_tabs].
    destruct (Nat.lt_ge_cases x e) as [Hl|Hl].
    + rewrite nth_error_app1 by exact Hl. exact v_conn0.
    + assert (E : nth_error (w_tabs w) x = None) by (apply nth_error_None; exact Hl).
      rewrite E in v_conn0. rewrite nth_error_app2 by exact Hl.
      destruct (x - length (w_tabs w))%nat as [|[|]]; cbn; try exact v_conn0. rewrite He. exact v_conn0.
  - intros x. logs. rewrite v_new0. split; [intros [Hx|Hx]; [exact Hx|discriminate]|auto].
  - intros x. logs. rewrite v_dead0. split; [intros [Hx|Hx]; [exact Hx|discriminate]|auto].
  - intros x. logs. rewrite v_end0. split.
    + intros [Hx|Hx]; [|discriminate]. rewrite nth_error_app1; [exact Hx|eapply nth_lt, Hx].
    + intros Hx. left. destruct (Nat.lt_ge_cases x e) as [Hl|Hl].
      * rewrite nth_error_app1 in Hx by exact Hl. exact Hx.
      * rewrite nth_error_app2 in Hx by exact Hl. destruct (x - length (w_tabs w))%nat as [|[|]]; discriminate.
  - intros x. logs. rewrite v_table0, app_length. cbn. split.
    + intros [Hx|Hx]; [lia|injection Hx as <-; unfold e; lia].
    + intros Hx. destruct (Nat.eq_dec x e) as [->|]; [now right|left; unfold e in *; lia].
  - apply log_ok_snoc; [exact v_log0|exact I].
Qed.

(** A temporary moves into a table. *)
Lemma connect_ok X w e t t' c s : inv (s :: X) w -> get_tab w e = Some t ->
  tab_ok t' -> Permutation (tab_entries t') ((c, s) :: tab_entries t) ->
  inv X (log (set_tab w e (Some t')) [HConn e c s]).
Proof.
  intros H Hg Ht HP. apply get_tab_nth in Hg. destruct H.
  assert (Hlt : (e < length (w_tabs w))%nat) by (eapply nth_lt, Hg). split; cbn.
  - intros x. specialize (v_count0 x). unfold refs in *. cbn [w_held w_tabs log set_tab count_occ] in *.
    pose proof (tabrefs_upd _ _ _ (Some t') x Hg) as HU. cbn [otab_sinks] in HU.
    assert (HC : cnt (map snd (tab_entries t')) x =
                 ((if Nat.eq_dec s x then 1 else 0) + cnt (map snd (tab_entries t)) x)%nat).
    { apply (Permutation_map snd) in HP.
      rewrite (proj1 (Permutation_count_occ Nat.eq_dec _ _) HP). cbn [map snd].
      destruct (Nat.eq_dec s x); [now apply count_occ_cons_eq|now apply count_occ_cons_neq]. }
    destruct (nth_error (w_count w) x) as [[n|]|]; destruct (Nat.eq_dec s x); lia.
  - intros x u Hx. rewrite (nth_upd' _ _ _ _ _ Hg) in Hx. destruct (Nat.eqb_spec e x) as [->|Hn]; [|eapply v_tab0, Hx].
    injection Hx as <-. exact Ht.
  - intros x. logs. rewrite v_held0. lia.
  - intros x. logs. specialize (v_conn0 x). unfold tab_conns, get_tab in *. cbn [w_tabs set_tab log].
    rewrite (nth_upd' _ _ _ _ _ Hg). destruct (Nat.eqb_spec e x) as [->|Hn]; [|exact v_conn0].
    rewrite Hg in *. rewrite HP. rewrite Permutation_app_comm. cbn. now apply perm_skip.
  - intros x. logs. rewrite v_new0. split; [intros [Hx|Hx]; [exact Hx|discriminate]|auto].
  - intros x. logs. rewrite v_dead0. split; [intros [Hx|Hx]; [exact Hx|discriminate]|auto].
  - intros x. logs. rewrite v_end0, (nth_upd' _ _ _ _ _ Hg). destruct (Nat.eqb_spec e x) as [->|Hn].
    + rewrite Hg. split; [intros [Hx|Hx]; discriminate|discriminate].
    + split; [intros [Hx|Hx]; [exact Hx|discriminate]|auto].
  - intros x. logs. rewrite v_table0, upd_length. split; [intros [Hx|Hx]; [exact Hx|discriminate]|auto].
  - apply log_ok_snoc; [exact v_log0|exact I].
Qed.

(** A slot is cleared; what it held becomes temporary. *)
Lemma clear_ok X w e t t' c : inv X w -> get_tab w e = Some t -> tab_ok t' ->
  tab_entries t' = filter (fun p => negb (fst p =? c)) (tab_entries t) ->
  inv (map snd (filter (fun p => fst p =? c) (tab_entries t)) ++ X) (log (set_tab w e (Some t')) [HDisc e c]).
Proof.
  intros H Hg Ht HF. apply get_tab_nth in Hg. destruct H.
  assert (Hlt : (e < length (w_tabs w))%nat) by (eapply nth_lt, Hg). split; cbn.
  - intros x. specialize (v_count0 x). unfold refs in *. cbn [w_held w_tabs log set_tab] in *.
    rewrite count_occ_app. pose proof (tabrefs_upd _ _ _ (Some t') x Hg) as HU. cbn [otab_sinks] in HU.
    assert (HC : forall l : list (N * nat), (cnt (map snd (filter (fun p => fst p =? c)%N l)) x +
                 cnt (map snd (filter (fun p => negb (fst p =? c))%N l)) x = cnt (map snd l) x)%nat).
    { induction l as [|[d a] l IH]; [reflexivity|]. cbn [map filter fst snd].
      destruct (d =? c); cbn [map snd negb]; destruct (Nat.eq_dec a x) as [En|En];
        rewrite ?(count_occ_cons_eq Nat.eq_dec _ En), ?(count_occ_cons_neq Nat.eq_dec _ En); lia. }
    specialize (HC (tab_entries t)). rewrite HF in HU.
    destruct (nth_error (w_count w) x) as [[n|]|]; lia.
  - intros x u Hx. rewrite (nth_upd' _ _ _ _ _ Hg) in Hx. destruct (Nat.eqb_spec e x) as [->|Hn]; [|eapply v_tab0, Hx].
    injection Hx as <-. exact Ht.
  - intros x. logs. rewrite v_held0. lia.
  - intros x. logs. specialize (v_conn0 x). unfold tab_conns, get_tab in *. cbn [w_tabs set_tab log].
    rewrite (nth_upd' _ _ _ _ _ Hg). destruct (Nat.eqb_spec e x) as [->|Hn]; [|exact v_conn0].
    rewrite Hg in *. rewrite HF. now apply filter_perm.
  - intros x. logs. rewrite v_new0. split; [intros [Hx|Hx]; [exact Hx|discriminate]|auto].
  - intros x. logs. rewrite v_dead0. split; [intros [Hx|Hx]; [exact Hx|discriminate]|auto].
  - intros x. logs. rewrite v_end0, (nth_upd' _ _ _ _ _ Hg). destruct (Nat.eqb_spec e x) as [->|Hn].
    + rewrite Hg. split; [intros [Hx|Hx]; discriminate|discriminate].
    + split; [intros [Hx|Hx]; [exact Hx|discriminate]|auto].
  - intros x. logs. rewrite v_table0, upd_length. split; [intros [Hx|Hx]; [exact Hx|discriminate]|auto].
  - apply log_ok_snoc; [exact v_log0|exact I].
Qed.

Lemma end_ok X w e t : inv X w -> get_tab w e = Some t ->
  inv (tab_sinks t ++ X) (log (set_tab w e None) [HEnd e]).
Proof.
  intros H Hg. apply get_tab_nth in Hg. destruct H.
  assert (Hlt : (e < length (w_tabs w))%nat) by (eapply nth_lt, Hg). split; cbn.
  - intros x. specialize (v_count0 x). unfold refs in *. cbn [w_held w_tabs log set_tab] in *.
    rewrite count_occ_app. pose proof (tabrefs_upd _ _ _ None x Hg) as HU. cbn [otab_sinks] in HU.
    rewrite tab_sinks_entries. cbn in HU.
    destruct (nth_error (w_count w) x) as [[n|]|]; lia.
  - intros x u Hx. rewrite (nth_upd' _ _ _ _ _ Hg) in Hx. destruct (Nat.eqb_spec e x) as [->|Hn]; [|eapply v_tab0, Hx].
    discriminate.
  - intros x. logs. rewrite v_held0. lia.
  - intros x. logs. specialize (v_conn0 x). unfold tab_conns, get_tab in *. cbn [w_tabs set_tab log].
    rewrite (nth_upd' _ _ _ _ _ Hg). destruct (Nat.eqb_spec e x) as [->|Hn]; [|exact v_conn0].
    rewrite Hg in *. constructor.
  - intros x. logs. rewrite v_new0. split; [intros [Hx|Hx]; [exact Hx|discriminate]|auto].
  - intros x. logs. rewrite v_dead0. split; [intros [Hx|Hx]; [exact Hx|discriminate]|auto].
  - intros x. logs. rewrite v_end0, (nth_upd' _ _ _ _ _ Hg). destruct (Nat.eqb_spec e x) as [->|Hn].
    + rewrite Hg. split; auto.
    + split; [intros [Hx|Hx]; [exact Hx|congruence]|auto].
  - intros x. logs. rewrite v_table0, upd_length. split; [intros [Hx|Hx]; [exact Hx|discriminate]|auto].
  - apply log_ok_snoc; [exact v_log0|exact I].
Qed.

(** Entries that only record something. *)
Lemma note_ok X w x : inv X w -> entry_ok (w_log w) x ->
  match x with HCall _ _ _ | HUse _ => True | _ => False end -> inv X (log w [x]).
Proof.
  intros H Hx Hk. destruct H.
  assert (Hh : forall s, holds [x] s = 0%nat /\ drops [x] s = 0%nat) by (intros s; destruct x; try destruct Hk; now split).
  split; cbn [log w_count w_held w_tabs w_log]; try assumption.
  - intros s. rewrite holds_app, drops_app. destruct (Hh s) as [-> ->]. rewrite v_held0. lia.
  - intros e. rewrite conns_snoc. specialize (v_conn0 e). destruct x; try destruct Hk; exact v_conn0.
  - intros s. rewrite in_snoc, v_new0. split; [intros [Hy|Hy]; [exact Hy|subst; destruct Hk]|auto].
  - intros s. rewrite in_snoc, v_dead0. split; [intros [Hy|Hy]; [exact Hy|subst; destruct Hk]|auto].
  - intros s. rewrite in_snoc, v_end0. split; [intros [Hy|Hy]; [exact Hy|subst; destruct Hk]|auto].
  - intros s. rewrite in_snoc, v_table0. split; [intros [Hy|Hy]; [exact Hy|subst; destruct Hk]|auto].
  - now apply log_ok_snoc.
Qed.

(** ** Operations *)

Lemma conn_in X w e t c s : inv X w -> get_tab w e = Some t -> In (c, s) (tab_entries t) ->
  In (c, s) (conns (w_log w) e) /\ (0 < refs X w s)%nat.
Proof.
  intros H Hg Hin. split.
  - apply (Permutation_in _ (Permutation_sym (v_conn _ _ H e))). unfold tab_conns. now rewrite Hg.
  - apply get_tab_nth in Hg. pose proof (tabrefs_in _ _ _ _ _ Hg Hin). unfold refs. lia.
Qed.

Lemma refs_not_dead X w s : inv X w -> (0 < refs X w s)%nat ->
  ~ In (HDead s) (w_log w) /\ In (HNew s) (w_log w).
Proof.
  intros H Hp. rewrite (v_dead _ _ H), (v_new _ _ H). pose proof (v_count _ _ H s) as Hs.
  destruct (nth_error (w_count w) s) as [[n|]|] eqn:E; try lia. split; [congruence|eapply nth_lt, E].
Qed.

Lemma no_tab X w e : inv X w -> get_tab w e = None ->
  In (HEnd e) (w_log w) \/ ~ In (HTable e) (w_log w).
Proof.
  intros H Hg. rewrite (v_end _ _ H), (v_table _ _ H). unfold get_tab in Hg.
  destruct (nth_error (w_tabs w) e) as [[t|]|] eqn:E; [discriminate|now left|right].
  apply nth_error_None in E. lia.
Qed.

Lemma tab_connect_ok t s c t' : tab_ok t -> tab_connect t s = Some (c, t') ->
  tab_ok t' /\ Permutation (tab_entries t') ((c, s) :: tab_entries t).
Proof.
  intros Ht H. destruct t as [cap sl|x|x]; cbn [tab_connect] in H; [| |discriminate].
  - destruct Ht as [Hc Hs]. unfold ev_connect in H. destruct (N.eqb_spec (sl_num sl) cap) as [E|E]; [discriminate|].
    assert (Hlt : sl_num sl < cap).
    { destruct Hs as [Hn _ Hl]. pose proof (entries_length_le (sl_items sl) 0). lia. }
    destruct (slots_insert_ok cap sl s Hc Hs Hlt) as (d & sl' & E1 & H1 & H2 & H3 & _).
    rewrite E1 in H. destruct (N.eqb_spec d 0); [discriminate|]. injection H as <- <-.
    split; [split; [exact Hc|exact H1]|exact H3].
  - destruct x as [a|]; cbn in H; [discriminate|]. injection H as <- <-. split; [exact I|]. apply Permutation_refl.
Qed.

Lemma tab_get_in t c s : tab_ok t -> tab_get t c = Some s -> exists d, In (d, s) (tab_entries t).
Proof.
  intros Ht H. destruct t as [cap sl|x|x]; cbn [tab_get] in H; [| |discriminate].
  - destruct Ht as [Hc Hs]. unfold ev_get_sink in H. destruct (slots_get sl c) as [a|] eqn:E; [|discriminate].
    injection H as ->. exists c. now apply (slots_get_iff cap sl c s Hc Hs).
  - unfold ev1_get_sink in H. destruct (c =? 1); cbn in H; [|discriminate].
    destruct x as [a|]; [|discriminate]. injection H as ->. exists 1. cbn. auto.
Qed.

Lemma nodup_filter (l : list (N * nat)) c s : EventSpec.cookie_sorted l -> In (c, s) l -> filter (fun p => fst p =? c) l = [(c, s)].
Proof.
  induction l as [|[d a] l IH]; intros Hs Hin; [destruct Hin|]. inversion Hs as [|? ? Hs' Hf]; subst. cbn.
  rewrite Forall_forall in Hf. destruct Hin as [E|Hin].
  - injection E as -> ->. rewrite N.eqb_refl. f_equal.
    clear IH. assert (HN : forall p, In p l -> c < fst p) by (intros p Hp; apply (Hf p Hp)).
    clear -HN. induction l as [|[d b] l IH]; [reflexivity|]. cbn.
    pose proof (HN (d, b) (or_introl eq_refl)) as Hd. cbn in Hd.
    destruct (N.eqb_spec d c); [lia|]. apply IH. intros p Hp. apply HN. now right.
  - pose proof (Hf _ Hin) as Hd. cbn in Hd. destruct (N.eqb_spec d c); [lia|]. now apply IH.
Qed.

Lemma none_filter (l : list (N * nat)) c : (forall s, ~ In (c, s) l) -> filter (fun p => fst p =? c) l = [].
Proof.
  induction l as [|[d a] l IH]; intros H; [reflexivity|]. cbn.
  destruct (N.eqb_spec d c) as [->|]; [exfalso; apply (H a); now left|].
  apply IH. intros s Hs. apply (H s). now right.
Qed.

Record good (P : op -> Prop) (w : world) (r : world * status) : Prop := {
  g_inv : inv [] (fst r);
  g_log : exists d, w_log (fst r) = w_log w ++ d /\
    (forall s, In (HDrop s) d -> P (SDrop s)) /\
    (forall e, In (HEnd e) d -> P (SDestroy e)) /\
    ((forall o, P o -> keeps o) -> forall s, In (HNew s) d -> In (HHold s) d);
  g_cause : match snd r with
            | Undef (UUse s) => In (HDead s) (w_log (fst r))
            | Undef (UTable e) => In (HEnd e) (w_log (fst r)) \/ ~ In (HTable e) (w_log (fst r))
            | Undef (UNull e) => P (SFire true e)
            | Undef (UCount _) => False
            | _ => True
            end }.

Lemma good_same (P : op -> Prop) w st : inv [] w ->
  match st with
  | Undef (UUse s) => In (HDead s) (w_log w)
  | Undef (UTable e) => In (HEnd e) (w_log w) \/ ~ In (HTable e) (w_log w)
  | Undef (UNull e) => P (SFire true e)
  | Undef (UCount _) => False
  | _ => True
  end -> good P w (w, st).
Proof.
  intros H Hc. split; [exact H| |exact Hc]. exists []. rewrite app_nil_r. cbn. tauto.
Qed.

Lemma good_trans P w w1 r : good P w (w1, Ok) -> good P w1 r -> good P w r.
Proof.
  intros [H1 (d1 & E1 & A1 & B1 & C1) _] [H2 (d2 & E2 & A2 & B2 & C2) H3]. cbn [fst snd] in *.
  split; [exact H2| |exact H3]. exists (d1 ++ d2). rewrite E2, E1, app_assoc. split; [reflexivity|].
  split; [|split].
  - intros s Hs. apply in_app_iff in Hs. destruct Hs; eauto.
  - intros s Hs. apply in_app_iff in Hs. destruct Hs; eauto.
  - intros Hk s Hs. apply in_app_iff in Hs. apply in_app_iff. destruct Hs; [left|right]; eauto.
Qed.

(** A step that ends normally, with what it recorded. *)
Lemma good_step (P : op -> Prop) w w' d : inv [] w' -> w_log w' = w_log w ++ d ->
  (forall s, In (HDrop s) d -> P (SDrop s)) -> (forall e, In (HEnd e) d -> P (SDestroy e)) ->
  ((forall o, P o -> keeps o) -> forall s, In (HNew s) d -> In (HHold s) d) ->
  good P w (w', Ok).
Proof. intros H E A B C. split; [exact H| |exact I]. exists d. auto. Qed.

Ltac noin := cbn; intros; repeat match goal with
  | H : _ \/ _ |- _ => destruct H as [H|H]
  | H : False |- _ => destruct H
  | H : _ = _ |- _ => discriminate
  end; auto.

Lemma in_snoc_dead s d l (x : entry) : In x l \/ In x [HDead s] -> d = l ++ [HDead s] -> In x d.
Proof. intros H ->. rewrite in_app_iff. exact H. Qed.

Lemma hold_ok P w s : inv [] w -> (0 < refs [] w s)%nat -> good P w (hold s w).
Proof.
  intros H Hp. unfold hold. destruct (addref_ok _ _ _ H Hp) as (w1 & -> & H1 & E1 & E2 & E3).
  apply (good_step P w _ [HHold s]); [now apply take_ok|cbn; now rewrite E1|noin|noin|noin].
Qed.

Lemma tab_disconnect_ok P e c w : inv [] w -> good P w (tab_disconnect e c w).
Proof.
  intros H. unfold tab_disconnect. destruct (get_tab w e) as [t|] eqn:Eg.
  2:{ apply good_same; [exact H|eapply no_tab; eassumption]. }
  assert (Ht : tab_ok t) by (apply get_tab_nth in Eg; eapply v_tab; eassumption).
  assert (F : forall gone t' c', tab_ok t' ->
    tab_entries t' = filter (fun p => negb (fst p =? c')) (tab_entries t) ->
    map snd (filter (fun p => fst p =? c') (tab_entries t)) = match gone with Some s => [s] | None => [] end ->
    good P w (match gone with
              | None => (log (set_tab w e (Some t')) [HDisc e c'], Ok)
              | Some s => match release s (log (set_tab w e (Some t')) [HDisc e c']) with
                          | inl w2 => (w2, Ok)
                          | inr u => (log (set_tab w e (Some t')) [HDisc e c'], Undef u)
                          end
              end)).
  { intros gone t' c' Ht' He Hm. pose proof (clear_ok [] w e t t' c' H Eg Ht' He) as Hc. rewrite Hm in Hc.
    destruct gone as [s|]; cbn [app] in Hc.
    - destruct (release_ok _ _ _ Hc) as (w2 & -> & H2 & E2 & E3 & E4).
      destruct E4 as [E4|E4]; cbn in E4.
      + apply (good_step P w w2 [HDisc e c']); [exact H2|exact E4|noin|noin|noin].
      + apply (good_step P w w2 [HDisc e c'; HDead s]); [exact H2|rewrite E4, <- app_assoc; reflexivity|noin|noin|noin].
    - apply (good_step P w _ [HDisc e c']); [exact Hc|reflexivity|noin|noin|noin]. }
  destruct t as [cap sl|x|x].
  - destruct Ht as [Hc Hs]. unfold ev_disconnect.
    destruct (slots_remove_ok cap sl (w32 c) Hc (w32_lt c) Hs) as (sl' & E & Hs' & He & _). rewrite E.
    apply F; [split; assumption|exact He|]. cbn [tab_entries].
    destruct (slots_get sl (w32 c)) as [a|] eqn:Ea.
    + apply (slots_get_iff cap sl _ _ Hc Hs) in Ea. rewrite (nodup_filter _ _ a); [reflexivity| |exact Ea].
      apply entries_sorted.
    + rewrite none_filter; [reflexivity|]. intros s Hin. apply (slots_get_iff cap sl _ _ Hc Hs) in Hin. congruence.
  - apply F; [exact I| |]; unfold ev1_disconnect; destruct x as [a|]; cbn [tab_entries filter fst].
    + destruct (N.eqb_spec (w32 c) 1) as [E|E]; destruct (N.eqb_spec 1 (w32 c)); try congruence; reflexivity.
    + destruct (N.eqb_spec (w32 c) 1) as [E|E]; reflexivity.
    + destruct (N.eqb_spec (w32 c) 1) as [E|E]; destruct (N.eqb_spec 1 (w32 c)); try congruence; reflexivity.
    + destruct (N.eqb_spec (w32 c) 1) as [E|E]; reflexivity.
  - apply F; [exact I| |]; destruct x as [a|]; reflexivity.
Qed.

Definition self_ok (self : option nat) (w : world) : Prop :=
  match self with Some s => (s < length (w_count w))%nat | None => True end.

Lemma not_alive w s : inv [] w -> self_ok (Some s) w -> alive w s = false -> In (HDead s) (w_log w).
Proof.
  intros H Hs Ha. apply (v_dead _ _ H). unfold alive in Ha. cbn in Hs.
  destruct (nth_error (w_count w) s) as [[n|]|] eqn:E; [discriminate|reflexivity|].
  apply nth_error_None in E. lia.
Qed.

Lemma handle_world w s : let w2 := snd (new_tab (Once (Some s)) w) in
  log w2 [HConn (length (w_tabs w)) 1 s] =
  log (set_tab (snd (new_tab (Once None) w)) (length (w_tabs w)) (Some (Once (Some s)))) [HConn (length (w_tabs w)) 1 s].
Proof. cbn. unfold log, set_tab. cbn. now rewrite upd_last. Qed.

Lemma handle_ok w s : inv [s] w ->
  inv [] (log (snd (new_tab (Once (Some s)) w)) [HConn (length (w_tabs w)) 1 s]).
Proof.
  intros H. pose proof (handle_world w s) as E. cbv zeta in E. rewrite E.
  apply (connect_ok [] (snd (new_tab (Once None) w)) (length (w_tabs w)) (Once None)).
  - apply (new_tab_ok _ _ (Once None) H I eq_refl).
  - apply get_tab_nth. cbn. rewrite nth_error_app2, Nat.sub_diag by lia. reflexivity.
  - exact I.
  - apply Permutation_refl.
Qed.

Lemma step_ok (P : op -> Prop) self o w : inv [] w -> P o -> self_ok self w -> good P w (step self o w).
Proof.
  intros H Ho Hself. destruct o; cbn [step].
  - (* SNew *)
    destruct (new_sink_ok [] w H) as (H1 & E1 & E2 & E3 & E4). destruct (new_sink w) as [s w1]. cbn [fst snd] in *.
    apply (good_step P w _ [HNew s; HHold s]); [now apply take_ok| |noin|noin|].
    + cbn. rewrite E4, <- app_assoc. cbn. now subst s.
    + intros _ x [Hx|[Hx|[]]]; [injection Hx as <-; right; now left|discriminate].
  - (* SCopy *)
    destruct (is_held w s) eqn:E; [|now apply good_same].
    apply is_held_in in E. apply hold_ok; [exact H|now apply held_refs].
  - (* SDrop *)
    destruct (is_held w s) eqn:E; [|now apply good_same]. apply is_held_in in E.
    destruct (release_ok _ _ _ (give_ok _ _ _ H E)) as (w2 & -> & H2 & _ & _ & E2).
    assert (HP : forall x, HDrop s = HDrop x -> P (SDrop x)) by (intros x Hx; now injection Hx as <-).
    destruct E2 as [E2|E2]; cbn in E2.
    + apply (good_step P w w2 [HDrop s]); [exact H2|exact E2| |noin|noin]. intros x [Hx|[]]; auto.
    + apply (good_step P w w2 [HDrop s; HDead s]); [exact H2|rewrite E2, <- app_assoc; reflexivity| |noin|noin].
      intros x [Hx|[Hx|[]]]; [auto|discriminate].
  - (* SGet *)
    destruct (get_tab w e) as [t|] eqn:Eg; [|apply good_same; [exact H|eapply no_tab; eassumption]].
    destruct (tab_get t (w32 c)) as [s|] eqn:Es; [|now apply good_same].
    assert (Ht : tab_ok t) by (apply get_tab_nth in Eg; eapply v_tab; eassumption).
    destruct (tab_get_in _ _ _ Ht Es) as [d Hd]. apply hold_ok; [exact H|]. eapply conn_in; eassumption.
  - (* SSelf *)
    destruct self as [s|]; [|now apply good_same]. destruct (alive w s) eqn:Ea.
    + apply hold_ok; [exact H|]. now apply (alive_iff _ _ _ H).
    + apply good_same; [exact H|]. now apply not_alive.
  - (* SUse *)
    destruct self as [s|]; [|now apply good_same]. destruct (alive w s) eqn:Ea.
    + apply (alive_iff _ _ _ H) in Ea. destruct (refs_not_dead _ _ _ H Ea) as [N1 N2].
      apply (good_step P w _ [HUse s]); [|reflexivity|noin|noin|noin].
      apply note_ok; [exact H|cbn; auto|exact I].
    + apply good_same; [exact H|]. now apply not_alive.
  - (* SEvent *)
    destruct ((0 <? cap) && (cap <? 2 ^ 32)) eqn:Ec; [|now apply good_same].
    apply (good_step P w _ [HTable (length (w_tabs w))]); [|reflexivity|noin|noin|noin].
    apply new_tab_ok; [exact H| |destruct (cap =? 1); reflexivity].
    destruct (cap =? 1); [exact I|]. apply andb_true_iff in Ec. destruct Ec as [E1 E2].
    apply N.ltb_lt in E1, E2. split; [split; assumption|apply slots_ok_init].
  - (* SConnect *)
    destruct (is_held w s) eqn:Eh; [|now apply good_same]. apply is_held_in in Eh.
    destruct (get_tab w e) as [t|] eqn:Eg; [|apply good_same; [exact H|eapply no_tab; eassumption]].
    destruct (tab_connect t s) as [[c t']|] eqn:Ec; [|now apply good_same].
    assert (Ht : tab_ok t) by (apply get_tab_nth in Eg; eapply v_tab; eassumption).
    destruct (tab_connect_ok _ _ _ _ Ht Ec) as [Ht' HP].
    destruct (addref_ok _ _ _ H (held_refs [] w s Eh)) as (w1 & -> & H1 & E1 & E2 & E3).
    apply (good_step P w _ [HConn e c s]); [|cbn; now rewrite E1|noin|noin|noin].
    apply (connect_ok [] w1 e t t' c s H1); auto. apply get_tab_nth. rewrite E3. now apply get_tab_nth.
  - (* SConnectNew *)
    destruct (get_tab w e) as [t|] eqn:Eg; [|apply good_same; [exact H|eapply no_tab; eassumption]].
    assert (Ht : tab_ok t) by (apply get_tab_nth in Eg; eapply v_tab; eassumption).
    destruct (new_sink_ok [] w H) as (H1 & E1 & E2 & E3 & E4). destruct (new_sink w) as [s w1]. cbn [fst snd] in *.
    assert (HK : (forall o, P o -> keeps o) -> False) by (intros HK; exact (HK _ Ho)).
    destruct (tab_connect t s) as [[c t']|] eqn:Ec.
    + destruct (tab_connect_ok _ _ _ _ Ht Ec) as [Ht' HP].
      apply (good_step P w _ [HNew s; HConn e c s]); [| |noin|noin|intros HK'; destruct (HK HK')].
      * apply (connect_ok [] w1 e t t' c s H1); auto. apply get_tab_nth. rewrite E3. now apply get_tab_nth.
      * cbn. rewrite E4, <- app_assoc. now subst s.
    + destruct (release_ok _ _ _ H1) as (w2 & -> & H2 & _ & _ & E5).
      destruct E5 as [E5|E5]; rewrite E4 in E5.
      * apply (good_step P w w2 [HNew s]); [exact H2|now subst s|noin|noin|intros HK'; destruct (HK HK')].
      * apply (good_step P w w2 [HNew s; HDead s]); [exact H2| |noin|noin|intros HK'; destruct (HK HK')].
        rewrite E5, <- app_assoc. now subst s.
  - (* SHandle *)
    destruct (is_held w s) eqn:Eh; [|now apply good_same]. apply is_held_in in Eh.
    destruct (addref_ok _ _ _ H (held_refs [] w s Eh)) as (w1 & -> & H1 & E1 & E2 & E3).
    change (good P w (log (snd (new_tab (Once (Some s)) w1)) [HConn (length (w_tabs w1)) 1 s], Ok)).
    apply (good_step P w _ [HTable (length (w_tabs w1)); HConn (length (w_tabs w1)) 1 s]); [now apply handle_ok| |noin|noin|noin].
    cbn. rewrite E1, <- app_assoc. reflexivity.
  - (* SHandleNew *)
    destruct (new_sink_ok [] w H) as (H1 & E1 & E2 & E3 & E4). destruct (new_sink w) as [s w1]. cbn [fst snd] in *.
    change (good P w (log (snd (new_tab (Once (Some s)) w1)) [HConn (length (w_tabs w1)) 1 s], Ok)).
    apply (good_step P w _ [HNew s; HTable (length (w_tabs w1)); HConn (length (w_tabs w1)) 1 s]);
      [now apply handle_ok| |noin|noin|intros HK; destruct (HK _ Ho)].
    cbn. rewrite E4, <- !app_assoc. now subst s.
  - (* SDisconnect *) now apply tab_disconnect_ok.
  - (* SDestroy *)
    destruct (get_tab w e) as [t|] eqn:Eg; [|apply good_same; [exact H|eapply no_tab; eassumption]].
    pose proof (end_ok [] w e t H Eg) as He.
    destruct (release_all_ok (tab_sinks t) [] _ He) as (w2 & -> & H2 & _ & _ & (d & E & Ed)).
    apply (good_step P w w2 (HEnd e :: d)); [exact H2|rewrite E; cbn; now rewrite <- app_assoc| | |].
    + intros x [Hx|Hx]; [discriminate|]. destruct (Ed _ Hx); discriminate.
    + intros x [Hx|Hx]; [injection Hx as <-; exact Ho|]. destruct (Ed _ Hx); discriminate.
    + intros HK. destruct (HK _ Ho).
  - now apply good_same.
  - now apply good_same.
Qed.

(** ** Sequences, calls, deliveries *)

Definition scripts (P : op -> Prop) (h : behaviour) : Prop := forall l e c s o, In o (h l e c s) -> P o.

Lemma good_grows P w r : inv [] w -> good P w r -> (length (w_count w) <= length (w_count (fst r)))%nat.
Proof.
  intros H0 [H1 (d & E & _) _]. destruct (Nat.le_gt_cases (length (w_count w)) (length (w_count (fst r)))) as [|Hl]; [assumption|].
  exfalso. destruct (length (w_count w)) as [|n] eqn:En; [lia|].
  assert (Hn : In (HNew n) (w_log w)) by (apply (v_new _ _ H0); lia).
  assert (Hn' : In (HNew n) (w_log (fst r))) by (rewrite E; apply in_app_iff; now left).
  apply (v_new _ _ H1) in Hn'. lia.
Qed.

Lemma self_ok_grows P self w r : inv [] w -> good P w r -> self_ok self w -> self_ok self (fst r).
Proof.
  intros H0 H1 Hs. pose proof (good_grows _ _ _ H0 H1). destruct self; [|exact I]. cbn in *. lia.
Qed.

Lemma run_ops_ok (P : op -> Prop) fr :
  (forall a e w, inv [] w -> P (SFire a e) -> good P w (fr a e w)) ->
  forall ops self w, inv [] w -> (forall o, In o ops -> P o) -> self_ok self w -> good P w (run_ops fr self ops w).
Proof.
  intros Hfr. induction ops as [|o ops IH]; intros self w H Ho Hs; cbn [run_ops]; [now apply good_same|].
  assert (Hg : good P w (match o with SFire a e => fr a e w | _ => step self o w end)).
  { assert (Hp : P o) by (apply Ho; now left). pose proof (step_ok P self o w H Hp Hs) as Hst.
    destruct o; try exact Hst. now apply Hfr. }
  destruct (match o with SFire a e => fr a e w | _ => step self o w end) as [w' st].
  destruct st; try exact Hg. apply (good_trans P w w'); [exact Hg|].
  apply IH; [apply (g_inv _ _ _ Hg)|intros x Hx; apply Ho; now right|].
  apply (self_ok_grows P self w (w', Ok)); assumption.
Qed.

Lemma call_ok (P : op -> Prop) fr h e c s w t :
  (forall a e w, inv [] w -> P (SFire a e) -> good P w (fr a e w)) -> scripts P h ->
  inv [] w -> get_tab w e = Some t -> In (c, s) (tab_entries t) -> good P w (call fr h e c s w).
Proof.
  intros Hfr Hh H Hg Hin. destruct (conn_in _ _ _ _ _ _ H Hg Hin) as [Hc Hr].
  unfold call. rewrite (proj2 (alive_iff _ _ _ H) Hr). destruct (refs_not_dead _ _ _ H Hr) as [N1 N2].
  assert (H1 : inv [] (log w [HCall e c s])) by (apply note_ok; [exact H|now split|exact I]).
  apply (good_trans P w (log w [HCall e c s])).
  - apply (good_step P w _ [HCall e c s]); [exact H1|reflexivity|noin|noin|noin].
  - apply run_ops_ok; [exact Hfr|exact H1|intros o Ho; eapply Hh, Ho|]. cbn. apply (v_new _ _ H). exact N2.
Qed.

Lemma many_entry t s i a cap : t = Many cap s -> nth_error (sl_items s) (N.to_nat i) = Some (Some a) -> In (i + 1, a) (tab_entries t).
Proof.
  intros -> H. cbn [tab_entries]. apply entries_in. split; [lia|]. now replace (i + 1 - 0 - 1) with i by lia.
Qed.

Lemma fire_from_ok (P : op -> Prop) h : scripts P h -> forall fuel a e i w,
  inv [] w -> P (SFire a e) -> good P w (fire_from fuel h a e i w).
Proof.
  intros Hh. induction fuel as [|f IH]; intros a e i w H Hp; cbn [fire_from]; [now apply good_same|].
  set (nested := fun (args' : bool) (e' : nat) (w' : world) => _).
  assert (Hn : forall a e w, inv [] w -> P (SFire a e) -> good P w (nested a e w)).
  { intros a' e' w' H' Hp'. unfold nested. destruct (get_tab w' e') as [[cap s| |]|]; try now apply IH.
    destruct (a' && (sl_last s =? 0)); [now apply good_same|now apply IH]. }
  destruct (get_tab w e) as [t|] eqn:Eg; [|apply good_same; [exact H|eapply no_tab; eassumption]].
  destruct t as [cap s|[x|]|[x|]]; try (now apply good_same).
  - assert (Ht : slots_ok cap s) by (apply get_tab_nth in Eg; apply (v_tab _ _ H) in Eg; apply Eg).
    destruct (N.ltb_spec i (if a then wsub 32 (sl_last s) 1 else sl_last s)) as [Hi|Hi].
    + destruct (nth_error (sl_items s) (N.to_nat i)) as [[x|]|] eqn:En.
      * pose proof (call_ok P nested h e (i + 1) x w _ Hn Hh H Eg (many_entry _ s i x cap eq_refl En)) as Hc.
        destruct (call nested h e (i + 1) x w) as [w' st]. destruct st; try exact Hc.
        apply (good_trans P w w' _ Hc). apply IH; [apply (g_inv _ _ _ Hc)|exact Hp].
      * now apply IH.
      * apply good_same; [exact H|]. destruct a; [exact Hp|].
        exfalso. apply nth_error_None in En. destruct Ht as [_ (Hl & _) _]. lia.
    + destruct a; [|now apply good_same].
      destruct (nth_error (sl_items s) (N.to_nat i)) as [[x|]|] eqn:En; try (now apply good_same).
      apply (call_ok P nested h e (i + 1) x w _ Hn Hh H Eg (many_entry _ s i x cap eq_refl En)).
  - apply (call_ok P nested h e 1 x w _ Hn Hh H Eg). now left.
  - pose proof (call_ok P nested h e 1 x w _ Hn Hh H Eg (or_introl eq_refl)) as Hc.
    destruct (call nested h e 1 x w) as [w' st]. destruct st; try exact Hc.
    apply (good_trans P w w' _ Hc). apply tab_disconnect_ok, (g_inv _ _ _ Hc).
Qed.

Lemma fire_ok (P : op -> Prop) h : scripts P h -> forall fuel a e w,
  inv [] w -> P (SFire a e) -> good P w (fire fuel h a e w).
Proof.
  intros Hh fuel a e w H Hp. unfold fire. destruct (get_tab w e) as [[cap s| |]|]; try now apply fire_from_ok.
  destruct (a && (sl_last s =? 0)); [now apply good_same|now apply fire_from_ok].
Qed.

Lemma run_ok (P : op -> Prop) h fuel ops : scripts P h -> (forall o, In o ops -> P o) ->
  good P w_init (run fuel h ops).
Proof.
  intros Hh Ho. apply run_ops_ok; [|apply inv_init|exact Ho|exact I].
  intros a e w H Hp. now apply fire_ok.
Qed.

Lemma run_inv h fuel ops : inv [] (fst (run fuel h ops)).
Proof. apply (g_inv (fun _ => True) w_init), run_ok; [intros l e c s o _; exact I|auto]. Qed.

(** ** Who refers to what, from the log *)

Lemma referenced_refs w s : inv [] w -> referenced (w_log w) s <-> (0 < refs [] w s)%nat.
Proof.
  intros H. unfold referenced, refs. pose proof (v_held _ _ H s) as Hh. cbn [count_occ]. split.
  - intros [Hd|(e & c & Hin)]; [lia|].
    apply (Permutation_in _ (v_conn _ _ H e)) in Hin. unfold tab_conns in Hin.
    destruct (get_tab w e) as [t|] eqn:Eg; [|destruct Hin]. apply get_tab_nth in Eg.
    pose proof (tabrefs_in _ _ _ _ _ Eg Hin). lia.
  - intros Hp. destruct (Nat.eq_dec (cnt (w_held w) s) 0) as [E0|]; [|left; lia].
    right. destruct (tabrefs_ex (w_tabs w) s) as (e & t & c & Ht & Hin); [lia|].
    exists e, c. apply (Permutation_in _ (Permutation_sym (v_conn _ _ H e))). unfold tab_conns.
    apply get_tab_nth in Ht. now rewrite Ht.
Qed.

Lemma dead_iff w s : inv [] w -> In (HNew s) (w_log w) ->
  (In (HDead s) (w_log w) <-> ~ referenced (w_log w) s).
Proof.
  intros H Hn. rewrite (referenced_refs _ _ H), (v_dead _ _ H). apply (v_new _ _ H) in Hn.
  pose proof (v_count _ _ H s) as Hs. destruct (nth_error (w_count w) s) as [[n|]|] eqn:E.
  - split; [discriminate|lia].
  - split; [lia|reflexivity].
  - apply nth_error_None in E. lia.
Qed.

Lemma referenced_new w s : inv [] w -> referenced (w_log w) s -> In (HNew s) (w_log w) /\ ~ In (HDead s) (w_log w).
Proof.
  intros H Hr. apply (referenced_refs _ _ H) in Hr. now destruct (refs_not_dead _ _ _ H Hr).
Qed.

Lemma holds_in l s : In (HHold s) l -> (0 < holds l s)%nat.
Proof.
  induction l as [|x t IH]; [intros []|]. intros [->|Hx]; cbn.
  - rewrite Nat.eqb_refl. lia.
  - specialize (IH Hx). destruct x; try exact IH. destruct (Nat.eqb s0 s); lia.
Qed.

Lemma drops_none l s : ~ In (HDrop s) l -> drops l s = 0%nat.
Proof.
  induction l as [|x t IH]; [reflexivity|]. intros Hx. cbn in Hx |- *.
  assert (Ht : drops t s = 0%nat) by (apply IH; tauto).
  destruct x; try exact Ht. destruct (Nat.eqb_spec s0 s) as [->|]; [exfalso; apply Hx; now left|exact Ht].
Qed.

(** ** User code that keeps pointers *)

Lemma kept_safe h fuel ops u : everywhere (fun o => keeps o /\ plain_fire o) h ops ->
  snd (run fuel h ops) = Undef u ->
  exists e, u = UTable e /\ ~ In (HTable e) (w_log (fst (run fuel h ops))).
Proof.
  intros [Ho Hh] Hu. destruct (run_ok (fun o => keeps o /\ plain_fire o) h fuel ops Hh Ho) as [H (d & E & A & B & C) Hc].
  rewrite Hu in Hc. cbn [w_init w_log app] in E. rewrite <- E in A, B, C.
  destruct u as [s|e|e|s].
  - exfalso. assert (Hn : In (HNew s) (w_log (fst (run fuel h ops)))).
    { apply (v_new _ _ H). apply (v_dead _ _ H) in Hc. eapply nth_lt, Hc. }
    apply (dead_iff _ _ H Hn) in Hc. apply Hc. left.
    rewrite drops_none; [|intros Hd; apply A in Hd; apply Hd]. apply holds_in, C; [now intros o [Hk _]|exact Hn].
  - destruct Hc as [He|He]; [apply B in He; destruct He as [[] _]|]. exists e. now split.
  - destruct Hc as [_ Hc]. discriminate.
  - destruct Hc.
Qed.

(** ** Sinks that keep themselves *)

Definition nodrop (o : op) : Prop := forall x, o <> SDrop x.

Definition safe (r : world * status) : Prop := forall s, snd r <> Undef (UUse s).

Definition kept (s : nat) (w : world) : Prop := (drops (w_log w) s < holds (w_log w) s)%nat.

Lemma kept_good s w r : good nodrop w r -> kept s w -> kept s (fst r).
Proof.
  intros [_ (d & E & A & _) _] Hk. unfold kept in *. rewrite E, drops_app, holds_app.
  rewrite (drops_none d); [lia|]. intros Hd. apply A in Hd. now apply (Hd s).
Qed.

Lemma kept_alive s w : inv [] w -> kept s w -> alive w s = true.
Proof. intros H Hk. apply (alive_iff _ _ _ H), (referenced_refs _ _ H). now left. Qed.

Definition cond (self : option nat) (ops : list op) (w : world) : Prop :=
  match self with
  | None => True
  | Some s => kept s w \/ (~ In SUse ops /\ ~ In SSelf ops) \/ (alive w s = true /\ exists t, ops = SSelf :: t)
  end.

Lemma tab_disconnect_safe e c w : inv [] w -> safe (tab_disconnect e c w).
Proof.
  intros H s E. pose proof (g_cause _ _ _ (tab_disconnect_ok (fun _ => False) e c w H)) as Hc.
  unfold tab_disconnect in *. destruct (get_tab w e) as [[cap sl|x|x]|]; try discriminate.
  - destruct (ev_disconnect sl (w32 c)); try discriminate.
    destruct (slots_get sl (w32 c)) as [b|]; [|discriminate].
    unfold release in *. cbn in *. destruct (nth_error (w_count w) b) as [[[|[|n]]|]|]; discriminate.
  - destruct (w32 c =? 1); [|discriminate]. destruct x as [a|]; [|discriminate].
    unfold release in *. cbn in *. destruct (nth_error (w_count w) a) as [[[|[|n]]|]|]; discriminate.
  - destruct x as [a|]; [|discriminate].
    unfold release in *. cbn in *. destruct (nth_error (w_count w) a) as [[[|[|n]]|]|]; discriminate.
Qed.

Lemma hold_safe s w : safe (hold s w).
Proof. intros x. unfold hold, addref. destruct (nth_error (w_count w) s) as [[n|]|]; discriminate. Qed.

Lemma release_all_cause l : forall w u, release_all l w = inr u -> exists s, u = UCount s.
Proof.
  induction l as [|s t IH]; intros w u H; cbn [release_all] in H; [discriminate|].
  destruct (release s w) as [w'|u'] eqn:E; [now apply IH in H|]. injection H as <-.
  unfold release in E. exists s. destruct (nth_error (w_count w) s) as [[[|[|n]]|]|]; congruence.
Qed.

Lemma release_cause s w u : release s w = inr u -> u = UCount s.
Proof. unfold release. destruct (nth_error (w_count w) s) as [[[|[|n]]|]|]; congruence. Qed.

Lemma step_safe self o w : inv [] w ->
  match self with
  | Some s => alive w s = true \/ (o <> SUse /\ o <> SSelf)
  | None => True
  end -> safe (step self o w).
Proof.
  intros H Hs x E.
  destruct o; cbn [step] in E; try discriminate.
  - destruct (is_held w s); [now apply (hold_safe s w x)|discriminate].
  - destruct (is_held w s); [|discriminate].
    destruct (release s _) as [w2|u] eqn:Er; [discriminate|]. apply release_cause in Er. subst u. discriminate.
  - destruct (get_tab w e) as [t|]; [|discriminate]. destruct (tab_get t (w32 c)) as [s|]; [|discriminate].
    now apply (hold_safe s w x).
  - destruct self as [s|]; [|discriminate]. destruct Hs as [Ha|[_ Hn]]; [|congruence].
    rewrite Ha in E. now apply (hold_safe s w x).
  - destruct self as [s|]; [|discriminate]. destruct Hs as [Ha|[Hn _]]; [|congruence].
    rewrite Ha in E. discriminate.
  - destruct ((0 <? cap) && (cap <? 2 ^ 32)); discriminate.
  - destruct (is_held w s); [|discriminate]. destruct (get_tab w e) as [t|]; [|discriminate].
    destruct (tab_connect t s) as [[c t']|]; [|discriminate]. unfold addref in E.
    destruct (nth_error (w_count w) s) as [[n|]|]; discriminate.
  - destruct (get_tab w e) as [t|]; [|discriminate]. destruct (new_sink w) as [s w1].
    destruct (tab_connect t s) as [[c t']|]; [discriminate|].
    destruct (release s w1) as [w2|u] eqn:Er; [discriminate|]. apply release_cause in Er. subst u. discriminate.
  - destruct (is_held w s); [|discriminate]. unfold addref in E.
    destruct (nth_error (w_count w) s) as [[n|]|]; discriminate.
  - now apply (tab_disconnect_safe e c w H x).
  - destruct (get_tab w e) as [t|]; [|discriminate].
    destruct (release_all (tab_sinks t) _) as [w2|u] eqn:Er; [discriminate|].
    apply release_all_cause in Er. destruct Er as [s ->]. discriminate.
Qed.

Lemma run_ops_safe fr :
  (forall a e w, inv [] w -> good nodrop w (fr a e w) /\ safe (fr a e w)) ->
  forall ops self w, inv [] w -> (forall o, In o ops -> nodrop o) -> self_ok self w -> cond self ops w ->
  safe (run_ops fr self ops w).
Proof.
  intros Hfr. induction ops as [|o ops IH]; intros self w H Ho Hs Hc; cbn [run_ops]; [discriminate|].
  assert (Hp : nodrop o) by (apply Ho; now left).
  assert (Hg : good nodrop w (match o with SFire a e => fr a e w | _ => step self o w end)).
  { pose proof (step_ok nodrop self o w H Hp Hs) as Hst. destruct o; try exact Hst. now apply Hfr. }
  assert (Hsf : safe (match o with SFire a e => fr a e w | _ => step self o w end)).
  { assert (Hst : safe (step self o w)).
    { apply step_safe; [exact H|]. destruct self as [s|]; [|exact I]. destruct Hc as [Hk|[[N1 N2]|[Ha _]]].
      - left. now apply kept_alive.
      - right. split; intros ->; [apply N1|apply N2]; now left.
      - now left. }
    destruct o; try exact Hst. now apply Hfr. }
  assert (Hc' : forall w', (match o with SFire a e => fr a e w | _ => step self o w end) = (w', Ok) -> cond self ops w').
  { intros w' E. rewrite E in Hg. destruct self as [s|]; [|exact I]. destruct Hc as [Hk|[[N1 N2]|[Ha [t Et]]]].
    - left. apply (kept_good s w (w', Ok) Hg Hk).
    - right. left. split; intros Hin; [apply N1|apply N2]; now right.
    - injection Et as -> ->. cbn [step] in E. rewrite Ha in E. left. unfold hold, addref in E.
      destruct (nth_error (w_count w) s) as [[n|]|]; [|discriminate|discriminate]. injection E as <-.
      unfold kept. cbn. rewrite drops_app, holds_app. cbn. rewrite Nat.eqb_refl.
      pose proof (v_held _ _ H s). lia. }
  destruct (match o with SFire a e => fr a e w | _ => step self o w end) as [w' st].
  destruct st; try exact Hsf.
  apply IH; [apply (g_inv _ _ _ Hg)|intros x Hx; apply Ho; now right| |now apply Hc'].
  apply (self_ok_grows nodrop self w (w', Ok)); assumption.
Qed.

Lemma op_dec (a b : op) : {a = b} + {a <> b}.
Proof. decide equality; try apply N.eq_dec; try apply Nat.eq_dec; apply Bool.bool_dec. Qed.

Lemma call_safe fr h e c s w t :
  (forall a e w, inv [] w -> good nodrop w (fr a e w) /\ safe (fr a e w)) -> keeps_itself h ->
  inv [] w -> get_tab w e = Some t -> In (c, s) (tab_entries t) -> safe (call fr h e c s w).
Proof.
  intros Hfr Hh H Hg Hin. destruct (conn_in _ _ _ _ _ _ H Hg Hin) as [Hc Hr].
  unfold call. pose proof (proj2 (alive_iff _ _ _ H) Hr) as Ha. rewrite Ha.
  destruct (refs_not_dead _ _ _ H Hr) as [N1 N2].
  assert (H1 : inv [] (log w [HCall e c s])) by (apply note_ok; [exact H|now split|exact I]).
  destruct (Hh (w_log (log w [HCall e c s])) e c s) as [K1 K2].
  apply run_ops_safe; [exact Hfr|exact H1| | |].
  - intros o Ho x ->. now apply (K1 x).
  - cbn. apply (v_new _ _ H). exact N2.
  - cbn [cond]. right.
    destruct (in_dec op_dec SUse (h (w_log (log w [HCall e c s])) e c s)) as [I1|I1].
    { right. split; [exact Ha|]. apply K2. now left. }
    destruct (in_dec op_dec SSelf (h (w_log (log w [HCall e c s])) e c s)) as [I2|I2].
    { right. split; [exact Ha|]. apply K2. now right. }
    left. now split.
Qed.

Lemma keeps_scripts h : keeps_itself h -> scripts nodrop h.
Proof. intros Hh l e c s o Ho x ->. now apply (proj1 (Hh l e c s) x). Qed.

Lemma fire_from_safe h : keeps_itself h -> forall fuel a e i w, inv [] w -> safe (fire_from fuel h a e i w).
Proof.
  intros Hh. pose proof (keeps_scripts h Hh) as Hsc.
  induction fuel as [|f IH]; intros a e i w H; cbn [fire_from]; [discriminate|].
  set (nested := fun (args' : bool) (e' : nat) (w' : world) => _).
  assert (Hn : forall a e w, inv [] w -> good nodrop w (nested a e w) /\ safe (nested a e w)).
  { intros a' e' w' H'. unfold nested. destruct (get_tab w' e') as [[cap s| |]|];
      try (split; [apply fire_from_ok; [exact Hsc|exact H'|intros x; discriminate]|now apply IH]).
    destruct (a' && (sl_last s =? 0)); [split; [now apply good_same|discriminate]|].
    split; [apply fire_from_ok; [exact Hsc|exact H'|intros x; discriminate]|now apply IH]. }
  assert (Hn1 : forall a e w, inv [] w -> nodrop (SFire a e) -> good nodrop w (nested a e w)) by (intros; now apply Hn).
  destruct (get_tab w e) as [t|] eqn:Eg; [|discriminate].
  destruct t as [cap s|[x|]|[x|]]; try discriminate.
  - destruct (i <? (if a then wsub 32 (sl_last s) 1 else sl_last s)).
    + destruct (nth_error (sl_items s) (N.to_nat i)) as [[x|]|] eqn:En; [|now apply IH|discriminate].
      pose proof (call_ok nodrop nested h e (i + 1) x w _ Hn1 Hsc H Eg (many_entry _ s i x cap eq_refl En)) as Hc.
      pose proof (call_safe nested h e (i + 1) x w _ Hn Hh H Eg (many_entry _ s i x cap eq_refl En)) as Hs.
      destruct (call nested h e (i + 1) x w) as [w' st]. destruct st; try exact Hs.
      apply IH, (g_inv _ _ _ Hc).
    + destruct a; [|discriminate].
      destruct (nth_error (sl_items s) (N.to_nat i)) as [[x|]|] eqn:En; try discriminate.
      apply (call_safe nested h e (i + 1) x w _ Hn Hh H Eg (many_entry _ s i x cap eq_refl En)).
  - apply (call_safe nested h e 1 x w _ Hn Hh H Eg). now left.
  - pose proof (call_ok nodrop nested h e 1 x w _ Hn1 Hsc H Eg (or_introl eq_refl)) as Hc.
    pose proof (call_safe nested h e 1 x w _ Hn Hh H Eg (or_introl eq_refl)) as Hs.
    destruct (call nested h e 1 x w) as [w' st]. destruct st; try exact Hs.
    apply tab_disconnect_safe, (g_inv _ _ _ Hc).
Qed.

Lemma fire_safe h : keeps_itself h -> forall fuel a e w, inv [] w -> safe (fire fuel h a e w).
Proof.
  intros Hh fuel a e w H. unfold fire. destruct (get_tab w e) as [[cap s| |]|]; try now apply fire_from_safe.
  destruct (a && (sl_last s =? 0)); [discriminate|now apply fire_from_safe].
Qed.

(** Outside of sinks, anything may be done. *)
Lemma run_safe h fuel ops : keeps_itself h -> safe (run fuel h ops).
Proof.
  intros Hh. unfold run. pose proof inv_init as H. revert H. generalize w_init as w.
  induction ops as [|o ops IH]; intros w H; cbn [run_ops]; [discriminate|].
  assert (Hg : good (fun _ => True) w (match o with SFire a e => fire fuel h a e w | _ => step None o w end)).
  { pose proof (step_ok (fun _ => True) None o w H I I) as Hst. destruct o; try exact Hst.
    apply fire_ok; [intros l e' c s o _; exact I|exact H|exact I]. }
  assert (Hs : safe (match o with SFire a e => fire fuel h a e w | _ => step None o w end)).
  { pose proof (step_safe None o w H I) as Hst. destruct o; try exact Hst. now apply fire_safe. }
  destruct (match o with SFire a e => fire fuel h a e w | _ => step None o w end) as [w' st].
  destruct st; try exact Hs. apply IH, (g_inv _ _ _ Hg).
Qed.

Lemma self_safe h fuel ops u : keeps_itself h ->
  everywhere (fun o => not_destroy o /\ plain_fire o) h ops ->
  snd (run fuel h ops) = Undef u ->
  exists e, u = UTable e /\ ~ In (HTable e) (w_log (fst (run fuel h ops))).
Proof.
  intros Hk [Ho Hh] Hu. destruct (run_ok (fun o => not_destroy o /\ plain_fire o) h fuel ops Hh Ho) as [H (d & E & A & B & C) Hc].
  rewrite Hu in Hc. cbn [w_init w_log app] in E. rewrite <- E in B.
  destruct u as [s|e|e|s].
  - exfalso. exact (run_safe h fuel ops Hk s Hu).
  - destruct Hc as [He|He]; [apply B in He; destruct He as [[] _]|]. exists e. now split.
  - destruct Hc as [_ Hc]. discriminate.
  - destruct Hc.
Qed.

Lemma conns_end w e : inv [] w -> In (HEnd e) (w_log w) -> conns (w_log w) e = [].
Proof.
  intros H He. apply (v_end _ _ H) in He. pose proof (v_conn _ _ H e) as HP. unfold tab_conns, get_tab in HP.
  rewrite He in HP. apply Permutation_sym, Permutation_nil in HP. exact HP.
Qed.

Lemma conns_table w e c s : inv [] w -> In (c, s) (conns (w_log w) e) -> In (HTable e) (w_log w) /\ ~ In (HEnd e) (w_log w).
Proof.
  intros H Hin. split; [|intros He; rewrite (conns_end _ _ H He) in Hin; exact Hin].
  apply (Permutation_in _ (v_conn _ _ H e)) in Hin. unfold tab_conns, get_tab in Hin.
  destruct (nth_error (w_tabs w) e) as [[t|]|] eqn:E; [|destruct Hin|destruct Hin].
  apply (v_table _ _ H). eapply nth_lt, E.
Qed.
