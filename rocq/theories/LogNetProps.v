(** Property theorems about how loggers connect to their sources: C65. *)
From Coq Require Import List NArith Arith Lia Permutation.
From Coq Require Import ZifyBool ZifyNat ZifyN.
From Verif Require Import Base Event LogNet LogNetSpec LogNetProofs.
Import ListNotations.
Open Scope list_scope.

(** After any history of proper calls the sinks connected to an object are the
    ones users connected, plus one connection for each registration of the
    object at a logger that is wanted. *)
Theorem C65_exact_connections : forall rank fuel h w,
  (forall i, rank i < fuel) -> history rank fuel h w ->
  exists active : nat -> bool,
    (forall l, active l = true <-> wanted (notes_after h) l) /\
    forall i, Permutation (sinks w i)
      (map snd (filter (fun e => Nat.eqb (fst (fst e)) i) (nt_conns (notes_after h))) ++
       map (fun e => fst (fst e)) (filter (fun e => Nat.eqb (snd e) i && active (fst (fst e))) (nt_regs (notes_after h)))).
Proof.
  intros rank fuel h w Hf Hh. pose proof (history_top rank fuel Hf h w Hh) as HT. exists (act w). split.
  - intros l. pose proof HT as [(g & HI) _ _ _]. rewrite act_spec. exact (ent_wanted rank fuel Hf _ _ _ HT HI l).
  - intros i. exact (top_sinks rank fuel Hf _ _ _ HT).
Qed.
Print Assumptions C65_exact_connections.

(** Counting: a logger that is wanted is connected to each of its sources once
    per registration, one that is not wanted is connected to none; on top of
    what users connect themselves. *)
Theorem C65_connection_count : forall rank fuel h w i l,
  (forall i, rank i < fuel) -> history rank fuel h w ->
  (wanted (notes_after h) l ->
   count_occ Nat.eq_dec (sinks w i) l = user_count (notes_after h) i l + reg_count (notes_after h) l i) /\
  (~ wanted (notes_after h) l -> count_occ Nat.eq_dec (sinks w i) l = user_count (notes_after h) i l).
Proof.
  intros rank fuel h w i l Hf Hh.
  destruct (C65_exact_connections rank fuel h w Hf Hh) as (active & Ha & HP). specialize (HP i). specialize (Ha l).
  rewrite (Permutation_count_occ Nat.eq_dec) in HP. rewrite HP, count_occ_app.
  assert (H1 : forall L : list (nat * N * nat),
    count_occ Nat.eq_dec (map snd (filter (fun e => Nat.eqb (fst (fst e)) i) L)) l =
    length (filter (fun e => Nat.eqb (fst (fst e)) i && Nat.eqb (snd e) l) L)).
  { induction L as [|[[j c] s] t IH]; [reflexivity|]. cbn [filter fst snd].
    destruct (Nat.eqb j i); cbn [andb map count_occ]; [|exact IH].
    destruct (Nat.eq_dec (snd (j, c, s)) l) as [E|E], (Nat.eqb_spec s l); cbn in E; try congruence; cbn [length]; lia. }
  assert (H2 : forall L : list (nat * N * nat),
    count_occ Nat.eq_dec (map (fun e => fst (fst e)) (filter (fun e => Nat.eqb (snd e) i && active (fst (fst e))) L)) l =
    if active l then length (filter (fun e => Nat.eqb (fst (fst e)) l && Nat.eqb (snd e) i) L) else 0).
  { induction L as [|[[j c] s] t IH]; [destruct (active l); reflexivity|]. cbn [filter fst snd].
    destruct (Nat.eqb_spec j l) as [->|Hn]; cbn [andb].
    - destruct (Nat.eqb s i); cbn [andb]; [|exact IH]. destruct (active l); [|exact IH].
      cbn [map count_occ fst]. destruct (Nat.eq_dec l l); [|congruence]. cbn [length]. lia.
    - destruct (Nat.eqb s i && active j)%bool; [|exact IH]. cbn [map count_occ fst].
      destruct (Nat.eq_dec j l); [congruence|exact IH]. }
  rewrite H1, H2. fold (user_count (notes_after h) i l). fold (reg_count (notes_after h) l i).
  destruct (active l); split; intros H; try lia; exfalso.
  - apply H. apply Ha. reflexivity.
  - apply Ha in H. discriminate.
Qed.
Print Assumptions C65_connection_count.

(** [IsEnabled] answers whether someone wants the records of the logger. *)
Theorem C65_is_enabled : forall rank fuel h w l,
  (forall i, rank i < fuel) -> history rank fuel h w -> l < length w ->
  exists b, n_step fuel (IsEnabled l) w = (w, NFlag b) /\ (b = true <-> wanted (notes_after h) l).
Proof.
  intros rank fuel h w l Hf Hh Hl. pose proof (history_top rank fuel Hf h w Hh) as HT. pose proof HT as [(g & HI) _ _ _].
  destruct (nth_error w l) as [x|] eqn:Hx; [|apply nth_error_None in Hx; lia].
  cbn [n_step]. rewrite Hx. eexists. split; [reflexivity|].
  rewrite <- (ent_wanted rank fuel Hf _ _ _ HT HI l).
  destruct (i_slots _ _ _ _ _ HI l x Hx) as [Hs _]. rewrite (num_ent w l x Hx Hs).
  destruct (ent w l); cbn [length]; [cbn; split; congruence|]. split; [congruence|]. intros _.
  destruct (N.eqb_spec (N.of_nat (S (length l0))) 0); [lia|reflexivity].
Qed.
Print Assumptions C65_is_enabled.

(** Proper calls fail in one way only: an event that has as many sinks as it
    allows.  In particular a cookie is never stale and the recursion through
    the sources ends. *)
Theorem C65_only_limit : forall rank fuel h w o w' f,
  (forall i, rank i < fuel) -> history rank fuel h w ->
  proper rank (notes_after h) w o -> n_step fuel o w = (w', NFailed f) -> f = FThrow ConnectionLimit.
Proof.
  intros rank fuel h w o w' f Hf Hh Hp Hs. pose proof (history_top rank fuel Hf h w Hh) as HT.
  pose proof (step_top rank fuel Hf _ _ _ HT Hp) as H. rewrite Hs in H. exact H.
Qed.
Print Assumptions C65_only_limit.

(** A case: logger 2 has logger 1 as a source, which has event 0 as a source
    twice; a sink is connected to 2, and one of the registrations is removed. *)
Definition ex_ops : list nop :=
  [NewEvent 5; NewLogger; NewLogger; NewLeaf; RegisterSource 1 (Some 0); RegisterSource 1 (Some 0);
   RegisterSource 2 (Some 1); Connect 2 (Some 3); Connect 0 (Some 3); UnregisterSource 1 1].
Definition ex_rank (i : nat) : nat := match i with 1 => 1 | 2 => 2 | _ => 0 end.

Lemma history_snoc rank fuel h w o : history rank fuel h w -> proper rank (notes_after h) w o ->
  (match snd (n_step fuel o w) with NFailed _ => False | _ => True end) ->
  history rank fuel (h ++ [(o, snd (n_step fuel o w))]) (fst (n_step fuel o w)).
Proof.
  intros Hh Hp Ha. econstructor; [exact Hh|exact Hp|apply surjective_pairing|].
  intros [f Hf]. rewrite Hf in Ha. exact Ha.
Qed.

Fixpoint grow (fuel : nat) (l : list nop) (h : list (nop * nanswer)) (w : net) : list (nop * nanswer) * net :=
  match l with
  | [] => (h, w)
  | o :: t => grow fuel t (h ++ [(o, snd (n_step fuel o w))]) (fst (n_step fuel o w))
  end.

Fixpoint fine (rank : nat -> nat) (fuel : nat) (l : list nop) (h : list (nop * nanswer)) (w : net) : Prop :=
  match l with
  | [] => True
  | o :: t => proper rank (notes_after h) w o /\
      (match snd (n_step fuel o w) with NFailed _ => False | _ => True end) /\
      fine rank fuel t (h ++ [(o, snd (n_step fuel o w))]) (fst (n_step fuel o w))
  end.

Lemma history_grow rank fuel l : forall h w, history rank fuel h w -> fine rank fuel l h w ->
  history rank fuel (fst (grow fuel l h w)) (snd (grow fuel l h w)).
Proof.
  induction l as [|o t IH]; intros h w Hh Hf; cbn [grow fine] in *; [exact Hh|].
  destruct Hf as (Hp & Ha & Hf). apply IH; [|exact Hf]. now apply history_snoc.
Qed.

Example C65_ex : exists h w, history ex_rank 3 h w /\ (forall i, ex_rank i < 3) /\
  sinks w 0 = [1; 3] /\ sinks w 1 = [2] /\ sinks w 2 = [3] /\
  notes_after h = mk_notes [(0, 3%N, 3); (2, 1%N, 3)] [(2, 1%N, 1); (1, 2%N, 0)] /\
  wanted (notes_after h) 1 /\ user_count (notes_after h) 0 3 = 1 /\ reg_count (notes_after h) 1 0 = 1.
Proof.
  exists (fst (grow 3 ex_ops [] [])), (snd (grow 3 ex_ops [] [])). split.
  - apply history_grow; [constructor|]. unfold ex_ops. cbn [fine].
    repeat match goal with
    | |- _ /\ _ => split
    | |- True => exact I
    | |- proper _ _ _ (NewEvent _) => vm_compute; split; reflexivity
    | |- proper _ _ _ (Connect _ _) => split; [discriminate|vm_compute; eexists; split; [reflexivity|discriminate]]
    | |- proper _ _ _ (RegisterSource _ _) => split;
        [vm_compute; eexists; split; reflexivity
        |intros i [= <-]; split; [vm_compute; lia|vm_compute; eexists; split; [reflexivity|discriminate]]]
    | |- proper _ _ _ (UnregisterSource _ _) => split; [vm_compute; eexists; split; reflexivity|right; exists 0; vm_compute; tauto]
    | |- proper _ _ _ _ => exact I
    | |- match _ with _ => _ end => vm_compute; exact I
    end.
  - split; [intros i; unfold ex_rank; do 3 (destruct i as [|i]; [lia|]); lia|].
    split; [vm_compute; reflexivity|]. split; [vm_compute; reflexivity|]. split; [vm_compute; reflexivity|].
    assert (Hn : notes_after (fst (grow 3 ex_ops [] [])) = mk_notes [(0, 3%N, 3); (2, 1%N, 3)] [(2, 1%N, 1); (1, 2%N, 0)])
      by (vm_compute; reflexivity).
    rewrite Hn. split; [reflexivity|]. split; [|split; reflexivity].
    eapply wanted_logger with (m := 2); [left; reflexivity|]. eapply wanted_user. right. left. reflexivity.
Qed.

(** An event that is full makes a proper call fail. *)
Example C65_only_limit_ex : exists h w w', history ex_rank 3 h w /\ proper ex_rank (notes_after h) w (Connect 0 (Some 1)) /\
  n_step 3 (Connect 0 (Some 1)) w = (w', NFailed (FThrow ConnectionLimit)).
Proof.
  exists (fst (grow 3 [NewEvent 2; NewLeaf; Connect 0 (Some 1); Connect 0 (Some 1)] [] [])),
         (snd (grow 3 [NewEvent 2; NewLeaf; Connect 0 (Some 1); Connect 0 (Some 1)] [] [])). eexists. split.
  - apply history_grow; [constructor|]. cbn [fine].
    repeat match goal with
    | |- _ /\ _ => split
    | |- True => exact I
    | |- proper _ _ _ (NewEvent _) => vm_compute; split; reflexivity
    | |- proper _ _ _ (Connect _ _) => split; [discriminate|vm_compute; eexists; split; [reflexivity|discriminate]]
    | |- proper _ _ _ _ => exact I
    | |- match _ with _ => _ end => vm_compute; exact I
    end.
  - split; [split; [discriminate|vm_compute; eexists; split; [reflexivity|discriminate]]|]. vm_compute. reflexivity.
Qed.

(** Refuted: "a call that throws changes nothing".  [Connect] with a null sink
    throws, but leaves the logger connected to its sources, and afterwards no
    sink can be connected at all. *)
Theorem C65_null_sink_refuted : exists w w1,
  snd (n_run 3 [NewEvent 5; NewLogger; NewLeaf; RegisterSource 1 (Some 0)] []) = [NObject 0; NObject 1; NObject 2; NCookie 1%N] /\
  w = fst (n_run 3 [NewEvent 5; NewLogger; NewLeaf; RegisterSource 1 (Some 0)] []) /\
  sinks w 0 = [] /\
  n_step 3 (Connect 1 None) w = (w1, NFailed (FThrow InvalidPointer)) /\
  sinks w1 0 = [1] /\ sinks w1 1 = [] /\
  (forall fuel s, exists w2, n_step (S fuel) (Connect 1 (Some s)) w1 = (w2, NFailed (FThrow IllegalMethodCall)) /\ w2 = w1).
Proof.
  eexists. eexists. split; [vm_compute; reflexivity|]. split; [reflexivity|]. split; [vm_compute; reflexivity|].
  split; [vm_compute; reflexivity|]. split; [vm_compute; reflexivity|]. split; [vm_compute; reflexivity|].
  intros fuel s. eexists. split; [|reflexivity]. cbn. reflexivity.
Qed.
Print Assumptions C65_null_sink_refuted.

(** Refuted: the same after a source refuses another sink: [Connect] throws
    half way, the sources before it stay connected, and every later [Connect]
    throws, even once the source has room again. *)
Theorem C65_limit_refuted : exists w w1 w2,
  w = fst (n_run 3 [NewEvent 5; NewEvent 2; NewLogger; NewLeaf; RegisterSource 2 (Some 0); RegisterSource 2 (Some 1);
                    Connect 1 (Some 3); Connect 1 (Some 3)] []) /\
  sinks w 0 = [] /\
  n_step 3 (Connect 2 (Some 3)) w = (w1, NFailed (FThrow ConnectionLimit)) /\
  sinks w1 0 = [2] /\ sinks w1 2 = [] /\
  n_step 3 (Disconnect 1 1) w1 = (w2, NUnit) /\
  (forall fuel s, n_step (S fuel) (Connect 2 (Some s)) w2 = (w2, NFailed (FThrow IllegalMethodCall))).
Proof.
  eexists. eexists. eexists. split; [reflexivity|]. split; [vm_compute; reflexivity|].
  split; [vm_compute; reflexivity|]. split; [vm_compute; reflexivity|]. split; [vm_compute; reflexivity|].
  split; [vm_compute; reflexivity|]. intros fuel s. cbn. reflexivity.
Qed.
Print Assumptions C65_limit_refuted.

(** A registration that throws stays registered though the caller has no
    cookie for it. *)
Theorem C65_register_limit_refuted : exists w w1,
  w = fst (n_run 3 [NewEvent 2; NewLogger; NewLeaf; Connect 0 (Some 2); Connect 0 (Some 2); Connect 1 (Some 2)] []) /\
  n_step 3 (RegisterSource 1 (Some 0)) w = (w1, NFailed (FThrow ConnectionLimit)) /\
  snd (n_run 3 [Disconnect 1 1; Disconnect 0 1; Connect 1 (Some 2)] w1) = [NUnit; NUnit; NCookie 1%N] /\
  sinks (fst (n_run 3 [Disconnect 1 1; Disconnect 0 1; Connect 1 (Some 2)] w1)) 0 = [1; 2].
Proof.
  eexists. eexists. split; [reflexivity|]. split; [vm_compute; reflexivity|]. split; vm_compute; reflexivity.
Qed.
Print Assumptions C65_register_limit_refuted.

(** Refuted: "a logger without interested sinks is not connected to sources"
    when loggers are each other's source: after the only sink of the user has
    gone both loggers stay enabled and connected, and unregistering either one
    recurses without end (for every amount of stack). *)
Definition ring : net := fst (n_run 3
  [NewLogger; NewLogger; NewLeaf; Connect 0 (Some 2); RegisterSource 0 (Some 1); RegisterSource 1 (Some 0)] []).

Theorem C65_cycle_refuted : exists w,
  n_step 3 (Disconnect 0 1) ring = (w, NUnit) /\
  snd (n_step 3 (IsEnabled 0) w) = NFlag true /\ snd (n_step 3 (IsEnabled 1) w) = NFlag true /\
  sinks w 0 = [1] /\ sinks w 1 = [0] /\
  forall fuel, snd (n_step fuel (UnregisterSource 0 1) w) = NFailed FFuel /\
               snd (n_step fuel (UnregisterSource 1 1) w) = NFailed FFuel.
Proof.
  eexists. split; [vm_compute; reflexivity|]. split; [vm_compute; reflexivity|]. split; [vm_compute; reflexivity|].
  split; [vm_compute; reflexivity|]. split; [vm_compute; reflexivity|].
  set (leaf := mk_nn NLeaf 0 {| sl_num := 0; sl_last := 0; sl_items := [] |} [] false).
  set (a := mk_nn NLogger 4294967295 {| sl_num := 0; sl_last := 0; sl_items := [None; None] |} [(Some 1, 1%N)] true).
  set (b := mk_nn NLogger 4294967295 {| sl_num := 0; sl_last := 0; sl_items := [None] |} [(Some 0, 2%N)] true).
  set (a0 := mk_nn NLogger 4294967295 {| sl_num := 1; sl_last := 2; sl_items := [None; Some 1] |} [(Some 1, 1%N)] true).
  set (b0 := mk_nn NLogger 4294967295 {| sl_num := 1; sl_last := 1; sl_items := [Some 0] |} [(Some 0, 2%N)] true).
  (* one level of the recursion *)
  assert (HA : forall f y x, y = b \/ y = b0 -> x = a \/ x = a0 ->
             disconnect f 1 1%N [a; y; leaf] = ([a; b; leaf], RFail FFuel) ->
             disconnect (S f) 0 2%N [x; y; leaf] = ([a; b; leaf], RFail FFuel)).
  { intros f y x Hy Hx H. cbn [disconnect with_node nth_error].
    replace (nn_kind x) with NLogger by (destruct Hx as [-> | ->]; reflexivity).
    replace (table_disconnect 0 2 [x; y; leaf]) with ([a; y; leaf], RDone tt)
      by (destruct Hx as [-> | ->], Hy as [-> | ->]; vm_compute; reflexivity).
    cbn [rbind with_node nth_error a nn_slots sl_num N.eqb pool_disconnect nn_pool length seq pool_disconnect_loop].
    fold a. rewrite H. reflexivity. }
  assert (HB : forall f y x, y = b \/ y = b0 -> x = a \/ x = a0 ->
             disconnect f 0 2%N [x; b; leaf] = ([a; b; leaf], RFail FFuel) ->
             disconnect (S f) 1 1%N [x; y; leaf] = ([a; b; leaf], RFail FFuel)).
  { intros f y x Hy Hx H. cbn [disconnect with_node nth_error].
    replace (nn_kind y) with NLogger by (destruct Hy as [-> | ->]; reflexivity).
    replace (table_disconnect 1 1 [x; y; leaf]) with ([x; b; leaf], RDone tt)
      by (destruct Hx as [-> | ->], Hy as [-> | ->]; vm_compute; reflexivity).
    cbn [rbind with_node nth_error b nn_slots sl_num N.eqb pool_disconnect nn_pool length seq pool_disconnect_loop].
    fold b. rewrite H. reflexivity. }
  assert (Hloop : forall f, disconnect f 0 2%N [a; b; leaf] = ([a; b; leaf], RFail FFuel) /\
                            disconnect f 1 1%N [a; b; leaf] = ([a; b; leaf], RFail FFuel)).
  { induction f as [|f [IH1 IH2]]; [split; reflexivity|]. split; [apply HA|apply HB]; auto. }
  intros fuel. destruct fuel as [|[|f]]; [vm_compute; auto..|]. destruct (Hloop f) as [H1 H2].
  assert (G1 : disconnect (S (S f)) 1 1%N [a0; b0; leaf] = ([a; b; leaf], RFail FFuel)) by (apply HB; auto).
  assert (G2 : disconnect (S (S f)) 0 2%N [a0; b0; leaf] = ([a; b; leaf], RFail FFuel)) by (apply HA; auto).
  generalize dependent (S (S f)). intros m G1 G2. split.
  - change (snd (answer_of (fun _ : unit => NUnit) (rbind (disconnect m 1 1%N [a0; b0; leaf]) (fun w1 _ => with_node 0 w1 (fun y =>
               (upd w1 0 (set_pool y (upd (nn_pool y) 0 (None, 0%N))), RDone tt))))) = NFailed FFuel).
    rewrite G1. reflexivity.
  - change (snd (answer_of (fun _ : unit => NUnit) (rbind (disconnect m 0 2%N [a0; b0; leaf]) (fun w1 _ => with_node 1 w1 (fun y =>
               (upd w1 1 (set_pool y (upd (nn_pool y) 0 (None, 0%N))), RDone tt))))) = NFailed FFuel).
    rewrite G2. reflexivity.
Qed.
Print Assumptions C65_cycle_refuted.
