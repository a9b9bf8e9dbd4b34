(** Property theorems about firing log records: C64. *)
From Coq Require Import List NArith Arith String Bool Lia Permutation.
From Verif Require Import Base BaseProofs Event EventProofs LogNet LogNetSpec LogNetProofs LogNetProps LogRecord LogRecordProofs Log LogSpec LogProofs.
Import ListNotations.
Open Scope list_scope.

(** Whatever network of events, loggers and sinks a record is fired into, whatever
    the filters decide and wherever an exception stops it: no named value the
    record has is removed or replaced, every observer sees all of them, observers
    never see a value disappear later, other records are left alone, and a name
    that was not in the record comes from a pool of pending values. *)
Theorem C64_values_are_kept : forall gen gen2 ord dec fuel i r w w' x,
  (forall l, Permutation (ord l) l) ->
  fire gen gen2 ord dec fuel i r w = (w', x) ->
  exists evs, f_log w' = f_log w ++ evs /\
    extends (rec_of w r) (rec_of w' r) /\
    (forall q, q <> r -> rec_of w' q = rec_of w q) /\
    Forall (fun e => extends (rec_of w r) (items_of e) /\ extends (items_of e) (rec_of w' r)) evs /\
    (forall s q items, In (Got s q items) evs -> q = r) /\
    forall n, lookup n (rec_of w' r) <> None -> lookup n (rec_of w r) = None -> pending_somewhere w n.
Proof.
  intros gen gen2 ord dec fuel i r w w' x Ho H. destruct (fire_step gen gen2 ord dec Ho r _ _ _ _ _ H) as (evs & [h1 h2 h3 h4 h5 h6 h7 h8 h9]).
  exists evs. split; [exact h8|]. split; [exact h5|]. split; [exact h4|]. split.
  - eapply Forall_impl; [|exact h9]. cbn beta. intros e (_ & a & b). auto.
  - split.
    + intros s q items Hi. rewrite Forall_forall in h9. destruct (h9 _ Hi) as (a & _). now apply a.
    + intros n Hn Hn0. destruct (h6 n Hn) as [H1|H1]; [congruence|exact H1].
Qed.
Print Assumptions C64_values_are_kept.

(** A sink is given the record at most once for every way to it. *)
Theorem C64_at_most_once_per_path : forall gen gen2 ord dec fuel i r w w' x s,
  (forall l, Permutation (ord l) l) ->
  fire gen gen2 ord dec fuel i r w = (w', x) ->
  exists evs, f_log w' = f_log w ++ evs /\ got s evs <= paths fuel w i s.
Proof.
  intros gen gen2 ord dec fuel i r w w' x s Ho H. destruct (fire_paths gen gen2 ord dec Ho r s fuel i w) as (evs & S1 & G).
  rewrite H in S1. exists evs. split; [exact (st_log _ _ _ _ S1)|exact G].
Qed.
Print Assumptions C64_at_most_once_per_path.

(** Without filters, exactly once for every way to it. *)
Theorem C64_once_per_path : forall gen gen2 ord dec depth fuel i r w s,
  (forall l, Permutation (ord l) l) ->
  sound depth w -> unfiltered w -> i < length (f_net w) -> depth i < fuel ->
  exists w' evs, fire gen gen2 ord dec fuel i r w = (w', RDone tt) /\ f_log w' = f_log w ++ evs /\ got s evs = paths fuel w i s.
Proof.
  intros gen gen2 ord dec depth fuel i r w s Ho Hs Hu Hi Hf.
  destruct (fire_exact gen gen2 ord dec Ho depth r s fuel i w Hs Hu Hi Hf) as (E & evs & S1 & G).
  destruct (fire gen gen2 ord dec fuel i r w) as [w' u]. cbn [fst snd] in *. subst u.
  exists w', evs. split; [reflexivity|]. split; [exact (st_log _ _ _ _ S1)|exact G].
Qed.
Print Assumptions C64_once_per_path.

(** Networks made by users (any history of C65 in which users connect their
    sinks): a record fired at [i] is given to a sink exactly if it should reach
    it according to what was connected and registered, and not before or after
    that. *)
Theorem C64_reaches_exactly_the_listeners : forall gen gen2 ord dec rank fuel h w i r s,
  (forall l, Permutation (ord l) l) ->
  (forall j, rank j < fuel) -> history rank fuel h (f_net w) -> length (f_parts w) = length (f_net w) ->
  (forall j c t, In (j, c, t) (nt_conns (notes_after h)) -> exists x, nth_error (f_net w) t = Some x /\ nn_kind x = NLeaf) ->
  unfiltered w -> user_sink w s ->
  (exists x, nth_error (f_net w) i = Some x /\ nn_kind x <> NLeaf) ->
  exists w' evs, fire gen gen2 ord dec (S (S fuel)) i r w = (w', RDone tt) /\ f_log w' = f_log w ++ evs /\
    (0 < got s evs <-> reaches (notes_after h) i s).
Proof.
  intros gen gen2 ord dec rank fuel h w i r s Ho Hf Hh Hl Hleaf Hu Hs Hi.
  pose proof (hist_sound rank fuel Hf h w Hh Hl Hleaf) as HS.
  assert (Hd : hdepth rank fuel w i < S (S fuel)) by (pose proof (hdepth_bound rank fuel w i); lia).
  destruct (C64_once_per_path gen gen2 ord dec _ (S (S fuel)) i r w s Ho HS Hu) as (w' & evs & E & El & G).
  - destruct Hi as (x & Hx & _). apply nth_error_Some. congruence.
  - exact Hd.
  - exists w', evs. split; [exact E|]. split; [exact El|]. rewrite G.
    exact (hist_paths rank fuel Hf h w Hh Hl Hleaf s Hs _ _ Hd Hi).
Qed.
Print Assumptions C64_reaches_exactly_the_listeners.

(** One logger in full: the record's own values win, the other pending values are
    added, every functor of the pool is called once; if the filter accepts the
    result every sink is given it once, in order, otherwise none is; the caller
    has the filled record either way. *)
Theorem C64_logger_exact : forall gen gen2 ord dec f i r w x p ops v,
  (forall l, Permutation (ord l) l) ->
  nth_error (f_net w) i = Some x -> nn_kind x = NLogger -> slots_visit (nn_slots x) = Done v ->
  nth_error (f_parts w) i = Some p -> pa_pend p = p_run ops ->
  (forall s, In s (map snd v) -> user_sink w s) -> r < length (f_recs w) ->
  exists w' items calls, fire gen gen2 ord dec (S (S f)) i r w = (w', RDone tt) /\
    filled gen2 (pm_run ops) (f_calls w) (f_calls w') (rec_of w r) items /\
    rec_of w' r = items /\
    f_calls w' = f_calls w ++ calls /\ Permutation calls (functors (pa_pend p)) /\
    f_log w' = f_log w ++
      (if match pa_filter p with None => true | Some k => dec k items end
       then map (fun s => Got s r items) (map snd v) else []).
Proof.
  intros gen gen2 ord dec f i r w x p ops v Ho Hx Hk Hv Hp Hops Hus Hr.
  destruct (apply_ok gen gen2 ord dec Ho p r w) as (items & Ha & Hi); [rewrite Hops; apply p_run_ok|].
  set (calls := functors (ord (pa_pend p))) in *. set (w1 := set_rec w r items (f_calls w ++ calls)) in *.
  assert (Hr1 : rec_of w1 r = items).
  { unfold w1. rewrite rec_set, Nat.eqb_refl. destruct (Nat.ltb_spec r (length (f_recs w))); [reflexivity|lia]. }
  assert (HF : fire gen gen2 ord dec (S (S f)) i r w =
    if accepts dec p items then fire_all (fire gen gen2 ord dec (S f)) (map snd v) r w1 else (w1, RDone tt)).
  { cbn [fire]. rewrite Hx, Hp, Hk, Ha, Hv, Hr1. reflexivity. }
  assert (Hall : fire_all (fire gen gen2 ord dec (S f)) (map snd v) r w1 =
    (mk_fw (f_net w1) (f_parts w1) (f_recs w1) (f_calls w1) (f_log w1 ++ map (fun s => Got s r items) (map snd v)), RDone tt)).
  { rewrite <- Hr1. apply fire_all_leaves. intros s Hs. exact (Hus s Hs). }
  assert (Hfill : filled gen2 (pm_run ops) (f_calls w) (f_calls w ++ calls) (rec_of w r) items).
  { apply filled_of. rewrite <- Hops. exact Hi. }
  rewrite HF, Hall. destruct (accepts dec p items) eqn:Eacc; unfold accepts in Eacc.
  - eexists. exists items, calls. split; [reflexivity|]. split; [exact Hfill|]. split; [exact Hr1|]. split; [reflexivity|].
    split; [apply functors_perm, Ho|]. rewrite Eacc. reflexivity.
  - exists w1, items, calls. split; [reflexivity|]. split; [exact Hfill|]. split; [exact Hr1|]. split; [reflexivity|].
    split; [apply functors_perm, Ho|]. rewrite Eacc, app_nil_r. reflexivity.
Qed.
Print Assumptions C64_logger_exact.

(** A stream sink in full: without formatter it throws and changes nothing;
    otherwise as above, each stream being written to once, in order. *)
Theorem C64_stream_sink_exact : forall gen gen2 ord dec f i r w x p ops,
  (forall l, Permutation (ord l) l) ->
  nth_error (f_net w) i = Some x -> nn_kind x = NLeaf -> nth_error (f_parts w) i = Some p -> pa_stream p = true ->
  pa_pend p = p_run ops -> r < length (f_recs w) ->
  (pa_fmt p = false -> fire gen gen2 ord dec (S f) i r w = (w, RFail (FThrow Uninitialized))) /\
  (pa_fmt p = true -> Forall (fun o => valid_out p o = true) (pa_outs p) ->
   exists w' items calls, fire gen gen2 ord dec (S f) i r w = (w', RDone tt) /\
    filled gen2 (pm_run ops) (f_calls w) (f_calls w') (rec_of w r) items /\
    rec_of w' r = items /\
    f_calls w' = f_calls w ++ calls /\ Permutation calls (functors (pa_pend p)) /\
    f_log w' = f_log w ++
      (if match pa_filter p with None => true | Some k => dec k items end
       then map (fun o => Wrote i o items) (pa_outs p) else [])).
Proof.
  intros gen gen2 ord dec f i r w x p ops Ho Hx Hk Hp Hs Hops Hr. split.
  - intros Hn. cbn [fire]. rewrite Hx, Hp, Hk, Hs, Hn. reflexivity.
  - intros Hn Hou. destruct (apply_ok gen gen2 ord dec Ho p r w) as (items & Ha & Hi); [rewrite Hops; apply p_run_ok|].
    set (calls := functors (ord (pa_pend p))) in *. set (w1 := set_rec w r items (f_calls w ++ calls)) in *.
    assert (Hr1 : rec_of w1 r = items).
    { unfold w1. rewrite rec_set, Nat.eqb_refl. destruct (Nat.ltb_spec r (length (f_recs w))); [reflexivity|lia]. }
    assert (HF : fire gen gen2 ord dec (S f) i r w = if accepts dec p items then write_all i p (pa_outs p) r w1 else (w1, RDone tt)).
    { cbn [fire]. rewrite Hx, Hp, Hk, Hs, Hn, Ha, Hr1. reflexivity. }
    assert (Hfill : filled gen2 (pm_run ops) (f_calls w) (f_calls w ++ calls) (rec_of w r) items).
    { apply filled_of. rewrite <- Hops. exact Hi. }
    destruct (write_all_ok i p r (pa_outs p) w1 Hou) as (w2 & E2 & h1 & h2 & _ & _ & h3).
    rewrite HF, E2. destruct (accepts dec p items) eqn:Eacc; unfold accepts in Eacc.
    + exists w2, items, calls. split; [reflexivity|]. rewrite h2. split; [exact Hfill|].
      split; [unfold rec_of; rewrite h1; exact Hr1|]. split; [reflexivity|]. split; [apply functors_perm, Ho|].
      rewrite h3, Hr1, Eacc. reflexivity.
    + exists w1, items, calls. split; [reflexivity|]. split; [exact Hfill|]. split; [exact Hr1|]. split; [reflexivity|].
      split; [apply functors_perm, Ho|]. rewrite Eacc, app_nil_r. reflexivity.
Qed.
Print Assumptions C64_stream_sink_exact.

(** A stream sink with any streams and as many files as fit in the first array
    of [files_] points to existing streams only. *)
Theorem C64_few_files : forall grow q ops,
  (forall c, c < grow c) -> pa_files q = 0 -> pa_cap q = 0 -> pa_outs q = [] -> files_in ops <= grow 0 ->
  Forall (fun o => valid_out (s_run grow ops q) o = true) (pa_outs (s_run grow ops q)).
Proof. intros grow q ops Hg H0 H1 H2 Hf. now apply s_run_valid. Qed.
Print Assumptions C64_few_files.

(** Refuted: "a record fired at a stream sink is written to every file that was
    added": whatever the growth of vectors, as soon as [files_] has been moved to
    a second array, firing any record that passes the filter reads a dangling
    pointer. *)
Theorem C64_files_refuted : forall grow q ops, (forall c, c < grow c) ->
  pa_files q = 0 -> pa_cap q = 0 -> pa_outs q = [] -> grow 0 < files_in ops ->
  pa_stream q = true -> pa_fmt q = true -> pa_filter q = None -> pa_pend q = [] ->
  forall gen gen2 ord dec f i r w x, (forall l, Permutation (ord l) l) ->
  nth_error (f_net w) i = Some x -> nn_kind x = NLeaf -> nth_error (f_parts w) i = Some (s_run grow ops q) ->
  exists w', fire gen gen2 ord dec (S f) i r w = (w', RFail FUB).
Proof.
  intros grow q ops Hg H0 H1 H2 Hf Hs Hm Hfl Hpe gen gen2 ord dec f i r w x Ho Hx Hk Hp.
  destruct (s_run_kept grow q ops) as (k1 & k2 & k3 & k4).
  destruct (s_run_many grow Hg q H0 H1 ops H2 Hf) as (Hb & k & Hin).
  destruct (apply_ok gen gen2 ord dec Ho (s_run grow ops q) r w) as (items & Ha & _); [rewrite k4, Hpe; split; constructor|].
  cbn [fire]. rewrite Hx, Hp, Hk, k1, Hs, k2, Hm, Ha. unfold accepts. rewrite k3, Hfl.
  eapply write_all_bad; [exact Hin|]. cbn [valid_out]. destruct (Nat.eqb_spec (S (pa_block q)) (pa_block (s_run grow ops q))); [lia|reflexivity].
Qed.
Print Assumptions C64_files_refuted.

(** ** Cases *)

Open Scope string_scope.
Definition x_gen (f k : nat) : N := 0%N.
Definition x_gen2 (f k : nat) : lvalue := LConst 3 (N.of_nat (10 * f + k)).
Definition x_ord (l : list (string * lvalue)) := rev l.
Definition x_dec (f : nat) (items : list (string * lvalue)) : bool :=
  match lookup "level" items with Some (LConst _ v) => N.ltb (N.of_nat f) v | _ => false end.
Lemma x_ord_perm : forall l, Permutation (x_ord l) l.
Proof. intros l. unfold x_ord. apply Permutation_sym, Permutation_rev. Qed.

Definition x_plain : part := mk_part false [] None false [] 0 0 0.
Definition x_ops : list pop := [PAdd "node" (LConst 1 7); PAdd "seq" (LCall2 2); PAdd "level" (LConst 0 9); PUpdate "node" (LConst 1 8); PAdd "seq" (LConst 1 0)].
Definition x_logger (flt : option nat) : part := mk_part false (p_run x_ops) flt false [] 0 0 0.
(** Event 0 is a source of loggers 1 and 2, 1 is a source of 2; sinks 3 and 4. *)
Definition x_nops : list nop :=
  [NewEvent 5; NewLogger; NewLogger; NewLeaf; NewLeaf; RegisterSource 1 (Some 0); RegisterSource 2 (Some 0);
   RegisterSource 2 (Some 1); Connect 2 (Some 3); Connect 1 (Some 4)].
Definition x_net : net := fst (n_run 5 x_nops []).
Definition x_world (flt : option nat) : fworld :=
  mk_fw x_net [x_plain; x_logger flt; x_plain; x_plain; x_plain] [[("level", LConst 0 5)]] [] [].

(** Sink 3 is reached in two ways; the record's own level is kept. *)
Example C64_once_per_path_ex :
  exists w', fire x_gen x_gen2 x_ord x_dec 4 0 0 (x_world None) = (w', RDone tt) /\
    got 3 (f_log w') = 2 /\ got 4 (f_log w') = 1 /\ paths 4 (x_world None) 0 3 = 2 /\
    lookup "level" (rec_of w' 0) = Some (LConst 0 5) /\ lookup "node" (rec_of w' 0) = Some (LConst 1 8) /\
    lookup "seq" (rec_of w' 0) = Some (LConst 3 20).
Proof. eexists. vm_compute. auto 10. Qed.

Example C64_sound_ex : sound (fun i => nth i [4; 3; 2; 0; 0] 0) (x_world None) /\ unfiltered (x_world None).
Proof.
  split.
  - split.
    + intros i x Hx. do 5 (destruct i as [|i]; [vm_compute in Hx; injection Hx as <-; eexists; vm_compute; reflexivity|]).
      vm_compute in Hx. destruct i; discriminate.
    + intros i j Hj. do 5 (destruct i as [|i]; [vm_compute in Hj; repeat (destruct Hj as [<-|Hj]; [vm_compute; lia|]); destruct Hj|]).
      unfold sinks in Hj. destruct (nth_error (f_net (x_world None)) (S (S (S (S (S i)))))) eqn:E; [|destruct Hj].
      vm_compute in E. destruct i; discriminate.
    + reflexivity.
  - intros i p Hp.
    assert (Hpo : pool_ok (p_run x_ops)) by apply p_run_ok.
    do 5 (destruct i as [|i]; [cbn [x_world f_parts nth_error] in Hp; injection Hp as <-; (split; [reflexivity|]);
      (split; [first [exact Hpo|split; constructor]|cbn; congruence])|]).
    destruct i; discriminate.
Qed.

Definition x_rank (i : nat) : nat := match i with 1 => 1 | 2 => 2 | _ => 0 end.
Example C64_reaches_ex : exists h w, w = x_world None /\ (forall j, x_rank j < 5) /\ history x_rank 5 h (f_net w) /\
  length (f_parts w) = length (f_net w) /\
  (forall j c t, In (j, c, t) (nt_conns (notes_after h)) -> exists x, nth_error (f_net w) t = Some x /\ nn_kind x = NLeaf) /\
  unfiltered w /\ user_sink w 3 /\ reaches (notes_after h) 0 3 /\ ~ reaches (notes_after h) 2 4.
Proof.
  exists (fst (LogNetProps.grow 5 x_nops [] [])), (x_world None). split; [reflexivity|].
  split; [intros j; unfold x_rank; do 3 (destruct j as [|j]; [lia|]); lia|].
  assert (Hn : notes_after (fst (LogNetProps.grow 5 x_nops [] [])) =
    mk_notes [(1, 2%N, 4); (2, 1%N, 3)] [(2, 2%N, 1); (2, 1%N, 0); (1, 1%N, 0)]) by (vm_compute; reflexivity).
  split.
  - assert (E : f_net (x_world None) = snd (LogNetProps.grow 5 x_nops [] [])) by (vm_compute; reflexivity). rewrite E. clear E.
    apply history_grow; [constructor|]. unfold x_nops. cbn [fine].
    repeat match goal with
    | |- _ /\ _ => split
    | |- True => exact I
    | |- proper _ _ _ (NewEvent _) => vm_compute; split; reflexivity
    | |- proper _ _ _ (Connect _ _) => split; [discriminate|vm_compute; eexists; split; [reflexivity|discriminate]]
    | |- proper _ _ _ (RegisterSource _ _) => split;
        [vm_compute; eexists; split; reflexivity
        |intros i [= <-]; split; [vm_compute; lia|vm_compute; eexists; split; [reflexivity|discriminate]]]
    | |- proper _ _ _ _ => exact I
    | |- match _ with _ => _ end => vm_compute; exact I
    end.
  - rewrite Hn. split; [reflexivity|]. split.
    + cbn [nt_conns In]. intros j c t [[= <- <- <-]|[[= <- <- <-]|[]]]; vm_compute; eexists; split; reflexivity.
    + split; [apply C64_sound_ex|]. split; [vm_compute; eexists; eexists; repeat split|]. split.
      * eapply reaches_logger with (m := 2); [right; left; reflexivity|]. eapply reaches_user. right. left. reflexivity.
      * intros H. inversion H as [? ? ? Hi|? ? m ? Hi Hm]; subst; cbn [nt_conns nt_regs In] in Hi;
          repeat (destruct Hi as [Hi|Hi]; [discriminate|]); exact Hi.
Qed.

(** The logger of the case alone: accepted with a filter for levels above 4,
    rejected with one above 6; the record is filled either way. *)
Definition x_one (flt : option nat) : fworld :=
  mk_fw (fst (n_run 5 [NewLogger; NewLeaf; NewLeaf; Connect 0 (Some 1); Connect 0 (Some 2)] []))
        [x_logger flt; x_plain; x_plain] [[("level", LConst 0 5)]] [] [].
Example C64_logger_exact_ex :
  (exists w', fire x_gen x_gen2 x_ord x_dec 2 0 0 (x_one (Some 4)) = (w', RDone tt) /\ length (f_log w') = 2) /\
  (exists w', fire x_gen x_gen2 x_ord x_dec 2 0 0 (x_one (Some 6)) = (w', RDone tt) /\ f_log w' = [] /\
              lookup "node" (rec_of w' 0) = Some (LConst 1 8)) /\
  (exists x v, nth_error (f_net (x_one None)) 0 = Some x /\ nn_kind x = NLogger /\ slots_visit (nn_slots x) = Done v /\
     map snd v = [1; 2] /\ forall s, In s (map snd v) -> user_sink (x_one None) s).
Proof.
  split; [eexists; vm_compute; auto|]. split; [eexists; vm_compute; auto|].
  eexists. eexists. split; [vm_compute; reflexivity|]. split; [reflexivity|]. split; [vm_compute; reflexivity|]. split; [reflexivity|].
  intros s [<-|[<-|[]]]; eexists; eexists; vm_compute; auto.
Qed.

(** Stream sinks: with a capacity that starts at 1 and doubles, one file and two
    streams are fine, and a second file makes the first dangle. *)
Definition x_grow (c : nat) : nat := if Nat.eqb c 0 then 1 else 2 * c.
Definition x_stream : part := mk_part true [] None true [] 0 0 0.
Lemma x_grow_up : forall c, c < x_grow c.
Proof. intros c. unfold x_grow. destruct (Nat.eqb_spec c 0); lia. Qed.
Definition x_sink (ops : list sop) : fworld :=
  mk_fw (fst (n_run 5 [NewLeaf] [])) [s_run x_grow ops x_stream] [[("level", LConst 0 5)]] [] [].

Example C64_stream_sink_exact_ex :
  exists w', fire x_gen x_gen2 x_ord x_dec 1 0 0 (x_sink [SStream 7; SFile; SStream 8]) = (w', RDone tt) /\
    f_log w' = map (fun o => Wrote 0 o [("level", LConst 0 5%N)]) [OutUser 7; OutFile 1 0; OutUser 8].
Proof. eexists. vm_compute. auto. Qed.

Example C64_few_files_ex : files_in [SStream 7; SFile; SStream 8] <= x_grow 0.
Proof. vm_compute. lia. Qed.

Example C64_files_refuted_ex : x_grow 0 < files_in [SFile; SFile] /\
  fire x_gen x_gen2 x_ord x_dec 1 0 0 (x_sink [SFile; SFile]) = (x_sink [SFile; SFile], RFail FUB).
Proof. split; [vm_compute; lia|vm_compute; reflexivity]. Qed.

(** Refuted: "a sink only sees the values of the record and of the loggers on the
    way to it": the record is shared, so the pending values of a stream sink
    appear in what the next sink of the same logger is given, and in the record
    the caller keeps, even when the stream sink's filter rejects the record. *)
Definition x_leak (flt : option nat) : fworld :=
  mk_fw (fst (n_run 5 [NewLogger; NewLeaf; NewLeaf; Connect 0 (Some 1); Connect 0 (Some 2)] []))
        [x_plain; mk_part true (p_run [PAdd "secret" (LConst 1 7)]) flt true [OutUser 0] 0 0 0; x_plain]
        [[("level", LConst 0 5)]] [] [].
Theorem C64_isolation_refuted : exists w',
  fire x_gen x_gen2 x_ord x_dec 2 0 0 (x_leak (Some 6)) = (w', RDone tt) /\
  f_log w' = [Got 2 0 [("secret", LConst 1 7); ("level", LConst 0 5)]%N] /\
  lookup "secret" (rec_of w' 0) = Some (LConst 1 7%N) /\
  lookup "secret" (rec_of (x_leak (Some 6)) 0) = None.
Proof. eexists. vm_compute. auto. Qed.
Print Assumptions C64_isolation_refuted.

(** Refuted: "an exception of one sink does not keep the record from the other
    sinks": a stream sink without formatter throws, and the sinks after it are
    not given the record. *)
Theorem C64_exception_refuted : exists w x,
  w = mk_fw (fst (n_run 5 [NewLogger; NewLeaf; NewLeaf; Connect 0 (Some 1); Connect 0 (Some 2)] []))
        [x_plain; mk_part true [] None false [] 0 0 0; x_plain] [[("level", LConst 0 5%N)]] [] [] /\
  sinks (f_net w) 0 = [1; 2] /\ user_sink w 2 /\
  fire x_gen x_gen2 x_ord x_dec 2 0 0 w = (x, RFail (FThrow Uninitialized)) /\ f_log x = [].
Proof.
  eexists. eexists. split; [reflexivity|]. split; [vm_compute; reflexivity|].
  split; [eexists; eexists; vm_compute; auto|]. vm_compute. auto.
Qed.
Print Assumptions C64_exception_refuted.
