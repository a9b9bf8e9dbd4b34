(** Properties of the containers of probes and statistics. *)
From Coq Require Import List NArith Arith Lia String Sorted Permutation.
From Coq Require Import ZifyBool ZifyNat ZifyN.
From Verif Require Import Base BaseProofs Event EventSpec EventProofs Stat StatSpec StatProofs.
Import ListNotations.
Open Scope list_scope.

Lemma sorted_perm_eq : forall v v' : list (N * nat),
  StronglySorted N.lt (map fst v) -> StronglySorted N.lt (map fst v') -> Permutation v v' -> v = v'.
Proof.
  induction v as [|[c s] v IH]; intros v' Hs Hs' HP.
  - apply Permutation_nil in HP. now subst.
  - destruct v' as [|[c' s'] v']; [apply Permutation_sym, Permutation_nil in HP; discriminate|].
    cbn [map fst] in *. inversion Hs as [|? ? Hs1 Hf]; inversion Hs' as [|? ? Hs1' Hf']; subst.
    rewrite Forall_forall in Hf, Hf'.
    assert (E : (c, s) = (c', s')).
    { assert (H1 : In (c, s) ((c', s') :: v')) by (apply (Permutation_in _ HP); now left).
      assert (H2 : In (c', s') ((c, s) :: v)) by (apply (Permutation_in _ (Permutation_sym HP)); now left).
      destruct H1 as [H1|H1]; [congruence|]. destruct H2 as [H2|H2]; [congruence|].
      apply (in_map fst) in H1, H2. apply Hf' in H1. apply Hf in H2. cbn [fst] in *. lia. }
    injection E as <- <-. f_equal. apply IH; [exact Hs1|exact Hs1'|]. eapply Permutation_cons_inv, HP.
Qed.

Lemma entries_fst_sorted (l : list (option nat)) : StronglySorted N.lt (map fst (entries 0 l)).
Proof.
  pose proof (entries_sorted l 0) as Hsort. unfold cookie_sorted in Hsort. revert Hsort.
  generalize (entries 0 l). intros v Hl. induction Hl as [|e v Hl IH Hfa]; cbn [map]; [constructor|].
  constructor; [exact IH|]. apply Forall_map. exact Hfa.
Qed.

Section Props.
Context (fl : flavour) (provides : nat -> nat -> bool).

Lemma reached_R w : reached fl provides w -> exists k, R k w.
Proof.
  intros (l & r & Ho & Hr). destruct (s_run_ok fl provides l Ho _ _ R_init) as (w' & r' & k & Hr' & _ & _ & HR).
  rewrite Hr in Hr'. injection Hr' as <- _. now exists k.
Qed.

Lemma get_answer k w b n : R k w ->
  (exists p, means k b n p /\ s_call fl provides (GetPoint b n) w = Done (w, APoint p)) \/
  (b < bk_boxes k /\ unknown k b n /\ s_call fl provides (GetPoint b n) w = Done (w, AThrew (missing fl))) \/
  (bk_boxes k <= b /\ s_call fl provides (GetPoint b n) w = Done (w, ANoSuch)).
Proof.
  intros HR. unfold s_call. cbn [s_step]. destruct (nth_error (sw_boxes w) b) as [x|] eqn:Hx.
  - unfold get_point. destruct (find_name n x) as [p|] eqn:Ef; cbn [obind].
    + left. exists p. split; [eapply R_known; eassumption|reflexivity].
    + right. left. split; [eapply R_lt; eassumption|]. split; [eapply R_unknown; eassumption|reflexivity].
  - right. right. split; [eapply R_ge; eassumption|reflexivity].
Qed.

Lemma means_unique k w b n p q : R k w -> means k b n p -> means k b n q -> p = q.
Proof.
  intros HR H1 H2. apply (r_names _ _ HR) in H1, H2. exact (has_unique _ _ _ _ _ (r_uniq _ _ HR) H1 H2).
Qed.

Lemma means_box k w b n p : R k w -> means k b n p -> b < bk_boxes k.
Proof. intros HR H. apply (r_names _ _ HR) in H. destruct H as (x & Hx & _). eapply R_lt; eassumption. Qed.

Lemma get_means k w b n p : R k w -> means k b n p <-> s_call fl provides (GetPoint b n) w = Done (w, APoint p).
Proof.
  intros HR. split.
  - intros Hm. destruct (get_answer k w b n HR) as [(q & Hq & ->)|[(_ & Hu & _)|[Hb _]]].
    + now rewrite (means_unique _ _ _ _ _ _ HR Hm Hq).
    + now destruct (Hu p).
    + apply (means_box _ _ _ _ _ HR) in Hm. lia.
  - destruct (get_answer k w b n HR) as [(q & Hq & ->)|[(_ & _ & ->)|[_ ->]]]; intros [= E]; now subst.
Qed.

(** A firing calls the connected sinks, and that determines the answer. *)
Lemma fire_answer k w p v : R k w -> p < length (bk_kinds k) ->
  StronglySorted N.lt (map fst v) -> Permutation v (links_of k p) ->
  s_call fl provides (FirePoint p) w = Done (w, ACalls (map snd v)).
Proof.
  intros HR Hp Hs HP. rewrite <- (r_kinds _ _ HR), map_length in Hp. unfold s_call. cbn [s_step].
  destruct (nth_error (sw_points w) p) as [q|] eqn:Hq; [|apply nth_error_None in Hq; lia].
  destruct (r_slots _ _ HR _ _ Hq) as [Hok HPq]. rewrite (slots_visit_ok unlimited) by exact Hok. cbn [obind].
  rewrite (sorted_perm_eq v (entries 0 (sl_items (pt_slots q)))); [reflexivity|exact Hs|apply entries_fst_sorted|].
  now rewrite HPq.
Qed.

End Props.

(** C63: every history of calls is answered as the book allows, without
    undefined behaviour. *)
Theorem C63_refines : forall fl provides l, Forall in_order l ->
  exists w r k, s_run fl provides l sworld_init = Done (w, r) /\ length r = length l /\
    explained fl provides book_init (combine l r) k.
Proof.
  intros fl provides l Ho. destruct (s_run_ok fl provides l Ho _ _ R_init) as (w & r & k & H1 & H2 & H3 & _).
  exists w, r, k. auto.
Qed.
Print Assumptions C63_refines.

(** A history with two containers: a name is added twice, containers are
    merged, a sink is connected through the merged name and the probe fires. *)
Definition demo : list sop :=
  [NewBox; NewBox; AddName 0 0 "a"; AddName 0 0 "a"; AddName 1 0 "x.a"; AddName 0 0 "b";
   MergeFrom 1 "x." 0 (@rev _); GetPoint 1 "x.b"; GetPoint 1 "x.a";
   ConnectName 1 "x.b" (Some 7); ConnectName 0 "b" (Some 8); FirePoint 2; DisconnectName 0 "b" 1; FirePoint 2;
   ConnectName 0 "z" (Some 7); ConnectName 0 "a" None]%string.

Lemma demo_order : Forall in_order demo.
Proof. repeat constructor. intros l. cbn. symmetry. apply Permutation_rev. Qed.

Example C63_refines_ex :
  s_run Probes (fun _ _ => true) demo sworld_init =
  Done (fst (match s_run Probes (fun _ _ => true) demo sworld_init with Done x => x | _ => (sworld_init, []) end),
    [ABox 0; ABox 1; APoint 0; AThrew ProbeAlreadyRegistered; APoint 1; APoint 2; AUnit; APoint 2; APoint 1;
     ACookie 1; ACookie 2; ACalls [7; 8]; AUnit; ACalls [8]; AThrew ProbeNotRegistered; AThrew InvalidPointer]).
Proof. vm_compute. reflexivity. Qed.

(** C63: once a name of a container stands for a probe, it stands for that
    probe for ever, whatever else is called, unless that name is erased. *)
Theorem C63_never_replaced : forall fl provides w b n p l w' r,
  reached fl provides w -> Forall in_order l ->
  s_call fl provides (GetPoint b n) w = Done (w, APoint p) ->
  ~ In (EraseName b n) l ->
  s_run fl provides l w = Done (w', r) ->
  s_call fl provides (GetPoint b n) w' = Done (w', APoint p).
Proof.
  intros fl provides w b n p l w' r Hw Ho Hg Hne Hr. destruct (reached_R _ _ _ Hw) as (k & HR). clear Hw.
  apply (get_means _ _ _ _ _ _ _ HR) in Hg. revert k w r HR Hg Hr.
  induction l as [|o t IH]; intros k w r HR Hg Hr; cbn [s_run] in Hr.
  - injection Hr as <- _. now apply (get_means _ _ _ _ _ _ _ HR).
  - inversion Ho as [|? ? H1 H2]; subst.
    destruct (s_call_ok fl provides o k w H1 HR) as (w1 & a & k1 & Hc & Ha & HR1). rewrite Hc in Hr. cbn [obind] in Hr.
    destruct (s_run fl provides t w1) as [[w2 r2]| | |] eqn:Et; try discriminate. cbn [obind] in Hr.
    injection Hr as <- _.
    apply (IH H2) with (k := k1) (w := w1) (r := r2); auto; [intros Hi; apply Hne; now right|].
    assert (Hno : o <> EraseName b n) by (intros ->; apply Hne; now left).
    inversion Ha; subst; try exact Hg.
    + unfold means. cbn. apply in_or_app. now left.
    + apply H0. split; [exact Hg|]. intros [-> ->]. now apply Hno.
    + match goal with H : merged _ _ _ _ _ |- _ => apply H end. now left.
Qed.
Print Assumptions C63_never_replaced.

Definition two_boxes : sworld :=
  match s_run Probes (fun _ _ => true) [NewBox; NewBox; AddName 0 0 "a"; AddName 1 0 "b"]%string sworld_init with
  | Done (w, _) => w | _ => sworld_init end.

Lemma two_boxes_reached : reached Probes (fun _ _ => true) two_boxes.
Proof.
  exists [NewBox; NewBox; AddName 0 0 "a"; AddName 1 0 "b"]%string, [ABox 0; ABox 1; APoint 0; APoint 1].
  split; [repeat constructor|vm_compute; reflexivity].
Qed.

Example C63_never_replaced_ex :
  s_call Probes (fun _ _ => true) (GetPoint 0 "a") two_boxes = Done (two_boxes, APoint 0) /\
  match s_run Probes (fun _ _ => true) [AddName 0 0 "a"; MergeFrom 0 "" 1 (fun l => l); MergeFrom 0 "" 0 (fun l => l); EraseName 0 "b"]%string two_boxes with
  | Done (w', r) => r = [AThrew ProbeAlreadyRegistered; AUnit; AUnit; AUnit] /\
                    s_call Probes (fun _ _ => true) (GetPoint 0 "a") w' = Done (w', APoint 0)
  | _ => False end.
Proof. vm_compute. repeat split. Qed.

(** C63: what [MergeFrom] does to every name of every container.  The container
    merged may be the container merged into. *)
Theorem C63_merge : forall fl provides w dst pre src ord,
  reached fl provides w -> (forall l, Permutation (ord l) l) ->
  dst < length (sw_boxes w) -> src < length (sw_boxes w) ->
  exists w', s_call fl provides (MergeFrom dst pre src ord) w = Done (w', AUnit) /\
    (forall b n p, s_call fl provides (GetPoint b n) w = Done (w, APoint p) ->
       s_call fl provides (GetPoint b n) w' = Done (w', APoint p)) /\
    (forall b n, b <> dst \/ (forall m, n <> (pre ++ m)%string) -> forall a,
       s_call fl provides (GetPoint b n) w = Done (w, a) -> s_call fl provides (GetPoint b n) w' = Done (w', a)) /\
    (forall m, s_call fl provides (GetPoint dst (pre ++ m)) w = Done (w, AThrew (missing fl)) -> forall a,
       s_call fl provides (GetPoint src m) w = Done (w, a) ->
       s_call fl provides (GetPoint dst (pre ++ m)) w' = Done (w', a)).
Proof.
  intros fl provides w dst pre src ord Hw Hord Hd Hs. destruct (reached_R _ _ _ Hw) as (k & HR).
  destruct (s_call_ok fl provides (MergeFrom dst pre src ord) k w Hord HR) as (w' & a & k' & Hc & Ha & HR').
  pose proof (r_boxes _ _ HR) as Hlen.
  assert (Ha' : a = AUnit /\ bk_boxes k' = bk_boxes k /\ merged k dst pre src (bk_names k')).
  { inversion Ha; subst; [split; [reflexivity|split; [reflexivity|assumption]]|exfalso ..];
    repeat match goal with H : _ \/ _ |- _ => destruct H | H : exists _, _ |- _ => destruct H end; try discriminate;
    match goal with H : MergeFrom _ _ _ _ = _ |- _ => injection H as; subst; lia end. }
  destruct Ha' as (-> & Hbx & Hmg). exists w'. split; [exact Hc|].
  assert (Hkeep : forall b n p, means k b n p -> means k' b n p) by (intros b n p H; apply Hmg; now left).
  split; [|split].
  - intros b n p H. apply (get_means _ _ _ _ _ _ _ HR) in H. apply (get_means _ _ _ _ _ _ _ HR'). auto.
  - intros b n Hbn a Hg.
    destruct (get_answer fl provides k w b n HR) as [(q & Hq & Hq')|[(Hb & Hu & Hq')|[Hb Hq']]];
      rewrite Hq' in Hg; injection Hg as <-.
    + apply (get_means _ _ _ _ _ _ _ HR'). auto.
    + destruct (get_answer fl provides k' w' b n HR') as [(p & Hp & _)|[(_ & _ & H)|[Hb' _]]]; [exfalso|exact H|lia].
      apply Hmg in Hp. destruct Hp as [Hp|(-> & _ & m & -> & _)]; [exact (Hu _ Hp)|].
      destruct Hbn as [Hbn|Hbn]; [congruence|exact (Hbn m eq_refl)].
    + destruct (get_answer fl provides k' w' b n HR') as [(p & Hp & _)|[(Hb' & _)|[_ H]]]; [|lia|exact H].
      apply (means_box _ _ _ _ _ HR') in Hp. lia.
  - intros m Hnone a Hg.
    destruct (get_answer fl provides k w dst (pre ++ m) HR) as [(q & Hq & Hq')|[(_ & Hu & _)|[Hb _]]]; [congruence| |lia].
    destruct (get_answer fl provides k w src m HR) as [(q & Hq & Hq')|[(Hb & Hu' & Hq')|[Hb Hq']]];
      rewrite Hq' in Hg; injection Hg as <-; [| |lia].
    + apply (get_means _ _ _ _ _ _ _ HR'). apply Hmg. right. split; [reflexivity|]. split; [exact Hu|]. now exists m.
    + destruct (get_answer fl provides k' w' dst (pre ++ m) HR') as [(p & Hp & _)|[(_ & _ & H)|[Hb' _]]]; [exfalso|exact H|lia].
      apply Hmg in Hp. destruct Hp as [Hp|(_ & _ & m' & He & Hp)]; [exact (Hu _ Hp)|].
      apply append_inj in He. subst m'. exact (Hu' _ Hp).
Qed.
Print Assumptions C63_merge.

Example C63_merge_ex : reached Probes (fun _ _ => true) two_boxes /\
  match s_call Probes (fun _ _ => true) (MergeFrom 0 "a" 0 (fun l => l))%string two_boxes with
  | Done (w', AUnit) =>
      s_call Probes (fun _ _ => true) (GetPoint 0 "aa") w' = Done (w', APoint 0) /\
      s_call Probes (fun _ _ => true) (GetPoint 0 "aaa") w' = Done (w', AThrew ProbeNotRegistered)
  | _ => False end.
Proof. split; [exact two_boxes_reached|]. vm_compute. repeat split. Qed.

(** C63: [Add] fails exactly when the name is taken, and then changes nothing;
    otherwise the name stands for a probe no name stood for. *)
Theorem C63_add : forall fl provides w b kd n,
  reached fl provides w -> b < length (sw_boxes w) ->
  (exists p, s_call fl provides (GetPoint b n) w = Done (w, APoint p) /\
     s_call fl provides (HasName b n) w = Done (w, AFlag true) /\
     s_call fl provides (AddName b kd n) w = Done (w, AThrew (already fl))) \/
  (exists p w', s_call fl provides (HasName b n) w = Done (w, AFlag false) /\
     s_call fl provides (AddName b kd n) w = Done (w', APoint p) /\
     s_call fl provides (GetPoint b n) w' = Done (w', APoint p) /\
     s_call fl provides (FirePoint p) w' = Done (w', ACalls []) /\
     (forall b' n', s_call fl provides (GetPoint b' n') w <> Done (w, APoint p)) /\
     (forall b' n' a, b' <> b \/ n' <> n ->
        s_call fl provides (GetPoint b' n') w = Done (w, a) -> s_call fl provides (GetPoint b' n') w' = Done (w', a))).
Proof.
  intros fl provides w b kd n Hw Hb. destruct (reached_R _ _ _ Hw) as (k & HR).
  pose proof (r_boxes _ _ HR) as Hlen.
  destruct (nth_error (sw_boxes w) b) as [x|] eqn:Hx; [|apply nth_error_None in Hx; lia].
  destruct (find_name n x) as [p|] eqn:Ef.
  - left. exists p. unfold s_call. cbn [s_step]. rewrite Hx. unfold get_point, emplace. rewrite Ef. auto.
  - right. pose proof (R_unknown _ _ _ _ _ HR Hx Ef) as Hu.
    destruct (s_call_ok fl provides (AddName b kd n) k w I HR) as (w' & a & k' & Hc & Ha & HR').
    inversion Ha; subst.
    2:{ exfalso. match goal with H : means _ _ _ _ |- _ => exact (Hu _ H) end. }
    2:{ exfalso. repeat match goal with H : _ \/ _ |- _ => destruct H | H : exists _, _ |- _ => destruct H end; try discriminate.
        match goal with H : AddName _ _ _ = _ |- _ => injection H as; subst; lia end. }
    2:{ exfalso. repeat match goal with H : _ \/ _ |- _ => destruct H end; discriminate. }
    match type of HR' with R ?K _ => set (k' := K) in * end.
    assert (Hlen' : length (bk_kinds k) = length (sw_points w)) by (rewrite <- (r_kinds _ _ HR); apply map_length).
    exists (length (bk_kinds k)), w'. split; [|split; [exact Hc|split; [|split; [|split]]]].
    + unfold s_call. cbn [s_step]. now rewrite Hx, Ef.
    + apply (get_means _ _ k' _ _ _ _ HR'). unfold means, k'. cbn. apply in_or_app. right. now left.
    + apply (fire_answer fl provides k' w' _ [] HR').
      * cbn [bk_kinds k']. rewrite app_length. cbn. lia.
      * constructor.
      * change (links_of k' (length (bk_kinds k))) with (links_of k (length (bk_kinds k))).
        rewrite (links_none _ w _ HR) by lia. constructor.
    + intros b' n' Hg. apply (get_means _ _ _ _ _ _ _ HR) in Hg. apply (r_names _ _ HR) in Hg.
      apply (r_range _ _ HR) in Hg. lia.
    + intros b' n' a Hne Hg.
      destruct (get_answer fl provides k w b' n' HR) as [(q & Hq & Hq')|[(Hb' & Hu' & Hq')|[Hb' Hq']]];
        rewrite Hq' in Hg; injection Hg as <-.
      * apply (get_means _ _ k' _ _ _ _ HR'). unfold means, k'. cbn. apply in_or_app. now left.
      * destruct (get_answer fl provides k' w' b' n' HR') as [(p & Hp & _)|[(_ & _ & H')|[Hb2 _]]]; [exfalso|exact H'|].
        -- unfold means, k' in Hp. cbn in Hp. apply in_app_or in Hp. destruct Hp as [Hp|[[= -> -> _]|[]]]; [exact (Hu' _ Hp)|].
           destruct Hne; congruence.
        -- cbn in Hb2. lia.
      * destruct (get_answer fl provides k' w' b' n' HR') as [(p & Hp & _)|[(Hb2 & _)|[_ H']]]; [|cbn in Hb2; lia|exact H'].
        apply (means_box _ _ _ _ _ HR') in Hp. cbn in Hp. lia.
Qed.
Print Assumptions C63_add.

Example C63_add_ex :
  s_call Probes (fun _ _ => true) (AddName 0 0 "a")%string two_boxes = Done (two_boxes, AThrew ProbeAlreadyRegistered) /\
  exists w', s_call Probes (fun _ _ => true) (AddName 0 0 "c")%string two_boxes = Done (w', APoint 2).
Proof. split; [vm_compute; reflexivity|]. eexists. vm_compute. reflexivity. Qed.

Section Sharing.
Context (fl : flavour) (provides : nat -> nat -> bool).

Lemma connect_answer k w b n p s c w' : R k w -> means k b n p ->
  s_call fl provides (ConnectName b n (Some s)) w = Done (w', ACookie c) ->
  exists k', R k' w' /\ bk_names k' = bk_names k /\ bk_kinds k' = bk_kinds k /\
    Permutation (bk_links k') ((p, c, s) :: bk_links k) /\ (0 < c < 2 ^ 32)%N /\
    (forall s', ~ In (p, c, s') (bk_links k)).
Proof.
  intros HR Hm Hc.
  destruct (s_call_ok fl provides (ConnectName b n (Some s)) k w I HR) as (w2 & a & k2 & Hc2 & Ha & HR2).
  rewrite Hc in Hc2. injection Hc2 as <- <-. inversion Ha; subst.
  match goal with H : means k b n ?q |- _ => assert (q = p) by (eapply means_unique; [exact HR|exact H|exact Hm]) end.
  subst. exists (with_links k l). cbn. auto 10.
Qed.

Lemma disconnect_answer k w b n p c : R k w -> means k b n p ->
  exists w' k', s_call fl provides (DisconnectName b n c) w = Done (w', AUnit) /\
    R k' w' /\ bk_names k' = bk_names k /\ bk_kinds k' = bk_kinds k /\ NoDup (bk_links k') /\
    (forall p' c' s, In (p', c', s) (bk_links k') <-> In (p', c', s) (bk_links k) /\ ~ (p' = p /\ c' = (c mod 2 ^ 32)%N)).
Proof.
  intros HR Hm.
  destruct (s_call_ok fl provides (DisconnectName b n c) k w I HR) as (w2 & a & k2 & Hc2 & Ha & HR2).
  exists w2, k2. inversion Ha; subst.
  - match goal with H : means k b n ?q |- _ => assert (q = p) by (eapply means_unique; [exact HR|exact H|exact Hm]) end.
    subst. split; [exact Hc2|]. split; [exact HR2|]. cbn. auto.
  - exfalso. match goal with H : unknown _ _ _ |- _ => exact (H _ Hm) end.
  - exfalso. pose proof (means_box _ _ _ _ _ HR Hm).
    repeat match goal with H : _ \/ _ |- _ => destruct H | H : exists _, _ |- _ => destruct H end; try discriminate.
    match goal with H : DisconnectName _ _ _ = _ |- _ => injection H as; subst; lia end.
  - exfalso. repeat match goal with H : _ \/ _ |- _ => destruct H end; discriminate.
Qed.

Lemma fire_exists k w p : R k w -> p < length (bk_kinds k) ->
  exists v, StronglySorted N.lt (map fst v) /\ Permutation v (links_of k p) /\
    s_call fl provides (FirePoint p) w = Done (w, ACalls (map snd v)).
Proof.
  intros HR Hp. pose proof Hp as Hp'. rewrite <- (r_kinds _ _ HR), map_length in Hp'.
  destruct (nth_error (sw_points w) p) as [q|] eqn:Hq; [|apply nth_error_None in Hq; lia].
  destruct (r_slots _ _ HR _ _ Hq) as [Hok HPq].
  exists (entries 0 (sl_items (pt_slots q))). split; [apply entries_fst_sorted|]. split; [exact HPq|].
  apply (fire_answer fl provides k); auto. apply entries_fst_sorted.
Qed.

Lemma links_perm k k' p l : Permutation (bk_links k') (l ++ bk_links k) ->
  Permutation (links_of k' p) (map (fun e => (snd (fst e), snd e)) (filter (fun e => Nat.eqb (fst (fst e)) p) l) ++ links_of k p).
Proof.
  intros HP. unfold links_of. rewrite <- map_app, <- filter_app. apply Permutation_map. now apply filter_perm.
Qed.

End Sharing.

(** C63: two names, in the same or in different containers, that stand for the
    same probe are interchangeable: a sink connected through one is called when
    the probe fires, next to the sinks that were connected before, and
    disconnecting the cookie through the other one restores the earlier calls. *)
Theorem C63_shared : forall fl provides w b1 n1 b2 n2 p s c w1 before,
  reached fl provides w ->
  s_call fl provides (GetPoint b1 n1) w = Done (w, APoint p) ->
  s_call fl provides (GetPoint b2 n2) w = Done (w, APoint p) ->
  s_call fl provides (FirePoint p) w = Done (w, ACalls before) ->
  s_call fl provides (ConnectName b1 n1 (Some s)) w = Done (w1, ACookie c) ->
  exists x y w2,
    before = x ++ y /\
    s_call fl provides (FirePoint p) w1 = Done (w1, ACalls (x ++ s :: y)) /\
    s_call fl provides (DisconnectName b2 n2 c) w1 = Done (w2, AUnit) /\
    s_call fl provides (FirePoint p) w2 = Done (w2, ACalls before) /\
    (forall p' a, p' <> p -> s_call fl provides (FirePoint p') w = Done (w, a) ->
       s_call fl provides (FirePoint p') w1 = Done (w1, a) /\ s_call fl provides (FirePoint p') w2 = Done (w2, a)).
Proof.
  intros fl provides w b1 n1 b2 n2 p s c w1 before Hw G1 G2 F Hc. destruct (reached_R _ _ _ Hw) as (k & HR).
  apply (get_means _ _ _ _ _ _ _ HR) in G1, G2.
  destruct (connect_answer _ _ _ _ _ _ _ _ _ _ HR G1 Hc) as (k1 & HR1 & Hn1 & Hk1 & HP1 & Hrng & Hfresh).
  assert (G2' : means k1 b2 n2 p) by (unfold means; rewrite Hn1; exact G2).
  destruct (disconnect_answer fl provides _ _ _ _ _ c HR1 G2') as (w2 & k2 & Hd & HR2 & Hn2 & Hk2 & Hnd2 & Hin2).
  assert (Hp : p < length (bk_kinds k)).
  { rewrite <- (r_kinds _ _ HR), map_length. apply (r_names _ _ HR) in G1. eapply r_range; eassumption. }
  rewrite N.mod_small in Hin2 by lia.
  assert (HP2 : Permutation (bk_links k2) (bk_links k)).
  { apply NoDup_Permutation; [exact Hnd2|exact (r_nodup _ _ HR)|]. intros [[p' c'] s']. rewrite Hin2. split.
    - intros [Hi Hne]. apply (Permutation_in _ HP1) in Hi. destruct Hi as [[= <- <- _]|Hi]; [now destruct Hne|exact Hi].
    - intros Hi. split; [apply (Permutation_in _ (Permutation_sym HP1)); now right|].
      intros [-> ->]. exact (Hfresh _ Hi). }
  destruct (fire_exists fl provides _ _ _ HR Hp) as (v & Hv & HPv & Fv).
  assert (before = map snd v) by congruence. subst before.
  assert (Hp1 : p < length (bk_kinds k1)) by (rewrite Hk1; exact Hp).
  destruct (fire_exists fl provides _ _ _ HR1 Hp1) as (v1 & Hv1 & HPv1 & Fv1).
  assert (HPl : Permutation v1 ((c, s) :: v)).
  { rewrite HPv1, HPv. rewrite (links_perm k k1 p [(p, c, s)]); [|exact HP1].
    cbn [filter fst snd]. rewrite Nat.eqb_refl. reflexivity. }
  assert (Hi : In (c, s) v1) by (apply (Permutation_in _ (Permutation_sym HPl)); now left).
  apply in_split in Hi. destruct Hi as (x & y & ->).
  assert (Hxy : x ++ y = v).
  { apply sorted_perm_eq; [|exact Hv|].
    - rewrite map_app in *. cbn [map fst] in Hv1. clear -Hv1. induction x as [|e x IH]; cbn [map app] in *.
      + now inversion Hv1.
      + inversion Hv1 as [|? ? H1 H2]; subst. constructor; [now apply IH|].
        apply Forall_forall. rewrite Forall_forall in H2. intros z Hz. apply H2. rewrite in_app_iff in *. cbn. tauto.
    - apply (Permutation_cons_inv (a := (c, s))). rewrite <- HPl. apply Permutation_middle. }
  exists (map snd x), (map snd y), w2. split; [rewrite <- map_app; now f_equal|].
  split; [rewrite Fv1, map_app; reflexivity|]. split; [exact Hd|]. split.
  - apply (fire_answer fl provides k2); [exact HR2|congruence|exact Hv|].
    rewrite HPv. symmetry. exact (links_perm k k2 p [] HP2).
  - intros p' a Hne Fp. destruct (Nat.lt_ge_cases p' (length (bk_kinds k))) as [Hlt|Hge].
    + destruct (fire_exists fl provides _ _ _ HR Hlt) as (u & Hu & HPu & Fu).
      assert (a = ACalls (map snd u)) by congruence. subst a. split.
      * apply (fire_answer fl provides k1); [exact HR1|congruence|exact Hu|].
        rewrite HPu, (links_perm k k1 p' [(p, c, s)]); [|exact HP1]. cbn [filter fst snd].
        replace (Nat.eqb p p') with false by (symmetry; apply Nat.eqb_neq; congruence). reflexivity.
      * apply (fire_answer fl provides k2); [exact HR2|congruence|exact Hu|].
        rewrite HPu. symmetry. exact (links_perm k k2 p' [] HP2).
    + assert (Hno : forall k' w', R k' w' -> bk_kinds k' = bk_kinds k ->
                s_call fl provides (FirePoint p') w' = Done (w', ANoSuch)).
      { intros k' w' HR' Hk'. unfold s_call. cbn [s_step].
        destruct (nth_error (sw_points w') p') as [q|] eqn:Hq; [|reflexivity].
        apply nth_lt in Hq. rewrite <- (map_length pt_kind), (r_kinds _ _ HR'), Hk' in Hq. lia. }
      rewrite (Hno _ _ HR eq_refl) in Fp. injection Fp as <-.
      split; [exact (Hno _ _ HR1 Hk1)|]. apply (Hno _ _ HR2). congruence.
Qed.
Print Assumptions C63_shared.

(** Statistics with interfaces: sink 5 provides interface 1 only. *)
Definition only (s kd : nat) : bool := Nat.eqb s 5 && Nat.eqb kd 1.
Definition shared_demo : list sop :=
  [NewBox; NewBox; AddName 0 1 "rtt"; MergeFrom 1 "tcp." 0 (fun l => l); ConnectName 1 "tcp.rtt" (Some 5)]%string.
Definition shared_world : sworld :=
  match s_run Statistics only shared_demo sworld_init with Done (w, _) => w | _ => sworld_init end.

Example C63_shared_ex :
  reached Statistics only shared_world /\
  s_call Statistics only (GetPoint 0 "rtt") shared_world = Done (shared_world, APoint 0) /\
  s_call Statistics only (GetPoint 1 "tcp.rtt") shared_world = Done (shared_world, APoint 0) /\
  s_call Statistics only (FirePoint 0) shared_world = Done (shared_world, ACalls [5]) /\
  (exists w1, s_call Statistics only (ConnectName 0 "rtt" (Some 5)) shared_world = Done (w1, ACookie 2)) /\
  s_call Statistics only (ConnectName 0 "rtt" (Some 6)) shared_world = Done (shared_world, AThrew NoInterface).
Proof.
  split.
  - exists shared_demo, [ABox 0; ABox 1; APoint 0; AUnit; ACookie 1]. split; [repeat constructor|vm_compute; reflexivity].
    intros l. cbn. reflexivity.
  - repeat split; try (vm_compute; reflexivity). eexists. vm_compute. reflexivity.
Qed.

(** C63: an enumerator is a snapshot.  It returns each name its container had
    when it was made exactly once, whatever happens to the container meanwhile,
    and then throws. *)
Theorem C63_enumerator : forall fl provides w b ord w1 e l w2 r,
  reached fl provides w -> (forall x, Permutation (ord x) x) ->
  s_call fl provides (GetEnum b ord) w = Done (w1, AEnum e) ->
  Forall in_order l -> ~ In (ResetEnum e) l ->
  s_run fl provides l w1 = Done (w2, r) ->
  exists rest,
    NoDup (returned e (combine l r) ++ rest) /\
    (forall n, In n (returned e (combine l r) ++ rest) <-> exists p, s_call fl provides (GetPoint b n) w = Done (w, APoint p)) /\
    match rest with
    | [] => s_call fl provides (NextEnum e) w2 = Done (w2, AThrew OutOfBounds) /\
            s_call fl provides (HasNextEnum e) w2 = Done (w2, AFlag false)
    | n :: _ => (exists w3, s_call fl provides (NextEnum e) w2 = Done (w3, AName n)) /\
            s_call fl provides (HasNextEnum e) w2 = Done (w2, AFlag true)
    end.
Proof.
  intros fl provides w b ord w1 e l w2 r Hw Hord Hg Ho Hnr Hr. destruct (reached_R _ _ _ Hw) as (k & HR).
  destruct (s_call_ok fl provides (GetEnum b ord) k w Hord HR) as (w' & a & k' & Hc & Ha & HR').
  rewrite Hg in Hc. injection Hc as <- <-. inversion Ha; subst.
  match goal with H : NoDup ?x |- _ => rename x into names; rename H into Hnd end.
  match goal with H : forall n, In n names <-> _ |- _ => rename H into Hin end.
  assert (Hgen : forall l k w1 r done rest, Forall in_order l -> R k w1 -> forall e, ~ In (ResetEnum e) l -> nth_error (bk_enums k) e = Some (done, rest) ->
            s_run fl provides l w1 = Done (w2, r) ->
            exists k2 rest2, R k2 w2 /\ nth_error (bk_enums k2) e = Some (done ++ returned e (combine l r), rest2) /\
              rest = returned e (combine l r) ++ rest2).
  { clear. intros l. induction l as [|o t IH]; intros k w1 r done rest Ho HR e Hnr He Hr; cbn [s_run] in Hr.
    - injection Hr as <- <-. exists k, rest. cbn. rewrite app_nil_r. auto.
    - inversion Ho as [|? ? H1 H2]; subst.
      destruct (s_call_ok fl provides o k w1 H1 HR) as (w' & a & k1 & Hc & Ha & HR1). rewrite Hc in Hr. cbn [obind] in Hr.
      destruct (s_run fl provides t w') as [[w3 r3]| | |] eqn:Et; try discriminate. cbn [obind] in Hr.
      injection Hr as -> <-. cbn [combine].
      assert (Hnt : ~ In (ResetEnum e) t) by (intros Hi; apply Hnr; now right).
      assert (Hsame : nth_error (bk_enums k1) e = Some (done, rest) -> returned e ((o, a) :: combine t r3) = returned e (combine t r3) ->
                exists k2 rest2, R k2 w2 /\ nth_error (bk_enums k2) e = Some (done ++ returned e ((o, a) :: combine t r3), rest2) /\
                  rest = returned e ((o, a) :: combine t r3) ++ rest2).
      { intros He1 ->. exact (IH k1 w' r3 done rest H2 HR1 e Hnt He1 Et). }
      inversion Ha; subst; try (apply Hsame; [exact He|reflexivity]).
      + apply Hsame; [|reflexivity]. cbn [bk_enums with_enums]. rewrite nth_error_app1; [exact He|now apply nth_lt in He].
      + apply Hsame; [|reflexivity]. cbn [bk_enums with_enums].
        destruct (Nat.eq_dec e0 e) as [->|Hne]; [exfalso; apply Hnr; now left|]. now rewrite nth_upd_neq.
      + cbn [returned]. destruct (Nat.eqb_spec e e0) as [<-|Hne].
        * match goal with H : nth_error (bk_enums k) e = Some (_, n :: _) |- _ => rewrite He in H; injection H as -> -> end.
          destruct (IH _ w' r3 (l1 ++ [n]) l2 H2 HR1 e Hnt) as (k2 & rest2 & HR2 & Hk2 & ->); [|exact Et|].
          { cbn [bk_enums with_enums]. apply nth_upd_eq. now apply nth_lt in He. }
          exists k2, rest2. split; [exact HR2|]. rewrite <- app_assoc in Hk2. now split.
        * destruct (IH _ w' r3 done rest H2 HR1 e Hnt) as (k2 & rest2 & HR2 & Hk2 & ->); [|exact Et|].
          { cbn [bk_enums with_enums]. now rewrite nth_upd_neq by auto. }
          exists k2, rest2. auto.
      + apply Hsame; [exact He|].
        destruct o; reflexivity.
      + apply Hsame; [exact He|].
        destruct o; reflexivity. }
  destruct (Hgen l _ w1 r [] names Ho HR' (length (bk_enums k)) Hnr) as (k2 & rest & HR2 & Hk2 & ->); [|exact Hr|].
  { cbn [bk_enums with_enums]. rewrite nth_error_app2, Nat.sub_diag by lia. reflexivity. }
  exists rest. split; [exact Hnd|]. split.
  - intros n. rewrite Hin. split; intros (p & Hp); exists p; now apply (get_means fl provides _ _ _ _ _ HR).
  - cbn [app] in Hk2. destruct (s_call_ok fl provides (NextEnum (length (bk_enums k))) k2 w2 Logic.I HR2) as (w3 & a3 & k3 & Hc3 & Ha3 & _).
    destruct (s_call_ok fl provides (HasNextEnum (length (bk_enums k))) k2 w2 Logic.I HR2) as (w4 & a4 & k4 & Hc4 & Ha4 & _).
    pose proof (nth_lt _ _ _ Hk2) as Hlt2.
    assert (Hw4 : w4 = w2).
    { revert Hc4. unfold s_call. cbn [s_step]. destruct (nth_error (sw_enums w2) _); intros [= <- _]; reflexivity. }
    subst w4.
    assert (Ha4' : a4 = AFlag (negb (Nat.eqb (length rest) 0))).
    { inversion Ha4; subst; [congruence| |].
      - exfalso. repeat match goal with H : _ \/ _ |- _ => destruct H | H : exists _, _ |- _ => destruct H end; discriminate.
      - exfalso. match goal with H : _ \/ _ |- _ => destruct H as [H|[H|H]]; try discriminate H; injection H as E; lia end. }
    subst a4. destruct rest as [|n rest].
    + split; [|exact Hc4]. inversion Ha3; subst.
      * congruence.
      * revert Hc3. unfold s_call. cbn [s_step]. destruct (nth_error (sw_enums w2) _) as [z|]; [|discriminate].
        destruct (length (en_items z) <=? en_index z); [reflexivity|]. destruct (nth_error (en_items z) _); discriminate.
      * exfalso. repeat match goal with H : _ \/ _ |- _ => destruct H | H : exists _, _ |- _ => destruct H end; discriminate.
      * exfalso. match goal with H : _ \/ _ |- _ => destruct H as [H|[H|H]]; try discriminate H; injection H as E; lia end.
    + split; [|exact Hc4]. exists w3. inversion Ha3; subst.
      * assert (n0 = n) by congruence. now subst.
      * congruence.
      * exfalso. repeat match goal with H : _ \/ _ |- _ => destruct H | H : exists _, _ |- _ => destruct H end; discriminate.
      * exfalso. match goal with H : _ \/ _ |- _ => destruct H as [H|[H|H]]; try discriminate H; injection H as E; lia end.
Qed.
Print Assumptions C63_enumerator.

Example C63_enumerator_ex :
  match s_run Probes (fun _ _ => true) [NewBox; AddName 0 0 "a"; AddName 0 0 "b"; GetEnum 0 (@rev _)]%string sworld_init with
  | Done (w1, _) =>
      match s_run Probes (fun _ _ => true) [NextEnum 0; AddName 0 0 "c"; EraseName 0 "a"; NextEnum 0; NextEnum 0]%string w1 with
      | Done (_, r) => r = [AName "b"; APoint 2; AUnit; AName "a"; AThrew OutOfBounds]%string
      | _ => False end
  | _ => False end.
Proof. vm_compute. reflexivity. Qed.
