(** Properties of the class registry (C58). *)
From Verif Require Import Base BaseProofs Component Registry RegistrySpec RegistryProofs.
From Verif Require ComponentSpec ComponentRuns ComponentProps RegistryCreate.
From Coq Require Import ZifyBool ZifyNat ZifyN.

(** *** An example: two strings with the same characters at different addresses,
    one of them followed by more bytes, and a third string. *)
Definition ua : uid := mk_uid 100 [65; 66]%N.
Definition ua' : uid := mk_uid 200 [65; 66; 0; 67]%N.
Definition ub : uid := mk_uid 300 [65]%N.
Definition hr0 (l : list N) : N := fold_right N.add 7%N l.
Definition story : list op :=
  [NewFactory []; Register 0 ua; NewFactory []; RegisterMove 1 ua'; Register 0 ub; Unregister ua';
   RegisterDefault [] ua; GetClassFactory ua'; Null; Register 3 ub; GetClassFactory (mk_uid 1 [])].
Definition story_end : state := match run hr0 story init with Done (s, _) => s | _ => init end.
Definition story_results : list result :=
  [RFactory 0; ROk; RFactory 1; RThrow ClassAlreadyRegistered; ROk; ROk; ROk; RFactory 2; ROk; RThrow InvalidPointer;
   RThrow ClassNotRegistered].
Lemma story_run : run hr0 story init = Done (story_end, story_results).
Proof. vm_compute. reflexivity. Qed.

(** *** The registry is a table from names to factories *)

(** The results of every history of calls are those of the table; in particular
    nothing is undefined, whatever the hash function. *)
Theorem C58_table : forall hr os,
  match t_run os t_init with
  | Some (t, rs) => exists s, run hr os init = Done (s, rs) /\ s_vars s = t_vars t /\
      forall u, answer hr s u = Done (match t_map t (name u) with Some f => RFactory f | None => RThrow ClassNotRegistered end)
  | None => run hr os init = AssertFail
  end.
Proof.
  intros hr os. destruct (init_ok hr) as [O Sh]. pose proof (run_shows hr os init t_init O Sh) as Q.
  destruct (t_run os t_init) as [[t rs]|]; [|exact Q]. destruct Q as (s & R & O' & S1 & S2 & S3).
  exists s. split; [exact R|]. split; [auto|]. intros u. rewrite (answer_ok hr s u O'), S1. reflexivity.
Qed.
Print Assumptions C58_table.
Example C58_table_ex :
  match t_run story t_init with
  | Some (t, rs) => rs = story_results /\ t_map t [65; 66]%N = Some 2 /\ t_map t [65]%N = Some 0 /\
      t_vars t = [Some 0; None; Some 2; None]
  | None => False
  end.
Proof. vm_compute. auto. Qed.

Lemma reached hr os s rs : run hr os init = Done (s, rs) -> ok hr s.
Proof.
  intros R. destruct (init_ok hr) as [O Sh]. pose proof (run_shows hr os init t_init O Sh) as Q.
  destruct (t_run os t_init) as [[t rs']|]; [|congruence]. destruct Q as (s' & R' & O' & _). congruence.
Qed.

(** [Register] succeeds exactly for a factory that is not null and a name that is
    not registered; if it fails nothing changes, otherwise exactly this name is
    registered. *)
Theorem C58_register : forall hr os s rs i f u s' r, run hr os init = Done (s, rs) ->
  nth_error (s_vars s) i = Some f -> step hr (Register i u) s = Done (s', r) ->
  (r = ROk <-> f <> None /\ answer hr s u = Done (RThrow ClassNotRegistered)) /\
  s_vars s' = s_vars s /\
  forall v, answer hr s' v =
    match f, r with
    | Some f, ROk => if eqb_chars (name u) (name v) then Done (RFactory f) else answer hr s v
    | _, _ => answer hr s v
    end.
Proof.
  intros hr os s rs i f u s' r R E St. pose proof (reached hr os s rs R) as O.
  set (t := mk_table (fun k => assoc k (s_map s)) (s_vars s) (length (s_factories s))).
  assert (Sh : shows s t) by (unfold shows, t; cbn; auto).
  pose proof (step_shows hr (Register i u) s t O Sh) as Q. cbn [t_step] in Q. change (t_vars t) with (s_vars s) in Q.
  rewrite E in Q. destruct (t_register f (name u) t) as [t' r'] eqn:TR. destruct Q as (s2 & St2 & O2 & (Q1 & Q2 & Q3)).
  rewrite St in St2. injection St2 as <- <-. rewrite (answer_ok hr s u O).
  unfold t_register in TR. change (t_map t (name u)) with (assoc (name u) (s_map s)) in TR.
  destruct f as [f|].
  - destruct (assoc (name u) (s_map s)) as [g|] eqn:A; injection TR as <- <-.
    + split; [split; [discriminate|intros [_ [=]]]|]. split; [exact (eq_sym Q2)|].
      intros v. now rewrite (answer_ok hr s' v O2), (answer_ok hr s v O), <- Q1.
    + split; [split; [split; [discriminate|reflexivity]|auto]|]. split; [exact (eq_sym Q2)|].
      intros v. rewrite (answer_ok hr s' v O2), (answer_ok hr s v O), <- Q1. cbn [t_map]. unfold bind.
      destruct (eqb_chars (name u) (name v)); reflexivity.
  - injection TR as <- <-. split; [split; [discriminate|intros [[] _]; auto]|]. split; [exact (eq_sym Q2)|].
    intros v. now rewrite (answer_ok hr s' v O2), (answer_ok hr s v O), <- Q1.
Qed.
Print Assumptions C58_register.
Example C58_register_ex : nth_error (s_vars story_end) 2 = Some (Some 2) /\
  exists s', step hr0 (Register 2 (mk_uid 5 [90]%N)) story_end = Done (s', ROk).
Proof. split; [reflexivity|]. eexists. vm_compute. reflexivity. Qed.

(** [Unregister] removes exactly one name. *)
Theorem C58_unregister : forall hr os s rs u s' r, run hr os init = Done (s, rs) ->
  step hr (Unregister u) s = Done (s', r) ->
  r = ROk /\ s_vars s' = s_vars s /\
  forall v, answer hr s' v = if eqb_chars (name u) (name v) then Done (RThrow ClassNotRegistered) else answer hr s v.
Proof.
  intros hr os s rs u s' r R St. pose proof (reached hr os s rs R) as O.
  set (t := mk_table (fun k => assoc k (s_map s)) (s_vars s) (length (s_factories s))).
  assert (Sh : shows s t) by (unfold shows, t; cbn; auto).
  pose proof (step_shows hr (Unregister u) s t O Sh) as Q. cbn [t_step] in Q.
  destruct Q as (s2 & St2 & O2 & (Q1 & Q2 & Q3)). rewrite St in St2. injection St2 as <- ->.
  split; [auto|]. split; [exact (eq_sym Q2)|]. intros v.
  rewrite (answer_ok hr s' v O2), (answer_ok hr s v O), <- Q1. cbn [t_map]. unfold bind.
  destruct (eqb_chars (name u) (name v)); reflexivity.
Qed.
Print Assumptions C58_unregister.
Example C58_unregister_ex : exists s', step hr0 (Unregister ua') story_end = Done (s', ROk) /\
  answer hr0 story_end ua = Done (RFactory 2) /\ answer hr0 s' ua = Done (RThrow ClassNotRegistered) /\
  answer hr0 s' ub = Done (RFactory 0).
Proof. eexists. split; [vm_compute; reflexivity|]. vm_compute. auto. Qed.

(** An identifier is its characters, not its address. *)
Theorem C58_names : forall hr os s rs u v, run hr os init = Done (s, rs) -> name u = name v ->
  answer hr s u = answer hr s v.
Proof.
  intros hr os s rs u v R E. pose proof (reached hr os s rs R) as O. now rewrite !(answer_ok hr s _ O), E.
Qed.
Print Assumptions C58_names.
Example C58_names_ex : name ua = name ua' /\ ua <> ua' /\ name ua <> name ub.
Proof. split; [reflexivity|]. split; discriminate. Qed.

(** A factory lives exactly while it is registered or the user has it. *)
Theorem C58_factory_lifetime : forall hr os s rs f, run hr os init = Done (s, rs) -> f < length (s_factories s) ->
  (factory_lives s f <-> has_factory hr s f).
Proof.
  intros hr os s rs f R L. pose proof (reached hr os s rs R) as O. destruct O as [[A B] M].
  destruct (nth_error (s_factories s) f) as [c|] eqn:E; [|apply nth_error_None in E; lia].
  destruct (B f c E) as [_ V].
  assert (H : factory_lives s f <-> In f (frefs [] s)).
  { rewrite cnt_in. unfold factory_lives. rewrite E. split.
    - intros (x & [= <-] & X). rewrite X in V. destruct (Nat.eqb_spec (cnt f (frefs [] s)) 0); [discriminate|lia].
    - intros P. exists c. split; [auto|]. rewrite V. destruct (Nat.eqb_spec (cnt f (frefs [] s)) 0); [lia|reflexivity]. }
  rewrite H. unfold frefs, has_factory. rewrite !in_app_iff.
  assert (HV : In f (var_refs (s_vars s)) <-> In (Some f) (s_vars s)).
  { unfold var_refs. rewrite in_flat_map. split.
    - intros (g & I & J). destruct g; cbn in J; [destruct J as [<-|[]]; auto|contradiction].
    - intros I. exists (Some f). split; [auto|now left]. }
  rewrite HV. split.
  - intros [I|[I|[]]]; [|now left]. right. destruct (in_assoc hr _ _ M I) as (u & Eu). exists u.
    now rewrite (answer_ok hr s u (conj (conj A B) M)), Eu.
  - intros [I|(u & Eu)]; [tauto|]. left. rewrite (answer_ok hr s u (conj (conj A B) M)) in Eu.
    destruct (assoc (name u) (s_map s)) as [g|] eqn:Ea; [|discriminate]. injection Eu as ->. exact (assoc_in _ _ _ Ea).
Qed.
Print Assumptions C58_factory_lifetime.
Example C58_factory_lifetime_ex : map f_alive (s_factories story_end) = [true; false; true].
Proof. vm_compute. reflexivity. Qed.

(** *** CreateObject *)

(** Without a controller: a new object with one reference, that of the result; if
    the object does not have the interface, it is deleted again. *)
Theorem C78_create : forall os w rs ps d t w' r,
  ComponentSpec.safe_run os Component.init -> Component.run os Component.init = Done (w, rs) ->
  ComponentSpec.all_created os rs -> pieces_ok ps = true -> nth_error ps 0 = Some d -> d_kind d = KObject ->
  0 < t -> create_object ps t w = Done (w', r) ->
  match ComponentSpec.taken (w_heap w') t (mk_ptr (length (w_heap w)) 0) with
  | Some q => r = Component.ROk /\ w_vars w' = w_vars w ++ [(0, None); (t, Some q)] /\
      ComponentSpec.live (w_heap w') (length (w_heap w)) /\ ComponentSpec.refs w' (length (w_heap w)) = 1
  | None => r = Component.RNoInterface /\ w_vars w' = w_vars w ++ [(0, None)] /\
      ~ ComponentSpec.live (w_heap w') (length (w_heap w))
  end.
Proof.
  intros os w rs ps d t w' r S R A OK Ed K T E. destruct (ComponentProps.reached os w rs S R) as (f & G & F).
  specialize (F A). subst f. pose proof (proj2 (RegistryCreate.create_ok w ps d t w' r G OK Ed K T E)) as Q.
  destruct (ComponentSpec.taken _ _ _); [exact Q|]. destruct Q as (Q1 & Q2 & Q3). split; [auto|]. split; [auto|].
  now apply RegistryCreate.deleted_not_live.
Qed.
Print Assumptions C78_create.
Example C78_create_ex : exists w' w'',
  create_object ComponentProps.device 5 ComponentProps.story_end = Done (w', Component.ROk) /\
  create_object ComponentProps.device 9 ComponentProps.story_end = Done (w'', Component.RNoInterface) /\
  map c_alive (skipn 4 (w_heap w')) = [true; true; true] /\ map c_alive (skipn 4 (w_heap w'')) = [false; false; false].
Proof. eexists. eexists. split; [vm_compute; reflexivity|]. split; [vm_compute; reflexivity|]. vm_compute. auto. Qed.

(** With a controller, and an interface other than [IObject] that the class itself
    implements: the smart pointer that is returned points to an object that has
    been deleted, so that every use of it is undefined. *)
Theorem C78_create_aggregated_dangles : forall ps a t h q h' d,
  nth_error ps 0 = Some d -> find_entry t (d_map d) = Some (Own t) -> 0 < t ->
  create_aggregated ps a t h = Done (Some q, h') ->
  ~ ComponentSpec.live h' (p_addr q) /\
  add_ref h' (p_addr q) = UB /\ release h' (p_addr q) = UB /\ forall i, query h' (p_addr q) i = UB.
Proof.
  intros ps a t h q h' d Ed Ef T E. destruct (RegistryCreate.aggregated_dangling ps a t h q h' d Ed Ef T E) as [-> D].
  split; [now apply RegistryCreate.deleted_not_live|]. now apply RegistryCreate.deleted_no_use.
Qed.
Print Assumptions C78_create_aggregated_dangles.
Theorem C78_create_aggregated_refuted : exists os w rs a ps t q h',
  Component.run os Component.init = Done (w, rs) /\ pieces_ok ps = true /\ ComponentSpec.live (w_heap w) a /\
  create_aggregated ps a t (w_heap w) = Done (Some q, h') /\ ~ ComponentSpec.live h' (p_addr q) /\
  release h' (p_addr q) = UB.
Proof.
  exists [New 1 ComponentProps.node]. eexists. eexists. exists 0, ComponentProps.node, 2. eexists. eexists.
  split; [vm_compute; reflexivity|]. split; [reflexivity|]. split; [eexists; split; vm_compute; reflexivity|].
  split; [vm_compute; reflexivity|]. split; [|vm_compute; reflexivity].
  intros (c & E & A). vm_compute in E. injection E as <-. discriminate.
Qed.
Print Assumptions C78_create_aggregated_refuted.
(** If the class does not have the interface, the new object is deleted again. *)
Theorem C78_create_aggregated_fails : forall ps a t h h' d,
  nth_error ps 0 = Some d -> create_aggregated ps a t h = Done (None, h') ->
  ~ ComponentSpec.live h' (length h).
Proof.
  intros ps a t h h' d Ed E. apply RegistryCreate.deleted_not_live, (RegistryCreate.aggregated_fails ps a t h h' d Ed E).
Qed.
Print Assumptions C78_create_aggregated_fails.
Example C78_create_aggregated_fails_ex : exists w rs h',
  Component.run [New 1 ComponentProps.node] Component.init = Done (w, rs) /\
  create_aggregated ComponentProps.node 0 9 (w_heap w) = Done (None, h') /\
  map c_alive h' = map c_alive (w_heap w) ++ [false].
Proof. eexists. eexists. eexists. split; [vm_compute; reflexivity|]. split; vm_compute; reflexivity. Qed.
(** With [IObject] the navigator is returned, with one reference. *)
Theorem C78_create_navigator : forall ps d a h, nth_error ps 0 = Some d ->
  exists h' c, create_aggregated ps a 0 h = Done (Some (mk_ptr (length h) 0), h') /\
    firstn (length h) h' = h /\ nth_error h' (length h) = Some c /\
    c_alive c = true /\ c_kind c = KAgg /\ c_rc c = 1%Z /\ c_owner c = a /\ c_class c = d_class d.
Proof.
  intros ps d a h Ed. destruct ps as [|d0 ps]; [discriminate|]. cbn in Ed. injection Ed as ->.
  eexists. eexists. split; [reflexivity|]. split; [now rewrite firstn_app, firstn_all, Nat.sub_diag, app_nil_r|].
  split; [rewrite nth_error_app2, Nat.sub_diag by lia; reflexivity|]. cbn. auto.
Qed.
Print Assumptions C78_create_navigator.
Example C78_create_navigator_ex : nth_error ComponentProps.node 0 <> None.
Proof. discriminate. Qed.
