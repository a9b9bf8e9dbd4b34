(** Lemmas on the class registry. *)
From Verif Require Import Base BaseProofs Component Registry RegistrySpec.
From Coq Require Import ZifyBool ZifyNat ZifyN.

(** *** Names *)

Lemma strcmp_eq s : forall t, strcmp s t = 0%Z <-> until_zero s = until_zero t.
Proof.
  induction s as [|a s IH]; intros [|b t]; cbn [strcmp until_zero]; try tauto.
  - destruct (N.eqb_spec b 0).
    + subst. cbn. tauto.
    + split; [lia|discriminate].
  - destruct (N.eqb_spec a 0).
    + subst. cbn. tauto.
    + split; [lia|discriminate].
  - destruct (N.eqb_spec a b) as [<-|D].
    + destruct (N.eqb_spec a 0); [tauto|]. rewrite IH. split; [congruence|]. now intros [= ->].
    + destruct (N.eqb_spec a 0), (N.eqb_spec b 0); split; intros H; try discriminate; try lia. congruence.
Qed.
Lemma strlen_name s : firstn (strlen s) s = until_zero s.
Proof.
  induction s as [|a s IH]; cbn [strlen until_zero]; [reflexivity|].
  destruct (N.eqb_spec a 0); [reflexivity|]. cbn [firstn]. now rewrite IH.
Qed.
Lemma uid_eqb_spec a b : reflect (name a = name b) (uid_eqb a b).
Proof.
  unfold uid_eqb, name. pose proof (strcmp_eq (u_bytes a) (u_bytes b)) as H.
  destruct (Z.eqb_spec (strcmp (u_bytes a) (u_bytes b)) 0); constructor; tauto.
Qed.
Lemma eqb_chars_spec s : forall t, reflect (s = t) (eqb_chars s t).
Proof.
  induction s as [|a s IH]; intros [|b t]; cbn [eqb_chars]; try (constructor; congruence).
  destruct (N.eqb_spec a b); cbn [andb]; [|constructor; congruence].
  destruct (IH t); constructor; congruence.
Qed.

(** *** References to factories *)

Definition var_refs (l : list (option nat)) : list nat :=
  flat_map (fun v => match v with Some f => [f] | None => [] end) l.
(** All references: those of the registry, of the user, and [x]. *)
Definition frefs (x : list nat) (s : state) : list nat := map n_factory (s_map s) ++ var_refs (s_vars s) ++ x.
Definition cnt (f : nat) (l : list nat) : nat := count_occ Nat.eq_dec l f.

Definition counts_ok (x : list nat) (s : state) : Prop :=
  (forall f, In f (frefs x s) -> f < length (s_factories s)) /\
  forall f c, nth_error (s_factories s) f = Some c ->
    f_rc c = Z.of_nat (cnt f (frefs x s)) /\ f_alive c = negb (cnt f (frefs x s) =? 0).

Lemma cnt_app f l l' : cnt f (l ++ l') = cnt f l + cnt f l'.
Proof. apply count_occ_app. Qed.
Lemma cnt_in f l : In f l <-> 0 < cnt f l.
Proof. unfold cnt. rewrite (count_occ_In Nat.eq_dec). lia. Qed.
Lemma cnt_cons f g l : cnt f (g :: l) = (if f =? g then 1 else 0) + cnt f l.
Proof. unfold cnt. cbn [count_occ]. destruct (Nat.eq_dec g f), (Nat.eqb_spec f g); try congruence; lia. Qed.

Lemma frefs_perm x y s : (forall f, cnt f (frefs x s) = cnt f (frefs y s)) -> counts_ok x s -> counts_ok y s.
Proof.
  intros H [A B]. split.
  - intros f. rewrite cnt_in, <- H, <- cnt_in. apply A.
  - intros f c E. rewrite <- H. now apply B.
Qed.

(** Same factories, references counted elsewhere. *)
Lemma counts_move x y s s' : s_factories s' = s_factories s ->
  (forall f, cnt f (frefs x s) = cnt f (frefs y s')) -> counts_ok x s -> counts_ok y s'.
Proof.
  intros F H [A B]. split.
  - intros f. rewrite F, cnt_in, <- H, <- cnt_in. apply A.
  - intros f c. rewrite F, <- H. apply B.
Qed.

Lemma get_factory_ok x s f : counts_ok x s -> In f (frefs x s) ->
  exists c, nth_error (s_factories s) f = Some c /\ get_factory s f = Done c /\
    f_rc c = Z.of_nat (cnt f (frefs x s)) /\ f < length (s_factories s).
Proof.
  intros [A B] I. pose proof (A f I) as L. destruct (nth_error (s_factories s) f) as [c|] eqn:E.
  - destruct (B f c E) as [R V]. exists c. split; [auto|]. split; [|auto].
    unfold get_factory. rewrite E. rewrite cnt_in in I. destruct (cnt f (frefs x s)); [lia|]. cbn in V. now rewrite V.
  - apply nth_error_None in E. lia.
Qed.

Lemma counts_upd x y s s' f c : counts_ok x s -> s_factories s' = upd (s_factories s) f c ->
  f < length (s_factories s) -> (forall g, g <> f -> cnt g (frefs y s') = cnt g (frefs x s)) ->
  f_rc c = Z.of_nat (cnt f (frefs y s')) -> f_alive c = negb (cnt f (frefs y s') =? 0) -> counts_ok y s'.
Proof.
  intros [A B] F L O R V. split.
  - intros g J. rewrite F, upd_length. destruct (Nat.eq_dec g f) as [->|D]; [auto|].
    apply A. rewrite cnt_in in *. rewrite <- (O g D). exact J.
  - intros g c0. rewrite F, nth_upd. destruct (Nat.eqb_spec f g) as [<-|D]; cbn [andb].
    + destruct (Nat.ltb_spec f (length (s_factories s))); [|lia]. intros [= <-]. auto.
    + intros E. rewrite (O g ltac:(congruence)). now apply B.
Qed.

Lemma add_ref_ok x s f : counts_ok x s -> In f (frefs x s) ->
  exists s', factory_add_ref f s = Done s' /\ counts_ok (f :: x) s' /\ s_map s' = s_map s /\ s_vars s' = s_vars s /\
    length (s_factories s') = length (s_factories s).
Proof.
  intros H I. destruct (get_factory_ok x s f H I) as (c & E & G & R & L). unfold factory_add_ref. rewrite G. cbn [obind].
  eexists. split; [reflexivity|]. split; [|cbn [set_factories s_map s_vars s_factories]; rewrite upd_length; auto].
  eapply (counts_upd x (f :: x) s _ f _ H); [reflexivity|exact L| | |];
    unfold frefs in *; cbn [set_factories s_map s_vars f_rc f_alive]; intros; repeat rewrite cnt_app in *; repeat rewrite cnt_cons in *.
  - destruct (Nat.eqb_spec g f); [contradiction|]. lia.
  - rewrite Nat.eqb_refl. rewrite R. lia.
  - rewrite Nat.eqb_refl. symmetry. apply Bool.negb_true_iff, Nat.eqb_neq. lia.
Qed.

Lemma release_ok x s f : counts_ok (f :: x) s ->
  exists s', factory_release f s = Done s' /\ counts_ok x s' /\ s_map s' = s_map s /\ s_vars s' = s_vars s /\
    length (s_factories s') = length (s_factories s).
Proof.
  intros H. assert (I : In f (frefs (f :: x) s)) by (unfold frefs; rewrite !in_app_iff; cbn; auto).
  destruct (get_factory_ok _ s f H I) as (c & E & G & R & L). unfold factory_release. rewrite G. cbn [obind].
  eexists. split; [reflexivity|]. split; [|cbn [set_factories s_map s_vars s_factories]; rewrite upd_length; auto].
  eapply (counts_upd (f :: x) x s _ f _ H); [reflexivity|exact L| | |];
    unfold frefs in *; cbn [set_factories s_map s_vars f_rc f_alive]; intros; repeat rewrite cnt_app in *; repeat rewrite cnt_cons in *.
  - destruct (Nat.eqb_spec g f); [contradiction|]. lia.
  - rewrite Nat.eqb_refl in R. rewrite R. lia.
  - rewrite Nat.eqb_refl in R. f_equal. rewrite R.
    destruct (Z.eqb_spec (Z.of_nat (cnt f (map n_factory (s_map s)) + (cnt f (var_refs (s_vars s)) + (1 + cnt f x))) - 1) 0),
      (Nat.eqb_spec (cnt f (map n_factory (s_map s)) + (cnt f (var_refs (s_vars s)) + cnt f x)) 0); lia.
Qed.

Lemma new_ok x s ps : counts_ok x s ->
  let (f, s') := factory_new ps s in
  f = length (s_factories s) /\ counts_ok (f :: x) s' /\ s_map s' = s_map s /\ s_vars s' = s_vars s /\
  length (s_factories s') = S (length (s_factories s)).
Proof.
  intros [A B]. unfold factory_new. split; [reflexivity|].
  cbn [set_factories s_map s_vars s_factories]. rewrite app_length. cbn [length]. split; [|split; [auto|split; [auto|lia]]].
  assert (Z0 : cnt (length (s_factories s)) (frefs x s) = 0).
  { destruct (cnt (length (s_factories s)) (frefs x s)) eqn:C; [auto|].
    assert (I : In (length (s_factories s)) (frefs x s)) by (rewrite cnt_in; lia). apply A in I. lia. }
  assert (CC : forall f, cnt f (frefs (length (s_factories s) :: x) s) =
             (if f =? length (s_factories s) then 1 else 0) + cnt f (frefs x s)).
  { intros f. unfold frefs. rewrite !cnt_app, cnt_cons. lia. }
  unfold counts_ok. cbn [set_factories s_factories].
  change (frefs (length (s_factories s) :: x) (set_factories s (s_factories s ++ [mk_factory true 1 ps])))
    with (frefs (length (s_factories s) :: x) s).
  split.
  - intros f. rewrite cnt_in, CC, app_length. cbn [length]. destruct (Nat.eqb_spec f (length (s_factories s))); [lia|].
    cbn [Nat.add]. rewrite <- cnt_in. intros J. apply A in J. lia.
  - intros f c. rewrite CC. intros E. destruct (Nat.eqb_spec f (length (s_factories s))) as [->|D].
    + rewrite nth_error_app2, Nat.sub_diag in E by lia. cbn in E. injection E as <-. cbn [f_rc f_alive]. rewrite Z0. auto.
    + cbn [Nat.add]. apply B. destruct (Nat.ltb_spec f (length (s_factories s))).
      * now rewrite nth_error_app1 in E by lia.
      * assert (Q : f < length (s_factories s ++ [mk_factory true 1 ps])) by (apply nth_error_Some; congruence).
        rewrite app_length in Q. cbn in Q. lia.
Qed.

(** *** The map *)

Section Hash.
Variable hr : list N -> N.

(** The map has each name at most once, and the hash values are right. *)
Definition map_ok (m : list node) : Prop :=
  NoDup (map (fun n => name (n_key n)) m) /\ forall n, In n m -> n_hash n = hash_value hr (n_key n).

(** The factory of a name in the map. *)
Fixpoint assoc (k : list N) (m : list node) : option nat :=
  match m with
  | [] => None
  | n :: m => if eqb_chars (name (n_key n)) k then Some (n_factory n) else assoc k m
  end.

Lemma hash_name u u' : name u = name u' -> hash_value hr u = hash_value hr u'.
Proof. unfold hash_value. rewrite !strlen_name. unfold name. congruence. Qed.

Lemma matches_spec u n : n_hash n = hash_value hr (n_key n) ->
  matches hr u n = eqb_chars (name (n_key n)) (name u).
Proof.
  intros H. unfold matches. rewrite H. destruct (uid_eqb_spec (n_key n) u) as [E|E], (eqb_chars_spec (name (n_key n)) (name u)); try contradiction.
  - rewrite (hash_name _ _ E), N.eqb_refl. reflexivity.
  - apply Bool.andb_false_r.
Qed.

Lemma find_assoc u m : map_ok m -> option_map n_factory (map_find hr u m) = assoc (name u) m.
Proof.
  intros [_ H]. unfold map_find. induction m as [|n m IH]; [reflexivity|]. cbn [find assoc].
  rewrite (matches_spec u n) by (apply H; now left). destruct (eqb_chars (name (n_key n)) (name u)); [reflexivity|].
  apply IH. intros; apply H; now right.
Qed.

Lemma assoc_none k m : assoc k m = None <-> ~ In k (map (fun n => name (n_key n)) m).
Proof.
  induction m as [|n m IH]; cbn [assoc map In]; [tauto|].
  destruct (eqb_chars_spec (name (n_key n)) k); [split; [discriminate|tauto]|]. rewrite IH. tauto.
Qed.

Lemma assoc_in k m f : assoc k m = Some f -> In f (map n_factory m).
Proof.
  induction m as [|n m IH]; cbn [assoc map In]; [discriminate|].
  destruct (eqb_chars (name (n_key n)) k); [intros [= ->]; now left|auto].
Qed.

Lemma in_assoc m f : map_ok m -> In f (map n_factory m) -> exists u, assoc (name u) m = Some f.
Proof.
  intros [ND _] I. apply in_map_iff in I. destruct I as (n & <- & I). exists (n_key n).
  induction m as [|x m IH]; [contradiction|]. cbn [assoc map] in *. inversion ND as [|? ? N1 N2]. subst.
  destruct I as [->|I].
  - destruct (eqb_chars_spec (name (n_key n)) (name (n_key n))); [reflexivity|congruence].
  - destruct (eqb_chars_spec (name (n_key x)) (name (n_key n))) as [E|E]; [|auto].
    exfalso. apply N1. rewrite E. apply in_map_iff. eauto.
Qed.

Lemma map_add u f m : map_ok m -> assoc (name u) m = None -> map_ok (mk_node (hash_value hr u) u f :: m).
Proof.
  intros [A B] N. split.
  - cbn [map n_key]. constructor; [now apply assoc_none|auto].
  - intros n [<-|I]; [reflexivity|auto].
Qed.

Lemma erase_ok u m : map_ok m -> map_ok (erase hr u m) /\
  (forall k, assoc k (erase hr u m) = if eqb_chars (name u) k then None else assoc k m) /\
  forall f, cnt f (map n_factory m) =
    (match assoc (name u) m with Some g => if f =? g then 1 else 0 | None => 0 end) + cnt f (map n_factory (erase hr u m)).
Proof.
  induction m as [|n m IH]; intros [ND H].
  - cbn. split; [split; [constructor|contradiction]|]. split; [intros k; destruct (eqb_chars (name u) k); reflexivity|auto].
  - cbn [map] in ND. inversion ND as [|? ? N1 N2]. subst. assert (M : map_ok m) by (split; [auto|intros; apply H; now right]).
    cbn [erase assoc]. rewrite (matches_spec u n) by (apply H; now left).
    destruct (eqb_chars_spec (name (n_key n)) (name u)) as [E|E].
    + split; [auto|]. split.
      * intros k. destruct (eqb_chars_spec (name u) k) as [<-|D].
        -- apply assoc_none. now rewrite <- E.
        -- rewrite E. destruct (eqb_chars_spec (name u) k); [contradiction|reflexivity].
      * intros f. cbn [map]. now rewrite cnt_cons.
    + destruct (IH M) as ((A1 & A2) & A3 & A4). split; [split|split].
      * cbn [map]. constructor; [|auto]. rewrite <- assoc_none, A3. destruct (eqb_chars (name u) (name (n_key n))); [reflexivity|].
        now apply assoc_none.
      * intros x [<-|I]; [apply H; now left|auto].
      * intros k. cbn [assoc]. rewrite A3. destruct (eqb_chars_spec (name (n_key n)) k) as [<-|D]; [|reflexivity].
        destruct (eqb_chars_spec (name u) (name (n_key n))); [congruence|reflexivity].
      * intros f. cbn [map]. rewrite !cnt_cons, A4. lia.
Qed.

(** *** Steps *)

Definition ok (s : state) : Prop := counts_ok [] s /\ map_ok (s_map s).

(** The state of the registry seen as a table. *)
Definition shows (s : state) (t : table) : Prop :=
  (forall k, t_map t k = assoc k (s_map s)) /\ t_vars t = s_vars s /\ t_next t = length (s_factories s).

Lemma register_ok s t f u : counts_ok (match f with Some f => [f] | None => [] end) s -> map_ok (s_map s) -> shows s t ->
  exists s', register hr f u s = Done (s', snd (t_register f (name u) t)) /\ ok s' /\
    shows s' (fst (t_register f (name u) t)).
Proof.
  intros C M (S1 & S2 & S3). unfold register, t_register. destruct f as [f|].
  - pose proof (find_assoc u _ M) as F. rewrite S1. destruct (map_find hr u (s_map s)) as [n|]; cbn [option_map] in F; rewrite <- F.
    + destruct (release_ok [] s f C) as (s' & -> & C' & E1 & E2 & E3). cbn [obind fst snd]. exists s'. split; [auto|].
      split; [split; [auto|congruence]|]. unfold shows. rewrite E1, E2, E3. auto.
    + eexists. split; [reflexivity|]. split; [split|].
      * eapply counts_move; [| |exact C]; [reflexivity|]. intros g. unfold frefs. cbn [set_map s_map s_vars map n_factory].
        cbn [app]. repeat rewrite cnt_app. repeat rewrite cnt_cons. repeat rewrite cnt_app. cbn [cnt count_occ]. lia.
      * cbn [set_map s_map]. apply map_add; auto.
      * unfold shows. cbn [set_map s_map s_vars s_factories fst t_map t_vars t_next]. split; [|auto].
        intros k. unfold bind. cbn [assoc n_key n_factory]. now rewrite S1.
  - exists s. cbn [fst snd]. split; [auto|]. split; [split; auto|]. unfold shows. auto.
Qed.

Lemma var_cnt l i f g : nth_error l i = Some (Some f) ->
  cnt g (var_refs l) = (if g =? f then 1 else 0) + cnt g (var_refs (upd l i None)).
Proof.
  revert i. induction l as [|v l IH]; intros [|i]; cbn [nth_error]; try discriminate.
  - intros [= ->]. cbn [var_refs flat_map upd app]. now rewrite cnt_cons.
  - intros E. cbn [var_refs flat_map upd]. fold (var_refs l). fold (var_refs (upd l i None)). rewrite !cnt_app, (IH i E). lia.
Qed.
Lemma var_in l i f : nth_error l i = Some (Some f) -> In f (var_refs l).
Proof. intros E. rewrite cnt_in, (var_cnt l i f f E), Nat.eqb_refl. lia. Qed.
Lemma var_refs_app l v : var_refs (l ++ [v]) = var_refs l ++ match v with Some f => [f] | None => [] end.
Proof. unfold var_refs. rewrite flat_map_app. cbn. destruct v; reflexivity. Qed.
Lemma upd_same {A} (l : list A) i x : nth_error l i = Some x -> upd l i x = l.
Proof. revert i. induction l as [|y l IH]; intros [|i]; cbn; try discriminate; [congruence|]. intros E. now rewrite IH. Qed.

Lemma release_all_ok : forall m s, counts_ok (map n_factory m) (set_map s []) ->
  exists s', release_all m s = Done s' /\ counts_ok [] (set_map s' []) /\ s_vars s' = s_vars s /\
    length (s_factories s') = length (s_factories s).
Proof.
  induction m as [|n m IH]; intros s C; cbn [release_all].
  - exists s. auto.
  - cbn [map] in C. destruct (release_ok _ _ _ C) as (s' & E & C' & E1 & E2 & E3).
    unfold factory_release, get_factory in *. cbn [set_map s_factories] in E.
    destruct (nth_error (s_factories s) (n_factory n)) as [x|]; [|discriminate]. destruct (f_alive x); [|discriminate].
    cbn [obind] in *. injection E as <-.
    destruct (IH (set_factories s (upd (s_factories s) (n_factory n)
       (mk_factory (negb (f_rc x - 1 =? 0)%Z) (f_rc x - 1) (f_class x))))) as (s2 & -> & C2 & F1 & F2).
    + exact C'.
    + exists s2. split; [auto|]. split; [auto|]. split; [exact F1|]. rewrite F2. exact E3.
Qed.

Lemma step_shows o s t : ok s -> shows s t ->
  match t_step o t with
  | Some (t', r) => exists s', step hr o s = Done (s', r) /\ ok s' /\ shows s' t'
  | None => step hr o s = AssertFail
  end.
Proof.
  intros [C M] Sh. pose proof Sh as (S1 & S2 & S3). destruct o; cbn [t_step step].
  - pose proof (new_ok [] s ps C) as Q. destruct (factory_new ps s) as [f s'] eqn:EN. destruct Q as (-> & C' & E1 & E2 & E3).
    rewrite <- S3. eexists. split; [reflexivity|]. split; [split|].
    + eapply counts_move; [| |exact C']; [reflexivity|]. intros g. unfold frefs. cbn [set_vars s_map s_vars].
      rewrite var_refs_app, !cnt_app, S3. cbn. lia.
    + cbn [set_vars s_map]. congruence.
    + unfold shows. cbn [set_vars s_map s_vars s_factories t_map t_vars t_next]. rewrite E1, E2, E3, S2, S3. auto.
  - eexists. split; [reflexivity|]. split; [split|].
    + eapply counts_move; [| |exact C]; [reflexivity|]. intros g. unfold frefs. cbn [set_vars s_map s_vars].
      rewrite var_refs_app, !cnt_app. cbn. lia.
    + auto.
    + unfold shows. cbn [set_vars s_map s_vars s_factories t_map t_vars t_next]. rewrite S2, S3. auto.
  - rewrite S2. destruct (Nat.ltb_spec i (length (s_vars s))) as [L|L].
    + destruct (nth_error (s_vars s) i) as [[f|]|] eqn:E; [| |apply nth_error_None in E; lia].
      * assert (C1 : counts_ok [f] (set_vars s (upd (s_vars s) i None))).
        { eapply counts_move; [| |exact C]; [reflexivity|]. intros g. unfold frefs. cbn [set_vars s_map s_vars].
          rewrite !cnt_app, cnt_cons, (var_cnt _ i f g E). cbn. lia. }
        destruct (release_ok [] _ f C1) as (s' & E0 & C' & E1 & E2 & E3).
        unfold factory_release, get_factory in *. cbn [set_vars s_factories] in E0.
        destruct (nth_error (s_factories s) f) as [x|]; [|discriminate]. destruct (f_alive x); [|discriminate].
        cbn [obind] in *. injection E0 as <-. eexists. split; [reflexivity|]. split; [split|].
        -- exact C'.
        -- exact M.
        -- unfold shows. cbn [set_vars set_factories s_map s_vars s_factories t_map t_vars t_next]. rewrite upd_length. auto.
      * exists s. split; [auto|]. split; [split; auto|]. unfold shows. cbn [t_map t_vars t_next].
        rewrite (upd_same _ _ _ E). auto.
    + apply nth_error_None in L. now rewrite L.
  - rewrite S2. destruct (nth_error (s_vars s) i) as [[f|]|] eqn:E; [| |reflexivity].
    + assert (I : In f (frefs [] s)). { unfold frefs. rewrite !in_app_iff. right. left. exact (var_in _ _ _ E). }
      destruct (add_ref_ok [] s f C I) as (s' & -> & C' & E1 & E2 & E3). cbn [obind].
      assert (Sh' : shows s' t) by (unfold shows; rewrite E1, E2, E3; auto).
      rewrite <- E1 in M. destruct (register_ok s' t (Some f) u C' M Sh') as (s2 & -> & O & Sh2).
      destruct (t_register (Some f) (name u) t). eauto.
    + destruct (register_ok s t None u C M Sh) as (s2 & -> & O & Sh2). destruct (t_register None (name u) t). eauto.
  - rewrite S2. destruct (nth_error (s_vars s) i) as [f|] eqn:E; [|reflexivity].
    set (s1 := set_vars s (upd (s_vars s) i None)).
    assert (C1 : counts_ok (match f with Some f => [f] | None => [] end) s1).
    { destruct f as [f|].
      - eapply counts_move; [| |exact C]; [reflexivity|]. intros g. unfold frefs, s1. cbn [set_vars s_map s_vars].
        rewrite !cnt_app, cnt_cons, (var_cnt _ i f g E). cbn. lia.
      - unfold s1. rewrite (upd_same _ _ _ E). destruct s; exact C. }
    assert (Sh1 : shows s1 (mk_table (t_map t) (upd (s_vars s) i None) (t_next t))).
    { unfold shows, s1. cbn. auto. }
    destruct (register_ok s1 _ f u C1 M Sh1) as (s2 & -> & O & Sh2). destruct (t_register f (name u) _). eauto.
  - pose proof (new_ok [] s ps C) as Q. destruct (factory_new ps s) as [f s'] eqn:EN. destruct Q as (-> & C' & E1 & E2 & E3).
    rewrite <- S3. rewrite <- E1 in M. rewrite <- S3 in C'.
    assert (Sh1 : shows s' (mk_table (t_map t) (t_vars t) (S (t_next t)))).
    { unfold shows. cbn [t_map t_vars t_next]. rewrite E1, E2, E3, S2, S3. auto. }
    destruct (register_ok s' _ (Some (t_next t)) u C' M Sh1) as (s2 & -> & O & Sh2).
    destruct (t_register (Some (t_next t)) (name u) _). eauto.
  - unfold unregister. destruct (erase_ok u _ M) as (M' & A & CE). pose proof (find_assoc u _ M) as F.
    destruct (map_find hr u (s_map s)) as [n|]; cbn [option_map] in F; rewrite <- F in CE.
    + assert (C1 : counts_ok [n_factory n] (set_map s (erase hr u (s_map s)))).
      { eapply counts_move; [| |exact C]; [reflexivity|]. intros g. unfold frefs. cbn [set_map s_map s_vars].
        rewrite !cnt_app, cnt_cons, CE. cbn. lia. }
      destruct (release_ok [] _ _ C1) as (s' & -> & C' & E1 & E2 & E3). cbn [obind]. eexists. split; [reflexivity|].
      cbn [set_map s_map s_vars s_factories] in *. split; [split; [auto|congruence]|].
      unfold shows. cbn [t_map t_vars t_next]. rewrite E1, E2, E3. split; [|auto]. intros k. rewrite A. unfold bind. now rewrite S1.
    + exists s. split; [auto|]. split; [split; auto|]. unfold shows. cbn [t_map t_vars t_next]. split; [|auto].
      intros k. unfold bind. destruct (eqb_chars_spec (name u) k) as [<-|D]; auto.
  - unfold unregister_all. assert (C1 : counts_ok (map n_factory (s_map s)) (set_map s [])).
    { eapply counts_move; [| |exact C]; [reflexivity|]. intros g. unfold frefs. cbn [set_map s_map s_vars map].
      rewrite !cnt_app. cbn. lia. }
    destruct (release_all_ok _ _ C1) as (s' & -> & C' & E1 & E2). cbn [obind]. eexists. split; [reflexivity|].
    split; [split; [exact C'|]|].
    + split; [constructor|]. cbn. contradiction.
    + unfold shows. cbn [set_map s_map s_vars s_factories t_map t_vars t_next]. rewrite E1, E2. auto.
  - unfold get_class_factory. rewrite S1. pose proof (find_assoc u _ M) as F.
    destruct (map_find hr u (s_map s)) as [n|]; cbn [option_map] in F; rewrite <- F.
    + assert (I : In (n_factory n) (frefs [] s)). { unfold frefs. rewrite !in_app_iff. left. exact (assoc_in _ _ _ (eq_sym F)). }
      destruct (add_ref_ok [] s _ C I) as (s' & -> & C' & E1 & E2 & E3). cbn [obind]. eexists. split; [reflexivity|]. split; [split|].
      * eapply counts_move; [| |exact C']; [reflexivity|]. intros g. unfold frefs. cbn [set_vars s_map s_vars].
        rewrite var_refs_app, !cnt_app. cbn. lia.
      * cbn [set_vars s_map]. congruence.
      * unfold shows. cbn [set_vars s_map s_vars s_factories t_map t_vars t_next]. rewrite E1, E2, E3, S2. auto.
    + exists s. split; [auto|]. split; [split; auto|]. auto.
Qed.

Lemma run_shows os : forall s t, ok s -> shows s t ->
  match t_run os t with
  | Some (t', rs) => exists s', run hr os s = Done (s', rs) /\ ok s' /\ shows s' t'
  | None => run hr os s = AssertFail
  end.
Proof.
  induction os as [|o os IH]; intros s t O Sh; cbn [t_run run].
  - eauto.
  - pose proof (step_shows o s t O Sh) as Q. destruct (t_step o t) as [[t1 r]|].
    + destruct Q as (s1 & -> & O1 & Sh1). cbn [obind]. specialize (IH s1 t1 O1 Sh1).
      destruct (t_run os t1) as [[t2 rs]|]; [|now rewrite IH]. destruct IH as (s2 & -> & O2 & Sh2). cbn [obind]. eauto.
    + now rewrite Q.
Qed.

Lemma init_ok : ok init /\ shows init t_init.
Proof.
  split; [split|].
  - split; [cbn; contradiction|]. intros [|f] c; discriminate.
  - split; [constructor|]. cbn. contradiction.
  - unfold shows. cbn. auto.
Qed.

Lemma answer_ok s u : ok s ->
  answer hr s u = Done (match assoc (name u) (s_map s) with Some f => RFactory f | None => RThrow ClassNotRegistered end).
Proof.
  intros O. set (t := mk_table (fun k => assoc k (s_map s)) (s_vars s) (length (s_factories s))).
  assert (Sh : shows s t) by (unfold shows, t; cbn; auto).
  pose proof (step_shows (GetClassFactory u) s t O Sh) as Q. unfold answer. cbn [t_step] in Q. change (t_map t (name u)) with (assoc (name u) (s_map s)) in Q.
  destruct (assoc (name u) (s_map s)); destruct Q as (s' & -> & _); reflexivity.
Qed.

End Hash.
