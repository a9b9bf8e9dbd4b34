(** Lemmas on packets that are taken apart and put together again. *)
From Verif Require Import Base BaseProofs Packet PacketSpec PacketParts PacketProofs.
From Verif Require Buffer BufferSpec BufferProofs TagList TagListSpec TagListProofs.
From Coq Require Import ZifyBool ZifyNat ZifyN.

(** ** Tags of pieces *)

Section Fit.
Context {V : Type}.
Notation tag := (TagList.tag_index V).

Definition like (x y : tag) : Prop := TagList.x_id y = TagList.x_id x /\ TagList.x_start y = TagList.x_start x /\ TagList.x_end y = TagList.x_end x.
Lemma like_refl x : like x x.
Proof. repeat split. Qed.
Lemma like_trans x y z : like x y -> like y z -> like x z.
Proof. unfold like. intuition congruence. Qed.
Lemma like_shift d x y : like x y -> like (shift d x) (shift d y).
Proof. unfold like. cbn. intuition congruence. Qed.
Lemma same_range_like x y : TagListSpec.same_range x y = true <-> like x y.
Proof. unfold TagListSpec.same_range, like. lia. Qed.
Lemma like_touches n x y : like x y -> touches n x = touches n y.
Proof. unfold like, TagListSpec.touches. intros (_ & -> & ->). reflexivity. Qed.
Lemma add_new_keeps ys : forall l (x : tag), In x l -> In x (add_new l ys).
Proof.
  induction ys as [|y ys IH]; intros l x H; cbn; [exact H|]. destruct (existsb _ l); [exact (IH l x H)|]. apply (IH (l ++ [y]) x), in_or_app. auto.
Qed.
Lemma add_new_adds ys : forall l (x : tag), In x ys -> exists z, In z (add_new l ys) /\ like x z.
Proof.
  induction ys as [|y ys IH]; intros l x []; cbn.
  - subst y. destruct (existsb (TagListSpec.same_range x) l) eqn:E.
    + apply existsb_exists in E. destruct E as (z & Hz & Sz). exists z. split; [apply (add_new_keeps ys l z), Hz|apply same_range_like, Sz].
    + exists x. split; [apply (add_new_keeps ys (l ++ [x]) x), in_or_app; right; left; reflexivity|apply like_refl].
  - destruct (existsb _ l); [apply (IH l x), H|apply (IH (l ++ [y]) x), H].
Qed.
Lemma in_touching n (xs : list tag) x : In x (filter (touches n) xs) <-> In x xs /\ touches n x = true.
Proof. apply filter_In. Qed.
Lemma shift0 (x : tag) : shift 0 x = x.
Proof. destruct x. unfold TagListSpec.shift. cbn. rewrite !Z.add_0_r. reflexivity. Qed.
Lemma shift_shift d d' (x : tag) : shift d (shift d' x) = shift (d' + d) x.
Proof. unfold TagListSpec.shift. cbn. f_equal; lia. Qed.

(** [X] are the tags of the original, [n] its size; [xs] those of a piece of it. *)
Definition off (q : piece) : Z := (Z.of_nat (i_lead q) - Z.of_nat (i_from q))%Z.
Definition sound (X : list tag) (q : piece) (xs : list tag) : Prop :=
  forall x, In x xs -> exists z, In z X /\ x = shift (off q) z.
Definition complete (X : list tag) (q : piece) (xs : list tag) : Prop :=
  forall z, In z X -> (TagList.x_start z < TagList.x_end z)%Z -> (TagList.x_start z < Z.of_nat (i_to q))%Z -> (Z.of_nat (i_from q) < TagList.x_end z)%Z ->
  exists x, In x (filter (touches (piece_len q)) xs) /\ like (shift (off q) z) x.
Record tfit (X : list tag) (q : piece) (xs : list tag) : Prop := {
  t_order : i_from q <= i_to q;
  t_sound : sound X q xs;
  t_complete : complete X q xs
}.

Lemma touches_shift d n m (x : tag) : (0 <= d)%Z -> (Z.of_nat n + d <= Z.of_nat m)%Z -> touches n x = true -> touches m (shift d x) = true.
Proof. unfold TagListSpec.touches. cbn. lia. Qed.

Lemma tfit_grow_front X q xs k zs : tfit X q xs -> incl zs (map (shift (Z.of_nat k)) xs) ->
  filter (touches (piece_len q + k)) zs = map (shift (Z.of_nat k)) (filter (touches (piece_len q)) xs) -> tfit X (grow_front k q) zs.
Proof.
  intros [O So Co] Hi Hf. split; [exact O| |].
  - intros x Hx. apply Hi, in_map_iff in Hx. destruct Hx as (y & <- & Hy). destruct (So y Hy) as (z & Hz & ->). exists z. split; [exact Hz|].
    rewrite shift_shift. f_equal. unfold off, grow_front. cbn. lia.
  - intros z Hz Hp H1 H2. cbn in H1, H2. destruct (Co z Hz Hp H1 H2) as (x & Hx & L). exists (shift (Z.of_nat k) x).
    replace (piece_len (grow_front k q)) with (piece_len q + k) by (unfold piece_len; cbn; lia). rewrite Hf. split; [apply in_map, Hx|].
    replace (off (grow_front k q)) with (off q + Z.of_nat k)%Z by (unfold off; cbn; lia). rewrite <- shift_shift. apply like_shift, L.
Qed.
Lemma tfit_grow_back X q xs k zs : tfit X q xs -> incl zs xs ->
  filter (touches (piece_len q + k)) zs = filter (touches (piece_len q)) xs -> tfit X (grow_back k q) zs.
Proof.
  intros [O So Co] Hi Hf. split; [exact O| |].
  - intros x Hx. apply So, Hi, Hx.
  - intros z Hz Hp H1 H2. cbn in H1, H2. destruct (Co z Hz Hp H1 H2) as (x & Hx & L). exists x.
    replace (piece_len (grow_back k q)) with (piece_len q + k) by (unfold piece_len; cbn; lia). rewrite Hf. auto.
Qed.
Lemma like_in n (xs : list tag) y x : In x xs -> like y x -> touches n y = true -> In x (filter (touches n) xs).
Proof. intros H L T. apply in_touching. split; [exact H|]. rewrite <- (like_touches n _ _ L). exact T. Qed.
(** The tag of the original reaches into the piece. *)
Lemma reach q (z : tag) : (TagList.x_start z < Z.of_nat (i_to q))%Z -> (Z.of_nat (i_from q) < TagList.x_end z)%Z -> i_from q <= i_to q ->
  touches (piece_len q) (shift (off q) z) = true.
Proof. unfold TagListSpec.touches, piece_len, off. cbn. lia. Qed.
Lemma tfit_cut_front X q q' xs k : tfit X q xs -> cut_front k q = Some q' -> tfit X q' (map (shift (- Z.of_nat k)) xs).
Proof.
  intros [O So Co] E. unfold cut_front in E.
  assert (G : off q' = (off q - Z.of_nat k)%Z /\ i_from q <= i_from q' /\ i_to q' = i_to q /\ i_from q' <= i_to q').
  { destruct (Nat.leb_spec k (i_lead q)); [injection E as <-; unfold off; cbn; lia|].
    destruct (Nat.leb_spec (i_from q + (k - i_lead q)) (i_to q)); [|discriminate]. injection E as <-; unfold off; cbn; lia. }
  destruct G as (G1 & G2 & G3 & G4). split; [exact G4| |].
  - intros x Hx. apply in_map_iff in Hx. destruct Hx as (y & <- & Hy). destruct (So y Hy) as (z & Hz & ->). exists z. split; [exact Hz|].
    rewrite shift_shift. f_equal. lia.
  - intros z Hz Hp H1 H2. destruct (Co z Hz Hp) as (x & Hx & L); [lia|lia|]. apply in_touching in Hx. destruct Hx as [Hx _]. exists (shift (- Z.of_nat k) x).
    assert (L' : like (shift (off q') z) (shift (- Z.of_nat k) x)).
    { rewrite G1. replace (off q - Z.of_nat k)%Z with (off q + - Z.of_nat k)%Z by lia. rewrite <- shift_shift. apply like_shift, L. }
    split; [|exact L']. eapply like_in; [apply in_map, Hx|exact L'|]. apply reach; assumption.
Qed.
Lemma tfit_cut_back X q q' xs k : tfit X q xs -> cut_back k q = Some q' -> tfit X q' xs.
Proof.
  intros [O So Co] E. unfold cut_back in E.
  assert (G : off q' = off q /\ i_from q' = i_from q /\ i_to q' <= i_to q /\ i_from q' <= i_to q').
  { destruct (Nat.leb_spec k (i_trail q)); [injection E as <-; unfold off; cbn; lia|].
    destruct (Nat.leb_spec (i_from q + (k - i_trail q)) (i_to q)); [|discriminate]. injection E as <-; unfold off; cbn; lia. }
  destruct G as (G1 & G2 & G3 & G4). split; [exact G4| |].
  - intros x Hx. rewrite G1. apply So, Hx.
  - intros z Hz Hp H1 H2. destruct (Co z Hz Hp) as (x & Hx & L); [lia|lia|]. apply in_touching in Hx. destruct Hx as [Hx _]. exists x.
    rewrite <- G1 in L. split; [|exact L]. eapply like_in; [exact Hx|exact L|]. apply reach; assumption.
Qed.
(** [q] in front, [r] behind. *)
Lemma glue_spec q r p : glue q r = Some p -> i_trail q = 0 /\ i_lead r = 0 /\ i_to q = i_from r /\
  p = mk_piece (i_lead q) (i_from q) (i_to r) (i_trail r).
Proof.
  unfold glue. destruct (Nat.eqb_spec (i_trail q) 0), (Nat.eqb_spec (i_lead r) 0), (Nat.eqb_spec (i_to q) (i_from r)); cbn; try discriminate.
  intros [=<-]. auto.
Qed.
Lemma tfit_glue_back X q r p xs us zs : tfit X q xs -> tfit X r us -> glue q r = Some p ->
  incl zs (xs ++ map (shift (Z.of_nat (piece_len q))) us) ->
  filter (touches (piece_len q + piece_len r)) zs = add_new (filter (touches (piece_len q)) xs)
    (filter (touches (piece_len q + piece_len r)) (map (shift (Z.of_nat (piece_len q))) us)) -> tfit X p zs.
Proof.
  intros [O So Co] [O' So' Co'] G Hi Hf. apply glue_spec in G. destruct G as (G1 & G2 & G3 & ->).
  set (p := mk_piece _ _ _ _). assert (Lp : piece_len p = piece_len q + piece_len r) by (unfold p, piece_len; cbn; lia).
  assert (Op : off p = off q) by reflexivity. assert (Or : (off r + Z.of_nat (piece_len q) = off p)%Z) by (unfold off, p, piece_len; cbn; lia).
  split; [cbn; lia| |].
  - intros x Hx. apply Hi, in_app_or in Hx. destruct Hx as [Hx|Hx]; [apply So, Hx|]. apply in_map_iff in Hx. destruct Hx as (y & <- & Hy).
    destruct (So' y Hy) as (z & Hz & ->). exists z. split; [exact Hz|]. rewrite shift_shift, Or. reflexivity.
  - intros z Hz Hp H1 H2. cbn in H1, H2. rewrite Lp, Hf. destruct (Z.lt_ge_cases (TagList.x_start z) (Z.of_nat (i_to q))) as [H3|H3].
    + destruct (Co z Hz Hp H3 H2) as (x & Hx & L). exists x. split; [apply add_new_keeps, Hx|exact L].
    + destruct (Co' z Hz Hp H1) as (x & Hx & L); [lia|]. apply in_touching in Hx. destruct Hx as [Hx Tx].
      assert (L' : like (shift (off p) z) (shift (Z.of_nat (piece_len q)) x)) by (rewrite <- Or, <- shift_shift; apply like_shift, L).
      destruct (add_new_adds (filter (touches (piece_len q + piece_len r)) (map (shift (Z.of_nat (piece_len q))) us)) (filter (touches (piece_len q)) xs)
        (shift (Z.of_nat (piece_len q)) x)) as (y & Hy & Ly).
      { apply in_touching. split; [apply in_map, Hx|]. eapply touches_shift; [| |exact Tx]; lia. }
      exists y. split; [exact Hy|eapply like_trans; eassumption].
Qed.
Lemma tfit_glue_front X q r p xs us zs : tfit X q xs -> tfit X r us -> glue r q = Some p ->
  incl zs (map (shift (Z.of_nat (piece_len r))) xs ++ us) ->
  filter (touches (piece_len q + piece_len r)) zs = add_new (map (shift (Z.of_nat (piece_len r))) (filter (touches (piece_len q)) xs))
    (filter (touches (piece_len q + piece_len r)) us) -> tfit X p zs.
Proof.
  intros [O So Co] [O' So' Co'] G Hi Hf. apply glue_spec in G. destruct G as (G1 & G2 & G3 & ->).
  set (p := mk_piece _ _ _ _). assert (Lp : piece_len p = piece_len q + piece_len r) by (unfold p, piece_len; cbn; lia).
  assert (Op : off p = off r) by reflexivity. assert (Or : (off q + Z.of_nat (piece_len r) = off p)%Z) by (unfold off, p, piece_len; cbn; lia).
  split; [cbn; lia| |].
  - intros x Hx. apply Hi, in_app_or in Hx. destruct Hx as [Hx|Hx]; [|apply So', Hx]. apply in_map_iff in Hx. destruct Hx as (y & <- & Hy).
    destruct (So y Hy) as (z & Hz & ->). exists z. split; [exact Hz|]. rewrite shift_shift, Or. reflexivity.
  - intros z Hz Hp H1 H2. cbn in H1, H2. rewrite Lp, Hf. destruct (Z.lt_ge_cases (TagList.x_start z) (Z.of_nat (i_to r))) as [H3|H3].
    + destruct (Co' z Hz Hp H3 H2) as (x & Hx & L). apply in_touching in Hx. destruct Hx as [Hx Tx].
      destruct (add_new_adds (filter (touches (piece_len q + piece_len r)) us) (map (shift (Z.of_nat (piece_len r))) (filter (touches (piece_len q)) xs)) x) as (y & Hy & Ly).
      { apply in_touching. split; [exact Hx|]. rewrite <- (shift0 x). eapply touches_shift; [| |exact Tx]; lia. }
      exists y. split; [exact Hy|eapply like_trans; eassumption].
    + destruct (Co z Hz Hp H1) as (x & Hx & L); [lia|]. exists (shift (Z.of_nat (piece_len r)) x). split; [apply add_new_keeps, in_map, Hx|].
      rewrite <- Or, <- shift_shift. apply like_shift, L.
Qed.
End Fit.

(** ** Bytes of pieces *)

Lemma skipn_skipn {A} (l : list A) a b : skipn a (skipn b l) = skipn (a + b) l.
Proof. rewrite BufferProofs.skipn_skipn', Nat.add_comm. reflexivity. Qed.
Definition bfit (P : list N) (q : piece) (s : list N) : Prop := i_to q <= length P /\ length s = piece_len q /\
  firstn (i_to q - i_from q) (skipn (i_lead q) s) = firstn (i_to q - i_from q) (skipn (i_from q) P).
Lemma bfit_grow_front P q s x : bfit P q s -> bfit P (grow_front (length x) q) (x ++ s).
Proof.
  intros (O & L & E). split; [exact O|]. split; [rewrite app_length, L; unfold piece_len; cbn; lia|]. cbn [grow_front i_to i_from i_lead].
  rewrite skipn_app, skipn_all2 by lia. replace (length x + i_lead q - length x) with (i_lead q) by lia. exact E.
Qed.
Lemma bfit_grow_back P q s x : i_from q <= i_to q -> bfit P q s -> bfit P (grow_back (length x) q) (s ++ x).
Proof.
  intros O0 (O & L & E). split; [exact O|]. split; [rewrite app_length, L; unfold piece_len; cbn; lia|]. cbn [grow_back i_to i_from i_lead].
  unfold piece_len in L. rewrite skipn_app, firstn_app, skipn_length. replace (i_to q - i_from q - (length s - i_lead q)) with 0 by lia. rewrite app_nil_r. exact E.
Qed.
Lemma bfit_cut_front P q q' s k : bfit P q s -> i_from q <= i_to q -> cut_front k q = Some q' -> bfit P q' (skipn k s).
Proof.
  intros (O & L & E) O0 C. unfold cut_front in C. unfold piece_len in L. destruct (Nat.leb_spec k (i_lead q)) as [H|H].
  - injection C as <-. split; [exact O|]. split; [rewrite skipn_length; unfold piece_len; cbn; lia|]. cbn [i_to i_from i_lead].
    rewrite skipn_skipn. replace (i_lead q - k + k) with (i_lead q) by lia. exact E.
  - destruct (Nat.leb_spec (i_from q + (k - i_lead q)) (i_to q)) as [H1|]; [|discriminate]. injection C as <-.
    split; [exact O|]. split; [rewrite skipn_length; unfold piece_len; cbn; lia|]. cbn [i_to i_from i_lead skipn].
    apply (f_equal (skipn (k - i_lead q))) in E. rewrite !skipn_firstn_comm, !skipn_skipn in E. replace (k - i_lead q + i_lead q) with k in E by lia.
    replace (i_to q - (i_from q + (k - i_lead q))) with (i_to q - i_from q - (k - i_lead q)) by lia. rewrite (Nat.add_comm (i_from q)). exact E.
Qed.
Lemma bfit_cut_back P q q' s k : bfit P q s -> i_from q <= i_to q -> cut_back k q = Some q' -> bfit P q' (BufferSpec.drop_last k s).
Proof.
  intros (O & L & E) O0 C. unfold cut_back in C. unfold piece_len in L. unfold BufferSpec.drop_last. destruct (Nat.leb_spec k (i_trail q)) as [H|H].
  - injection C as <-. split; [exact O|]. split; [rewrite firstn_length; unfold piece_len; cbn; lia|]. cbn [i_to i_from i_lead].
    rewrite skipn_firstn_comm, firstn_firstn. replace (Nat.min _ _) with (i_to q - i_from q) by lia. exact E.
  - destruct (Nat.leb_spec (i_from q + (k - i_trail q)) (i_to q)) as [H1|]; [|discriminate]. injection C as <-.
    split; [cbn; lia|]. split; [rewrite firstn_length; unfold piece_len; cbn; lia|]. cbn [i_to i_from i_lead].
    rewrite skipn_firstn_comm, firstn_firstn. apply (f_equal (firstn (i_to q - (k - i_trail q) - i_from q))) in E. rewrite !firstn_firstn in E.
    replace (Nat.min (i_to q - (k - i_trail q) - i_from q) (length s - k - i_lead q)) with (Nat.min (i_to q - (k - i_trail q) - i_from q) (i_to q - i_from q)) by lia.
    rewrite E. f_equal. lia.
Qed.
Lemma bfit_glue P q r p s t : i_from q <= i_to q -> i_from r <= i_to r -> bfit P q s -> bfit P r t -> glue q r = Some p -> bfit P p (s ++ t).
Proof.
  intros O0 O0' (O & L & E) (O' & L' & E') G. apply glue_spec in G. destruct G as (G1 & G2 & G3 & ->). unfold piece_len in *.
  split; [cbn; lia|]. split; [rewrite app_length, L, L'; unfold piece_len; cbn; lia|]. cbn [i_to i_from i_lead].
  rewrite G2 in *. cbn [skipn] in E'. rewrite G1 in *.
  assert (Es : skipn (i_lead q) s = firstn (i_to q - i_from q) (skipn (i_from q) P)).
  { rewrite <- E, firstn_all2; [reflexivity|]. rewrite skipn_length. lia. }
  rewrite skipn_app. replace (i_lead q - length s) with 0 by lia. cbn [skipn]. rewrite Es, firstn_app, firstn_firstn.
  rewrite firstn_length, skipn_length. replace (Nat.min (i_to q - i_from q) (length P - i_from q)) with (i_to q - i_from q) by lia.
  replace (Nat.min (i_to r - i_from q) (i_to q - i_from q)) with (i_to q - i_from q) by lia.
  replace (i_to r - i_from q - (i_to q - i_from q)) with (i_to r - i_from r) by lia. rewrite E'.
  replace (i_to r - i_from q) with ((i_to q - i_from q) + (i_to r - i_from r)) by lia.
  rewrite BufferProofs.firstn_skipn_app, skipn_skipn. replace (i_to q - i_from q + i_from q) with (i_from r) by lia. reflexivity.
Qed.

(** ** Programs *)

Section Track.
Context {BV : Type} (lo hi : bool).
Implicit Type w : world BV.
Notation pinv := (pinv lo hi).
Notation good := (good lo hi).
Notation moved := (moved lo hi).

Definition creates (o : op BV) : bool :=
  match o with New | FromBuf _ | Copy _ | MoveNew _ | GetPacketTag _ _ _ | MakeFrag _ _ _ => true | _ => false end.
Lemma pspec_length w x o A : length (pspec w x o A) <= length A + (if creates o then 1 else 0).
Proof.
  destruct o; cbn [pspec creates];
    repeat match goal with |- context [match ?X with _ => _ end] => destruct X end; rewrite ?app_length, ?upd_length; cbn [length]; lia.
Qed.
Lemma pk_upd_neq (A : list (option (pkt BV))) i j x : i <> j -> pk (upd A i x) j = pk A j.
Proof. intros N. unfold pk. rewrite nth_upd_neq by exact N. reflexivity. Qed.
Lemma pk_app_lt (A B : list (option (pkt BV))) j : j < length A -> pk (A ++ B) j = pk A j.
Proof. intros N. unfold pk. rewrite nth_error_app1 by exact N. reflexivity. Qed.
Lemma pspec_frame w x o A j : ~ target o j -> j < length A -> pk (pspec w x o A) j = pk A j.
Proof.
  intros N L. destruct o; cbn [pspec target] in *;
    repeat match goal with |- context [match ?X with _ => _ end] => destruct X end;
    rewrite ?pk_app_lt, ?pk_upd_neq by (rewrite ?upd_length; first [exact L|intros <-; tauto]); reflexivity.
Qed.

Context (P : list N) (X : list (TagList.tag_index BV)).
Definition holds w (g : pieces) : Prop := forall j q p s xs ys, g j = Some q -> var w j = Some p -> view w p s xs ys -> bfit P q s /\ tfit X q xs.

Lemma elsewhere o w w' g j q p s xs ys : pinv [] w -> good o w w' -> clean lo hi o w -> holds w g -> ~ target o j ->
  (creates o = true -> j <> length (w_vars w)) -> g j = Some q -> var w' j = Some p -> view w' p s xs ys -> bfit P q s /\ tfit X q xs.
Proof.
  intros I G C H N Nc Gj V' Vw'. destruct (g_spec _ _ _ _ _ G C) as (x & _ & Ps & _). pose proof (var_lt _ _ _ V') as L.
  assert (Lj : j < length (w_vars w)).
  { rewrite <- packets_length, Ps in L. pose proof (pspec_length w x o (packets w)) as Q. rewrite packets_length in Q. destruct (creates o); [specialize (Nc eq_refl)|]; lia. }
  pose proof (var_packet _ _ _ _ _ _ V' Vw') as Pk. rewrite <- pk_packets, Ps, pspec_frame, pk_packets in Pk by (rewrite ?packets_length; auto).
  destruct (var w j) as [p0|] eqn:V; [|unfold packet_of in Pk; rewrite V in Pk; discriminate].
  destruct (view_var _ _ _ _ _ _ I V) as (s0 & xs0 & ys0 & Vw). destruct (g_view _ _ _ _ _ G j p0 s0 xs0 ys0 C N V Vw) as [V1 Vw1].
  rewrite V' in V1. injection V1 as ->. destruct (view_fun _ _ _ _ _ _ _ _ Vw' Vw1) as (-> & -> & ->). eapply H; eauto.
Qed.
Lemma moved_fit w w' l g i k q p s xs ys : pinv [] w -> moved w w' l -> holds w g -> g i = Some q -> var w i = Some p -> var w' k = Some p ->
  view w' p s xs ys -> bfit P q s /\ tfit X q xs.
Proof.
  intros I (I' & F & _) H Gi V Vk Vw'. destruct (view_var _ _ _ _ _ _ I V) as (s0 & xs0 & ys0 & Vw).
  assert (V1 : view w' p s0 xs0 ys0).
  { destruct p as [a|]; [|exact Vw]. eapply keep_view; [exact I'|exact F|exact Logic.I|tauto|eapply refs_var; exact Vk|exact Vw]. }
  destruct (view_fun _ _ _ _ _ _ _ _ Vw' V1) as (-> & -> & ->). eapply H; eauto.
Qed.
Lemma put_other (g : pieces) i q k : k <> i -> put g i q k = g k.
Proof. intros N. unfold put. destruct (Nat.eqb_spec k i); [contradiction|reflexivity]. Qed.
Lemma put_here (g : pieces) i q : put g i q i = q.
Proof. unfold put. rewrite Nat.eqb_refl. reflexivity. Qed.
Lemma grow_front_0 q : grow_front 0 q = q.
Proof. destruct q. reflexivity. Qed.
Lemma grow_back_0 q : grow_back 0 q = q.
Proof. destruct q. unfold grow_back. cbn. rewrite Nat.add_0_r. reflexivity. Qed.

(** The variable that an edit concerns. *)
Definition shows w i s xs : Prop := exists p ys, var w i = Some p /\ view w p s xs ys.
Lemma shows_fit w i s xs q p s' xs' ys' : shows w i s xs -> bfit P q s /\ tfit X q xs -> var w i = Some p -> view w p s' xs' ys' -> bfit P q s' /\ tfit X q xs'.
Proof.
  intros (p0 & ys & V & Vw) H V' Vw'. rewrite V in V'. injection V' as ->. destruct (view_fun _ _ _ _ _ _ _ _ Vw' Vw) as (-> & -> & ->). exact H.
Qed.
Lemma edit_shows junk w i p e s xs ys t us vs f w' : pinv [] w -> var w i = Some p -> view w p s xs ys -> src_ok [] w e s t us vs ->
  (forall k, f k = eb e k) ->
  obind (make_private junk i p w) (fun r => let (w1, a) := r in mutate junk a f (et e a) (et e a) w1) = Done w' ->
  exists x xs', length x = elen e /\ shows w' i (ebytes x t e s) xs' /\ efull e (length s) xs (length t) us xs' /\
    filter (touches (esize (length t) e (length s))) xs' = etags (length t) us e (length s) (filter (touches (length s)) xs).
Proof.
  intros I V Vw So Hf E. pose proof (edit_ok lo hi junk [] w w i p e s xs ys t us vs f I V Vw So Hf eq_refl) as H. rewrite E in H. cbn [wp] in H.
  destruct H as (x & xs' & ys' & Lx & (a & _ & _ & E1 & _ & _ & V1) & Q1 & _ & Q3 & _). exists x, xs'. split; [exact Lx|]. split; [|auto].
  exists (Some a), ys'. split; [|exact V1]. rewrite (var_upd w _ _ _ i E1 (var_lt _ _ _ V)), Nat.eqb_refl. reflexivity.
Qed.

Lemma join_shows junk w i j p q w' (b : bool) : pinv [] w -> var w i = Some p -> var w j = Some q ->
  (if b then add_header_pkt junk i q p w else add_trailer_pkt junk i q p w) = Done w' -> forall s xs ys t us vs, view w p s xs ys -> view w q t us vs ->
  exists xs', shows w' i (if b then t ++ s else s ++ t) xs' /\
    incl xs' (if b then map (shift (Z.of_nat (length t))) xs ++ us else xs ++ map (shift (Z.of_nat (length s))) us) /\
    filter (touches (length s + length t)) xs' =
      if b then add_new (map (shift (Z.of_nat (length t))) (filter (touches (length s)) xs)) (filter (touches (length s + length t)) us)
      else add_new (filter (touches (length s)) xs) (filter (touches (length s + length t)) (map (shift (Z.of_nat (length s))) us)).
Proof.
  intros I Vi Vj E s xs ys t us vs Vw Vc. destruct q as [c|].
  - assert (H : wp (if b then add_header_pkt junk i (Some c) p w else add_trailer_pkt junk i (Some c) p w) (fun w' =>
      exists a xs' ys', w_vars w' = upd (w_vars w) i (Some (Some a)) /\ view w' (Some a) (if b then t ++ s else s ++ t) xs' ys' /\
      incl xs' (if b then map (shift (Z.of_nat (length t))) xs ++ us else xs ++ map (shift (Z.of_nat (length s))) us) /\
      filter (touches (length s + length t)) xs' =
      if b then add_new (map (shift (Z.of_nat (length t))) (filter (touches (length s)) xs)) (filter (touches (length s + length t)) us)
      else add_new (filter (touches (length s)) xs) (filter (touches (length s + length t)) (map (shift (Z.of_nat (length s))) us)))).
    { destruct b.
      - eapply wp_mono; [apply (join_ok lo hi junk w i j c p (fun k => EListStart c k) I Vi Vj); left; reflexivity|].
        intros w1 (_ & _ & _ & H). destruct (H s xs ys t us vs Vw Vc) as (a & xs' & ys' & E1 & _ & _ & V1 & Q1 & _ & Sh & _).
        exists a, xs', ys'. split; [exact E1|]. split; [exact V1|]. split; [exact Q1|]. apply (f_equal k_tags) in Sh. cbn in Sh.
        rewrite app_length, (Nat.add_comm (length t)) in Sh. exact Sh.
      - eapply wp_mono; [apply (join_ok lo hi junk w i j c p (fun k => EListEnd c k) I Vi Vj); right; reflexivity|].
        intros w1 (_ & _ & _ & H). destruct (H s xs ys t us vs Vw Vc) as (a & xs' & ys' & E1 & _ & _ & V1 & Q1 & _ & Sh & _).
        exists a, xs', ys'. split; [exact E1|]. split; [exact V1|]. split; [exact Q1|]. apply (f_equal k_tags) in Sh. cbn in Sh.
        rewrite app_length in Sh. exact Sh. }
    rewrite E in H. cbn [wp] in H. destruct H as (a & xs' & ys' & E1 & V1 & Q1 & Q2). exists xs'. split; [|auto]. exists (Some a), ys'. split; [|exact V1].
    rewrite (var_upd w _ _ _ i E1 (var_lt _ _ _ Vi)), Nat.eqb_refl. reflexivity.
  - cbn [view] in Vc. destruct Vc as (-> & -> & ->). assert (w' = w) by (destruct b; cbn in E; congruence). subst w'. exists xs.
    split; [exists p, ys; split; [exact Vi|]; destruct b; [exact Vw|rewrite app_nil_r; exact Vw]|].
    cbn [length map filter app]. rewrite Nat.add_0_r, !map_shift_nil, !app_nil_r. destruct b; (split; [apply incl_refl|]); cbn [filter add_new fold_left]; reflexivity.
Qed.
Lemma bfit_len q s : bfit P q s -> length s = piece_len q.
Proof. intros H. apply H. Qed.
Lemma join_fit junk w i j p q w' (b : bool) g z : pinv [] w -> var w i = Some p -> var w j = Some q ->
  (if b then add_header_pkt junk i q p w else add_trailer_pkt junk i q p w) = Done w' -> holds w g ->
  obnd (g i) (fun q => obnd (g j) (fun r => if b then glue r q else glue q r)) = Some z ->
  exists s xs, shows w' i s xs /\ bfit P z s /\ tfit X z xs.
Proof.
  intros I Vi Vj E H Gz. destruct (view_var _ _ _ _ _ _ I Vi) as (s & xs & ys & Vw). destruct (view_var _ _ _ _ _ _ I Vj) as (t & us & vs & Vc).
  destruct (g i) as [gi|] eqn:Gi; [|discriminate]. destruct (g j) as [gj|] eqn:Gj; [|discriminate]. cbn [obnd] in Gz.
  destruct (H i gi p s xs ys Gi Vi Vw) as [B1 T1]. destruct (H j gj q t us vs Gj Vj Vc) as [B2 T2].
  destruct (join_shows junk w i j p q w' b I Vi Vj E s xs ys t us vs Vw Vc) as (xs' & Sh & Ic & Fl).
  eexists _, xs'. split; [exact Sh|]. rewrite (bfit_len _ _ B1), (bfit_len _ _ B2) in Ic, Fl. destruct b.
  - split; [exact (bfit_glue _ _ _ _ _ _ (t_order _ _ _ T2) (t_order _ _ _ T1) B2 B1 Gz)|exact (tfit_glue_front _ _ _ _ _ _ _ T1 T2 Gz Ic Fl)].
  - split; [exact (bfit_glue _ _ _ _ _ _ (t_order _ _ _ T1) (t_order _ _ _ T2) B1 B2 Gz)|exact (tfit_glue_back _ _ _ _ _ _ _ T1 T2 Gz Ic Fl)].
Qed.

Lemma holds_step junk o w w' g : pinv [] w -> fits lo hi o -> clean lo hi o w -> step junk o w = Done w' -> holds w g -> holds w' (track w o g).
Proof.
  intros I Hf C E H. pose proof (step_good lo hi junk o w I Hf) as G. rewrite E in G. cbn [wp] in G.
  assert (El : forall g' j q p s xs ys, g' j = g j -> ~ target o j -> (creates o = true -> j <> length (w_vars w)) -> g' j = Some q -> var w' j = Some p ->
    view w' p s xs ys -> bfit P q s /\ tfit X q xs).
  { intros g' j q p s xs ys Eg N Nc Gj. rewrite Eg in Gj. eapply elsewhere; eauto. }
  (* a statement that edits variable [i] *)
  assert (Ed : forall i q', (forall j, target o j -> j = i) -> creates o = false ->
    (forall q, q' = Some q -> exists s xs, shows w' i s xs /\ bfit P q s /\ tfit X q xs) -> holds w' (put g i q')).
  { intros i q' Ti Nc Hq j q p s xs ys Gj Vj Vw. destruct (Nat.eq_dec j i) as [->|N].
    - rewrite put_here in Gj. destruct (Hq q Gj) as (s0 & xs0 & Sh & F). eapply shows_fit; eauto.
    - refine (El (put g i q') j q p s xs ys (put_other _ _ _ _ N) _ _ Gj Vj Vw); [intros T; apply N, Ti, T|intros C'; congruence]. }
  (* a statement that does nothing to tracked variables *)
  assert (No : (forall j, ~ target o j) -> creates o = false -> holds w' g).
  { intros Nt Nc j q p s xs ys Gj Vj Vw. refine (El g j q p s xs ys eq_refl (Nt j) _ Gj Vj Vw). intros C'. congruence. }
  assert (Same : w' = w -> holds w' g) by (intros ->; exact H).
  assert (Cr : forall q', (forall j, ~ target o j) -> (forall q, q' = Some q -> exists s xs, shows w' (length (w_vars w)) s xs /\ bfit P q s /\ tfit X q xs) ->
    holds w' (put g (length (w_vars w)) q')).
  { intros q' Nt Hq j q p s xs ys Gj Vj Vw. destruct (Nat.eq_dec j (length (w_vars w))) as [->|N].
    - rewrite put_here in Gj. destruct (Hq q Gj) as (s0 & xs0 & Sh & F). eapply shows_fit; eauto.
    - refine (El (put g (length (w_vars w)) q') j q p s xs ys (put_other _ _ _ _ N) (Nt j) (fun _ => N) Gj Vj Vw). }
  destruct o; cbn [track]; cbn [step] in E.
  - (* New *) apply Cr; [tauto|discriminate].
  - (* FromBuf *) apply Cr; [tauto|discriminate].
  - (* Copy *)
    destruct (var w i) as [p|] eqn:V; [|apply Same; congruence]. apply Cr; [tauto|]. intros q Gi.
    pose proof (copy_new_ok lo hi w p I ltac:(intros c ->; eapply var_live; eauto)) as M. rewrite E in M. cbn [wp] in M.
    assert (Vn : var w' (length (w_vars w)) = Some p) by (destruct M as (_ & _ & E1 & _); unfold var; rewrite E1, nth_error_app2, Nat.sub_diag by lia; reflexivity).
    destruct (view_var _ _ _ _ _ _ (g_inv _ _ _ _ _ G) Vn) as (s & xs & ys & Vw). exists s, xs. split; [exists p, ys; auto|].
    eapply (moved_fit w w' _ g i); [exact I|exact M|exact H|exact Gi|exact V|exact Vn|exact Vw].
  - (* MoveNew *)
    destruct (var w i) as [p|] eqn:V; [|apply Same; congruence]. injection E as <-. pose proof (move_new_ok lo hi w i p I V) as M.
    pose proof (var_lt _ _ _ V) as Li. intros j q p' s xs ys Gj Vj Vw. destruct (Nat.eq_dec j (length (w_vars w))) as [->|N].
    + rewrite put_here in Gj. assert (Vn : var (move_new i p w) (length (w_vars w)) = Some p).
      { destruct M as (_ & _ & E1 & _). unfold var. rewrite E1, nth_error_app2; rewrite upd_length; [rewrite Nat.sub_diag; reflexivity|lia]. }
      rewrite Vn in Vj. injection Vj as <-. eapply (moved_fit w _ _ g i); [exact I|exact M|exact H|exact Gj|exact V|exact Vn|exact Vw].
    + rewrite put_other in Gj by exact N. destruct (Nat.eq_dec j i) as [->|Ni]; [rewrite put_here in Gj; discriminate|].
      refine (El (put g i None) j q p' s xs ys (put_other _ _ _ _ Ni) Ni (fun _ => N) Gj Vj Vw).
  - (* Assign *)
    destruct (var w i) as [p|] eqn:V; [|apply Same; congruence]. destruct (var w j) as [q|] eqn:Vj; [|apply Same; congruence].
    apply Ed; [auto|reflexivity|]. intros r Gj. pose proof (assign_ok lo hi junk w i j p q I V Vj) as M. rewrite E in M. cbn [wp] in M.
    assert (Vn : var w' i = Some q) by (destruct M as (_ & _ & E1 & _); unfold var; rewrite E1, nth_upd_eq; [reflexivity|apply (var_lt _ _ _ V)]).
    destruct (view_var _ _ _ _ _ _ (g_inv _ _ _ _ _ G) Vn) as (s & xs & ys & Vw). exists s, xs. split; [exists q, ys; auto|].
    eapply (moved_fit w w' _ g j); [exact I|exact M|exact H|exact Gj|exact Vj|exact Vn|exact Vw].
  - (* MoveAssign *)
    destruct (var w i) as [p|] eqn:V; [|apply Same; congruence]. destruct (var w j) as [q|] eqn:Vj; [|apply Same; congruence].
    unfold ref. rewrite V, Vj. pose proof (move_assign_ok lo hi junk w i j p q I V Vj) as M. rewrite E in M. cbn [wp] in M. unfold move_assign in E.
    destruct (option_eqb p q); [apply Same; congruence|].
    intros k r p' s xs ys Gk Vk Vw. destruct (Nat.eq_dec k j) as [->|N]; [rewrite put_here in Gk; discriminate|]. rewrite put_other in Gk by exact N.
    destruct (Nat.eq_dec k i) as [->|Ni].
    + rewrite put_here in Gk. assert (Vn : var w' i = Some q).
      { destruct M as (_ & _ & E1 & _). unfold var. rewrite E1, nth_upd_neq, nth_upd_eq; [reflexivity|apply (var_lt _ _ _ V)|auto]. }
      rewrite Vn in Vk. injection Vk as <-. eapply (moved_fit w w' _ g j); [exact I|exact M|exact H|exact Gk|exact Vj|exact Vn|exact Vw].
    + refine (El (put g i (g j)) k r p' s xs ys (put_other _ _ _ _ Ni) _ _ Gk Vk Vw); [cbn; tauto|discriminate].
  - (* Swap *)
    destruct (var w i) as [p|] eqn:V; [|apply Same; congruence]. destruct (var w j) as [q|] eqn:Vj; [|apply Same; congruence].
    injection E as <-. pose proof (swap_ok lo hi w i j p q I V Vj) as M. set (w' := set_var _ _ _) in *.
    intros k r p' s xs ys Gk Vk Vw. destruct (Nat.eq_dec k j) as [->|N].
    + rewrite put_here in Gk. assert (Vn : var w' j = Some p).
      { destruct M as (_ & _ & E1 & _). unfold var. rewrite E1, nth_upd_eq; [reflexivity|rewrite upd_length; apply (var_lt _ _ _ Vj)]. }
      rewrite Vn in Vk. injection Vk as <-. eapply (moved_fit w w' _ g i); [exact I|exact M|exact H|exact Gk|exact V|exact Vn|exact Vw].
    + rewrite put_other in Gk by exact N. destruct (Nat.eq_dec k i) as [->|Ni].
      * rewrite put_here in Gk. assert (Vn : var w' i = Some q).
        { destruct M as (_ & _ & E1 & _). unfold var. rewrite E1, nth_upd_neq, nth_upd_eq; [reflexivity|apply (var_lt _ _ _ V)|auto]. }
        rewrite Vn in Vk. injection Vk as <-. eapply (moved_fit w w' _ g j); [exact I|exact M|exact H|exact Gk|exact Vj|exact Vn|exact Vw].
      * refine (El (put g i (g j)) k r p' s xs ys (put_other _ _ _ _ Ni) _ _ Gk Vk Vw); [cbn; tauto|discriminate].
  - (* Destroy *)
    destruct (var w i) as [p|] eqn:V; [|apply Same; congruence]. apply Ed; [auto|reflexivity|discriminate].
  - (* AddHeader *)
    destruct (var w i) as [p|] eqn:V; [|apply Same; congruence]. apply Ed; [auto|reflexivity|]. intros r Gr. destruct (g i) as [q|] eqn:Gi; [|discriminate]. injection Gr as <-.
    destruct (view_var _ _ _ _ _ _ I V) as (s & xs & ys & Vw). destruct (H i q p s xs ys Gi V Vw) as [B T].
    pose proof (add_header_full lo hi junk w i n p Hf I V) as A. rewrite E in A. destruct A as [_ A]. destruct (A s xs ys Vw) as (x & p' & xs' & ys' & Lx & Vi & Vw' & Ef & Fl).
    cbn [elen ebytes efull esize etags] in *. rewrite (bfit_len _ _ B) in Fl. exists (x ++ s), xs'. split; [exists p', ys'; auto|]. subst n.
    split; [apply bfit_grow_front, B|eapply tfit_grow_front; eassumption].
  - (* AddTrailer *)
    destruct (var w i) as [p|] eqn:V; [|apply Same; congruence]. apply Ed; [auto|reflexivity|]. intros r Gr. destruct (g i) as [q|] eqn:Gi; [|discriminate]. injection Gr as <-.
    destruct (view_var _ _ _ _ _ _ I V) as (s & xs & ys & Vw). destruct (H i q p s xs ys Gi V Vw) as [B T].
    pose proof (add_trailer_full lo hi junk w i n p Hf I V) as A. rewrite E in A. destruct A as [_ A]. destruct (A s xs ys Vw) as (x & p' & xs' & ys' & Lx & Vi & Vw' & Ef & Fl).
    cbn [elen ebytes efull esize etags] in *. rewrite (bfit_len _ _ B) in Fl. exists (s ++ x), xs'. split; [exists p', ys'; auto|]. subst n.
    split; [apply bfit_grow_back; [apply T|exact B]|eapply tfit_grow_back; eassumption].
  - (* AddHeaderBuf *)
    destruct (var w i) as [p|] eqn:V; [|apply Same; congruence]. apply Ed; [auto|reflexivity|]. intros r Gr. destruct (g i) as [q|] eqn:Gi; [|discriminate]. injection Gr as <-.
    destruct (view_var _ _ _ _ _ _ I V) as (s & xs & ys & Vw). destruct (H i q p s xs ys Gi V Vw) as [B T].
    destruct (owned w k) eqn:O.
    { injection E as <-. exists s, xs. split; [exists p, ys; auto|]. unfold bytes_in, buffer_of. rewrite O. cbn [length]. rewrite grow_front_0. auto. }
    destruct (Buffer.var (w_buf w) k) as [c|] eqn:Vk.
    2: { injection E as <-. exists s, xs. split; [exists p, ys; auto|]. unfold bytes_in, buffer_of. rewrite O. unfold bytes_of. rewrite Vk. cbn [length]. rewrite grow_front_0. auto. }
    destruct (user_bytes _ _ _ (p_buf _ _ _ _ I) O Vk) as (t & Bt & B1 & B2). unfold add_header_buf in E. rewrite (buf_size_ok _ _ _ (p_buf _ _ _ _ I) Bt) in E.
    destruct (edit_shows junk w i p (EBufStart k (length t)) s xs ys t [] [] _ w' I V Vw ltac:(cbn; auto) ltac:(intros k'; reflexivity) E) as (x & xs' & Lx & Sh & Ef & Fl).
    cbn [elen ebytes efull esize etags] in *. rewrite (bfit_len _ _ B) in Fl. rewrite B2. exists (t ++ s), xs'. split; [exact Sh|].
    split; [apply bfit_grow_front, B|eapply tfit_grow_front; eassumption].
  - (* AddTrailerBuf *)
    destruct (var w i) as [p|] eqn:V; [|apply Same; congruence]. apply Ed; [auto|reflexivity|]. intros r Gr. destruct (g i) as [q|] eqn:Gi; [|discriminate]. injection Gr as <-.
    destruct (view_var _ _ _ _ _ _ I V) as (s & xs & ys & Vw). destruct (H i q p s xs ys Gi V Vw) as [B T].
    destruct (owned w k) eqn:O.
    { injection E as <-. exists s, xs. split; [exists p, ys; auto|]. unfold bytes_in, buffer_of. rewrite O. cbn [length]. rewrite grow_back_0. auto. }
    destruct (Buffer.var (w_buf w) k) as [c|] eqn:Vk.
    2: { injection E as <-. exists s, xs. split; [exists p, ys; auto|]. unfold bytes_in, buffer_of. rewrite O. unfold bytes_of. rewrite Vk. cbn [length]. rewrite grow_back_0. auto. }
    destruct (user_bytes _ _ _ (p_buf _ _ _ _ I) O Vk) as (t & Bt & B1 & B2). unfold add_trailer_buf in E. rewrite (buf_size_ok _ _ _ (p_buf _ _ _ _ I) Bt) in E.
    destruct (edit_shows junk w i p (EBufEnd k (length t)) s xs ys t [] [] _ w' I V Vw ltac:(cbn; auto) ltac:(intros k'; reflexivity) E) as (x & xs' & Lx & Sh & Ef & Fl).
    cbn [elen ebytes efull esize etags] in *. rewrite (bfit_len _ _ B) in Fl. rewrite B2. exists (s ++ t), xs'. split; [exact Sh|].
    split; [apply bfit_grow_back; [apply T|exact B]|eapply tfit_grow_back; eassumption].
  - (* RemHeader *)
    destruct (var w i) as [p|] eqn:V; [|apply Same; congruence]. apply Ed; [auto|reflexivity|]. intros r Gr. destruct (g i) as [q|] eqn:Gi; [|discriminate]. cbn [obnd] in Gr.
    destruct (view_var _ _ _ _ _ _ I V) as (s & xs & ys & Vw). destruct (H i q p s xs ys Gi V Vw) as [B T].
    destruct (edit_shows junk w i p (ERemStart n) s xs ys [] [] [] _ w' I V Vw eq_refl ltac:(intros k'; reflexivity) E) as (x & xs' & Lx & Sh & Ef & Fl).
    cbn [elen ebytes efull esize etags] in *. subst xs'. eexists _, _. split; [exact Sh|].
    split; [eapply bfit_cut_front; [exact B|apply T|exact Gr]|eapply tfit_cut_front; eassumption].
  - (* RemTrailer *)
    destruct (var w i) as [p|] eqn:V; [|apply Same; congruence]. apply Ed; [auto|reflexivity|]. intros r Gr. destruct (g i) as [q|] eqn:Gi; [|discriminate]. cbn [obnd] in Gr.
    destruct (view_var _ _ _ _ _ _ I V) as (s & xs & ys & Vw). destruct (H i q p s xs ys Gi V Vw) as [B T].
    destruct (edit_shows junk w i p (ERemEnd n) s xs ys [] [] [] _ w' I V Vw eq_refl ltac:(intros k'; reflexivity) E) as (x & xs' & Lx & Sh & Ef & Fl).
    cbn [elen ebytes efull esize etags] in *. subst xs'. eexists _, _. split; [exact Sh|].
    split; [eapply bfit_cut_back; [exact B|apply T|exact Gr]|eapply tfit_cut_back; eassumption].
  - (* AddHeaderPkt *)
    destruct (var w i) as [p|] eqn:V; [|apply Same; congruence]. destruct (var w j) as [q|] eqn:Vj; [|apply Same; congruence].
    apply Ed; [auto|reflexivity|]. intros r Gr. exact (join_fit junk w i j p q w' true g r I V Vj E H Gr).
  - (* AddTrailerPkt *)
    destruct (var w i) as [p|] eqn:V; [|apply Same; congruence]. destruct (var w j) as [q|] eqn:Vj; [|apply Same; congruence].
    apply Ed; [auto|reflexivity|]. intros r Gr. exact (join_fit junk w i j p q w' false g r I V Vj E H Gr).
  - (* AddByteTag *)
    destruct (var w i) as [p|] eqn:V; [|apply Same; congruence]. apply Ed; [auto|reflexivity|discriminate].
  - (* AddPacketTag *)
    destruct (var w i) as [p|] eqn:V; [|apply Same; congruence]. destruct (var w j) as [q|] eqn:Vj; [|apply Same; congruence].
    intros k r p' s1 xs ys Gk Vk Vw. destruct (Nat.eq_dec k i) as [->|N]; [|refine (El g k r p' s1 xs ys eq_refl N _ Gk Vk Vw); discriminate].
    destruct (view_var _ _ _ _ _ _ I V) as (s0 & xs0 & ys0 & Vw0). pose proof (add_packet_tag_full lo hi junk w i id j s n q p I V Vj) as A.
    rewrite E in A. destruct A as [_ [A _]]. destruct (A _ _ _ Vw0) as (p0 & zs & Vi & Vz). eapply shows_fit; [exists p0, zs; eauto|eapply H; eauto|exact Vk|exact Vw].
  - (* GetPacketTag *)
    destruct (var w i) as [p|] eqn:V; [|apply Same; congruence]. apply Cr; [tauto|discriminate].
  - (* CopyTags *)
    destruct (var w i) as [p|] eqn:V; [|apply Same; congruence]. apply Ed; [auto|reflexivity|discriminate].
  - (* MakeFrag *)
    destruct (var w i) as [p|] eqn:V; [|apply Same; congruence]. apply Cr; [tauto|]. intros r Gr. destruct (g i) as [q|] eqn:Gi; [|discriminate]. cbn [obnd] in Gr.
    destruct (view_var _ _ _ _ _ _ I V) as (s0 & xs & ys & Vw). destruct (H i q p s0 xs ys Gi V Vw) as [B T].
    pose proof (make_fragment_full lo hi junk w i s n p I V) as A. rewrite E in A. destruct A as [_ A]. destruct (A _ _ _ Vw) as (Hn & p' & zs & Vi & Vz).
    destruct (cut_front s q) as [q1|] eqn:Q1; [|discriminate]. cbn [obnd] in Gr.
    pose proof (bfit_cut_front _ _ _ _ _ B ltac:(apply T) Q1) as B1. pose proof (tfit_cut_front _ _ _ _ _ T Q1) as T1.
    eexists _, _. split; [exists p', zs; split; [exact Vi|exact Vz]|]. pose proof (bfit_len _ _ B1) as L1. rewrite skipn_length in L1. rewrite <- L1 in Gr.
    split; [eapply bfit_cut_back; [exact B1|apply T1|exact Gr]|eapply tfit_cut_back; eassumption].
  - (* GetBuffer *) apply No; [tauto|reflexivity].
  - (* OnBuf *) apply No; [tauto|reflexivity].
Qed.

Lemma follow_holds junk w g w' g' : follow junk lo hi w g w' g' -> pinv [] w -> holds w g -> pinv [] w' /\ holds w' g'.
Proof.
  intros F. induction F as [|o w g w1 w2 g2 Hf C E F IH|i j o w g w1 w2 g2 Ho E F IH]; intros I H; [auto| |].
  - pose proof (step_good lo hi junk o w I Hf) as G. rewrite E in G. apply IH; [apply G|eapply holds_step; eauto].
  - assert (Hf : fits lo hi o) by (destruct Ho as [-> | ->]; exact Logic.I). pose proof (step_good lo hi junk o w I Hf) as G. rewrite E in G. apply IH; [apply G|].
    intros k q p s xs ys Gk Vk Vw. unfold only in Gk. destruct (Nat.eqb_spec k i) as [->|]; [|discriminate].
    destruct Ho as [-> | ->]; cbn [track] in Gk; cbn [step] in E;
      (destruct (var w i) as [p0|] eqn:V; [|injection E as <-; eapply H; eauto]); (destruct (var w j) as [q0|] eqn:Vj; [|injection E as <-; eapply H; eauto]);
      rewrite put_here in Gk.
    + destruct (join_fit junk w i j p0 q0 w1 true g q I V Vj E H Gk) as (s0 & xs0 & Sh & Ft). eapply shows_fit; eauto.
    + destruct (join_fit junk w i j p0 q0 w1 false g q I V Vj E H Gk) as (s0 & xs0 & Sh & Ft). eapply shows_fit; eauto.
Qed.
End Track.
