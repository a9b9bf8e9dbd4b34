(** Lemmas about packets: the buffers and tag lists of bodies. *)
From Verif Require Import Base BaseProofs Packet PacketSpec.
From Verif Require Buffer BufferSpec BufferProofs TagList TagListSpec TagListProofs.
From Coq Require Import ZifyBool ZifyNat ZifyN.

Notation bytes_of := BufferSpec.bytes_of.
Notation size_of := BufferSpec.size_of.
Notation content_of := TagListSpec.content_of.
Notation full_of := TagListSpec.full_of.
Notation shift := TagListSpec.shift.
Notation touches := TagListSpec.touches.
Notation add_new := TagListSpec.add_new.
Notation binv := BufferProofs.inv.
Notation winv := TagListProofs.winv.
Notation cnt := BufferProofs.cnt.
Notation b2n := BufferProofs.b2n.

(** The operation does not fail in undefined behaviour, and ends in a state with [P]. *)
Definition wp {A} (r : outcome A) (P : A -> Prop) : Prop :=
  match r with Done a => P a | UB => False | AssertFail | Throw _ => True end.
Lemma wp_bind {A B} (r : outcome A) (f : A -> outcome B) (P : A -> Prop) (Q : B -> Prop) :
  wp r P -> (forall a, P a -> wp (f a) Q) -> wp (obind r f) Q.
Proof. destruct r; cbn; auto. Qed.
Lemma wp_mono {A} (r : outcome A) (P Q : A -> Prop) : wp r P -> (forall a, P a -> Q a) -> wp r Q.
Proof. destruct r; cbn; auto. Qed.
Lemma wp_done {A} (r : outcome A) (P : A -> Prop) a : wp r P -> r = Done a -> P a.
Proof. intros H ->. exact H. Qed.

(** ** Edits: the statements that [mutate] applies to a body *)

Inductive edit :=
| EAddStart (n : nat)
| EAddEnd (n : nat)
| ERemStart (n : nat)
| ERemEnd (n : nat)
| EBufStart (k m : nat)        (* buffer variable [k], with [m] bytes *)
| EBufEnd (k m : nat)
| ESet (k m : nat)
| EListStart (c k : nat)       (* the body [c], with buffer [k] *)
| EListEnd (c k : nat).
Definition eb (e : edit) (k : nat) : Buffer.op :=
  match e with
  | EAddStart n => Buffer.AddStart k n
  | EAddEnd n => Buffer.AddEnd k n
  | ERemStart n => Buffer.RemStart k n
  | ERemEnd n => Buffer.RemEnd k n
  | EBufStart j _ | EListStart _ j => Buffer.AddStartBuf k j
  | EBufEnd j _ | EListEnd _ j => Buffer.AddEndBuf k j
  | ESet j _ => Buffer.Assign k j
  end.
Definition et {V} (e : edit) (a : nat) : TagList.op V :=
  match e with
  | EAddStart n | EBufStart _ n => TagList.AddStart a n
  | EAddEnd n | EBufEnd _ n | ESet _ n => TagList.AddEnd a n
  | ERemStart n => TagList.RemStart a n
  | ERemEnd n => TagList.RemEnd a n
  | EListStart c _ => TagList.AddStartList a c
  | EListEnd c _ => TagList.AddEndList a c
  end.
Definition elen (e : edit) : nat := match e with EAddStart n | EAddEnd n => n | _ => 0 end.
Definition esrc (e : edit) : option nat :=
  match e with EBufStart j _ | EBufEnd j _ | ESet j _ | EListStart _ j | EListEnd _ j => Some j | _ => None end.
(** Bytes; [x] unspecified ones, [s] those of the source. *)
Definition ebytes (x s : list N) (e : edit) (p : list N) : list N :=
  match e with
  | EAddStart _ => x ++ p
  | EAddEnd _ => p ++ x
  | ERemStart n => skipn n p
  | ERemEnd n => BufferSpec.drop_last n p
  | EBufStart _ _ | EListStart _ _ => s ++ p
  | EBufEnd _ _ | EListEnd _ _ => p ++ s
  | ESet _ _ => s
  end.
(** The number of bytes; [m] those of the source. *)
Definition esize (m : nat) (e : edit) (n : nat) : nat :=
  match e with
  | EAddStart k | EAddEnd k | EBufStart _ k | EBufEnd _ k | ESet _ k => n + k
  | ERemStart k | ERemEnd k => n - k
  | EListStart _ _ | EListEnd _ _ => n + m
  end.
(** Tags; [ys] those of the source. *)
Definition etags {V} (m : nat) (ys : list (TagList.tag_index V)) (e : edit) (n : nat) (xs : list (TagList.tag_index V)) :=
  match e with
  | EAddStart k | EBufStart _ k => map (shift (Z.of_nat k)) xs
  | EAddEnd _ | EBufEnd _ _ | ESet _ _ => xs
  | ERemStart k => filter (touches (n - k)) (map (shift (- Z.of_nat k)) xs)
  | ERemEnd k => filter (touches (n - k)) xs
  | EListStart _ _ => add_new (map (shift (Z.of_nat m)) xs) (filter (touches (n + m)) ys)
  | EListEnd _ _ => add_new xs (filter (touches (n + m)) (map (shift (Z.of_nat n)) ys))
  end.
Definition elist (e : edit) : option nat := match e with EListStart c _ | EListEnd c _ => Some c | _ => None end.
(** All tags. *)
Definition efull {V} (e : edit) (n : nat) (xs : list (TagList.tag_index V)) (m : nat) (ys zs : list (TagList.tag_index V)) : Prop :=
  match e with
  | ERemStart k => zs = map (shift (- Z.of_nat k)) xs
  | ERemEnd k => zs = xs
  | EListStart _ _ => incl zs (map (shift (Z.of_nat m)) xs ++ ys)
  | EListEnd _ _ => incl zs (xs ++ map (shift (Z.of_nat n)) ys)
  | EAddStart k | EBufStart _ k => incl zs (map (shift (Z.of_nat k)) xs)
  | EAddEnd _ | EBufEnd _ _ | ESet _ _ => incl zs xs
  end.

(** ** Buffers *)

Section Buffers.
Context (lo hi : bool).
Notation safe := (BufferProofs.safe lo hi).

Lemma str_table b k : BufferSpec.str (BufferSpec.table b) k = bytes_of b k.
Proof.
  unfold BufferSpec.str, BufferSpec.table. rewrite nth_error_map. destruct (Nat.lt_ge_cases k (length (Buffer.w_bufs b))).
  - rewrite BufferProofs.nth_error_seq' by assumption. reflexivity.
  - rewrite (proj2 (nth_error_None _ _)) by (rewrite seq_length; assumption). cbn. unfold bytes_of, Buffer.var.
    rewrite (proj2 (nth_error_None _ _)) by assumption. reflexivity.
Qed.
Lemma size_bytes b k : binv b -> size_of b k = option_map (@length N) (bytes_of b k).
Proof.
  intros I. rewrite BufferProofs.bytes_of_str, BufferProofs.str_abs by assumption. unfold size_of.
  destruct (Buffer.var b k) as [c|] eqn:E; [|reflexivity]. cbn. apply BufferProofs.var_some in E.
  rewrite BufferProofs.data_length; [reflexivity|]. eapply I, E.
Qed.
Lemma bytes_var b k c : binv b -> Buffer.var b k = Some c -> exists s, bytes_of b k = Some s /\ length s = Buffer.b_end c - Buffer.b_start c.
Proof.
  intros I E. pose proof (size_bytes b k I) as S. unfold size_of in S. rewrite E in S.
  destruct (bytes_of b k) as [s|]; [|discriminate]. exists s. split; [reflexivity|]. cbn in S. congruence.
Qed.
Lemma safe_ff b : lo = false -> hi = false -> safe b.
Proof.
  intros -> -> i c _. unfold BufferProofs.cover. destruct (Buffer.b_st c); [|exact Logic.I]. intros s _. split; discriminate.
Qed.

Lemma step_len junk o b b' : Buffer.step junk o b = Done b' ->
  length (Buffer.w_bufs b') = length (Buffer.w_bufs b) +
    match o with
    | Buffer.New _ | Buffer.NewZero _ _ _ | Buffer.DeepCopy _ => 1
    | Buffer.Copy i | Buffer.MoveNew i | Buffer.Fragment i _ _ => match Buffer.var b i with Some _ => 1 | None => 0 end
    | _ => 0
    end /\
  forall k, k < length (Buffer.w_bufs b) -> ~ BufferSpec.target o k ->
    Buffer.var b' k = Buffer.var b k.
Proof.
  intros E.
  assert (U : forall h i x, length (Buffer.w_bufs (Buffer.set_var h b i x)) = length (Buffer.w_bufs b) + 0 /\
     forall k, k < length (Buffer.w_bufs b) -> k <> i -> Buffer.var (Buffer.set_var h b i x) k = Buffer.var b k).
  { intros h i x. unfold Buffer.set_var, Buffer.var. cbn. rewrite upd_length. split; [lia|].
    intros k _ Hk. rewrite nth_upd_neq by auto. reflexivity. }
  assert (Ad : forall h x, length (Buffer.w_bufs (Buffer.add_var h b x)) = length (Buffer.w_bufs b) + 1 /\
     forall k, k < length (Buffer.w_bufs b) -> Buffer.var (Buffer.add_var h b x) k = Buffer.var b k).
  { intros h x. unfold Buffer.add_var, Buffer.var. cbn. rewrite app_length. split; [reflexivity|].
    intros k Hk. rewrite nth_error_app1 by auto. reflexivity. }
  assert (N : length (Buffer.w_bufs b) = length (Buffer.w_bufs b) + 0) by lia.
  assert (Ch : forall i r, Buffer.changed b i r = Done b' -> length (Buffer.w_bufs b') = length (Buffer.w_bufs b) + 0 /\
     forall k, k < length (Buffer.w_bufs b) -> k <> i -> Buffer.var b' k = Buffer.var b k).
  { intros i r X. unfold Buffer.changed in X. destruct r as [[h c]| | |]; cbn [obind] in X; try discriminate. injection X as <-. apply U. }
  assert (Cr : forall r, Buffer.created b r = Done b' -> length (Buffer.w_bufs b') = length (Buffer.w_bufs b) + 1 /\
     forall k, k < length (Buffer.w_bufs b) -> Buffer.var b' k = Buffer.var b k).
  { intros r X. unfold Buffer.created in X. destruct r as [[h c]| | |]; cbn [obind] in X; try discriminate. injection X as <-. apply Ad. }
  assert (Sw : forall i j x y h, length (Buffer.w_bufs (Buffer.set_var h (Buffer.set_var h b i x) j y)) = length (Buffer.w_bufs b) + 0 /\
     forall k, k < length (Buffer.w_bufs b) -> ~ (k = i \/ k = j) -> Buffer.var (Buffer.set_var h (Buffer.set_var h b i x) j y) k = Buffer.var b k).
  { intros i j x y h. unfold Buffer.set_var, Buffer.var. cbn. rewrite !upd_length. split; [lia|].
    intros k _ Hk. rewrite !nth_upd_neq by (intros ->; apply Hk; auto). reflexivity. }
  destruct o; cbn [Buffer.step BufferSpec.target] in *;
    repeat match type of E with
    | context [if ?i =? ?j then _ else _] => destruct (i =? j)
    | context [match Buffer.var b ?i with _ => _ end] => destruct (Buffer.var b i) eqn:?
    end; try (inversion E; subst; split; [lia|auto]; fail).
  all: try exact (Ch _ _ E).
  all: try (destruct (Cr _ E); auto; fail).
  - unfold Buffer.copy_new in E. destruct (Buffer.acquire _ _) as [hh| | |]; inversion E. destruct (Ad hh b0). auto.
  - unfold Buffer.move_new in E. injection E as <-. unfold Buffer.add_var, Buffer.set_var, Buffer.var. cbn. rewrite app_length, upd_length. split; [reflexivity|].
    intros k Hk Nk. rewrite nth_error_app1 by (rewrite upd_length; exact Hk). rewrite nth_upd_neq by auto. reflexivity.
  - unfold Buffer.assign in E. destruct (Buffer.acquire _ _); cbn [obind] in E; try discriminate.
    destruct (Buffer.release_opt _ _); cbn [obind] in E; inversion E. apply U.
  - unfold Buffer.move_assign in E. match type of E with obind ?r _ = _ => destruct r as [[h c]| | |] end; cbn [obind] in E; inversion E.
    unfold Buffer.swap. clear E. unfold Buffer.set_var, Buffer.var. cbn. rewrite !upd_length. split; [lia|].
    intros k _ Hk. rewrite !nth_upd_neq by (intros ->; apply Hk; auto). reflexivity.
  - injection E as <-. unfold Buffer.swap. apply Sw.
  - unfold Buffer.destroy in E. match type of E with obind ?r _ = _ => destruct r as [[h c]| | |] end; cbn [obind] in E; inversion E. apply U.
  - destruct (_ <? _); [discriminate|]. inversion E; subst. split; [lia|auto].
  - destruct (_ <? _); [discriminate|]. destruct (Buffer.write_data _ _ _ _) as [hh| | |]; cbn [obind] in E; inversion E. apply U.
Qed.

Lemma buf_op junk o b : binv b -> safe b -> wp (Buffer.step junk o b) (fun b' =>
  binv b' /\ (BufferSpec.keeps_dirty o \/ (lo = false /\ hi = false) -> safe b') /\
  (BufferSpec.no_self_start o -> exists x, length x = BufferSpec.extra_len o /\
     (forall k, BufferSpec.target o k \/ length (Buffer.w_bufs b) <= k ->
        bytes_of b' k = BufferSpec.str (BufferSpec.spec_step x o (BufferSpec.table b)) k) /\
     (BufferProofs.side lo hi o = true \/ ~ BufferSpec.adds_data o -> BufferSpec.writes_alone o b ->
        BufferSpec.table b' = BufferSpec.spec_step x o (BufferSpec.table b)))).
Proof.
  intros I S. destruct (BufferProofs.step_main lo hi junk o b I) as [[_ E]|[_ [b' [E F]]]]; rewrite E; cbn [wp]; [exact Logic.I|].
  split; [apply F|]. split.
  { intros [K|[L H]]; [apply (BufferProofs.f_safe _ _ _ _ _ F K S)|]. apply safe_ff; assumption. }
  intros Ns. destruct (BufferProofs.f_good _ _ _ _ _ F Ns) as [x G]. exists x.
  split; [apply G|]. rewrite (BufferProofs.table_abs b I). split.
  - intros k Hk. rewrite BufferProofs.bytes_of_str by apply F. unfold BufferSpec.str.
    rewrite (BufferProofs.g_own _ _ _ _ _ _ G k Hk). reflexivity.
  - intros Sd Wa. rewrite (BufferProofs.table_abs b') by apply F. apply (BufferProofs.g_all _ _ _ _ _ _ G); tauto.
Qed.

Definition eside (e : edit) : Prop :=
  match e with
  | EBufStart _ _ | EListStart _ _ => lo = true
  | EBufEnd _ _ | EListEnd _ _ => hi = true
  | _ => True
  end.
Lemma str_upd A k j s : BufferSpec.str (upd A k s) j = if (k =? j) && (j <? length A) then s else BufferSpec.str A j.
Proof. unfold BufferSpec.str. rewrite nth_upd. destruct ((k =? j) && (j <? length A)); reflexivity. Qed.

Lemma buf_edit junk e k b s : binv b -> safe b -> bytes_of b k = Some s ->
  (forall j, esrc e = Some j -> j <> k /\ exists t, bytes_of b j = Some t) ->
  wp (Buffer.step junk (eb e k) b) (fun b' =>
    binv b' /\ safe b' /\ length (Buffer.w_bufs b') = length (Buffer.w_bufs b) /\
    (forall j, j <> k -> Buffer.var b' j = Buffer.var b j) /\
    (eside e -> forall j, j <> k -> bytes_of b' j = bytes_of b j) /\
    exists x, length x = elen e /\
      bytes_of b' k = Some (ebytes x (match esrc e with Some j => match bytes_of b j with Some t => t | None => [] end | None => [] end) e s)).
Proof.
  intros I S Hs Hj. pose proof (buf_op junk (eb e k) b I S) as H. pose proof (step_len junk (eb e k) b) as L.
  destruct (Buffer.step junk (eb e k) b) as [b'| | |]; cbn [wp] in *; auto. destruct (L b' eq_refl) as [L1 L2]. clear L.
  destruct H as (I' & S' & G).
  assert (Kd : BufferSpec.keeps_dirty (eb e k)) by (destruct e; exact Logic.I).
  assert (Ns : BufferSpec.no_self_start (eb e k)).
  { destruct e; cbn; try exact Logic.I; destruct (Hj _ eq_refl); auto. }
  assert (Tg : forall j, BufferSpec.target (eb e k) j <-> j = k) by (intros j; destruct e; cbn; tauto).
  assert (Wa : BufferSpec.writes_alone (eb e k) b) by (destruct e; exact Logic.I).
  destruct (G Ns) as (x & Lx & Gt & Ga). clear G.
  assert (Hk : k < length (Buffer.w_bufs b)).
  { apply nth_error_Some. intros N. unfold bytes_of, Buffer.var in Hs. rewrite N in Hs. discriminate. }
  assert (Len : length (Buffer.w_bufs b') = length (Buffer.w_bufs b)) by (rewrite L1; destruct e; cbn; lia).
  assert (Lt : length (BufferSpec.table b) = length (Buffer.w_bufs b)) by (unfold BufferSpec.table; rewrite map_length, seq_length; reflexivity).
  set (src := match esrc e with Some j => match bytes_of b j with Some t => t | None => [] end | None => [] end).
  assert (Sp : BufferSpec.spec_step x (eb e k) (BufferSpec.table b) = upd (BufferSpec.table b) k (Some (ebytes x src e s))).
  { unfold src. destruct e; cbn [eb BufferSpec.spec_step esrc ebytes]; rewrite ?str_table, Hs; try reflexivity;
      destruct (Hj _ eq_refl) as [_ [t Ht]]; rewrite ?str_table, Ht; reflexivity. }
  split; [exact I'|]. split; [apply S'; left; exact Kd|]. split; [exact Len|]. split; [|split].
  - intros j Nj. destruct (Nat.lt_ge_cases j (length (Buffer.w_bufs b))).
    + apply L2; [assumption|]. intros T. apply Nj, Tg, T.
    + unfold Buffer.var. rewrite !(proj2 (nth_error_None _ _)) by lia. reflexivity.
  - intros Es j Nj. rewrite <- (str_table b'), Ga, Sp, str_upd, str_table; [|destruct e; cbn in *; tauto|exact Wa].
    destruct (Nat.eqb_spec k j); [congruence|]. reflexivity.
  - exists x. split; [rewrite Lx; destruct e; reflexivity|].
    rewrite Gt by (left; apply Tg; reflexivity). rewrite Sp, str_upd, Nat.eqb_refl, Lt. destruct (Nat.ltb_spec k (length (Buffer.w_bufs b))); [|lia]. reflexivity.
Qed.
(** Buffers that are created and destroyed. *)
Lemma str_app_l A x k : k < length A -> BufferSpec.str (A ++ [x]) k = BufferSpec.str A k.
Proof. intros H. unfold BufferSpec.str. rewrite nth_error_app1 by exact H. reflexivity. Qed.
Lemma str_app_r A x : BufferSpec.str (A ++ [x]) (length A) = x.
Proof. unfold BufferSpec.str. rewrite nth_error_app2, Nat.sub_diag by lia. reflexivity. Qed.
Lemma table_len b : length (BufferSpec.table b) = length (Buffer.w_bufs b).
Proof. unfold BufferSpec.table. rewrite map_length, seq_length. reflexivity. Qed.
Lemma buf_create junk o b s : binv b -> safe b ->
  (o = Buffer.New 0 /\ s = [] \/ exists k t, bytes_of b k = Some t /\
     (o = Buffer.Copy k /\ s = t \/ exists st n, o = Buffer.Fragment k st n /\ s = firstn n (skipn st t))) ->
  wp (Buffer.step junk o b) (fun b' =>
    binv b' /\ (BufferSpec.keeps_dirty o \/ (lo = false /\ hi = false) -> safe b') /\
    length (Buffer.w_bufs b') = S (length (Buffer.w_bufs b)) /\
    (forall j, j < length (Buffer.w_bufs b) -> Buffer.var b' j = Buffer.var b j /\ bytes_of b' j = bytes_of b j) /\
    bytes_of b' (length (Buffer.w_bufs b)) = Some s).
Proof.
  intros I S Ho. pose proof (buf_op junk o b I S) as H. pose proof (step_len junk o b) as L.
  destruct (Buffer.step junk o b) as [b'| | |]; cbn [wp] in *; auto. destruct (L b' eq_refl) as [L1 L2]. clear L.
  destruct H as (I' & S' & G).
  assert (D : exists x, BufferSpec.table b' = BufferSpec.table b ++ [Some s] /\ length (x : list N) = 0).
  { destruct G as (x & Lx & _ & Ga).
    - destruct Ho as [[-> _]|(k & t & _ & [[-> _]|(st & n & -> & _)])]; exact Logic.I.
    - exists []. split; [|reflexivity]. rewrite Ga.
      + destruct Ho as [[-> ->]|(k & t & B & [[-> ->]|(st & n & -> & ->)])]; cbn [BufferSpec.spec_step]; rewrite ?str_table, ?B; reflexivity.
      + right. destruct Ho as [[-> _]|(k & t & _ & [[-> _]|(st & n & -> & _)])]; cbn; tauto.
      + destruct Ho as [[-> _]|(k & t & _ & [[-> _]|(st & n & -> & _)])]; exact Logic.I. }
  destruct D as (_ & Tb & _). split; [exact I'|]. split; [exact S'|].
  assert (Tg : forall k, ~ BufferSpec.target o k).
  { intros k'. destruct Ho as [[-> _]|(k & t & _ & [[-> _]|(st & n & -> & _)])]; cbn; tauto. }
  split; [|split].
  - pose proof (f_equal (@length _) Tb) as E. rewrite app_length, !table_len in E. cbn in E. lia.
  - intros j Hj. split; [apply L2; auto|]. rewrite <- !str_table, Tb. apply str_app_l. rewrite table_len. exact Hj.
  - rewrite <- str_table, Tb, <- table_len. apply str_app_r.
Qed.
Lemma buf_destroy junk b k s : binv b -> safe b -> bytes_of b k = Some s ->
  wp (Buffer.step junk (Buffer.Destroy k) b) (fun b' =>
    binv b' /\ safe b' /\ length (Buffer.w_bufs b') = length (Buffer.w_bufs b) /\
    (forall j, j <> k -> Buffer.var b' j = Buffer.var b j /\ bytes_of b' j = bytes_of b j)).
Proof.
  intros I S B. pose proof (buf_op junk (Buffer.Destroy k) b I S) as H. pose proof (step_len junk (Buffer.Destroy k) b) as L.
  destruct (Buffer.step junk (Buffer.Destroy k) b) as [b'| | |]; cbn [wp] in *; auto. destruct (L b' eq_refl) as [L1 L2]. clear L.
  destruct H as (I' & S' & G). destruct (G Logic.I) as (x & Lx & _ & Ga). specialize (Ga (or_intror (fun f => f)) Logic.I).
  cbn [BufferSpec.spec_step] in Ga. rewrite str_table, B in Ga. split; [exact I'|]. split; [apply S'; left; exact Logic.I|].
  assert (Len : length (Buffer.w_bufs b') = length (Buffer.w_bufs b)) by (rewrite L1; lia). split; [exact Len|].
  intros j N. split.
  - destruct (Nat.lt_ge_cases j (length (Buffer.w_bufs b))); [apply L2; cbn; auto|].
    unfold Buffer.var. rewrite !(proj2 (nth_error_None _ _)) by lia. reflexivity.
  - rewrite <- !str_table, Ga, str_upd. destruct (Nat.eqb_spec k j); [congruence|]. reflexivity.
Qed.
End Buffers.

(** ** Tag lists *)

Section Lists.
Context {V : Type}.
Implicit Type t : TagList.world V.

Lemma con_content t i : winv t -> TagListSpec.con (TagListSpec.table t) i = content_of t i.
Proof. intros I. rewrite TagListProofs.con_table, TagListProofs.content_of_cont by exact I. reflexivity. Qed.
Lemma full_some t i n xs : full_of t i = Some (n, xs) -> content_of t i = Some (n, filter (touches n) xs).
Proof. intros F. rewrite TagListProofs.full_content, F. reflexivity. Qed.
Lemma content_some t i n xs : content_of t i = Some (n, xs) -> exists ys, full_of t i = Some (n, ys) /\ xs = filter (touches n) ys.
Proof.
  intros C. rewrite TagListProofs.full_content in C. destruct (full_of t i) as [[m ys]|]; [|discriminate].
  injection C as <- <-. exists ys. auto.
Qed.
Lemma full_lt t i c : full_of t i = Some c -> i < length (TagList.w_lists t).
Proof.
  intros F. apply nth_error_Some. intros N. unfold full_of, TagList.var in F. rewrite N in F. discriminate.
Qed.
Lemma full_out t i : length (TagList.w_lists t) <= i -> full_of t i = None.
Proof. intros H. unfold full_of, TagList.var. rewrite (proj2 (nth_error_None _ _)) by exact H. reflexivity. Qed.

Lemma tag_op (o : TagList.op V) t : winv t -> wp (TagList.step o t) (fun t' =>
  winv t' /\ (forall i, i < length (TagList.w_lists t) -> ~ TagListSpec.target o i -> full_of t' i = full_of t i) /\
  TagListSpec.table t' = TagListSpec.spec_exact (TagListSpec.sources o t) o (TagListSpec.table t)).
Proof.
  intros I. destruct (TagListProofs.step_ok o t I) as [[E _]|(t' & E & _ & F)]; rewrite E; cbn [wp]; [exact Logic.I|exact F].
Qed.

Lemma tag_edit e a t n xs m ys : winv t -> full_of t a = Some (n, xs) ->
  (forall c, elist e = Some c -> c <> a /\ full_of t c = Some (m, ys)) ->
  wp (TagList.step (et e a) t) (fun t' =>
    winv t' /\ length (TagList.w_lists t') = length (TagList.w_lists t) /\
    (forall b, b <> a -> full_of t' b = full_of t b) /\
    exists zs, full_of t' a = Some (esize m e n, zs) /\ efull e n xs m ys zs /\
      filter (touches (esize m e n)) zs = etags m ys e n (filter (touches n) xs)).
Proof.
  intros I F Hc. pose proof (tag_op (et e a) t I) as H. destruct (TagList.step (et e a) t) as [t'| | |] eqn:St; cbn [wp] in *; auto.
  destruct H as (I' & Fr & Tb). pose proof (full_lt _ _ _ F) as La.
  assert (Tg : forall b, TagListSpec.target (et e a : TagList.op V) b <-> b = a) by (intros b; destruct e; cbn; tauto).
  pose proof (full_some _ _ _ _ F) as C.
  assert (Sp : TagListSpec.spec_exact (TagListSpec.sources (et e a) t) (et e a) (TagListSpec.table t)
     = upd (TagListSpec.table t) a (Some (esize m e n, etags m ys e n (filter (touches n) xs)))).
  { destruct e; cbn [et TagListSpec.spec_exact TagListSpec.spec_step TagListSpec.sources esize etags];
      rewrite ?(con_content t a I), C; try reflexivity;
      destruct (Hc _ eq_refl) as [_ Fc]; rewrite Fc, (con_content t _ I), (full_some _ _ _ _ Fc); reflexivity. }
  rewrite Sp in Tb. pose proof (f_equal (@length _) Tb) as Len. rewrite upd_length, !TagListProofs.table_length in Len.
  split; [exact I'|]. split; [exact Len|]. split.
  - intros b Nb. destruct (Nat.lt_ge_cases b (length (TagList.w_lists t))).
    + apply Fr; [assumption|]. intros T. apply Nb, Tg, T.
    + rewrite !full_out by lia. reflexivity.
  - assert (C' : content_of t' a = Some (esize m e n, etags m ys e n (filter (touches n) xs))).
    { rewrite <- (con_content t' a I'), Tb. unfold TagListSpec.con. rewrite nth_upd_eq by (rewrite TagListProofs.table_length; exact La). reflexivity. }
    destruct (content_some _ _ _ _ C') as (zs & Fz & Ez). exists zs. split; [exact Fz|]. split; [|symmetry; exact Ez].
    assert (Gs : forall k, TagList.step (TagList.AddStart a k) t = Done t' -> incl zs (map (shift (Z.of_nat k)) xs)).
    { intros k Sk. destruct (TagListProofs.full_grow t t' a n k xs true I Sk F) as (zs' & Q1 & Q2). rewrite Fz in Q1. injection Q1 as _ <-. exact Q2. }
    assert (Ge : forall k, TagList.step (TagList.AddEnd a k) t = Done t' -> incl zs xs).
    { intros k Sk. destruct (TagListProofs.full_grow t t' a n k xs false I Sk F) as (zs' & Q1 & Q2). rewrite Fz in Q1. injection Q1 as _ <-. exact Q2. }
    destruct e; cbn [efull et esize] in *; eauto.
    + pose proof (TagListProofs.full_rem_start _ _ _ _ _ _ I St F). congruence.
    + pose proof (TagListProofs.full_rem_end _ _ _ _ _ _ I St F). congruence.
    + destruct (Hc _ eq_refl) as [_ Fc]. destruct (TagListProofs.full_list t t' a c n m xs ys true I St F Fc) as (zs' & Q1 & Q2). rewrite Fz in Q1. injection Q1 as <-. exact Q2.
    + destruct (Hc _ eq_refl) as [_ Fc]. destruct (TagListProofs.full_list t t' a c n m xs ys false I St F Fc) as (zs' & Q1 & Q2). rewrite Fz in Q1. injection Q1 as <-. exact Q2.
Qed.

Lemma tag_new t : winv t -> wp (TagList.step TagList.New t) (fun t' =>
  winv t' /\ length (TagList.w_lists t') = S (length (TagList.w_lists t)) /\
  (forall b, b < length (TagList.w_lists t) -> full_of t' b = full_of t b) /\
  full_of t' (length (TagList.w_lists t)) = Some (0, [])).
Proof.
  intros I. pose proof (tag_op TagList.New t I) as H. destruct (TagList.step TagList.New t) as [t'| | |] eqn:St; cbn [wp] in *; auto.
  destruct H as (I' & Fr & Tb). split; [exact I'|]. cbn [TagList.step] in St. injection St as <-.
  split; [unfold TagList.add_var; cbn; rewrite app_length; cbn; lia|]. split; [intros b Hb; apply Fr; auto|].
  unfold full_of, TagList.var, TagList.add_var. cbn [TagList.w_lists TagList.w_heap]. rewrite nth_error_app2, Nat.sub_diag by lia. cbn [nth_error].
  unfold TagList.elements, TagList.empty_list. cbn [TagList.tl_tia TagList.tl_size TagList.tl_start TagList.tl_end]. rewrite Z.sub_diag. reflexivity.
Qed.
Lemma tag_copy a t c : winv t -> full_of t a = Some c -> wp (TagList.step (TagList.Copy a) t) (fun t' =>
  winv t' /\ length (TagList.w_lists t') = S (length (TagList.w_lists t)) /\
  (forall b, b < length (TagList.w_lists t) -> full_of t' b = full_of t b) /\
  full_of t' (length (TagList.w_lists t)) = Some c).
Proof.
  intros I F. pose proof (tag_op (TagList.Copy a) t I) as H. destruct (TagList.step (TagList.Copy a) t) as [t'| | |] eqn:St; cbn [wp] in *; auto.
  destruct H as (I' & Fr & Tb). split; [exact I'|]. split; [|split; [intros b Hb; apply Fr; auto|apply (TagListProofs.full_copy a t t' c I St F)]].
  pose proof (f_equal (@length _) Tb) as Len. destruct c as [n xs]. cbn [TagListSpec.spec_exact TagListSpec.spec_step TagListSpec.sources] in Len.
  rewrite (con_content t a I), (full_some _ _ _ _ F), app_length, !TagListProofs.table_length in Len. cbn in Len. lia.
Qed.
Lemma tag_assign a c t x y : winv t -> full_of t a = Some x -> full_of t c = Some y ->
  wp (TagList.step (TagList.Assign a c) t) (fun t' =>
  winv t' /\ length (TagList.w_lists t') = length (TagList.w_lists t) /\
  (forall b, b <> a -> full_of t' b = full_of t b) /\ full_of t' a = Some y).
Proof.
  intros I Fa Fc. pose proof (tag_op (TagList.Assign a c) t I) as H. destruct (TagList.step (TagList.Assign a c) t) as [t'| | |] eqn:St; cbn [wp] in *; auto.
  destruct H as (I' & Fr & Tb). split; [exact I'|].
  assert (Len : length (TagList.w_lists t') = length (TagList.w_lists t)).
  { pose proof (f_equal (@length _) Tb) as Len. destruct x as [n xs], y as [m ys]. cbn [TagListSpec.spec_exact TagListSpec.spec_step TagListSpec.sources] in Len.
    rewrite (con_content t a I), (full_some _ _ _ _ Fa), (con_content t c I), (full_some _ _ _ _ Fc), upd_length, !TagListProofs.table_length in Len. exact Len. }
  split; [exact Len|]. split; [|apply (TagListProofs.full_assign a c t t' x y I St Fa Fc)].
  intros b Nb. destruct (Nat.lt_ge_cases b (length (TagList.w_lists t))); [apply Fr; auto|rewrite !full_out by lia; reflexivity].
Qed.
Lemma tag_destroy a t x : winv t -> full_of t a = Some x ->
  wp (TagList.step (TagList.Destroy a) t) (fun t' =>
  winv t' /\ length (TagList.w_lists t') = length (TagList.w_lists t) /\
  (forall b, b <> a -> full_of t' b = full_of t b)).
Proof.
  intros I Fa. pose proof (tag_op (TagList.Destroy a) t I) as H. destruct (TagList.step (TagList.Destroy a) t) as [t'| | |] eqn:St; cbn [wp] in *; auto.
  destruct H as (I' & Fr & Tb). split; [exact I'|].
  assert (Len : length (TagList.w_lists t') = length (TagList.w_lists t)).
  { pose proof (f_equal (@length _) Tb) as Len. destruct x as [n xs]. cbn [TagListSpec.spec_exact TagListSpec.spec_step TagListSpec.sources] in Len.
    rewrite (con_content t a I), (full_some _ _ _ _ Fa), upd_length, !TagListProofs.table_length in Len. exact Len. }
  split; [exact Len|]. intros b Nb. destruct (Nat.lt_ge_cases b (length (TagList.w_lists t))); [apply Fr; auto|rewrite !full_out by lia; reflexivity].
Qed.
Lemma tag_insert a id v s k t n xs : winv t -> full_of t a = Some (n, xs) ->
  wp (TagList.step (TagList.Insert a id v s k) t) (fun t' =>
  winv t' /\ length (TagList.w_lists t') = length (TagList.w_lists t) /\
  (forall b, b <> a -> full_of t' b = full_of t b) /\
  exists zs, full_of t' a = Some (n, zs) /\
    filter (touches n) zs = filter (touches n) xs ++ [TagList.mk_idx id v (Z.of_nat s) (Z.of_nat (s + k))]).
Proof.
  intros I F. pose proof (tag_op (TagList.Insert a id v s k) t I) as H. destruct (TagList.step (TagList.Insert a id v s k) t) as [t'| | |] eqn:St; cbn [wp] in *; auto.
  destruct H as (I' & Fr & Tb). pose proof (full_lt _ _ _ F) as La. split; [exact I'|].
  cbn [TagListSpec.spec_exact TagListSpec.spec_step TagListSpec.sources] in Tb. rewrite (con_content t a I), (full_some _ _ _ _ F) in Tb.
  pose proof (f_equal (@length _) Tb) as Len. rewrite upd_length, !TagListProofs.table_length in Len. split; [exact Len|]. split.
  - intros b Nb. destruct (Nat.lt_ge_cases b (length (TagList.w_lists t))); [apply Fr; auto|rewrite !full_out by lia; reflexivity].
  - assert (C' : content_of t' a = Some (n, filter (touches n) xs ++ [TagList.mk_idx id v (Z.of_nat s) (Z.of_nat (s + k))])).
    { rewrite <- (con_content t' a I'), Tb. unfold TagListSpec.con. rewrite nth_upd_eq by (rewrite TagListProofs.table_length; exact La). reflexivity. }
    destruct (content_some _ _ _ _ C') as (zs & Fz & Ez). exists zs. split; [exact Fz|]. symmetry. exact Ez.
Qed.
End Lists.

(** Buffers returned for headers and trailers keep the bookkeeping at one end. *)
Lemma header_safe lo hi junk i n b b1 b2 : hi = false -> binv b -> BufferProofs.safe lo hi b ->
  Buffer.step junk (Buffer.AddStart i n) b = Done b1 -> Buffer.step junk (Buffer.Fragment i 0 n) b1 = Done b2 -> BufferProofs.safe lo hi b2.
Proof.
  intros -> I S H1 H2. destruct lo; [eapply BufferProofs.header_safe; eauto|]. apply safe_ff; reflexivity.
Qed.
Lemma trailer_safe lo hi junk i st n b b1 b2 : lo = false -> binv b -> BufferProofs.safe lo hi b ->
  Buffer.step junk (Buffer.AddEnd i n) b = Done b1 -> Buffer.step junk (Buffer.Fragment i st n) b1 = Done b2 ->
  (forall c, nth_error (Buffer.w_bufs b1) i = Some (Some c) -> st + n = Buffer.b_end c - Buffer.b_start c) -> BufferProofs.safe lo hi b2.
Proof.
  intros -> I S H1 H2 H. destruct hi; [eapply BufferProofs.trailer_safe; eauto|]. apply safe_ff; reflexivity.
Qed.
Lemma spec_frame x o A k : k < length A -> ~ BufferSpec.target o k -> BufferSpec.str (BufferSpec.spec_step x o A) k = BufferSpec.str A k.
Proof.
  intros L N. assert (Ap : forall z, BufferSpec.str (A ++ [z]) k = BufferSpec.str A k) by (intros z; apply str_app_l, L).
  assert (U : forall A i z, i <> k -> BufferSpec.str (upd A i z) k = BufferSpec.str A k).
  { intros B i z Hi. unfold BufferSpec.str. rewrite nth_upd_neq by exact Hi. reflexivity. }
  destruct o; cbn [BufferSpec.spec_step BufferSpec.target] in *;
    repeat match goal with
    | |- context [if ?i =? ?j then _ else _] => destruct (i =? j)
    | |- context [match BufferSpec.str A ?i with _ => _ end] => destruct (BufferSpec.str A i)
    end; try reflexivity; try apply Ap; try (apply U; auto; fail).
  - rewrite str_app_l by (rewrite upd_length; exact L). apply U. auto.
  - rewrite !U by auto. reflexivity.
  - rewrite !U by auto. reflexivity.
Qed.
