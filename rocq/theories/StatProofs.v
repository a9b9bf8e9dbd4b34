(** Proofs about Stat.v: the containers refine the book of StatSpec.v. *)
From Coq Require Import List NArith Arith Lia String Sorted Permutation.
From Coq Require Import ZifyBool ZifyNat ZifyN.
From Verif Require Import Base BaseProofs Event EventSpec EventProofs Stat StatSpec.
Import ListNotations.
Open Scope list_scope.

Definition has (bs : list box) (b : nat) (n : string) (p : nat) : Prop :=
  exists x, nth_error bs b = Some x /\ In (n, p) x.

Definition uniq (bs : list box) : Prop :=
  forall b x, nth_error bs b = Some x -> NoDup (map fst x).

Lemma find_name_in n p b : find_name n b = Some p -> In (n, p) b.
Proof.
  induction b as [|[m q] t IH]; cbn [find_name]; [discriminate|].
  destruct (String.eqb_spec n m) as [->|Hne]; intros H; [injection H as ->; now left|right; auto].
Qed.

Lemma find_name_none n b : find_name n b = None -> ~ In n (map fst b).
Proof.
  induction b as [|[m q] t IH]; cbn [find_name map fst In]; [tauto|].
  destruct (String.eqb_spec n m) as [->|Hne]; [discriminate|].
  intros H [E|E]; [now subst|now apply IH].
Qed.

Lemma in_find_name n p b : NoDup (map fst b) -> In (n, p) b -> find_name n b = Some p.
Proof.
  induction b as [|[m q] t IH]; cbn [find_name map fst In]; [tauto|]. intros Hnd [E|E].
  - injection E as -> ->. now rewrite String.eqb_refl.
  - inversion Hnd as [|? ? Hni Hnd']; subst. destruct (String.eqb_spec n m) as [->|Hne]; [|auto].
    exfalso. apply Hni. change m with (fst (m, p)). now apply in_map.
Qed.

Lemma key_value n b : In n (map fst b) -> exists p : nat, In (n : string, p) b.
Proof. intros H. apply in_map_iff in H. destruct H as ([m p] & <- & H). now exists p. Qed.

Lemma has_unique bs b n p q : uniq bs -> has bs b n p -> has bs b n q -> p = q.
Proof.
  intros Hu (x & Hx & H1) (y & Hy & H2). rewrite Hx in Hy. injection Hy as <-.
  apply (in_find_name _ _ _ (Hu _ _ Hx)) in H1, H2. congruence.
Qed.

Lemma nth_upd_some {A} (l : list A) i (x y z : A) j :
  nth_error l i = Some x -> nth_error (upd l i y) j = Some z <->
  (j = i /\ z = y) \/ (j <> i /\ nth_error l j = Some z).
Proof.
  intros Hx. assert (i < length l) by (apply nth_error_Some; congruence).
  destruct (Nat.eq_dec j i) as [->|Hne].
  - rewrite nth_upd_eq by assumption. split; [intros [= <-]; auto|]. intros [[_ ->]|[? _]]; congruence.
  - rewrite nth_upd_neq by auto. split; [auto|]. intros [[? _]|[_ ?]]; congruence.
Qed.

Lemma has_upd bs b x y b' n p : nth_error bs b = Some x ->
  has (upd bs b y) b' n p <-> (b' = b /\ In (n, p) y) \/ (b' <> b /\ has bs b' n p).
Proof.
  intros Hx. unfold has. split.
  - intros (z & Hz & Hin). apply (nth_upd_some _ _ _ _ _ _ Hx) in Hz.
    destruct Hz as [[-> ->]|[Hne Hz]]; [now left|right; split; [exact Hne|now exists z]].
  - intros [[-> Hin]|[Hne (z & Hz & Hin)]].
    + exists y. split; [|exact Hin]. apply nth_upd_eq. apply nth_error_Some. congruence.
    + exists z. split; [|exact Hin]. now rewrite nth_upd_neq by auto.
Qed.

Lemma uniq_upd bs b x y : nth_error bs b = Some x -> NoDup (map fst y) -> uniq bs -> uniq (upd bs b y).
Proof.
  intros Hx Hy Hu b' z Hz. apply (nth_upd_some _ _ _ _ _ _ Hx) in Hz.
  destruct Hz as [[-> ->]|[_ Hz]]; [exact Hy|exact (Hu _ _ Hz)].
Qed.

Lemma NoDup_snoc {A} (l : list A) x : NoDup l -> ~ In x l -> NoDup (l ++ [x]).
Proof. intros H1 H2. apply (Permutation_NoDup (l := x :: l)); [apply Permutation_cons_append|now constructor]. Qed.

Lemma nodup_emplace n p b : NoDup (map fst b) -> ~ In n (map fst b) -> NoDup (map fst (b ++ [(n : string, p : nat)])).
Proof. intros H1 H2. rewrite map_app. now apply NoDup_snoc. Qed.

Lemma append_inj (p a b : string) : (p ++ a)%string = (p ++ b)%string -> a = b.
Proof. induction p as [|c p IH]; cbn; [auto|]. intros [= H]. auto. Qed.

(** ** Merging *)

Definition merge_inv (bs0 : list box) (dst : nat) (pre : string) (src : nat) (done : list string) (bs : list box) : Prop :=
  forall b n p, has bs b n p <-> has bs0 b n p \/
    (b = dst /\ (forall q, ~ has bs0 dst n q) /\ exists m, n = (pre ++ m)%string /\ In m done /\ has bs0 src m p).

Lemma merge_loop_ok fl dst pre src bs0 : dst < length bs0 -> src < length bs0 -> uniq bs0 ->
  forall names done bs, length bs = length bs0 -> uniq bs -> merge_inv bs0 dst pre src done bs ->
  NoDup (done ++ names) -> (forall m, In m names -> exists p, has bs0 src m p) ->
  exists bs', merge_loop fl dst pre src names bs = Done bs' /\ length bs' = length bs0 /\ uniq bs' /\
    merge_inv bs0 dst pre src (done ++ names) bs'.
Proof.
  intros Hd Hs Hu0 names. induction names as [|m t IH]; intros done bs Hlen Hu Hinv Hnd Hall; cbn [merge_loop].
  - exists bs. rewrite app_nil_r. auto.
  - destruct (Hall m (or_introl eq_refl)) as (p & Hp).
    assert (Hpm : has bs src m p) by (apply Hinv; now left).
    destruct Hpm as (xs & Hxs & Hin).
    rewrite (nth_error_nth _ _ ([] : box) Hxs). unfold get_point.
    rewrite (in_find_name _ _ _ (Hu _ _ Hxs) Hin). cbn [obind].
    destruct (nth_error bs dst) as [xd|] eqn:Hxd; [|apply nth_error_None in Hxd; lia].
    rewrite (nth_error_nth _ _ ([] : box) Hxd).
    assert (Hmd : ~ In m done).
    { intros Hi. apply NoDup_remove_2 in Hnd. apply Hnd, in_or_app. now left. }
    replace (done ++ m :: t) with ((done ++ [m]) ++ t) in * by (rewrite <- app_assoc; reflexivity).
    assert (Hfresh : forall q, has bs dst (pre ++ m) q -> has bs0 dst (pre ++ m) q).
    { intros q Hq. apply Hinv in Hq. destruct Hq as [Hq|(_ & _ & m' & He & Hm' & _)]; [exact Hq|].
      apply append_inj in He. now subst m'. }
    unfold emplace. destruct (find_name (pre ++ m) xd) as [q|] eqn:Ef.
    + (* already there *)
      apply find_name_in in Ef. assert (Hq : has bs0 dst (pre ++ m) q) by (apply Hfresh; now exists xd).
      rewrite upd_same by exact Hxd.
      apply IH; [exact Hlen|exact Hu| |exact Hnd|intros; apply Hall; now right].
      intros b n r. rewrite (Hinv b n r). split; (intros [H|(-> & Hun & m' & -> & Hm' & Hh)]; [now left|]).
      * right. split; [reflexivity|]. split; [exact Hun|]. exists m'. split; [reflexivity|].
        split; [apply in_or_app; now left|exact Hh].
      * right. split; [reflexivity|]. split; [exact Hun|]. exists m'. split; [reflexivity|].
        split; [|exact Hh]. apply in_app_or in Hm'. destruct Hm' as [Hm'|[->|[]]]; [exact Hm'|].
        exfalso. exact (Hun _ Hq).
    + apply find_name_none in Ef.
      assert (Hno : forall q, ~ has bs0 dst (pre ++ m) q).
      { intros q Hq. assert (Hq' : has bs dst (pre ++ m) q) by (apply Hinv; now left).
        destruct Hq' as (z & Hz & Hi). rewrite Hxd in Hz. injection Hz as <-.
        apply Ef. change (pre ++ m)%string with (fst ((pre ++ m)%string, q)). now apply in_map. }
      apply IH; [now rewrite upd_length| | |exact Hnd|intros; apply Hall; now right].
      * eapply uniq_upd; [exact Hxd| |exact Hu]. apply nodup_emplace; [exact (Hu _ _ Hxd)|exact Ef].
      * intros b n r. rewrite (has_upd _ _ _ _ _ _ _ Hxd). split.
        -- intros [[-> Hi]|[Hne Hh]].
           ++ apply in_app_or in Hi. destruct Hi as [Hi|[[= <- <-]|[]]].
              ** assert (Hh : has bs dst n r) by (now exists xd). apply Hinv in Hh.
                 destruct Hh as [Hh|(_ & Hun & m' & -> & Hm' & Hh)]; [now left|].
                 right. split; [reflexivity|]. split; [exact Hun|]. exists m'. split; [reflexivity|].
                 split; [apply in_or_app; now left|exact Hh].
              ** right. split; [reflexivity|]. split; [exact Hno|]. exists m. split; [reflexivity|].
                 split; [apply in_or_app; right; now left|exact Hp].
           ++ apply Hinv in Hh. destruct Hh as [Hh|(-> & _)]; [now left|congruence].
        -- intros [Hh|(-> & Hun & m' & -> & Hm' & Hh)].
           ++ destruct (Nat.eq_dec b dst) as [->|Hne].
              ** left. split; [reflexivity|]. apply in_or_app. left.
                 assert (H : has bs dst n r) by (apply Hinv; now left).
                 destruct H as (z & Hz & Hi). rewrite Hxd in Hz. now injection Hz as <-.
              ** right. split; [exact Hne|]. apply Hinv. now left.
           ++ left. split; [reflexivity|]. apply in_or_app. apply in_app_or in Hm'.
              destruct Hm' as [Hm'|[->|[]]].
              ** left. assert (H : has bs dst (pre ++ m') r).
                 { apply Hinv. right. split; [reflexivity|]. split; [exact Hun|]. now exists m'. }
                 destruct H as (z & Hz & Hi). rewrite Hxd in Hz. now injection Hz as <-.
              ** right. left. f_equal. exact (has_unique _ _ _ _ _ Hu0 Hp Hh).
Qed.

(** ** All names of all containers *)

Fixpoint all_names (i : nat) (bs : list box) : list (nat * string * nat) :=
  match bs with
  | [] => []
  | x :: t => map (fun e => (i, fst e, snd e)) x ++ all_names (S i) t
  end.

Lemma all_names_in bs : forall i b n p, In (b, n, p) (all_names i bs) <-> i <= b /\ has bs (b - i) n p.
Proof.
  induction bs as [|x t IH]; intros i b n p; cbn [all_names].
  - split; [intros []|]. intros (_ & z & Hz & _). destruct (b - i); discriminate.
  - rewrite in_app_iff, IH, in_map_iff. unfold has. split.
    + intros [([m q] & [= <- <- <-] & Hi)|(Hle & z & Hz & Hi)].
      * split; [lia|]. replace (i - i) with 0 by lia. now exists x.
      * split; [lia|]. replace (b - i) with (S (b - S i)) by lia. now exists z.
    + intros (Hle & z & Hz & Hi). destruct (Nat.eq_dec b i) as [->|Hne].
      * left. replace (i - i) with 0 in Hz by lia. injection Hz as ->. now exists (n, p).
      * right. split; [lia|]. replace (b - i) with (S (b - S i)) in Hz by lia. now exists z.
Qed.

Lemma NoDup_app {A} (l r : list A) : NoDup l -> NoDup r -> (forall x, In x l -> ~ In x r) -> NoDup (l ++ r).
Proof.
  induction l as [|a l IH]; cbn; [auto|]. intros H1 H2 H3. inversion H1; subst. constructor.
  - rewrite in_app_iff. intros [H|H]; [auto|]. exact (H3 a (or_introl eq_refl) H).
  - apply IH; auto.
Qed.

Lemma all_names_nodup bs : forall i, uniq bs -> NoDup (map fst (all_names i bs)).
Proof.
  induction bs as [|x t IH]; intros i Hu; cbn [all_names]; [constructor|].
  rewrite map_app, map_map. apply NoDup_app.
  - pose proof (Hu 0 x eq_refl) as Hx. cbn [fst].
    induction x as [|e x IHx]; cbn [map] in *; [constructor|]. inversion Hx as [|? ? Hni Hnd]; subst. constructor.
    + intros H. apply in_map_iff in H. destruct H as (e' & [= He] & Hi). apply Hni. rewrite <- He. now apply in_map.
    + apply IHx; [|exact Hnd]. intros [|b] z Hz; [injection Hz as <-; exact Hnd|exact (Hu (S b) z Hz)].
  - apply IH. intros b z Hz. exact (Hu (S b) z Hz).
  - intros [b n] H1 H2. cbn [fst] in H1. apply in_map_iff in H1. destruct H1 as (e & [= <- <-] & _).
    apply in_map_iff in H2. destruct H2 as ([[b' n'] p] & [= -> ->] & Hi).
    apply all_names_in in Hi. lia.
Qed.

(** ** The relation between a book and a world *)

Record R (k : book) (w : sworld) : Prop := {
  r_boxes : length (sw_boxes w) = bk_boxes k;
  r_kinds : map pt_kind (sw_points w) = bk_kinds k;
  r_uniq : uniq (sw_boxes w);
  r_names : forall b n p, means k b n p <-> has (sw_boxes w) b n p;
  r_keys : NoDup (map fst (bk_names k));
  r_range : forall b n p, has (sw_boxes w) b n p -> p < length (sw_points w);
  r_slots : forall p q, nth_error (sw_points w) p = Some q ->
    slots_ok unlimited (pt_slots q) /\ Permutation (entries 0 (sl_items (pt_slots q))) (links_of k p);
  r_links : forall p c s, In (p, c, s) (bk_links k) -> p < length (sw_points w);
  r_nodup : NoDup (bk_links k);
  r_enums : Forall2 (fun (l : list string * list string) e => en_items e = fst l ++ snd l /\ en_index e = length (fst l))
              (bk_enums k) (sw_enums w) }.

Lemma R_init : R book_init sworld_init.
Proof.
  split; cbn; try reflexivity; try (now constructor).
  - intros [|b] x; discriminate.
  - intros b n p. split; [intros []|]. intros ([|] & H & _); destruct b; discriminate.
  - intros b n p (x & H & _). destruct b; discriminate.
  - intros [|p] q; discriminate.
  - intros p c s [].
Qed.

Lemma links_of_in k p c s : In (c, s) (links_of k p) <-> In (p, c, s) (bk_links k).
Proof.
  unfold links_of. rewrite in_map_iff. split.
  - intros ([[p' c'] s'] & [= <- <-] & H). apply filter_In in H. cbn in H. destruct H as [H E].
    apply Nat.eqb_eq in E. now subst.
  - intros H. exists (p, c, s). split; [reflexivity|]. apply filter_In. cbn. now rewrite Nat.eqb_refl.
Qed.

Lemma cap_ok : (0 < unlimited < 2 ^ 32)%N.
Proof. unfold unlimited. split; reflexivity. Qed.

Lemma nth_lt {A} (l : list A) i x : nth_error l i = Some x -> i < length l.
Proof. intros H. apply nth_error_Some. congruence. Qed.

Lemma R_unknown k w b n x : R k w -> nth_error (sw_boxes w) b = Some x -> find_name n x = None -> unknown k b n.
Proof.
  intros HR Hx Hf p Hm. apply (r_names _ _ HR) in Hm. destruct Hm as (y & Hy & Hi).
  rewrite Hx in Hy. injection Hy as <-. apply find_name_none in Hf. apply Hf.
  change n with (fst (n, p)). now apply in_map.
Qed.

Lemma R_known k w b n x p : R k w -> nth_error (sw_boxes w) b = Some x -> find_name n x = Some p -> means k b n p.
Proof. intros HR Hx Hf. apply (r_names _ _ HR). exists x. split; [exact Hx|now apply find_name_in]. Qed.

Lemma R_lt k w b x : R k w -> nth_error (sw_boxes w) b = Some x -> b < bk_boxes k.
Proof. intros HR Hx. rewrite <- (r_boxes _ _ HR). now apply nth_lt in Hx. Qed.

Lemma R_ge k w b : R k w -> nth_error (sw_boxes w) b = None -> bk_boxes k <= b.
Proof. intros HR Hx. rewrite <- (r_boxes _ _ HR). now apply nth_error_None in Hx. Qed.

Lemma filter_app_one {A} (f : A -> bool) l x : filter f (l ++ [x]) = filter f l ++ (if f x then [x] else []).
Proof. rewrite filter_app. reflexivity. Qed.

Lemma links_none k w p : R k w -> length (sw_points w) <= p -> links_of k p = [].
Proof.
  intros HR Hp. destruct (links_of k p) as [|[c s] t] eqn:E; [reflexivity|].
  assert (Hi : In (c, s) (links_of k p)) by (rewrite E; now left).
  apply links_of_in in Hi. apply (r_links _ _ HR) in Hi. lia.
Qed.

(** A change of the names only. *)
Lemma R_names k w bs : R k w -> length bs = length (sw_boxes w) -> uniq bs ->
  (forall b n p, has bs b n p -> exists b' n', has (sw_boxes w) b' n' p) ->
  R (with_names k (all_names 0 bs)) (set_boxes w bs).
Proof.
  intros [r1 r2 r3 r4 r5 r6 r7 r8 r9 r10] Hlen Hu Hin.
  split; cbn [sw_boxes sw_points sw_enums set_boxes with_names bk_boxes bk_kinds bk_names bk_links bk_enums]; auto.
  - congruence.
  - intros b n p. unfold means. cbn [bk_names with_names]. rewrite all_names_in.
    replace (b - 0) with b by lia. split; [tauto|]. intros; split; [lia|assumption].
  - now apply all_names_nodup.
  - intros b n p Hh. destruct (Hin _ _ _ Hh) as (b' & n' & H'). eauto.
Qed.

Lemma all_names_means bs b n p : In (b, n, p) (all_names 0 bs) <-> has bs b n p.
Proof. rewrite all_names_in. replace (b - 0) with b by lia. split; [tauto|]. intros; split; [lia|assumption]. Qed.

Lemma erase_in n x m p : In (m, p) (erase_name n x) <-> In (m, p) x /\ m <> n.
Proof.
  unfold erase_name. rewrite filter_In. cbn [fst]. destruct (String.eqb_spec n m) as [->|Hne]; cbn; split.
  - intros [_ H]; discriminate.
  - intros [_ H]; congruence.
  - intros [H _]. auto.
  - intros [H _]. auto.
Qed.

Lemma erase_nodup n x : NoDup (map fst x) -> NoDup (map fst (erase_name n x)).
Proof.
  unfold erase_name. induction x as [|[m q] t IH]; cbn [filter map fst]; intros H; [exact H|].
  inversion H as [|? ? Hni Hnd]; subst.
  destruct (negb (String.eqb n m)); cbn [map fst]; [|now apply IH]. constructor; [|now apply IH].
  intros Hi. apply Hni. apply in_map_iff in Hi. destruct Hi as (e & He & Hi). apply filter_In in Hi.
  rewrite <- He. apply in_map, Hi.
Qed.

Lemma Forall2_nth {A B} (P : A -> B -> Prop) l r i y : Forall2 P l r -> nth_error r i = Some y ->
  exists x, nth_error l i = Some x /\ P x y.
Proof.
  intros H. revert i. induction H as [|a b l r Hab H IH]; intros [|i] Hi; try discriminate.
  - injection Hi as <-. now exists a.
  - destruct (IH i Hi) as (x & Hx & HP). now exists x.
Qed.

Lemma Forall2_upd {A B} (P : A -> B -> Prop) l r i x y : Forall2 P l r -> P x y -> Forall2 P (upd l i x) (upd r i y).
Proof.
  intros H HP. revert i. induction H as [|a b l r Hab H IH]; intros [|i]; cbn [upd]; constructor; auto.
Qed.

Lemma F2_length {A B} (P : A -> B -> Prop) l r : Forall2 P l r -> length l = length r.
Proof. induction 1; cbn; congruence. Qed.

Lemma F2_snoc {A B} (P : A -> B -> Prop) l r x y : Forall2 P l r -> P x y -> Forall2 P (l ++ [x]) (r ++ [y]).
Proof. intros H HP. apply Forall2_app; [exact H|]. constructor; [exact HP|constructor]. Qed.

Lemma R_enums k w l es : R k w ->
  Forall2 (fun (l : list string * list string) e => en_items e = fst l ++ snd l /\ en_index e = length (fst l)) l es ->
  R (with_enums k l) (mk_sworld (sw_points w) (sw_boxes w) es).
Proof. intros [r1 r2 r3 r4 r5 r6 r7 r8 r9 r10] H. split; cbn; auto. Qed.

(** A change of the connections of one probe. *)
Lemma R_links k w p q sl l : R k w -> nth_error (sw_points w) p = Some q ->
  slots_ok unlimited sl -> NoDup l ->
  (forall p' c s, In (p', c, s) l -> p' < length (sw_points w)) ->
  Permutation (entries 0 (sl_items sl)) (links_of (with_links k l) p) ->
  (forall p', p' <> p -> Permutation (links_of k p') (links_of (with_links k l) p')) ->
  R (with_links k l) (mk_sworld (upd (sw_points w) p (mk_point (pt_kind q) sl)) (sw_boxes w) (sw_enums w)).
Proof.
  intros [r1 r2 r3 r4 r5 r6 r7 r8 r9 r10] Hq Hs Hnd Hlt Hp Ho.
  split; cbn [sw_boxes sw_points sw_enums with_links bk_boxes bk_kinds bk_names bk_links bk_enums]; auto.
  - rewrite map_upd. cbn [pt_kind]. rewrite upd_same; [exact r2|].
    rewrite nth_error_map, Hq. reflexivity.
  - intros b n p' Hh. rewrite upd_length. eauto.
  - intros p' q' Hq'. apply (nth_upd_some _ _ _ _ _ _ Hq) in Hq'.
    destruct Hq' as [[-> ->]|[Hne Hq']]; cbn [pt_slots]; [now split|].
    destruct (r7 _ _ Hq') as [H1 H2]. split; [exact H1|]. rewrite H2. auto.
  - intros p' c s Hi. rewrite upd_length. eauto.
Qed.

Lemma links_of_cons k l p c s p' : bk_links k = l ->
  links_of (with_links k ((p, c, s) :: l)) p' = (if Nat.eqb p p' then [(c, s)] else []) ++ links_of k p'.
Proof. intros <-. unfold links_of. cbn [bk_links with_links filter fst snd]. destruct (Nat.eqb p p'); reflexivity. Qed.

Definition drop (p : nat) (c : N) (e : nat * N * nat) : bool :=
  negb (Nat.eqb (fst (fst e)) p && N.eqb (snd (fst e)) c).

Lemma links_of_drop k p c p' :
  links_of (with_links k (filter (drop p c) (bk_links k))) p' =
  if Nat.eqb p p' then filter (fun e => negb (fst e =? c)%N) (links_of k p') else links_of k p'.
Proof.
  unfold links_of. cbn [bk_links with_links]. induction (bk_links k) as [|[[q d] s] l IH].
  - cbn. now destruct (Nat.eqb p p').
  - cbn [filter]. unfold drop at 1. cbn [fst snd].
    destruct (Nat.eqb_spec p p') as [->|Hne].
    + destruct (Nat.eqb_spec q p') as [->|Hq]; cbn [andb].
      * cbn [map filter fst snd]. destruct (N.eqb_spec d c) as [->|Hd]; cbn [negb filter fst snd map].
        -- exact IH.
        -- rewrite Nat.eqb_refl. cbn [map fst snd]. now rewrite IH.
      * cbn [negb filter fst snd map]. replace (Nat.eqb q p') with false by (symmetry; now apply Nat.eqb_neq). exact IH.
    + destruct (Nat.eqb_spec q p) as [->|Hq]; cbn [andb].
      * replace (Nat.eqb p p') with false by (symmetry; now apply Nat.eqb_neq).
        destruct (N.eqb_spec d c) as [->|Hd]; cbn [negb filter fst snd map]; [exact IH|].
        replace (Nat.eqb p p') with false by (symmetry; now apply Nat.eqb_neq). exact IH.
      * cbn [negb filter fst snd map]. destruct (Nat.eqb_spec q p') as [->|]; cbn [map fst snd]; now rewrite IH.
Qed.

Lemma drop_in p c l p' c' s : In (p', c', s) (filter (drop p c) l) <-> In (p', c', s) l /\ ~ (p' = p /\ c' = c).
Proof.
  rewrite filter_In. unfold drop. cbn [fst snd].
  destruct (Nat.eqb_spec p' p), (N.eqb_spec c' c); cbn; intuition congruence.
Qed.

Section Step.
Context (fl : flavour) (provides : nat -> nat -> bool).

Lemma accepts_fits kd s : accepts fl provides kd s = true <-> fits fl provides kd s.
Proof. unfold accepts, fits. destruct fl; split; auto; discriminate. Qed.

Lemma s_call_ok o k w : in_order o -> R k w ->
  exists w' a k', s_call fl provides o w = Done (w', a) /\ allowed fl provides k o a k' /\ R k' w'.
Proof.
  intros Ho HR. pose proof HR as [r1 r2 r3 r4 r5 r6 r7 r8 r9 r10]. unfold s_call.
  destruct o as [|b kd n|b n|b n|b n|b n s|b n c|b pre src ord|p|b ord|e|e|e]; cbn [s_step];
    try (destruct (nth_error (sw_boxes w) b) as [x|] eqn:Hx;
         [|eexists w, _, k; split; [reflexivity|]; split; [|exact HR];
           eapply (al_nobox _ _ _ b); [eapply R_ge; eassumption|]; eauto 10]);
    try (pose proof (R_lt _ _ _ _ HR Hx) as Hb).
  - (* NewBox *)
    eexists _, _, _. split; [reflexivity|]. rewrite r1. split; [apply al_box|].
    assert (Hnew : forall b n p, has (sw_boxes w ++ [[]]) b n p <-> has (sw_boxes w) b n p).
    { intros b n p. unfold has. split; intros (z & Hz & Hi).
      - destruct (Nat.lt_ge_cases b (length (sw_boxes w))) as [Hlt|Hge].
        + rewrite nth_error_app1 in Hz by assumption. now exists z.
        + rewrite nth_error_app2 in Hz by assumption.
          destruct (b - length (sw_boxes w)) as [|[|]]; try discriminate. injection Hz as <-. destruct Hi.
      - exists z. split; [|exact Hi]. rewrite nth_error_app1 by (now apply nth_lt in Hz). exact Hz. }
    split; cbn [sw_boxes sw_points sw_enums set_boxes bk_boxes bk_kinds bk_names bk_links bk_enums]; auto.
    + rewrite app_length, r1. cbn. lia.
    + intros b z Hz. destruct (Nat.lt_ge_cases b (length (sw_boxes w))) as [Hlt|Hge].
      * rewrite nth_error_app1 in Hz by assumption. eauto.
      * rewrite nth_error_app2 in Hz by assumption.
        destruct (b - length (sw_boxes w)) as [|[|]]; try discriminate. injection Hz as <-. constructor.
    + intros b n p. rewrite Hnew. apply r4.
    + intros b n p Hh. apply Hnew in Hh. eauto.
  - (* Add *)
    unfold emplace. destruct (find_name n x) as [p|] eqn:Ef.
    + eexists _, _, _. split; [reflexivity|]. split; [|exact HR].
      eapply al_add_again; [exact Hb|eapply R_known; eassumption].
    + assert (Hlen : length (sw_points w) = length (bk_kinds k)) by (rewrite <- r2; now rewrite map_length).
      eexists _, _, _. split; [reflexivity|]. rewrite Hlen.
      pose proof (R_unknown _ _ _ _ _ HR Hx Ef) as Hun. split; [now apply al_add|].
      assert (Hnew : forall b' n' p', has (upd (sw_boxes w) b (x ++ [(n, length (bk_kinds k))])) b' n' p' <->
                has (sw_boxes w) b' n' p' \/ (b', n', p') = (b, n, length (bk_kinds k))).
      { intros b' n' p'. rewrite (has_upd _ _ _ _ _ _ _ Hx), in_app_iff. cbn [In]. split.
        - intros [[-> [Hi|[[= <- <-]|[]]]]|[Hne Hh]]; [left; now exists x|now right|now left].
        - intros [Hh|[= -> -> ->]]; [|left; split; [reflexivity|right; now left]].
          destruct (Nat.eq_dec b' b) as [->|Hne]; [left|now right].
          split; [reflexivity|]. left. destruct Hh as (z & Hz & Hi). rewrite Hx in Hz. now injection Hz as <-. }
      split; cbn [sw_boxes sw_points sw_enums bk_boxes bk_kinds bk_names bk_links bk_enums].
      * rewrite upd_length. exact r1.
      * rewrite map_app, r2. reflexivity.
      * eapply uniq_upd; [exact Hx| |exact r3].
        apply nodup_emplace; [exact (r3 _ _ Hx)|now apply find_name_none].
      * intros b' n' p'. unfold means. cbn [bk_names]. rewrite Hnew, in_app_iff. cbn [In].
        rewrite (r4 b' n' p' : In (b', n', p') (bk_names k) <-> _). intuition congruence.
      * rewrite map_app. cbn [map fst]. apply NoDup_snoc; [exact r5|].
        intros Hi. apply in_map_iff in Hi. destruct Hi as ([[b' n'] p'] & [= -> ->] & Hi). exact (Hun _ Hi).
      * intros b' n' p' Hh. rewrite app_length. cbn [length]. apply Hnew in Hh.
        destruct Hh as [Hh|[= _ _ ->]]; [apply r6 in Hh|]; lia.
      * intros p q Hq. destruct (Nat.lt_ge_cases p (length (sw_points w))) as [Hlt|Hge].
        -- rewrite nth_error_app1 in Hq by assumption. exact (r7 _ _ Hq).
        -- rewrite nth_error_app2 in Hq by assumption.
           destruct (p - length (sw_points w)) as [|[|]]; try discriminate. injection Hq as <-. cbn [pt_slots].
           split; [apply slots_ok_init|]. change (links_of _ p) with (links_of k p).
           rewrite (links_none _ _ _ HR Hge). constructor.
      * intros p c s Hi. rewrite app_length. apply r8 in Hi. lia.
      * exact r9.
      * exact r10.
  - (* Has *)
    destruct (find_name n x) as [p|] eqn:Ef.
    + eexists _, _, _. split; [reflexivity|]. split; [|exact HR]. eapply al_has; [exact Hb|eapply R_known; eassumption].
    + eexists _, _, _. split; [reflexivity|]. split; [|exact HR]. eapply al_has_not; [exact Hb|eapply R_unknown; eassumption].
  - (* Get *)
    unfold get_point. destruct (find_name n x) as [p|] eqn:Ef; cbn [obind].
    + eexists _, _, _. split; [reflexivity|]. split; [|exact HR]. eapply al_get; [exact Hb|eapply R_known; eassumption].
    + eexists _, _, _. split; [reflexivity|]. split; [|exact HR]. eapply al_get_not; [exact Hb|eapply R_unknown; eassumption].
  - (* Erase *)
    assert (Hnew : forall b' n' p', has (upd (sw_boxes w) b (erase_name n x)) b' n' p' <->
              has (sw_boxes w) b' n' p' /\ ~ (b' = b /\ n' = n)).
    { intros b' n' p'. rewrite (has_upd _ _ _ _ _ _ _ Hx), erase_in. split.
      - intros [(-> & Hi & Hne)|[Hne Hh]]; [split; [now exists x|intuition]|split; [exact Hh|intuition]].
      - intros [(z & Hz & Hi) Hne]. destruct (Nat.eq_dec b' b) as [->|Hnb].
        + left. rewrite Hx in Hz. injection Hz as <-. split; [reflexivity|]. split; [exact Hi|]. intuition.
        + right. split; [exact Hnb|now exists z]. }
    eexists _, _, (with_names k (all_names 0 (upd (sw_boxes w) b (erase_name n x)))).
    split; [reflexivity|]. split.
    + apply al_erase; [exact Hb| |].
      * intros b' n' p'. rewrite all_names_means, Hnew, (r4 b' n' p'). reflexivity.
      * apply all_names_nodup. eapply uniq_upd; [exact Hx| |exact r3]. apply erase_nodup, (r3 _ _ Hx).
    + apply R_names; [exact HR|now rewrite upd_length| |].
      * eapply uniq_upd; [exact Hx| |exact r3]. apply erase_nodup, (r3 _ _ Hx).
      * intros b' n' p' Hh. apply Hnew in Hh. exists b', n'. tauto.
  - (* Connect *)
    unfold get_point. destruct (find_name n x) as [p|] eqn:Ef; cbn [obind].
    2:{ eexists _, _, _. split; [reflexivity|]. split; [|exact HR]. eapply al_connect_not; [exact Hb|eapply R_unknown; eassumption]. }
    pose proof (R_known _ _ _ _ _ _ HR Hx Ef) as Hm. pose proof Hm as Hm'. apply r4 in Hm'. apply r6 in Hm'.
    destruct (nth_error (sw_points w) p) as [q|] eqn:Hq; [|apply nth_error_None in Hq; lia].
    assert (Hkd : nth_error (bk_kinds k) p = Some (pt_kind q)) by (rewrite <- r2, nth_error_map, Hq; reflexivity).
    destruct (r7 _ _ Hq) as [Hs HP].
    destruct s as [s|]; cbn [obind ev_connect].
    2:{ eexists _, _, _. split; [reflexivity|]. split; [|exact HR]. eapply al_connect_null; eassumption. }
    destruct (accepts fl provides (pt_kind q) s) eqn:Ea; cbn [obind].
    2:{ eexists _, _, _. split; [reflexivity|]. split; [|exact HR]. eapply al_connect_type; try eassumption.
        intros Hf. apply accepts_fits in Hf. congruence. }
    apply accepts_fits in Ea.
    destruct (N.eqb_spec (sl_num (pt_slots q)) unlimited) as [Hfull|Hnf]; cbn [obind].
    { eexists _, _, _. split; [reflexivity|]. split; [|exact HR]. eapply al_connect_full; try eassumption.
      rewrite <- (Permutation_length HP), <- (so_num _ _ Hs). exact Hfull. }
    assert (Hlt : (sl_num (pt_slots q) < unlimited)%N).
    { pose proof (entries_length_le (sl_items (pt_slots q)) 0). destruct Hs. lia. }
    destruct (slots_insert_ok unlimited _ s cap_ok Hs Hlt) as (c & s' & Hi & Hs' & Hc & HP' & Hfresh & _ & _).
    rewrite Hi. replace (N.eqb c 0) with false by lia. cbn [obind].
    assert (Hfr : forall s', ~ In (p, c, s') (bk_links k)).
    { intros s2 Hin. apply Hfresh. apply links_of_in in Hin. apply (Permutation_in _ (Permutation_sym HP)) in Hin.
      change c with (fst (c, s2)). now apply in_map. }
    eexists _, _, (with_links k ((p, c, s) :: bk_links k)). split; [reflexivity|]. split.
    + eapply al_connect; try eassumption; [|reflexivity]. pose proof cap_ok. lia.
    + apply R_links; [exact HR|exact Hq|exact Hs'| | | |].
      * constructor; [apply Hfr|exact r9].
      * intros p' c' s2 [[= <- <- <-]|Hin]; [exact Hm'|eauto].
      * rewrite (links_of_cons _ _ _ _ _ _ eq_refl), Nat.eqb_refl. cbn [app]. rewrite HP'. now constructor.
      * intros p' Hne. rewrite (links_of_cons _ _ _ _ _ _ eq_refl).
        replace (Nat.eqb p p') with false by (symmetry; apply Nat.eqb_neq; congruence). reflexivity.
  - (* Disconnect *)
    unfold get_point. destruct (find_name n x) as [p|] eqn:Ef; cbn [obind].
    2:{ eexists _, _, _. split; [reflexivity|]. split; [|exact HR]. eapply al_disconnect_not; [exact Hb|eapply R_unknown; eassumption]. }
    pose proof (R_known _ _ _ _ _ _ HR Hx Ef) as Hm. pose proof Hm as Hm'. apply r4 in Hm'. apply r6 in Hm'.
    destruct (nth_error (sw_points w) p) as [q|] eqn:Hq; [|apply nth_error_None in Hq; lia].
    destruct (r7 _ _ Hq) as [Hs HP].
    assert (Hc : (w32 c < 2 ^ 32)%N) by (apply N.mod_lt; discriminate).
    destruct (slots_remove_ok unlimited _ (w32 c) cap_ok Hc Hs) as (s' & Hi & Hs' & He & _ & _).
    unfold ev_disconnect. rewrite Hi. cbn [obind].
    eexists _, _, (with_links k (filter (drop p (w32 c)) (bk_links k))). split; [reflexivity|]. split.
    + eapply al_disconnect; [exact Hb|exact Hm| |now apply NoDup_filter].
      intros p' c' s2. apply drop_in.
    + apply R_links; [exact HR|exact Hq|exact Hs'|now apply NoDup_filter| | |].
      * intros p' c' s2 Hin. apply drop_in in Hin. destruct Hin. eauto.
      * rewrite links_of_drop, Nat.eqb_refl, He. now apply filter_perm.
      * intros p' Hne. rewrite links_of_drop.
        replace (Nat.eqb p p') with false by (symmetry; apply Nat.eqb_neq; congruence). reflexivity.
  - (* Merge *)
    cbn [in_order] in Ho.
    destruct (nth_error (sw_boxes w) src) as [m|] eqn:Hm.
    2:{ eexists _, _, _. split; [reflexivity|]. split; [|exact HR].
        eapply (al_nobox _ _ _ src); [eapply R_ge; eassumption|]. eauto 15. }
    destruct (merge_loop_ok fl b pre src (sw_boxes w) (nth_lt _ _ _ Hx) (nth_lt _ _ _ Hm) r3
                (ord (map fst m)) [] (sw_boxes w) eq_refl r3) as (bs & Hbs & Hlen & Hu & Hinv).
    + intros b' n' p'. split; [auto|]. intros [H|(_ & _ & ? & _ & [] & _)]. exact H.
    + cbn [app]. apply (Permutation_NoDup (Permutation_sym (Ho _))). exact (r3 _ _ Hm).
    + intros m' Hi. apply (Permutation_in _ (Ho _)) in Hi. apply key_value in Hi. destruct Hi as (p & Hi).
      exists p. now exists m.
    + rewrite Hbs. cbn [obind]. cbn [app] in Hinv.
      assert (Hname : forall m' p, has (sw_boxes w) src m' p -> In m' (ord (map fst m))).
      { intros m' p (z & Hz & Hi). rewrite Hm in Hz. injection Hz as <-.
        apply (Permutation_in _ (Permutation_sym (Ho _))). change m' with (fst (m', p)). now apply in_map. }
      eexists _, _, (with_names k (all_names 0 bs)). split; [reflexivity|]. split.
      * apply al_merge; [exact Hb|eapply R_lt; eassumption| |now apply all_names_nodup].
        intros b' n' p'. rewrite all_names_means, (Hinv b' n' p'). unfold unknown. rewrite (r4 b' n' p').
        split; (intros [H|(-> & Hun & m' & -> & H)]; [now left|right; split; [reflexivity|]]).
        -- destruct H as [_ H]. split; [intros q Hq; apply r4 in Hq; exact (Hun _ Hq)|].
           exists m'. split; [reflexivity|]. now apply r4.
        -- apply r4 in H. split; [intros q Hq; apply (Hun q); now apply r4|].
           exists m'. split; [reflexivity|]. split; [eapply Hname, H|exact H].
      * apply R_names; [exact HR|exact Hlen|exact Hu|].
        intros b' n' p' Hh. apply Hinv in Hh. destruct Hh as [H|(_ & _ & m' & _ & _ & H)]; eauto.
  - (* Fire *)
    destruct (nth_error (sw_points w) p) as [q|] eqn:Hq.
    2:{ eexists _, _, _. split; [reflexivity|]. split; [|exact HR]. apply al_nopoint.
        rewrite <- r2, map_length. now apply nth_error_None. }
    destruct (r7 _ _ Hq) as [Hs HP]. rewrite (slots_visit_ok unlimited) by exact Hs. cbn [obind].
    eexists _, _, _. split; [reflexivity|]. split; [|exact HR].
    apply al_fire; [rewrite <- r2, map_length; now apply nth_lt in Hq| |exact HP].
    pose proof (entries_sorted (sl_items (pt_slots q)) 0) as Hsort. unfold cookie_sorted in Hsort. revert Hsort.
    generalize (entries 0 (sl_items (pt_slots q))). intros l Hl.
    induction Hl as [|e l Hl IH Hfa]; cbn [map]; [constructor|]. constructor; [exact IH|].
    apply Forall_map. exact Hfa.
  - (* GetEnum *)
    cbn [in_order] in Ho. rewrite <- (F2_length _ _ _ r10).
    eexists _, _, _. split; [reflexivity|]. split.
    + apply (al_enum _ _ k b ord (ord (map fst x))); [exact Hb| |].
      * apply (Permutation_NoDup (Permutation_sym (Ho _))). exact (r3 _ _ Hx).
      * intros n. split.
        -- intros Hi. apply (Permutation_in _ (Ho _)) in Hi. apply key_value in Hi. destruct Hi as (p & Hi).
           exists p. apply r4. now exists x.
        -- intros (p & Hp). apply r4 in Hp. destruct Hp as (z & Hz & Hi). rewrite Hx in Hz. injection Hz as <-.
           apply (Permutation_in _ (Permutation_sym (Ho _))). change n with (fst (n, p)). now apply in_map.
    + apply R_enums; [exact HR|]. apply F2_snoc; [exact r10|]. now split.
  - (* Reset *)
    destruct (nth_error (sw_enums w) e) as [x|] eqn:Hx.
    2:{ eexists _, _, _. split; [reflexivity|]. split; [|exact HR]. apply (al_noenum _ _ _ e); [|auto].
        rewrite (F2_length _ _ _ r10). now apply nth_error_None. }
    destruct (Forall2_nth _ _ _ _ _ r10 Hx) as ([l1 l2] & Hl & Hi & Hn). cbn [fst snd] in *.
    eexists _, _, _. split; [reflexivity|]. split; [eapply al_reset; exact Hl|].
    apply R_enums; [exact HR|]. apply Forall2_upd; [exact r10|]. now split.
  - (* HasNext *)
    destruct (nth_error (sw_enums w) e) as [x|] eqn:Hx.
    2:{ eexists _, _, _. split; [reflexivity|]. split; [|exact HR]. apply (al_noenum _ _ _ e); [|auto].
        rewrite (F2_length _ _ _ r10). now apply nth_error_None. }
    destruct (Forall2_nth _ _ _ _ _ r10 Hx) as ([l1 l2] & Hl & Hi & Hn). cbn [fst snd] in *.
    eexists _, _, _. split; [reflexivity|]. split; [|exact HR].
    replace (en_index x <? length (en_items x)) with (negb (Nat.eqb (length l2) 0));
      [eapply al_has_next; exact Hl|]. rewrite Hi, Hn, app_length.
    destruct (Nat.eqb_spec (length l2) 0), (Nat.ltb_spec (length l1) (length l1 + length l2)); cbn; lia.
  - (* Next *)
    destruct (nth_error (sw_enums w) e) as [x|] eqn:Hx.
    2:{ eexists _, _, _. split; [reflexivity|]. split; [|exact HR]. apply (al_noenum _ _ _ e); [|auto].
        rewrite (F2_length _ _ _ r10). now apply nth_error_None. }
    destruct (Forall2_nth _ _ _ _ _ r10 Hx) as ([l1 l2] & Hl & Hi & Hn). cbn [fst snd] in *.
    rewrite Hi, Hn, app_length. destruct l2 as [|n l2]; cbn [length].
    + replace (length l1 + 0 <=? length l1) with true by (symmetry; apply Nat.leb_le; lia).
      eexists _, _, _. split; [reflexivity|]. split; [|exact HR]. eapply al_next_end; exact Hl.
    + replace (length l1 + S (length l2) <=? length l1) with false by (symmetry; apply Nat.leb_gt; lia).
      rewrite nth_error_app2, Nat.sub_diag by lia. cbn [nth_error].
      eexists _, _, _. split; [reflexivity|]. split; [eapply al_next; exact Hl|].
      apply R_enums; [exact HR|]. apply Forall2_upd; [exact r10|]. cbn [en_items en_index fst snd].
      split; [now rewrite <- app_assoc|]. rewrite app_length. cbn. lia.
Qed.

Lemma s_run_ok l : Forall in_order l -> forall k w, R k w ->
  exists w' r k', s_run fl provides l w = Done (w', r) /\ length r = length l /\
    explained fl provides k (combine l r) k' /\ R k' w'.
Proof.
  induction l as [|o t IH]; intros Ho k w HR; cbn [s_run].
  - exists w, [], k. split; [reflexivity|]. split; [reflexivity|]. split; [constructor|exact HR].
  - inversion Ho as [|? ? H1 H2]; subst.
    destruct (s_call_ok o k w H1 HR) as (w1 & a & k1 & -> & Ha & HR1). cbn [obind].
    destruct (IH H2 k1 w1 HR1) as (w2 & r & k2 & -> & Hlen & He & HR2). cbn [obind].
    exists w2, (a :: r), k2. split; [reflexivity|]. split; [cbn; congruence|].
    split; [|exact HR2]. cbn [combine]. econstructor; eassumption.
Qed.

End Step.
