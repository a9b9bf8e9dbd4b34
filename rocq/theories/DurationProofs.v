From Verif Require Import Base BaseProofs Duration DurationSpec.
From Coq Require Import ZifyBool ZifyNat ZifyN.
Open Scope Z_scope.

Lemma checked_done z r : checked z = Done r <-> r = z /\ is_count z.
Proof.
  unfold checked, in_int64, is_count, int64_min, int64_max.
  change (2 ^ 63) with 9223372036854775808.
  split.
  - destruct (_ && _) eqn:E; [|discriminate]. intros H. injection H as <-. lia.
  - intros (-> & H). replace (_ && _) with true by lia. reflexivity.
Qed.

Lemma checked_ok z : is_count z -> checked z = Done z.
Proof. intros H. apply checked_done. auto. Qed.

Lemma checked_ub z : ~ is_count z -> checked z = UB.
Proof.
  unfold checked, in_int64, is_count, int64_min, int64_max.
  change (2 ^ 63) with 9223372036854775808. intros H.
  replace (_ && _) with false by lia. reflexivity.
Qed.

Lemma res_pos d : resolution d -> 0 < d.
Proof. intros (k & Hk & ->). apply Z.pow_pos_nonneg; lia. Qed.

Lemma res_rx ds dd : resolution ds -> resolution dd -> ds <= dd ->
  exists m, 0 < m /\ dd = m * ds /\ rx_num ds dd = m.
Proof.
  intros (k & Hk & ->) (j & Hj & ->) H.
  assert (Hkj : k <= j).
  { apply (Z.pow_le_mono_r_iff 10); lia. }
  exists (10 ^ (j - k)).
  assert (E : 10 ^ j = 10 ^ (j - k) * 10 ^ k) by (rewrite <- Z.pow_add_r by lia; f_equal; lia).
  assert (P : 0 < 10 ^ k) by (apply Z.pow_pos_nonneg; lia).
  repeat split; auto.
  - apply Z.pow_pos_nonneg; lia.
  - unfold rx_num. rewrite E.
    rewrite (proj1 (Z.divide_gcd_iff (10 ^ k) (10 ^ (j - k) * 10 ^ k) ltac:(lia))).
    + apply Z.div_mul. lia.
    + exists (10 ^ (j - k)). reflexivity.
Qed.

Lemma max_bound m r : 0 < m -> (Z.quot int64_max m < r <-> int64_max < r * m).
Proof.
  intros Hm. rewrite Z.quot_div_nonneg by (unfold int64_max; lia).
  pose proof (Z.div_mod int64_max m ltac:(lia)) as E.
  pose proof (Z.mod_pos_bound int64_max m Hm) as B.
  revert E B. generalize (int64_max / m) (int64_max mod m). intros; nia.
Qed.

Lemma min_bound m r : 0 < m -> (r < Z.quot int64_min m <-> r * m < int64_min).
Proof.
  intros Hm.
  replace (Z.quot int64_min m) with (- Z.quot (- int64_min) m)
    by (rewrite Z.quot_opp_l by lia; lia).
  rewrite Z.quot_div_nonneg by (unfold int64_min; lia).
  pose proof (Z.div_mod (- int64_min) m ltac:(lia)) as E.
  pose proof (Z.mod_pos_bound (- int64_min) m Hm) as B.
  revert E B. generalize (- int64_min / m) (- int64_min mod m). intros; nia.
Qed.

Lemma count_int c : is_count c <-> int64_min <= c <= int64_max.
Proof. unfold is_count, int64_min, int64_max. change (2 ^ 63) with 9223372036854775808. lia. Qed.

(** ** Conversion *)

Lemma convert_up_done ds dd c : resolution ds -> resolution dd -> ds <= dd ->
  exists m, 0 < m /\ dd = m * ds /\
    convert_up ds dd c = (if in_int64 (c * m) then Done (c * m) else AssertFail).
Proof.
  intros Hs Hd H. destruct (res_rx ds dd Hs Hd H) as (m & Hm & E & R).
  exists m. repeat split; auto. unfold convert_up. rewrite R.
  pose proof (max_bound m c Hm). pose proof (min_bound m c Hm).
  unfold in_int64.
  destruct (Z.leb_spec c (Z.quot int64_max m)), (Z.leb_spec (Z.quot int64_min m) c); cbn [andb];
    unfold checked, in_int64;
    destruct (Z.leb_spec int64_min (c * m)), (Z.leb_spec (c * m) int64_max); cbn [andb]; auto; lia.
Qed.

Lemma quot_count c m : 0 < m -> is_count c -> is_count (Z.quot c m).
Proof.
  intros Hm. rewrite !count_int. intros H.
  pose proof (Z.quot_rem c m ltac:(lia)) as E.
  pose proof (Z.rem_bound_abs c m ltac:(lia)) as B.
  pose proof (Z.quot_abs c m ltac:(lia)) as A.
  pose proof (Z.quot_le_upper_bound (Z.abs c) m (Z.abs c) ltac:(lia) ltac:(nia)) as U.
  pose proof (Z.quot_pos (Z.abs c) m ltac:(lia) ltac:(lia)) as P.
  rewrite (Z.abs_eq m) in A by lia. rewrite A in *.
  unfold int64_min, int64_max in *.
  destruct (Z.eq_dec c int64_min) as [->|Hne]; unfold int64_min in *.
  - assert (-9223372036854775808 <= Z.quot (-9223372036854775808) m <= 0); [|lia].
    pose proof (Z.quot_opp_l 9223372036854775808 m ltac:(lia)) as O.
    change (- (9223372036854775808)) with (-9223372036854775808) in O.
    pose proof (Z.quot_pos 9223372036854775808 m ltac:(lia) ltac:(lia)). lia.
  - lia.
Qed.

Lemma convert_down_done ds dd c : resolution ds -> resolution dd -> dd <= ds -> is_count c ->
  exists m, 0 < m /\ ds = m * dd /\ convert_down ds dd c = Done (Z.quot c m).
Proof.
  intros Hs Hd H Hc. destruct (res_rx dd ds Hd Hs H) as (m & Hm & E & R).
  exists m. repeat split; auto. unfold convert_down, cdiv. rewrite R.
  replace (m =? 0) with false by lia. apply checked_ok, quot_count; auto.
Qed.

(** Converting to the same or a finer resolution: exact when it fits, stopped
    by the assertion otherwise. *)
Lemma convert_finer ds dd c : resolution ds -> resolution dd -> ds <= dd -> is_count c ->
  convert ds dd c = (if in_int64 (ticks ds c dd) then Done (ticks ds c dd) else AssertFail).
Proof.
  intros Hs Hd H Hc. pose proof (res_pos ds Hs).
  unfold convert, ticks. destruct (Z.ltb_spec ds dd).
  - destruct (convert_up_done ds dd c Hs Hd H) as (m & Hm & E & ->).
    rewrite E. rewrite Z.div_mul by lia. reflexivity.
  - assert (ds = dd) by lia. subst dd.
    destruct (convert_down_done ds ds c Hs Hd ltac:(lia) Hc) as (m & Hm & E & ->).
    assert (m = 1) by nia. subst m. rewrite Z.quot_1_r, Z.div_same, Z.mul_1_r by lia.
    unfold in_int64. apply count_int in Hc.
    replace (_ && _) with true by lia. reflexivity.
Qed.

Lemma convert_coarser ds dd c : resolution ds -> resolution dd -> dd <= ds -> is_count c ->
  exists m, 0 < m /\ ds = m * dd /\ convert ds dd c = Done (Z.quot c m).
Proof.
  intros Hs Hd H Hc. unfold convert. destruct (Z.ltb_spec ds dd); [lia|].
  apply convert_down_done; auto.
Qed.

Lemma ticks_value ds dd c : resolution ds -> resolution dd -> ds <= dd ->
  ticks ds c dd * ds = c * dd.
Proof.
  intros Hs Hd H. pose proof (res_pos ds Hs).
  destruct (res_rx ds dd Hs Hd H) as (m & Hm & -> & _). unfold ticks.
  rewrite Z.div_mul by lia. ring.
Qed.

Lemma convert_finer_spec ds dd c : resolution ds -> resolution dd -> ds <= dd -> is_count c ->
  (forall r, convert ds dd c = Done r <-> is_count r /\ time_eq ds c dd r) /\
  ((exists r, convert ds dd c = Done r) \/ convert ds dd c = AssertFail).
Proof.
  intros Hs Hd H Hc. pose proof (res_pos ds Hs) as P. pose proof (ticks_value ds dd c Hs Hd H) as T.
  rewrite (convert_finer ds dd c Hs Hd H Hc).
  split.
  - intros r. unfold time_eq. rewrite count_int. unfold in_int64. split.
    + destruct (_ && _) eqn:E; [|discriminate]. intros X. injection X as <-. split; lia.
    + intros (B & E). assert (r = ticks ds c dd) by nia. subst r.
      replace (_ && _) with true by lia. reflexivity.
  - destruct (in_int64 _); eauto.
Qed.

Lemma convert_round_trip ds dd c r : resolution ds -> resolution dd -> ds <= dd -> is_count c ->
  convert ds dd c = Done r -> convert dd ds r = Done c.
Proof.
  intros Hs Hd H Hc E. pose proof (res_pos ds Hs) as P. pose proof (res_pos dd Hd) as P'.
  apply convert_finer_spec in E as (Hr & Ht); auto. unfold time_eq in Ht.
  destruct (convert_coarser dd ds r Hd Hs H Hr) as (m & Hm & E & ->).
  f_equal. assert (r = c * m) by nia. subst r. apply Z.quot_mul. lia.
Qed.

Lemma convert_coarser_spec ds dd c : resolution ds -> resolution dd -> dd <= ds -> is_count c ->
  exists r, convert ds dd c = Done r /\ is_count r /\
    (* same sign, not further from zero than the original time *)
    (0 <= c -> 0 <= r /\ time_le dd r ds c) /\
    (c <= 0 -> r <= 0 /\ time_le ds c dd r) /\
    (* error below one period of the destination *)
    time_lt ds c dd (r + 1) /\ time_lt dd (r - 1) ds c.
Proof.
  intros Hs Hd H Hc. pose proof (res_pos ds Hs) as P. pose proof (res_pos dd Hd) as P'.
  destruct (convert_coarser ds dd c Hs Hd H Hc) as (m & Hm & E & ->).
  exists (Z.quot c m). split; auto. split; [apply quot_count; auto|].
  unfold time_le, time_lt.
  pose proof (Z.quot_rem c m ltac:(lia)) as Q.
  pose proof (Z.rem_bound_abs c m ltac:(lia)) as B.
  assert (S1 : 0 <= c -> 0 <= Z.rem c m) by (intros; apply Z.rem_nonneg; lia).
  assert (S2 : c <= 0 -> Z.rem c m <= 0) by (intros; apply Z.rem_nonpos; lia).
  assert (S3 : 0 <= c -> 0 <= Z.quot c m) by (intros; apply Z.quot_pos; lia).
  assert (S4 : c <= 0 -> Z.quot c m <= 0).
  { intros. replace c with (- (- c)) by lia. rewrite Z.quot_opp_l by lia.
    pose proof (Z.quot_pos (- c) m). lia. }
  revert Q B S1 S2 S3 S4. generalize (Z.quot c m) (Z.rem c m). intros q r Q B S1 S2 S3 S4.
  subst ds. rewrite (Z.abs_eq m) in B by lia.
  repeat split; intros; auto; nia.
Qed.

(** ** Comparison *)

Section Cmp.
  Context (d1 d2 : Z) (H1 : resolution d1) (H2 : resolution d2).

  Lemma equal_spec l r : is_count l -> is_count r -> equal d1 d2 l r = true <-> time_eq d1 l d2 r.
  Proof.
    intros Hl Hr. apply count_int in Hl. apply count_int in Hr.
    pose proof (res_pos _ H1). pose proof (res_pos _ H2).
    unfold equal, equal_lf, time_eq.
    destruct (Z.eqb_spec d1 d2) as [E|E]; [subst; split; nia|].
    destruct (Z.ltb_spec d2 d1).
    - destruct (res_rx d2 d1 H2 H1) as (m & Hm & E' & ->); [lia|].
      pose proof (max_bound m r Hm). pose proof (min_bound m r Hm).
      destruct (Z.ltb_spec (Z.quot int64_max m) r); [split; [discriminate|nia]|].
      destruct (Z.ltb_spec r (Z.quot int64_min m)); [split; [discriminate|nia]|].
      subst d1. split; intros; nia.
    - destruct (res_rx d1 d2 H1 H2) as (m & Hm & E' & ->); [lia|].
      pose proof (max_bound m l Hm). pose proof (min_bound m l Hm).
      destruct (Z.ltb_spec (Z.quot int64_max m) l); [split; [discriminate|nia]|].
      destruct (Z.ltb_spec l (Z.quot int64_min m)); [split; [discriminate|nia]|].
      subst d2. split; intros; nia.
  Qed.
End Cmp.

(** The coarser operand fits the finer resolution. *)
Definition comparable (d1 d2 l r : Z) : Prop :=
  if d1 <=? d2 then is_count (ticks d1 l d2) else is_count (ticks d2 r d1).

Lemma less_spec d1 d2 l r : resolution d1 -> resolution d2 -> is_count l -> is_count r ->
  comparable d1 d2 l r -> (less d1 d2 l r = true <-> time_lt d1 l d2 r).
Proof.
  intros H1 H2 Hl Hr Hc. apply count_int in Hl. apply count_int in Hr.
  pose proof (res_pos _ H1). pose proof (res_pos _ H2).
  unfold less, less_lf, less_equal_lf, time_lt, comparable in *.
  destruct (Z.eqb_spec d1 d2) as [E|E]; [subst; split; nia|].
  destruct (Z.ltb_spec d2 d1).
  - destruct (Z.leb_spec d1 d2); [lia|]. apply count_int in Hc.
    pose proof (ticks_value d2 d1 r H2 H1 ltac:(lia)) as T.
    destruct (res_rx d2 d1 H2 H1) as (m & Hm & E' & ->); [lia|].
    pose proof (max_bound m r Hm). pose proof (min_bound m r Hm).
    assert (ET : ticks d2 r d1 = r * m) by (subst d1; nia).
    destruct (Z.ltb_spec (Z.quot int64_max m) r); [lia|].
    destruct (Z.ltb_spec r (Z.quot int64_min m)); [lia|].
    subst d1. split; intros; nia.
  - destruct (Z.leb_spec d1 d2); [|lia]. apply count_int in Hc.
    pose proof (ticks_value d1 d2 l H1 H2 ltac:(lia)) as T.
    destruct (res_rx d1 d2 H1 H2) as (m & Hm & E' & ->); [lia|].
    pose proof (max_bound m l Hm). pose proof (min_bound m l Hm).
    assert (ET : ticks d1 l d2 = l * m) by (subst d2; nia).
    destruct (Z.ltb_spec (Z.quot int64_max m) l); [lia|].
    destruct (Z.ltb_spec l (Z.quot int64_min m)); [lia|].
    subst d2. split; intros; nia.
Qed.

Lemma less_equal_spec d1 d2 l r : resolution d1 -> resolution d2 -> is_count l -> is_count r ->
  comparable d1 d2 l r -> (less_equal d1 d2 l r = true <-> time_le d1 l d2 r).
Proof.
  intros H1 H2 Hl Hr Hc. apply count_int in Hl. apply count_int in Hr.
  pose proof (res_pos _ H1). pose proof (res_pos _ H2).
  unfold less_equal, less_lf, less_equal_lf, time_le, comparable in *.
  destruct (Z.eqb_spec d1 d2) as [E|E]; [subst; split; nia|].
  destruct (Z.ltb_spec d2 d1).
  - destruct (Z.leb_spec d1 d2); [lia|]. apply count_int in Hc.
    pose proof (ticks_value d2 d1 r H2 H1 ltac:(lia)) as T.
    destruct (res_rx d2 d1 H2 H1) as (m & Hm & E' & ->); [lia|].
    pose proof (max_bound m r Hm). pose proof (min_bound m r Hm).
    assert (ET : ticks d2 r d1 = r * m) by (subst d1; nia).
    destruct (Z.ltb_spec (Z.quot int64_max m) r); [lia|].
    destruct (Z.ltb_spec r (Z.quot int64_min m)); [lia|].
    subst d1. split; intros; nia.
  - destruct (Z.leb_spec d1 d2); [|lia]. apply count_int in Hc.
    pose proof (ticks_value d1 d2 l H1 H2 ltac:(lia)) as T.
    destruct (res_rx d1 d2 H1 H2) as (m & Hm & E' & ->); [lia|].
    pose proof (max_bound m l Hm). pose proof (min_bound m l Hm).
    assert (ET : ticks d1 l d2 = l * m) by (subst d2; nia).
    destruct (Z.ltb_spec (Z.quot int64_max m) l); [lia|].
    destruct (Z.ltb_spec l (Z.quot int64_min m)); [lia|].
    subst d2. split; intros; nia.
Qed.

(** When the coarser operand does not fit, the answer is always the wrong one. *)
Lemma less_wrong d1 d2 l r : resolution d1 -> resolution d2 -> is_count l -> is_count r ->
  ~ comparable d1 d2 l r ->
  (less d1 d2 l r = true <-> ~ time_lt d1 l d2 r) /\
  (less_equal d1 d2 l r = true <-> ~ time_le d1 l d2 r).
Proof.
  intros H1 H2 Hl Hr Hc. pose proof Hl as Hl'. pose proof Hr as Hr'.
  apply count_int in Hl. apply count_int in Hr.
  pose proof (res_pos _ H1). pose proof (res_pos _ H2).
  unfold less, less_equal, less_lf, less_equal_lf, time_le, time_lt, comparable in *.
  destruct (Z.eqb_spec d1 d2) as [E|E].
  - exfalso. apply Hc. subst. rewrite Z.leb_refl. unfold ticks.
    rewrite Z.div_same, Z.mul_1_r by lia. auto.
  - destruct (Z.ltb_spec d2 d1).
    + destruct (Z.leb_spec d1 d2); [lia|].
      assert (Hc' : ~ (int64_min <= ticks d2 r d1 <= int64_max))
        by (intros X; apply Hc, count_int, X).
      pose proof (ticks_value d2 d1 r H2 H1 ltac:(lia)) as T.
      destruct (res_rx d2 d1 H2 H1) as (m & Hm & E' & ->); [lia|].
      pose proof (max_bound m r Hm). pose proof (min_bound m r Hm).
      assert (ET : ticks d2 r d1 = r * m) by (subst d1; nia).
      rewrite ET in *. clear T ET Hc. subst d1.
      destruct (Z.ltb_spec (Z.quot int64_max m) r).
      * assert (l * d2 < r * (m * d2)) by nia. split; split; intros; try discriminate; lia.
      * destruct (Z.ltb_spec r (Z.quot int64_min m)); [|lia].
        assert (r * (m * d2) < l * d2) by nia. split; split; intros; try discriminate; auto; lia.
    + destruct (Z.leb_spec d1 d2); [|lia].
      assert (Hc' : ~ (int64_min <= ticks d1 l d2 <= int64_max))
        by (intros X; apply Hc, count_int, X).
      pose proof (ticks_value d1 d2 l H1 H2 ltac:(lia)) as T.
      destruct (res_rx d1 d2 H1 H2) as (m & Hm & E' & ->); [lia|].
      pose proof (max_bound m l Hm). pose proof (min_bound m l Hm).
      assert (ET : ticks d1 l d2 = l * m) by (subst d2; nia).
      rewrite ET in *. clear T ET Hc. subst d2.
      destruct (Z.ltb_spec (Z.quot int64_max m) l).
      * assert (r * d1 < l * (m * d1)) by nia. cbn [negb]. split; split; intros; auto; lia.
      * destruct (Z.ltb_spec l (Z.quot int64_min m)); [|lia].
        assert (l * (m * d1) < r * d1) by nia. cbn [negb].
        split; split; intros; try discriminate; auto; lia.
Qed.

(** ** Arithmetic *)

Lemma common_res d1 d2 : resolution d1 -> resolution d2 ->
  resolution (common d1 d2) /\ d1 <= common d1 d2 /\ d2 <= common d1 d2.
Proof. unfold common. destruct (Z.leb_spec d2 d1); repeat split; auto; lia. Qed.

Lemma to_common d1 d2 l r a b : resolution d1 -> resolution d2 -> is_count l -> is_count r ->
  let D := common d1 d2 in
  convert d1 D l = Done a -> convert d2 D r = Done b ->
  time_eq d1 l D a /\ time_eq d2 r D b /\ is_count a /\ is_count b.
Proof.
  intros H1 H2 Hl Hr D Ha Hb. destruct (common_res d1 d2 H1 H2) as (HD & B1 & B2).
  apply convert_finer_spec in Ha as (Ca & Ea); auto.
  apply convert_finer_spec in Hb as (Cb & Eb); auto.
Qed.

Definition obind_done {A B} (x : outcome A) (f : A -> outcome B) r :
  obind x f = Done r -> exists a, x = Done a /\ f a = Done r.
Proof. destruct x; cbn; try discriminate. eauto. Qed.

(** Sum and difference: whenever the two converted counts and the result fit,
    the result is returned and is the exact sum. *)
Lemma add_spec d1 d2 l r c : resolution d1 -> resolution d2 -> is_count l -> is_count r ->
  add d1 d2 l r = Done c ->
  c * (d1 * d2) = (l * d2 + r * d1) * common d1 d2.
Proof.
  intros H1 H2 Hl Hr E. unfold add in E.
  apply obind_done in E as (a & Ea & E). apply obind_done in E as (b & Eb & E).
  apply checked_done in E as (-> & _).
  destruct (to_common d1 d2 l r a b H1 H2 Hl Hr Ea Eb) as (T1 & T2 & _). unfold time_eq in *.
  replace ((a + b) * (d1 * d2)) with (a * d1 * d2 + b * d2 * d1) by ring.
  rewrite <- T1, <- T2. ring.
Qed.

Lemma sub_spec d1 d2 l r c : resolution d1 -> resolution d2 -> is_count l -> is_count r ->
  sub d1 d2 l r = Done c ->
  c * (d1 * d2) = (l * d2 - r * d1) * common d1 d2.
Proof.
  intros H1 H2 Hl Hr E. unfold sub in E.
  apply obind_done in E as (a & Ea & E). apply obind_done in E as (b & Eb & E).
  apply checked_done in E as (-> & _).
  destruct (to_common d1 d2 l r a b H1 H2 Hl Hr Ea Eb) as (T1 & T2 & _). unfold time_eq in *.
  replace ((a - b) * (d1 * d2)) with (a * d1 * d2 - b * d2 * d1) by ring.
  rewrite <- T1, <- T2. ring.
Qed.

Lemma add_total d1 d2 l r : resolution d1 -> resolution d2 -> is_count l -> is_count r ->
  let D := common d1 d2 in
  is_count (ticks d1 l D) -> is_count (ticks d2 r D) ->
  (is_count (ticks d1 l D + ticks d2 r D) ->
     add d1 d2 l r = Done (ticks d1 l D + ticks d2 r D)) /\
  (is_count (ticks d1 l D - ticks d2 r D) ->
     sub d1 d2 l r = Done (ticks d1 l D - ticks d2 r D)).
Proof.
  intros H1 H2 Hl Hr D Ca Cb. destruct (common_res d1 d2 H1 H2) as (HD & B1 & B2). fold D in HD, B1, B2.
  assert (X : forall c, is_count c -> in_int64 c = true).
  { intros c Hc. apply count_int in Hc. unfold in_int64. lia. }
  unfold add, sub. fold D.
  rewrite (convert_finer d1 D l), (convert_finer d2 D r) by auto.
  rewrite !X by auto. cbn [obind]. split; apply checked_ok.
Qed.

(** Quotient and remainder. *)
Lemma divrem_spec d1 d2 l r q m : resolution d1 -> resolution d2 -> is_count l -> is_count r ->
  div_dur d1 d2 l r = Done q -> rem_dur d1 d2 l r = Done m ->
  let D := common d1 d2 in
  (* l/d1 = q * (r/d2) + m/D, with |m/D| < |r/d2| and m of the sign of l *)
  l * d2 * D = q * r * d1 * D + m * d1 * d2 /\
  Z.abs m * d2 < Z.abs r * D /\ 0 <= m * l.
Proof.
  intros H1 H2 Hl Hr Eq Em D. unfold div_dur, rem_dur in *. fold D in Eq, Em.
  apply obind_done in Eq as (a & Ea & Eq). apply obind_done in Eq as (b & Eb & Eq).
  rewrite Ea, Eb in Em. cbn [obind] in Em.
  destruct (to_common d1 d2 l r a b H1 H2 Hl Hr Ea Eb) as (T1 & T2 & _). unfold time_eq in *.
  pose proof (res_pos _ H1). pose proof (res_pos _ H2).
  assert (0 < D) by (apply res_pos, common_res; auto).
  unfold cdiv, crem in *. destruct (Z.eqb_spec b 0); [discriminate|].
  apply checked_done in Eq as (-> & _).
  destruct (in_int64 _); [|discriminate]. injection Em as <-.
  pose proof (Z.quot_rem a b ltac:(lia)) as Q.
  pose proof (Z.rem_bound_abs a b ltac:(lia)) as B.
  pose proof (Z.rem_sign_mul a b ltac:(lia)) as S.
  revert Q B S. generalize (Z.quot a b) (Z.rem a b). intros q m Q B S.
  repeat split.
  - fold D in T1, T2. replace (l * d2 * D) with (l * D * d2) by ring. rewrite T1.
    replace (q * r * d1 * D) with (q * (r * D) * d1) by ring. rewrite T2. rewrite Q. ring.
  - fold D in T1, T2. assert (E : Z.abs r * D = Z.abs b * d2).
    { rewrite <- (Z.abs_eq D), <- Z.abs_mul, T2, Z.abs_mul, (Z.abs_eq d2); lia. }
    rewrite E. apply Z.mul_lt_mono_pos_r; auto.
  - fold D in T1, T2. assert (0 <= m * l * D * d1 * 1 -> 0 <= m * l) by nia.
    apply H4. assert (m * l * D * d1 = (m * a) * (d1 * d1)).
    { replace (m * l * D * d1) with (m * (l * D) * d1) by ring. rewrite T1. ring. }
    nia.
Qed.

(** ** Splitting *)

Ltac each_resolution H :=
  let k := fresh "k" in let Hk := fresh "Hk" in
  destruct H as (k & Hk & ->);
  assert (k = 0 \/ k = 1 \/ k = 2 \/ k = 3 \/ k = 4 \/ k = 5 \/ k = 6 \/ k = 7 \/ k = 8 \/ k = 9
          \/ k = 10 \/ k = 11 \/ k = 12 \/ k = 13 \/ k = 14 \/ k = 15 \/ k = 16 \/ k = 17 \/ k = 18)
    by lia; clear Hk;
  repeat match goal with H : _ \/ _ |- _ => destruct H end; subst k.

(** One division step by a unit of [n] periods. *)
Lemma divide_int n u : 0 < n <= int64_max -> 0 <= u <= int64_max ->
  ratio_divide (UnitRatio n 1) u 1 = Done (u / n, u mod n, 1).
Proof.
  intros Hn Hu. unfold ratio_divide.
  replace (negb (0 <=? u) || negb (0 <? 1)) with false by lia.
  assert (B : 0 <= u / n <= u).
  { split; [apply Z.div_pos; lia|]. apply Z.div_le_upper_bound; nia. }
  pose proof (Z.div_mod u n ltac:(lia)) as E. pose proof (Z.mod_pos_bound u n ltac:(lia)) as M.
  rewrite !Z.mul_1_l, !Z.mul_1_r.
  rewrite (checked_ok u), (checked_ok n) by (apply count_int; unfold int64_min, int64_max in *; lia).
  cbn [obind]. unfold cdiv. replace (n =? 0) with false by lia.
  rewrite Z.quot_div_nonneg by lia.
  rewrite (checked_ok (u / n)) by (apply count_int; unfold int64_min, int64_max in *; lia).
  cbn [obind].
  rewrite (checked_ok (n * (u / n)))
    by (apply count_int; unfold int64_min, int64_max in *; lia).
  cbn [obind].
  rewrite (checked_ok (u - n * (u / n)))
    by (apply count_int; unfold int64_min, int64_max in *; lia).
  cbn [obind]. rewrite (checked_ok 1) by (apply count_int; unfold int64_min, int64_max; lia).
  cbn [obind]. replace (u - n * (u / n)) with (u mod n) by lia. reflexivity.
Qed.

(** The last step, by a unit of [1/d] period. *)
Lemma divide_frac d u : 0 < d <= 100 -> 0 <= u < 1000 ->
  ratio_divide (UnitRatio 1 d) u 1 = Done (d * u, 0, d).
Proof.
  intros Hn Hu. unfold ratio_divide.
  replace (negb (0 <=? u) || negb (0 <? 1)) with false by lia.
  assert (0 <= d * u <= 100000) by nia.
  rewrite !Z.mul_1_l, !Z.mul_1_r.
  rewrite (checked_ok (d * u)), (checked_ok 1) by (apply count_int; unfold int64_min, int64_max in *; lia).
  cbn [obind]. unfold cdiv. cbn [Z.eqb]. rewrite Z.quot_1_r.
  rewrite ?Z.mul_1_l.
  rewrite (checked_ok (d * u)) by (apply count_int; unfold int64_min, int64_max in *; lia).
  cbn [obind]. rewrite ?Z.mul_1_l.
  rewrite (checked_ok (d * u)) by (apply count_int; unfold int64_min, int64_max in *; lia).
  cbn [obind].
  rewrite (checked_ok (d * u - d * u)) by (apply count_int; unfold int64_min, int64_max in *; lia).
  cbn [obind]. rewrite (checked_ok d) by (apply count_int; unfold int64_min, int64_max; lia).
  cbn [obind]. rewrite Z.sub_diag. reflexivity.
Qed.

Definition split_good (den u : Z) : Prop :=
  exists xs, divide_all (units den) u 1 = Done (xs, 0) /\
    weighted unit_yocto xs * den = u * 10 ^ 24 /\
    Forall (fun x => 0 <= x) xs /\
    Forall2 Z.lt (tl xs) unit_limit.

Ltac split_step :=
  match goal with
  | |- context [ratio_divide (UnitRatio 1 1) ?u 1] =>
      rewrite (divide_frac 1 u) by lia; cbn [obind]
  | |- context [ratio_divide (UnitRatio ?n 1) ?u 1] =>
      rewrite (divide_int n u) by (unfold int64_max; lia); cbn [obind];
      let E := fresh in let B := fresh in let P := fresh in
      assert (P : 0 <= u / n) by (apply Z.div_pos; lia);
      pose proof (Z.div_mod u n ltac:(lia)) as E;
      pose proof (Z.mod_pos_bound u n ltac:(lia)) as B;
      revert P E B; generalize (u / n) (u mod n); intros ? ? P E B
  | |- context [ratio_divide (UnitRatio 1 ?d) ?u 1] =>
      rewrite (divide_frac d u) by lia; cbn [obind]
  | |- context [ratio_divide UnitOverflow ?u ?v] =>
      change (ratio_divide UnitOverflow u v) with (@Done (Z * Z * Z) (0, u, v)); cbn [obind]
  | |- context [ratio_divide UnitUnderflow ?u ?v] =>
      change (ratio_divide UnitUnderflow u v) with (@Done (Z * Z * Z) (0, u, v)); cbn [obind]
  end.

Lemma split_all den u : resolution den -> 0 <= u <= int64_max -> split_good den u.
Proof.
  intros Hd Hu. unfold split_good, unit_yocto. unfold int64_max in Hu.
  each_resolution Hd;
  (match goal with |- context [divide_all (units ?d) _ _] =>
     let us := eval vm_compute in (units d) in change (units d) with us end;
   cbn [divide_all]; repeat split_step;
   eexists; split; [reflexivity|]; split;
   [cbn [weighted]; change (10 ^ 24) with 1000000000000000000000000; lia|]; split;
   [repeat constructor; lia|cbn [tl]; unfold unit_limit; repeat constructor; lia]).
Qed.

Lemma split_spec den c : resolution den -> is_count c -> c <> - 2 ^ 63 ->
  exists xs, split den c = Done (c <? 0, xs, 0) /\
    weighted unit_yocto xs * den = Z.abs c * 10 ^ 24 /\
    Forall (fun x => 0 <= x) xs /\ Forall2 Z.lt (tl xs) unit_limit.
Proof.
  intros Hd Hc Hm. pose proof Hc as Hc'. apply count_int in Hc.
  change (- 2 ^ 63) with (-9223372036854775808) in Hm. unfold int64_min, int64_max in Hc.
  destruct (split_all den (Z.abs c) Hd) as (xs & E & W & F1 & F2); [unfold int64_max; lia|].
  exists xs. split; auto. unfold split. destruct (Z.ltb_spec c 0).
  - rewrite checked_ok by (apply count_int; unfold int64_min, int64_max; lia).
    cbn [obind]. rewrite Z.abs_neq in E by lia. rewrite E. reflexivity.
  - cbn [obind]. rewrite Z.abs_eq in E by lia. rewrite E. reflexivity.
Qed.

Lemma split_min den : split den (- 2 ^ 63) = UB.
Proof. reflexivity. Qed.

(** ** Time points *)

Lemma vt_res : resolution vt_den.
Proof. exists 10. split; [lia|reflexivity]. Qed.

Lemma vt_add_eq t d : is_count t -> is_count d ->
  vt_add t d = checked (t + d) /\ vt_sub t d = checked (t - d) /\ vt_sub_dur t d = checked (t - d).
Proof.
  intros Ht Hd. unfold vt_add, vt_sub, vt_sub_dur, add, sub.
  assert (E : forall c, is_count c -> convert vt_den (common vt_den vt_den) c = Done c).
  { intros c Hc. change (common vt_den vt_den) with vt_den.
    rewrite convert_finer by (auto using vt_res; lia).
    unfold ticks. rewrite Z.div_same, Z.mul_1_r by (unfold vt_den; lia).
    unfold in_int64. apply count_int in Hc. replace (_ && _) with true by lia. reflexivity. }
  rewrite !E by auto. auto.
Qed.

Lemma vt_sub_add t d u : is_count t -> is_count d -> vt_add t d = Done u -> vt_sub u t = Done d.
Proof.
  intros Ht Hd E. rewrite (proj1 (vt_add_eq t d Ht Hd)) in E. apply checked_done in E as (-> & Hu).
  destruct (vt_add_eq (t + d) t Hu Ht) as (_ & -> & _).
  replace (t + d - t) with d by lia. apply checked_ok; auto.
Qed.

Lemma vt_add_sub t u d : is_count t -> is_count u -> vt_sub u t = Done d -> vt_add t d = Done u.
Proof.
  intros Ht Hu E. destruct (vt_add_eq u t Hu Ht) as (_ & E' & _). rewrite E' in E.
  apply checked_done in E as (-> & Hd). rewrite (proj1 (vt_add_eq t _ Ht Hd)).
  replace (t + (u - t)) with u by lia. apply checked_ok; auto.
Qed.

Lemma vt_assoc t a b s r : is_count t -> is_count a -> is_count b ->
  add vt_den vt_den a b = Done s -> vt_add t s = Done r ->
  forall t1, vt_add t a = Done t1 -> vt_add t1 b = Done r.
Proof.
  intros Ht Ha Hb Es Er t1 E1. change (vt_add a b = Done s) in Es.
  rewrite (proj1 (vt_add_eq a b Ha Hb)) in Es. apply checked_done in Es as (-> & Hs).
  rewrite (proj1 (vt_add_eq t _ Ht Hs)) in Er. apply checked_done in Er as (-> & Hr).
  rewrite (proj1 (vt_add_eq t a Ht Ha)) in E1. apply checked_done in E1 as (-> & H1).
  rewrite (proj1 (vt_add_eq _ b H1 Hb)). rewrite <- Z.add_assoc. apply checked_ok; auto.
Qed.

Lemma vt_translate t u d t' u' : is_count t -> is_count u -> is_count d ->
  vt_add t d = Done t' -> vt_add u d = Done u' ->
  vt_lt t' u' = vt_lt t u /\ vt_le t' u' = vt_le t u /\ vt_eq t' u' = vt_eq t u.
Proof.
  intros Ht Hu Hd E1 E2. rewrite (proj1 (vt_add_eq t d Ht Hd)) in E1.
  rewrite (proj1 (vt_add_eq u d Hu Hd)) in E2.
  apply checked_done in E1 as (-> & _). apply checked_done in E2 as (-> & _).
  unfold vt_lt, vt_le, vt_eq, op_lt, op_le, op_eq, less, less_equal, equal.
  rewrite Z.eqb_refl. repeat split; lia.
Qed.

Lemma vt_order t u : is_count t -> is_count u ->
  (vt_lt t u = true <-> t < u) /\ (vt_le t u = true <-> t <= u) /\ (vt_eq t u = true <-> t = u).
Proof.
  intros _ _. unfold vt_lt, vt_le, vt_eq, op_lt, op_le, op_eq, less, less_equal, equal.
  rewrite Z.eqb_refl. repeat split; lia.
Qed.

Lemma quot_abs_le c n : n <> 0 -> Z.abs (Z.quot c n) <= Z.abs c /\
  (n <> 1 -> n <> -1 -> 2 * Z.abs (Z.quot c n) <= Z.abs c).
Proof.
  intros H0. rewrite <- (Z.quot_abs c n H0).
  assert (Hn : 0 < Z.abs n) by lia.
  assert (Hc : 0 <= Z.abs c) by lia.
  rewrite Z.quot_div_nonneg by lia.
  pose proof (Z.mul_div_le (Z.abs c) (Z.abs n) Hn) as M.
  pose proof (Z.div_pos (Z.abs c) (Z.abs n) Hc Hn) as P.
  split; [|intros H1 H2; assert (2 <= Z.abs n) by lia];
  revert M P; generalize (Z.abs c / Z.abs n); intros q M P; nia.
Qed.

Lemma scale_negate : forall c n, is_count c -> is_count n ->
  (is_count (c * n) -> scale c n = Done (c * n)) /\
  (c <> - 2 ^ 63 -> neg c = Done (- c)) /\
  (n <> 0 -> (c, n) <> (- 2 ^ 63, -1) -> div_count c n = Done (Z.quot c n)).
Proof.
  intros c n Hc Hn. split; [exact (checked_ok _)|]. split.
  - intros H. apply checked_ok. unfold is_count in *. lia.
  - intros H0 Hm. unfold div_count, cdiv. destruct (Z.eqb_spec n 0); [contradiction|].
    apply checked_ok. unfold is_count in *.
    destruct (quot_abs_le c n H0) as [B1 B2].
    assert (Hne : c <> - 2 ^ 63 \/ n <> -1).
    { destruct (Z.eq_dec c (- 2 ^ 63)), (Z.eq_dec n (-1)); auto. subst. contradiction. }
    destruct (Z.eq_dec n 1) as [->|H1]; [rewrite Z.quot_1_r; lia|].
    revert B1 B2. generalize (c ÷ n). intros q B1 B2. lia.
Qed.

(** Compound assignment. *)
Lemma convert_quot d1 d2 r : resolution d1 -> resolution d2 -> is_count r ->
  exists q, q = Z.quot (r * d1) d2 /\
    (convert d2 d1 r = Done q \/ (convert d2 d1 r = AssertFail /\ ~ is_count q)) /\
    Z.abs (q * d2 - r * d1) < d2 /\ (d2 <= d1 -> q * d2 = r * d1) /\ Z.abs q * d2 <= Z.abs r * d1.
Proof.
  intros H1 H2 Hr. pose proof (res_pos d1 H1) as P1. pose proof (res_pos d2 H2) as P2.
  destruct (Z.le_gt_cases d2 d1) as [L|L].
  - pose proof (ticks_value d2 d1 r H2 H1 L) as T. rewrite (convert_finer d2 d1 r H2 H1 L Hr).
    exists (ticks d2 r d1). assert (E : ticks d2 r d1 * d2 = r * d1) by lia.
    split; [rewrite <- E, Z.quot_mul by lia; reflexivity|]. split.
    + unfold in_int64, int64_min, int64_max, is_count.
      destruct ((-9223372036854775808 <=? ticks d2 r d1) && (ticks d2 r d1 <=? 9223372036854775807)) eqn:B.
      * left. reflexivity.
      * right. split; [reflexivity|]. change (2 ^ 63) with 9223372036854775808. lia.
    + rewrite E. split; [rewrite Z.sub_diag; cbn; lia|]. split; [auto|].
      apply (f_equal Z.abs) in E. rewrite !Z.abs_mul, (Z.abs_eq d1), (Z.abs_eq d2) in E by lia. lia.
  - destruct (convert_coarser d2 d1 r H2 H1) as (m & Hm & E & C); [lia|exact Hr|]. rewrite C.
    exists (Z.quot r m). split.
    + rewrite E. rewrite Z.quot_mul_cancel_r by lia. reflexivity.
    + split; [left; reflexivity|]. pose proof (Z.quot_rem r m ltac:(lia)) as Q.
      assert (A : Z.abs (Z.rem r m) < m).
      { pose proof (Z.rem_bound_abs r m ltac:(lia)) as A. rewrite (Z.abs_eq m) in A by lia. exact A. }
      set (q := Z.quot r m) in *. set (s := Z.rem r m) in *.
      assert (D : q * d2 - r * d1 = - s * d1) by (rewrite E, Q; ring). rewrite D.
      split; [rewrite Z.abs_mul, Z.abs_opp, (Z.abs_eq d1) by lia; rewrite E; nia|]. split; [lia|].
      assert (B : Z.abs q * m <= Z.abs r).
      { pose proof (Z.quot_abs r m ltac:(lia)) as K. fold q in K. rewrite (Z.abs_eq m) in K by lia.
        rewrite <- K, Z.mul_comm. apply Z.mul_quot_le; lia. }
      rewrite E. nia.
Qed.

Lemma compound_spec d1 d2 l r c : resolution d1 -> resolution d2 -> is_count l -> is_count r ->
  (add_assign d1 d2 l r = Done c ->
     Z.abs (c * d2 - (l * d2 + r * d1)) < d2 /\ (d2 <= d1 -> c * d2 = l * d2 + r * d1) /\
     Z.abs (c - l) * d2 <= Z.abs r * d1) /\
  (sub_assign d1 d2 l r = Done c ->
     Z.abs (c * d2 - (l * d2 - r * d1)) < d2 /\ (d2 <= d1 -> c * d2 = l * d2 - r * d1) /\
     Z.abs (c - l) * d2 <= Z.abs r * d1).
Proof.
  intros H1 H2 Hl Hr. destruct (convert_quot d1 d2 r H1 H2 Hr) as (q & _ & C & A & B & D).
  unfold add_assign, sub_assign. destruct C as [C|[C _]]; rewrite C; cbn [obind]; [|split; discriminate].
  unfold checked. split; intros E; destruct (in_int64 _); try discriminate; inversion E; subst c.
  - replace ((l + q) * d2 - (l * d2 + r * d1)) with (q * d2 - r * d1) by ring. split; [exact A|].
    split; [intros L; specialize (B L); lia|]. replace (l + q - l) with q by ring. exact D.
  - replace ((l - q) * d2 - (l * d2 - r * d1)) with (- (q * d2 - r * d1)) by ring. rewrite Z.abs_opp. split; [exact A|].
    split; [intros L; specialize (B L); lia|]. replace (l - q - l) with (- q) by ring. rewrite Z.abs_opp. exact D.
Qed.
Lemma compound_total d1 d2 l r : resolution d1 -> resolution d2 ->
  is_count l -> is_count r -> is_count (Z.quot (r * d1) d2) ->
  (is_count (l + Z.quot (r * d1) d2) -> add_assign d1 d2 l r = Done (l + Z.quot (r * d1) d2)) /\
  (is_count (l - Z.quot (r * d1) d2) -> sub_assign d1 d2 l r = Done (l - Z.quot (r * d1) d2)).
Proof.
  intros H1 H2 Hl Hr Hq. destruct (convert_quot d1 d2 r H1 H2 Hr) as (q & E & C & _). rewrite <- E in *.
  unfold add_assign, sub_assign. destruct C as [C|[_ C]]; [|tauto]. rewrite C. cbn [obind].
  split; intros H; apply checked_ok, H.
Qed.
