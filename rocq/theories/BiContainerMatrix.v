(** Lists of rows and their storage orders: lemmas on lists only. *)
From Coq Require Import ZifyBool ZifyNat ZifyN.
From Verif Require Import Base BaseProofs BiContainer BiContainerSpec.

Section Matrix.
Variable V : Type.
Implicit Types m : list (list V).
Implicit Types v : V.

(** [r] rows of [c] elements. *)
Definition wfm (r c : nat) m : Prop := length m = r /\ Forall (fun row => length row = c) m.

Lemma wfm_row r c m i : wfm r c m -> i < r -> exists row, nth_error m i = Some row /\ length row = c.
Proof.
  intros [L F] H. destruct (nth_error m i) as [row|] eqn:E.
  - exists row. split; [reflexivity|]. rewrite Forall_forall in F. apply F. eapply nth_error_In, E.
  - apply nth_error_None in E. lia.
Qed.

Lemma wfm_cell r c m i j : wfm r c m -> i < r -> j < c -> exists v, get_cell m i j = Some v.
Proof.
  intros W Hi Hj. destruct (wfm_row r c m i W Hi) as (row & E & L). unfold get_cell. rewrite E.
  destruct (nth_error row j) eqn:F; [eauto|]. apply nth_error_None in F. lia.
Qed.

Lemma get_cell_none r c m i j : wfm r c m -> ~ (i < r /\ j < c) -> get_cell m i j = None.
Proof.
  intros W N. unfold get_cell. destruct (nth_error m i) as [row|] eqn:E; [|reflexivity].
  assert (Hi : i < r) by (destruct W as [L _]; apply nth_lt in E; lia).
  destruct (wfm_row r c m i W Hi) as (row' & E' & L). rewrite E in E'. injection E' as <-.
  apply nth_error_None. lia.
Qed.

Lemma wfm_ext r c (m m' : list (list V)) : wfm r c m -> wfm r c m' ->
  (forall i j, i < r -> j < c -> get_cell m i j = get_cell m' i j) -> m = m'.
Proof.
  intros W W' H. apply list_ext. intros i.
  destruct (Nat.lt_ge_cases i r) as [Hi|Hi].
  - destruct (wfm_row r c m i W Hi) as (row & E & L). destruct (wfm_row r c m' i W' Hi) as (row' & E' & L').
    rewrite E, E'. f_equal. apply list_ext. intros j. destruct (Nat.lt_ge_cases j c) as [Hj|Hj].
    + specialize (H i j Hi Hj). unfold get_cell in H. rewrite E, E' in H. exact H.
    + transitivity (@None V); [apply nth_error_None; lia | symmetry; apply nth_error_None; lia].
  - destruct W as [L _], W' as [L' _].
    transitivity (@None (list V)); [apply nth_error_None; lia | symmetry; apply nth_error_None; lia].
Qed.

Lemma wfm_repeat r c v : wfm r c (repeat (repeat v c) r).
Proof.
  split; [apply repeat_length|]. apply Forall_forall. intros row H. apply repeat_spec in H. subst.
  apply repeat_length.
Qed.

Lemma get_repeat r c v i j : i < r -> j < c -> get_cell (repeat (repeat v c) r) i j = Some v.
Proof.
  intros Hi Hj. unfold get_cell. rewrite nth_error_repeat by lia. apply nth_error_repeat. lia.
Qed.

Lemma wfm_set r c m i j v : wfm r c m -> wfm r c (set_cell m i j v).
Proof.
  intros [L F]. unfold set_cell. destruct (nth_error m i) as [row|] eqn:E; [|split; assumption].
  split; [rewrite upd_length; exact L|]. apply Forall_forall. intros x H. apply In_nth_error in H.
  destruct H as [k H]. apply upd_inv in H. rewrite Forall_forall in F. destruct H as [(-> & ->)|[_ H]].
  - rewrite upd_length. apply F. eapply nth_error_In, E.
  - apply F. eapply nth_error_In, H.
Qed.

Lemma get_set r c m i j v i' j' : wfm r c m -> i < r -> j < c ->
  get_cell (set_cell m i j v) i' j' =
  if (i =? i')%nat && (j =? j')%nat then Some v else get_cell m i' j'.
Proof.
  intros W Hi Hj. destruct (wfm_row r c m i W Hi) as (row & E & L). unfold set_cell. rewrite E.
  unfold get_cell. rewrite nth_upd. destruct W as [LM _].
  destruct (Nat.eqb_spec i i') as [<-|N]; cbn [andb].
  - destruct (Nat.ltb_spec i (length m)); [|lia]. rewrite nth_upd.
    destruct (Nat.eqb_spec j j') as [<-|]; cbn [andb].
    + destruct (Nat.ltb_spec j (length row)); [reflexivity|lia].
    + rewrite E. reflexivity.
  - reflexivity.
Qed.

Lemma wfm_fill1 r c m i v : wfm r c m -> wfm r c (upd m i (repeat v c)).
Proof.
  intros [L F]. split; [rewrite upd_length; exact L|]. apply Forall_forall. intros x H.
  apply In_nth_error in H. destruct H as [k H]. apply upd_inv in H. rewrite Forall_forall in F.
  destruct H as [(-> & ->)|[_ H]]; [apply repeat_length|]. apply F. eapply nth_error_In, H.
Qed.

Lemma get_fill1 r c m i v i' j' : wfm r c m -> i < r ->
  get_cell (upd m i (repeat v c)) i' j' =
  if (i =? i')%nat then (if (j' <? c)%nat then Some v else None) else get_cell m i' j'.
Proof.
  intros [L F] Hi. unfold get_cell. rewrite nth_upd.
  destruct (Nat.eqb_spec i i') as [<-|N]; cbn [andb]; [|reflexivity].
  destruct (Nat.ltb_spec i (length m)); [|lia].
  destruct (Nat.ltb_spec j' c).
  - apply nth_error_repeat. lia.
  - apply nth_error_None. rewrite repeat_length. lia.
Qed.

Lemma wfm_map r c m (f : list V -> list V) : wfm r c m -> (forall row, length (f row) = length row) ->
  wfm r c (map f m).
Proof.
  intros [L F] H. split; [rewrite map_length; exact L|]. rewrite Forall_forall in *. intros x I.
  apply in_map_iff in I. destruct I as (row & <- & I). rewrite H. apply F, I.
Qed.

Lemma get_map m (f : list V -> list V) i j :
  get_cell (map f m) i j = match nth_error m i with Some row => nth_error (f row) j | None => None end.
Proof.
  unfold get_cell. rewrite nth_error_map. destruct (nth_error m i); reflexivity.
Qed.

Lemma get_fill2 r c m j v i' j' : wfm r c m -> j < c ->
  get_cell (map (fun row => upd row j v) m) i' j' =
  if (j =? j')%nat then (if (i' <? r)%nat then Some v else None) else get_cell m i' j'.
Proof.
  intros W Hj. rewrite get_map. unfold get_cell.
  destruct (Nat.ltb_spec i' r) as [Hi|Hi].
  - destruct (wfm_row r c m i' W Hi) as (row & E & L). rewrite E, nth_upd.
    destruct (Nat.eqb_spec j j'); cbn [andb]; [|reflexivity].
    destruct (Nat.ltb_spec j' (length row)); [reflexivity|lia].
  - assert (E : nth_error m i' = None) by (apply nth_error_None; destruct W; lia). rewrite E.
    destruct (j =? j')%nat; reflexivity.
Qed.

Lemma get_fill m v i j : get_cell (map (map (fun _ => v)) m) i j =
  match get_cell m i j with Some _ => Some v | None => None end.
Proof.
  rewrite get_map. unfold get_cell. destruct (nth_error m i); [|reflexivity].
  rewrite nth_error_map. destruct (nth_error l j); reflexivity.
Qed.

Lemma column_length r c m j : wfm r c m -> j < c -> length (column j m) = r.
Proof.
  intros [L F] Hj. subst r. induction m as [|row m IH]; [reflexivity|]. cbn [column length].
  inversion F; subst. destruct (nth_error row j) eqn:E; [|apply nth_error_None in E; lia].
  cbn [length]. f_equal. apply IH. assumption.
Qed.

Lemma column_nth r c m j i : wfm r c m -> j < c -> nth_error (column j m) i = get_cell m i j.
Proof.
  intros [L F] Hj. subst r. revert i. induction m as [|row m IH]; intros i.
  - unfold get_cell. destruct i; reflexivity.
  - cbn [column]. inversion F; subst. destruct (nth_error row j) eqn:E; [|apply nth_error_None in E; lia].
    unfold get_cell. destruct i as [|i]; cbn [nth_error]; [symmetry; exact E|]. apply IH. assumption.
Qed.

Lemma concat_length c (ls : list (list V)) : Forall (fun l => length l = c) ls ->
  length (concat ls) = length ls * c.
Proof.
  induction ls as [|l ls IH]; intros F; [reflexivity|]. inversion F; subst. cbn [concat length].
  rewrite app_length, IH by assumption. lia.
Qed.

Lemma concat_nth c (ls : list (list V)) a b : Forall (fun l => length l = c) ls -> b < c ->
  nth_error (concat ls) (a * c + b) = match nth_error ls a with Some l => nth_error l b | None => None end.
Proof.
  revert a. induction ls as [|l ls IH]; intros a F Hb.
  - cbn [concat]. destruct a; cbn [nth_error]; apply nth_error_None; cbn [length]; lia.
  - inversion F; subst. cbn [concat]. destruct a as [|a].
    + cbn [nth_error Nat.mul Nat.add]. apply nth_error_app1. lia.
    + cbn [nth_error]. rewrite nth_error_app2 by lia. rewrite <- IH by assumption. f_equal. lia.
Qed.

(** Position of cell [(i, j)] in storage order. *)
Definition pos (L : layout) (r c i j : nat) : nat :=
  match L with RowMajor => i * c + j | ColumnMajor => j * r + i end.

Lemma columns_wf r c m : wfm r c m ->
  Forall (fun l => length l = r) (map (fun j => column j m) (seq 0 c)).
Proof.
  intros W. apply Forall_forall. intros l H. apply in_map_iff in H. destruct H as (j & <- & H).
  apply in_seq in H. apply (column_length r c); [exact W|lia].
Qed.

Lemma storage_length L r c m : wfm r (N.to_nat c) m -> length (storage L c m) = r * N.to_nat c.
Proof.
  intros W. destruct L; cbn [storage].
  - rewrite (concat_length (N.to_nat c)); [|apply W]. destruct W as [-> _]. reflexivity.
  - rewrite (concat_length r); [|apply columns_wf; exact W]. rewrite map_length, seq_length. lia.
Qed.

Lemma storage_nth L r c m i j : wfm r (N.to_nat c) m -> i < r -> j < N.to_nat c ->
  nth_error (storage L c m) (pos L r (N.to_nat c) i j) = get_cell m i j.
Proof.
  intros W Hi Hj. destruct L; cbn [storage pos].
  - rewrite concat_nth; [reflexivity | apply W | exact Hj].
  - rewrite concat_nth; [|apply columns_wf; exact W | exact Hi].
    rewrite nth_error_map. rewrite (nth_error_nth' _ 0) by (rewrite seq_length; lia).
    cbn [option_map]. rewrite seq_nth by lia. cbn [Nat.add]. apply (column_nth r (N.to_nat c)); assumption.
Qed.

Lemma pos_lt L r c i j : i < r -> j < c -> pos L r c i j < r * c.
Proof. destruct L; cbn [pos]; nia. Qed.

Lemma pos_inj L r c i j i' j' : i < r -> j < c -> i' < r -> j' < c ->
  pos L r c i j = pos L r c i' j' -> i = i' /\ j = j'.
Proof.
  destruct L; cbn [pos]; intros.
  - assert (i = i') by nia. nia.
  - assert (j = j') by nia. nia.
Qed.

(** Every position is the position of a cell. *)
Lemma pos_surj L r c k : k < r * c -> exists i j, i < r /\ j < c /\ k = pos L r c i j.
Proof.
  intros H. destruct L; cbn [pos].
  - exists (k / c), (k mod c). assert (c <> 0) by nia. pose proof (Nat.mod_upper_bound k c ltac:(lia)).
    pose proof (Nat.div_mod k c ltac:(lia)). split; [|split; nia].
    apply Nat.div_lt_upper_bound; nia.
  - exists (k mod r), (k / r). assert (r <> 0) by nia. pose proof (Nat.mod_upper_bound k r ltac:(lia)).
    pose proof (Nat.div_mod k r ltac:(lia)). split; [assumption|split; [|nia]].
    apply Nat.div_lt_upper_bound; nia.
Qed.

(** Two storages that agree cell by cell are equal. *)
Lemma storage_ext L r c m (l : list V) : wfm r (N.to_nat c) m -> length l = r * N.to_nat c ->
  (forall i j, i < r -> j < N.to_nat c -> nth_error l (pos L r (N.to_nat c) i j) = get_cell m i j) ->
  l = storage L c m.
Proof.
  intros W LL H. apply list_ext. intros k. destruct (Nat.lt_ge_cases k (r * N.to_nat c)) as [Hk|Hk].
  - destruct (pos_surj L r (N.to_nat c) k Hk) as (i & j & Hi & Hj & ->).
    rewrite H, (storage_nth L r c m) by assumption. reflexivity.
  - transitivity (@None V); [apply nth_error_None; lia|].
    symmetry. apply nth_error_None. rewrite (storage_length L r c m W). exact Hk.
Qed.

Lemma storage_set L r c m i j v : wfm r (N.to_nat c) m -> i < r -> j < N.to_nat c ->
  storage L c (set_cell m i j v) = upd (storage L c m) (pos L r (N.to_nat c) i j) v.
Proof.
  intros W Hi Hj. symmetry. apply (storage_ext L r); [apply wfm_set, W | |].
  - rewrite upd_length. apply storage_length, W.
  - intros i' j' Hi' Hj'. rewrite nth_upd, (get_set r (N.to_nat c)) by assumption.
    rewrite (storage_length L r c m W), (storage_nth L r c m) by assumption.
    destruct (Nat.eqb_spec i i'), (Nat.eqb_spec j j'); subst; cbn [andb].
    + rewrite Nat.eqb_refl. pose proof (pos_lt L r (N.to_nat c) i' j' Hi' Hj').
      destruct (Nat.ltb_spec (pos L r (N.to_nat c) i' j') (r * N.to_nat c)); [reflexivity|lia].
    + destruct (Nat.eqb_spec (pos L r (N.to_nat c) i' j) (pos L r (N.to_nat c) i' j')) as [E|]; [|reflexivity].
      apply pos_inj in E; tauto.
    + destruct (Nat.eqb_spec (pos L r (N.to_nat c) i j') (pos L r (N.to_nat c) i' j')) as [E|]; [|reflexivity].
      apply pos_inj in E; tauto.
    + destruct (Nat.eqb_spec (pos L r (N.to_nat c) i j) (pos L r (N.to_nat c) i' j')) as [E|]; [|reflexivity].
      apply pos_inj in E; tauto.
Qed.

Lemma storage_repeat L r c v :
  storage L (N.of_nat c) (repeat (repeat v c) r) = repeat v (r * c).
Proof.
  symmetry. apply (storage_ext L r).
  - rewrite Nat2N.id. apply wfm_repeat.
  - rewrite Nat2N.id. apply repeat_length.
  - rewrite Nat2N.id. intros i j Hi Hj. rewrite nth_error_repeat by (apply pos_lt; assumption).
    symmetry. apply get_repeat; assumption.
Qed.

(** The pure counterpart of the fill loops. *)
Fixpoint fillp (l : list V) (off stride n : nat) (v : V) : list V :=
  match n with
  | O => l
  | S k => fillp (upd l off v) (off + stride) stride k v
  end.

Lemma fillp_length l off stride n v : length (fillp l off stride n v) = length l.
Proof.
  revert l off. induction n as [|n IH]; intros; [reflexivity|]. cbn [fillp]. rewrite IH. apply upd_length.
Qed.

Lemma fillp_nth_out l off stride n v k : (forall t, t < n -> k <> off + t * stride) ->
  nth_error (fillp l off stride n v) k = nth_error l k.
Proof.
  revert l off. induction n as [|n IH]; intros l off H; [reflexivity|]. cbn [fillp]. rewrite IH.
  - apply nth_upd_neq. specialize (H 0 ltac:(lia)). lia.
  - intros t Ht. specialize (H (S t) ltac:(lia)). lia.
Qed.

Lemma fillp_nth_in l off stride n v t : t < n -> off + t * stride < length l ->
  nth_error (fillp l off stride n v) (off + t * stride) = Some v.
Proof.
  revert l off t. induction n as [|n IH]; intros l off t Ht Hl; [lia|]. cbn [fillp].
  destruct t as [|t].
  - rewrite Nat.add_0_r in *.
    destruct (Nat.eq_dec stride 0) as [->|NZ].
    + destruct n as [|n]; [cbn [fillp]; apply nth_upd_eq; lia|].
      specialize (IH (upd l off v) (off + 0) 0 ltac:(lia)). rewrite upd_length in IH.
      replace (off + 0 + 0 * 0) with off in IH by lia. apply IH. lia.
    + rewrite fillp_nth_out; [apply nth_upd_eq; lia|]. intros u _. lia.
  - replace (off + S t * stride) with (off + stride + t * stride) by lia.
    apply IH; [lia|]. rewrite upd_length. lia.
Qed.

Lemma storage_fill1 L r c m i v : wfm r (N.to_nat c) m -> i < r ->
  storage L c (upd m i (repeat v (N.to_nat c))) =
  match L with
  | RowMajor => fillp (storage L c m) (i * N.to_nat c) 1 (N.to_nat c) v
  | ColumnMajor => fillp (storage L c m) i r (N.to_nat c) v
  end.
Proof.
  intros W Hi. symmetry. apply (storage_ext L r); [apply wfm_fill1, W | |].
  - destruct L; rewrite fillp_length; apply storage_length, W.
  - intros i' j' Hi' Hj'. rewrite (get_fill1 r) by assumption.
    destruct (Nat.ltb_spec j' (N.to_nat c)); [|lia].
    pose proof (storage_length L r c m W) as SL. pose proof (pos_lt L r (N.to_nat c) i' j' Hi' Hj') as PL.
    destruct (Nat.eqb_spec i i') as [<-|N].
    + destruct L; cbn [pos] in *.
      * replace (i * N.to_nat c + j') with (i * N.to_nat c + j' * 1) by lia.
        apply fillp_nth_in; [exact Hj' | rewrite SL; lia].
      * rewrite Nat.add_comm. apply fillp_nth_in; [exact Hj' | rewrite SL; lia].
    + destruct L; rewrite fillp_nth_out; try (apply storage_nth; assumption); intros t Ht E; apply N.
      * apply (pos_inj RowMajor r (N.to_nat c) i t i' j'); cbn [pos] in *; lia.
      * apply (pos_inj ColumnMajor r (N.to_nat c) i t i' j'); cbn [pos] in *; lia.
Qed.

Lemma storage_fill2 L r c m j v : wfm r (N.to_nat c) m -> j < N.to_nat c ->
  storage L c (map (fun row => upd row j v) m) =
  match L with
  | RowMajor => fillp (storage L c m) j (N.to_nat c) r v
  | ColumnMajor => fillp (storage L c m) (j * r) 1 r v
  end.
Proof.
  intros W Hj. symmetry. apply (storage_ext L r).
  - apply wfm_map; [exact W|]. intros. apply upd_length.
  - destruct L; rewrite fillp_length; apply storage_length, W.
  - intros i' j' Hi' Hj'. rewrite (get_fill2 r (N.to_nat c)) by assumption.
    destruct (Nat.ltb_spec i' r); [|lia].
    pose proof (storage_length L r c m W) as SL. pose proof (pos_lt L r (N.to_nat c) i' j' Hi' Hj') as PL.
    destruct (Nat.eqb_spec j j') as [<-|N].
    + destruct L; cbn [pos] in *.
      * rewrite Nat.add_comm. apply fillp_nth_in; [exact Hi' | rewrite SL; lia].
      * replace (j * r + i') with (j * r + i' * 1) by lia.
        apply fillp_nth_in; [exact Hi' | rewrite SL; lia].
    + destruct L; rewrite fillp_nth_out; try (apply storage_nth; assumption); intros t Ht E; apply N.
      * apply (pos_inj RowMajor r (N.to_nat c) t j i' j'); cbn [pos] in *; lia.
      * apply (pos_inj ColumnMajor r (N.to_nat c) t j i' j'); cbn [pos] in *; lia.
Qed.

Lemma fillp_all l v : fillp l 0 1 (length l) v = repeat v (length l).
Proof.
  apply list_ext. intros k. destruct (Nat.lt_ge_cases k (length l)) as [H|H].
  - replace k with (0 + k * 1) at 1 by lia. rewrite fillp_nth_in by lia. symmetry. apply nth_error_repeat, H.
  - transitivity (@None V); [apply nth_error_None; rewrite fillp_length; exact H|].
    symmetry. apply nth_error_None. rewrite repeat_length. exact H.
Qed.

Lemma storage_fill L r c m v : wfm r (N.to_nat c) m ->
  storage L c (map (map (fun _ => v)) m) = repeat v (length (storage L c m)).
Proof.
  intros W. symmetry. apply (storage_ext L r).
  - apply wfm_map; [exact W|]. intros. apply map_length.
  - rewrite repeat_length. apply storage_length, W.
  - intros i j Hi Hj. rewrite get_fill. destruct (wfm_cell r (N.to_nat c) m i j W Hi Hj) as [x ->].
    apply nth_error_repeat. rewrite (storage_length L r c m W). apply pos_lt; assumption.
Qed.

(** The [n]-th element in storage order is the cell named by [cell_of]. *)
Lemma cell_pos L r c n : (n < r * c)%N ->
  let '(i, j) := cell_of L r c n in
  i < N.to_nat r /\ j < N.to_nat c /\ N.to_nat n = pos L (N.to_nat r) (N.to_nat c) i j.
Proof.
  intros H. destruct L; cbn [cell_of pos].
  - assert (c <> 0)%N by nia. pose proof (N.mod_lt n c ltac:(lia)). pose proof (N.div_mod n c ltac:(lia)).
    assert (n / c < r)%N by (apply N.div_lt_upper_bound; lia). nia.
  - assert (r <> 0)%N by nia. pose proof (N.mod_lt n r ltac:(lia)). pose proof (N.div_mod n r ltac:(lia)).
    assert (n / r < c)%N by (apply N.div_lt_upper_bound; lia). nia.
Qed.

End Matrix.
