(** The theorems about tag lists. *)
From Verif Require Import Base BaseProofs TagList TagListSpec TagListProofs.

(** ** C49 *)

(** In every history, each list behaves as a number of bytes with tags on ranges of them:
    every statement acts on these contents as [spec_step] says.  A list that is added to
    another one must hold no tag without bytes; [C49_hidden_refuted] is about the others. *)
Theorem C49_contents : forall V (p : list (op V)) o w w',
  steps p init = Done w -> step o w = Done w' -> sources_whole o w ->
  table w' = spec_step o (table w).
Proof.
  intros V p o w w' H E W. destruct (step_ok o w (steps_winv p _ _ init_winv H)) as [[F _]|(w1 & D & _ & _ & _ & T)].
  - rewrite F in E. discriminate.
  - rewrite D in E. inversion E; subst. rewrite T. apply whole_exact; [apply (steps_winv p _ _ init_winv H)|exact W].
Qed.
Print Assumptions C49_contents.

(** Without that condition: tags of the added list that lost all their bytes are added as
    well, if their place is now within the buffer. *)
Theorem C49_contents_exact : forall V (p : list (op V)) o w w',
  steps p init = Done w -> step o w = Done w' ->
  table w' = spec_exact (sources o w) o (table w).
Proof.
  intros V p o w w' H E. destruct (step_ok o w (steps_winv p _ _ init_winv H)) as [[F _]|(w1 & D & _ & _ & _ & T)].
  - rewrite F in E. discriminate.
  - rewrite D in E. inversion E; subst. exact T.
Qed.
Print Assumptions C49_contents_exact.

(** The contents are what the queries of the list show: whether a byte has a tag, *)
Theorem C49_exists : forall V (p : list (op V)) w i n xs l id k,
  steps p init = Done w -> content_of w i = Some (n, xs) -> var w i = Some l ->
  exists_tag id k (w_heap w) l =
  if k <? n then Done (existsb (fun x => (x_id x =? id)%N && covers (Z.of_nat k) x) xs) else AssertFail.
Proof. intros V p w i n xs l id k H. apply exists_spec, (steps_winv p _ _ init_winv H). Qed.
Print Assumptions C49_exists.
(** the value of the earliest such tag, *)
Theorem C49_get : forall V (p : list (op V)) w i n xs l id k,
  steps p init = Done w -> content_of w i = Some (n, xs) -> var w i = Some l ->
  get_tag id k (w_heap w) l =
  if k <? n then
    match find (fun x => (x_id x =? id)%N && covers (Z.of_nat k) x) xs with
    | Some x => Done (x_val x)
    | None => Throw TagNotFound
    end
  else AssertFail.
Proof. intros V p w i n xs l id k H. apply get_spec, (steps_winv p _ _ init_winv H). Qed.
Print Assumptions C49_get.
(** the number of tags, and the distance of [GetBufferStart] and [GetBufferEnd]. *)
Theorem C49_count : forall V (p : list (op V)) w i n xs l,
  steps p init = Done w -> content_of w i = Some (n, xs) -> var w i = Some l ->
  num_tags (w_heap w) l = Done (length xs) /\ Z.of_nat n = (tl_end l - tl_start l)%Z.
Proof.
  intros V p w i n xs l H C E. pose proof (steps_winv p _ _ init_winv H) as I.
  split; [eapply count_spec|eapply size_spec]; eassumption.
Qed.
Print Assumptions C49_count.
(** Every variable that exists has contents. *)
Theorem C49_defined : forall V (p : list (op V)) w i l,
  steps p init = Done w -> var w i = Some l -> exists c, content_of w i = Some c.
Proof.
  intros V p w i l H E. rewrite (content_of_cont w i (steps_winv p _ _ init_winv H)), E. eexists. reflexivity.
Qed.
Print Assumptions C49_defined.

(** The tags of a buffer that is not empty are those with a tagged byte in it. *)
Theorem C49_tags_have_bytes : forall V (p : list (op V)) w i n xs x,
  steps p init = Done w -> content_of w i = Some (n, xs) -> 0 < n -> In x xs ->
  exists k, k < n /\ covers (Z.of_nat k) x = true.
Proof.
  intros V p w i n xs x H C Hn Hx. destruct (listed w i n xs x (steps_winv p _ _ init_winv H) C Hx) as [P T].
  apply touches_spec; assumption.
Qed.
Print Assumptions C49_tags_have_bytes.
Theorem C49_touches : forall V n (x : tag_index V), 0 < n -> (x_start x < x_end x)%Z ->
  touches n x = true <-> exists k, k < n /\ covers (Z.of_nat k) x = true.
Proof. intros V n x. apply touches_spec. Qed.
Print Assumptions C49_touches.

(** What a program shows in the end, for the examples. *)
Definition show (r : outcome (world nat)) :=
  match r with Done w => table w | _ => [] end.
Definition tg (id : N) (v : nat) (s e : Z) : tag_index nat := mk_idx id v s e.

Example C49_contents_ex :
  show (steps [NewCap 2 8; Insert 0 5 50 2 3; Insert 0 6 60 0 8; Copy 0; RemStart 1 4; RemEnd 0 4;
               AddStart 0 2; AddEndList 0 1; Insert 1 7 70 3 1] init)
  = [Some (10, [tg 5 50 4 7; tg 6 60 2 10]); Some (4, [tg 5 50 (-2) 1; tg 6 60 (-4) 4; tg 7 70 3 4])].
Proof. vm_compute. reflexivity. Qed.
Example C49_contents_exact_ex :
  show (steps [NewCap 2 4; NewCap 2 4; Insert 1 5 50 0 2; Insert 1 6 60 3 1; RemStart 1 2; AddEndList 0 1] init)
  = [Some (6, [tg 5 50 2 4; tg 6 60 5 6]); Some (2, [tg 6 60 1 2])].
Proof. vm_compute. reflexivity. Qed.
Example C49_queries_ex :
  match steps [NewCap 2 8; Insert 0 5 50 2 3; Insert 0 6 60 0 8; RemStart 0 4] init with
  | Done w => match var w 0 with
              | Some l => (exists_tag 5 0 (w_heap w) l, exists_tag 5 1 (w_heap w) l, get_tag 6 3 (w_heap w) l,
                           get_tag 5 3 (w_heap w) l, num_tags (w_heap w) l, exists_tag 6 4 (w_heap w) l)
              | None => (UB, UB, UB, UB, UB, UB)
              end
  | _ => (UB, UB, UB, UB, UB, UB)
  end = (Done true, Done false, Done 60, Throw TagNotFound, Done 2, AssertFail).
Proof. vm_compute. reflexivity. Qed.

(** A list with tags that lost all their bytes gives them back when it is added to another
    list: bytes that never had the tag are reported to have it. *)
Theorem C49_hidden_refuted : exists (p : list (op nat)) o w w' l,
  steps p init = Done w /\ step o w = Done w' /\ o = AddEndList 0 1 /\
  content_of w 0 = Some (4, []) /\ content_of w 1 = Some (2, []) /\
  var w' 0 = Some l /\ exists_tag 5 3 (w_heap w') l = Done true.
Proof.
  exists [NewCap 2 4; NewCap 2 4; Insert 1 5 50 0 2; RemStart 1 2], (AddEndList 0 1). eexists _, _, _.
  split; [vm_compute; reflexivity|]. split; [vm_compute; reflexivity|]. split; [reflexivity|].
  split; [vm_compute; reflexivity|]. split; [vm_compute; reflexivity|]. split; [vm_compute; reflexivity|].
  vm_compute. reflexivity.
Qed.
Print Assumptions C49_hidden_refuted.
(** A tag with a byte left grows over bytes that are added where it was cut off. *)
Theorem C49_regrow_refuted : exists (p : list (op nat)) w l,
  steps p init = Done w /\ p = [NewCap 2 4; Insert 0 5 50 0 4; RemEnd 0 2; AddEnd 0 2] /\
  var w 0 = Some l /\ exists_tag 5 3 (w_heap w) l = Done true.
Proof.
  exists [NewCap 2 4; Insert 0 5 50 0 4; RemEnd 0 2; AddEnd 0 2]. eexists _, _. split; [vm_compute; reflexivity|].
  split; [reflexivity|]. split; [vm_compute; reflexivity|]. vm_compute. reflexivity.
Qed.
Print Assumptions C49_regrow_refuted.
(** A buffer without bytes may report a tag. *)
Theorem C49_empty_refuted : exists (p : list (op nat)) w l,
  steps p init = Done w /\ var w 0 = Some l /\ content_of w 0 <> None /\
  tl_end l = tl_start l /\ num_tags (w_heap w) l = Done 1.
Proof.
  exists [NewCap 2 4; Insert 0 5 50 0 4; RemEnd 0 2; RemStart 0 2]. eexists _, _. split; [vm_compute; reflexivity|].
  split; [vm_compute; reflexivity|]. split; [vm_compute; discriminate|]. split; vm_compute; reflexivity.
Qed.
Print Assumptions C49_empty_refuted.
(** Adding a list drops a tag if there is one with its id and range and another value. *)
Theorem C49_value_refuted : exists (p : list (op nat)) w,
  steps p init = Done w /\
  p = [NewCap 2 4; Insert 0 5 50 0 4; NewCap 2 4; Insert 1 5 51 0 4; RemEnd 0 2; RemStart 1 2; AddEndList 0 1] /\
  content_of w 1 = Some (2, [tg 5 51 (-2) 2]) /\ content_of w 0 = Some (4, [tg 5 50 0 4]).
Proof.
  exists [NewCap 2 4; Insert 0 5 50 0 4; NewCap 2 4; Insert 1 5 51 0 4; RemEnd 0 2; RemStart 1 2; AddEndList 0 1].
  eexists. split; [vm_compute; reflexivity|]. split; [reflexivity|]. split; vm_compute; reflexivity.
Qed.
Print Assumptions C49_value_refuted.

(** ** C50 *)

(** No statement changes what a list shows that it does not name as its target,
    whichever arrays the lists share. *)
Theorem C50_independent : forall V (p : list (op V)) o w w' k,
  steps p init = Done w -> step o w = Done w' -> k < length (w_lists w) -> ~ target o k ->
  content_of w' k = content_of w k.
Proof.
  intros V p o w w' k H E B T. pose proof (steps_winv p _ _ init_winv H) as I.
  destruct (step_ok o w I) as [[F _]|(w1 & D & _ & I1 & K & _)]; [rewrite F in E; discriminate|].
  rewrite D in E. inversion E; subst. rewrite !full_content, K by assumption. reflexivity.
Qed.
Print Assumptions C50_independent.
Example C50_independent_ex :
  show (steps [NewCap 2 4; Insert 0 5 50 0 1; Copy 0; Copy 1; Insert 0 6 60 1 1; Insert 1 7 70 2 1;
               Insert 0 8 80 3 1; RemStart 2 1; AddEnd 1 1; Insert 2 9 90 0 1] init)
  = [Some (4, [tg 5 50 0 1; tg 6 60 1 2; tg 8 80 3 4]); Some (5, [tg 5 50 0 1; tg 7 70 2 3]);
     Some (3, [tg 9 90 0 1])].
Proof. vm_compute. reflexivity. Qed.

(** An array of tags is allocated exactly as long as a list uses it, and its reference
    count is the number of these lists. *)
Theorem C50_count_exact : forall V (p : list (op V)) w a, steps p init = Done w ->
  (0 < users w a -> allocated w a (users w a)) /\ (users w a = 0 -> forall n, ~ allocated w a n).
Proof. intros V p w a H. apply count_exact, (steps_winv p _ _ init_winv H). Qed.
Print Assumptions C50_count_exact.
Example C50_count_exact_ex :
  match steps [NewCap 2 4; Insert 0 5 50 0 1; Copy 0; Copy 1; New; Assign 3 1; Insert 0 6 60 1 1; Insert 1 7 70 2 1; Destroy 2] init with
  | Done w => (map (users w) [0; 1], map (fun t => match t with Some t => ta_rc t | None => 0 end) (w_heap w : list (option (tia nat))))
  | _ => ([], []) end = ([2; 1], [2; 1]).
Proof. vm_compute. reflexivity. Qed.

(** ** C51 *)

(** [Insert] succeeds exactly for a range of one or more bytes of the buffer; it adds this
    tag and keeps all others, whatever arrays are full, shared or hold tags without bytes. *)
Theorem C51_insert : forall V (p : list (op V)) w i n xs id v s k,
  steps p init = Done w -> content_of w i = Some (n, xs) ->
  if (0 <? k) && (s + k <=? n)
  then exists w', step (Insert i id v s k) w = Done w' /\
         content_of w' i = Some (n, xs ++ [mk_idx id v (Z.of_nat s) (Z.of_nat (s + k))])
  else step (Insert i id v s k) w = AssertFail.
Proof.
  intros V p w i n xs id v s k H C. pose proof (steps_winv p _ _ init_winv H) as I.
  assert (Ci : con (table w) i = Some (n, xs)) by (rewrite con_table, <- content_of_cont by exact I; exact C).
  destruct (step_ok (Insert i id v s k) w I) as [[F [[]|B]]|(w1 & D & B & I1 & _ & T)]; cbn [bad_args] in B; rewrite Ci in B.
  - destruct (Nat.ltb_spec 0 k), (Nat.leb_spec (s + k) n), (Nat.ltb_spec n (s + k)), (Nat.eqb_spec k 0); try lia; cbn in *; auto; discriminate.
  - destruct (Nat.ltb_spec 0 k), (Nat.leb_spec (s + k) n), (Nat.ltb_spec n (s + k)), (Nat.eqb_spec k 0); try lia; cbn in *; try discriminate.
    exists w1. split; [exact D|]. rewrite content_of_cont, <- con_table by exact I1. rewrite T.
    cbn [spec_exact sources spec_step]. rewrite Ci. unfold con in *. destruct (nth_error (table w) i) eqn:N; [|discriminate].
    rewrite nth_upd_eq by (apply nth_lt in N; exact N). reflexivity.
Qed.
Print Assumptions C51_insert.
Example C51_insert_ex :
  show (steps [NewCap 1 4; Insert 0 1 10 0 1; Insert 0 2 20 1 2; Insert 0 3 30 0 4; RemStart 0 1; Copy 0;
               Insert 0 4 40 0 1; Insert 0 5 50 1 1; Insert 0 6 60 2 1] init)
  = [Some (3, [tg 2 20 0 2; tg 3 30 (-1) 3; tg 4 40 0 1; tg 5 50 1 2; tg 6 60 2 3]);
     Some (3, [tg 2 20 0 2; tg 3 30 (-1) 3])].
Proof. vm_compute. reflexivity. Qed.

(** A statement fails only for arguments outside their range, or at the ends of the space
    of [size_t] coordinates. *)
Theorem C51_outcome : forall V (p : list (op V)) o w, steps p init = Done w ->
  (exists w', step o w = Done w' /\ bad_args o (table w) = false) \/
  (step o w = AssertFail /\ (bad_args o (table w) = true \/ grows o)).
Proof.
  intros V p o w H. destruct (step_ok o w (steps_winv p _ _ init_winv H)) as [[F B]|(w1 & D & B & _)].
  - right. tauto.
  - left. eauto.
Qed.
Print Assumptions C51_outcome.
(** No history accesses an array that is not allocated, or an element outside one. *)
Theorem C51_no_dangling_access : forall V (p : list (op V)),
  (exists w, steps p init = Done w) \/ steps p init = AssertFail.
Proof. intros V p. apply steps_outcome, init_winv. Qed.
Print Assumptions C51_no_dangling_access.
