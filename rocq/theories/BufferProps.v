(** Properties of resizable buffers: C41, C42, C45.

    A program is a list of statements over buffer variables ([op]); [steps junk l init]
    runs it, [junk] being the contents of freshly allocated memory.  [bytes_of w i] is what
    [CopyTo] gives for variable [i], [table w] lists that for all variables. *)
From Verif Require Import Base Buffer BufferSpec BufferProofs.

Definition j0 : nat -> nat -> N := fun _ _ => 170%N.
Definition view (r : outcome world) : option strings :=
  match r with Done w => Some (table w) | _ => None end.

(** ** C41 *)

(** After any history, every statement leaves in the variables it is about exactly the
    bytes that the same statement on plain byte strings gives; only the bytes that
    [AddAtStart(size)] and [AddAtEnd(size)] bring in are unspecified. *)
Theorem C41_byte_strings : forall junk l o w w',
  steps junk l init = Done w -> step junk o w = Done w' -> no_self_start o ->
  exists extra, length extra = extra_len o /\
    forall i, target o i \/ length (w_bufs w) <= i ->
      bytes_of w' i = str (spec_step extra o (table w)) i.
Proof. exact own_content. Qed.
Print Assumptions C41_byte_strings.

Example C41_byte_strings_ex :
  view (steps j0 [New 4; AddStartBytes 0 [1;2;3]%N; AddEndBytes 0 [4;5;6;7]%N; RemStart 0 1;
                  Copy 0; AddStartBytes 1 [9]%N; AddEndBuf 0 0; RemEnd 0 3; NewZero 1 2 0;
                  AddStartBuf 2 1] init)
  = Some [Some [2;3;4;5;6;7;2;3;4]%N; Some [9;2;3;4;5;6;7]%N; Some [9;2;3;4;5;6;7;0;0]%N].
Proof. vm_compute. reflexivity. Qed.

(** [GetSize] is the number of those bytes. *)
Theorem C41_size : forall junk l w i,
  steps junk l init = Done w -> size_of w i = option_map (@length N) (bytes_of w i).
Proof. exact size_bytes. Qed.
Print Assumptions C41_size.
Example C41_size_ex :
  match steps j0 [New 4; AddStartBytes 0 [1;2;3]%N; AddEnd 0 7] init with
  | Done w => size_of w 0 | _ => None end = Some 10.
Proof. vm_compute. reflexivity. Qed.

(** A statement fails exactly if the range given to [MakeFragment] or to an iterator
    is outside the buffer, and then by an assertion. *)
Theorem C41_outcome : forall junk l o w, steps junk l init = Done w ->
  if bad_args o (table w) then step junk o w = AssertFail else exists w', step junk o w = Done w'.
Proof. exact step_outcome. Qed.
Print Assumptions C41_outcome.
Example C41_outcome_ex :
  (match steps j0 [New 4; AddStartBytes 0 [1;2;3]%N] init with
   | Done w => (bad_args (Fragment 0 1 2) (table w), bad_args (Fragment 0 2 2) (table w))
   | _ => (true, true) end) = (false, true).
Proof. vm_compute. reflexivity. Qed.

(** The documentation of [AddAtStart(src)] says that the buffer itself can be given as
    [src].  What is then prepended is not the content. *)
Theorem C41_self_start_refuted : exists junk l w w' s,
  steps junk l init = Done w /\ bytes_of w 0 = Some s /\ step junk (AddStartBuf 0 0) w = Done w' /\
  bytes_of w' 0 <> Some (s ++ s).
Proof.
  exists j0, [New 0; AddStartBytes 0 [1;2]%N].
  eexists _, _, [1;2]%N. split; [vm_compute; reflexivity|]. split; [vm_compute; reflexivity|].
  split; [vm_compute; reflexivity|]. vm_compute. discriminate.
Qed.
Print Assumptions C41_self_start_refuted.

(** ** C42 *)

(** Buffers are independent byte strings: a statement changes the variables it is about
    as it would change byte strings and no other, whatever storage they share, provided
    - no [MakeFragment] and no copy from a buffer of another class happened before, or the
      statement brings in no bytes of its own, and
    - what is written through an iterator is not shared. *)
Theorem C42_independent : forall junk l o w w',
  steps junk l init = Done w -> step junk o w = Done w' -> no_self_start o ->
  (Forall keeps_dirty l \/ ~ adds_data o) -> writes_alone o w ->
  exists extra, length extra = extra_len o /\ table w' = spec_step extra o (table w).
Proof. exact all_content. Qed.
Print Assumptions C42_independent.

(** Three buffers over one storage, each extended in turn. *)
Example C42_independent_ex :
  view (steps j0 [New 8; AddStartBytes 0 [1;2;3]%N; Copy 0; Copy 0; RemEnd 1 1; AddEndBytes 1 [8]%N;
                  AddEndBytes 2 [9]%N; AddEndBytes 0 [7]%N] init)
  = Some [Some [1;2;3;7]%N; Some [1;2;8]%N; Some [1;2;3;9]%N].
Proof. vm_compute. reflexivity. Qed.

(** Filling bytes that were just added, the way headers and trailers are written, does
    not change any other buffer. *)
Theorem C42_fill_added_start : forall junk l i n off bs w w1 w2,
  steps junk l init = Done w -> Forall keeps_dirty l ->
  step junk (AddStart i n) w = Done w1 -> step junk (Write i off bs) w1 = Done w2 -> off + length bs <= n ->
  forall k, k <> i -> bytes_of w2 k = bytes_of w k.
Proof. exact write_fresh_start. Qed.
Print Assumptions C42_fill_added_start.
Theorem C42_fill_added_end : forall junk l i n off bs w w1 w2 s,
  steps junk l init = Done w -> Forall keeps_dirty l ->
  step junk (AddEnd i n) w = Done w1 -> step junk (Write i off bs) w1 = Done w2 ->
  bytes_of w i = Some s -> length s <= off ->
  forall k, k <> i -> bytes_of w2 k = bytes_of w k.
Proof. exact write_fresh_end. Qed.
Print Assumptions C42_fill_added_end.
Example C42_fill_added_ex :
  view (steps j0 [NewZero 4 0 4; AddStartBytes 0 [1;2]%N; Copy 0; AddStart 1 2; Write 1 0 [5;6]%N;
                  Copy 0; AddEnd 2 2; Write 2 2 [7;8]%N] init)
  = Some [Some [1;2]%N; Some [5;6;1;2]%N; Some [1;2;7;8]%N].
Proof. vm_compute. reflexivity. Qed.

(** After [MakeFragment] extending the fragment overwrites the buffer it was made from. *)
Theorem C42_fragment_refuted : exists junk l o w w' s,
  steps junk l init = Done w /\ step junk o w = Done w' /\ o = AddEndBytes 1 [9;9]%N /\
  bytes_of w 0 = Some s /\ bytes_of w' 0 <> Some s.
Proof.
  exists j0, [New 0; AddStartBytes 0 [1;2;3;4;5;6]%N; Fragment 0 0 3], (AddEndBytes 1 [9;9]%N). eexists _, _, _.
  split; [vm_compute; reflexivity|]. split; [vm_compute; reflexivity|]. split; [reflexivity|].
  split; [vm_compute; reflexivity|]. vm_compute. discriminate.
Qed.
Print Assumptions C42_fragment_refuted.
(** So does extending a copy of a buffer that was made from a buffer of another class. *)
Theorem C42_deep_copy_refuted : exists junk l o w w' s,
  steps junk l init = Done w /\ step junk o w = Done w' /\ o = AddEndBytes 1 [9;9]%N /\
  bytes_of w 0 = Some s /\ bytes_of w' 0 <> Some s.
Proof.
  exists j0, [DeepCopy [1;2;3;4]%N; Copy 0; RemEnd 1 4], (AddEndBytes 1 [9;9]%N). eexists _, _, _.
  split; [vm_compute; reflexivity|]. split; [vm_compute; reflexivity|]. split; [reflexivity|].
  split; [vm_compute; reflexivity|]. vm_compute. discriminate.
Qed.
Print Assumptions C42_deep_copy_refuted.

(** Headers: programs in which [MakeFragment] only returns the bytes that
    [AddAtStart(size)] just added, as packets do. Extending a buffer at its start, and
    everything that adds no bytes, still concerns the one buffer. (Extending at the end
    does not: see [C42_header_trailer_refuted].) *)
Theorem C42_headers_independent : forall junk l o w w',
  steps junk l init = Done w -> step junk o w = Done w' -> no_self_start o ->
  headers l -> ~ adds_at_end o -> writes_alone o w ->
  exists extra, length extra = extra_len o /\ table w' = spec_step extra o (table w).
Proof. exact headers_content. Qed.
Print Assumptions C42_headers_independent.
(** What is written through the returned buffer becomes the header of the buffer it was
    made from, and of no other. *)
Theorem C42_header_filled : forall junk l i n off bs w w1 w2 w3 s,
  steps junk l init = Done w -> headers l -> bytes_of w i = Some s ->
  step junk (AddStart i n) w = Done w1 -> step junk (Fragment i 0 n) w1 = Done w2 ->
  step junk (Write (length (table w)) off bs) w2 = Done w3 ->
  off + length bs <= n /\
  (exists x, length x = n /\ bytes_of w2 i = Some (x ++ s) /\
     bytes_of w3 i = Some ((firstn off x ++ bs ++ skipn (off + length bs) x) ++ s)) /\
  (forall k, k <> i -> k < length (table w) -> bytes_of w3 k = bytes_of w k).
Proof.
  intros junk l i n off bs w w1 w2 w3 s H0 Hh Hs H1 H2 H3.
  assert (Ht : length (table w) = length (w_bufs w)) by (unfold table; rewrite map_length, seq_length; auto).
  rewrite Ht in *. destruct (nth_error (w_bufs w) i) as [[b|]|] eqn:Hi.
  2, 3: unfold bytes_of, var in Hs; rewrite Hi in Hs; discriminate.
  destruct (header_filled _ _ _ _ _ _ _ _ _ _ _ H0 Hh Hi H1 H2 H3) as (L & (x & s' & E1 & E2 & E3 & E4) & K).
  split; [exact L|]. split; [|exact K]. exists x. assert (s' = s) by congruence. subst s'. auto.
Qed.
Print Assumptions C42_header_filled.
(** A buffer with a copy gets two headers, both filled in. *)
Example C42_headers_ex :
  let l := [New 8; AddStartBytes 0 [1;2;3]%N; Copy 0; AddStart 0 2; Fragment 0 0 2; Write 2 0 [8;9]%N;
            AddStart 1 2; Fragment 1 0 2; Write 3 0 [6;7]%N; AddStartBytes 0 [5]%N] in
  headers l /\
  view (steps j0 l init) = Some [Some [5;8;9;1;2;3]%N; Some [6;7;1;2;3]%N; Some [8;9]%N; Some [6;7]%N].
Proof. split; [repeat split|vm_compute; reflexivity]. Qed.
(** A copy of a buffer with a header that loses its end and gets another one overwrites
    the end of the original. *)
Theorem C42_header_trailer_refuted : exists junk l o w w' s,
  headers l /\ steps junk l init = Done w /\ step junk o w = Done w' /\ o = AddEndBytes 2 [9;9]%N /\
  bytes_of w 0 = Some s /\ bytes_of w' 0 <> Some s.
Proof.
  exists j0, [New 0; AddStartBytes 0 [1;2;3;4]%N; AddStart 0 2; Fragment 0 0 2; Copy 0; RemEnd 2 4],
    (AddEndBytes 2 [9;9]%N). eexists _, _, _.
  split; [repeat split|]. split; [vm_compute; reflexivity|]. split; [vm_compute; reflexivity|]. split; [reflexivity|].
  split; [vm_compute; reflexivity|]. vm_compute. discriminate.
Qed.
Print Assumptions C42_header_trailer_refuted.

(** ** C45 *)

(** In every history a storage is allocated exactly as long as a variable uses it, and
    its reference count is the number of these variables. *)
Theorem C45_count_exact : forall junk l w a, steps junk l init = Done w ->
  (0 < users w a -> allocated w a (users w a)) /\ (users w a = 0 -> forall n, ~ allocated w a n).
Proof. exact count_exact. Qed.
Print Assumptions C45_count_exact.
Example C45_count_exact_ex :
  match steps j0 [New 8; Copy 0; Copy 1; MoveNew 2; New 4; Assign 4 0; Fragment 0 0 0; Destroy 1] init with
  | Done w => (map (users w) [0; 1], map (fun s => match s with Some s => sg_rc s | None => 0 end) (w_heap w))
  | _ => ([], []) end = ([3; 0], [3; 0]).
Proof. vm_compute. reflexivity. Qed.

(** No history accesses a storage that is not allocated, or a byte outside one. *)
Theorem C45_no_dangling_access : forall junk l,
  (exists w, steps junk l init = Done w) \/ steps junk l init = AssertFail.
Proof. intros junk l. apply steps_outcome, init_inv. Qed.
Print Assumptions C45_no_dangling_access.
