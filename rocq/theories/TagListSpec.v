(** Specification of tag lists: a number of bytes, and ranges of these bytes with a tag. *)
From Verif Require Import Base TagList.

Section Spec.
Context {V : Type}.

(** Coordinates relative to another origin. *)
Definition shift (d : Z) (x : tag_index V) : tag_index V :=
  mk_idx (x_id x) (x_val x) (x_start x + d) (x_end x + d).

(** Byte [p] of the buffer has the tag. *)
Definition covers (p : Z) (x : tag_index V) : bool :=
  ((x_start x <=? p) && (p <? x_end x))%Z.

(** The range of the tag meets the [n] bytes of the buffer; [C49_touches] states what this
    means for [n > 0].  The range may reach beyond both ends of the buffer. *)
Definition touches (n : nat) (x : tag_index V) : bool :=
  ((x_start x <? Z.of_nat n) && (0 <? x_end x))%Z.

(** What a list amounts to: the size of the buffer and the tags in it, with ranges
    relative to the first byte of the buffer. *)
Notation content := (nat * list (tag_index V))%type.

(** What variable [i] of a program shows; [C49_exists], [C49_get] and [C49_count] relate it to
    [Exists], [Get] and [GetSize]. *)
Definition content_of (w : world V) (i : nat) : option content :=
  match var w i with
  | None => None
  | Some l => match elements (w_heap w) l with
              | Done xs =>
                  let n := Z.to_nat (tl_end l - tl_start l) in
                  Some (n, filter (touches n) (map (shift (- tl_start l)) xs))
              | _ => None
              end
  end.

(** Lists as independent contents. *)
Notation contents := (list (option content)).
Definition con (A : contents) (i : nat) : option content :=
  match nth_error A i with Some o => o | None => None end.
Definition table (w : world V) : contents := map (content_of w) (seq 0 (length (w_lists w))).

(** Same id and same range. *)
Definition same_range (x y : tag_index V) : bool :=
  (x_id y =? x_id x)%N && (x_start y =? x_start x)%Z && (x_end y =? x_end x)%Z.
(** Adding those tags that are not yet there. *)
Definition add_new (l xs : list (tag_index V)) : list (tag_index V) :=
  fold_left (fun l x => if existsb (same_range x) l then l else l ++ [x]) xs l.

(** What a statement does to contents. *)
Definition spec_step (o : op V) (A : contents) : contents :=
  let on i (f : nat -> list (tag_index V) -> contents) :=
    match con A i with Some (n, xs) => f n xs | None => A end in
  match o with
  | New => A ++ [Some (0, [])]
  | NewCap _ n => A ++ [Some (n, [])]
  | Copy i => on i (fun n xs => A ++ [Some (n, xs)])
  | Assign i j => on i (fun _ _ => on j (fun n xs => upd A i (Some (n, xs))))
  | Swap i j =>
      if i =? j then A
      else on i (fun n xs => on j (fun m ys => upd (upd A i (Some (m, ys))) j (Some (n, xs))))
  | Destroy i => on i (fun _ _ => upd A i None)
  | AddStart i k => on i (fun n xs => upd A i (Some (n + k, map (shift (Z.of_nat k)) xs)))
  | AddEnd i k => on i (fun n xs => upd A i (Some (n + k, xs)))
  | RemStart i k => on i (fun n xs =>
      upd A i (Some (n - k, filter (touches (n - k)) (map (shift (- Z.of_nat k)) xs))))
  | RemEnd i k => on i (fun n xs => upd A i (Some (n - k, filter (touches (n - k)) xs)))
  | Insert i id v s k => on i (fun n xs =>
      upd A i (Some (n, xs ++ [mk_idx id v (Z.of_nat s) (Z.of_nat (s + k))])))
  | AddStartList i j => on i (fun n xs => on j (fun m ys =>
      upd A i (Some (n + m, add_new (map (shift (Z.of_nat m)) xs) ys))))
  | AddEndList i j => on i (fun n xs => on j (fun m ys =>
      upd A i (Some (n + m, add_new xs (map (shift (Z.of_nat n)) ys)))))
  end.

(** All tags that variable [i] holds, also those that lost all their bytes: what iterating over
    the whole array would show.  Which of the latter are still there is up to the
    implementation. *)
Definition full_of (w : world V) (i : nat) : option content :=
  match var w i with
  | None => None
  | Some l => match elements (w_heap w) l with
              | Done xs => Some (Z.to_nat (tl_end l - tl_start l), map (shift (- tl_start l)) xs)
              | _ => None
              end
  end.
(** The tags of the list that a statement adds to another one. *)
Definition sources (o : op V) (w : world V) : list (tag_index V) :=
  match o with
  | AddStartList _ j | AddEndList _ j => match full_of w j with Some (_, ys) => ys | None => [] end
  | _ => []
  end.
(** What a statement does to contents, if the list that is added holds the tags [all]. *)
Definition spec_exact (all : list (tag_index V)) (o : op V) (A : contents) : contents :=
  let on i (f : nat -> list (tag_index V) -> contents) :=
    match con A i with Some (n, xs) => f n xs | None => A end in
  match o with
  | AddStartList i j => on i (fun n xs => on j (fun m _ =>
      upd A i (Some (n + m, add_new (map (shift (Z.of_nat m)) xs) (filter (touches (n + m)) all)))))
  | AddEndList i j => on i (fun n xs => on j (fun m _ =>
      upd A i (Some (n + m, add_new xs (filter (touches (n + m)) (map (shift (Z.of_nat n)) all))))))
  | _ => spec_step o A
  end.

(** The variable a statement changes. *)
Definition target (o : op V) (i : nat) : Prop :=
  match o with
  | New | NewCap _ _ | Copy _ => False
  | Assign k _ | Destroy k | AddStart k _ | AddStartList k _ | RemStart k _
  | AddEnd k _ | AddEndList k _ | RemEnd k _ | Insert k _ _ _ _ => i = k
  | Swap k j => i = k \/ i = j
  end.

(** A list that holds no tag without bytes: [GetSize() == GetInternalSize()]. *)
Definition whole (w : world V) (j : nat) : Prop :=
  forall r, var w j = Some r -> num_tags (w_heap w) r = Done (internal_size r).
(** The lists that a statement appends to another one are whole. *)
Definition sources_whole (o : op V) (w : world V) : Prop :=
  match o with AddStartList _ j | AddEndList _ j => whole w j | _ => True end.

(** Statements with arguments outside the documented range. *)
Definition bad_args (o : op V) (A : contents) : bool :=
  match o with
  | NewCap c _ => c =? 0
  | RemStart i k | RemEnd i k => match con A i with Some (n, _) => n <? k | None => false end
  | Insert i _ _ s k =>
      match con A i with Some (n, _) => (n <? s + k) || (k =? 0) | None => false end
  | _ => false
  end.
(** Statements that may reach the ends of the space of coordinates. *)
Definition grows (o : op V) : Prop :=
  match o with
  | NewCap _ _ | AddStart _ _ | AddEnd _ _ | AddStartList _ _ | AddEndList _ _ => True
  | _ => False
  end.

(** How many variables use array [a]. *)
Definition uses (a : nat) (l : tlist) : bool :=
  match tl_tia l with Some b => a =? b | None => false end.
Definition users (w : world V) (a : nat) : nat :=
  length (filter (fun o => match o with Some l => uses a l | None => false end) (w_lists w)).
(** Array [a] is allocated, with reference count [n]. *)
Definition allocated (w : world V) (a n : nat) : Prop :=
  exists t, nth_error (w_heap w) a = Some (Some t) /\ ta_rc t = n.

End Spec.
