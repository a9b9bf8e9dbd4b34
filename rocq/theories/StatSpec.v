(** Specification of the containers: what a caller may be told.

    A [book] is what the caller could write down: which name of which container
    stands for which probe, who is connected to which probe under which cookie,
    and what is left in each enumerator.  [allowed b o a b'] says that, with the
    book [b], the call [o] may be answered [a], after which the book is [b'].
    No map, slot table or loop occurs here. *)
From Coq Require Import List NArith Arith String Sorted Permutation.
From Verif Require Import Base Stat.
Import ListNotations.
Open Scope list_scope.

Record book := mk_book {
  bk_boxes : nat;                              (* containers created *)
  bk_kinds : list nat;                         (* probes created, with their interface *)
  bk_names : list (nat * string * nat);        (* container, name, probe *)
  bk_links : list (nat * N * nat);             (* probe, cookie, sink *)
  bk_enums : list (list string * list string)  (* already returned, still to come *) }.

Definition book_init : book := mk_book 0 [] [] [] [].

(** The name [n] of container [b] stands for probe [p]. *)
Definition means (k : book) (b : nat) (n : string) (p : nat) : Prop := In (b, n, p) (bk_names k).
Definition unknown (k : book) (b : nat) (n : string) : Prop := forall p, ~ means k b n p.

Definition with_names (k : book) (l : list (nat * string * nat)) : book :=
  mk_book (bk_boxes k) (bk_kinds k) l (bk_links k) (bk_enums k).
Definition with_links (k : book) (l : list (nat * N * nat)) : book :=
  mk_book (bk_boxes k) (bk_kinds k) (bk_names k) l (bk_enums k).
Definition with_enums (k : book) (l : list (list string * list string)) : book :=
  mk_book (bk_boxes k) (bk_kinds k) (bk_names k) (bk_links k) l.

(** The connections of one probe. *)
Definition links_of (k : book) (p : nat) : list (N * nat) :=
  map (fun e => (snd (fst e), snd e)) (filter (fun e => Nat.eqb (fst (fst e)) p) (bk_links k)).

(** The names after merging [src] into [dst]: the old ones, and for every name
    of [src] the prefixed one, unless [dst] already had it. *)
Definition merged (k : book) (dst : nat) (prefix : string) (src : nat) (l : list (nat * string * nat)) : Prop :=
  forall b n p, In (b, n, p) l <->
    means k b n p \/
    (b = dst /\ unknown k dst n /\ exists m, n = (prefix ++ m)%string /\ means k src m p).

(** The interface a sink must provide. *)
Definition fits (fl : flavour) (provides : nat -> nat -> bool) (kind sink : nat) : Prop :=
  fl = Statistics -> provides sink kind = true.

Section Allowed.
Context (fl : flavour) (provides : nat -> nat -> bool).

Inductive allowed (k : book) : sop -> answer -> book -> Prop :=
| al_box : allowed k NewBox (ABox (bk_boxes k))
    (mk_book (S (bk_boxes k)) (bk_kinds k) (bk_names k) (bk_links k) (bk_enums k))
| al_add b kd n : b < bk_boxes k -> unknown k b n ->
    allowed k (AddName b kd n) (APoint (length (bk_kinds k)))
      (mk_book (bk_boxes k) (bk_kinds k ++ [kd]) (bk_names k ++ [(b, n, length (bk_kinds k))]) (bk_links k) (bk_enums k))
| al_add_again b kd n p : b < bk_boxes k -> means k b n p ->
    allowed k (AddName b kd n) (AThrew (already fl)) k
| al_has b n p : b < bk_boxes k -> means k b n p -> allowed k (HasName b n) (AFlag true) k
| al_has_not b n : b < bk_boxes k -> unknown k b n -> allowed k (HasName b n) (AFlag false) k
| al_get b n p : b < bk_boxes k -> means k b n p -> allowed k (GetPoint b n) (APoint p) k
| al_get_not b n : b < bk_boxes k -> unknown k b n -> allowed k (GetPoint b n) (AThrew (missing fl)) k
| al_erase b n l : b < bk_boxes k ->
    (forall b' n' p, In (b', n', p) l <-> means k b' n' p /\ ~ (b' = b /\ n' = n)) ->
    NoDup (map fst l) ->
    allowed k (EraseName b n) AUnit (with_names k l)
| al_connect b n p s kd c l : b < bk_boxes k -> means k b n p ->
    nth_error (bk_kinds k) p = Some kd -> fits fl provides kd s ->
    (0 < c < 2 ^ 32)%N -> (forall s', ~ In (p, c, s') (bk_links k)) ->
    Permutation l ((p, c, s) :: bk_links k) ->
    allowed k (ConnectName b n (Some s)) (ACookie c) (with_links k l)
| al_connect_type b n p s kd : b < bk_boxes k -> means k b n p ->
    nth_error (bk_kinds k) p = Some kd -> ~ fits fl provides kd s ->
    allowed k (ConnectName b n (Some s)) (AThrew NoInterface) k
| al_connect_full b n p s kd : b < bk_boxes k -> means k b n p ->
    nth_error (bk_kinds k) p = Some kd -> fits fl provides kd s ->
    N.of_nat (length (links_of k p)) = (2 ^ 32 - 1)%N ->
    allowed k (ConnectName b n (Some s)) (AThrew ConnectionLimit) k
| al_connect_null b n p : b < bk_boxes k -> means k b n p ->
    allowed k (ConnectName b n None) (AThrew InvalidPointer) k
| al_connect_not b n s : b < bk_boxes k -> unknown k b n ->
    allowed k (ConnectName b n s) (AThrew (missing fl)) k
| al_disconnect b n p c l : b < bk_boxes k -> means k b n p ->
    (forall p' c' s, In (p', c', s) l <-> In (p', c', s) (bk_links k) /\ ~ (p' = p /\ c' = c mod 2 ^ 32)%N) ->
    NoDup l ->
    allowed k (DisconnectName b n c) AUnit (with_links k l)
| al_disconnect_not b n c : b < bk_boxes k -> unknown k b n ->
    allowed k (DisconnectName b n c) (AThrew (missing fl)) k
| al_merge b prefix src ord l : b < bk_boxes k -> src < bk_boxes k ->
    merged k b prefix src l -> NoDup (map fst l) ->
    allowed k (MergeFrom b prefix src ord) AUnit (with_names k l)
| al_fire p v : p < length (bk_kinds k) ->
    StronglySorted N.lt (map fst v) -> Permutation v (links_of k p) ->
    allowed k (FirePoint p) (ACalls (map snd v)) k
| al_enum b ord l : b < bk_boxes k -> NoDup l ->
    (forall n, In n l <-> exists p, means k b n p) ->
    allowed k (GetEnum b ord) (AEnum (length (bk_enums k))) (with_enums k (bk_enums k ++ [([], l)]))
| al_reset e l1 l2 : nth_error (bk_enums k) e = Some (l1, l2) ->
    allowed k (ResetEnum e) AUnit (with_enums k (upd (bk_enums k) e ([], l1 ++ l2)))
| al_has_next e l1 l2 : nth_error (bk_enums k) e = Some (l1, l2) ->
    allowed k (HasNextEnum e) (AFlag (negb (Nat.eqb (length l2) 0))) k
| al_next e l1 n l2 : nth_error (bk_enums k) e = Some (l1, n :: l2) ->
    allowed k (NextEnum e) (AName n) (with_enums k (upd (bk_enums k) e (l1 ++ [n], l2)))
| al_next_end e l1 : nth_error (bk_enums k) e = Some (l1, []) ->
    allowed k (NextEnum e) (AThrew OutOfBounds) k
(* Calls on containers, probes or enumerators that do not exist. *)
| al_nobox b o : bk_boxes k <= b ->
    (exists n kd, o = AddName b kd n) \/ (exists n, o = HasName b n \/ o = GetPoint b n \/ o = EraseName b n) \/
    (exists n s, o = ConnectName b n s) \/ (exists n c, o = DisconnectName b n c) \/
    (exists pre src ord, o = MergeFrom b pre src ord \/ o = MergeFrom src pre b ord) \/
    (exists ord, o = GetEnum b ord) ->
    allowed k o ANoSuch k
| al_nopoint p : length (bk_kinds k) <= p -> allowed k (FirePoint p) ANoSuch k
| al_noenum e o : length (bk_enums k) <= e ->
    o = ResetEnum e \/ o = HasNextEnum e \/ o = NextEnum e -> allowed k o ANoSuch k.

(** A whole history of calls and answers. *)
Inductive explained : book -> list (sop * answer) -> book -> Prop :=
| ex_nil k : explained k [] k
| ex_cons k o a k1 t k2 : allowed k o a k1 -> explained k1 t k2 -> explained k ((o, a) :: t) k2.

End Allowed.

(** A container hands out its keys in some order, each once. *)
Definition in_order (o : sop) : Prop :=
  match o with
  | MergeFrom _ _ _ ord | GetEnum _ ord => forall l, Permutation (ord l) l
  | _ => True
  end.

(** The world after some history of calls. *)
Definition reached (fl : flavour) (provides : nat -> nat -> bool) (w : sworld) : Prop :=
  exists l r, Forall in_order l /\ s_run fl provides l sworld_init = Done (w, r).

(** The names an enumerator returned in a piece of history. *)
Fixpoint returned (e : nat) (h : list (sop * answer)) : list string :=
  match h with
  | [] => []
  | (NextEnum e', AName n) :: t => if Nat.eqb e e' then n :: returned e t else returned e t
  | _ :: t => returned e t
  end.
