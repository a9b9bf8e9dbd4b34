(** Vocabulary for the properties of smart pointers and component objects. *)
From Verif Require Import Base Component.

(** The object that a cell is a part of in the end, following controllers. *)
Fixpoint up (n : nat) (h : heap) (a : nat) : nat :=
  match n with
  | O => a
  | S n =>
      match nth_error h a with
      | Some c => if is_part (c_kind c) then up n h (c_owner c) else a
      | None => a
      end
  end.
Definition whole (h : heap) (a : nat) : nat := up a h a.

(** The object as seen from outside: aggregated objects belong to their
    controller, a mutual object is an object of its own. *)
Fixpoint up_navi (n : nat) (h : heap) (a : nat) : nat :=
  match n with
  | O => a
  | S n =>
      match nth_error h a with
      | Some c => if is_navi (c_kind c) then up_navi n h (c_owner c) else a
      | None => a
      end
  end.
Definition identity (h : heap) (a : nat) : nat := up_navi a h a.

(** The object has not been deleted. *)
Definition live (h : heap) (a : nat) : Prop :=
  exists c, nth_error h a = Some c /\ c_alive c = true.

(** The pointers held by a list of smart pointers. *)
Definition ptrs (l : list handle) : list ptr :=
  flat_map (fun x => match snd x with Some p => [p] | None => [] end) l.

(** All pointers that hold a reference: those in variables, the raw pointers the
    user has a reference for, and those in members of objects that live. *)
Definition held (w : world) : list ptr :=
  ptrs (w_vars w) ++ w_raws w ++
  flat_map (fun c => if c_alive c then ptrs (c_fields c) else []) (w_heap w).

(** The number of references to the object [r] or any of its parts. *)
Definition refs (w : world) (r : nat) : nat :=
  length (filter (fun p => whole (w_heap w) (p_addr p) =? r) (held w)).

(** The value of a smart pointer. *)
Definition fields_of (h : heap) (a : nat) : list handle :=
  match nth_error h a with Some c => c_fields c | None => [] end.
Definition value_at (w : world) (l : loc) : option handle :=
  match l with
  | LVar i => nth_error (w_vars w) i
  | LField a k => nth_error (fields_of (w_heap w) a) k
  end.

(** The implementation of the interface [t] found in the interface map of an
    object, or in those of the objects it aggregates. *)
Fixpoint find_impl (n : nat) (h : heap) (a : nat) (t : ty) : option nat :=
  match n with
  | O => None
  | S n =>
      if t =? 0 then Some a
      else match nth_error h a with
           | Some c =>
               match find_entry t (c_map c) with
               | Some (Own _) => Some a
               | Some (Via _ b) => find_impl n h b t
               | None => None
               end
           | None => None
           end
  end.

(** The interfaces of an object as seen from outside. *)
Definition interface (h : heap) (o : nat) (t : ty) : option nat := find_impl (S (length h)) h o t.

(** What a [Ptr<T>] gets from a pointer [p]: [p] itself when the type is the
    same, otherwise the interface [T] of the object of [p], if it has it. *)
Definition taken (h : heap) (t : ty) (p : ptr) : option ptr :=
  if t =? p_ty p then Some p
  else option_map (fun b => mk_ptr b t) (interface h (identity h (p_addr p)) t).

Definition loc_eqb (l l' : loc) : bool :=
  match l, l' with
  | LVar i, LVar j => i =? j
  | LField a k, LField b n => (a =? b) && (k =? n)
  | _, _ => false
  end.
(** The smart pointers named in [ch] have got the values given there, all others
    are as before; [new] are new variables, [raws] are the raw pointers. *)
Fixpoint changed (ch : list (loc * option ptr)) (l : loc) (x : option handle) : option handle :=
  match ch with
  | [] => x
  | (l', v) :: ch => if loc_eqb l l' then option_map (fun y => (fst y, v)) x else changed ch l x
  end.
Definition old (w : world) (l : loc) : Prop :=
  match l with LVar i => i < length (w_vars w) | LField a _ => a < length (w_heap w) end.
Definition becomes (w w' : world) (ch : list (loc * option ptr)) (new : list handle) (raws : list ptr) : Prop :=
  (forall l, old w l -> value_at w' l = changed ch l (value_at w l)) /\
  skipn (length (w_vars w)) (w_vars w') = new /\ w_raws w' = raws.

(** The value a [Ptr<T>] gets from a smart pointer; [None] when the interface is
    not there. *)
Definition give (h : heap) (t : ty) (v : option ptr) : option (option ptr) :=
  match v with None => Some None | Some p => option_map Some (taken h t p) end.

(** Two smart pointers point to the same object. *)
Definition same_object (h : heap) (v v' : option ptr) : bool :=
  match v, v' with
  | None, None => true
  | Some p, Some q => identity h (p_addr p) =? identity h (p_addr q)
  | _, _ => false
  end.

(** What an expression does to the pointers, and what it answers. *)
Definition effect (w : world) (o : op) (w' : world) (r : result) : Prop :=
  match o with
  | Declare t => r = ROk /\ becomes w w' [] [(t, None)] (w_raws w)
  | New t ps =>
      match taken (w_heap w') t (mk_ptr (length (w_heap w)) (match ps with d :: _ => d_class d | [] => 0 end)) with
      | Some q => r = ROk /\ becomes w w' [] [(t, Some q)] (w_raws w)
      | None => r = RNoInterface /\ becomes w w' [] [] (w_raws w)
      end
  | CopyCtor t s => exists l u v, resolve w s = Done l /\ value_at w l = Some (u, v) /\
      match give (w_heap w) t v with
      | Some v' => r = ROk /\ becomes w w' [] [(t, v')] (w_raws w)
      | None => r = RNoInterface /\ w' = w
      end
  | MoveCtor t s => exists l u v, resolve w s = Done l /\ value_at w l = Some (u, v) /\
      match give (w_heap w) t v with
      | Some v' => r = ROk /\ becomes w w' [(l, None)] [(t, v')] (w_raws w)
      | None => r = RNoInterface /\ w' = w
      end
  | Assign d s => exists ld t x ls u v, resolve w d = Done ld /\ value_at w ld = Some (t, x) /\
      resolve w s = Done ls /\ value_at w ls = Some (u, v) /\
      match give (w_heap w) t v with
      | Some v' => r = ROk /\ becomes w w' [(ld, v')] [] (w_raws w)
      | None => r = RNoInterface /\ becomes w w' [(ld, None)] [] (w_raws w)
      end
  | MoveAssign d s => exists ld t x ls u v, resolve w d = Done ld /\ value_at w ld = Some (t, x) /\
      resolve w s = Done ls /\ value_at w ls = Some (u, v) /\
      match give (w_heap w) t v with
      | Some v' => r = ROk /\ becomes w w' [(ls, None); (ld, v')] [] (w_raws w)
      | None => r = RNoInterface /\ becomes w w' [(ld, None)] [] (w_raws w)
      end
  | Reset d => r = ROk /\ exists l, resolve w d = Done l /\ becomes w w' [(l, None)] [] (w_raws w)
  | Detach s => r = ROk /\ exists l u v, resolve w s = Done l /\ value_at w l = Some (u, v) /\
      becomes w w' [(l, None)] [] (w_raws w ++ match v with Some p => [p] | None => [] end)
  | AddRef s => r = ROk /\ exists l u p, resolve w s = Done l /\ value_at w l = Some (u, Some p) /\
      becomes w w' [] [] (w_raws w ++ [p])
  | Release k => r = ROk /\ k < length (w_raws w) /\ becomes w w' [] [] (remove_nth k (w_raws w))
  | ResetTo d k addRef => exists l t x p, resolve w d = Done l /\ value_at w l = Some (t, x) /\
      nth_error (w_raws w) k = Some p /\
      match taken (w_heap w) t p with
      | Some q => r = ROk /\
          becomes w w' [(l, Some q)] [] (if addRef then w_raws w else remove_nth k (w_raws w))
      | None => r = RNoInterface /\ becomes w w' [(l, None)] [] (w_raws w)
      end
  | Swap d s => r = ROk /\ exists ld ls t v x, resolve w d = Done ld /\ value_at w ld = Some (t, v) /\
      resolve w s = Done ls /\ value_at w ls = Some (t, x) /\
      becomes w w' [(ls, v); (ld, x)] [] (w_raws w)
  | OfPart s k => r = ROk /\ exists l u p c b d, resolve w s = Done l /\ value_at w l = Some (u, Some p) /\
      nth_error (w_heap w) (p_addr p) = Some c /\ nth_error (c_parts c) k = Some b /\
      nth_error (w_heap w) b = Some d /\
      becomes w w' [] [(c_class d, Some (mk_ptr b (c_class d)))] (w_raws w)
  | QueryPart t s k => exists l u p c b d, resolve w s = Done l /\ value_at w l = Some (u, Some p) /\
      nth_error (w_heap w) (p_addr p) = Some c /\ nth_error (c_parts c) k = Some b /\
      nth_error (w_heap w) b = Some d /\ (t = 0 -> is_navi (c_kind d) = false) /\
      match interface (w_heap w) b t with
      | Some x => r = ROk /\ becomes w w' [] [(t, Some (mk_ptr x t))] (w_raws w)
      | None => r = RNoInterface /\ w' = w
      end
  | Equal s s' => w' = w /\ exists l t v l' u v', resolve w s = Done l /\ value_at w l = Some (t, v) /\
      resolve w s' = Done l' /\ value_at w l' = Some (u, v') /\
      r = RBool (if t =? u then same_ptr v v' else same_object (w_heap w) v v')
  end.

(** Following the path [ks] from [l] passes (or ends at) the location [x]. *)
Inductive passes (w : world) (x : loc) : loc -> list nat -> Prop :=
| passes_here ks : passes w x x ks
| passes_next l t p k ks :
    load w l = Done (t, Some p) -> passes w x (LField (p_addr p) k) ks -> passes w x l (k :: ks).

(** An assignment is safe when its source is not reached through its
    destination; moving a pointer to itself is safe too. *)
Definition apart (w : world) (d s : slot) : Prop :=
  let (i, ks) := s in forall ld, resolve w d = Done ld -> ~ passes w ld (LVar i) ks.
Definition safe (w : world) (o : op) : Prop :=
  match o with
  | Assign d s => apart w d s
  | MoveAssign d s => resolve w d = resolve w s \/ apart w d s
  | _ => True
  end.

(** A program all of whose assignments are safe at the time they are executed. *)
Fixpoint safe_run (os : list op) (w : world) : Prop :=
  match os with
  | [] => True
  | o :: os => safe w o /\ forall w' r, step o w = Done (w', r) -> safe_run os w'
  end.

(** No [New] of the history has answered with an exception. *)
Fixpoint all_created (os : list op) (rs : list result) : Prop :=
  match os, rs with
  | New _ _ :: os, r :: rs => r = ROk /\ all_created os rs
  | _ :: os, _ :: rs => all_created os rs
  | _, _ => True
  end.
