(** Vocabulary for the properties of the class registry. *)
From Verif Require Import Base Component Registry.

(** The name that a [Uid] stands for: the bytes in front of the first byte 0. *)
Fixpoint until_zero (l : list N) : list N :=
  match l with
  | [] => []
  | a :: l => if (a =? 0)%N then [] else a :: until_zero l
  end.
Definition name (u : uid) : list N := until_zero (u_bytes u).

(** What [GetClassFactory] answers in a state. *)
Definition answer (hr : list N -> N) (s : state) (u : uid) : outcome result :=
  let! (_, r) := step hr (GetClassFactory u) s in Done r.

(** The registry as a table from names to factories, beside the smart pointers of
    the user; factories are numbered in the order of their creation. *)
Record table : Type := mk_table {
  t_map : list N -> option nat;
  t_vars : list (option nat);
  t_next : nat
}.
Definition t_init : table := mk_table (fun _ => None) [] 0.

Fixpoint eqb_chars (s t : list N) : bool :=
  match s, t with
  | [], [] => true
  | a :: s, b :: t => (a =? b)%N && eqb_chars s t
  | _, _ => false
  end.
Definition bind (n : list N) (v : option nat) (m : list N -> option nat) : list N -> option nat :=
  fun n' => if eqb_chars n n' then v else m n'.

(** Registration of a factory (or of a null pointer) under a name. *)
Definition t_register (f : option nat) (n : list N) (t : table) : table * result :=
  match f with
  | None => (t, RThrow InvalidPointer)
  | Some f =>
      match t_map t n with
      | Some _ => (t, RThrow ClassAlreadyRegistered)
      | None => (mk_table (bind n (Some f) (t_map t)) (t_vars t) (t_next t), ROk)
      end
  end.

(** What each call does; [None] when the variable is not there. *)
Definition t_step (o : op) (t : table) : option (table * result) :=
  match o with
  | NewFactory _ => Some (mk_table (t_map t) (t_vars t ++ [Some (t_next t)]) (S (t_next t)), RFactory (t_next t))
  | Null => Some (mk_table (t_map t) (t_vars t ++ [None]) (t_next t), ROk)
  | ResetVar i =>
      if i <? length (t_vars t) then Some (mk_table (t_map t) (upd (t_vars t) i None) (t_next t), ROk) else None
  | Register i u =>
      match nth_error (t_vars t) i with
      | Some f => Some (t_register f (name u) t)
      | None => None
      end
  | RegisterMove i u =>
      match nth_error (t_vars t) i with
      | Some f => Some (t_register f (name u) (mk_table (t_map t) (upd (t_vars t) i None) (t_next t)))
      | None => None
      end
  | RegisterDefault _ u =>
      Some (t_register (Some (t_next t)) (name u) (mk_table (t_map t) (t_vars t) (S (t_next t))))
  | Unregister u => Some (mk_table (bind (name u) None (t_map t)) (t_vars t) (t_next t), ROk)
  | UnregisterAll => Some (mk_table (fun _ => None) (t_vars t) (t_next t), ROk)
  | GetClassFactory u =>
      match t_map t (name u) with
      | Some f => Some (mk_table (t_map t) (t_vars t ++ [Some f]) (t_next t), RFactory f)
      | None => Some (t, RThrow ClassNotRegistered)
      end
  end.
Fixpoint t_run (os : list op) (t : table) : option (table * list result) :=
  match os with
  | [] => Some (t, [])
  | o :: os =>
      match t_step o t with
      | Some (t, r) =>
          match t_run os t with
          | Some (t, rs) => Some (t, r :: rs)
          | None => None
          end
      | None => None
      end
  end.

(** Some variable of the user, or the registry under some name, has the factory. *)
Definition has_factory (hr : list N -> N) (s : state) (f : nat) : Prop :=
  In (Some f) (s_vars s) \/ exists u, answer hr s u = Done (RFactory f).

(** The factory has not been deleted. *)
Definition factory_lives (s : state) (f : nat) : Prop :=
  exists x, nth_error (s_factories s) f = Some x /\ f_alive x = true.
