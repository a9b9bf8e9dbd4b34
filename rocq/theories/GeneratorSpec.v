(** Vocabulary of the statements about engines as components: what the history of one engine
    alone lets it return. *)
From Coq Require Import QArith.
From Verif Require Import Base Random RandomSpec PeriodSpec Generator.
Open Scope N_scope.

(** The word number [n] of the stream of the seed [s] (already of the word type). *)
Definition stream (k : kind) (s : N) (n : nat) : word :=
  let st := seed (k_eng k) s in
  if k_unit k then let '(a, b) := output01 (k_eng k) n st in WUnit a b
  else WInt (output (k_eng k) n st).

(** A computation that takes the words number [n], [n + 1], ...; its result and the number of
    the next word. *)
Fixpoint consume {A} (words : nat -> word) (t : drawing A) (n : nat) : A * nat :=
  match t with
  | Ret a => (a, n)
  | Call next => consume words (next (words n)) (S n)
  end.

(** The value that remains of a seed in a word of [w] bits. *)
Definition low (w v : N) : N := v mod 2 ^ w.

Section Alone.
Variable L : library.

(** An engine on its own: its kind, seed, the number of words used up, and the distributions
    made of it, by name. *)
Record alone := mkAlone {
  a_kind : kind; a_seed : N; a_used : nat; a_dists : nat -> option (l_state L) }.

Definition set_dist (f : nat -> option (l_state L)) (d : nat) (s : l_state L) : nat -> option (l_state L) :=
  fun x => if Nat.eqb x d then Some s else f x.

(** The engine may take part in the event, which leads it from [a] to [a']. *)
Inductive follows : option alone -> event L -> alone -> Prop :=
| F_new k s : follows None (ENew L k s)
    (mkAlone k (match s with None => 1 | Some v => low (e_w (k_eng k)) v end) 0 (fun _ => None))
| F_seed k s n f v : follows (Some (mkAlone k s n f)) (ESeed L v) (mkAlone k (low 32 v) 0 f)
| F_discard k s n f z : follows (Some (mkAlone k s n f)) (EDiscard L z) (mkAlone k s (n + z) f)
| F_generate k s n f : follows (Some (mkAlone k s n f)) (EGenerate L (stream k s n)) (mkAlone k s (S n) f)
| F_generate_x k s n f p d v d' n' : l_make L p = Some d ->
    consume (stream k s) (l_draw L k d) n = ((v, d'), n') ->
    follows (Some (mkAlone k s n f)) (EGenerateX L p v) (mkAlone k s n' f)
| F_create k s n f d p x : l_make L p = Some x -> f d = None ->
    follows (Some (mkAlone k s n f)) (ECreate L d p) (mkAlone k s n (set_dist f d x))
| F_draw k s n f d x v x' n' : f d = Some x ->
    consume (stream k s) (l_draw L k x) n = ((v, x'), n') ->
    follows (Some (mkAlone k s n f)) (EDraw L d v) (mkAlone k s n' (set_dist f d x'))
| F_reset k s n f d x : f d = Some x ->
    follows (Some (mkAlone k s n f)) (EReset L d) (mkAlone k s n (set_dist f d (l_reset L x))).

Inductive history : list (event L) -> alone -> Prop :=
| H_first e a : follows None e a -> history [e] a
| H_next es a e a' : history es a -> follows (Some a) e a' -> history (es ++ [e]) a'.

(** The events of one engine among those of all. *)
Definition events_of (i : nat) (tr : list (nat * event L)) : list (event L) :=
  map snd (filter (fun x => Nat.eqb (fst x) i) tr).
End Alone.

(** The conditions on the parameters that i-random.h 124-458 documents. *)
Open Scope Q_scope.
Definition documented (p : param) : Prop :=
  match p with
  | PUniformUint32 lb ub | PUniformInt32 lb ub | PUniformUint64 lb ub | PUniformInt64 lb ub => (lb <= ub)%Z
  | PUniformDouble lb ub | PUniformFloat lb ub => lb <= ub
  | PBernoulli q | PBinomial _ q | PNegativeBinomial _ q | PGeometric q => 0 <= q /\ q <= 1
  | PPoisson x | PExponential x => 0 < x
  | PGamma x y | PWeibull x y | PBeta x y | PFisherF x y => 0 < x /\ 0 < y
  | PExtremeValue _ y | PLaplace _ y | PNormal _ y | PLognormal _ y | PCauchy _ y => 0 < y
  | PChiSquared x | PStudentT x => 0 < x
  | PUniform01 | PDiscrete _ | PPiecewiseConstant _ _ | PPiecewiseLinear _ _ | PTriangle _ _ _ => True
  end.

(** What is asked of an engine, with other names for the distributions, and what it returns. *)
Section Inputs.
Variable L : library.

Inductive input :=
| INew (k : kind) (s : option N) | ISeed (v : N) | IDiscard (z : nat) | IGenerate
| IGenerateX (p : param) | ICreate (d : nat) (p : param) | IDraw (d : nat) | IReset (d : nat).

Definition input_of (name : nat -> nat) (e : event L) : input :=
  match e with
  | ENew _ k s => INew k s | ESeed _ v => ISeed v | EDiscard _ z => IDiscard z
  | EGenerate _ _ => IGenerate | EGenerateX _ p _ => IGenerateX p
  | ECreate _ d p => ICreate (name d) p | EDraw _ d _ => IDraw (name d) | EReset _ d => IReset (name d)
  end.

Inductive answer := AWord (w : word) | AValue (v : l_value L) | ANone.

Definition answer_of (e : event L) : answer :=
  match e with
  | EGenerate _ w => AWord w
  | EGenerateX _ _ v | EDraw _ _ v => AValue v
  | _ => ANone
  end.
End Inputs.
