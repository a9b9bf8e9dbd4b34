(** Model of the random number engines as components (random/pseudo-random-generator.h) and
    of the distributions they create (random/distribution/std-*-distribution.h).

    Simplifications: engines and distributions are addressed by their number of creation and
    stay until the end; that a distribution keeps its engine is an instance of the smart
    pointers of Component.v ([rng_] in std-*-distribution.h).  Floating point parameters are
    rational numbers (no infinities, no NaN). *)
From Coq Require Import QArith.
From Verif Require Import Base Random.
Open Scope N_scope.

(** The template argument [StdRng] of [PseudoRandomEngine]: an engine of Random.v, or
    ([k_unit]) the engine over the unit interval made of it (xoshiro-engine.h 416-497,
    xoroshiro-engine.h 420-498). *)
Record kind := mkKind { k_eng : engine; k_unit : bool }.

(** [StdRng::result_type]: an integer, or the real number [n * 2^-k] as in Random.v. *)
Inductive word : Set := WInt (n : N) | WUnit (n k : N).

(** [rng_()]. *)
Definition call (k : kind) (st : rng) : word * rng :=
  if k_unit k then let '((n, b), st') := draw01 (k_eng k) st in (WUnit n b, st')
  else let '(n, st') := draw (k_eng k) st in (WInt n, st').

(** [(RngType::min)()] and [(RngType::max)()] (xoshiro-engine.h 233-241, 485-493;
    xoroshiro-engine.h 248-256, 486-494). *)
Definition rng_min (k : kind) : word := if k_unit k then WUnit 0 0 else WInt 0.
Definition rng_max (k : kind) : word :=
  if k_unit k then WUnit 1 0 else WInt (2 ^ e_w (k_eng k) - 1).

(** The constructor [rng_(value)] (pseudo-random-generator.h 159-161; the argument of
    [xoshiro_engine(result_type)] is of the word type) and the default constructor with
    [default_seed] (xoshiro-engine.h 177, 198-206). *)
Definition constructed (k : kind) (s : option N) : rng :=
  match s with
  | None => seed (k_eng k) 1
  | Some v => seed (k_eng k) (wrap (e_w (k_eng k)) v)
  end.

(** [Seed(uint32_t)] (pseudo-random-generator.h 189-192): whatever is passed is converted to
    32 bits. *)
Definition seeded (k : kind) (v : N) : rng :=
  seed (k_eng k) (wrap (e_w (k_eng k)) (wrap 32 v)).

(** The parameters of the distributions (pseudo-random-generator.h 212-611), one constructor for
    each pair [CreateXxxDistribution] and [GenerateXxx]; for the sampling distributions, what
    the parameter object holds. *)
Inductive param : Set :=
| PUniformUint32 (lb ub : Z) | PUniformInt32 (lb ub : Z)
| PUniformUint64 (lb ub : Z) | PUniformInt64 (lb ub : Z)
| PUniformDouble (lb ub : Q) | PUniformFloat (lb ub : Q) | PUniform01
| PBernoulli (prob : Q) | PBinomial (numTrials : N) (prob : Q)
| PNegativeBinomial (numTrials : N) (prob : Q) | PGeometric (prob : Q)
| PPoisson (mean : Q) | PExponential (lambda : Q) | PGamma (shape scale : Q)
| PWeibull (shape scale : Q) | PExtremeValue (location scale : Q) | PBeta (alpha beta : Q)
| PLaplace (mean scale : Q) | PNormal (mean stddev : Q) | PLognormal (mean stddev : Q)
| PChiSquared (degrees : Q) | PCauchy (location scale : Q) | PFisherF (numerator denominator : Q)
| PStudentT (degrees : Q)
| PDiscrete (weights : list Q) | PPiecewiseConstant (bounds weights : list Q)
| PPiecewiseLinear (bounds weights : list Q)
| PTriangle (a b c : Q).

(** Comparisons of [double]s. *)
Definition Qltb (x y : Q) : bool := negb (Qle_bool y x).
Definition is_prob (x : Q) : bool := Qle_bool 0 x && Qle_bool x 1.
Definition positive (x : Q) : bool := Qltb 0 x.

(** The assertions of [CreateXxxDistribution] (pseudo-random-generator.h 216, 231, 246, 261,
    276, 297, 312, 327, 344, 360, 375, 390, 405-406, 421-422, 437, 452-453, 468-469, 484, 499,
    514, 529, 544-545, 560; none in 572-605).  For the piecewise constant distribution: the bound
    number 0 is read (std-piecewise-constant-distribution.h 181-183), and
    [PiecewiseConstantDistributionParam::GetBound] asserts that it is there
    (i-piecewise-constant-distribution.h 85-89).  There is no [CreateUniform01]. *)
Definition create_asserts (p : param) : bool :=
  match p with
  | PUniformUint32 lb ub | PUniformInt32 lb ub | PUniformUint64 lb ub | PUniformInt64 lb ub => (lb <=? ub)%Z
  | PUniformDouble lb ub | PUniformFloat lb ub => Qle_bool lb ub
  | PUniform01 => true
  | PBernoulli q | PBinomial _ q | PNegativeBinomial _ q | PGeometric q => is_prob q
  | PPoisson x | PExponential x => positive x
  | PGamma x y | PWeibull x y => positive x && positive y
  | PExtremeValue _ y => positive y
  | PBeta x y => positive x && positive y
  | PLaplace x y => positive x && positive y
  | PNormal _ y | PLognormal _ y => positive y
  | PChiSquared x => positive x
  | PCauchy _ y => positive y
  | PFisherF x y => positive x && positive y
  | PStudentT x => positive x
  | PDiscrete _ => true
  | PPiecewiseConstant bounds _ => negb (Nat.eqb (length bounds) 0)
  | PPiecewiseLinear _ _ | PTriangle _ _ _ => true
  end.

(** A computation of Boost.Random that may call the generator, and uses what it returns
    (a finite tree: computations that never end are not modelled). *)
Inductive drawing (A : Type) :=
| Ret (a : A)
| Call (next : word -> drawing A).
Arguments Ret {A} a.
Arguments Call {A} next.

Fixpoint perform {A} (k : kind) (t : drawing A) (st : rng) : A * rng :=
  match t with
  | Ret a => (a, st)
  | Call next => let '(w, st') := call k st in perform k (next w) st'
  end.

(** The part of Boost.Random behind the distributions: the objects [dist_], their constructors
    ([None]: an assertion fails), [dist_(rng)] and [dist_.reset()].  Theorems quantify over it. *)
Record library := mkLibrary {
  l_state : Type;
  l_value : Type;
  l_make : param -> option l_state;
  l_draw : kind -> l_state -> drawing (l_value * l_state);
  l_reset : l_state -> l_state }.

Section Front.
Variable L : library.

(** Engines: the template argument and [rng_] (pseudo-random-generator.h 620-621);
    distributions: the number of the engine [rng_] points to, and [dist_]
    (std-normal-distribution.h 95-97). *)
Record world := mkWorld { w_engs : list (kind * rng); w_dists : list (nat * l_state L) }.
Definition w_init : world := mkWorld [] [].

Inductive op :=
| ONew (k : kind) (s : option N)
| OSeed (i : nat) (v : N)
| ODiscard (i : nat) (z : nat)
| OGenerate (i : nat)
| OGenerateX (i : nat) (p : param)
| OCreate (i : nat) (p : param)
| ODraw (d : nat)
| OReset (d : nat).

(** What happens to one engine, and what it returns; the distributions are named by their
    number. *)
Inductive event :=
| ENew (k : kind) (s : option N) | ESeed (v : N) | EDiscard (z : nat)
| EGenerate (w : word) | EGenerateX (p : param) (v : l_value L)
| ECreate (d : nat) (p : param) | EDraw (d : nat) (v : l_value L) | EReset (d : nat).

(** [Ptr::operator->] on something that was not created is not expressible in C++; [UB] here. *)
Definition get_eng (w : world) (i : nat) : outcome (kind * rng) :=
  match nth_error (w_engs w) i with Some x => Done x | None => UB end.
Definition get_dist (w : world) (d : nat) : outcome (nat * l_state L) :=
  match nth_error (w_dists w) d with Some x => Done x | None => UB end.
Definition set_rng (w : world) (i : nat) (k : kind) (st : rng) : world :=
  mkWorld (upd (w_engs w) i (k, st)) (w_dists w).

(** The constructor of the distribution of the library; its assertions. *)
Definition make (p : param) : outcome (l_state L) :=
  match l_make L p with Some s => Done s | None => AssertFail end.

(** In the order of the operations: pseudo-random-generator.h 151-161, 189-192, 194-197,
    168-171, [GenerateXxx] (e.g. 222-226: a new [dist_] is used once), [CreateXxxDistribution]
    (e.g. 213-220; std-normal-distribution.h 52-57), std-normal-distribution.h 61-64 (the engine's
    own [rng_], by reference), 66-69. *)
Definition step (o : op) (w : world) : outcome (world * (nat * event)) :=
  match o with
  | ONew k s =>
      Done (mkWorld (w_engs w ++ [(k, constructed k s)]) (w_dists w), (length (w_engs w), ENew k s))
  | OSeed i v =>
      let! x := get_eng w i in
      Done (set_rng w i (fst x) (seeded (fst x) v), (i, ESeed v))
  | ODiscard i z =>
      let! x := get_eng w i in
      Done (set_rng w i (fst x) (discard (k_eng (fst x)) z (snd x)), (i, EDiscard z))
  | OGenerate i =>
      let! x := get_eng w i in
      let '(v, st) := call (fst x) (snd x) in
      Done (set_rng w i (fst x) st, (i, EGenerate v))
  | OGenerateX i p =>
      let! x := get_eng w i in
      let! s := make p in
      let '((v, _), st) := perform (fst x) (l_draw L (fst x) s) (snd x) in
      Done (set_rng w i (fst x) st, (i, EGenerateX p v))
  | OCreate i p =>
      let! x := get_eng w i in
      if create_asserts p then
        let! s := make p in
        Done (mkWorld (w_engs w) (w_dists w ++ [(i, s)]), (i, ECreate (length (w_dists w)) p))
      else AssertFail
  | ODraw d =>
      let! y := get_dist w d in
      let! x := get_eng w (fst y) in
      let '((v, s), st) := perform (fst x) (l_draw L (fst x) (snd y)) (snd x) in
      Done (mkWorld (upd (w_engs w) (fst y) (fst x, st)) (upd (w_dists w) d (fst y, s)), (fst y, EDraw d v))
  | OReset d =>
      let! y := get_dist w d in
      Done (mkWorld (w_engs w) (upd (w_dists w) d (fst y, l_reset L (snd y))), (fst y, EReset d))
  end.

(** A program, and what it saw of which engine. *)
Fixpoint run (os : list op) (w : world) : outcome (world * list (nat * event)) :=
  match os with
  | [] => Done (w, [])
  | o :: os =>
      let! x := step o w in
      let! y := run os (fst x) in
      Done (fst y, snd x :: snd y)
  end.
End Front.
