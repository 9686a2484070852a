(** Specification vocabulary for whole runs of the solver on real vectors. *)
From Coq Require Import Reals List Arith Bool String.
From Verif Require Import Base SpecLinsearch ModelSolver ModelDispatch ModelRun.
Import ListNotations.
Local Open Scope R_scope.

(** What [np.linalg.solve] and [scipy.linalg.eigh] promise, in exact arithmetic. *)
Definition linear_solver (m : nat) (linsolve : (nat -> nat -> R) -> (nat -> R) -> option (nat -> R)) : Prop :=
  forall B v d, linsolve B v = Some d -> forall i, (i < m)%nat -> apply_mat m B d i = v i.
Definition eigen_solver (m : nat) (eigh : (nat -> nat -> R) -> (nat -> R) * (nat -> nat -> R)) : Prop :=
  forall b, symmetric m b -> eigen_decomposition m b (fst (eigh b)) (snd (eigh b)).

(** [e] is the largest absolute value among the first [m] entries. *)
Definition largest (m : nat) (f : nat -> R) (e : R) : Prop :=
  (forall i, (i < m)%nat -> Rabs (f i) <= e) /\ (exists i, (i < m)%nat /\ e = Rabs (f i)).

(** From [x] to [x'] with step length [a]: a fraction [a] of the Newton step for the
    matrix [B], of the diagonal Newton step for the vector [b], of the way to [g]. *)
Definition newton_move (m : nat) (B : nat -> nat -> R) (f : nat -> R) (a : R) (x x' : nat -> R) : Prop :=
  forall i, (i < m)%nat -> rsum m (fun j => B i j * (x' j - x j)) = - (a * f i).
Definition diagonal_move (m : nat) (b f : nat -> R) (a : R) (x x' : nat -> R) : Prop :=
  forall i, (i < m)%nat -> b i <> 0 /\ b i * (x' i - x i) = - (a * f i).
Definition relaxed_move (g : nat -> R) (a : R) (x x' : nat -> R) : Prop :=
  forall i, x' i = (1 - a) * x i + a * g i.

(** The step lengths recorded by a run with a line search; without one they are 1. *)
Definition recorded (search : bool) (alfas : list R) (t : nat) (a : R) : Prop :=
  if search then nth_error alfas t = Some a else a = 1.

(** The options of a solve with a line search and a regulariser: [solve_tool]'s defaults
    with [regularise] left on, for any tolerance. *)
Definition documented (O : options R) (meth : string) : Prop :=
  o_method O = method_of_string meth /\ o_linsearch O = true /\ o_regularise O = true /\
  0 < o_regularise_eps O /\ 0 <= o_tol O.

(** A run from [x0] whose recorded step lengths all exceed [2^-50] (no line search gave up
    after its fifty halvings) ends in the domain with a larger value of [L], unless it made
    no step.  A run never leaves the domain. *)
Definition run_increases (linsolve : (nat -> nat -> R) -> (nat -> R) -> option (nat -> R)) (ok : (nat -> nat -> R) -> bool)
    (eigh : (nat -> nat -> R) -> (nat -> R) * (nat -> nat -> R)) (fuel m : nat) (a : arguments) (O : options R)
    (dom : (nat -> R) -> Prop) (L : (nat -> R) -> R) (x0 : nat -> R) (D : dispatched) : Prop :=
  forall x k ns ds als, solver (run_numerics linsolve ok m) (run_problem eigh fuel m D a) O x0 = Full x k ns ds als ->
    (forall al, In al als -> (/ 2) ^ 50 < al) -> dom x /\ (k <> 0%nat -> L x0 < L x).
(** The same run moreover gains at least [gain] with every step but the last. *)
Definition gain (m : nat) (O : options R) : R :=
  / 10000 * (o_tol O / sqrt (INR m) * o_regularise_eps O) * (o_eps O * o_eps O).
Definition run_climbs (linsolve : (nat -> nat -> R) -> (nat -> R) -> option (nat -> R)) (ok : (nat -> nat -> R) -> bool)
    (eigh : (nat -> nat -> R) -> (nat -> R) * (nat -> nat -> R)) (fuel m : nat) (a : arguments) (O : options R)
    (dom : (nat -> R) -> Prop) (L : (nat -> R) -> R) (x0 : nat -> R) (D : dispatched) : Prop :=
  forall x k ns ds als, solver (run_numerics linsolve ok m) (run_problem eigh fuel m D a) O x0 = Full x k ns ds als ->
    (forall al, In al als -> (/ 2) ^ 50 < al) ->
    (dom x /\ (k <> 0%nat -> L x0 < L x)) /\ (0 <= o_eps O -> INR (k - 1) * gain m O <= L x - L x0).
(** When the objective is bounded by [U] on the domain, the number of steps is bounded
    too, and a step budget beyond that bound is never the reason to stop. *)
Definition run_settles (linsolve : (nat -> nat -> R) -> (nat -> R) -> option (nat -> R)) (ok : (nat -> nat -> R) -> bool)
    (eigh : (nat -> nat -> R) -> (nat -> R) * (nat -> nat -> R)) (fuel m : nat) (a : arguments) (O : options R)
    (dom : (nat -> R) -> Prop) (L : (nat -> R) -> R) (U : R) (x0 : nat -> R) (D : dispatched) : Prop :=
  forall x k ns ds als, solver (run_numerics linsolve ok m) (run_problem eigh fuel m D a) O x0 = Full x k ns ds als ->
    (forall al, In al als -> (/ 2) ^ 50 < al) -> (forall z, dom z -> L z <= U) -> 0 <= o_eps O ->
    INR (k - 1) * gain m O <= U - L x0 /\
    (U - L x0 < INR (o_max_steps O - 1) * gain m O ->
       exists norm diff, nth_error ns k = Some norm /\ nth_error ds k = Some diff /\ (norm <= o_tol O \/ diff <= o_eps O)).
Definition run_stays (linsolve : (nat -> nat -> R) -> (nat -> R) -> option (nat -> R)) (ok : (nat -> nat -> R) -> bool)
    (eigh : (nat -> nat -> R) -> (nat -> R) * (nat -> nat -> R)) (fuel m : nat) (a : arguments) (O : options R)
    (dom : (nat -> R) -> Prop) (x0 : nat -> R) (D : dispatched) : Prop :=
  forall x k ns ds als, solver (run_numerics linsolve ok m) (run_problem eigh fuel m D a) O x0 = Full x k ns ds als -> dom x.
