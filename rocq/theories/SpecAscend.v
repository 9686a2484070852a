(** What a fixed-point solve of CReMa achieves: it raises the likelihood and approaches every
    solution with positive parameters. *)
From Coq Require Import Reals List Arith Bool.
From Verif Require Import Base SpecGraph SpecExist SpecCReMa SpecConverge ModelSolver ModelDispatch ModelRun.
Import ListNotations.
Local Open Scope R_scope.

Fixpoint pair_sum (es : topology) (F : nat -> nat -> R -> R) : R :=
  match es with
  | [] => 0
  | (i, j, w) :: es => F i j w + pair_sum es F
  end.
(** Weights of the listed pairs are exponential of rate [b_i + b_j]; [w] is the probability
    of the link: log-likelihood of the strengths, and mean strength of node [k]. *)
Definition crema_value (m : nat) (s : nat -> R) (es : topology) (b : nat -> R) : R :=
  pair_sum es (fun i j w => w * ln (b i + b j)) - rsum m (fun k => s k * b k).
Definition crema_strengths (es : topology) (b : nat -> R) (k : nat) : R :=
  pair_sum es (fun i j w => ((if Nat.eqb i k then 1 else 0) + (if Nat.eqb j k then 1 else 0)) * (w / (b i + b j))).
Definition positive_ends (es : topology) (b : nat -> R) : Prop := forall i j w, In (i, j, w) es -> 0 < b i /\ 0 < b j.
Definition positive_solution (m : nat) (s : nat -> R) (es : topology) (z : nat -> R) : Prop :=
  positive_ends es z /\ forall k, (k < m)%nat -> crema_strengths es z k = s k.
(** Relative entropy of [z] and [b], each node counted with its strength. *)
Definition crema_distance (m : nat) (s z b : nat -> R) : R := rsum m (fun k => s k * (z k * ln (z k / b k) - z k + b k)).
(** Arcs between the out-copy [i] of a node and the in-copy [j + n] of another one. *)
Definition two_sided (n : nat) (es : topology) : topology := map (fun e => (fst (fst e), (snd (fst e) + n)%nat, snd e)) es.
Definition two_arrays (n : nat) (a b : nat -> R) (r : nat) : R := if Nat.ltb r n then a r else b (r - n)%nat.

(** The strengths that the runs of crema-sparse aim at. *)
Definition raised_strengths (s : nat -> R) (i : nat) : R := s i + exp (- (100)).

(** Every fixed-point run returns, after [t] steps, positive parameters with a likelihood
    between the one of the start and the maximum, nearer to the solution [z] than the start;
    the likelihood missing and the squared errors of the strengths are at most [K / t].  A run
    that ends before its last step, with a last recorded norm above [tol], has errors at most
    [B eps]; for any [eps] the number of steps is bounded. *)
Definition run_approaches (linsolve : (nat -> nat -> R) -> (nat -> R) -> option (nat -> R)) (ok : (nat -> nat -> R) -> bool)
    (eigh : (nat -> nat -> R) -> (nat -> R) * (nat -> nat -> R)) (fuel m : nat) (a : arguments) (search : bool)
    (x0 s : nat -> R) (es : topology) (z : nat -> R) (D : dispatched) : Prop :=
  (exists K B, 0 <= K /\ 0 <= B /\ forall O, fixed_point_options search O -> exists x t ns last ds als,
     solver (run_numerics linsolve ok m) (run_problem eigh fuel m D a) O x0 = Full x t (ns ++ [last]) ds als /\
     (t <= o_max_steps O)%nat /\ positive_ends es x /\
     crema_value m s es x0 <= crema_value m s es x <= crema_value m s es z /\
     0 <= crema_distance m s z x <= crema_distance m s z x0 /\
     INR t * (crema_value m s es z - crema_value m s es x) <= K /\
     (forall k, (k < m)%nat -> INR t * (crema_strengths es x k - s k) ^ 2 <= K) /\
     (0 < o_eps O < 1 -> t = o_max_steps O \/ last <= o_tol O \/ forall k, (k < m)%nat -> Rabs (crema_strengths es x k - s k) <= B * o_eps O)) /\
  (forall eps, 0 < eps -> exists N, forall O x t ns ds als, fixed_point_options search O -> eps <= o_eps O ->
     solver (run_numerics linsolve ok m) (run_problem eigh fuel m D a) O x0 = Full x t ns ds als -> (t <= N)%nat).
(** One more step never lowers the likelihood nor the distance to the solution. *)
Definition steps_ascend (linsolve : (nat -> nat -> R) -> (nat -> R) -> option (nat -> R)) (ok : (nat -> nat -> R) -> bool)
    (eigh : (nat -> nat -> R) -> (nat -> R) * (nat -> nat -> R)) (fuel m : nat) (a : arguments) (search : bool)
    (x0 s : nat -> R) (es : topology) (z : nat -> R) (D : dispatched) : Prop :=
  forall O O' x t ns ds als x' t' ns' ds' als', fixed_point_options search O -> fixed_point_options search O' ->
    solver (run_numerics linsolve ok m) (run_problem eigh fuel m D a) O x0 = Full x t ns ds als ->
    solver (run_numerics linsolve ok m) (run_problem eigh fuel m D a) O' x0 = Full x' t' ns' ds' als' -> (t <= t')%nat ->
    crema_value m s es x <= crema_value m s es x' /\ crema_distance m s z x' <= crema_distance m s z x.
(** The runs with more and more steps converge to one positive solution. *)
Definition run_settles (linsolve : (nat -> nat -> R) -> (nat -> R) -> option (nat -> R)) (ok : (nat -> nat -> R) -> bool)
    (eigh : (nat -> nat -> R) -> (nat -> R) * (nat -> nat -> R)) (fuel m : nat) (a : arguments) (search : bool)
    (x0 s : nat -> R) (es : topology) (D : dispatched) : Prop :=
  exists y, positive_solution m s es y /\ forall e, 0 < e -> exists T, forall O x t ns ds als, fixed_point_options search O ->
    solver (run_numerics linsolve ok m) (run_problem eigh fuel m D a) O x0 = Full x t ns ds als -> (T <= t)%nat ->
    forall k, (k < m)%nat -> Rabs (x k - y k) <= e.
(** No fixed-point run gets the strengths within [e]. *)
Definition run_fails (linsolve : (nat -> nat -> R) -> (nat -> R) -> option (nat -> R)) (ok : (nat -> nat -> R) -> bool)
    (eigh : (nat -> nat -> R) -> (nat -> R) * (nat -> nat -> R)) (fuel m : nat) (a : arguments) (search : bool)
    (x0 s : nat -> R) (es : topology) (e : R) (D : dispatched) : Prop :=
  forall O, fixed_point_options search O -> exists x t ns ds als,
    solver (run_numerics linsolve ok m) (run_problem eigh fuel m D a) O x0 = Full x t ns ds als /\
    exists k, (k < m)%nat /\ e < Rabs (crema_strengths es x k - s k).
