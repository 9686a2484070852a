(** What convergence of a solve means, stated on classes of nodes: [c j] nodes share the
    degree [k j]. *)
From Coq Require Import Reals List Arith Bool String.
From Verif Require Import Base SpecGraph SpecExist SpecTool ModelGuess ModelSolver ModelDispatch ModelRun ModelSolve ModelTool.
Import ListNotations.
Local Open Scope R_scope.

(** Mean degree of a node of class [i]: it may be linked to every other node. *)
Definition class_mean (n : nat) (c : nat -> R) (p : nat -> nat -> R) (i : nat) : R :=
  rsum n (fun j => (c j - (if Nat.eqb i j then 1 else 0)) * p i j).

(** Degrees of classes of one or more nodes; some node has links. *)
Definition class_degrees (n : nat) (c k : nat -> R) : Prop :=
  (forall i, (i < n)%nat -> 1 <= c i) /\ (forall i, (i < n)%nat -> k i = 0 \/ 1 <= k i).
Definition nonempty (n : nat) (k : nat -> R) : Prop := exists i, (i < n)%nat /\ k i <> 0.

(** Relative distance at most [e]. *)
Definition relatively (e a b : R) : Prop := Rabs (a - b) <= e * b.

(** The options of a fixed-point solve with or without a line search, for any tolerances
    and any limit on the number of steps. *)
Definition fixed_point_options (search : bool) (O : options R) : Prop :=
  o_method O = FixedPoint /\ o_linsearch O = search /\ o_full_return O = true.

(** Every fixed-point run returns; its result is good within [K r^t] after [t] steps.  A run
    that ends before its last step, with a last recorded norm above [tol], ends within
    [B eps]; for any [eps] the number of steps is bounded. *)
Definition run_converges (linsolve : (nat -> nat -> R) -> (nat -> R) -> option (nat -> R)) (ok : (nat -> nat -> R) -> bool)
    (eigh : (nat -> nat -> R) -> (nat -> R) * (nat -> nat -> R)) (fuel m : nat) (a : arguments) (search : bool)
    (x0 : nat -> R) (r : R) (good near : R -> (nat -> R) -> Prop) (D : dispatched) : Prop :=
  (exists K B, 0 <= K /\ 0 <= B /\ forall O, fixed_point_options search O -> exists x t ns last ds als,
     solver (run_numerics linsolve ok m) (run_problem eigh fuel m D a) O x0 = Full x t (ns ++ [last]) ds als /\
     (t <= o_max_steps O)%nat /\ good (K * r ^ t) x /\
     (0 < o_eps O < 1 -> t = o_max_steps O \/ last <= o_tol O \/ near (B * o_eps O) x)) /\
  (forall eps, 0 < eps -> exists N, forall O x t ns ds als, fixed_point_options search O -> eps <= o_eps O ->
     solver (run_numerics linsolve ok m) (run_problem eigh fuel m D a) O x0 = Full x t ns ds als -> (t <= N)%nat).
(** The norms that the runs record, which they compare with [tol], stay away from zero. *)
Definition norms_above (linsolve : (nat -> nat -> R) -> (nat -> R) -> option (nat -> R)) (ok : (nat -> nat -> R) -> bool)
    (eigh : (nat -> nat -> R) -> (nat -> R) * (nat -> nat -> R)) (fuel m : nat) (a : arguments) (search : bool)
    (x0 : nat -> R) (tol : R) (D : dispatched) : Prop :=
  forall O x t ns ds als, fixed_point_options search O ->
    solver (run_numerics linsolve ok m) (run_problem eigh fuel m D a) O x0 = Full x t ns ds als -> forall v, In v ns -> tol <= v.

(** Parameters [exp(-theta)]; the second half of an array of both directions. *)
Definition expn (th : nat -> R) (i : nat) : R := exp (- th i).
Definition shift (n : nat) (x : nat -> R) (i : nat) : R := x (i + n)%nat.
(** Solutions of the models on classes. *)
Definition cm_solution (n : nat) (c k z : nat -> R) : Prop :=
  cm_full n k z /\ forall i, (i < n)%nat -> class_mean n c (p_ubcm z) i = k i.
Definition dcm_solution (n : nat) (c ko ki z : nat -> R) : Prop :=
  cm_full n ko z /\ cm_full n ki (shift n z) /\
  forall i, (i < n)%nat -> class_mean n c (p_dbcm z (shift n z)) i = ko i /\ class_mean n c (p_dbcm (shift n z) z) i = ki i.
(** Mean degrees within [e] of the degrees. *)
Definition cm_near (n : nat) (c k : nat -> R) (e : R) (x : nat -> R) : Prop :=
  forall i, (i < n)%nat -> Rabs (class_mean n c (p_ubcm x) i - k i) <= e.
Definition dcm_near (n : nat) (c ko ki : nat -> R) (e : R) (x : nat -> R) : Prop :=
  forall i, (i < n)%nat -> Rabs (class_mean n c (p_dbcm x (shift n x)) i - ko i) <= e /\ Rabs (class_mean n c (p_dbcm (shift n x) x) i - ki i) <= e.
(** Mean degrees within a proportion [e] of the degrees. *)
Definition cm_close (n : nat) (c k : nat -> R) (e : R) (x : nat -> R) : Prop :=
  forall i, (i < n)%nat -> relatively e (class_mean n c (p_ubcm x) i) (k i).
Definition dcm_close (n : nat) (c ko ki : nat -> R) (e : R) (x : nat -> R) : Prop :=
  forall i, (i < n)%nat -> relatively e (class_mean n c (p_dbcm x (shift n x)) i) (ko i) /\ relatively e (class_mean n c (p_dbcm (shift n x) x) i) (ki i).

(** * Whole calls *)
(** [solve_tool(model, "fixed-point", initial_guess=s, linsearch=ls, full_return=True)] with
    any [tol], [eps] and [max_steps]. *)
Definition fixed_point_call (model : string) (s : guess) (ls : bool) (t : settings) : Prop :=
  t_model t = model /\ t_method t = "fixed-point"%string /\ t_guess t = s /\ t_linsearch t = ls /\ t_full t = true.
(** The reported error decreases geometrically with the number of steps; when the call did
    not stop on its tolerance, it is small with [eps] and large [max_steps]. *)
Definition error_controlled (r K B : R) (t : settings) (rep : report) (err : R) : Prop :=
  (r_steps rep <= t_max_steps t)%nat /\ err <= K * r ^ r_steps rep /\
  (~ tolerance_reached (t_tol t) rep -> 0 < t_eps t < 1 -> err <= Rmax (K * r ^ t_max_steps t) (B * t_eps t)).
(** All those calls complete on objects that are [fresh]; their errors are controlled, and
    for any [eps] their numbers of steps are bounded. *)
Definition calls_converge {S : Type} (tool : settings -> S -> ran S) (reported : settings -> S -> option report) (error : S -> option R)
    (fresh : S -> Prop) (model : string) (s : guess) (ls : bool) (r : R) : Prop :=
  (exists K B, 0 <= K /\ 0 <= B /\ forall t o, fixed_point_call model s ls t -> fresh o -> exists o' rep err,
     tool t o = (o', None) /\ reported t o = Some rep /\ error o' = Some err /\ error_controlled r K B t rep err) /\
  (forall eps, 0 < eps -> exists N, forall t o rep, fixed_point_call model s ls t -> fresh o -> eps <= t_eps t ->
     reported t o = Some rep -> (r_steps rep <= N)%nat).
(** A small tolerance never stops such a call. *)
Definition tolerance_unused {S : Type} (reported : settings -> S -> option report) (fresh : S -> Prop) (model : string) (s : guess) (ls : bool) : Prop :=
  exists tol, 0 < tol /\ forall t o rep, fixed_point_call model s ls t -> fresh o -> reported t o = Some rep -> t_tol t < tol ->
    ~ tolerance_reached (t_tol t) rep.
