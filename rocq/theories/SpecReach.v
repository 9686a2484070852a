(** Specification vocabulary for runs that are bound to reach their tolerance. *)
From Coq Require Import Reals List Arith Bool String.
From Verif Require Import Base SpecGraph SpecLinsearch ModelDCM ModelSolver ModelDispatch ModelRun SpecRun.
Import ListNotations.
Local Open Scope R_scope.

(** [np.linalg.solve] succeeds on symmetric positive definite matrices. *)
Definition solves_definite (m : nat) (linsolve : (nat -> nat -> R) -> (nat -> R) -> option (nat -> R)) : Prop :=
  forall B v, symmetric m B -> (forall w, (exists i, (i < m)%nat /\ w i <> 0) -> 0 < qform m B w) -> exists d, linsolve B v = Some d.

(** Constants of a run on [m] parameters whose pairs weigh at most [W] around any one
    parameter: the largest curvature of the regularised matrix, the shortest accepted step
    length, the smallest gain of a step and its smallest displacement. *)
Definition most_curvature (W : R) (O : options R) : R := W * (1 + o_regularise_eps O).
Definition least_alfa (m : nat) (O : options R) : R := Rmin (/ 8) (o_regularise_eps O / (8 * sqrt (INR m))).
Definition least_rise (m : nat) (W : R) (O : options R) : R :=
  / 10000 * least_alfa m O * (o_tol O * o_tol O / most_curvature W O).
Definition least_move (m : nat) (W : R) (O : options R) : R := least_alfa m O * (o_tol O / most_curvature W O).

(** Options under which the run has enough halvings, a small enough [eps] and, from a
    point [room] below the supremum of the objective, enough steps. *)
Definition ample (m : nat) (W room : R) (O : options R) : Prop :=
  0 < o_tol O /\ o_verbose O = false /\ o_full_return O = true /\
  sqrt (INR m) < 2 ^ 48 * o_regularise_eps O /\ 0 <= o_eps O < 1 /\ o_eps O <= least_move m W O /\
  room < INR (o_max_steps O) * least_rise m W O.

(** A call that returns, and returns because the norm is within the tolerance. *)
Definition run_reaches (linsolve : (nat -> nat -> R) -> (nat -> R) -> option (nat -> R)) (ok : (nat -> nat -> R) -> bool)
    (eigh : (nat -> nat -> R) -> (nat -> R) * (nat -> nat -> R)) (fuel m : nat) (a : arguments) (O : options R)
    (W room : R) (x0 : nat -> R) (good : (nat -> R) -> Prop) (D : dispatched) : Prop :=
  exists x k ns ds als norm, solver (run_numerics linsolve ok m) (run_problem eigh fuel m D a) O x0 = Full x k ns ds als /\
    nth_error ns k = Some norm /\ norm <= o_tol O /\ INR k * least_rise m W O <= room /\ good x.

(** Every class has a node in it. *)
Definition inhabited_classes (n m : nat) (cls : nat -> nat) : Prop := forall q, (q < m)%nat -> exists i, (i < n)%nat /\ cls i = q.
(** The multipliers of a directed binary network at the exponents [theta]: zero outside the
    lists of nodes with outgoing and incoming links. *)
Definition multipliers (m : nat) (nzo nzi : list nat) (theta : nat -> R) (q : nat) : R :=
  if Nat.ltb q m then (if memb q nzo then exp (- theta q) else 0) else (if memb (q - m) nzi then exp (- theta q) else 0).
(** The same options with another step budget and another threshold on the step. *)
Definition with_budget (O : options R) (steps : nat) (eps : R) : options R :=
  {| o_tol := o_tol O; o_eps := eps; o_max_steps := steps; o_method := o_method O; o_verbose := o_verbose O;
     o_regularise := o_regularise O; o_regularise_eps := o_regularise_eps O; o_full_return := o_full_return O; o_linsearch := o_linsearch O |}.
(** From some step budget on, and below some threshold. *)
Definition eventually (P : nat -> R -> Prop) : Prop :=
  exists M e0, 0 < e0 /\ forall M' e, (M <= M')%nat -> 0 <= e <= e0 -> P M' e.
