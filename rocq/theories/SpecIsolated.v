(** Specification: which calls of [solve_tool] cannot raise. *)
From Coq Require Import Reals List Arith Bool String.
From Verif Require Import Base SpecSolver SpecRun SpecLinsearch SpecReach SpecReachTool SpecDispatch SpecGuess ModelDispatch ModelGuess ModelRun ModelSolve ModelTool ModelObject.
Import ListNotations.
Local Open Scope R_scope.

(** What newton's method needs of numpy at [m] parameters: answers on definite matrices. *)
Definition numpy_answers (m : nat) (t : settings) (e : environment) : Prop :=
  t_method t = "newton"%string -> solves_definite m (v_linsolve e) /\ eigen_solver m (v_eigh e).
(** A call with method "newton" or "quasinewton" and the starting point [nm]; the tolerance is
    any number that is not negative. *)
Definition named_call (model nm : string) (e : environment) (t : settings) : Prop :=
  t_model t = model /\ In (t_method t) descent_methods /\ t_guess t = GStr nm /\ 0 <= t_tol t /\ quiet t e.
(** Every node has a link. *)
Definition none_isolated (n : nat) (a : nat -> nat -> R) : Prop := forall i, (i < n)%nat -> exists j, (j < n)%nat /\ 0 < a i j.
(** Node [i] has no link. *)
Definition no_link (n : nat) (a : nat -> nat -> R) (i : nat) : Prop := (i < n)%nat /\ ~ exists j, (j < n)%nat /\ 0 < a i j.
(** The call raised [x]. *)
Definition raises {S : Type} (a : object_run S) (x : raised) : Prop := exists o rep, a = Run (o, Some x) rep.
