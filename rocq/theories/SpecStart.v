(** Specification: calls that make no step. *)
From Coq Require Import Reals List Arith String.
From Verif Require Import Base ModelTool.
Local Open Scope R_scope.

(** No step is allowed, or none is reported. *)
Definition no_step (t : settings) (r : option report) : Prop :=
  t_max_steps t = O \/ exists r', r = Some r' /\ r_steps r' = O.
(** What each name means for the rate of a node of strength [w] out of a total [tot]. *)
Definition rate_start (tot draw : R) (nm : string) (w b : R) : Prop :=
  (nm = "random"%string -> b = draw) /\ (nm = "strengths"%string -> b * tot = 1) /\ (nm = "strengths_minor"%string -> b * (w + 1) = 1).

(** A second call for the same model and method, with a tolerance no smaller. *)
Definition resumes (t t2 : settings) : Prop :=
  t_model t2 = t_model t /\ t_method t2 = t_method t /\ t_tol t <= t_tol t2 /\ t_full t2 = true.
(** The array entry [a] stands for the factor [x]: itself, or as the exponent of [exp (- a)]
    in the models whose names end in [_exp]. *)
Definition stands_for (expo : bool) (a x : R) : Prop := if expo then x = exp (- a) else a = x.
