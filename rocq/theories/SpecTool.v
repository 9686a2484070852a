(** Specification vocabulary for whole calls of [solve_tool]. *)
From Coq Require Import Reals List Arith.
From Verif Require Import Base ModelTool.
Import ListNotations.
Local Open Scope R_scope.

(** The last recorded norm ([norm_seq[-1]]) is within the tolerance. *)
Definition tolerance_reached (tol : R) (r : report) : Prop := exists l a, r_norms r = l ++ [a] /\ a <= tol.
(** No line search gave up after its fifty halvings. *)
Definition never_gave_up (r : report) : Prop := forall al, In al (r_alfas r) -> (/ 2) ^ 50 < al.
(** [B] bounds the first [n] entries. *)
Definition bounded_by (n : nat) (x : nat -> R) (B : R) : Prop := forall i, (i < n)%nat -> x i <= B.
(** The coordinate of a class whose out-degree (first [n]) or in-degree (next [n]) is zero,
    given the arrays of the classes with a nonzero one. *)
Definition zero_constraint (n : nat) (nzo nzi : list nat) (r : nat) : Prop :=
  (r < n)%nat /\ ~ In r nzo \/ (n <= r < 2 * n)%nat /\ ~ In (r - n)%nat nzi.
