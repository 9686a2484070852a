(** Specification: two networks on the same nodes whose constraints are close. *)
From Coq Require Import Reals Arith.
Local Open Scope R_scope.

(** Two sequences differ by at most [d] at each of [n] nodes. *)
Definition within (n : nat) (a b : nat -> R) (d : R) : Prop := forall i, (i < n)%nat -> Rabs (a i - b i) <= d.
