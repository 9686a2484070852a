(** Specification: the order of the nodes by their constraints and by their parameters. *)
From Coq Require Import Reals Arith.
Local Open Scope R_scope.

(** The first sequence is larger exactly where the second is. *)
Definition same_ranking (n : nat) (k x : nat -> R) : Prop :=
  forall i j, (i < n)%nat -> (j < n)%nat -> (k i < k j <-> x i < x j).
(** No parameter is negative. *)
Definition none_negative (n : nat) (x : nat -> R) : Prop := forall i, (i < n)%nat -> 0 <= x i.
(** Two nodes have the same links with every third node. *)
Definition same_links (n : nat) (a : nat -> nat -> R) (i j : nat) : Prop :=
  forall l, (l < n)%nat -> l <> i -> l <> j -> a i l = a j l.
