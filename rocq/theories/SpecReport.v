(** Specification vocabulary for the relative errors reported after a solve. *)
From Coq Require Import Reals Arith.
Local Open Scope R_scope.

(** [e] is the largest deviation between [ex] and [ob], entry [i] measured in units of
    [unit i]. *)
Definition sup_rel (m : nat) (ex ob unit : nat -> R) (e : R) : Prop :=
  (forall i, (i < m)%nat -> Rabs (ex i - ob i) <= e * unit i) /\
  exists i, (i < m)%nat /\ Rabs (ex i - ob i) = e * unit i.
(** The same for two families of constraints at once. *)
Definition sup_rel2 (m : nat) (ex1 ob1 unit1 ex2 ob2 unit2 : nat -> R) (e : R) : Prop :=
  (forall i, (i < m)%nat -> Rabs (ex1 i - ob1 i) <= e * unit1 i /\ Rabs (ex2 i - ob2 i) <= e * unit2 i) /\
  exists i, (i < m)%nat /\ (Rabs (ex1 i - ob1 i) = e * unit1 i \/ Rabs (ex2 i - ob2 i) = e * unit2 i).
(** The value of a constraint, kept away from zero. *)
Definition padded (ob : nat -> R) (i : nat) : R := ob i + exp (-100).
