(** Specification: how far two sets of parameters are from each other. *)
From Coq Require Import Reals List Arith.
From Verif Require Import Base SpecGraph SpecWeighted.
Local Open Scope R_scope.

(** Parameters [z] compared with [x]: none is negative, and [z] vanishes only where [x] does. *)
Definition comparable (n : nat) (x z : nat -> R) : Prop :=
  forall i, (i < n)%nat -> 0 <= x i /\ 0 <= z i /\ (0 < x i -> 0 < z i).
(** Sum of the distances between the logarithms of the positive parameters. *)
Definition log_gap (n : nat) (x z : nat -> R) : R :=
  rsum n (fun i => if Rlt_dec 0 (x i) then Rabs (ln (z i) - ln (x i)) else 0).
(** The links of [a] are possible: both their ends have a positive parameter. *)
Definition may_link (n : nat) (x y : nat -> R) (a : nat -> nat -> bool) : Prop :=
  forall i j, (i < n)%nat -> (j < n)%nat -> a i j = true -> 0 < x i /\ 0 < y j.
(** Squared distance between two families of link probabilities, each pair counted once. *)
Definition apart_und (n : nat) (p q : nat -> nat -> R) : R := rsum n (fun j => rsum j (fun i => (p i j - q i j) ^ 2)).
Definition apart_dir (n : nat) (p q : nat -> nat -> R) : R :=
  rsum n (fun i => rsum n (fun j => if Nat.eqb i j then 0 else (p i j - q i j) ^ 2)).
Definition one_norm (n : nat) (x z : nat -> R) : R := rsum n (fun i => Rabs (z i - x i)).
(** The links of a weighted network are possible. *)
Definition may_weigh (n : nat) (x y bo bi : nat -> R) (w : nat -> nat -> nat) : Prop :=
  forall i j, (i < n)%nat -> (j < n)%nat -> w i j <> O -> 0 < x i /\ 0 < y j /\ 0 < bo i /\ 0 < bi j.
(** Weights of distinct nodes have a finite mean. *)
Definition tame (n : nat) (bo bi : nat -> R) : Prop := forall i j, (i < n)%nat -> (j < n)%nat -> i <> j -> bo i * bi j < 1.
(** Distance between the mean weights of the pairs under two sets of rates, relative to the
    means themselves, weighed with the probability of the pair. *)
Definition rates_apart (n : nat) (p : nat -> nat -> R) (b c : nat -> R) : R :=
  rsum n (fun j => rsum j (fun i => p i j * ((/ (b i + b j) - / (c i + c j)) ^ 2 / (/ (b i + b j) * / (c i + c j))))).
Definition rates_apart_dir (n : nat) (p : nat -> nat -> R) (bo bi co ci : nat -> R) : R :=
  rsum n (fun i => rsum n (fun j => p i j * ((/ (bo i + bi j) - / (co i + ci j)) ^ 2 / (/ (bo i + bi j) * / (co i + ci j))))).
