(** Specification vocabulary for the values reported by a graph object after a solve. *)
From Coq Require Import Reals List Arith.
From Verif Require Import Base SpecGraph.
Local Open Scope R_scope.
Import ListNotations.

(** [e] is the largest absolute deviation between two arrays of length [m]. *)
Definition sup_dev (m : nat) (ex ob : nat -> R) (e : R) : Prop :=
  (forall i, (i < m)%nat -> Rabs (ex i - ob i) <= e) /\ exists i, (i < m)%nat /\ e = Rabs (ex i - ob i).

(** Mean number of links and mean weight of a pair of the enhanced models (geometric
    weights with a different first step): see C11 and C27 for the law [q_enh]. *)
Definition link_mean (z y : R) : R := z * y / (1 - y + z * y).
Definition weight_mean (z y : R) : R := z * y / ((1 - y + z * y) * (1 - y)).
Definition mean_deg_und (n : nat) (x y : nat -> R) (i : nat) : R :=
  rsum n (fun j => if Nat.eqb i j then 0 else link_mean (x i * x j) (y i * y j)).
Definition mean_str_und (n : nat) (x y : nat -> R) (i : nat) : R :=
  rsum n (fun j => if Nat.eqb i j then 0 else weight_mean (x i * x j) (y i * y j)).
Definition mean_out_deg (n : nat) (x y bo bi : nat -> R) (i : nat) : R :=
  rsum n (fun j => if Nat.eqb i j then 0 else link_mean (x i * y j) (bo i * bi j)).
Definition mean_in_deg (n : nat) (x y bo bi : nat -> R) (j : nat) : R :=
  rsum n (fun i => if Nat.eqb j i then 0 else link_mean (x i * y j) (bo i * bi j)).
Definition mean_out_str (n : nat) (x y bo bi : nat -> R) (i : nat) : R :=
  rsum n (fun j => if Nat.eqb i j then 0 else weight_mean (x i * y j) (bo i * bi j)).
Definition mean_in_str (n : nat) (x y bo bi : nat -> R) (j : nat) : R :=
  rsum n (fun i => if Nat.eqb j i then 0 else weight_mean (x i * y j) (bo i * bi j)).

(** CReMa: pair [(i,j)] exists with probability [p i j] (given on i < j when undirected)
    and then carries an exponential weight of mean 1 / (beta_i + beta_j). *)
Definition crema_mean (n : nat) (p : nat -> nat -> R) (beta : nat -> R) (i : nat) : R :=
  rsum n (fun j => if Nat.eqb i j then 0 else p (Nat.min i j) (Nat.max i j) / (beta i + beta j)).
Definition crema_mean_out (n : nat) (p : nat -> nat -> R) (bo bi : nat -> R) (i : nat) : R :=
  rsum n (fun j => p i j / (bo i + bi j)).
Definition crema_mean_in (n : nat) (p : nat -> nat -> R) (bo bi : nat -> R) (j : nat) : R :=
  rsum n (fun i => p i j / (bo i + bi j)).
Definition positive_rates (n : nat) (p : nat -> nat -> R) (beta : nat -> R) : Prop :=
  forall i j, (i < j < n)%nat -> p i j <> 0 -> 0 < beta i + beta j.
Definition positive_rates_dir (n : nat) (p : nat -> nat -> R) (bo bi : nat -> R) : Prop :=
  forall i j, (i < n)%nat -> (j < n)%nat -> p i j <> 0 -> 0 < bo i + bi j.
(** CReMa log-likelihood for the strengths [s] (outgoing and incoming when directed). *)
Definition crema_loglik (n : nat) (p : nat -> nat -> R) (s beta : nat -> R) : R :=
  rsum n (fun j => rsum j (fun i => p i j * ln (beta i + beta j))) - rsum n (fun i => s i * beta i).
Definition crema_loglik_dir (n : nat) (p : nat -> nat -> R) (so si bo bi : nat -> R) : R :=
  rsum n (fun i => rsum n (fun j => p i j * ln (bo i + bi j))) -
  rsum n (fun i => so i * bo i) - rsum n (fun j => si j * bi j).
Definition hollow (p : nat -> nat -> R) : Prop := forall i, p i i = 0.
(** Factors of the nodes with a nonzero constraint are positive, the others vanish. *)
Definition supported (n : nat) (k x : nat -> R) : Prop :=
  forall i, (i < n)%nat -> (k i <> 0 -> 0 < x i) /\ (k i = 0 -> x i = 0).
