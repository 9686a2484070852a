(** Specification of graphs, degree classes and of the probability of a graph
    with independent links. *)
From Coq Require Import Reals List Arith.
From Verif Require Import Base.
Local Open Scope R_scope.

Definition ind (b : bool) : R := if b then 1 else 0.

(** Simple undirected graph on nodes [0..n-1]. *)
Definition simple_graph (n : nat) (a : nat -> nat -> bool) : Prop :=
  (forall i j, (i < n)%nat -> (j < n)%nat -> a i j = a j i) /\
  (forall i, (i < n)%nat -> a i i = false).

(** Loopless directed graph on nodes [0..n-1]. *)
Definition loopless (n : nat) (a : nat -> nat -> bool) : Prop :=
  forall i, (i < n)%nat -> a i i = false.

(** Number of neighbours (out-neighbours) of node [i]. *)
Definition deg (n : nat) (a : nat -> nat -> bool) (i : nat) : R :=
  rsum n (fun j => ind (a i j)).

(** Number of in-neighbours of node [j]. *)
Definition indeg (n : nat) (a : nat -> nat -> bool) (j : nat) : R :=
  rsum n (fun i => ind (a i j)).

(** Probability of an undirected graph whose unordered pairs are linked
    independently, pair [{i,j}] with probability [p i j]. *)
Definition prob_undirected (n : nat) (p : nat -> nat -> R) (a : nat -> nat -> bool) : R :=
  rprod n (fun i => rprod i (fun j => if a j i then p j i else 1 - p j i)).

(** Probability of a directed graph whose ordered pairs of distinct nodes are
    linked independently. *)
Definition prob_directed (n : nat) (p : nat -> nat -> R) (a : nat -> nat -> bool) : R :=
  rprod n (fun i => rprod n (fun j =>
    if Nat.eqb i j then 1 else if a i j then p i j else 1 - p i j)).

(** UBCM link probability. *)
Definition p_ubcm (x : nat -> R) (i j : nat) : R := x i * x j / (1 + x i * x j).

(** DBCM link probability. *)
Definition p_dbcm (x y : nat -> R) (i j : nat) : R := x i * y j / (1 + x i * y j).

(** [classes n m cls c]: the map [cls] puts each of the [n] nodes in one of [m]
    classes and [c q] is the number of nodes of class [q]. *)
Definition classes (n m : nat) (cls : nat -> nat) (c : nat -> R) : Prop :=
  (forall i, (i < n)%nat -> (cls i < m)%nat) /\
  (forall q, (q < m)%nat -> c q = rsum n (fun i => ind (Nat.eqb (cls i) q))).
