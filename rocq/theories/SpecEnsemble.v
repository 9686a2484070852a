(** Specification: averages over all graphs on [n] nodes. *)
From Coq Require Import Reals List Arith.
From Verif Require Import Base SpecGraph.
Local Open Scope R_scope.
Import ListNotations.

(** Sum over a list. *)
Fixpoint lsum {A : Type} (l : list A) (f : A -> R) : R :=
  match l with [] => 0 | a :: l => f a + lsum l f end.

Fixpoint lprod {A : Type} (l : list A) (f : A -> R) : R :=
  match l with [] => 1 | a :: l => f a * lprod l f end.

(** [a] with the link [(i,j)] added. *)
Definition add_link (a : nat -> nat -> bool) (i j : nat) : nat -> nat -> bool :=
  fun u v => if andb (Nat.eqb u i) (Nat.eqb v j) then true else a u v.

(** All graphs whose links belong to a list of ordered pairs. *)
Fixpoint graphs_on (l : list (nat * nat)) : list (nat -> nat -> bool) :=
  match l with
  | [] => [fun _ _ => false]
  | e :: l => flat_map (fun a => [a; add_link a (fst e) (snd e)]) (graphs_on l)
  end.

(** Pairs [(j,i)] with [j < i < n]; ordered pairs of distinct nodes below [n]. *)
Definition upairs (n : nat) : list (nat * nat) :=
  flat_map (fun i => map (fun j => (j, i)) (seq 0 i)) (seq 0 n).
Definition dpairs (n : nat) : list (nat * nat) :=
  flat_map (fun i => map (fun j => (i, j)) (filter (fun j => negb (Nat.eqb i j)) (seq 0 n)))
           (seq 0 n).

(** Undirected graph with the links of [a] written on [i < j]. *)
Definition und (a : nat -> nat -> bool) : nat -> nat -> bool :=
  fun i j => if Nat.ltb i j then a i j else if Nat.ltb j i then a j i else false.

(** All simple undirected graphs, all loopless directed graphs, on [n] nodes. *)
Definition all_ugraphs (n : nat) : list (nat -> nat -> bool) := map und (graphs_on (upairs n)).
Definition all_digraphs (n : nat) : list (nat -> nat -> bool) := graphs_on (dpairs n).

(** Averages of an observable over these ensembles. *)
Definition mean_undirected (n : nat) (p : nat -> nat -> R) (f : (nat -> nat -> bool) -> R) : R :=
  lsum (all_ugraphs n) (fun a => prob_undirected n p a * f a).
Definition mean_directed (n : nat) (p : nat -> nat -> R) (f : (nat -> nat -> bool) -> R) : R :=
  lsum (all_digraphs n) (fun a => prob_directed n p a * f a).

Definition var_directed (n : nat) (p : nat -> nat -> R) (f : (nat -> nat -> bool) -> R) : R :=
  mean_directed n p (fun a => (f a - mean_directed n p f) ^ 2).
