(** When the constraints can be met, stated without reference to the code: by the
    mean values of some law in which no possible link is forbidden or certain.
    [k i = 0] marks a node without links. *)
From Coq Require Import Reals List Arith.
From Verif Require Import Base SpecCReMa.
Local Open Scope R_scope.
Import ListNotations.

(** Row and column sums without the diagonal. *)
Definition row (n : nat) (p : nat -> nat -> R) (i : nat) : R := rsum n (fun j => if Nat.eqb i j then 0 else p i j).
Definition col (n : nat) (p : nat -> nat -> R) (j : nat) : R := rsum n (fun i => if Nat.eqb j i then 0 else p i j).

(** Binary, directed. *)
Definition inner_dir (n : nat) (k_out k_in : nat -> R) (p : nat -> nat -> R) : Prop :=
  (forall i j, (i < n)%nat -> (j < n)%nat -> i <> j -> k_out i <> 0 -> k_in j <> 0 -> 0 < p i j < 1) /\
  (forall i j, (i < n)%nat -> (j < n)%nat -> i <> j -> k_out i = 0 \/ k_in j = 0 -> p i j = 0) /\
  (forall i, (i < n)%nat -> row n p i = k_out i /\ col n p i = k_in i).

(** Binary, undirected. *)
Definition inner_und (n : nat) (k : nat -> R) (p : nat -> nat -> R) : Prop :=
  inner_dir n k k p /\ (forall i j, (i < n)%nat -> (j < n)%nat -> p i j = p j i).

(** Positive parameters, zero for the nodes without links. *)
Definition cm_full (n : nat) (k x : nat -> R) : Prop :=
  forall i, (i < n)%nat -> (k i <> 0 -> 0 < x i) /\ (k i = 0 -> x i = 0).

(** Enhanced, directed: [p] link probabilities and [w] mean weights; a link has
    weight one at least, and more than one with positive probability. *)
Definition inner_dirw (n : nat) (k_out k_in s_out s_in : nat -> R) (p w : nat -> nat -> R) : Prop :=
  let possible := fun i j => k_out i <> 0 /\ k_in j <> 0 /\ s_out i <> 0 /\ s_in j <> 0 in
  (forall i j, (i < n)%nat -> (j < n)%nat -> i <> j -> possible i j -> 0 < p i j < 1 /\ p i j < w i j) /\
  (forall i j, (i < n)%nat -> (j < n)%nat -> i <> j -> ~ possible i j -> p i j = 0 /\ w i j = 0) /\
  (forall i, (i < n)%nat -> row n p i = k_out i /\ col n p i = k_in i /\ row n w i = s_out i /\ col n w i = s_in i).

(** Enhanced, undirected, every node linked. *)
Definition inner_undw (n : nat) (k s : nat -> R) (p w : nat -> nat -> R) : Prop :=
  (forall i j, (i < n)%nat -> (j < n)%nat -> i <> j -> 0 < p i j < 1 /\ p i j < w i j) /\
  (forall i j, (i < n)%nat -> (j < n)%nat -> p i j = p j i /\ w i j = w j i) /\
  (forall i, (i < n)%nat -> row n p i = k i /\ row n w i = s i).

(** The same pairs with positive weights; sums of the weights around a node. *)
Definition reweighted (es fs : topology) : Prop :=
  map fst fs = map fst es /\ forall i j w, In (i, j, w) fs -> 0 < w.
Definition positive_weights (es : topology) : Prop := forall i j w, In (i, j, w) es -> 0 < w.
Fixpoint out_weight (fs : topology) (k : nat) : R :=
  match fs with [] => 0 | e :: fs => (if Nat.eqb (fst (fst e)) k then snd e else 0) + out_weight fs k end.
Fixpoint in_weight (fs : topology) (k : nat) : R :=
  match fs with [] => 0 | e :: fs => (if Nat.eqb (snd (fst e)) k then snd e else 0) + in_weight fs k end.

(** [W] gives a positive weight to the links of [a] and to nothing else. *)
Definition weights_on (n : nat) (a : nat -> nat -> bool) (W : nat -> nat -> R) : Prop :=
  forall i j, (i < n)%nat -> (j < n)%nat -> (a i j = true -> 0 < W i j) /\ (a i j = false -> W i j = 0).
(** Number of the other nodes with a nonzero constraint. *)
Definition others (n : nat) (k : nat -> R) (i : nat) : R :=
  rsum n (fun j => if Nat.eqb i j then 0 else if Req_EM_T (k j) 0 then 0 else 1).
