(** Specification: weighted graphs with natural weights and independent pairs. *)
From Coq Require Import Reals List Arith.
From Verif Require Import Base SpecGraph.
Local Open Scope R_scope.

(** Symmetric hollow matrix of natural weights; hollow matrix of weights. *)
Definition weighted_graph (n : nat) (w : nat -> nat -> nat) : Prop :=
  (forall i j, (i < n)%nat -> (j < n)%nat -> w i j = w j i) /\
  (forall i, (i < n)%nat -> w i i = 0%nat).
Definition weighted_digraph (n : nat) (w : nat -> nat -> nat) : Prop :=
  forall i, (i < n)%nat -> w i i = 0%nat.

(** A pair is linked when its weight is not zero. *)
Definition linked (w : nat) : bool := negb (Nat.eqb w 0).

Definition wdeg (n : nat) (w : nat -> nat -> nat) (i : nat) : R :=
  rsum n (fun j => ind (linked (w i j))).
Definition wstr (n : nat) (w : nat -> nat -> nat) (i : nat) : R :=
  rsum n (fun j => INR (w i j)).
Definition windeg (n : nat) (w : nat -> nat -> nat) (j : nat) : R :=
  rsum n (fun i => ind (linked (w i j))).
Definition winstr (n : nat) (w : nat -> nat -> nat) (j : nat) : R :=
  rsum n (fun i => INR (w i j)).

(** Pair law of the enhanced models: [P(w) = z^[w>0] y^w (1-y)/(1-y+zy)]. *)
Definition q_enh (z y : R) (w : nat) : R :=
  (if linked w then z else 1) * y ^ w * ((1 - y) / (1 - y + z * y)).

(** Probability of a weighted graph with independent pairs. *)
Definition prob_wundirected (n : nat) (q : nat -> nat -> nat -> R) (w : nat -> nat -> nat) : R :=
  rprod n (fun i => rprod i (fun j => q j i (w j i))).
Definition prob_wdirected (n : nat) (q : nat -> nat -> nat -> R) (w : nat -> nat -> nat) : R :=
  rprod n (fun i => rprod n (fun j => if Nat.eqb i j then 1 else q i j (w i j))).

(** Admissible UECM points, [sol = (x, y)] and exponents [sol = (theta, eta)]. *)
Definition ecm_dom (n : nat) (sol : nat -> R) : Prop :=
  (forall i, (i < n)%nat -> 0 < sol i /\ 0 < sol (i + n)%nat) /\
  (forall i j, (i < n)%nat -> (j < n)%nat -> i <> j -> sol (i + n)%nat * sol (j + n)%nat < 1).
Definition ecm_exp_dom (n : nat) (sol : nat -> R) : Prop :=
  forall i j, (i < n)%nat -> (j < n)%nat -> i <> j -> 0 < sol (i + n)%nat + sol (j + n)%nat.

(** Admissible DECM points, [x = (a_out, a_in, b_out, b_in)]; zero parameters are
    allowed, and required only to be non-zero where the constraint is. *)
Definition decm_dom (n : nat) (x : nat -> R) : Prop :=
  (forall r, (r < 4 * n)%nat -> 0 <= x r) /\
  (forall i j, (i < n)%nat -> (j < n)%nat -> i <> j -> x (i + 2 * n)%nat * x (j + 3 * n)%nat < 1).
Definition decm_supp (n : nat) (k_out k_in s_out s_in x : nat -> R) : Prop :=
  forall i, (i < n)%nat ->
    (k_out i <> 0 -> 0 < x i) /\ (k_in i <> 0 -> 0 < x (i + n)%nat) /\
    (s_out i <> 0 -> 0 < x (i + 2 * n)%nat) /\ (s_in i <> 0 -> 0 < x (i + 3 * n)%nat).
Definition decm_pos (n : nat) (x : nat -> R) : Prop := forall r, (r < 4 * n)%nat -> 0 < x r.
Definition decm_exp_dom (n : nat) (theta : nat -> R) : Prop :=
  forall i j, (i < n)%nat -> (j < n)%nat -> i <> j -> 0 < theta (i + 2 * n)%nat + theta (j + 3 * n)%nat.
(** Constraint attached to a coordinate. *)
Definition decm_constraint (n : nat) (k_out k_in s_out s_in : nat -> R) (r : nat) : R :=
  if Nat.ltb r n then k_out r else if Nat.ltb r (2 * n) then k_in (r - n)%nat
  else if Nat.ltb r (3 * n) then s_out (r - 2 * n)%nat else s_in (r - 3 * n)%nat.
(** Degree and strength parameters of a node vanish together. *)
Definition decm_paired (n : nat) (x : nat -> R) : Prop :=
  forall i, (i < n)%nat -> (x i = 0 <-> x (i + 2 * n)%nat = 0) /\ (x (i + n)%nat = 0 <-> x (i + 3 * n)%nat = 0).
