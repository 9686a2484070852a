(** Specification of the z-scores of a network in an ensemble with independent links, and of
    the reversal of all links. *)
From Coq Require Import Reals List Arith Bool.
From Coquelicot Require Import Coquelicot.
From Verif Require Import Base SpecGraph SpecEnsemble SpecMotifs.
Import ListNotations.
Local Open Scope R_scope.

(** * Statistics of a network *)
(** Ordered pairs linked in both directions, ordered pairs without links, pairs linked in one
    direction. *)
Definition full_pairs (n : nat) (h : nat -> nat -> bool) : R := 2 * INR (pairs_with n (full_dyad h)).
Definition single_pairs (n : nat) (h : nat -> nat -> bool) : R := INR (pairs_with n (single_dyad h)).
Definition empty_pairs (n : nat) (h : nat -> nat -> bool) : R := 2 * INR (pairs_with n (empty_dyad h)).
(** Occurrences of a motif: three-node sets, each counted once for every automorphism. *)
Definition occurrences (m n : nat) (h : nat -> nat -> bool) : R :=
  INR (automorphisms (motif m)) * INR (triads_with n h (fun s => isomorphic s (motif m))).

(** * Scores *)
Definition standard_score (n : nat) (p : nat -> nat -> R) (g : nat -> nat -> bool) (c : (nat -> nat -> bool) -> R) : R :=
  (c g - mean_directed n p c) / sqrt (var_directed n p c).
(** [s] is the standard deviation of [c] in the linear approximation around [p]. *)
Definition linear_std (n : nat) (p : nat -> nat -> R) (c : (nat -> nat -> bool) -> R) (s : R) : Prop :=
  0 <= s /\ exists d : nat -> nat -> R,
    (forall u v, (u < n)%nat -> (v < n)%nat -> u <> v -> is_derive (fun z : R => mean_directed n (set_entry p u v z) c) (p u v) (d u v)) /\
    s ^ 2 = rsum n (fun u => rsum n (fun v => if Nat.eqb u v then 0 else p u v * (1 - p u v) * (d u v) ^ 2)).

(** * Reversal *)
Definition reversed {A : Type} (g : nat -> nat -> A) : nat -> nat -> A := fun i j => g j i.
Definition reversed_triad (t : triad) : triad :=
  match t with (ij, ji, ik, ki, jk, kj) => (ji, ij, ki, ik, kj, jk) end.
(** Motif [m'] is motif [m] with all links reversed. *)
Definition mirror (m m' : nat) : Prop :=
  (1 <= m <= 13)%nat /\ (1 <= m' <= 13)%nat /\ isomorphic (reversed_triad (motif m)) (motif m') = true.

(** Link probability of the enhanced directed configuration model with factors [x], [y] for
    links and [bo], [bi] for weights. *)
Definition p_enhanced (x y bo bi : nat -> R) (i j : nat) : R := x i * y j * (bo i * bi j) / (1 - bo i * bi j + x i * y j * (bo i * bi j)).
