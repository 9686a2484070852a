(** Specification of dyads and of three-node motifs. *)
From Coq Require Import Reals List Arith Bool.
From Verif Require Import Base SpecGraph.
Local Open Scope R_scope.
Import ListNotations.

(** * Dyads: pairs of distinct nodes *)
(** Number of unordered pairs [i < j < n] with a property. *)
Definition pairs_with (n : nat) (P : nat -> nat -> bool) : nat :=
  length (filter (fun e => P (fst e) (snd e)) (flat_map (fun j => map (fun i => (i, j)) (seq 0 j)) (seq 0 n))).
Definition full_dyad (g : nat -> nat -> bool) (i j : nat) : bool := g i j && g j i.
Definition single_dyad (g : nat -> nat -> bool) (i j : nat) : bool := xorb (g i j) (g j i).
Definition empty_dyad (g : nat -> nat -> bool) (i j : nat) : bool := negb (g i j) && negb (g j i).

(** * Induced subgraphs on three nodes: links ij, ji, ik, ki, jk, kj *)
Definition triad : Type := (bool * bool * bool * bool * bool * bool)%type.
Definition triad_eqb (s t : triad) : bool :=
  match s, t with
  | (a, b, c, d, e, f), (a', b', c', d', e', f') =>
      Bool.eqb a a' && Bool.eqb b b' && Bool.eqb c c' && Bool.eqb d d' && Bool.eqb e e' && Bool.eqb f f'
  end.
Definition induced (g : nat -> nat -> bool) (i j k : nat) : triad := (g i j, g j i, g i k, g k i, g j k, g k j).

(** The same triad seen from the six orderings of its nodes. *)
Definition orderings (t : triad) : list triad :=
  match t with
  | (ij, ji, ik, ki, jk, kj) =>
      [(ij, ji, ik, ki, jk, kj); (ik, ki, ij, ji, kj, jk); (ji, ij, jk, kj, ik, ki);
       (jk, kj, ji, ij, ki, ik); (ki, ik, kj, jk, ij, ji); (kj, jk, ki, ik, ji, ij)]
  end.
Definition isomorphic (s t : triad) : bool := existsb (triad_eqb t) (orderings s).
(** Number of automorphisms. *)
Definition automorphisms (t : triad) : nat := length (filter (triad_eqb t) (orderings t)).
(** At least two of the three pairs are linked. *)
Definition connected (t : triad) : bool :=
  match t with
  | (ij, ji, ik, ki, jk, kj) =>
      let p := ij || ji in let q := ik || ki in let r := jk || kj in (p && q) || (p && r) || (q && r)
  end.
Definition all_triads : list triad :=
  flat_map (fun a => flat_map (fun b => flat_map (fun c => flat_map (fun d => flat_map (fun e => map (fun f =>
    (a, b, c, d, e, f)) [true; false]) [true; false]) [true; false]) [true; false]) [true; false]) [true; false].

(** Number of three-node sets [i < j < k < n] whose induced triad has a property. *)
Definition triads_with (n : nat) (g : nat -> nat -> bool) (P : triad -> bool) : nat :=
  length (filter (fun t => match t with (i, j, k) => P (induced g i j k) end)
    (flat_map (fun k => flat_map (fun j => map (fun i => (i, j, k)) (seq 0 j)) (seq 0 k)) (seq 0 n))).

(** The thirteen motifs of Squartini, van Lelyveld and Garlaschelli (2013). *)
Definition motif (m : nat) : triad :=
  match m with
  | 1 => (false, true, false, false, true, false)
  | 2 => (true, false, false, false, true, false)
  | 3 => (true, true, false, false, true, false)
  | 4 => (false, false, true, false, true, false)
  | 5 => (false, true, true, false, true, false)
  | 6 => (true, true, true, false, true, false)
  | 7 => (true, true, false, false, false, true)
  | 8 => (true, true, false, false, true, true)
  | 9 => (false, true, true, false, false, true)
  | 10 => (false, true, true, false, true, true)
  | 11 => (true, false, true, false, true, true)
  | 12 => (true, true, true, false, true, true)
  | 13 => (true, true, true, true, true, true)
  | _ => (false, false, false, false, false, false)
  end%nat.

(** The adjacency matrix of [g]; a matrix of zeros and ones with the links of [g]. *)
Definition as_matrix (g : nat -> nat -> bool) : nat -> nat -> R := fun i j => ind (g i j).
Definition matrix_of (n : nat) (g : nat -> nat -> bool) (a : nat -> nat -> R) : Prop :=
  forall i j, (i < n)%nat -> (j < n)%nat -> a i j = ind (g i j).

(** [P] with the entry [(u,v)] replaced. *)
Definition set_entry (P : nat -> nat -> R) (u v : nat) (t : R) : nat -> nat -> R :=
  fun i j => if Nat.eqb i u && Nat.eqb j v then t else P i j.
