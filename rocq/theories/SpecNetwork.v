(** Specification vocabulary for matrices, edge lists and degree classes. *)
From Coq Require Import Reals List Arith Bool Sorting.Permutation.
From Verif Require Import Base SpecGraph.
Import ListNotations.

(** Order on labels. *)
Definition total_order {K : Type} (leb eqb : K -> K -> bool) : Prop :=
  (forall a b, eqb a b = true <-> a = b) /\
  (forall a b, leb a b = true \/ leb b a = true) /\
  (forall a b, leb a b = true -> leb b a = true -> a = b) /\
  (forall a b c, leb a b = true -> leb b c = true -> leb a c = true).

(** [l] is strictly increasing. *)
Definition increasing {K : Type} (leb : K -> K -> bool) (l : list K) : Prop :=
  forall i j a b, i < j -> nth_error l i = Some a -> nth_error l j = Some b -> leb a b = true /\ a <> b.

(** Number of elements satisfying a test. *)
Definition count {A : Type} (P : A -> bool) (l : list A) : nat := length (filter P l).
(** Sum of a weight over the elements satisfying a test. *)
Fixpoint weight_of {A : Type} (P : A -> bool) (w : A -> R) (l : list A) : R :=
  match l with [] => 0%R | a :: t => ((if P a then w a else 0) + weight_of P w t)%R end.
Fixpoint total (l : list R) : R := match l with [] => 0%R | v :: t => (v + total t)%R end.

(** Number of ends of undirected edge [e] at label [v]: a self-loop has two. *)
Definition ends_at {K : Type} (eqb : K -> K -> bool) (v : K) (e : K * K) : nat :=
  (if eqb (fst e) v then 1 else 0) + (if eqb (snd e) v then 1 else 0).
Definition incidences {K : Type} (eqb : K -> K -> bool) (v : K) (es : list (K * K)) : nat :=
  fold_right (fun e s => ends_at eqb v e + s) 0 es.
Definition incident_weight {K : Type} (eqb : K -> K -> bool) (v : K) (es : list (K * K * R)) : R :=
  fold_right (fun e s => (INR (ends_at eqb v (fst e)) * snd e + s)%R) 0%R es.

(** Labels of the new edges read back through the list of labels. *)
Definition relabel {K : Type} (nodes : list K) (e : nat * nat) : option (K * K) :=
  match nth_error nodes (fst e), nth_error nodes (snd e) with
  | Some a, Some b => Some (a, b)
  | _, _ => None
  end.

(** Node [v] is an end of some edge. *)
Definition is_end {K : Type} (v : K) (es : list (K * K)) : Prop :=
  exists e, In e es /\ (fst e = v \/ snd e = v).

(** The labels are exactly [0 .. n-1]. *)
Definition gapless (n : nat) (es : list (nat * nat)) : Prop := forall v, is_end v es <-> v < n.

(** Ordered pair [(i,j)] is covered by edge [e]. *)
Definition covers (is_directed : bool) (i j : nat) (e : nat * nat) : bool :=
  (Nat.eqb (fst e) i && Nat.eqb (snd e) j) || (negb is_directed && (Nat.eqb (fst e) j && Nat.eqb (snd e) i)).
(** No pair occurs twice (in either orientation when undirected), no self-loop. *)
Definition simple_edges {K : Type} (is_directed : bool) (es : list (K * K)) : Prop :=
  (forall i, ~ In (i, i) es) /\ NoDup es /\ (is_directed = false -> forall i j, In (i, j) es -> ~ In (j, i) es).

(** Relabelling of nodes. *)
Definition relabelling (n : nat) (p : nat -> nat) : Prop :=
  (forall i, i < n -> p i < n) /\ (forall i j, i < n -> j < n -> p i = p j -> i = j).

(** Integer sum. *)
Fixpoint nsum (n : nat) (f : nat -> nat) : nat := match n with O => 0 | S m => nsum m f + f m end.

Definition positiveb (r : R) : bool := if Rlt_dec 0 r then true else false.
(** Ordered pairs of nodes below [n]. *)
Definition node_pairs (n : nat) : list (nat * nat) := list_prod (seq 0 n) (seq 0 n).

(** What [degree_reduction] computes, for any kind of key. *)
Definition reduction_ok {K} (leb : K -> K -> bool) (dseq r : list K) (first inv mult : list nat) : Prop :=
  increasing leb r /\ (forall k, In k r <-> In k dseq) /\
  length inv = length dseq /\ length mult = length r /\ length first = length r /\
  (forall i k, nth_error dseq i = Some k -> exists q, nth_error inv i = Some q /\ nth_error r q = Some k) /\
  (forall q k, nth_error r q = Some k -> exists i, nth_error first q = Some i /\ nth_error dseq i = Some k /\
     forall j, nth_error dseq j = Some k -> i <= j) /\
  list_sum mult = length dseq /\
  classes (length dseq) (length r) (fun i => nth i inv 0) (fun q => INR (nth q mult 0)).
