(** Specification vocabulary for symmetries: renaming the nodes, exchanging
    the two directions. *)
From Coq Require Import Reals List Arith Permutation.
From Verif Require Import Base SpecDirected SpecNetwork.

(** A renaming [p] of the [n] nodes acts on arrays made of blocks of [n]
    entries: the block is kept, the node inside the block is renamed. *)
Definition lift (n : nat) (p : nat -> nat) (r : nat) : nat := p (r mod n) + r / n * n.

(** The index array [l'] lists the nodes whose new names are listed by [l]. *)
Definition renamed_list (n : nat) (p : nat -> nat) (l' l : list nat) : Prop :=
  index_list n l' /\ index_list n l /\ forall i, i < n -> (In i l' <-> In (p i) l).

(** Exchange of the two nodes [a] and [b]. *)
Definition transpose (a b i : nat) : nat := if Nat.eqb i a then b else if Nat.eqb i b then a else i.

(** Exchange of blocks 0 and 1, and of blocks 2 and 3: the out and in halves of
    a pair, or of both pairs, of blocks of [n] entries. *)
Definition flip (n r : nat) : nat := if Nat.even (r / n) then r + n else r - n.

(** [es'] lists the same weighted unordered pairs as [es], under their old names. *)
Definition upair (e : nat * nat * R) : nat * nat * R :=
  (Nat.min (fst (fst e)) (snd (fst e)), Nat.max (fst (fst e)) (snd (fst e)), snd e).
Definition rename_edge (p : nat -> nat) (e : nat * nat * R) : nat * nat * R :=
  (p (fst (fst e)), p (snd (fst e)), snd e).
Definition renamed_pairs (p : nat -> nat) (es' es : list (nat * nat * R)) : Prop :=
  Permutation (map (fun e => upair (rename_edge p e)) es') (map upair es).
(** The same for ordered pairs. *)
Definition renamed_arcs (p : nat -> nat) (es' es : list (nat * nat * R)) : Prop :=
  Permutation (map (rename_edge p) es') es.
(** [es'] lists the ordered pairs of [es] with their ends exchanged. *)
Definition reverse_edge (e : nat * nat * R) : nat * nat * R := (snd (fst e), fst (fst e), snd e).
Definition reversed_arcs (es' es : list (nat * nat * R)) : Prop := Permutation (map reverse_edge es') es.
