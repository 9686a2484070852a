(** Specification vocabulary for weights put on given links. *)
From Coq Require Import Reals List Arith Bool ZArith.
From Verif Require Import Base.
Local Open Scope R_scope.

(** The [m]-th number of a stream started in a state, counted from zero. *)
Fixpoint stream {S : Type} (draw : S -> R * S) (s : S) (m : nat) : R :=
  match m with O => fst (draw s) | S m => stream draw (snd (draw s)) m end.
(** Links without loops, none twice in either direction. *)
Definition undirected_links (links : list (nat * nat)) : Prop :=
  NoDup links /\ forall i j, In (i, j) links -> i <> j /\ ~ In (j, i) links.
(** The matrix has the numbers of the list on the links, in both directions, and zero elsewhere. *)
Definition weighted_by (links : list (nat * nat)) (w : nat -> R) (A : nat -> nat -> R) : Prop :=
  (forall m i j, nth_error links m = Some (i, j) -> A i j = w m /\ A j i = w m) /\
  (forall i j, ~ In (i, j) links -> ~ In (j, i) links -> A i j = 0).
Definition directed_by (links : list (nat * nat)) (w : nat -> R) (A : nat -> nat -> R) : Prop :=
  (forall m i j, nth_error links m = Some (i, j) -> A i j = w m) /\ (forall i j, ~ In (i, j) links -> A i j = 0).
