(** Relations between the models, stated without reference to the code:
    parameters of a directed model that come from an undirected one, an
    undirected edge list seen as a directed one, and nodes with no links. *)
From Coq Require Import Reals List.
Local Open Scope R_scope.

(** [z] is the pair of arrays [(x, x)]. *)
Definition both (n : nat) (x z : nat -> R) : Prop :=
  forall i, (i < n)%nat -> z i = x i /\ z (i + n)%nat = x i.

(** [z] is [(x, x, y, y)] where [sol] is [(x, y)]. *)
Definition both2 (n : nat) (sol z : nat -> R) : Prop :=
  forall i, (i < n)%nat ->
    z i = sol i /\ z (i + n)%nat = sol i /\
    z (i + 2 * n)%nat = sol (i + n)%nat /\ z (i + 3 * n)%nat = sol (i + n)%nat.

(** Every undirected edge in the two directions. *)
Definition both_ways (es : list (nat * nat * R)) : list (nat * nat * R) :=
  flat_map (fun e => match e with (i, j, w) => (i, j, w) :: (j, i, w) :: nil end) es.

(** [z] is [x] followed by [m] zeros, for each of the [b] blocks of the arrays. *)
Definition padded (b n m : nat) (x z : nat -> R) : Prop :=
  forall q i, (q < b)%nat -> (i < n + m)%nat ->
    z (i + q * (n + m))%nat = if Nat.ltb i n then x (i + q * n)%nat else 0.
