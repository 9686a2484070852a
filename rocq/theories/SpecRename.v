(** Specification: the same call made on two objects whose nodes are in another order. *)
From Coq Require Import Reals List Arith Bool String.
From Coq Require Import Permutation.
From Verif Require Import Base ModelGuess ModelSolve ModelTool ModelObject.
Import ListNotations.
Local Open Scope R_scope.

(** The matrix [a'] is [a] with node [p i] renamed [i]. *)
Definition renamed_matrix (n : nat) (p : nat -> nat) (a' a : nat -> nat -> R) : Prop :=
  forall i j, (i < n)%nat -> (j < n)%nat -> a' i j = a (p i) (p j).
(** The edges [es'] are those of [es], in any order, with label [v] renamed [f v]. *)
Definition renamed_edges {L L' : Type} (f : L -> L') (es' : list (L' * L')) (es : list (L * L)) : Prop :=
  Permutation es' (map (fun e => (f (fst e), f (snd e))) es).
(** Which node of the first object is which node of the second: after a renaming, and for
    objects with labels [nodes'] and [nodes], where label [v] has become [f v]. *)
Definition same_node (n : nat) (p : nat -> nat) (i' i : nat) : Prop := (i' < n)%nat /\ i = p i'.
Definition same_label {L L' : Type} (f : L -> L') (nodes' : list L') (nodes : list L) (i' i : nat) : Prop :=
  exists v, nth_error nodes' i' = Some (f v) /\ nth_error nodes i = Some v.
(** The same parameter at the same node. *)
Definition carried (M : nat -> nat -> Prop) (x' x : option (nat -> R)) : Prop :=
  match x', x with
  | Some x', Some x => forall i' i, M i' i -> x' i' = x i
  | None, None => True
  | _, _ => False
  end.
(** Same exception or completion, same report, the same attributes (errors, solution of the
    reduced problem, ...) and the same parameters at the same nodes. *)
Definition u_carried (M : nat -> nat -> Prop) (a' a : object_run ustate) : Prop :=
  match a', a with
  | Run (o', e') r', Run (o, e) r => e' = e /\ r' = r /\ us_set_x None o' = us_set_x None o /\ carried M (us_x o') (us_x o)
  | Missing, Missing | NotModelled, NotModelled => True
  | _, _ => False
  end.
Definition d_carried (M : nat -> nat -> Prop) (a' a : object_run dstate) : Prop :=
  match a', a with
  | Run (o', e') r', Run (o, e) r =>
      e' = e /\ r' = r /\ ds_set_xy None None o' = ds_set_xy None None o /\ carried M (ds_x o') (ds_x o) /\ carried M (ds_y o') (ds_y o)
  | Missing, Missing | NotModelled, NotModelled => True
  | _, _ => False
  end.
(** The same call with another initial guess. *)
Definition with_guess (z : guess) (t : settings) : settings :=
  {| t_model := t_model t; t_method := t_method t; t_guess := z; t_adjacency := t_adjacency t; t_method_adjacency := t_method_adjacency t;
     t_guess_adjacency := t_guess_adjacency t; t_max_steps := t_max_steps t; t_full := t_full t; t_verbose := t_verbose t; t_linsearch := t_linsearch t;
     t_tol := t_tol t; t_eps := t_eps t |}.
