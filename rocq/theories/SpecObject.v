(** Specification: the same call made on two objects. *)
From Coq Require Import Reals List Arith Bool String.
From Verif Require Import Base ModelSolve ModelTool ModelObject.
Import ListNotations.
Local Open Scope R_scope.

(** Same exception or completion, same report, and same attributes (parameters, errors,
    solution, ...) except the flag [is_sparse], which records the kind of matrix given. *)
Definition u_alike (a b : object_run ustate) : Prop :=
  match a, b with
  | Run (o1, e1) r1, Run (o2, e2) r2 => e1 = e2 /\ r1 = r2 /\ us_set_sparse false o1 = us_set_sparse false o2
  | Missing, Missing | NotModelled, NotModelled => True
  | _, _ => False
  end.
Definition d_alike (a b : object_run dstate) : Prop :=
  match a, b with
  | Run (o1, e1) r1, Run (o2, e2) r2 => e1 = e2 /\ r1 = r2 /\ ds_set_sparse false o1 = ds_set_sparse false o2
  | Missing, Missing | NotModelled, NotModelled => True
  | _, _ => False
  end.
(** The call returned. *)
Definition returned {S : Type} (a : object_run S) (o : S) : Prop := exists rep, a = Run (o, None) rep.
(** What each node of a list of labels is observed to have. *)
Definition observed {L : Type} (nodes : list L) (value : L -> R) (ob : nat -> R) : Prop :=
  forall i v, nth_error nodes i = Some v -> ob i = value v.
