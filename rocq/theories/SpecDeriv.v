(** Specification: partial derivatives of real functions of a vector. *)
From Coq Require Import Reals.
From Coquelicot Require Import Coquelicot.
From Verif Require Import Base.
Local Open Scope R_scope.

(** [partial F x h d]: the partial derivative of [F] at [x] along coordinate
    [h] exists and equals [d] (Coquelicot's derivative of the one-variable
    function obtained by moving component [h] only). *)
Definition partial (F : (nat -> R) -> R) (x : nat -> R) (h : nat) (d : R) : Prop :=
  is_derive (fun t => F (upd x h t)) (x h) d.
