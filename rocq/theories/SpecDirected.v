(** Specification: index arrays and admissible points of the directed models. *)
From Coq Require Import Reals List Arith.
From Verif Require Import Base SpecGraph.
Local Open Scope R_scope.

(** Array of distinct indices below [n]. *)
Definition index_list (n : nat) (l : list nat) : Prop :=
  NoDup l /\ forall i, In i l -> (i < n)%nat.
(** [l = np.nonzero(k)[0]], up to order. *)
Definition nonzero_list (n : nat) (k : nat -> R) (l : list nat) : Prop :=
  NoDup l /\ forall i, In i l <-> (i < n)%nat /\ k i <> 0.

(** The parameters read by the model are positive. *)
Definition dcm_dom (n : nat) (nzo nzi : list nat) (x : nat -> R) : Prop :=
  (forall i, In i nzo -> 0 < x i) /\ (forall j, In j nzi -> 0 < x (j + n)%nat).
(** ... and the others are zero. *)
Definition dcm_full (n : nat) (nzo nzi : list nat) (x : nat -> R) : Prop :=
  dcm_dom n nzo nzi x /\
  (forall i, (i < n)%nat -> ~ In i nzo -> x i = 0) /\
  (forall j, (j < n)%nat -> ~ In j nzi -> x (j + n)%nat = 0).

(** Node-level array of [2n] parameters from a class-level array of [2m]. *)
Definition expand (n m : nat) (cls : nat -> nat) (x : nat -> R) (r : nat) : R :=
  if Nat.ltb r n then x (cls r) else x (cls (r - n)%nat + m)%nat.

(** Exponential version: [theta] is finite, with values [th], on the index arrays
    and [+inf] ([None]) elsewhere. *)
Definition theta_full (n : nat) (nzo nzi : list nat) (theta : nat -> option R) (th : nat -> R) : Prop :=
  (forall i, In i nzo -> theta i = Some (th i)) /\
  (forall j, In j nzi -> theta (j + n)%nat = Some (th (j + n)%nat)) /\
  (forall i, (i < n)%nat -> ~ In i nzo -> theta i = None) /\
  (forall j, (j < n)%nat -> ~ In j nzi -> theta (j + n)%nat = None).

(** Node of a coordinate of a [2n] array. *)
Definition node_of (n r : nat) : nat := if Nat.ltb r n then r else (r - n)%nat.
