(** Specification vocabulary for line searches and regularisers. *)
From Coq Require Import Reals Arith.
From Verif Require Import Base ModelDCM.
Local Open Scope R_scope.

Definition positive_upto (n : nat) (x : nat -> R) : Prop := forall i, (i < n)%nat -> 0 < x i.
(** The point reached with step length [a]. *)
Definition moved (x : nat -> R) (a : R) (dx : nat -> R) (i : nat) : R := x i + a * dx i.

(** All pairs, self pairs included, are feasible. *)
Definition decm_pairs (n : nat) (x : nat -> R) : Prop :=
  forall i j, (i < n)%nat -> (j < n)%nat -> x (i + 2 * n)%nat * x (j + 3 * n)%nat < 1.
Definition decm_exp_pairs (n : nat) (theta : nat -> R) : Prop :=
  forall i j, (i < n)%nat -> (j < n)%nat -> 0 < theta (i + 2 * n)%nat + theta (j + 3 * n)%nat.

(** Quadratic form, product with a vector, scalar product. *)
Definition qform (n : nat) (a : nat -> nat -> R) (v : nat -> R) : R :=
  rsum n (fun i => rsum n (fun j => v i * a i j * v j)).
Definition apply_mat (n : nat) (a : nat -> nat -> R) (v : nat -> R) (i : nat) : R := rsum n (fun j => a i j * v j).
Definition scalar (n : nat) (u v : nat -> R) : R := rsum n (fun i => u i * v i).
Definition symmetric (n : nat) (a : nat -> nat -> R) : Prop :=
  forall i j, (i < n)%nat -> (j < n)%nat -> a i j = a j i.

(** The contract of an eigen-decomposition [(t, e)] of the matrix [b]: the columns
    of [e] are an orthonormal basis and [b = e diag(t) e^T]. *)
Definition eigen_decomposition (n : nat) (b : nat -> nat -> R) (t : nat -> R) (e : nat -> nat -> R) : Prop :=
  (forall p q, (p < n)%nat -> (q < n)%nat -> rsum n (fun i => e i p * e i q) = if Nat.eqb p q then 1 else 0) /\
  (forall i j, (i < n)%nat -> (j < n)%nat -> rsum n (fun p => e i p * e j p) = if Nat.eqb i j then 1 else 0) /\
  (forall i j, (i < n)%nat -> (j < n)%nat -> b i j = rsum n (fun p => e i p * t p * e j p)).

(** [r] is the longest step not above [alfa] that leaves at least one percent of
    every coordinate (for a positive vector). *)
Definition longest_step (n : nat) (x dx : nat -> R) (alfa r : R) : Prop :=
  0 < r <= alfa /\ (forall i, (i < n)%nat -> x i / 100 <= moved x r dx i) /\
  (r = alfa \/ exists i, (i < n)%nat /\ dx i < 0 /\ moved x r dx i = x i / 100).

(** The margin the exponential UECM search insists on. *)
Definition ecm_exp_margin (n : nat) (z : nat -> R) : Prop :=
  forall i j, (i < n)%nat -> (j < n)%nat -> i <> j -> / 10 ^ 14 < z (i + n)%nat + z (j + n)%nat.
(** Every sum of [z] exceeds one percent of the smallest sum of [x]. *)
Definition decm_exp_keeps (n : nat) (x z : nat -> R) : Prop :=
  exists p q, (p < n)%nat /\ (q < n)%nat /\
    (forall i j, (i < n)%nat -> (j < n)%nat -> x (p + 2 * n)%nat + x (q + 3 * n)%nat <= x (i + 2 * n)%nat + x (j + 3 * n)%nat) /\
    (forall i j, (i < n)%nat -> (j < n)%nat -> (x (p + 2 * n)%nat + x (q + 3 * n)%nat) / 100 < z (i + 2 * n)%nat + z (j + 3 * n)%nat).

(** Sufficient decrease of [- L] at [moved x a dx], as a proposition on doubles. *)
Definition armijo (n : nat) (L : (nat -> R) -> fval) (x dx f : nat -> R) (a : R) : Prop :=
  match L x, L (moved x a dx) with
  | Fin u, Fin v => u - / 10000 * a * scalar n f dx < v
  | Fin _, PInf => True
  | MInf, Fin _ => True
  | MInf, PInf => True
  | _, _ => False
  end.

