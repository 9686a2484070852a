(** Specification vocabulary for the functions chosen by a solve: what it means that a
    solve descends on minus a log-likelihood, independently of how functions are chosen. *)
From Coq Require Import Reals List Arith String.
From Coquelicot Require Import Coquelicot.
From Verif Require Import Base SpecDeriv SpecCReMa ModelDCM ModelDispatch.
Import ListNotations.
Local Open Scope R_scope.

(** The documented names. *)
Definition documented_methods : list string := ["newton"; "quasinewton"; "fixed-point"]%string.
Definition undirected_models : list string := ["cm"; "cm_exp"; "ecm"; "ecm_exp"; "crema"; "crema-sparse"]%string.
Definition directed_models : list string := ["dcm"; "dcm_exp"; "decm"; "decm_exp"; "crema"; "crema-sparse"]%string.

(** A finite number, and finite entries of returned arrays. *)
Definition scalar (o : outcome) : option R :=
  match o with Some (VNum (Fin r)) => Some r | _ => None end.
Definition at1 (o : outcome) (i : nat) : option R :=
  match o with Some (VVec v) => match v i with Fin r => Some r | _ => None end | _ => None end.
Definition at2 (o : outcome) (i j : nat) : option R :=
  match o with Some (VMat m) => match m i j with Fin r => Some r | _ => None end | _ => None end.

(** At [x], the objective of the solve is [- L], the function whose root is sought is
    the gradient of [- L] on the first [m] coordinates, and the line search measures
    decrease of [L] itself with its sign reversed. *)
Definition descends (L : (nat -> R) -> R) (step fn obj : (nat -> R) -> outcome) (m : nat) (x : nat -> R) : Prop :=
  scalar (step x) = Some (- L x) /\ scalar (obj x) = Some (L x) /\
  forall h, (h < m)%nat -> exists d, at1 (fn x) h = Some d /\ partial (fun z => - L z) x h d.

(** The matrix, or the vector, returned by [jac] is the Jacobian of [fn], or its
    diagonal. *)
Definition is_jacobian (fn jac : (nat -> R) -> outcome) (m : nat) (x : nat -> R) : Prop :=
  forall i h, (i < m)%nat -> (h < m)%nat -> exists d, at2 (jac x) i h = Some d /\ opartial (fun z => at1 (fn z) i) x h d.
Definition is_jacobian_diag (fn jac : (nat -> R) -> outcome) (m : nat) (x : nat -> R) : Prop :=
  forall i, (i < m)%nat -> exists d, at1 (jac x) i = Some d /\ opartial (fun z => at1 (fn z) i) x i d.

(** Coordinate [i] is left in place by the map [fn] exactly when the derivative of
    [- L] along it is zero. *)
Definition fixes_stationary (L : (nat -> R) -> R) (fn : (nat -> R) -> outcome) (x : nat -> R) (i : nat) : Prop :=
  exists d, partial (fun z => - L z) x i d /\ (at1 (fn x) i = Some (x i) <-> d = 0).

(** A solve with the given names is accepted and the chosen functions satisfy [P]. *)
Definition accepted (disp : string -> string -> option string -> dispatched + refusal)
    (model method : string) (reg : option string) (P : dispatched -> Prop) : Prop :=
  exists D, disp model method reg = inl D /\ P D.
Definition descent_methods : list string := ["newton"; "quasinewton"]%string.

(** The functions of a solve, for the arguments [a]. *)
Definition solve_descends (a : arguments) (L : (nat -> R) -> R) (m : nat) (x : nat -> R) (D : dispatched) : Prop :=
  descends L (run_entry (d_step D) a) (run_entry (d_fun D) a) (run_entry (Pos (d_obj D)) a) m x.
Definition solve_jacobian (a : arguments) (m : nat) (x : nat -> R) (D : dispatched) : Prop :=
  is_jacobian (run_entry (d_fun D) a) (run_entry (d_jac D) a) m x.
Definition solve_jacobian_diag (a : arguments) (m : nat) (x : nat -> R) (D : dispatched) : Prop :=
  is_jacobian_diag (run_entry (d_fun D) a) (run_entry (d_jac D) a) m x.
Definition solve_fixes (a : arguments) (L : (nat -> R) -> R) (x : nat -> R) (i : nat) (D : dispatched) : Prop :=
  fixes_stationary L (run_entry (d_fun D) a) x i /\ scalar (run_entry (d_step D) a x) = Some (- L x).
