(** Specification vocabulary for the solver. *)
From Coq Require Import List Arith Bool Reals.
From Verif Require Import Base ModelSolver.
Import ListNotations.
Local Open Scope R_scope.

(** The same options with [full_return] / [verbose] set. *)
Definition with_full {S} (b : bool) (o : options S) : options S :=
  {| o_tol := o_tol o; o_eps := o_eps o; o_max_steps := o_max_steps o; o_method := o_method o;
     o_verbose := o_verbose o; o_regularise := o_regularise o; o_regularise_eps := o_regularise_eps o;
     o_full_return := b; o_linsearch := o_linsearch o |}.
Definition with_verbose {S} (b : bool) (o : options S) : options S :=
  {| o_tol := o_tol o; o_eps := o_eps o; o_max_steps := o_max_steps o; o_method := o_method o;
     o_verbose := b; o_regularise := o_regularise o; o_regularise_eps := o_regularise_eps o;
     o_full_return := o_full_return o; o_linsearch := o_linsearch o |}.

(** Exact arithmetic on vectors of length [n]: Euclidean norm and order of the
    reals; everything else is left open. *)
Definition exact_numerics {M} (n : nat) (N : numerics (nat -> R) M R) : Prop :=
  (forall f, vnorm N f = sqrt (rsum n (fun i => f i * f i))) /\
  (forall a b, gtb N a b = true <-> a > b).

(** Exact vector operations (finite values only, so nothing to repair). *)
Definition exact_vectors {M} (N : numerics (nat -> R) M R) : Prop :=
  sone N = 1 /\ (forall u v i, vsub N u v i = u i - v i) /\
  (forall x a d i, vaxpy N x a d i = x i + a * d i) /\
  (forall v i, vnan_fix N v i = v i) /\ (forall x d i, vinf_fix N x d i = d i).

(** A run with [full_return] that returned [x] and whose last recorded norm passes
    the [tol] test. *)
Definition converged {V M S} (N : numerics V M S) (P : problem V M S) (O : options S) (x0 x : V) : Prop :=
  exists m norms diffs alfas a, solver N P O x0 = Full x m norms diffs alfas /\
    nth_error norms m = Some a /\ gtb N a (o_tol O) = false.
(** A run that returned [x] because the last recorded step passes the [eps] test. *)
Definition step_converged {V M S} (N : numerics V M S) (P : problem V M S) (O : options S) (x0 x : V) : Prop :=
  exists m norms diffs alfas b, solver N P O x0 = Full x m norms diffs alfas /\ m <> 0%nat /\
    nth_error diffs m = Some b /\ gtb N b (o_eps O) = false.
