(** Specification vocabulary for calls of [solve_tool] that are bound to reach the tolerance. *)
From Coq Require Import Reals List Arith Bool String.
From Verif Require Import Base SpecGraph SpecEnsemble SpecDirected SpecNetwork SpecLinsearch SpecGuess SpecDispatch SpecRun SpecReach ModelNetwork ModelDispatch ModelGuess ModelSolve ModelTool.
Import ListNotations.
Local Open Scope R_scope.

(** With [verbose] the eigenvalues are printed, and [eigh] must not raise. *)
Definition quiet (t : settings) (e : environment) : Prop := t_verbose t = true -> forall H, v_eigh_ok e H = true.
(** [v] outside the nodes without links, where it is zero. *)
Definition off_zero (k v : nat -> R) (i : nat) : R := if Req_EM_T (k i) 0 then 0 else v i.

(** The attributes after the call: positive parameters, an error within [tol], and every
    degree of the network [a] within [tol] of its mean over the fitted ensemble. *)
Definition u_fitted (n : nat) (a : nat -> nat -> bool) (tol : R) (o : ustate) : Prop :=
  exists x err, us_x o = Some x /\ us_err o = Some err /\ (forall i, (i < n)%nat -> 0 < x i) /\ err <= tol /\
    forall i, (i < n)%nat -> Rabs (deg n a i - mean_undirected n (p_ubcm x) (fun b => deg n b i)) <= tol.
(** The same for a directed network.  A node without outgoing (incoming) links
    has a positive parameter all the same: the means are those with such parameters set to
    zero, and the error is covered for networks where every node has links of both kinds. *)
Definition d_fitted (n : nat) (a : nat -> nat -> bool) (tol : R) (o : dstate) : Prop :=
  exists x y err, ds_x o = Some x /\ ds_y o = Some y /\ ds_err o = Some err /\ (forall i, (i < n)%nat -> 0 < x i /\ 0 < y i) /\
    (forall i, (i < n)%nat ->
       let p := p_dbcm (off_zero (deg n a) x) (off_zero (indeg n a) y) in
       Rabs (deg n a i - mean_directed n p (fun b => deg n b i)) <= tol /\ Rabs (indeg n a i - mean_directed n p (fun b => indeg n b i)) <= tol) /\
    ((forall i, (i < n)%nat -> 0 < deg n a i /\ 0 < indeg n a i) -> err <= tol).

(** The different elements of a list, each once. *)
Definition distinct {A : Type} (l ds : list A) : Prop := NoDup ds /\ forall v, In v ds <-> In v l.
(** What the calls rely on at [m] parameters: [np.linalg.solve] and [np.linalg.eigh] are right
    and answer on definite (symmetric) matrices, and random numbers are in (0, 1). *)
Definition sound_numpy (m : nat) (e : environment) : Prop :=
  linear_solver m (v_linsolve e) /\ solves_definite m (v_linsolve e) /\ eigen_solver m (v_eigh e) /\ draws (v_rnd e).
(** The links of a matrix. *)
Definition links (a : nat -> nat -> R) (i j : nat) : bool := positiveb (a i j).
(** [solve_tool] called with the line search on, a method other than "fixed-point", the
    starting point [nm], and the tolerance, step budget and threshold given. *)
Definition exp_call (model nm : string) (e : environment) (tol : R) (steps : nat) (eps : R) (t : settings) : Prop :=
  t_model t = model /\ In (t_method t) descent_methods /\ t_guess t = GStr nm /\ t_linsearch t = true /\ quiet t e /\
  t_tol t = tol /\ t_max_steps t = steps /\ t_eps t = eps.
