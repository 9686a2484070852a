(** One call of [sof.solver] with the functions that [solve_tool] gives it: the solver of
    ModelSolver on real vectors, the functions chosen by ModelDispatch, the line searches
    and regularisers of ModelLinsearch.

    Simplifications.  Points, directions and matrices have finite real entries: a call
    that would return a non-finite entry ends the run ([None]), and so does a numpy
    division by zero in the quasi-Newton direction.  The objective of the line search is
    evaluated with IEEE logarithms.  [np.linalg.solve] and [scipy.linalg.eigh] are
    arguments. *)
From Coq Require Import Reals List Arith Bool String.
From Verif Require Import Base ModelDCM ModelDECM ModelCReMa ModelLinsearch ModelSolver ModelIEEE ModelDispatch.
From Verif Require Export ModelIEEE.
Import ListNotations.
Local Open Scope R_scope.

(** The objective [args_lins[0](z, args_lins[1])] inside a line search.  A scalar division
    by zero in it (ecm, ecm_exp and decm_exp, at a pair with [y_i y_j = 1]) raises in the
    code and is NaN here; the searches of these models first shorten the step until all
    such products are below 1. *)
Definition objective (name : string) (a : arguments) (z : nat -> R) : fval :=
  match run_entry (Pos name) a z with Some (VNum v) => v | _ => NaN end.

(** The first [m] entries of a returned array, all finite. *)
Definition all_fin (m : nat) (v : nat -> fval) : option (nat -> R) :=
  if forallb (fun i => match v i with Fin _ => true | _ => false end) (seq 0 m)
  then Some (fun i => match v i with Fin a => a | _ => 0 end) else None.
Definition real_vec (m : nat) (o : outcome) : option (nat -> R) :=
  match o with Some (VVec v) => all_fin m v | _ => None end.
Definition real_mat (m : nat) (o : outcome) : option (nat -> nat -> R) :=
  match o with
  | Some (VMat v) =>
      if forallb (fun i => match all_fin m (v i) with Some _ => true | None => false end) (seq 0 m)
      then Some (fun i j => match v i j with Fin a => a | _ => 0 end) else None
  | _ => None
  end.

(** numpy on real vectors of length [m]. *)
Definition run_numerics (linsolve : (nat -> nat -> R) -> (nat -> R) -> option (nat -> R)) (ok : (nat -> nat -> R) -> bool)
    (m : nat) : numerics (nat -> R) (nat -> nat -> R) R :=
  {| vnorm := norm2 m; gtb := fun a b => if Rlt_dec b a then true else false; sone := 1; shalf := / 2;
     vzeros := fun _ _ => 0; ModelSolver.vneg := fun v i => - v i; vsub := fun u v i => u i - v i;
     vaxpy := axpy; vscale := fun a d i => a * d i; 
     vdiv := fun u v => if every m (fun i => nonzero (v i)) then Some (fun i => u i / v i) else None;
     vmaxabs := fun v => fold_right Rmax 0 (map (fun i => Rabs (v i)) (seq 0 m)); smul := Rmult;
     vfloor := fun b e i => Rmax (b i) (b i * 0 + e);
     vinf_fix := fun _ d => d; vnan_fix := fun v => v; lsolve := linsolve; eigh_ok := ok |}.

(** The size argument of a search: [int(len(x) / 2)] for the UECM (models_functions.py:765,
    816, 1105, 1154), [int(len(x) / 4)] for the DECM (2586, 2643, 3729, 3784), otherwise
    the length of [x]. *)
Definition lins_size (name : string) (m : nat) : nat :=
  if existsb (String.eqb name) ["linsearch_fun_ECM"; "linsearch_fun_ECM_fixed"; "linsearch_fun_ECM_exp"; "linsearch_fun_ECM_exp_fixed"]%string
  then Nat.div m 2
  else if existsb (String.eqb name) ["linsearch_fun_DECM"; "linsearch_fun_DECM_fixed"; "linsearch_fun_DECM_exp"; "linsearch_fun_DECM_exp_fixed"]%string
  then Nat.div m 4
  else m.

(** graph_classes.py:321-336, 882-897, 1473-1489, 2360-2376: the
    arguments of [sof.solver]. *)
Definition run_problem (eigh : (nat -> nat -> R) -> (nat -> R) * (nat -> nat -> R)) (fuel m : nat)
    (D : dispatched) (a : arguments) : problem (nat -> R) (nat -> nat -> R) R :=
  {| p_fun := fun x => real_vec m (run_entry (d_fun D) a x);
     p_jac_m := fun x => real_mat m (run_entry (d_jac D) a x);
     p_jac_v := fun x => real_vec m (run_entry (d_jac D) a x);
     p_reg := fun b e =>
       if String.eqb (d_reg D) "matrix_regulariser_function" then Some (matrix_regulariser_function b e)
       else if String.eqb (d_reg D) "matrix_regulariser_function_eigen_based"
       then Some (matrix_regulariser_function_eigen_based eigh m b e) else None;
     p_lin_nq := fun x dx beta alfa f =>
       match lookup (d_lins D) mof_linsearch with
       | Some (LNewton g) => g fuel (lins_size (d_lins D) m) (objective (d_obj D) a) x dx beta alfa f
       | _ => None
       end;
     p_lin_fp := fun x dx dx_old alfa beta step =>
       match lookup (d_lins D) mof_linsearch with
       | Some (LFixed g) => g fuel (lins_size (d_lins D) m) x dx dx_old alfa beta step
       | _ => None
       end |}.
