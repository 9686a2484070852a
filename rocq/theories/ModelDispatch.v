(** Choice of the functions run by [solve_tool]: transcription of
    graph_classes.py:577-787 (UndirectedGraph) and 1990-2271 (DirectedGraph).
    A dictionary is the list of its items.  The functions of models_functions.py are
    called by name through [mof], which maps each name to the transcription in
    ModelCM, ModelECM, ModelDCM, ModelDECM, ModelCReMa or ModelLinsearch.
    Points are real vectors; results may be IEEE values. *)
From Coq Require Import Reals List Arith Bool String.
From Verif Require Import Base ModelCM ModelECM ModelDCM ModelDECM ModelCReMa ModelLinsearch ModelSolver ModelIEEE.
Import ListNotations.
Local Open Scope R_scope.

(** ** Values *)
Inductive value : Type := VNum (v : fval) | VVec (v : nat -> fval) | VMat (m : nat -> nat -> fval).
(** [None]: the call raises. *)
Definition outcome : Type := option value.
Definition num (r : R) : outcome := Some (VNum (Fin r)).
Definition vec (v : nat -> R) : outcome := Some (VVec (fun i => Fin (v i))).
Definition mat (m : nat -> nat -> R) : outcome := Some (VMat (fun i j => Fin (m i j))).
Definition onum (r : option R) : outcome := obind r num.
Definition ovec (v : option (nat -> R)) : outcome := obind v vec.
Definition omat (m : option (nat -> nat -> R)) : outcome := obind m mat.
Definition fvec (v : nat -> fval) : outcome := Some (VVec v).
(** Functions modelled entry by entry that may raise: one failing entry among the first
    [m] makes the call raise. *)
Definition evec {A : Type} (toF : A -> fval) (m : nat) (v : nat -> option A) : outcome :=
  if forallb (fun r => match v r with Some _ => true | None => false end) (seq 0 m)
  then Some (VVec (fun r => match v r with Some a => toF a | None => NaN end)) else None.
(** A scalar division by zero in compiled code raises. *)
Definition guarded (divisors : bool) (o : outcome) : outcome := if divisors then o else None.
Definition fnum (v : fval) : outcome := Some (VNum v).
(** Unary minus on floats and arrays. *)
Definition vneg (v : value) : value :=
  match v with
  | VNum a => VNum (fopp a)
  | VVec a => VVec (fun i => fopp (a i))
  | VMat a => VMat (fun i j => fopp (a i j))
  end.

(** ** The tuple [self.args] and the topology [self.adjacency_crema] *)
Inductive adjacency_crema : Type :=
  | Triples (es : list edge)               (* (raw_ind, col_ind, weigths_value) *)
  | Factors1 (x : nat -> R)                (* (self.x,) *)
  | Factors2 (x y : nat -> R).             (* (self.x, self.y) *)
Inductive arguments : Type :=
  | A2 (n : nat) (a b : nat -> R)          (* cm, cm_exp: r_dseq, r_multiplicity; ecm, ecm_exp: dseq, strengths *)
  | A3 (n : nat) (s : nat -> R) (adj : adjacency_crema)
  | A4 (n : nat) (k_out k_in s_out s_in : nat -> R)
  | A5d (n : nat) (k_out k_in : nat -> R) (nzo nzi : list nat) (c : nat -> R)
  | A5c (n : nat) (s_out s_in : nat -> R) (adj : adjacency_crema) (nzo nzi : list nat).

(** [adj[0]] and [adj[1]] used as fitness vectors.  Of a triple they are the row and
    column indices; entries beyond the end (an out-of-bounds read) are taken to be 0. *)
Definition adj0 (adj : adjacency_crema) : nat -> R :=
  match adj with
  | Factors1 x => x | Factors2 x _ => x
  | Triples es => fun i => INR (fst (fst (nth i es (O, O, 0))))
  end.
Definition adj1 (adj : adjacency_crema) : option (nat -> R) :=
  match adj with
  | Factors1 _ => None | Factors2 _ y => Some y
  | Triples es => Some (fun i => INR (snd (fst (nth i es (O, O, 0)))))
  end.
(** [adj[0], adj[1], adj[2]] used as an edge list; shorter tuples raise. *)
Definition adj_edges (adj : adjacency_crema) : option (list edge) :=
  match adj with Triples es => Some es | _ => None end.

(** ** Calls by name; a tuple of another shape raises. *)
Definition on2 (f : nat -> (nat -> R) -> (nat -> R) -> (nat -> R) -> outcome) (a : arguments) (x : nat -> R) : outcome :=
  match a with A2 n k c => f n k c x | _ => None end.
Definition on4 (f : nat -> (nat -> R) -> (nat -> R) -> (nat -> R) -> (nat -> R) -> (nat -> R) -> outcome) (a : arguments) (x : nat -> R) : outcome :=
  match a with A4 n ko ki so si => f n ko ki so si x | _ => None end.
Definition on5 (f : nat -> (nat -> R) -> (nat -> R) -> list nat -> list nat -> (nat -> R) -> (nat -> R) -> outcome) (a : arguments) (x : nat -> R) : outcome :=
  match a with A5d n ko ki nzo nzi c => f n ko ki nzo nzi c x | _ => None end.
Definition on_edges (f : nat -> (nat -> R) -> list edge -> (nat -> R) -> outcome) (a : arguments) (x : nat -> R) : outcome :=
  match a with A3 n s adj => obind (adj_edges adj) (fun es => f n s es x) | _ => None end.
Definition on_factors (f : nat -> (nat -> R) -> (nat -> R) -> (nat -> R) -> outcome) (a : arguments) (x : nat -> R) : outcome :=
  match a with A3 n s adj => f n s (adj0 adj) x | _ => None end.
Definition on_edges_dir (f : nat -> (nat -> R) -> (nat -> R) -> list edge -> list nat -> list nat -> (nat -> R) -> outcome) (a : arguments) (x : nat -> R) : outcome :=
  match a with A5c n so si adj nzo nzi => obind (adj_edges adj) (fun es => f n so si es nzo nzi x) | _ => None end.
Definition on_factors_dir (f : nat -> (nat -> R) -> (nat -> R) -> (nat -> R) -> (nat -> R) -> list nat -> list nat -> (nat -> R) -> outcome) (a : arguments) (x : nat -> R) : outcome :=
  match a with A5c n so si adj nzo nzi => obind (adj1 adj) (fun y => f n so si (adj0 adj) y nzo nzi x) | _ => None end.

Definition mof : list (string * (arguments -> (nat -> R) -> outcome)) :=
  [ ("loglikelihood_cm", on2 (fun n k c x => fnum (floglikelihood_cm n k c x)));
    ("loglikelihood_prime_cm", on2 (fun n k c x => guarded (cm_divisors n x) (vec (loglikelihood_prime_cm n k c x))));
    ("loglikelihood_hessian_cm", on2 (fun n k c x => guarded (cm_divisors n x) (mat (loglikelihood_hessian_cm n k c x))));
    ("loglikelihood_hessian_diag_cm", on2 (fun n k c x => guarded (cm_divisors n x) (vec (loglikelihood_hessian_diag_cm n k c x))));
    ("iterative_cm", on2 (fun n k c x => guarded (cm_pairs n x) (vec (iterative_cm n k c x))));
    ("loglikelihood_cm_exp", on2 (fun n k c x => num (loglikelihood_cm_exp n k c x)));
    ("loglikelihood_prime_cm_exp", on2 (fun n k c x => vec (loglikelihood_prime_cm_exp n k c x)));
    ("loglikelihood_hessian_cm_exp", on2 (fun n k c x => mat (loglikelihood_hessian_cm_exp n c x)));
    ("loglikelihood_hessian_diag_cm_exp", on2 (fun n k c x => vec (loglikelihood_hessian_diag_cm_exp n c x)));
    ("iterative_cm_exp", on2 (fun n k c x => fvec (fiterative_cm_exp n k c x)));
    ("loglikelihood_ecm", on2 (fun n k s x => guarded (ecm_below n x) (fnum (floglikelihood_ecm n k s x))));
    ("loglikelihood_prime_ecm", on2 (fun n k s x => guarded (ecm_divisors n x) (vec (loglikelihood_prime_ecm n k s x))));
    ("loglikelihood_hessian_ecm", on2 (fun n k s x => guarded (ecm_divisors n x) (mat (loglikelihood_hessian_ecm n k s x))));
    ("loglikelihood_hessian_diag_ecm", on2 (fun n k s x => guarded (ecm_divisors n x) (vec (loglikelihood_hessian_diag_ecm n k s x))));
    ("iterative_ecm", on2 (fun n k s x => guarded (ecm_pairs n x (fun i => x (i + n)%nat)) (vec (iterative_ecm n k s x))));
    ("loglikelihood_ecm_exp", on2 (fun n k s x => guarded (ecm_exp_below n x) (fnum (floglikelihood_ecm_exp n k s x))));
    ("loglikelihood_prime_ecm_exp", on2 (fun n k s x => guarded (ecm_exp_divisors n x) (vec (loglikelihood_prime_ecm_exp n k s x))));
    ("loglikelihood_hessian_ecm_exp", on2 (fun n k s x => guarded (ecm_exp_divisors n x) (mat (loglikelihood_hessian_ecm_exp n x))));
    ("loglikelihood_hessian_diag_ecm_exp", on2 (fun n k s x => guarded (ecm_exp_divisors n x) (vec (loglikelihood_hessian_diag_ecm_exp n x))));
    ("iterative_ecm_exp", on2 (fun n k s x => guarded (ecm_exp_divisors n x) (fvec (fiterative_ecm_exp n k s x))));
    ("loglikelihood_crema_undirected", on_edges (fun n s es b => fnum (floglikelihood_crema_undirected n s es b)));
    ("loglikelihood_prime_crema_undirected", on_edges (fun n s es b => ovec (loglikelihood_prime_crema_undirected n s es b)));
    ("loglikelihood_hessian_crema_undirected", on_edges (fun n s es b => omat (loglikelihood_hessian_crema_undirected es b)));
    ("loglikelihood_hessian_diag_crema_undirected", on_edges (fun n s es b => ovec (loglikelihood_hessian_diag_crema_undirected es b)));
    ("iterative_crema_undirected", on_edges (fun n s es b => ovec (iterative_crema_undirected n s es b)));
    ("loglikelihood_crema_undirected_sparse", on_factors (fun n s x b => obind (floglikelihood_crema_undirected_sparse n s x b) fnum));
    ("loglikelihood_prime_crema_undirected_sparse", on_factors (fun n s x b => fvec (loglikelihood_prime_crema_undirected_sparse n s x b)));
    ("loglikelihood_hessian_diag_crema_undirected_sparse", on_factors (fun n s x b => fvec (loglikelihood_hessian_diag_crema_undirected_sparse n x b)));
    ("iterative_crema_undirected_sparse", on_factors (fun n s x b => fvec (iterative_crema_undirected_sparse n s x b)));
    ("loglikelihood_dcm", on5 (fun n ko ki nzo nzi c x => fnum (floglikelihood_dcm n ko ki nzo nzi c x)));
    ("loglikelihood_prime_dcm", on5 (fun n ko ki nzo nzi c x => guarded (dcm_divisors n nzo nzi x) (vec (loglikelihood_prime_dcm n ko ki nzo nzi c x))));
    ("loglikelihood_hessian_dcm", on5 (fun n ko ki nzo nzi c x => guarded (dcm_divisors n nzo nzi x) (mat (loglikelihood_hessian_dcm n ko ki nzo nzi c x))));
    ("loglikelihood_hessian_diag_dcm", on5 (fun n ko ki nzo nzi c x => guarded (dcm_divisors n nzo nzi x) (vec (loglikelihood_hessian_diag_dcm n ko ki nzo nzi c x))));
    ("iterative_dcm", on5 (fun n ko ki nzo nzi c x => guarded (dcm_pairs n x) (fvec (iterative_dcm n ko ki c x))));
    ("loglikelihood_dcm_exp", on5 (fun n ko ki nzo nzi c x => num (loglikelihood_dcm_exp n ko ki nzo nzi c x)));
    ("loglikelihood_prime_dcm_exp", on5 (fun n ko ki nzo nzi c x => vec (loglikelihood_prime_dcm_exp n ko ki nzo nzi c x)));
    ("loglikelihood_hessian_dcm_exp", on5 (fun n ko ki nzo nzi c x => mat (loglikelihood_hessian_dcm_exp n nzo nzi c x)));
    ("loglikelihood_hessian_diag_dcm_exp", on5 (fun n ko ki nzo nzi c x => vec (loglikelihood_hessian_diag_dcm_exp n nzo nzi c x)));
    ("iterative_dcm_exp", on5 (fun n ko ki nzo nzi c x => fvec (iterative_dcm_exp n ko ki c (fun r => Some (x r)))));
    ("loglikelihood_decm", on4 (fun n ko ki so si x => fnum (floglikelihood_decm n ko ki so si x)));
    ("loglikelihood_prime_decm", on4 (fun n ko ki so si x => guarded (decm_divisors n ko ki so si x) (vec (loglikelihood_prime_decm n ko ki so si x))));
    ("loglikelihood_hessian_decm", on4 (fun n ko ki so si x => guarded (decm_divisors n ko ki so si x) (mat (loglikelihood_hessian_decm n ko ki so si x))));
    ("loglikelihood_hessian_diag_decm", on4 (fun n ko ki so si x => guarded (decm_divisors n ko ki so si x) (vec (loglikelihood_hessian_diag_decm n ko ki so si x))));
    ("iterative_decm", on4 (fun n ko ki so si x => guarded (decm_pair_divisors n x) (evec Fin (4 * n) (iterative_decm n ko ki so si x))));
    ("loglikelihood_decm_exp", on4 (fun n ko ki so si x => guarded (decm_exp_loglik_divisors n x) (fnum (floglikelihood_decm_exp n ko ki so si x))));
    ("loglikelihood_prime_decm_exp", on4 (fun n ko ki so si x => fvec (floglikelihood_prime_decm_exp n ko ki so si x)));
    ("loglikelihood_hessian_decm_exp", on4 (fun n ko ki so si x => guarded (decm_exp_divisors n x) (mat (loglikelihood_hessian_decm_exp n x))));
    ("loglikelihood_hessian_diag_decm_exp", on4 (fun n ko ki so si x => guarded (decm_exp_divisors n x) (vec (loglikelihood_hessian_diag_decm_exp n x))));
    ("iterative_decm_exp", on4 (fun n ko ki so si x => guarded (decm_exp_divisors n x) (evec (fun v => v) (4 * n) (iterative_decm_exp n ko ki so si x))));
    ("loglikelihood_crema_directed", on_edges_dir (fun n so si es nzo nzi b => fnum (floglikelihood_crema_directed n so si es nzo nzi b)));
    ("loglikelihood_prime_crema_directed", on_edges_dir (fun n so si es nzo nzi b => ovec (loglikelihood_prime_crema_directed n so si es nzo nzi b)));
    ("loglikelihood_hessian_crema_directed", on_edges_dir (fun n so si es nzo nzi b => omat (loglikelihood_hessian_crema_directed n es b)));
    ("loglikelihood_hessian_diag_crema_directed", on_edges_dir (fun n so si es nzo nzi b => ovec (loglikelihood_hessian_diag_crema_directed n es b)));
    ("iterative_crema_directed", on_edges_dir (fun n so si es nzo nzi b => ovec (iterative_crema_directed n so si es nzo nzi b)));
    ("loglikelihood_crema_directed_sparse", on_factors_dir (fun n so si x y nzo nzi b => obind (floglikelihood_crema_directed_sparse n so si x y nzo nzi b) fnum));
    ("loglikelihood_prime_crema_directed_sparse", on_factors_dir (fun n so si x y nzo nzi b => fvec (loglikelihood_prime_crema_directed_sparse n so si x y nzo nzi b)));
    ("loglikelihood_hessian_diag_crema_directed_sparse", on_factors_dir (fun n so si x y nzo nzi b => fvec (loglikelihood_hessian_diag_crema_directed_sparse n x y b)));
    ("iterative_crema_directed_sparse", on_factors_dir (fun n so si x y nzo nzi b => fvec (iterative_crema_directed_sparse n so si x y b))) ]%string.

(** The line searches, in the two calling conventions of the solver; [fuel] bounds the
    feasibility loops. *)
Inductive lsearch : Type :=
  | LNewton (f : nat -> nat -> ((nat -> R) -> fval) -> (nat -> R) -> (nat -> R) -> R -> R -> (nat -> R) -> option R)
  | LFixed (f : nat -> nat -> (nat -> R) -> (nat -> R) -> (nat -> R) -> R -> R -> nat -> option R).
Definition plain (f : nat -> ((nat -> R) -> fval) -> (nat -> R) -> (nat -> R) -> R -> R -> (nat -> R) -> R) : lsearch :=
  LNewton (fun _ n obj x dx beta alfa g => Some (f n obj x dx beta alfa g)).
Definition mof_linsearch : list (string * lsearch) :=
  [ ("linsearch_fun_CM", plain linsearch_fun_CM);
    ("linsearch_fun_CM_fixed", LFixed (fun _ n x dx dx_old alfa beta step => Some (linsearch_fun_CM_fixed n x dx dx_old alfa beta step)));
    ("linsearch_fun_CM_exp", plain linsearch_fun_CM_exp);
    ("linsearch_fun_CM_exp_fixed", LFixed (fun _ n x dx dx_old alfa beta step => Some (linsearch_fun_CM_exp_fixed n dx dx_old alfa beta step)));
    ("linsearch_fun_crema_undirected", plain linsearch_fun_crema_undirected);
    ("linsearch_fun_crema_undirected_fixed", LFixed (fun _ n x dx dx_old alfa beta step => Some (linsearch_fun_crema_undirected_fixed n dx dx_old alfa beta step)));
    ("linsearch_fun_DCM", plain linsearch_fun_DCM);
    ("linsearch_fun_DCM_fixed", LFixed (fun _ n x dx dx_old alfa beta step => Some (linsearch_fun_DCM_fixed n x dx dx_old alfa beta step)));
    ("linsearch_fun_DCM_exp", plain linsearch_fun_DCM_exp);
    ("linsearch_fun_DCM_exp_fixed", LFixed (fun _ n x dx dx_old alfa beta step => Some (linsearch_fun_DCM_exp_fixed n dx dx_old alfa beta step)));
    ("linsearch_fun_crema_directed", plain linsearch_fun_crema_directed);
    ("linsearch_fun_crema_directed_fixed", LFixed (fun _ n x dx dx_old alfa beta step => Some (linsearch_fun_crema_directed_fixed n dx dx_old alfa beta step)));
    ("linsearch_fun_ECM", LNewton linsearch_fun_ECM);
    ("linsearch_fun_ECM_fixed", LFixed linsearch_fun_ECM_fixed);
    ("linsearch_fun_ECM_exp", LNewton linsearch_fun_ECM_exp);
    ("linsearch_fun_ECM_exp_fixed", LFixed linsearch_fun_ECM_exp_fixed);
    ("linsearch_fun_DECM", LNewton linsearch_fun_DECM);
    ("linsearch_fun_DECM_fixed", LFixed linsearch_fun_DECM_fixed);
    ("linsearch_fun_DECM_exp", LNewton linsearch_fun_DECM_exp);
    ("linsearch_fun_DECM_exp_fixed", LFixed linsearch_fun_DECM_exp_fixed) ]%string.

(** ** Dictionaries *)
Fixpoint lookup {A : Type} (key : string) (d : list (string * A)) : option A :=
  match d with
  | [] => None
  | (k, v) :: d => if String.eqb k key then Some v else lookup key d
  end.
(** [lambda x: -mof.f(x, self.args)], [lambda x: mof.f(x, self.args)], [None]. *)
Inductive entry : Type := Neg (f : string) | Pos (f : string) | Nothing.
(** graph_classes.py:599-638 [d_fun]. *)
Definition u_fun : list (string * entry) :=
  [ ("cm-newton", Neg "loglikelihood_prime_cm");
    ("cm-quasinewton", Neg "loglikelihood_prime_cm");
    ("cm-fixed-point", Pos "iterative_cm");
    ("crema-newton", Neg "loglikelihood_prime_crema_undirected");
    ("crema-quasinewton", Neg "loglikelihood_prime_crema_undirected");
    ("crema-fixed-point", Neg "iterative_crema_undirected");
    ("ecm-newton", Neg "loglikelihood_prime_ecm");
    ("ecm-quasinewton", Neg "loglikelihood_prime_ecm");
    ("ecm-fixed-point", Pos "iterative_ecm");
    ("crema-sparse-newton", Neg "loglikelihood_prime_crema_undirected_sparse");
    ("crema-sparse-quasinewton", Neg "loglikelihood_prime_crema_undirected_sparse");
    ("crema-sparse-fixed-point", Neg "iterative_crema_undirected_sparse");
    ("cm_exp-newton", Neg "loglikelihood_prime_cm_exp");
    ("cm_exp-quasinewton", Neg "loglikelihood_prime_cm_exp");
    ("cm_exp-fixed-point", Pos "iterative_cm_exp");
    ("ecm_exp-newton", Neg "loglikelihood_prime_ecm_exp");
    ("ecm_exp-quasinewton", Neg "loglikelihood_prime_ecm_exp");
    ("ecm_exp-fixed-point", Pos "iterative_ecm_exp") ]%string.
(** graph_classes.py:640-679 [d_fun_jac]. *)
Definition u_fun_jac : list (string * entry) :=
  [ ("cm-newton", Neg "loglikelihood_hessian_cm");
    ("cm-quasinewton", Neg "loglikelihood_hessian_diag_cm");
    ("cm-fixed-point", Nothing);
    ("crema-newton", Neg "loglikelihood_hessian_crema_undirected");
    ("crema-quasinewton", Neg "loglikelihood_hessian_diag_crema_undirected");
    ("crema-fixed-point", Nothing);
    ("ecm-newton", Neg "loglikelihood_hessian_ecm");
    ("ecm-quasinewton", Neg "loglikelihood_hessian_diag_ecm");
    ("ecm-fixed-point", Nothing);
    ("crema-sparse-newton", Neg "loglikelihood_hessian_crema_undirected");
    ("crema-sparse-quasinewton", Neg "loglikelihood_hessian_diag_crema_undirected_sparse");
    ("crema-sparse-fixed-point", Nothing);
    ("cm_exp-newton", Neg "loglikelihood_hessian_cm_exp");
    ("cm_exp-quasinewton", Neg "loglikelihood_hessian_diag_cm_exp");
    ("cm_exp-fixed-point", Nothing);
    ("ecm_exp-newton", Neg "loglikelihood_hessian_ecm_exp");
    ("ecm_exp-quasinewton", Neg "loglikelihood_hessian_diag_ecm_exp");
    ("ecm_exp-fixed-point", Nothing) ]%string.
(** graph_classes.py:681-718 [d_fun_stop]. *)
Definition u_fun_step : list (string * entry) :=
  [ ("cm-newton", Neg "loglikelihood_cm");
    ("cm-quasinewton", Neg "loglikelihood_cm");
    ("cm-fixed-point", Neg "loglikelihood_cm");
    ("crema-newton", Neg "loglikelihood_crema_undirected");
    ("crema-quasinewton", Neg "loglikelihood_crema_undirected");
    ("crema-fixed-point", Neg "loglikelihood_crema_undirected");
    ("ecm-newton", Neg "loglikelihood_ecm");
    ("ecm-quasinewton", Neg "loglikelihood_ecm");
    ("ecm-fixed-point", Neg "loglikelihood_ecm");
    ("crema-sparse-newton", Neg "loglikelihood_crema_undirected_sparse");
    ("crema-sparse-quasinewton", Neg "loglikelihood_crema_undirected_sparse");
    ("crema-sparse-fixed-point", Neg "loglikelihood_crema_undirected_sparse");
    ("cm_exp-newton", Neg "loglikelihood_cm_exp");
    ("cm_exp-quasinewton", Neg "loglikelihood_cm_exp");
    ("cm_exp-fixed-point", Neg "loglikelihood_cm_exp");
    ("ecm_exp-newton", Neg "loglikelihood_ecm_exp");
    ("ecm_exp-quasinewton", Neg "loglikelihood_ecm_exp");
    ("ecm_exp-fixed-point", Neg "loglikelihood_ecm_exp") ]%string.
(** graph_classes.py:737-744 [args_lin]. *)
Definition u_args_lin : list (string * string) :=
  [ ("cm", "loglikelihood_cm");
    ("crema", "loglikelihood_crema_undirected");
    ("crema-sparse", "loglikelihood_crema_undirected_sparse");
    ("ecm", "loglikelihood_ecm");
    ("cm_exp", "loglikelihood_cm_exp");
    ("ecm_exp", "loglikelihood_ecm_exp") ]%string.
(** graph_classes.py:748-767 [lins_fun]. *)
Definition u_lins_fun : list (string * string) :=
  [ ("cm-newton", "linsearch_fun_CM");
    ("cm-quasinewton", "linsearch_fun_CM");
    ("cm-fixed-point", "linsearch_fun_CM_fixed");
    ("crema-newton", "linsearch_fun_crema_undirected");
    ("crema-quasinewton", "linsearch_fun_crema_undirected");
    ("crema-fixed-point", "linsearch_fun_crema_undirected_fixed");
    ("crema-sparse-newton", "linsearch_fun_crema_undirected");
    ("crema-sparse-quasinewton", "linsearch_fun_crema_undirected");
    ("crema-sparse-fixed-point", "linsearch_fun_crema_undirected_fixed");
    ("ecm-newton", "linsearch_fun_ECM");
    ("ecm-quasinewton", "linsearch_fun_ECM");
    ("ecm-fixed-point", "linsearch_fun_ECM_fixed");
    ("cm_exp-newton", "linsearch_fun_CM_exp");
    ("cm_exp-quasinewton", "linsearch_fun_CM_exp");
    ("cm_exp-fixed-point", "linsearch_fun_CM_exp_fixed");
    ("ecm_exp-newton", "linsearch_fun_ECM_exp");
    ("ecm_exp-quasinewton", "linsearch_fun_ECM_exp");
    ("ecm_exp-fixed-point", "linsearch_fun_ECM_exp_fixed") ]%string.
(** graph_classes.py:771-778 [hess_reg]. *)
Definition u_hess_reg : list (string * string) :=
  [ ("cm", "matrix_regulariser_function_eigen_based");
    ("cm_exp", "matrix_regulariser_function");
    ("ecm", "matrix_regulariser_function_eigen_based");
    ("ecm_exp", "matrix_regulariser_function");
    ("crema", "matrix_regulariser_function");
    ("crema-sparse", "matrix_regulariser_function") ]%string.
(** graph_classes.py:2024-2077 [d_fun]. *)
Definition d_fun_ : list (string * entry) :=
  [ ("dcm-newton", Neg "loglikelihood_prime_dcm");
    ("dcm-quasinewton", Neg "loglikelihood_prime_dcm");
    ("dcm-fixed-point", Pos "iterative_dcm");
    ("dcm_exp-newton", Neg "loglikelihood_prime_dcm_exp");
    ("dcm_exp-quasinewton", Neg "loglikelihood_prime_dcm_exp");
    ("dcm_exp-fixed-point", Pos "iterative_dcm_exp");
    ("crema-newton", Neg "loglikelihood_prime_crema_directed");
    ("crema-quasinewton", Neg "loglikelihood_prime_crema_directed");
    ("crema-fixed-point", Neg "iterative_crema_directed");
    ("decm-newton", Neg "loglikelihood_prime_decm");
    ("decm-quasinewton", Neg "loglikelihood_prime_decm");
    ("decm-fixed-point", Pos "iterative_decm");
    ("decm_exp-newton", Neg "loglikelihood_prime_decm_exp");
    ("decm_exp-quasinewton", Neg "loglikelihood_prime_decm_exp");
    ("decm_exp-fixed-point", Pos "iterative_decm_exp");
    ("crema-sparse-newton", Neg "loglikelihood_prime_crema_directed_sparse");
    ("crema-sparse-quasinewton", Neg "loglikelihood_prime_crema_directed_sparse");
    ("crema-sparse-fixed-point", Neg "iterative_crema_directed_sparse") ]%string.
(** graph_classes.py:2079-2131 [d_fun_jac]. *)
Definition d_fun_jac : list (string * entry) :=
  [ ("dcm-newton", Neg "loglikelihood_hessian_dcm");
    ("dcm-quasinewton", Neg "loglikelihood_hessian_diag_dcm");
    ("dcm-fixed-point", Nothing);
    ("dcm_exp-newton", Neg "loglikelihood_hessian_dcm_exp");
    ("dcm_exp-quasinewton", Neg "loglikelihood_hessian_diag_dcm_exp");
    ("dcm_exp-fixed-point", Nothing);
    ("crema-newton", Neg "loglikelihood_hessian_crema_directed");
    ("crema-quasinewton", Neg "loglikelihood_hessian_diag_crema_directed");
    ("crema-fixed-point", Nothing);
    ("decm-newton", Neg "loglikelihood_hessian_decm");
    ("decm-quasinewton", Neg "loglikelihood_hessian_diag_decm");
    ("decm-fixed-point", Nothing);
    ("decm_exp-newton", Neg "loglikelihood_hessian_decm_exp");
    ("decm_exp-quasinewton", Neg "loglikelihood_hessian_diag_decm_exp");
    ("decm_exp-fixed-point", Nothing);
    ("crema-sparse-newton", Neg "loglikelihood_hessian_crema_directed");
    ("crema-sparse-quasinewton", Neg "loglikelihood_hessian_diag_crema_directed_sparse");
    ("crema-sparse-fixed-point", Nothing) ]%string.
(** graph_classes.py:2133-2179 [d_fun_step]. *)
Definition d_fun_step : list (string * entry) :=
  [ ("dcm-newton", Neg "loglikelihood_dcm");
    ("dcm-quasinewton", Neg "loglikelihood_dcm");
    ("dcm-fixed-point", Neg "loglikelihood_dcm");
    ("dcm_exp-newton", Neg "loglikelihood_dcm_exp");
    ("dcm_exp-quasinewton", Neg "loglikelihood_dcm_exp");
    ("dcm_exp-fixed-point", Neg "loglikelihood_dcm_exp");
    ("crema-newton", Neg "loglikelihood_crema_directed");
    ("crema-quasinewton", Neg "loglikelihood_crema_directed");
    ("crema-fixed-point", Neg "loglikelihood_crema_directed");
    ("decm-newton", Neg "loglikelihood_decm");
    ("decm-quasinewton", Neg "loglikelihood_decm");
    ("decm-fixed-point", Neg "loglikelihood_decm");
    ("decm_exp-newton", Neg "loglikelihood_decm_exp");
    ("decm_exp-quasinewton", Neg "loglikelihood_decm_exp");
    ("decm_exp-fixed-point", Neg "loglikelihood_decm_exp");
    ("crema-sparse-newton", Neg "loglikelihood_crema_directed_sparse");
    ("crema-sparse-quasinewton", Neg "loglikelihood_crema_directed_sparse");
    ("crema-sparse-fixed-point", Neg "loglikelihood_crema_directed_sparse") ]%string.
(** graph_classes.py:2202-2209 [args_lin]. *)
Definition d_args_lin : list (string * string) :=
  [ ("dcm", "loglikelihood_dcm");
    ("crema", "loglikelihood_crema_directed");
    ("crema-sparse", "loglikelihood_crema_directed_sparse");
    ("decm", "loglikelihood_decm");
    ("dcm_exp", "loglikelihood_dcm_exp");
    ("decm_exp", "loglikelihood_decm_exp") ]%string.
(** graph_classes.py:2213-2251 [lins_fun]. *)
Definition d_lins_fun : list (string * string) :=
  [ ("dcm-newton", "linsearch_fun_DCM");
    ("dcm-quasinewton", "linsearch_fun_DCM");
    ("dcm-fixed-point", "linsearch_fun_DCM_fixed");
    ("dcm_exp-newton", "linsearch_fun_DCM_exp");
    ("dcm_exp-quasinewton", "linsearch_fun_DCM_exp");
    ("dcm_exp-fixed-point", "linsearch_fun_DCM_exp_fixed");
    ("crema-newton", "linsearch_fun_crema_directed");
    ("crema-quasinewton", "linsearch_fun_crema_directed");
    ("crema-fixed-point", "linsearch_fun_crema_directed_fixed");
    ("crema-sparse-newton", "linsearch_fun_crema_directed");
    ("crema-sparse-quasinewton", "linsearch_fun_crema_directed");
    ("crema-sparse-fixed-point", "linsearch_fun_crema_directed_fixed");
    ("decm-newton", "linsearch_fun_DECM");
    ("decm-quasinewton", "linsearch_fun_DECM");
    ("decm-fixed-point", "linsearch_fun_DECM_fixed");
    ("decm_exp-newton", "linsearch_fun_DECM_exp");
    ("decm_exp-quasinewton", "linsearch_fun_DECM_exp");
    ("decm_exp-fixed-point", "linsearch_fun_DECM_exp_fixed") ]%string.
(** graph_classes.py:2255-2262 [hess_reg]. *)
Definition d_hess_reg : list (string * string) :=
  [ ("dcm", "matrix_regulariser_function_eigen_based");
    ("dcm_exp", "matrix_regulariser_function");
    ("decm", "matrix_regulariser_function_eigen_based");
    ("decm_exp", "matrix_regulariser_function");
    ("crema", "matrix_regulariser_function");
    ("crema-sparse", "matrix_regulariser_function") ]%string.

(** ** [_initialize_problem], after the guess and the arguments: graph_classes.py:595-787
    and 2020-2271.  [regularise] is the string given by the user, if any. *)
Record dispatched : Type := {
  d_fun : entry; d_jac : entry; d_step : entry;
  d_lins : string; d_obj : string; d_reg : string
}.
Inductive refusal : Type := RefValueError | RefKeyError.
(** graph_classes.py:782-786, 2266-2271. *)
Definition regularise_name (regularise : option string) : option string :=
  match regularise with
  | Some e => if String.eqb e "eigenvalues" then Some "matrix_regulariser_function_eigen_based"%string
              else if String.eqb e "identity" then Some "matrix_regulariser_function"%string else None
  | None => None
  end.
Definition dispatch (t_fun t_jac t_step : list (string * entry)) (t_args t_lins t_reg : list (string * string))
    (model method : string) (regularise : option string) : dispatched + refusal :=
  let mod_met := (model ++ "-" ++ method)%string in
  match lookup mod_met t_fun, lookup mod_met t_jac, lookup mod_met t_step with
  | Some f, Some j, Some s =>
      match lookup model t_args, lookup mod_met t_lins, lookup model t_reg with
      | Some o, Some l, Some r =>
          inl {| d_fun := f; d_jac := j; d_step := s; d_lins := l; d_obj := o;
                 d_reg := match regularise_name regularise with Some e => e | None => r end |}
      | _, _, _ => inr RefKeyError
      end
  | _, _, _ => inr RefValueError
  end.
Definition u_dispatch := dispatch u_fun u_fun_jac u_fun_step u_args_lin u_lins_fun u_hess_reg.
Definition d_dispatch := dispatch d_fun_ d_fun_jac d_fun_step d_args_lin d_lins_fun d_hess_reg.

(** A call of an attribute [self.fun], [self.fun_jac] or [self.step_fun]. *)
Definition run_entry (e : entry) (a : arguments) (x : nat -> R) : outcome :=
  match e with
  | Nothing => None
  | Pos f => obind (lookup f mof) (fun g => g a x)
  | Neg f => obind (lookup f mof) (fun g => obind (g a x) (fun v => Some (vneg v)))
  end.

(** solver_functions.py:172,198,214: the comparisons of the argument [method]. *)
Definition method_of_string (m : string) : method :=
  if String.eqb m "newton" then Newton
  else if String.eqb m "quasinewton" then QuasiNewton
  else if String.eqb m "fixed-point" then FixedPoint
  else OtherMethod.
