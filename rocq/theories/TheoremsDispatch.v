(** Theorems on the choice of the functions run by [solve_tool].  Nothing else in this
    file; proofs are in ProofsDispatch, ProofsDispatchU, ProofsDispatchD and WitnessDispatch. *)
From Coq Require Import Reals List Arith Bool String Lia Lra.
From Coquelicot Require Import Coquelicot.
From Verif Require Import Base SpecDeriv SpecGraph SpecEnsemble SpecWeighted SpecDirected SpecCReMa
  ModelCM ModelECM ModelDCM ModelDECM ModelCReMa ModelLinsearch ModelSolver ModelDispatch SpecDispatch.
From Verif Require Import ProofsDispatch ProofsDispatchU ProofsDispatchD WitnessDispatch.
Import ListNotations.
Local Open Scope R_scope.

(** C61: which methods are accepted. *)
Theorem C61_undirected_accepts :
  forall model m reg,
  In model undirected_models -> In m documented_methods -> exists D, u_dispatch model m reg = inl D.
Proof. exact u_accepts. Qed.
Print Assumptions C61_undirected_accepts.
Theorem C61_directed_accepts :
  forall model m reg,
  In model directed_models -> In m documented_methods -> exists D, d_dispatch model m reg = inl D.
Proof. exact d_accepts. Qed.
Print Assumptions C61_directed_accepts.
Theorem C61_undirected_refuses_partial :
  forall model m reg,
  In model undirected_models -> ~ In m documented_methods ->
  ~ (model = "crema"%string /\ In m ["sparse-newton"; "sparse-quasinewton"; "sparse-fixed-point"]%string) ->
  u_dispatch model m reg = inr RefValueError.
Proof. exact u_refuses. Qed.
Print Assumptions C61_undirected_refuses_partial.
Theorem C61_directed_refuses_partial :
  forall model m reg,
  In model directed_models -> ~ In m documented_methods ->
  ~ (model = "crema"%string /\ In m ["sparse-newton"; "sparse-quasinewton"; "sparse-fixed-point"]%string) ->
  d_dispatch model m reg = inr RefValueError.
Proof. exact d_refuses. Qed.
Print Assumptions C61_directed_refuses_partial.
(** The keys of crema-sparse are reachable from crema with an undocumented method. *)
Theorem C61_unknown_method_refuted :
  exists model method, In model undirected_models /\ In model directed_models /\ ~ In method documented_methods /\
    (forall reg, exists D, u_dispatch model method reg = inl D) /\ (forall reg, exists D, d_dispatch model method reg = inl D) /\
    (forall (V M S : Type) (N : numerics V M S) (P : problem V M S) (Opt : options S) (x0 f : V),
       o_method Opt = method_of_string method -> o_full_return Opt = false -> p_fun P x0 = Some f ->
       gtb N (vnorm N f) (o_tol Opt) = false -> solver N P Opt x0 = Sol x0).
Proof. exact unknown_method_accepted. Qed.
Print Assumptions C61_unknown_method_refuted.
Theorem C61_unknown_method_raises :
  forall (V M S : Type) (N : numerics V M S) (P : problem V M S) (Opt : options S) (x0 f : V) method,
  ~ In method documented_methods -> o_method Opt = method_of_string method -> o_full_return Opt = false -> p_fun P x0 = Some f ->
  gtb N (vnorm N f) (o_tol Opt) = true -> (0 < o_max_steps Opt)%nat -> gtb N (sone N) (o_eps Opt) = true ->
  solver N P Opt x0 = Raised.
Proof. exact unknown_method_raises. Qed.
Print Assumptions C61_unknown_method_raises.
(** Objective, gradient and line-search objective agree in sign. *)
Theorem C61_descent_cm :
  forall reg m n k c x,
  In m descent_methods -> (forall i, (i < n)%nat -> 0 < x i) ->
  accepted u_dispatch "cm" m reg (solve_descends (A2 n k c) (loglikelihood_cm n k c) n x).
Proof. exact cm_descends. Qed.
Print Assumptions C61_descent_cm.
Theorem C61_descent_cm_exp :
  forall reg m n k c x,
  In m descent_methods ->
  accepted u_dispatch "cm_exp" m reg (solve_descends (A2 n k c) (loglikelihood_cm_exp n k c) n x).
Proof. exact cm_exp_descends. Qed.
Print Assumptions C61_descent_cm_exp.
Theorem C61_descent_ecm :
  forall reg m n k s x,
  In m descent_methods -> ecm_dom n x ->
  accepted u_dispatch "ecm" m reg (solve_descends (A2 n k s) (loglikelihood_ecm n k s) (2 * n) x).
Proof. exact ecm_descends. Qed.
Print Assumptions C61_descent_ecm.
Theorem C61_descent_ecm_exp :
  forall reg m n k s x,
  In m descent_methods -> ecm_exp_dom n x ->
  accepted u_dispatch "ecm_exp" m reg (solve_descends (A2 n k s) (loglikelihood_ecm_exp n k s) (2 * n) x).
Proof. exact ecm_exp_descends. Qed.
Print Assumptions C61_descent_ecm_exp.
Theorem C61_descent_crema :
  forall reg m n s es b,
  In m descent_methods -> crema_dom es b ->
  accepted u_dispatch "crema" m reg (solve_descends (A3 n s (Triples es)) (loglikelihood_crema_undirected n s es) n b).
Proof. exact crema_descends. Qed.
Print Assumptions C61_descent_crema.
Theorem C61_descent_crema_sparse :
  forall reg m n s x b,
  In m descent_methods -> (forall i, (i < n)%nat -> 0 <= x i) -> crema_dom (triu_edges n (pmatrix_cm x)) b ->
  (forall i j, (i < n)%nat -> (j < n)%nat -> b i + b j <> 0) ->
  accepted u_dispatch "crema-sparse" m reg
    (solve_descends (A3 n s (Factors1 x)) (loglikelihood_crema_undirected n s (triu_edges n (pmatrix_cm x))) n b).
Proof. exact crema_sparse_descends. Qed.
Print Assumptions C61_descent_crema_sparse.
Theorem C61_descent_dcm :
  forall reg m n ko ki nzo nzi c x,
  In m descent_methods -> index_list n nzo -> index_list n nzi -> dcm_dom n nzo nzi x ->
  accepted d_dispatch "dcm" m reg (solve_descends (A5d n ko ki nzo nzi c) (loglikelihood_dcm n ko ki nzo nzi c) (2 * n) x).
Proof. exact dcm_descends. Qed.
Print Assumptions C61_descent_dcm.
Theorem C61_descent_dcm_exp :
  forall reg m n ko ki nzo nzi c x,
  In m descent_methods -> index_list n nzo -> index_list n nzi ->
  accepted d_dispatch "dcm_exp" m reg (solve_descends (A5d n ko ki nzo nzi c) (loglikelihood_dcm_exp n ko ki nzo nzi c) (2 * n) x).
Proof. exact dcm_exp_descends. Qed.
Print Assumptions C61_descent_dcm_exp.
Theorem C61_descent_decm :
  forall reg m n ko ki so si x,
  In m descent_methods -> decm_dom n x -> decm_supp n ko ki so si x ->
  accepted d_dispatch "decm" m reg (solve_descends (A4 n ko ki so si) (loglikelihood_decm n ko ki so si) (4 * n) x).
Proof. exact decm_descends. Qed.
Print Assumptions C61_descent_decm.
Theorem C61_descent_decm_exp :
  forall reg m n ko ki so si x,
  In m descent_methods -> decm_exp_dom n x ->
  accepted d_dispatch "decm_exp" m reg (solve_descends (A4 n ko ki so si) (loglikelihood_decm_exp n ko ki so si) (4 * n) x).
Proof. exact decm_exp_descends. Qed.
Print Assumptions C61_descent_decm_exp.
Theorem C61_descent_crema_dir :
  forall reg m n so si es nzo nzi b,
  In m descent_methods -> nonzero_list n so nzo -> nonzero_list n si nzi -> crema_dir_dom n es b ->
  accepted d_dispatch "crema" m reg
    (solve_descends (A5c n so si (Triples es) nzo nzi) (loglikelihood_crema_directed n so si es nzo nzi) (n + n) b).
Proof. exact crema_dir_descends. Qed.
Print Assumptions C61_descent_crema_dir.
Theorem C61_descent_crema_dir_sparse :
  forall reg m n so si x y nzo nzi b,
  In m descent_methods -> (forall i, (i < n)%nat -> 0 <= x i) -> (forall i, (i < n)%nat -> 0 <= y i) ->
  nonzero_list n so nzo -> nonzero_list n si nzi ->
  (forall i, (i < n)%nat -> (x i <> 0 <-> so i <> 0)) -> (forall i, (i < n)%nat -> (y i <> 0 <-> si i <> 0)) ->
  crema_dir_dom n (all_edges n (dcm_prob x y)) b ->
  (forall i j, (i < n)%nat -> (j < n)%nat -> so i <> 0 \/ si j <> 0 -> b i + b (j + n)%nat <> 0) ->
  accepted d_dispatch "crema-sparse" m reg
    (solve_descends (A5c n so si (Factors2 x y) nzo nzi) (loglikelihood_crema_directed n so si (all_edges n (dcm_prob x y)) nzo nzi) (n + n) b).
Proof. exact crema_dir_sparse_descends. Qed.
Print Assumptions C61_descent_crema_dir_sparse.
(** The matrix of a newton run. *)
Theorem C61_newton_ecm :
  forall reg n k s x,
  ecm_dom n x -> accepted u_dispatch "ecm" "newton" reg (solve_jacobian (A2 n k s) (2 * n) x).
Proof. exact ecm_jacobian. Qed.
Print Assumptions C61_newton_ecm.
Theorem C61_newton_ecm_exp :
  forall reg n k s x,
  ecm_exp_dom n x -> accepted u_dispatch "ecm_exp" "newton" reg (solve_jacobian (A2 n k s) (2 * n) x).
Proof. exact ecm_exp_jacobian. Qed.
Print Assumptions C61_newton_ecm_exp.
Theorem C61_newton_crema :
  forall reg n s es b,
  crema_dom es b -> simple_pairs es -> accepted u_dispatch "crema" "newton" reg (solve_jacobian (A3 n s (Triples es)) n b).
Proof. exact crema_jacobian. Qed.
Print Assumptions C61_newton_crema.
Theorem C61_newton_dcm :
  forall reg n ko ki nzo nzi c x,
  index_list n nzo -> index_list n nzi -> dcm_dom n nzo nzi x ->
  accepted d_dispatch "dcm" "newton" reg (solve_jacobian (A5d n ko ki nzo nzi c) (2 * n) x).
Proof. exact dcm_jacobian. Qed.
Print Assumptions C61_newton_dcm.
Theorem C61_newton_dcm_exp :
  forall reg n ko ki nzo nzi c x,
  index_list n nzo -> index_list n nzi ->
  accepted d_dispatch "dcm_exp" "newton" reg (solve_jacobian (A5d n ko ki nzo nzi c) (2 * n) x).
Proof. exact dcm_exp_jacobian. Qed.
Print Assumptions C61_newton_dcm_exp.
Theorem C61_newton_decm :
  forall reg n ko ki so si x,
  decm_dom n x -> decm_supp n ko ki so si x ->
  accepted d_dispatch "decm" "newton" reg (solve_jacobian (A4 n ko ki so si) (4 * n) x).
Proof. exact decm_jacobian. Qed.
Print Assumptions C61_newton_decm.
Theorem C61_newton_decm_exp :
  forall reg n ko ki so si x,
  decm_exp_dom n x ->
  accepted d_dispatch "decm_exp" "newton" reg (solve_jacobian (A4 n ko ki so si) (4 * n) x).
Proof. exact decm_exp_jacobian. Qed.
Print Assumptions C61_newton_decm_exp.
Theorem C61_newton_crema_dir :
  forall reg n so si es nzo nzi b,
  nonzero_list n so nzo -> nonzero_list n si nzi -> pairs_below n es -> simple_arcs es -> crema_dir_dom n es b ->
  accepted d_dispatch "crema" "newton" reg (solve_jacobian (A5c n so si (Triples es) nzo nzi) (n + n) b).
Proof. exact crema_dir_jacobian. Qed.
Print Assumptions C61_newton_crema_dir.
Theorem C61_newton_crema_sparse_raises :
  forall reg,
  accepted u_dispatch "crema-sparse" "newton" reg (fun D => forall n s x b, run_entry (d_jac D) (A3 n s (Factors1 x)) b = None).
Proof. exact crema_sparse_newton_raises. Qed.
Print Assumptions C61_newton_crema_sparse_raises.
Theorem C61_newton_crema_dir_sparse_raises :
  forall reg,
  accepted d_dispatch "crema-sparse" "newton" reg (fun D => forall n so si x y nzo nzi b,
    run_entry (d_jac D) (A5c n so si (Factors2 x y) nzo nzi) b = None).
Proof. exact crema_dir_sparse_newton_raises. Qed.
Print Assumptions C61_newton_crema_dir_sparse_raises.
(** The vector of a quasinewton run. *)
Theorem C61_quasinewton_ecm :
  forall reg n k s x,
  ecm_dom n x -> accepted u_dispatch "ecm" "quasinewton" reg (solve_jacobian_diag (A2 n k s) (2 * n) x).
Proof. exact ecm_jacobian_diag. Qed.
Print Assumptions C61_quasinewton_ecm.
Theorem C61_quasinewton_ecm_exp :
  forall reg n k s x,
  ecm_exp_dom n x -> accepted u_dispatch "ecm_exp" "quasinewton" reg (solve_jacobian_diag (A2 n k s) (2 * n) x).
Proof. exact ecm_exp_jacobian_diag. Qed.
Print Assumptions C61_quasinewton_ecm_exp.
Theorem C61_quasinewton_crema :
  forall reg n s es b,
  crema_dom es b -> (forall i j w, In (i, j, w) es -> i <> j) ->
  accepted u_dispatch "crema" "quasinewton" reg (solve_jacobian_diag (A3 n s (Triples es)) n b).
Proof. exact crema_jacobian_diag. Qed.
Print Assumptions C61_quasinewton_crema.
Theorem C61_quasinewton_dcm_exp :
  forall reg n ko ki nzo nzi c x,
  index_list n nzo -> index_list n nzi ->
  accepted d_dispatch "dcm_exp" "quasinewton" reg (solve_jacobian_diag (A5d n ko ki nzo nzi c) (2 * n) x).
Proof. exact dcm_exp_jacobian_diag. Qed.
Print Assumptions C61_quasinewton_dcm_exp.
Theorem C61_quasinewton_decm_exp :
  forall reg n ko ki so si x,
  decm_exp_dom n x ->
  accepted d_dispatch "decm_exp" "quasinewton" reg (solve_jacobian_diag (A4 n ko ki so si) (4 * n) x).
Proof. exact decm_exp_jacobian_diag. Qed.
Print Assumptions C61_quasinewton_decm_exp.
Theorem C61_quasinewton_crema_dir :
  forall reg n so si es nzo nzi b,
  nonzero_list n so nzo -> nonzero_list n si nzi -> pairs_below n es -> crema_dir_dom n es b ->
  accepted d_dispatch "crema" "quasinewton" reg (solve_jacobian_diag (A5c n so si (Triples es) nzo nzi) (n + n) b).
Proof. exact crema_dir_jacobian_diag. Qed.
Print Assumptions C61_quasinewton_crema_dir.
(** The map of a fixed-point run. *)
Theorem C61_fixed_point_cm :
  forall reg n k c x i,
  (i < n)%nat -> (forall j, (j < n)%nat -> 0 < x j) -> 0 < c i -> 0 < k i ->
  accepted u_dispatch "cm" "fixed-point" reg (solve_fixes (A2 n k c) (loglikelihood_cm n k c) x i).
Proof. exact cm_fixed. Qed.
Print Assumptions C61_fixed_point_cm.
Theorem C61_fixed_point_cm_exp :
  forall reg n k c x i,
  (i < n)%nat -> (forall j, (j < n)%nat -> 1 <= c j) -> 1 < rsum n c -> 0 < k i ->
  accepted u_dispatch "cm_exp" "fixed-point" reg (solve_fixes (A2 n k c) (loglikelihood_cm_exp n k c) x i).
Proof. exact cm_exp_fixed. Qed.
Print Assumptions C61_fixed_point_cm_exp.
Theorem C61_fixed_point_ecm :
  forall reg n k s x r,
  (2 <= n)%nat -> (r < 2 * n)%nat -> ecm_dom n x -> (forall i, (i < n)%nat -> 0 < k i /\ 0 < s i) ->
  accepted u_dispatch "ecm" "fixed-point" reg (solve_fixes (A2 n k s) (loglikelihood_ecm n k s) x r).
Proof. exact ecm_fixed. Qed.
Print Assumptions C61_fixed_point_ecm.
Theorem C61_fixed_point_ecm_exp :
  forall reg n k s x r,
  (2 <= n)%nat -> (r < 2 * n)%nat -> ecm_exp_dom n x -> (forall i, (i < n)%nat -> 0 < k i /\ 0 < s i) ->
  accepted u_dispatch "ecm_exp" "fixed-point" reg (solve_fixes (A2 n k s) (loglikelihood_ecm_exp n k s) x r).
Proof. exact ecm_exp_fixed. Qed.
Print Assumptions C61_fixed_point_ecm_exp.
Theorem C61_fixed_point_crema :
  forall reg n s es b i,
  crema_dom es b -> ends_nonzero es b -> (i < n)%nat -> s i <> 0 -> b i <> 0 ->
  accepted u_dispatch "crema" "fixed-point" reg (solve_fixes (A3 n s (Triples es)) (loglikelihood_crema_undirected n s es) b i).
Proof. exact crema_fixed. Qed.
Print Assumptions C61_fixed_point_crema.
Theorem C61_fixed_point_dcm :
  forall reg n ko ki nzo nzi c x r,
  nonzero_list n ko nzo -> nonzero_list n ki nzi -> dcm_full n nzo nzi x -> (r < 2 * n)%nat ->
  (forall q, (q < n)%nat -> 0 < c q) -> (forall q, (q < n)%nat -> 0 <= ko q /\ 0 <= ki q) ->
  (In r nzo \/ exists j, In j nzi /\ r = (j + n)%nat) ->
  accepted d_dispatch "dcm" "fixed-point" reg (solve_fixes (A5d n ko ki nzo nzi c) (loglikelihood_dcm n ko ki nzo nzi c) x r).
Proof. exact dcm_fixed. Qed.
Print Assumptions C61_fixed_point_dcm.
Theorem C61_fixed_point_dcm_exp :
  forall reg n ko ki nzo nzi c x r,
  nonzero_list n ko nzo -> nonzero_list n ki nzi -> (r < 2 * n)%nat ->
  (forall q, (q < n)%nat -> 1 <= c q) -> (forall q, (q < n)%nat -> 0 < ko q /\ 0 < ki q) ->
  accepted d_dispatch "dcm_exp" "fixed-point" reg (solve_fixes (A5d n ko ki nzo nzi c) (loglikelihood_dcm_exp n ko ki nzo nzi c) x r).
Proof. exact dcm_exp_fixed. Qed.
Print Assumptions C61_fixed_point_dcm_exp.
Theorem C61_fixed_point_decm :
  forall reg n ko ki so si x r,
  (2 <= n)%nat -> decm_dom n x -> decm_pos n x -> (r < 4 * n)%nat -> decm_constraint n ko ki so si r <> 0 ->
  accepted d_dispatch "decm" "fixed-point" reg (solve_fixes (A4 n ko ki so si) (loglikelihood_decm n ko ki so si) x r).
Proof. exact decm_fixed. Qed.
Print Assumptions C61_fixed_point_decm.
Theorem C61_fixed_point_crema_dir :
  forall reg n so si es nzo nzi b r,
  nonzero_list n so nzo -> nonzero_list n si nzi -> crema_dir_dom n es b -> ends_nonzero_dir n es b ->
  (exists i, (i < n)%nat /\ ((r = i /\ so i <> 0) \/ (r = (i + n)%nat /\ si i <> 0))) -> b r <> 0 ->
  accepted d_dispatch "crema" "fixed-point" reg
    (solve_fixes (A5c n so si (Triples es) nzo nzi) (loglikelihood_crema_directed n so si es nzo nzi) b r).
Proof. exact crema_dir_fixed. Qed.
Print Assumptions C61_fixed_point_crema_dir.
Theorem C61_fixed_point_decm_exp_refuted :
  forall reg,
  accepted d_dispatch "decm_exp" "fixed-point" reg (fun D =>
    exists n ko ki so si theta, (2 <= n)%nat /\
      (forall i, (i < n)%nat -> 0 < ko i /\ 0 < ki i /\ 0 < so i /\ 0 < si i) /\ decm_exp_dom n theta /\
      (forall r, (r < 4 * n)%nat -> at1 (run_entry (d_fun D) (A4 n ko ki so si) theta) r = Some (theta r)) /\
      exists r d, (r < 4 * n)%nat /\ partial (fun z => - loglikelihood_decm_exp n ko ki so si z) theta r d /\ d <> 0).
Proof. exact decm_exp_fixed_refuted. Qed.
Print Assumptions C61_fixed_point_decm_exp_refuted.
Theorem C61_fixed_point_crema_sparse_offset :
  forall reg n s x b i,
  (forall i, (i < n)%nat -> 0 <= x i) -> crema_dom (triu_edges n (pmatrix_cm x)) b ->
  (forall i j, (i < n)%nat -> (j < n)%nat -> b i + b j <> 0) ->
  (i < n)%nat -> 0 <= s i -> b i <> 0 ->
  accepted u_dispatch "crema-sparse" "fixed-point" reg (fun D =>
    exists d, partial (fun z => - loglikelihood_crema_undirected n s (triu_edges n (pmatrix_cm x)) z) b i d /\
      (at1 (run_entry (d_fun D) (A3 n s (Factors1 x)) b) i = Some (b i) <-> d = - exp (- (100)))).
Proof. exact crema_sparse_fixed. Qed.
Print Assumptions C61_fixed_point_crema_sparse_offset.
(** Line searches and regulariser. *)
Theorem C61_undirected_linesearch :
  forall reg,
  (forall m, In m descent_methods ->
    accepted u_dispatch "cm" m reg (fun D => lookup (d_lins D) mof_linsearch = Some (plain linsearch_fun_CM)) /\
    accepted u_dispatch "cm_exp" m reg (fun D => lookup (d_lins D) mof_linsearch = Some (plain linsearch_fun_CM_exp)) /\
    accepted u_dispatch "ecm" m reg (fun D => lookup (d_lins D) mof_linsearch = Some (LNewton linsearch_fun_ECM)) /\
    accepted u_dispatch "ecm_exp" m reg (fun D => lookup (d_lins D) mof_linsearch = Some (LNewton linsearch_fun_ECM_exp)) /\
    accepted u_dispatch "crema" m reg (fun D => lookup (d_lins D) mof_linsearch = Some (plain linsearch_fun_crema_undirected)) /\
    accepted u_dispatch "crema-sparse" m reg (fun D => lookup (d_lins D) mof_linsearch = Some (plain linsearch_fun_crema_undirected))) /\
  (forall model, In model undirected_models -> accepted u_dispatch model "fixed-point" reg (fun D =>
     exists f, lookup (d_lins D) mof_linsearch = Some (LFixed f))) /\
  accepted u_dispatch "ecm" "fixed-point" reg (fun D => lookup (d_lins D) mof_linsearch = Some (LFixed linsearch_fun_ECM_fixed)) /\
  accepted u_dispatch "ecm_exp" "fixed-point" reg (fun D => lookup (d_lins D) mof_linsearch = Some (LFixed linsearch_fun_ECM_exp_fixed)).
Proof. exact u_linesearch. Qed.
Print Assumptions C61_undirected_linesearch.
Theorem C61_directed_linesearch :
  forall reg,
  (forall m, In m descent_methods ->
    accepted d_dispatch "dcm" m reg (fun D => lookup (d_lins D) mof_linsearch = Some (plain linsearch_fun_DCM)) /\
    accepted d_dispatch "dcm_exp" m reg (fun D => lookup (d_lins D) mof_linsearch = Some (plain linsearch_fun_DCM_exp)) /\
    accepted d_dispatch "decm" m reg (fun D => lookup (d_lins D) mof_linsearch = Some (LNewton linsearch_fun_DECM)) /\
    accepted d_dispatch "decm_exp" m reg (fun D => lookup (d_lins D) mof_linsearch = Some (LNewton linsearch_fun_DECM_exp)) /\
    accepted d_dispatch "crema" m reg (fun D => lookup (d_lins D) mof_linsearch = Some (plain linsearch_fun_crema_directed)) /\
    accepted d_dispatch "crema-sparse" m reg (fun D => lookup (d_lins D) mof_linsearch = Some (plain linsearch_fun_crema_directed))) /\
  (forall model, In model directed_models -> accepted d_dispatch model "fixed-point" reg (fun D =>
     exists f, lookup (d_lins D) mof_linsearch = Some (LFixed f))) /\
  accepted d_dispatch "decm" "fixed-point" reg (fun D => lookup (d_lins D) mof_linsearch = Some (LFixed linsearch_fun_DECM_fixed)) /\
  accepted d_dispatch "decm_exp" "fixed-point" reg (fun D => lookup (d_lins D) mof_linsearch = Some (LFixed linsearch_fun_DECM_exp_fixed)).
Proof. exact d_linesearch. Qed.
Print Assumptions C61_directed_linesearch.
Theorem C61_regulariser :
  forall model m D reg,
  In m documented_methods ->
  (In model undirected_models /\ u_dispatch model m reg = inl D) \/ (In model directed_models /\ d_dispatch model m reg = inl D) ->
  d_reg D = match reg with
            | Some e => if String.eqb e "eigenvalues" then "matrix_regulariser_function_eigen_based"
                        else if String.eqb e "identity" then "matrix_regulariser_function"
                        else if existsb (String.eqb model) ["cm"; "ecm"; "dcm"; "decm"] then "matrix_regulariser_function_eigen_based"
                        else "matrix_regulariser_function"
            | None => if existsb (String.eqb model) ["cm"; "ecm"; "dcm"; "decm"] then "matrix_regulariser_function_eigen_based"
                      else "matrix_regulariser_function"
            end%string.
Proof. exact regulariser_choice. Qed.
Print Assumptions C61_regulariser.
(** An adjacency matrix given to crema-sparse. *)
Theorem C61_explicit_matrix_refuted :
  forall reg m,
  In m descent_methods ->
  accepted u_dispatch "crema-sparse" m reg (fun D =>
    exists n s es b, pairs_below n es /\ simple_pairs es /\ crema_dom es b /\ (forall i, (i < n)%nat -> 0 < s i /\ 0 < b i) /\
      scalar (run_entry (d_step D) (A3 n s (Triples es)) b) <> Some (- loglikelihood_crema_undirected n s es b)).
Proof. exact explicit_matrix_refuted. Qed.
Print Assumptions C61_explicit_matrix_refuted.
Example C61_nonvacuous :
  u_dispatch "ecm" "quasinewton" None =
    inl {| d_fun := Neg "loglikelihood_prime_ecm"; d_jac := Neg "loglikelihood_hessian_diag_ecm"; d_step := Neg "loglikelihood_ecm";
           d_lins := "linsearch_fun_ECM"; d_obj := "loglikelihood_ecm"; d_reg := "matrix_regulariser_function_eigen_based" |} /\
  d_dispatch "dcm_exp" "fixed-point" (Some "identity"%string) =
    inl {| d_fun := Pos "iterative_dcm_exp"; d_jac := Nothing; d_step := Neg "loglikelihood_dcm_exp";
           d_lins := "linsearch_fun_DCM_exp_fixed"; d_obj := "loglikelihood_dcm_exp"; d_reg := "matrix_regulariser_function" |} /\
  u_dispatch "cm" "steepest" None = inr RefValueError /\
  u_dispatch "cm-fixed" "point" None = inr RefKeyError /\
  (forall i, (i < 3)%nat -> 0 < (fun _ : nat => 1) i) /\
  ecm_dom 3 (fun _ => / 2) /\ ecm_exp_dom 3 (fun _ => 1) /\
  index_list 3 [0; 1]%nat /\ dcm_dom 3 [0; 1]%nat [1; 2]%nat (fun _ => 1) /\
  decm_dom 2 (fun _ => / 2) /\ decm_pos 2 (fun _ => / 2) /\ decm_exp_dom 2 (fun _ => 1) /\
  crema_dom tri (fun _ => 1) /\ ends_nonzero tri (fun _ => 1) /\ crema_dir_dom 3 tri (fun _ => 1) /\ simple_arcs tri /\ pairs_below 3 tri.
Proof. exact dispatch_examples. Qed.
