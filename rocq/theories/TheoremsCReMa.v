(** CReMa: the properties.  Each proof is one [exact] of a lemma. *)
From Coq Require Import Reals List Arith Lia Lra.
From Coquelicot Require Import Coquelicot.
From Verif Require Import Base SpecDeriv SpecGraph ModelCM ModelDCM SpecDirected ModelDECM ModelCReMa SpecCReMa.
From Verif Require Import ProofsCReMa ProofsMainCReMa ProofsSparseCReMa ProofsDirCReMa ProofsDirSparseCReMa ProofsSparse2 WitnessCReMa.
Local Open Scope R_scope.
Import ListNotations.

(** C16.  [simple_pairs]: no self-pair, no repeated pair; true of the lists built
    from a matrix with zero diagonal ([C16_triu_simple]).  With a self-pair the
    second derivatives are wrong. *)
Theorem C16_gradient_crema :
  forall n s es beta,
  crema_dom es beta ->
  exists F, loglikelihood_prime_crema_undirected n s es beta = Some F /\
    forall h, partial (loglikelihood_crema_undirected n s es) beta h (F h).
Proof. exact gradient_crema. Qed.
Print Assumptions C16_gradient_crema.

Theorem C16_newton_crema :
  forall n s es beta,
  crema_dom es beta -> simple_pairs es ->
  exists H, loglikelihood_hessian_crema_undirected es beta = Some H /\
    forall k h, opartial (fun z => oentry (loglikelihood_prime_crema_undirected n s es z) k) beta h (H k h).
Proof. exact hessian_crema_correct. Qed.
Print Assumptions C16_newton_crema.

Theorem C16_quasi_crema :
  forall n s es beta,
  crema_dom es beta -> (forall i j w, In (i, j, w) es -> i <> j) ->
  exists D, loglikelihood_hessian_diag_crema_undirected es beta = Some D /\
    forall h, opartial (fun z => oentry (loglikelihood_prime_crema_undirected n s es z) h) beta h (D h).
Proof. exact hessian_diag_crema_correct. Qed.
Print Assumptions C16_quasi_crema.

Theorem C16_triu_simple :
  forall n p,
  (forall i, (i < n)%nat -> p i i = 0) -> simple_pairs (triu_edges n p).
Proof. exact triu_simple. Qed.
Print Assumptions C16_triu_simple.

Theorem C16_self_pair_refuted :
  exists n s es beta, pairs_below n es /\ nonneg_weights es /\ crema_dom es beta /\
    (forall d, opartial (fun b => oentry (loglikelihood_prime_crema_undirected n s es b) 0) beta 0 d ->
       oentry2 (loglikelihood_hessian_crema_undirected es beta) 0 0 <> Some d /\
       oentry (loglikelihood_hessian_diag_crema_undirected es beta) 0 <> Some d).
Proof. exact crema_self_pair_refuted. Qed.
Print Assumptions C16_self_pair_refuted.

Example C16_nonvacuous :
  pairs_below 3 tri3 /\ nonneg_weights tri3 /\ simple_pairs tri3 /\ crema_dom tri3 quarter /\ ends_nonzero tri3 quarter /\
  (forall i, (i < 3)%nat -> 0 <= one3 i) /\ In (0%nat, 1%nat, / 2) tri3 /\
  (exists E, expected_strength_crema_undirected tri3 quarter = Some E /\ forall k, (k < 3)%nat -> E k = two3 k).
Proof. exact tri3_facts. Qed.

(** C17 *)
Theorem C17_stationary_iff_strengths :
  forall n s es beta,
  crema_dom es beta ->
  exists F E, loglikelihood_prime_crema_undirected n s es beta = Some F /\
    expected_strength_crema_undirected es beta = Some E /\
    ((forall k, (k < n)%nat -> F k = 0) <-> (forall k, (k < n)%nat -> E k = s k)).
Proof. exact stationary_crema_iff. Qed.
Print Assumptions C17_stationary_iff_strengths.

Theorem C17_fixed_point_iff_stationary :
  forall n s es beta,
  crema_dom es beta -> ends_nonzero es beta ->
  exists F P, iterative_crema_undirected n s es beta = Some F /\
    loglikelihood_prime_crema_undirected n s es beta = Some P /\
    (forall k, (k < n)%nat -> s k <> 0 -> beta k <> 0 -> (- F k = beta k <-> P k = 0)) /\
    (forall k, (k < n)%nat -> s k = 0 -> (forall i j w, In (i, j, w) es -> i <> k /\ j <> k) -> F k = 0).
Proof. exact fixed_point_crema_iff. Qed.
Print Assumptions C17_fixed_point_iff_stationary.

Theorem C17_zero_parameter_fails :
  forall n s es beta i j w,
  In (i, j, w) es -> beta i = 0 \/ beta j = 0 -> iterative_crema_undirected n s es beta = None.
Proof. exact iterative_crema_zero_error. Qed.
Print Assumptions C17_zero_parameter_fails.

Theorem C17_solution_is_maximum :
  forall n s es x z,
  pairs_below n es -> nonneg_weights es -> crema_dom es x -> crema_dom es z ->
  (exists E, expected_strength_crema_undirected es x = Some E /\ forall k, (k < n)%nat -> E k = s k) ->
  loglikelihood_crema_undirected n s es z <= loglikelihood_crema_undirected n s es x.
Proof. exact solution_crema_max. Qed.
Print Assumptions C17_solution_is_maximum.

Theorem C17_maximum_pins_rates :
  forall n s es x z,
  pairs_below n es -> nonneg_weights es -> crema_dom es x -> crema_dom es z ->
  (exists E, expected_strength_crema_undirected es x = Some E /\ forall k, (k < n)%nat -> E k = s k) ->
  loglikelihood_crema_undirected n s es z = loglikelihood_crema_undirected n s es x ->
  forall i j w, In (i, j, w) es -> w <> 0 -> z i + z j = x i + x j.
Proof. exact maximum_crema_unique. Qed.
Print Assumptions C17_maximum_pins_rates.

Theorem C17_pair_means_unique :
  forall n s es x z,
  pairs_below n es -> nonneg_weights es -> crema_dom es x -> crema_dom es z ->
  (exists E, expected_strength_crema_undirected es x = Some E /\ forall k, (k < n)%nat -> E k = s k) ->
  (exists E, expected_strength_crema_undirected es z = Some E /\ forall k, (k < n)%nat -> E k = s k) ->
  forall i j w, In (i, j, w) es -> w <> 0 -> / (z i + z j) = / (x i + x j).
Proof. exact solution_crema_unique. Qed.
Print Assumptions C17_pair_means_unique.

Example C17_nonvacuous :
  pairs_below 3 tri3 /\ nonneg_weights tri3 /\ simple_pairs tri3 /\ crema_dom tri3 quarter /\ ends_nonzero tri3 quarter /\
  (forall i, (i < 3)%nat -> 0 <= one3 i) /\ In (0%nat, 1%nat, / 2) tri3 /\
  (exists E, expected_strength_crema_undirected tri3 quarter = Some E /\ forall k, (k < 3)%nat -> E k = two3 k).
Proof. exact tri3_facts. Qed.

(** C18.  Refuted at a node without links with parameter 0 (the library's initial
    guess for zero strength): the array functions return NaN there.  They agree
    when no [beta_i + beta_j] (the own entry [j = i] included) is zero. *)
Theorem C18_loglikelihood_sparse :
  forall n s x beta,
  (forall i, (i < n)%nat -> 0 <= x i) -> 
  loglikelihood_crema_undirected_sparse n s x beta =
  Some (loglikelihood_crema_undirected n s (triu_edges n (pmatrix_cm x)) beta).
Proof. exact sparse_loglik. Qed.
Print Assumptions C18_loglikelihood_sparse.

Theorem C18_expected_strength_sparse :
  forall n x beta k,
  (forall i, (i < n)%nat -> 0 <= x i) -> crema_dom (triu_edges n (pmatrix_cm x)) beta ->
  oentry (expected_strength_crema_undirected_sparse n x beta) k =
  oentry (expected_strength_crema_undirected (triu_edges n (pmatrix_cm x)) beta) k.
Proof. exact sparse_expected. Qed.
Print Assumptions C18_expected_strength_sparse.

Theorem C18_gradient_sparse :
  forall n s x beta i,
  (forall i, (i < n)%nat -> 0 <= x i) -> crema_dom (triu_edges n (pmatrix_cm x)) beta ->
  (i < n)%nat -> (forall j, (j < n)%nat -> beta i + beta j <> 0) ->
  exists P, loglikelihood_prime_crema_undirected n s (triu_edges n (pmatrix_cm x)) beta = Some P /\
    loglikelihood_prime_crema_undirected_sparse n s x beta i = Fin (P i).
Proof. exact sparse_prime. Qed.
Print Assumptions C18_gradient_sparse.

Theorem C18_quasi_sparse :
  forall n x beta i,
  (forall i, (i < n)%nat -> 0 <= x i) -> crema_dom (triu_edges n (pmatrix_cm x)) beta ->
  (i < n)%nat -> (forall j, (j < n)%nat -> beta i + beta j <> 0) ->
  exists P, loglikelihood_hessian_diag_crema_undirected (triu_edges n (pmatrix_cm x)) beta = Some P /\
    loglikelihood_hessian_diag_crema_undirected_sparse n x beta i = Fin (P i).
Proof. exact sparse_diag. Qed.
Print Assumptions C18_quasi_sparse.

Theorem C18_gradient_sparse_2 :
  forall n s x beta k,
  (forall i, (i < n)%nat -> 0 <= x i) -> crema_dom (triu_edges n (pmatrix_cm x)) beta -> (k < n)%nat ->
  oentry (loglikelihood_prime_crema_sparse_2 n s x beta) k =
  oentry (loglikelihood_prime_crema_undirected n s (triu_edges n (pmatrix_cm x)) beta) k.
Proof. exact sparse_prime_2. Qed.
Print Assumptions C18_gradient_sparse_2.

Theorem C18_quasi_sparse_2 :
  forall n x beta k,
  (forall i, (i < n)%nat -> 0 <= x i) -> crema_dom (triu_edges n (pmatrix_cm x)) beta ->
  oentry (loglikelihood_hessian_diag_crema_sparse_2 n x beta) k =
  oentry (loglikelihood_hessian_diag_crema_undirected (triu_edges n (pmatrix_cm x)) beta) k.
Proof. exact sparse_diag_2. Qed.
Print Assumptions C18_quasi_sparse_2.

(** The second sparse map is the dense map, failures included. *)
Theorem C18_fixed_point_sparse_2 :
  forall n s x beta,
  (forall i, (i < n)%nat -> 0 <= x i) ->
  iterative_crema_sparse_2 n s x beta = iterative_crema_undirected n s (triu_edges n (pmatrix_cm x)) beta.
Proof. exact iterative_crema_sparse_2_eq. Qed.
Print Assumptions C18_fixed_point_sparse_2.

Theorem C18_fixed_point_sparse :
  forall n s x beta i,
  (forall i, (i < n)%nat -> 0 <= x i) ->
  (i < n)%nat -> 0 <= s i -> beta i <> 0 -> (forall j, (j < n)%nat -> beta i + beta j <> 0) ->
  (fopp (iterative_crema_undirected_sparse n s x beta i) = Fin (beta i) <->
   loglikelihood_prime_crema_undirected_sparse n s x beta i = Fin (exp (- (100)))).
Proof. exact fixed_point_crema_sparse_iff. Qed.
Print Assumptions C18_fixed_point_sparse.

Theorem C18_isolated_node_nan :
  forall n s x beta i,
  (i < n)%nat -> x i = 0 -> beta i = 0 ->
  loglikelihood_prime_crema_undirected_sparse n s x beta i = NaN /\
  loglikelihood_hessian_diag_crema_undirected_sparse n x beta i = NaN /\
  iterative_crema_undirected_sparse n s x beta i = NaN.
Proof. exact crema_sparse_isolated_nan. Qed.
Print Assumptions C18_isolated_node_nan.

Theorem C18_sparse_equals_dense_refuted :
  exists n s x beta, (forall i, (i < n)%nat -> 0 <= x i) /\ crema_dom (triu_edges n (pmatrix_cm x)) beta /\
    (exists F, loglikelihood_prime_crema_undirected n s (triu_edges n (pmatrix_cm x)) beta = Some F /\
       forall k, (k < n)%nat -> F k = 0) /\
    (exists i, (i < n)%nat /\ loglikelihood_prime_crema_undirected_sparse n s x beta i = NaN).
Proof. exact crema_sparse_refuted. Qed.
Print Assumptions C18_sparse_equals_dense_refuted.

Example C18_nonvacuous :
  pairs_below 3 tri3 /\ nonneg_weights tri3 /\ simple_pairs tri3 /\ crema_dom tri3 quarter /\ ends_nonzero tri3 quarter /\
  (forall i, (i < 3)%nat -> 0 <= one3 i) /\ In (0%nat, 1%nat, / 2) tri3 /\
  (exists E, expected_strength_crema_undirected tri3 quarter = Some E /\ forall k, (k < 3)%nat -> E k = two3 k).
Proof. exact tri3_facts. Qed.

Example C18_sparse_2_nonvacuous :
  (forall i, (i < 3)%nat -> 0 <= x2 i) /\
  crema_dom (triu_edges 3 (pmatrix_cm x2)) (fun _ => 1) /\
  crema_dir_dom 3 (all_edges 3 (dcm_prob x2 x2)) (fun _ => 1) /\
  oentry (iterative_crema_sparse_2 3 x2 x2 (fun _ => 1)) 0 = Some (- (1 / 4)) /\
  oentry (loglikelihood_prime_crema_directed_sparse_2 3 x2 x2 x2 x2 (fun _ => 1)) 0 = Some (- (3 / 4)) /\
  oentry (loglikelihood_hessian_diag_crema_directed_sparse_2 3 x2 x2 (fun _ => 1)) 4 = Some (- (1 / 8)).
Proof. exact x2_facts. Qed.

(** C32 *)
Theorem C32_gradient_crema_dir :
  forall n s_out s_in es nzo nzi beta,
  nonzero_list n s_out nzo -> nonzero_list n s_in nzi -> crema_dir_dom n es beta ->
  exists F, loglikelihood_prime_crema_directed n s_out s_in es nzo nzi beta = Some F /\
    forall h, partial (loglikelihood_crema_directed n s_out s_in es nzo nzi) beta h (F h).
Proof. exact gradient_crema_dir. Qed.
Print Assumptions C32_gradient_crema_dir.

Theorem C32_newton_crema_dir :
  forall n s_out s_in es nzo nzi beta,
  nonzero_list n s_out nzo -> nonzero_list n s_in nzi -> pairs_below n es -> simple_arcs es -> crema_dir_dom n es beta ->
  exists H, loglikelihood_hessian_crema_directed n es beta = Some H /\
    forall k h, opartial (fun z => oentry (loglikelihood_prime_crema_directed n s_out s_in es nzo nzi z) k) beta h (H k h).
Proof. exact hessian_crema_dir_correct. Qed.
Print Assumptions C32_newton_crema_dir.

Theorem C32_quasi_crema_dir :
  forall n s_out s_in es nzo nzi beta,
  nonzero_list n s_out nzo -> nonzero_list n s_in nzi -> pairs_below n es -> crema_dir_dom n es beta ->
  exists D, loglikelihood_hessian_diag_crema_directed n es beta = Some D /\
    forall h, opartial (fun z => oentry (loglikelihood_prime_crema_directed n s_out s_in es nzo nzi z) h) beta h (D h).
Proof. exact hessian_diag_crema_dir_correct. Qed.
Print Assumptions C32_quasi_crema_dir.

Theorem C32_matrix_lists_simple :
  forall n p,
  pairs_below n (all_edges n p) /\ simple_arcs (all_edges n p).
Proof. exact all_edges_simple. Qed.
Print Assumptions C32_matrix_lists_simple.

Example C32_nonvacuous :
  nonzero_list 3 dso3 [0; 1]%nat /\ nonzero_list 3 dsi3 [1; 2]%nat /\
  pairs_below 3 des3 /\ nonneg_weights des3 /\ simple_arcs des3 /\ crema_dir_dom 3 des3 quarter /\
  ends_nonzero_dir 3 des3 quarter /\ In (0%nat, 1%nat, / 2) des3 /\
  (forall i, (i < 3)%nat -> 0 <= dx3 i) /\ (forall i, (i < 3)%nat -> 0 <= dy3 i) /\
  (forall i, (i < 3)%nat -> (dx3 i <> 0 <-> dso3 i <> 0)) /\ (forall i, (i < 3)%nat -> (dy3 i <> 0 <-> dsi3 i <> 0)) /\
  (forall i j, (i < 3)%nat -> (j < 3)%nat -> dso3 i <> 0 \/ dsi3 j <> 0 -> quarter i + quarter (j + 3)%nat <> 0) /\
  (exists EO EI, expected_out_strength_crema_directed 3 des3 quarter = Some EO /\
     expected_in_strength_crema_directed 3 des3 quarter = Some EI /\
     forall i, (i < 3)%nat -> EO i = dso3 i /\ EI i = dsi3 i).
Proof. exact des3_facts. Qed.

(** C33 *)
Theorem C33_stationary_iff_strengths :
  forall n s_out s_in es nzo nzi beta,
  nonzero_list n s_out nzo -> nonzero_list n s_in nzi -> pairs_below n es -> crema_dir_dom n es beta ->
  exists F EO EI, loglikelihood_prime_crema_directed n s_out s_in es nzo nzi beta = Some F /\
    expected_out_strength_crema_directed n es beta = Some EO /\
    expected_in_strength_crema_directed n es beta = Some EI /\
    ((forall r, (r < n + n)%nat -> F r = 0) <-> (forall i, (i < n)%nat -> EO i = s_out i /\ EI i = s_in i)).
Proof. exact stationary_crema_dir_iff. Qed.
Print Assumptions C33_stationary_iff_strengths.

Theorem C33_fixed_point_iff_stationary :
  forall n s_out s_in es nzo nzi beta,
  nonzero_list n s_out nzo -> nonzero_list n s_in nzi -> crema_dir_dom n es beta -> ends_nonzero_dir n es beta ->
  exists F P, iterative_crema_directed n s_out s_in es nzo nzi beta = Some F /\
    loglikelihood_prime_crema_directed n s_out s_in es nzo nzi beta = Some P /\
    (forall i, (i < n)%nat -> s_out i <> 0 -> beta i <> 0 -> (- F i = beta i <-> P i = 0)) /\
    (forall i, (i < n)%nat -> s_in i <> 0 -> beta (i + n)%nat <> 0 -> (- F (i + n)%nat = beta (i + n)%nat <-> P (i + n)%nat = 0)).
Proof. exact fixed_point_crema_dir_iff. Qed.
Print Assumptions C33_fixed_point_iff_stationary.

Theorem C33_zero_parameter_fails :
  forall n s_out s_in es nzo nzi beta i j w,
  nonzero_list n s_out nzo -> nonzero_list n s_in nzi ->
  In (i, j, w) es -> beta i = 0 \/ beta (j + n)%nat = 0 ->
  iterative_crema_directed n s_out s_in es nzo nzi beta = None.
Proof. exact iterative_crema_dir_zero_error. Qed.
Print Assumptions C33_zero_parameter_fails.

Theorem C33_solution_is_maximum :
  forall n s_out s_in es nzo nzi x z,
  nonzero_list n s_out nzo -> nonzero_list n s_in nzi -> pairs_below n es -> nonneg_weights es ->
  crema_dir_dom n es x -> crema_dir_dom n es z ->
  (exists EO EI, expected_out_strength_crema_directed n es x = Some EO /\
     expected_in_strength_crema_directed n es x = Some EI /\ forall i, (i < n)%nat -> EO i = s_out i /\ EI i = s_in i) ->
  loglikelihood_crema_directed n s_out s_in es nzo nzi z <= loglikelihood_crema_directed n s_out s_in es nzo nzi x.
Proof. exact solution_crema_dir_max. Qed.
Print Assumptions C33_solution_is_maximum.

Theorem C33_pair_means_unique :
  forall n s_out s_in es x z,
  pairs_below n es -> nonneg_weights es ->
  crema_dir_dom n es x -> crema_dir_dom n es z ->
  (exists EO EI, expected_out_strength_crema_directed n es x = Some EO /\
     expected_in_strength_crema_directed n es x = Some EI /\ forall i, (i < n)%nat -> EO i = s_out i /\ EI i = s_in i) ->
  (exists EO EI, expected_out_strength_crema_directed n es z = Some EO /\
     expected_in_strength_crema_directed n es z = Some EI /\ forall i, (i < n)%nat -> EO i = s_out i /\ EI i = s_in i) ->
  forall i j w, In (i, j, w) es -> w <> 0 -> / (z i + z (j + n)%nat) = / (x i + x (j + n)%nat).
Proof. exact solution_crema_dir_unique. Qed.
Print Assumptions C33_pair_means_unique.

Theorem C33_pmatrix_is_dcm_prob :
  forall n io ii x i j,
  dcm_full n io ii x -> (i < n)%nat -> (j < n)%nat ->
  pmatrix_dcm n io ii x i j = dcm_prob x (fun j => x (j + n)%nat) i j.
Proof. exact pmatrix_dcm_prob. Qed.
Print Assumptions C33_pmatrix_is_dcm_prob.

Theorem C33_loglikelihood_sparse :
  forall n s_out s_in x y nzo nzi beta,
  (forall i, (i < n)%nat -> 0 <= x i) -> (forall i, (i < n)%nat -> 0 <= y i) ->
  nonzero_list n s_out nzo -> nonzero_list n s_in nzi ->
  (forall i, (i < n)%nat -> (x i <> 0 <-> s_out i <> 0)) -> (forall i, (i < n)%nat -> (y i <> 0 <-> s_in i <> 0)) ->
  loglikelihood_crema_directed_sparse n s_out s_in x y nzo nzi beta =
  Some (loglikelihood_crema_directed n s_out s_in (all_edges n (dcm_prob x y)) nzo nzi beta).
Proof. exact dir_sparse_loglik. Qed.
Print Assumptions C33_loglikelihood_sparse.

Theorem C33_gradient_sparse :
  forall n s_out s_in x y nzo nzi beta r,
  (forall i, (i < n)%nat -> 0 <= x i) -> (forall i, (i < n)%nat -> 0 <= y i) ->
  nonzero_list n s_out nzo -> nonzero_list n s_in nzi ->
  (forall i, (i < n)%nat -> (x i <> 0 <-> s_out i <> 0)) -> (forall i, (i < n)%nat -> (y i <> 0 <-> s_in i <> 0)) ->
  crema_dir_dom n (all_edges n (dcm_prob x y)) beta -> (r < n + n)%nat ->
  (forall i j, (i < n)%nat -> (j < n)%nat -> s_out i <> 0 \/ s_in j <> 0 -> beta i + beta (j + n)%nat <> 0) ->
  exists F, loglikelihood_prime_crema_directed n s_out s_in (all_edges n (dcm_prob x y)) nzo nzi beta = Some F /\
    loglikelihood_prime_crema_directed_sparse n s_out s_in x y nzo nzi beta r = Fin (F r).
Proof. exact dir_sparse_prime. Qed.
Print Assumptions C33_gradient_sparse.

Theorem C33_expected_sparse :
  forall n x y beta k,
  (forall i, (i < n)%nat -> 0 <= x i) -> (forall i, (i < n)%nat -> 0 <= y i) ->
  crema_dir_dom n (all_edges n (dcm_prob x y)) beta -> (k < n)%nat ->
  oentry (expected_out_strength_crema_directed_sparse n x y beta) k =
    oentry (expected_out_strength_crema_directed n (all_edges n (dcm_prob x y)) beta) k /\
  oentry (expected_in_stregth_crema_directed_sparse n x y beta) k =
    oentry (expected_in_strength_crema_directed n (all_edges n (dcm_prob x y)) beta) k.
Proof. exact dir_sparse_expected. Qed.
Print Assumptions C33_expected_sparse.

(** The second sparse variants agree with the dense functions; the map does so with
    its failures. *)
Theorem C33_fixed_point_sparse_2 :
  forall n s_out s_in x y nzo nzi beta,
  (forall i, (i < n)%nat -> 0 <= x i) -> (forall i, (i < n)%nat -> 0 <= y i) ->
  iterative_crema_directed_sparse_2 n s_out s_in x y nzo nzi beta =
  iterative_crema_directed n s_out s_in (all_edges n (dcm_prob x y)) nzo nzi beta.
Proof. exact iterative_crema_dir_sparse_2_eq. Qed.
Print Assumptions C33_fixed_point_sparse_2.

Theorem C33_gradient_sparse_2 :
  forall n s_out s_in x y nzo nzi beta r,
  (forall i, (i < n)%nat -> 0 <= x i) -> (forall i, (i < n)%nat -> 0 <= y i) ->
  nonzero_list n s_out nzo -> nonzero_list n s_in nzi ->
  (forall i, (i < n)%nat -> (x i <> 0 <-> s_out i <> 0)) -> (forall i, (i < n)%nat -> (y i <> 0 <-> s_in i <> 0)) ->
  crema_dir_dom n (all_edges n (dcm_prob x y)) beta -> (r < n + n)%nat ->
  oentry (loglikelihood_prime_crema_directed_sparse_2 n s_out s_in x y beta) r =
  oentry (loglikelihood_prime_crema_directed n s_out s_in (all_edges n (dcm_prob x y)) nzo nzi beta) r.
Proof. exact dir_sparse_prime_2. Qed.
Print Assumptions C33_gradient_sparse_2.

Theorem C33_quasi_sparse_2 :
  forall n x y beta r,
  (forall i, (i < n)%nat -> 0 <= x i) -> (forall i, (i < n)%nat -> 0 <= y i) ->
  crema_dir_dom n (all_edges n (dcm_prob x y)) beta -> (r < n + n)%nat ->
  oentry (loglikelihood_hessian_diag_crema_directed_sparse_2 n x y beta) r =
  oentry (loglikelihood_hessian_diag_crema_directed n (all_edges n (dcm_prob x y)) beta) r.
Proof. exact dir_sparse_diag_2. Qed.
Print Assumptions C33_quasi_sparse_2.


Theorem C33_quasi_sparse_value :
  forall n x y beta i,
  (forall i, (i < n)%nat -> 0 <= x i) -> (forall i, (i < n)%nat -> 0 <= y i) -> (i < n)%nat ->
  loglikelihood_hessian_diag_crema_directed_sparse n x y beta i =
    Fin (- rsum n (fun j => dcm_prob x y i j / ((beta i + beta (j + n)%nat) ^ 2 + exp (- (100))))) /\
  loglikelihood_hessian_diag_crema_directed_sparse n x y beta (i + n) =
    Fin (- rsum n (fun j => dcm_prob x y j i / ((beta j + beta (i + n)%nat) ^ 2 + exp (- (100))))).
Proof. exact diag_crema_dir_sparse_val. Qed.
Print Assumptions C33_quasi_sparse_value.

Theorem C33_quasi_sparse_refuted :
  exists n x y beta, (forall i, (i < n)%nat -> 0 <= x i) /\ (forall i, (i < n)%nat -> 0 <= y i) /\
    crema_dir_dom n (all_edges n (dcm_prob x y)) beta /\
    (exists D i, loglikelihood_hessian_diag_crema_directed n (all_edges n (dcm_prob x y)) beta = Some D /\ (i < n)%nat /\
       loglikelihood_hessian_diag_crema_directed_sparse n x y beta i <> Fin (D i)).
Proof. exact diag_crema_dir_sparse_refuted. Qed.
Print Assumptions C33_quasi_sparse_refuted.

Theorem C33_fixed_point_sparse_unwritten :
  forall n s_out s_in x y beta i,
  (i < n)%nat -> (length (nonzero_of n y) <= i)%nat ->
  iterative_crema_directed_sparse n s_out s_in x y beta (i + n) = Fin 0.
Proof. exact iterative_crema_dir_sparse_unwritten. Qed.
Print Assumptions C33_fixed_point_sparse_unwritten.

Theorem C33_fixed_point_sparse_refuted :
  exists n s_out s_in x y nzo nzi beta,
    nonzero_list n s_out nzo /\ nonzero_list n s_in nzi /\
    (forall i, (i < n)%nat -> 0 <= x i) /\ (forall i, (i < n)%nat -> 0 <= y i) /\
    (forall i, (i < n)%nat -> (x i <> 0 <-> s_out i <> 0)) /\ (forall i, (i < n)%nat -> (y i <> 0 <-> s_in i <> 0)) /\
    crema_dir_dom n (all_edges n (dcm_prob x y)) beta /\
    (exists F, loglikelihood_prime_crema_directed n s_out s_in (all_edges n (dcm_prob x y)) nzo nzi beta = Some F /\
       forall r, (r < n + n)%nat -> F r = 0) /\
    (exists i, (i < n)%nat /\ s_in i <> 0 /\ beta (i + n)%nat <> 0 /\
       iterative_crema_directed_sparse n s_out s_in x y beta (i + n) = Fin 0).
Proof. exact iterative_crema_dir_sparse_refuted. Qed.
Print Assumptions C33_fixed_point_sparse_refuted.

Example C33_nonvacuous :
  nonzero_list 3 dso3 [0; 1]%nat /\ nonzero_list 3 dsi3 [1; 2]%nat /\
  pairs_below 3 des3 /\ nonneg_weights des3 /\ simple_arcs des3 /\ crema_dir_dom 3 des3 quarter /\
  ends_nonzero_dir 3 des3 quarter /\ In (0%nat, 1%nat, / 2) des3 /\
  (forall i, (i < 3)%nat -> 0 <= dx3 i) /\ (forall i, (i < 3)%nat -> 0 <= dy3 i) /\
  (forall i, (i < 3)%nat -> (dx3 i <> 0 <-> dso3 i <> 0)) /\ (forall i, (i < 3)%nat -> (dy3 i <> 0 <-> dsi3 i <> 0)) /\
  (forall i j, (i < 3)%nat -> (j < 3)%nat -> dso3 i <> 0 \/ dsi3 j <> 0 -> quarter i + quarter (j + 3)%nat <> 0) /\
  (exists EO EI, expected_out_strength_crema_directed 3 des3 quarter = Some EO /\
     expected_in_strength_crema_directed 3 des3 quarter = Some EI /\
     forall i, (i < 3)%nat -> EO i = dso3 i /\ EI i = dsi3 i).
Proof. exact des3_facts. Qed.

Example C33_sparse_2_nonvacuous :
  (forall i, (i < 3)%nat -> 0 <= x2 i) /\
  crema_dom (triu_edges 3 (pmatrix_cm x2)) (fun _ => 1) /\
  crema_dir_dom 3 (all_edges 3 (dcm_prob x2 x2)) (fun _ => 1) /\
  oentry (iterative_crema_sparse_2 3 x2 x2 (fun _ => 1)) 0 = Some (- (1 / 4)) /\
  oentry (loglikelihood_prime_crema_directed_sparse_2 3 x2 x2 x2 x2 (fun _ => 1)) 0 = Some (- (3 / 4)) /\
  oentry (loglikelihood_hessian_diag_crema_directed_sparse_2 3 x2 x2 (fun _ => 1)) 4 = Some (- (1 / 8)).
Proof. exact x2_facts. Qed.

(** C64 *)
Theorem C64_loglikelihood_is_logdensity :
  forall n s es beta v,
  pairs_below n es -> crema_dom es beta -> (forall i j w, In (i, j, w) es -> w = 1) ->
  (forall k, (k < n)%nat -> s k = crema_strength es v k) ->
  loglikelihood_crema_undirected n s es beta = ln (crema_density es beta v).
Proof. exact loglik_crema_logdensity. Qed.
Print Assumptions C64_loglikelihood_is_logdensity.

Theorem C64_loglikelihood_dir_is_logdensity :
  forall n s_out s_in es nzo nzi beta v,
  nonzero_list n s_out nzo -> nonzero_list n s_in nzi ->
  pairs_below n es -> crema_dir_dom n es beta -> (forall i j w, In (i, j, w) es -> w = 1) ->
  (forall k, (k < n)%nat -> s_out k = crema_out_strength es v k /\ s_in k = crema_in_strength es v k) ->
  loglikelihood_crema_directed n s_out s_in es nzo nzi beta = ln (crema_density_dir n es beta v).
Proof. exact loglik_crema_dir_logdensity. Qed.
Print Assumptions C64_loglikelihood_dir_is_logdensity.

Example C64_nonvacuous :
  pairs_below 3 path3 /\ crema_dom path3 quarter /\ (forall i j w, In (i, j, w) path3 -> w = 1) /\
  crema_strength path3 pathv 0 = 3 /\ crema_strength path3 pathv 1 = 8 /\ crema_strength path3 pathv 2 = 5 /\
  crema_dir_dom 3 path3 quarter /\ crema_out_strength path3 pathv 1 = 5 /\ crema_in_strength path3 pathv 1 = 3.
Proof. exact path3_facts. Qed.
