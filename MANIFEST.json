{
 "claims": [
  {
   "property": "C01",
   "status": "proved",
   "theorems": [
    "C01_loglikelihood_cm_is_logprob",
    "C01_loglikelihood_cm_exp_is_logprob"
   ],
   "note": "Reals for floats; graph, classes and degrees arbitrary."
  },
  {
   "property": "C02",
   "status": "proved",
   "theorems": [
    "C02_gradient_cm",
    "C02_gradient_cm_exp"
   ],
   "note": "Coquelicot is_derive along every coordinate."
  },
  {
   "property": "C03",
   "status": "partial",
   "theorems": [
    "C03_newton_cm_refuted",
    "C03_newton_cm_exp_refuted",
    "C03_newton_cm_offdiagonal_iff",
    "C03_newton_cm_diagonal_iff",
    "C03_newton_cm_exp_offdiagonal_partial",
    "C03_newton_cm_exp_diagonal_iff"
   ],
   "note": "REFUTED as stated (C03_newton_cm_refuted, C03_newton_cm_exp_refuted). The iff theorems give exactly when each entry is the derivative; the cm_exp off-diagonal entries are always right."
  },
  {
   "property": "C04",
   "status": "partial",
   "theorems": [
    "C04_quasinewton_cm_refuted",
    "C04_quasinewton_cm_iff",
    "C04_quasinewton_cm_exp_refuted"
   ],
   "note": "REFUTED as stated (C04_quasinewton_cm_refuted on a reduced problem; C04_quasinewton_cm_exp_refuted at every point). C04_quasinewton_cm_iff: the cm diagonal is right exactly when the class has one node (or none)."
  },
  {
   "property": "C05",
   "status": "proved",
   "theorems": [
    "C05_stationary_cm_iff_degrees",
    "C05_stationary_cm_exp_iff_degrees"
   ],
   "note": ""
  },
  {
   "property": "C06",
   "status": "proved",
   "theorems": [
    "C06_fixed_point_cm",
    "C06_fixed_point_cm_exp"
   ],
   "note": ""
  },
  {
   "property": "C07",
   "status": "proved",
   "theorems": [
    "C07_solution_cm_is_global_maximum",
    "C07_solution_cm_exp_is_global_maximum",
    "C07_solution_cm_unique_ensemble",
    "C07_solution_cm_unique_parameters"
   ],
   "note": ""
  },
  {
   "property": "C08",
   "status": "proved",
   "theorems": [
    "C08_probabilities_add_up_to_one",
    "C08_expected_degree_cm_is_ensemble_mean",
    "C08_pmatrix_cm",
    "C08_enumeration_complete",
    "C08_enumeration_distinct"
   ],
   "note": ""
  },
  {
   "property": "C09",
   "status": "proved",
   "theorems": [
    "C09_reduction_loglikelihood_cm",
    "C09_reduction_gradient_cm",
    "C09_reduction_iterative_cm",
    "C09_reduction_loglikelihood_cm_exp",
    "C09_reduction_gradient_cm_exp",
    "C09_reduction_iterative_cm_exp"
   ],
   "note": ""
  },
  {
   "property": "C10",
   "status": "proved",
   "theorems": [
    "C10_loglikelihood_ecm_is_logprob",
    "C10_loglikelihood_ecm_exp_is_logprob",
    "C10_pair_law_is_a_distribution"
   ],
   "note": ""
  },
  {
   "property": "C11",
   "status": "proved",
   "theorems": [
    "C11_gradient_ecm",
    "C11_gradient_ecm_exp"
   ],
   "note": ""
  },
  {
   "property": "C12",
   "status": "proved",
   "theorems": [
    "C12_newton_ecm",
    "C12_quasinewton_ecm",
    "C12_newton_ecm_exp",
    "C12_quasinewton_ecm_exp"
   ],
   "note": ""
  },
  {
   "property": "C13",
   "status": "proved",
   "theorems": [
    "C13_stationary_ecm_iff",
    "C13_stationary_ecm_exp_iff",
    "C13_expected_ecm_are_averages"
   ],
   "note": ""
  },
  {
   "property": "C14",
   "status": "proved",
   "theorems": [
    "C14_fixed_point_ecm_iff",
    "C14_fixed_point_ecm_exp_iff"
   ],
   "note": ""
  },
  {
   "property": "C15",
   "status": "proved",
   "theorems": [
    "C15_solution_ecm_is_global_max",
    "C15_maximum_ecm_is_attained_only_by_the_same_ensemble",
    "C15_solution_ecm_ensemble_unique",
    "C15_solution_ecm_parameters_unique",
    "C15_solution_ecm_exp_is_global_max"
   ],
   "note": ""
  },
  {
   "property": "C16",
   "status": "partial",
   "theorems": [
    "C16_gradient_crema",
    "C16_newton_crema",
    "C16_quasi_crema",
    "C16_triu_simple",
    "C16_self_pair_refuted"
   ],
   "note": "REFUTED for lists with a self-pair (adjacency with a non-zero diagonal): C16_self_pair_refuted. Proved for every list without self-pairs and repetitions; gradient for every list."
  },
  {
   "property": "C17",
   "status": "proved",
   "theorems": [
    "C17_stationary_iff_strengths",
    "C17_fixed_point_iff_stationary",
    "C17_zero_parameter_fails",
    "C17_solution_is_maximum",
    "C17_maximum_pins_rates",
    "C17_pair_means_unique"
   ],
   "note": ""
  },
  {
   "property": "C18",
   "status": "partial",
   "theorems": [
    "C18_loglikelihood_sparse",
    "C18_expected_strength_sparse",
    "C18_gradient_sparse",
    "C18_quasi_sparse",
    "C18_gradient_sparse_2",
    "C18_quasi_sparse_2",
    "C18_fixed_point_sparse_2",
    "C18_fixed_point_sparse",
    "C18_isolated_node_nan",
    "C18_sparse_equals_dense_refuted"
   ],
   "note": "REFUTED at nodes without links with parameter 0 (the library's starting point for zero strength): array functions return NaN, C18_sparse_equals_dense_refuted. Proved wherever no beta_i+beta_j (j=i included) vanishes. The sparse iterative map has fixed points at expected strength s_i+exp(-100), C18_fixed_point_sparse."
  },
  {
   "property": "C19",
   "status": "proved",
   "theorems": [
    "C19_loglikelihood_dcm_is_logprob",
    "C19_loglikelihood_dcm_exp_is_logprob"
   ],
   "note": ""
  },
  {
   "property": "C20",
   "status": "proved",
   "theorems": [
    "C20_gradient_dcm",
    "C20_gradient_dcm_exp"
   ],
   "note": ""
  },
  {
   "property": "C21",
   "status": "proved",
   "theorems": [
    "C21_newton_dcm",
    "C21_newton_dcm_exp"
   ],
   "note": ""
  },
  {
   "property": "C22",
   "status": "partial",
   "theorems": [
    "C22_quasinewton_dcm_refuted",
    "C22_quasinewton_dcm_iff",
    "C22_quasinewton_dcm_unreduced",
    "C22_quasinewton_dcm_exp"
   ],
   "note": "REFUTED for dcm on reduced problems (C22_quasinewton_dcm_refuted): the class multiplicity is missing. C22_quasinewton_dcm_iff says exactly when it is right, C22_quasinewton_dcm_unreduced that it is right without reduction; dcm_exp is right everywhere."
  },
  {
   "property": "C23",
   "status": "partial",
   "theorems": [
    "C23_stationary_dcm_iff_degrees",
    "C23_stationary_dcm_exp_iff_degrees",
    "C23_expected_out_degree_is_ensemble_mean",
    "C23_expected_in_degree_is_ensemble_mean",
    "C23_probabilities_add_up_to_one",
    "C23_enumeration_complete",
    "C23_expected_in_degree_dcm_exp",
    "C23_expected_out_degree_dcm_exp_refuted",
    "C23_expected_out_degree_dcm_exp_actual",
    "C23_pmatrix_dcm"
   ],
   "note": "REFUTED for one function: expected_out_degree_dcm_exp (C23_expected_out_degree_dcm_exp_refuted; _actual says what it computes). Everything else in the statement is proved."
  },
  {
   "property": "C24",
   "status": "proved",
   "theorems": [
    "C24_fixed_point_dcm",
    "C24_fixed_point_dcm_exp",
    "C24_iterative_dcm_exp_2_positive_degree",
    "C24_iterative_dcm_exp_2_zero_degree",
    "C24_iterative_dcm_zero_degree",
    "C24_iterative_dcm_nan"
   ],
   "note": "Entries of zero degree and NaN results are covered separately (C24_iterative_dcm_zero_degree, C24_iterative_dcm_nan, C24_iterative_dcm_exp_2_zero_degree)."
  },
  {
   "property": "C25",
   "status": "proved",
   "theorems": [
    "C25_solution_dcm_is_global_maximum",
    "C25_solution_dcm_exp_is_global_maximum",
    "C25_solution_dcm_unique_ensemble"
   ],
   "note": ""
  },
  {
   "property": "C26",
   "status": "proved",
   "theorems": [
    "C26_loglikelihood_decm_is_logprob",
    "C26_loglikelihood_decm_exp_is_logprob"
   ],
   "note": ""
  },
  {
   "property": "C27",
   "status": "proved",
   "theorems": [
    "C27_gradient_decm",
    "C27_gradient_decm_exp"
   ],
   "note": ""
  },
  {
   "property": "C28",
   "status": "partial",
   "theorems": [
    "C28_newton_decm",
    "C28_newton_decm_exp",
    "C28_quasinewton_decm_refuted",
    "C28_quasinewton_decm_iff",
    "C28_quasinewton_decm_harmless",
    "C28_quasinewton_decm_exp"
   ],
   "note": "REFUTED for the decm quasi-Newton vector at nodes with zero in-strength (C28_quasinewton_decm_refuted: wrong sign). C28_quasinewton_decm_iff says exactly when an entry is right; C28_quasinewton_decm_harmless: the entry is zero at the library's own starting points. Newton matrices and decm_exp are right everywhere."
  },
  {
   "property": "C29",
   "status": "proved",
   "theorems": [
    "C29_stationary_decm_iff_constraints",
    "C29_stationary_decm_paired_iff_constraints",
    "C29_stationary_decm_exp_iff_constraints",
    "C29_expected_decm_is_ensemble_mean",
    "C29_expected_decm_exp"
   ],
   "note": "For the coordinates with positive parameter, and for the whole gradient when degree and strength parameters vanish together (all-positive points included)."
  },
  {
   "property": "C30",
   "status": "partial",
   "theorems": [
    "C30_fixed_point_decm_iff_stationary",
    "C30_iterative_decm_zero_constraint",
    "C30_fixed_point_decm_exp_out",
    "C30_solution_not_fixed_decm_exp_refuted",
    "C30_fixed_not_solution_decm_exp_refuted",
    "C30_fixed_point_decm_exp_2_degrees",
    "C30_fixed_point_decm_exp_2_refuted"
   ],
   "note": "Proved for decm. REFUTED for decm_exp in both directions (C30_solution_not_fixed_decm_exp_refuted, C30_fixed_not_solution_decm_exp_refuted): the in-blocks read the in-parameters where the out-parameters belong; out-blocks are right. iterative_decm_exp_2 (unused by the classes) is right on degrees, refuted on strengths."
  },
  {
   "property": "C31",
   "status": "proved",
   "theorems": [
    "C31_solution_decm_is_maximum",
    "C31_maximum_decm_unique_ensemble",
    "C31_solution_decm_unique_ensemble",
    "C31_solution_decm_exp_is_maximum",
    "C31_solution_decm_exp_unique_ensemble"
   ],
   "note": ""
  },
  {
   "property": "C32",
   "status": "proved",
   "theorems": [
    "C32_gradient_crema_dir",
    "C32_newton_crema_dir",
    "C32_quasi_crema_dir",
    "C32_matrix_lists_simple"
   ],
   "note": ""
  },
  {
   "property": "C33",
   "status": "partial",
   "theorems": [
    "C33_stationary_iff_strengths",
    "C33_fixed_point_iff_stationary",
    "C33_zero_parameter_fails",
    "C33_solution_is_maximum",
    "C33_pair_means_unique",
    "C33_pmatrix_is_dcm_prob",
    "C33_loglikelihood_sparse",
    "C33_gradient_sparse",
    "C33_expected_sparse",
    "C33_fixed_point_sparse_2",
    "C33_gradient_sparse_2",
    "C33_quasi_sparse_2",
    "C33_quasi_sparse_value",
    "C33_quasi_sparse_refuted",
    "C33_fixed_point_sparse_unwritten",
    "C33_fixed_point_sparse_refuted"
   ],
   "note": "Solutions, fixed points and sparse log-likelihood/gradient/expectations proved. REFUTED for iterative_crema_directed_sparse (in-block written by position in the list of non-zero parameters, C33_fixed_point_sparse_refuted) and, in real arithmetic, for the sparse diagonal (exp(-100) in the denominators)."
  },
  {
   "property": "C34",
   "status": "proved",
   "theorems": [
    "C34_loglikelihood_cm",
    "C34_gradient_cm",
    "C34_loglikelihood_ecm",
    "C34_gradient_ecm",
    "C34_loglikelihood_dcm",
    "C34_gradient_dcm",
    "C34_loglikelihood_decm",
    "C34_gradient_decm"
   ],
   "note": ""
  },
  {
   "property": "C35",
   "status": "proved",
   "theorems": [
    "C35_solver_terminates",
    "C35_stop_reason",
    "C35_already_converged"
   ],
   "note": "Arbitrary arrays, scalars, comparisons (NaN included) and user functions, which may raise."
  },
  {
   "property": "C36",
   "status": "proved",
   "theorems": [
    "C36_full_return_report",
    "C36_full_return_same"
   ],
   "note": ""
  },
  {
   "property": "C37",
   "status": "partial",
   "theorems": [
    "C37_converged_cm",
    "C37_converged_cm_exp",
    "C37_converged_ecm",
    "C37_converged_ecm_exp",
    "C37_converged_dcm",
    "C37_converged_dcm_exp",
    "C37_converged_decm",
    "C37_converged_decm_exp",
    "C37_converged_crema",
    "C37_converged_crema_directed",
    "C37_fixed_point_step_converged",
    "C37_fixed_point_norm_refuted"
   ],
   "note": "REFUTED for the fixed-point method: it is also stopped by the norm of the map (C37_fixed_point_norm_refuted: for every tol the CReMa run returns its initial point with arbitrarily large error). Proved: bounds for Newton and quasi-Newton runs of all ten models in exact arithmetic, and for fixed-point runs stopped by the step test."
  },
  {
   "property": "C38",
   "status": "partial",
   "theorems": [
    "C38_identity_regulariser",
    "C38_eigen_regulariser",
    "C38_newton_descent",
    "C38_eigen_descent",
    "C38_identity_descent",
    "C38_identity_regulariser_refuted"
   ],
   "note": "REFUTED for the identity-based regulariser (indefinite matrices stay indefinite: C38_identity_regulariser_refuted). Everything else proved; scipy.linalg.eigh is an oracle assumed to return an orthonormal decomposition."
  },
  {
   "property": "C39",
   "status": "partial",
   "theorems": [
    "C39_DECM_admissible",
    "C39_ECM_admissible_refuted",
    "C39_CM_admissible",
    "C39_CM_fixed_admissible",
    "C39_CM_zero_coordinate",
    "C39_CM_zero_step_refuted",
    "C39_DCM_admissible",
    "C39_DCM_fixed_admissible",
    "C39_ECM_positive",
    "C39_ECM_fixed_first",
    "C39_ECM_fixed_refuted",
    "C39_ECM_exp_admissible",
    "C39_ECM_exp_fixed_admissible",
    "C39_DECM_fixed_first",
    "C39_DECM_fixed_refuted",
    "C39_DECM_exp_admissible",
    "C39_DECM_exp_fixed_admissible",
    "C39_DECM_exp_admissible_refuted"
   ],
   "note": "REFUTED for linsearch_fun_ECM (its objective is finite outside the domain and such points are accepted), ECM_fixed, DECM_fixed (halving after the feasibility test leaves the domain), DECM_exp (self pairs) and CM at a zero coordinate; proved for the others and for the first fixed-point step; DECM in the domain unless fifty halvings were not enough; ECM always positive."
  },
  {
   "property": "C40",
   "status": "partial",
   "theorems": [
    "C40_armijo_iff",
    "C40_armijo_increase",
    "C40_CM_shape",
    "C40_DCM_shape",
    "C40_plain_shape",
    "C40_ECM_shape",
    "C40_ECM_exp_shape",
    "C40_DECM_shape",
    "C40_DECM_exp_shape",
    "C40_fixed_shape",
    "C40_plain_fixed_shape",
    "C40_ECM_terminates",
    "C40_ECM_fixed_terminates",
    "C40_ECM_exp_terminates",
    "C40_ECM_exp_termination_refuted",
    "C40_DECM_terminates",
    "C40_DECM_never",
    "C40_DECM_termination_refuted",
    "C40_DECM_exp_terminates",
    "C40_DECM_exp_never",
    "C40_DECM_exp_termination_refuted"
   ],
   "note": "REFUTED termination: DECM, DECM_exp (self pairs in the feasibility loop) and ECM_exp (pair sums at most 1e-14) loop forever on admissible points; _terminates/_never theorems characterise when. Shape and sufficient decrease proved for all."
  },
  {
   "property": "C41",
   "status": "proved",
   "theorems": [
    "C41_sequences_meaning",
    "C41_degree_totals",
    "C41_strength_totals",
    "C41_symmetric",
    "C41_hollow",
    "C41_relabelling",
    "C41_other_kinds_raise"
   ],
   "note": ""
  },
  {
   "property": "C42",
   "status": "proved",
   "theorems": [
    "C42_undirected",
    "C42_undirected_weighted",
    "C42_directed",
    "C42_directed_weighted",
    "C42_empty_raises"
   ],
   "note": ""
  },
  {
   "property": "C43",
   "status": "partial",
   "theorems": [
    "C43_adjacency",
    "C43_adjacency_weighted",
    "C43_adjacency_succeeds",
    "C43_degrees_undirected",
    "C43_degrees_directed",
    "C43_after_relabelling",
    "C43_gap_refuted",
    "C43_degrees_refuted",
    "C43_sparse_refuted"
   ],
   "note": "REFUTED in general, proved on its domain: entries, symmetry and degrees are right whenever the labels are exactly 0..n-1; the compiled code sizes the matrix by the number of distinct labels, so a list such as [(0,2)] writes outside the array (C43_gap_refuted); self-loops and repeated edges give degrees that differ from the incidence counts of the edge-list functions (C43_degrees_refuted); the sparse builders always raise (C43_sparse_refuted)."
  },
  {
   "property": "C44",
   "status": "proved",
   "theorems": [
    "C44_classes_undirected",
    "C44_classes_directed"
   ],
   "note": ""
  },
  {
   "property": "C45",
   "status": "proved",
   "theorems": [
    "C45_full_dyads",
    "C45_single_dyads",
    "C45_empty_dyads",
    "C45_identity",
    "C45_relabelling",
    "C45_spmatrix_none_refuted"
   ],
   "note": "For ndarray (and csr_array for the empty-dyad count). For csr_matrix count_2motif_0 returns None: C45_spmatrix_none_refuted."
  },
  {
   "property": "C46",
   "status": "proved",
   "theorems": [
    "C46_full",
    "C46_single",
    "C46_empty"
   ],
   "note": ""
  },
  {
   "property": "C47",
   "status": "proved",
   "theorems": [
    "C47_count_ordered",
    "C47_count_sets",
    "C47_motifs_exhaustive",
    "C47_motifs_distinct",
    "C47_motif_automorphisms",
    "C47_total",
    "C47_count_relabelling",
    "C47_expected",
    "C47_expected_relabelling",
    "C47_sparse",
    "C47_sparse_refuted",
    "C47_csr_array_raises"
   ],
   "note": "For np.ndarray at every size, and for sparse matrices up to 257 nodes. Beyond that the sparse variants, which run in object mode and compare indices with 'is not', count degenerate triples: C47_sparse_refuted."
  },
  {
   "property": "C48",
   "status": "proved",
   "theorems": [
    "C48_delta_method"
   ],
   "note": ""
  },
  {
   "property": "C49",
   "status": "partial",
   "theorems": [
    "C49_two_node",
    "C49_two_node_std_positive",
    "C49_three_node",
    "C49_motif13_std_positive",
    "C49_std_positive_refuted",
    "C49_cycle_refuted",
    "C49_graph_two_node",
    "C49_graph_three_node",
    "C49_graph_other_models"
   ],
   "note": "REFUTED for three-node motifs 1-12: a positive solution (the exact one of the directed 4-cycle for motif 2) has reported standard deviation zero, so the z-score is undefined (C49_std_positive_refuted, C49_cycle_refuted). Proved: meaning of every z-score, zero iff count equals expectation, positive denominators for two-node motifs and motif 13."
  },
  {
   "property": "C50",
   "status": "partial",
   "theorems": [
    "C50_cm",
    "C50_ecm",
    "C50_dcm",
    "C50_decm",
    "C50_crema_sparse_directed",
    "C50_crema_sparse_undirected_refuted"
   ],
   "note": "REFUTED for the undirected sparse CReMa sampler, which writes both (i,j) and (j,i). Proved for every other model, every generator meeting numpy's contract, every schedule and seed."
  },
  {
   "property": "C51",
   "status": "proved",
   "theorems": [
    "C51_cm",
    "C51_ecm",
    "C51_dcm",
    "C51_decm",
    "C51_crema_given",
    "C51_crema_prob",
    "C51_crema_sparse"
   ],
   "note": "For every sampler, any two numbers of processes, schedules, worker states and parent states give the same lines."
  },
  {
   "property": "C52",
   "status": "partial",
   "theorems": [
    "C52_cm_graph",
    "C52_dcm_graph",
    "C52_cm_ensemble",
    "C52_dcm_ensemble",
    "C52_cm_link",
    "C52_dcm_link",
    "C52_ecm_weight",
    "C52_decm_weight",
    "C52_crema_given",
    "C52_crema_prob",
    "C52_crema_sparse",
    "C52_crema_sparse_undirected_twice",
    "C52_crema_sparse_undirected_refuted"
   ],
   "note": "REFUTED for the undirected sparse CReMa sampler: an unordered pair is linked with probability 1-(1-p)^2. Proved otherwise: the CM and DCM graphs are the pairs whose draw is below the model probability, and under independent draws their law is the model's ensemble; integer weights follow the ECM/DECM pair law, continuous weights the exponential law."
  },
  {
   "property": "C53",
   "status": "proved",
   "theorems": [
    "C53_given",
    "C53_probabilities"
   ],
   "note": "Explicit topology reproduced exactly and in order; with probabilities the sampled links are a sublist."
  },
  {
   "property": "C54",
   "status": "partial",
   "theorems": [
    "C54_prefix",
    "C54_names",
    "C54_names_distinct",
    "C54_unknown_model",
    "C54_cm_total",
    "C54_dcm_total",
    "C54_sparse_given_refuted"
   ],
   "note": "REFUTED for crema-sparse with an explicit matrix: no file is written. Otherwise proved: file names, distinctness, prefix property, refusal of unknown models, totality of the binary samplers."
  },
  {
   "property": "C55",
   "status": "partial",
   "theorems": [
    "C55_binary_dense",
    "C55_binary_custom_density",
    "C55_weighted_dense",
    "C55_weighted_uniform",
    "C55_weighted_gaussian_partial",
    "C55_gaussian_negative_refuted",
    "C55_gaussian_integer_isolated_refuted"
   ],
   "note": "Proved for the four binary and uniform generators, symmetric or not, integer weights or not. REFUTED for the gaussian generator: entries can be negative, and with intweights rounding can isolate nodes; zero diagonal, symmetry and no isolated node hold for it without intweights when no normal number is exactly zero (_partial). Size n is the domain of the matrix function."
  },
  {
   "property": "C56",
   "status": "proved",
   "theorems": [
    "C56_directed_loop",
    "C56_symmetric_loop",
    "C56_symmetric_dense_loop",
    "C56_binary_dense_returns",
    "C56_binary_custom_returns",
    "C56_weighted_dense_returns",
    "C56_weighted_uniform_returns",
    "C56_single_node",
    "C56_no_weight"
   ],
   "note": "Loops of the binary and uniform generators (non-negative matrices) end exactly when the node is already linked or the stream proposes another node with a non-zero value; whole generators return under a fair stream; with one node (all five generators) or sup_ext=0 they never return."
  },
  {
   "property": "C57",
   "status": "partial",
   "theorems": [
    "C57_set_on_initialised",
    "C57_set_on_initialised_directed",
    "C57_histories",
    "C57_histories_directed",
    "C57_history_defined",
    "C57_history_unique",
    "C57_raise_uninitialised",
    "C57_raise_uninitialised_directed",
    "C57_invalid_raises",
    "C57_invalid_raises_directed",
    "C57_odd_degrees_raise",
    "C57_precedence",
    "C57_precedence_directed",
    "C57_both_sequences",
    "C57_clean_partial",
    "C57_clean_directed_partial",
    "C57_clean_refuted",
    "C57_clean_directed_refuted",
    "C57_documented_lists_raise",
    "C57_other_sparse_refuted",
    "C57_directed_lengths_refuted"
   ],
   "note": "REFUTED in part: clean_edges leaves strengths, is_weighted, nodes_dict and is_sparse of the old network; documented list arguments raise AttributeError; a failed set_adjacency_matrix leaves the matrix behind; DirectedGraph accepts degree and strength sequences of different lengths. Proved for every call history: no-op on initialised objects, nodes/degrees/edges are those of the argument in force, invalid arguments raise and leave the object uninitialised, precedence."
  },
  {
   "property": "C58",
   "status": "partial",
   "theorems": [
    "C58_test",
    "C58_test_directed",
    "C58_counts_and_fractions_partial",
    "C58_binary",
    "C58_weighted_refuted"
   ],
   "note": "REFUTED: the test sum(a)==count(a>0) misses weights such as 1/2 and 3/2. Proved: the exact condition computed by the code, correctness for entries 0 or >=1 and for entries <=1, binary matrices never weighted."
  },
  {
   "property": "C59",
   "status": "partial",
   "theorems": [
    "C59_cm_inside",
    "C59_cm_values",
    "C59_dcm_inside",
    "C59_dcm_values",
    "C59_cm_exp_start",
    "C59_dcm_exp_start",
    "C59_cm_exp_isolated_refuted",
    "C59_ecm_inside",
    "C59_ecm_values",
    "C59_ecm_exp_start",
    "C59_ecm_exp_isolated_refuted",
    "C59_decm_inside",
    "C59_decm_exp_start",
    "C59_decm_values",
    "C59_crema_inside",
    "C59_crema_directed_inside",
    "C59_crema_values",
    "C59_crema_directed_values",
    "C59_crema_uniform_refuted",
    "C59_crema_strengths_refuted",
    "C59_unknown_name",
    "C59_other_type",
    "C59_binary_array_untouched",
    "C59_ecm_array",
    "C59_crema_array",
    "C59_crema_directed_array",
    "C59_decm_array",
    "C59_decm_array_untouched_iff",
    "C59_decm_exp_array",
    "C59_array_modified_refuted",
    "C59_decm_exp_array_changed_refuted",
    "C59_array_meaning",
    "C59_random_zero_refuted",
    "C59_degrees_minor_refuted",
    "C59_chung_lu_refuted",
    "C59_uniform_probability"
   ],
   "note": "REFUTED in part. Proved: every documented name gives positive finite factors (zero-constraint nodes at 0, or at a factor below every double for dcm_exp/decm_exp), the exact values behind each name, admissibility of ecm/decm starts (decm exactly when the name is not 'strengths' or no single pair carries all the weight), unknown names raise ValueError, other types TypeError, binary models leave the user's array alone. Refuted: isolated nodes start at factor 1 in cm_exp and ecm_exp; 'uniform' raises for crema; crema 'strengths' ignores strengths; ecm/decm/crema overwrite the user's array and decm_exp replaces it by its logarithm; degrees_minor increases with the degree; chung_lu is not the Chung-Lu formula; a zero draw starts outside the domain."
  },
  {
   "property": "C60",
   "status": "partial",
   "theorems": [
    "C60_error_cm_partial",
    "C60_history_cm",
    "C60_error_ecm",
    "C60_error_crema_matrix",
    "C60_error_crema_name",
    "C60_error_dcm_partial",
    "C60_history_dcm",
    "C60_error_decm",
    "C60_error_crema_dir_matrix",
    "C60_error_crema_dir_name",
    "C60_completes_undirected",
    "C60_completes_crema",
    "C60_completes_crema_name",
    "C60_completes_directed",
    "C60_completes_crema_dir",
    "C60_completes_crema_dir_name",
    "C60_stale_error",
    "C60_own_error_refuted",
    "C60_dcm_after_decm_raises",
    "C60_unknown_model_silent",
    "C60_unknown_model_fresh"
   ],
   "note": "REFUTED for histories: after CReMa on a given matrix a later cm call reports the old CReMa error (C60_own_error_refuted, C60_stale_error); dcm after decm raises AttributeError; an unknown model name is accepted and the previous error kept. Proved for every other history and every solver outcome, all models: the reported number is the largest absolute deviation between the ensemble means (as sums over all graphs for cm/dcm, pair-law means for the enhanced models, conditional means for CReMa) and the constraints."
  },
  {
   "property": "C61",
   "status": "partial",
   "theorems": [
    "C61_undirected_accepts",
    "C61_directed_accepts",
    "C61_undirected_refuses_partial",
    "C61_directed_refuses_partial",
    "C61_unknown_method_refuted",
    "C61_unknown_method_raises",
    "C61_descent_cm",
    "C61_descent_cm_exp",
    "C61_descent_ecm",
    "C61_descent_ecm_exp",
    "C61_descent_crema",
    "C61_descent_crema_sparse",
    "C61_descent_dcm",
    "C61_descent_dcm_exp",
    "C61_descent_decm",
    "C61_descent_decm_exp",
    "C61_descent_crema_dir",
    "C61_descent_crema_dir_sparse",
    "C61_newton_ecm",
    "C61_newton_ecm_exp",
    "C61_newton_crema",
    "C61_newton_dcm",
    "C61_newton_dcm_exp",
    "C61_newton_decm",
    "C61_newton_decm_exp",
    "C61_newton_crema_dir",
    "C61_newton_crema_sparse_raises",
    "C61_newton_crema_dir_sparse_raises",
    "C61_quasinewton_ecm",
    "C61_quasinewton_ecm_exp",
    "C61_quasinewton_crema",
    "C61_quasinewton_dcm_exp",
    "C61_quasinewton_decm_exp",
    "C61_quasinewton_crema_dir",
    "C61_fixed_point_cm",
    "C61_fixed_point_cm_exp",
    "C61_fixed_point_ecm",
    "C61_fixed_point_ecm_exp",
    "C61_fixed_point_crema",
    "C61_fixed_point_dcm",
    "C61_fixed_point_dcm_exp",
    "C61_fixed_point_decm",
    "C61_fixed_point_crema_dir",
    "C61_fixed_point_decm_exp_refuted",
    "C61_fixed_point_crema_sparse_offset",
    "C61_undirected_linesearch",
    "C61_directed_linesearch",
    "C61_regulariser",
    "C61_explicit_matrix_refuted"
   ],
   "note": "REFUTED in corner cases, otherwise proved. Every documented model and method is accepted, and (all 12 models) the objective, the gradient and the line-search objective are minus the log-likelihood, its gradient and the log-likelihood; the Newton/diagonal matrices are the Jacobian where the second-derivative code is right (C03, C04, C22, C28 cover the rest); fixed points of the map are the stationary points. Refuted: model crema accepts the undocumented methods sparse-newton, sparse-quasinewton, sparse-fixed-point (start returned if already converged, otherwise an exception other than ValueError); decm_exp fixed-point map; crema-sparse with an adjacency matrix reads row indices as fitnesses; crema-sparse newton always raises."
  },
  {
   "property": "C62",
   "status": "partial",
   "theorems": [
    "C62_value_cm",
    "C62_value_ecm",
    "C62_value_crema",
    "C62_value_crema_name",
    "C62_value_dcm",
    "C62_value_dcm_exp",
    "C62_value_decm",
    "C62_value_decm_exp",
    "C62_value_crema_dir",
    "C62_value_crema_dir_name",
    "C62_full_return_raises",
    "C62_sign_refuted",
    "C62_dcm_exp_refuted",
    "C62_after_failure_refuted"
   ],
   "note": "REFUTED: the returned value is the NEGATED log-likelihood (C62_sign_refuted); for dcm_exp and decm_exp it is evaluated at the factors instead of the exponents (C62_dcm_exp_refuted, exact value proved); after a call that raised, old solution and new arguments are mixed; directed CReMa with full_return raises. The exact value returned is proved for every model, solution and method."
  },
  {
   "property": "C63",
   "status": "proved",
   "theorems": [
    "C63_reduction_loglikelihood_dcm",
    "C63_reduction_gradient_dcm",
    "C63_reduction_iterative_dcm"
   ],
   "note": ""
  },
  {
   "property": "C64",
   "status": "proved",
   "theorems": [
    "C64_loglikelihood_is_logdensity",
    "C64_loglikelihood_dir_is_logdensity"
   ],
   "note": ""
  },
  {
   "property": "C65",
   "status": "partial",
   "theorems": [
    "C65_verbose_neutral",
    "C65_verbose_raises",
    "C65_verbose_refuted"
   ],
   "note": "REFUTED: a verbose newton run without regularisation raises (new_ml unbound). Proved neutral otherwise, when eigh does not raise."
  },
  {
   "property": "C66",
   "status": "partial",
   "theorems": [
    "C66_std_refuted"
   ],
   "note": "REFUTED: the reported value is the first-order (delta method) approximation of C48; it is zero at solutions where the true variance is positive (C66_std_refuted)."
  },
  {
   "property": "C67",
   "status": "partial",
   "theorems": [
    "C67_draws_refuted",
    "C67_files_refuted"
   ],
   "note": "REFUTED: with 1415 nodes or more two pairs always share their uniform draw, and an ensemble of more than a million graphs always repeats one, since seeds come from randint(0, 1000000)."
  },
  {
   "property": "C68",
   "status": "partial",
   "theorems": [
    "C68_refuted"
   ],
   "note": "REFUTED: for every generator whose first draws after seeding are positive some solution has a link of positive probability that no seed produces."
  },
  {
   "property": "C69",
   "status": "partial",
   "theorems": [
    "C69_dense",
    "C69_sparse_weights_refuted",
    "C69_nx",
    "C69_nx_unseeded",
    "C69_nx_drawn_seed",
    "C69_nx_large_refuted"
   ],
   "note": "Proved for the five dense generators and the networkx graphs, whatever the earlier state of the generator. REFUTED for the sparse weighted generators, whose weights come from the unseeded global generator. Unseeded networkx graphs of 65537 nodes or more may raise."
  },
  {
   "property": "C70",
   "status": "partial",
   "theorems": [
    "C70_uniform_sparse",
    "C70_gaussian_nx",
    "C70_uniform_nx_refuted",
    "C70_uniform_nx_no_link_refuted",
    "C70_nx_weights",
    "C70_nx_returns",
    "C70_sparse_weights"
   ],
   "note": "Proved for uniform sparse and gaussian weights that are never exactly zero. REFUTED for 'uniform' weights of random_graph_nx and barabasi_albert_graph_nx: randint(0, sup_ext) may be 0, and always is for sup_ext=1. The power-law branch and the networkx topology are oracles."
  },
  {
   "property": "C71",
   "status": "partial",
   "theorems": [
    "C71_matrix_kinds",
    "C71_matrix_kinds_directed",
    "C71_edge_list",
    "C71_weighted_edge_list",
    "C71_edge_list_directed",
    "C71_weighted_edge_list_directed_refuted",
    "C71_sequences"
   ],
   "note": "REFUTED for weighted directed edge lists (is_weighted stays False and the nonzero index arrays stay None). Proved for matrices of every kind, undirected lists with and without weights, directed lists, sequences."
  },
  {
   "property": "C72",
   "status": "proved",
   "theorems": [
    "C72_order_cm",
    "C72_twins_ecm",
    "C72_twins_dcm",
    "C72_twins_decm",
    "C72_alike_ecm",
    "C72_alike_dcm",
    "C72_alike_decm",
    "C72_alike_crema",
    "C72_alike_crema_dir"
   ],
   "note": "Order statement for cm; equal constraints give equal parameters (ecm) or equal link and weight laws (dcm, decm, CReMa)."
  },
  {
   "property": "C73",
   "status": "partial",
   "theorems": [
    "C73_hessian_cm_refuted",
    "C73_hessian_cm_diagonal_partial",
    "C73_renamed_iterative_cm",
    "C73_renamed_prime_cm",
    "C73_renamed_hessian_diag_cm",
    "C73_renamed_expected_cm",
    "C73_renamed_loglik_cm",
    "C73_renamed_iterative_cm_exp",
    "C73_renamed_prime_cm_exp",
    "C73_renamed_hessian_diag_cm_exp",
    "C73_renamed_loglik_cm_exp",
    "C73_renamed_iterative_ecm",
    "C73_renamed_prime_ecm",
    "C73_renamed_hessian_diag_ecm",
    "C73_renamed_expected_ecm",
    "C73_renamed_iterative_ecm_exp",
    "C73_renamed_prime_ecm_exp",
    "C73_renamed_hessian_diag_ecm_exp",
    "C73_renamed_loglik_ecm",
    "C73_renamed_loglik_ecm_exp",
    "C73_renamed_hessian_ecm",
    "C73_renamed_hessian_ecm_exp",
    "C73_renamed_hessian_cm_exp",
    "C73_renamed_iterative_dcm",
    "C73_renamed_iterative_dcm_exp",
    "C73_renamed_prime_dcm",
    "C73_renamed_hessian_diag_dcm",
    "C73_renamed_loglik_dcm",
    "C73_renamed_expected_out_dcm",
    "C73_renamed_expected_in_dcm",
    "C73_renamed_iterative_dcm_exp_2",
    "C73_renamed_prime_dcm_exp",
    "C73_renamed_hessian_diag_dcm_exp",
    "C73_renamed_loglik_dcm_exp",
    "C73_renamed_expected_out_dcm_exp",
    "C73_renamed_expected_in_dcm_exp",
    "C73_renamed_hessian_dcm",
    "C73_renamed_hessian_dcm_exp",
    "C73_renamed_iterative_decm",
    "C73_renamed_prime_decm",
    "C73_renamed_hessian_diag_decm",
    "C73_renamed_expected_decm",
    "C73_renamed_loglik_decm",
    "C73_renamed_iterative_decm_exp",
    "C73_renamed_iterative_decm_exp_2",
    "C73_renamed_prime_decm_exp",
    "C73_renamed_hessian_diag_decm_exp",
    "C73_renamed_expected_decm_exp",
    "C73_renamed_loglik_decm_exp",
    "C73_renamed_hessian_decm",
    "C73_renamed_hessian_decm_exp",
    "C73_renamed_pmatrix_cm",
    "C73_renamed_pmatrix_dcm",
    "C73_renamed_loglik_crema",
    "C73_renamed_prime_crema",
    "C73_renamed_expected_crema",
    "C73_renamed_diag_crema",
    "C73_renamed_hessian_crema",
    "C73_renamed_iterative_crema",
    "C73_renamed_triu_renamed",
    "C73_renamed_loglik_crema_dir",
    "C73_renamed_prime_crema_dir",
    "C73_renamed_diag_crema_dir",
    "C73_renamed_hessian_crema_dir",
    "C73_renamed_iterative_crema_dir",
    "C73_renamed_expected_crema_dir",
    "C73_renamed_all_renamed"
   ],
   "note": "REFUTED for the off-diagonal entries of loglikelihood_hessian_cm (witness); its diagonal and every other dense function of cm, ecm, dcm, decm and CReMa proved. CReMa needs non-zero denominators; sparse CReMa variants are tied to the dense ones by C18/C32."
  },
  {
   "property": "C74",
   "status": "partial",
   "theorems": [
    "C74_expected_out_dcm_exp_refuted",
    "C74_iterative_decm_exp_refuted",
    "C74_hessian_diag_decm_refuted",
    "C74_reversed_iterative_dcm",
    "C74_reversed_iterative_dcm_exp",
    "C74_reversed_prime_dcm",
    "C74_reversed_prime_dcm_exp",
    "C74_reversed_hessian_diag_dcm",
    "C74_reversed_hessian_diag_dcm_exp",
    "C74_reversed_iterative_dcm_exp_2",
    "C74_reversed_hessian_dcm",
    "C74_reversed_hessian_dcm_exp",
    "C74_reversed_expected_dcm",
    "C74_reversed_loglik_dcm",
    "C74_reversed_loglik_dcm_exp",
    "C74_reversed_iterative_decm",
    "C74_reversed_prime_decm",
    "C74_reversed_expected_decm",
    "C74_reversed_iterative_decm_exp_2",
    "C74_reversed_prime_decm_exp",
    "C74_reversed_expected_decm_exp",
    "C74_reversed_hessian_diag_decm_partial",
    "C74_reversed_hessian_diag_decm_exp",
    "C74_reversed_loglik_decm",
    "C74_reversed_loglik_decm_exp",
    "C74_reversed_hessian_decm",
    "C74_reversed_hessian_decm_exp",
    "C74_reversed_loglik_crema_dir",
    "C74_reversed_prime_crema_dir",
    "C74_reversed_diag_crema_dir",
    "C74_reversed_hessian_crema_dir",
    "C74_reversed_iterative_crema_dir",
    "C74_reversed_expected_crema_dir",
    "C74_reversed_all_reversed"
   ],
   "note": "REFUTED for expected_out_degree_dcm_exp, iterative_decm_exp and loglikelihood_hessian_diag_decm (witnesses; the last proved when no strength is 0). All other dense functions of dcm, decm and directed CReMa proved."
  },
  {
   "property": "C75",
   "status": "proved",
   "theorems": [
    "C75_expected_dcm_both",
    "C75_loglik_dcm_both",
    "C75_prime_dcm_both",
    "C75_iterative_dcm_both",
    "C75_solution_dcm_both",
    "C75_loglik_dcm_exp_both",
    "C75_prime_dcm_exp_both",
    "C75_expected_dcm_exp_both",
    "C75_expected_decm_both",
    "C75_loglik_decm_both",
    "C75_prime_decm_both",
    "C75_iterative_decm_both",
    "C75_solution_decm_both",
    "C75_expected_decm_exp_both",
    "C75_loglik_decm_exp_both",
    "C75_prime_decm_exp_both",
    "C75_expected_crema_both",
    "C75_loglik_crema_both",
    "C75_solution_crema_both"
   ],
   "note": "Directed models at symmetric parameters reduce to the undirected ones; any directed solution gives the undirected link laws."
  },
  {
   "property": "C76",
   "status": "proved",
   "theorems": [
    "C76_expected_cm_pad",
    "C76_iterative_cm_pad",
    "C76_expected_ecm_pad",
    "C76_iterative_ecm_pad",
    "C76_expected_dcm_pad",
    "C76_loglik_dcm_pad",
    "C76_prime_dcm_pad",
    "C76_iterative_dcm_pad",
    "C76_expected_decm_pad",
    "C76_loglik_decm_pad",
    "C76_prime_decm_pad",
    "C76_iterative_decm_pad",
    "C76_loglik_crema_pad",
    "C76_expected_crema_pad"
   ],
   "note": "cm and ecm likelihoods not included: 0*log(0) is NaN in Python for an isolated node."
  },
  {
   "property": "C77",
   "status": "proved",
   "theorems": [
    "C77_solvable_cm_iff",
    "C77_solvable_dcm_iff",
    "C77_solvable_ecm_iff",
    "C77_solvable_decm_iff",
    "C77_solvable_crema_iff",
    "C77_solvable_crema_dir_iff"
   ],
   "note": "iff for all six models"
  },
  {
   "property": "C78",
   "status": "proved",
   "theorems": [
    "C78_crema_given_exists",
    "C78_crema_dir_given_exists",
    "C78_crema_after_cm_exists",
    "C78_crema_after_dcm_exists",
    "C78_ecm_heavy_exists",
    "C78_decm_heavy_exists",
    "C78_cm_sample_exists",
    "C78_cm_degree_bound",
    "C78_ecm_strength_bound"
   ],
   "note": "given and probabilistic topologies, heavy weights, shared degree sequences, bounds on any solution"
  },
  {
   "property": "C79",
   "status": "proved",
   "theorems": [
    "C79_newton_iterates",
    "C79_quasinewton_iterates",
    "C79_fixed_point_iterates"
   ],
   "note": "Every completed run on real vectors, any problem and options."
  },
  {
   "property": "C80",
   "status": "partial",
   "theorems": [
    "C80_increases_cm",
    "C80_increases_cm_exp",
    "C80_increases_ecm_exp",
    "C80_increases_crema",
    "C80_increases_dcm",
    "C80_increases_dcm_exp",
    "C80_increases_decm",
    "C80_increases_decm_exp",
    "C80_increases_crema_dir",
    "C80_stays_cm",
    "C80_stays_dcm",
    "C80_stays_ecm_exp",
    "C80_stays_decm_exp",
    "C80_positive_ecm",
    "C80_positive_decm",
    "C80_increases_crema_sparse",
    "C80_increases_crema_dir_sparse"
   ],
   "note": "Proved for cm, cm_exp, ecm_exp, crema, crema-sparse (quasinewton; newton raises, C61), dcm, dcm_exp, decm, decm_exp, directed crema and directed crema-sparse (quasinewton). REFUTED for ecm: see C39_ECM_admissible_refuted. For cm, dcm, decm newton with the identity regulariser is excluded (C38)."
  },
  {
   "property": "C81",
   "status": "proved",
   "theorems": [
    "C81_psd_cm_exp",
    "C81_psd_dcm_exp",
    "C81_psd_ecm_exp",
    "C81_psd_decm_exp",
    "C81_psd_crema",
    "C81_psd_crema_dir"
   ],
   "note": "All exponential models and both CReMa models, at every admissible point."
  },
  {
   "property": "C82",
   "status": "partial",
   "theorems": [
    "C82_cm",
    "C82_cm_tolerance_refuted",
    "C82_cm_exp",
    "C82_ecm",
    "C82_ecm_exp",
    "C82_dcm",
    "C82_dcm_exp",
    "C82_decm",
    "C82_decm_exp",
    "C82_crema_matrix",
    "C82_crema_cm",
    "C82_crema_cm_exp",
    "C82_crema_dir_matrix",
    "C82_crema_dcm",
    "C82_crema_dcm_exp",
    "C82_crema_sparse_cm",
    "C82_crema_sparse_cm_exp",
    "C82_crema_sparse_dcm",
    "C82_crema_sparse_dcm_exp"
   ],
   "note": "Proved for all 14 combinations of model and adjacency, and for crema-sparse with quasinewton (its newton run raises, C61) on both graphs; on a DirectedGraph a degree must vanish exactly when its strength does. Exclusions: fixed-point (its norm is that of the map, C37), ecm under the hypothesis y_i y_j < 1 (its search can leave the domain, C39). In the factors the bound is tol times the largest factor; without that factor it is false (C82_cm_tolerance_refuted)."
  },
  {
   "property": "C83",
   "status": "proved",
   "theorems": [
    "C83_zero_stays",
    "C83_zero_factor"
   ],
   "note": "Newton and quasi-Newton, both parametrisations, and end to end for dcm."
  },
  {
   "property": "C84",
   "status": "partial",
   "theorems": [
    "C84_off_undirected",
    "C84_off_directed",
    "C84_directed_ignored",
    "C84_directed_adjacency_refuted"
   ],
   "note": "REFUTED for the directed class: the CReMa adjacency solve ignores linsearch=False (C84_directed_adjacency_refuted, C84_directed_ignored). Proved for every other solve."
  },
  {
   "property": "C85",
   "status": "proved",
   "theorems": [
    "C85_run_cm",
    "C85_run_cm_exp",
    "C85_run_dcm",
    "C85_run_dcm_exp",
    "C85_cm",
    "C85_cm_exp",
    "C85_dcm",
    "C85_dcm_exp"
   ],
   "note": "ecm and decm not included: no convergence statement is made for their maps. crema is C106. Non-finite starts excluded. Real arithmetic."
  },
  {
   "property": "C86",
   "status": "partial",
   "theorems": [
    "C86_cm_unused",
    "C86_dcm_unused",
    "C86_cm_exp_refuted",
    "C86_dcm_exp_refuted"
   ],
   "note": "REFUTED for cm_exp and dcm_exp (ring of six nodes, uniform start: zero steps, norm 0, error 1). For cm and dcm: below a positive tolerance the test never fires, so the statement is void there and C85 describes the runs."
  },
  {
   "property": "C87",
   "status": "partial",
   "theorems": [
    "C87_cm",
    "C87_ecm",
    "C87_crema_matrix",
    "C87_crema_name",
    "C87_dcm",
    "C87_decm",
    "C87_crema_directed_matrix",
    "C87_crema_directed_name",
    "C87_ecm_refuted",
    "C87_ecm_isolated",
    "C87_ecm_exp_isolated"
   ],
   "note": "REFUTED for ecm on a network with an isolated node: the relative errors are NaN or ignore the node depending on its position (C87_ecm_refuted). Proved for every model otherwise (strengths >= 0; ecm with nonzero constraints)."
  },
  {
   "property": "C88",
   "status": "partial",
   "theorems": [
    "C88_cm",
    "C88_ecm",
    "C88_dcm",
    "C88_decm",
    "C88_crema_matrix_unassigned",
    "C88_crema_name_unassigned",
    "C88_crema_directed_unassigned",
    "C88_crema_refuted",
    "C88_crema_directed_refuted",
    "C88_raised_cm",
    "C88_raised_ecm",
    "C88_raised_dcm",
    "C88_raised_decm"
   ],
   "note": "REFUTED for CReMa: expected_strength_seq is never written by a CReMa solve (misspelt attribute), C88_crema_refuted; the values do go to expected_stregth_seq. Proved for cm, ecm, dcm, decm."
  },
  {
   "property": "C89",
   "status": "proved",
   "theorems": [
    "C89_cm",
    "C89_ecm",
    "C89_dcm",
    "C89_decm",
    "C89_crema_given",
    "C89_crema_prob",
    "C89_sparse_undirected",
    "C89_sparse_directed",
    "C89_ecm_law",
    "C89_decm_law",
    "C89_crema_law",
    "C89_listed"
   ],
   "note": "File equations for all models and both classes; laws for the enhanced models and CReMa under independent draws (cm/dcm laws: C51/C64 families). Undirected crema-sparse draws both orders of each pair, as recorded under C50/C52."
  },
  {
   "property": "C90",
   "status": "partial",
   "theorems": [
    "C90_cm",
    "C90_ecm",
    "C90_crema_given",
    "C90_crema_named",
    "C90_dcm",
    "C90_decm",
    "C90_crema_given_directed",
    "C90_crema_named_directed",
    "C90_crema_sparse_directed",
    "C90_crema_sparse_half",
    "C90_crema_sparse_refuted",
    "C90_fractional_matrix_refuted",
    "C90_sparse_matrix_no_file",
    "C90_sparse_matrix_no_file_directed",
    "C90_failed_call_sampled",
    "C90_int_mean",
    "C90_real_mean",
    "C90_sure_mean"
   ],
   "note": "REFUTED for undirected crema-sparse (files carry twice the model's strengths), for fractional user-given matrices (probabilities discarded), for crema-sparse with a matrix (no file) and for failed ecm calls (initial guess is sampled). Proved: for cm, ecm, crema (0/1 matrix or named binary model), dcm, decm, directed crema and directed crema-sparse the reported error is the largest deviation of the mean degrees and strengths of the files; means of the pair laws as series and tail integrals."
  },
  {
   "property": "C91",
   "status": "proved",
   "theorems": [
    "C91_cm",
    "C91_ecm",
    "C91_crema",
    "C91_dcm",
    "C91_decm",
    "C91_crema_directed"
   ],
   "note": "Full statement for all models; the uniform value is 9/10 for decm and 1/10 for decm_exp (see DESIGN)."
  },
  {
   "property": "C92",
   "status": "partial",
   "theorems": [
    "C92_cm",
    "C92_ecm",
    "C92_crema",
    "C92_dcm",
    "C92_decm",
    "C92_crema_directed",
    "C92_cm_exp_factors_refuted",
    "C92_ecm_exp_factors_refuted"
   ],
   "note": "REFUTED for cm_exp and ecm_exp when the array holds the factors g.x (it is read as exponents); proved for all models when the array holds what the guess code expects. For dcm factors of zero degrees are not compared; ecm, decm, crema assume what the statements list."
  },
  {
   "property": "C93",
   "status": "partial",
   "theorems": [
    "C93_matrix_kinds",
    "C93_matrix_kinds_directed",
    "C93_edges",
    "C93_edges_directed",
    "C93_weighted_edges",
    "C93_weighted_edges_directed_partial",
    "C93_sequences",
    "C93_sequences_directed",
    "C93_weighted_matrix",
    "C93_weighted_matrix_directed",
    "C93_crema_edges_raises",
    "C93_crema_edges_refuted",
    "C93_decm_edges_raises",
    "C93_decm_edges_refuted",
    "C93_unit_matrix_missing",
    "C93_unit_weights_refuted"
   ],
   "note": "REFUTED for directed CReMa on an object built from weighted edges (C93_crema_edges_refuted), for decm and decm_exp on such an object (C93_decm_edges_raises, C93_decm_edges_refuted: the degrees are arrays of Python objects, which the compiled functions refuse) and for networks whose weights are all 1 (C93_unit_weights_refuted). Proved: array and sparse matrices, edge lists, weighted edge lists (directed: binary models and crema-sparse with fixed-point) and sequences end every call alike."
  },
  {
   "property": "C94",
   "status": "proved",
   "theorems": [
    "C94_cm",
    "C94_ecm",
    "C94_dcm"
   ],
   "note": "Binary models in both directions and undirected enhanced models. Directed enhanced models never complete on an object built from edges (C93_decm_edges_raises), so nothing is left to state for them."
  },
  {
   "property": "C95",
   "status": "proved",
   "theorems": [
    "C95_settles_cm",
    "C95_settles_cm_exp",
    "C95_settles_ecm_exp",
    "C95_settles_crema",
    "C95_settles_dcm",
    "C95_settles_dcm_exp",
    "C95_settles_decm",
    "C95_settles_decm_exp",
    "C95_settles_crema_dir",
    "C95_bound_cm",
    "C95_bound_cm_exp",
    "C95_bound_ecm_exp",
    "C95_bound_decm_exp",
    "C95_settles_crema_sparse",
    "C95_settles_crema_dir_sparse"
   ],
   "note": "All models but ecm, whose search can leave the domain (C39); crema-sparse with quasinewton (newton raises, C61). The bound on the log-likelihood is an argument, proved to be 0 for cm, cm_exp, ecm_exp, decm_exp on networks (dcm_exp inside C96)."
  },
  {
   "property": "C96",
   "status": "proved",
   "theorems": [
    "C96_cm_exp_reaches",
    "C96_dcm_exp_reaches",
    "C96_cm_exp_converges",
    "C96_dcm_exp_converges"
   ],
   "note": "Real arithmetic; contracts of np.linalg.solve and scipy.linalg.eigh as hypotheses, shown satisfiable; tol must satisfy N*N < 2^50 * tol/sqrt(m) * regularise_eps."
  },
  {
   "property": "C97",
   "status": "proved",
   "theorems": [
    "C97_cm_exp_budget",
    "C97_cm_exp_start",
    "C97_cm_exp_named",
    "C97_cm_exp_object",
    "C97_cm_exp_matrix",
    "C97_cm_exp_edges",
    "C97_dcm_exp_budget",
    "C97_dcm_exp_start",
    "C97_dcm_exp_named",
    "C97_dcm_exp_object",
    "C97_dcm_exp_matrix",
    "C97_dcm_exp_edges"
   ],
   "note": "whole calls on objects; floats are reals; numpy contracts in sound_numpy"
  },
  {
   "property": "C98",
   "status": "partial",
   "theorems": [
    "C98_isolated_refuted",
    "C98_cm_raises",
    "C98_cm_never",
    "C98_weighted_raises",
    "C98_cm_matrix",
    "C98_cm_iff",
    "C98_cm_edges",
    "C98_cm_exp_matrix",
    "C98_dcm_matrix",
    "C98_dcm_edges",
    "C98_cm_exp_start",
    "C98_dcm_exp_start"
   ],
   "note": "REFUTED for cm, ecm, ecm_exp and CReMa over cm: isolated nodes have a zero starting parameter and the first gradient divides by it, so the call raises (C98_isolated_refuted, C98_cm_raises, C98_cm_never, C98_weighted_raises). Proved: cm returns exactly when no node is isolated (C98_cm_iff, C98_cm_matrix, C98_cm_edges); dcm, cm_exp and dcm_exp always return (C98_dcm_matrix, C98_dcm_edges, C98_cm_exp_matrix, C98_cm_exp_start, C98_dcm_exp_start)."
  },
  {
   "property": "C99",
   "status": "partial",
   "theorems": [
    "C99_matrix",
    "C99_matrix_directed",
    "C99_edges",
    "C99_edges_directed",
    "C99_array_refuted"
   ],
   "note": "REFUTED for initial guesses given as arrays (C99_array_refuted: the array is read at one node of each degree class). Proved for every named guess, every method, matrices and labelled edge lists, directed and undirected binary models."
  },
  {
   "property": "C100",
   "status": "partial",
   "theorems": [
    "C100_two_node",
    "C100_two_node_variance",
    "C100_three_node",
    "C100_linear_std_unique",
    "C100_fitted",
    "C100_unsolved",
    "C100_other_model",
    "C100_edges_raise",
    "C100_sparse_raises",
    "C100_flat_raises",
    "C100_weighted_refuted",
    "C100_decm_links",
    "C100_decm_refuted"
   ],
   "note": "REFUTED for matrices with weights (C100_weighted_refuted) and after decm/decm_exp (C100_decm_refuted). Proved for 0/1 matrices with dcm and dcm_exp: two-node scores, three-node scores with the linear approximation of the deviation, the raising cases, and the pipeline from network to scores. For dcm the parameters are assumed non-negative."
  },
  {
   "property": "C101",
   "status": "proved",
   "theorems": [
    "C101_two_renamed",
    "C101_three_renamed",
    "C101_object_renamed",
    "C101_two_reversed",
    "C101_three_reversed",
    "C101_mirror"
   ],
   "note": "Two-node statements for non-negative parameters. Reversal is stated for given parameters, not through a second solve."
  },
  {
   "property": "C102",
   "status": "proved",
   "theorems": [
    "C102_cm_likelihood",
    "C102_cm_two_calls",
    "C102_dcm_likelihood",
    "C102_dcm_two_calls",
    "C102_ecm_likelihood",
    "C102_decm_likelihood",
    "C102_crema_likelihood",
    "C102_crema_two_calls",
    "C102_crema_name_likelihood",
    "C102_crema_dir_likelihood",
    "C102_crema_dir_two_calls",
    "C102_ecm_two_calls",
    "C102_decm_two_calls",
    "C102_crema_dir_name_likelihood"
   ],
   "note": "For every call that returns; b_out and b_in of decm need products below 1, crema needs positive rates. The two-call bound is on link probabilities for cm, dcm, ecm and decm, and on rates for crema."
  },
  {
   "property": "C103",
   "status": "proved",
   "theorems": [
    "C103_cm_exp",
    "C103_cm_exp_matrix",
    "C103_dcm_exp",
    "C103_dcm_exp_matrix"
   ],
   "note": "Joins C97, C90 and C102: construct, solve and sample for cm_exp and dcm_exp; the directed case assumes links of both kinds at every node, since otherwise the returned error is only bounded as in C97."
  },
  {
   "property": "C104",
   "status": "partial",
   "theorems": [
    "C104_undirected_partial",
    "C104_undirected_refuted",
    "C104_directed_partial",
    "C104_directed_refuted"
   ],
   "note": "REFUTED: strengths and index arrays of the first network survive clean_edges and are used (C104_undirected_refuted, C104_directed_refuted). Proved for every object and history when the second network brings what the model reads and no attribute the call reads is left from an earlier solve."
  },
  {
   "property": "C105",
   "status": "proved",
   "theorems": [
    "C105_cm",
    "C105_cm_regular",
    "C105_cm_exp_every_network",
    "C105_dcm",
    "C105_dcm_regular",
    "C105_crema",
    "C105_crema_dir",
    "C105_ecm",
    "C105_decm"
   ],
   "note": "All models, crema on a matrix; the order of a directed network's parameters is claimed for degree gaps of at least 1 + 2*err, for directed crema between nodes linked alike in both directions, and for ecm and decm for one of the node's two parameters."
  },
  {
   "property": "C106",
   "status": "partial",
   "theorems": [
    "C106_crema",
    "C106_crema_directed",
    "C106_crema_sparse",
    "C106_negative_refuted",
    "C106_tool_crema",
    "C106_tool_crema_directed",
    "C106_tool_negative_refuted"
   ],
   "note": "REFUTED as stated for every solvable network: when the only solution has a negative parameter, no fixed-point run from positive parameters gets all strengths within 1/20 (C106_negative_refuted). Proved in full, undirected and directed, when a solution with positive parameters on the linked nodes exists."
  },
  {
   "property": "C107",
   "status": "proved",
   "theorems": [
    "C107_cm",
    "C107_ecm",
    "C107_crema",
    "C107_dcm",
    "C107_decm",
    "C107_crema_dir",
    "C107_cm_exp_every_network",
    "C107_dcm_exp_every_network"
   ],
   "note": "For every pair of calls that return; decm needs products of b_out and b_in below 1, ecm products of y below 1, crema positive rates on a common matrix. For cm_exp, and for dcm_exp when every node has links of both kinds, the calls are shown to return, given numpy solvers that keep their contract and enough steps."
  }
 ]
}