{"id": "C01", "title": "UBCM log-likelihood is the log-probability of the observed graph", "statement": "For the binary undirected models (cm and cm_exp) the log-likelihood that the library maximises, evaluated on the reduced (degree-class) problem, equals the logarithm of the probability of the observed simple graph when each pair {i,j} is linked independently with probability x_i x_j/(1+x_i x_j) and x is the class solution expanded back to nodes.", "quantifier": "every simple undirected graph on n nodes, every n, every partition of the nodes in equal-degree classes, every strictly positive parameter vector", "why_tests_cant": "A test evaluates the formula at finitely many graphs and points; the identity involves every pair of nodes and every class multiplicity.", "anchors": ["src/NEMtropy/models_functions.py:loglikelihood_cm", "src/NEMtropy/models_functions.py:loglikelihood_cm_exp", "src/NEMtropy/graph_classes.py:UndirectedGraph.degree_reduction"]}
{"id": "C02", "title": "UBCM gradient", "statement": "The gradient handed to the solver for cm and cm_exp is the exact partial derivative of the log-likelihood with respect to every parameter, class multiplicities included.", "quantifier": "every n, every degree vector and multiplicity vector, every parameter point in the open domain, every coordinate", "why_tests_cant": "Finite-difference tests only sample points and are blind to errors that vanish when all multiplicities are one.", "anchors": ["src/NEMtropy/models_functions.py:loglikelihood_prime_cm", "src/NEMtropy/models_functions.py:loglikelihood_prime_cm_exp"]}
{"id": "C03", "title": "UBCM Newton matrix", "statement": "The matrix used by method='newton' for cm and cm_exp is the Jacobian of the gradient (the Hessian of the log-likelihood).", "quantifier": "every n, degrees, multiplicities, parameter point, pair of coordinates", "why_tests_cant": "A wrong Hessian still converges with line search on most test graphs, so convergence tests cannot detect it.", "anchors": ["src/NEMtropy/models_functions.py:loglikelihood_hessian_cm", "src/NEMtropy/models_functions.py:loglikelihood_hessian_cm_exp"]}
{"id": "C04", "title": "UBCM quasi-Newton diagonal", "statement": "The vector used by method='quasinewton' for cm and cm_exp is the diagonal of the Jacobian of the gradient.", "quantifier": "every n, degrees, multiplicities, parameter point, coordinate", "why_tests_cant": "A wrong diagonal only rescales the step, so convergence tests pass.", "anchors": ["src/NEMtropy/models_functions.py:loglikelihood_hessian_diag_cm", "src/NEMtropy/models_functions.py:loglikelihood_hessian_diag_cm_exp"]}
{"id": "C05", "title": "UBCM solutions reproduce the degrees", "statement": "The gradient of the UBCM log-likelihood is zero at a positive parameter vector exactly when the expected degree of every node, as returned by the library, equals its observed degree.", "quantifier": "every n, degree sequence and reduction, every positive parameter vector", "why_tests_cant": "Equivalence in both directions over a continuum of parameter vectors.", "anchors": ["src/NEMtropy/models_functions.py:loglikelihood_prime_cm", "src/NEMtropy/models_functions.py:loglikelihood_prime_cm_exp", "src/NEMtropy/models_functions.py:expected_degree_cm"]}
{"id": "C06", "title": "UBCM fixed points are solutions", "statement": "A positive parameter vector is left unchanged by the map iterated by method='fixed-point' for cm (cm_exp) exactly when the gradient of the log-likelihood vanishes there.", "quantifier": "every n, positive degrees, multiplicities and parameter vectors", "why_tests_cant": "Requires reasoning on the zero sets of two nonlinear maps.", "anchors": ["src/NEMtropy/models_functions.py:iterative_cm", "src/NEMtropy/models_functions.py:iterative_cm_exp"]}
{"id": "C07", "title": "UBCM solution is the global maximum and its ensemble is unique", "statement": "If the expected degrees at x equal the observed degrees then no other positive parameter vector has a larger log-likelihood, and any other vector reproducing the degrees yields the same link probabilities for every pair.", "quantifier": "every n, degree sequence, every pair of positive parameter vectors", "why_tests_cant": "Global optimality and uniqueness quantify over all competing parameter vectors.", "anchors": ["src/NEMtropy/models_functions.py:loglikelihood_cm", "src/NEMtropy/models_functions.py:expected_degree_cm", "src/NEMtropy/models_functions.py:pmatrix_cm"]}
{"id": "C08", "title": "UBCM expected degrees are exact ensemble averages", "statement": "The reported expected degree of a node equals the average, over all simple graphs weighted with their UBCM probability, of the degree of that node; these probabilities add up to one; the probability matrix is symmetric, hollow, with entries in [0,1), and its row sums are the expected degrees.", "quantifier": "every n and every nonnegative parameter vector; the average ranges over all 2^(n(n-1)/2) graphs", "why_tests_cant": "Sampling gives statistical evidence only and enumeration is limited to tiny n.", "anchors": ["src/NEMtropy/models_functions.py:expected_degree_cm", "src/NEMtropy/models_functions.py:pmatrix_cm"]}
{"id": "C09", "title": "Degree reduction is lossless for the UBCM", "statement": "Solving on degree classes is equivalent to solving on nodes: log-likelihood, stationarity and expected degrees of the reduced problem agree with those of the full problem at the expanded vector.", "quantifier": "every n, class map, class parameters", "why_tests_cant": "Quantifies over all degree sequences and all parameter vectors.", "anchors": ["src/NEMtropy/graph_classes.py:UndirectedGraph.degree_reduction", "src/NEMtropy/graph_classes.py:UndirectedGraph._set_solved_problem_cm", "src/NEMtropy/models_functions.py:loglikelihood_cm", "src/NEMtropy/models_functions.py:loglikelihood_prime_cm"]}
{"id": "C10", "title": "UECM log-likelihood is the log-probability of the observed weighted graph", "statement": "For ecm and ecm_exp the log-likelihood equals the log-probability of the observed graph with integer weights under independent pairs with P(w)= z^[w>0] y^w (1-y)/(1-y+zy), z=x_i x_j, y=y_i y_j, and these probabilities add up to one over all weights.", "quantifier": "every n, every symmetric hollow matrix of natural weights, every parameter point with x>0, y>0 and all products y_i y_j <1", "why_tests_cant": "Identity over all weighted graphs; normalisation is an infinite series.", "anchors": ["src/NEMtropy/models_functions.py:loglikelihood_ecm", "src/NEMtropy/models_functions.py:loglikelihood_ecm_exp"]}
{"id": "C11", "title": "UECM gradient", "statement": "The gradient for ecm and ecm_exp is the exact partial derivative of the log-likelihood with respect to every degree and every strength parameter.", "quantifier": "every n, degree and strength vectors, point of the open domain, coordinate", "why_tests_cant": "Finite differences sample finitely many points.", "anchors": ["src/NEMtropy/models_functions.py:loglikelihood_prime_ecm", "src/NEMtropy/models_functions.py:loglikelihood_prime_ecm_exp"]}
{"id": "C12", "title": "UECM Newton and quasi-Newton matrices", "statement": "The Newton matrix for ecm and ecm_exp is the Jacobian of the gradient and the quasi-Newton vector is its diagonal.", "quantifier": "every n, degree and strength vectors, point of the open domain, pair of coordinates", "why_tests_cant": "Convergence tests do not detect wrong second derivatives.", "anchors": ["src/NEMtropy/models_functions.py:loglikelihood_hessian_ecm", "src/NEMtropy/models_functions.py:loglikelihood_hessian_diag_ecm", "src/NEMtropy/models_functions.py:loglikelihood_hessian_ecm_exp", "src/NEMtropy/models_functions.py:loglikelihood_hessian_diag_ecm_exp"]}
{"id": "C13", "title": "UECM solutions reproduce degrees and strengths", "statement": "The gradient vanishes at an admissible point exactly when the expected degrees and strengths returned by the library equal the observed ones; the returned values are the exact averages of [w>0] and w.", "quantifier": "every n, constraints, admissible parameter point", "why_tests_cant": "Equivalence over a continuum; averages are infinite series.", "anchors": ["src/NEMtropy/models_functions.py:expected_ecm", "src/NEMtropy/models_functions.py:loglikelihood_prime_ecm", "src/NEMtropy/models_functions.py:loglikelihood_prime_ecm_exp"]}
{"id": "C14", "title": "UECM fixed points are solutions", "statement": "An admissible point with positive constraints is a fixed point of the ecm (ecm_exp) map exactly when the gradient vanishes.", "quantifier": "every n, positive constraints, admissible points", "why_tests_cant": "Zero sets of nonlinear maps.", "anchors": ["src/NEMtropy/models_functions.py:iterative_ecm", "src/NEMtropy/models_functions.py:iterative_ecm_exp"]}
{"id": "C15", "title": "UECM solution is the global maximum and its ensemble is unique", "statement": "If the expected degrees and strengths at an admissible point equal the observed ones, no admissible point has larger log-likelihood and any other admissible solution yields the same pair distributions.", "quantifier": "every n, constraints, pairs of admissible points", "why_tests_cant": "Quantifies over all competing points.", "anchors": ["src/NEMtropy/models_functions.py:loglikelihood_ecm", "src/NEMtropy/models_functions.py:expected_ecm"]}
{"id": "C16", "title": "CReMa (undirected) likelihood, gradient and second derivatives", "statement": "For the undirected conditional reconstruction model with a given topology or link probabilities, the gradient, the Newton matrix and the quasi-Newton vector are the exact first and second derivatives of the log-likelihood.", "quantifier": "every n, every list of weighted pairs, every strength vector, every point where the denominators are positive", "why_tests_cant": "Finite tests cannot cover all topologies and points.", "anchors": ["src/NEMtropy/models_functions.py:loglikelihood_crema_undirected", "src/NEMtropy/models_functions.py:loglikelihood_prime_crema_undirected", "src/NEMtropy/models_functions.py:loglikelihood_hessian_crema_undirected", "src/NEMtropy/models_functions.py:loglikelihood_hessian_diag_crema_undirected"]}
{"id": "C17", "title": "CReMa (undirected) solutions reproduce the strengths and are global maxima", "statement": "The gradient vanishes exactly when the expected strengths returned by the library equal the observed ones, exactly when the point is a fixed point of the (sign-corrected) iterative map; such a point maximises the log-likelihood globally and determines the pair means uniquely.", "quantifier": "every n, topology, strengths, admissible points", "why_tests_cant": "Quantifies over all competing points and topologies.", "anchors": ["src/NEMtropy/models_functions.py:expected_strength_crema_undirected", "src/NEMtropy/models_functions.py:iterative_crema_undirected", "src/NEMtropy/graph_classes.py:UndirectedGraph._initialize_problem"]}
{"id": "C18", "title": "CReMa (undirected) sparse functions agree with the dense ones", "statement": "For link probabilities generated by a UBCM solution, every crema-sparse function (log-likelihood, gradient, diagonal, expected strengths) returns the same value as its dense counterpart on the explicit probability list.", "quantifier": "every n, UBCM solution, strength vector, parameter point", "why_tests_cant": "Equality of two programs over all inputs.", "anchors": ["src/NEMtropy/models_functions.py:loglikelihood_crema_undirected_sparse", "src/NEMtropy/models_functions.py:loglikelihood_prime_crema_undirected_sparse", "src/NEMtropy/models_functions.py:loglikelihood_prime_crema_undirected_sparse_2", "src/NEMtropy/models_functions.py:loglikelihood_hessian_diag_crema_undirected_sparse", "src/NEMtropy/models_functions.py:expected_strength_crema_undirected_sparse", "src/NEMtropy/models_functions.py:iterative_crema_undirected_sparse"]}
{"id": "C19", "title": "DBCM log-likelihood is the log-probability of the observed directed graph", "statement": "For dcm and dcm_exp the log-likelihood on the reduced problem equals the log-probability of the observed directed graph with independent links of probability x_i y_j/(1+x_i y_j).", "quantifier": "every directed loopless graph, every n, every reduction in classes of equal (out,in) degree, every positive parameter vector", "why_tests_cant": "Identity over all graphs and reductions.", "anchors": ["src/NEMtropy/models_functions.py:loglikelihood_dcm", "src/NEMtropy/models_functions.py:loglikelihood_dcm_exp", "src/NEMtropy/graph_classes.py:DirectedGraph.degree_reduction"]}
{"id": "C20", "title": "DBCM gradient", "statement": "The gradient for dcm and dcm_exp is the exact partial derivative of the log-likelihood, class multiplicities included.", "quantifier": "every n, degree and multiplicity vectors, point, coordinate", "why_tests_cant": "Finite differences sample finitely many points.", "anchors": ["src/NEMtropy/models_functions.py:loglikelihood_prime_dcm", "src/NEMtropy/models_functions.py:loglikelihood_prime_dcm_exp"]}
{"id": "C21", "title": "DBCM Newton matrix", "statement": "The Newton matrix for dcm and dcm_exp is the Jacobian of the gradient.", "quantifier": "every n, degree and multiplicity vectors, point, pair of coordinates", "why_tests_cant": "Convergence tests do not detect wrong second derivatives.", "anchors": ["src/NEMtropy/models_functions.py:loglikelihood_hessian_dcm", "src/NEMtropy/models_functions.py:loglikelihood_hessian_dcm_exp"]}
{"id": "C22", "title": "DBCM quasi-Newton diagonal", "statement": "The quasi-Newton vector for dcm and dcm_exp is the diagonal of the Jacobian of the gradient.", "quantifier": "every n, degree and multiplicity vectors, point, coordinate", "why_tests_cant": "A wrong diagonal only rescales the step.", "anchors": ["src/NEMtropy/models_functions.py:loglikelihood_hessian_diag_dcm", "src/NEMtropy/models_functions.py:loglikelihood_hessian_diag_dcm_exp"]}
{"id": "C23", "title": "DBCM solutions reproduce out- and in-degrees", "statement": "The gradient vanishes at a positive point exactly when expected out- and in-degrees equal the observed ones, and the expected degrees returned by the library are the exact ensemble averages; the exp variants at theta agree with the plain ones at exp(-theta).", "quantifier": "every n, degrees, parameter vectors; averages over all directed graphs", "why_tests_cant": "Equivalence over a continuum, averages over exponentially many graphs.", "anchors": ["src/NEMtropy/models_functions.py:expected_out_degree_dcm", "src/NEMtropy/models_functions.py:expected_in_degree_dcm", "src/NEMtropy/models_functions.py:expected_out_degree_dcm_exp", "src/NEMtropy/models_functions.py:expected_in_degree_dcm_exp"]}
{"id": "C24", "title": "DBCM fixed points are solutions", "statement": "A positive parameter vector is a fixed point of the dcm (dcm_exp) map exactly when the gradient vanishes.", "quantifier": "every n, positive degrees, multiplicities, parameter vectors", "why_tests_cant": "Zero sets of nonlinear maps.", "anchors": ["src/NEMtropy/models_functions.py:iterative_dcm", "src/NEMtropy/models_functions.py:iterative_dcm_exp", "src/NEMtropy/models_functions.py:iterative_dcm_exp_2"]}
{"id": "C25", "title": "DBCM solution is the global maximum and its ensemble is unique", "statement": "If expected degrees equal observed degrees then the log-likelihood is globally maximal among positive vectors and any other solution yields the same probability matrix.", "quantifier": "every n, degrees, pairs of positive parameter vectors", "why_tests_cant": "Quantifies over all competing vectors.", "anchors": ["src/NEMtropy/models_functions.py:loglikelihood_dcm", "src/NEMtropy/models_functions.py:pmatrix_dcm"]}
{"id": "C26", "title": "DECM log-likelihood is the log-probability of the observed weighted directed graph", "statement": "For decm and decm_exp the log-likelihood equals the log-probability of the observed directed graph with natural weights, independent ordered pairs, geometric weights.", "quantifier": "every n, every hollow matrix of natural weights, every admissible parameter point", "why_tests_cant": "Identity over all weighted graphs.", "anchors": ["src/NEMtropy/models_functions.py:loglikelihood_decm", "src/NEMtropy/models_functions.py:loglikelihood_decm_exp"]}
{"id": "C27", "title": "DECM gradient", "statement": "The gradient for decm and decm_exp is the exact partial derivative of the log-likelihood with respect to each of the 4n parameters.", "quantifier": "every n, constraints, admissible point, coordinate", "why_tests_cant": "Finite differences sample finitely many points.", "anchors": ["src/NEMtropy/models_functions.py:loglikelihood_prime_decm", "src/NEMtropy/models_functions.py:loglikelihood_prime_decm_exp"]}
{"id": "C28", "title": "DECM Newton and quasi-Newton matrices", "statement": "The Newton matrix for decm and decm_exp is the Jacobian of the gradient and the quasi-Newton vector is its diagonal, also for nodes with a zero constraint.", "quantifier": "every n, constraints (zero allowed), admissible point, pair of coordinates", "why_tests_cant": "Convergence tests do not detect wrong second derivatives.", "anchors": ["src/NEMtropy/models_functions.py:loglikelihood_hessian_decm", "src/NEMtropy/models_functions.py:loglikelihood_hessian_diag_decm", "src/NEMtropy/models_functions.py:loglikelihood_hessian_decm_exp", "src/NEMtropy/models_functions.py:loglikelihood_hessian_diag_decm_exp"]}
{"id": "C29", "title": "DECM solutions reproduce degrees and strengths", "statement": "The gradient vanishes at an admissible point exactly when the expected out/in degrees and strengths returned by the library equal the observed ones.", "quantifier": "every n, constraints, admissible point", "why_tests_cant": "Equivalence over a continuum of points.", "anchors": ["src/NEMtropy/models_functions.py:expected_decm", "src/NEMtropy/models_functions.py:expected_decm_exp"]}
{"id": "C30", "title": "DECM fixed points are solutions", "statement": "An admissible point with positive constraints is a fixed point of the decm (decm_exp) map exactly when the gradient vanishes.", "quantifier": "every n, positive constraints, admissible points", "why_tests_cant": "Zero sets of nonlinear maps.", "anchors": ["src/NEMtropy/models_functions.py:iterative_decm", "src/NEMtropy/models_functions.py:iterative_decm_exp", "src/NEMtropy/models_functions.py:iterative_decm_exp_2"]}
{"id": "C31", "title": "DECM solution is the global maximum and its ensemble is unique", "statement": "If expected degrees and strengths equal observed ones, the log-likelihood is globally maximal among admissible points and other solutions give the same pair distributions.", "quantifier": "every n, constraints, pairs of admissible points", "why_tests_cant": "Quantifies over all competing points.", "anchors": ["src/NEMtropy/models_functions.py:loglikelihood_decm", "src/NEMtropy/models_functions.py:expected_decm"]}
{"id": "C32", "title": "CReMa (directed) gradient and second derivatives", "statement": "The gradient, Newton matrix and quasi-Newton vector of the directed conditional reconstruction model are the exact derivatives of its log-likelihood.", "quantifier": "every n, every list of weighted ordered pairs, strengths, admissible point", "why_tests_cant": "Finite tests cannot cover all topologies and points.", "anchors": ["src/NEMtropy/models_functions.py:loglikelihood_crema_directed", "src/NEMtropy/models_functions.py:loglikelihood_prime_crema_directed", "src/NEMtropy/models_functions.py:loglikelihood_hessian_crema_directed", "src/NEMtropy/models_functions.py:loglikelihood_hessian_diag_crema_directed"]}
{"id": "C33", "title": "CReMa (directed) solutions reproduce the strengths; sparse agrees with dense", "statement": "The gradient vanishes exactly when expected out/in strengths equal the observed ones and exactly at fixed points of the sign-corrected map; every sparse function returns the same value as its dense counterpart on probabilities generated by a DBCM solution.", "quantifier": "every n, topologies, strengths (zero allowed), admissible points", "why_tests_cant": "Equality of programs and of zero sets over all inputs.", "anchors": ["src/NEMtropy/models_functions.py:expected_out_strength_crema_directed", "src/NEMtropy/models_functions.py:expected_in_strength_crema_directed", "src/NEMtropy/models_functions.py:iterative_crema_directed", "src/NEMtropy/models_functions.py:iterative_crema_directed_sparse", "src/NEMtropy/models_functions.py:loglikelihood_crema_directed_sparse", "src/NEMtropy/models_functions.py:loglikelihood_prime_crema_directed_sparse"]}
{"id": "C34", "title": "The two parametrisations describe the same model", "statement": "For every model with an exp variant, the exp log-likelihood at theta equals the plain log-likelihood at exp(-theta), and gradients are related by the chain rule, so solving one variant solves the other.", "quantifier": "every n, constraints, parameter vectors, all of cm, ecm, dcm, decm", "why_tests_cant": "Equality of programs over all inputs.", "anchors": ["src/NEMtropy/models_functions.py:loglikelihood_cm_exp", "src/NEMtropy/models_functions.py:loglikelihood_ecm_exp", "src/NEMtropy/models_functions.py:loglikelihood_dcm_exp", "src/NEMtropy/models_functions.py:loglikelihood_decm_exp"]}
{"id": "C35", "title": "The solver stops within max_steps for a stated reason", "statement": "Whatever the user functions return (NaN and infinities included) the solver performs at most max_steps iterations and stops only because the norm is not above tol, or the step is not above eps, or max_steps was reached; with an initial norm not above tol it returns the initial point.", "quantifier": "every model function, regulariser, line search, tolerance, max_steps, initial point, floating behaviour of comparisons", "why_tests_cant": "Quantifies over all functions and executions.", "anchors": ["src/NEMtropy/solver_functions.py:solver"]}
{"id": "C36", "title": "full_return reports the run faithfully and does not change it", "statement": "With full_return the solver returns the same solution as without it, n_steps equals the number of iterations, norm_seq and diff_seq have n_steps+1 entries, alfa_seq has n_steps entries (none without line search), and the last norm is the norm at the returned point.", "quantifier": "all executions, all functions", "why_tests_cant": "Relates two executions of the solver for arbitrary functions.", "anchors": ["src/NEMtropy/solver_functions.py:solver"]}
{"id": "C37", "title": "A converged Newton or quasi-Newton run satisfies the constraints", "statement": "When the solver stops because the norm fell below tol, the expected constraints at the returned point differ from the observed ones by at most the stated multiple of tol; stopping of the fixed-point method implies that the returned point is nearly fixed.", "quantifier": "every graph, every execution of every method", "why_tests_cant": "Connects the stopping test to the constraints over all runs.", "anchors": ["src/NEMtropy/solver_functions.py:solver", "src/NEMtropy/graph_classes.py:UndirectedGraph._solve_problem", "src/NEMtropy/graph_classes.py:UndirectedGraph._solution_error", "src/NEMtropy/graph_classes.py:DirectedGraph._solution_error"]}
{"id": "C38", "title": "Hessian regularisation yields a symmetric positive definite matrix and a descent direction", "statement": "Both regularisers return a symmetric matrix; the eigenvalue-based one has no eigenvalue below eps and leaves an already definite matrix unchanged; the identity-based one adds exactly eps to each quadratic form; the Newton direction from a positive definite matrix decreases the objective to first order.", "quantifier": "every square matrix, every eps>0, every orthonormal eigen-decomposition", "why_tests_cant": "Quantifies over all matrices.", "anchors": ["src/NEMtropy/solver_functions.py:matrix_regulariser_function", "src/NEMtropy/solver_functions.py:matrix_regulariser_function_eigen_based"]}
{"id": "C39", "title": "Line search keeps the iterate admissible", "statement": "Starting from an admissible point every line search returns a step length in (0,1] for which the new point is admissible (positive parameters, products of strength parameters below one, sums of exponents positive as the model requires).", "quantifier": "every n, admissible point, direction, objective", "why_tests_cant": "Continuum of points and directions.", "anchors": ["src/NEMtropy/models_functions.py:linsearch_fun_CM", "src/NEMtropy/models_functions.py:linsearch_fun_CM_fixed", "src/NEMtropy/models_functions.py:linsearch_fun_ECM", "src/NEMtropy/models_functions.py:linsearch_fun_ECM_fixed", "src/NEMtropy/models_functions.py:linsearch_fun_ECM_exp", "src/NEMtropy/models_functions.py:linsearch_fun_ECM_exp_fixed", "src/NEMtropy/models_functions.py:linsearch_fun_DCM", "src/NEMtropy/models_functions.py:linsearch_fun_DCM_fixed", "src/NEMtropy/models_functions.py:linsearch_fun_DECM", "src/NEMtropy/models_functions.py:linsearch_fun_DECM_fixed", "src/NEMtropy/models_functions.py:linsearch_fun_DECM_exp", "src/NEMtropy/models_functions.py:linsearch_fun_DECM_exp_fixed"]}
{"id": "C40", "title": "Line search terminates and enforces sufficient decrease", "statement": "Every line search terminates on an admissible point, returns the initial step times a power of one half, and the step it returns either satisfies the sufficient decrease condition or was halved fifty times.", "quantifier": "every n, admissible point, direction, objective", "why_tests_cant": "Termination and minimality for all inputs.", "anchors": ["src/NEMtropy/models_functions.py:linsearch_fun_CM", "src/NEMtropy/models_functions.py:linsearch_fun_CM_exp", "src/NEMtropy/models_functions.py:linsearch_fun_ECM", "src/NEMtropy/models_functions.py:linsearch_fun_ECM_exp", "src/NEMtropy/models_functions.py:linsearch_fun_DCM", "src/NEMtropy/models_functions.py:linsearch_fun_DCM_exp", "src/NEMtropy/models_functions.py:linsearch_fun_DECM", "src/NEMtropy/models_functions.py:linsearch_fun_DECM_exp", "src/NEMtropy/models_functions.py:linsearch_fun_crema_undirected", "src/NEMtropy/models_functions.py:linsearch_fun_crema_directed", "src/NEMtropy/solver_functions.py:sufficient_decrease_condition"]}
{"id": "C41", "title": "Degree and strength sequences of a matrix", "statement": "Out-degrees and in-degrees have the same total (the number of positive entries), out- and in-strengths have the same total, a symmetric matrix has equal rows and columns sequences, degrees are at most n-1 for hollow matrices, and node relabelling permutes the sequences.", "quantifier": "every square nonnegative matrix", "why_tests_cant": "All matrices.", "anchors": ["src/NEMtropy/network_functions.py:out_degree", "src/NEMtropy/network_functions.py:in_degree", "src/NEMtropy/network_functions.py:out_strength", "src/NEMtropy/network_functions.py:in_strength", "src/NEMtropy/network_functions.py:degree", "src/NEMtropy/network_functions.py:strength"]}
{"id": "C42", "title": "Edgelist relabelling is lossless", "statement": "Re-indexing an edge list with arbitrary labels and mapping back through the returned dictionary gives the input list; indices are 0..n-1 without gaps; returned degrees and strengths count incidences of each label, and they sum to twice (once, when directed) the number (weight) of edges.", "quantifier": "every non-empty edge list over an ordered label set, weighted or not, directed or not", "why_tests_cant": "All lists of labels.", "anchors": ["src/NEMtropy/network_functions.py:edgelist_from_edgelist_undirected", "src/NEMtropy/network_functions.py:edgelist_from_edgelist_directed"]}
{"id": "C43", "title": "Adjacency matrix from an edge list", "statement": "The adjacency matrix built from an edge list has a one (the last weight) exactly at the listed pairs, is symmetric when undirected, and its degree sequence equals that of the edge list when edges are distinct and loopless.", "quantifier": "every edge list", "why_tests_cant": "All edge lists, including labels that are not 0..n-1.", "anchors": ["src/NEMtropy/network_functions.py:build_adjacency_from_edgelist", "src/NEMtropy/network_functions.py:build_adjacency_fast", "src/NEMtropy/network_functions.py:build_adjacency_fast_weighted", "src/NEMtropy/network_functions.py:build_adjacency_sparse", "src/NEMtropy/network_functions.py:build_adjacency_sparse_weighted"]}
{"id": "C44", "title": "Degree classes", "statement": "Degree reduction returns distinct classes in increasing order, every node belongs to exactly one class whose degree is its own, multiplicities are the class sizes and add up to n.", "quantifier": "every degree sequence (undirected) and every pair of out/in sequences (directed)", "why_tests_cant": "All sequences.", "anchors": ["src/NEMtropy/graph_classes.py:UndirectedGraph.degree_reduction", "src/NEMtropy/graph_classes.py:DirectedGraph.degree_reduction"]}
{"id": "C45", "title": "Two-node motif counts", "statement": "For a binary hollow matrix the counts of reciprocated, single and empty dyads are the numbers of ordered, unordered and ordered pairs of each kind, they satisfy full + 2 single + empty = n(n-1), and they do not depend on node labelling.", "quantifier": "every binary hollow matrix of every size", "why_tests_cant": "All matrices.", "anchors": ["src/NEMtropy/network_functions.py:count_2motif_2", "src/NEMtropy/network_functions.py:count_2motif_1", "src/NEMtropy/network_functions.py:count_2motif_0"]}
{"id": "C46", "title": "Two-node motif expectation and standard deviation", "statement": "Expected full, single and empty dyads and the squares of the reported standard deviations are the exact mean and variance of the corresponding counts under the DBCM.", "quantifier": "every n and nonnegative DBCM solution; moments over all directed graphs", "why_tests_cant": "Exact moments over exponentially many graphs.", "anchors": ["src/NEMtropy/ensemble_functions.py:expected_dcm_2motif_2", "src/NEMtropy/ensemble_functions.py:std_dcm_2motif_2", "src/NEMtropy/ensemble_functions.py:expected_dcm_2motif_1", "src/NEMtropy/ensemble_functions.py:std_dcm_2motif_1", "src/NEMtropy/ensemble_functions.py:expected_dcm_2motif_0", "src/NEMtropy/ensemble_functions.py:std_dcm_2motif_0"]}
{"id": "C47", "title": "Three-node motif counts and expectations", "statement": "For each of the thirteen motifs the count equals the number of ordered triples of distinct nodes whose induced subgraph is the motif, the expected count is the exact mean of that count under the DBCM, and both are invariant under relabelling.", "quantifier": "every binary matrix and every DBCM solution of every size", "why_tests_cant": "All graphs and solutions.", "anchors": ["src/NEMtropy/network_functions.py:count_3motif_1_ndarray", "src/NEMtropy/network_functions.py:count_3motif_2_ndarray", "src/NEMtropy/network_functions.py:count_3motif_13_ndarray", "src/NEMtropy/ensemble_functions.py:expected_dcm_3motif_1", "src/NEMtropy/ensemble_functions.py:expected_dcm_3motif_2", "src/NEMtropy/ensemble_functions.py:expected_dcm_3motif_13"]}
{"id": "C48", "title": "Three-node motif standard deviation", "statement": "The squared standard deviation reported for motif m equals the sum over links of p(1-p) times the square of the derivative of the expected count with respect to that link probability.", "quantifier": "every n, DBCM solution, each of the thirteen motifs", "why_tests_cant": "The formulas are long hand derivations; tests compare against a sample at low precision.", "anchors": ["src/NEMtropy/ensemble_functions.py:std_dcm_3motif_1", "src/NEMtropy/ensemble_functions.py:std_dcm_3motif_2", "src/NEMtropy/ensemble_functions.py:std_dcm_3motif_3", "src/NEMtropy/ensemble_functions.py:std_dcm_3motif_4", "src/NEMtropy/ensemble_functions.py:std_dcm_3motif_5", "src/NEMtropy/ensemble_functions.py:std_dcm_3motif_6", "src/NEMtropy/ensemble_functions.py:std_dcm_3motif_7", "src/NEMtropy/ensemble_functions.py:std_dcm_3motif_8", "src/NEMtropy/ensemble_functions.py:std_dcm_3motif_9", "src/NEMtropy/ensemble_functions.py:std_dcm_3motif_10", "src/NEMtropy/ensemble_functions.py:std_dcm_3motif_11", "src/NEMtropy/ensemble_functions.py:std_dcm_3motif_12", "src/NEMtropy/ensemble_functions.py:std_dcm_3motif_13"]}
{"id": "C49", "title": "z-scores", "statement": "The z-score of a motif is the deviation of the count from its exact expectation in units of the reported standard deviation; it is zero exactly when the count equals the expectation and the denominator is positive whenever the solution is positive.", "quantifier": "every adjacency matrix and positive DBCM solution", "why_tests_cant": "All graphs and solutions.", "anchors": ["src/NEMtropy/ensemble_functions.py:zscore_dcm_2motif_2", "src/NEMtropy/ensemble_functions.py:zscore_dcm_3motif_1", "src/NEMtropy/graph_classes.py:DirectedGraph.zscore_2motifs", "src/NEMtropy/graph_classes.py:DirectedGraph.zscore_3motifs"]}
{"id": "C50", "title": "Sampled graphs are well formed", "statement": "Every sampled graph lists each pair at most once, without self-loops, with node indices in range, ordered i<j for undirected models, and weights at least one for integer-weighted models and non-negative and finite for continuous ones.", "quantifier": "every solution, seed, random outcome", "why_tests_cant": "All random outcomes.", "anchors": ["src/NEMtropy/ensemble_generator.py:ensemble_sampler_cm_graph", "src/NEMtropy/ensemble_generator.py:ensemble_sampler_ecm_graph", "src/NEMtropy/ensemble_generator.py:ensemble_sampler_dcm_graph", "src/NEMtropy/ensemble_generator.py:ensemble_sampler_decm_graph", "src/NEMtropy/ensemble_generator.py:ensemble_sampler_crema_sparse_ecm_prob_graph"]}
{"id": "C51", "title": "Sampling is reproducible and independent of the number of processes", "statement": "With a given seed the sampled graph does not depend on cpu_n, on how the pool splits and schedules the pairs, or on the previous state of the random generators in the workers.", "quantifier": "every number of workers, every schedule, every initial generator state", "why_tests_cant": "Schedules cannot be enumerated by tests.", "anchors": ["src/NEMtropy/ensemble_generator.py:ensemble_sampler_cm_graph", "src/NEMtropy/ensemble_generator.py:is_a_link_cm", "src/NEMtropy/ensemble_generator.py:is_a_link_ecm", "src/NEMtropy/ensemble_generator.py:is_a_link_dcm", "src/NEMtropy/ensemble_generator.py:is_a_link_decm", "src/NEMtropy/ensemble_generator.py:is_a_link_crema_ecm_prob"]}
{"id": "C52", "title": "Sampled links follow the model probabilities", "statement": "Each pair is linked exactly when its uniform draw is below the model probability, so the linking event has that probability; the acceptance threshold used by the sampler equals the probability used in the likelihood and in the expected constraints, and the weight law used equals the model's.", "quantifier": "every solution, pair, uniform draw", "why_tests_cant": "Statistical tests have finite power.", "anchors": ["src/NEMtropy/ensemble_generator.py:is_a_link_cm", "src/NEMtropy/ensemble_generator.py:is_a_link_ecm", "src/NEMtropy/ensemble_generator.py:is_a_link_dcm", "src/NEMtropy/ensemble_generator.py:is_a_link_decm", "src/NEMtropy/ensemble_generator.py:is_a_link_crema_sparse_decm_prob"]}
{"id": "C53", "title": "Given topology is preserved by CReMa sampling", "statement": "With an explicit adjacency the sampled weighted graph has exactly the given links, in order; with link probabilities every sampled link belongs to the list.", "quantifier": "every topology, solution, seed", "why_tests_cant": "All topologies and random outcomes.", "anchors": ["src/NEMtropy/ensemble_generator.py:ensemble_sampler_crema_ecm_det_graph", "src/NEMtropy/ensemble_generator.py:ensemble_sampler_crema_decm_det_graph", "src/NEMtropy/ensemble_generator.py:ensemble_sampler_crema_ecm_prob_graph", "src/NEMtropy/ensemble_generator.py:ensemble_sampler_crema_decm_prob_graph"]}
{"id": "C54", "title": "Ensembles grow by prefix and write one file per graph", "statement": "ensemble_sampler(n, seed) writes exactly files 0..n-1 and with the same seed a larger n leaves the first files unchanged; a model without solution is refused.", "quantifier": "every n<=m, seed, model", "why_tests_cant": "Relates two runs for all n.", "anchors": ["src/NEMtropy/graph_classes.py:UndirectedGraph.ensemble_sampler", "src/NEMtropy/graph_classes.py:DirectedGraph.ensemble_sampler"]}
{"id": "C55", "title": "Generated matrices are valid adjacency matrices", "statement": "Every matrix returned by the dense generators has size n, zero diagonal, no isolated node, is symmetric when sym=True, binary for the binary generators and with entries in [0,sup_ext] for the uniform ones.", "quantifier": "every n, parameters, seed, random outcome", "why_tests_cant": "All random outcomes.", "anchors": ["src/NEMtropy/matrix_generator.py:random_binary_matrix_generator_dense", "src/NEMtropy/matrix_generator.py:random_binary_matrix_generator_custom_density", "src/NEMtropy/matrix_generator.py:random_weighted_matrix_generator_dense", "src/NEMtropy/matrix_generator.py:random_weighted_matrix_generator_uniform_custom_density", "src/NEMtropy/matrix_generator.py:random_weighted_matrix_generator_gaussian_custom_density"]}
{"id": "C56", "title": "Generators terminate", "statement": "The repair loop for isolated nodes terminates as soon as the random stream proposes another node, and never terminates for a single node.", "quantifier": "every n, every random stream", "why_tests_cant": "Divergence cannot be observed by a test.", "anchors": ["src/NEMtropy/matrix_generator.py:random_binary_matrix_generator_dense", "src/NEMtropy/matrix_generator.py:random_binary_matrix_generator_custom_density"]}
{"id": "C57", "title": "Graph object life cycle", "statement": "set_* on an initialised graph changes nothing; after clean_edges a new set_* installs the new data; invalid inputs raise and leave the object uninitialised; constructor precedence is adjacency, edge list, sequences.", "quantifier": "every sequence of calls on a graph object", "why_tests_cant": "All call histories.", "anchors": ["src/NEMtropy/graph_classes.py:UndirectedGraph._initialize_graph", "src/NEMtropy/graph_classes.py:UndirectedGraph.set_adjacency_matrix", "src/NEMtropy/graph_classes.py:UndirectedGraph.set_edgelist", "src/NEMtropy/graph_classes.py:UndirectedGraph.set_degree_sequence", "src/NEMtropy/graph_classes.py:UndirectedGraph.clean_edges", "src/NEMtropy/graph_classes.py:DirectedGraph._initialize_graph", "src/NEMtropy/graph_classes.py:DirectedGraph.clean_edges"]}
{"id": "C58", "title": "Weighted graphs are recognised", "statement": "A matrix is treated as weighted exactly when it has an entry different from zero and one.", "quantifier": "every nonnegative square matrix", "why_tests_cant": "All matrices.", "anchors": ["src/NEMtropy/graph_classes.py:UndirectedGraph._initialize_graph", "src/NEMtropy/graph_classes.py:DirectedGraph._initialize_graph"]}
{"id": "C59", "title": "Initial guesses", "statement": "Every named initial guess yields an admissible starting point with the parameters of zero-constraint nodes at their limit value; unknown names raise ValueError; an array supplied by the user is not modified.", "quantifier": "every graph, every guess name, every user array, every random draw", "why_tests_cant": "All graphs and random draws.", "anchors": ["src/NEMtropy/graph_classes.py:UndirectedGraph._set_initial_guess_cm", "src/NEMtropy/graph_classes.py:UndirectedGraph._set_initial_guess_ecm", "src/NEMtropy/graph_classes.py:UndirectedGraph._set_initial_guess_crema_undirected", "src/NEMtropy/graph_classes.py:DirectedGraph._set_initial_guess_dcm", "src/NEMtropy/graph_classes.py:DirectedGraph._set_initial_guess_dcm_exp", "src/NEMtropy/graph_classes.py:DirectedGraph._set_initial_guess_decm", "src/NEMtropy/graph_classes.py:DirectedGraph._set_initial_guess_decm_exp"]}
{"id": "C60", "title": "Reported solution error", "statement": "The error reported after solve_tool is the largest absolute deviation between expected and observed constraints of the model just solved, whatever was solved before on the same object.", "quantifier": "every sequence of solve calls, every solution", "why_tests_cant": "All call histories.", "anchors": ["src/NEMtropy/graph_classes.py:UndirectedGraph._solution_error", "src/NEMtropy/graph_classes.py:DirectedGraph._solution_error", "src/NEMtropy/graph_classes.py:UndirectedGraph.solve_tool", "src/NEMtropy/graph_classes.py:DirectedGraph.solve_tool"]}
{"id": "C61", "title": "solve_tool dispatch", "statement": "A known model and method run exactly the corresponding functions with consistent sign conventions (descent on minus the log-likelihood); an unknown method raises ValueError before any iteration.", "quantifier": "every model/method string pair", "why_tests_cant": "All strings.", "anchors": ["src/NEMtropy/graph_classes.py:UndirectedGraph._initialize_problem", "src/NEMtropy/graph_classes.py:DirectedGraph._initialize_problem"]}
{"id": "C62", "title": "model_loglikelihood", "statement": "model_loglikelihood returns the log-likelihood of the last solution.", "quantifier": "every graph, model, method and solution", "why_tests_cant": "All solutions.", "anchors": ["src/NEMtropy/graph_classes.py:UndirectedGraph.model_loglikelihood", "src/NEMtropy/graph_classes.py:DirectedGraph.model_loglikelihood"]}
{"id": "C63", "title": "Degree reduction is lossless for the DBCM", "statement": "Solving the DBCM on classes of equal (out,in) degree is equivalent to solving it on nodes: log-likelihood, gradient and fixed-point map of the reduced problem are those of the full problem at the expanded vector (gradient up to the class multiplicity).", "quantifier": "every n, class map, degrees (zero degrees included), parameter vectors", "why_tests_cant": "Quantifies over all degree sequences, reductions and real parameter vectors.", "anchors": ["src/NEMtropy/graph_classes.py:DirectedGraph.degree_reduction", "src/NEMtropy/graph_classes.py:DirectedGraph._set_solved_problem_dcm", "src/NEMtropy/models_functions.py:loglikelihood_dcm", "src/NEMtropy/models_functions.py:loglikelihood_prime_dcm", "src/NEMtropy/models_functions.py:iterative_dcm"]}
{"id": "C64", "title": "CReMa log-likelihood is the log-density of exponential weights", "statement": "On a binary topology, the CReMa log-likelihood (undirected and directed) at admissible parameters equals the logarithm of the joint density of independent exponential link weights with rate beta_i+beta_j, for every assignment of weights whose node strengths are the observed ones.", "quantifier": "every n, topology, weight assignment, admissible point", "why_tests_cant": "Real-number identity over all topologies, weights and parameters.", "anchors": ["src/NEMtropy/models_functions.py:loglikelihood_crema_undirected", "src/NEMtropy/models_functions.py:loglikelihood_crema_directed"]}
{"id": "C65", "title": "verbose does not change the result", "statement": "Calling the solver with verbose=True returns what the same call with verbose=False returns.", "quantifier": "every model function, method, option and initial point", "why_tests_cant": "Relates two executions for arbitrary functions; tests never run with verbose output.", "anchors": ["src/NEMtropy/solver_functions.py:solver"]}
{"id": "C66", "title": "Three-node motif standard deviation is the standard deviation of the count", "statement": "The standard deviation reported for a three-node motif is the standard deviation of that motif's count under the DBCM.", "quantifier": "every n, DBCM solution, each of the thirteen motifs; variance over all directed graphs", "why_tests_cant": "Exact variances over exponentially many graphs; sampling resolves only large errors.", "anchors": ["src/NEMtropy/ensemble_functions.py:std_dcm_3motif_1", "src/NEMtropy/ensemble_functions.py:std_dcm_3motif_13"]}
{"id": "C67", "title": "Pairs and graphs of an ensemble are drawn independently", "statement": "The uniform draws of different pairs of one sampled graph, and the seeds of different graphs of one ensemble, do not coincide by construction: no number of nodes forces two pairs to share their draw and no ensemble size forces two identical graphs.", "quantifier": "every seed, number of nodes, ensemble size, generator", "why_tests_cant": "Concerns the joint law of all pairs for every seed.", "anchors": ["src/NEMtropy/ensemble_generator.py:ensemble_sampler_cm_graph", "src/NEMtropy/graph_classes.py:UndirectedGraph.ensemble_sampler"]}
{"id": "C68", "title": "Every link of positive probability can be sampled", "statement": "For every solution and every pair with link probability p>0 some seed produces a graph containing the link.", "quantifier": "every solution, pair, seed", "why_tests_cant": "Quantifies over all seeds.", "anchors": ["src/NEMtropy/ensemble_generator.py:ensemble_sampler_cm_graph", "src/NEMtropy/ensemble_generator.py:is_a_link_cm"]}
{"id": "C69", "title": "A seed determines the generated matrix", "statement": "Calling a generator twice with the same parameters and the same seed gives the same matrix, whatever random numbers were drawn in between.", "quantifier": "every generator, size, parameters, seed, state of the random generator before the call", "why_tests_cant": "All earlier states of the generator.", "anchors": ["src/NEMtropy/matrix_generator.py:random_weighted_matrix_generator_dense", "src/NEMtropy/matrix_generator.py:random_uniform_weighted_matrix_generator_custom_density_sparse", "src/NEMtropy/matrix_generator.py:random_gaussian_weighted_matrix_generator_custom_density_sparse"]}
{"id": "C70", "title": "Weights are put on exactly the links of the generated network", "statement": "The weighted generators built on networkx return a symmetric (undirected) matrix whose non-zero entries are exactly the links of the network they weight.", "quantifier": "every network, weight parameters, seed, random outcome", "why_tests_cant": "All random outcomes.", "anchors": ["src/NEMtropy/matrix_generator.py:random_graph_nx", "src/NEMtropy/matrix_generator.py:barabasi_albert_graph_nx", "src/NEMtropy/matrix_generator.py:random_uniform_weighted_matrix_generator_custom_density_sparse"]}
{"id": "C71", "title": "The form in which a network is given does not matter", "statement": "Dense array, csr or coo matrix, list of edges with arbitrary labels, degree and strength sequences: whatever the form, the graph object holds the same number of nodes and edges, the same degrees and strengths, and the same weighted flag.", "quantifier": "every network without self-loops or repeated edges, every label set, every form", "why_tests_cant": "All networks in all forms.", "anchors": ["src/NEMtropy/graph_classes.py:UndirectedGraph._initialize_graph", "src/NEMtropy/graph_classes.py:DirectedGraph._initialize_graph", "src/NEMtropy/network_functions.py:edgelist_from_edgelist_undirected", "src/NEMtropy/network_functions.py:edgelist_from_edgelist_directed"]}
{"id": "C72", "title": "Nodes with equal constraints are treated alike", "statement": "In a solved cm, a node with a larger expected degree has a larger parameter and equal ones have equal parameters. In a solved ecm, dcm, decm or CReMa, two nodes with the same constraints (more generally any renaming of the nodes that keeps all constraints) get the same parameters or, where several parameter vectors describe the same model, the same link and weight laws.", "quantifier": "every number of nodes, every solution of the constraints, every renaming that keeps the constraints", "why_tests_cant": "All networks and all solutions, including those no test run converges to.", "anchors": ["src/NEMtropy/models_functions.py:expected_degree_cm", "src/NEMtropy/models_functions.py:expected_ecm", "src/NEMtropy/models_functions.py:expected_out_degree_dcm", "src/NEMtropy/models_functions.py:expected_decm", "src/NEMtropy/models_functions.py:expected_strength_crema_undirected"]}
{"id": "C73", "title": "The order of the nodes does not matter", "statement": "Renaming the nodes of the network renames the entries of every likelihood, gradient, Hessian, fixed-point map, expected value and probability matrix and changes nothing else.", "quantifier": "every number of nodes, every permutation of the nodes, every constraint and parameter vector, every model", "why_tests_cant": "n! orders of every network.", "anchors": ["src/NEMtropy/models_functions.py:loglikelihood_hessian_cm", "src/NEMtropy/models_functions.py:loglikelihood_hessian_ecm", "src/NEMtropy/models_functions.py:loglikelihood_prime_dcm", "src/NEMtropy/models_functions.py:loglikelihood_hessian_decm", "src/NEMtropy/models_functions.py:loglikelihood_prime_crema_undirected", "src/NEMtropy/models_functions.py:loglikelihood_crema_directed"]}
{"id": "C74", "title": "Reversing all links exchanges the out and in results", "statement": "For the directed models, exchanging out- and in-constraints and out- and in-parameters (the network with every link reversed) gives the same likelihood and the same gradient, Hessian, fixed-point map and expected values with the out and in halves exchanged.", "quantifier": "every number of nodes, every constraint and parameter vector, every index array, every topology", "why_tests_cant": "All networks; a slip in the in-half of one function is invisible on symmetric test networks.", "anchors": ["src/NEMtropy/models_functions.py:expected_out_degree_dcm_exp", "src/NEMtropy/models_functions.py:iterative_decm_exp", "src/NEMtropy/models_functions.py:loglikelihood_hessian_diag_decm", "src/NEMtropy/models_functions.py:loglikelihood_prime_dcm", "src/NEMtropy/models_functions.py:iterative_crema_directed"]}
{"id": "C75", "title": "The directed models on an undirected network give the undirected results", "statement": "Given a network whose links all run both ways, the directed models (DBCM, DECM, directed CReMa) at parameters equal in the two directions return twice the undirected log-likelihood and, in each half, the undirected gradient, fixed-point step and expected values; and whatever solution of the directed equations is found, every link has the law of the undirected solution.", "quantifier": "every number of nodes, every constraint and parameter vector, every topology, both parametrisations", "why_tests_cant": "Tests compare each model with its own constraints only; no test relates two models, and all networks are quantified over.", "anchors": ["src/NEMtropy/models_functions.py:loglikelihood_dcm", "src/NEMtropy/models_functions.py:expected_out_degree_dcm_exp", "src/NEMtropy/models_functions.py:iterative_dcm", "src/NEMtropy/models_functions.py:loglikelihood_prime_decm", "src/NEMtropy/models_functions.py:iterative_decm", "src/NEMtropy/models_functions.py:expected_decm", "src/NEMtropy/models_functions.py:loglikelihood_crema_directed"]}
{"id": "C76", "title": "Isolated nodes do not change the results of the others", "statement": "Adding nodes with no links (zero constraints and zero parameters) leaves the expected values, fixed-point steps, likelihoods and gradients of all other nodes unchanged, and the added nodes get expected value zero and stay at parameter zero under the fixed-point step.", "quantifier": "every number of nodes and of isolated nodes, every constraint and parameter vector", "why_tests_cant": "Any number of isolated nodes next to any network.", "anchors": ["src/NEMtropy/models_functions.py:expected_degree_cm", "src/NEMtropy/models_functions.py:iterative_cm", "src/NEMtropy/models_functions.py:iterative_ecm", "src/NEMtropy/models_functions.py:iterative_dcm", "src/NEMtropy/models_functions.py:loglikelihood_dcm", "src/NEMtropy/models_functions.py:iterative_decm", "src/NEMtropy/models_functions.py:loglikelihood_decm", "src/NEMtropy/models_functions.py:loglikelihood_crema_undirected"]}
{"id": "C77", "title": "A solution exists exactly when the constraints are interior mean values", "statement": "The UBCM, DBCM, UECM, DECM and CReMa equations have an admissible solution (parameters for which the expected values returned by the package equal the constraints) if and only if the constraints are the row and column sums of some assignment of link probabilities strictly between 0 and 1 to all possible links (and of mean weights strictly above the probabilities for the enhanced models; of positive weights on the listed pairs for CReMa).", "quantifier": "every number of nodes, every real degree and strength sequence, every topology", "why_tests_cant": "Existence of a real solution for every feasible constraint vector cannot be observed by running a solver on finitely many networks.", "anchors": ["src/NEMtropy/models_functions.py:expected_degree_cm", "src/NEMtropy/models_functions.py:expected_out_degree_dcm", "src/NEMtropy/models_functions.py:expected_in_degree_dcm", "src/NEMtropy/models_functions.py:expected_ecm", "src/NEMtropy/models_functions.py:expected_decm", "src/NEMtropy/models_functions.py:expected_strength_crema_undirected", "src/NEMtropy/models_functions.py:expected_out_strength_crema_directed"]}
{"id": "C78", "title": "Which networks can be solved", "statement": "CReMa with the links of the weighted network itself, or with the probabilities of any solution of the UBCM/DBCM of that network, always has a solution, whatever the positive weights; the enhanced models have a solution whenever the binary model has one and all weights exceed one; the UBCM has one whenever the degree sequence is shared by networks that together link and unlink every possible pair. Conversely a UBCM solution forces each degree to be below the number of other non-isolated nodes and a UECM solution forces strength above degree, so stars and unweighted networks have none.", "quantifier": "every weighted network, every number of nodes", "why_tests_cant": "Quantifies over all networks and all real weights; a solver that stops without converging does not show that no solution exists.", "anchors": ["src/NEMtropy/graph_classes.py:UndirectedGraph._solve_problem_crema_undirected", "src/NEMtropy/graph_classes.py:DirectedGraph._solve_problem_crema_directed", "src/NEMtropy/models_functions.py:pmatrix_cm", "src/NEMtropy/models_functions.py:pmatrix_dcm", "src/NEMtropy/models_functions.py:expected_ecm", "src/NEMtropy/models_functions.py:expected_decm"]}
{"id": "C79", "title": "Each iterate follows from the previous one by the documented rule", "statement": "In every completed solver run with full_return the recorded step lengths and norms belong to a sequence of points from x0 to the returned point in which each Newton step solves (regularised) Jacobian times displacement = - step length times the function value, each quasi-Newton step does so with the (floored) diagonal, and each fixed-point step is the convex combination of the point and its image; regularisation uses the largest absolute function value times regularise_eps.", "quantifier": "every problem, every dimension, all options, every completed run", "why_tests_cant": "Quantifies over runs of any length on any problem; tests only look at the last point.", "anchors": ["src/NEMtropy/solver_functions.py:solver"]}
{"id": "C80", "title": "The log-likelihood increases along Newton and quasi-Newton runs and the iterates stay admissible", "statement": "With a line search and regularisation on, a Newton or quasi-Newton run of solve_tool started at an admissible point, in which no line search exhausted its fifty halvings, ends at an admissible point with a strictly larger log-likelihood than the start unless it made no step. Runs of the binary models and of the exponential enhanced models stay admissible for all three methods even when searches give up; the enhanced models in (x, y) stay positive.", "quantifier": "every network size, all constraints, all starting points in the domain, all tolerances and numbers of steps, every linear solver and eigensolver meeting their contract", "why_tests_cant": "A statement about every run of unbounded length on every network; a test observes a few converging runs.", "anchors": ["src/NEMtropy/solver_functions.py:solver", "src/NEMtropy/graph_classes.py:UndirectedGraph._initialize_problem", "src/NEMtropy/graph_classes.py:DirectedGraph._initialize_problem", "src/NEMtropy/models_functions.py:linsearch_fun_CM", "src/NEMtropy/models_functions.py:linsearch_fun_DECM_exp", "src/NEMtropy/models_functions.py:linsearch_fun_crema_directed"]}
{"id": "C81", "title": "The exponential parametrisations are concave", "statement": "The negative of the Hessian matrix returned for the exponential UBCM, DBCM, UECM and DECM and for both CReMa models is positive semidefinite at every admissible point, so Newton directions computed from it with the identity regulariser increase the likelihood.", "quantifier": "every number of nodes or classes, every admissible parameter vector, every direction", "why_tests_cant": "Definiteness has to hold in every direction at every point of an unbounded domain.", "anchors": ["src/NEMtropy/models_functions.py:loglikelihood_hessian_cm_exp", "src/NEMtropy/models_functions.py:loglikelihood_hessian_dcm_exp", "src/NEMtropy/models_functions.py:loglikelihood_hessian_ecm_exp", "src/NEMtropy/models_functions.py:loglikelihood_hessian_decm_exp", "src/NEMtropy/models_functions.py:loglikelihood_hessian_crema_undirected", "src/NEMtropy/models_functions.py:loglikelihood_hessian_crema_directed"]}
{"id": "C82", "title": "A call that stops within the tolerance reports an error within it", "statement": "If solve_tool (newton or quasinewton, line search on, a named initial guess or any for the exponential forms) completes and its last recorded norm is at most tol, then the error it stores and prints is at most tol for the exponential models and CReMa with positive strengths, and at most tol times the largest factor for the models in the factors themselves; the stored factors are admissible.", "quantifier": "every network, every number of nodes, all options, every solver and eigensolver meeting their contract, every run", "why_tests_cant": "Connects the stopping rule of an iteration of unbounded length with the reported error for every network; a test sees single runs.", "anchors": ["src/NEMtropy/graph_classes.py:UndirectedGraph.solve_tool", "src/NEMtropy/graph_classes.py:DirectedGraph.solve_tool", "src/NEMtropy/graph_classes.py:UndirectedGraph._solution_error", "src/NEMtropy/graph_classes.py:DirectedGraph._solution_error", "src/NEMtropy/solver_functions.py:solver"]}
{"id": "C83", "title": "Parameters of zero degrees never move", "statement": "In every Newton or quasi-Newton run of the DBCM (both parametrisations) the coordinate of a class with zero out-degree or in-degree ends exactly where it started; after solve_tool with model dcm a node without out-links has x = 0 and a node without in-links has y = 0, whether or not the run converged.", "quantifier": "every directed network, all options with regularisation, every completed run", "why_tests_cant": "The regularised matrix couples all coordinates numerically; that these entries stay exactly put for every network and every number of steps cannot be sampled.", "anchors": ["src/NEMtropy/solver_functions.py:solver", "src/NEMtropy/solver_functions.py:matrix_regulariser_function_eigen_based", "src/NEMtropy/models_functions.py:loglikelihood_prime_dcm", "src/NEMtropy/models_functions.py:loglikelihood_hessian_dcm", "src/NEMtropy/graph_classes.py:DirectedGraph._set_initial_guess_dcm"]}
{"id": "C84", "title": "linsearch=False switches the line search off everywhere", "statement": "With linsearch=False no solve made by solve_tool runs a line search: alfa_seq is empty for the solve itself and for the solve of the adjacency that CReMa makes first.", "quantifier": "every network, every model and method, all other options", "why_tests_cant": "Concerns every run of the inner and the outer solver; default tests leave linsearch at True.", "anchors": ["src/NEMtropy/graph_classes.py:DirectedGraph._solve_problem_crema_directed", "src/NEMtropy/graph_classes.py:UndirectedGraph._solve_problem_crema_undirected", "src/NEMtropy/solver_functions.py:solver"]}
{"id": "C85", "title": "Fixed-point solves of the binary models converge", "statement": "For a network whose degrees are interior mean values (C77), every call solve_tool(method=\"fixed-point\", full_return=True) with model cm, dcm (named initial guess) or cm_exp, dcm_exp (any finite initial guess, all degrees positive) completes; the reported error is at most K r^n_steps with r < 1 depending only on the degrees; when the run did not stop on tol the error is at most max(K r^max_steps, B eps); for any eps > 0 the number of steps is bounded whatever max_steps. With and without line search.", "quantifier": "every solvable network, all tol, eps, max_steps, every start, every number of steps", "why_tests_cant": "Convergence for all networks, starts and options, with a rate; a test observes single runs on single networks.", "anchors": ["src/NEMtropy/solver_functions.py:solver", "src/NEMtropy/models_functions.py:iterative_cm", "src/NEMtropy/models_functions.py:iterative_cm_exp", "src/NEMtropy/models_functions.py:iterative_dcm", "src/NEMtropy/models_functions.py:iterative_dcm_exp", "src/NEMtropy/models_functions.py:linsearch_fun_CM_fixed", "src/NEMtropy/graph_classes.py:UndirectedGraph.solve_tool", "src/NEMtropy/graph_classes.py:DirectedGraph.solve_tool"]}
{"id": "C86", "title": "A fixed-point solve that stops on its tolerance has solved the model", "statement": "When solve_tool(method=\"fixed-point\") ends with norm_seq[-1] <= tol, the reported error is small with tol.", "quantifier": "every solvable network, all options", "why_tests_cant": "The premature stop needs a network and a start where the map vanishes; random tests do not hit it.", "anchors": ["src/NEMtropy/solver_functions.py:solver", "src/NEMtropy/models_functions.py:iterative_cm_exp", "src/NEMtropy/models_functions.py:iterative_dcm_exp", "src/NEMtropy/graph_classes.py:UndirectedGraph._set_initial_guess_cm", "src/NEMtropy/graph_classes.py:DirectedGraph._set_initial_guess_dcm_exp"]}
{"id": "C87", "title": "The relative errors are the largest relative deviations", "statement": "After a completed solve_tool call, relative_error_degree and relative_error_strength are finite numbers: the largest deviation of the model's expected constraints from the observed ones, each in units of the observed value (padded by exp(-100) where the code does so). They do not depend on the order of the nodes.", "quantifier": "every network, model, starting point, solver outcome and previous state of the object", "why_tests_cant": "Concerns all networks, including isolated nodes and every order of the nodes; tests print the values for a few networks.", "anchors": ["src/NEMtropy/graph_classes.py:UndirectedGraph._solution_error", "src/NEMtropy/graph_classes.py:DirectedGraph._solution_error"]}
{"id": "C88", "title": "The expected sequences are those of the model just solved", "statement": "After a completed solve_tool call, expected_dseq and expected_strength_seq hold the mean degrees and mean strengths of the model just solved (outgoing then incoming when directed).", "quantifier": "every network, model, solver outcome and previous state of the object", "why_tests_cant": "Concerns every history of calls; a test of one model cannot see an attribute left from an earlier one.", "anchors": ["src/NEMtropy/graph_classes.py:UndirectedGraph._solution_error", "src/NEMtropy/graph_classes.py:DirectedGraph._solution_error"]}
{"id": "C89", "title": "The files of ensemble_sampler are draws from the ensemble of the model last solved, pair by pair", "statement": "Every file written by ensemble_sampler contains exactly the lines of the pairs of nodes whose uniform draw is below the link probability of the solved model, each with a weight drawn from that pair's own law (geometric with 1 - y_i y_j for the enhanced models, exponential with mean 1/(b_i + b_j) for CReMa); so with independent draws a whole graph appears with the probability the model gives it. File i is called output_dir + i + .txt and uses the i-th seed; nothing depends on the pool.", "quantifier": "every solved object of each model, number of files, output directory, seed, pool size and schedule", "why_tests_cant": "A wrong argument (for instance out- and in-parameters exchanged) still writes well-formed files; only the distribution of every pair tells them apart.", "anchors": ["src/NEMtropy/graph_classes.py:UndirectedGraph.ensemble_sampler", "src/NEMtropy/graph_classes.py:DirectedGraph.ensemble_sampler", "src/NEMtropy/ensemble_generator.py"]}
{"id": "C90", "title": "The error solve_tool reports is the error of the files drawn next", "statement": "After a solve_tool call that completes, the files ensemble_sampler writes have mean degrees and strengths (of every node, over the law of the draws) whose largest distance from the observed ones is exactly the reported error. A call that raises leaves nothing that can be sampled as if it had been solved.", "quantifier": "every network, model, method, guess and outcome of the solver; every generator, number of files, seed, pool size and schedule", "why_tests_cant": "Reported error and files are computed by different code from different attributes; agreement of the expectations cannot be observed from finitely many files.", "anchors": ["src/NEMtropy/graph_classes.py:UndirectedGraph.solve_tool", "src/NEMtropy/graph_classes.py:UndirectedGraph.ensemble_sampler", "src/NEMtropy/graph_classes.py:DirectedGraph.solve_tool", "src/NEMtropy/graph_classes.py:DirectedGraph.ensemble_sampler", "src/NEMtropy/graph_classes.py:_solution_error", "src/NEMtropy/ensemble_generator.py"]}
{"id": "C91", "title": "A call that makes no step leaves the starting point its name stands for", "statement": "When solve_tool completes without a step (max_steps=0, or the tolerance already met), the parameters left on the object are exactly those the initial_guess name documents: for every node with nonzero constraints, d/sqrt(edges) for 'degrees', 1/(d+1)-type for 'degrees_minor', the uniform value, the draw itself for 'random', and so on, the same values for a model and for its _exp version.", "quantifier": "every network, model, name, method, option set and previous state of the object", "why_tests_cant": "The conversion between exponents and factors, the reduction to degree classes and the expansion back all have to cancel for every network; tests only look at converged solutions, which hide the start.", "anchors": ["src/NEMtropy/graph_classes.py:UndirectedGraph._set_initial_guess_cm", "src/NEMtropy/graph_classes.py:UndirectedGraph._set_initial_guess_ecm", "src/NEMtropy/graph_classes.py:UndirectedGraph._set_initial_guess_crema_undirected", "src/NEMtropy/graph_classes.py:DirectedGraph._set_initial_guess_dcm", "src/NEMtropy/graph_classes.py:DirectedGraph._set_initial_guess_dcm_exp", "src/NEMtropy/graph_classes.py:DirectedGraph._set_initial_guess_decm", "src/NEMtropy/graph_classes.py:DirectedGraph._set_initial_guess_decm_exp", "src/NEMtropy/graph_classes.py:DirectedGraph._set_initial_guess_crema_directed"]}
{"id": "C92", "title": "Starting again from a solution changes nothing", "statement": "After a solve_tool call that reached its tolerance, a second call of the same model and method (on the same or a fresh object, tolerance no smaller) whose initial_guess is the solution found completes without a step, reaches its tolerance and leaves the same solution.", "quantifier": "every network, model, method and option set", "why_tests_cant": "A property of pairs of calls for all networks; needs the array guess, class reduction, exponent conversion and stopping test to agree.", "anchors": ["src/NEMtropy/graph_classes.py:UndirectedGraph.solve_tool", "src/NEMtropy/graph_classes.py:DirectedGraph.solve_tool", "src/NEMtropy/solver_functions.py:solver", "src/NEMtropy/graph_classes.py:UndirectedGraph._set_initial_guess_cm", "src/NEMtropy/graph_classes.py:DirectedGraph._set_initial_guess_dcm_exp"]}
{"id": "C93", "title": "The result of solve_tool does not depend on how the network was given", "statement": "An object built from a numpy matrix, from a scipy sparse matrix, from an edge list, or from degree (and strength) sequences of the same network ends every solve_tool call in the same way: same exception or none, same solver report, same parameters, errors and solution.", "quantifier": "every network and label type, every model, method, guess and option", "why_tests_cant": "Needs the constructors, the relabelling and all of solve_tool composed, for all networks and calls; the tests only build each form once. The index arrays used by directed CReMa are set in some forms and not in others.", "anchors": ["src/NEMtropy/graph_classes.py:UndirectedGraph._initialize_graph", "src/NEMtropy/graph_classes.py:DirectedGraph._initialize_graph", "src/NEMtropy/graph_classes.py:UndirectedGraph.solve_tool", "src/NEMtropy/graph_classes.py:DirectedGraph.solve_tool", "src/NEMtropy/graph_classes.py:DirectedGraph._set_args"]}
{"id": "C94", "title": "The reported error refers to the labels of the user's edges", "statement": "After a completed solve_tool call on an object built from an edge list with arbitrary labels, the i-th parameters belong to the i-th label in increasing order, and the reported error is the largest absolute deviation between the model's mean degrees (strengths) and the number of edges (total weight) at that label in the list the user gave.", "quantifier": "every edge list, label type with a total order, binary or enhanced model, method and option set", "why_tests_cant": "Ranges over all labelled edge lists and solver runs, and joins relabelling, class reduction and error computation.", "anchors": ["src/NEMtropy/network_functions.py:edgelist_from_edgelist_undirected", "src/NEMtropy/network_functions.py:edgelist_from_edgelist_directed", "src/NEMtropy/graph_classes.py:UndirectedGraph._solution_error", "src/NEMtropy/graph_classes.py:DirectedGraph._solution_error", "src/NEMtropy/graph_classes.py:UndirectedGraph.solve_tool", "src/NEMtropy/graph_classes.py:DirectedGraph.solve_tool"]}
{"id": "C95", "title": "The number of steps of a Newton or quasi-Newton run is bounded", "statement": "With a line search and regularisation on, every step but the last of a Newton or quasi-Newton run in which no line search gave up raises the log-likelihood by at least a constant fixed by tol, eps, regularise_eps and the number of parameters. So if the log-likelihood is bounded on the domain (by 0 when the constraints are those of a network) the number of steps is bounded by the room above the start divided by that constant, and a max_steps beyond that bound is never why the run stopped: it stopped because the residual is within tol or the step within eps.", "quantifier": "every model but ecm, every network size, constraints, starting point, tolerance, and every linear solver and eigensolver meeting their contract", "why_tests_cant": "A bound on the length of every run; a test sees the length of a few.", "anchors": ["src/NEMtropy/solver_functions.py:solver", "src/NEMtropy/solver_functions.py:sufficient_decrease_condition", "src/NEMtropy/models_functions.py:linsearch_fun_CM", "src/NEMtropy/graph_classes.py:UndirectedGraph._initialize_problem", "src/NEMtropy/graph_classes.py:DirectedGraph._initialize_problem"]}
{"id": "C96", "title": "cm_exp and dcm_exp are solved to the tolerance on every network, from every start", "statement": "For the degree sequences of any network, any starting point and any tol, Newton and quasi-Newton runs of cm_exp and dcm_exp with line search and regularisation on, a large enough max_steps and a small enough eps never raise and end with a residual within tol: the expected degrees of the returned solution differ from the degrees of the network by at most tol divided by the number of nodes of the same class. The number of steps is bounded explicitly.", "quantifier": "every undirected or directed network (up to 10^22 parameters at the default regularise_eps), every starting point, method newton or quasinewton, every choice of regulariser and tolerance, every linear solver and eigensolver meeting their contract", "why_tests_cant": "Global convergence from every start on every network, including networks whose maximum is at infinity, is out of reach of any finite number of runs.", "anchors": ["src/NEMtropy/solver_functions.py:solver", "src/NEMtropy/solver_functions.py:matrix_regulariser_function", "src/NEMtropy/solver_functions.py:matrix_regulariser_function_eigen_based", "src/NEMtropy/models_functions.py:loglikelihood_prime_cm_exp", "src/NEMtropy/models_functions.py:loglikelihood_hessian_cm_exp", "src/NEMtropy/models_functions.py:linsearch_fun_CM_exp", "src/NEMtropy/models_functions.py:loglikelihood_prime_dcm_exp", "src/NEMtropy/models_functions.py:loglikelihood_hessian_dcm_exp", "src/NEMtropy/models_functions.py:linsearch_fun_DCM_exp"]}
{"id": "C97", "title": "solve_tool with cm_exp or dcm_exp succeeds on every network", "statement": "UndirectedGraph(...).solve_tool(model='cm_exp') and DirectedGraph(...).solve_tool(model='dcm_exp') with method newton or quasinewton, the line search on and any initial guess given by name return without exception once max_steps is large enough and eps small enough; the attributes x (and y) are positive, every observed degree is within tol of its mean over the fitted ensemble, and the attribute error is within tol (directed: when every node has links of both kinds). The object may come from a matrix (binary or weighted), an edge list with any labels, or any data giving the same degrees; isolated nodes are allowed.", "quantifier": "every loopless network of at most 10^21 nodes, every named initial guess and draw of it, every tolerance, both methods, every labelling", "why_tests_cant": "States that a whole call ends well on every network; a test suite can only try some networks and cannot exclude a network on which the line search gives up or the step budget is never enough.", "anchors": ["src/NEMtropy/graph_classes.py:UndirectedGraph.solve_tool", "src/NEMtropy/graph_classes.py:DirectedGraph.solve_tool", "src/NEMtropy/graph_classes.py:UndirectedGraph._solve_problem", "src/NEMtropy/graph_classes.py:DirectedGraph._solve_problem", "src/NEMtropy/graph_classes.py:UndirectedGraph._solution_error", "src/NEMtropy/graph_classes.py:DirectedGraph._solution_error", "src/NEMtropy/graph_classes.py:UndirectedGraph._initialize_graph", "src/NEMtropy/graph_classes.py:DirectedGraph._initialize_graph", "src/NEMtropy/solver_functions.py:solver"]}
{"id": "C98", "title": "solve_tool with newton or quasinewton never raises on valid data, isolated nodes included", "statement": "For every network given as a matrix or an edge list, solve_tool with a binary model, method newton or quasinewton and an initial guess given by name returns without exception, whatever max_steps, eps and tol: in cm and dcm with the line search on, in cm_exp and dcm_exp with or without it. The same is expected of the weighted models on networks with isolated nodes. (It fails: in cm the starting value of a node without links is set to zero and the gradient divides by it, so the call raises exactly when some node is isolated, whatever the guess; likewise ecm, CReMa over cm, and ecm_exp with two isolated nodes.)", "quantifier": "every loopless network, every named initial guess and draw of it, both methods, every tolerance and step budget, every linear solver and eigensolver answering on definite matrices", "why_tests_cant": "Absence of exceptions over all networks and all iterates of the run; the test networks have no isolated nodes.", "anchors": ["src/NEMtropy/graph_classes.py:UndirectedGraph.solve_tool", "src/NEMtropy/graph_classes.py:DirectedGraph.solve_tool", "src/NEMtropy/graph_classes.py:UndirectedGraph._set_initial_guess_cm", "src/NEMtropy/graph_classes.py:UndirectedGraph._set_initial_guess_ecm", "src/NEMtropy/models_functions.py:loglikelihood_prime_cm", "src/NEMtropy/models_functions.py:loglikelihood_prime_ecm", "src/NEMtropy/models_functions.py:loglikelihood_prime_ecm_exp", "src/NEMtropy/solver_functions.py:solver"]}
{"id": "C99", "title": "Renaming the nodes renames the result of solve_tool and changes nothing else", "statement": "If the rows and columns of an adjacency matrix are permuted, or the labels of an edge list are changed by an injective map and its rows put in any order, then solve_tool with a binary model gives each node the parameter it had before, raises in exactly the cases in which it raised before and with the same exception, and leaves the same error, number of steps and sequences of norms, differences and step lengths. (It holds for every initial guess given by name; it fails for an initial guess given as an array even when the array is permuted with the nodes, because the array is read at one node of each degree class.)", "quantifier": "every network, every permutation or injective relabelling, models cm, cm_exp, dcm, dcm_exp, all methods and options, every named initial guess, every behaviour of the linear algebra routines", "why_tests_cant": "A relation between two runs, for all networks, permutations and run lengths.", "anchors": ["src/NEMtropy/graph_classes.py:UndirectedGraph.solve_tool", "src/NEMtropy/graph_classes.py:DirectedGraph.solve_tool", "src/NEMtropy/graph_classes.py:UndirectedGraph.degree_reduction", "src/NEMtropy/graph_classes.py:DirectedGraph.degree_reduction", "src/NEMtropy/graph_classes.py:UndirectedGraph._set_initial_guess_cm", "src/NEMtropy/graph_classes.py:UndirectedGraph._solution_error", "src/NEMtropy/graph_classes.py:DirectedGraph._solution_error", "src/NEMtropy/network_functions.py:edgelist_from_edgelist_undirected", "src/NEMtropy/network_functions.py:edgelist_from_edgelist_directed"]}
{"id": "C100", "title": "The z-scores of a solved DirectedGraph are the standard scores of its network in the ensemble it was fitted to", "statement": "Build a DirectedGraph from a network, call solve_tool with dcm or dcm_exp, then zscore_2motifs or zscore_3motifs: each two-node entry is (count - mean) / standard deviation of that count over the ensemble with the link probabilities of the fitted parameters, each three-node entry is (count - mean) / (standard deviation in the linear approximation), and the same attributes x and y are those whose expected degrees solution_error compares with the data. Before a solve, for objects built from edge lists, for scipy matrices (two-node entries) and when a standard deviation is zero the call raises; nothing is returned silently. (For objects built from a matrix with weights other than 0 and 1 it fails: the counts are taken on the weights. It also fails after decm and decm_exp: their parameters are read as those of dcm.)", "quantifier": "every 0/1 matrix with zero diagonal, every call with dcm or dcm_exp that returns, every behaviour of the linear algebra routines", "why_tests_cant": "Means and variances over all directed networks on n nodes, for every n and every fitted parameter vector; the pipeline from the data to the scores for every network.", "anchors": ["src/NEMtropy/graph_classes.py:DirectedGraph.zscore_2motifs", "src/NEMtropy/graph_classes.py:DirectedGraph.zscore_3motifs", "src/NEMtropy/graph_classes.py:DirectedGraph.solve_tool", "src/NEMtropy/graph_classes.py:DirectedGraph._initialize_graph", "src/NEMtropy/ensemble_functions.py:zscore_dcm_2motif_2", "src/NEMtropy/ensemble_functions.py:zscore_dcm_3motif_1", "src/NEMtropy/network_functions.py:count_2motif_2"]}
{"id": "C101", "title": "Z-scores do not depend on the order of the nodes, and reversing all links exchanges mirrored motifs", "statement": "Permuting the nodes of a network leaves every entry of zscore_2motifs and zscore_3motifs unchanged, including whether the call raises, both for given parameters and through solve_tool. Transposing the matrix and exchanging x and y leaves the two-node scores unchanged and moves the score, count, expected value and standard deviation of each three-node motif to its mirror image: motifs 1 and 4, 3 and 7, 6 and 11 are exchanged, the others stay.", "quantifier": "every matrix, every permutation, every parameter vector (non-negative for the two-node scores)", "why_tests_cant": "A relation between two evaluations of thirteen hand-written formulas, for all sizes, matrices and parameters.", "anchors": ["src/NEMtropy/graph_classes.py:DirectedGraph.zscore_2motifs", "src/NEMtropy/graph_classes.py:DirectedGraph.zscore_3motifs", "src/NEMtropy/ensemble_functions.py:expected_dcm_3motif_1", "src/NEMtropy/ensemble_functions.py:std_dcm_3motif_1", "src/NEMtropy/network_functions.py:count_3motif_1"]}
{"id": "C102", "title": "The reported error bounds what a better solution could gain, and how far two solves of one network can differ", "statement": "After a solve_tool call that returns, let err be the attribute error. Under the returned parameters the observed network is at least exp(-err * D) times as probable as under any other parameters of the same model, where D is the sum over the nodes of the distances between the logarithms of the two parameter vectors (for crema and its likelihood density: between the vectors themselves). In particular err = 0 means no other parameters are better. Two calls on the same network, possibly with different variants (cm and cm_exp, dcm and dcm_exp), methods and starting points, have link probabilities p and q with 4 * sum (p - q)^2 <= (err1 + err2) * D; for crema the same bound holds for the rates with the weight 1 / (rate * rate').", "quantifier": "every network, every call that returns, every competing parameter vector that is positive where the returned one is; for crema, positive rates on the pairs with positive link probability", "why_tests_cant": "It compares the returned parameters with every other parameter vector and every other run; the maximum of the likelihood is not known to a test.", "anchors": ["src/NEMtropy/graph_classes.py:UndirectedGraph.solve_tool", "src/NEMtropy/graph_classes.py:UndirectedGraph._solution_error", "src/NEMtropy/graph_classes.py:DirectedGraph.solve_tool", "src/NEMtropy/graph_classes.py:DirectedGraph._solution_error"]}
{"id": "C103", "title": "Construct, solve, sample: the files drawn after a solve of cm_exp or dcm_exp reproduce the degrees within the tolerance, and no other parameters make the network much more probable", "statement": "Take a network given as a matrix (symmetric with zero diagonal for UndirectedGraph; zero diagonal and every node with outgoing and incoming links for DirectedGraph). Construct the object, call solve_tool('cm_exp') or solve_tool('dcm_exp') with method newton or quasinewton, the line search, any of the named binary guesses, a tolerance tol > 0, max_steps large enough and eps small enough. The call returns; afterwards ensemble_sampler writes, for every generator, seed, number of files and number of processes, files in which every pair of nodes (unordered / ordered) is decided once by comparing one draw with the probability of that pair under the returned parameters; the sums of these probabilities over the pairs touching (leaving, entering) a node differ from its degree (out-degree, in-degree) by at most tol; and under any other positive parameters the observed network is at most exp(tol * D) times as probable, D being the sum of the distances of the logarithms.", "quantifier": "all networks, all methods, guesses, tolerances, generators, seeds and numbers of files; all competing positive parameters; the budget and eps exist for each network and tolerance", "why_tests_cant": "It joins the constructor, the solver and the sampler for every network, and compares with every other parameter vector.", "anchors": ["src/NEMtropy/graph_classes.py:UndirectedGraph.__init__", "src/NEMtropy/graph_classes.py:UndirectedGraph.solve_tool", "src/NEMtropy/graph_classes.py:UndirectedGraph.ensemble_sampler", "src/NEMtropy/graph_classes.py:DirectedGraph.solve_tool", "src/NEMtropy/graph_classes.py:DirectedGraph.ensemble_sampler", "src/NEMtropy/ensemble_generator.py"]}
{"id": "C104", "title": "An object cleaned with clean_edges and given a second network behaves like a new object for that network", "statement": "Take any UndirectedGraph or DirectedGraph, whatever it was built from and whatever has been solved on it. Call clean_edges and then a set method with an argument the constructor accepts. A following solve_tool call gives what it gives on a new object built from that argument: the same exception, or the same parameters, reported error, last model, solution, objective and convergence report, and for CReMa the same adjacency.", "quantifier": "all objects, all earlier solves, all accepted second arguments, all models, methods, guesses and options", "why_tests_cant": "What is left behind depends on the whole history of the object and on the form of both networks; tests build a new object each time.", "anchors": ["src/NEMtropy/graph_classes.py:UndirectedGraph.clean_edges", "src/NEMtropy/graph_classes.py:DirectedGraph.clean_edges", "src/NEMtropy/graph_classes.py:UndirectedGraph.set_adjacency_matrix", "src/NEMtropy/graph_classes.py:UndirectedGraph.set_edgelist", "src/NEMtropy/graph_classes.py:UndirectedGraph.set_degree_sequences", "src/NEMtropy/graph_classes.py:UndirectedGraph.solve_tool", "src/NEMtropy/graph_classes.py:DirectedGraph.solve_tool"]}
{"id": "C105", "title": "The parameters rank the nodes as the degrees do; a regular network gets one probability for all pairs", "statement": "After a solve_tool('cm') or solve_tool('cm_exp') call that returns, let err be the attribute error. Nodes of equal degree have equal x. If no entry of x is negative (always the case after cm_exp), a node whose degree exceeds another's by more than 2*err has the larger x, and is linked more probably to every third node; with err < 1/2 the order of x is exactly the order of the degrees. If all degrees equal d, every pair gets one probability p with |p - d/(n-1)| <= err/(n-1). For cm_exp with a tolerance below 1/2, with newton or quasinewton, the line search, enough steps and a small enough eps, the call returns and the order of x is that of the degrees. For dcm and dcm_exp the same holds for the pair (out-degree, in-degree): equal pairs get equal (x, y); an out-degree larger by at least 1 + 2*err gives a larger x, an in-degree larger by at least 1 + 2*err a larger y; a network with all out- and in-degrees d gets one probability within err/(n-1) of d/(n-1). For crema on a matrix, of two nodes with the same links the one whose strength is larger by more than 2*err has the smaller beta. For crema on a DirectedGraph, of two nodes that are not linked to each other and have the same out-links, the one whose out-strength is larger by more than 2*err has the smaller b_out (likewise in-links, in-strength and b_in); if they are linked alike in both directions, it has the smaller b_out or the larger b_in. For ecm and ecm_exp with x, y not negative and all products y_i*y_j below 1, a node whose degree or strength exceeds another's by more than 2*err has the larger x or the larger y. For decm and decm_exp at admissible parameters, a node whose out-degree is larger by more than 1 + 2*err has the larger x or the larger b_out (likewise in-degree, y and b_in).", "quantifier": "all networks, all calls that return, all methods and starting points; all pairs of nodes", "why_tests_cant": "It relates every pair of nodes of every network to the parameters a run returns, whatever the method and the starting point.", "anchors": ["src/NEMtropy/graph_classes.py:UndirectedGraph.solve_tool", "src/NEMtropy/graph_classes.py:UndirectedGraph._solution_error", "src/NEMtropy/graph_classes.py:UndirectedGraph._set_solved_problem_cm", "src/NEMtropy/graph_classes.py:DirectedGraph.solve_tool", "src/NEMtropy/graph_classes.py:DirectedGraph._solution_error"]}
{"id": "C106", "title": "A fixed-point solve of CReMa raises the likelihood at every step and converges", "statement": "solve_tool('crema', method='fixed-point') on strengths for which the model has a solution. From positive starting parameters the run never raises, keeps the parameters of linked nodes positive, never lowers the log-likelihood from one step to the next, and never moves away (in relative entropy) from any positive solution. After t steps the missing log-likelihood and the square of every error of the strengths are at most K/t for a constant K of the network and the start; a run that stops because of eps has errors at most B*eps; for each eps > 0 the number of steps is bounded; the parameters converge to one positive solution. The same for directed networks, for crema-sparse (towards strengths larger by exp(-100)), and for the error and the parameters that a whole call of solve_tool with an adjacency matrix and a named start leaves in the object.", "quantifier": "all topologies with positive entries, all strengths for which a solution exists, all positive starts, with and without the line search, all tol, eps and max_steps, all numbers of steps", "why_tests_cant": "It bounds every iterate of every run on every network and says what happens in the limit; a run shows a finite number of iterates of one network.", "anchors": ["src/NEMtropy/solver_functions.py:solver", "src/NEMtropy/models_functions.py:iterative_crema_undirected", "src/NEMtropy/models_functions.py:iterative_crema_directed", "src/NEMtropy/models_functions.py:linsearch_fun_crema_undirected_fixed", "src/NEMtropy/models_functions.py:linsearch_fun_crema_directed_fixed"]}
{"id": "C107", "title": "Networks with close constraints get close results", "statement": "Take two networks on the same nodes whose degrees (and strengths, for the models that read them) differ by at most d at every node, and solve each with the same model, possibly in different variants, with different methods and starting points. If both solve_tool calls return, with errors err1 and err2, the link probabilities p and q of cm, dcm, ecm and decm satisfy 4 * sum (p - q)^2 <= (err1 + err2 + d) * D, where D is the sum over the nodes of the distances between the logarithms of the two parameter vectors. For crema on a common matrix the same bound, with D the distance of the parameters themselves, holds for the squared differences of the rates with the weight 1 / (rate * rate'). A measurement error in the data of one network moves the ensemble no further than this.", "quantifier": "every pair of networks on the same nodes, every d, every pair of calls that return; parameters positive at the same nodes, products of y (b_out * b_in) below 1 for ecm and decm, positive rates for crema", "why_tests_cant": "It compares the results of all pairs of networks and runs; no finite set of perturbed inputs shows it.", "anchors": ["src/NEMtropy/graph_classes.py:UndirectedGraph.solve_tool", "src/NEMtropy/graph_classes.py:UndirectedGraph._solution_error", "src/NEMtropy/graph_classes.py:DirectedGraph.solve_tool", "src/NEMtropy/graph_classes.py:DirectedGraph._solution_error"]}
