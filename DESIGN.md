# Formal model of NEMtropy in Rocq/Coq 8.16.1

Source under study: `/repo/src/NEMtropy` (read as text, never run).
Everything lives in `rocq/theories`:

| file kind | contents |
|---|---|
| `Base.v` | loops as folds, finite sums, functional update, elementary lemmas |
| `Model*.v` | transcription of the Python code, one definition per function, each citing file and lines; no proofs |
| `Spec*.v` | small independent specifications (probability of a graph, partial derivative, expectation, embedding of a motif ...) |
| `Proofs*.v` | lemmas |
| `Witness*.v` | counterexamples and concrete cases, used by refutations and by the non-vacuity examples |
| `Theorems*.v` | one theorem per claim, closed by `exact`, followed by `Print Assumptions` and by an `Example` showing that the hypotheses are satisfiable |

## Modelling conventions

- `numpy.float64` arithmetic is modelled by exact real arithmetic (`R` of the
  standard library). Rounding, overflow and NaN are not modelled in the
  formulas. Where the *control flow* depends on NaN (the solver loop, the
  scan of step bounds in line searches) the comparison is either an abstract
  boolean oracle or the NaN/inf case is an explicit branch.
- A numeric vector of length n is a function `nat -> R` read only below n.
  Loops `for i in range(n)` that accumulate are `loop n a0 body`, a left fold
  over `0..n-1`, so that the branches in the body stay those of the code.
- Division by zero: Coq's `x / 0` is 0 while numpy gives inf or NaN. Theorems
  state the positivity hypotheses which exclude it; models that must decide
  something on inf/NaN treat `dx = 0` as a separate branch.
- Randomness, process scheduling, eigen-decompositions and linear solves are
  oracles: function parameters (or section variables closed at the end of the
  section) about which nothing, or only the documented contract, is assumed.
- Exceptions are values (`inl`/`None`/an error constructor).
- `while` loops without an a-priori bound take fuel and return an explicit
  out-of-fuel value; termination theorems show that fuel suffices.


## Properties: what is modelled and how it is proved

- **C01 UBCM log-likelihood is the log-probability of the observed graph.** Model `loglikelihood_cm(_exp)` as nested loops; spec = product over pairs of Bernoulli terms for an arbitrary boolean symmetric matrix, class map `cls`. Proof: sum over nodes grouped by class equals weighted sum over classes, logarithm of products.
- **C02 UBCM gradient.** Spec = Coquelicot `is_derive` along one coordinate. Generic lemma on derivatives of double sums, then `field` per term.
- **C03 UBCM Newton matrix.** Same technique on the gradient. Expected outcome: refuted for cm (off-diagonal entries), refuted for cm_exp with multiplicities >1, proved where true.
- **C04 UBCM quasi-Newton diagonal.** As C03, for the diagonal; expected refutations with explicit witnesses.
- **C05 UBCM solutions reproduce the degrees.** Algebraic identity gradient_i = (c_i/x_i)(k_i - expected_i) on the expanded vector.
- **C06 UBCM fixed points are solutions.** Algebra on the map, under positivity.
- **C07 UBCM solution is the global maximum and its ensemble is unique.** Pairwise Gibbs inequality: with k_i the sum of p_ij, the log-likelihood difference is a sum of one-variable terms each maximal at the solution. Strictness gives uniqueness.
- **C08 UBCM expected degrees are exact ensemble averages.** Expectation defined as a weighted sum over all boolean assignments to the list of pairs; induction on that list.
- **C09 Degree reduction is lossless for the UBCM.** Corollaries of the class-grouping lemma used for C01.
- **C10 UECM log-likelihood is the log-probability of the observed weighted graph.** Geometric-Bernoulli law; normalisation by Coquelicot series.
- **C11 UECM gradient.** As C02.
- **C12 UECM Newton and quasi-Newton matrices.** As C03, four blocks.
- **C13 UECM solutions reproduce degrees and strengths.** Algebra and geometric series for the means.
- **C14 UECM fixed points are solutions.** Algebra under positivity.
- **C15 UECM solution is the global maximum and its ensemble is unique.** Pairwise Gibbs inequality for the two-parameter pair law.
- **C16 CReMa (undirected) likelihood, gradient and second derivatives.** Edge-list folds with functional update; derivative of folds.
- **C17 CReMa (undirected) solutions reproduce the strengths and are global maxima.** Algebra, one-variable inequality for exponential laws.
- **C18 CReMa (undirected) sparse functions agree with the dense ones.** Equality of fold over the explicit list and nested loops.
- **C19 DBCM log-likelihood is the log-probability of the observed directed graph.** As C01 for ordered pairs.
- **C20 DBCM gradient.** As C02.
- **C21 DBCM Newton matrix.** As C03.
- **C22 DBCM quasi-Newton diagonal.** As C03; refutation expected for dcm with multiplicities.
- **C23 DBCM solutions reproduce out- and in-degrees.** As C05/C08; refutation expected for `expected_out_degree_dcm_exp`.
- **C24 DBCM fixed points are solutions.** Algebra.
- **C25 DBCM solution is the global maximum and its ensemble is unique.** As C07.
- **C26 DECM log-likelihood is the log-probability of the observed weighted directed graph.** As C10 for ordered pairs.
- **C27 DECM gradient.** As C11.
- **C28 DECM Newton and quasi-Newton matrices.** As C12; refutation expected for a zero in-strength.
- **C29 DECM solutions reproduce degrees and strengths.** As C13.
- **C30 DECM fixed points are solutions.** Algebra; refutation expected for decm_exp.
- **C31 DECM solution is the global maximum and its ensemble is unique.** As C15.
- **C32 CReMa (directed) gradient and second derivatives.** As C16.
- **C33 CReMa (directed) solutions reproduce the strengths; sparse agrees with dense.** As C17/C18; refutation expected for the sparse iterative map.
- **C34 The two parametrisations describe the same model.** Rewriting under exp/ln.
- **C35 The solver stops within max_steps for a stated reason.** Solver loop with abstract carrier, abstract functions and abstract comparisons; induction on the remaining steps.
- **C36 full_return reports the run faithfully and does not change it.** Two instances of the same loop related by a simulation.
- **C37 A converged Newton or quasi-Newton run satisfies the constraints.** Exit condition combined with C05 etc.; refutation expected for the fixed-point stopping rule.
- **C38 Hessian regularisation yields a symmetric positive definite matrix and a descent direction.** Matrices as functions, eigen-decomposition as an oracle satisfying the documented contract of `eigh`.
- **C39 Line search keeps the iterate admissible.** Line search functions as bounded loops / fuelled loops; invariants.
- **C40 Line search terminates and enforces sufficient decrease.** Bounded loops; termination by continuity (halving) for the fuelled ones.
- **C41 Degree and strength sequences of a matrix.** Sums over rows and columns; exchange of sums.
- **C42 Edgelist relabelling is lossless.** `np.unique` modelled as sorted duplicate-free list; dictionaries as association lists.
- **C43 Adjacency matrix from an edge list.** Matrix updates along the edge list with bounds checks; refutation expected for labels that are not 0..n-1.
- **C44 Degree classes.** `np.unique` with inverse and counts.
- **C45 Two-node motif counts.** Sums of indicators.
- **C46 Two-node motif expectation and standard deviation.** Expectation operator of C08 on ordered pairs; variance of a sum over disjoint dyads.
- **C47 Three-node motif counts and expectations.** Sums over ordered triples, product expectation over distinct links.
- **C48 Three-node motif standard deviation.** Derivative of the expected count with respect to one link probability, thirteen formulas checked by `ring` after collapsing triple sums.
- **C49 z-scores.** Corollaries of C46-C48.
- **C50 Sampled graphs are well formed.** Random draws as oracles; sampler as a filtered map over the pair list.
- **C51 Sampling is reproducible and independent of the number of processes.** Pool modelled as an arbitrary schedule of tasks on workers with private generator state.
- **C52 Sampled links follow the model probabilities.** Threshold characterisation, equality of the threshold with the model probability.
- **C53 Given topology is preserved by CReMa sampling.** Map over the given list.
- **C54 Ensembles grow by prefix and write one file per graph.** Seeds as a prefix of a stream.
- **C55 Generated matrices are valid adjacency matrices.** Matrices as functions with random streams; loop invariants.
- **C56 Generators terminate.** Fuelled repair loop.
- **C57 Graph object life cycle.** Graph object as a record, calls as transitions.
- **C58 Weighted graphs are recognised.** Comparison of two sums; refutation expected (0.5 and 1.5).
- **C59 Initial guesses.** Guess functions per model; aliasing modelled explicitly for user arrays.
- **C60 Reported solution error.** Object record with the attributes read by the error computation; histories.
- **C61 solve_tool dispatch.** Tables as functions on strings.
- **C62 model_loglikelihood.** Composition; refutation expected (sign).
- **C63 Degree reduction is lossless for the DBCM.** As C09, with pairs (out-degree, in-degree) as classes; the likelihood, gradient and expected degrees of the reduced problem against those of the expanded one.
- **C64 CReMa log-likelihood is the log-density of exponential weights.** Density as a product over the listed pairs; logarithm of a product.
- **C65 verbose does not change the result.** Two instances of the solver loop; refutation expected (unbound `new_ml`).
- **C66 Three-node motif standard deviation is the standard deviation of the count.** Variance under the C08 expectation; refutation expected (delta method).
- **C67 Pairs and graphs of an ensemble are drawn independently.** Pigeonhole on the seed range.
- **C68 Every link of positive probability can be sampled.** Finite set of seeds; refutation expected.
- **C69 A seed determines the generated matrix.** Generator streams as oracles; refuted for the sparse weighted generators. `ModelGraphNx` models `random_graph_nx` and `barabasi_albert_graph_nx` whole: with a seed the earlier state does not matter, without one the call is the seeded call with the number drawn.
- **C70 Weights are put on exactly the links of the generated network.** Weight loops over an oracle topology. `C70_nx_weights` and `C70_sparse_weights` add that the m-th link gets the m-th number of the stream, in both directions when symmetric.
- **C71 The form in which a network is given does not matter.** Object states after the different constructors compared field by field.
- **C72 Nodes with equal constraints are treated alike.** cm: difference of two expected degrees as a sum of one-signed terms. Others: a renamed solution solves the renamed constraints (C73), uniqueness (C15, C25, C31, C17) does the rest.
- **C73 The order of the nodes does not matter.** Each function is compared with itself under a permutation; sums over nodes are additive loops, so a permutation reorders the terms. CReMa: over edge lists, as permutations of weighted pairs.
- **C74 Reversing all links exchanges the out and in results.** Each function compared with itself with blocks exchanged (`flip`), term by term; directed CReMa is undirected CReMa on 2n nodes and `flip` is a renaming there.
- **C75 The directed models on an undirected network give the undirected results.** Sums over ordered pairs fold into twice the sums over pairs; for solutions, the undirected solution is a directed one and uniqueness (C15, C25, C17) does the rest.
- **C76 Isolated nodes do not change the results of the others.** Loops over n+m nodes lose their last m terms. The cm and ecm likelihoods are left out: there Python computes 0*log(0) = NaN for such a node.
- **C77 A solution exists exactly when the constraints are interior mean values.** The negative likelihood is coercive modulo the shift (theta_out + c, theta_in - c), bounded by a gauge argument on connected components; a minimum exists on a compact box (`ProofsCompact`, `ProofsEngine`), is stationary, and stationarity is the balance of the sums (`ProofsBalance`). The undirected models follow from the directed ones by uniqueness and reversal.
- **C78 Which networks can be solved.** Interior laws built from the network: weights shifted by a small multiple of p - a; means of networks with equal degrees. Bounds on degrees and strengths of any solution.
- **C79 Each iterate follows from the previous one by the documented rule.** `ModelRun` instantiates the solver with real vectors; the loop is unrolled into a trace of states (`ProofsRun`), each link of which is one of the three rules (`ProofsIterates`).
- **C80 The log-likelihood increases along Newton and quasi-Newton runs and the iterates stay admissible.** `ModelRun` composes dispatch, regulariser, line search (with the objective evaluated in IEEE values) and solver. Descent direction from C38/C81, sufficient decrease from the line search, induction on the trace. Not for ecm, whose search accepts inadmissible points (C39), and for crema-sparse only quasinewton (`TheoremsSparseRun`), because its newton run raises (C61): its objective is a number exactly where all rates are positive, and equals the dense log-likelihood there.
- **C81 The exponential parametrisations are concave.** The quadratic form is rewritten as a sum over pairs of squares (`ProofsPSD`).
- **C82 A call that stops within the tolerance reports an error within it.** `ModelTool` composes guess, dispatch, solver and bookkeeping. The norm at the last point bounds each gradient entry, which is the error of a constraint (divided by the factor in the non-exponential forms); admissibility of the last point from C80. The factor in the bound is needed (`C82_cm_tolerance_refuted`). Fixed-point runs are excluded (their norm is that of the map, C37); for ecm the products y_i y_j < 1 are a hypothesis (C39). crema-sparse with quasinewton on both graphs (`TheoremsToolSparse`): a finite sparse gradient entry has divided by nonzero sums only, and there it is the dense one; on a DirectedGraph a degree must vanish exactly with its strength.
- **C83 Parameters of zero degrees never move.** Their rows of gradient and Hessian vanish; both regularisers then act on that coordinate as multiplication by a positive number, so the Newton displacement is 0 there.
- **C84 linsearch=False switches the line search off everywhere.** Induction on the loop; refutation expected for the directed class (graph_classes.py:2300-2309 does not forward the argument).
- **C85 Fixed-point solves of the binary models converge.** In logarithms one step, damped or not, is a weighted mean of the coordinates' deviations from a solution: deviations shrink by a factor that the degrees determine (`ProofsConverge`, `ProofsConvergeSys`). Directed: the pair of largest deviation of x and smallest of y, so that the gauge (x c, y / c) is followed. The run is its sequence of iterates (`ProofsTraj`); a small last step means a small residual (`ProofsResidual`); classes against nodes with equal degrees (`ProofsConvergeTool`).
- **C86 A fixed-point solve that stops on its tolerance has solved the model.** Refutation expected for the exponential models: the norm compared with tol is that of the image of the map, not of the step. For cm and dcm that norm is bounded below along the runs.
- **C87 The relative errors are the largest relative deviations.** `ModelReport` adds the attributes `_solution_error` writes besides the absolute errors; maxima over IEEE values (`np.max`, `np.linalg.norm` and the built-in `max` treat NaN differently). Proved for every model with the mean values of `SpecSolve` as reference; ecm needs nonzero constraints. Refutation expected for ecm with an isolated node: raw division and the built-in `max`.
- **C88 The expected sequences are those of the model just solved.** Same model. Refutation expected for CReMa: the attribute is misspelt (`expected_stregth_seq`), so `expected_strength_seq` is missing or stale.
- **C89 The files are draws from the model last solved, pair by pair.** `SpecSamples` says what one pair contributes as a function of the generator's state; each branch of both `ensemble_sampler` methods is unfolded to the list of these contributions for all files, and the product law over pairs is obtained by iterated integration over independent uniforms. Two graphs of one call use seeds drawn from one generator: independence of numpy's streams is an assumption of the law, not of the file equations.
- **C90 The reported error is the error of the files drawn next.** `ModelSample` reads the attributes left by `ModelSolve` into the sampler of `ModelSampler`; for each model the list of pairs drawn is found (C89), the mean contribution of a pair is the mean of its law (a series, or the integral of the tail), and the sums over the pairs touching a node are compared with the expectation `_solution_error` uses. Refutations expected for undirected crema-sparse (both orders drawn), fractional user-given matrices (the deterministic sampler), and objects left by a failed call.
- **C91 Where a call starts.** A run of the solver without a step returns its start (`no_step`), so the attributes left are the images of the guess under the conversion to factors and the expansion of the classes; the documented values (`SpecGuess`) are compared with them for all models. The uniform start differs between decm (9/10) and decm_exp (1/10), stated as such.
- **C92 Starting again from a solution.** The value of `fun` depends only on the coordinates the model uses (`prime_*_agree`), the array guess reproduces those coordinates, so the norm at the start is the last norm of the first call and no step is made. For cm_exp and ecm_exp the array must hold the exponents; refuted when it holds the factors `g.x`.
- **C93 The form of the data.** `ModelObject` makes the attributes left by the constructor (`ModelLife`) the arguments of the calls of `ModelTool`, including the index arrays `nz_index_sout`, `nz_index_sin` of directed CReMa and the sequences that were never set. Two objects with the same sequences and index arrays end every call alike (`u_same_data`, `d_same_data`: the flag `is_sparse` is overwritten before it is read); the lemmas on the constructors give the same sequences. The attributes carry what holds them (array of numbers, array of Python objects, list). Refuted for directed CReMa and DECM on weighted edges and for weights all equal to 1.
- **C94 Labels.** (Directed enhanced models never complete on an object built from edges, see C93.) The relabelling theorems on edge lists give degrees and strengths of the labels, the error theorems (C60) the meaning of the reported number; composed through `u_new_tool`, `d_new_tool`.
- **C95 Length of a run.** The sufficient-decrease condition turns each accepted step into a gain of at least `/10000 * alfa * slope`; the regulariser bounds the slope below by `tol/sqrt(m) * regularise_eps` times the squared step, and a step that does not stop the run is longer than `eps` (`gain` in SpecRun). Summed over the run. The bound 0 for networks is the log-probability of the observed network. Both facts need every recorded step length above 2^-50; C96 removes this for two models.
- **C96 Global convergence.** One pair contributes `ln(1+exp(-s))`, whose second derivative at most doubles when `s` moves by at most 1/2 (`slope_doubles`). So along a step whose entries are at most 1/4 the log-likelihood stays above the quadratic built from twice the curvature at the start, and that curvature is bounded by the regularised matrix itself. The line search therefore accepts before fifty halvings whenever `sqrt(m) < 2^48 * regularise_eps`, whatever the network and the tolerance (`any_size`: up to 10^22 parameters at the default). No call raises, and the steps are counted as in C95. The new contract `solves_definite` says that `np.linalg.solve` does not raise on a symmetric positive definite matrix; `solvers_exist` shows all three contracts can be met in every dimension.
- **C97 Whole calls.** C96 placed inside `solve_tool`: the named starting points are finite, the run ends `Full`, `full_return` and `verbose` do not change the returned array, the solution is written back to all nodes and the reported error is a deviation of the solution. Then through the constructors of ModelLife and the labels of C94. For directed networks the deviations are stated with the parameter of a node without links of one kind set to zero, because the attribute keeps a positive number there; the error is covered when every node has links of both kinds.
- **C98 Calls that cannot raise.** Every divisor of every compiled function is a guard (`ModelIEEE`), so that a call returns only if no evaluation on the way divides by zero. On the domain where the parameters of the nodes with links are positive the gradient and the Hessian evaluate, the line searches of cm and dcm keep the iterates in the domain, the regularised matrix is definite and `np.linalg.solve` answers; the exponential models evaluate everywhere. The named starting points are inside the domain except at isolated nodes in cm and ecm, where the parameter is set to zero and the first gradient raises: an exact characterisation for cm (`C98_cm_iff`), a refutation for cm, ecm, ecm_exp with two such nodes, and CReMa over cm.
- **C99 Renaming the nodes.** `np.unique` of a permuted degree sequence returns the same distinct degrees and the same multiplicities, so the reduced problem, its named starting points and the whole run are literally the same; the inverse indices of `np.unique` carry the solution back to the right nodes, and the maximum in `_solution_error` is over a permuted list. Both construction routes (matrix, labelled edges) are shown to give permuted degree sequences.
- **C100 Z-scores of a solved object.** `ModelZscore` reads the attribute `adjacency` the constructor left (`ModelLife`) and `x`, `y` as `solve_tool` left them (`ModelSolve`). `SpecZscore` states the standard score as (count - mean)/sqrt(variance) over the enumeration of all directed networks, with counts of node pairs and three-node sets, and the three-node deviation as the linear approximation defined by derivatives of the mean. Proved for every call that returns, and as one pipeline from the network to the scores with `C97` (`C100_fitted`). The calls that raise are proved to raise.
- **C101 Order of the nodes and direction of the links.** The scores are rewritten as sums over ordered pairs and triples of distinct nodes; these sums are invariant under permutations, and reversal permutes the thirteen patterns (`C101_mirror` is the table). `C101_object_renamed` composes this with `C99`.
- **C102 What the reported error means.** `SpecNear` defines the distance of two parameter vectors, the parameters under which the observed network is possible, and the distance of two ensembles. For one pair of nodes the ratio of two probabilities is at most the exponential of (observed - expected) times the difference of the logarithms; summing over pairs leaves the node constraints, which `sup_dev` bounds by the reported error. For two calls the two inequalities are added and the logistic function is 1/4-Lipschitz. Stated on the attributes `x`, `y`, `b_out`, `b_in`, `beta`, `error` that `solve_tool` leaves. For the enhanced models (`ProofsNearE`) the odds of a link absorb y, and what is left of the weights is the relative entropy of two geometric laws, which is not negative.
- **C103 Construct, solve, sample.** Joins C97 (the call reaches the tolerance), C90 (the draws of the sampler) and C102 (the likelihood) for objects made by `u_construct`/`d_construct` from a matrix, and for any object whose degree sequences are those of a network. Assumes what C97 assumes of numpy (`sound_numpy`).
- **C104 Reusing an object.** `ModelReuse` applies `clean_edges` and a set method to an object with arbitrary data and arbitrary solver attributes; `SpecReuse` compares the outcome of `solve_tool` with that on a new object. Refuted in general (findings); proved when the second network brings the strengths (and, for directed CReMa, the index arrays) the model reads and nothing the call reads is left from a solve: `beta` for cm/dcm, `x` for CReMa with a given matrix.
- **C105 Order of the parameters.** `SpecRank` says what it means for parameters to rank the nodes as the degrees do. `ProofsRank` derives it from the meaning of `error` (the largest deviation of the expected from the given degrees, C60 and the theorems on `_solution_error`) and the strict monotonicity of the link probability: in `cm` the terms of two nodes differ only through their own parameters, because the pair itself contributes to both sums. In `dcm` the pair contributes two different probabilities, hence the extra 1. `ranked_cm` joins this with the theorem that `cm_exp` reaches the tolerance (C97). Cases: a path with a lone node, a directed hub, two linked nodes, a weighted path for `crema`. In directed `crema` (`ProofsRankD`) the pair contributes weights that are not bounded, so the claim is for unlinked pairs, or for one of the two parameters. In `ecm` and `decm` (`ProofsRankE`) the mean of a pair grows in both parameters, so a node that exceeds another in a constraint exceeds it in one of the two.
- **C106 Fixed-point runs of CReMa.** `SpecAscend` states the likelihood, the mean strengths and the distance to a solution on the list of pairs. The map is `b_k <- b_k E_k(b) / s_k`. `ProofsAscend` shows, by Jensen's inequality on each pair, that a step gains at least the relative entropy of the new point from the old one, and that the gap to the maximum is at most the decrease of the relative entropy of any positive solution; damped steps follow by concavity. This gives the `K / t` bounds and a positive floor under every parameter. `ProofsAscendLimit` takes a cluster point, which is a solution, and shows that the whole sequence converges to it. `ProofsAscendRun` applies this to the runs; directed runs are the undirected ones on the two-sided list. False when the only solution has a negative parameter: `C106_negative_refuted`. `ProofsAscendSparse` shows that the runs of crema-sparse are those of the dense model for strengths larger by `exp(-100)` (`C106_crema_sparse`; every parameter of the binary model positive, at least two nodes). `ProofsAscendTool` carries this to whole calls of `solve_tool` with an adjacency matrix and a named start, on any object (`C106_tool_crema`, `C106_tool_crema_directed`): they complete, `INR n_steps * error^2 <= K`, and the parameters left in the object converge.
- **C107 Close networks, close results.** `SpecData` states that the constraints of two networks differ by at most d. The meaning of `error` and the triangle inequality turn the second result into an approximate solution for the first network, with error err2 + d; then the inequalities of C102 (`ProofsNearC`, `ProofsNearE`) apply. Stated on the attributes two `solve_tool` calls leave, on two objects. Cases: a path and a triangle with different strengths, all six models. For `cm_exp`, and for `dcm_exp` when every node has links of both kinds, the calls are also shown to return (`ProofsDataReach`, from C97): with enough steps both objects hold results whose errors are at most `tol`, so the bound is (2 tol + d) times the distance of the logarithms; cases: a path and a triangle, each beside an isolated node; a directed cycle and the complete directed network on three nodes.

## Findings

Each line is a theorem named `..._refuted` (or an exact characterisation `..._iff`) about the
faithful model; the property it belongs to is marked `partial` in `MANIFEST.json`.

Second derivatives
- `hessian_cm` off-diagonal entries are right only if c_i c_j x_j (x_j - x_i) = 0; its diagonal and `hessian_diag_cm` only for classes of one node (C03, C04).
- `hessian_cm_exp` diagonal wrong for classes of more than one node; `hessian_diag_cm_exp` never right on unreduced problems with n >= 2 (C03, C04).
- `hessian_diag_dcm` misses the class multiplicity (C22).
- `hessian_diag_decm` has the wrong sign where the in-strength is 0 (C28).
- CReMa second derivatives are wrong for self-pairs (C16).

Expected values and maps
- `expected_out_degree_dcm_exp` uses in-parameters twice (C23).
- `iterative_dcm` and `iterative_dcm_exp_2` produce NaN on classes of zero degree in the circumstances stated (C24).
- `iterative_decm_exp` in-blocks and `iterative_decm_exp_2` strength blocks do not have the solutions as fixed points (C30).
- Sparse CReMa array functions return NaN at isolated nodes with parameter 0; their fixed points sit at s_i + exp(-100) (C18); `iterative_crema_directed_sparse` writes the in-block by position in the list of non-zero parameters (C33); CReMa functions raise ZeroDivisionError when a listed pair has parameters summing to 0 or (map) one parameter 0 (C17, C33).

Line searches and solver
- `linsearch_fun_ECM_fixed`/`DECM_fixed` halve after the feasibility test and can leave the domain; `DECM`/`DECM_exp` test self-pairs and loop forever on admissible points, `ECM_exp` does when pair sums are at most 1e-14; `DECM_exp` accepts inadmissible points (C39, C40).
- `linsearch_fun_ECM` accepts points with y_i y_j > 1: there (1 - yy)/(1 - yy + xx yy) has both signs negative and the logarithm is finite (C39). Example: one link of weight two, x = (1/4, 1/4), y = (1/4, 2), along the direction of ascent (7/4, -7/4) in y. The DECM takes two logarithms and does refuse such points.
- A verbose Newton run without regularisation raises; a NaN norm exits as converged; the fixed-point method is also stopped by the norm of the map; the identity regulariser leaves indefinite matrices indefinite (C35-C38, C65).

- ecm relative errors (graph_classes.py:563-574) divide by the raw constraint and take the built-in `max`: an isolated node (0/0) makes both relative errors NaN when it is node 0, and is ignored when it is any other node. The same network with the same solution reports NaN or 12/13 depending on the order of its nodes (C87). With a positive expectation at the isolated node, as always after ecm_exp, the relative degree error is infinite however good the solution (`C87_ecm_exp_isolated`).
- CReMa solves write their expected strengths to `expected_stregth_seq` (533, 1928): `expected_strength_seq` does not exist after a CReMa solve on a new object, and keeps the values of an earlier ecm/decm solve otherwise (C88).
- The fixed-point method compares the norm of the image of the map with tol. With cm_exp and dcm_exp the image may vanish far from the solution: on the ring of six nodes with initial_guess="uniform" the map is exactly 0 at the start, and solve_tool returns it after zero steps with mean degree 1 instead of 2, whatever tol (C86). With cm and dcm the norm stays above a positive number, so that a small tol never stops a run; eps and max_steps do (C85, C86).
- With model cm the last norm may be within tol while the reported error is not: the norm is that of the gradient in x, the error is x times it (C82). Cycle of four nodes, x = 10, tol = 1/2: error 98/101.
- `DirectedGraph` CReMa does not pass `linsearch` to the solve of its adjacency, which searches even with linsearch=False; `UndirectedGraph` passes it (C84).

Networks and motifs
- The adjacency matrix of an edge list is sized by the number of distinct labels and indexed by label; self-loops and duplicates give other degrees than the edge-list functions; sparse builders always raise (C43).
- Three-node sparse motif functions are wrong from 258 nodes on, reported standard deviations vanish at flat solutions (C47-C49, C66).

Sampling and generators
- The undirected crema-sparse sampler draws both (i,j) and (j,i): linking probability 1-(1-p)^2 (C50, C52); with an explicit matrix it writes no file (C54).
- Seeds come from randint(0, 10^6): from 1415 nodes on two pairs share a draw, more than 10^6 graphs repeat (C67); some links of positive probability are never sampled (C68).
- Gaussian weights can be negative, rounding isolates nodes; n = 1 and sup_ext = 0 never return; sparse weights are unseeded; networkx uniform weights may be 0 (C55, C56, C69, C70).

Objects
- `loglikelihood_hessian_cm`: an off-diagonal entry depends on which of the two nodes comes first (C73).
- `expected_out_degree_dcm_exp`, `iterative_decm_exp` and (for a zero-strength node with non-zero parameters) `loglikelihood_hessian_diag_decm` give different results on the reversed network (C74).
- `clean_edges` keeps strengths, `is_weighted`, `nodes_dict`, `is_sparse`; documented list arguments raise AttributeError; failed `set_adjacency_matrix` leaves the matrix; directed sequences of different lengths are accepted; weights 1/2 and 3/2 are not recognised as weighted; directed weighted edge lists leave `is_weighted` False (C57, C58, C71).
- Initial guesses: see C59 in the manifest.  Dispatch: C61.  Error reports: C60.  `model_loglikelihood` is the negated log-likelihood and for dcm_exp/decm_exp is evaluated at the factors (C62).

Solve, then sample
- **C90 (undirected `crema-sparse`)**: the sampler goes through the positions of both orders of every pair, so mean strengths of the files are twice those of the model although the reported error is 0 (ring of five nodes).
- **C90 (fractional matrix)**: with a user-given matrix of probabilities the deterministic sampler discards the probabilities (`del weigths_value`): every pair listed is written, and mean strengths are Σ 1/(b_i+b_j), not Σ p_ij/(b_i+b_j) (witness: probabilities 1/2, error 0 reported).
- **C90 (`crema-sparse` with a matrix)**: `solve_tool` completes, `ensemble_sampler` writes no file and raises nothing.
- **C90 (failed call)**: `solve_tool(model="ecm")` with an unknown method raises, and `ensemble_sampler` then draws from the initial guess without complaint.
- **C92 (`cm_exp`, `ecm_exp`)**: an array `initial_guess` is read as exponents, although `g.x`, `g.y` and the arrays accepted by `cm`, `ecm`, `dcm_exp` and `decm_exp` are factors; passing the solution back starts at exp(-x), not x (witness: path of three nodes, `max_steps=0`).
- **C91 (`decm_exp`)**: `initial_guess="uniform"` starts decm at 9/10 and decm_exp at 1/10 in every factor (stated, not refuted: no documentation fixes the value).
- **C93 (directed CReMa, weighted edge list)**: `_initialize_graph` sets `nz_index_sout` and `nz_index_sin` for matrices and sequences but not for edge lists, so on an object built from (source, target, weight) edges every CReMa call with `newton` or `quasinewton`, every call of model `crema` and every verbose call raises; the same network as a matrix is solved (witness: three nodes, four edges). Only `crema-sparse` with `fixed-point` and without `verbose` works on such an object: it does not read the index arrays and ends like the call on the matrix.
- **C93 (directed enhanced models, weighted edge list)**: `edgelist_from_edgelist_directed` makes the degrees with `np.zeros_like(unique_nodes)`, and `unique_nodes` is an array of Python objects (the labels), so `dseq_out` and `dseq_in` are arrays of objects. `_set_args` gives them as they are to the functions of `decm` and `decm_exp`, which numba compiles in nopython mode and which refuse such arrays: every call of these two models raises on an object built from weighted edges, for every guess, method and option. The same network as a matrix is solved. The binary models are not affected (`degree_reduction` rebuilds the degrees as numbers), nor are undirected objects (`np.unique` returns counts as integers). An earlier version of the model missed this and had these calls complete.
- **C93 (unit weights)**: a matrix whose entries are all 0 or 1 sets no strengths, so `ecm` and `crema` raise on it, while the same edges given with weight 1 are solved.
- **C98 (isolated nodes)** `_set_initial_guess_cm` and `_set_initial_guess_ecm` set the starting parameters of nodes without links to zero (graph_classes.py:423, 498-499), and `loglikelihood_prime_cm` / `_ecm` divide by them (models_functions.py:81): under numba's default error model this is a ZeroDivisionError. With newton or quasinewton, `solve_tool(model="cm")` therefore raises on every network with an isolated node, whatever the initial guess (`C98_cm_never`), and so do ecm and CReMa with `adjacency="cm"`; ecm_exp raises when two nodes are isolated. dcm, cm_exp and dcm_exp do not (`C98_dcm_matrix`, `C98_cm_exp_matrix`).
- **C99 (array guesses)** An `initial_guess` array is read at `r_index_dseq`, the first node of each degree class (graph_classes.py:398), and the other entries are ignored. Which entries are used depends on the order of the nodes: two linked nodes with the guess (1, 2) start from 1, the same network and guess listed in the other order start from 2, and the results differ (`C99_array_refuted`).
- **C100 (weights)** The constructor keeps a weighted matrix as `self.adjacency` and the counting functions assume 0/1 entries: `count_2motif_2` counts entries of `a + a.T` equal to 2 (network_functions.py:435-443). After `dcm_exp` on the matrix with links 0->1 (weight 2), 1->2 (3), 2->0 (1), 2->1 (4), the scores are computed with one pair linked in one direction where there are two; the pair 0, 1 counts as linked in both directions (`C100_weighted_refuted`, for every tolerance and starting point).
- **C100 (enhanced model)** `zscore_2motifs()` after `decm` or `decm_exp` does not raise: it reads `x` and `y` as parameters of dcm. The link probabilities then agree with those of the fitted model only where the product of the weight factors is 1/2 (`C100_decm_links`, `C100_decm_refuted`).
- **C100 (regular networks)** When all link probabilities are 1/3, 1/2, 2/3 or 5/6 some three-node deviation is zero and `zscore_3motifs` raises ZeroDivisionError, e.g. on the directed cycle of four nodes solved exactly (`C100_flat_raises`). In floating point the deviation is a rounding error and the score is meaningless instead.
- **C69 (large unseeded networkx graphs)** `random_graph_nx` and `barabasi_albert_graph_nx` without a seed draw one from [0, n ** 2) and give it to `np.random.seed`, which accepts numbers below 2 ** 32 only. Up to 65536 nodes the number drawn is always accepted (`C69_nx_drawn_seed`); from 65537 nodes on the call may raise ValueError after the graph has been made (`C69_nx_large_refuted`).
- **C104 (reused objects)** `clean_edges` leaves strengths, index arrays and solver attributes. If the second network has no weights, `solve_tool("ecm")` on a new object fails for want of strengths; on the reused object it returns parameters fitted to the new degrees and the old strengths (`C104_undirected_refuted`). A DirectedGraph first given a weighted matrix and then a weighted edge list solves CReMa over the index arrays of the first network, where a new object raises (`C104_directed_refuted`). With `beta` left from a CReMa solve, cm reports the error of that solve (`C60_stale_error`).
- **C106 (fixed-point CReMa)** a triangle of weights 1, 1, 1/3 has the solution (-1/2, 3/2, 3/2), inside the domain of the likelihood. A fixed-point run from positive parameters keeps them positive; whatever its options and its number of steps, some strength is wrong by more than 1/20 (`C106_negative_refuted`). The starts that `_set_initial_guess_crema_undirected` builds from positive strengths are positive. Whole calls of `solve_tool` on that network complete without an exception and leave an error above 1/20 (`C106_tool_negative_refuted`).

Disagreements between model and property are therefore all of the same kind: the property is
what the documentation promises, the model is the code, and the refutation shows the point where
they differ.

## Trusted base

- Coq 8.16.1 kernel, and the standard library axioms used by `Reals`
  (printed under every theorem with `Print Assumptions`):
  `ClassicalDedekindReals.sig_forall_dec`, `ClassicalDedekindReals.sig_not_dec`,
  `FunctionalExtensionality.functional_extensionality_dep`, and for some
  Coquelicot-based results `Classical_Prop.classic`, and for the existence theorems
  (C77, C78, C106, and the whole calls of C85, C86) `ClassicalEpsilon.constructive_indefinite_description`, and for the two examples that
  show the contracts of `solve` and `eigh` to be satisfiable in every dimension (and the C82-C84
  cases built on them) `RelationalChoice.relational_choice`,
  `ClassicalUniqueChoice.dependent_unique_choice`. No axiom is declared in this
  development; theorems about lists, dispatch tables and object states that do not
  touch real numbers are closed under the global context.
- The transcription of Python into Gallina (by reading; the code is not run).
- Contracts of external code, always as parameters of the theorem that uses them:
  `scipy.linalg.eigh` (orthonormal eigendecomposition, C38 and C80; it may raise),
  `numpy.linalg.solve` (solution or exception), numpy generators (values in the
  documented range; nothing about their quality), `numpy.random` global state,
  `multiprocessing.Pool` (an arbitrary schedule of tasks on workers),
  networkx topologies and the powerlaw package (arbitrary results).

Modelling decisions one has to trust, by file

| model | decision |
|---|---|
| all | float64 is R; integers in numba loops do not overflow; parallel reductions have the value of the sequential ones |
| `ModelDCM` | array divisions and logarithms that may be 0/0 or x/0 return `fval` (Fin, PInf, MInf, NaN) with IEEE rules |
| `ModelDECM`, `ModelCReMa` | scalar divisions in compiled loops return `option`, `None` being ZeroDivisionError (numba's default error model) |
| `ModelSolver` | objective, step, Jacobian, map, line search, `solve`, `eigh` are parameters; comparisons with NaN false; `is False` as written |
| `ModelLinsearch` | finite vectors; `while` loops with fuel |
| `ModelIEEE` | the divisors met by each compiled function of models_functions.py (a zero one raises: numba's default error model, the repository sets no other) and `np.log` outside its domain; formulas are those of the `Model*` files of each model; a ZeroDivisionError inside the parallel loops of the sparse CReMa functions is taken to propagate |
| `ModelRun` | finite real vectors and matrices: a non-finite entry ends the run, and so does a quasi-Newton direction with a zero divisor (array division, in solver_functions.py); line-search objectives with the divisors and logarithms of `ModelIEEE`, an objective that raises being NaN |
| `ModelTool` | composition of `ModelGuess`, `ModelRun`, `ModelSolve`; a non-finite starting point is an exception |
| `ModelNetwork` | `np.unique` is an executable sorted duplicate-free list with inverse and counts; out-of-range writes of compiled code are an explicit outcome |
| `ModelMotifs` | dense and csr matrices as functions; products in the dtype of the operands; two-node counts for ndarray |
| `ModelSampler` | a seeded generator is a function from seed to stream; a file is the list of records written |
| `ModelGenerators` | random source is a stream of draws; repair loops with fuel |
| `ModelLife` | object = record of the attributes read elsewhere in the classes; warnings and prints dropped |
| `ModelGuess` | aliasing of user arrays explicit (returned pair of guess and array left to the caller) |
| `ModelDispatch` | names as strings; reads of `adj[0]` out of range taken as 0; each entry raises when one of its divisors (`ModelIEEE`) is zero |
| `ModelSolve` | outcome of the solver and guess of each call are arbitrary; finite vectors apart from `o_inf`; relative errors are in `ModelReport`; a guess that raises writes nothing; the expectations of the degree and enhanced models use total division where the compiled code raises `ZeroDivisionError` on an exactly zero divisor (never the case for non-negative parameters of the binary models and for rates below one in the enhanced models) |
| `ModelReport` | same as `ModelSolve`; divisions follow IEEE for zero denominators; `np.exp(-100)` and the additions to it are exact |
| `ModelSample` | attributes of the object as left by `ModelSolve`; an attribute never set raises `AttributeError`; arrays indexed by the sampler are the lists of their entries |
| `ModelObject` | (storage) that numba refuses arrays of Python objects in nopython mode is taken from its documentation; lists given as degrees to `decm` or as strengths to any model are `NotModelled` |
| `ModelObject` | degrees are natural numbers; an attribute needed by the call and never set is an exception (attributes written before it are not modelled); iterating over `None` raises |
| `ModelZscore` | that the compiled functions return Python floats, so that dividing a Python number by zero raises, and that counts of scipy matrices are numpy numbers, is taken from the documentation of numba and scipy; `d_is_sparse` says whether `adjacency` is a scipy matrix, as it does for matrices given to the constructor |
| `ModelGraphNx` | the networkx graph, its largest component and the order of its links are an oracle of the seed; so is the power law of the package powerlaw, which draws from numpy's generator; storage (`is_sparse`) is not modelled |
| `ModelReuse` | arrays left by a solve of a network of another size are not told apart from arrays of the right size, where numpy may raise; the hypotheses of the `C104_*_partial` theorems exclude reading such arrays |

## Not modelled

- Floating-point rounding, overflow and numba's parallel reduction order.
- `bicm` (bipartite models re-exported by wild-card imports), tests and
  documentation, printing, timing.
- NetworkX and powerlaw internals (only the weight-assignment loops over their results).
