(** UBCM: the properties.  Each proof is one [exact] of a lemma. *)
From Coq Require Import Reals List Arith Lia Lra.
From Verif Require Import Base SpecDeriv SpecGraph SpecEnsemble ModelCM.
From Verif Require Import ProofsCM ProofsCMHess ProofsEnsemble ProofsMainCM WitnessCM.
Local Open Scope R_scope.

(** C01 *)
Theorem C01_loglikelihood_cm_is_logprob :
  forall n m cls c k x a,
  simple_graph n a -> classes n m cls c ->
  (forall i, (i < n)%nat -> k (cls i) = deg n a i) ->
  (forall q, (q < m)%nat -> 0 < x q) ->
  loglikelihood_cm m k c x = ln (prob_undirected n (p_ubcm (fun i => x (cls i))) a).
Proof. exact loglik_cm_logprob. Qed.
Print Assumptions C01_loglikelihood_cm_is_logprob.

Theorem C01_loglikelihood_cm_exp_is_logprob :
  forall n m cls c k x a,
  simple_graph n a -> classes n m cls c ->
  (forall i, (i < n)%nat -> k (cls i) = deg n a i) ->
  loglikelihood_cm_exp m k c x =
  ln (prob_undirected n (p_ubcm (fun i => exp (- x (cls i)))) a).
Proof. exact loglik_cm_exp_logprob. Qed.
Print Assumptions C01_loglikelihood_cm_exp_is_logprob.

Example C01_nonvacuous :
  simple_graph 3 path3 /\ classes 3 2 path3_cls path3_c /\
  (forall i, (i < 3)%nat -> path3_k (path3_cls i) = deg 3 path3 i) /\
  (forall q, (q < 2)%nat -> 0 < path3_x q).
Proof. exact (conj path3_simple (conj path3_classes (conj path3_deg path3_pos))). Qed.

(** C02 *)
Theorem C02_gradient_cm :
  forall n k c x h,
  (h < n)%nat -> (forall i, (i < n)%nat -> 0 < x i) ->
  partial (loglikelihood_cm n k c) x h (loglikelihood_prime_cm n k c x h).
Proof. exact prime_cm_is_gradient. Qed.
Print Assumptions C02_gradient_cm.

Theorem C02_gradient_cm_exp :
  forall n k c x h,
  (h < n)%nat ->
  partial (loglikelihood_cm_exp n k c) x h (loglikelihood_prime_cm_exp n k c x h).
Proof. exact prime_cm_exp_is_gradient. Qed.
Print Assumptions C02_gradient_cm_exp.

(** C03: false for both variants.  The witness is the path on three nodes,
    reduced to its two degree classes, at the positive point (1, 2). *)
Theorem C03_newton_cm_refuted :
  exists n m cls c k x a i j,
    simple_graph n a /\ classes n m cls c /\
    (forall v, (v < n)%nat -> k (cls v) = deg n a v) /\
    (forall q, (q < m)%nat -> 0 < x q) /\ (i < m)%nat /\ (j < m)%nat /\ i <> j /\
    ~ partial (fun y => loglikelihood_prime_cm m k c y i) x j (loglikelihood_hessian_cm m k c x i j) /\
    ~ partial (fun y => loglikelihood_prime_cm m k c y i) x i (loglikelihood_hessian_cm m k c x i i).
Proof. exact newton_cm_refuted. Qed.
Print Assumptions C03_newton_cm_refuted.

Theorem C03_newton_cm_exp_refuted :
  exists n m cls c k x a i,
    simple_graph n a /\ classes n m cls c /\
    (forall v, (v < n)%nat -> k (cls v) = deg n a v) /\ (i < m)%nat /\
    ~ partial (fun y => loglikelihood_prime_cm_exp m k c y i) x i (loglikelihood_hessian_cm_exp m c x i i).
Proof. exact newton_cm_exp_refuted. Qed.
Print Assumptions C03_newton_cm_exp_refuted.

(** Where the returned entries are the derivatives. *)
Theorem C03_newton_cm_offdiagonal_iff :
  forall n k c x i j,
  (i < j)%nat -> (j < n)%nat -> (forall q, (q < n)%nat -> 0 < x q) ->
  (partial (fun y => loglikelihood_prime_cm n k c y i) x j
     (loglikelihood_hessian_cm n k c x i j)
   <-> c i * c j * (x j * (x j - x i)) = 0).
Proof. exact hessian_cm_offdiag_iff. Qed.
Print Assumptions C03_newton_cm_offdiagonal_iff.

Theorem C03_newton_cm_diagonal_iff :
  forall n k c x i,
  (i < n)%nat -> (forall q, (q < n)%nat -> 0 < x q) ->
  (partial (fun y => loglikelihood_prime_cm n k c y i) x i
     (loglikelihood_hessian_cm n k c x i i)
   <-> c i * (c i - 1) = 0).
Proof. exact hessian_cm_diag_iff. Qed.
Print Assumptions C03_newton_cm_diagonal_iff.

Theorem C03_newton_cm_exp_offdiagonal_partial :
  forall n k c x i j,
  (i < n)%nat -> (j < n)%nat -> i <> j ->
  partial (fun y => loglikelihood_prime_cm_exp n k c y i) x j
    (loglikelihood_hessian_cm_exp n c x i j).
Proof. exact hessian_cm_exp_offdiag. Qed.
Print Assumptions C03_newton_cm_exp_offdiagonal_partial.

Theorem C03_newton_cm_exp_diagonal_iff :
  forall n k c x i,
  (i < n)%nat ->
  (partial (fun y => loglikelihood_prime_cm_exp n k c y i) x i
    (loglikelihood_hessian_cm_exp n c x i i)
   <-> c i * (c i - 1) = 0).
Proof. exact hessian_cm_exp_diag_iff. Qed.
Print Assumptions C03_newton_cm_exp_diagonal_iff.

(** C04: false for both variants. *)
Theorem C04_quasinewton_cm_refuted :
  exists n m cls c k x a i,
    simple_graph n a /\ classes n m cls c /\
    (forall v, (v < n)%nat -> k (cls v) = deg n a v) /\
    (forall q, (q < m)%nat -> 0 < x q) /\ (i < m)%nat /\
    ~ partial (fun y => loglikelihood_prime_cm m k c y i) x i (loglikelihood_hessian_diag_cm m k c x i).
Proof. exact quasinewton_cm_refuted. Qed.
Print Assumptions C04_quasinewton_cm_refuted.

Theorem C04_quasinewton_cm_iff :
  forall n k c x i,
  (i < n)%nat -> (forall q, (q < n)%nat -> 0 < x q) ->
  (partial (fun y => loglikelihood_prime_cm n k c y i) x i
     (loglikelihood_hessian_diag_cm n k c x i)
   <-> c i * (c i - 1) = 0).
Proof. exact hessian_diag_cm_iff. Qed.
Print Assumptions C04_quasinewton_cm_iff.

(** On every unreduced problem with at least two nodes the exp diagonal is wrong
    at every point and coordinate. *)
Theorem C04_quasinewton_cm_exp_refuted :
  forall n k x i,
  (2 <= n)%nat -> (i < n)%nat ->
  ~ partial (fun y => loglikelihood_prime_cm_exp n k (fun _ => 1) y i) x i
      (loglikelihood_hessian_diag_cm_exp n (fun _ => 1) x i).
Proof. exact hessian_diag_cm_exp_wrong. Qed.
Print Assumptions C04_quasinewton_cm_exp_refuted.

(** C05 *)
Theorem C05_stationary_cm_iff_degrees :
  forall n m cls c k x,
  classes n m cls c -> (forall q, (q < m)%nat -> 0 < x q) ->
  ((forall q, (q < m)%nat -> loglikelihood_prime_cm m k c x q = 0) <->
   (forall i, (i < n)%nat -> expected_degree_cm n (fun j => x (cls j)) i = k (cls i))).
Proof. exact stationary_cm_iff. Qed.
Print Assumptions C05_stationary_cm_iff_degrees.

Theorem C05_stationary_cm_exp_iff_degrees :
  forall n m cls c k x,
  classes n m cls c ->
  ((forall q, (q < m)%nat -> loglikelihood_prime_cm_exp m k c x q = 0) <->
   (forall i, (i < n)%nat -> expected_degree_cm n (fun j => exp (- x (cls j))) i = k (cls i))).
Proof. exact stationary_cm_exp_iff. Qed.
Print Assumptions C05_stationary_cm_exp_iff_degrees.

Example C05_nonvacuous :
  classes 4 1 (fun _ => 0%nat) (fun _ => 4) /\ 0 < sqrt 2 /\
  (forall i, (i < 4)%nat -> 2 = deg 4 ring4 i) /\
  (forall i, (i < 4)%nat -> expected_degree_cm 4 (fun _ => sqrt 2) i = 2).
Proof. exact (conj ring4_classes (conj sqrt2_pos (conj ring4_deg ring4_solution))). Qed.

(** C06 *)
Theorem C06_fixed_point_cm :
  forall n k c x i,
  (i < n)%nat -> 0 < c i -> 0 < k i -> 0 < x i ->
  (iterative_cm n k c x i = x i <-> loglikelihood_prime_cm n k c x i = 0).
Proof. exact fixed_point_cm_iff. Qed.
Print Assumptions C06_fixed_point_cm.

Theorem C06_fixed_point_cm_exp :
  forall n k c x i,
  (i < n)%nat -> (forall j, (j < n)%nat -> 1 <= c j) -> 1 < rsum n c -> 0 < k i ->
  (iterative_cm_exp n k c x i = x i <-> loglikelihood_prime_cm_exp n k c x i = 0).
Proof. exact fixed_point_cm_exp_iff. Qed.
Print Assumptions C06_fixed_point_cm_exp.

Example C06_nonvacuous :
  (0 < 1)%nat /\ 1 <= 4 /\ 1 < rsum 1 (fun _ => 4) /\ 0 < 2 /\
  iterative_cm 1 (fun _ => 2) (fun _ => 4) (fun _ => sqrt 2) 0 = sqrt 2.
Proof. exact ring4_fixed_point. Qed.

(** C07 *)
Theorem C07_solution_cm_is_global_maximum :
  forall n m cls c k x z,
  classes n m cls c ->
  (forall q, (q < m)%nat -> 0 < x q) -> (forall q, (q < m)%nat -> 0 < z q) ->
  (forall i, (i < n)%nat -> expected_degree_cm n (fun j => x (cls j)) i = k (cls i)) ->
  loglikelihood_cm m k c z <= loglikelihood_cm m k c x.
Proof. exact solution_cm_max. Qed.
Print Assumptions C07_solution_cm_is_global_maximum.

Theorem C07_solution_cm_exp_is_global_maximum :
  forall n m cls c k x z,
  classes n m cls c ->
  (forall i, (i < n)%nat -> expected_degree_cm n (fun j => exp (- x (cls j))) i = k (cls i)) ->
  loglikelihood_cm_exp m k c z <= loglikelihood_cm_exp m k c x.
Proof. exact solution_cm_exp_max. Qed.
Print Assumptions C07_solution_cm_exp_is_global_maximum.

Theorem C07_solution_cm_unique_ensemble :
  forall n m cls c k x z,
  classes n m cls c ->
  (forall q, (q < m)%nat -> 0 < x q) -> (forall q, (q < m)%nat -> 0 < z q) ->
  (forall i, (i < n)%nat -> expected_degree_cm n (fun j => x (cls j)) i = k (cls i)) ->
  (forall i, (i < n)%nat -> expected_degree_cm n (fun j => z (cls j)) i = k (cls i)) ->
  forall i j, (i < n)%nat -> (j < n)%nat ->
    pmatrix_cm (fun v => z (cls v)) i j = pmatrix_cm (fun v => x (cls v)) i j.
Proof. exact solution_cm_unique. Qed.
Print Assumptions C07_solution_cm_unique_ensemble.

(** With at least three nodes the parameters themselves are unique. *)
Theorem C07_solution_cm_unique_parameters :
  forall n m cls c k x z,
  classes n m cls c -> (3 <= n)%nat ->
  (forall q, (q < m)%nat -> 0 < x q) -> (forall q, (q < m)%nat -> 0 < z q) ->
  (forall i, (i < n)%nat -> expected_degree_cm n (fun j => x (cls j)) i = k (cls i)) ->
  (forall i, (i < n)%nat -> expected_degree_cm n (fun j => z (cls j)) i = k (cls i)) ->
  forall i, (i < n)%nat -> z (cls i) = x (cls i).
Proof. exact solution_cm_unique_parameters. Qed.
Print Assumptions C07_solution_cm_unique_parameters.

(** C08 *)
Theorem C08_probabilities_add_up_to_one :
  forall n p, mean_undirected n p (fun _ => 1) = 1.
Proof. exact mean_undirected_one. Qed.
Print Assumptions C08_probabilities_add_up_to_one.

Theorem C08_expected_degree_cm_is_ensemble_mean :
  forall n x i, (i < n)%nat ->
  mean_undirected n (p_ubcm x) (fun a => deg n a i) = expected_degree_cm n x i.
Proof. exact expected_degree_cm_mean. Qed.
Print Assumptions C08_expected_degree_cm_is_ensemble_mean.

Theorem C08_pmatrix_cm :
  forall n x,
  (forall i, (i < n)%nat -> 0 <= x i) ->
  (forall i j, (i < n)%nat -> (j < n)%nat ->
     pmatrix_cm x i j = pmatrix_cm x j i /\ 0 <= pmatrix_cm x i j < 1) /\
  (forall i, pmatrix_cm x i i = 0) /\
  (forall i, (i < n)%nat -> rsum n (fun j => pmatrix_cm x i j) = expected_degree_cm n x i).
Proof. exact pmatrix_cm_props. Qed.
Print Assumptions C08_pmatrix_cm.

(** The enumeration behind the mean contains every simple graph, and two
    positions of it never hold the same graph. *)
Theorem C08_enumeration_complete :
  forall n b, simple_graph n b ->
  exists a, In a (all_ugraphs n) /\ forall i j, (i < n)%nat -> (j < n)%nat -> a i j = b i j.
Proof. exact all_ugraphs_complete. Qed.
Print Assumptions C08_enumeration_complete.

Theorem C08_enumeration_distinct :
  forall n,
  List.ForallOrdPairs (fun a b : nat -> nat -> bool =>
     exists i j, (i < n)%nat /\ (j < n)%nat /\ a i j <> b i j) (all_ugraphs n).
Proof. exact all_ugraphs_distinct. Qed.
Print Assumptions C08_enumeration_distinct.

(** C09 *)
Theorem C09_reduction_loglikelihood_cm :
  forall n m cls c k x, classes n m cls c ->
  loglikelihood_cm m k c x =
  loglikelihood_cm n (fun i => k (cls i)) (fun _ => 1) (fun i => x (cls i)).
Proof. exact reduction_loglik_cm. Qed.
Print Assumptions C09_reduction_loglikelihood_cm.

Theorem C09_reduction_gradient_cm :
  forall n m cls c k x i, classes n m cls c -> (i < n)%nat ->
  loglikelihood_prime_cm m k c x (cls i) =
  c (cls i) * loglikelihood_prime_cm n (fun i => k (cls i)) (fun _ => 1) (fun i => x (cls i)) i.
Proof. exact reduction_prime_cm. Qed.
Print Assumptions C09_reduction_gradient_cm.

Theorem C09_reduction_iterative_cm :
  forall n m cls c k x i, classes n m cls c -> (i < n)%nat ->
  iterative_cm m k c x (cls i) =
  iterative_cm n (fun i => k (cls i)) (fun _ => 1) (fun i => x (cls i)) i.
Proof. exact reduction_iterative_cm. Qed.
Print Assumptions C09_reduction_iterative_cm.

Theorem C09_reduction_loglikelihood_cm_exp :
  forall n m cls c k x, classes n m cls c ->
  loglikelihood_cm_exp m k c x =
  loglikelihood_cm_exp n (fun i => k (cls i)) (fun _ => 1) (fun i => x (cls i)).
Proof. exact reduction_loglik_cm_exp. Qed.
Print Assumptions C09_reduction_loglikelihood_cm_exp.

Theorem C09_reduction_gradient_cm_exp :
  forall n m cls c k x i, classes n m cls c -> (i < n)%nat ->
  loglikelihood_prime_cm_exp m k c x (cls i) =
  c (cls i) * loglikelihood_prime_cm_exp n (fun i => k (cls i)) (fun _ => 1) (fun i => x (cls i)) i.
Proof. exact reduction_prime_cm_exp. Qed.
Print Assumptions C09_reduction_gradient_cm_exp.

Theorem C09_reduction_iterative_cm_exp :
  forall n m cls c k x i, classes n m cls c -> (i < n)%nat ->
  iterative_cm_exp m k c x (cls i) =
  iterative_cm_exp n (fun i => k (cls i)) (fun _ => 1) (fun i => x (cls i)) i.
Proof. exact reduction_iterative_cm_exp. Qed.
Print Assumptions C09_reduction_iterative_cm_exp.
