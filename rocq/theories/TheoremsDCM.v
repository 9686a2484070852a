(** DBCM: the properties.  Each proof is one [exact] of a lemma.
    [m] classes (positions of the arrays), [n] nodes, [cls] the inverse map of
    degree_reduction, [nzo]/[nzi] the index arrays of the non-zero degrees. *)
From Coq Require Import Reals List Arith Lia Lra.
From Verif Require Import Base SpecDeriv SpecGraph SpecEnsemble SpecDirected ModelDCM.
From Verif Require Import ProofsEnsemble ProofsDCM ProofsMainDCM ProofsFixDCM.
Local Open Scope R_scope.
Import ListNotations.

(** C19 *)
Theorem C19_loglikelihood_dcm_is_logprob :
  forall n m cls k_out k_in nzo nzi c x a,
  loopless n a -> classes n m cls c ->
  nonzero_list m k_out nzo -> nonzero_list m k_in nzi -> dcm_full m nzo nzi x ->
  (forall i, (i < n)%nat -> k_out (cls i) = deg n a i) ->
  (forall i, (i < n)%nat -> k_in (cls i) = indeg n a i) ->
  loglikelihood_dcm m k_out k_in nzo nzi c x =
  ln (prob_directed n (p_dbcm (fun i => x (cls i)) (fun j => x (cls j + m)%nat)) a).
Proof. exact loglik_dcm_logprob. Qed.
Print Assumptions C19_loglikelihood_dcm_is_logprob.

Theorem C19_loglikelihood_dcm_exp_is_logprob :
  forall n m cls k_out k_in nzo nzi c theta x a,
  loopless n a -> classes n m cls c ->
  nonzero_list m k_out nzo -> nonzero_list m k_in nzi -> dcm_full m nzo nzi x ->
  (forall i, In i nzo -> x i = exp (- theta i)) ->
  (forall j, In j nzi -> x (j + m)%nat = exp (- theta (j + m)%nat)) ->
  (forall i, (i < n)%nat -> k_out (cls i) = deg n a i) ->
  (forall i, (i < n)%nat -> k_in (cls i) = indeg n a i) ->
  loglikelihood_dcm_exp m k_out k_in nzo nzi c theta =
  ln (prob_directed n (p_dbcm (fun i => x (cls i)) (fun j => x (cls j + m)%nat)) a).
Proof. exact loglik_dcm_exp_logprob. Qed.
Print Assumptions C19_loglikelihood_dcm_exp_is_logprob.

Example C19_nonvacuous :
  loopless 4 bip4 /\ classes 4 2 bip4_cls (fun _ => 2) /\
  (forall i, (i < 4)%nat -> bip4_out (bip4_cls i) = deg 4 bip4 i) /\
  (forall i, (i < 4)%nat -> bip4_in (bip4_cls i) = indeg 4 bip4 i) /\
  nonzero_list 2 bip4_out [1%nat] /\ nonzero_list 2 bip4_in [0%nat] /\
  dcm_full 2 [1%nat] [0%nat] bip4_x.
Proof. exact bip4_facts. Qed.

(** C20 *)
Theorem C20_gradient_dcm :
  forall n k_out k_in nzo nzi c x r,
  (r < 2 * n)%nat -> index_list n nzo -> index_list n nzi -> dcm_dom n nzo nzi x ->
  partial (loglikelihood_dcm n k_out k_in nzo nzi c) x r
    (loglikelihood_prime_dcm n k_out k_in nzo nzi c x r).
Proof. exact gradient_dcm. Qed.
Print Assumptions C20_gradient_dcm.

Theorem C20_gradient_dcm_exp :
  forall n k_out k_in nzo nzi c x r,
  (r < 2 * n)%nat -> index_list n nzo -> index_list n nzi ->
  partial (loglikelihood_dcm_exp n k_out k_in nzo nzi c) x r
    (loglikelihood_prime_dcm_exp n k_out k_in nzo nzi c x r).
Proof. exact gradient_dcm_exp. Qed.
Print Assumptions C20_gradient_dcm_exp.

(** C21 *)
Theorem C21_newton_dcm :
  forall n k_out k_in nzo nzi c x r t,
  (r < 2 * n)%nat -> (t < 2 * n)%nat -> index_list n nzo -> index_list n nzi -> dcm_dom n nzo nzi x ->
  partial (fun z => loglikelihood_prime_dcm n k_out k_in nzo nzi c z r) x t
    (loglikelihood_hessian_dcm n k_out k_in nzo nzi c x r t).
Proof. exact hessian_dcm_correct. Qed.
Print Assumptions C21_newton_dcm.

Theorem C21_newton_dcm_exp :
  forall n k_out k_in nzo nzi c x r t,
  (r < 2 * n)%nat -> (t < 2 * n)%nat -> index_list n nzo -> index_list n nzi ->
  partial (fun z => loglikelihood_prime_dcm_exp n k_out k_in nzo nzi c z r) x t
    (loglikelihood_hessian_dcm_exp n nzo nzi c x r t).
Proof. exact hessian_dcm_exp_correct. Qed.
Print Assumptions C21_newton_dcm_exp.

(** C22: false for dcm on reduced problems (the class multiplicity is missing);
    exact where it holds; true for dcm_exp. *)
Theorem C22_quasinewton_dcm_refuted :
  exists n m cls k_out k_in nzo nzi c x a r,
    loopless n a /\ classes n m cls c /\
    (forall i, (i < n)%nat -> k_out (cls i) = deg n a i) /\
    (forall i, (i < n)%nat -> k_in (cls i) = indeg n a i) /\
    nonzero_list m k_out nzo /\ nonzero_list m k_in nzi /\ dcm_full m nzo nzi x /\ (r < 2 * m)%nat /\
    ~ partial (fun z => loglikelihood_prime_dcm m k_out k_in nzo nzi c z r) x r
        (loglikelihood_hessian_diag_dcm m k_out k_in nzo nzi c x r).
Proof. exact quasinewton_dcm_refuted. Qed.
Print Assumptions C22_quasinewton_dcm_refuted.

Theorem C22_quasinewton_dcm_iff :
  forall n k_out k_in nzo nzi c x r,
  (r < 2 * n)%nat -> index_list n nzo -> index_list n nzi -> dcm_dom n nzo nzi x ->
  (partial (fun z => loglikelihood_prime_dcm n k_out k_in nzo nzi c z r) x r
     (loglikelihood_hessian_diag_dcm n k_out k_in nzo nzi c x r)
   <-> (c (node_of n r) - 1) * loglikelihood_hessian_diag_dcm n k_out k_in nzo nzi c x r = 0).
Proof. exact hessian_diag_dcm_iff. Qed.
Print Assumptions C22_quasinewton_dcm_iff.

Theorem C22_quasinewton_dcm_unreduced :
  forall n k_out k_in nzo nzi x r,
  (r < 2 * n)%nat -> index_list n nzo -> index_list n nzi -> dcm_dom n nzo nzi x ->
  partial (fun z => loglikelihood_prime_dcm n k_out k_in nzo nzi (fun _ => 1) z r) x r
     (loglikelihood_hessian_diag_dcm n k_out k_in nzo nzi (fun _ => 1) x r).
Proof. exact hessian_diag_dcm_unreduced. Qed.
Print Assumptions C22_quasinewton_dcm_unreduced.

Theorem C22_quasinewton_dcm_exp :
  forall n k_out k_in nzo nzi c x r,
  (r < 2 * n)%nat -> index_list n nzo -> index_list n nzi ->
  partial (fun z => loglikelihood_prime_dcm_exp n k_out k_in nzo nzi c z r) x r
    (loglikelihood_hessian_diag_dcm_exp n nzo nzi c x r).
Proof. exact hessian_diag_dcm_exp_correct. Qed.
Print Assumptions C22_quasinewton_dcm_exp.

(** C23 *)
Theorem C23_stationary_dcm_iff_degrees :
  forall n m cls k_out k_in nzo nzi c x,
  classes n m cls c -> nonzero_list m k_out nzo -> nonzero_list m k_in nzi ->
  dcm_full m nzo nzi x ->
  ((forall r, (r < 2 * m)%nat -> loglikelihood_prime_dcm m k_out k_in nzo nzi c x r = 0) <->
   (forall i, (i < n)%nat ->
     expected_out_degree_dcm n (expand n m cls x) i = k_out (cls i) /\
     expected_in_degree_dcm n (expand n m cls x) i = k_in (cls i))).
Proof. exact stationary_dcm_iff. Qed.
Print Assumptions C23_stationary_dcm_iff_degrees.

Theorem C23_stationary_dcm_exp_iff_degrees :
  forall n m cls k_out k_in nzo nzi c x,
  classes n m cls c -> nonzero_list m k_out nzo -> nonzero_list m k_in nzi ->
  dcm_full m nzo nzi x ->
  forall theta,
  (forall i, In i nzo -> x i = exp (- theta i)) ->
  (forall j, In j nzi -> x (j + m)%nat = exp (- theta (j + m)%nat)) ->
  ((forall r, (r < 2 * m)%nat -> loglikelihood_prime_dcm_exp m k_out k_in nzo nzi c theta r = 0) <->
   (forall i, (i < n)%nat ->
     expected_out_degree_dcm n (expand n m cls x) i = k_out (cls i) /\
     expected_in_degree_dcm n (expand n m cls x) i = k_in (cls i))).
Proof. exact stationary_dcm_exp_iff. Qed.
Print Assumptions C23_stationary_dcm_exp_iff_degrees.

Theorem C23_expected_out_degree_is_ensemble_mean :
  forall n sol i,
  (i < n)%nat ->
  mean_directed n (p_dbcm sol (fun j => sol (j + n)%nat)) (fun a => deg n a i) =
  expected_out_degree_dcm n sol i.
Proof. exact expected_out_degree_dcm_mean. Qed.
Print Assumptions C23_expected_out_degree_is_ensemble_mean.

Theorem C23_expected_in_degree_is_ensemble_mean :
  forall n sol i,
  (i < n)%nat ->
  mean_directed n (p_dbcm sol (fun j => sol (j + n)%nat)) (fun a => indeg n a i) =
  expected_in_degree_dcm n sol i.
Proof. exact expected_in_degree_dcm_mean. Qed.
Print Assumptions C23_expected_in_degree_is_ensemble_mean.

Theorem C23_probabilities_add_up_to_one :
  forall n p, mean_directed n p (fun _ => 1) = 1.
Proof. exact mean_directed_one. Qed.
Print Assumptions C23_probabilities_add_up_to_one.

Theorem C23_enumeration_complete :
  forall n b, loopless n b ->
  exists a, In a (all_digraphs n) /\ forall i j, (i < n)%nat -> (j < n)%nat -> a i j = b i j.
Proof. exact all_digraphs_complete. Qed.
Print Assumptions C23_enumeration_complete.

Theorem C23_expected_in_degree_dcm_exp :
  forall n theta i,
  (i < n)%nat ->
  expected_in_degree_dcm_exp n theta i = expected_in_degree_dcm n (fun r => exp (- theta r)) i.
Proof. exact expected_in_degree_dcm_exp_eq. Qed.
Print Assumptions C23_expected_in_degree_dcm_exp.

(** The out-degree version of the exponential functions pairs the out-parameters
    with each other instead of with the in-parameters. *)
Theorem C23_expected_out_degree_dcm_exp_refuted :
  exists n theta i, (i < n)%nat /\
    expected_out_degree_dcm_exp n theta i <> expected_out_degree_dcm n (fun r => exp (- theta r)) i.
Proof. exact expected_out_degree_dcm_exp_refuted. Qed.
Print Assumptions C23_expected_out_degree_dcm_exp_refuted.

Theorem C23_expected_out_degree_dcm_exp_actual :
  forall n theta i,
  (i < n)%nat ->
  expected_out_degree_dcm_exp n theta i =
  rsum n (fun j => if Nat.eqb i j then 0 else p_ubcm (fun j => exp (- theta j)) i j).
Proof. exact expected_out_degree_dcm_exp_is. Qed.
Print Assumptions C23_expected_out_degree_dcm_exp_actual.

Theorem C23_pmatrix_dcm :
  forall n io ii sol,
  nonzero_list n sol io -> nonzero_list n (fun j => sol (j + n)%nat) ii ->
  (forall r, (r < 2 * n)%nat -> 0 <= sol r) ->
  (forall i j, (i < n)%nat -> (j < n)%nat ->
     0 <= pmatrix_dcm n io ii sol i j < 1 /\
     (i <> j -> pmatrix_dcm n io ii sol i j = p_dbcm sol (fun j => sol (j + n)%nat) i j)) /\
  (forall i, pmatrix_dcm n io ii sol i i = 0) /\
  (forall i, (i < n)%nat -> rsum n (fun j => pmatrix_dcm n io ii sol i j) = expected_out_degree_dcm n sol i) /\
  (forall j, (j < n)%nat -> rsum n (fun i => pmatrix_dcm n io ii sol i j) = expected_in_degree_dcm n sol j).
Proof. exact pmatrix_dcm_props. Qed.
Print Assumptions C23_pmatrix_dcm.

Example C23_nonvacuous :
  forall i, (i < 4)%nat ->
  expected_out_degree_dcm 4 (expand 4 2 bip4_cls bip4_x) i = bip4_out (bip4_cls i) /\
  expected_in_degree_dcm 4 (expand 4 2 bip4_cls bip4_x) i = bip4_in (bip4_cls i).
Proof. exact bip4_solution. Qed.

(** C24 *)
Theorem C24_fixed_point_dcm :
  forall n k_out k_in nzo nzi c,
  nonzero_list n k_out nzo -> nonzero_list n k_in nzi ->
  forall x r,
  dcm_full n nzo nzi x -> (r < 2 * n)%nat ->
  (forall q, (q < n)%nat -> 0 < c q) ->
  (forall q, (q < n)%nat -> 0 <= k_out q /\ 0 <= k_in q) ->
  (In r nzo \/ exists j, In j nzi /\ r = (j + n)%nat) ->
  (iterative_dcm n k_out k_in c x r = Fin (x r) <->
   loglikelihood_prime_dcm n k_out k_in nzo nzi c x r = 0).
Proof. exact fixed_point_dcm_iff. Qed.
Print Assumptions C24_fixed_point_dcm.

Theorem C24_fixed_point_dcm_exp :
  forall n k_out k_in nzo nzi c,
  nonzero_list n k_out nzo -> nonzero_list n k_in nzi ->
  forall theta th r,
  theta_full n nzo nzi theta th -> (r < 2 * n)%nat ->
  (forall q, (q < n)%nat -> 1 <= c q) ->
  (forall q, (q < n)%nat -> 0 <= k_out q /\ 0 <= k_in q) ->
  (In r nzo \/ exists j, In j nzi /\ r = (j + n)%nat) ->
  (iterative_dcm_exp n k_out k_in c theta r = Fin (th r) <->
   loglikelihood_prime_dcm_exp n k_out k_in nzo nzi c th r = 0).
Proof. exact fixed_point_dcm_exp_iff. Qed.
Print Assumptions C24_fixed_point_dcm_exp.

(** The alternative map [iterative_dcm_exp_2] has the same values on positive
    degrees and NaN on zero degrees. *)
Theorem C24_iterative_dcm_exp_2_positive_degree :
  forall n k_out k_in nzo nzi c,
  nonzero_list n k_out nzo -> nonzero_list n k_in nzi ->
  forall theta th r,
  theta_full n nzo nzi theta th ->
  (In r nzo \/ exists j, In j nzi /\ r = (j + n)%nat) ->
  iterative_dcm_exp_2 n k_out k_in nzo nzi c theta r = iterative_dcm_exp n k_out k_in c theta r.
Proof. exact iterative_dcm_exp_2_eq. Qed.
Print Assumptions C24_iterative_dcm_exp_2_positive_degree.

Theorem C24_iterative_dcm_exp_2_zero_degree :
  forall n k_out k_in nzo nzi c theta r, (r < 2 * n)%nat ->
  ((r < n)%nat /\ k_out r = 0 \/ (n <= r)%nat /\ k_in (r - n)%nat = 0) ->
  iterative_dcm_exp_2 n k_out k_in nzo nzi c theta r = NaN.
Proof. exact iterative_dcm_exp_2_zero. Qed.
Print Assumptions C24_iterative_dcm_exp_2_zero_degree.

(** Zero degrees: 0 unless the denominator vanishes, then NaN; a graph with one
    link reaches the NaN. *)
Theorem C24_iterative_dcm_zero_degree :
  forall n k_out k_in c x i,
  (i < n)%nat -> k_out i = 0 ->
  (iterative_dcm n k_out k_in c x i = Fin 0 <-> dcm_f_out n c x i <> 0) /\
  (iterative_dcm n k_out k_in c x i = NaN <-> dcm_f_out n c x i = 0).
Proof. exact iterative_dcm_zero. Qed.
Print Assumptions C24_iterative_dcm_zero_degree.

Theorem C24_iterative_dcm_nan :
  exists n k_out k_in nzo nzi x a r,
    loopless n a /\
    (forall i, (i < n)%nat -> k_out i = deg n a i) /\ (forall i, (i < n)%nat -> k_in i = indeg n a i) /\
    nonzero_list n k_out nzo /\ nonzero_list n k_in nzi /\ dcm_full n nzo nzi x /\ (r < 2 * n)%nat /\
    iterative_dcm n k_out k_in (fun _ => 1) x r = NaN.
Proof. exact iterative_dcm_nan. Qed.
Print Assumptions C24_iterative_dcm_nan.

Example C24_nonvacuous :
  iterative_dcm 2 bip4_out bip4_in (fun _ => 2) bip4_x 1 = Fin 1 /\
  iterative_dcm 2 bip4_out bip4_in (fun _ => 2) bip4_x 2 = Fin 1.
Proof. exact bip4_fixed. Qed.

(** C25 *)
Theorem C25_solution_dcm_is_global_maximum :
  forall n m cls k_out k_in nzo nzi c x z,
  classes n m cls c -> nonzero_list m k_out nzo -> nonzero_list m k_in nzi ->
  dcm_full m nzo nzi x -> dcm_dom m nzo nzi z ->
  (forall i, (i < n)%nat ->
     expected_out_degree_dcm n (expand n m cls x) i = k_out (cls i) /\
     expected_in_degree_dcm n (expand n m cls x) i = k_in (cls i)) ->
  loglikelihood_dcm m k_out k_in nzo nzi c z <= loglikelihood_dcm m k_out k_in nzo nzi c x.
Proof. exact solution_dcm_max. Qed.
Print Assumptions C25_solution_dcm_is_global_maximum.

Theorem C25_solution_dcm_exp_is_global_maximum :
  forall n m cls k_out k_in nzo nzi c x theta z,
  classes n m cls c -> nonzero_list m k_out nzo -> nonzero_list m k_in nzi ->
  dcm_full m nzo nzi x ->
  (forall i, In i nzo -> x i = exp (- theta i)) ->
  (forall j, In j nzi -> x (j + m)%nat = exp (- theta (j + m)%nat)) ->
  (forall i, (i < n)%nat ->
     expected_out_degree_dcm n (expand n m cls x) i = k_out (cls i) /\
     expected_in_degree_dcm n (expand n m cls x) i = k_in (cls i)) ->
  loglikelihood_dcm_exp m k_out k_in nzo nzi c z <= loglikelihood_dcm_exp m k_out k_in nzo nzi c theta.
Proof. exact solution_dcm_exp_max. Qed.
Print Assumptions C25_solution_dcm_exp_is_global_maximum.

Theorem C25_solution_dcm_unique_ensemble :
  forall n m cls k_out k_in nzo nzi c x z,
  classes n m cls c -> nonzero_list m k_out nzo -> nonzero_list m k_in nzi ->
  dcm_full m nzo nzi x -> dcm_full m nzo nzi z ->
  (forall i, (i < n)%nat ->
     expected_out_degree_dcm n (expand n m cls x) i = k_out (cls i) /\
     expected_in_degree_dcm n (expand n m cls x) i = k_in (cls i)) ->
  (forall i, (i < n)%nat ->
     expected_out_degree_dcm n (expand n m cls z) i = k_out (cls i) /\
     expected_in_degree_dcm n (expand n m cls z) i = k_in (cls i)) ->
  forall io ii i j, (i < n)%nat -> (j < n)%nat ->
  pmatrix_dcm n io ii (expand n m cls z) i j = pmatrix_dcm n io ii (expand n m cls x) i j.
Proof. exact solution_dcm_unique. Qed.
Print Assumptions C25_solution_dcm_unique_ensemble.

(** C63 *)
Theorem C63_reduction_loglikelihood_dcm :
  forall n m cls k_out k_in nzo nzi nzo' nzi' c x,
  classes n m cls c -> nonzero_list m k_out nzo -> nonzero_list m k_in nzi ->
  nonzero_list n (fun i => k_out (cls i)) nzo' -> nonzero_list n (fun i => k_in (cls i)) nzi' ->
  dcm_full m nzo nzi x ->
  loglikelihood_dcm m k_out k_in nzo nzi c x =
  loglikelihood_dcm n (fun i => k_out (cls i)) (fun i => k_in (cls i)) nzo' nzi' (fun _ => 1) (expand n m cls x).
Proof. exact reduction_loglik_dcm. Qed.
Print Assumptions C63_reduction_loglikelihood_dcm.

Theorem C63_reduction_gradient_dcm :
  forall n m cls k_out k_in nzo nzi nzo' nzi' c x,
  classes n m cls c -> nonzero_list m k_out nzo -> nonzero_list m k_in nzi ->
  nonzero_list n (fun i => k_out (cls i)) nzo' -> nonzero_list n (fun i => k_in (cls i)) nzi' ->
  dcm_full m nzo nzi x ->
  forall i, (i < n)%nat ->
  loglikelihood_prime_dcm m k_out k_in nzo nzi c x (cls i) = c (cls i) *
  loglikelihood_prime_dcm n (fun i => k_out (cls i)) (fun i => k_in (cls i)) nzo' nzi' (fun _ => 1) (expand n m cls x) i
  /\
  loglikelihood_prime_dcm m k_out k_in nzo nzi c x (cls i + m) = c (cls i) *
  loglikelihood_prime_dcm n (fun i => k_out (cls i)) (fun i => k_in (cls i)) nzo' nzi' (fun _ => 1) (expand n m cls x) (i + n).
Proof. exact reduction_prime_dcm. Qed.
Print Assumptions C63_reduction_gradient_dcm.

Theorem C63_reduction_iterative_dcm :
  forall n m cls k_out k_in c x,
  classes n m cls c ->
  forall i, (i < n)%nat ->
  iterative_dcm m k_out k_in c x (cls i) =
  iterative_dcm n (fun i => k_out (cls i)) (fun i => k_in (cls i)) (fun _ => 1) (expand n m cls x) i /\
  iterative_dcm m k_out k_in c x (cls i + m) =
  iterative_dcm n (fun i => k_out (cls i)) (fun i => k_in (cls i)) (fun _ => 1) (expand n m cls x) (i + n).
Proof. exact reduction_iterative_dcm. Qed.
Print Assumptions C63_reduction_iterative_dcm.
