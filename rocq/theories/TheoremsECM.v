(** UECM: the properties.  Each proof is one [exact] of a lemma. *)
From Coq Require Import Reals List Arith Lia Lra.
From Coquelicot Require Import Coquelicot.
From Verif Require Import Base SpecDeriv SpecGraph SpecWeighted ModelECM.
From Verif Require Import ProofsPairW ProofsECM ProofsMainECM.
Local Open Scope R_scope.

(** C10 *)
Theorem C10_loglikelihood_ecm_is_logprob :
  forall n k s sol w,
  weighted_graph n w ->
  (forall i, (i < n)%nat -> k i = wdeg n w i) ->
  (forall i, (i < n)%nat -> s i = wstr n w i) ->
  ecm_dom n sol ->
  loglikelihood_ecm n k s sol =
  ln (prob_wundirected n (fun i j => q_enh (sol i * sol j) (sol (i + n)%nat * sol (j + n)%nat)) w).
Proof. exact loglik_ecm_logprob. Qed.
Print Assumptions C10_loglikelihood_ecm_is_logprob.

Theorem C10_loglikelihood_ecm_exp_is_logprob :
  forall n k s sol w,
  weighted_graph n w ->
  (forall i, (i < n)%nat -> k i = wdeg n w i) ->
  (forall i, (i < n)%nat -> s i = wstr n w i) ->
  ecm_exp_dom n sol ->
  loglikelihood_ecm_exp n k s sol =
  ln (prob_wundirected n (fun i j => q_enh (exp (- sol i) * exp (- sol j))
        (exp (- sol (i + n)%nat) * exp (- sol (j + n)%nat))) w).
Proof. exact loglik_ecm_exp_logprob. Qed.
Print Assumptions C10_loglikelihood_ecm_exp_is_logprob.

Theorem C10_pair_law_is_a_distribution :
  forall z y, 0 < z -> 0 < y < 1 ->
  (forall w, 0 < q_enh z y w) /\ is_series (q_enh z y) 1.
Proof. exact (fun z y Hz Hy => conj (fun w => q_enh_pos z y w Hz Hy) (q_enh_total z y Hz Hy)). Qed.
Print Assumptions C10_pair_law_is_a_distribution.

Example C10_nonvacuous :
  weighted_graph 4 wring4 /\ (forall i, (i < 4)%nat -> 2 = wdeg 4 wring4 i) /\
  (forall i, (i < 4)%nat -> 4 = wstr 4 wring4 i) /\
  ecm_dom 4 wring4_sol /\ ecm_exp_dom 4 wring4_theta.
Proof.
  exact (conj wring4_graph (conj wring4_deg (conj wring4_str (conj wring4_dom wring4_exp_dom)))).
Qed.

(** C11 *)
Theorem C11_gradient_ecm :
  forall n k s sol r,
  (r < 2 * n)%nat -> ecm_dom n sol ->
  partial (loglikelihood_ecm n k s) sol r (loglikelihood_prime_ecm n k s sol r).
Proof. exact gradient_ecm. Qed.
Print Assumptions C11_gradient_ecm.

Theorem C11_gradient_ecm_exp :
  forall n k s sol r,
  (r < 2 * n)%nat -> ecm_exp_dom n sol ->
  partial (loglikelihood_ecm_exp n k s) sol r (loglikelihood_prime_ecm_exp n k s sol r).
Proof. exact gradient_ecm_exp. Qed.
Print Assumptions C11_gradient_ecm_exp.

Example C11_nonvacuous : ecm_dom 4 wring4_sol /\ ecm_exp_dom 4 wring4_theta.
Proof. exact (conj wring4_dom wring4_exp_dom). Qed.

(** C12 *)
Theorem C12_newton_ecm :
  forall n k s sol r t,
  (r < 2 * n)%nat -> (t < 2 * n)%nat -> ecm_dom n sol ->
  partial (fun z => loglikelihood_prime_ecm n k s z r) sol t
    (loglikelihood_hessian_ecm n k s sol r t).
Proof. exact hessian_ecm_correct. Qed.
Print Assumptions C12_newton_ecm.

Theorem C12_quasinewton_ecm :
  forall n k s sol r,
  (r < 2 * n)%nat -> ecm_dom n sol ->
  partial (fun z => loglikelihood_prime_ecm n k s z r) sol r
    (loglikelihood_hessian_diag_ecm n k s sol r).
Proof. exact hessian_diag_ecm_correct. Qed.
Print Assumptions C12_quasinewton_ecm.

Theorem C12_newton_ecm_exp :
  forall n k s sol r t,
  (r < 2 * n)%nat -> (t < 2 * n)%nat -> ecm_exp_dom n sol ->
  partial (fun z => loglikelihood_prime_ecm_exp n k s z r) sol t
    (loglikelihood_hessian_ecm_exp n sol r t).
Proof. exact hessian_ecm_exp_correct. Qed.
Print Assumptions C12_newton_ecm_exp.

Theorem C12_quasinewton_ecm_exp :
  forall n k s sol r,
  (r < 2 * n)%nat -> ecm_exp_dom n sol ->
  partial (fun z => loglikelihood_prime_ecm_exp n k s z r) sol r
    (loglikelihood_hessian_diag_ecm_exp n sol r).
Proof. exact hessian_diag_ecm_exp_correct. Qed.
Print Assumptions C12_quasinewton_ecm_exp.

Example C12_nonvacuous : ecm_dom 4 wring4_sol /\ ecm_exp_dom 4 wring4_theta.
Proof. exact (conj wring4_dom wring4_exp_dom). Qed.

(** C13 *)
Theorem C13_stationary_ecm_iff :
  forall n k s sol,
  ecm_dom n sol ->
  ((forall r, (r < 2 * n)%nat -> loglikelihood_prime_ecm n k s sol r = 0) <->
   (forall i, (i < n)%nat -> expected_ecm n sol i = k i /\ expected_ecm n sol (i + n) = s i)).
Proof. exact stationary_ecm_iff. Qed.
Print Assumptions C13_stationary_ecm_iff.

Theorem C13_stationary_ecm_exp_iff :
  forall n k s sol,
  ecm_exp_dom n sol ->
  ((forall r, (r < 2 * n)%nat -> loglikelihood_prime_ecm_exp n k s sol r = 0) <->
   (forall i, (i < n)%nat -> expected_ecm n (fun r => exp (- sol r)) i = k i /\
      expected_ecm n (fun r => exp (- sol r)) (i + n) = s i)).
Proof. exact stationary_ecm_exp_iff. Qed.
Print Assumptions C13_stationary_ecm_exp_iff.

Theorem C13_expected_ecm_are_averages :
  forall n sol i,
  (i < n)%nat -> ecm_dom n sol ->
  exists pd pw : nat -> R,
    (forall j, (j < n)%nat -> j <> i ->
       let q := q_enh (sol i * sol j) (sol (i + n)%nat * sol (j + n)%nat) in
       is_series q 1 /\ is_series (fun w => ind (linked w) * q w) (pd j) /\
       is_series (fun w => INR w * q w) (pw j)) /\
    expected_ecm n sol i = rsum n (fun j => if Nat.eqb i j then 0 else pd j) /\
    expected_ecm n sol (i + n) = rsum n (fun j => if Nat.eqb i j then 0 else pw j).
Proof. exact expected_ecm_means. Qed.
Print Assumptions C13_expected_ecm_are_averages.

Example C13_nonvacuous :
  ecm_dom 4 wring4_sol /\
  (forall i, (i < 4)%nat -> expected_ecm 4 wring4_sol i = 2 /\ expected_ecm 4 wring4_sol (i + 4) = 4).
Proof. exact (conj wring4_dom wring4_solution). Qed.

(** C14 *)
Theorem C14_fixed_point_ecm_iff :
  forall n k s sol r,
  (2 <= n)%nat -> (r < 2 * n)%nat -> ecm_dom n sol ->
  (forall i, (i < n)%nat -> 0 < k i /\ 0 < s i) ->
  (iterative_ecm n k s sol r = sol r <-> loglikelihood_prime_ecm n k s sol r = 0).
Proof. exact fixed_point_ecm_iff. Qed.
Print Assumptions C14_fixed_point_ecm_iff.

Theorem C14_fixed_point_ecm_exp_iff :
  forall n k s sol r,
  (2 <= n)%nat -> (r < 2 * n)%nat -> ecm_exp_dom n sol ->
  (forall i, (i < n)%nat -> 0 < k i /\ 0 < s i) ->
  (iterative_ecm_exp n k s sol r = sol r <-> loglikelihood_prime_ecm_exp n k s sol r = 0).
Proof. exact fixed_point_ecm_exp_iff. Qed.
Print Assumptions C14_fixed_point_ecm_exp_iff.

Example C14_nonvacuous :
  ecm_dom 4 wring4_sol /\ ecm_exp_dom 4 wring4_theta /\ 0 < 2 /\ 0 < 4 /\
  (forall i, (i < 4)%nat -> expected_ecm 4 wring4_sol i = 2 /\ expected_ecm 4 wring4_sol (i + 4) = 4).
Proof.
  exact (conj wring4_dom (conj wring4_exp_dom
    (conj (ltac:(lra) : 0 < 2) (conj (ltac:(lra) : 0 < 4) wring4_solution)))).
Qed.

(** C15 *)
Theorem C15_solution_ecm_is_global_max :
  forall n k s sol z,
  ecm_dom n sol -> ecm_dom n z ->
  (forall i, (i < n)%nat -> expected_ecm n sol i = k i /\ expected_ecm n sol (i + n) = s i) ->
  loglikelihood_ecm n k s z <= loglikelihood_ecm n k s sol.
Proof. exact solution_ecm_max. Qed.
Print Assumptions C15_solution_ecm_is_global_max.

Theorem C15_maximum_ecm_is_attained_only_by_the_same_ensemble :
  forall n k s sol z,
  ecm_dom n sol -> ecm_dom n z ->
  (forall i, (i < n)%nat -> expected_ecm n sol i = k i /\ expected_ecm n sol (i + n) = s i) ->
  loglikelihood_ecm n k s z = loglikelihood_ecm n k s sol ->
  forall i j, (i < n)%nat -> (j < n)%nat -> i <> j ->
    z i * z j = sol i * sol j /\ z (i + n)%nat * z (j + n)%nat = sol (i + n)%nat * sol (j + n)%nat.
Proof. exact solution_ecm_strict. Qed.
Print Assumptions C15_maximum_ecm_is_attained_only_by_the_same_ensemble.

Theorem C15_solution_ecm_ensemble_unique :
  forall n k s sol z,
  ecm_dom n sol -> ecm_dom n z ->
  (forall i, (i < n)%nat -> expected_ecm n sol i = k i /\ expected_ecm n sol (i + n) = s i) ->
  (forall i, (i < n)%nat -> expected_ecm n z i = k i /\ expected_ecm n z (i + n) = s i) ->
  forall i j w, (i < n)%nat -> (j < n)%nat -> i <> j ->
    q_enh (z i * z j) (z (i + n)%nat * z (j + n)%nat) w =
    q_enh (sol i * sol j) (sol (i + n)%nat * sol (j + n)%nat) w.
Proof. exact solution_ecm_unique. Qed.
Print Assumptions C15_solution_ecm_ensemble_unique.

Theorem C15_solution_ecm_parameters_unique :
  forall n k s sol z,
  (3 <= n)%nat -> ecm_dom n sol -> ecm_dom n z ->
  (forall i, (i < n)%nat -> expected_ecm n sol i = k i /\ expected_ecm n sol (i + n) = s i) ->
  (forall i, (i < n)%nat -> expected_ecm n z i = k i /\ expected_ecm n z (i + n) = s i) ->
  forall r, (r < 2 * n)%nat -> z r = sol r.
Proof. exact solution_ecm_unique_parameters. Qed.
Print Assumptions C15_solution_ecm_parameters_unique.

Theorem C15_solution_ecm_exp_is_global_max :
  forall n k s sol z,
  ecm_exp_dom n sol -> ecm_exp_dom n z ->
  (forall i, (i < n)%nat -> expected_ecm n (fun r => exp (- sol r)) i = k i /\
      expected_ecm n (fun r => exp (- sol r)) (i + n) = s i) ->
  loglikelihood_ecm_exp n k s z <= loglikelihood_ecm_exp n k s sol.
Proof. exact solution_ecm_exp_max. Qed.
Print Assumptions C15_solution_ecm_exp_is_global_max.

Example C15_nonvacuous :
  ecm_dom 4 wring4_sol /\
  (forall i, (i < 4)%nat -> expected_ecm 4 wring4_sol i = 2 /\ expected_ecm 4 wring4_sol (i + 4) = 4).
Proof. exact (conj wring4_dom wring4_solution). Qed.
