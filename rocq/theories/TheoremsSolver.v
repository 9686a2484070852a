(** The solver, the regularisers and the line searches: the properties.  Each proof is
    one [exact] of a lemma. *)
From Coq Require Import Reals List Arith Bool Lia Lra.
From Verif Require Import Base SpecGraph SpecWeighted SpecDirected SpecCReMa ModelCM ModelECM ModelDCM ModelDECM ModelCReMa.
From Verif Require Import ModelSolver SpecSolver ProofsSolver ModelLinsearch SpecLinsearch ProofsLinsearch ProofsMainLinsearch WitnessLinsearch
  ProofsRegular ProofsMainDECM ProofsConverged WitnessSolver.
Local Open Scope R_scope.
Import ListNotations.

(** C35.  Arrays, matrices, scalars, comparisons and user functions are arbitrary. *)
Theorem C35_solver_terminates :
  forall (V M S : Type) (N : numerics V M S) (P : problem V M S) (O : options S) (x0 : V),
  solver N P O x0 <> Fuel.
Proof. exact solver_terminates. Qed.
Print Assumptions C35_solver_terminates.

Theorem C35_stop_reason :
  forall (V M S : Type) (N : numerics V M S) (P : problem V M S) (O : options S) (x0 x : V) n norms diffs alfas,
  solver N P O x0 = Full x n norms diffs alfas ->
  (n <= o_max_steps O)%nat /\
  (forall k, (k < n)%nat -> exists a b, nth_error norms k = Some a /\ nth_error diffs k = Some b /\
     gtb N a (o_tol O) = true /\ gtb N b (o_eps O) = true) /\
  (exists a b, nth_error norms n = Some a /\ nth_error diffs n = Some b /\
     (gtb N a (o_tol O) = false \/ n = o_max_steps O \/ gtb N b (o_eps O) = false)).
Proof. exact solver_stop_reason. Qed.
Print Assumptions C35_stop_reason.

Theorem C35_already_converged :
  forall (V M S : Type) (N : numerics V M S) (P : problem V M S) (O : options S) (x0 f0 : V),
  p_fun P x0 = Some f0 -> gtb N (vnorm N f0) (o_tol O) = false ->
  solver N P O x0 = if o_full_return O then Full x0 0 [vnorm N f0] [sone N] [] else Sol x0.
Proof. exact solver_already_converged. Qed.
Print Assumptions C35_already_converged.

Example C35_nonvacuous :
  exists x, converged (numR 1) prob_cm (optR (/ 10) 0 QuasiNewton) (fun _ => 1) x /\
  (forall q, (q < 1)%nat -> 0 < x q) /\ x 0%nat = 7 / 5 /\
  classes 4 1 (fun _ => 0%nat) (fun _ => 4) /\
  (forall z, p_fun prob_cm z = Some (fun q => - loglikelihood_prime_cm 1 (fun _ => 2) (fun _ => 4) z q)) /\
  exact_numerics 1 (numR 1).
Proof. exact run_cm. Qed.

(** C36 *)
Theorem C36_full_return_report :
  forall (V M S : Type) (N : numerics V M S) (P : problem V M S) (O : options S) (x0 x : V) n norms diffs alfas,
  solver N P O x0 = Full x n norms diffs alfas ->
  length norms = (n + 1)%nat /\ length diffs = (n + 1)%nat /\
  length alfas = (if o_linsearch O then n else 0)%nat /\
  (exists f, p_fun P x = Some f /\ nth_error norms n = Some (vnorm N f)) /\
  (exists f0, p_fun P x0 = Some f0 /\ nth_error norms 0 = Some (vnorm N f0)) /\
  nth_error diffs 0 = Some (sone N) /\ (n = 0%nat -> x = x0) /\
  (n <> 0%nat -> exists x_old, nth_error diffs n = Some (vnorm N (vnan_fix N (vsub N x x_old)))).
Proof. exact solver_full_report. Qed.
Print Assumptions C36_full_return_report.

Theorem C36_full_return_same :
  forall (V M S : Type) (N : numerics V M S) (P : problem V M S) (O : options S) (x0 : V),
  (exists x n norms diffs alfas, solver N P (with_full true O) x0 = Full x n norms diffs alfas /\
     solver N P (with_full false O) x0 = Sol x) \/
  (solver N P (with_full true O) x0 = Raised /\ solver N P (with_full false O) x0 = Raised).
Proof. exact solver_full_same. Qed.
Print Assumptions C36_full_return_same.

(** C37.  [converged]: the last recorded norm passes the tolerance test.  The bounds
    hold in exact arithmetic for every model; the fixed-point runs satisfy theirs
    only when stopped by the step test. *)
Theorem C37_converged_cm :
  forall (M : Type) n m cls c k (N : numerics (nat -> R) M R) P O x0 x,
  classes n m cls c -> exact_numerics m N ->
  (forall z f, p_fun P z = Some f -> forall q, (q < m)%nat -> f q = - loglikelihood_prime_cm m k c z q) ->
  converged N P O x0 x -> (forall q, (q < m)%nat -> 0 < x q) ->
  forall i, (i < n)%nat -> Rabs (k (cls i) - expected_degree_cm n (fun j => x (cls j)) i) <= x (cls i) * o_tol O / c (cls i).
Proof. exact converged_cm. Qed.
Print Assumptions C37_converged_cm.

Theorem C37_converged_cm_exp :
  forall (M : Type) n m cls c k (N : numerics (nat -> R) M R) P O x0 x,
  classes n m cls c -> exact_numerics m N ->
  (forall z f, p_fun P z = Some f -> forall q, (q < m)%nat -> f q = - loglikelihood_prime_cm_exp m k c z q) ->
  converged N P O x0 x ->
  forall i, (i < n)%nat -> Rabs (k (cls i) - expected_degree_cm n (fun j => exp (- x (cls j))) i) <= o_tol O / c (cls i).
Proof. exact converged_cm_exp. Qed.
Print Assumptions C37_converged_cm_exp.

Theorem C37_converged_ecm :
  forall (M : Type) n k s (N : numerics (nat -> R) M R) P O x0 x,
  exact_numerics (2 * n) N ->
  (forall z f, p_fun P z = Some f -> forall q, (q < 2 * n)%nat -> f q = - loglikelihood_prime_ecm n k s z q) ->
  converged N P O x0 x -> ecm_dom n x ->
  forall r, (r < 2 * n)%nat ->
    Rabs ((if Nat.ltb r n then k r else s (r - n)%nat) - expected_ecm n x r) <= x r * o_tol O.
Proof. exact converged_ecm. Qed.
Print Assumptions C37_converged_ecm.

Theorem C37_converged_ecm_exp :
  forall (M : Type) n k s (N : numerics (nat -> R) M R) P O x0 x,
  exact_numerics (2 * n) N ->
  (forall z f, p_fun P z = Some f -> forall q, (q < 2 * n)%nat -> f q = - loglikelihood_prime_ecm_exp n k s z q) ->
  converged N P O x0 x -> ecm_exp_dom n x ->
  forall r, (r < 2 * n)%nat ->
    Rabs ((if Nat.ltb r n then k r else s (r - n)%nat) - expected_ecm n (fun r => exp (- x r)) r) <= o_tol O.
Proof. exact converged_ecm_exp. Qed.
Print Assumptions C37_converged_ecm_exp.

Theorem C37_converged_dcm :
  forall (M : Type) n m cls k_out k_in nzo nzi c (N : numerics (nat -> R) M R) P O x0 x,
  classes n m cls c -> nonzero_list m k_out nzo -> nonzero_list m k_in nzi -> exact_numerics (2 * m) N ->
  (forall z f, p_fun P z = Some f -> forall q, (q < 2 * m)%nat -> f q = - loglikelihood_prime_dcm m k_out k_in nzo nzi c z q) ->
  converged N P O x0 x -> dcm_full m nzo nzi x ->
  forall i, (i < n)%nat ->
    Rabs (k_out (cls i) - expected_out_degree_dcm n (expand n m cls x) i) <= x (cls i) * o_tol O / c (cls i) /\
    Rabs (k_in (cls i) - expected_in_degree_dcm n (expand n m cls x) i) <= x (cls i + m)%nat * o_tol O / c (cls i).
Proof. exact converged_dcm. Qed.
Print Assumptions C37_converged_dcm.

Theorem C37_converged_dcm_exp :
  forall (M : Type) n m cls k_out k_in nzo nzi c (N : numerics (nat -> R) M R) P O theta0 theta x,
  classes n m cls c -> nonzero_list m k_out nzo -> nonzero_list m k_in nzi -> exact_numerics (2 * m) N -> 0 <= o_tol O ->
  (forall z f, p_fun P z = Some f -> forall q, (q < 2 * m)%nat -> f q = - loglikelihood_prime_dcm_exp m k_out k_in nzo nzi c z q) ->
  converged N P O theta0 theta -> dcm_full m nzo nzi x ->
  (forall i, In i nzo -> x i = exp (- theta i)) ->
  (forall j, In j nzi -> x (j + m)%nat = exp (- theta (j + m)%nat)) ->
  forall i, (i < n)%nat ->
    Rabs (k_out (cls i) - expected_out_degree_dcm n (expand n m cls x) i) <= o_tol O / c (cls i) /\
    Rabs (k_in (cls i) - expected_in_degree_dcm n (expand n m cls x) i) <= o_tol O / c (cls i).
Proof. exact converged_dcm_exp. Qed.
Print Assumptions C37_converged_dcm_exp.

Theorem C37_converged_decm :
  forall (M : Type) n ko ki so si (N : numerics (nat -> R) M R) P O x0 x,
  exact_numerics (4 * n) N ->
  (forall z f, p_fun P z = Some f -> forall q, (q < 4 * n)%nat -> f q = - loglikelihood_prime_decm n ko ki so si z q) ->
  converged N P O x0 x -> decm_dom n x ->
  forall r, (r < 4 * n)%nat -> 0 < x r ->
    Rabs (decm_constraint n ko ki so si r - expected_decm n x r) <= x r * o_tol O.
Proof. exact converged_decm. Qed.
Print Assumptions C37_converged_decm.

Theorem C37_converged_decm_exp :
  forall (M : Type) n ko ki so si (N : numerics (nat -> R) M R) P O x0 x,
  exact_numerics (4 * n) N ->
  (forall z f, p_fun P z = Some f -> forall q, (q < 4 * n)%nat -> f q = - loglikelihood_prime_decm_exp n ko ki so si z q) ->
  converged N P O x0 x -> decm_exp_dom n x ->
  forall r, (r < 4 * n)%nat ->
    Rabs (decm_constraint n ko ki so si r - expected_decm n (fun r => exp (- x r)) r) <= o_tol O.
Proof. exact converged_decm_exp. Qed.
Print Assumptions C37_converged_decm_exp.

Theorem C37_converged_crema :
  forall (M : Type) n s es (N : numerics (nat -> R) M R) P O x0 x,
  exact_numerics n N ->
  (forall z, p_fun P z = option_map (fun F q => - F q) (loglikelihood_prime_crema_undirected n s es z)) ->
  converged N P O x0 x -> crema_dom es x ->
  exists E, expected_strength_crema_undirected es x = Some E /\
    forall i, (i < n)%nat -> Rabs (s i - E i) <= o_tol O.
Proof. exact converged_crema. Qed.
Print Assumptions C37_converged_crema.

Theorem C37_converged_crema_directed :
  forall (M : Type) n s_out s_in es nzo nzi (N : numerics (nat -> R) M R) P O x0 x,
  nonzero_list n s_out nzo -> nonzero_list n s_in nzi -> pairs_below n es -> exact_numerics (2 * n) N ->
  (forall z, p_fun P z = option_map (fun F q => - F q) (loglikelihood_prime_crema_directed n s_out s_in es nzo nzi z)) ->
  converged N P O x0 x -> crema_dir_dom n es x ->
  exists EO EI, expected_out_strength_crema_directed n es x = Some EO /\
    expected_in_strength_crema_directed n es x = Some EI /\
    forall i, (i < n)%nat -> Rabs (s_out i - EO i) <= o_tol O /\ Rabs (s_in i - EI i) <= o_tol O.
Proof. exact converged_crema_directed. Qed.
Print Assumptions C37_converged_crema_directed.

Theorem C37_fixed_point_step_converged :
  forall (M : Type) n (N : numerics (nat -> R) M R) P O x0 x,
  exact_numerics n N -> exact_vectors N -> o_method O = FixedPoint -> o_linsearch O = false ->
  step_converged N P O x0 x ->
  exists x_old g, p_fun P x_old = Some g /\
    forall i, x i = g i /\ ((i < n)%nat -> Rabs (g i - x_old i) <= o_eps O).
Proof. exact fixed_point_step_converged. Qed.
Print Assumptions C37_fixed_point_step_converged.

Theorem C37_fixed_point_norm_refuted :
  forall tol B, 0 < tol -> exists s es x0 x E,
  crema_dom es x0 /\ (forall i, 0 < s i) /\
  converged (numR 2) (prob_crema_fp s es) (optR tol 0 FixedPoint) x0 x /\
  exact_numerics 2 (numR 2) /\ exact_vectors (numR 2) /\
  expected_strength_crema_undirected es x = Some E /\ B <= Rabs (s 0%nat - E 0%nat).
Proof. exact crema_fixed_point_norm_refuted. Qed.
Print Assumptions C37_fixed_point_norm_refuted.

Example C37_nonvacuous :
  exists x, converged (numR 1) prob_cm (optR (/ 10) 0 QuasiNewton) (fun _ => 1) x /\
  (forall q, (q < 1)%nat -> 0 < x q) /\ x 0%nat = 7 / 5 /\
  classes 4 1 (fun _ => 0%nat) (fun _ => 4) /\
  (forall z, p_fun prob_cm z = Some (fun q => - loglikelihood_prime_cm 1 (fun _ => 2) (fun _ => 4) z q)) /\
  exact_numerics 1 (numR 1).
Proof. exact run_cm. Qed.

Example C37_nonvacuous_fixed_point :
  exists x, step_converged (numR 1) prob_cm_fp (optR (/ 10) (/ 2) FixedPoint) (fun _ => 1) x /\
  x 0%nat = 4 / 3 /\ exact_numerics 1 (numR 1) /\ exact_vectors (numR 1).
Proof. exact run_cm_fp. Qed.

(** C38 *)
Theorem C38_identity_regulariser :
  forall n b eps,
  symmetric n (matrix_regulariser_function b eps) /\
  forall v, qform n (matrix_regulariser_function b eps) v = qform n b v + eps * scalar n v v.
Proof. exact regulariser_spec. Qed.
Print Assumptions C38_identity_regulariser.

Theorem C38_eigen_regulariser :
  forall eigh n b eps,
  eigen_decomposition n (symmetrise b) (fst (eigh (symmetrise b))) (snd (eigh (symmetrise b))) ->
  let M := matrix_regulariser_function_eigen_based eigh n b eps in
  symmetric n M /\
  (forall v, eps * scalar n v v <= qform n M v) /\
  (forall l v, (exists i, (i < n)%nat /\ v i <> 0) -> (forall i, (i < n)%nat -> apply_mat n M v i = l * v i) -> eps <= l) /\
  ((forall v, eps * scalar n v v <= qform n b v) -> symmetric n b ->
     forall i j, (i < n)%nat -> (j < n)%nat -> M i j = b i j).
Proof. exact eigen_regulariser_spec. Qed.
Print Assumptions C38_eigen_regulariser.

Theorem C38_newton_descent :
  forall n B f dx,
  (forall v, (exists i, (i < n)%nat /\ v i <> 0) -> 0 < qform n B v) ->
  (forall i, (i < n)%nat -> apply_mat n B dx i = - f i) -> (exists i, (i < n)%nat /\ f i <> 0) ->
  scalar n f dx < 0.
Proof. exact newton_descent. Qed.
Print Assumptions C38_newton_descent.

Theorem C38_eigen_descent :
  forall eigh n b eps f dx,
  0 < eps -> eigen_decomposition n (symmetrise b) (fst (eigh (symmetrise b))) (snd (eigh (symmetrise b))) ->
  (forall i, (i < n)%nat -> apply_mat n (matrix_regulariser_function_eigen_based eigh n b eps) dx i = - f i) ->
  (exists i, (i < n)%nat /\ f i <> 0) -> scalar n f dx < 0.
Proof. exact regularised_descent. Qed.
Print Assumptions C38_eigen_descent.

Theorem C38_identity_descent :
  forall n b eps f dx,
  0 < eps -> (forall v, 0 <= qform n b v) ->
  (forall i, (i < n)%nat -> apply_mat n (matrix_regulariser_function b eps) dx i = - f i) ->
  (exists i, (i < n)%nat /\ f i <> 0) -> scalar n f dx < 0.
Proof. exact regularised_descent_identity. Qed.
Print Assumptions C38_identity_descent.

Theorem C38_identity_regulariser_refuted :
  exists n b eps v, 0 < eps /\ symmetric n b /\
  (exists i, (i < n)%nat /\ v i <> 0) /\ qform n (matrix_regulariser_function b eps) v < 0.
Proof. exact identity_regulariser_refuted. Qed.
Print Assumptions C38_identity_regulariser_refuted.

Example C38_nonvacuous :
  eigen_decomposition 2 (symmetrise demo_b) (fst (demo_eigh (symmetrise demo_b))) (snd (demo_eigh (symmetrise demo_b))) /\
  matrix_regulariser_function_eigen_based demo_eigh 2 demo_b (/ 2) 1%nat 1%nat = / 2 /\
  matrix_regulariser_function_eigen_based demo_eigh 2 demo_b (/ 2) 0%nat 0%nat = 3.
Proof. exact demo_eigen. Qed.

(** C39 *)
Theorem C39_CM_admissible :
  forall n step_fun x dx beta alfa f,
  0 < alfa -> 0 < beta <= 1 -> positive_upto n x ->
  0 < linsearch_fun_CM n step_fun x dx beta alfa f <= alfa /\
  positive_upto n (moved x (linsearch_fun_CM n step_fun x dx beta alfa f) dx).
Proof. exact CM_admissible. Qed.
Print Assumptions C39_CM_admissible.

Theorem C39_CM_fixed_admissible :
  forall n x dx dx_old alfa beta step,
  0 < alfa -> 0 < beta <= 1 -> positive_upto n x ->
  0 < linsearch_fun_CM_fixed n x dx dx_old alfa beta step <= alfa /\
  positive_upto n (moved x (linsearch_fun_CM_fixed n x dx dx_old alfa beta step) dx).
Proof. exact CM_fixed_admissible. Qed.
Print Assumptions C39_CM_fixed_admissible.

Theorem C39_CM_zero_coordinate :
  forall n step_fun x dx beta alfa f,
  0 < alfa -> 0 < beta <= 1 -> (forall i, (i < n)%nat -> 0 <= x i) ->
  let a := linsearch_fun_CM n step_fun x dx beta alfa f in
  0 <= a <= alfa /\ (forall i, (i < n)%nat -> 0 <= moved x a dx i) /\
  (0 < a <-> (forall i, (i < n)%nat -> x i = 0 -> dx i = 0)).
Proof. exact CM_zero_coordinate. Qed.
Print Assumptions C39_CM_zero_coordinate.

Theorem C39_CM_zero_step_refuted :
  exists n x dx, (forall i, (i < n)%nat -> 0 <= x i) /\
  forall step_fun f, linsearch_fun_CM n step_fun x dx (/ 2) 1 f = 0.
Proof. exact CM_zero_step_refuted. Qed.
Print Assumptions C39_CM_zero_step_refuted.

Theorem C39_DCM_admissible :
  forall n nzo nzi step_fun x dx beta alfa f,
  0 < alfa -> 0 < beta <= 1 -> index_list n nzo -> index_list n nzi -> dcm_dom n nzo nzi x ->
  0 < linsearch_fun_DCM (2 * n) step_fun x dx beta alfa f <= alfa /\
  dcm_dom n nzo nzi (moved x (linsearch_fun_DCM (2 * n) step_fun x dx beta alfa f) dx).
Proof. exact DCM_admissible. Qed.
Print Assumptions C39_DCM_admissible.

Theorem C39_DCM_fixed_admissible :
  forall n nzo nzi x dx dx_old alfa beta step,
  0 < alfa -> 0 < beta <= 1 -> index_list n nzo -> index_list n nzi -> dcm_dom n nzo nzi x ->
  0 < linsearch_fun_DCM_fixed (2 * n) x dx dx_old alfa beta step <= alfa /\
  dcm_dom n nzo nzi (moved x (linsearch_fun_DCM_fixed (2 * n) x dx dx_old alfa beta step) dx).
Proof. exact DCM_fixed_admissible. Qed.
Print Assumptions C39_DCM_fixed_admissible.

Theorem C39_ECM_positive :
  forall fuel n step_fun x dx beta alfa f a,
  0 < alfa -> 0 < beta <= 1 -> positive_upto (2 * n) x -> linsearch_fun_ECM fuel n step_fun x dx beta alfa f = Some a ->
  0 < a <= alfa /\ positive_upto (2 * n) (moved x a dx).
Proof. exact ECM_positive. Qed.
Print Assumptions C39_ECM_positive.

Theorem C39_ECM_fixed_first :
  forall fuel n x dx dx_old alfa beta a,
  0 < alfa -> 0 < beta <= 1 -> ecm_dom n x ->
  linsearch_fun_ECM_fixed fuel n x dx dx_old alfa beta 0 = Some a ->
  0 < a <= alfa /\ ecm_dom n (moved x a dx).
Proof. exact ECM_fixed_first. Qed.
Print Assumptions C39_ECM_fixed_first.

Theorem C39_ECM_fixed_refuted :
  exists n x dx dx_old, (2 <= n)%nat /\ ecm_dom n x /\
  forall fuel, exists a, linsearch_fun_ECM_fixed (S fuel) n x dx dx_old 1 (/ 2) 1 = Some a /\ ~ ecm_dom n (moved x a dx).
Proof. exact ECM_fixed_refuted. Qed.
Print Assumptions C39_ECM_fixed_refuted.

Theorem C39_ECM_exp_admissible :
  forall fuel n step_fun x dx beta alfa f a,
  0 < alfa -> 0 < beta <= 1 -> ecm_exp_dom n x ->
  linsearch_fun_ECM_exp fuel n step_fun x dx beta alfa f = Some a ->
  0 < a <= alfa /\ ecm_exp_dom n (moved x a dx).
Proof. exact ECM_exp_admissible. Qed.
Print Assumptions C39_ECM_exp_admissible.

Theorem C39_ECM_exp_fixed_admissible :
  forall fuel n x dx dx_old alfa beta step a,
  0 < alfa -> 0 < beta <= 1 -> ecm_exp_dom n x ->
  linsearch_fun_ECM_exp_fixed fuel n x dx dx_old alfa beta step = Some a ->
  0 < a <= alfa /\ ecm_exp_dom n (moved x a dx).
Proof. exact ECM_exp_fixed_admissible. Qed.
Print Assumptions C39_ECM_exp_fixed_admissible.


Theorem C39_DECM_fixed_first :
  forall fuel n x dx dx_old alfa beta a,
  0 < alfa -> 0 < beta <= 1 -> positive_upto (4 * n) x ->
  linsearch_fun_DECM_fixed fuel n x dx dx_old alfa beta 0 = Some a ->
  0 < a <= alfa /\ positive_upto (4 * n) (moved x a dx) /\ decm_pairs n (moved x a dx).
Proof. exact DECM_fixed_first. Qed.
Print Assumptions C39_DECM_fixed_first.

Theorem C39_DECM_fixed_refuted :
  exists n x dx dx_old, (2 <= n)%nat /\ positive_upto (4 * n) x /\ decm_pairs n x /\
  forall fuel, exists a, linsearch_fun_DECM_fixed (S fuel) n x dx dx_old 1 (/ 2) 1 = Some a /\ ~ decm_dom n (moved x a dx).
Proof. exact DECM_fixed_refuted. Qed.
Print Assumptions C39_DECM_fixed_refuted.

Theorem C39_DECM_exp_admissible :
  forall fuel n step_fun x dx beta alfa f a,
  0 < alfa -> 0 < beta <= 1 -> decm_exp_pairs n x ->
  linsearch_fun_DECM_exp fuel n step_fun x dx beta alfa f = Some a ->
  0 < a <= alfa /\ decm_exp_pairs n (moved x a dx).
Proof. exact DECM_exp_admissible. Qed.
Print Assumptions C39_DECM_exp_admissible.

Theorem C39_DECM_exp_fixed_admissible :
  forall fuel n x dx dx_old alfa beta step a,
  0 < alfa -> 0 < beta <= 1 -> decm_exp_pairs n x ->
  linsearch_fun_DECM_exp_fixed fuel n x dx dx_old alfa beta step = Some a ->
  0 < a <= alfa /\ decm_exp_pairs n (moved x a dx).
Proof. exact DECM_exp_fixed_admissible. Qed.
Print Assumptions C39_DECM_exp_fixed_admissible.

Theorem C39_DECM_exp_admissible_refuted :
  exists n x dx, decm_exp_dom n x /\
  forall fuel dx_old, exists a, linsearch_fun_DECM_exp_fixed (S fuel) n x dx dx_old 1 (/ 2) 0 = Some a /\ ~ decm_exp_dom n (moved x a dx).
Proof. exact DECM_exp_admissible_refuted. Qed.
Print Assumptions C39_DECM_exp_admissible_refuted.

Example C39_nonvacuous :
  positive_upto 4 bad_ecm_x /\ ecm_dom 2 bad_ecm_x /\ positive_upto 8 bad_decm_x /\ decm_pairs 2 bad_decm_x /\
  dcm_dom 2 [0%nat; 1%nat] [0%nat; 1%nat] bad_ecm_x /\
  ecm_exp_dom 2 (fun _ => 1) /\ ecm_exp_margin 2 (fun _ => 1) /\ decm_exp_pairs 2 (fun _ => 1).
Proof. exact linsearch_cases. Qed.

(** C40 *)
Theorem C40_armijo_iff :
  forall n L x dx f a,
  sufficient_decrease_condition n (fopp (L x)) (fopp (L (moved x a dx))) a f dx = true <-> armijo n L x dx f a.
Proof. exact armijo_iff. Qed.
Print Assumptions C40_armijo_iff.

Theorem C40_armijo_increase :
  forall n L x dx f a u v,
  L x = Fin u -> L (moved x a dx) = Fin v -> 0 <= a -> scalar n f dx <= 0 -> armijo n L x dx f a -> u < v.
Proof. exact armijo_increase. Qed.
Print Assumptions C40_armijo_increase.

Theorem C40_CM_shape :
  forall n step_fun x dx beta alfa f,
  0 < alfa -> positive_upto n x ->
  exists r m, longest_step n x dx alfa r /\ (m <= 50)%nat /\ linsearch_fun_CM n step_fun x dx beta alfa f = r * beta ^ m /\
    (forall m', (m' < m)%nat -> ~ armijo n step_fun x dx f (r * beta ^ m')) /\
    (m = 50%nat \/ armijo n step_fun x dx f (r * beta ^ m)).
Proof. exact CM_shape. Qed.
Print Assumptions C40_CM_shape.

Theorem C40_DCM_shape :
  forall n step_fun x dx beta alfa f,
  0 < alfa -> positive_upto n x ->
  exists r m, longest_step n x dx alfa r /\ (m <= 50)%nat /\ linsearch_fun_DCM n step_fun x dx beta alfa f = r * beta ^ m /\
    (forall m', (m' < m)%nat -> ~ armijo n step_fun x dx f (r * beta ^ m')) /\
    (m = 50%nat \/ armijo n step_fun x dx f (r * beta ^ m)).
Proof. exact DCM_shape. Qed.
Print Assumptions C40_DCM_shape.

Theorem C40_plain_shape :
  forall n step_fun x dx beta alfa f ls,
  ls = linsearch_fun_CM_exp \/ ls = linsearch_fun_crema_undirected \/ ls = linsearch_fun_DCM_exp \/ ls = linsearch_fun_crema_directed ->
  exists m, (m <= 50)%nat /\ ls n step_fun x dx beta alfa f = alfa * beta ^ m /\
    (forall m', (m' < m)%nat -> ~ armijo n step_fun x dx f (alfa * beta ^ m')) /\
    (m = 50%nat \/ armijo n step_fun x dx f (alfa * beta ^ m)).
Proof. exact plain_shape. Qed.
Print Assumptions C40_plain_shape.

Theorem C40_ECM_shape :
  forall fuel n step_fun x dx beta alfa f a,
  (2 <= n)%nat -> 0 < alfa -> 0 < beta <= 1 -> ecm_dom n x -> linsearch_fun_ECM fuel n step_fun x dx beta alfa f = Some a ->
  exists r j m, longest_step (2 * n) x dx alfa r /\ a = r * beta ^ j * beta ^ m /\ (m <= 50)%nat /\
    ecm_dom n (moved x (r * beta ^ j) dx) /\
    (forall j', (j' < j)%nat -> ~ ecm_dom n (moved x (r * beta ^ j') dx)) /\
    (forall m', (m' < m)%nat -> ~ armijo (2 * n) step_fun x dx f (r * beta ^ j * beta ^ m')) /\
    (m = 50%nat \/ armijo (2 * n) step_fun x dx f a).
Proof. exact ECM_shape. Qed.
Print Assumptions C40_ECM_shape.

Theorem C40_ECM_exp_shape :
  forall fuel n step_fun x dx beta alfa f a,
  (2 <= n)%nat -> linsearch_fun_ECM_exp fuel n step_fun x dx beta alfa f = Some a ->
  exists j m, a = alfa * beta ^ j * beta ^ m /\ (m <= 50)%nat /\
    ecm_exp_margin n (moved x (alfa * beta ^ j) dx) /\
    (forall j', (j' < j)%nat -> ~ ecm_exp_margin n (moved x (alfa * beta ^ j') dx)) /\
    (forall m', (m' < m)%nat -> ~ armijo (2 * n) step_fun x dx f (alfa * beta ^ j * beta ^ m')) /\
    (m = 50%nat \/ armijo (2 * n) step_fun x dx f a).
Proof. exact ECM_exp_shape. Qed.
Print Assumptions C40_ECM_exp_shape.

Theorem C40_DECM_shape :
  forall fuel n step_fun x dx beta alfa f a,
  (0 < n)%nat -> 0 < alfa -> 0 < beta <= 1 -> positive_upto (4 * n) x -> linsearch_fun_DECM fuel n step_fun x dx beta alfa f = Some a ->
  exists r j m, longest_step (4 * n) x dx alfa r /\ a = r * beta ^ j * beta ^ m /\ (m <= 50)%nat /\
    decm_pairs n (moved x (r * beta ^ j) dx) /\
    (forall j', (j' < j)%nat -> ~ decm_pairs n (moved x (r * beta ^ j') dx)) /\
    (forall m', (m' < m)%nat -> ~ armijo (4 * n) step_fun x dx f (r * beta ^ j * beta ^ m')) /\
    (m = 50%nat \/ armijo (4 * n) step_fun x dx f a).
Proof. exact DECM_shape. Qed.
Print Assumptions C40_DECM_shape.

Theorem C40_DECM_exp_shape :
  forall fuel n step_fun x dx beta alfa f a,
  (0 < n)%nat -> linsearch_fun_DECM_exp fuel n step_fun x dx beta alfa f = Some a ->
  exists j m, a = alfa * beta ^ j * beta ^ m /\ (m <= 50)%nat /\
    decm_exp_keeps n x (moved x (alfa * beta ^ j) dx) /\
    (forall j', (j' < j)%nat -> ~ decm_exp_keeps n x (moved x (alfa * beta ^ j') dx)) /\
    (forall m', (m' < m)%nat -> ~ armijo (4 * n) step_fun x dx f (alfa * beta ^ j * beta ^ m')) /\
    (m = 50%nat \/ armijo (4 * n) step_fun x dx f a).
Proof. exact DECM_exp_shape. Qed.
Print Assumptions C40_DECM_exp_shape.

Theorem C40_fixed_shape :
  forall n x dx dx_old alfa beta step,
  0 < alfa -> positive_upto n x ->
  exists r r' m m', longest_step n x dx alfa r /\ longest_step n x dx alfa r' /\
    (m <= 50)%nat /\ linsearch_fun_CM_fixed n x dx dx_old alfa beta step = r * beta ^ m /\
    (m' <= 50)%nat /\ linsearch_fun_DCM_fixed n x dx dx_old alfa beta step = r' * beta ^ m' /\
    (step = 0%nat -> m = 0%nat /\ m' = 0%nat) /\
    (step <> 0%nat -> m = 50%nat \/ sqrt (scalar n (fun i => r * beta ^ m * dx i) (fun i => r * beta ^ m * dx i)) < sqrt (scalar n dx_old dx_old)) /\
    (step <> 0%nat -> m' = 50%nat \/ sqrt (scalar n (fun i => r' * beta ^ m' * dx i) (fun i => r' * beta ^ m' * dx i)) < sqrt (scalar n dx_old dx_old)).
Proof. exact fixed_shape. Qed.
Print Assumptions C40_fixed_shape.

Theorem C40_plain_fixed_shape :
  forall n dx dx_old alfa beta step ls,
  ls = linsearch_fun_CM_exp_fixed \/ ls = linsearch_fun_crema_undirected_fixed \/ ls = linsearch_fun_DCM_exp_fixed \/ ls = linsearch_fun_crema_directed_fixed ->
  exists m, (m <= 50)%nat /\ ls n dx dx_old alfa beta step = alfa * beta ^ m /\ (step = 0%nat -> m = 0%nat) /\
    (step <> 0%nat -> m = 50%nat \/ sqrt (scalar n (fun i => alfa * beta ^ m * dx i) (fun i => alfa * beta ^ m * dx i)) < sqrt (scalar n dx_old dx_old)).
Proof. exact plain_fixed_shape. Qed.
Print Assumptions C40_plain_fixed_shape.

Theorem C40_ECM_terminates :
  forall n step_fun x dx beta alfa f,
  (2 <= n)%nat -> 0 < alfa -> 0 < beta < 1 -> ecm_dom n x ->
  exists K, forall fuel, (K <= fuel)%nat -> exists a, linsearch_fun_ECM fuel n step_fun x dx beta alfa f = Some a.
Proof. exact ECM_terminates. Qed.
Print Assumptions C40_ECM_terminates.

Theorem C40_ECM_fixed_terminates :
  forall n x dx dx_old alfa beta step,
  (2 <= n)%nat -> 0 < alfa -> 0 < beta < 1 -> ecm_dom n x ->
  exists K, forall fuel, (K <= fuel)%nat -> exists a, linsearch_fun_ECM_fixed fuel n x dx dx_old alfa beta step = Some a.
Proof. exact ECM_fixed_terminates. Qed.
Print Assumptions C40_ECM_fixed_terminates.

Theorem C40_ECM_exp_terminates :
  forall n step_fun x dx dx_old beta alfa f step,
  (2 <= n)%nat -> 0 < alfa -> 0 < beta < 1 ->
  ecm_exp_margin n x ->
  exists K, forall fuel, (K <= fuel)%nat ->
    (exists a, linsearch_fun_ECM_exp fuel n step_fun x dx beta alfa f = Some a) /\
    (exists a, linsearch_fun_ECM_exp_fixed fuel n x dx dx_old alfa beta step = Some a).
Proof. exact ECM_exp_terminates. Qed.
Print Assumptions C40_ECM_exp_terminates.

Theorem C40_ECM_exp_termination_refuted :
  exists n x dx, (2 <= n)%nat /\ ecm_exp_dom n x /\
  forall fuel step_fun f dx_old step,
    linsearch_fun_ECM_exp fuel n step_fun x dx (/ 2) 1 f = None /\ linsearch_fun_ECM_exp_fixed fuel n x dx dx_old 1 (/ 2) step = None.
Proof. exact ECM_exp_termination_refuted. Qed.
Print Assumptions C40_ECM_exp_termination_refuted.

Theorem C40_DECM_terminates :
  forall n step_fun x dx dx_old beta alfa f step,
  (0 < n)%nat -> 0 < alfa -> 0 < beta < 1 -> positive_upto (4 * n) x -> decm_pairs n x ->
  exists K, forall fuel, (K <= fuel)%nat ->
    (exists a, linsearch_fun_DECM fuel n step_fun x dx beta alfa f = Some a) /\
    (exists a, linsearch_fun_DECM_fixed fuel n x dx dx_old alfa beta step = Some a).
Proof. exact DECM_terminates. Qed.
Print Assumptions C40_DECM_terminates.

Theorem C40_DECM_never :
  forall n step_fun x dx dx_old beta alfa f step fuel,
  0 < alfa -> 0 < beta <= 1 -> (0 < n)%nat -> (forall r, (r < 4 * n)%nat -> 0 <= x r) ->
  (forall i, (i < n)%nat -> 0 <= dx (i + 2 * n)%nat /\ 0 <= dx (i + 3 * n)%nat) ->
  (exists i, (i < n)%nat /\ 1 <= x (i + 2 * n)%nat * x (i + 3 * n)%nat) ->
  linsearch_fun_DECM fuel n step_fun x dx beta alfa f = None /\
  linsearch_fun_DECM_fixed fuel n x dx dx_old alfa beta step = None.
Proof. exact DECM_never. Qed.
Print Assumptions C40_DECM_never.

Theorem C40_DECM_termination_refuted :
  exists n x dx, decm_dom n x /\ positive_upto (4 * n) x /\
  forall fuel step_fun f dx_old step,
    linsearch_fun_DECM fuel n step_fun x dx (/ 2) 1 f = None /\ linsearch_fun_DECM_fixed fuel n x dx dx_old 1 (/ 2) step = None.
Proof. exact DECM_termination_refuted. Qed.
Print Assumptions C40_DECM_termination_refuted.

Theorem C40_DECM_exp_terminates :
  forall n step_fun x dx dx_old beta alfa f step,
  (0 < n)%nat -> 0 < alfa -> 0 < beta < 1 -> decm_exp_pairs n x ->
  exists K, forall fuel, (K <= fuel)%nat ->
    (exists a, linsearch_fun_DECM_exp fuel n step_fun x dx beta alfa f = Some a) /\
    (exists a, linsearch_fun_DECM_exp_fixed fuel n x dx dx_old alfa beta step = Some a).
Proof. exact DECM_exp_terminates. Qed.
Print Assumptions C40_DECM_exp_terminates.

Theorem C40_DECM_exp_never :
  forall n step_fun x dx dx_old beta alfa f step fuel,
  0 < alfa -> 0 < beta <= 1 -> (0 < n)%nat ->
  (forall i, (i < n)%nat -> dx (i + 2 * n)%nat <= 0 /\ dx (i + 3 * n)%nat <= 0) ->
  (exists i, (i < n)%nat /\ x (i + 2 * n)%nat + x (i + 3 * n)%nat <= 0) ->
  linsearch_fun_DECM_exp fuel n step_fun x dx beta alfa f = None /\
  linsearch_fun_DECM_exp_fixed fuel n x dx dx_old alfa beta step = None.
Proof. exact DECM_exp_never. Qed.
Print Assumptions C40_DECM_exp_never.

Theorem C40_DECM_exp_termination_refuted :
  exists n x dx, decm_exp_dom n x /\
  forall fuel step_fun f dx_old step,
    linsearch_fun_DECM_exp fuel n step_fun x dx (/ 2) 1 f = None /\ linsearch_fun_DECM_exp_fixed fuel n x dx dx_old 1 (/ 2) step = None.
Proof. exact DECM_exp_termination_refuted. Qed.
Print Assumptions C40_DECM_exp_termination_refuted.

Example C40_nonvacuous :
  positive_upto 4 bad_ecm_x /\ ecm_dom 2 bad_ecm_x /\ positive_upto 8 bad_decm_x /\ decm_pairs 2 bad_decm_x /\
  dcm_dom 2 [0%nat; 1%nat] [0%nat; 1%nat] bad_ecm_x /\
  ecm_exp_dom 2 (fun _ => 1) /\ ecm_exp_margin 2 (fun _ => 1) /\ decm_exp_pairs 2 (fun _ => 1).
Proof. exact linsearch_cases. Qed.

(** C65 *)
Theorem C65_verbose_neutral :
  forall (V M S : Type) (N : numerics V M S) (P : problem V M S) (O : options S) (x0 : V),
  (forall H, eigh_ok N H = true) -> (o_method O = Newton -> o_regularise O = true) ->
  solver N P (with_verbose true O) x0 = solver N P (with_verbose false O) x0.
Proof. exact solver_verbose_neutral. Qed.
Print Assumptions C65_verbose_neutral.

Theorem C65_verbose_raises :
  forall (V M S : Type) (N : numerics V M S) (P : problem V M S) (O : options S) (x0 f0 : V),
  o_method O = Newton -> o_regularise O = false -> o_verbose O = true ->
  p_fun P x0 = Some f0 -> gtb N (vnorm N f0) (o_tol O) = true -> gtb N (sone N) (o_eps O) = true -> (0 < o_max_steps O)%nat ->
  solver N P O x0 = Raised.
Proof. exact solver_verbose_raises. Qed.
Print Assumptions C65_verbose_raises.

Theorem C65_verbose_refuted :
  exists (N : numerics (nat -> R) unit R) P O x0 x m norms diffs alfas,
  solver N P (with_verbose true O) x0 = Raised /\ solver N P (with_verbose false O) x0 = Full x m norms diffs alfas.
Proof. exact verbose_raises_case. Qed.
Print Assumptions C65_verbose_refuted.
