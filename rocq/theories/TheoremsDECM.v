(** DECM: the properties.  Each proof is one [exact] of a lemma.
    Parameters are [x = (a_out, a_in, b_out, b_in)], each block of length [n]. *)
From Coq Require Import Reals List Arith Lia Lra.
From Coquelicot Require Import Coquelicot.
From Verif Require Import Base SpecDeriv SpecGraph SpecWeighted ModelDCM ModelDECM.
From Verif Require Import ProofsMainECM ProofsDECM ProofsMainDECM ProofsFixDECM.
Local Open Scope R_scope.

(** C26 *)
Theorem C26_loglikelihood_decm_is_logprob :
  forall n ko ki so si x w,
  weighted_digraph n w ->
  (forall i, (i < n)%nat -> ko i = wdeg n w i) -> (forall i, (i < n)%nat -> ki i = windeg n w i) ->
  (forall i, (i < n)%nat -> so i = wstr n w i) -> (forall i, (i < n)%nat -> si i = winstr n w i) ->
  decm_dom n x -> decm_supp n ko ki so si x ->
  loglikelihood_decm n ko ki so si x =
  ln (prob_wdirected n (fun i j => q_enh (x i * x (j + n)%nat) (x (i + 2 * n)%nat * x (j + 3 * n)%nat)) w).
Proof. exact loglik_decm_logprob. Qed.
Print Assumptions C26_loglikelihood_decm_is_logprob.

Theorem C26_loglikelihood_decm_exp_is_logprob :
  forall n ko ki so si theta w,
  weighted_digraph n w ->
  (forall i, (i < n)%nat -> ko i = wdeg n w i) -> (forall i, (i < n)%nat -> ki i = windeg n w i) ->
  (forall i, (i < n)%nat -> so i = wstr n w i) -> (forall i, (i < n)%nat -> si i = winstr n w i) ->
  decm_exp_dom n theta ->
  loglikelihood_decm_exp n ko ki so si theta =
  ln (prob_wdirected n (fun i j => q_enh (exp (- theta i) * exp (- theta (j + n)%nat))
     (exp (- theta (i + 2 * n)%nat) * exp (- theta (j + 3 * n)%nat))) w).
Proof. exact loglik_decm_exp_logprob. Qed.
Print Assumptions C26_loglikelihood_decm_exp_is_logprob.

Example C26_nonvacuous :
  weighted_digraph 4 wring4 /\
  (forall i, (i < 4)%nat -> 2 = wdeg 4 wring4 i /\ 2 = windeg 4 wring4 i /\ 4 = wstr 4 wring4 i /\ 4 = winstr 4 wring4 i) /\
  decm_dom 4 dring4 /\ decm_supp 4 (fun _ => 2) (fun _ => 2) (fun _ => 4) (fun _ => 4) dring4 /\
  decm_paired 4 dring4 /\ decm_exp_dom 4 dring4_theta /\
  (forall r, (r < 16)%nat -> 0 < dring4 r /\
    expected_decm 4 dring4 r = decm_constraint 4 (fun _ => 2) (fun _ => 2) (fun _ => 4) (fun _ => 4) r /\
    expected_decm_exp 4 dring4_theta r = decm_constraint 4 (fun _ => 2) (fun _ => 2) (fun _ => 4) (fun _ => 4) r).
Proof. exact dring4_facts. Qed.

Example C26_nonvacuous_zero_constraints :
  weighted_digraph 2 link2_w /\
  (forall i, (i < 2)%nat -> link2 i = wdeg 2 link2_w i /\ link2' i = windeg 2 link2_w i /\
     link2 i = wstr 2 link2_w i /\ link2' i = winstr 2 link2_w i) /\
  decm_dom 2 link2_x /\ decm_supp 2 link2 link2' link2 link2' link2_x /\
  link2 1 = 0 /\ link2_x 1 = 0.
Proof. exact link2_facts. Qed.

(** C27 *)
Theorem C27_gradient_decm :
  forall n ko ki so si x r,
  (r < 4 * n)%nat -> decm_dom n x -> decm_supp n ko ki so si x ->
  partial (loglikelihood_decm n ko ki so si) x r (loglikelihood_prime_decm n ko ki so si x r).
Proof. exact gradient_decm. Qed.
Print Assumptions C27_gradient_decm.

Theorem C27_gradient_decm_exp :
  forall n ko ki so si x r,
  (r < 4 * n)%nat -> decm_exp_dom n x ->
  partial (loglikelihood_decm_exp n ko ki so si) x r (loglikelihood_prime_decm_exp n ko ki so si x r).
Proof. exact gradient_decm_exp. Qed.
Print Assumptions C27_gradient_decm_exp.

(** C28: the Newton matrices are right; the quasi-Newton vector of decm has the
    wrong sign where the in-strength is zero.  It is right exactly when the true
    entry is zero there, which holds when the node's in-degree parameter is zero
    (as in the library's initial guesses). *)
Theorem C28_newton_decm :
  forall n ko ki so si x r u,
  (r < 4 * n)%nat -> (u < 4 * n)%nat -> decm_dom n x -> decm_supp n ko ki so si x ->
  partial (fun z => loglikelihood_prime_decm n ko ki so si z r) x u
    (loglikelihood_hessian_decm n ko ki so si x r u).
Proof. exact hessian_decm_correct. Qed.
Print Assumptions C28_newton_decm.

Theorem C28_newton_decm_exp :
  forall n ko ki so si x r u,
  (r < 4 * n)%nat -> (u < 4 * n)%nat -> decm_exp_dom n x ->
  partial (fun z => loglikelihood_prime_decm_exp n ko ki so si z r) x u
    (loglikelihood_hessian_decm_exp n x r u).
Proof. exact hessian_decm_exp_correct. Qed.
Print Assumptions C28_newton_decm_exp.

Theorem C28_quasinewton_decm_refuted :
  exists n ko ki so si x r, (r < 4 * n)%nat /\ decm_dom n x /\ decm_supp n ko ki so si x /\
    ~ partial (fun z => loglikelihood_prime_decm n ko ki so si z r) x r
        (loglikelihood_hessian_diag_decm n ko ki so si x r).
Proof. exact hessian_diag_decm_refuted. Qed.
Print Assumptions C28_quasinewton_decm_refuted.

Theorem C28_quasinewton_decm_iff :
  forall n ko ki so si x r,
  (r < 4 * n)%nat -> decm_dom n x -> decm_supp n ko ki so si x ->
  (partial (fun z => loglikelihood_prime_decm n ko ki so si z r) x r
     (loglikelihood_hessian_diag_decm n ko ki so si x r)
   <-> ((3 * n <= r)%nat -> si (r - 3 * n)%nat = 0 -> loglikelihood_hessian_decm n ko ki so si x r r = 0)).
Proof. exact hessian_diag_decm_iff. Qed.
Print Assumptions C28_quasinewton_decm_iff.

Theorem C28_quasinewton_decm_harmless :
  forall n ko ki so si x h,
  (h < n)%nat -> decm_dom n x -> si h = 0 -> x (h + n)%nat = 0 ->
  loglikelihood_hessian_decm n ko ki so si x (h + 3 * n) (h + 3 * n) = 0.
Proof. exact hessian_decm_zero. Qed.
Print Assumptions C28_quasinewton_decm_harmless.

Theorem C28_quasinewton_decm_exp :
  forall n ko ki so si x r,
  (r < 4 * n)%nat -> decm_exp_dom n x ->
  partial (fun z => loglikelihood_prime_decm_exp n ko ki so si z r) x r
    (loglikelihood_hessian_diag_decm_exp n x r).
Proof. exact hessian_diag_decm_exp_correct. Qed.
Print Assumptions C28_quasinewton_decm_exp.

(** C29: coordinates with a positive parameter; all coordinates when degree and
    strength parameters of a node vanish together (in particular when all are
    positive); the exponential functions; [expected_decm] gives ensemble means. *)
Theorem C29_stationary_decm_iff_constraints :
  forall n ko ki so si x,
  decm_dom n x -> decm_supp n ko ki so si x ->
  ((forall r, (r < 4 * n)%nat -> 0 < x r -> loglikelihood_prime_decm n ko ki so si x r = 0) <->
   (forall r, (r < 4 * n)%nat -> expected_decm n x r = decm_constraint n ko ki so si r)).
Proof. exact stationary_decm_iff. Qed.
Print Assumptions C29_stationary_decm_iff_constraints.

Theorem C29_stationary_decm_paired_iff_constraints :
  forall n ko ki so si x,
  decm_dom n x -> decm_supp n ko ki so si x -> decm_paired n x ->
  ((forall r, (r < 4 * n)%nat -> loglikelihood_prime_decm n ko ki so si x r = 0) <->
   (forall r, (r < 4 * n)%nat -> expected_decm n x r = decm_constraint n ko ki so si r)).
Proof. exact stationary_decm_paired_iff. Qed.
Print Assumptions C29_stationary_decm_paired_iff_constraints.

Theorem C29_stationary_decm_exp_iff_constraints :
  forall n ko ki so si theta,
  decm_exp_dom n theta ->
  ((forall r, (r < 4 * n)%nat -> loglikelihood_prime_decm_exp n ko ki so si theta r = 0) <->
   (forall r, (r < 4 * n)%nat -> expected_decm_exp n theta r = decm_constraint n ko ki so si r)).
Proof. exact stationary_decm_exp_iff. Qed.
Print Assumptions C29_stationary_decm_exp_iff_constraints.

Theorem C29_expected_decm_is_ensemble_mean :
  forall n x,
  decm_dom n x ->
  exists pd pw : nat -> nat -> R,
    (forall i j, (i < n)%nat -> (j < n)%nat -> i <> j ->
       let q := q_enh (x i * x (j + n)%nat) (x (i + 2 * n)%nat * x (j + 3 * n)%nat) in
       is_series q 1 /\ is_series (fun w => ind (linked w) * q w) (pd i j) /\
       is_series (fun w => INR w * q w) (pw i j)) /\
    (forall i, (i < n)%nat ->
      expected_decm n x i = rsum n (fun j => if Nat.eqb i j then 0 else pd i j) /\
      expected_decm n x (i + n) = rsum n (fun j => if Nat.eqb i j then 0 else pd j i) /\
      expected_decm n x (i + 2 * n) = rsum n (fun j => if Nat.eqb i j then 0 else pw i j) /\
      expected_decm n x (i + 3 * n) = rsum n (fun j => if Nat.eqb i j then 0 else pw j i)).
Proof. exact expected_decm_means. Qed.
Print Assumptions C29_expected_decm_is_ensemble_mean.

Theorem C29_expected_decm_exp :
  forall n theta r,
  expected_decm_exp n theta r = expected_decm n (fun r => exp (- theta r)) r.
Proof. exact expected_decm_exp_eq. Qed.
Print Assumptions C29_expected_decm_exp.

(** C30: true for decm; for decm_exp the out-blocks are right, the in-blocks are
    not, in both directions; the second map of decm_exp is wrong in the strength
    blocks. *)
Theorem C30_fixed_point_decm_iff_stationary :
  forall n ko ki so si x r,
  (r < 4 * n)%nat -> 0 < x r -> decm_constraint n ko ki so si r <> 0 ->
  (iterative_decm n ko ki so si x r = Some (x r) <-> loglikelihood_prime_decm n ko ki so si x r = 0).
Proof. exact fixed_point_decm_iff. Qed.
Print Assumptions C30_fixed_point_decm_iff_stationary.

Theorem C30_iterative_decm_zero_constraint :
  forall n ko ki so si x r,
  (r < 4 * n)%nat -> decm_constraint n ko ki so si r = 0 ->
  iterative_decm n ko ki so si x r = Some 0.
Proof. exact iterative_decm_zero. Qed.
Print Assumptions C30_iterative_decm_zero_constraint.

Theorem C30_fixed_point_decm_exp_out :
  forall n ko ki so si theta i,
  (i < n)%nat -> decm_exp_dom n theta -> ko i <> 0 -> so i <> 0 ->
  (iterative_decm_exp n ko ki so si theta i = Some (Fin (theta i)) <->
     loglikelihood_prime_decm_exp n ko ki so si theta i = 0) /\
  (iterative_decm_exp n ko ki so si theta (i + 2 * n) = Some (Fin (theta (i + 2 * n)%nat)) <->
     loglikelihood_prime_decm_exp n ko ki so si theta (i + 2 * n) = 0).
Proof. exact fixed_point_decm_exp_out. Qed.
Print Assumptions C30_fixed_point_decm_exp_out.

Theorem C30_solution_not_fixed_decm_exp_refuted :
  exists n ko ki so si theta,
    (2 <= n)%nat /\ (forall i, (i < n)%nat -> 0 < ko i /\ 0 < ki i /\ 0 < so i /\ 0 < si i) /\
    decm_exp_dom n theta /\
    (forall r, (r < 4 * n)%nat -> loglikelihood_prime_decm_exp n ko ki so si theta r = 0) /\
    ~ (forall r, (r < 4 * n)%nat -> iterative_decm_exp n ko ki so si theta r = Some (Fin (theta r))).
Proof. exact fixed_point_decm_exp_refuted. Qed.
Print Assumptions C30_solution_not_fixed_decm_exp_refuted.

Theorem C30_fixed_not_solution_decm_exp_refuted :
  exists n ko ki so si theta,
    (2 <= n)%nat /\ (forall i, (i < n)%nat -> 0 < ko i /\ 0 < ki i /\ 0 < so i /\ 0 < si i) /\
    decm_exp_dom n theta /\
    (forall r, (r < 4 * n)%nat -> iterative_decm_exp n ko ki so si theta r = Some (Fin (theta r))) /\
    ~ (forall r, (r < 4 * n)%nat -> loglikelihood_prime_decm_exp n ko ki so si theta r = 0).
Proof. exact fixed_point_decm_exp_refuted'. Qed.
Print Assumptions C30_fixed_not_solution_decm_exp_refuted.

Theorem C30_fixed_point_decm_exp_2_degrees :
  forall n ko ki so si theta i,
  (i < n)%nat -> decm_exp_dom n theta -> ko i <> 0 -> ki i <> 0 ->
  (iterative_decm_exp_2 n ko ki so si theta i = Some (Fin (theta i)) <->
     loglikelihood_prime_decm_exp n ko ki so si theta i = 0) /\
  (iterative_decm_exp_2 n ko ki so si theta (i + n) = Some (Fin (theta (i + n)%nat)) <->
     loglikelihood_prime_decm_exp n ko ki so si theta (i + n) = 0).
Proof. exact fixed_point_decm_exp_2_degrees. Qed.
Print Assumptions C30_fixed_point_decm_exp_2_degrees.

Theorem C30_fixed_point_decm_exp_2_refuted :
  exists n ko ki so si theta,
    (2 <= n)%nat /\ (forall i, (i < n)%nat -> 0 < ko i /\ 0 < ki i /\ 0 < so i /\ 0 < si i) /\
    decm_exp_dom n theta /\
    (forall r, (r < 4 * n)%nat -> loglikelihood_prime_decm_exp n ko ki so si theta r = 0) /\
    ~ (forall r, (r < 4 * n)%nat -> iterative_decm_exp_2 n ko ki so si theta r = Some (Fin (theta r))).
Proof. exact fixed_point_decm_exp_2_refuted. Qed.
Print Assumptions C30_fixed_point_decm_exp_2_refuted.

(** C31 *)
Theorem C31_solution_decm_is_maximum :
  forall n ko ki so si x z,
  decm_dom n x -> decm_dom n z -> decm_supp n ko ki so si z ->
  (forall r, (r < 4 * n)%nat -> expected_decm n x r = decm_constraint n ko ki so si r) ->
  loglikelihood_decm n ko ki so si z <= loglikelihood_decm n ko ki so si x.
Proof. exact solution_decm_max. Qed.
Print Assumptions C31_solution_decm_is_maximum.

Theorem C31_maximum_decm_unique_ensemble :
  forall n ko ki so si x z,
  decm_dom n x -> decm_dom n z -> decm_supp n ko ki so si z ->
  (forall r, (r < 4 * n)%nat -> expected_decm n x r = decm_constraint n ko ki so si r) ->
  loglikelihood_decm n ko ki so si z = loglikelihood_decm n ko ki so si x ->
  forall i j w, (i < n)%nat -> (j < n)%nat -> i <> j ->
  q_enh (z i * z (j + n)%nat) (z (i + 2 * n)%nat * z (j + 3 * n)%nat) w =
  q_enh (x i * x (j + n)%nat) (x (i + 2 * n)%nat * x (j + 3 * n)%nat) w.
Proof. exact solution_decm_strict. Qed.
Print Assumptions C31_maximum_decm_unique_ensemble.

Theorem C31_solution_decm_unique_ensemble :
  forall n ko ki so si x z,
  decm_dom n x -> decm_dom n z -> decm_supp n ko ki so si x -> decm_supp n ko ki so si z ->
  (forall r, (r < 4 * n)%nat -> expected_decm n x r = decm_constraint n ko ki so si r) ->
  (forall r, (r < 4 * n)%nat -> expected_decm n z r = decm_constraint n ko ki so si r) ->
  forall i j w, (i < n)%nat -> (j < n)%nat -> i <> j ->
  q_enh (z i * z (j + n)%nat) (z (i + 2 * n)%nat * z (j + 3 * n)%nat) w =
  q_enh (x i * x (j + n)%nat) (x (i + 2 * n)%nat * x (j + 3 * n)%nat) w.
Proof. exact solution_decm_unique. Qed.
Print Assumptions C31_solution_decm_unique_ensemble.

Theorem C31_solution_decm_exp_is_maximum :
  forall n ko ki so si x z,
  decm_exp_dom n x -> decm_exp_dom n z ->
  (forall r, (r < 4 * n)%nat -> expected_decm_exp n x r = decm_constraint n ko ki so si r) ->
  loglikelihood_decm_exp n ko ki so si z <= loglikelihood_decm_exp n ko ki so si x.
Proof. exact solution_decm_exp_max. Qed.
Print Assumptions C31_solution_decm_exp_is_maximum.

Theorem C31_solution_decm_exp_unique_ensemble :
  forall n ko ki so si x z,
  decm_exp_dom n x -> decm_exp_dom n z ->
  (forall r, (r < 4 * n)%nat -> expected_decm_exp n x r = decm_constraint n ko ki so si r) ->
  (forall r, (r < 4 * n)%nat -> expected_decm_exp n z r = decm_constraint n ko ki so si r) ->
  forall i j w, (i < n)%nat -> (j < n)%nat -> i <> j ->
  q_enh (exp (- z i) * exp (- z (j + n)%nat)) (exp (- z (i + 2 * n)%nat) * exp (- z (j + 3 * n)%nat)) w =
  q_enh (exp (- x i) * exp (- x (j + n)%nat)) (exp (- x (i + 2 * n)%nat) * exp (- x (j + 3 * n)%nat)) w.
Proof. exact solution_decm_exp_unique. Qed.
Print Assumptions C31_solution_decm_exp_unique_ensemble.
