(** C34: the two parametrisations describe the same model.
    For dcm, zero-degree entries are absent from the index arrays and their
    parameters are not read; [x] has to agree with [exp (- theta)] on the others. *)
From Coq Require Import Reals List Arith Lia Lra.
From Verif Require Import Base SpecWeighted ModelCM ModelECM ModelDCM ModelDECM.
From Verif Require Import ProofsCM ProofsMainECM ProofsMainDCM ProofsDECM ProofsMainDECM ProofsFixDECM.
Local Open Scope R_scope.

Theorem C34_loglikelihood_cm :
  forall n k c x,
  loglikelihood_cm_exp n k c x = loglikelihood_cm n k c (fun i => exp (- x i)).
Proof. exact loglik_cm_exp_eq. Qed.
Print Assumptions C34_loglikelihood_cm.

Theorem C34_gradient_cm :
  forall n k c x i,
  (i < n)%nat ->
  loglikelihood_prime_cm_exp n k c x i =
  - exp (- x i) * loglikelihood_prime_cm n k c (fun j => exp (- x j)) i.
Proof. exact prime_cm_exp_eq. Qed.
Print Assumptions C34_gradient_cm.

Theorem C34_loglikelihood_ecm :
  forall n k s sol,
  ecm_exp_dom n sol ->
  loglikelihood_ecm_exp n k s sol = loglikelihood_ecm n k s (fun r => exp (- sol r)).
Proof. exact loglik_ecm_exp_eq. Qed.
Print Assumptions C34_loglikelihood_ecm.

Theorem C34_gradient_ecm :
  forall n k s sol r,
  (r < 2 * n)%nat -> ecm_exp_dom n sol ->
  loglikelihood_prime_ecm_exp n k s sol r =
  - exp (- sol r) * loglikelihood_prime_ecm n k s (fun r => exp (- sol r)) r.
Proof. exact prime_ecm_exp_eq. Qed.
Print Assumptions C34_gradient_ecm.

Theorem C34_loglikelihood_dcm :
  forall n k_out k_in nzo nzi c theta x,
  (forall i, In i nzo -> x i = exp (- theta i)) ->
  (forall j, In j nzi -> x (j + n)%nat = exp (- theta (j + n)%nat)) ->
  loglikelihood_dcm_exp n k_out k_in nzo nzi c theta = loglikelihood_dcm n k_out k_in nzo nzi c x.
Proof. exact loglik_dcm_exp_eq. Qed.
Print Assumptions C34_loglikelihood_dcm.

Theorem C34_gradient_dcm :
  forall n k_out k_in nzo nzi c theta x r,
  (r < 2 * n)%nat ->
  (forall i, In i nzo -> x i = exp (- theta i)) ->
  (forall j, In j nzi -> x (j + n)%nat = exp (- theta (j + n)%nat)) ->
  loglikelihood_prime_dcm_exp n k_out k_in nzo nzi c theta r =
  - x r * loglikelihood_prime_dcm n k_out k_in nzo nzi c x r.
Proof. exact prime_dcm_exp_eq. Qed.
Print Assumptions C34_gradient_dcm.

Theorem C34_loglikelihood_decm :
  forall n ko ki so si theta,
  decm_exp_dom n theta ->
  loglikelihood_decm_exp n ko ki so si theta = loglikelihood_decm n ko ki so si (fun r => exp (- theta r)).
Proof. exact loglik_decm_exp_eq. Qed.
Print Assumptions C34_loglikelihood_decm.

Theorem C34_gradient_decm :
  forall n ko ki so si theta r,
  (r < 4 * n)%nat -> decm_exp_dom n theta ->
  loglikelihood_prime_decm_exp n ko ki so si theta r =
  - exp (- theta r) * loglikelihood_prime_decm n ko ki so si (fun r => exp (- theta r)) r.
Proof. exact prime_decm_exp_eq. Qed.
Print Assumptions C34_gradient_decm.

Example C34_nonvacuous_ecm :
  ecm_exp_dom 4 wring4_theta.
Proof. exact wring4_exp_dom. Qed.

Example C34_nonvacuous_decm :
  decm_exp_dom 4 dring4_theta.
Proof. exact dring4_exp_dom. Qed.
