(** Undirected networks seen as directed ones, and isolated nodes.  Nothing else in
    this file; proofs are in ProofsReduce, ProofsIsolated and WitnessReduce. *)
From Coq Require Import Reals List Arith Bool Lia Lra.
From Verif Require Import Base SpecDeriv SpecGraph SpecEnsemble SpecWeighted SpecDirected SpecCReMa SpecNetwork SpecReduce
  ModelCM ModelECM ModelDCM ModelDECM ModelCReMa.
From Verif Require Import ProofsReduce ProofsIsolated WitnessReduce.
Import ListNotations.
Local Open Scope R_scope.

(** C75: on an undirected network the directed models give the undirected results. *)
Theorem C75_expected_dcm_both :
  forall n x z i,
  both n x z -> (i < n)%nat ->
  expected_out_degree_dcm n z i = expected_degree_cm n x i /\
  expected_in_degree_dcm n z i = expected_degree_cm n x i.
Proof. exact expected_dcm_both. Qed.
Print Assumptions C75_expected_dcm_both.
Theorem C75_loglik_dcm_both :
  forall n k nz c x z,
  both n x z -> nonzero_list n k nz ->
  (forall i, (i < n)%nat -> k i <> 0) ->
  loglikelihood_dcm n k k nz nz c z = 2 * loglikelihood_cm n k c x.
Proof. exact loglik_dcm_both. Qed.
Print Assumptions C75_loglik_dcm_both.
Theorem C75_prime_dcm_both :
  forall n k nz c x z i,
  both n x z -> nonzero_list n k nz ->
  (forall i, (i < n)%nat -> k i <> 0) -> (i < n)%nat ->
  loglikelihood_prime_dcm n k k nz nz c z i = loglikelihood_prime_cm n k c x i /\
  loglikelihood_prime_dcm n k k nz nz c z (i + n) = loglikelihood_prime_cm n k c x i.
Proof. exact prime_dcm_both. Qed.
Print Assumptions C75_prime_dcm_both.
Theorem C75_iterative_dcm_both :
  forall n k c x z i,
  both n x z -> (i < n)%nat ->
  (forall q, (q < n)%nat -> 0 < x q) -> (forall q, (q < n)%nat -> 1 <= c q) ->
  (1 < c i \/ exists j, (j < n)%nat /\ j <> i) ->
  iterative_dcm n k k c z i = Fin (iterative_cm n k c x i) /\
  iterative_dcm n k k c z (i + n) = Fin (iterative_cm n k c x i).
Proof. exact iterative_dcm_both. Qed.
Print Assumptions C75_iterative_dcm_both.
Theorem C75_solution_dcm_both :
  forall n k nz x z,
  nonzero_list n k nz ->
  (forall i, (i < n)%nat -> k i <> 0 -> 0 < x i) -> (forall i, (i < n)%nat -> k i = 0 -> x i = 0) ->
  (forall i, (i < n)%nat -> expected_degree_cm n x i = k i) ->
  dcm_full n nz nz z ->
  (forall i, (i < n)%nat -> expected_out_degree_dcm n z i = k i /\ expected_in_degree_dcm n z i = k i) ->
  forall i j, (i < n)%nat -> (j < n)%nat -> i <> j ->
    p_dbcm z (fun j => z (j + n)%nat) i j = p_ubcm x i j.
Proof. exact solution_dcm_both. Qed.
Print Assumptions C75_solution_dcm_both.
Theorem C75_loglik_dcm_exp_both :
  forall n k nz c x z,
  both n x z -> nonzero_list n k nz ->
  (forall i, (i < n)%nat -> k i <> 0) ->
  loglikelihood_dcm_exp n k k nz nz c z = 2 * loglikelihood_cm_exp n k c x.
Proof. exact loglik_dcm_exp_both. Qed.
Print Assumptions C75_loglik_dcm_exp_both.
Theorem C75_prime_dcm_exp_both :
  forall n k nz c x z i,
  both n x z -> nonzero_list n k nz ->
  (forall i, (i < n)%nat -> k i <> 0) -> (i < n)%nat ->
  loglikelihood_prime_dcm_exp n k k nz nz c z i = loglikelihood_prime_cm_exp n k c x i /\
  loglikelihood_prime_dcm_exp n k k nz nz c z (i + n) = loglikelihood_prime_cm_exp n k c x i.
Proof. exact prime_dcm_exp_both. Qed.
Print Assumptions C75_prime_dcm_exp_both.
Theorem C75_expected_dcm_exp_both :
  forall n x z i,
  both n x z -> (i < n)%nat ->
  expected_out_degree_dcm_exp n z i = expected_degree_cm n (fun i => exp (- x i)) i /\
  expected_in_degree_dcm_exp n z i = expected_degree_cm n (fun i => exp (- x i)) i.
Proof. exact expected_dcm_exp_both. Qed.
Print Assumptions C75_expected_dcm_exp_both.
Theorem C75_expected_decm_both :
  forall n sol z i,
  both2 n sol z -> ecm_dom n sol -> (i < n)%nat ->
  expected_decm n z i = expected_ecm n sol i /\ expected_decm n z (i + n) = expected_ecm n sol i /\
  expected_decm n z (i + 2 * n) = expected_ecm n sol (i + n) /\
  expected_decm n z (i + 3 * n) = expected_ecm n sol (i + n).
Proof. exact expected_decm_both. Qed.
Print Assumptions C75_expected_decm_both.
Theorem C75_loglik_decm_both :
  forall n k s sol z,
  both2 n sol z -> ecm_dom n sol ->
  loglikelihood_decm n k k s s z = 2 * loglikelihood_ecm n k s sol.
Proof. exact loglik_decm_both. Qed.
Print Assumptions C75_loglik_decm_both.
Theorem C75_prime_decm_both :
  forall n k s sol z i,
  both2 n sol z -> ecm_dom n sol -> (i < n)%nat ->
  loglikelihood_prime_decm n k k s s z i = loglikelihood_prime_ecm n k s sol i /\
  loglikelihood_prime_decm n k k s s z (i + n) = loglikelihood_prime_ecm n k s sol i /\
  loglikelihood_prime_decm n k k s s z (i + 2 * n) = loglikelihood_prime_ecm n k s sol (i + n) /\
  loglikelihood_prime_decm n k k s s z (i + 3 * n) = loglikelihood_prime_ecm n k s sol (i + n).
Proof. exact prime_decm_both. Qed.
Print Assumptions C75_prime_decm_both.
Theorem C75_iterative_decm_both :
  forall n k s sol z i,
  both2 n sol z -> ecm_dom n sol -> (i < n)%nat -> (2 <= n)%nat ->
  iterative_decm n k k s s z i = Some (iterative_ecm n k s sol i) /\
  iterative_decm n k k s s z (i + n) = Some (iterative_ecm n k s sol i) /\
  iterative_decm n k k s s z (i + 2 * n) = Some (iterative_ecm n k s sol (i + n)) /\
  iterative_decm n k k s s z (i + 3 * n) = Some (iterative_ecm n k s sol (i + n)).
Proof. exact iterative_decm_both. Qed.
Print Assumptions C75_iterative_decm_both.
Theorem C75_solution_decm_both :
  forall n k s sol z,
  ecm_dom n sol ->
  (forall i, (i < n)%nat -> expected_ecm n sol i = k i /\ expected_ecm n sol (i + n) = s i) ->
  decm_dom n z -> decm_supp n k k s s z ->
  (forall r, (r < 4 * n)%nat -> expected_decm n z r = decm_constraint n k k s s r) ->
  forall i j w, (i < n)%nat -> (j < n)%nat -> i <> j ->
  q_enh (z i * z (j + n)%nat) (z (i + 2 * n)%nat * z (j + 3 * n)%nat) w =
  q_enh (sol i * sol j) (sol (i + n)%nat * sol (j + n)%nat) w.
Proof. exact solution_decm_both. Qed.
Print Assumptions C75_solution_decm_both.
Theorem C75_expected_decm_exp_both :
  forall n sol z i,
  both2 n sol z -> ecm_exp_dom n sol -> (i < n)%nat ->
  expected_decm_exp n z i = expected_ecm n (fun r => exp (- sol r)) i /\
  expected_decm_exp n z (i + n) = expected_ecm n (fun r => exp (- sol r)) i /\
  expected_decm_exp n z (i + 2 * n) = expected_ecm n (fun r => exp (- sol r)) (i + n) /\
  expected_decm_exp n z (i + 3 * n) = expected_ecm n (fun r => exp (- sol r)) (i + n).
Proof. exact expected_decm_exp_both. Qed.
Print Assumptions C75_expected_decm_exp_both.
Theorem C75_loglik_decm_exp_both :
  forall n k s sol z,
  both2 n sol z -> ecm_exp_dom n sol ->
  loglikelihood_decm_exp n k k s s z = 2 * loglikelihood_ecm_exp n k s sol.
Proof. exact loglik_decm_exp_both. Qed.
Print Assumptions C75_loglik_decm_exp_both.
Theorem C75_prime_decm_exp_both :
  forall n k s sol z i,
  both2 n sol z -> ecm_exp_dom n sol -> (i < n)%nat ->
  loglikelihood_prime_decm_exp n k k s s z i = loglikelihood_prime_ecm_exp n k s sol i /\
  loglikelihood_prime_decm_exp n k k s s z (i + n) = loglikelihood_prime_ecm_exp n k s sol i /\
  loglikelihood_prime_decm_exp n k k s s z (i + 2 * n) = loglikelihood_prime_ecm_exp n k s sol (i + n) /\
  loglikelihood_prime_decm_exp n k k s s z (i + 3 * n) = loglikelihood_prime_ecm_exp n k s sol (i + n).
Proof. exact prime_decm_exp_both. Qed.
Print Assumptions C75_prime_decm_exp_both.
Theorem C75_expected_crema_both :
  forall n es beta z,
  pairs_below n es -> both n beta z -> crema_dom es beta ->
  exists E EO EI, expected_strength_crema_undirected es beta = Some E /\
    expected_out_strength_crema_directed n (both_ways es) z = Some EO /\
    expected_in_strength_crema_directed n (both_ways es) z = Some EI /\
    forall i, (i < n)%nat -> EO i = E i /\ EI i = E i.
Proof. exact expected_crema_both. Qed.
Print Assumptions C75_expected_crema_both.
Theorem C75_loglik_crema_both :
  forall n s nz es beta z,
  pairs_below n es -> both n beta z -> nonzero_list n s nz ->
  loglikelihood_crema_directed n s s (both_ways es) nz nz z = 2 * loglikelihood_crema_undirected n s es beta.
Proof. exact loglik_crema_both. Qed.
Print Assumptions C75_loglik_crema_both.
Theorem C75_solution_crema_both :
  forall n s es beta z,
  pairs_below n es -> nonneg_weights es -> crema_dom es beta ->
  (exists E, expected_strength_crema_undirected es beta = Some E /\ forall i, (i < n)%nat -> E i = s i) ->
  crema_dir_dom n (both_ways es) z ->
  (exists EO EI, expected_out_strength_crema_directed n (both_ways es) z = Some EO /\
     expected_in_strength_crema_directed n (both_ways es) z = Some EI /\ forall i, (i < n)%nat -> EO i = s i /\ EI i = s i) ->
  forall i j w, In (i, j, w) es -> w <> 0 ->
    / (z i + z (j + n)%nat) = / (beta i + beta j) /\ / (z j + z (i + n)%nat) = / (beta i + beta j).
Proof. exact solution_crema_both. Qed.
Print Assumptions C75_solution_crema_both.
Example C75_both_dcm_case :
  both 3 (fun _ => 1) (fun _ => 1) /\ nonzero_list 3 (fun _ => 1) [0; 1; 2]%nat /\
  dcm_full 3 [0; 1; 2]%nat [0; 1; 2]%nat (fun _ => 1) /\
  (forall i, (i < 3)%nat -> expected_degree_cm 3 (fun _ => 1) i = 1 /\
     expected_out_degree_dcm 3 (fun _ => 1) i = 1 /\ expected_in_degree_dcm 3 (fun _ => 1) i = 1).
Proof. exact both_dcm_case. Qed.
Example C75_both_decm_case :
  ecm_dom 3 (enh 3) /\ both2 3 (enh 3) (enh 6) /\
  (forall i, (i < 3)%nat -> expected_ecm 3 (enh 3) i = / 2 /\ expected_ecm 3 (enh 3) (i + 3) = 2 / 3) /\
  (forall i, (i < 3)%nat -> expected_decm 3 (enh 6) i = / 2 /\ expected_decm 3 (enh 6) (i + 2 * 3) = 2 / 3).
Proof. exact both_decm_case. Qed.
Example C75_both_crema_case :
  pairs_below 3 path3 /\ nonneg_weights path3 /\ crema_dom path3 up3 /\ both 3 up3 up3 /\
  length (both_ways path3) = 4%nat /\ crema_dir_dom 3 (both_ways path3) up3.
Proof. exact both_crema_case. Qed.

(** C76: isolated nodes with zero parameters change nothing for the others. *)
Theorem C76_expected_cm_pad :
  forall (n m : nat) (x z : nat -> R),
    padded 1 n m x z ->
    (forall i : nat, (i < n)%nat -> expected_degree_cm (n + m) z i = expected_degree_cm n x i) /\
    (forall i : nat, (n <= i < n + m)%nat -> expected_degree_cm (n + m) z i = 0).
Proof. exact expected_cm_pad. Qed.
Print Assumptions C76_expected_cm_pad.
Theorem C76_iterative_cm_pad :
  forall (n m : nat) (x z k c : nat -> R),
    padded 1 n m x z ->
    (forall i : nat, (i < n)%nat -> iterative_cm (n + m) k c z i = iterative_cm n k c x i) /\
    (forall i : nat, (n <= i < n + m)%nat -> k i = 0 -> iterative_cm (n + m) k c z i = 0).
Proof. exact iterative_cm_pad. Qed.
Print Assumptions C76_iterative_cm_pad.
Theorem C76_expected_ecm_pad :
  forall (n m : nat) (x z : nat -> R),
    padded 2 n m x z ->
    (forall i : nat,
     (i < n)%nat ->
     expected_ecm (n + m) z i = expected_ecm n x i /\
     expected_ecm (n + m) z (i + (n + m)) = expected_ecm n x (i + n)) /\
    (forall i : nat,
     (n <= i < n + m)%nat -> expected_ecm (n + m) z i = 0 /\ expected_ecm (n + m) z (i + (n + m)) = 0).
Proof. exact expected_ecm_pad. Qed.
Print Assumptions C76_expected_ecm_pad.
Theorem C76_iterative_ecm_pad :
  forall (n m : nat) (x z k s : nat -> R),
    padded 2 n m x z ->
    (forall i : nat,
     (i < n)%nat ->
     iterative_ecm (n + m) k s z i = iterative_ecm n k s x i /\
     iterative_ecm (n + m) k s z (i + (n + m)) = iterative_ecm n k s x (i + n)) /\
    (forall i : nat,
     (n <= i < n + m)%nat ->
     k i = 0 -> s i = 0 -> iterative_ecm (n + m) k s z i = 0 /\ iterative_ecm (n + m) k s z (i + (n + m)) = 0).
Proof. exact iterative_ecm_pad. Qed.
Print Assumptions C76_iterative_ecm_pad.
Theorem C76_expected_dcm_pad :
  forall (n m : nat) (x z : nat -> R),
    padded 2 n m x z ->
    (forall i : nat,
     (i < n)%nat ->
     expected_out_degree_dcm (n + m) z i = expected_out_degree_dcm n x i /\
     expected_in_degree_dcm (n + m) z i = expected_in_degree_dcm n x i) /\
    (forall i : nat,
     (n <= i < n + m)%nat -> expected_out_degree_dcm (n + m) z i = 0 /\ expected_in_degree_dcm (n + m) z i = 0).
Proof. exact expected_dcm_pad. Qed.
Print Assumptions C76_expected_dcm_pad.
Theorem C76_loglik_dcm_pad :
  forall (n m : nat) (x z ko ki : nat -> R) (nzo nzi : list nat) (c : nat -> R),
    index_list n nzo ->
    index_list n nzi ->
    (forall i : nat, (i < n)%nat -> z i = x i /\ z (i + (n + m))%nat = x (i + n)%nat) ->
    loglikelihood_dcm (n + m) ko ki nzo nzi c z = loglikelihood_dcm n ko ki nzo nzi c x.
Proof. exact loglik_dcm_pad. Qed.
Print Assumptions C76_loglik_dcm_pad.
Theorem C76_prime_dcm_pad :
  forall (n m : nat) (x z ko ki : nat -> R) (nzo nzi : list nat) (c : nat -> R) (i : nat),
    index_list n nzo ->
    index_list n nzi ->
    (forall i0 : nat, (i0 < n)%nat -> z i0 = x i0 /\ z (i0 + (n + m))%nat = x (i0 + n)%nat) ->
    ((i < n)%nat ->
     loglikelihood_prime_dcm (n + m) ko ki nzo nzi c z i = loglikelihood_prime_dcm n ko ki nzo nzi c x i /\
     loglikelihood_prime_dcm (n + m) ko ki nzo nzi c z (i + (n + m)) =
     loglikelihood_prime_dcm n ko ki nzo nzi c x (i + n)) /\
    ((n <= i < n + m)%nat ->
     loglikelihood_prime_dcm (n + m) ko ki nzo nzi c z i = 0 /\
     loglikelihood_prime_dcm (n + m) ko ki nzo nzi c z (i + (n + m)) = 0).
Proof. exact prime_dcm_pad. Qed.
Print Assumptions C76_prime_dcm_pad.
Theorem C76_iterative_dcm_pad :
  forall (n m : nat) (x z ko ki c : nat -> R),
    padded 2 n m x z ->
    (forall i : nat,
     (i < n)%nat ->
     iterative_dcm (n + m) ko ki c z i = iterative_dcm n ko ki c x i /\
     iterative_dcm (n + m) ko ki c z (i + (n + m)) = iterative_dcm n ko ki c x (i + n)) /\
    (forall i : nat,
     (n <= i < n + m)%nat ->
     ko i = 0 ->
     ki i = 0 ->
     rsum n (fun j : nat => c j * x (j + n)%nat) <> 0 ->
     rsum n (fun j : nat => c j * x j) <> 0 ->
     iterative_dcm (n + m) ko ki c z i = Fin 0 /\ iterative_dcm (n + m) ko ki c z (i + (n + m)) = Fin 0).
Proof. exact iterative_dcm_pad. Qed.
Print Assumptions C76_iterative_dcm_pad.
Theorem C76_expected_decm_pad :
  forall (n m : nat) (x z : nat -> R),
    padded 4 n m x z ->
    (forall i : nat,
     (i < n)%nat ->
     expected_decm (n + m) z i = expected_decm n x i /\
     expected_decm (n + m) z (i + (n + m)) = expected_decm n x (i + n) /\
     expected_decm (n + m) z (i + 2 * (n + m)) = expected_decm n x (i + 2 * n) /\
     expected_decm (n + m) z (i + 3 * (n + m)) = expected_decm n x (i + 3 * n)) /\
    (forall i : nat,
     (n <= i < n + m)%nat ->
     expected_decm (n + m) z i = 0 /\
     expected_decm (n + m) z (i + (n + m)) = 0 /\
     expected_decm (n + m) z (i + 2 * (n + m)) = 0 /\ expected_decm (n + m) z (i + 3 * (n + m)) = 0).
Proof. exact expected_decm_pad. Qed.
Print Assumptions C76_expected_decm_pad.
Theorem C76_loglik_decm_pad :
  forall (n m : nat) (x z ko ki so si : nat -> R),
    padded 4 n m x z ->
    (forall i : nat, (n <= i < n + m)%nat -> ko i = 0 /\ ki i = 0 /\ so i = 0 /\ si i = 0) ->
    loglikelihood_decm (n + m) ko ki so si z = loglikelihood_decm n ko ki so si x.
Proof. exact loglik_decm_pad. Qed.
Print Assumptions C76_loglik_decm_pad.
Theorem C76_prime_decm_pad :
  forall (n m : nat) (x z ko ki so si : nat -> R),
    padded 4 n m x z ->
    forall i : nat,
    (i < n)%nat ->
    x i <> 0 ->
    loglikelihood_prime_decm (n + m) ko ki so si z i = loglikelihood_prime_decm n ko ki so si x i /\
    loglikelihood_prime_decm (n + m) ko ki so si z (i + (n + m)) =
    loglikelihood_prime_decm n ko ki so si x (i + n) /\
    loglikelihood_prime_decm (n + m) ko ki so si z (i + 2 * (n + m)) =
    loglikelihood_prime_decm n ko ki so si x (i + 2 * n) /\
    loglikelihood_prime_decm (n + m) ko ki so si z (i + 3 * (n + m)) =
    loglikelihood_prime_decm n ko ki so si x (i + 3 * n).
Proof. exact prime_decm_pad. Qed.
Print Assumptions C76_prime_decm_pad.
Theorem C76_iterative_decm_pad :
  forall (n m : nat) (x z ko ki so si : nat -> R),
    padded 4 n m x z ->
    (forall i : nat,
     (i < n)%nat ->
     iterative_decm (n + m) ko ki so si z i = iterative_decm n ko ki so si x i /\
     iterative_decm (n + m) ko ki so si z (i + (n + m)) = iterative_decm n ko ki so si x (i + n) /\
     iterative_decm (n + m) ko ki so si z (i + 2 * (n + m)) = iterative_decm n ko ki so si x (i + 2 * n) /\
     iterative_decm (n + m) ko ki so si z (i + 3 * (n + m)) = iterative_decm n ko ki so si x (i + 3 * n)) /\
    (forall i : nat,
     (n <= i < n + m)%nat ->
     ko i = 0 ->
     ki i = 0 ->
     so i = 0 ->
     si i = 0 ->
     iterative_decm (n + m) ko ki so si z i = Some 0 /\
     iterative_decm (n + m) ko ki so si z (i + (n + m)) = Some 0 /\
     iterative_decm (n + m) ko ki so si z (i + 2 * (n + m)) = Some 0 /\
     iterative_decm (n + m) ko ki so si z (i + 3 * (n + m)) = Some 0).
Proof. exact iterative_decm_pad. Qed.
Print Assumptions C76_iterative_decm_pad.
Theorem C76_loglik_crema_pad :
  forall n m s es beta,
  (forall i, (n <= i < n + m)%nat -> s i = 0) ->
  loglikelihood_crema_undirected (n + m) s es beta = loglikelihood_crema_undirected n s es beta.
Proof. exact loglik_crema_pad. Qed.
Print Assumptions C76_loglik_crema_pad.
Theorem C76_expected_crema_pad :
  forall n m es beta,
  pairs_below n es -> crema_dom es beta ->
  exists E, expected_strength_crema_undirected es beta = Some E /\ forall i, (n <= i < n + m)%nat -> E i = 0.
Proof. exact expected_crema_pad. Qed.
Print Assumptions C76_expected_crema_pad.
Example C76_padded_case :
  padded 1 2 1 (two 1) (two_and 1) /\ padded 2 2 1 (two 2) (two_and 2) /\ padded 4 2 1 (two 4) (two_and 4) /\
  two_and 2 4 = / 5 /\ two_and 2 5 = 0.
Proof. exact padded_case. Qed.
Example C76_padded_lists_case :
  index_list 2 [0; 1]%nat /\ pairs_below 2 [(0%nat, 1%nat, 1)] /\
  crema_dom [(0%nat, 1%nat, 1)] (two 1).
Proof. exact padded_lists_case. Qed.
