(** Symmetries: nodes with equal constraints, renaming of the nodes, exchange of the
    two directions.  Nothing else in this file; proofs are in ProofsAlike,
    ProofsEquivariant, ProofsEquiCReMa, ProofsFlip, ProofsFlipCReMa and WitnessSymmetry. *)
From Coq Require Import Reals List Arith Bool Lia Lra Permutation.
From Verif Require Import Base SpecDeriv SpecGraph SpecEnsemble SpecWeighted SpecDirected SpecCReMa SpecNetwork SpecSymmetry
  ModelCM ModelECM ModelDCM ModelDECM ModelCReMa.
From Verif Require Import ProofsAlike ProofsEquivariant ProofsEquiCReMa ProofsFlip ProofsFlipCReMa ProofsFixDCM WitnessSymmetry.
Import ListNotations.
Local Open Scope R_scope.

(** C72: a larger parameter is a larger expected degree; nodes with the same constraints
    get the same parameters (or, where the parameters are not determined, the same laws). *)
Theorem C72_order_cm :
  forall n x i j l,
  (forall q, (q < n)%nat -> 0 <= x q) -> (i < n)%nat -> (j < n)%nat -> (l < n)%nat ->
  l <> i -> l <> j -> 0 < x l ->
  (x i < x j <-> expected_degree_cm n x i < expected_degree_cm n x j) /\
  (x i = x j <-> expected_degree_cm n x i = expected_degree_cm n x j).
Proof. exact order_cm. Qed.
Print Assumptions C72_order_cm.
Theorem C72_twins_ecm :
  forall n k s x a b,
  (3 <= n)%nat -> ecm_dom n x -> (a < n)%nat -> (b < n)%nat ->
  (forall i, (i < n)%nat -> expected_ecm n x i = k i /\ expected_ecm n x (i + n) = s i) ->
  k a = k b -> s a = s b -> x a = x b /\ x (a + n)%nat = x (b + n)%nat.
Proof. exact twins_ecm. Qed.
Print Assumptions C72_twins_ecm.
Theorem C72_twins_dcm :
  forall n k_out k_in nzo nzi x a b,
  nonzero_list n k_out nzo -> nonzero_list n k_in nzi -> dcm_full n nzo nzi x -> (a < n)%nat -> (b < n)%nat ->
  (forall i, (i < n)%nat -> expected_out_degree_dcm n x i = k_out i /\ expected_in_degree_dcm n x i = k_in i) ->
  k_out a = k_out b -> k_in a = k_in b ->
  let q := p_dbcm x (fun v => x (v + n)%nat) in
  (forall l, (l < n)%nat -> l <> a -> l <> b -> q a l = q b l /\ q l a = q l b) /\ (a <> b -> q a b = q b a).
Proof. exact twins_dcm. Qed.
Print Assumptions C72_twins_dcm.
Theorem C72_twins_decm :
  forall n ko ki so si x a b,
  decm_dom n x -> decm_supp n ko ki so si x -> (a < n)%nat -> (b < n)%nat ->
  (forall r, (r < 4 * n)%nat -> expected_decm n x r = decm_constraint n ko ki so si r) ->
  ko a = ko b -> ki a = ki b -> so a = so b -> si a = si b ->
  let q := fun i j => q_enh (x i * x (j + n)%nat) (x (i + 2 * n)%nat * x (j + 3 * n)%nat) in
  (forall l w, (l < n)%nat -> l <> a -> l <> b -> q a l w = q b l w /\ q l a w = q l b w) /\
  (forall w, a <> b -> q a b w = q b a w).
Proof. exact twins_decm. Qed.
Print Assumptions C72_twins_decm.
Theorem C72_alike_ecm :
  forall n k s x p,
  (3 <= n)%nat -> ecm_dom n x -> relabelling n p ->
  (forall i, (i < n)%nat -> expected_ecm n x i = k i /\ expected_ecm n x (i + n) = s i) ->
  (forall i, (i < n)%nat -> k (p i) = k i /\ s (p i) = s i) ->
  forall i, (i < n)%nat -> x (p i) = x i /\ x (p i + n)%nat = x (i + n)%nat.
Proof. exact alike_ecm. Qed.
Print Assumptions C72_alike_ecm.
Theorem C72_alike_dcm :
  forall n k_out k_in nzo nzi x p,
  nonzero_list n k_out nzo -> nonzero_list n k_in nzi -> dcm_full n nzo nzi x -> relabelling n p ->
  (forall i, (i < n)%nat -> expected_out_degree_dcm n x i = k_out i /\ expected_in_degree_dcm n x i = k_in i) ->
  (forall i, (i < n)%nat -> k_out (p i) = k_out i /\ k_in (p i) = k_in i) ->
  forall i j, (i < n)%nat -> (j < n)%nat -> i <> j ->
  p_dbcm x (fun v => x (v + n)%nat) (p i) (p j) = p_dbcm x (fun v => x (v + n)%nat) i j.
Proof. exact alike_dcm. Qed.
Print Assumptions C72_alike_dcm.
Theorem C72_alike_decm :
  forall n ko ki so si x p,
  decm_dom n x -> decm_supp n ko ki so si x -> relabelling n p ->
  (forall r, (r < 4 * n)%nat -> expected_decm n x r = decm_constraint n ko ki so si r) ->
  (forall i, (i < n)%nat -> ko (p i) = ko i /\ ki (p i) = ki i /\ so (p i) = so i /\ si (p i) = si i) ->
  forall i j w, (i < n)%nat -> (j < n)%nat -> i <> j ->
  q_enh (x (p i) * x (p j + n)%nat) (x (p i + 2 * n)%nat * x (p j + 3 * n)%nat) w =
  q_enh (x i * x (j + n)%nat) (x (i + 2 * n)%nat * x (j + 3 * n)%nat) w.
Proof. exact alike_decm. Qed.
Print Assumptions C72_alike_decm.
Theorem C72_alike_crema :
  forall n s es beta p,
  relabelling n p -> renamed_pairs p es es ->
  pairs_below n es -> nonneg_weights es -> crema_dom es beta ->
  (exists E, expected_strength_crema_undirected es beta = Some E /\ forall k, (k < n)%nat -> E k = s k) ->
  (forall i, (i < n)%nat -> s (p i) = s i) ->
  forall i j w, In (i, j, w) es -> w <> 0 -> / (beta (p i) + beta (p j)) = / (beta i + beta j).
Proof. exact alike_crema. Qed.
Print Assumptions C72_alike_crema.
Theorem C72_alike_crema_dir :
  forall n s_out s_in es beta p,
  relabelling n p -> renamed_arcs p es es ->
  pairs_below n es -> nonneg_weights es -> crema_dir_dom n es beta ->
  (exists EO EI, expected_out_strength_crema_directed n es beta = Some EO /\
     expected_in_strength_crema_directed n es beta = Some EI /\ forall i, (i < n)%nat -> EO i = s_out i /\ EI i = s_in i) ->
  (forall i, (i < n)%nat -> s_out (p i) = s_out i /\ s_in (p i) = s_in i) ->
  forall i j w, In (i, j, w) es -> w <> 0 -> / (beta (p i) + beta (p j + n)%nat) = / (beta i + beta (j + n)%nat).
Proof. exact alike_crema_dir. Qed.
Print Assumptions C72_alike_crema_dir.
Example C72_case_order :
  (forall q, (q < 3)%nat -> 0 <= INR q + 1) /\ (0 < 3)%nat /\ (1 < 3)%nat /\ (2 < 3)%nat /\ 0 < INR 2 + 1 /\ INR 0 + 1 < INR 1 + 1 /\
  expected_degree_cm 3 (fun q => INR q + 1) 0 = 2 / 3 + 3 / 4 /\ expected_degree_cm 3 (fun q => INR q + 1) 1 = 2 / 3 + 6 / 7.
Proof. exact order_case. Qed.
Example C72_case_twins :
  nonzero_list 4 (fun i => bip4_out (bip4_cls i)) [0; 1]%nat /\ nonzero_list 4 (fun i => bip4_in (bip4_cls i)) [2; 3]%nat /\
  dcm_full 4 [0; 1]%nat [2; 3]%nat (expand 4 2 bip4_cls bip4_x) /\
  (forall i, (i < 4)%nat -> expected_out_degree_dcm 4 (expand 4 2 bip4_cls bip4_x) i = bip4_out (bip4_cls i) /\
     expected_in_degree_dcm 4 (expand 4 2 bip4_cls bip4_x) i = bip4_in (bip4_cls i)) /\
  bip4_out (bip4_cls 2) = bip4_out (bip4_cls 3).
Proof. exact twins_dcm_case. Qed.
Example C72_case_swap :
  relabelling 3 (transpose 0 2) /\ transpose 0 2 0 = 2%nat /\
  renamed_list 3 (transpose 0 2) [0; 1]%nat [1; 2]%nat /\
  renamed_pairs (transpose 0 2) [(0%nat, 1%nat, 5); (1%nat, 2%nat, 7)] [(0%nat, 1%nat, 7); (1%nat, 2%nat, 5)] /\
  renamed_arcs (transpose 0 2) [(0%nat, 1%nat, 5)] [(2%nat, 1%nat, 5)] /\
  reversed_arcs [(0%nat, 1%nat, 5)] [(1%nat, 0%nat, 5)] /\
  flip 3 1 = 4%nat /\ flip 3 4 = 1%nat /\ flip 3 7 = 10%nat.
Proof. exact swap_case. Qed.

(** C73: renaming the nodes renames the values.  False for the off-diagonal entries of
    [loglikelihood_hessian_cm]: the value depends on which node comes first. *)
Theorem C73_hessian_cm_refuted :
  exists n p k c x i j, relabelling n p /\ (forall q, (q < n)%nat -> 0 < x q /\ 0 < k q /\ c q = 1) /\
  (i < n)%nat /\ (j < n)%nat /\
  loglikelihood_hessian_cm n (fun q => k (p q)) (fun q => c (p q)) (fun q => x (p q)) i j
  <> loglikelihood_hessian_cm n k c x (p i) (p j).
Proof. exact hessian_cm_order_refuted. Qed.
Print Assumptions C73_hessian_cm_refuted.
Theorem C73_hessian_cm_diagonal_partial :
  forall (n : nat) (p : nat -> nat),
    relabelling n p ->
    forall (k c x : nat -> R) (i : nat),
    (i < n)%nat ->
    loglikelihood_hessian_cm n (fun i0 : nat => k (p i0)) (fun i0 : nat => c (p i0)) (fun i0 : nat => x (p i0)) i
      i = loglikelihood_hessian_cm n k c x (p i) (p i).
Proof. exact hessian_cm_diag_equi. Qed.
Print Assumptions C73_hessian_cm_diagonal_partial.
Theorem C73_renamed_iterative_cm :
  forall (n : nat) (p : nat -> nat),
    relabelling n p ->
    forall (k c x : nat -> R) (i : nat),
    (i < n)%nat ->
    iterative_cm n (fun i0 : nat => k (p i0)) (fun i0 : nat => c (p i0)) (fun i0 : nat => x (p i0)) i =
    iterative_cm n k c x (p i).
Proof. exact iterative_cm_equi. Qed.
Print Assumptions C73_renamed_iterative_cm.
Theorem C73_renamed_prime_cm :
  forall (n : nat) (p : nat -> nat),
    relabelling n p ->
    forall (k c x : nat -> R) (i : nat),
    (i < n)%nat ->
    loglikelihood_prime_cm n (fun i0 : nat => k (p i0)) (fun i0 : nat => c (p i0)) (fun i0 : nat => x (p i0)) i =
    loglikelihood_prime_cm n k c x (p i).
Proof. exact prime_cm_equi. Qed.
Print Assumptions C73_renamed_prime_cm.
Theorem C73_renamed_hessian_diag_cm :
  forall (n : nat) (p : nat -> nat),
    relabelling n p ->
    forall (k c x : nat -> R) (i : nat),
    (i < n)%nat ->
    loglikelihood_hessian_diag_cm n (fun i0 : nat => k (p i0)) (fun i0 : nat => c (p i0))
      (fun i0 : nat => x (p i0)) i = loglikelihood_hessian_diag_cm n k c x (p i).
Proof. exact hessian_diag_cm_equi. Qed.
Print Assumptions C73_renamed_hessian_diag_cm.
Theorem C73_renamed_expected_cm :
  forall (n : nat) (p : nat -> nat),
    relabelling n p ->
    forall (x : nat -> R) (i : nat),
    (i < n)%nat -> expected_degree_cm n (fun i0 : nat => x (p i0)) i = expected_degree_cm n x (p i).
Proof. exact expected_cm_equi. Qed.
Print Assumptions C73_renamed_expected_cm.
Theorem C73_renamed_loglik_cm :
  forall (n : nat) (p : nat -> nat),
    relabelling n p ->
    forall k c x : nat -> R,
    loglikelihood_cm n (fun i : nat => k (p i)) (fun i : nat => c (p i)) (fun i : nat => x (p i)) =
    loglikelihood_cm n k c x.
Proof. exact loglik_cm_equi. Qed.
Print Assumptions C73_renamed_loglik_cm.
Theorem C73_renamed_iterative_cm_exp :
  forall (n : nat) (p : nat -> nat),
    relabelling n p ->
    forall (k c x : nat -> R) (i : nat),
    (i < n)%nat ->
    iterative_cm_exp n (fun i0 : nat => k (p i0)) (fun i0 : nat => c (p i0)) (fun i0 : nat => x (p i0)) i =
    iterative_cm_exp n k c x (p i).
Proof. exact iterative_cm_exp_equi. Qed.
Print Assumptions C73_renamed_iterative_cm_exp.
Theorem C73_renamed_prime_cm_exp :
  forall (n : nat) (p : nat -> nat),
    relabelling n p ->
    forall (k c x : nat -> R) (i : nat),
    (i < n)%nat ->
    loglikelihood_prime_cm_exp n (fun i0 : nat => k (p i0)) (fun i0 : nat => c (p i0)) 
      (fun i0 : nat => x (p i0)) i = loglikelihood_prime_cm_exp n k c x (p i).
Proof. exact prime_cm_exp_equi. Qed.
Print Assumptions C73_renamed_prime_cm_exp.
Theorem C73_renamed_hessian_diag_cm_exp :
  forall (n : nat) (p : nat -> nat),
    relabelling n p ->
    forall (c x : nat -> R) (i : nat),
    (i < n)%nat ->
    loglikelihood_hessian_diag_cm_exp n (fun i0 : nat => c (p i0)) (fun i0 : nat => x (p i0)) i =
    loglikelihood_hessian_diag_cm_exp n c x (p i).
Proof. exact hessian_diag_cm_exp_equi. Qed.
Print Assumptions C73_renamed_hessian_diag_cm_exp.
Theorem C73_renamed_loglik_cm_exp :
  forall (n : nat) (p : nat -> nat),
    relabelling n p ->
    forall k c x : nat -> R,
    loglikelihood_cm_exp n (fun i : nat => k (p i)) (fun i : nat => c (p i)) (fun i : nat => x (p i)) =
    loglikelihood_cm_exp n k c x.
Proof. exact loglik_cm_exp_equi. Qed.
Print Assumptions C73_renamed_loglik_cm_exp.
Theorem C73_renamed_iterative_ecm :
  forall (n : nat) (p : nat -> nat),
    relabelling n p ->
    forall (k s x : nat -> R) (r : nat),
    (r < 2 * n)%nat ->
    iterative_ecm n (fun i : nat => k (p i)) (fun i : nat => s (p i)) (fun r0 : nat => x (lift n p r0)) r =
    iterative_ecm n k s x (lift n p r).
Proof. exact iterative_ecm_equi. Qed.
Print Assumptions C73_renamed_iterative_ecm.
Theorem C73_renamed_prime_ecm :
  forall (n : nat) (p : nat -> nat),
    relabelling n p ->
    forall (k s x : nat -> R) (r : nat),
    (r < 2 * n)%nat ->
    loglikelihood_prime_ecm n (fun i : nat => k (p i)) (fun i : nat => s (p i)) (fun r0 : nat => x (lift n p r0))
      r = loglikelihood_prime_ecm n k s x (lift n p r).
Proof. exact prime_ecm_equi. Qed.
Print Assumptions C73_renamed_prime_ecm.
Theorem C73_renamed_hessian_diag_ecm :
  forall (n : nat) (p : nat -> nat),
    relabelling n p ->
    forall (k s x : nat -> R) (r : nat),
    (r < 2 * n)%nat ->
    loglikelihood_hessian_diag_ecm n (fun i : nat => k (p i)) (fun i : nat => s (p i))
      (fun r0 : nat => x (lift n p r0)) r = loglikelihood_hessian_diag_ecm n k s x (lift n p r).
Proof. exact hessian_diag_ecm_equi. Qed.
Print Assumptions C73_renamed_hessian_diag_ecm.
Theorem C73_renamed_expected_ecm :
  forall (n : nat) (p : nat -> nat),
    relabelling n p ->
    forall (x : nat -> R) (r : nat),
    (r < 2 * n)%nat -> expected_ecm n (fun r0 : nat => x (lift n p r0)) r = expected_ecm n x (lift n p r).
Proof. exact expected_ecm_equi. Qed.
Print Assumptions C73_renamed_expected_ecm.
Theorem C73_renamed_iterative_ecm_exp :
  forall (n : nat) (p : nat -> nat),
    relabelling n p ->
    forall (k s x : nat -> R) (r : nat),
    (r < 2 * n)%nat ->
    iterative_ecm_exp n (fun i : nat => k (p i)) (fun i : nat => s (p i)) (fun r0 : nat => x (lift n p r0)) r =
    iterative_ecm_exp n k s x (lift n p r).
Proof. exact iterative_ecm_exp_equi. Qed.
Print Assumptions C73_renamed_iterative_ecm_exp.
Theorem C73_renamed_prime_ecm_exp :
  forall (n : nat) (p : nat -> nat),
    relabelling n p ->
    forall (k s x : nat -> R) (r : nat),
    (r < 2 * n)%nat ->
    loglikelihood_prime_ecm_exp n (fun i : nat => k (p i)) (fun i : nat => s (p i))
      (fun r0 : nat => x (lift n p r0)) r = loglikelihood_prime_ecm_exp n k s x (lift n p r).
Proof. exact prime_ecm_exp_equi. Qed.
Print Assumptions C73_renamed_prime_ecm_exp.
Theorem C73_renamed_hessian_diag_ecm_exp :
  forall (n : nat) (p : nat -> nat),
    relabelling n p ->
    forall (x : nat -> R) (r : nat),
    (r < 2 * n)%nat ->
    loglikelihood_hessian_diag_ecm_exp n (fun r0 : nat => x (lift n p r0)) r =
    loglikelihood_hessian_diag_ecm_exp n x (lift n p r).
Proof. exact hessian_diag_ecm_exp_equi. Qed.
Print Assumptions C73_renamed_hessian_diag_ecm_exp.
Theorem C73_renamed_loglik_ecm :
  forall (n : nat) (p : nat -> nat),
    relabelling n p ->
    forall k s x : nat -> R,
    loglikelihood_ecm n (fun i : nat => k (p i)) (fun i : nat => s (p i)) (fun r : nat => x (lift n p r)) =
    loglikelihood_ecm n k s x.
Proof. exact loglik_ecm_equi. Qed.
Print Assumptions C73_renamed_loglik_ecm.
Theorem C73_renamed_loglik_ecm_exp :
  forall (n : nat) (p : nat -> nat),
    relabelling n p ->
    forall k s x : nat -> R,
    loglikelihood_ecm_exp n (fun i : nat => k (p i)) (fun i : nat => s (p i)) (fun r : nat => x (lift n p r)) =
    loglikelihood_ecm_exp n k s x.
Proof. exact loglik_ecm_exp_equi. Qed.
Print Assumptions C73_renamed_loglik_ecm_exp.
Theorem C73_renamed_hessian_ecm :
  forall (n : nat) (p : nat -> nat),
    relabelling n p ->
    forall (k s x : nat -> R) (r t : nat),
    (r < 2 * n)%nat ->
    (t < 2 * n)%nat ->
    loglikelihood_hessian_ecm n (fun i : nat => k (p i)) (fun i : nat => s (p i))
      (fun r0 : nat => x (lift n p r0)) r t = loglikelihood_hessian_ecm n k s x (lift n p r) (lift n p t).
Proof. exact hessian_ecm_equi. Qed.
Print Assumptions C73_renamed_hessian_ecm.
Theorem C73_renamed_hessian_ecm_exp :
  forall (n : nat) (p : nat -> nat),
    relabelling n p ->
    forall (x : nat -> R) (r t : nat),
    (r < 2 * n)%nat ->
    (t < 2 * n)%nat ->
    loglikelihood_hessian_ecm_exp n (fun r0 : nat => x (lift n p r0)) r t =
    loglikelihood_hessian_ecm_exp n x (lift n p r) (lift n p t).
Proof. exact hessian_ecm_exp_equi. Qed.
Print Assumptions C73_renamed_hessian_ecm_exp.
Theorem C73_renamed_hessian_cm_exp :
  forall (n : nat) (p : nat -> nat),
    relabelling n p ->
    forall (c x : nat -> R) (i j : nat),
    (i < n)%nat ->
    (j < n)%nat ->
    loglikelihood_hessian_cm_exp n (fun i0 : nat => c (p i0)) (fun i0 : nat => x (p i0)) i j =
    loglikelihood_hessian_cm_exp n c x (p i) (p j).
Proof. exact hessian_cm_exp_equi. Qed.
Print Assumptions C73_renamed_hessian_cm_exp.
Theorem C73_renamed_iterative_dcm :
  forall (n : nat) (p : nat -> nat),
    relabelling n p ->
    forall (ko ki c x : nat -> R) (r : nat),
    (r < 2 * n)%nat ->
    iterative_dcm n (fun i : nat => ko (p i)) (fun i : nat => ki (p i)) (fun i : nat => c (p i))
      (fun r0 : nat => x (lift n p r0)) r = iterative_dcm n ko ki c x (lift n p r).
Proof. exact iterative_dcm_equi. Qed.
Print Assumptions C73_renamed_iterative_dcm.
Theorem C73_renamed_iterative_dcm_exp :
  forall (n : nat) (p : nat -> nat),
    relabelling n p ->
    forall (ko ki c : nat -> R) (x : nat -> option R) (r : nat),
    (r < 2 * n)%nat ->
    iterative_dcm_exp n (fun i : nat => ko (p i)) (fun i : nat => ki (p i)) (fun i : nat => c (p i))
      (fun r0 : nat => x (lift n p r0)) r = iterative_dcm_exp n ko ki c x (lift n p r).
Proof. exact iterative_dcm_exp_equi. Qed.
Print Assumptions C73_renamed_iterative_dcm_exp.
Theorem C73_renamed_prime_dcm :
  forall (n : nat) (p : nat -> nat),
    relabelling n p ->
    forall nzo nzi nzo' nzi' : list nat,
    renamed_list n p nzo' nzo ->
    renamed_list n p nzi' nzi ->
    forall (ko ki c x : nat -> R) (r : nat),
    (r < 2 * n)%nat ->
    loglikelihood_prime_dcm n (fun i : nat => ko (p i)) (fun i : nat => ki (p i)) nzo' nzi'
      (fun i : nat => c (p i)) (fun r0 : nat => x (lift n p r0)) r =
    loglikelihood_prime_dcm n ko ki nzo nzi c x (lift n p r).
Proof. exact prime_dcm_equi. Qed.
Print Assumptions C73_renamed_prime_dcm.
Theorem C73_renamed_hessian_diag_dcm :
  forall (n : nat) (p : nat -> nat),
    relabelling n p ->
    forall nzo nzi nzo' nzi' : list nat,
    renamed_list n p nzo' nzo ->
    renamed_list n p nzi' nzi ->
    forall (ko ki c x : nat -> R) (r : nat),
    (r < 2 * n)%nat ->
    loglikelihood_hessian_diag_dcm n (fun i : nat => ko (p i)) (fun i : nat => ki (p i)) nzo' nzi'
      (fun i : nat => c (p i)) (fun r0 : nat => x (lift n p r0)) r =
    loglikelihood_hessian_diag_dcm n ko ki nzo nzi c x (lift n p r).
Proof. exact hessian_diag_dcm_equi. Qed.
Print Assumptions C73_renamed_hessian_diag_dcm.
Theorem C73_renamed_loglik_dcm :
  forall (n : nat) (p : nat -> nat),
    relabelling n p ->
    forall nzo nzi nzo' nzi' : list nat,
    renamed_list n p nzo' nzo ->
    renamed_list n p nzi' nzi ->
    forall ko ki c x : nat -> R,
    loglikelihood_dcm n (fun i : nat => ko (p i)) (fun i : nat => ki (p i)) nzo' nzi' 
      (fun i : nat => c (p i)) (fun r : nat => x (lift n p r)) = loglikelihood_dcm n ko ki nzo nzi c x.
Proof. exact loglik_dcm_equi. Qed.
Print Assumptions C73_renamed_loglik_dcm.
Theorem C73_renamed_expected_out_dcm :
  forall (n : nat) (p : nat -> nat),
    relabelling n p ->
    forall (x : nat -> R) (i : nat),
    (i < n)%nat -> expected_out_degree_dcm n (fun r : nat => x (lift n p r)) i = expected_out_degree_dcm n x (p i).
Proof. exact expected_out_dcm_equi. Qed.
Print Assumptions C73_renamed_expected_out_dcm.
Theorem C73_renamed_expected_in_dcm :
  forall (n : nat) (p : nat -> nat),
    relabelling n p ->
    forall (x : nat -> R) (i : nat),
    (i < n)%nat -> expected_in_degree_dcm n (fun r : nat => x (lift n p r)) i = expected_in_degree_dcm n x (p i).
Proof. exact expected_in_dcm_equi. Qed.
Print Assumptions C73_renamed_expected_in_dcm.
Theorem C73_renamed_iterative_dcm_exp_2 :
  forall (n : nat) (p : nat -> nat),
    relabelling n p ->
    forall nzo nzi nzo' nzi' : list nat,
    renamed_list n p nzo' nzo ->
    renamed_list n p nzi' nzi ->
    forall (ko ki c : nat -> R) (x : nat -> option R) (r : nat),
    (r < 2 * n)%nat ->
    iterative_dcm_exp_2 n (fun i : nat => ko (p i)) (fun i : nat => ki (p i)) nzo' nzi' 
      (fun i : nat => c (p i)) (fun r0 : nat => x (lift n p r0)) r =
    iterative_dcm_exp_2 n ko ki nzo nzi c x (lift n p r).
Proof. exact iterative_dcm_exp_2_equi. Qed.
Print Assumptions C73_renamed_iterative_dcm_exp_2.
Theorem C73_renamed_prime_dcm_exp :
  forall (n : nat) (p : nat -> nat),
    relabelling n p ->
    forall nzo nzi nzo' nzi' : list nat,
    renamed_list n p nzo' nzo ->
    renamed_list n p nzi' nzi ->
    forall (ko ki c x : nat -> R) (r : nat),
    (r < 2 * n)%nat ->
    loglikelihood_prime_dcm_exp n (fun i : nat => ko (p i)) (fun i : nat => ki (p i)) nzo' nzi'
      (fun i : nat => c (p i)) (fun r0 : nat => x (lift n p r0)) r =
    loglikelihood_prime_dcm_exp n ko ki nzo nzi c x (lift n p r).
Proof. exact prime_dcm_exp_equi. Qed.
Print Assumptions C73_renamed_prime_dcm_exp.
Theorem C73_renamed_hessian_diag_dcm_exp :
  forall (n : nat) (p : nat -> nat),
    relabelling n p ->
    forall nzo nzi nzo' nzi' : list nat,
    renamed_list n p nzo' nzo ->
    renamed_list n p nzi' nzi ->
    forall (c x : nat -> R) (r : nat),
    (r < 2 * n)%nat ->
    loglikelihood_hessian_diag_dcm_exp n nzo' nzi' (fun i : nat => c (p i)) (fun r0 : nat => x (lift n p r0)) r =
    loglikelihood_hessian_diag_dcm_exp n nzo nzi c x (lift n p r).
Proof. exact hessian_diag_dcm_exp_equi. Qed.
Print Assumptions C73_renamed_hessian_diag_dcm_exp.
Theorem C73_renamed_loglik_dcm_exp :
  forall (n : nat) (p : nat -> nat),
    relabelling n p ->
    forall nzo nzi nzo' nzi' : list nat,
    renamed_list n p nzo' nzo ->
    renamed_list n p nzi' nzi ->
    forall ko ki c x : nat -> R,
    loglikelihood_dcm_exp n (fun i : nat => ko (p i)) (fun i : nat => ki (p i)) nzo' nzi' 
      (fun i : nat => c (p i)) (fun r : nat => x (lift n p r)) = loglikelihood_dcm_exp n ko ki nzo nzi c x.
Proof. exact loglik_dcm_exp_equi. Qed.
Print Assumptions C73_renamed_loglik_dcm_exp.
Theorem C73_renamed_expected_out_dcm_exp :
  forall (n : nat) (p : nat -> nat),
    relabelling n p ->
    forall (x : nat -> R) (i : nat),
    (i < n)%nat ->
    expected_out_degree_dcm_exp n (fun r : nat => x (lift n p r)) i = expected_out_degree_dcm_exp n x (p i).
Proof. exact expected_out_dcm_exp_equi. Qed.
Print Assumptions C73_renamed_expected_out_dcm_exp.
Theorem C73_renamed_expected_in_dcm_exp :
  forall (n : nat) (p : nat -> nat),
    relabelling n p ->
    forall (x : nat -> R) (i : nat),
    (i < n)%nat ->
    expected_in_degree_dcm_exp n (fun r : nat => x (lift n p r)) i = expected_in_degree_dcm_exp n x (p i).
Proof. exact expected_in_dcm_exp_equi. Qed.
Print Assumptions C73_renamed_expected_in_dcm_exp.
Theorem C73_renamed_hessian_dcm :
  forall (n : nat) (p : nat -> nat),
    relabelling n p ->
    forall nzo nzi nzo' nzi' : list nat,
    renamed_list n p nzo' nzo ->
    renamed_list n p nzi' nzi ->
    forall (ko ki c x : nat -> R) (r t : nat),
    (r < 2 * n)%nat ->
    (t < 2 * n)%nat ->
    loglikelihood_hessian_dcm n (fun i : nat => ko (p i)) (fun i : nat => ki (p i)) nzo' nzi'
      (fun i : nat => c (p i)) (fun r0 : nat => x (lift n p r0)) r t =
    loglikelihood_hessian_dcm n ko ki nzo nzi c x (lift n p r) (lift n p t).
Proof. exact hessian_dcm_equi. Qed.
Print Assumptions C73_renamed_hessian_dcm.
Theorem C73_renamed_hessian_dcm_exp :
  forall (n : nat) (p : nat -> nat),
    relabelling n p ->
    forall nzo nzi nzo' nzi' : list nat,
    renamed_list n p nzo' nzo ->
    renamed_list n p nzi' nzi ->
    forall (c x : nat -> R) (r t : nat),
    (r < 2 * n)%nat ->
    (t < 2 * n)%nat ->
    loglikelihood_hessian_dcm_exp n nzo' nzi' (fun i : nat => c (p i)) (fun r0 : nat => x (lift n p r0)) r t =
    loglikelihood_hessian_dcm_exp n nzo nzi c x (lift n p r) (lift n p t).
Proof. exact hessian_dcm_exp_equi. Qed.
Print Assumptions C73_renamed_hessian_dcm_exp.
Theorem C73_renamed_iterative_decm :
  forall (n : nat) (p : nat -> nat),
    relabelling n p ->
    forall (ko ki so si x : nat -> R) (r : nat),
    (r < 4 * n)%nat ->
    iterative_decm n (fun i : nat => ko (p i)) (fun i : nat => ki (p i)) (fun i : nat => so (p i))
      (fun i : nat => si (p i)) (fun r0 : nat => x (lift n p r0)) r = iterative_decm n ko ki so si x (lift n p r).
Proof. exact iterative_decm_equi. Qed.
Print Assumptions C73_renamed_iterative_decm.
Theorem C73_renamed_prime_decm :
  forall (n : nat) (p : nat -> nat),
    relabelling n p ->
    forall (ko ki so si x : nat -> R) (r : nat),
    (r < 4 * n)%nat ->
    loglikelihood_prime_decm n (fun i : nat => ko (p i)) (fun i : nat => ki (p i)) (fun i : nat => so (p i))
      (fun i : nat => si (p i)) (fun r0 : nat => x (lift n p r0)) r =
    loglikelihood_prime_decm n ko ki so si x (lift n p r).
Proof. exact prime_decm_equi. Qed.
Print Assumptions C73_renamed_prime_decm.
Theorem C73_renamed_hessian_diag_decm :
  forall (n : nat) (p : nat -> nat),
    relabelling n p ->
    forall (ko ki so si x : nat -> R) (r : nat),
    (r < 4 * n)%nat ->
    loglikelihood_hessian_diag_decm n (fun i : nat => ko (p i)) (fun i : nat => ki (p i))
      (fun i : nat => so (p i)) (fun i : nat => si (p i)) (fun r0 : nat => x (lift n p r0)) r =
    loglikelihood_hessian_diag_decm n ko ki so si x (lift n p r).
Proof. exact hessian_diag_decm_equi. Qed.
Print Assumptions C73_renamed_hessian_diag_decm.
Theorem C73_renamed_expected_decm :
  forall (n : nat) (p : nat -> nat),
    relabelling n p ->
    forall (x : nat -> R) (r : nat),
    (r < 4 * n)%nat -> expected_decm n (fun r0 : nat => x (lift n p r0)) r = expected_decm n x (lift n p r).
Proof. exact expected_decm_equi. Qed.
Print Assumptions C73_renamed_expected_decm.
Theorem C73_renamed_loglik_decm :
  forall (n : nat) (p : nat -> nat),
    relabelling n p ->
    forall ko ki so si x : nat -> R,
    loglikelihood_decm n (fun i : nat => ko (p i)) (fun i : nat => ki (p i)) (fun i : nat => so (p i))
      (fun i : nat => si (p i)) (fun r : nat => x (lift n p r)) = loglikelihood_decm n ko ki so si x.
Proof. exact loglik_decm_equi. Qed.
Print Assumptions C73_renamed_loglik_decm.
Theorem C73_renamed_iterative_decm_exp :
  forall (n : nat) (p : nat -> nat),
    relabelling n p ->
    forall (ko ki so si x : nat -> R) (r : nat),
    (r < 4 * n)%nat ->
    iterative_decm_exp n (fun i : nat => ko (p i)) (fun i : nat => ki (p i)) (fun i : nat => so (p i))
      (fun i : nat => si (p i)) (fun r0 : nat => x (lift n p r0)) r =
    iterative_decm_exp n ko ki so si x (lift n p r).
Proof. exact iterative_decm_exp_equi. Qed.
Print Assumptions C73_renamed_iterative_decm_exp.
Theorem C73_renamed_iterative_decm_exp_2 :
  forall (n : nat) (p : nat -> nat),
    relabelling n p ->
    forall (ko ki so si x : nat -> R) (r : nat),
    (r < 4 * n)%nat ->
    iterative_decm_exp_2 n (fun i : nat => ko (p i)) (fun i : nat => ki (p i)) (fun i : nat => so (p i))
      (fun i : nat => si (p i)) (fun r0 : nat => x (lift n p r0)) r =
    iterative_decm_exp_2 n ko ki so si x (lift n p r).
Proof. exact iterative_decm_exp_2_equi. Qed.
Print Assumptions C73_renamed_iterative_decm_exp_2.
Theorem C73_renamed_prime_decm_exp :
  forall (n : nat) (p : nat -> nat),
    relabelling n p ->
    forall (ko ki so si x : nat -> R) (r : nat),
    (r < 4 * n)%nat ->
    loglikelihood_prime_decm_exp n (fun i : nat => ko (p i)) (fun i : nat => ki (p i)) 
      (fun i : nat => so (p i)) (fun i : nat => si (p i)) (fun r0 : nat => x (lift n p r0)) r =
    loglikelihood_prime_decm_exp n ko ki so si x (lift n p r).
Proof. exact prime_decm_exp_equi. Qed.
Print Assumptions C73_renamed_prime_decm_exp.
Theorem C73_renamed_hessian_diag_decm_exp :
  forall (n : nat) (p : nat -> nat),
    relabelling n p ->
    forall (x : nat -> R) (r : nat),
    (r < 4 * n)%nat ->
    loglikelihood_hessian_diag_decm_exp n (fun r0 : nat => x (lift n p r0)) r =
    loglikelihood_hessian_diag_decm_exp n x (lift n p r).
Proof. exact hessian_diag_decm_exp_equi. Qed.
Print Assumptions C73_renamed_hessian_diag_decm_exp.
Theorem C73_renamed_expected_decm_exp :
  forall (n : nat) (p : nat -> nat),
    relabelling n p ->
    forall (x : nat -> R) (r : nat),
    (r < 4 * n)%nat ->
    expected_decm_exp n (fun r0 : nat => x (lift n p r0)) r = expected_decm_exp n x (lift n p r).
Proof. exact expected_decm_exp_equi. Qed.
Print Assumptions C73_renamed_expected_decm_exp.
Theorem C73_renamed_loglik_decm_exp :
  forall (n : nat) (p : nat -> nat),
    relabelling n p ->
    forall ko ki so si x : nat -> R,
    loglikelihood_decm_exp n (fun i : nat => ko (p i)) (fun i : nat => ki (p i)) (fun i : nat => so (p i))
      (fun i : nat => si (p i)) (fun r : nat => x (lift n p r)) = loglikelihood_decm_exp n ko ki so si x.
Proof. exact loglik_decm_exp_equi. Qed.
Print Assumptions C73_renamed_loglik_decm_exp.
Theorem C73_renamed_hessian_decm :
  forall (n : nat) (p : nat -> nat),
    relabelling n p ->
    forall (ko ki so si x : nat -> R) (r t : nat),
    (r < 4 * n)%nat ->
    (t < 4 * n)%nat ->
    loglikelihood_hessian_decm n (fun i : nat => ko (p i)) (fun i : nat => ki (p i)) (fun i : nat => so (p i))
      (fun i : nat => si (p i)) (fun r0 : nat => x (lift n p r0)) r t =
    loglikelihood_hessian_decm n ko ki so si x (lift n p r) (lift n p t).
Proof. exact hessian_decm_equi. Qed.
Print Assumptions C73_renamed_hessian_decm.
Theorem C73_renamed_hessian_decm_exp :
  forall (n : nat) (p : nat -> nat),
    relabelling n p ->
    forall (x : nat -> R) (r t : nat),
    (r < 4 * n)%nat ->
    (t < 4 * n)%nat ->
    loglikelihood_hessian_decm_exp n (fun r0 : nat => x (lift n p r0)) r t =
    loglikelihood_hessian_decm_exp n x (lift n p r) (lift n p t).
Proof. exact hessian_decm_exp_equi. Qed.
Print Assumptions C73_renamed_hessian_decm_exp.
Theorem C73_renamed_pmatrix_cm :
  forall (n : nat) (p : nat -> nat),
    relabelling n p ->
    forall (x : nat -> R) (i j : nat),
    (i < n)%nat -> (j < n)%nat -> pmatrix_cm (fun i0 : nat => x (p i0)) i j = pmatrix_cm x (p i) (p j).
Proof. exact pmatrix_cm_equi. Qed.
Print Assumptions C73_renamed_pmatrix_cm.
Theorem C73_renamed_pmatrix_dcm :
  forall (n : nat) (p : nat -> nat),
    relabelling n p ->
    forall (io ii io' ii' : list nat) (x : nat -> R) (i j : nat),
    renamed_list n p io' io ->
    renamed_list n p ii' ii ->
    (i < n)%nat ->
    (j < n)%nat -> pmatrix_dcm n io' ii' (fun r : nat => x (lift n p r)) i j = pmatrix_dcm n io ii x (p i) (p j).
Proof. exact pmatrix_dcm_equi. Qed.
Print Assumptions C73_renamed_pmatrix_dcm.
Theorem C73_renamed_loglik_crema :
  forall (n : nat) (p : nat -> nat) (es' es : topology),
    relabelling n p ->
    renamed_pairs p es' es ->
    forall beta s : nat -> R,
    loglikelihood_crema_undirected n (fun i : nat => s (p i)) es' (fun i : nat => beta (p i)) =
    loglikelihood_crema_undirected n s es beta.
Proof. exact loglik_crema_equi. Qed.
Print Assumptions C73_renamed_loglik_crema.
Theorem C73_renamed_prime_crema :
  forall (n : nat) (p : nat -> nat) (es' es : topology),
    relabelling n p ->
    renamed_pairs p es' es ->
    pairs_below n es' ->
    forall (beta s : nat -> R) (k : nat),
    crema_dom es beta ->
    (k < n)%nat ->
    oentry (loglikelihood_prime_crema_undirected n (fun i : nat => s (p i)) es' (fun i : nat => beta (p i))) k =
    oentry (loglikelihood_prime_crema_undirected n s es beta) (p k).
Proof. exact prime_crema_equi. Qed.
Print Assumptions C73_renamed_prime_crema.
Theorem C73_renamed_expected_crema :
  forall (n : nat) (p : nat -> nat) (es' es : topology),
    relabelling n p ->
    renamed_pairs p es' es ->
    pairs_below n es' ->
    forall (beta : nat -> R) (k : nat),
    crema_dom es beta ->
    (k < n)%nat ->
    oentry (expected_strength_crema_undirected es' (fun i : nat => beta (p i))) k =
    oentry (expected_strength_crema_undirected es beta) (p k).
Proof. exact expected_crema_equi. Qed.
Print Assumptions C73_renamed_expected_crema.
Theorem C73_renamed_diag_crema :
  forall (n : nat) (p : nat -> nat) (es' es : topology),
    relabelling n p ->
    renamed_pairs p es' es ->
    pairs_below n es' ->
    forall (beta : nat -> R) (k : nat),
    crema_dom es beta ->
    (k < n)%nat ->
    oentry (loglikelihood_hessian_diag_crema_undirected es' (fun i : nat => beta (p i))) k =
    oentry (loglikelihood_hessian_diag_crema_undirected es beta) (p k).
Proof. exact diag_crema_equi. Qed.
Print Assumptions C73_renamed_diag_crema.
Theorem C73_renamed_hessian_crema :
  forall (n : nat) (p : nat -> nat) (es' es : topology),
    relabelling n p ->
    renamed_pairs p es' es ->
    pairs_below n es' ->
    forall (beta : nat -> R) (k l : nat),
    crema_dom es beta ->
    simple_pairs es' ->
    simple_pairs es ->
    (k < n)%nat ->
    (l < n)%nat ->
    oentry2 (loglikelihood_hessian_crema_undirected es' (fun i : nat => beta (p i))) k l =
    oentry2 (loglikelihood_hessian_crema_undirected es beta) (p k) (p l).
Proof. exact hessian_crema_equi. Qed.
Print Assumptions C73_renamed_hessian_crema.
Theorem C73_renamed_iterative_crema :
  forall (n : nat) (p : nat -> nat) (es' es : topology),
    relabelling n p ->
    renamed_pairs p es' es ->
    pairs_below n es' ->
    forall (beta s : nat -> R) (k : nat),
    crema_dom es beta ->
    ends_nonzero es beta ->
    (k < n)%nat ->
    oentry (iterative_crema_undirected n (fun i : nat => s (p i)) es' (fun i : nat => beta (p i))) k =
    oentry (iterative_crema_undirected n s es beta) (p k).
Proof. exact iterative_crema_equi. Qed.
Print Assumptions C73_renamed_iterative_crema.
Theorem C73_renamed_triu_renamed :
  forall (n : nat) (p : nat -> nat) (m : nat -> nat -> R),
    relabelling n p ->
    (forall i j : nat, m i j = m j i) ->
    renamed_pairs p (triu_edges n (fun i j : nat => m (p i) (p j))) (triu_edges n m).
Proof. exact triu_renamed. Qed.
Print Assumptions C73_renamed_triu_renamed.
Theorem C73_renamed_loglik_crema_dir :
  forall (n : nat) (p : nat -> nat) (es' es : topology),
    relabelling n p ->
    renamed_arcs p es' es ->
    pairs_below n es' ->
    forall (s_out s_in : nat -> R) (nzo nzi nzo' nzi' : list nat) (beta : nat -> R),
    nonzero_list n s_out nzo ->
    nonzero_list n s_in nzi ->
    nonzero_list n (fun i : nat => s_out (p i)) nzo' ->
    nonzero_list n (fun i : nat => s_in (p i)) nzi' ->
    loglikelihood_crema_directed n (fun i : nat => s_out (p i)) (fun i : nat => s_in (p i)) es' nzo' nzi'
      (fun r : nat => beta (lift n p r)) = loglikelihood_crema_directed n s_out s_in es nzo nzi beta.
Proof. exact loglik_crema_dir_equi. Qed.
Print Assumptions C73_renamed_loglik_crema_dir.
Theorem C73_renamed_prime_crema_dir :
  forall (n : nat) (p : nat -> nat) (es' es : topology),
    relabelling n p ->
    renamed_arcs p es' es ->
    pairs_below n es' ->
    forall (s_out s_in : nat -> R) (nzo nzi nzo' nzi' : list nat) (beta : nat -> R),
    nonzero_list n s_out nzo ->
    nonzero_list n s_in nzi ->
    nonzero_list n (fun i : nat => s_out (p i)) nzo' ->
    nonzero_list n (fun i : nat => s_in (p i)) nzi' ->
    forall r : nat,
    crema_dir_dom n es beta ->
    (r < 2 * n)%nat ->
    oentry
      (loglikelihood_prime_crema_directed n (fun i : nat => s_out (p i)) (fun i : nat => s_in (p i)) es' nzo' nzi'
         (fun r0 : nat => beta (lift n p r0))) r =
    oentry (loglikelihood_prime_crema_directed n s_out s_in es nzo nzi beta) (lift n p r).
Proof. exact prime_crema_dir_equi. Qed.
Print Assumptions C73_renamed_prime_crema_dir.
Theorem C73_renamed_diag_crema_dir :
  forall (n : nat) (p : nat -> nat) (es' es : topology),
    relabelling n p ->
    renamed_arcs p es' es ->
    pairs_below n es' ->
    forall (beta : nat -> R) (r : nat),
    crema_dir_dom n es beta ->
    (r < 2 * n)%nat ->
    oentry (loglikelihood_hessian_diag_crema_directed n es' (fun r0 : nat => beta (lift n p r0))) r =
    oentry (loglikelihood_hessian_diag_crema_directed n es beta) (lift n p r).
Proof. exact diag_crema_dir_equi. Qed.
Print Assumptions C73_renamed_diag_crema_dir.
Theorem C73_renamed_hessian_crema_dir :
  forall (n : nat) (p : nat -> nat) (es' es : topology),
    relabelling n p ->
    renamed_arcs p es' es ->
    pairs_below n es' ->
    pairs_below n es ->
    forall (beta : nat -> R) (r t : nat),
    crema_dir_dom n es beta ->
    simple_arcs es' ->
    simple_arcs es ->
    (r < 2 * n)%nat ->
    (t < 2 * n)%nat ->
    oentry2 (loglikelihood_hessian_crema_directed n es' (fun r0 : nat => beta (lift n p r0))) r t =
    oentry2 (loglikelihood_hessian_crema_directed n es beta) (lift n p r) (lift n p t).
Proof. exact hessian_crema_dir_equi. Qed.
Print Assumptions C73_renamed_hessian_crema_dir.
Theorem C73_renamed_iterative_crema_dir :
  forall (n : nat) (p : nat -> nat) (es' es : topology),
    relabelling n p ->
    renamed_arcs p es' es ->
    pairs_below n es' ->
    forall (s_out s_in : nat -> R) (nzo nzi nzo' nzi' : list nat) (beta : nat -> R),
    nonzero_list n s_out nzo ->
    nonzero_list n s_in nzi ->
    nonzero_list n (fun i : nat => s_out (p i)) nzo' ->
    nonzero_list n (fun i : nat => s_in (p i)) nzi' ->
    forall r : nat,
    crema_dir_dom n es beta ->
    ends_nonzero_dir n es beta ->
    (r < 2 * n)%nat ->
    oentry
      (iterative_crema_directed n (fun i : nat => s_out (p i)) (fun i : nat => s_in (p i)) es' nzo' nzi'
         (fun r0 : nat => beta (lift n p r0))) r =
    oentry (iterative_crema_directed n s_out s_in es nzo nzi beta) (lift n p r).
Proof. exact iterative_crema_dir_equi. Qed.
Print Assumptions C73_renamed_iterative_crema_dir.
Theorem C73_renamed_expected_crema_dir :
  forall (n : nat) (p : nat -> nat) (es' es : topology),
    relabelling n p ->
    renamed_arcs p es' es ->
    pairs_below n es' ->
    pairs_below n es ->
    forall (beta : nat -> R) (i : nat),
    crema_dir_dom n es beta ->
    (i < n)%nat ->
    oentry (expected_out_strength_crema_directed n es' (fun r : nat => beta (lift n p r))) i =
    oentry (expected_out_strength_crema_directed n es beta) (p i) /\
    oentry (expected_in_strength_crema_directed n es' (fun r : nat => beta (lift n p r))) i =
    oentry (expected_in_strength_crema_directed n es beta) (p i).
Proof. exact expected_crema_dir_equi. Qed.
Print Assumptions C73_renamed_expected_crema_dir.
Theorem C73_renamed_all_renamed :
  forall (n : nat) (p : nat -> nat) (m : nat -> nat -> R),
    relabelling n p -> renamed_arcs p (all_edges n (fun i j : nat => m (p i) (p j))) (all_edges n m).
Proof. exact all_renamed. Qed.
Print Assumptions C73_renamed_all_renamed.
Example C73_case_swap :
  relabelling 3 (transpose 0 2) /\ transpose 0 2 0 = 2%nat /\
  renamed_list 3 (transpose 0 2) [0; 1]%nat [1; 2]%nat /\
  renamed_pairs (transpose 0 2) [(0%nat, 1%nat, 5); (1%nat, 2%nat, 7)] [(0%nat, 1%nat, 7); (1%nat, 2%nat, 5)] /\
  renamed_arcs (transpose 0 2) [(0%nat, 1%nat, 5)] [(2%nat, 1%nat, 5)] /\
  reversed_arcs [(0%nat, 1%nat, 5)] [(1%nat, 0%nat, 5)] /\
  flip 3 1 = 4%nat /\ flip 3 4 = 1%nat /\ flip 3 7 = 10%nat.
Proof. exact swap_case. Qed.

(** C74: exchanging the directions of every link exchanges the out and in values.
    False for three functions. *)
Theorem C74_expected_out_dcm_exp_refuted :
  exists n theta i, (i < n)%nat /\
  expected_out_degree_dcm_exp n (fun r => theta (flip n r)) i <> expected_in_degree_dcm_exp n theta i.
Proof. exact expected_out_dcm_exp_flip_refuted. Qed.
Print Assumptions C74_expected_out_dcm_exp_refuted.
Theorem C74_iterative_decm_exp_refuted :
  exists n ko ki so si theta r, (r < 4 * n)%nat /\
  (forall i, (i < n)%nat -> 0 < ko i /\ 0 < ki i /\ 0 < so i /\ 0 < si i) /\
  iterative_decm_exp n ki ko si so (fun r => theta (flip n r)) r <> iterative_decm_exp n ko ki so si theta (flip n r).
Proof. exact iterative_decm_exp_flip_refuted. Qed.
Print Assumptions C74_iterative_decm_exp_refuted.
Theorem C74_hessian_diag_decm_refuted :
  exists n ko ki so si x r, (r < 4 * n)%nat /\ decm_dom n x /\
  (forall i, (i < n)%nat -> (ko i = 0 <-> so i = 0) /\ (ki i = 0 <-> si i = 0)) /\
  loglikelihood_hessian_diag_decm n ki ko si so (fun r => x (flip n r)) r
  <> loglikelihood_hessian_diag_decm n ko ki so si x (flip n r).
Proof. exact hessian_diag_decm_flip_refuted. Qed.
Print Assumptions C74_hessian_diag_decm_refuted.
Theorem C74_reversed_iterative_dcm :
  forall (n : nat) (ko ki c x : nat -> R) (r : nat),
    (r < 2 * n)%nat ->
    iterative_dcm n ki ko c (fun r0 : nat => x (flip n r0)) r = iterative_dcm n ko ki c x (flip n r).
Proof. exact iterative_dcm_flip. Qed.
Print Assumptions C74_reversed_iterative_dcm.
Theorem C74_reversed_iterative_dcm_exp :
  forall (n : nat) (ko ki c : nat -> R) (x : nat -> option R) (r : nat),
    (r < 2 * n)%nat ->
    iterative_dcm_exp n ki ko c (fun r0 : nat => x (flip n r0)) r = iterative_dcm_exp n ko ki c x (flip n r).
Proof. exact iterative_dcm_exp_flip. Qed.
Print Assumptions C74_reversed_iterative_dcm_exp.
Theorem C74_reversed_prime_dcm :
  forall (n : nat) (nzo nzi : list nat),
    index_list n nzo ->
    index_list n nzi ->
    forall (ko ki c x : nat -> R) (r : nat),
    (r < 2 * n)%nat ->
    loglikelihood_prime_dcm n ki ko nzi nzo c (fun r0 : nat => x (flip n r0)) r =
    loglikelihood_prime_dcm n ko ki nzo nzi c x (flip n r).
Proof. exact prime_dcm_flip. Qed.
Print Assumptions C74_reversed_prime_dcm.
Theorem C74_reversed_prime_dcm_exp :
  forall (n : nat) (nzo nzi : list nat),
    index_list n nzo ->
    index_list n nzi ->
    forall (ko ki c x : nat -> R) (r : nat),
    (r < 2 * n)%nat ->
    loglikelihood_prime_dcm_exp n ki ko nzi nzo c (fun r0 : nat => x (flip n r0)) r =
    loglikelihood_prime_dcm_exp n ko ki nzo nzi c x (flip n r).
Proof. exact prime_dcm_exp_flip. Qed.
Print Assumptions C74_reversed_prime_dcm_exp.
Theorem C74_reversed_hessian_diag_dcm :
  forall (n : nat) (nzo nzi : list nat),
    index_list n nzo ->
    index_list n nzi ->
    forall (ko ki c x : nat -> R) (r : nat),
    (r < 2 * n)%nat ->
    loglikelihood_hessian_diag_dcm n ki ko nzi nzo c (fun r0 : nat => x (flip n r0)) r =
    loglikelihood_hessian_diag_dcm n ko ki nzo nzi c x (flip n r).
Proof. exact hessian_diag_dcm_flip. Qed.
Print Assumptions C74_reversed_hessian_diag_dcm.
Theorem C74_reversed_hessian_diag_dcm_exp :
  forall (n : nat) (nzo nzi : list nat),
    index_list n nzo ->
    index_list n nzi ->
    forall (c x : nat -> R) (r : nat),
    (r < 2 * n)%nat ->
    loglikelihood_hessian_diag_dcm_exp n nzi nzo c (fun r0 : nat => x (flip n r0)) r =
    loglikelihood_hessian_diag_dcm_exp n nzo nzi c x (flip n r).
Proof. exact hessian_diag_dcm_exp_flip. Qed.
Print Assumptions C74_reversed_hessian_diag_dcm_exp.
Theorem C74_reversed_iterative_dcm_exp_2 :
  forall (n : nat) (nzo nzi : list nat),
    index_list n nzo ->
    index_list n nzi ->
    forall (ko ki c : nat -> R) (x : nat -> option R) (r : nat),
    (r < 2 * n)%nat ->
    iterative_dcm_exp_2 n ki ko nzi nzo c (fun r0 : nat => x (flip n r0)) r =
    iterative_dcm_exp_2 n ko ki nzo nzi c x (flip n r).
Proof. exact iterative_dcm_exp_2_flip. Qed.
Print Assumptions C74_reversed_iterative_dcm_exp_2.
Theorem C74_reversed_hessian_dcm :
  forall (n : nat) (nzo nzi : list nat),
    index_list n nzo ->
    index_list n nzi ->
    forall (ko ki c x : nat -> R) (r t : nat),
    (r < 2 * n)%nat ->
    (t < 2 * n)%nat ->
    loglikelihood_hessian_dcm n ki ko nzi nzo c (fun r0 : nat => x (flip n r0)) r t =
    loglikelihood_hessian_dcm n ko ki nzo nzi c x (flip n r) (flip n t).
Proof. exact hessian_dcm_flip. Qed.
Print Assumptions C74_reversed_hessian_dcm.
Theorem C74_reversed_hessian_dcm_exp :
  forall (n : nat) (nzo nzi : list nat),
    index_list n nzo ->
    index_list n nzi ->
    forall (c x : nat -> R) (r t : nat),
    (r < 2 * n)%nat ->
    (t < 2 * n)%nat ->
    loglikelihood_hessian_dcm_exp n nzi nzo c (fun r0 : nat => x (flip n r0)) r t =
    loglikelihood_hessian_dcm_exp n nzo nzi c x (flip n r) (flip n t).
Proof. exact hessian_dcm_exp_flip. Qed.
Print Assumptions C74_reversed_hessian_dcm_exp.
Theorem C74_reversed_expected_dcm :
  forall (n : nat) (x : nat -> R) (i : nat),
    (i < n)%nat ->
    expected_out_degree_dcm n (fun r : nat => x (flip n r)) i = expected_in_degree_dcm n x i /\
    expected_in_degree_dcm n (fun r : nat => x (flip n r)) i = expected_out_degree_dcm n x i.
Proof. exact expected_dcm_flip. Qed.
Print Assumptions C74_reversed_expected_dcm.
Theorem C74_reversed_loglik_dcm :
  forall (n : nat) (nzo nzi : list nat),
    index_list n nzo ->
    index_list n nzi ->
    forall ko ki c x : nat -> R,
    loglikelihood_dcm n ki ko nzi nzo c (fun r : nat => x (flip n r)) = loglikelihood_dcm n ko ki nzo nzi c x.
Proof. exact loglik_dcm_flip. Qed.
Print Assumptions C74_reversed_loglik_dcm.
Theorem C74_reversed_loglik_dcm_exp :
  forall (n : nat) (nzo nzi : list nat),
    index_list n nzo ->
    index_list n nzi ->
    forall ko ki c x : nat -> R,
    loglikelihood_dcm_exp n ki ko nzi nzo c (fun r : nat => x (flip n r)) =
    loglikelihood_dcm_exp n ko ki nzo nzi c x.
Proof. exact loglik_dcm_exp_flip. Qed.
Print Assumptions C74_reversed_loglik_dcm_exp.
Theorem C74_reversed_iterative_decm :
  forall (n : nat) (ko ki so si x : nat -> R) (r : nat),
    (r < 4 * n)%nat ->
    iterative_decm n ki ko si so (fun r0 : nat => x (flip n r0)) r = iterative_decm n ko ki so si x (flip n r).
Proof. exact iterative_decm_flip. Qed.
Print Assumptions C74_reversed_iterative_decm.
Theorem C74_reversed_prime_decm :
  forall (n : nat) (ko ki so si x : nat -> R) (r : nat),
    (r < 4 * n)%nat ->
    loglikelihood_prime_decm n ki ko si so (fun r0 : nat => x (flip n r0)) r =
    loglikelihood_prime_decm n ko ki so si x (flip n r).
Proof. exact prime_decm_flip. Qed.
Print Assumptions C74_reversed_prime_decm.
Theorem C74_reversed_expected_decm :
  forall (n : nat) (x : nat -> R) (r : nat),
    (r < 4 * n)%nat -> expected_decm n (fun r0 : nat => x (flip n r0)) r = expected_decm n x (flip n r).
Proof. exact expected_decm_flip. Qed.
Print Assumptions C74_reversed_expected_decm.
Theorem C74_reversed_iterative_decm_exp_2 :
  forall (n : nat) (ko ki so si x : nat -> R) (r : nat),
    (r < 4 * n)%nat ->
    iterative_decm_exp_2 n ki ko si so (fun r0 : nat => x (flip n r0)) r =
    iterative_decm_exp_2 n ko ki so si x (flip n r).
Proof. exact iterative_decm_exp_2_flip. Qed.
Print Assumptions C74_reversed_iterative_decm_exp_2.
Theorem C74_reversed_prime_decm_exp :
  forall (n : nat) (ko ki so si x : nat -> R) (r : nat),
    (r < 4 * n)%nat ->
    loglikelihood_prime_decm_exp n ki ko si so (fun r0 : nat => x (flip n r0)) r =
    loglikelihood_prime_decm_exp n ko ki so si x (flip n r).
Proof. exact prime_decm_exp_flip. Qed.
Print Assumptions C74_reversed_prime_decm_exp.
Theorem C74_reversed_expected_decm_exp :
  forall (n : nat) (x : nat -> R) (r : nat),
    (r < 4 * n)%nat -> expected_decm_exp n (fun r0 : nat => x (flip n r0)) r = expected_decm_exp n x (flip n r).
Proof. exact expected_decm_exp_flip. Qed.
Print Assumptions C74_reversed_expected_decm_exp.
Theorem C74_reversed_hessian_diag_decm_partial :
  forall (n : nat) (ko ki so si x : nat -> R),
    (forall i : nat, (i < n)%nat -> so i <> 0 /\ si i <> 0) ->
    forall r : nat,
    (r < 4 * n)%nat ->
    loglikelihood_hessian_diag_decm n ki ko si so (fun r0 : nat => x (flip n r0)) r =
    loglikelihood_hessian_diag_decm n ko ki so si x (flip n r).
Proof. exact hessian_diag_decm_flip. Qed.
Print Assumptions C74_reversed_hessian_diag_decm_partial.
Theorem C74_reversed_hessian_diag_decm_exp :
  forall (n : nat) (x : nat -> R) (r : nat),
    (r < 4 * n)%nat ->
    loglikelihood_hessian_diag_decm_exp n (fun r0 : nat => x (flip n r0)) r =
    loglikelihood_hessian_diag_decm_exp n x (flip n r).
Proof. exact hessian_diag_decm_exp_flip. Qed.
Print Assumptions C74_reversed_hessian_diag_decm_exp.
Theorem C74_reversed_loglik_decm :
  forall (n : nat) (ko ki so si x : nat -> R),
    loglikelihood_decm n ki ko si so (fun r : nat => x (flip n r)) = loglikelihood_decm n ko ki so si x.
Proof. exact loglik_decm_flip. Qed.
Print Assumptions C74_reversed_loglik_decm.
Theorem C74_reversed_loglik_decm_exp :
  forall (n : nat) (ko ki so si x : nat -> R),
    loglikelihood_decm_exp n ki ko si so (fun r : nat => x (flip n r)) = loglikelihood_decm_exp n ko ki so si x.
Proof. exact loglik_decm_exp_flip. Qed.
Print Assumptions C74_reversed_loglik_decm_exp.
Theorem C74_reversed_hessian_decm :
  forall (n : nat) (ko ki so si x : nat -> R) (r t : nat),
    (r < 4 * n)%nat ->
    (t < 4 * n)%nat ->
    loglikelihood_hessian_decm n ki ko si so (fun r0 : nat => x (flip n r0)) r t =
    loglikelihood_hessian_decm n ko ki so si x (flip n r) (flip n t).
Proof. exact hessian_decm_flip. Qed.
Print Assumptions C74_reversed_hessian_decm.
Theorem C74_reversed_hessian_decm_exp :
  forall (n : nat) (x : nat -> R) (r t : nat),
    (r < 4 * n)%nat ->
    (t < 4 * n)%nat ->
    loglikelihood_hessian_decm_exp n (fun r0 : nat => x (flip n r0)) r t =
    loglikelihood_hessian_decm_exp n x (flip n r) (flip n t).
Proof. exact hessian_decm_exp_flip. Qed.
Print Assumptions C74_reversed_hessian_decm_exp.
Theorem C74_reversed_loglik_crema_dir :
  forall (n : nat) (es' es : topology),
    reversed_arcs es' es ->
    pairs_below n es' ->
    forall (s_out s_in : nat -> R) (nzo nzi : list nat) (beta : nat -> R),
    nonzero_list n s_out nzo ->
    nonzero_list n s_in nzi ->
    loglikelihood_crema_directed n s_in s_out es' nzi nzo (fun r : nat => beta (flip n r)) =
    loglikelihood_crema_directed n s_out s_in es nzo nzi beta.
Proof. exact loglik_crema_dir_flip. Qed.
Print Assumptions C74_reversed_loglik_crema_dir.
Theorem C74_reversed_prime_crema_dir :
  forall (n : nat) (es' es : topology),
    reversed_arcs es' es ->
    pairs_below n es' ->
    forall (s_out s_in : nat -> R) (nzo nzi : list nat) (beta : nat -> R),
    nonzero_list n s_out nzo ->
    nonzero_list n s_in nzi ->
    forall r : nat,
    crema_dir_dom n es beta ->
    (r < 2 * n)%nat ->
    oentry (loglikelihood_prime_crema_directed n s_in s_out es' nzi nzo (fun r0 : nat => beta (flip n r0))) r =
    oentry (loglikelihood_prime_crema_directed n s_out s_in es nzo nzi beta) (flip n r).
Proof. exact prime_crema_dir_flip. Qed.
Print Assumptions C74_reversed_prime_crema_dir.
Theorem C74_reversed_diag_crema_dir :
  forall (n : nat) (es' es : topology),
    reversed_arcs es' es ->
    pairs_below n es' ->
    forall (beta : nat -> R) (r : nat),
    crema_dir_dom n es beta ->
    (r < 2 * n)%nat ->
    oentry (loglikelihood_hessian_diag_crema_directed n es' (fun r0 : nat => beta (flip n r0))) r =
    oentry (loglikelihood_hessian_diag_crema_directed n es beta) (flip n r).
Proof. exact diag_crema_dir_flip. Qed.
Print Assumptions C74_reversed_diag_crema_dir.
Theorem C74_reversed_hessian_crema_dir :
  forall (n : nat) (es' es : topology),
    reversed_arcs es' es ->
    pairs_below n es' ->
    pairs_below n es ->
    forall (beta : nat -> R) (r t : nat),
    crema_dir_dom n es beta ->
    simple_arcs es' ->
    simple_arcs es ->
    (r < 2 * n)%nat ->
    (t < 2 * n)%nat ->
    oentry2 (loglikelihood_hessian_crema_directed n es' (fun r0 : nat => beta (flip n r0))) r t =
    oentry2 (loglikelihood_hessian_crema_directed n es beta) (flip n r) (flip n t).
Proof. exact hessian_crema_dir_flip. Qed.
Print Assumptions C74_reversed_hessian_crema_dir.
Theorem C74_reversed_iterative_crema_dir :
  forall (n : nat) (es' es : topology),
    reversed_arcs es' es ->
    pairs_below n es' ->
    forall (s_out s_in : nat -> R) (nzo nzi : list nat) (beta : nat -> R),
    nonzero_list n s_out nzo ->
    nonzero_list n s_in nzi ->
    forall r : nat,
    crema_dir_dom n es beta ->
    ends_nonzero_dir n es beta ->
    (r < 2 * n)%nat ->
    oentry (iterative_crema_directed n s_in s_out es' nzi nzo (fun r0 : nat => beta (flip n r0))) r =
    oentry (iterative_crema_directed n s_out s_in es nzo nzi beta) (flip n r).
Proof. exact iterative_crema_dir_flip. Qed.
Print Assumptions C74_reversed_iterative_crema_dir.
Theorem C74_reversed_expected_crema_dir :
  forall (n : nat) (es' es : topology),
    reversed_arcs es' es ->
    pairs_below n es' ->
    pairs_below n es ->
    forall (beta : nat -> R) (i : nat),
    crema_dir_dom n es beta ->
    (i < n)%nat ->
    oentry (expected_out_strength_crema_directed n es' (fun r : nat => beta (flip n r))) i =
    oentry (expected_in_strength_crema_directed n es beta) i /\
    oentry (expected_in_strength_crema_directed n es' (fun r : nat => beta (flip n r))) i =
    oentry (expected_out_strength_crema_directed n es beta) i.
Proof. exact expected_crema_dir_flip. Qed.
Print Assumptions C74_reversed_expected_crema_dir.
Theorem C74_reversed_all_reversed :
  forall (n : nat) (m : nat -> nat -> R), reversed_arcs (all_edges n (fun i j : nat => m j i)) (all_edges n m).
Proof. exact all_reversed. Qed.
Print Assumptions C74_reversed_all_reversed.
Example C74_case_swap :
  relabelling 3 (transpose 0 2) /\ transpose 0 2 0 = 2%nat /\
  renamed_list 3 (transpose 0 2) [0; 1]%nat [1; 2]%nat /\
  renamed_pairs (transpose 0 2) [(0%nat, 1%nat, 5); (1%nat, 2%nat, 7)] [(0%nat, 1%nat, 7); (1%nat, 2%nat, 5)] /\
  renamed_arcs (transpose 0 2) [(0%nat, 1%nat, 5)] [(2%nat, 1%nat, 5)] /\
  reversed_arcs [(0%nat, 1%nat, 5)] [(1%nat, 0%nat, 5)] /\
  flip 3 1 = 4%nat /\ flip 3 4 = 1%nat /\ flip 3 7 = 10%nat.
Proof. exact swap_case. Qed.
