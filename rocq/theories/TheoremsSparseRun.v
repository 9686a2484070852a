(** Theorems on quasi-Newton runs of crema-sparse (its Newton runs raise, C61).  Nothing else
    in this file; proofs are in ProofsAscentSparse and WitnessAscentSparse. *)
From Coq Require Import Reals List Arith Bool String Lia Lra.
From Verif Require Import Base SpecDeriv SpecGraph SpecEnsemble SpecWeighted SpecDirected SpecCReMa SpecLinsearch SpecDispatch SpecRun
  ModelCM ModelECM ModelDCM ModelDECM ModelCReMa ModelIEEE ModelLinsearch ModelSolver ModelDispatch ModelRun.
From Verif Require Import ProofsAscentSparse WitnessRun WitnessAscentSparse.
Import ListNotations.
Local Open Scope R_scope.

(** C80: the log-likelihood of the dense model with the probabilities of the factors
    increases, and the rates stay positive. *)
Theorem C80_increases_crema_sparse :
  forall linsolve ok eigh fuel reg n s x O x0, documented O "quasinewton" ->
  (forall i, (i < n)%nat -> 0 <= x i) -> crema_dom (triu_edges n (pmatrix_cm x)) x0 ->
  accepted u_dispatch "crema-sparse" "quasinewton" reg (run_increases linsolve ok eigh fuel n (A3 n s (Factors1 x)) O
    (crema_dom (triu_edges n (pmatrix_cm x))) (loglikelihood_crema_undirected n s (triu_edges n (pmatrix_cm x))) x0).
Proof. exact crema_sparse_increases. Qed.
Print Assumptions C80_increases_crema_sparse.
Theorem C80_increases_crema_dir_sparse :
  forall linsolve ok eigh fuel reg n so si x y nzo nzi O x0, documented O "quasinewton" ->
  (forall i, (i < n)%nat -> 0 <= x i) -> (forall i, (i < n)%nat -> 0 <= y i) ->
  nonzero_list n so nzo -> nonzero_list n si nzi ->
  (forall i, (i < n)%nat -> (x i <> 0 <-> so i <> 0)) -> (forall i, (i < n)%nat -> (y i <> 0 <-> si i <> 0)) ->
  crema_dir_dom n (all_edges n (dcm_prob x y)) x0 ->
  accepted d_dispatch "crema-sparse" "quasinewton" reg (run_increases linsolve ok eigh fuel (2 * n) (A5c n so si (Factors2 x y) nzo nzi) O
    (crema_dir_dom n (all_edges n (dcm_prob x y))) (loglikelihood_crema_directed n so si (all_edges n (dcm_prob x y)) nzo nzi) x0).
Proof. exact crema_dir_sparse_increases. Qed.
Print Assumptions C80_increases_crema_dir_sparse.
Example C80_sparse_run :
  forall linsolve ok eigh fuel, documented (run_opt QuasiNewton) "quasinewton" /\ (forall i, (i < 2)%nat -> 0 <= duo_x i) /\
  crema_dom (triu_edges 2 (pmatrix_cm duo_x)) duo_start /\
  accepted u_dispatch "crema-sparse" "quasinewton" None (fun D => exists x ns ds,
    solver (run_numerics linsolve ok 2) (run_problem eigh fuel 2 D duo_args) (run_opt QuasiNewton) duo_start = Full x 1 ns ds [1] /\ forall i, (i < 2)%nat -> x i = 1).
Proof. exact duo_run. Qed.
Example C80_sparse_dir_case :
  (forall i, (i < 2)%nat -> 0 <= duo_x i) /\ nonzero_list 2 duo_s [0%nat; 1%nat] /\ (forall i, (i < 2)%nat -> (duo_x i <> 0 <-> duo_s i <> 0)) /\
  crema_dir_dom 2 (all_edges 2 (dcm_prob duo_x duo_x)) duo_start /\ In ((0, 1)%nat, / 2) (all_edges 2 (dcm_prob duo_x duo_x)).
Proof. exact duo_dir_case. Qed.

(** C95: the number of steps is bounded by the room above the starting value. *)
Theorem C95_settles_crema_sparse :
  forall linsolve ok eigh fuel reg n s x O x0 U, documented O "quasinewton" ->
  (forall i, (i < n)%nat -> 0 <= x i) -> crema_dom (triu_edges n (pmatrix_cm x)) x0 ->
  accepted u_dispatch "crema-sparse" "quasinewton" reg (run_settles linsolve ok eigh fuel n (A3 n s (Factors1 x)) O
    (crema_dom (triu_edges n (pmatrix_cm x))) (loglikelihood_crema_undirected n s (triu_edges n (pmatrix_cm x))) U x0).
Proof. exact crema_sparse_settles. Qed.
Print Assumptions C95_settles_crema_sparse.
Theorem C95_settles_crema_dir_sparse :
  forall linsolve ok eigh fuel reg n so si x y nzo nzi O x0 U, documented O "quasinewton" ->
  (forall i, (i < n)%nat -> 0 <= x i) -> (forall i, (i < n)%nat -> 0 <= y i) ->
  nonzero_list n so nzo -> nonzero_list n si nzi ->
  (forall i, (i < n)%nat -> (x i <> 0 <-> so i <> 0)) -> (forall i, (i < n)%nat -> (y i <> 0 <-> si i <> 0)) ->
  crema_dir_dom n (all_edges n (dcm_prob x y)) x0 ->
  accepted d_dispatch "crema-sparse" "quasinewton" reg (run_settles linsolve ok eigh fuel (2 * n) (A5c n so si (Factors2 x y) nzo nzi) O
    (crema_dir_dom n (all_edges n (dcm_prob x y))) (loglikelihood_crema_directed n so si (all_edges n (dcm_prob x y)) nzo nzi) U x0).
Proof. exact crema_dir_sparse_settles. Qed.
Print Assumptions C95_settles_crema_dir_sparse.
