(** The value of a call of each function chosen by a solve, where none of its scalar
    divisions is by zero. *)
From Coq Require Import Reals List Arith Bool String Lra Lia.
From Coquelicot Require Import Coquelicot.
From Verif Require Import Base SpecDeriv SpecGraph SpecEnsemble SpecWeighted SpecDirected SpecCReMa
  ModelCM ModelECM ModelDCM ModelDECM ModelCReMa ModelLinsearch ModelSolver ModelIEEE ModelDispatch SpecDispatch
  ProofsMainCReMa ProofsSparseCReMa ProofsDirCReMa ProofsDirSparseCReMa WitnessCReMa ProofsIEEE.
Import ListNotations.
Local Open Scope R_scope.

Lemma neg_entry f a x v : run_entry (Pos f) a x = Some v -> run_entry (Neg f) a x = Some (ModelDispatch.vneg v).
Proof. unfold run_entry. destruct (lookup f mof) as [g|]; cbn [obind]; [|discriminate]. intro E. rewrite E. reflexivity. Qed.
Lemma neg_entry_none f a x : run_entry (Pos f) a x = None -> run_entry (Neg f) a x = None.
Proof. unfold run_entry. destruct (lookup f mof) as [g|]; cbn [obind]; [|reflexivity]. intro E. rewrite E. reflexivity. Qed.
Lemma e_ll_cm n k c x : (forall i, (i < n)%nat -> 0 < x i) -> run_entry (Pos "loglikelihood_cm") (A2 n k c) x = Some (VNum (Fin (loglikelihood_cm n k c x))).
Proof. intros H. change (fnum (floglikelihood_cm n k c x) = Some (VNum (Fin (loglikelihood_cm n k c x)))). unfold fnum. rewrite fcm_fin by assumption. reflexivity. Qed.
Lemma e_ll_prime_cm n k c x : cm_divisors n x = true -> run_entry (Pos "loglikelihood_prime_cm") (A2 n k c) x = Some (VVec (fun i => Fin (loglikelihood_prime_cm n k c x i))).
Proof. intro G. change (guarded (cm_divisors n x) (vec (loglikelihood_prime_cm n k c x)) = Some (VVec (fun i => Fin (loglikelihood_prime_cm n k c x i)))). rewrite G. reflexivity. Qed.
Lemma e_ll_hess_cm n k c x : cm_divisors n x = true -> run_entry (Pos "loglikelihood_hessian_cm") (A2 n k c) x = Some (VMat (fun i j => Fin (loglikelihood_hessian_cm n k c x i j))).
Proof. intro G. change (guarded (cm_divisors n x) (mat (loglikelihood_hessian_cm n k c x)) = Some (VMat (fun i j => Fin (loglikelihood_hessian_cm n k c x i j)))). rewrite G. reflexivity. Qed.
Lemma e_ll_hess_diag_cm n k c x : cm_divisors n x = true -> run_entry (Pos "loglikelihood_hessian_diag_cm") (A2 n k c) x = Some (VVec (fun i => Fin (loglikelihood_hessian_diag_cm n k c x i))).
Proof. intro G. change (guarded (cm_divisors n x) (vec (loglikelihood_hessian_diag_cm n k c x)) = Some (VVec (fun i => Fin (loglikelihood_hessian_diag_cm n k c x i)))). rewrite G. reflexivity. Qed.
Lemma e_ll_cm_exp n k c x : run_entry (Pos "loglikelihood_cm_exp") (A2 n k c) x = Some (VNum (Fin (loglikelihood_cm_exp n k c x))).
Proof. reflexivity. Qed.
Lemma e_ll_prime_cm_exp n k c x : run_entry (Pos "loglikelihood_prime_cm_exp") (A2 n k c) x = Some (VVec (fun i => Fin (loglikelihood_prime_cm_exp n k c x i))).
Proof. reflexivity. Qed.
Lemma e_ll_hess_cm_exp n k c x : run_entry (Pos "loglikelihood_hessian_cm_exp") (A2 n k c) x = Some (VMat (fun i j => Fin (loglikelihood_hessian_cm_exp n c x i j))).
Proof. reflexivity. Qed.
Lemma e_ll_hess_diag_cm_exp n k c x : run_entry (Pos "loglikelihood_hessian_diag_cm_exp") (A2 n k c) x = Some (VVec (fun i => Fin (loglikelihood_hessian_diag_cm_exp n c x i))).
Proof. reflexivity. Qed.
Lemma e_ll_ecm n k s x : ecm_dom n x -> run_entry (Pos "loglikelihood_ecm") (A2 n k s) x = Some (VNum (Fin (loglikelihood_ecm n k s x))).
Proof. intros H. change (guarded (ecm_below n x) (fnum (floglikelihood_ecm n k s x)) = Some (VNum (Fin (loglikelihood_ecm n k s x)))). rewrite ecm_below_ok by assumption. cbn [guarded]. unfold fnum. rewrite fecm_fin by assumption. reflexivity. Qed.
Lemma e_ll_prime_ecm n k s x : ecm_divisors n x = true -> run_entry (Pos "loglikelihood_prime_ecm") (A2 n k s) x = Some (VVec (fun i => Fin (loglikelihood_prime_ecm n k s x i))).
Proof. intro G. change (guarded (ecm_divisors n x) (vec (loglikelihood_prime_ecm n k s x)) = Some (VVec (fun i => Fin (loglikelihood_prime_ecm n k s x i)))). rewrite G. reflexivity. Qed.
Lemma e_ll_hess_ecm n k s x : ecm_divisors n x = true -> run_entry (Pos "loglikelihood_hessian_ecm") (A2 n k s) x = Some (VMat (fun i j => Fin (loglikelihood_hessian_ecm n k s x i j))).
Proof. intro G. change (guarded (ecm_divisors n x) (mat (loglikelihood_hessian_ecm n k s x)) = Some (VMat (fun i j => Fin (loglikelihood_hessian_ecm n k s x i j)))). rewrite G. reflexivity. Qed.
Lemma e_ll_hess_diag_ecm n k s x : ecm_divisors n x = true -> run_entry (Pos "loglikelihood_hessian_diag_ecm") (A2 n k s) x = Some (VVec (fun i => Fin (loglikelihood_hessian_diag_ecm n k s x i))).
Proof. intro G. change (guarded (ecm_divisors n x) (vec (loglikelihood_hessian_diag_ecm n k s x)) = Some (VVec (fun i => Fin (loglikelihood_hessian_diag_ecm n k s x i)))). rewrite G. reflexivity. Qed.
Lemma e_ll_ecm_exp n k s x : ecm_exp_dom n x -> run_entry (Pos "loglikelihood_ecm_exp") (A2 n k s) x = Some (VNum (Fin (loglikelihood_ecm_exp n k s x))).
Proof. intros H. change (guarded (ecm_exp_below n x) (fnum (floglikelihood_ecm_exp n k s x)) = Some (VNum (Fin (loglikelihood_ecm_exp n k s x)))). rewrite ecm_exp_below_ok by assumption. cbn [guarded]. unfold fnum. rewrite fecm_exp_fin by assumption. reflexivity. Qed.
Lemma e_ll_prime_ecm_exp n k s x : ecm_exp_divisors n x = true -> run_entry (Pos "loglikelihood_prime_ecm_exp") (A2 n k s) x = Some (VVec (fun i => Fin (loglikelihood_prime_ecm_exp n k s x i))).
Proof. intro G. change (guarded (ecm_exp_divisors n x) (vec (loglikelihood_prime_ecm_exp n k s x)) = Some (VVec (fun i => Fin (loglikelihood_prime_ecm_exp n k s x i)))). rewrite G. reflexivity. Qed.
Lemma e_ll_hess_ecm_exp n k s x : ecm_exp_divisors n x = true -> run_entry (Pos "loglikelihood_hessian_ecm_exp") (A2 n k s) x = Some (VMat (fun i j => Fin (loglikelihood_hessian_ecm_exp n x i j))).
Proof. intro G. change (guarded (ecm_exp_divisors n x) (mat (loglikelihood_hessian_ecm_exp n x)) = Some (VMat (fun i j => Fin (loglikelihood_hessian_ecm_exp n x i j)))). rewrite G. reflexivity. Qed.
Lemma e_ll_hess_diag_ecm_exp n k s x : ecm_exp_divisors n x = true -> run_entry (Pos "loglikelihood_hessian_diag_ecm_exp") (A2 n k s) x = Some (VVec (fun i => Fin (loglikelihood_hessian_diag_ecm_exp n x i))).
Proof. intro G. change (guarded (ecm_exp_divisors n x) (vec (loglikelihood_hessian_diag_ecm_exp n x)) = Some (VVec (fun i => Fin (loglikelihood_hessian_diag_ecm_exp n x i)))). rewrite G. reflexivity. Qed.
Lemma e_ll_dcm n ko ki nzo nzi c x : dcm_dom n nzo nzi x -> run_entry (Pos "loglikelihood_dcm") (A5d n ko ki nzo nzi c) x = Some (VNum (Fin (loglikelihood_dcm n ko ki nzo nzi c x))).
Proof. intros H. change (fnum (floglikelihood_dcm n ko ki nzo nzi c x) = Some (VNum (Fin (loglikelihood_dcm n ko ki nzo nzi c x)))). unfold fnum. rewrite fdcm_fin by assumption. reflexivity. Qed.
Lemma e_ll_prime_dcm n ko ki nzo nzi c x : dcm_divisors n nzo nzi x = true -> run_entry (Pos "loglikelihood_prime_dcm") (A5d n ko ki nzo nzi c) x = Some (VVec (fun i => Fin (loglikelihood_prime_dcm n ko ki nzo nzi c x i))).
Proof. intro G. change (guarded (dcm_divisors n nzo nzi x) (vec (loglikelihood_prime_dcm n ko ki nzo nzi c x)) = Some (VVec (fun i => Fin (loglikelihood_prime_dcm n ko ki nzo nzi c x i)))). rewrite G. reflexivity. Qed.
Lemma e_ll_hess_dcm n ko ki nzo nzi c x : dcm_divisors n nzo nzi x = true -> run_entry (Pos "loglikelihood_hessian_dcm") (A5d n ko ki nzo nzi c) x = Some (VMat (fun i j => Fin (loglikelihood_hessian_dcm n ko ki nzo nzi c x i j))).
Proof. intro G. change (guarded (dcm_divisors n nzo nzi x) (mat (loglikelihood_hessian_dcm n ko ki nzo nzi c x)) = Some (VMat (fun i j => Fin (loglikelihood_hessian_dcm n ko ki nzo nzi c x i j)))). rewrite G. reflexivity. Qed.
Lemma e_ll_hess_diag_dcm n ko ki nzo nzi c x : dcm_divisors n nzo nzi x = true -> run_entry (Pos "loglikelihood_hessian_diag_dcm") (A5d n ko ki nzo nzi c) x = Some (VVec (fun i => Fin (loglikelihood_hessian_diag_dcm n ko ki nzo nzi c x i))).
Proof. intro G. change (guarded (dcm_divisors n nzo nzi x) (vec (loglikelihood_hessian_diag_dcm n ko ki nzo nzi c x)) = Some (VVec (fun i => Fin (loglikelihood_hessian_diag_dcm n ko ki nzo nzi c x i)))). rewrite G. reflexivity. Qed.
Lemma e_ll_dcm_exp n ko ki nzo nzi c x : run_entry (Pos "loglikelihood_dcm_exp") (A5d n ko ki nzo nzi c) x = Some (VNum (Fin (loglikelihood_dcm_exp n ko ki nzo nzi c x))).
Proof. reflexivity. Qed.
Lemma e_ll_prime_dcm_exp n ko ki nzo nzi c x : run_entry (Pos "loglikelihood_prime_dcm_exp") (A5d n ko ki nzo nzi c) x = Some (VVec (fun i => Fin (loglikelihood_prime_dcm_exp n ko ki nzo nzi c x i))).
Proof. reflexivity. Qed.
Lemma e_ll_hess_dcm_exp n ko ki nzo nzi c x : run_entry (Pos "loglikelihood_hessian_dcm_exp") (A5d n ko ki nzo nzi c) x = Some (VMat (fun i j => Fin (loglikelihood_hessian_dcm_exp n nzo nzi c x i j))).
Proof. reflexivity. Qed.
Lemma e_ll_hess_diag_dcm_exp n ko ki nzo nzi c x : run_entry (Pos "loglikelihood_hessian_diag_dcm_exp") (A5d n ko ki nzo nzi c) x = Some (VVec (fun i => Fin (loglikelihood_hessian_diag_dcm_exp n nzo nzi c x i))).
Proof. reflexivity. Qed.
Lemma e_ll_decm n ko ki so si x : decm_dom n x -> decm_supp n ko ki so si x -> run_entry (Pos "loglikelihood_decm") (A4 n ko ki so si) x = Some (VNum (Fin (loglikelihood_decm n ko ki so si x))).
Proof. intros H H1. change (fnum (floglikelihood_decm n ko ki so si x) = Some (VNum (Fin (loglikelihood_decm n ko ki so si x)))). unfold fnum. rewrite fdecm_supp_fin by assumption. reflexivity. Qed.
Lemma e_ll_prime_decm n ko ki so si x : decm_divisors n ko ki so si x = true -> run_entry (Pos "loglikelihood_prime_decm") (A4 n ko ki so si) x = Some (VVec (fun i => Fin (loglikelihood_prime_decm n ko ki so si x i))).
Proof. intro G. change (guarded (decm_divisors n ko ki so si x) (vec (loglikelihood_prime_decm n ko ki so si x)) = Some (VVec (fun i => Fin (loglikelihood_prime_decm n ko ki so si x i)))). rewrite G. reflexivity. Qed.
Lemma e_ll_hess_decm n ko ki so si x : decm_divisors n ko ki so si x = true -> run_entry (Pos "loglikelihood_hessian_decm") (A4 n ko ki so si) x = Some (VMat (fun i j => Fin (loglikelihood_hessian_decm n ko ki so si x i j))).
Proof. intro G. change (guarded (decm_divisors n ko ki so si x) (mat (loglikelihood_hessian_decm n ko ki so si x)) = Some (VMat (fun i j => Fin (loglikelihood_hessian_decm n ko ki so si x i j)))). rewrite G. reflexivity. Qed.
Lemma e_ll_hess_diag_decm n ko ki so si x : decm_divisors n ko ki so si x = true -> run_entry (Pos "loglikelihood_hessian_diag_decm") (A4 n ko ki so si) x = Some (VVec (fun i => Fin (loglikelihood_hessian_diag_decm n ko ki so si x i))).
Proof. intro G. change (guarded (decm_divisors n ko ki so si x) (vec (loglikelihood_hessian_diag_decm n ko ki so si x)) = Some (VVec (fun i => Fin (loglikelihood_hessian_diag_decm n ko ki so si x i)))). rewrite G. reflexivity. Qed.
Lemma e_ll_decm_exp n ko ki so si x : decm_exp_dom n x -> run_entry (Pos "loglikelihood_decm_exp") (A4 n ko ki so si) x = Some (VNum (Fin (loglikelihood_decm_exp n ko ki so si x))).
Proof. intros H. change (guarded (decm_exp_loglik_divisors n x) (fnum (floglikelihood_decm_exp n ko ki so si x)) = Some (VNum (Fin (loglikelihood_decm_exp n ko ki so si x)))). rewrite decm_exp_loglik_divisors_ok by assumption. cbn [guarded]. unfold fnum. rewrite fdecm_exp_fin by assumption. reflexivity. Qed.
Lemma e_ll_hess_decm_exp n ko ki so si x : decm_exp_divisors n x = true -> run_entry (Pos "loglikelihood_hessian_decm_exp") (A4 n ko ki so si) x = Some (VMat (fun i j => Fin (loglikelihood_hessian_decm_exp n x i j))).
Proof. intro G. change (guarded (decm_exp_divisors n x) (mat (loglikelihood_hessian_decm_exp n x)) = Some (VMat (fun i j => Fin (loglikelihood_hessian_decm_exp n x i j)))). rewrite G. reflexivity. Qed.
Lemma e_ll_hess_diag_decm_exp n ko ki so si x : decm_exp_divisors n x = true -> run_entry (Pos "loglikelihood_hessian_diag_decm_exp") (A4 n ko ki so si) x = Some (VVec (fun i => Fin (loglikelihood_hessian_diag_decm_exp n x i))).
Proof. intro G. change (guarded (decm_exp_divisors n x) (vec (loglikelihood_hessian_diag_decm_exp n x)) = Some (VVec (fun i => Fin (loglikelihood_hessian_diag_decm_exp n x i)))). rewrite G. reflexivity. Qed.
Lemma e_ll_prime_decm_exp n ko ki so si x : run_entry (Pos "loglikelihood_prime_decm_exp") (A4 n ko ki so si) x = Some (VVec (floglikelihood_prime_decm_exp n ko ki so si x)).
Proof. reflexivity. Qed.
Lemma e_neg_prime_decm_exp n ko ki so si x r : decm_exp_divisors n x = true -> (r < 4 * n)%nat ->
  at1 (run_entry (Neg "loglikelihood_prime_decm_exp") (A4 n ko ki so si) x) r = Some (- loglikelihood_prime_decm_exp n ko ki so si x r).
Proof.
  intros G Hr. rewrite (neg_entry _ _ _ _ (e_ll_prime_decm_exp n ko ki so si x)). cbn [at1 ModelDispatch.vneg].
  rewrite fdecm_exp_prime_fin by assumption. reflexivity.
Qed.
Lemma e_iterative_cm n k c x : cm_pairs n x = true -> run_entry (Pos "iterative_cm") (A2 n k c) x = Some (VVec (fun i => Fin (iterative_cm n k c x i))).
Proof. intro G. change (guarded (cm_pairs n x) (vec (iterative_cm n k c x)) = Some (VVec (fun i => Fin (iterative_cm n k c x i)))). rewrite G. reflexivity. Qed.
Lemma e_iterative_cm_exp n k c x : run_entry (Pos "iterative_cm_exp") (A2 n k c) x = Some (VVec (fiterative_cm_exp n k c x)).
Proof. reflexivity. Qed.
Lemma e_iterative_ecm n k s x : ecm_pairs n x (fun i => x (i + n)%nat) = true ->
  run_entry (Pos "iterative_ecm") (A2 n k s) x = Some (VVec (fun i => Fin (iterative_ecm n k s x i))).
Proof.
  intro G. change (guarded (ecm_pairs n x (fun i => x (i + n)%nat)) (vec (iterative_ecm n k s x)) = Some (VVec (fun i => Fin (iterative_ecm n k s x i)))).
  rewrite G. reflexivity.
Qed.
Lemma e_iterative_ecm_exp n k s x : ecm_exp_divisors n x = true ->
  run_entry (Pos "iterative_ecm_exp") (A2 n k s) x = Some (VVec (fiterative_ecm_exp n k s x)).
Proof. intro G. change (guarded (ecm_exp_divisors n x) (fvec (fiterative_ecm_exp n k s x)) = Some (VVec (fiterative_ecm_exp n k s x))). rewrite G. reflexivity. Qed.
Lemma e_iterative_dcm n ko ki nzo nzi c x : dcm_pairs n x = true ->
  run_entry (Pos "iterative_dcm") (A5d n ko ki nzo nzi c) x = Some (VVec (iterative_dcm n ko ki c x)).
Proof. intro G. change (guarded (dcm_pairs n x) (fvec (iterative_dcm n ko ki c x)) = Some (VVec (iterative_dcm n ko ki c x))). rewrite G. reflexivity. Qed.
Lemma e_iterative_dcm_exp n ko ki nzo nzi c x :
  run_entry (Pos "iterative_dcm_exp") (A5d n ko ki nzo nzi c) x = Some (VVec (iterative_dcm_exp n ko ki c (fun r => Some (x r)))).
Proof. reflexivity. Qed.
Lemma e_iterative_decm n ko ki so si x : decm_pair_divisors n x = true ->
  run_entry (Pos "iterative_decm") (A4 n ko ki so si) x = evec Fin (4 * n) (iterative_decm n ko ki so si x).
Proof. intro G. change (guarded (decm_pair_divisors n x) (evec Fin (4 * n) (iterative_decm n ko ki so si x)) = evec Fin (4 * n) (iterative_decm n ko ki so si x)). rewrite G. reflexivity. Qed.
Lemma e_iterative_decm_exp n ko ki so si x : decm_exp_divisors n x = true ->
  run_entry (Pos "iterative_decm_exp") (A4 n ko ki so si) x = evec (fun v => v) (4 * n) (iterative_decm_exp n ko ki so si x).
Proof.
  intro G. change (guarded (decm_exp_divisors n x) (evec (fun v => v) (4 * n) (iterative_decm_exp n ko ki so si x)) = evec (fun v => v) (4 * n) (iterative_decm_exp n ko ki so si x)).
  rewrite G. reflexivity.
Qed.
Lemma e_ll_crema_undirected n s es x : crema_dom es x ->
  run_entry (Pos "loglikelihood_crema_undirected") (A3 n s (Triples es)) x = Some (VNum (Fin (loglikelihood_crema_undirected n s es x))).
Proof.
  intro H. change (fnum (floglikelihood_crema_undirected n s es x) = Some (VNum (Fin (loglikelihood_crema_undirected n s es x)))).
  unfold fnum. rewrite fcrema_fin by assumption. reflexivity.
Qed.
Lemma e_ll_crema_directed n so si es nzo nzi x : crema_dir_dom n es x ->
  run_entry (Pos "loglikelihood_crema_directed") (A5c n so si (Triples es) nzo nzi) x = Some (VNum (Fin (loglikelihood_crema_directed n so si es nzo nzi x))).
Proof.
  intro H. change (fnum (floglikelihood_crema_directed n so si es nzo nzi x) = Some (VNum (Fin (loglikelihood_crema_directed n so si es nzo nzi x)))).
  unfold fnum. rewrite fcrema_dir_fin by assumption. reflexivity.
Qed.
Lemma quotient_pos a : 0 <= a -> a <> 0 -> a / (1 + a) <> 0.
Proof. intros H Z. assert (0 < a / (1 + a)) by (apply Rdiv_lt_0_compat; lra). lra. Qed.
Lemma e_ll_crema_sparse n s x b : (forall i, (i < n)%nat -> 0 <= x i) -> crema_dom (triu_edges n (pmatrix_cm x)) b ->
  run_entry (Pos "loglikelihood_crema_undirected_sparse") (A3 n s (Factors1 x)) b =
  Some (VNum (Fin (loglikelihood_crema_undirected n s (triu_edges n (pmatrix_cm x)) b))).
Proof.
  intros Hx HD. change (obind (floglikelihood_crema_undirected_sparse n s x b) fnum = Some (VNum (Fin (loglikelihood_crema_undirected n s (triu_edges n (pmatrix_cm x)) b)))).
  rewrite fsparse_fin, sparse_loglik by assumption || (intros i j Hij Z; rewrite Rplus_comm; apply (HD j i (pmatrix_cm x j i)), in_triu; split; [lia|]; split; [reflexivity|];
    unfold pmatrix_cm; destruct (Nat.ltb_spec j i); [|lia]; cbv zeta; rewrite (Rmult_comm (x j));
    apply quotient_pos; [apply Rmult_le_pos; apply Hx; lia|exact Z]).
  reflexivity.
Qed.
Lemma e_ll_crema_dir_sparse n so si x y nzo nzi b : (forall i, (i < n)%nat -> 0 <= x i) -> (forall i, (i < n)%nat -> 0 <= y i) ->
  nonzero_list n so nzo -> nonzero_list n si nzi ->
  (forall i, (i < n)%nat -> (x i <> 0 <-> so i <> 0)) -> (forall i, (i < n)%nat -> (y i <> 0 <-> si i <> 0)) ->
  crema_dir_dom n (all_edges n (dcm_prob x y)) b ->
  run_entry (Pos "loglikelihood_crema_directed_sparse") (A5c n so si (Factors2 x y) nzo nzi) b =
  Some (VNum (Fin (loglikelihood_crema_directed n so si (all_edges n (dcm_prob x y)) nzo nzi b))).
Proof.
  intros Hx Hy Ho Hi Cx Cy HD. change (obind (floglikelihood_crema_directed_sparse n so si x y nzo nzi b) fnum = Some (VNum (Fin (loglikelihood_crema_directed n so si (all_edges n (dcm_prob x y)) nzo nzi b)))).
  rewrite fdir_sparse_fin.
  - rewrite dir_sparse_loglik by assumption. reflexivity.
  - intros i j Ii Ij Hij Z. apply (proj2 Ho) in Ii. apply (proj2 Hi) in Ij. apply (HD i j (dcm_prob x y i j)), in_all.
    split; [apply Ii|]. split; [apply Ij|]. split; [reflexivity|]. unfold dcm_prob. destruct (Nat.eqb_spec i j); [contradiction|].
    apply quotient_pos; [apply Rmult_le_pos; [apply Hx, Ii|apply Hy, Ij]|exact Z].
Qed.
