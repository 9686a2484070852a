(** Whole runs of the solver, model by model. *)
From Coq Require Import Reals List Arith Bool String Lia Lra.
From Verif Require Import Base SpecDeriv SpecGraph SpecEnsemble SpecWeighted SpecDirected SpecCReMa SpecLinsearch SpecDispatch SpecRun
  ModelCM ModelECM ModelDCM ModelDECM ModelCReMa ModelLinsearch ModelSolver ModelDispatch ModelRun.
From Verif Require Import ProofsEnsemble ProofsCReMa ProofsDirCReMa ProofsRegular ProofsLinsearch ProofsMainLinsearch ProofsDispatch ProofsDispatchU ProofsSolver ProofsRun ProofsIterates
  ProofsPSD ProofsPSDModels ProofsAscent ProofsIEEE ProofsEntries ProofsGuarded.
Import ListNotations.
Local Open Scope R_scope.

Lemma real_mat_neg m (h : nat -> nat -> R) H : real_mat m (Some (VMat (fun i j => Fin (- h i j)))) = Some H -> forall i j, H i j = - h i j.
Proof.
  unfold real_mat. match goal with |- context [if ?b then _ else _] => destruct b end; [|discriminate]. intros E. inversion E. reflexivity.
Qed.
Lemma psd_of m (h : nat -> nat -> R) H v : (0 <= qform m (fun i j => - h i j) v) -> real_mat m (Some (VMat (fun i j => Fin (- h i j)))) = Some H -> 0 <= qform m H v.
Proof. intros Hq HH. rewrite (qform_ext m H (fun i j => - h i j)); [exact Hq|]. intros i j _ _. apply (real_mat_neg m h H HH). Qed.

Section Runs.
  Variables (linsolve : (nat -> nat -> R) -> (nat -> R) -> option (nat -> R)) (ok : (nat -> nat -> R) -> bool)
    (eigh : (nat -> nat -> R) -> (nat -> R) * (nat -> nat -> R)) (fuel : nat).

  Lemma cm_climbs reg meth n k c O x0 :
    linear_solver (n) linsolve -> eigen_solver (n) eigh -> In meth descent_methods -> documented O meth -> (meth = "newton"%string -> reg <> Some "identity"%string) -> positive_upto n x0 ->
    accepted u_dispatch "cm" meth reg (run_climbs linsolve ok eigh fuel (n) (A2 n k c) O (positive_upto n) (loglikelihood_cm n k c) x0).
  Proof.
    intros HL HE Hm HO Hreg Hd.
    assert (S : forall x dx f a, (positive_upto n) x -> Some (linsearch_fun_CM n (objective "loglikelihood_cm" (A2 n k c)) x dx (/ 2) 1 f) = Some a ->
      0 < a <= 1 /\ (a <= (/ 2) ^ 50 \/ (positive_upto n) (moved x a dx) /\
        (loglikelihood_cm n k c) x - / 10000 * a * SpecLinsearch.scalar (n) f dx < (loglikelihood_cm n k c) (moved x a dx))).
    { intros x dx f a Hx E. inversion E as [E']. clear E E'. destruct (CM_admissible n (objective "loglikelihood_cm" (A2 n k c)) x dx (/ 2) 1 f ltac:(lra) ltac:(lra) Hx) as [B1 B2].
      split; [exact B1|]. unfold linsearch_fun_CM in *.
      destruct (accepts (n) (objective "loglikelihood_cm" (A2 n k c)) x dx (clamp_ge (n) x dx 1) f) as [_ [H|H]]; [destruct (clamp_ge_longest n x dx 1 ltac:(lra) Hx) as [H _]; exact H|left; exact H|right; split; [exact B2|exact (armijo_fin _ _ (loglikelihood_cm n k c) _ _ _ _ (objective_at _ _ _ _ (e_ll_cm _ _ _ _ Hx)) (objective_at _ _ _ _ (e_ll_cm _ _ _ _ B2)) H)]]. }
    cbn in Hm. destruct Hm as [<-|[<-|[]]]; eexists; (split; [reflexivity|]); intros x it ns ds als Hrun Hals.
    - refine (run_ascends linsolve ok eigh fuel (n) HL HE _ (A2 n k c) O "newton" (positive_upto n) (loglikelihood_cm n k c) x0 x it ns ds als _ HO _ _ Hd Hrun Hals).
      + left; reflexivity.
      + intros z dx f al Hz H. apply S; [exact Hz|]. exact H.
      + intros _. left. apply not_identity; [apply Hreg; reflexivity|reflexivity].
    - refine (run_ascends linsolve ok eigh fuel (n) HL HE _ (A2 n k c) O "quasinewton" (positive_upto n) (loglikelihood_cm n k c) x0 x it ns ds als _ HO _ _ Hd Hrun Hals).
      + right; left; reflexivity.
      + intros z dx f al Hz H. apply S; [exact Hz|]. exact H.
      + intros HN. destruct HO as (HM & _). rewrite HM in HN. discriminate HN.
  Qed.
  Lemma dcm_climbs reg meth n ko ki nzo nzi c O x0 :
    linear_solver (2 * n) linsolve -> eigen_solver (2 * n) eigh -> In meth descent_methods -> documented O meth -> (meth = "newton"%string -> reg <> Some "identity"%string) -> index_list n nzo -> index_list n nzi -> dcm_dom n nzo nzi x0 ->
    accepted d_dispatch "dcm" meth reg (run_climbs linsolve ok eigh fuel (2 * n) (A5d n ko ki nzo nzi c) O (dcm_dom n nzo nzi) (loglikelihood_dcm n ko ki nzo nzi c) x0).
  Proof.
    intros HL HE Hm HO Hreg Ho Hi Hd.
    assert (S : forall x dx f a, (dcm_dom n nzo nzi) x -> Some (linsearch_fun_DCM (2 * n) (objective "loglikelihood_dcm" (A5d n ko ki nzo nzi c)) x dx (/ 2) 1 f) = Some a ->
      0 < a <= 1 /\ (a <= (/ 2) ^ 50 \/ (dcm_dom n nzo nzi) (moved x a dx) /\
        (loglikelihood_dcm n ko ki nzo nzi c) x - / 10000 * a * SpecLinsearch.scalar (2 * n) f dx < (loglikelihood_dcm n ko ki nzo nzi c) (moved x a dx))).
    { intros x dx f a Hx E. inversion E as [E']. clear E E'. destruct (DCM_admissible n nzo nzi (objective "loglikelihood_dcm" (A5d n ko ki nzo nzi c)) x dx (/ 2) 1 f ltac:(lra) ltac:(lra) Ho Hi Hx) as [B1 B2].
      split; [exact B1|]. unfold linsearch_fun_DCM in *.
      destruct (accepts (2 * n) (objective "loglikelihood_dcm" (A5d n ko ki nzo nzi c)) x dx (clamp_gt (2 * n) x dx 1) f) as [_ [H|H]];
        [destruct (clamp_gt_spec (2 * n) x dx 1 ltac:(lra)) as [H _]; exact H|left; exact H|right; split; [exact B2|exact (armijo_fin _ _ (loglikelihood_dcm n ko ki nzo nzi c) _ _ _ _ (objective_at _ _ _ _ (e_ll_dcm _ _ _ _ _ _ _ Hx)) (objective_at _ _ _ _ (e_ll_dcm _ _ _ _ _ _ _ B2)) H)]]. }
    cbn in Hm. destruct Hm as [<-|[<-|[]]]; eexists; (split; [reflexivity|]); intros x it ns ds als Hrun Hals.
    - refine (run_ascends linsolve ok eigh fuel (2 * n) HL HE _ (A5d n ko ki nzo nzi c) O "newton" (dcm_dom n nzo nzi) (loglikelihood_dcm n ko ki nzo nzi c) x0 x it ns ds als _ HO _ _ Hd Hrun Hals).
      + left; reflexivity.
      + intros z dx f al Hz H. apply S; [exact Hz|]. exact H.
      + intros _. left. apply not_identity; [apply Hreg; reflexivity|reflexivity].
    - refine (run_ascends linsolve ok eigh fuel (2 * n) HL HE _ (A5d n ko ki nzo nzi c) O "quasinewton" (dcm_dom n nzo nzi) (loglikelihood_dcm n ko ki nzo nzi c) x0 x it ns ds als _ HO _ _ Hd Hrun Hals).
      + right; left; reflexivity.
      + intros z dx f al Hz H. apply S; [exact Hz|]. exact H.
      + intros HN. destruct HO as (HM & _). rewrite HM in HN. discriminate HN.
  Qed.
  Lemma cm_exp_climbs reg meth n k c O x0 :
    linear_solver (n) linsolve -> eigen_solver (n) eigh -> In meth descent_methods -> documented O meth -> (forall i, (i < n)%nat -> 1 <= c i) ->
    accepted u_dispatch "cm_exp" meth reg (run_climbs linsolve ok eigh fuel (n) (A2 n k c) O (fun _ => True) (loglikelihood_cm_exp n k c) x0).
  Proof.
    intros HL HE Hm HO Hc.
    assert (S : forall x dx f a, (fun _ => True) x -> Some (linsearch_fun_CM_exp n (fun z => Fin (loglikelihood_cm_exp n k c z)) x dx (/ 2) 1 f) = Some a ->
      0 < a <= 1 /\ (a <= (/ 2) ^ 50 \/ (fun _ => True) (moved x a dx) /\
        (loglikelihood_cm_exp n k c) x - / 10000 * a * SpecLinsearch.scalar (n) f dx < (loglikelihood_cm_exp n k c) (moved x a dx))).
    { intros x dx f a Hx E. inversion E as [E']. clear E E'. unfold linsearch_fun_CM_exp, linsearch_fun_CM_exp.
      destruct (accepts (n) (fun z => Fin (loglikelihood_cm_exp n k c z)) x dx 1 f ltac:(lra)) as [A1 [H|H]]; (split; [exact A1|]); [left; exact H|right; split; [exact I|exact H]]. }
    cbn in Hm. destruct Hm as [<-|[<-|[]]]; eexists; (split; [reflexivity|]); intros x it ns ds als Hrun Hals.
    - refine (run_ascends linsolve ok eigh fuel (n) HL HE _ (A2 n k c) O "newton" (fun _ => True) (loglikelihood_cm_exp n k c) x0 x it ns ds als _ HO _ _ I Hrun Hals).
      + left; reflexivity.
      + intros z dx f al Hz H. apply S; [exact Hz|]. exact H.
      + intros _. destruct (any_regulariser reg _ eq_refl) as [E|E]; [left; exact E|right; split; [exact E|]].
        intros z H _ HH v. exact (psd_of n (loglikelihood_hessian_cm_exp n c z) H v (cm_exp_psd n c z v Hc) HH).
    - refine (run_ascends linsolve ok eigh fuel (n) HL HE _ (A2 n k c) O "quasinewton" (fun _ => True) (loglikelihood_cm_exp n k c) x0 x it ns ds als _ HO _ _ I Hrun Hals).
      + right; left; reflexivity.
      + intros z dx f al Hz H. apply S; [exact Hz|]. exact H.
      + intros HN. destruct HO as (HM & _). rewrite HM in HN. discriminate HN.
  Qed.
  Lemma dcm_exp_climbs reg meth n ko ki nzo nzi c O x0 :
    linear_solver (2 * n) linsolve -> eigen_solver (2 * n) eigh -> In meth descent_methods -> documented O meth -> index_list n nzo -> index_list n nzi -> (forall i, (i < n)%nat -> 1 <= c i) ->
    accepted d_dispatch "dcm_exp" meth reg (run_climbs linsolve ok eigh fuel (2 * n) (A5d n ko ki nzo nzi c) O (fun _ => True) (loglikelihood_dcm_exp n ko ki nzo nzi c) x0).
  Proof.
    intros HL HE Hm HO Ho Hi Hc.
    assert (S : forall x dx f a, (fun _ => True) x -> Some (linsearch_fun_DCM_exp (2 * n) (fun z => Fin (loglikelihood_dcm_exp n ko ki nzo nzi c z)) x dx (/ 2) 1 f) = Some a ->
      0 < a <= 1 /\ (a <= (/ 2) ^ 50 \/ (fun _ => True) (moved x a dx) /\
        (loglikelihood_dcm_exp n ko ki nzo nzi c) x - / 10000 * a * SpecLinsearch.scalar (2 * n) f dx < (loglikelihood_dcm_exp n ko ki nzo nzi c) (moved x a dx))).
    { intros x dx f a Hx E. inversion E as [E']. clear E E'. unfold linsearch_fun_DCM_exp, linsearch_fun_CM_exp.
      destruct (accepts (2 * n) (fun z => Fin (loglikelihood_dcm_exp n ko ki nzo nzi c z)) x dx 1 f ltac:(lra)) as [A1 [H|H]]; (split; [exact A1|]); [left; exact H|right; split; [exact I|exact H]]. }
    cbn in Hm. destruct Hm as [<-|[<-|[]]]; eexists; (split; [reflexivity|]); intros x it ns ds als Hrun Hals.
    - refine (run_ascends linsolve ok eigh fuel (2 * n) HL HE _ (A5d n ko ki nzo nzi c) O "newton" (fun _ => True) (loglikelihood_dcm_exp n ko ki nzo nzi c) x0 x it ns ds als _ HO _ _ I Hrun Hals).
      + left; reflexivity.
      + intros z dx f al Hz H. apply S; [exact Hz|]. exact H.
      + intros _. destruct (any_regulariser reg _ eq_refl) as [E|E]; [left; exact E|right; split; [exact E|]].
        intros z H _ HH v. exact (psd_of (2 * n) (loglikelihood_hessian_dcm_exp n nzo nzi c z) H v (dcm_exp_psd n nzo nzi c z v Ho Hi Hc) HH).
    - refine (run_ascends linsolve ok eigh fuel (2 * n) HL HE _ (A5d n ko ki nzo nzi c) O "quasinewton" (fun _ => True) (loglikelihood_dcm_exp n ko ki nzo nzi c) x0 x it ns ds als _ HO _ _ I Hrun Hals).
      + right; left; reflexivity.
      + intros z dx f al Hz H. apply S; [exact Hz|]. exact H.
      + intros HN. destruct HO as (HM & _). rewrite HM in HN. discriminate HN.
  Qed.
  Lemma crema_climbs reg meth n s es O x0 :
    linear_solver (n) linsolve -> eigen_solver (n) eigh -> In meth descent_methods -> documented O meth -> pairs_below n es -> simple_pairs es -> nonneg_weights es -> crema_dom es x0 ->
    accepted u_dispatch "crema" meth reg (run_climbs linsolve ok eigh fuel (n) (A3 n s (Triples es)) O (crema_dom es) (loglikelihood_crema_undirected n s es) x0).
  Proof.
    intros HL HE Hm HO HB HS HW Hd.
    assert (S : forall x dx f a, (crema_dom es) x -> Some (linsearch_fun_crema_undirected n (floglikelihood_crema_undirected n s es) x dx (/ 2) 1 f) = Some a ->
      0 < a <= 1 /\ (a <= (/ 2) ^ 50 \/ (crema_dom es) (moved x a dx) /\
        (loglikelihood_crema_undirected n s es) x - / 10000 * a * SpecLinsearch.scalar (n) f dx < (loglikelihood_crema_undirected n s es) (moved x a dx))).
    { intros x dx f a Hx E. inversion E as [E']. clear E E'. unfold linsearch_fun_crema_undirected, linsearch_fun_CM_exp.
      destruct (accepts (n) (floglikelihood_crema_undirected n s es) x dx 1 f ltac:(lra)) as [A1 [H|H]]; (split; [exact A1|]); [left; exact H|right; refine (accepted_step n (floglikelihood_crema_undirected n s es) (crema_dom es) (loglikelihood_crema_undirected n s es) x dx f _ Hx (fun z => fcrema_fin n s es z) (fun z H1 H2 _ => fcrema_dom n s es z HW H1 H2) H)]. }
    cbn in Hm. destruct Hm as [<-|[<-|[]]]; eexists; (split; [reflexivity|]); intros x it ns ds als Hrun Hals.
    - refine (run_ascends linsolve ok eigh fuel (n) HL HE _ (A3 n s (Triples es)) O "newton" (crema_dom es) (loglikelihood_crema_undirected n s es) x0 x it ns ds als _ HO _ _ Hd Hrun Hals).
      + left; reflexivity.
      + intros z dx f al Hz H. apply S; [exact Hz|]. exact H.
      + intros _. destruct (any_regulariser reg _ eq_refl) as [E|E]; [left; exact E|right; split; [exact E|]].
        intros z H Hz HH v. change (real_mat (n) (obind (omat (loglikelihood_hessian_crema_undirected es z)) (fun v => Some (vneg v))) = Some H) in HH.
        destruct (loglikelihood_hessian_crema_undirected es z) as [G|] eqn:EG; [|discriminate HH].
        exact (psd_of (n) G H v (crema_psd n es z G v HB Hz HS HW EG) HH).
    - refine (run_ascends linsolve ok eigh fuel (n) HL HE _ (A3 n s (Triples es)) O "quasinewton" (crema_dom es) (loglikelihood_crema_undirected n s es) x0 x it ns ds als _ HO _ _ Hd Hrun Hals).
      + right; left; reflexivity.
      + intros z dx f al Hz H. apply S; [exact Hz|]. exact H.
      + intros HN. destruct HO as (HM & _). rewrite HM in HN. discriminate HN.
  Qed.
  Lemma crema_dir_climbs reg meth n so si es nzo nzi O x0 :
    linear_solver (2 * n) linsolve -> eigen_solver (2 * n) eigh -> In meth descent_methods -> documented O meth -> pairs_below n es -> simple_arcs es -> nonneg_weights es -> crema_dir_dom n es x0 ->
    accepted d_dispatch "crema" meth reg (run_climbs linsolve ok eigh fuel (2 * n) (A5c n so si (Triples es) nzo nzi) O (crema_dir_dom n es) (loglikelihood_crema_directed n so si es nzo nzi) x0).
  Proof.
    intros HL HE Hm HO HB HS HW Hd.
    assert (S : forall x dx f a, (crema_dir_dom n es) x -> Some (linsearch_fun_crema_directed (2 * n) (floglikelihood_crema_directed n so si es nzo nzi) x dx (/ 2) 1 f) = Some a ->
      0 < a <= 1 /\ (a <= (/ 2) ^ 50 \/ (crema_dir_dom n es) (moved x a dx) /\
        (loglikelihood_crema_directed n so si es nzo nzi) x - / 10000 * a * SpecLinsearch.scalar (2 * n) f dx < (loglikelihood_crema_directed n so si es nzo nzi) (moved x a dx))).
    { intros x dx f a Hx E. inversion E as [E']. clear E E'. unfold linsearch_fun_crema_directed, linsearch_fun_CM_exp.
      destruct (accepts (2 * n) (floglikelihood_crema_directed n so si es nzo nzi) x dx 1 f ltac:(lra)) as [A1 [H|H]]; (split; [exact A1|]); [left; exact H|right; refine (accepted_step (2 * n) (floglikelihood_crema_directed n so si es nzo nzi) (crema_dir_dom n es) (loglikelihood_crema_directed n so si es nzo nzi) x dx f _ Hx (fun z => fcrema_dir_fin n so si es nzo nzi z) (fun z H1 H2 _ => fcrema_dir_dom n so si es nzo nzi z HW H1 H2) H)]. }
    cbn in Hm. destruct Hm as [<-|[<-|[]]]; eexists; (split; [reflexivity|]); intros x it ns ds als Hrun Hals.
    - refine (run_ascends linsolve ok eigh fuel (2 * n) HL HE _ (A5c n so si (Triples es) nzo nzi) O "newton" (crema_dir_dom n es) (loglikelihood_crema_directed n so si es nzo nzi) x0 x it ns ds als _ HO _ _ Hd Hrun Hals).
      + left; reflexivity.
      + intros z dx f al Hz H. apply S; [exact Hz|]. exact H.
      + intros _. destruct (any_regulariser reg _ eq_refl) as [E|E]; [left; exact E|right; split; [exact E|]].
        intros z H Hz HH v. change (real_mat (2 * n) (obind (omat (loglikelihood_hessian_crema_directed n es z)) (fun v => Some (vneg v))) = Some H) in HH.
        destruct (loglikelihood_hessian_crema_directed n es z) as [G|] eqn:EG; [|discriminate HH].
        exact (psd_of (2 * n) G H v (crema_dir_psd n es z G v HB Hz HS HW EG) HH).
    - refine (run_ascends linsolve ok eigh fuel (2 * n) HL HE _ (A5c n so si (Triples es) nzo nzi) O "quasinewton" (crema_dir_dom n es) (loglikelihood_crema_directed n so si es nzo nzi) x0 x it ns ds als _ HO _ _ Hd Hrun Hals).
      + right; left; reflexivity.
      + intros z dx f al Hz H. apply S; [exact Hz|]. exact H.
      + intros HN. destruct HO as (HM & _). rewrite HM in HN. discriminate HN.
  Qed.
  Lemma ecm_exp_climbs reg meth n k s O x0 :
    linear_solver (2 * n) linsolve -> eigen_solver (2 * n) eigh -> In meth descent_methods -> documented O meth -> ecm_exp_dom n x0 ->
    accepted u_dispatch "ecm_exp" meth reg (run_climbs linsolve ok eigh fuel (2 * n) (A2 n k s) O (ecm_exp_dom n) (loglikelihood_ecm_exp n k s) x0).
  Proof.
    intros HL HE Hm HO Hd.
    assert (S : forall x dx f a, (ecm_exp_dom n) x -> linsearch_fun_ECM_exp fuel n (objective "loglikelihood_ecm_exp" (A2 n k s)) x dx (/ 2) 1 f = Some a ->
      0 < a <= 1 /\ (a <= (/ 2) ^ 50 \/ (ecm_exp_dom n) (moved x a dx) /\
        (loglikelihood_ecm_exp n k s) x - / 10000 * a * SpecLinsearch.scalar (2 * n) f dx < (loglikelihood_ecm_exp n k s) (moved x a dx))).
    { intros x dx f a Hx E. destruct (ECM_exp_admissible fuel n (objective "loglikelihood_ecm_exp" (A2 n k s)) x dx (/ 2) 1 f a ltac:(lra) ltac:(lra) Hx E) as [B1 B2].
      split; [exact B1|]. unfold linsearch_fun_ECM_exp in E. destruct (feasible_loop _ _ _ _) as [r|] eqn:Er; [|discriminate]. inversion E as [E']. clear E. subst a.
      destruct (feasible_spec _ _ _ _ _ Er) as (j & _ & Ej & _). assert (Hr : 0 < r <= 1) by (rewrite Ej, Rmult_1_l; apply half_pow_unit).
      destruct (accepts (2 * n) (objective "loglikelihood_ecm_exp" (A2 n k s)) x dx r f Hr) as [_ [H|H]]; [left; exact H|right; split; [exact B2|exact (armijo_fin _ _ (loglikelihood_ecm_exp n k s) _ _ _ _ (objective_at _ _ _ _ (e_ll_ecm_exp _ _ _ _ Hx)) (objective_at _ _ _ _ (e_ll_ecm_exp _ _ _ _ B2)) H)]]. }
    cbn in Hm. destruct Hm as [<-|[<-|[]]]; eexists; (split; [reflexivity|]); intros x it ns ds als Hrun Hals.
    - refine (run_ascends linsolve ok eigh fuel (2 * n) HL HE _ (A2 n k s) O "newton" (ecm_exp_dom n) (loglikelihood_ecm_exp n k s) x0 x it ns ds als _ HO _ _ Hd Hrun Hals).
      + left; reflexivity.
      + intros z dx f al Hz H. apply S; [exact Hz|]. change (linsearch_fun_ECM_exp fuel (Nat.div (2 * n) 2) (objective "loglikelihood_ecm_exp" (A2 n k s)) z dx (/ 2) 1 f = Some al) in H. replace (Nat.div (2 * n) 2) with n in H by (rewrite Nat.mul_comm, Nat.div_mul by discriminate; reflexivity). exact H.
      + intros _. destruct (any_regulariser reg _ eq_refl) as [E|E]; [left; exact E|right; split; [exact E|]].
        intros z H Hz HH v. destruct (guarded_mat _ _ _ _ HH) as [_ EH]. rewrite <- EH. exact (ecm_exp_psd n z v Hz).
    - refine (run_ascends linsolve ok eigh fuel (2 * n) HL HE _ (A2 n k s) O "quasinewton" (ecm_exp_dom n) (loglikelihood_ecm_exp n k s) x0 x it ns ds als _ HO _ _ Hd Hrun Hals).
      + right; left; reflexivity.
      + intros z dx f al Hz H. apply S; [exact Hz|]. change (linsearch_fun_ECM_exp fuel (Nat.div (2 * n) 2) (objective "loglikelihood_ecm_exp" (A2 n k s)) z dx (/ 2) 1 f = Some al) in H. replace (Nat.div (2 * n) 2) with n in H by (rewrite Nat.mul_comm, Nat.div_mul by discriminate; reflexivity). exact H.
      + intros HN. destruct HO as (HM & _). rewrite HM in HN. discriminate HN.
  Qed.
  Lemma decm_exp_climbs reg meth n ko ki so si O x0 :
    linear_solver (4 * n) linsolve -> eigen_solver (4 * n) eigh -> In meth descent_methods -> documented O meth -> decm_exp_pairs n x0 ->
    accepted d_dispatch "decm_exp" meth reg (run_climbs linsolve ok eigh fuel (4 * n) (A4 n ko ki so si) O (decm_exp_pairs n) (loglikelihood_decm_exp n ko ki so si) x0).
  Proof.
    intros HL HE Hm HO Hd.
    assert (S : forall x dx f a, (decm_exp_pairs n) x -> linsearch_fun_DECM_exp fuel n (objective "loglikelihood_decm_exp" (A4 n ko ki so si)) x dx (/ 2) 1 f = Some a ->
      0 < a <= 1 /\ (a <= (/ 2) ^ 50 \/ (decm_exp_pairs n) (moved x a dx) /\
        (loglikelihood_decm_exp n ko ki so si) x - / 10000 * a * SpecLinsearch.scalar (4 * n) f dx < (loglikelihood_decm_exp n ko ki so si) (moved x a dx))).
    { intros x dx f a Hx E. destruct (DECM_exp_admissible fuel n (objective "loglikelihood_decm_exp" (A4 n ko ki so si)) x dx (/ 2) 1 f a ltac:(lra) ltac:(lra) Hx E) as [B1 B2].
      split; [exact B1|]. unfold linsearch_fun_DECM_exp in E. destruct (feasible_loop _ _ _ _) as [r|] eqn:Er; [|discriminate]. inversion E as [E']. clear E. subst a.
      destruct (feasible_spec _ _ _ _ _ Er) as (j & _ & Ej & _). assert (Hr : 0 < r <= 1) by (rewrite Ej, Rmult_1_l; apply half_pow_unit).
      destruct (accepts (4 * n) (objective "loglikelihood_decm_exp" (A4 n ko ki so si)) x dx r f Hr) as [_ [H|H]]; [left; exact H|right; split; [exact B2|exact (armijo_fin _ _ (loglikelihood_decm_exp n ko ki so si) _ _ _ _ (objective_at _ _ _ _ (e_ll_decm_exp _ _ _ _ _ _ (fun i j Hi Hj _ => Hx i j Hi Hj))) (objective_at _ _ _ _ (e_ll_decm_exp _ _ _ _ _ _ (fun i j Hi Hj _ => B2 i j Hi Hj))) H)]]. }
    cbn in Hm. destruct Hm as [<-|[<-|[]]]; eexists; (split; [reflexivity|]); intros x it ns ds als Hrun Hals.
    - refine (run_ascends linsolve ok eigh fuel (4 * n) HL HE _ (A4 n ko ki so si) O "newton" (decm_exp_pairs n) (loglikelihood_decm_exp n ko ki so si) x0 x it ns ds als _ HO _ _ Hd Hrun Hals).
      + left; reflexivity.
      + intros z dx f al Hz H. apply S; [exact Hz|]. change (linsearch_fun_DECM_exp fuel (Nat.div (4 * n) 4) (objective "loglikelihood_decm_exp" (A4 n ko ki so si)) z dx (/ 2) 1 f = Some al) in H. replace (Nat.div (4 * n) 4) with n in H by (rewrite Nat.mul_comm, Nat.div_mul by discriminate; reflexivity). exact H.
      + intros _. destruct (any_regulariser reg _ eq_refl) as [E|E]; [left; exact E|right; split; [exact E|]].
        intros z H Hz HH v. destruct (guarded_mat _ _ _ _ HH) as [_ EH]. rewrite <- EH. exact (decm_exp_psd n z v (fun i j Hi Hj _ => Hz i j Hi Hj)).
    - refine (run_ascends linsolve ok eigh fuel (4 * n) HL HE _ (A4 n ko ki so si) O "quasinewton" (decm_exp_pairs n) (loglikelihood_decm_exp n ko ki so si) x0 x it ns ds als _ HO _ _ Hd Hrun Hals).
      + right; left; reflexivity.
      + intros z dx f al Hz H. apply S; [exact Hz|]. change (linsearch_fun_DECM_exp fuel (Nat.div (4 * n) 4) (objective "loglikelihood_decm_exp" (A4 n ko ki so si)) z dx (/ 2) 1 f = Some al) in H. replace (Nat.div (4 * n) 4) with n in H by (rewrite Nat.mul_comm, Nat.div_mul by discriminate; reflexivity). exact H.
      + intros HN. destruct HO as (HM & _). rewrite HM in HN. discriminate HN.
  Qed.
  Lemma decm_climbs reg meth n ko ki so si O x0 :
    linear_solver (4 * n) linsolve -> eigen_solver (4 * n) eigh -> In meth descent_methods -> documented O meth -> (meth = "newton"%string -> reg <> Some "identity"%string) ->
    positive_upto (4 * n) x0 -> decm_dom n x0 ->
    accepted d_dispatch "decm" meth reg (run_climbs linsolve ok eigh fuel (4 * n) (A4 n ko ki so si) O (fun x => positive_upto (4 * n) x /\ decm_dom n x) (loglikelihood_decm n ko ki so si) x0).
  Proof.
    intros HL HE Hm HO Hreg Hd1 Hd2. assert (Hd := conj Hd1 Hd2).
    assert (S : forall x dx f a, (fun x => positive_upto (4 * n) x /\ decm_dom n x) x -> linsearch_fun_DECM fuel n (floglikelihood_decm n ko ki so si) x dx (/ 2) 1 f = Some a ->
      0 < a <= 1 /\ (a <= (/ 2) ^ 50 \/ (fun x => positive_upto (4 * n) x /\ decm_dom n x) (moved x a dx) /\
        (loglikelihood_decm n ko ki so si) x - / 10000 * a * SpecLinsearch.scalar (4 * n) f dx < (loglikelihood_decm n ko ki so si) (moved x a dx))).
    { intros x dx f a [Hx Hxd] E.
      destruct (DECM_admissible fuel n (floglikelihood_decm n ko ki so si) x dx (/ 2) 1 f a ltac:(lra) ltac:(lra) Hx) as (A1 & A2 & _); [|exact E|].
      { intros z t Hz Hf. apply (fdecm_dom n ko ki so si z Hz); intros Z; rewrite Z in Hf; [|destruct t]; discriminate Hf. }
      split; [exact A1|]. unfold linsearch_fun_DECM in E. destruct (feasible_loop _ _ _ _) as [r|] eqn:Er; [|discriminate]. assert (E' : decrease_loop (4 * n) (floglikelihood_decm n ko ki so si) x dx (/ 2) r f = a) by (inversion E; reflexivity). clear E. subst a.
      destruct (feasible_spec _ _ _ _ _ Er) as (j & _ & Ej & _). destruct (clamp_gt_spec (4 * n) x dx 1 ltac:(lra)) as [Hc _]. cbv zeta in Hc.
      assert (Hr : 0 < r <= 1).
      { rewrite Ej. pose proof (half_pow_unit j). split; [apply Rmult_lt_0_compat; lra|]. apply Rle_trans with (1 * 1); [apply Rmult_le_compat; lra|lra]. }
      destruct (accepts (4 * n) (floglikelihood_decm n ko ki so si) x dx r f Hr) as [_ [H|H]]; [left; exact H|right].
      unfold armijo in H. rewrite (fdecm_fin n ko ki so si x Hx Hxd) in H.
      assert (Hm' : decm_dom n (moved x (decrease_loop (4 * n) (floglikelihood_decm n ko ki so si) x dx (/ 2) r f) dx)).
      { apply (fdecm_dom n ko ki so si _ A2); intros Z; rewrite Z in H; exact H. }
      rewrite (fdecm_fin n ko ki so si _ A2 Hm') in H. split; [split; assumption|exact H]. }
    cbn in Hm. destruct Hm as [<-|[<-|[]]]; eexists; (split; [reflexivity|]); intros x it ns ds als Hrun Hals.
    - refine (run_ascends linsolve ok eigh fuel (4 * n) HL HE _ (A4 n ko ki so si) O "newton" (fun x => positive_upto (4 * n) x /\ decm_dom n x) (loglikelihood_decm n ko ki so si) x0 x it ns ds als _ HO _ _ Hd Hrun Hals).
      + left; reflexivity.
      + intros z dx f al Hz H. apply S; [exact Hz|]. change (linsearch_fun_DECM fuel (Nat.div (4 * n) 4) (floglikelihood_decm n ko ki so si) z dx (/ 2) 1 f = Some al) in H. replace (Nat.div (4 * n) 4) with n in H by (rewrite Nat.mul_comm, Nat.div_mul by discriminate; reflexivity). exact H.
      + intros _. left. apply not_identity; [apply Hreg; reflexivity|reflexivity].
    - refine (run_ascends linsolve ok eigh fuel (4 * n) HL HE _ (A4 n ko ki so si) O "quasinewton" (fun x => positive_upto (4 * n) x /\ decm_dom n x) (loglikelihood_decm n ko ki so si) x0 x it ns ds als _ HO _ _ Hd Hrun Hals).
      + right; left; reflexivity.
      + intros z dx f al Hz H. apply S; [exact Hz|]. change (linsearch_fun_DECM fuel (Nat.div (4 * n) 4) (floglikelihood_decm n ko ki so si) z dx (/ 2) 1 f = Some al) in H. replace (Nat.div (4 * n) 4) with n in H by (rewrite Nat.mul_comm, Nat.div_mul by discriminate; reflexivity). exact H.
      + intros HN. destruct HO as (HM & _). rewrite HM in HN. discriminate HN.
  Qed.
  (** The statements of the theorems follow. *)
  Lemma accepted_weaken dispatch model meth reg (P Q : dispatched -> Prop) : (forall D, P D -> Q D) ->
    accepted dispatch model meth reg P -> accepted dispatch model meth reg Q.
  Proof. intros H (D & E & HD). exists D. split; [exact E|apply H; exact HD]. Qed.
  Lemma climbs_increases m a O dom L x0 D : run_climbs linsolve ok eigh fuel m a O dom L x0 D -> run_increases linsolve ok eigh fuel m a O dom L x0 D.
  Proof. intros H x k ns ds als Hrun Hals. exact (proj1 (H x k ns ds als Hrun Hals)). Qed.
  Lemma climbs_settles m a O dom L U x0 D : run_climbs linsolve ok eigh fuel m a O dom L x0 D -> run_settles linsolve ok eigh fuel m a O dom L U x0 D.
  Proof.
    intros H x k ns ds als Hrun Hals HU He. destruct (H x k ns ds als Hrun Hals) as [[Hd _] Hg]. specialize (Hg He). specialize (HU x Hd).
    split; [lra|]. intros Hlt. destruct (solver_stop_reason _ _ _ _ _ _ _ _ _ _ _ _ Hrun) as (_ & _ & norm & diff & En & Ed & Hstop).
    exists norm, diff. split; [exact En|]. split; [exact Ed|]. cbn [gtb run_numerics] in Hstop. destruct Hstop as [Hs|[Hs|Hs]].
    - left. destruct (Rlt_dec (o_tol O) norm); [discriminate|lra].
    - exfalso. rewrite Hs in Hg. lra.
    - right. destruct (Rlt_dec (o_eps O) diff); [discriminate|lra].
  Qed.
  Lemma cm_increases reg meth n k c O x0 :
    linear_solver (n) linsolve -> eigen_solver (n) eigh -> In meth descent_methods -> documented O meth -> (meth = "newton"%string -> reg <> Some "identity"%string) -> positive_upto n x0 ->
    accepted u_dispatch "cm" meth reg (run_increases linsolve ok eigh fuel (n) (A2 n k c) O (positive_upto n) (loglikelihood_cm n k c) x0).
  Proof. intros. eapply accepted_weaken; [intros D; apply climbs_increases|]. apply cm_climbs; assumption. Qed.
  Lemma cm_settles reg meth n k c O x0 U :
    linear_solver (n) linsolve -> eigen_solver (n) eigh -> In meth descent_methods -> documented O meth -> (meth = "newton"%string -> reg <> Some "identity"%string) -> positive_upto n x0 ->
    accepted u_dispatch "cm" meth reg (run_settles linsolve ok eigh fuel (n) (A2 n k c) O (positive_upto n) (loglikelihood_cm n k c) U x0).
  Proof. intros. eapply accepted_weaken; [intros D; apply climbs_settles|]. apply cm_climbs; assumption. Qed.
  Lemma dcm_increases reg meth n ko ki nzo nzi c O x0 :
    linear_solver (2 * n) linsolve -> eigen_solver (2 * n) eigh -> In meth descent_methods -> documented O meth -> (meth = "newton"%string -> reg <> Some "identity"%string) -> index_list n nzo -> index_list n nzi -> dcm_dom n nzo nzi x0 ->
    accepted d_dispatch "dcm" meth reg (run_increases linsolve ok eigh fuel (2 * n) (A5d n ko ki nzo nzi c) O (dcm_dom n nzo nzi) (loglikelihood_dcm n ko ki nzo nzi c) x0).
  Proof. intros. eapply accepted_weaken; [intros D; apply climbs_increases|]. apply dcm_climbs; assumption. Qed.
  Lemma dcm_settles reg meth n ko ki nzo nzi c O x0 U :
    linear_solver (2 * n) linsolve -> eigen_solver (2 * n) eigh -> In meth descent_methods -> documented O meth -> (meth = "newton"%string -> reg <> Some "identity"%string) -> index_list n nzo -> index_list n nzi -> dcm_dom n nzo nzi x0 ->
    accepted d_dispatch "dcm" meth reg (run_settles linsolve ok eigh fuel (2 * n) (A5d n ko ki nzo nzi c) O (dcm_dom n nzo nzi) (loglikelihood_dcm n ko ki nzo nzi c) U x0).
  Proof. intros. eapply accepted_weaken; [intros D; apply climbs_settles|]. apply dcm_climbs; assumption. Qed.
  Lemma cm_exp_increases reg meth n k c O x0 :
    linear_solver (n) linsolve -> eigen_solver (n) eigh -> In meth descent_methods -> documented O meth -> (forall i, (i < n)%nat -> 1 <= c i) ->
    accepted u_dispatch "cm_exp" meth reg (run_increases linsolve ok eigh fuel (n) (A2 n k c) O (fun _ => True) (loglikelihood_cm_exp n k c) x0).
  Proof. intros. eapply accepted_weaken; [intros D; apply climbs_increases|]. apply cm_exp_climbs; assumption. Qed.
  Lemma cm_exp_settles reg meth n k c O x0 U :
    linear_solver (n) linsolve -> eigen_solver (n) eigh -> In meth descent_methods -> documented O meth -> (forall i, (i < n)%nat -> 1 <= c i) ->
    accepted u_dispatch "cm_exp" meth reg (run_settles linsolve ok eigh fuel (n) (A2 n k c) O (fun _ => True) (loglikelihood_cm_exp n k c) U x0).
  Proof. intros. eapply accepted_weaken; [intros D; apply climbs_settles|]. apply cm_exp_climbs; assumption. Qed.
  Lemma dcm_exp_increases reg meth n ko ki nzo nzi c O x0 :
    linear_solver (2 * n) linsolve -> eigen_solver (2 * n) eigh -> In meth descent_methods -> documented O meth -> index_list n nzo -> index_list n nzi -> (forall i, (i < n)%nat -> 1 <= c i) ->
    accepted d_dispatch "dcm_exp" meth reg (run_increases linsolve ok eigh fuel (2 * n) (A5d n ko ki nzo nzi c) O (fun _ => True) (loglikelihood_dcm_exp n ko ki nzo nzi c) x0).
  Proof. intros. eapply accepted_weaken; [intros D; apply climbs_increases|]. apply dcm_exp_climbs; assumption. Qed.
  Lemma dcm_exp_settles reg meth n ko ki nzo nzi c O x0 U :
    linear_solver (2 * n) linsolve -> eigen_solver (2 * n) eigh -> In meth descent_methods -> documented O meth -> index_list n nzo -> index_list n nzi -> (forall i, (i < n)%nat -> 1 <= c i) ->
    accepted d_dispatch "dcm_exp" meth reg (run_settles linsolve ok eigh fuel (2 * n) (A5d n ko ki nzo nzi c) O (fun _ => True) (loglikelihood_dcm_exp n ko ki nzo nzi c) U x0).
  Proof. intros. eapply accepted_weaken; [intros D; apply climbs_settles|]. apply dcm_exp_climbs; assumption. Qed.
  Lemma crema_increases reg meth n s es O x0 :
    linear_solver (n) linsolve -> eigen_solver (n) eigh -> In meth descent_methods -> documented O meth -> pairs_below n es -> simple_pairs es -> nonneg_weights es -> crema_dom es x0 ->
    accepted u_dispatch "crema" meth reg (run_increases linsolve ok eigh fuel (n) (A3 n s (Triples es)) O (crema_dom es) (loglikelihood_crema_undirected n s es) x0).
  Proof. intros. eapply accepted_weaken; [intros D; apply climbs_increases|]. apply crema_climbs; assumption. Qed.
  Lemma crema_settles reg meth n s es O x0 U :
    linear_solver (n) linsolve -> eigen_solver (n) eigh -> In meth descent_methods -> documented O meth -> pairs_below n es -> simple_pairs es -> nonneg_weights es -> crema_dom es x0 ->
    accepted u_dispatch "crema" meth reg (run_settles linsolve ok eigh fuel (n) (A3 n s (Triples es)) O (crema_dom es) (loglikelihood_crema_undirected n s es) U x0).
  Proof. intros. eapply accepted_weaken; [intros D; apply climbs_settles|]. apply crema_climbs; assumption. Qed.
  Lemma crema_dir_increases reg meth n so si es nzo nzi O x0 :
    linear_solver (2 * n) linsolve -> eigen_solver (2 * n) eigh -> In meth descent_methods -> documented O meth -> pairs_below n es -> simple_arcs es -> nonneg_weights es -> crema_dir_dom n es x0 ->
    accepted d_dispatch "crema" meth reg (run_increases linsolve ok eigh fuel (2 * n) (A5c n so si (Triples es) nzo nzi) O (crema_dir_dom n es) (loglikelihood_crema_directed n so si es nzo nzi) x0).
  Proof. intros. eapply accepted_weaken; [intros D; apply climbs_increases|]. apply crema_dir_climbs; assumption. Qed.
  Lemma crema_dir_settles reg meth n so si es nzo nzi O x0 U :
    linear_solver (2 * n) linsolve -> eigen_solver (2 * n) eigh -> In meth descent_methods -> documented O meth -> pairs_below n es -> simple_arcs es -> nonneg_weights es -> crema_dir_dom n es x0 ->
    accepted d_dispatch "crema" meth reg (run_settles linsolve ok eigh fuel (2 * n) (A5c n so si (Triples es) nzo nzi) O (crema_dir_dom n es) (loglikelihood_crema_directed n so si es nzo nzi) U x0).
  Proof. intros. eapply accepted_weaken; [intros D; apply climbs_settles|]. apply crema_dir_climbs; assumption. Qed.
  Lemma ecm_exp_increases reg meth n k s O x0 :
    linear_solver (2 * n) linsolve -> eigen_solver (2 * n) eigh -> In meth descent_methods -> documented O meth -> ecm_exp_dom n x0 ->
    accepted u_dispatch "ecm_exp" meth reg (run_increases linsolve ok eigh fuel (2 * n) (A2 n k s) O (ecm_exp_dom n) (loglikelihood_ecm_exp n k s) x0).
  Proof. intros. eapply accepted_weaken; [intros D; apply climbs_increases|]. apply ecm_exp_climbs; assumption. Qed.
  Lemma ecm_exp_settles reg meth n k s O x0 U :
    linear_solver (2 * n) linsolve -> eigen_solver (2 * n) eigh -> In meth descent_methods -> documented O meth -> ecm_exp_dom n x0 ->
    accepted u_dispatch "ecm_exp" meth reg (run_settles linsolve ok eigh fuel (2 * n) (A2 n k s) O (ecm_exp_dom n) (loglikelihood_ecm_exp n k s) U x0).
  Proof. intros. eapply accepted_weaken; [intros D; apply climbs_settles|]. apply ecm_exp_climbs; assumption. Qed.
  Lemma decm_exp_increases reg meth n ko ki so si O x0 :
    linear_solver (4 * n) linsolve -> eigen_solver (4 * n) eigh -> In meth descent_methods -> documented O meth -> decm_exp_pairs n x0 ->
    accepted d_dispatch "decm_exp" meth reg (run_increases linsolve ok eigh fuel (4 * n) (A4 n ko ki so si) O (decm_exp_pairs n) (loglikelihood_decm_exp n ko ki so si) x0).
  Proof. intros. eapply accepted_weaken; [intros D; apply climbs_increases|]. apply decm_exp_climbs; assumption. Qed.
  Lemma decm_exp_settles reg meth n ko ki so si O x0 U :
    linear_solver (4 * n) linsolve -> eigen_solver (4 * n) eigh -> In meth descent_methods -> documented O meth -> decm_exp_pairs n x0 ->
    accepted d_dispatch "decm_exp" meth reg (run_settles linsolve ok eigh fuel (4 * n) (A4 n ko ki so si) O (decm_exp_pairs n) (loglikelihood_decm_exp n ko ki so si) U x0).
  Proof. intros. eapply accepted_weaken; [intros D; apply climbs_settles|]. apply decm_exp_climbs; assumption. Qed.
  Lemma decm_increases reg meth n ko ki so si O x0 :
    linear_solver (4 * n) linsolve -> eigen_solver (4 * n) eigh -> In meth descent_methods -> documented O meth -> (meth = "newton"%string -> reg <> Some "identity"%string) ->
    positive_upto (4 * n) x0 -> decm_dom n x0 ->
    accepted d_dispatch "decm" meth reg (run_increases linsolve ok eigh fuel (4 * n) (A4 n ko ki so si) O (fun x => positive_upto (4 * n) x /\ decm_dom n x) (loglikelihood_decm n ko ki so si) x0).
  Proof. intros. eapply accepted_weaken; [intros D; apply climbs_increases|]. apply decm_climbs; assumption. Qed.
  Lemma decm_settles reg meth n ko ki so si O x0 U :
    linear_solver (4 * n) linsolve -> eigen_solver (4 * n) eigh -> In meth descent_methods -> documented O meth -> (meth = "newton"%string -> reg <> Some "identity"%string) ->
    positive_upto (4 * n) x0 -> decm_dom n x0 ->
    accepted d_dispatch "decm" meth reg (run_settles linsolve ok eigh fuel (4 * n) (A4 n ko ki so si) O (fun x => positive_upto (4 * n) x /\ decm_dom n x) (loglikelihood_decm n ko ki so si) U x0).
  Proof. intros. eapply accepted_weaken; [intros D; apply climbs_settles|]. apply decm_climbs; assumption. Qed.
End Runs.

(** The DECM line search with its own objective. *)
Lemma DECM_search_admissible fuel n ko ki so si x dx beta alfa f a :
  0 < alfa -> 0 < beta <= 1 -> positive_upto (4 * n) x ->
  linsearch_fun_DECM fuel n (floglikelihood_decm n ko ki so si) x dx beta alfa f = Some a ->
  0 < a <= alfa /\ positive_upto (4 * n) (moved x a dx) /\
  (decm_dom n (moved x a dx) \/
   exists b, a = b * beta ^ 50 /\ forall m, (m < 50)%nat -> ~ armijo (4 * n) (floglikelihood_decm n ko ki so si) x dx f (b * beta ^ m)).
Proof.
  intros Ha Hb Hx H. apply (DECM_admissible fuel n (floglikelihood_decm n ko ki so si) x dx beta alfa f a Ha Hb Hx); [|exact H].
  intros z t Hz Hf. apply (fdecm_dom n ko ki so si z Hz); intros Z; rewrite Z in Hf; [|destruct t]; discriminate Hf.
Qed.
