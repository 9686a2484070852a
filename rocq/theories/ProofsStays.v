(** Whole runs that stay in the domain, model by model. *)
From Coq Require Import Reals List Arith Bool String Lia Lra.
From Verif Require Import Base SpecDeriv SpecGraph SpecEnsemble SpecWeighted SpecDirected SpecCReMa SpecLinsearch SpecDispatch SpecRun
  ModelCM ModelECM ModelDCM ModelDECM ModelCReMa ModelLinsearch ModelSolver ModelDispatch ModelRun.
From Verif Require Import ProofsLinsearch ProofsMainLinsearch ProofsDispatch ProofsRun ProofsIterates.
Import ListNotations.
Local Open Scope R_scope.

Section Runs.
  Variables (linsolve : (nat -> nat -> R) -> (nat -> R) -> option (nat -> R)) (ok : (nat -> nat -> R) -> bool)
    (eigh : (nat -> nat -> R) -> (nat -> R) * (nat -> nat -> R)) (fuel : nat).

  Lemma stays_any m D a O meth (dom : (nat -> R) -> Prop) x0 : In meth documented_methods -> o_method O = method_of_string meth -> o_linsearch O = true ->
    (In meth descent_methods -> forall x dx f al, dom x -> p_lin_nq (run_problem eigh fuel m D a) x dx (/ 2) 1 f = Some al -> dom (moved x al dx)) ->
    (meth = "fixed-point"%string -> forall x dx old t al, dom x -> p_lin_fp (run_problem eigh fuel m D a) x dx old 1 (/ 2) t = Some al -> dom (moved x al dx)) ->
    dom x0 -> run_stays linsolve ok eigh fuel m a O dom x0 D.
  Proof.
    intros Hm HM HS H1 H2 Hd x k ns ds als Hrun. cbn in Hm. destruct Hm as [<-|[<-|[<-|[]]]].
    - refine (stays linsolve ok m _ O dom _ HS (H1 _) x0 x k ns ds als Hd Hrun); [left; exact HM|left; reflexivity].
    - refine (stays linsolve ok m _ O dom _ HS (H1 _) x0 x k ns ds als Hd Hrun); [right; exact HM|right; left; reflexivity].
    - exact (stays_fixed linsolve ok m _ O dom HM HS (H2 eq_refl) x0 x k ns ds als Hd Hrun).
  Qed.

  Lemma cm_stays reg meth n k c O x0 :
    In meth documented_methods -> o_method O = method_of_string meth -> o_linsearch O = true -> positive_upto n x0 ->
    accepted u_dispatch "cm" meth reg (run_stays linsolve ok eigh fuel (n) (A2 n k c) O (positive_upto n) x0).
  Proof.
    intros Hm HM HS  Hd. assert (Hm' := Hm). cbn in Hm'.
    destruct Hm' as [<-|[<-|[<-|[]]]]; eexists; (split; [reflexivity|]);
      refine (stays_any _ _ _ O _ _ x0 Hm HM HS _ _ Hd);
      try (intros Z; discriminate Z); try (intros Z; cbn in Z; destruct Z as [Z|[Z|[]]]; discriminate Z).
    - intros _ x dx f al Hx H. change (Some (linsearch_fun_CM n (objective "loglikelihood_cm" (A2 n k c)) x dx (/ 2) 1 f) = Some al) in H. injection H as <-.
      exact (proj2 (CM_admissible n (objective "loglikelihood_cm" (A2 n k c)) x dx (/ 2) 1 f ltac:(lra) ltac:(lra) Hx)).
    - intros _ x dx f al Hx H. change (Some (linsearch_fun_CM n (objective "loglikelihood_cm" (A2 n k c)) x dx (/ 2) 1 f) = Some al) in H. injection H as <-.
      exact (proj2 (CM_admissible n (objective "loglikelihood_cm" (A2 n k c)) x dx (/ 2) 1 f ltac:(lra) ltac:(lra) Hx)).
    - intros _ x dx old t al Hx H. change (Some (linsearch_fun_CM_fixed n x dx old 1 (/ 2) t) = Some al) in H. injection H as <-.
      exact (proj2 (CM_fixed_admissible n x dx old 1 (/ 2) t ltac:(lra) ltac:(lra) Hx)).
  Qed.
  Lemma dcm_stays reg meth n ko ki nzo nzi c O x0 :
    In meth documented_methods -> o_method O = method_of_string meth -> o_linsearch O = true -> index_list n nzo -> index_list n nzi -> dcm_dom n nzo nzi x0 ->
    accepted d_dispatch "dcm" meth reg (run_stays linsolve ok eigh fuel (2 * n) (A5d n ko ki nzo nzi c) O (dcm_dom n nzo nzi) x0).
  Proof.
    intros Hm HM HS Ho Hi Hd. assert (Hm' := Hm). cbn in Hm'.
    destruct Hm' as [<-|[<-|[<-|[]]]]; eexists; (split; [reflexivity|]);
      refine (stays_any _ _ _ O _ _ x0 Hm HM HS _ _ Hd);
      try (intros Z; discriminate Z); try (intros Z; cbn in Z; destruct Z as [Z|[Z|[]]]; discriminate Z).
    - intros _ x dx f al Hx H. change (Some (linsearch_fun_DCM (2 * n) (objective "loglikelihood_dcm" (A5d n ko ki nzo nzi c)) x dx (/ 2) 1 f) = Some al) in H. injection H as <-.
      exact (proj2 (DCM_admissible n nzo nzi (objective "loglikelihood_dcm" (A5d n ko ki nzo nzi c)) x dx (/ 2) 1 f ltac:(lra) ltac:(lra) Ho Hi Hx)).
    - intros _ x dx f al Hx H. change (Some (linsearch_fun_DCM (2 * n) (objective "loglikelihood_dcm" (A5d n ko ki nzo nzi c)) x dx (/ 2) 1 f) = Some al) in H. injection H as <-.
      exact (proj2 (DCM_admissible n nzo nzi (objective "loglikelihood_dcm" (A5d n ko ki nzo nzi c)) x dx (/ 2) 1 f ltac:(lra) ltac:(lra) Ho Hi Hx)).
    - intros _ x dx old t al Hx H. change (Some (linsearch_fun_DCM_fixed (2 * n) x dx old 1 (/ 2) t) = Some al) in H. injection H as <-.
      exact (proj2 (DCM_fixed_admissible n nzo nzi x dx old 1 (/ 2) t ltac:(lra) ltac:(lra) Ho Hi Hx)).
  Qed.
  Lemma ecm_exp_stays reg meth n k s O x0 :
    In meth documented_methods -> o_method O = method_of_string meth -> o_linsearch O = true -> ecm_exp_dom n x0 ->
    accepted u_dispatch "ecm_exp" meth reg (run_stays linsolve ok eigh fuel (2 * n) (A2 n k s) O (ecm_exp_dom n) x0).
  Proof.
    intros Hm HM HS  Hd. assert (Hm' := Hm). cbn in Hm'.
    destruct Hm' as [<-|[<-|[<-|[]]]]; eexists; (split; [reflexivity|]);
      refine (stays_any _ _ _ O _ _ x0 Hm HM HS _ _ Hd);
      try (intros Z; discriminate Z); try (intros Z; cbn in Z; destruct Z as [Z|[Z|[]]]; discriminate Z).
    - intros _ x dx f al Hx H. change (linsearch_fun_ECM_exp fuel (Nat.div (2 * n) 2) (objective "loglikelihood_ecm_exp" (A2 n k s)) x dx (/ 2) 1 f = Some al) in H. replace (Nat.div (2 * n) 2) with n in H by (rewrite Nat.mul_comm, Nat.div_mul by discriminate; reflexivity).
      exact (proj2 (ECM_exp_admissible fuel n (objective "loglikelihood_ecm_exp" (A2 n k s)) x dx (/ 2) 1 f al ltac:(lra) ltac:(lra) Hx H)).
    - intros _ x dx f al Hx H. change (linsearch_fun_ECM_exp fuel (Nat.div (2 * n) 2) (objective "loglikelihood_ecm_exp" (A2 n k s)) x dx (/ 2) 1 f = Some al) in H. replace (Nat.div (2 * n) 2) with n in H by (rewrite Nat.mul_comm, Nat.div_mul by discriminate; reflexivity).
      exact (proj2 (ECM_exp_admissible fuel n (objective "loglikelihood_ecm_exp" (A2 n k s)) x dx (/ 2) 1 f al ltac:(lra) ltac:(lra) Hx H)).
    - intros _ x dx old t al Hx H. change (linsearch_fun_ECM_exp_fixed fuel (Nat.div (2 * n) 2) x dx old 1 (/ 2) t = Some al) in H. replace (Nat.div (2 * n) 2) with n in H by (rewrite Nat.mul_comm, Nat.div_mul by discriminate; reflexivity).
      exact (proj2 (ECM_exp_fixed_admissible fuel n x dx old 1 (/ 2) t al ltac:(lra) ltac:(lra) Hx H)).
  Qed.
  Lemma decm_exp_stays reg meth n ko ki so si O x0 :
    In meth documented_methods -> o_method O = method_of_string meth -> o_linsearch O = true -> decm_exp_pairs n x0 ->
    accepted d_dispatch "decm_exp" meth reg (run_stays linsolve ok eigh fuel (4 * n) (A4 n ko ki so si) O (decm_exp_pairs n) x0).
  Proof.
    intros Hm HM HS  Hd. assert (Hm' := Hm). cbn in Hm'.
    destruct Hm' as [<-|[<-|[<-|[]]]]; eexists; (split; [reflexivity|]);
      refine (stays_any _ _ _ O _ _ x0 Hm HM HS _ _ Hd);
      try (intros Z; discriminate Z); try (intros Z; cbn in Z; destruct Z as [Z|[Z|[]]]; discriminate Z).
    - intros _ x dx f al Hx H. change (linsearch_fun_DECM_exp fuel (Nat.div (4 * n) 4) (objective "loglikelihood_decm_exp" (A4 n ko ki so si)) x dx (/ 2) 1 f = Some al) in H. replace (Nat.div (4 * n) 4) with n in H by (rewrite Nat.mul_comm, Nat.div_mul by discriminate; reflexivity).
      exact (proj2 (DECM_exp_admissible fuel n (objective "loglikelihood_decm_exp" (A4 n ko ki so si)) x dx (/ 2) 1 f al ltac:(lra) ltac:(lra) Hx H)).
    - intros _ x dx f al Hx H. change (linsearch_fun_DECM_exp fuel (Nat.div (4 * n) 4) (objective "loglikelihood_decm_exp" (A4 n ko ki so si)) x dx (/ 2) 1 f = Some al) in H. replace (Nat.div (4 * n) 4) with n in H by (rewrite Nat.mul_comm, Nat.div_mul by discriminate; reflexivity).
      exact (proj2 (DECM_exp_admissible fuel n (objective "loglikelihood_decm_exp" (A4 n ko ki so si)) x dx (/ 2) 1 f al ltac:(lra) ltac:(lra) Hx H)).
    - intros _ x dx old t al Hx H. change (linsearch_fun_DECM_exp_fixed fuel (Nat.div (4 * n) 4) x dx old 1 (/ 2) t = Some al) in H. replace (Nat.div (4 * n) 4) with n in H by (rewrite Nat.mul_comm, Nat.div_mul by discriminate; reflexivity).
      exact (proj2 (DECM_exp_fixed_admissible fuel n x dx old 1 (/ 2) t al ltac:(lra) ltac:(lra) Hx H)).
  Qed.
  Lemma ecm_stays reg meth n k s O x0 :
    In meth documented_methods -> o_method O = method_of_string meth -> o_linsearch O = true -> positive_upto (2 * n) x0 ->
    accepted u_dispatch "ecm" meth reg (run_stays linsolve ok eigh fuel (2 * n) (A2 n k s) O (positive_upto (2 * n)) x0).
  Proof.
    intros Hm HM HS  Hd. assert (Hm' := Hm). cbn in Hm'.
    destruct Hm' as [<-|[<-|[<-|[]]]]; eexists; (split; [reflexivity|]);
      refine (stays_any _ _ _ O _ _ x0 Hm HM HS _ _ Hd);
      try (intros Z; discriminate Z); try (intros Z; cbn in Z; destruct Z as [Z|[Z|[]]]; discriminate Z).
    - intros _ x dx f al Hx H. change (linsearch_fun_ECM fuel (Nat.div (2 * n) 2) (objective "loglikelihood_ecm" (A2 n k s)) x dx (/ 2) 1 f = Some al) in H. replace (Nat.div (2 * n) 2) with n in H by (rewrite Nat.mul_comm, Nat.div_mul by discriminate; reflexivity).
      exact (proj2 (ECM_positive fuel n (objective "loglikelihood_ecm" (A2 n k s)) x dx (/ 2) 1 f al ltac:(lra) ltac:(lra) Hx H)).
    - intros _ x dx f al Hx H. change (linsearch_fun_ECM fuel (Nat.div (2 * n) 2) (objective "loglikelihood_ecm" (A2 n k s)) x dx (/ 2) 1 f = Some al) in H. replace (Nat.div (2 * n) 2) with n in H by (rewrite Nat.mul_comm, Nat.div_mul by discriminate; reflexivity).
      exact (proj2 (ECM_positive fuel n (objective "loglikelihood_ecm" (A2 n k s)) x dx (/ 2) 1 f al ltac:(lra) ltac:(lra) Hx H)).
    - intros _ x dx old t al Hx H. change (linsearch_fun_ECM_fixed fuel (Nat.div (2 * n) 2) x dx old 1 (/ 2) t = Some al) in H. replace (Nat.div (2 * n) 2) with n in H by (rewrite Nat.mul_comm, Nat.div_mul by discriminate; reflexivity).
      exact (proj2 (ECM_fixed_positive fuel n x dx old 1 (/ 2) t al ltac:(lra) ltac:(lra) Hx H)).
  Qed.
  Lemma decm_stays reg meth n ko ki so si O x0 :
    In meth documented_methods -> o_method O = method_of_string meth -> o_linsearch O = true -> positive_upto (4 * n) x0 ->
    accepted d_dispatch "decm" meth reg (run_stays linsolve ok eigh fuel (4 * n) (A4 n ko ki so si) O (positive_upto (4 * n)) x0).
  Proof.
    intros Hm HM HS  Hd. assert (Hm' := Hm). cbn in Hm'.
    destruct Hm' as [<-|[<-|[<-|[]]]]; eexists; (split; [reflexivity|]);
      refine (stays_any _ _ _ O _ _ x0 Hm HM HS _ _ Hd);
      try (intros Z; discriminate Z); try (intros Z; cbn in Z; destruct Z as [Z|[Z|[]]]; discriminate Z).
    - intros _ x dx f al Hx H. change (linsearch_fun_DECM fuel (Nat.div (4 * n) 4) (objective "loglikelihood_decm" (A4 n ko ki so si)) x dx (/ 2) 1 f = Some al) in H. replace (Nat.div (4 * n) 4) with n in H by (rewrite Nat.mul_comm, Nat.div_mul by discriminate; reflexivity).
      exact (proj2 (DECM_positive fuel n (objective "loglikelihood_decm" (A4 n ko ki so si)) x dx (/ 2) 1 f al ltac:(lra) ltac:(lra) Hx H)).
    - intros _ x dx f al Hx H. change (linsearch_fun_DECM fuel (Nat.div (4 * n) 4) (objective "loglikelihood_decm" (A4 n ko ki so si)) x dx (/ 2) 1 f = Some al) in H. replace (Nat.div (4 * n) 4) with n in H by (rewrite Nat.mul_comm, Nat.div_mul by discriminate; reflexivity).
      exact (proj2 (DECM_positive fuel n (objective "loglikelihood_decm" (A4 n ko ki so si)) x dx (/ 2) 1 f al ltac:(lra) ltac:(lra) Hx H)).
    - intros _ x dx old t al Hx H. change (linsearch_fun_DECM_fixed fuel (Nat.div (4 * n) 4) x dx old 1 (/ 2) t = Some al) in H. replace (Nat.div (4 * n) 4) with n in H by (rewrite Nat.mul_comm, Nat.div_mul by discriminate; reflexivity).
      exact (proj2 (DECM_fixed_positive fuel n x dx old 1 (/ 2) t al ltac:(lra) ltac:(lra) Hx H)).
  Qed.
End Runs.
