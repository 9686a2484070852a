(** Fixed-point runs of crema-sparse: the run of the dense model for strengths larger by
    [exp (-100)]. *)
From Coq Require Import Reals List Arith Bool String Lia Lra Psatz.
From Verif Require Import Base SpecGraph SpecCReMa SpecDispatch SpecExist SpecConverge SpecAscend ModelCM ModelDCM ModelCReMa ModelLinsearch ModelSolver ModelDispatch ModelRun
  ProofsGraph ProofsCReMa ProofsMainCReMa ProofsSparseCReMa ProofsTool WitnessTool ProofsAscendRun.
Import ListNotations.
Local Open Scope R_scope.

Section Sparse.
  Variables (n : nat) (s x : nat -> R).
  Hypotheses (Hn : (2 <= n)%nat) (Hx : forall i, (i < n)%nat -> 0 < x i) (Hs : forall i, (i < n)%nat -> 0 <= s i).
  Local Notation es := (triu_edges n (pmatrix_cm x)).
  Lemma sparse_weight i j : (i < j < n)%nat -> 0 < pmatrix_cm x i j.
  Proof.
    intros L. unfold pmatrix_cm. rewrite (proj2 (Nat.ltb_lt i j)) by lia. cbv zeta. assert (0 < x i * x j) by (apply Rmult_lt_0_compat; apply Hx; lia). apply Rdiv_lt_0_compat; lra.
  Qed.
  Lemma sparse_listed i j : (i < j < n)%nat -> In (i, j, pmatrix_cm x i j) es.
  Proof. intros L. apply in_triu. split; [lia|]. split; [reflexivity|]. assert (P := sparse_weight i j L). lra. Qed.
  Lemma sparse_below : pairs_below n es.
  Proof. intros i j w Hin. apply in_triu in Hin. lia. Qed.
  Lemma sparse_positive : positive_weights es.
  Proof.
    intros i j w Hin. apply in_triu in Hin. destruct Hin as (L & -> & Z). destruct (Nat.eq_dec i j) as [->|N]; [exfalso; apply Z; unfold pmatrix_cm; rewrite Nat.ltb_irrefl; reflexivity|].
    apply sparse_weight. lia.
  Qed.
  Lemma sparse_nonzero b i : ends_nonzero es b -> (i < n)%nat -> b i <> 0.
  Proof.
    intros H Hi. destruct i as [|i]; [exact (proj1 (H _ _ _ (sparse_listed 0 1 ltac:(lia))))|exact (proj2 (H _ _ _ (sparse_listed 0 (S i) ltac:(lia))))].
  Qed.
  Lemma sparse_sum b i j : crema_dom es b -> ends_nonzero es b -> (i < n)%nat -> (j < n)%nat -> b i + b j <> 0.
  Proof.
    intros H N Hi Hj. destruct (lt_eq_lt_dec i j) as [[L|<-]|L].
    - assert (P := H _ _ _ (sparse_listed i j ltac:(lia))). lra.
    - assert (P := sparse_nonzero b i N Hi). lra.
    - assert (P := H _ _ _ (sparse_listed j i ltac:(lia))). lra.
  Qed.
  Lemma sparse_fp_fun eigh fuel reg D : u_dispatch "crema-sparse" "fixed-point" reg = inl D ->
    (forall b, crema_dom es b -> ends_nonzero es b -> exists F G, iterative_crema_undirected n (raised_strengths s) es b = Some F /\
      p_fun (run_problem eigh fuel n D (A3 n s (Factors1 x))) b = Some G /\ forall i, (i < n)%nat -> G i = - F i) /\
    (forall y dx old u v t, exists l, p_lin_fp (run_problem eigh fuel n D (A3 n s (Factors1 x))) y dx old u v t = Some (norm_loop l dx old u v t)).
  Proof.
    intros E. injection E as <-. split.
    - intros b Hd Hz. destruct (iterative_crema_some n (raised_strengths s) es b Hd Hz) as (F & EF & HF). exists F.
      assert (V : forall i, (i < n)%nat -> fopp (iterative_crema_undirected_sparse n s x b i) = Fin (- F i)).
      { intros i Hi. rewrite (iterative_crema_sparse_fin n x b (fun j Hj => Rlt_le _ _ (Hx j Hj)) s i Hi (Hs i Hi) (sparse_nonzero b i Hz Hi) (fun j Hj => sparse_sum b i j Hd Hz Hi Hj)).
        cbn [fopp]. f_equal. f_equal. rewrite HF by exact Hi. assert (Q := exp_pos (- (100))). assert (Si := Hs i Hi). unfold raised_strengths. destruct (Req_EM_T (s i + exp (- (100))) 0); [lra|].
        f_equal. f_equal. f_equal. unfold cE. rewrite (esum_pmatrix_hit n x (fun i j w => w / (b i + b j)) i Hi); [reflexivity|intros; unfold Rdiv; ring|].
        intros p q w. rewrite (Rplus_comm (b p)). reflexivity. }
      cbn [p_fun run_problem d_fun]. unfold run_entry. cbn.
      destruct (all_fin_some' n (fun i => fopp (iterative_crema_undirected_sparse n s x b i))) as (G & EG); [intros i Hi; exists (- F i); apply V; exact Hi|].
      exists G. split; [exact EF|]. split; [exact EG|]. intros i Hi. pose proof (all_fin_inv _ _ _ EG i Hi) as Q. cbv beta in Q. rewrite (V i Hi) in Q. injection Q as <-. reflexivity.
    - intros. exists n. reflexivity.
  Qed.
  Lemma sparse_approaches linsolve ok eigh fuel reg search x0 z : (forall i, (i < n)%nat -> 0 < x0 i) -> positive_solution n (raised_strengths s) es z ->
    accepted u_dispatch "crema-sparse" "fixed-point" reg (fun D => run_approaches linsolve ok eigh fuel n (A3 n s (Factors1 x)) search x0 (raised_strengths s) es z D /\
      steps_ascend linsolve ok eigh fuel n (A3 n s (Factors1 x)) search x0 (raised_strengths s) es z D /\
      run_settles linsolve ok eigh fuel n (A3 n s (Factors1 x)) search x0 (raised_strengths s) es D).
  Proof.
    intros H0 HZ. eexists. split; [reflexivity|]. destruct (sparse_fp_fun eigh fuel reg _ eq_refl) as [Pf Pl].
    apply approaches; [exact Pf|exact Pl|exact sparse_below|exact sparse_positive| |exact HZ].
    intros i j w Hin. destruct (sparse_below i j w Hin). split; apply H0; assumption.
  Qed.
End Sparse.

(** Three nodes, each pair linked with probability one half. *)
Lemma sparse_case : let x := fun _ : nat => 1 in let s := fun _ : nat => 1 - exp (- (100)) in
  (2 <= 3)%nat /\ (forall i, (i < 3)%nat -> 0 < x i) /\ (forall i, (i < 3)%nat -> 0 <= s i) /\
  positive_solution 3 (raised_strengths s) (triu_edges 3 (pmatrix_cm x)) (fun _ => 1 / 2).
Proof.
  cbv zeta. assert (Q : exp (- (100)) <= 1) by (rewrite <- exp_0; left; apply exp_increasing; lra).
  split; [lia|]. split; [intros; lra|]. split; [intros; lra|]. split; [intros i j w _; lra|].
  intros k Hk. unfold raised_strengths. replace (1 - exp (- (100)) + exp (- (100))) with 1 by ring. rewrite strengths_cE. unfold cE.
  rewrite (esum_pmatrix_hit 3 (fun _ => 1) (fun i j w => w / (1 / 2 + 1 / 2)) k Hk); [|intros; unfold Rdiv; ring|reflexivity].
  unfold pf. destruct k as [|[|[|k]]]; [cbn; lra ..|lia].
Qed.
