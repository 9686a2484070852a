(** A completed quasi-Newton run of crema-sparse: two nodes, one step. *)
From Coq Require Import Reals List Arith Bool String Lia Lra.
From Verif Require Import Base SpecDeriv SpecGraph SpecEnsemble SpecWeighted SpecDirected SpecCReMa SpecLinsearch SpecDispatch SpecRun
  ModelCM ModelECM ModelDCM ModelDECM ModelCReMa ModelIEEE ModelLinsearch ModelSolver ModelDispatch ModelRun.
From Verif Require Import ProofsGraph ProofsCReMa ProofsMainCReMa ProofsSparseCReMa ProofsLinsearch ProofsSolver ProofsRun ProofsIterates ProofsAscent ProofsIEEE ProofsEntries ProofsGuarded ProofsTool
  WitnessTool WitnessRun.
Import ListNotations.
Local Open Scope R_scope.

Lemma ln2_above : 7 / 12 <= ln 2.
Proof.
  assert (G : forall u, 0 < u -> 1 - / u <= ln u).
  { intros u Hu. assert (P := Rinv_0_lt_compat _ Hu). assert (H : ln (/ u) <= / u - 1).
    { rewrite <- (ln_exp (/ u - 1)). assert (Q := exp_ineq1_le (/ u - 1)). destruct (Rle_lt_or_eq_dec (/ u) (exp (/ u - 1)) ltac:(lra)) as [L|E]; [left; apply ln_increasing; assumption|rewrite <- E; lra]. }
    rewrite ln_Rinv in H by exact Hu. lra. }
  replace 2 with (3 / 2 * (4 / 3)) by lra. rewrite ln_mult by lra. assert (A := G (3 / 2) ltac:(lra)). assert (B := G (4 / 3) ltac:(lra)). lra.
Qed.
Definition duo_x (i : nat) : R := 1.
Definition duo_s (i : nat) : R := / 4.
Definition duo_start (i : nat) : R := / 2.
Definition duo_args : arguments := A3 2 duo_s (Factors1 duo_x).
Local Notation es := (triu_edges 2 (pmatrix_cm duo_x)).

Lemma duo_edges b : (forall i j w, In (i, j, w) es -> i = 0%nat /\ j = 1%nat /\ w = / 2) /\ (0 < b 0%nat + b 1%nat -> crema_dom es b).
Proof.
  assert (G : forall i j w, In (i, j, w) es -> i = 0%nat /\ j = 1%nat /\ w = / 2).
  { intros i j w H. apply in_triu in H. destruct H as (L & -> & Z). unfold pmatrix_cm in *. destruct (Nat.ltb_spec i j) as [Q|Q].
    - split; [lia|]. split; [lia|]. cbv zeta. unfold duo_x. lra.
    - exfalso. apply Z. rewrite (proj2 (Nat.ltb_ge j i)) by lia. reflexivity. }
  split; [exact G|]. intros H i j w Hin. destruct (G _ _ _ Hin) as (-> & -> & _). exact H.
Qed.
Lemma duo_gradient z c : 0 < c -> (forall i, (i < 2)%nat -> z i = c) ->
  exists g, real_vec 2 (run_entry (Neg "loglikelihood_prime_crema_undirected_sparse") duo_args z) = Some g /\ forall i, (i < 2)%nat -> g i = / 4 - / (4 * c).
Proof.
  intros Hc Hz. assert (V : forall i, (i < 2)%nat -> fopp (loglikelihood_prime_crema_undirected_sparse 2 duo_s duo_x z i) = Fin (/ 4 - / (4 * c))).
  { intros i Hi. rewrite prime_crema_sparse_fin; [|intros; unfold duo_x; lra|exact Hi|intros j Hj; rewrite (Hz i Hi), (Hz j Hj); lra].
    cbn [fopp]. f_equal. unfold pf, duo_x, duo_s. cbn [rsum]. rewrite (Hz 0%nat), (Hz 1%nat) by lia.
    destruct i as [|[|i]]; [| |lia]; cbn [Nat.eqb]; rewrite ?(Hz 0%nat), ?(Hz 1%nat) by lia; field; lra. }
  destruct (all_fin_some' 2 (fun i => fopp (loglikelihood_prime_crema_undirected_sparse 2 duo_s duo_x z i))) as (G & EG); [intros i Hi; eexists; apply V; exact Hi|].
  exists G. split; [exact EG|]. intros i Hi. pose proof (all_fin_inv _ _ _ EG i Hi) as Q. cbv beta in Q. rewrite (V i Hi) in Q. injection Q as <-. reflexivity.
Qed.
Lemma duo_curvature : exists h, real_vec 2 (run_entry (Neg "loglikelihood_hessian_diag_crema_undirected_sparse") duo_args duo_start) = Some h /\ forall i, (i < 2)%nat -> h i = / 2.
Proof.
  assert (V : forall i, (i < 2)%nat -> fopp (loglikelihood_hessian_diag_crema_undirected_sparse 2 duo_x duo_start i) = Fin (/ 2)).
  { intros i Hi. unfold loglikelihood_hessian_diag_crema_undirected_sparse. cbv zeta. unfold duo_x, duo_start.
    rewrite (fdiv_fin (1 * 1) (1 + 1 * 1)) by lra. cbn [fquo]. rewrite (fdiv_fin _ ((/ 2 + / 2) ^ 2)) by lra.
    rewrite (fsum_fin 2 _ (fun _ => 1 * 1 / (1 + 1 * 1) / (/ 2 + / 2) ^ 2)) by reflexivity. cbn [fsub fadd fopp rsum]. f_equal. field. }
  destruct (all_fin_some' 2 (fun i => fopp (loglikelihood_hessian_diag_crema_undirected_sparse 2 duo_x duo_start i))) as (G & EG); [intros i Hi; eexists; apply V; exact Hi|].
  exists G. split; [exact EG|]. intros i Hi. pose proof (all_fin_inv _ _ _ EG i Hi) as Q. cbv beta in Q. rewrite (V i Hi) in Q. injection Q as <-. reflexivity.
Qed.
Lemma duo_value z : 0 < z 0%nat + z 1%nat -> objective "loglikelihood_crema_undirected_sparse" duo_args z = Fin (- (/ 4) * (z 0%nat + z 1%nat) + / 2 * ln (z 0%nat + z 1%nat)).
Proof.
  intros H. change (match obind (floglikelihood_crema_undirected_sparse 2 duo_s duo_x z) fnum with Some (VNum v) => v | _ => NaN end = Fin (- (/ 4) * (z 0%nat + z 1%nat) + / 2 * ln (z 0%nat + z 1%nat))).
  unfold floglikelihood_crema_undirected_sparse, oloop, loop, duo_x, duo_s. cbn [seq fold_left obind fsub fadd fopp]. unfold sdiv. destruct (Req_EM_T (1 + 1 * 1) 0) as [Z|_]; [lra|]. cbn [obind].
  destruct (Rlt_dec 0 (1 * 1 / (1 + 1 * 1))) as [L|L]; [|exfalso; apply L; lra]. rewrite fmul_fin_log by lra. cbn [fadd fopp fsub obind fnum].
  f_equal. rewrite (Rplus_comm (z 1%nat)). field.
Qed.
Lemma duo_run linsolve ok eigh fuel : documented (run_opt QuasiNewton) "quasinewton" /\ (forall i, (i < 2)%nat -> 0 <= duo_x i) /\ crema_dom es duo_start /\
  accepted u_dispatch "crema-sparse" "quasinewton" None (fun D => exists x ns ds,
    solver (run_numerics linsolve ok 2) (run_problem eigh fuel 2 D duo_args) (run_opt QuasiNewton) duo_start = Full x 1 ns ds [1] /\ forall i, (i < 2)%nat -> x i = 1).
Proof.
  split; [unfold documented, run_opt; cbn; repeat split; lra|]. split; [intros; unfold duo_x; lra|]. split; [apply duo_edges; unfold duo_start; lra|].
  eexists. split; [reflexivity|]. destruct (duo_gradient duo_start (/ 2) ltac:(lra) (fun _ _ => eq_refl)) as (f0 & E0 & V0). destruct duo_curvature as (h & Eh & Vh).
  assert (F0 : forall i, (i < 2)%nat -> f0 i = - / 4) by (intros i Hi; rewrite V0 by exact Hi; lra). clear V0.
  set (N := run_numerics linsolve ok 2). set (e := vmaxabs N f0 * / 1000).
  assert (Ee : e = / 4000).
  { unfold e, N. cbn [vmaxabs run_numerics seq map fold_right]. rewrite (F0 0%nat), (F0 1%nat) by lia. replace (Rabs (- / 4)) with (/ 4) by (rewrite Rabs_Ropp, Rabs_pos_eq; lra).
    rewrite (Rmax_left (/ 4) 0), Rmax_left by lra. lra. }
  set (dx := fun i => - f0 i / Rmax (h i) (h i * 0 + e)).
  assert (Dx : forall i, (i < 2)%nat -> dx i = / 2).
  { intros i Hi. unfold dx. rewrite (F0 i Hi), (Vh i Hi), Ee, Rmax_left by lra. lra. }
  assert (X1 : forall i, (i < 2)%nat -> vaxpy N duo_start 1 dx i = 1) by (intros i Hi; cbn; unfold axpy, duo_start; rewrite (Dx i Hi); lra).
  destruct (duo_gradient (vaxpy N duo_start 1 dx) 1 ltac:(lra) X1) as (f1 & E1 & V1).
  exists (vaxpy N duo_start 1 dx). eexists _, _. split; [|exact X1].
  eapply (run_one_search N _ (run_opt QuasiNewton) duo_start f0 dx 1 _ f1); try reflexivity; auto.
  - unfold N. cbn [gtb vnorm run_numerics o_tol run_opt]. destruct (Rlt_dec _ _) as [L|L]; [reflexivity|]. exfalso. apply L. unfold norm2, dot. cbn [rsum]. rewrite (F0 0%nat), (F0 1%nat) by lia.
    replace (/ 10) with (sqrt (/ 10 * / 10)) by (apply sqrt_square; lra). apply sqrt_lt_1; lra.
  - cbn. destruct (Rlt_dec _ _) as [L|L]; [reflexivity|lra].
  - intros s Hx Hf. unfold solver_dx. cbn [o_method run_opt]. rewrite Hx, Hf.
    match goal with |- sbind ?jj _ = _ => replace jj with (Some h) by exact (eq_sym Eh) end. cbn [sbind o_regularise run_opt].
    match goal with |- context [sbind ?jj _] => replace jj with (Some f0) by exact (eq_sym E0) end. cbn [sbind]. 
    change (smul N (vmaxabs N f0) (o_regularise_eps (run_opt QuasiNewton))) with e. unfold N. cbn [vdiv vfloor ModelSolver.vneg run_numerics].
    rewrite (proj2 (every_true 2 _)); [reflexivity|]. intros i Hi. apply nonzero_pos. rewrite (Vh i Hi). apply Rlt_le_trans with (2 := Rmax_l _ _). lra.
  - change (Some (linsearch_fun_crema_undirected 2 (objective "loglikelihood_crema_undirected_sparse" duo_args) duo_start dx (/ 2) 1 f0) = Some 1). f_equal.
    unfold linsearch_fun_crema_undirected, linsearch_fun_CM_exp, decrease_loop. change 50%nat with (S 49). cbn [halve].
    rewrite (duo_value duo_start) by (unfold duo_start; lra).
    assert (Y : forall i, (i < 2)%nat -> axpy duo_start 1 dx i = 1) by exact X1.
    rewrite (duo_value (axpy duo_start 1 dx)) by (rewrite !Y by lia; lra).
    match goal with |- context [sufficient_decrease_condition ?a ?b ?c ?d ?e ?f] => assert (A : sufficient_decrease_condition a b c d e f = true) end.
    { unfold sufficient_decrease_condition, fopp, fadd, flt, dot. cbn [rsum]. rewrite !Y, !Dx, !F0 by lia. unfold duo_start.
      destruct (Rlt_dec _ _) as [L|L]; [reflexivity|]. exfalso. apply L. clear L. replace (/ 2 + / 2) with 1 by lra. rewrite ln_1. replace (1 + 1) with 2 by lra. assert (Q := ln2_above). lra. }
    rewrite A. reflexivity.
  - unfold N. cbn [gtb vnorm run_numerics o_tol run_opt]. destruct (Rlt_dec _ _) as [L|L]; [|reflexivity]. exfalso. revert L. apply Rle_not_lt. unfold norm2, dot. cbn [rsum]. rewrite (V1 0%nat), (V1 1%nat) by lia.
    replace (0 + _ + _) with 0 by field. rewrite sqrt_0. lra.
Qed.

Lemma duo_dir_case : (forall i, (i < 2)%nat -> 0 <= duo_x i) /\ nonzero_list 2 duo_s [0%nat; 1%nat] /\ (forall i, (i < 2)%nat -> (duo_x i <> 0 <-> duo_s i <> 0)) /\
  crema_dir_dom 2 (all_edges 2 (dcm_prob duo_x duo_x)) duo_start /\ In ((0, 1)%nat, / 2) (all_edges 2 (dcm_prob duo_x duo_x)).
Proof.
  split; [intros; unfold duo_x; lra|]. split; [split; [repeat constructor; cbn; intuition lia|]|].
  - intros i. unfold duo_s. split; [intros [<-|[<-|[]]]; (split; [lia|lra])|intros [H _]; destruct i as [|[|i]]; cbn; auto; lia].
  - split; [intros; unfold duo_x, duo_s; split; intros; lra|]. split; [intros i j w _; unfold duo_start; lra|].
    apply in_all. split; [lia|]. split; [lia|]. unfold dcm_prob, duo_x. cbn [Nat.eqb]. split; lra.
Qed.
