(** Concrete runs of the solver in exact arithmetic. *)
From Coq Require Import List Arith Bool Reals Lra Lia.
From Verif Require Import Base SpecGraph WitnessCM ModelCM ModelCReMa SpecCReMa ProofsCReMa ModelSolver SpecSolver ProofsSolver.
Import ListNotations.
Local Open Scope R_scope.

Definition Rgtb (a b : R) : bool := if Rlt_dec b a then true else false.
Lemma Rgtb_true a b : a > b -> Rgtb a b = true.
Proof. intros H. unfold Rgtb. destruct (Rlt_dec b a); [reflexivity|lra]. Qed.
Lemma Rgtb_false a b : a <= b -> Rgtb a b = false.
Proof. intros H. unfold Rgtb. destruct (Rlt_dec b a); [lra|reflexivity]. Qed.

(** Exact numerics on [n]-vectors; linear systems are not needed by these runs. *)
Definition numR (n : nat) : numerics (nat -> R) unit R :=
  {| vnorm := fun f => sqrt (rsum n (fun i => f i * f i)); gtb := Rgtb; sone := 1; shalf := / 2;
     vzeros := fun _ _ => 0; vneg := fun v i => - v i; vsub := fun u v i => u i - v i;
     vaxpy := fun x a d i => x i + a * d i; vscale := fun a d i => a * d i; vdiv := fun u v => Some (fun i => u i / v i);
     vmaxabs := fun v => 0; smul := Rmult; vfloor := fun b m i => Rmax (b i) (b i * 0 + m);
     vinf_fix := fun _ d => d; vnan_fix := fun v => v; lsolve := fun _ _ => None; eigh_ok := fun _ => true |}.

Lemma numR_exact n : exact_numerics n (numR n) /\ exact_vectors (numR n).
Proof.
  split.
  - split; [reflexivity|]. intros a b. simpl. unfold Rgtb. destruct (Rlt_dec b a); split; intros; auto; try discriminate; lra.
  - unfold exact_vectors. simpl. repeat split; reflexivity.
Qed.

Definition optR (tol eps : R) (me : method) : options R :=
  {| o_tol := tol; o_eps := eps; o_max_steps := 100; o_method := me; o_verbose := false; o_regularise := false;
     o_regularise_eps := / 1000; o_full_return := true; o_linsearch := false |}.

(** Quasi-Newton on the cycle of four nodes, from [x = 1]: one step, to 7/5. *)
Definition prob_cm : problem (nat -> R) unit R :=
  {| p_fun := fun z => Some (fun q => - loglikelihood_prime_cm 1 (fun _ => 2) (fun _ => 4) z q);
     p_jac_m := fun _ => None;
     p_jac_v := fun z => Some (fun q => - loglikelihood_hessian_diag_cm 1 (fun _ => 2) (fun _ => 4) z q);
     p_reg := fun _ _ => None; p_lin_nq := fun _ _ _ _ _ => None; p_lin_fp := fun _ _ _ _ _ _ => None |}.

Lemma vnorm1 f : vnorm (numR 1) f = Rabs (f 0%nat).
Proof. rewrite <- sqrt_Rsqr_abs. unfold numR. cbn [vnorm]. f_equal. unfold rsum, loop, Rsqr. simpl. ring. Qed.
Lemma numR_gtb n a b : gtb (numR n) a b = Rgtb a b.
Proof. reflexivity. Qed.
Ltac values := unfold loglikelihood_hessian_diag_cm, loglikelihood_prime_cm, iterative_cm, loop; simpl.

Lemma run_one {V M S} (N : numerics V M S) P O x0 f0 dx x1 f1 :
  o_full_return O = true -> o_linsearch O = false -> o_verbose O = false -> o_max_steps O = 100%nat ->
  p_fun P x0 = Some f0 -> gtb N (vnorm N f0) (o_tol O) = true -> gtb N (sone N) (o_eps O) = true ->
  (forall s, s_x s = x0 -> s_f s = f0 -> solver_dx N P O s = Some dx) ->
  x1 = vaxpy N x0 (sone N) dx -> p_fun P x1 = Some f1 ->
  (gtb N (vnorm N f1) (o_tol O) && gtb N (vnorm N (vnan_fix N (vsub N x1 x0))) (o_eps O)) = false ->
  solver N P O x0 = Full x1 1 [vnorm N f0; vnorm N f1] [sone N; vnorm N (vnan_fix N (vsub N x1 x0))] [].
Proof.
  intros HF HL HV HM E0 G1 G2 HD -> E1 G3.
  unfold solver. rewrite HM. unfold solver_init. rewrite E0. simpl. unfold solver_continue at 1. simpl. rewrite G1, G2, HM. simpl.
  unfold solver_step. rewrite HD by reflexivity. simpl. unfold solver_alfa. rewrite HL. simpl. rewrite E1. simpl. rewrite HV, HF. simpl.
  unfold solver_continue at 1. simpl. rewrite HM. simpl. rewrite andb_true_r, G3. reflexivity.
Qed.

Lemma run_cm : exists x, converged (numR 1) prob_cm (optR (/ 10) 0 QuasiNewton) (fun _ => 1) x /\
  (forall q, (q < 1)%nat -> 0 < x q) /\ x 0%nat = 7 / 5 /\
  classes 4 1 (fun _ => 0%nat) (fun _ => 4) /\
  (forall z, p_fun prob_cm z = Some (fun q => - loglikelihood_prime_cm 1 (fun _ => 2) (fun _ => 4) z q)) /\
  exact_numerics 1 (numR 1).
Proof.
  set (x1 := vaxpy (numR 1) (fun _ => 1) 1 ((fun u v i => u i / v i) (vneg (numR 1)
     (fun q => - loglikelihood_prime_cm 1 (fun _ => 2) (fun _ => 4) (fun _ => 1) q))
     (fun q => - loglikelihood_hessian_diag_cm 1 (fun _ => 2) (fun _ => 4) (fun _ => 1) q))).
  assert (E0 : x1 0%nat = 7 / 5) by (unfold x1; simpl; values; field).
  assert (Ep : forall q, (q < 1)%nat -> 0 < x1 q) by (intros q Hq; replace q with 0%nat by lia; rewrite E0; lra).
  assert (EN : vnorm (numR 1) (fun q => - loglikelihood_prime_cm 1 (fun _ => 2) (fun _ => 4) x1 q) <= / 10).
  { rewrite vnorm1. values. rewrite E0. unfold Rabs. destruct (Rcase_abs _); lra. }
  exists x1. split; [|split; [exact Ep|split; [exact E0|split; [exact ring4_classes|split; [reflexivity|apply numR_exact]]]]].
  exists 1%nat. eexists _, _, _, _. split; [eapply run_one; try reflexivity|].
  - rewrite numR_gtb. apply Rgtb_true. rewrite vnorm1. values. unfold Rabs. destruct (Rcase_abs _); lra.
  - rewrite numR_gtb. apply Rgtb_true. simpl. lra.
  - intros s Es Ef. unfold solver_dx. simpl. rewrite Es, Ef. reflexivity.
  - apply andb_false_iff. left. exact (Rgtb_false _ _ EN).
  - split; [reflexivity|]. rewrite numR_gtb. apply Rgtb_false. exact EN.
Qed.

(** Fixed point on the same graph: one step, to 4/3, stopped by the step length. *)
Definition prob_cm_fp : problem (nat -> R) unit R :=
  {| p_fun := fun z => Some (fun q => iterative_cm 1 (fun _ => 2) (fun _ => 4) z q);
     p_jac_m := fun _ => None; p_jac_v := fun _ => None;
     p_reg := fun _ _ => None; p_lin_nq := fun _ _ _ _ _ => None; p_lin_fp := fun _ _ _ _ _ _ => None |}.
Lemma run_cm_fp : exists x, step_converged (numR 1) prob_cm_fp (optR (/ 10) (/ 2) FixedPoint) (fun _ => 1) x /\
  x 0%nat = 4 / 3 /\ exact_numerics 1 (numR 1) /\ exact_vectors (numR 1).
Proof.
  set (x1 := vaxpy (numR 1) (fun _ => 1) 1 (vinf_fix (numR 1) (fun _ => 1)
     (vsub (numR 1) (fun q => iterative_cm 1 (fun _ => 2) (fun _ => 4) (fun _ => 1) q) (fun _ => 1)))).
  assert (E0 : x1 0%nat = 4 / 3).
  { unfold x1. simpl. values. destruct (Req_EM_T _ 0) as [E|E]; [lra|]. field. }
  assert (ED : vnorm (numR 1) (vnan_fix (numR 1) (vsub (numR 1) x1 (fun _ => 1))) <= / 2).
  { rewrite vnorm1. simpl. rewrite E0. unfold Rabs. destruct (Rcase_abs _); lra. }
  exists x1. split; [|split; [exact E0|apply numR_exact]].
  exists 1%nat. eexists _, _, _, _. split; [eapply run_one; try reflexivity|].
  - rewrite numR_gtb. apply Rgtb_true. rewrite vnorm1. values. destruct (Req_EM_T _ 0) as [E|E]; [lra|].
    unfold Rabs. destruct (Rcase_abs _); lra.
  - rewrite numR_gtb. apply Rgtb_true. simpl. lra.
  - intros s Es Ef. unfold solver_dx. simpl. rewrite Es, Ef. reflexivity.
  - apply andb_false_iff. right. exact (Rgtb_false _ _ ED).
  - split; [lia|]. split; [reflexivity|]. rewrite numR_gtb. apply Rgtb_false. exact ED.
Qed.

(** The fixed-point runs also test the norm of the map against [tol]; when the
    solution is small in absolute value (large strengths) the CReMa run stops at its
    initial point, however wrong. *)
Definition prob_crema_fp (s : nat -> R) (es : list edge) : problem (nat -> R) unit R :=
  {| p_fun := fun z => option_map (fun F q => - F q) (iterative_crema_undirected 2 s es z);
     p_jac_m := fun _ => None; p_jac_v := fun _ => None;
     p_reg := fun _ _ => None; p_lin_nq := fun _ _ _ _ _ => None; p_lin_fp := fun _ _ _ _ _ _ => None |}.
Lemma crema_fixed_point_norm_refuted : forall tol B, 0 < tol -> exists s es x0 x E,
  crema_dom es x0 /\ (forall i, 0 < s i) /\
  converged (numR 2) (prob_crema_fp s es) (optR tol 0 FixedPoint) x0 x /\
  exact_numerics 2 (numR 2) /\ exact_vectors (numR 2) /\
  expected_strength_crema_undirected es x = Some E /\ B <= Rabs (s 0%nat - E 0%nat).
Proof.
  intros tol B Ht. set (S := / tol + Rabs B + 1). assert (HS : 0 < / tol) by (apply Rinv_0_lt_compat; exact Ht).
  pose proof (Rabs_pos B) as HB. pose proof (Rle_abs B) as HB'.
  exists (fun _ => S), [(0%nat, 1%nat, 1)], (fun _ => 1), (fun _ => 1).
  assert (EI : exists F, iterative_crema_undirected 2 (fun _ => S) [(0%nat, 1%nat, 1)] (fun _ => 1) = Some F /\
     F 0%nat = - / (2 * S) /\ F 1%nat = - / (2 * S)).
  { unfold iterative_crema_undirected, eloop. simpl. repeat (rewrite sdiv_some by lra; simpl). unfold oloop. simpl.
    destruct (Req_EM_T S 0) as [E|E]; [unfold S in E; lra|]. simpl.
    set (d := 1 / (1 + 1 / 1)). assert (Hd : d = / 2) by (unfold d; field). clearbody d.
    rewrite !loop_S, loop_0. cbn [obind]. rewrite sdiv_some by exact E. cbn [obind]. rewrite sdiv_some by exact E.
    eexists. split; [reflexivity|]. unfold upd. simpl. rewrite Hd. clearbody S. split; field; exact E. }
  destruct EI as (F & EF & F0 & F1).
  assert (EE : exists E, expected_strength_crema_undirected [(0%nat, 1%nat, 1)] (fun _ => 1) = Some E /\ E 0%nat = / 2).
  { unfold expected_strength_crema_undirected, eloop. simpl. rewrite sdiv_some by lra. simpl. eexists. split; [reflexivity|].
    unfold upd. simpl. field. }
  destruct EE as (E & EE & E0). exists E.
  assert (PS : / tol <= S) by (unfold S; lra). assert (PS' : 0 < S) by lra.
  assert (EN : vnorm (numR 2) (fun q => - F q) <= tol).
  { unfold numR. cbn [vnorm]. rewrite <- (sqrt_Rsqr tol) by lra. apply sqrt_le_1_alt.
    unfold rsum, loop, Rsqr. simpl. rewrite F0, F1.
    assert (HI : / S <= tol). { rewrite <- (Rinv_inv tol). apply Rinv_le_contravar; assumption. }
    assert (0 < / S) by (apply Rinv_0_lt_compat; exact PS').
    replace (0 + - - / (2 * S) * - - / (2 * S) + - - / (2 * S) * - - / (2 * S)) with (/ S * / S / 2) by (field; lra).
    assert (/ S * / S <= tol * tol) by (apply Rmult_le_compat; lra).
    assert (0 < / S * / S) by (apply Rmult_lt_0_compat; assumption). lra. }
  split; [intros i j w [Hi|[]]; injection Hi as <- <- <-; lra|]. split; [intros; exact PS'|].
  split; [|split; [apply numR_exact|split; [apply numR_exact|split; [exact EE|]]]].
  - exists 0%nat. eexists _, _, _, _. split.
    + rewrite (solver_already_converged _ _ _ _ _ _ _ (fun q => - F q)); [reflexivity|simpl; rewrite EF; reflexivity|].
      rewrite numR_gtb. apply Rgtb_false. exact EN.
    + split; [reflexivity|]. rewrite numR_gtb. apply Rgtb_false. exact EN.
  - rewrite E0. rewrite Rabs_right; unfold S in *; lra.
Qed.

(** A verbose newton run without regularisation. *)
Lemma verbose_raises_case : exists (N : numerics (nat -> R) unit R) P O x0 x m norms diffs alfas,
  solver N P (with_verbose true O) x0 = Raised /\ solver N P (with_verbose false O) x0 = Full x m norms diffs alfas.
Proof.
  set (N := {| vnorm := fun f => Rabs (f 0%nat); gtb := Rgtb; sone := 1; shalf := / 2;
     vzeros := fun _ _ => 0; vneg := fun v i => - v i; vsub := fun u v i => u i - v i;
     vaxpy := fun x a d i => x i + a * d i; vscale := fun a d i => a * d i; vdiv := fun u v => Some (fun i => u i / v i);
     vmaxabs := fun v => 0; smul := Rmult; vfloor := fun b m i => Rmax (b i) (b i * 0 + m);
     vinf_fix := fun _ d => d; vnan_fix := fun v => v; lsolve := fun _ v => Some v; eigh_ok := fun _ => true |} : numerics (nat -> R) unit R).
  set (P := {| p_fun := fun z => Some z; p_jac_m := fun _ => Some tt; p_jac_v := fun _ => None;
     p_reg := fun _ _ => None; p_lin_nq := fun _ _ _ _ _ => None; p_lin_fp := fun _ _ _ _ _ _ => None |} : problem (nat -> R) unit R).
  set (x0 := (fun _ => 1) : nat -> R).
  exists N, P, (optR (/ 2) (/ 2) Newton), x0. eexists _, _, _, _, _.
  assert (G : gtb N (vnorm N x0) (/ 2) = true) by (apply Rgtb_true; unfold vnorm, N, x0; rewrite Rabs_right; lra).
  assert (G2 : gtb N (sone N) (/ 2) = true) by (apply Rgtb_true; unfold sone, N; lra).
  split.
  - apply (solver_verbose_raises _ _ _ N P (with_verbose true (optR (/ 2) (/ 2) Newton)) x0 x0); try reflexivity; [exact G|exact G2|].
    unfold optR, with_verbose, o_max_steps. lia.
  - apply (run_one N P (with_verbose false (optR (/ 2) (/ 2) Newton)) x0 x0 (vneg N x0) (vaxpy N x0 (sone N) (vneg N x0)) (vaxpy N x0 (sone N) (vneg N x0)));
      try reflexivity; [exact G|exact G2| |].
    + intros s Es Ef. unfold solver_dx. cbn. rewrite Ef. reflexivity.
    + apply andb_false_iff. left. apply Rgtb_false. unfold vnorm, vaxpy, sone, vneg, N, x0, optR, with_verbose, o_tol.
      replace (1 + 1 * - (1)) with 0 by ring. rewrite Rabs_R0. lra.
Qed.
