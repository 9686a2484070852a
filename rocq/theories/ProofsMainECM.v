(** UECM: likelihood as a probability, solutions, fixed points, maximum. *)
From Coq Require Import Reals List Arith Lia Lra Bool.
From Coquelicot Require Import Coquelicot.
From Verif Require Import Base SpecDeriv SpecGraph SpecWeighted ModelECM.
From Verif Require Import ProofsDeriv ProofsGraph ProofsPairW ProofsECM WitnessCM.
Local Open Scope R_scope.

(** Sum of pair terms for prescribed pair values with the right row sums. *)
Lemma loglik_ecm_pairs n k s sol (P M : nat -> nat -> R) :
  ecm_dom n sol ->
  (forall i j, (i < n)%nat -> (j < n)%nat -> P i j = P j i) ->
  (forall i j, (i < n)%nat -> (j < n)%nat -> M i j = M j i) ->
  (forall i, (i < n)%nat -> rsum n (fun j => if Nat.eqb i j then 0 else P i j) = k i) ->
  (forall i, (i < n)%nat -> rsum n (fun j => if Nat.eqb i j then 0 else M i j) = s i) ->
  loglikelihood_ecm n k s sol =
  usum n (fun i j => pairterm (P i j) (M i j) (sol i * sol j) (sol (i + n)%nat * sol (j + n)%nat)).
Proof.
  intros HD HP HM Hk Hs. rewrite loglik_ecm_nf.
  rewrite (rsum_ext n _ (fun i => rsum n (fun j => if Nat.eqb i j then 0 else P i j) * ln (sol i)
     + rsum n (fun j => if Nat.eqb i j then 0 else M i j) * ln (sol (i + n)%nat))).
  2: { intros i Hi. rewrite Hk, Hs by exact Hi. reflexivity. }
  rewrite rsum_plus, <- (usum_sym_group n P (fun i => ln (sol i)) HP),
    <- (usum_sym_group n M (fun i => ln (sol (i + n)%nat)) HM).
  rewrite <- !usum_plus. apply usum_ext. intros i j Hij Hj. pairfacts HD i j.
  unfold pairterm. rewrite !ln_mult by assumption.
  rewrite (Rmult_comm (sol (j + n)%nat)), (Rmult_comm (sol j)). reflexivity.
Qed.

Lemma loglik_ecm_logprob n k s sol w :
  weighted_graph n w ->
  (forall i, (i < n)%nat -> k i = wdeg n w i) ->
  (forall i, (i < n)%nat -> s i = wstr n w i) ->
  ecm_dom n sol ->
  loglikelihood_ecm n k s sol =
  ln (prob_wundirected n (fun i j => q_enh (sol i * sol j) (sol (i + n)%nat * sol (j + n)%nat)) w).
Proof.
  intros [Hsym Hdiag] Hk Hs HD.
  rewrite (loglik_ecm_pairs n k s sol (fun i j => ind (linked (w i j))) (fun i j => INR (w i j)));
    [|exact HD| | | |].
  - unfold prob_wundirected, usum.
    assert (Hq : forall i j, (i < n)%nat -> (j < i)%nat ->
       0 < q_enh (sol j * sol i) (sol (j + n)%nat * sol (i + n)%nat) (w j i)).
    { intros i j Hi Hj. pairfacts HD j i. apply q_enh_pos; assumption. }
    rewrite ln_rprod.
    + apply rsum_ext. intros i Hi. rewrite ln_rprod by (intros; apply Hq; assumption).
      apply rsum_ext. intros j Hj. pairfacts HD j i. rewrite ln_q_enh by assumption. reflexivity.
    + intros i Hi. apply rprod_pos. intros; apply Hq; assumption.
  - intros i j Hi Hj. rewrite Hsym by assumption. reflexivity.
  - intros i j Hi Hj. rewrite Hsym by assumption. reflexivity.
  - intros i Hi. rewrite Hk by exact Hi. apply rsum_ext. intros j Hj.
    destruct (Nat.eqb_spec i j) as [<-|]; [|reflexivity]. rewrite Hdiag by exact Hi. reflexivity.
  - intros i Hi. rewrite Hs by exact Hi. apply rsum_ext. intros j Hj.
    destruct (Nat.eqb_spec i j) as [<-|]; [|reflexivity]. rewrite Hdiag by exact Hi. reflexivity.
Qed.

(** * Exponential parametrisation *)

Lemma loglik_ecm_exp_eq n k s sol :
  ecm_exp_dom n sol ->
  loglikelihood_ecm_exp n k s sol = loglikelihood_ecm n k s (fun r => exp (- sol r)).
Proof.
  intros HD. rewrite loglik_ecm_exp_nf, loglik_ecm_nf. unfold Rminus at 1.
  rewrite <- rsum_opp, <- usum_opp. f_equal.
  - apply rsum_ext. intros i Hi. rewrite !ln_exp. ring.
  - apply usum_ext. intros i j Hij Hj. epairfacts HD i j.
    rewrite <- ln_Rinv.
    + f_equal. field. lra.
    + apply Rplus_lt_0_compat; [lra|]. apply Rmult_lt_0_compat; [lra|]. apply Rdiv_lt_0_compat; lra.
Qed.

Lemma prime_ecm_exp_eq n k s sol r :
  (r < 2 * n)%nat -> ecm_exp_dom n sol ->
  loglikelihood_prime_ecm_exp n k s sol r =
  - exp (- sol r) * loglikelihood_prime_ecm n k s (fun r => exp (- sol r)) r.
Proof.
  intros Hr HD. revert r Hr. apply coord2; intros i Hi.
  - rewrite prime_ecm_exp_x, prime_ecm_x by exact Hi.
    rewrite Rmult_minus_distr_l, rsum_skip_scal. unfold Rminus. f_equal.
    + pose proof (exp_pos (- sol i)). field. lra.
    + rewrite rsum_skip_opp. apply rsum_skip_ext. intros j Hj Hji. epairfacts HD i j. field. lra.
  - rewrite prime_ecm_exp_y, prime_ecm_y.
    rewrite Rmult_minus_distr_l, rsum_skip_scal. unfold Rminus. f_equal.
    + pose proof (exp_pos (- sol (i + n)%nat)). field. lra.
    + rewrite rsum_skip_opp. apply rsum_skip_ext. intros j Hj Hji. epairfacts HD i j. field. lra.
Qed.

Lemma loglik_ecm_exp_logprob n k s sol w :
  weighted_graph n w ->
  (forall i, (i < n)%nat -> k i = wdeg n w i) ->
  (forall i, (i < n)%nat -> s i = wstr n w i) ->
  ecm_exp_dom n sol ->
  loglikelihood_ecm_exp n k s sol =
  ln (prob_wundirected n (fun i j => q_enh (exp (- sol i) * exp (- sol j))
        (exp (- sol (i + n)%nat) * exp (- sol (j + n)%nat))) w).
Proof.
  intros Hw Hk Hs HD. rewrite loglik_ecm_exp_eq by exact HD.
  apply (loglik_ecm_logprob n k s (fun r => exp (- sol r))); auto. apply exp_dom, HD.
Qed.

(** * Stationary points *)

Lemma prime_ecm_expected n k s sol r :
  (r < 2 * n)%nat -> ecm_dom n sol ->
  loglikelihood_prime_ecm n k s sol r =
  ((if Nat.ltb r n then k r else s (r - n)%nat) - expected_ecm n sol r) / sol r.
Proof.
  intros Hr HD. revert r Hr. apply coord2; intros i Hi.
  - rewrite prime_ecm_x, expected_ecm_x by exact Hi. rewrite (proj2 (Nat.ltb_lt i n) Hi).
    destruct (proj1 HD i Hi). unfold Rdiv at 3. rewrite Rmult_minus_distr_r. f_equal.
    rewrite Rmult_comm, rsum_skip_scal. apply rsum_skip_ext. intros j Hj Hji. pairfacts HD i j. field. lra.
  - rewrite prime_ecm_y, expected_ecm_y. rewrite ltb_plus_n, plus_n_minus.
    destruct (proj1 HD i Hi). unfold Rdiv at 3. rewrite Rmult_minus_distr_r. f_equal.
    rewrite Rmult_comm, rsum_skip_scal. apply rsum_skip_ext. intros j Hj Hji. pairfacts HD i j. field. lra.
Qed.

Lemma ecm_dom_pos n sol r : ecm_dom n sol -> (r < 2 * n)%nat -> 0 < sol r.
Proof. intros HD. revert r. apply coord2; intros i Hi; apply (proj1 HD i Hi). Qed.

Lemma stationary_ecm_iff n k s sol :
  ecm_dom n sol ->
  ((forall r, (r < 2 * n)%nat -> loglikelihood_prime_ecm n k s sol r = 0) <->
   (forall i, (i < n)%nat -> expected_ecm n sol i = k i /\ expected_ecm n sol (i + n) = s i)).
Proof.
  intros HD. split.
  - intros H0 i Hi. split.
    + specialize (H0 i ltac:(lia)). rewrite prime_ecm_expected in H0 by (auto; lia).
      rewrite (proj2 (Nat.ltb_lt i n) Hi) in H0.
      pose proof (ecm_dom_pos n sol i HD ltac:(lia)) as Hx.
      apply Rmult_integral in H0. destruct H0 as [H0|H0]; [lra|].
      apply Rinv_0_lt_compat in Hx. lra.
    + specialize (H0 (i + n)%nat ltac:(lia)). rewrite prime_ecm_expected in H0 by (auto; lia).
      rewrite ltb_plus_n, plus_n_minus in H0.
      pose proof (ecm_dom_pos n sol (i + n)%nat HD ltac:(lia)) as Hx.
      apply Rmult_integral in H0. destruct H0 as [H0|H0]; [lra|].
      apply Rinv_0_lt_compat in Hx. lra.
  - intros H0. apply coord2; intros i Hi; rewrite prime_ecm_expected by (auto; lia);
      rewrite ?(proj2 (Nat.ltb_lt i n) Hi), ?ltb_plus_n, ?plus_n_minus;
      destruct (H0 i Hi) as [E1 E2]; rewrite ?E1, ?E2; unfold Rdiv; ring.
Qed.

Lemma stationary_ecm_exp_iff n k s sol :
  ecm_exp_dom n sol ->
  ((forall r, (r < 2 * n)%nat -> loglikelihood_prime_ecm_exp n k s sol r = 0) <->
   (forall i, (i < n)%nat -> expected_ecm n (fun r => exp (- sol r)) i = k i /\
      expected_ecm n (fun r => exp (- sol r)) (i + n) = s i)).
Proof.
  intros HD. rewrite <- (stationary_ecm_iff n k s (fun r => exp (- sol r)) (exp_dom _ _ HD)).
  split; intros H0 r Hr; specialize (H0 r Hr).
  - rewrite prime_ecm_exp_eq in H0 by assumption. pose proof (exp_pos (- sol r)).
    apply Rmult_integral in H0. destruct H0; [lra|assumption].
  - rewrite prime_ecm_exp_eq, H0 by assumption. ring.
Qed.

(** The expected values are sums of exact averages of the pair law. *)
Lemma expected_ecm_means n sol i :
  (i < n)%nat -> ecm_dom n sol ->
  exists pd pw : nat -> R,
    (forall j, (j < n)%nat -> j <> i ->
       let q := q_enh (sol i * sol j) (sol (i + n)%nat * sol (j + n)%nat) in
       is_series q 1 /\ is_series (fun w => ind (linked w) * q w) (pd j) /\
       is_series (fun w => INR w * q w) (pw j)) /\
    expected_ecm n sol i = rsum n (fun j => if Nat.eqb i j then 0 else pd j) /\
    expected_ecm n sol (i + n) = rsum n (fun j => if Nat.eqb i j then 0 else pw j).
Proof.
  intros Hi HD.
  exists (fun j => sol i * sol j * (sol (i + n)%nat * sol (j + n)%nat) /
     (1 - sol (i + n)%nat * sol (j + n)%nat + sol i * sol j * (sol (i + n)%nat * sol (j + n)%nat))).
  exists (fun j => sol i * sol j * (sol (i + n)%nat * sol (j + n)%nat) /
     ((1 - sol (i + n)%nat * sol (j + n)%nat + sol i * sol j * (sol (i + n)%nat * sol (j + n)%nat))
       * (1 - sol (i + n)%nat * sol (j + n)%nat))).
  split; [|split].
  - intros j Hj Hji. pairfacts HD i j. cbv zeta. split; [|split].
    + apply q_enh_total; assumption.
    + apply q_enh_link_mean; assumption.
    + apply q_enh_weight_mean; assumption.
  - apply expected_ecm_x. exact Hi.
  - apply expected_ecm_y.
Qed.

(** * Fixed points *)

Definition fx_ecm n (sol : nat -> R) i := rsum n (fun j => if Nat.eqb i j then 0 else
  sol j * (sol (i + n)%nat * sol (j + n)%nat) /
  (1 - sol (i + n)%nat * sol (j + n)%nat + sol i * sol j * (sol (i + n)%nat * sol (j + n)%nat))).
Definition fy_ecm n (sol : nat -> R) i := rsum n (fun j => if Nat.eqb i j then 0 else
  sol i * sol j * sol (j + n)%nat /
  ((1 - sol (i + n)%nat * sol (j + n)%nat) *
  (1 - sol (i + n)%nat * sol (j + n)%nat + sol i * sol j * (sol (i + n)%nat * sol (j + n)%nat)))).

Lemma fx_ecm_pos n sol i : (2 <= n)%nat -> (i < n)%nat -> ecm_dom n sol -> 0 < fx_ecm n sol i.
Proof.
  intros Hn Hi HD. apply rsum_skip_pos; auto. intros j Hj Hji. pairfacts HD i j.
  apply Rdiv_lt_0_compat; [|lra]. apply Rmult_lt_0_compat; lra.
Qed.

Lemma fy_ecm_pos n sol i : (2 <= n)%nat -> (i < n)%nat -> ecm_dom n sol -> 0 < fy_ecm n sol i.
Proof.
  intros Hn Hi HD. apply rsum_skip_pos; auto. intros j Hj Hji. pairfacts HD i j.
  apply Rdiv_lt_0_compat; apply Rmult_lt_0_compat; lra.
Qed.

Lemma iterative_ecm_x n k s sol i : (2 <= n)%nat -> (i < n)%nat -> ecm_dom n sol ->
  iterative_ecm n k s sol i = k i / fx_ecm n sol i.
Proof.
  intros Hn Hi HD. unfold iterative_ecm. rewrite (proj2 (Nat.ltb_lt i n) Hi). cbv zeta.
  rewrite loop_add_skip, Rplus_0_l. fold (fx_ecm n sol i).
  pose proof (fx_ecm_pos n sol i Hn Hi HD). destruct (Req_EM_T (fx_ecm n sol i) 0); [lra|reflexivity].
Qed.

Lemma iterative_ecm_y n k s sol i : (2 <= n)%nat -> (i < n)%nat -> ecm_dom n sol ->
  iterative_ecm n k s sol (i + n) = s i / fy_ecm n sol i.
Proof.
  intros Hn Hi HD. unfold iterative_ecm. rewrite ltb_plus_n, plus_n_minus. cbv zeta.
  rewrite loop_add_skip, Rplus_0_l. fold (fy_ecm n sol i).
  pose proof (fy_ecm_pos n sol i Hn Hi HD). destruct (Req_EM_T (fy_ecm n sol i) 0); [lra|reflexivity].
Qed.

Lemma fixed_scalar a f x : 0 < a -> 0 < f -> 0 < x -> (a / f = x <-> a / x - f = 0).
Proof.
  intros Ha Hf Hx. split; intros H.
  - rewrite <- H. field. split; lra.
  - replace f with (a / x) by lra. field. lra.
Qed.

Lemma fixed_scalar_exp a f t : 0 < a -> 0 < f ->
  (- ln (a / f) = t <-> a / exp (- t) - f = 0).
Proof.
  intros Ha Hf. rewrite <- fixed_scalar by (auto; apply exp_pos).
  assert (0 < a / f) by (apply Rdiv_lt_0_compat; assumption).
  split; intros H'.
  - rewrite <- H', Ropp_involutive, exp_ln; auto.
  - rewrite H', ln_exp. ring.
Qed.

Lemma fixed_point_ecm_iff n k s sol r :
  (2 <= n)%nat -> (r < 2 * n)%nat -> ecm_dom n sol ->
  (forall i, (i < n)%nat -> 0 < k i /\ 0 < s i) ->
  (iterative_ecm n k s sol r = sol r <-> loglikelihood_prime_ecm n k s sol r = 0).
Proof.
  intros Hn Hr HD Hc. revert r Hr. apply coord2; intros i Hi; destruct (Hc i Hi); destruct (proj1 HD i Hi).
  - rewrite iterative_ecm_x, prime_ecm_x by assumption. apply fixed_scalar; auto.
    apply fx_ecm_pos; assumption.
  - rewrite iterative_ecm_y, prime_ecm_y by assumption. apply fixed_scalar; auto.
    apply fy_ecm_pos; assumption.
Qed.

Lemma iterative_ecm_exp_x n k s sol i : (2 <= n)%nat -> (i < n)%nat -> ecm_exp_dom n sol ->
  iterative_ecm_exp n k s sol i = - ln (k i / fx_ecm n (fun r => exp (- sol r)) i).
Proof.
  intros Hn Hi HD. unfold iterative_ecm_exp. rewrite (proj2 (Nat.ltb_lt i n) Hi). cbv zeta.
  rewrite loop_add_skip, Rplus_0_l. fold (fx_ecm n (fun r => exp (- sol r)) i).
  pose proof (fx_ecm_pos n (fun r => exp (- sol r)) i Hn Hi (exp_dom _ _ HD)).
  destruct (Req_EM_T (fx_ecm n (fun r => exp (- sol r)) i) 0); [lra|reflexivity].
Qed.

Lemma iterative_ecm_exp_y n k s sol i : (2 <= n)%nat -> (i < n)%nat -> ecm_exp_dom n sol ->
  iterative_ecm_exp n k s sol (i + n) = - ln (s i / fy_ecm n (fun r => exp (- sol r)) i).
Proof.
  intros Hn Hi HD. unfold iterative_ecm_exp. rewrite ltb_plus_n, plus_n_minus. cbv zeta.
  rewrite loop_add_skip, Rplus_0_l. fold (fy_ecm n (fun r => exp (- sol r)) i).
  pose proof (fy_ecm_pos n (fun r => exp (- sol r)) i Hn Hi (exp_dom _ _ HD)).
  destruct (Req_EM_T (fy_ecm n (fun r => exp (- sol r)) i) 0); [lra|reflexivity].
Qed.

Lemma fixed_point_ecm_exp_iff n k s sol r :
  (2 <= n)%nat -> (r < 2 * n)%nat -> ecm_exp_dom n sol ->
  (forall i, (i < n)%nat -> 0 < k i /\ 0 < s i) ->
  (iterative_ecm_exp n k s sol r = sol r <-> loglikelihood_prime_ecm_exp n k s sol r = 0).
Proof.
  intros Hn Hr HD Hc.
  rewrite prime_ecm_exp_eq by assumption.
  assert (Hz : loglikelihood_prime_ecm n k s (fun r => exp (- sol r)) r = 0 <->
     - exp (- sol r) * loglikelihood_prime_ecm n k s (fun r => exp (- sol r)) r = 0).
  { pose proof (exp_pos (- sol r)). split; intros H0; [rewrite H0; ring|].
    apply Rmult_integral in H0; destruct H0; lra. }
  rewrite <- Hz. clear Hz.
  revert r Hr. apply coord2; intros i Hi; destruct (Hc i Hi).
  - rewrite iterative_ecm_exp_x, prime_ecm_x by assumption. apply fixed_scalar_exp; auto.
    apply (fx_ecm_pos n (fun r => exp (- sol r))); auto. apply exp_dom, HD.
  - rewrite iterative_ecm_exp_y, prime_ecm_y by assumption. apply fixed_scalar_exp; auto.
    apply (fy_ecm_pos n (fun r => exp (- sol r))); auto. apply exp_dom, HD.
Qed.

(** * Global maximum, uniqueness *)

Definition P_ecm n (sol : nat -> R) i j :=
  let z := sol i * sol j in let y := sol (i + n)%nat * sol (j + n)%nat in z * y / (1 - y + z * y).
Definition M_ecm n (sol : nat -> R) i j :=
  let z := sol i * sol j in let y := sol (i + n)%nat * sol (j + n)%nat in
  z * y / ((1 - y + z * y) * (1 - y)).

Lemma loglik_ecm_at_solution n k s sol z :
  ecm_dom n z ->
  (forall i, (i < n)%nat -> expected_ecm n sol i = k i /\ expected_ecm n sol (i + n) = s i) ->
  loglikelihood_ecm n k s z =
  usum n (fun i j => pairterm (P_ecm n sol i j) (M_ecm n sol i j) (z i * z j)
     (z (i + n)%nat * z (j + n)%nat)).
Proof.
  intros HD H. apply loglik_ecm_pairs; auto.
  - intros i j _ _. unfold P_ecm; cbv zeta.
    rewrite (Rmult_comm (sol i)), (Rmult_comm (sol (i + n)%nat)). reflexivity.
  - intros i j _ _. unfold M_ecm; cbv zeta.
    rewrite (Rmult_comm (sol i)), (Rmult_comm (sol (i + n)%nat)). reflexivity.
  - intros i Hi. rewrite <- (proj1 (H i Hi)), expected_ecm_x by exact Hi. reflexivity.
  - intros i Hi. rewrite <- (proj2 (H i Hi)), expected_ecm_y. reflexivity.
Qed.

Lemma solution_ecm_max n k s sol z :
  ecm_dom n sol -> ecm_dom n z ->
  (forall i, (i < n)%nat -> expected_ecm n sol i = k i /\ expected_ecm n sol (i + n) = s i) ->
  loglikelihood_ecm n k s z <= loglikelihood_ecm n k s sol.
Proof.
  intros HD HZ H. rewrite !(loglik_ecm_at_solution n k s sol) by assumption.
  apply Rminus_le. rewrite <- usum_minus. apply Ropp_le_cancel. rewrite Ropp_0, <- usum_opp.
  apply usum_nonneg. intros i j Hij Hj. pairfacts HD i j. pairfacts HZ i j.
  pose proof (pairterm_max (sol i * sol j) (sol (i + n)%nat * sol (j + n)%nat) (z i * z j)
     (z (i + n)%nat * z (j + n)%nat)) as Q.
  specialize (Q ltac:(assumption) ltac:(assumption) ltac:(assumption) ltac:(assumption)).
  cbv zeta in Q. unfold P_ecm, M_ecm; cbv zeta. lra.
Qed.

Lemma solution_ecm_strict n k s sol z :
  ecm_dom n sol -> ecm_dom n z ->
  (forall i, (i < n)%nat -> expected_ecm n sol i = k i /\ expected_ecm n sol (i + n) = s i) ->
  loglikelihood_ecm n k s z = loglikelihood_ecm n k s sol ->
  forall i j, (i < n)%nat -> (j < n)%nat -> i <> j ->
    z i * z j = sol i * sol j /\ z (i + n)%nat * z (j + n)%nat = sol (i + n)%nat * sol (j + n)%nat.
Proof.
  intros HD HZ H Heq.
  rewrite !(loglik_ecm_at_solution n k s sol) in Heq by assumption.
  assert (Hlt : forall i j, (i < j)%nat -> (j < n)%nat ->
     z i * z j = sol i * sol j /\ z (i + n)%nat * z (j + n)%nat = sol (i + n)%nat * sol (j + n)%nat).
  { intros i j Hij Hj.
    set (g := fun i j => pairterm (P_ecm n sol i j) (M_ecm n sol i j) (sol i * sol j)
        (sol (i + n)%nat * sol (j + n)%nat)
      - pairterm (P_ecm n sol i j) (M_ecm n sol i j) (z i * z j) (z (i + n)%nat * z (j + n)%nat)).
    assert (E : g i j = 0).
    { apply (usum_nonneg_zero n g); auto.
      - intros u v Huv Hv. unfold g. pairfacts HD u v. pairfacts HZ u v.
        pose proof (pairterm_max (sol u * sol v) (sol (u + n)%nat * sol (v + n)%nat) (z u * z v)
          (z (u + n)%nat * z (v + n)%nat)) as Q.
        specialize (Q ltac:(assumption) ltac:(assumption) ltac:(assumption) ltac:(assumption)).
        cbv zeta in Q. unfold P_ecm, M_ecm; cbv zeta. lra.
      - unfold g. rewrite usum_minus. rewrite Heq. ring. }
    unfold g in E. pairfacts HD i j. pairfacts HZ i j.
    apply pairterm_max_strict; try assumption. unfold P_ecm, M_ecm in E; cbv zeta in *. lra. }
  intros i j Hi Hj Hij. destruct (Nat.lt_gt_cases i j) as [HH _]. destruct (HH Hij).
  - apply Hlt; assumption.
  - destruct (Hlt j i) as [E1 E2]; try assumption.
    rewrite (Rmult_comm (z i)), (Rmult_comm (sol i)), (Rmult_comm (z (i + n)%nat)),
      (Rmult_comm (sol (i + n)%nat)). split; assumption.
Qed.

Lemma solution_ecm_unique n k s sol z :
  ecm_dom n sol -> ecm_dom n z ->
  (forall i, (i < n)%nat -> expected_ecm n sol i = k i /\ expected_ecm n sol (i + n) = s i) ->
  (forall i, (i < n)%nat -> expected_ecm n z i = k i /\ expected_ecm n z (i + n) = s i) ->
  forall i j w, (i < n)%nat -> (j < n)%nat -> i <> j ->
    q_enh (z i * z j) (z (i + n)%nat * z (j + n)%nat) w =
    q_enh (sol i * sol j) (sol (i + n)%nat * sol (j + n)%nat) w.
Proof.
  intros HD HZ H1 H2 i j w Hi Hj Hij.
  assert (E : loglikelihood_ecm n k s z = loglikelihood_ecm n k s sol)
    by (apply Rle_antisym; apply solution_ecm_max; assumption).
  destruct (solution_ecm_strict n k s sol z HD HZ H1 E i j Hi Hj Hij) as [E1 E2].
  rewrite E1, E2. reflexivity.
Qed.

(** Three positive products determine three positive factors. *)
Lemma triple_products xi xj xl zi zj zl :
  0 < xi -> 0 < xj -> 0 < xl -> 0 < zi -> 0 < zj -> 0 < zl ->
  zi * zj = xi * xj -> zi * zl = xi * xl -> zj * zl = xj * xl -> zi = xi.
Proof.
  intros H1 H2 H3 H4 H5 H6 E1 E2 E3.
  assert (Q : zi * zi * (zj * zl) = xi * xi * (zj * zl)).
  { replace (zi * zi * (zj * zl)) with ((zi * zj) * (zi * zl)) by ring.
    rewrite E1, E2, E3. ring. }
  assert (0 < zj * zl) by (apply Rmult_lt_0_compat; assumption).
  apply Rmult_eq_reg_r in Q; [|lra].
  assert (F : (zi - xi) * (zi + xi) = 0) by lra.
  apply Rmult_integral in F. destruct F; lra.
Qed.

Lemma solution_ecm_unique_parameters n k s sol z :
  (3 <= n)%nat -> ecm_dom n sol -> ecm_dom n z ->
  (forall i, (i < n)%nat -> expected_ecm n sol i = k i /\ expected_ecm n sol (i + n) = s i) ->
  (forall i, (i < n)%nat -> expected_ecm n z i = k i /\ expected_ecm n z (i + n) = s i) ->
  forall r, (r < 2 * n)%nat -> z r = sol r.
Proof.
  intros Hn HD HZ H1 H2.
  assert (E : loglikelihood_ecm n k s z = loglikelihood_ecm n k s sol)
    by (apply Rle_antisym; apply solution_ecm_max; assumption).
  pose proof (solution_ecm_strict n k s sol z HD HZ H1 E) as P.
  assert (T : forall i, (i < n)%nat -> z i = sol i /\ z (i + n)%nat = sol (i + n)%nat).
  { intros i Hi.
    assert (exists j l, (j < n)%nat /\ (l < n)%nat /\ i <> j /\ i <> l /\ j <> l)
      as (j & l & Hj & Hl & Hij & Hil & Hjl).
    { destruct i as [|[|i]]; [exists 1%nat, 2%nat|exists 0%nat, 2%nat|exists 0%nat, 1%nat];
        repeat split; lia. }
    destruct (P i j), (P i l), (P j l); auto.
    pairfacts HD i j. pairfacts HD i l. pairfacts HZ i j. pairfacts HZ i l.
    split; [apply (triple_products _ (sol j) (sol l) _ (z j) (z l))
           |apply (triple_products _ (sol (j + n)%nat) (sol (l + n)%nat) _ (z (j + n)%nat) (z (l + n)%nat))];
      assumption. }
  apply coord2; intros i Hi; apply T; exact Hi.
Qed.

(** exp variant *)
Lemma solution_ecm_exp_max n k s sol z :
  ecm_exp_dom n sol -> ecm_exp_dom n z ->
  (forall i, (i < n)%nat -> expected_ecm n (fun r => exp (- sol r)) i = k i /\
      expected_ecm n (fun r => exp (- sol r)) (i + n) = s i) ->
  loglikelihood_ecm_exp n k s z <= loglikelihood_ecm_exp n k s sol.
Proof.
  intros HD HZ H. rewrite !loglik_ecm_exp_eq by assumption.
  apply solution_ecm_max; auto using exp_dom.
Qed.

(** * A weighted cycle on four nodes and its solution *)

Definition wring4 (i j : nat) : nat := if Nat.even (i + j) then 0%nat else 2%nat.
Definition wring4_sol (r : nat) : R := if Nat.ltb r 4 then sqrt 2 else sqrt (1 / 2).
Definition wring4_theta (r : nat) : R := - ln (wring4_sol r).

Lemma wring4_graph : weighted_graph 4 wring4.
Proof.
  split.
  - intros i j _ _. unfold wring4. rewrite Nat.add_comm. reflexivity.
  - intros i _. unfold wring4. replace (i + i)%nat with (2 * i)%nat by lia.
    rewrite Nat.even_mul. reflexivity.
Qed.

Lemma wring4_deg i : (i < 4)%nat -> 2 = wdeg 4 wring4 i.
Proof. intros Hi. nat_cases i; unfold wdeg, wring4, linked, ind; simpl; lra. Qed.

Lemma wring4_str i : (i < 4)%nat -> 4 = wstr 4 wring4 i.
Proof. intros Hi. nat_cases i; unfold wstr, wring4; simpl; lra. Qed.

Lemma wring4_sol_x i : (i < 4)%nat -> wring4_sol i = sqrt 2.
Proof. intros Hi. unfold wring4_sol. rewrite (proj2 (Nat.ltb_lt i 4) Hi). reflexivity. Qed.
Lemma wring4_sol_y i : wring4_sol (i + 4) = sqrt (1 / 2).
Proof. unfold wring4_sol. rewrite ltb_plus_n. reflexivity. Qed.

Lemma wring4_dom : ecm_dom 4 wring4_sol.
Proof.
  split.
  - intros i Hi. rewrite wring4_sol_x, wring4_sol_y by exact Hi. split; apply sqrt_lt_R0; lra.
  - intros i j Hi Hj _. rewrite !wring4_sol_y. rewrite sqrt_sqrt by lra. lra.
Qed.

Lemma wring4_sol_pos r : 0 < wring4_sol r.
Proof. unfold wring4_sol. destruct (Nat.ltb r 4); apply sqrt_lt_R0; lra. Qed.

Lemma wring4_exp_eq r : exp (- wring4_theta r) = wring4_sol r.
Proof. unfold wring4_theta. rewrite Ropp_involutive. apply exp_ln, wring4_sol_pos. Qed.

Lemma wring4_exp_dom : ecm_exp_dom 4 wring4_theta.
Proof.
  intros i j Hi Hj Hij. unfold wring4_theta. rewrite !wring4_sol_y.
  assert (0 < sqrt (1 / 2)) by (apply sqrt_lt_R0; lra).
  rewrite <- Ropp_plus_distr, <- ln_mult, sqrt_sqrt by lra.
  assert (ln (1 / 2) < ln 1) by (apply ln_increasing; lra). rewrite ln_1 in *. lra.
Qed.

Lemma wring4_solution i : (i < 4)%nat ->
  expected_ecm 4 wring4_sol i = 2 /\ expected_ecm 4 wring4_sol (i + 4) = 4.
Proof.
  intros Hi. rewrite expected_ecm_x, expected_ecm_y by exact Hi.
  assert (E : forall j, (j < 4)%nat -> wring4_sol i * wring4_sol j = 2).
  { intros j Hj. rewrite !wring4_sol_x by assumption. apply sqrt_sqrt. lra. }
  assert (F : forall j, wring4_sol (i + 4)%nat * wring4_sol (j + 4)%nat = 1 / 2).
  { intros j. rewrite !wring4_sol_y by assumption. apply sqrt_sqrt. lra. }
  split.
  - rewrite (rsum_skip_ext 4 i _ (fun _ => 2 / 3)).
    + nat_cases i; simpl; lra.
    + intros j Hj _. rewrite E, F by assumption. field.
  - rewrite (rsum_skip_ext 4 i _ (fun _ => 4 / 3)).
    + nat_cases i; simpl; lra.
    + intros j Hj _. rewrite E, F by assumption. field.
Qed.
