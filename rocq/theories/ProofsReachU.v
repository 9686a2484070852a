(** Runs that are bound to reach their tolerance: the models in exponential parameters. *)
From Coq Require Import Reals List Arith Bool String Lia Lra.
From Coquelicot Require Import Coquelicot.
From Verif Require Import Base SpecDeriv SpecGraph SpecEnsemble SpecWeighted SpecDirected SpecLinsearch SpecSolver SpecDispatch SpecRun SpecReach
  ModelCM ModelDCM ModelCReMa ModelLinsearch ModelSolver ModelDispatch ModelRun.
From Verif Require Import ProofsGraph ProofsList ProofsCM ProofsCMHess ProofsDCM ProofsEnsemble ProofsRegular ProofsLinsearch ProofsMainLinsearch ProofsDispatch ProofsDispatchU ProofsSolver ProofsSpectral
  ProofsRun ProofsIterates ProofsPSD ProofsPSDModels ProofsAscent ProofsAscentU ProofsReach.
Import ListNotations.
Local Open Scope R_scope.

(** ** One pair *)
Lemma monotone_on (f df : R -> R) a b : (forall x, is_derive f x (df x)) -> a <= b -> (forall x, a <= x <= b -> 0 <= df x) -> f a <= f b.
Proof.
  intros Hf Hab Hd. destruct (MVT_gen f a b df) as (c & Hc & E).
  - intros x _. apply Hf.
  - intros x _. apply (continuity_pt_filterlim f x). apply (ex_derive_continuous f x). exists (df x). apply Hf.
  - rewrite Rmin_left, Rmax_right in Hc by exact Hab. specialize (Hd c Hc).
    assert (0 <= df c * (b - a)) by (apply Rmult_le_pos; lra). lra.
Qed.
Definition logi (s : R) : R := exp (- s) / (1 + exp (- s)).
Definition soft (s : R) : R := ln (1 + exp (- s)).
Lemma logi_unit s : 0 < logi s < 1.
Proof.
  unfold logi. pose proof (exp_pos (- s)). split.
  - apply Rdiv_lt_0_compat; lra.
  - apply Rmult_lt_reg_r with (1 + exp (- s)); [lra|]. unfold Rdiv. rewrite Rmult_assoc, Rinv_l by lra. lra.
Qed.
Lemma soft_derive s : is_derive soft s (- logi s).
Proof.
  unfold soft, logi. pose proof (exp_pos (- s)). auto_derive; [lra|]. field. lra.
Qed.
Lemma logi_derive s : is_derive logi s (- (logi s * (1 - logi s))).
Proof.
  unfold logi. pose proof (exp_pos (- s)). auto_derive; [lra|]. field. lra.
Qed.
Lemma quarter p : p * (1 - p) <= / 4.
Proof. pose proof (Rle_0_sqr (p - / 2)). unfold Rsqr in *. lra. Qed.
Definition slope (s : R) : R := logi s * (1 - logi s).
Lemma half_exp u : - / 2 <= u <= / 2 -> / 2 <= exp u <= 2.
Proof.
  intros Hu. assert (H2 : exp (/ 2) <= 2).
  { apply Rsqr_incr_0_var; [|lra]. unfold Rsqr. rewrite <- exp_plus. replace (/ 2 + / 2) with 1 by lra. pose proof exp_le_3. lra. }
  assert (Up : forall v, v <= / 2 -> exp v <= 2).
  { intros v [Hv|Hv]; [|rewrite Hv; exact H2]. pose proof (exp_increasing _ _ Hv). lra. }
  split; [|apply Up; lra]. specialize (Up (- u) ltac:(lra)). rewrite exp_Ropp in Up. pose proof (exp_pos u).
  apply Rmult_le_reg_r with (/ exp u); [apply Rinv_0_lt_compat; lra|]. rewrite Rinv_r by lra. lra.
Qed.
(** Within half a unit the slope at most doubles. *)
Lemma slope_doubles s u : - / 2 <= u <= / 2 -> slope (s + u) <= 2 * slope s.
Proof.
  intros Hu. assert (E : forall z, slope z = exp (- z) / ((1 + exp (- z)) * (1 + exp (- z)))).
  { intros z. unfold slope, logi. pose proof (exp_pos (- z)). field. lra. }
  rewrite !E. replace (- (s + u)) with (- u + - s) by ring. rewrite exp_plus. pose proof (half_exp (- u) ltac:(lra)) as Hq.
  set (q := exp (- u)) in *. pose proof (exp_pos (- s)) as Ht. set (t := exp (- s)) in *.
  assert (Hqt : 0 < q * t) by (apply Rmult_lt_0_compat; lra).
  assert (K : q * ((1 + t) * (1 + t)) <= 2 * ((1 + q * t) * (1 + q * t))).
  { assert (T2 : 0 < (1 + t) * (1 + t)) by (apply Rmult_lt_0_compat; lra). destruct (Rle_lt_dec 1 q) as [H1|H1].
    - assert (t * 1 <= t * q) by (apply Rmult_le_compat_l; lra).
      assert ((1 + t) * (1 + t) <= (1 + q * t) * (1 + q * t)) by (apply Rmult_le_compat; lra).
      assert (q * ((1 + t) * (1 + t)) <= 2 * ((1 + t) * (1 + t))) by (apply Rmult_le_compat_r; lra). lra.
    - assert (P : 0 <= q * (1 + t)) by (apply Rmult_le_pos; lra).
      assert (q * (1 + t) * (q * (1 + t)) <= (1 + q * t) * (1 + q * t)) by (apply Rmult_le_compat; lra).
      assert (Q : / 2 * (q * ((1 + t) * (1 + t))) <= q * (q * ((1 + t) * (1 + t)))) by (apply Rmult_le_compat_r; [apply Rmult_le_pos; lra|lra]).
      replace (q * (q * ((1 + t) * (1 + t)))) with (q * (1 + t) * (q * (1 + t))) in Q by ring. lra. }
  apply Rmult_le_reg_r with ((1 + q * t) * (1 + q * t)); [apply Rmult_lt_0_compat; lra|].
  replace (q * t / ((1 + q * t) * (1 + q * t)) * ((1 + q * t) * (1 + q * t))) with (q * t) by (field; lra).
  apply Rmult_le_reg_r with ((1 + t) * (1 + t)); [apply Rmult_lt_0_compat; lra|].
  replace (2 * (t / ((1 + t) * (1 + t))) * ((1 + q * t) * (1 + q * t)) * ((1 + t) * (1 + t))) with (t * (2 * ((1 + q * t) * (1 + q * t)))) by (field; lra).
  replace (q * t * ((1 + t) * (1 + t))) with (t * (q * ((1 + t) * (1 + t)))) by ring. apply Rmult_le_compat_l; lra.
Qed.
Lemma logi_local s a b : - / 2 <= a -> a <= b -> b <= / 2 -> logi (s + a) + 2 * slope s * a <= logi (s + b) + 2 * slope s * b.
Proof.
  intros Ha H Hb. apply (monotone_on (fun u => logi (s + u) + 2 * slope s * u) (fun u => - slope (s + u) + 2 * slope s)); [|exact H|].
  - intros u. apply (is_derive_plus (fun u => logi (s + u)) (fun u => 2 * slope s * u) u (- slope (s + u)) (2 * slope s)).
    + replace (- slope (s + u)) with (1 * - slope (s + u)) by ring.
      apply (is_derive_comp logi (fun u => s + u) u (- slope (s + u)) 1); [apply logi_derive|]. auto_derive; [exact I|ring].
    + auto_derive; [exact I|]. ring.
  - intros u Hu. pose proof (slope_doubles s u ltac:(lra)). lra.
Qed.
Lemma soft_local s h : - / 2 <= h <= / 2 -> soft (s + h) <= soft s - logi s * h + h * h * slope s.
Proof.
  intros Hlim. set (g := fun u => soft s - logi s * u + u * u * slope s - soft (s + u)).
  set (dg := fun u => - logi s + 2 * slope s * u + logi (s + u)).
  assert (Hg : forall u, is_derive g u (dg u)).
  { intros u. unfold g, dg.
    apply (is_derive_ext (fun u => (soft s - logi s * u + u * u * slope s) + - soft (s + u))); [intros; simpl; ring|].
    assert (Hs : is_derive (fun u => - soft (s + u)) u (logi (s + u))).
    { replace (logi (s + u)) with (opp (1 * - logi (s + u))) by (unfold opp; simpl; ring).
      apply (is_derive_opp (fun u => soft (s + u))). apply (is_derive_comp soft (fun u => s + u) u (- logi (s + u)) 1); [apply soft_derive|].
      auto_derive; [exact I|ring]. }
    apply (is_derive_plus (fun u => soft s - logi s * u + u * u * slope s) (fun u => - soft (s + u)) u (- logi s + 2 * slope s * u) (logi (s + u))); [|exact Hs].
    auto_derive; [exact I|]. ring. }
  assert (H0 : g 0 = 0) by (unfold g; replace (s + 0) with s by ring; ring).
  cut (0 <= g h); [unfold g; lra|]. rewrite <- H0. destruct (Rle_dec 0 h) as [Hh|Hh].
  - apply (monotone_on g dg); [exact Hg|exact Hh|]. intros u Hu. unfold dg. pose proof (logi_local s 0 u ltac:(lra) ltac:(lra) ltac:(lra)) as M. rewrite Rplus_0_r in M. lra.
  - assert (M : - g 0 >= - g h); [|lra]. apply Rle_ge.
    apply (monotone_on (fun u => - g u) (fun u => - dg u)); [|lra|].
    + intros u. apply (is_derive_opp g). apply Hg.
    + intros u Hu. unfold dg. pose proof (logi_local s u 0 ltac:(lra) ltac:(lra) ltac:(lra)) as M. rewrite Rplus_0_r in M. lra.
Qed.
Lemma logi_pair a b : exp (- a) * exp (- b) / (1 + exp (- a) * exp (- b)) = logi (a + b).
Proof. unfold logi. rewrite <- exp_plus. replace (- a + - b) with (- (a + b)) by ring. reflexivity. Qed.
Lemma expw_slope a b : expw a b = slope (a + b).
Proof.
  unfold slope. rewrite <- logi_pair. unfold expw. set (t := exp (- a) * exp (- b)). assert (Ht : 0 < t) by (apply Rmult_lt_0_compat; apply exp_pos). field. lra.
Qed.
Lemma slope_bounds s : 0 <= slope s <= logi s.
Proof.
  unfold slope. pose proof (logi_unit s) as H. split; [apply Rmult_le_pos; lra|]. assert (logi s * (1 - logi s) <= logi s * 1) by (apply Rmult_le_compat_l; lra). lra.
Qed.
Lemma soft_pair a b : ln (1 + exp (- a) * exp (- b)) = soft (a + b).
Proof. unfold soft. rewrite <- exp_plus. replace (- a + - b) with (- (a + b)) by ring. reflexivity. Qed.
Lemma expw_quarter a b : expw a b <= / 4.
Proof.
  unfold expw. set (t := exp (- a) * exp (- b)). assert (Ht : 0 < t) by (apply Rmult_lt_0_compat; apply exp_pos).
  replace (t / (1 + t) ^ 2) with (t / (1 + t) * (1 - t / (1 + t))) by (field; lra). apply quarter.
Qed.

(** ** Pair weights *)
Lemma pairmult_nonneg n c i j : (forall i, (i < n)%nat -> 1 <= c i) -> (i < n)%nat -> (j < n)%nat -> 0 <= pairmult c i j.
Proof.
  intros Hc Hi Hj. pose proof (Hc i Hi). pose proof (Hc j Hj). unfold pairmult. destruct (Nat.eqb i j); apply Rmult_le_pos; lra.
Qed.
Lemma pairmult_row n c i : (i < n)%nat -> rsum n (fun j => pairmult c i j) = c i * (rsum n c - 1).
Proof.
  intros Hi. rewrite (rsum_ext n _ (fun j => c i * c j + (if Nat.eqb j i then - c i else 0))).
  2:{ intros j _. unfold pairmult. rewrite (Nat.eqb_sym j i). destruct (Nat.eqb_spec i j) as [<-|]; ring. }
  rewrite rsum_plus, rsum_scal_l, (rsum_single n i (fun _ => - c i)) by exact Hi. ring.
Qed.
Lemma two_squares a b : (a + b) * (a + b) <= 2 * (a * a + b * b).
Proof. pose proof (Rle_0_sqr (a - b)). unfold Rsqr in *. lra. Qed.
Lemma small_step n a (dx : nat -> R) i j : 0 <= a -> (forall i, (i < n)%nat -> a * Rabs (dx i) <= / 4) -> (i < n)%nat -> (j < n)%nat ->
  - / 2 <= a * (dx i + dx j) <= / 2.
Proof.
  intros Ha H Hi Hj. pose proof (H i Hi) as H1. pose proof (H j Hj) as H2.
  assert (B : forall r, - (a * Rabs r) <= a * r <= a * Rabs r).
  { intros r. replace (- (a * Rabs r)) with (a * - Rabs r) by ring. split; apply Rmult_le_compat_l; try exact Ha; unfold Rabs; destruct (Rcase_abs r); lra. }
  pose proof (B (dx i)). pose proof (B (dx j)). lra.
Qed.
(** A quadratic form of non-negative pair weights whose rows weigh at most [W]. *)
Lemma rows_bound n (w : nat -> nat -> R) W (d : nat -> R) :
  (forall i, (i < n)%nat -> rsum n (w i) <= W) ->
  dsum n (fun i j => w i j * (d i * d i)) <= W * SpecLinsearch.scalar n d d.
Proof.
  intros Hr. unfold dsum, SpecLinsearch.scalar. rewrite <- rsum_scal_l. apply rsum_le. intros i Hi.
  rewrite rsum_scal_r. apply Rmult_le_compat_r; [apply Rle_0_sqr|apply Hr; exact Hi].
Qed.

(** ** Undirected binary networks *)
Section CMExp.
  Variables (n : nat) (k c : nat -> R) (W : R).
  Hypothesis Hc : forall i, (i < n)%nat -> 1 <= c i.
  Hypothesis HW : forall i, (i < n)%nat -> c i * (rsum n c - 1) <= W.
  Hypothesis Hk : forall i, (i < n)%nat -> 0 <= k i <= rsum n c - 1.
  Lemma cm_rows i : (i < n)%nat -> rsum n (pairmult c i) <= W.
  Proof. intros Hi. change (rsum n (fun j => pairmult c i j) <= W). rewrite pairmult_row by exact Hi. apply HW. exact Hi. Qed.
  Lemma cm_pairs_bound d : dsum n (fun i j => pairmult c i j * ((d i + d j) * (d i + d j))) <= 4 * W * SpecLinsearch.scalar n d d.
  Proof.
    apply Rle_trans with (dsum n (fun i j => 2 * (pairmult c i j * (d i * d i)) + 2 * (pairmult c i j * (d j * d j)))).
    - apply rsum_le. intros i Hi. apply rsum_le. intros j Hj. pose proof (pairmult_nonneg n c i j Hc Hi Hj). pose proof (two_squares (d i) (d j)).
      apply Rle_trans with (pairmult c i j * (2 * (d i * d i + d j * d j))); [apply Rmult_le_compat_l; assumption|right; ring].
    - rewrite dsum_plus, !dsum_scal.
      assert (E : dsum n (fun i j => pairmult c i j * (d j * d j)) = dsum n (fun i j => pairmult c i j * (d i * d i))).
      { rewrite <- (dsum_swap n (fun i j => pairmult c i j * (d i * d i))). apply dsum_ext. intros i j _ _. rewrite (pairmult_sym c j i). reflexivity. }
      rewrite E. pose proof (rows_bound n (pairmult c) W d cm_rows). lra.
  Qed.
  Lemma cm_exp_fun_bound x i : (i < n)%nat -> Rabs (- loglikelihood_prime_cm_exp n k c x i) <= W.
  Proof.
    intros Hi. rewrite prime_cm_exp_nf by exact Hi.
    rewrite (rsum_ext n _ (fun j => pairmult c i j * logi (x i + x j))) by (intros; rewrite logi_pair; reflexivity).
    assert (H0 : 0 <= rsum n (fun j => pairmult c i j * logi (x i + x j))).
    { apply rsum_nonneg. intros j Hj. apply Rmult_le_pos; [apply (pairmult_nonneg n); assumption|]. pose proof (logi_unit (x i + x j)). lra. }
    assert (H1 : rsum n (fun j => pairmult c i j * logi (x i + x j)) <= rsum n (fun j => pairmult c i j)).
    { apply rsum_le. intros j Hj. pose proof (pairmult_nonneg n c i j Hc Hi Hj). pose proof (logi_unit (x i + x j)).
      assert (pairmult c i j * logi (x i + x j) <= pairmult c i j * 1) by (apply Rmult_le_compat_l; lra). lra. }
    rewrite pairmult_row in H1 by exact Hi. pose proof (HW i Hi). pose proof (Hc i Hi). pose proof (Hk i Hi).
    assert (0 <= c i * k i) by (apply Rmult_le_pos; lra).
    assert (c i * k i <= c i * (rsum n c - 1)) by (apply Rmult_le_compat_l; lra).
    apply Rabs_le. lra.
  Qed.
  (** The curvature of the objective. *)
  Definition cm_curve (x v : nat -> R) : R := / 2 * dsum n (fun i j => pairmult c i j * (slope (x i + x j) * ((v i + v j) * (v i + v j)))).
  Lemma cm_exp_smooth x dx a : 0 <= a -> (forall i, (i < n)%nat -> a * Rabs (dx i) <= / 4) ->
    loglikelihood_cm_exp n k c x - a * SpecLinsearch.scalar n (fun i => - loglikelihood_prime_cm_exp n k c x i) dx - a * a * cm_curve x dx
      <= loglikelihood_cm_exp n k c (moved x a dx).
  Proof.
    intros Ha Hsmall.
    assert (E : forall z, loglikelihood_cm_exp n k c z = - rsum n (fun i => c i * k i * z i) - / 2 * dsum n (fun i j => pairmult c i j * soft (z i + z j))).
    { intros z. rewrite loglik_cm_exp_nf. unfold dsum.
      rewrite (rsum_ext n (fun i => rsum n (fun j => pairmult c i j * ln (1 + exp (- z i) * exp (- z j)))) (fun i => rsum n (fun j => pairmult c i j * soft (z i + z j))))
        by (intros; apply rsum_ext; intros; rewrite soft_pair; reflexivity). field. }
    rewrite !E. clear E.
    assert (G : SpecLinsearch.scalar n (fun i => - loglikelihood_prime_cm_exp n k c x i) dx =
      rsum n (fun i => c i * k i * dx i) - / 2 * dsum n (fun i j => pairmult c i j * (logi (x i + x j) * (dx i + dx j)))).
    { assert (S : dsum n (fun i j => pairmult c i j * (logi (x i + x j) * (dx i + dx j))) = 2 * dsum n (fun i j => pairmult c i j * (logi (x i + x j) * dx i))).
      { rewrite (dsum_ext n _ (fun i j => pairmult c i j * (logi (x i + x j) * dx i) + pairmult c i j * (logi (x i + x j) * dx j))) by (intros; ring).
        rewrite dsum_plus, <- (dsum_swap n (fun i j => pairmult c i j * (logi (x i + x j) * dx j))).
        rewrite (dsum_ext n (fun i j => pairmult c j i * (logi (x j + x i) * dx i)) (fun i j => pairmult c i j * (logi (x i + x j) * dx i))); [ring|].
        intros i j _ _. rewrite (pairmult_sym c j i), (Rplus_comm (x j)). reflexivity. }
      rewrite S. unfold SpecLinsearch.scalar, dsum.
      rewrite (rsum_ext n _ (fun i => c i * k i * dx i - rsum n (fun j => pairmult c i j * (logi (x i + x j) * dx i)))).
      - rewrite rsum_minus. field.
      - intros i Hi. rewrite prime_cm_exp_nf by exact Hi.
        rewrite (rsum_ext n (fun j => pairmult c i j * (logi (x i + x j) * dx i)) (fun j => pairmult c i j * logi (x i + x j) * dx i)) by (intros; ring).
        rewrite rsum_scal_r.
        rewrite (rsum_ext n _ (fun j => pairmult c i j * logi (x i + x j))) by (intros; rewrite logi_pair; reflexivity). ring. }
    rewrite G. clear G.
    assert (Lin : rsum n (fun i => c i * k i * moved x a dx i) = rsum n (fun i => c i * k i * x i) + a * rsum n (fun i => c i * k i * dx i)).
    { rewrite <- rsum_scal_l, <- rsum_plus. apply rsum_ext. intros i _. unfold moved. ring. }
    rewrite Lin.
    unfold cm_curve.
    assert (Q : dsum n (fun i j => pairmult c i j * soft (moved x a dx i + moved x a dx j)) <=
      dsum n (fun i j => pairmult c i j * soft (x i + x j)) + - a * dsum n (fun i j => pairmult c i j * (logi (x i + x j) * (dx i + dx j)))
      + a * a * dsum n (fun i j => pairmult c i j * (slope (x i + x j) * ((dx i + dx j) * (dx i + dx j))))).
    { rewrite <- !dsum_scal, <- !dsum_plus. apply rsum_le. intros i Hi. apply rsum_le. intros j Hj.
      assert (Hlim : - / 2 <= a * (dx i + dx j) <= / 2) by (apply (small_step n a dx i j Ha Hsmall Hi Hj)).
      pose proof (soft_local (x i + x j) (a * (dx i + dx j)) Hlim) as Hs.
      replace (x i + x j + a * (dx i + dx j)) with (moved x a dx i + moved x a dx j) in Hs by (unfold moved; ring).
      apply (Rmult_le_compat_l (pairmult c i j)) in Hs; [|apply (pairmult_nonneg n); assumption].
      eapply Rle_trans; [exact Hs|]. right. ring. }
    lra.
  Qed.
  Lemma cm_curve_newton x v : cm_curve x v <= 2 * qform n (fun i j => - loglikelihood_hessian_cm_exp n c x i j) v.
  Proof.
    rewrite cm_exp_qform. unfold cm_curve. rewrite <- dsum_scal. apply rsum_le. intros i Hi. apply rsum_le. intros j Hj.
    rewrite !expw_slope. pose proof (slope_bounds (x i + x j)) as [Hs _]. pose proof (pairmult_nonneg n c i j Hc Hi Hj) as Hp. unfold pairmult in *.
    destruct (Nat.eqb_spec i j) as [<-|].
    - right. rewrite ?expw_slope. field.
    - rewrite Rmult_0_l, Rmult_0_r, Rplus_0_l.
      assert (0 <= c i * c j * (slope (x i + x j) * ((v i + v j) * (v i + v j)))) by (apply Rmult_le_pos; [exact Hp|apply Rmult_le_pos; [exact Hs|apply Rle_0_sqr]]). lra.
  Qed.
  Lemma cm_curve_quasi x v : cm_curve x v <= 2 * rsum n (fun i => - loglikelihood_hessian_diag_cm_exp n c x i * (v i * v i)).
  Proof.
    apply Rle_trans with (2 * dsum n (fun i j => pairmult c i j * (slope (x i + x j) * (v i * v i)))).
    - assert (S : dsum n (fun i j => pairmult c i j * (slope (x i + x j) * (v j * v j))) = dsum n (fun i j => pairmult c i j * (slope (x i + x j) * (v i * v i)))).
      { rewrite <- (dsum_swap n (fun i j => pairmult c i j * (slope (x i + x j) * (v j * v j)))). apply dsum_ext. intros i j _ _. rewrite (pairmult_sym c j i), (Rplus_comm (x j)). reflexivity. }
      assert (T : 2 * cm_curve x v <= 2 * dsum n (fun i j => pairmult c i j * (slope (x i + x j) * (v i * v i))) + 2 * dsum n (fun i j => pairmult c i j * (slope (x i + x j) * (v j * v j)))).
      { unfold cm_curve. rewrite <- !dsum_scal, <- dsum_plus. apply rsum_le. intros i Hi. apply rsum_le. intros j Hj.
        pose proof (slope_bounds (x i + x j)) as [Hs _]. pose proof (pairmult_nonneg n c i j Hc Hi Hj) as Hp. pose proof (two_squares (v i) (v j)) as T.
        apply (Rmult_le_compat_l (pairmult c i j * slope (x i + x j))) in T; [|apply Rmult_le_pos; assumption]. lra. }
      lra.
    - apply Rmult_le_compat_l; [lra|]. unfold dsum. apply rsum_le. intros i Hi.
      rewrite hessian_diag_cm_exp_nf, Ropp_involutive. rewrite <- rsum_scal_r. apply rsum_le. intros j Hj. rewrite logi_pair.
      rewrite <- Rmult_assoc. apply Rmult_le_compat_r; [apply Rle_0_sqr|]. apply Rmult_le_compat_l; [apply (pairmult_nonneg n); assumption|apply slope_bounds].
  Qed.
  Lemma cm_exp_qform_le x v : qform n (fun i j => - loglikelihood_hessian_cm_exp n c x i j) v <= W * SpecLinsearch.scalar n v v.
  Proof.
    apply Rmult_le_reg_l with 2; [lra|]. rewrite cm_exp_qform. pose proof (cm_pairs_bound v) as B.
    pose proof (scalar_nonneg n v) as Hv.
    apply Rle_trans with (/ 4 * dsum n (fun i j => pairmult c i j * ((v i + v j) * (v i + v j)))).
    - rewrite <- dsum_scal. apply rsum_le. intros i Hi. apply rsum_le. intros j Hj.
      pose proof (expw_quarter (x i) (x j)). pose proof (expw_nonneg (x i) (x j)). pose proof (pairmult_nonneg n c i j Hc Hi Hj) as Hp. unfold pairmult in *.
      destruct (Nat.eqb_spec i j) as [<-|].
      + pose proof (Rle_0_sqr (v i)) as Hq. unfold Rsqr in Hq.
        assert (c i * (c i - 1) * expw (x i) (x i) <= c i * (c i - 1) * / 4) by (apply Rmult_le_compat_l; assumption).
        assert (0 <= c i * (c i - 1) * expw (x i) (x i)) by (apply Rmult_le_pos; assumption).
        assert (c i * (c i - 1) * expw (x i) (x i) * (v i * v i) <= c i * (c i - 1) * / 4 * (v i * v i)) by (apply Rmult_le_compat_r; assumption).
        assert (0 <= c i * (c i - 1) * (v i * v i)) by (apply Rmult_le_pos; assumption). lra.
      + rewrite Rmult_0_l, Rmult_0_r, Rplus_0_l. pose proof (Rle_0_sqr (v i + v j)) as Hq. unfold Rsqr in Hq.
        replace (/ 4 * (c i * c j * ((v i + v j) * (v i + v j)))) with (c i * c j * / 4 * ((v i + v j) * (v i + v j))) by ring.
        apply Rmult_le_compat_r; [exact Hq|]. apply Rmult_le_compat_l; assumption.
    - assert (Hd : 0 <= dsum n (fun i j => pairmult c i j * ((v i + v j) * (v i + v j)))).
      { apply dsum_nonneg. intros i j Hi Hj. apply Rmult_le_pos; [apply (pairmult_nonneg n); assumption|apply Rle_0_sqr]. }
      lra.
  Qed.
  Lemma cm_exp_diag_le x i : (i < n)%nat -> - loglikelihood_hessian_diag_cm_exp n c x i <= W.
  Proof.
    intros Hi. rewrite hessian_diag_cm_exp_nf, Ropp_involutive. apply Rle_trans with (2 := cm_rows i Hi). apply rsum_le. intros j Hj.
    rewrite logi_pair. pose proof (pairmult_nonneg n c i j Hc Hi Hj). pose proof (logi_unit (x i + x j)).
    assert (pairmult c i j * logi (x i + x j) <= pairmult c i j * 1) by (apply Rmult_le_compat_l; lra). lra.
  Qed.
End CMExp.

Lemma qform_unit m (a : nat -> nat -> R) i : (i < m)%nat -> qform m a (unit_vec i) = a i i.
Proof.
  intros Hi. unfold qform. rewrite (rsum_ext m _ (fun r => unit_vec i r * a r i)).
  - apply (rsum_unit_l m i (fun r => a r i) Hi).
  - intros r _. apply (rsum_unit_r m i (fun j => unit_vec i r * a r j) Hi).
Qed.

(** ** Directed binary networks *)
Section DCMExp.
  Variables (n : nat) (ko ki : nat -> R) (nzo nzi : list nat) (c : nat -> R) (W : R).
  Hypothesis Ho : index_list n nzo.
  Hypothesis Hi : index_list n nzi.
  Hypothesis Hc : forall i, (i < n)%nat -> 1 <= c i.
  Hypothesis HW : forall i, (i < n)%nat -> c i * (rsum n c - 1) <= W.
  Hypothesis Hko : forall i, (i < n)%nat -> 0 <= ko i <= rsum n c - 1.
  Hypothesis Hki : forall i, (i < n)%nat -> 0 <= ki i <= rsum n c - 1.
  Let w i j := if andb (memb i nzo) (memb j nzi) then pairmult c i j else 0.
  Let qo i := if memb i nzo then c i * ko i else 0.
  Let qi j := if memb j nzi then c j * ki j else 0.
  Lemma dcm_w_nonneg i j : (i < n)%nat -> (j < n)%nat -> 0 <= w i j.
  Proof. intros. unfold w. destruct (andb _ _); [apply (pairmult_nonneg n); assumption|lra]. Qed.
  Lemma dcm_w_le i j : (i < n)%nat -> (j < n)%nat -> w i j <= pairmult c i j.
  Proof. intros. unfold w. destruct (andb _ _); [lra|apply (pairmult_nonneg n); assumption]. Qed.
  Lemma dcm_row_out i : (i < n)%nat -> rsum n (w i) <= c i * (rsum n c - 1).
  Proof. intros H. rewrite <- pairmult_row by exact H. apply rsum_le. intros j Hj. apply dcm_w_le; assumption. Qed.
  Lemma dcm_row_in j : (j < n)%nat -> rsum n (fun i => w i j) <= c j * (rsum n c - 1).
  Proof. intros H. rewrite <- pairmult_row by exact H. apply rsum_le. intros i Hil. rewrite pairmult_sym. apply dcm_w_le; assumption. Qed.
  Lemma dcm_pairs_bound (d : nat -> R) :
    dsum n (fun i j => w i j * ((d i + d (j + n)%nat) * (d i + d (j + n)%nat))) <= 2 * W * SpecLinsearch.scalar (2 * n) d d.
  Proof.
    apply Rle_trans with (2 * dsum n (fun i j => w i j * (d i * d i)) + 2 * dsum n (fun i j => w i j * (d (j + n)%nat * d (j + n)%nat))).
    - rewrite <- !dsum_scal, <- dsum_plus. apply rsum_le. intros i Hil. apply rsum_le. intros j Hj.
      pose proof (dcm_w_nonneg i j Hil Hj). pose proof (two_squares (d i) (d (j + n)%nat)).
      apply Rle_trans with (w i j * (2 * (d i * d i + d (j + n)%nat * d (j + n)%nat))); [apply Rmult_le_compat_l; assumption|right; ring].
    - unfold SpecLinsearch.scalar. rewrite rsum_two, rsum_plus.
      pose proof (rows_bound n w W d (fun i H => Rle_trans _ _ _ (dcm_row_out i H) (HW i H))) as B1.
      pose proof (rows_bound n (fun j i => w i j) W (fun j => d (j + n)%nat) (fun j H => Rle_trans _ _ _ (dcm_row_in j H) (HW j H))) as B2.
      cbv beta in B2. rewrite (dsum_swap n (fun i j => w i j * (d (j + n)%nat * d (j + n)%nat))) in B2. unfold SpecLinsearch.scalar in B1, B2. lra.
  Qed.
  Lemma dcm_exp_prime_out x i : (i < n)%nat -> - loglikelihood_prime_dcm_exp n ko ki nzo nzi c x i = qo i - rsum n (fun j => w i j * logi (x i + x (j + n)%nat)).
  Proof.
    intros Hil. unfold qo, w. destruct (memb_spec i nzo) as [Hin|Hin].
    - rewrite prime_dcm_exp_out by assumption. rewrite (lsum_mask n) by exact Hi. cbn [andb].
      rewrite (rsum_ext n _ (fun j => - ((if memb j nzi then pairmult c i j else 0) * logi (x i + x (j + n)%nat)))).
      + rewrite rsum_opp. ring.
      + intros j _. rewrite logi_pair. destruct (memb j nzi); ring.
    - rewrite prime_dcm_exp_out_none by assumption. cbn [andb]. rewrite (rsum_zero n); [ring|]. intros; ring.
  Qed.
  Lemma dcm_exp_prime_in x j : - loglikelihood_prime_dcm_exp n ko ki nzo nzi c x (j + n) = qi j - rsum n (fun i => w i j * logi (x i + x (j + n)%nat)).
  Proof.
    unfold qi, w. destruct (memb_spec j nzi) as [Hin|Hin].
    - rewrite prime_dcm_exp_in by assumption. rewrite (lsum_mask n) by exact Ho.
      rewrite (rsum_ext n _ (fun i => - ((if andb (memb i nzo) true then pairmult c i j else 0) * logi (x i + x (j + n)%nat)))).
      + rewrite rsum_opp. ring.
      + intros i _. rewrite logi_pair, andb_true_r. destruct (memb i nzo); ring.
    - rewrite prime_dcm_exp_in_none by assumption. rewrite (rsum_zero n); [ring|]. intros i _. rewrite andb_false_r. ring.
  Qed.
  Lemma within_row (u v : nat -> R) b q : (forall j, (j < n)%nat -> 0 <= u j) -> rsum n u <= b -> (forall j, 0 < v j < 1) -> 0 <= q <= b ->
    Rabs (q - rsum n (fun j => u j * v j)) <= b.
  Proof.
    intros Hu Hb Hv Hq.
    assert (0 <= rsum n (fun j => u j * v j)) by (apply rsum_nonneg; intros j Hj; apply Rmult_le_pos; [apply Hu; exact Hj|specialize (Hv j); lra]).
    assert (rsum n (fun j => u j * v j) <= rsum n u).
    { apply rsum_le. intros j Hj. specialize (Hu j Hj). specialize (Hv j). assert (u j * v j <= u j * 1) by (apply Rmult_le_compat_l; lra). lra. }
    apply Rabs_le. lra.
  Qed.
  Lemma dcm_q_bound (k : nat -> R) (l : list nat) i : (i < n)%nat -> 0 <= k i <= rsum n c - 1 -> 0 <= (if memb i l then c i * k i else 0) <= c i * (rsum n c - 1).
  Proof.
    intros Hil Hk. pose proof (Hc i Hil). assert (0 <= c i * k i) by (apply Rmult_le_pos; lra).
    assert (c i * k i <= c i * (rsum n c - 1)) by (apply Rmult_le_compat_l; lra). destruct (memb i l); lra.
  Qed.
  Lemma dcm_exp_fun_bound x r : (r < 2 * n)%nat -> Rabs (- loglikelihood_prime_dcm_exp n ko ki nzo nzi c x r) <= W.
  Proof.
    intros Hr. destruct (lt_dec r n) as [H|H].
    - rewrite dcm_exp_prime_out by exact H. apply Rle_trans with (2 := HW r H).
      apply (within_row (w r) (fun j => logi (x r + x (j + n)%nat))); [intros j Hj; apply dcm_w_nonneg; assumption|apply dcm_row_out; exact H|intros; apply logi_unit|].
      apply dcm_q_bound; [exact H|apply Hko; exact H].
    - replace r with (r - n + n)%nat by lia. assert (Hj : (r - n < n)%nat) by lia. rewrite dcm_exp_prime_in. apply Rle_trans with (2 := HW _ Hj).
      apply (within_row (fun i => w i (r - n)%nat) (fun i => logi (x i + x (r - n + n)%nat))); [intros i Hil; apply dcm_w_nonneg; assumption|apply dcm_row_in; exact Hj|intros; apply logi_unit|].
      apply dcm_q_bound; [exact Hj|apply Hki; exact Hj].
  Qed.
  Definition dcm_curve (x v : nat -> R) : R := dsum n (fun i j => w i j * (slope (x i + x (j + n)%nat) * ((v i + v (j + n)%nat) * (v i + v (j + n)%nat)))).
  Lemma dcm_exp_smooth x dx a : 0 <= a -> (forall i, (i < 2 * n)%nat -> a * Rabs (dx i) <= / 4) ->
    loglikelihood_dcm_exp n ko ki nzo nzi c x - a * SpecLinsearch.scalar (2 * n) (fun i => - loglikelihood_prime_dcm_exp n ko ki nzo nzi c x i) dx - a * a * dcm_curve x dx
      <= loglikelihood_dcm_exp n ko ki nzo nzi c (moved x a dx).
  Proof.
    intros Ha Hsmall.
    assert (E : forall z, loglikelihood_dcm_exp n ko ki nzo nzi c z = - (rsum n (fun i => qo i * z i) + rsum n (fun j => qi j * z (j + n)%nat)) - dsum n (fun i j => w i j * soft (z i + z (j + n)%nat))).
    { intros z. rewrite loglik_dcm_exp_nf by assumption. rewrite !(lsum_mask n nzo), (lsum_mask n nzi) by assumption. unfold dsum.
      rewrite (rsum_ext n (fun j => if memb j nzo then - (c j * ko j * z j) else 0) (fun i => - (qo i * z i))) by (intros i _; unfold qo; destruct (memb i nzo); ring).
      rewrite (rsum_ext n (fun j => if memb j nzi then - (c j * ki j * z (j + n)%nat) else 0) (fun i => - (qi i * z (i + n)%nat))) by (intros i _; unfold qi; destruct (memb i nzi); ring).
      rewrite !rsum_opp.
      match goal with |- _ - rsum n ?f = _ - rsum n ?g => rewrite (rsum_ext n f g) end; [ring|].
      intros i _. unfold w. destruct (memb i nzo); cbn [andb].
      - rewrite (lsum_mask n nzi) by assumption. apply rsum_ext. intros j _. rewrite soft_pair. destruct (memb j nzi); ring.
      - rewrite (rsum_zero n); [reflexivity|]. intros; ring. }
    rewrite !E. clear E.
    assert (G : SpecLinsearch.scalar (2 * n) (fun i => - loglikelihood_prime_dcm_exp n ko ki nzo nzi c x i) dx =
      rsum n (fun i => qo i * dx i) + rsum n (fun j => qi j * dx (j + n)%nat) - dsum n (fun i j => w i j * (logi (x i + x (j + n)%nat) * (dx i + dx (j + n)%nat)))).
    { unfold SpecLinsearch.scalar. rewrite rsum_two, rsum_plus.
      rewrite (rsum_ext n (fun i => - loglikelihood_prime_dcm_exp n ko ki nzo nzi c x i * dx i) (fun i => qo i * dx i - rsum n (fun j => w i j * logi (x i + x (j + n)%nat) * dx i))).
      2:{ intros i Hil. rewrite dcm_exp_prime_out by exact Hil. rewrite rsum_scal_r. ring. }
      rewrite (rsum_ext n (fun i => - loglikelihood_prime_dcm_exp n ko ki nzo nzi c x (i + n) * dx (i + n)%nat) (fun j => qi j * dx (j + n)%nat - rsum n (fun i => w i j * logi (x i + x (j + n)%nat) * dx (j + n)%nat))).
      2:{ intros j Hj. rewrite dcm_exp_prime_in. rewrite rsum_scal_r. ring. }
      rewrite !rsum_minus.
      rewrite (dsum_ext n _ (fun i j => w i j * logi (x i + x (j + n)%nat) * dx i + w i j * logi (x i + x (j + n)%nat) * dx (j + n)%nat)) by (intros; ring).
      rewrite dsum_plus. rewrite <- (dsum_swap n (fun i j => w i j * logi (x i + x (j + n)%nat) * dx (j + n)%nat)). unfold dsum. ring. }
    rewrite G. clear G.
    assert (Lo : rsum n (fun i => qo i * moved x a dx i) = rsum n (fun i => qo i * x i) + a * rsum n (fun i => qo i * dx i)).
    { rewrite <- rsum_scal_l, <- rsum_plus. apply rsum_ext. intros i _. unfold moved. ring. }
    assert (Li : rsum n (fun i => qi i * moved x a dx (i + n)%nat) = rsum n (fun i => qi i * x (i + n)%nat) + a * rsum n (fun i => qi i * dx (i + n)%nat)).
    { rewrite <- rsum_scal_l, <- rsum_plus. apply rsum_ext. intros i _. unfold moved. ring. }
    rewrite Lo, Li.
    unfold dcm_curve.
    assert (Q : dsum n (fun i j => w i j * soft (moved x a dx i + moved x a dx (j + n)%nat)) <=
      dsum n (fun i j => w i j * soft (x i + x (j + n)%nat)) + - a * dsum n (fun i j => w i j * (logi (x i + x (j + n)%nat) * (dx i + dx (j + n)%nat)))
      + a * a * dsum n (fun i j => w i j * (slope (x i + x (j + n)%nat) * ((dx i + dx (j + n)%nat) * (dx i + dx (j + n)%nat))))).
    { rewrite <- !dsum_scal, <- !dsum_plus. apply rsum_le. intros i Hil. apply rsum_le. intros j Hj.
      pose proof (small_step (2 * n) a dx i (j + n) Ha Hsmall ltac:(lia) ltac:(lia)) as Hlim.
      pose proof (soft_local (x i + x (j + n)%nat) (a * (dx i + dx (j + n)%nat)) Hlim) as Hs.
      replace (x i + x (j + n)%nat + a * (dx i + dx (j + n)%nat)) with (moved x a dx i + moved x a dx (j + n)%nat) in Hs by (unfold moved; ring).
      apply (Rmult_le_compat_l (w i j)) in Hs; [|apply dcm_w_nonneg; assumption].
      eapply Rle_trans; [exact Hs|]. right. ring. }
    lra.
  Qed.
  Lemma dcm_curve_eq x v : dcm_curve x v = qform (2 * n) (fun i j => - loglikelihood_hessian_dcm_exp n nzo nzi c x i j) v.
  Proof.
    rewrite dcm_exp_qform by assumption. unfold dcm_curve. apply dsum_ext. intros i j _ _. rewrite expw_slope, (Rplus_comm (x (j + n)%nat)).
    unfold w, pairmult. rewrite (Nat.eqb_sym j i). destruct (andb _ _); [|ring]. destruct (Nat.eqb i j); ring.
  Qed.
  Lemma dcm_curve_nonneg x v : 0 <= dcm_curve x v.
  Proof.
    apply dsum_nonneg. intros i j Hil Hj. apply Rmult_le_pos; [apply dcm_w_nonneg; assumption|]. apply Rmult_le_pos; [apply slope_bounds|apply Rle_0_sqr].
  Qed.
  Lemma dcm_curve_newton x v : dcm_curve x v <= 2 * qform (2 * n) (fun i j => - loglikelihood_hessian_dcm_exp n nzo nzi c x i j) v.
  Proof. rewrite <- dcm_curve_eq. pose proof (dcm_curve_nonneg x v). lra. Qed.
  Lemma dcm_curve_quasi x v : dcm_curve x v <= 2 * rsum (2 * n) (fun i => - loglikelihood_hessian_diag_dcm_exp n nzo nzi c x i * (v i * v i)).
  Proof.
    assert (D : forall r, (r < 2 * n)%nat -> - loglikelihood_hessian_diag_dcm_exp n nzo nzi c x r = dcm_curve x (unit_vec r)).
    { intros r Hr. rewrite dcm_curve_eq, qform_unit, <- hessian_diag_dcm_exp_eq by exact Hr. reflexivity. }
    assert (Do : forall i, (i < n)%nat -> - loglikelihood_hessian_diag_dcm_exp n nzo nzi c x i = rsum n (fun j => w i j * slope (x i + x (j + n)%nat))).
    { intros i Hil. rewrite D by lia. unfold dcm_curve, dsum. rewrite (rsum_ext n _ (fun p => if Nat.eqb p i then (fun p => rsum n (fun j => w p j * slope (x p + x (j + n)%nat))) p else 0)).
      - apply rsum_single. exact Hil.
      - intros p Hp. unfold unit_vec. destruct (Nat.eqb_spec p i) as [->|Hpi].
        + apply rsum_ext. intros j Hj. replace (Nat.eqb (j + n) i) with false by (symmetry; apply Nat.eqb_neq; lia). ring.
        + apply rsum_zero. intros j Hj. replace (Nat.eqb (j + n) i) with false by (symmetry; apply Nat.eqb_neq; lia). ring. }
    assert (Di : forall j, (j < n)%nat -> - loglikelihood_hessian_diag_dcm_exp n nzo nzi c x (j + n) = rsum n (fun i => w i j * slope (x i + x (j + n)%nat))).
    { intros j Hj. rewrite D by lia. unfold dcm_curve. rewrite <- dsum_swap. unfold dsum. rewrite (rsum_ext n _ (fun p => if Nat.eqb p j then (fun p => rsum n (fun i => w i p * slope (x i + x (p + n)%nat))) p else 0)).
      - apply rsum_single. exact Hj.
      - intros p Hp. unfold unit_vec. destruct (Nat.eqb_spec p j) as [->|Hpj].
        + apply rsum_ext. intros i Hil. rewrite Nat.eqb_refl. replace (Nat.eqb i (j + n)) with false by (symmetry; apply Nat.eqb_neq; lia). ring.
        + apply rsum_zero. intros i Hil. replace (Nat.eqb (p + n) (j + n)) with false by (symmetry; apply Nat.eqb_neq; lia).
          replace (Nat.eqb i (j + n)) with false by (symmetry; apply Nat.eqb_neq; lia). ring. }
    rewrite rsum_two, rsum_plus.
    rewrite (rsum_ext n (fun i => - loglikelihood_hessian_diag_dcm_exp n nzo nzi c x i * (v i * v i)) (fun i => rsum n (fun j => w i j * slope (x i + x (j + n)%nat) * (v i * v i))))
      by (intros i Hil; rewrite Do, rsum_scal_r by exact Hil; reflexivity).
    rewrite (rsum_ext n (fun i => - loglikelihood_hessian_diag_dcm_exp n nzo nzi c x (i + n) * (v (i + n)%nat * v (i + n)%nat))
      (fun j => rsum n (fun i => w i j * slope (x i + x (j + n)%nat) * (v (j + n)%nat * v (j + n)%nat))))
      by (intros j Hj; rewrite Di, rsum_scal_r by exact Hj; reflexivity).
    rewrite (rsum_swap n n (fun j i => w i j * slope (x i + x (j + n)%nat) * (v (j + n)%nat * v (j + n)%nat))).
    rewrite <- rsum_plus, <- rsum_scal_l. unfold dcm_curve, dsum. apply rsum_le. intros i Hil. rewrite <- rsum_plus, <- rsum_scal_l. apply rsum_le. intros j Hj.
    pose proof (slope_bounds (x i + x (j + n)%nat)) as [Hs _]. pose proof (dcm_w_nonneg i j Hil Hj) as Hp. pose proof (two_squares (v i) (v (j + n)%nat)) as T.
    apply (Rmult_le_compat_l (w i j * slope (x i + x (j + n)%nat))) in T; [|apply Rmult_le_pos; assumption]. lra.
  Qed.
  Lemma dcm_exp_qform_le x v : qform (2 * n) (fun i j => - loglikelihood_hessian_dcm_exp n nzo nzi c x i j) v <= W * SpecLinsearch.scalar (2 * n) v v.
  Proof.
    rewrite dcm_exp_qform by assumption. pose proof (dcm_pairs_bound v) as B. 
    apply Rle_trans with (/ 4 * dsum n (fun i j => w i j * ((v i + v (j + n)%nat) * (v i + v (j + n)%nat)))).
    - rewrite <- dsum_scal. apply rsum_le. intros i Hil. apply rsum_le. intros j Hj.
      pose proof (expw_quarter (x (j + n)%nat) (x i)). pose proof (dcm_w_nonneg i j Hil Hj) as Hp. unfold w, pairmult in *. rewrite (Nat.eqb_sym j i).
      pose proof (Rle_0_sqr (v i + v (j + n)%nat)) as Hq. unfold Rsqr in Hq.
      destruct (andb (memb i nzo) (memb j nzi)); [|lra]. set (p := if Nat.eqb i j then c i * (c i - 1) else c i * c j) in *.
      set (q := (v i + v (j + n)%nat) * (v i + v (j + n)%nat)) in *. replace (/ 4 * (p * q)) with (p * / 4 * q) by ring.
      apply Rmult_le_compat_r; [exact Hq|]. apply Rmult_le_compat_l; assumption.
    - assert (Hd : 0 <= dsum n (fun i j => w i j * ((v i + v (j + n)%nat) * (v i + v (j + n)%nat)))).
      { apply dsum_nonneg. intros i j Hil Hj. apply Rmult_le_pos; [apply dcm_w_nonneg; assumption|apply Rle_0_sqr]. }
      pose proof (scalar_nonneg (2 * n) v). lra.
  Qed.
End DCMExp.

(** ** Returned arrays are finite *)
Lemma real_vec_fin m (v : nat -> R) : real_vec m (Some (VVec (fun i => Fin (v i)))) = Some v.
Proof.
  unfold real_vec, all_fin. replace (forallb _ (seq 0 m)) with true; [reflexivity|]. symmetry. apply forallb_forall. reflexivity.
Qed.
Lemma real_mat_fin m (h : nat -> nat -> R) : real_mat m (Some (VMat (fun i j => Fin (h i j)))) = Some h.
Proof.
  unfold real_mat. replace (forallb _ (seq 0 m)) with true; [reflexivity|]. symmetry. apply forallb_forall. intros i _.
  unfold all_fin. replace (forallb _ (seq 0 m)) with true; [reflexivity|]. symmetry. apply forallb_forall. reflexivity.
Qed.
Lemma scalar_unit m i : (i < m)%nat -> SpecLinsearch.scalar m (unit_vec i) (unit_vec i) = 1.
Proof. intros Hi. unfold SpecLinsearch.scalar. rewrite (rsum_unit_l m i (unit_vec i) Hi). unfold unit_vec. rewrite Nat.eqb_refl. reflexivity. Qed.

Section RunsU.
  Variables (linsolve : (nat -> nat -> R) -> (nat -> R) -> option (nat -> R)) (ok : (nat -> nat -> R) -> bool)
    (eigh : (nat -> nat -> R) -> (nat -> R) * (nat -> nat -> R)) (fuel : nat).
  Definition in_tolerance m (D : dispatched) (a : arguments) (O : options R) (x0 x : nat -> R) : Prop :=
    converged (run_numerics linsolve ok m) (run_problem eigh fuel m D a) O x0 x.
  Lemma cm_exp_reaches reg meth n k c W U O x0 :
    linear_solver n linsolve -> solves_definite n linsolve -> eigen_solver n eigh -> In meth descent_methods -> documented O meth ->
    (0 < n)%nat -> 0 < W -> (forall i, (i < n)%nat -> 1 <= c i) -> (forall i, (i < n)%nat -> c i * (rsum n c - 1) <= W) ->
    (forall i, (i < n)%nat -> 0 <= k i <= rsum n c - 1) -> (forall z, loglikelihood_cm_exp n k c z <= U) ->
    ample n W (U - loglikelihood_cm_exp n k c x0) O ->
    accepted u_dispatch "cm_exp" meth reg (fun D => (forall z, p_fun (run_problem eigh fuel n D (A2 n k c)) z = Some (fun i => - loglikelihood_prime_cm_exp n k c z i)) /\
      exists x kk ns ds als norm, solver (run_numerics linsolve ok n) (run_problem eigh fuel n D (A2 n k c)) O x0 = Full x kk ns ds als /\
        nth_error ns kk = Some norm /\ norm <= o_tol O /\ INR kk * least_rise n W O <= U - loglikelihood_cm_exp n k c x0).
  Proof.
    intros HL HD HE Hm HO Hn HW Hc Hw Hk HU HA. destruct HO as (HM & HS & HR & He & _).
    cbn in Hm. destruct Hm as [<-|[<-|[]]]; eexists; (split; [reflexivity|]); (split; [intros z; apply real_vec_fin|]).
    - refine (reaches linsolve ok eigh n _ O (loglikelihood_cm_exp n k c) (cm_curve n c) W U x0 HL HD HE Hn _ HS HR He HW HA HU _ _ _ _ _).
      + left. exact HM.
      + intros x. exists (fun i => - loglikelihood_prime_cm_exp n k c x i). split; [apply real_vec_fin|]. split.
        * intros i Hi. apply cm_exp_fun_bound; assumption.
        * intros dx a Ha Hs. apply cm_exp_smooth; assumption.
      + intros x dx f. reflexivity.
      + intros _ x. exists (fun i j => - loglikelihood_hessian_cm_exp n c x i j). split; [apply real_mat_fin|]. split; intros v; [apply cm_exp_qform_le|apply cm_curve_newton]; assumption.
      + intros _. destruct (any_regulariser reg _ eq_refl) as [E|E]; [left|right]; cbn [p_reg run_problem d_reg].
        * intros H e. rewrite E. reflexivity.
        * split; [intros H e; rewrite E; reflexivity|].
          intros z H HH v. exact (psd_of n (loglikelihood_hessian_cm_exp n c z) H v (cm_exp_psd n c z v Hc) HH).
      + intros HN. rewrite HM in HN. discriminate HN.
    - refine (reaches linsolve ok eigh n _ O (loglikelihood_cm_exp n k c) (cm_curve n c) W U x0 HL HD HE Hn _ HS HR He HW HA HU _ _ _ _ _).
      + right. exact HM.
      + intros x. exists (fun i => - loglikelihood_prime_cm_exp n k c x i). split; [apply real_vec_fin|]. split.
        * intros i Hi. apply cm_exp_fun_bound; assumption.
        * intros dx a Ha Hs. apply cm_exp_smooth; assumption.
      + intros x dx f. reflexivity.
      + intros HN. rewrite HM in HN. discriminate HN.
      + intros HN. rewrite HM in HN. discriminate HN.
      + intros _ x. exists (fun i => - loglikelihood_hessian_diag_cm_exp n c x i). split; [apply real_vec_fin|]. split; [intros i Hi; apply cm_exp_diag_le; assumption|intros v; apply cm_curve_quasi; assumption].
  Qed.
  Lemma dcm_exp_reaches reg meth n ko ki nzo nzi c W U O x0 :
    linear_solver (2 * n) linsolve -> solves_definite (2 * n) linsolve -> eigen_solver (2 * n) eigh -> In meth descent_methods -> documented O meth ->
    (0 < n)%nat -> 0 < W -> (forall i, (i < n)%nat -> 1 <= c i) -> (forall i, (i < n)%nat -> c i * (rsum n c - 1) <= W) ->
    (forall i, (i < n)%nat -> 0 <= ko i <= rsum n c - 1) -> (forall i, (i < n)%nat -> 0 <= ki i <= rsum n c - 1) -> index_list n nzo -> index_list n nzi -> (forall z, loglikelihood_dcm_exp n ko ki nzo nzi c z <= U) ->
    ample (2 * n) W (U - loglikelihood_dcm_exp n ko ki nzo nzi c x0) O ->
    accepted d_dispatch "dcm_exp" meth reg (fun D => (forall z, p_fun (run_problem eigh fuel (2 * n) D (A5d n ko ki nzo nzi c)) z = Some (fun i => - loglikelihood_prime_dcm_exp n ko ki nzo nzi c z i)) /\
      exists x kk ns ds als norm, solver (run_numerics linsolve ok (2 * n)) (run_problem eigh fuel (2 * n) D (A5d n ko ki nzo nzi c)) O x0 = Full x kk ns ds als /\
        nth_error ns kk = Some norm /\ norm <= o_tol O /\ INR kk * least_rise (2 * n) W O <= U - loglikelihood_dcm_exp n ko ki nzo nzi c x0).
  Proof.
    intros HL HD HE Hm HO Hn HW Hc Hw Hko Hki Ho Hi HU HA. destruct HO as (HM & HS & HR & He & _).
    cbn in Hm. destruct Hm as [<-|[<-|[]]]; eexists; (split; [reflexivity|]); (split; [intros z; apply real_vec_fin|]).
    - refine (reaches linsolve ok eigh (2 * n) _ O (loglikelihood_dcm_exp n ko ki nzo nzi c) (dcm_curve n nzo nzi c) W U x0 HL HD HE ltac:(lia) _ HS HR He HW HA HU _ _ _ _ _).
      + left. exact HM.
      + intros x. exists (fun i => - loglikelihood_prime_dcm_exp n ko ki nzo nzi c x i). split; [apply real_vec_fin|]. split.
        * intros i Hil. apply dcm_exp_fun_bound; assumption.
        * intros dx a Ha Hs. apply dcm_exp_smooth; assumption.
      + intros x dx f. reflexivity.
      + intros _ x. exists (fun i j => - loglikelihood_hessian_dcm_exp n nzo nzi c x i j). split; [apply real_mat_fin|]. split; intros v; [apply dcm_exp_qform_le|apply dcm_curve_newton]; assumption.
      + intros _. destruct (any_regulariser reg _ eq_refl) as [E|E]; [left|right]; cbn [p_reg run_problem d_reg].
        * intros H e. rewrite E. reflexivity.
        * split; [intros H e; rewrite E; reflexivity|].
          intros z H HH v. exact (psd_of (2 * n) (loglikelihood_hessian_dcm_exp n nzo nzi c z) H v (dcm_exp_psd n nzo nzi c z v Ho Hi Hc) HH).
      + intros HN. rewrite HM in HN. discriminate HN.
    - refine (reaches linsolve ok eigh (2 * n) _ O (loglikelihood_dcm_exp n ko ki nzo nzi c) (dcm_curve n nzo nzi c) W U x0 HL HD HE ltac:(lia) _ HS HR He HW HA HU _ _ _ _ _).
      + right. exact HM.
      + intros x. exists (fun i => - loglikelihood_prime_dcm_exp n ko ki nzo nzi c x i). split; [apply real_vec_fin|]. split.
        * intros i Hil. apply dcm_exp_fun_bound; assumption.
        * intros dx a Ha Hs. apply dcm_exp_smooth; assumption.
      + intros x dx f. reflexivity.
      + intros HN. rewrite HM in HN. discriminate HN.
      + intros HN. rewrite HM in HN. discriminate HN.
      + intros _ x. exists (fun i => - loglikelihood_hessian_diag_dcm_exp n nzo nzi c x i). split; [apply real_vec_fin|]. split; [|intros v; apply dcm_curve_quasi; assumption]. intros i Hil.
        pose proof (dcm_exp_qform_le n nzo nzi c W Ho Hi Hc Hw x (unit_vec i)) as Hq.
        rewrite (qform_unit (2 * n)), (scalar_unit (2 * n)), <- hessian_diag_dcm_exp_eq in Hq by exact Hil. rewrite Rmult_1_r in Hq. exact Hq.
  Qed.
End RunsU.
