(** The mean contribution of a pair to a file. *)
From Coq Require Import Reals List Arith Lra Lia Bool String ZArith.
From Coquelicot Require Import Coquelicot.
From Verif Require Import Base SpecGraph SpecWeighted SpecEnsemble ModelSolve ModelSampler SpecSampler SpecSamples ModelSample SpecReported
  ProofsPairW ProofsMainDECM ProofsSampler ProofsSamplerLaw ProofsSamples ProofsReported.
Local Open Scope R_scope.
Import ListNotations.

Lemma enh_mean z y : 0 <= z -> 0 <= y < 1 -> mean_of_law (q_enh z y) ((1 - q_enh z y 0) / (1 - y)).
Proof.
  intros Hz Hy. unfold mean_of_law. assert (HD : 0 < 1 - y + z * y) by (assert (0 <= z * y) by (apply Rmult_le_pos; lra); lra).
  assert (E : (1 - q_enh z y 0) / (1 - y) = z * y / ((1 - y + z * y) * (1 - y))) by (unfold q_enh, linked; cbn [Nat.eqb negb pow]; field; lra).
  rewrite E. apply (q_enh_means z y Hz Hy).
Qed.
Lemma tail_mean p b : 0 < b -> mean_of_tail (fun t => p * exp (- b * t)) (p / b).
Proof.
  intros Hb. unfold mean_of_tail. pose (F := fun t => - (p / b) * exp (- b * t)).
  assert (DF : forall t, is_derive F t (p * exp (- b * t))) by (intros t; unfold F; auto_derive; [trivial|field; lra]).
  replace (p / b) with (0 - F 0) by (unfold F; rewrite Rmult_0_r, exp_0; ring).
  apply (is_RInt_gen_ext (Derive F)).
  { apply filter_forall. intros [a c] t _. apply is_derive_unique, DF. }
  assert (CF : forall t, continuous (Derive F) t).
  { intros t. apply (continuous_ext (fun t => p * exp (- b * t))); [intros s; symmetry; apply is_derive_unique, DF|].
    apply (ex_derive_continuous (fun t => p * exp (- b * t))). auto_derive. trivial. }
  apply (is_RInt_gen_Derive F (F 0) 0).
  - apply filter_forall. intros ac t _. eexists. apply DF.
  - apply filter_forall. intros ac t _. apply CF.
  - intros P HP. unfold filtermap, at_point. apply (locally_singleton _ _ HP).
  - change (is_lim F p_infty 0). unfold F. replace (Finite 0) with (Rbar_mult (- (p / b)) 0) by (simpl; f_equal; ring).
    apply is_lim_scal_l. apply (is_lim_comp exp (fun t => - b * t) p_infty 0 m_infty).
    + apply is_lim_exp_m.
    + replace m_infty with (Rbar_mult (- b) p_infty).
      * apply is_lim_scal_l, is_lim_id.
      * unfold Rbar_mult. simpl. destruct (Rle_dec 0 (- b)) as [H|H]; [exfalso; lra|]. reflexivity.
    + exists 0. intros t _. discriminate.
Qed.

(** * One pair *)
Lemma prob2_ext E E' p : (forall u v, 0 <= u < 1 -> 0 <= v < 1 -> E u v = E' u v) -> prob2 E p -> prob2 E' p.
Proof. intros H (g & Hg & Ig). exists g. split; [|exact Ig]. intros u Hu. eapply prob1_ext; [|exact (Hg u Hu)]. intros v Hv. symmetry; apply H; assumption. Qed.
Lemma int_mean G (draw : R -> R -> gstate G) (z y : nat -> nat -> R) i j : numpy_contract G -> uniform_then_geometric G draw ->
  0 <= z i j -> 0 <= y i j < 1 ->
  exists q, (forall k, prob2 (fun u v => counts k (int_outcome G (p_enh z y) y (i, j) (draw u v))) (q k)) /\
    mean_of_law q (int_weight (p_enh z y) y i j) /\ prob2 (fun u v => joins (int_outcome G (p_enh z y) y (i, j) (draw u v))) (p_enh z y i j).
Proof.
  intros HG HD HZ HY. exists (q_enh (z i j) (y i j)). split; [|split].
  - intros k. exact (int_outcome_prob G draw z y (i, j) k HG HD HZ HY).
  - apply enh_mean; assumption.
  - assert (HP : 0 <= p_enh z y i j <= 1).
    { unfold p_enh, q_enh. cbn [linked Nat.eqb negb pow]. assert (0 <= z i j * y i j) by (apply Rmult_le_pos; lra).
      assert (E : 1 - 1 * 1 * ((1 - y i j) / (1 - y i j + z i j * y i j)) = z i j * y i j / (1 - y i j + z i j * y i j)) by (field; lra).
      rewrite E. split; [apply Rdiv_le_0_compat; lra|]. apply (Rmult_le_reg_r (1 - y i j + z i j * y i j)); [lra|]. unfold Rdiv. rewrite Rmult_assoc, Rinv_l by lra. lra. }
    replace (p_enh z y i j) with (p_enh z y i j * 1 + (1 - p_enh z y i j) * 0) by ring.
    apply prob2_step; [exact HP|]. intros u Hu. destruct (HD u Hu (1 - y i j) ltac:(lra)) as (K & HK & HE). destruct (Rlt_dec u (p_enh z y i j)) as [H|H].
    + eapply prob1_ext; [|exact (prob1_const true)]. intros v Hv. destruct (HE v Hv) as (s1 & s2 & R1 & R2). unfold int_outcome. rewrite R1. cbn [fst snd]. destruct (Rlt_dec u _); [|contradiction]. rewrite R2. reflexivity.
    + eapply prob1_ext; [|exact (prob1_const false)]. intros v Hv. destruct (HE v Hv) as (s1 & s2 & R1 & R2). unfold int_outcome. rewrite R1. cbn [fst snd]. destruct (Rlt_dec u _); [contradiction|]. reflexivity.
Qed.
Lemma real_mean G (draw : R -> R -> gstate G) (p b : nat -> nat -> R) i j : uniform_then_exponential G draw -> 0 <= p i j <= 1 -> 0 < b i j ->
  exists T, (forall t, 0 <= t -> prob2 (fun u v => exceeds t (real_outcome G p b (i, j) (draw u v))) (T t)) /\
    mean_of_tail T (real_weight p b i j) /\ prob2 (fun u v => joins (real_outcome G p b (i, j) (draw u v))) (p i j).
Proof.
  intros HD HP HB. exists (fun t => p i j * exp (- b i j * t)). split; [|split].
  - intros t Ht. eapply prob2_ext; [|exact (real_outcome_prob G draw p b (i, j) (Some t) HD HP HB ltac:(intros a E; injection E as <-; exact Ht))].
    intros u v _ _. unfold has_real, exceeds. generalize (real_outcome G p b (i, j) (draw u v)). intros r. destruct r as [[e' [w| | |]]|]; reflexivity.
  - apply tail_mean, HB.
  - replace (p i j) with (p i j * 1 + (1 - p i j) * 0) by ring.
    assert (HQ : 0 < 1 / b i j) by (apply Rdiv_lt_0_compat; lra).
    apply prob2_step; [exact HP|]. intros u Hu. destruct (HD u Hu _ HQ) as (W & HW & HE). destruct (Rlt_dec u (p i j)) as [H|H].
    + eapply prob1_ext; [|exact (prob1_const true)]. intros v Hv. destruct (HE v Hv) as (s1 & s2 & R1 & R2). unfold real_outcome. rewrite R1. cbn [fst snd]. destruct (Rlt_dec u _); [|contradiction]. rewrite R2. reflexivity.
    + eapply prob1_ext; [|exact (prob1_const false)]. intros v Hv. destruct (HE v Hv) as (s1 & s2 & R1 & R2). unfold real_outcome. rewrite R1. cbn [fst snd]. destruct (Rlt_dec u _); [contradiction|]. reflexivity.
Qed.
Lemma sure_mean G (draw : R -> gstate G) (b : nat -> nat -> R) i j : exponential_draws G draw -> 0 < b i j ->
  exists T, (forall t, 0 <= t -> prob1 (fun v => exceeds t (sure_outcome G b (i, j) (draw v))) (T t)) /\
    mean_of_tail T (real_weight certain b i j) /\ forall v, 0 <= v < 1 -> joins (sure_outcome G b (i, j) (draw v)) = true.
Proof.
  intros HD HB. assert (HQ : 0 < 1 / b i j) by (apply Rdiv_lt_0_compat; lra). destruct (HD _ HQ) as (W & HW & HE).
  exists (fun t => 1 * exp (- b i j * t)). split; [|split].
  - intros t Ht. replace (1 * exp (- b i j * t)) with (exp (- t / (1 / b i j))) by (rewrite Rmult_1_l; f_equal; field; lra).
    eapply prob1_ext; [|exact (HW t Ht)]. intros v Hv. destruct (HE v Hv) as (s2 & R2). unfold sure_outcome. cbn [fst snd]. rewrite R2. reflexivity.
  - unfold real_weight, certain. apply tail_mean, HB.
  - intros v Hv. destruct (HE v Hv) as (s2 & R2). unfold sure_outcome. cbn [fst snd]. rewrite R2. reflexivity.
Qed.
