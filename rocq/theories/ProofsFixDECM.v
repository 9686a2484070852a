(** DECM: fixed points of the iteration maps, maximum and uniqueness, witnesses. *)
From Coq Require Import Reals List Arith Lia Lra Bool.
From Coquelicot Require Import Coquelicot.
From Verif Require Import Base SpecDeriv SpecGraph SpecWeighted ModelDCM ModelDECM.
From Verif Require Import ProofsDeriv ProofsGraph ProofsPairW ProofsECM ProofsMainECM ProofsDECM ProofsMainDECM WitnessCM.
Local Open Scope R_scope.

(** * Fixed points *)

Lemma sdiv_fix k f v : k <> 0 -> 0 < v -> (sdiv k f = Some v <-> kd k v - f = 0).
Proof.
  intros Hk Hv. rewrite kd_eq. unfold sdiv. destruct (Req_EM_T f 0) as [E|E].
  - subst. split; [discriminate|]. intros H.
    assert (k / v = 0) by lra. apply Rmult_integral in H0. destruct H0; [lra|].
    apply Rinv_0_lt_compat in Hv. lra.
  - split; intros H.
    + injection H as H. rewrite <- H. field. split; assumption.
    + f_equal. replace f with (k / v) by lra. field. lra.
Qed.

Lemma sneglog_fix k f t : k <> 0 ->
  (sneglog (sdiv k f) = Some (Fin t) <-> kd k (exp (- t)) - f = 0).
Proof.
  intros Hk. rewrite <- (sdiv_fix k f (exp (- t)) Hk (exp_pos _)).
  unfold sdiv, sneglog. destruct (Req_EM_T f 0) as [E|E].
  - split; discriminate.
  - unfold fneglog. destruct (Rlt_dec 0 (k / f)) as [L|L].
    + split; intros H; injection H as H; f_equal.
      * rewrite <- H, Ropp_involutive, exp_ln by exact L. reflexivity.
      * f_equal. rewrite H, ln_exp. ring.
    + split; [destruct (Req_EM_T (k / f) 0); discriminate|].
      intros H. injection H as H. pose proof (exp_pos (- t)). lra.
Qed.

Section Iter.
Variables (n : nat) (ko ki so si : nat -> R).

Lemma iterative_decm_0 x i : (i < n)%nat -> ko i <> 0 ->
  iterative_decm n ko ki so si x i = sdiv (ko i) (Row_out n g_ao i x).
Proof.
  intros Hi Hk. unfold iterative_decm. rewrite by_block0 by exact Hi. cbv zeta.
  rewrite loop_add_skip, Rplus_0_l. destruct (Req_EM_T (ko i) 0); [contradiction|]. reflexivity.
Qed.
Lemma iterative_decm_1 x i : (i < n)%nat -> ki i <> 0 ->
  iterative_decm n ko ki so si x (i + n) = sdiv (ki i) (Row_in n g_ai i x).
Proof.
  intros Hi Hk. unfold iterative_decm. rewrite by_block1 by exact Hi. cbv zeta.
  rewrite loop_add_skip, Rplus_0_l. destruct (Req_EM_T (ki i) 0); [contradiction|]. reflexivity.
Qed.
Lemma iterative_decm_2 x i : (i < n)%nat -> so i <> 0 ->
  iterative_decm n ko ki so si x (i + 2 * n) = sdiv (so i) (Row_out n g_bo i x).
Proof.
  intros Hi Hk. unfold iterative_decm. rewrite by_block2 by exact Hi. cbv zeta.
  rewrite loop_add_skip, Rplus_0_l. destruct (Req_EM_T (so i) 0); [contradiction|].
  f_equal. apply rsum_skip_ext. intros j Hj Hji. unfold g_bo.
  rewrite (Rmult_comm (x (j + 3 * n)%nat) (x (i + 2 * n)%nat)), (Rmult_comm (x (j + n)%nat) (x i)). reflexivity.
Qed.
Lemma iterative_decm_3 x i : (i < n)%nat -> si i <> 0 ->
  iterative_decm n ko ki so si x (i + 3 * n) = sdiv (si i) (Row_in n g_bi i x).
Proof.
  intros Hi Hk. unfold iterative_decm. rewrite by_block3 by exact Hi. cbv zeta.
  rewrite loop_add_skip, Rplus_0_l. destruct (Req_EM_T (si i) 0); [contradiction|].
  f_equal. apply rsum_skip_ext. intros j Hj Hji. unfold g_bi.
  rewrite (Rmult_comm (x (i + 3 * n)%nat) (x (j + 2 * n)%nat)), (Rmult_comm (x (i + n)%nat) (x j)). reflexivity.
Qed.

Lemma fixed_point_decm_iff x r :
  (r < 4 * n)%nat -> 0 < x r -> decm_constraint n ko ki so si r <> 0 ->
  (iterative_decm n ko ki so si x r = Some (x r) <-> loglikelihood_prime_decm n ko ki so si x r = 0).
Proof.
  intros Hr. revert r Hr.
  apply (coord4 n (fun r => 0 < x r -> decm_constraint n ko ki so si r <> 0 ->
  (iterative_decm n ko ki so si x r = Some (x r) <-> loglikelihood_prime_decm n ko ki so si x r = 0)));
    intros i Hi Hx.
  - rewrite constraint0 by exact Hi. intros Hc. rewrite iterative_decm_0, prime_decm_0 by assumption. apply sdiv_fix; assumption.
  - rewrite constraint1 by exact Hi. intros Hc. rewrite iterative_decm_1, prime_decm_1 by assumption. apply sdiv_fix; assumption.
  - rewrite constraint2 by exact Hi. intros Hc. rewrite iterative_decm_2, prime_decm_2 by assumption. apply sdiv_fix; assumption.
  - rewrite constraint3 by exact Hi. intros Hc. rewrite iterative_decm_3, prime_decm_3 by assumption. apply sdiv_fix; assumption.
Qed.

Lemma iterative_decm_zero x r :
  (r < 4 * n)%nat -> decm_constraint n ko ki so si r = 0 ->
  iterative_decm n ko ki so si x r = Some 0.
Proof.
  intros Hr. revert r Hr.
  apply (coord4 n (fun r => decm_constraint n ko ki so si r = 0 -> iterative_decm n ko ki so si x r = Some 0));
    intros i Hi; unfold iterative_decm.
  - rewrite constraint0, by_block0 by exact Hi. intros Hc. cbv zeta. destruct (Req_EM_T (ko i) 0); [reflexivity|contradiction].
  - rewrite constraint1, by_block1 by exact Hi. intros Hc. cbv zeta. destruct (Req_EM_T (ki i) 0); [reflexivity|contradiction].
  - rewrite constraint2, by_block2 by exact Hi. intros Hc. cbv zeta. destruct (Req_EM_T (so i) 0); [reflexivity|contradiction].
  - rewrite constraint3, by_block3 by exact Hi. intros Hc. cbv zeta. destruct (Req_EM_T (si i) 0); [reflexivity|contradiction].
Qed.

(** Out-blocks of the exponential map. *)
Lemma fixed_point_decm_exp_out theta i :
  (i < n)%nat -> decm_exp_dom n theta -> ko i <> 0 -> so i <> 0 ->
  (iterative_decm_exp n ko ki so si theta i = Some (Fin (theta i)) <->
     loglikelihood_prime_decm_exp n ko ki so si theta i = 0) /\
  (iterative_decm_exp n ko ki so si theta (i + 2 * n) = Some (Fin (theta (i + 2 * n)%nat)) <->
     loglikelihood_prime_decm_exp n ko ki so si theta (i + 2 * n) = 0).
Proof.
  intros Hi HD Hk Hs.
  assert (Hz : forall a b : R, (- exp a * b = 0 <-> b = 0)).
  { intros a b. pose proof (exp_pos a). split; intros H0; [|rewrite H0; ring].
    apply Rmult_integral in H0; destruct H0; lra. }
  split.
  - rewrite prime_decm_exp_eq, Hz, prime_decm_0, <- sneglog_fix by (try assumption; lia).
    unfold iterative_decm_exp. rewrite by_block0 by exact Hi. cbv zeta.
    rewrite loop_add_skip, Rplus_0_l. destruct (Req_EM_T (ko i) 0); [contradiction|]. reflexivity.
  - rewrite prime_decm_exp_eq, Hz, prime_decm_2, <- sneglog_fix by (try assumption; lia).
    unfold iterative_decm_exp. rewrite by_block2 by exact Hi. cbv zeta.
    rewrite loop_add_skip, Rplus_0_l. destruct (Req_EM_T (so i) 0); [contradiction|].
    match goal with |- sneglog (sdiv _ ?a) = _ <-> _ => replace a with (Row_out n g_bo i (fun r => exp (- theta r))); [reflexivity|] end.
    apply rsum_skip_ext. intros j Hj Hji. unfold g_bo.
    destruct (pairok_exp (theta i) (theta (i + 2 * n)%nat) (theta (j + n)%nat) (theta (j + 3 * n)%nat)
      (HD i j ltac:(lia) ltac:(lia) ltac:(lia))) as (? & ? & ? & ? & ? & ? & ?).
    field. repeat split; lra.
Qed.

(** What the in-blocks solve instead. *)
Lemma iterative_decm_exp_in theta i :
  (i < n)%nat -> decm_exp_dom n theta -> ki i <> 0 -> si i <> 0 ->
  (iterative_decm_exp n ko ki so si theta (i + n) = Some (Fin (theta (i + n)%nat)) <->
     ki i = rsum n (fun j => if Nat.eqb i j then 0 else
       exp (- theta (j + n)%nat) / exp (- theta j) * PP n (fun r => exp (- theta r)) j i)) /\
  (iterative_decm_exp n ko ki so si theta (i + 3 * n) = Some (Fin (theta (i + 3 * n)%nat)) <->
     si i = rsum n (fun j => if Nat.eqb i j then 0 else
       exp (- theta (j + 3 * n)%nat) / exp (- theta (j + 2 * n)%nat) * MM n (fun r => exp (- theta r)) j i)).
Proof.
  intros Hi HD Hk Hs.
  assert (Hq : forall k v a : R, 0 < v -> (k / v - a = 0 <-> k = v * a)).
  { intros k v a Hv. split; intros H.
    - replace a with (k / v) by lra. field. lra.
    - rewrite H. field. lra. }
  split.
  - unfold iterative_decm_exp. rewrite by_block1 by exact Hi. cbv zeta.
    rewrite loop_add_skip, Rplus_0_l. destruct (Req_EM_T (ki i) 0); [contradiction|].
    rewrite sneglog_fix, kd_eq, Hq by (try assumption; apply exp_pos). rewrite rsum_skip_scal.
    match goal with |- _ = ?a <-> _ = ?b => replace a with b; [reflexivity|] end.
    apply rsum_skip_ext. intros j Hj Hji. unfold PP, zz, yy.
    destruct (pairok_exp (theta j) (theta (j + 2 * n)%nat) (theta (i + n)%nat) (theta (i + 3 * n)%nat)
      (HD j i ltac:(lia) ltac:(lia) ltac:(lia))) as (? & ? & ? & ? & ? & ? & ?).
    field. repeat split; lra.
  - unfold iterative_decm_exp. rewrite by_block3 by exact Hi. cbv zeta.
    rewrite loop_add_skip, Rplus_0_l. destruct (Req_EM_T (si i) 0); [contradiction|].
    rewrite sneglog_fix, kd_eq, Hq by (try assumption; apply exp_pos). rewrite rsum_skip_scal.
    match goal with |- _ = ?a <-> _ = ?b => replace a with b; [reflexivity|] end.
    apply rsum_skip_ext. intros j Hj Hji. unfold MM, zz, yy.
    destruct (pairok_exp (theta j) (theta (j + 2 * n)%nat) (theta (i + n)%nat) (theta (i + 3 * n)%nat)
      (HD j i ltac:(lia) ltac:(lia) ltac:(lia))) as (? & ? & ? & ? & ? & ? & ?).
    field. repeat split; lra.
Qed.

(** Degree blocks of the alternative map. *)
Lemma fixed_point_decm_exp_2_degrees theta i :
  (i < n)%nat -> decm_exp_dom n theta -> ko i <> 0 -> ki i <> 0 ->
  (iterative_decm_exp_2 n ko ki so si theta i = Some (Fin (theta i)) <->
     loglikelihood_prime_decm_exp n ko ki so si theta i = 0) /\
  (iterative_decm_exp_2 n ko ki so si theta (i + n) = Some (Fin (theta (i + n)%nat)) <->
     loglikelihood_prime_decm_exp n ko ki so si theta (i + n) = 0).
Proof.
  intros Hi HD Hk Hs.
  assert (Hz : forall a b : R, (- exp a * b = 0 <-> b = 0)).
  { intros a b. pose proof (exp_pos a). split; intros H0; [|rewrite H0; ring].
    apply Rmult_integral in H0; destruct H0; lra. }
  split.
  - rewrite prime_decm_exp_eq, Hz, prime_decm_0, <- sneglog_fix by (try assumption; lia).
    unfold iterative_decm_exp_2. rewrite by_block0 by exact Hi. cbv zeta.
    rewrite loop_add_skip, Rplus_0_l.
    match goal with |- sneglog (sdiv _ ?a) = _ <-> _ => replace a with (Row_out n g_ao i (fun r => exp (- theta r))); [reflexivity|] end.
    apply rsum_skip_ext. intros j Hj Hji. unfold g_ao.
    destruct (pairok_exp (theta i) (theta (i + 2 * n)%nat) (theta (j + n)%nat) (theta (j + 3 * n)%nat)
      (HD i j ltac:(lia) ltac:(lia) ltac:(lia))) as (? & ? & ? & ? & ? & ? & ?).
    field. repeat split; lra.
  - rewrite prime_decm_exp_eq, Hz, prime_decm_1, <- sneglog_fix by (try assumption; lia).
    unfold iterative_decm_exp_2. rewrite by_block1 by exact Hi. cbv zeta.
    rewrite loop_add_skip, Rplus_0_l.
    match goal with |- sneglog (sdiv _ ?a) = _ <-> _ => replace a with (Row_in n g_ai i (fun r => exp (- theta r))); [reflexivity|] end.
    apply rsum_skip_ext. intros j Hj Hji. unfold g_ai.
    destruct (pairok_exp (theta j) (theta (j + 2 * n)%nat) (theta (i + n)%nat) (theta (i + 3 * n)%nat)
      (HD j i ltac:(lia) ltac:(lia) ltac:(lia))) as (? & ? & ? & ? & ? & ? & ?).
    field. repeat split; lra.
Qed.

End Iter.

(** * Maximum and uniqueness *)

Lemma loglik_decm_at_solution n ko ki so si x z :
  decm_dom n x -> decm_dom n z ->
  (forall r, (r < 4 * n)%nat -> expected_decm n x r = decm_constraint n ko ki so si r) ->
  loglikelihood_decm n ko ki so si z = dsum n (fun i j => dterm n z (PP n x i j) (MM n x i j) i j).
Proof.
  intros HD HZ H. apply loglik_decm_pairs; auto; intros i Hi.
  - rewrite <- (expected_decm_0 n x HD i Hi), H by lia. apply constraint0; exact Hi.
  - rewrite <- (expected_decm_1 n x HD i Hi), H by lia. apply constraint1; exact Hi.
  - rewrite <- (expected_decm_2 n x HD i Hi), H by lia. apply constraint2; exact Hi.
  - rewrite <- (expected_decm_3 n x HD i Hi), H by lia. apply constraint3; exact Hi.
Qed.

Lemma ln_ratio_le E w : 0 < E -> 0 <= w -> ln (E / (E + w)) <= 0.
Proof.
  intros HE Hw. rewrite <- ln_1.
  assert (0 < E / (E + w)) by (apply Rdiv_lt_0_compat; lra).
  destruct (Req_EM_T w 0) as [->|Hn].
  - rewrite Rplus_0_r. replace (E / E) with 1 by (field; lra). lra.
  - left. apply ln_increasing; auto.
    apply Rmult_lt_reg_r with (E + w); [lra|]. unfold Rdiv. rewrite Rmult_assoc, Rinv_l; lra.
Qed.

Lemma ln_ratio_zero E w : 0 < E -> 0 <= w -> ln (E / (E + w)) = 0 -> w = 0.
Proof.
  intros HE Hw H.
  assert (P : 0 < E / (E + w)) by (apply Rdiv_lt_0_compat; lra).
  assert (Q : E / (E + w) = 1).
  { rewrite <- (exp_ln _ P), H. apply exp_0. }
  assert (E = 1 * (E + w)) by (rewrite <- Q; field; lra). lra.
Qed.

Section MaxPair.
Variables (n : nat) (ko ki so si x z : nat -> R).
Hypotheses (HD : decm_dom n x) (HZ : decm_dom n z).
Hypothesis (HSz : decm_supp n ko ki so si z).
Hypothesis (H : forall r, (r < 4 * n)%nat -> expected_decm n x r = decm_constraint n ko ki so si r).
Variables (i j : nat).
Hypotheses (Hi : (i < n)%nat) (Hj : (j < n)%nat) (Hij : i <> j).

Let G y := dterm n y (PP n x i j) (MM n x i j) i j.

Lemma pair_cases :
  zz n x i j * yy n x i j = 0 \/
  (0 < x i /\ 0 < x (j + n)%nat /\ 0 < x (i + 2 * n)%nat /\ 0 < x (j + 3 * n)%nat) /\
  (0 < z i /\ 0 < z (j + n)%nat /\ 0 < z (i + 2 * n)%nat /\ 0 < z (j + 3 * n)%nat).
Proof.
  dpf HD i j. unfold zz, yy.
  destruct (Req_EM_T (x i * x (j + n)%nat * (x (i + 2 * n)%nat * x (j + 3 * n)%nat)) 0) as [E|E]; [left; exact E|right].
  assert (A : 0 < x i /\ 0 < x (j + n)%nat /\ 0 < x (i + 2 * n)%nat /\ 0 < x (j + 3 * n)%nat).
  { assert (Hpz : forall a, 0 <= a -> a <> 0 -> 0 < a) by (intros; lra).
    repeat split; apply Hpz; auto; intros E'; apply E; rewrite E'; ring. }
  split; [exact A|].
  destruct A as (A0 & A1 & A2 & A3).
  assert (PPn : forall u v, (u < n)%nat -> (v < n)%nat -> u <> v -> 0 <= PP n x u v /\ 0 <= MM n x u v).
  { intros u v Hu Hv Huv. dpf HD u v. unfold PP, MM, zz, yy. split.
    - apply Rmult_le_pos; [lra|]. left. apply Rinv_0_lt_compat. lra.
    - apply Rmult_le_pos; [lra|]. left. apply Rinv_0_lt_compat. apply Rmult_lt_0_compat; lra. }
  assert (PPp : 0 < PP n x i j /\ 0 < MM n x i j).
  { unfold PP, MM, zz, yy. assert (0 < x i * x (j + n)%nat * (x (i + 2 * n)%nat * x (j + 3 * n)%nat)) by lra.
    split; apply Rdiv_lt_0_compat; try lra. apply Rmult_lt_0_compat; lra. }
  assert (Hne : forall (f : nat -> R) a b, (b < n)%nat -> a <> b -> (forall v, (v < n)%nat -> v <> a -> 0 <= f v) -> 0 < f b ->
     rsum n (fun v => if Nat.eqb a v then 0 else f v) <> 0).
  { intros f a b Hb Hab Hf Hfb. apply (rsum_pos_ne n _ b Hb).
    - intros v Hv. destruct (Nat.eqb_spec a v); [lra|]. apply Hf; auto.
    - destruct (Nat.eqb_spec a b); [contradiction|exact Hfb]. }
  destruct (HSz i Hi) as (S0 & _ & S2 & _). destruct (HSz j Hj) as (_ & S1 & _ & S3).
  repeat split.
  - apply S0. rewrite <- (constraint0 n ko ki so si i Hi), <- H by lia. rewrite expected_decm_0 by assumption.
    apply (Hne (fun v => PP n x i v) i j Hj Hij); [intros v Hv Hvi; apply (proj1 (PPn i v Hi Hv (not_eq_sym Hvi)))|apply (proj1 PPp)].
  - apply S1. rewrite <- (constraint1 n ko ki so si j Hj), <- H by lia. rewrite expected_decm_1 by assumption.
    apply (Hne (fun v => PP n x v j) j i Hi (not_eq_sym Hij)); [intros v Hv Hvi; apply (proj1 (PPn v j Hv Hj Hvi))|apply (proj1 PPp)].
  - apply S2. rewrite <- (constraint2 n ko ki so si i Hi), <- H by lia. rewrite expected_decm_2 by assumption.
    apply (Hne (fun v => MM n x i v) i j Hj Hij); [intros v Hv Hvi; apply (proj2 (PPn i v Hi Hv (not_eq_sym Hvi)))|apply (proj2 PPp)].
  - apply S3. rewrite <- (constraint3 n ko ki so si j Hj), <- H by lia. rewrite expected_decm_3 by assumption.
    apply (Hne (fun v => MM n x v j) j i Hi (not_eq_sym Hij)); [intros v Hv Hvi; apply (proj2 (PPn v j Hv Hj Hvi))|apply (proj2 PPp)].
Qed.

Lemma pair_le : G z <= G x.
Proof.
  unfold G. destruct pair_cases as [E|[(? & ? & ? & ?) (? & ? & ? & ?)]].
  - assert (EP : PP n x i j = 0) by (unfold PP; rewrite E; unfold Rdiv; ring).
    assert (EM : MM n x i j = 0) by (unfold MM; rewrite E; unfold Rdiv; ring).
    rewrite EP, EM, !dterm_zero. rewrite E, Rplus_0_r.
    dpf HD i j. dpf HZ i j. unfold zz, yy.
    replace ((1 - x (i + 2 * n)%nat * x (j + 3 * n)%nat) / (1 - x (i + 2 * n)%nat * x (j + 3 * n)%nat)) with 1 by (field; lra).
    rewrite ln_1. apply ln_ratio_le; lra.
  - rewrite !dterm_pos by assumption. dpf HD i j. dpf HZ i j.
    apply pairterm_max; unfold zz, yy; try split; try (apply Rmult_lt_0_compat; assumption); lra.
Qed.

Lemma pair_eq : G z = G x -> forall w,
  q_enh (zz n z i j) (yy n z i j) w = q_enh (zz n x i j) (yy n x i j) w.
Proof.
  unfold G. destruct pair_cases as [E|[(? & ? & ? & ?) (? & ? & ? & ?)]].
  - assert (EP : PP n x i j = 0) by (unfold PP; rewrite E; unfold Rdiv; ring).
    assert (EM : MM n x i j = 0) by (unfold MM; rewrite E; unfold Rdiv; ring).
    rewrite EP, EM, !dterm_zero. rewrite E, Rplus_0_r.
    dpf HD i j. dpf HZ i j. unfold zz, yy in *.
    replace ((1 - x (i + 2 * n)%nat * x (j + 3 * n)%nat) / (1 - x (i + 2 * n)%nat * x (j + 3 * n)%nat)) with 1 by (field; lra).
    rewrite ln_1. intros Hl w. apply ln_ratio_zero in Hl; try lra.
    rewrite !q_enh_zero by (auto; lra). reflexivity.
  - rewrite !dterm_pos by assumption. dpf HD i j. dpf HZ i j. intros Hl w.
    apply pairterm_max_strict in Hl.
    + destruct Hl as [-> ->]. reflexivity.
    + unfold zz. apply Rmult_lt_0_compat; assumption.
    + unfold yy. split; [apply Rmult_lt_0_compat; assumption|lra].
    + unfold zz. apply Rmult_lt_0_compat; assumption.
    + unfold yy. split; [apply Rmult_lt_0_compat; assumption|lra].
Qed.
End MaxPair.

Lemma solution_decm_max n ko ki so si x z :
  decm_dom n x -> decm_dom n z -> decm_supp n ko ki so si z ->
  (forall r, (r < 4 * n)%nat -> expected_decm n x r = decm_constraint n ko ki so si r) ->
  loglikelihood_decm n ko ki so si z <= loglikelihood_decm n ko ki so si x.
Proof.
  intros HD HZ HS H. rewrite !(loglik_decm_at_solution n ko ki so si x) by assumption.
  apply Rminus_le. rewrite <- dsum_minus. apply Ropp_le_cancel. rewrite Ropp_0.
  replace (- dsum n (fun i j => dterm n z (PP n x i j) (MM n x i j) i j - dterm n x (PP n x i j) (MM n x i j) i j))
    with (dsum n (fun i j => dterm n x (PP n x i j) (MM n x i j) i j - dterm n z (PP n x i j) (MM n x i j) i j))
    by (rewrite !dsum_minus; ring).
  apply dsum_nonneg. intros i j Hi Hj Hij.
  pose proof (pair_le n ko ki so si x z HD HZ HS H i j Hi Hj Hij). lra.
Qed.

Lemma solution_decm_strict n ko ki so si x z :
  decm_dom n x -> decm_dom n z -> decm_supp n ko ki so si z ->
  (forall r, (r < 4 * n)%nat -> expected_decm n x r = decm_constraint n ko ki so si r) ->
  loglikelihood_decm n ko ki so si z = loglikelihood_decm n ko ki so si x ->
  forall i j w, (i < n)%nat -> (j < n)%nat -> i <> j ->
  q_enh (z i * z (j + n)%nat) (z (i + 2 * n)%nat * z (j + 3 * n)%nat) w =
  q_enh (x i * x (j + n)%nat) (x (i + 2 * n)%nat * x (j + 3 * n)%nat) w.
Proof.
  intros HD HZ HS H E i j w Hi Hj Hij.
  rewrite !(loglik_decm_at_solution n ko ki so si x) in E by assumption.
  apply (pair_eq n ko ki so si x z HD HZ HS H i j Hi Hj Hij).
  symmetry. apply Rminus_diag_uniq.
  apply (dsum_nonneg_zero n (fun i j => dterm n x (PP n x i j) (MM n x i j) i j - dterm n z (PP n x i j) (MM n x i j) i j)); auto.
  - intros u v Hu Hv Huv. pose proof (pair_le n ko ki so si x z HD HZ HS H u v Hu Hv Huv). lra.
  - rewrite dsum_minus. rewrite E. ring.
Qed.

Lemma solution_decm_unique n ko ki so si x z :
  decm_dom n x -> decm_dom n z -> decm_supp n ko ki so si x -> decm_supp n ko ki so si z ->
  (forall r, (r < 4 * n)%nat -> expected_decm n x r = decm_constraint n ko ki so si r) ->
  (forall r, (r < 4 * n)%nat -> expected_decm n z r = decm_constraint n ko ki so si r) ->
  forall i j w, (i < n)%nat -> (j < n)%nat -> i <> j ->
  q_enh (z i * z (j + n)%nat) (z (i + 2 * n)%nat * z (j + 3 * n)%nat) w =
  q_enh (x i * x (j + n)%nat) (x (i + 2 * n)%nat * x (j + 3 * n)%nat) w.
Proof.
  intros HD HZ HSx HSz H1 H2. apply (solution_decm_strict n ko ki so si); auto.
  apply Rle_antisym; apply solution_decm_max; assumption.
Qed.

Lemma solution_decm_exp_max n ko ki so si x z :
  decm_exp_dom n x -> decm_exp_dom n z ->
  (forall r, (r < 4 * n)%nat -> expected_decm_exp n x r = decm_constraint n ko ki so si r) ->
  loglikelihood_decm_exp n ko ki so si z <= loglikelihood_decm_exp n ko ki so si x.
Proof.
  intros HD HZ H. rewrite !loglik_decm_exp_eq by assumption.
  apply solution_decm_max; auto using decm_exp_dom_exp, decm_exp_supp.
Qed.

(** * Witnesses *)

(** The weighted cycle of four nodes as a directed graph (all nodes: degrees 2,
    strengths 4), with a solution in which out- and in-parameters differ. *)
Definition dring4 (r : nat) : R :=
  if Nat.ltb r 4 then 1 else if Nat.ltb r 8 then 2 else if Nat.ltb r 12 then 1 else 1 / 2.
Definition dring4_theta (r : nat) : R := - ln (dring4 r).

Lemma dring4_pos r : 0 < dring4 r.
Proof. unfold dring4. destruct (Nat.ltb r 4), (Nat.ltb r 8), (Nat.ltb r 12); lra. Qed.
Lemma dring4_exp r : exp (- dring4_theta r) = dring4 r.
Proof. unfold dring4_theta. rewrite Ropp_involutive. apply exp_ln, dring4_pos. Qed.
Lemma dring4_0 i : (i < 4)%nat -> dring4 i = 1.
Proof. intros H. unfold dring4. rewrite (proj2 (Nat.ltb_lt i 4) H). reflexivity. Qed.
Lemma dring4_1 i : (i < 4)%nat -> dring4 (i + 4) = 2.
Proof.
  intros H. unfold dring4. rewrite (proj2 (Nat.ltb_ge (i + 4) 4)) by lia.
  rewrite (proj2 (Nat.ltb_lt (i + 4) 8)) by lia. reflexivity.
Qed.
Lemma dring4_2 i : (i < 4)%nat -> dring4 (i + 2 * 4) = 1.
Proof.
  intros H. unfold dring4. rewrite (proj2 (Nat.ltb_ge (i + 2 * 4) 4)) by lia.
  rewrite (proj2 (Nat.ltb_ge (i + 2 * 4) 8)) by lia. rewrite (proj2 (Nat.ltb_lt (i + 2 * 4) 12)) by lia. reflexivity.
Qed.
Lemma dring4_3 i : (i < 4)%nat -> dring4 (i + 3 * 4) = 1 / 2.
Proof.
  intros H. unfold dring4. rewrite (proj2 (Nat.ltb_ge (i + 3 * 4) 4)) by lia.
  rewrite (proj2 (Nat.ltb_ge (i + 3 * 4) 8)) by lia. rewrite (proj2 (Nat.ltb_ge (i + 3 * 4) 12)) by lia. reflexivity.
Qed.

Lemma dring4_dom : decm_dom 4 dring4.
Proof.
  split.
  - intros r _. left. apply dring4_pos.
  - intros i j Hi Hj _. rewrite dring4_2, dring4_3 by assumption. lra.
Qed.
Lemma dring4_exp_dom : decm_exp_dom 4 dring4_theta.
Proof.
  intros i j Hi Hj _. unfold dring4_theta. rewrite dring4_2, dring4_3 by assumption. rewrite ln_1.
  assert (ln (1 / 2) < ln 1) by (apply ln_increasing; lra). rewrite ln_1 in *. lra.
Qed.
Lemma dring4_supp ko ki so si : decm_supp 4 ko ki so si dring4.
Proof. intros i Hi. repeat split; intros _; apply dring4_pos. Qed.

Lemma dring4_graph : weighted_digraph 4 wring4 /\
  (forall i, (i < 4)%nat -> 2 = wdeg 4 wring4 i /\ 2 = windeg 4 wring4 i /\ 4 = wstr 4 wring4 i /\ 4 = winstr 4 wring4 i).
Proof.
  split; [exact (proj2 wring4_graph)|]. intros i Hi. split; [apply wring4_deg; exact Hi|].
  split; [|split; [apply wring4_str; exact Hi|]].
  - nat_cases i; unfold windeg, wring4, linked, ind; simpl; lra.
  - nat_cases i; unfold winstr, wring4; simpl; lra.
Qed.

Lemma dring4_PM i j : (i < 4)%nat -> (j < 4)%nat -> PP 4 dring4 i j = 2 / 3 /\ MM 4 dring4 i j = 4 / 3.
Proof.
  intros Hi Hj. unfold PP, MM, zz, yy. rewrite dring4_0, dring4_1, dring4_2, dring4_3 by assumption. split; field.
Qed.

Lemma dring4_solution r : (r < 16)%nat ->
  expected_decm 4 dring4 r = decm_constraint 4 (fun _ => 2) (fun _ => 2) (fun _ => 4) (fun _ => 4) r.
Proof.
  intros Hr. revert r Hr.
  assert (Hs : forall i c, (i < 4)%nat -> rsum 4 (fun j => if Nat.eqb i j then 0 else c) = 3 * c).
  { intros i c Hi. nat_cases i; simpl; lra. }
  apply (coord4 4); intros i Hi.
  - rewrite constraint0 by exact Hi. rewrite (expected_decm_0 4 dring4 dring4_dom i Hi).
    rewrite (rsum_skip_ext 4 i _ (fun _ => 2 / 3)); [rewrite Hs by exact Hi; field|]. intros j Hj _. apply dring4_PM; assumption.
  - rewrite constraint1 by exact Hi. rewrite (expected_decm_1 4 dring4 dring4_dom i Hi).
    rewrite (rsum_skip_ext 4 i _ (fun _ => 2 / 3)); [rewrite Hs by exact Hi; field|]. intros j Hj _. apply dring4_PM; assumption.
  - rewrite constraint2 by exact Hi. rewrite (expected_decm_2 4 dring4 dring4_dom i Hi).
    rewrite (rsum_skip_ext 4 i _ (fun _ => 4 / 3)); [rewrite Hs by exact Hi; field|]. intros j Hj _. apply dring4_PM; assumption.
  - rewrite constraint3 by exact Hi. rewrite (expected_decm_3 4 dring4 dring4_dom i Hi).
    rewrite (rsum_skip_ext 4 i _ (fun _ => 4 / 3)); [rewrite Hs by exact Hi; field|]. intros j Hj _. apply dring4_PM; assumption.
Qed.

Lemma expected_decm_exp_dring4 r : expected_decm_exp 4 dring4_theta r = expected_decm 4 dring4 r.
Proof.
  rewrite expected_decm_exp_eq.
  assert (E : forall a b, (forall r, a r = b r) -> expected_decm 4 a r = expected_decm 4 b r).
  { intros a b Hab. unfold expected_decm, by_block.
    destruct (blk 4 r) as [|[|[|k]]]; cbv zeta; rewrite !loop_add_skip, !Hab; do 2 f_equal;
      apply rsum_ext; intros j _; rewrite !Hab; reflexivity. }
  apply E. apply dring4_exp.
Qed.

Lemma dring4_stationary r : (r < 16)%nat ->
  loglikelihood_prime_decm_exp 4 (fun _ => 2) (fun _ => 2) (fun _ => 4) (fun _ => 4) dring4_theta r = 0.
Proof.
  revert r. apply (proj2 (stationary_decm_exp_iff 4 (fun _ => 2) (fun _ => 2) (fun _ => 4) (fun _ => 4) dring4_theta dring4_exp_dom)).
  intros r Hr. rewrite expected_decm_exp_dring4. apply dring4_solution. exact Hr.
Qed.

(** A solution which is not a fixed point of the exponential map. *)
Lemma fixed_point_decm_exp_refuted :
  exists n ko ki so si theta,
    (2 <= n)%nat /\ (forall i, (i < n)%nat -> 0 < ko i /\ 0 < ki i /\ 0 < so i /\ 0 < si i) /\
    decm_exp_dom n theta /\
    (forall r, (r < 4 * n)%nat -> loglikelihood_prime_decm_exp n ko ki so si theta r = 0) /\
    ~ (forall r, (r < 4 * n)%nat -> iterative_decm_exp n ko ki so si theta r = Some (Fin (theta r))).
Proof.
  exists 4%nat, (fun _ => 2), (fun _ => 2), (fun _ => 4), (fun _ => 4), dring4_theta.
  split; [lia|]. split; [intros; lra|]. split; [exact dring4_exp_dom|].
  split; [exact dring4_stationary|]. intros H. specialize (H (0 + 4)%nat ltac:(lia)).
  apply (proj1 (iterative_decm_exp_in 4 (fun _ => 2) (fun _ => 2) (fun _ => 4) (fun _ => 4) dring4_theta 0 ltac:(lia)
    dring4_exp_dom ltac:(lra) ltac:(lra))) in H.
  rewrite (rsum_skip_ext 4 0 _ (fun _ => 4 / 3)) in H.
  - simpl in H. lra.
  - intros j Hj _. unfold PP, zz, yy. rewrite !dring4_exp, (dring4_0 j), (dring4_2 j), (dring4_1 j), (dring4_1 0), (dring4_3 0) by (try assumption; lia). field.
Qed.

(** A fixed point of the exponential map which is not a solution: the
    constraints are computed from the point. *)
Definition bad2 (r : nat) : R := match r with O => 1 | 1%nat => 2 | 2%nat | 3%nat => 1 | _ => 1 / 2 end.
Definition bad2_theta (r : nat) : R := - ln (bad2 r).
Lemma bad2_pos r : 0 < bad2 r.
Proof. unfold bad2. destruct r as [|[|[|[|r]]]]; lra. Qed.
Lemma bad2_exp r : exp (- bad2_theta r) = bad2 r.
Proof. unfold bad2_theta. rewrite Ropp_involutive. apply exp_ln, bad2_pos. Qed.
Lemma bad2_dom : decm_exp_dom 2 bad2_theta.
Proof.
  intros i j Hi Hj _. unfold bad2_theta.
  assert (ln (1 / 2) < ln 1) by (apply ln_increasing; lra). rewrite ln_1 in *.
  nat_cases i; nat_cases j; simpl; lra.
Qed.

Definition bad2_ko (i : nat) : R := match i with O => 1 / 4 | _ => 2 / 5 end.
Definition bad2_ki (i : nat) : R := match i with O => 1 / 5 | _ => 1 / 4 end.
Definition bad2_so (i : nat) : R := match i with O => 1 / 3 | _ => 8 / 15 end.
Definition bad2_si (i : nat) : R := match i with O => 8 / 15 | _ => 1 / 3 end.

Lemma bad2_fixed r : (r < 8)%nat ->
  iterative_decm_exp 2 bad2_ko bad2_ki bad2_so bad2_si bad2_theta r = Some (Fin (bad2_theta r)).
Proof.
  assert (Q : forall k f t, 0 < k -> k = exp (- t) * f -> sneglog (sdiv k f) = Some (Fin t)).
  { intros k f t Hk E. apply sneglog_fix; [lra|]. rewrite kd_eq, E. pose proof (exp_pos (- t)). field. lra. }
  intros Hr. nat_cases r; unfold iterative_decm_exp, by_block, blk, pos; simpl; rewrite !loop_S, loop_0; simpl.
  all: match goal with |- context [Req_EM_T ?a 0] => destruct (Req_EM_T a 0); [unfold bad2_ko, bad2_ki, bad2_so, bad2_si in *; lra|] end.
  all: apply Q; [unfold bad2_ko, bad2_ki, bad2_so, bad2_si; lra|].
  all: rewrite !bad2_exp; simpl; field.
Qed.

Lemma fixed_point_decm_exp_refuted' :
  exists n ko ki so si theta,
    (2 <= n)%nat /\ (forall i, (i < n)%nat -> 0 < ko i /\ 0 < ki i /\ 0 < so i /\ 0 < si i) /\
    decm_exp_dom n theta /\
    (forall r, (r < 4 * n)%nat -> iterative_decm_exp n ko ki so si theta r = Some (Fin (theta r))) /\
    ~ (forall r, (r < 4 * n)%nat -> loglikelihood_prime_decm_exp n ko ki so si theta r = 0).
Proof.
  exists 2%nat, bad2_ko, bad2_ki, bad2_so, bad2_si, bad2_theta.
  split; [lia|]. split; [intros i Hi; nat_cases i; unfold bad2_ko, bad2_ki, bad2_so, bad2_si; lra|].
  split; [exact bad2_dom|]. split; [exact bad2_fixed|]. intros H. specialize (H 2%nat ltac:(lia)).
  revert H. unfold loglikelihood_prime_decm_exp, by_block, blk, pos. simpl. rewrite !loop_S, loop_0. simpl.
  rewrite !bad2_exp. simpl. intros H. 
  match type of H with _ + (0 + ?a) = 0 => assert (E : a = 2 / 5) by field end. lra.
Qed.

(** The alternative map misses the solution in the strength blocks. *)
Lemma fixed_point_decm_exp_2_refuted :
  exists n ko ki so si theta,
    (2 <= n)%nat /\ (forall i, (i < n)%nat -> 0 < ko i /\ 0 < ki i /\ 0 < so i /\ 0 < si i) /\
    decm_exp_dom n theta /\
    (forall r, (r < 4 * n)%nat -> loglikelihood_prime_decm_exp n ko ki so si theta r = 0) /\
    ~ (forall r, (r < 4 * n)%nat -> iterative_decm_exp_2 n ko ki so si theta r = Some (Fin (theta r))).
Proof.
  exists 4%nat, (fun _ => 2), (fun _ => 2), (fun _ => 4), (fun _ => 4), dring4_theta.
  split; [lia|]. split; [intros; lra|]. split; [exact dring4_exp_dom|].
  split; [exact dring4_stationary|]. intros H. specialize (H (0 + 2 * 4)%nat ltac:(lia)).
  unfold iterative_decm_exp_2 in H. rewrite by_block2 in H by lia. cbv zeta in H.
  rewrite loop_add_skip, Rplus_0_l in H. apply sneglog_fix in H; [|lra].
  rewrite kd_eq, dring4_exp, dring4_2 in H by lia.
  rewrite (rsum_skip_ext 4 0 _ (fun _ => 1)) in H.
  - simpl in H. lra.
  - intros j Hj _. rewrite !dring4_exp, (dring4_0 0), (dring4_1 j), (dring4_3 j) by (try assumption; lia). field.
Qed.

Lemma solution_decm_exp_unique n ko ki so si x z :
  decm_exp_dom n x -> decm_exp_dom n z ->
  (forall r, (r < 4 * n)%nat -> expected_decm_exp n x r = decm_constraint n ko ki so si r) ->
  (forall r, (r < 4 * n)%nat -> expected_decm_exp n z r = decm_constraint n ko ki so si r) ->
  forall i j w, (i < n)%nat -> (j < n)%nat -> i <> j ->
  q_enh (exp (- z i) * exp (- z (j + n)%nat)) (exp (- z (i + 2 * n)%nat) * exp (- z (j + 3 * n)%nat)) w =
  q_enh (exp (- x i) * exp (- x (j + n)%nat)) (exp (- x (i + 2 * n)%nat) * exp (- x (j + 3 * n)%nat)) w.
Proof.
  intros HD HZ H1 H2.
  apply (solution_decm_unique n ko ki so si (fun r => exp (- x r)) (fun r => exp (- z r)));
    auto using decm_exp_dom_exp, decm_exp_supp.
Qed.

(** A graph with zero constraints (one link 0 -> 1 of weight 1), and a point
    with zero parameters where they are. *)
Definition link2_w (i j : nat) : nat := match i, j with O, 1%nat => 1%nat | _, _ => 0%nat end.
Definition link2_x (r : nat) : R := match r with 0%nat | 3%nat | 4%nat | 7%nat => 1 / 2 | _ => 0 end.
Lemma link2_facts : weighted_digraph 2 link2_w /\
  (forall i, (i < 2)%nat -> link2 i = wdeg 2 link2_w i /\ link2' i = windeg 2 link2_w i /\
     link2 i = wstr 2 link2_w i /\ link2' i = winstr 2 link2_w i) /\
  decm_dom 2 link2_x /\ decm_supp 2 link2 link2' link2 link2' link2_x /\
  link2 1 = 0 /\ link2_x 1 = 0.
Proof.
  split; [|split; [|split; [|split; [|split; reflexivity]]]].
  - intros i Hi. nat_cases i; reflexivity.
  - intros i Hi. nat_cases i; unfold wdeg, windeg, wstr, winstr, ind, linked, link2_w, link2, link2'; simpl; repeat split; lra.
  - split.
    + intros r Hr. assert (Hr8 : (r < 8)%nat) by lia. clear Hr. nat_cases r; simpl; lra.
    + intros i j Hi Hj _. nat_cases i; nat_cases j; simpl; lra.
  - intros i Hi. nat_cases i; unfold link2, link2', link2_x; simpl; repeat split; intros; lra.
Qed.
Lemma dring4_facts :
  weighted_digraph 4 wring4 /\
  (forall i, (i < 4)%nat -> 2 = wdeg 4 wring4 i /\ 2 = windeg 4 wring4 i /\ 4 = wstr 4 wring4 i /\ 4 = winstr 4 wring4 i) /\
  decm_dom 4 dring4 /\ decm_supp 4 (fun _ => 2) (fun _ => 2) (fun _ => 4) (fun _ => 4) dring4 /\
  decm_paired 4 dring4 /\ decm_exp_dom 4 dring4_theta /\
  (forall r, (r < 16)%nat -> 0 < dring4 r /\
    expected_decm 4 dring4 r = decm_constraint 4 (fun _ => 2) (fun _ => 2) (fun _ => 4) (fun _ => 4) r /\
    expected_decm_exp 4 dring4_theta r = decm_constraint 4 (fun _ => 2) (fun _ => 2) (fun _ => 4) (fun _ => 4) r).
Proof.
  split; [apply dring4_graph|]. split; [apply dring4_graph|]. split; [exact dring4_dom|].
  split; [apply dring4_supp|]. split; [|split; [exact dring4_exp_dom|]].
  - intros i Hi. pose proof (dring4_pos i). pose proof (dring4_pos (i + 4)).
    pose proof (dring4_pos (i + 2 * 4)). pose proof (dring4_pos (i + 3 * 4)).
    split; split; intros; lra.
  - intros r Hr. split; [apply dring4_pos|]. rewrite expected_decm_exp_dring4. split; apply dring4_solution; exact Hr.
Qed.
