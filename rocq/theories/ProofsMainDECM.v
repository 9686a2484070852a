(** DECM: likelihood as a probability, solutions, fixed points, maximum. *)
From Coq Require Import Reals List Arith Lia Lra Bool.
From Coquelicot Require Import Coquelicot.
From Verif Require Import Base SpecDeriv SpecGraph SpecWeighted ModelDCM ModelDECM.
From Verif Require Import ProofsDeriv ProofsGraph ProofsPairW ProofsECM ProofsMainECM ProofsDECM WitnessCM.
Local Open Scope R_scope.

Lemma klog_eq k v : klog k v = k * ln v.
Proof. unfold klog. destruct (Req_EM_T k 0) as [->|]; ring. Qed.

Definition zz n (x : nat -> R) i j := x i * x (j + n)%nat.
Definition yy n (x : nat -> R) i j := x (i + 2 * n)%nat * x (j + 3 * n)%nat.

(** Pair term with separate logarithms. *)
Definition dterm n (x : nat -> R) (P M : R) i j : R :=
  P * (ln (x i) + ln (x (j + n)%nat)) + M * (ln (x (i + 2 * n)%nat) + ln (x (j + 3 * n)%nat))
  + ln ((1 - yy n x i j) / (1 - yy n x i j + zz n x i j * yy n x i j)).

Definition dsum n (f : nat -> nat -> R) : R :=
  rsum n (fun i => rsum n (fun j => if Nat.eqb i j then 0 else f i j)).

Lemma dsum_plus n f g : dsum n (fun i j => f i j + g i j) = dsum n f + dsum n g.
Proof.
  unfold dsum. rewrite <- rsum_plus. apply rsum_ext. intros i _. rewrite <- rsum_plus.
  apply rsum_ext. intros j _. destruct (Nat.eqb i j); ring.
Qed.
Lemma dsum_minus n f g : dsum n (fun i j => f i j - g i j) = dsum n f - dsum n g.
Proof.
  unfold dsum. rewrite <- rsum_minus. apply rsum_ext. intros i _. rewrite <- rsum_minus.
  apply rsum_ext. intros j _. destruct (Nat.eqb i j); ring.
Qed.
Lemma dsum_ext n f g :
  (forall i j, (i < n)%nat -> (j < n)%nat -> i <> j -> f i j = g i j) -> dsum n f = dsum n g.
Proof.
  intros H. apply rsum_ext. intros i Hi. apply rsum_ext. intros j Hj.
  destruct (Nat.eqb_spec i j); auto.
Qed.
Lemma dsum_nonneg n f :
  (forall i j, (i < n)%nat -> (j < n)%nat -> i <> j -> 0 <= f i j) -> 0 <= dsum n f.
Proof.
  intros H. apply rsum_nonneg. intros i Hi. apply rsum_nonneg. intros j Hj.
  destruct (Nat.eqb_spec i j); [lra|auto].
Qed.
Lemma dsum_nonneg_zero n f :
  (forall i j, (i < n)%nat -> (j < n)%nat -> i <> j -> 0 <= f i j) -> dsum n f = 0 ->
  forall i j, (i < n)%nat -> (j < n)%nat -> i <> j -> f i j = 0.
Proof.
  intros H H0 i j Hi Hj Hij.
  assert (R1 : forall i, (i < n)%nat -> 0 <= rsum n (fun j => if Nat.eqb i j then 0 else f i j)).
  { intros u Hu. apply rsum_nonneg. intros v Hv. destruct (Nat.eqb_spec u v); [lra|auto]. }
  pose proof (rsum_nonneg_zero n _ R1 H0 i Hi) as E. cbv beta in E.
  assert (R2 : forall v, (v < n)%nat -> 0 <= (if Nat.eqb i v then 0 else f i v)).
  { intros v Hv. destruct (Nat.eqb_spec i v); [lra|auto]. }
  pose proof (rsum_nonneg_zero n _ R2 E j Hj) as E2. cbv beta in E2.
  destruct (Nat.eqb_spec i j); [contradiction|exact E2].
Qed.
Lemma dsum_row n (f : nat -> nat -> R) (g : nat -> R) :
  dsum n (fun i j => f i j * g i) = rsum n (fun i => rsum n (fun j => if Nat.eqb i j then 0 else f i j) * g i).
Proof.
  apply rsum_ext. intros i _. rewrite <- rsum_scal_r. apply rsum_ext. intros j _.
  destruct (Nat.eqb i j); ring.
Qed.
Lemma dsum_col n (f : nat -> nat -> R) (g : nat -> R) :
  dsum n (fun i j => f i j * g j) = rsum n (fun j => rsum n (fun i => if Nat.eqb j i then 0 else f i j) * g j).
Proof.
  unfold dsum. rewrite (rsum_swap n n (fun i j => if Nat.eqb i j then 0 else f i j * g j)).
  apply rsum_ext. intros j _. rewrite <- rsum_scal_r. apply rsum_ext. intros i _.
  rewrite Nat.eqb_sym. destruct (Nat.eqb j i); ring.
Qed.

Lemma loglik_decm_pairs n ko ki so si x (P M : nat -> nat -> R) :
  decm_dom n x ->
  (forall i, (i < n)%nat -> rsum n (fun j => if Nat.eqb i j then 0 else P i j) = ko i) ->
  (forall j, (j < n)%nat -> rsum n (fun i => if Nat.eqb j i then 0 else P i j) = ki j) ->
  (forall i, (i < n)%nat -> rsum n (fun j => if Nat.eqb i j then 0 else M i j) = so i) ->
  (forall j, (j < n)%nat -> rsum n (fun i => if Nat.eqb j i then 0 else M i j) = si j) ->
  loglikelihood_decm n ko ki so si x = dsum n (fun i j => dterm n x (P i j) (M i j) i j).
Proof.
  intros HD H0 H1 H2 H3. rewrite loglik_decm_nf.
  rewrite (rsum_ext n _ (fun i => rsum n (fun j => if Nat.eqb i j then 0 else P i j) * ln (x i)
     + rsum n (fun j => if Nat.eqb i j then 0 else P j i) * ln (x (i + n)%nat)
     + rsum n (fun j => if Nat.eqb i j then 0 else M i j) * ln (x (i + 2 * n)%nat)
     + rsum n (fun j => if Nat.eqb i j then 0 else M j i) * ln (x (i + 3 * n)%nat))).
  2: { intros i Hi. rewrite !klog_eq, H0, H1, H2, H3 by exact Hi. reflexivity. }
  rewrite !rsum_plus, <- (dsum_row n P (fun i => ln (x i))), <- (dsum_row n M (fun i => ln (x (i + 2 * n)%nat))),
    <- (dsum_col n P (fun i => ln (x (i + n)%nat))), <- (dsum_col n M (fun i => ln (x (i + 3 * n)%nat))).
  change (PairSum n gL x) with (dsum n (fun i j => gL (x i) (x (i + 2 * n)%nat) (x (j + n)%nat) (x (j + 3 * n)%nat))).
  rewrite <- !dsum_plus. apply dsum_ext. intros i j Hi Hj Hij. dpf HD i j.
  unfold dterm, gL, zz, yy. rewrite ln_div by lra. ring.
Qed.

Lemma dterm_pos n x P M i j :
  0 < x i -> 0 < x (j + n)%nat -> 0 < x (i + 2 * n)%nat -> 0 < x (j + 3 * n)%nat ->
  dterm n x P M i j = pairterm P M (zz n x i j) (yy n x i j).
Proof. intros. unfold dterm, pairterm, zz, yy. rewrite !ln_mult by assumption. reflexivity. Qed.

Lemma dterm_zero n x i j :
  dterm n x 0 0 i j = ln ((1 - yy n x i j) / (1 - yy n x i j + zz n x i j * yy n x i j)).
Proof. unfold dterm. ring. Qed.

(** * Log-probability *)

Lemma rsum_pos_ne n (f : nat -> R) i :
  (i < n)%nat -> (forall j, (j < n)%nat -> 0 <= f j) -> 0 < f i -> rsum n f <> 0.
Proof. intros Hi H Hf E. pose proof (rsum_nonneg_zero n f H E i Hi). lra. Qed.

Lemma loglik_decm_logprob n ko ki so si x w :
  weighted_digraph n w ->
  (forall i, (i < n)%nat -> ko i = wdeg n w i) -> (forall i, (i < n)%nat -> ki i = windeg n w i) ->
  (forall i, (i < n)%nat -> so i = wstr n w i) -> (forall i, (i < n)%nat -> si i = winstr n w i) ->
  decm_dom n x -> decm_supp n ko ki so si x ->
  loglikelihood_decm n ko ki so si x =
  ln (prob_wdirected n (fun i j => q_enh (x i * x (j + n)%nat) (x (i + 2 * n)%nat * x (j + 3 * n)%nat)) w).
Proof.
  intros Hw H0 H1 H2 H3 HD HS.
  assert (Hind : forall b, 0 <= ind b) by (intros []; unfold ind; lra).
  assert (HP : forall i j, (i < n)%nat -> (j < n)%nat -> i <> j -> w i j <> 0%nat ->
     0 < x i /\ 0 < x (j + n)%nat /\ 0 < x (i + 2 * n)%nat /\ 0 < x (j + 3 * n)%nat).
  { intros i j Hi Hj Hij Hne. destruct (HS i Hi) as (S0 & _ & S2 & _). destruct (HS j Hj) as (_ & S1 & _ & S3).
    assert (L : 0 < ind (linked (w i j))).
    { unfold linked. destruct (Nat.eqb_spec (w i j) 0); [contradiction|]. simpl. lra. }
    assert (N : 0 < INR (w i j)) by (apply lt_0_INR; lia).
    repeat split.
    - apply S0. rewrite H0 by exact Hi. apply (rsum_pos_ne n (fun j => ind (linked (w i j))) j); auto.
    - apply S1. rewrite H1 by exact Hj. apply (rsum_pos_ne n (fun i => ind (linked (w i j))) i); auto.
    - apply S2. rewrite H2 by exact Hi. apply (rsum_pos_ne n (fun j => INR (w i j)) j); auto using pos_INR.
    - apply S3. rewrite H3 by exact Hj. apply (rsum_pos_ne n (fun i => INR (w i j)) i); auto using pos_INR. }
  rewrite (loglik_decm_pairs n ko ki so si x (fun i j => ind (linked (w i j))) (fun i j => INR (w i j))); auto.
  - assert (Q : forall i j, (i < n)%nat -> (j < n)%nat -> i <> j ->
       0 < q_enh (x i * x (j + n)%nat) (x (i + 2 * n)%nat * x (j + 3 * n)%nat) (w i j) /\
       dterm n x (ind (linked (w i j))) (INR (w i j)) i j =
       ln (q_enh (x i * x (j + n)%nat) (x (i + 2 * n)%nat * x (j + 3 * n)%nat) (w i j))).
    { intros i j Hi Hj Hij. dpf HD i j. destruct (Nat.eq_dec (w i j) 0) as [E|E].
      - rewrite E, q_enh_0. split; [apply Rdiv_lt_0_compat; lra|]. simpl. rewrite dterm_zero. reflexivity.
      - destruct (HP i j Hi Hj Hij E) as (? & ? & ? & ?).
        assert (0 < x i * x (j + n)%nat) by (apply Rmult_lt_0_compat; assumption).
        assert (0 < x (i + 2 * n)%nat * x (j + 3 * n)%nat) by (apply Rmult_lt_0_compat; assumption).
        split; [apply q_enh_pos; lra|]. rewrite dterm_pos by assumption.
        rewrite ln_q_enh by lra. reflexivity. }
    unfold prob_wdirected, dsum.
    assert (Q' : forall i, (i < n)%nat -> forall j, (j < n)%nat ->
       0 < (if Nat.eqb i j then 1 else q_enh (x i * x (j + n)%nat) (x (i + 2 * n)%nat * x (j + 3 * n)%nat) (w i j))).
    { intros i Hi j Hj. destruct (Nat.eqb_spec i j); [lra|]. apply Q; assumption. }
    rewrite ln_rprod by (intros i Hi; apply rprod_pos; auto).
    apply rsum_ext. intros i Hi. rewrite ln_rprod by auto.
    apply rsum_ext. intros j Hj. destruct (Nat.eqb_spec i j); [rewrite ln_1; reflexivity|]. apply Q; assumption.
  - intros i Hi. rewrite H0 by exact Hi. apply rsum_ext. intros j Hj.
    destruct (Nat.eqb_spec i j) as [<-|]; [|reflexivity]. rewrite Hw by exact Hi. reflexivity.
  - intros i Hi. rewrite H1 by exact Hi. apply rsum_ext. intros j Hj.
    destruct (Nat.eqb_spec i j) as [<-|]; [|reflexivity]. rewrite Hw by exact Hi. reflexivity.
  - intros i Hi. rewrite H2 by exact Hi. apply rsum_ext. intros j Hj.
    destruct (Nat.eqb_spec i j) as [<-|]; [|reflexivity]. rewrite Hw by exact Hi. reflexivity.
  - intros i Hi. rewrite H3 by exact Hi. apply rsum_ext. intros j Hj.
    destruct (Nat.eqb_spec i j) as [<-|]; [|reflexivity]. rewrite Hw by exact Hi. reflexivity.
Qed.

(** * Exponential parametrisation *)

Lemma loglik_decm_exp_eq n ko ki so si theta :
  decm_exp_dom n theta ->
  loglikelihood_decm_exp n ko ki so si theta = loglikelihood_decm n ko ki so si (fun r => exp (- theta r)).
Proof.
  intros HD. rewrite loglik_decm_exp_nf, loglik_decm_nf. f_equal.
  - apply rsum_ext. intros i Hi. rewrite !klog_eq, !ln_exp. ring.
  - apply rsum_ext. intros i Hi. unfold Row_out. apply rsum_skip_ext. intros j Hj Hji.
    apply gLe_alt. apply HD; auto.
Qed.

Lemma kd_eq k v : kd k v = k / v.
Proof. unfold kd. destruct (Req_EM_T k 0) as [->|]; [|reflexivity]. unfold Rdiv. ring. Qed.

Lemma prime_decm_exp_eq n ko ki so si theta r :
  (r < 4 * n)%nat -> decm_exp_dom n theta ->
  loglikelihood_prime_decm_exp n ko ki so si theta r =
  - exp (- theta r) * loglikelihood_prime_decm n ko ki so si (fun r => exp (- theta r)) r.
Proof.
  intros Hr HD. revert r Hr.
  apply coord4; intros h Hh;
    [rewrite prime_decm_exp_0, prime_decm_0 by exact Hh|rewrite prime_decm_exp_1, prime_decm_1 by exact Hh
    |rewrite prime_decm_exp_2, prime_decm_2 by exact Hh|rewrite prime_decm_exp_3, prime_decm_3 by exact Hh];
    rewrite kd_eq; unfold Row_out, Row_in;
    rewrite Rmult_minus_distr_l, rsum_skip_scal; unfold Rminus at 1; f_equal;
    try (match goal with |- context [exp ?a] => pose proof (exp_pos a); field; lra end);
    rewrite rsum_skip_opp; apply rsum_skip_ext; intros j Hj Hji.
  - destruct (pairok_exp (theta h) (theta (h + 2 * n)%nat) (theta (j + n)%nat) (theta (j + 3 * n)%nat)
      (HD h j ltac:(lia) ltac:(lia) ltac:(lia))) as (? & ? & ? & ? & ? & ? & ?).
    unfold he_a, g_ao. field. repeat split; lra.
  - destruct (pairok_exp (theta j) (theta (j + 2 * n)%nat) (theta (h + n)%nat) (theta (h + 3 * n)%nat)
      (HD j h ltac:(lia) ltac:(lia) ltac:(lia))) as (? & ? & ? & ? & ? & ? & ?).
    unfold he_a, g_ai. field. repeat split; lra.
  - destruct (pairok_exp (theta h) (theta (h + 2 * n)%nat) (theta (j + n)%nat) (theta (j + 3 * n)%nat)
      (HD h j ltac:(lia) ltac:(lia) ltac:(lia))) as (? & ? & ? & ? & ? & ? & ?).
    unfold he_b, g_bo. field. repeat split; lra.
  - destruct (pairok_exp (theta j) (theta (j + 2 * n)%nat) (theta (h + n)%nat) (theta (h + 3 * n)%nat)
      (HD j h ltac:(lia) ltac:(lia) ltac:(lia))) as (? & ? & ? & ? & ? & ? & ?).
    unfold he_b, g_bi. field. repeat split; lra.
Qed.

Lemma decm_exp_supp n ko ki so si theta : decm_supp n ko ki so si (fun r => exp (- theta r)).
Proof. intros i Hi. repeat split; intros _; apply exp_pos. Qed.

Lemma loglik_decm_exp_logprob n ko ki so si theta w :
  weighted_digraph n w ->
  (forall i, (i < n)%nat -> ko i = wdeg n w i) -> (forall i, (i < n)%nat -> ki i = windeg n w i) ->
  (forall i, (i < n)%nat -> so i = wstr n w i) -> (forall i, (i < n)%nat -> si i = winstr n w i) ->
  decm_exp_dom n theta ->
  loglikelihood_decm_exp n ko ki so si theta =
  ln (prob_wdirected n (fun i j => q_enh (exp (- theta i) * exp (- theta (j + n)%nat))
     (exp (- theta (i + 2 * n)%nat) * exp (- theta (j + 3 * n)%nat))) w).
Proof.
  intros. rewrite loglik_decm_exp_eq by assumption.
  apply (loglik_decm_logprob n ko ki so si (fun r => exp (- theta r))); auto.
  - apply decm_exp_dom_exp; assumption.
  - apply decm_exp_supp.
Qed.

(** * Expected values and stationary points *)

Definition PP n (x : nat -> R) i j := zz n x i j * yy n x i j / (1 - yy n x i j + zz n x i j * yy n x i j).
Definition MM n (x : nat -> R) i j :=
  zz n x i j * yy n x i j / ((1 - yy n x i j + zz n x i j * yy n x i j) * (1 - yy n x i j)).

Section Expected.
Variables (n : nat) (x : nat -> R).
Hypothesis HD : decm_dom n x.

Lemma expected_decm_row_0 i : (i < n)%nat -> expected_decm n x i = x i * Row_out n g_ao i x.
Proof.
  intros Hi. unfold expected_decm. rewrite by_block0 by exact Hi. rewrite loop_add_skip, Rplus_0_l. f_equal.
  apply rsum_skip_ext. intros j Hj Hji. unfold g_ao. hfield HD i j.
Qed.
Lemma expected_decm_row_1 i : (i < n)%nat -> expected_decm n x (i + n) = x (i + n)%nat * Row_in n g_ai i x.
Proof.
  intros Hi. unfold expected_decm. rewrite by_block1 by exact Hi. rewrite loop_add_skip, Rplus_0_l. f_equal.
  apply rsum_skip_ext. intros j Hj Hji. unfold g_ai. hfield HD j i.
Qed.
Lemma expected_decm_row_2 i : (i < n)%nat -> expected_decm n x (i + 2 * n) = x (i + 2 * n)%nat * Row_out n g_bo i x.
Proof.
  intros Hi. unfold expected_decm. rewrite by_block2 by exact Hi. rewrite loop_add_skip, Rplus_0_l. f_equal.
  apply rsum_skip_ext. intros j Hj Hji. unfold g_bo. hfield HD i j.
Qed.
Lemma expected_decm_row_3 i : (i < n)%nat -> expected_decm n x (i + 3 * n) = x (i + 3 * n)%nat * Row_in n g_bi i x.
Proof.
  intros Hi. unfold expected_decm. rewrite by_block3 by exact Hi. rewrite loop_add_skip, Rplus_0_l. f_equal.
  apply rsum_skip_ext. intros j Hj Hji. unfold g_bi. hfield HD j i.
Qed.

Lemma expected_decm_0 i : (i < n)%nat ->
  expected_decm n x i = rsum n (fun j => if Nat.eqb i j then 0 else PP n x i j).
Proof.
  intros Hi. rewrite expected_decm_row_0 by exact Hi. unfold Row_out. rewrite rsum_skip_scal.
  apply rsum_skip_ext. intros j Hj Hji. unfold g_ao, PP, zz, yy. hfield HD i j.
Qed.
Lemma expected_decm_1 j : (j < n)%nat ->
  expected_decm n x (j + n) = rsum n (fun i => if Nat.eqb j i then 0 else PP n x i j).
Proof.
  intros Hi. rewrite expected_decm_row_1 by exact Hi. unfold Row_in. rewrite rsum_skip_scal.
  apply rsum_skip_ext. intros i Hj Hji. unfold g_ai, PP, zz, yy. hfield HD i j.
Qed.
Lemma expected_decm_2 i : (i < n)%nat ->
  expected_decm n x (i + 2 * n) = rsum n (fun j => if Nat.eqb i j then 0 else MM n x i j).
Proof.
  intros Hi. rewrite expected_decm_row_2 by exact Hi. unfold Row_out. rewrite rsum_skip_scal.
  apply rsum_skip_ext. intros j Hj Hji. unfold g_bo, MM, zz, yy. hfield HD i j.
Qed.
Lemma expected_decm_3 j : (j < n)%nat ->
  expected_decm n x (j + 3 * n) = rsum n (fun i => if Nat.eqb j i then 0 else MM n x i j).
Proof.
  intros Hi. rewrite expected_decm_row_3 by exact Hi. unfold Row_in. rewrite rsum_skip_scal.
  apply rsum_skip_ext. intros i Hj Hji. unfold g_bi, MM, zz, yy. hfield HD i j.
Qed.

Lemma prime_decm_expected ko ki so si r :
  (r < 4 * n)%nat -> 0 < x r ->
  loglikelihood_prime_decm n ko ki so si x r =
  (decm_constraint n ko ki so si r - expected_decm n x r) / x r.
Proof.
  intros Hr. revert r Hr.
  apply (coord4 n (fun r => 0 < x r -> loglikelihood_prime_decm n ko ki so si x r =
    (decm_constraint n ko ki so si r - expected_decm n x r) / x r)); intros h Hh Hx.
  - rewrite prime_decm_0, constraint0, expected_decm_row_0, kd_eq by exact Hh. field. lra.
  - rewrite prime_decm_1, constraint1, expected_decm_row_1, kd_eq by exact Hh. field. lra.
  - rewrite prime_decm_2, constraint2, expected_decm_row_2, kd_eq by exact Hh. field. lra.
  - rewrite prime_decm_3, constraint3, expected_decm_row_3, kd_eq by exact Hh. field. lra.
Qed.

Lemma expected_decm_zero r : (r < 4 * n)%nat -> x r = 0 -> expected_decm n x r = 0.
Proof.
  intros Hr. revert r Hr.
  apply (coord4 n (fun r => x r = 0 -> expected_decm n x r = 0)); intros h Hh Hx.
  - rewrite expected_decm_row_0, Hx by exact Hh. ring.
  - rewrite expected_decm_row_1, Hx by exact Hh. ring.
  - rewrite expected_decm_row_2, Hx by exact Hh. ring.
  - rewrite expected_decm_row_3, Hx by exact Hh. ring.
Qed.

End Expected.

Lemma decm_supp_zero n ko ki so si x r :
  decm_supp n ko ki so si x -> (r < 4 * n)%nat -> x r = 0 -> decm_constraint n ko ki so si r = 0.
Proof.
  intros HS Hr. revert r Hr.
  assert (Q : forall k v : R, (k <> 0 -> 0 < v) -> v = 0 -> k = 0).
  { intros k v H Hv. destruct (Req_EM_T k 0) as [E|E]; [exact E|]. specialize (H E). lra. }
  apply (coord4 n (fun r => x r = 0 -> decm_constraint n ko ki so si r = 0)); intros h Hh Hx;
    destruct (HS h Hh) as (S0 & S1 & S2 & S3).
  - rewrite constraint0 by exact Hh. exact (Q _ _ S0 Hx).
  - rewrite constraint1 by exact Hh. exact (Q _ _ S1 Hx).
  - rewrite constraint2 by exact Hh. exact (Q _ _ S2 Hx).
  - rewrite constraint3 by exact Hh. exact (Q _ _ S3 Hx).
Qed.

Lemma stationary_decm_iff n ko ki so si x :
  decm_dom n x -> decm_supp n ko ki so si x ->
  ((forall r, (r < 4 * n)%nat -> 0 < x r -> loglikelihood_prime_decm n ko ki so si x r = 0) <->
   (forall r, (r < 4 * n)%nat -> expected_decm n x r = decm_constraint n ko ki so si r)).
Proof.
  intros HD HS. split; intros H r Hr.
  - destruct (Req_EM_T (x r) 0) as [E|E].
    + rewrite (expected_decm_zero n x HD r Hr E). symmetry. apply (decm_supp_zero n ko ki so si x); assumption.
    + assert (0 < x r) by (destruct (proj1 HD r Hr); [assumption|congruence]).
      specialize (H r Hr H0). rewrite (prime_decm_expected n x HD) in H by assumption.
      apply Rmult_integral in H. destruct H as [H|H]; [lra|]. apply Rinv_0_lt_compat in H0. lra.
  - intros Hx. rewrite (prime_decm_expected n x HD), H by assumption. unfold Rdiv. ring.
Qed.


Lemma prime_decm_zero n ko ki so si x r :
  decm_dom n x -> decm_supp n ko ki so si x -> decm_paired n x ->
  (r < 4 * n)%nat -> x r = 0 -> loglikelihood_prime_decm n ko ki so si x r = 0.
Proof.
  intros HD HS HP Hr. revert r Hr.
  assert (Hsum : forall i f, (forall j, (j < n)%nat -> j <> i -> f j = 0) ->
     rsum n (fun j => if Nat.eqb i j then 0 else f j) = 0).
  { intros i f Hf. apply rsum_zero. intros j Hj. destruct (Nat.eqb_spec i j); auto. }
  assert (Q : forall k v : R, (k <> 0 -> 0 < v) -> v = 0 -> kd k v = 0).
  { intros k v H Hv. unfold kd. destruct (Req_EM_T k 0) as [E|E]; [reflexivity|]. specialize (H E). lra. }
  apply (coord4 n (fun r => x r = 0 -> loglikelihood_prime_decm n ko ki so si x r = 0)); intros h Hh Hx;
    destruct (HS h Hh) as (S0 & S1 & S2 & S3); destruct (HP h Hh) as [P0 P1].
  - rewrite prime_decm_0, (Q _ _ S0 Hx) by exact Hh. apply P0 in Hx. unfold Row_out.
    rewrite (Hsum h); [ring|]. intros j Hj Hji. rewrite Hx. unfold g_ao, Rdiv. ring.
  - rewrite prime_decm_1, (Q _ _ S1 Hx) by exact Hh. apply P1 in Hx. unfold Row_in.
    rewrite (Hsum h); [ring|]. intros j Hj Hji. rewrite Hx. unfold g_ai, Rdiv. ring.
  - rewrite prime_decm_2, (Q _ _ S2 Hx) by exact Hh. apply P0 in Hx. unfold Row_out.
    rewrite (Hsum h); [ring|]. intros j Hj Hji. rewrite Hx. unfold g_bo.
    match goal with |- ?a / ?b + _ / ?c = _ => replace c with b by ring end. unfold Rdiv. ring.
  - rewrite prime_decm_3, (Q _ _ S3 Hx) by exact Hh. apply P1 in Hx. unfold Row_in.
    rewrite (Hsum h); [ring|]. intros j Hj Hji. rewrite Hx. unfold g_bi.
    match goal with |- ?a / ?b + _ / ?c = _ => replace c with b by ring end. unfold Rdiv. ring.
Qed.

Lemma stationary_decm_paired_iff n ko ki so si x :
  decm_dom n x -> decm_supp n ko ki so si x -> decm_paired n x ->
  ((forall r, (r < 4 * n)%nat -> loglikelihood_prime_decm n ko ki so si x r = 0) <->
   (forall r, (r < 4 * n)%nat -> expected_decm n x r = decm_constraint n ko ki so si r)).
Proof.
  intros HD HS HP. rewrite <- (stationary_decm_iff n ko ki so si x HD HS).
  split; intros H r Hr; [intros _; auto|].
  destruct (Req_EM_T (x r) 0) as [E|E].
  - apply prime_decm_zero; assumption.
  - apply H; [exact Hr|]. destruct (proj1 HD r Hr); [assumption|congruence].
Qed.

Lemma expected_decm_exp_eq n theta r :
  expected_decm_exp n theta r = expected_decm n (fun r => exp (- theta r)) r.
Proof. reflexivity. Qed.

Lemma stationary_decm_exp_iff n ko ki so si theta :
  decm_exp_dom n theta ->
  ((forall r, (r < 4 * n)%nat -> loglikelihood_prime_decm_exp n ko ki so si theta r = 0) <->
   (forall r, (r < 4 * n)%nat -> expected_decm_exp n theta r = decm_constraint n ko ki so si r)).
Proof.
  intros HD.
  rewrite <- (stationary_decm_iff n ko ki so si (fun r => exp (- theta r)) (decm_exp_dom_exp n theta HD)
    (decm_exp_supp n ko ki so si theta)).
  split; intros H r Hr; specialize (H r Hr).
  - intros _. rewrite prime_decm_exp_eq in H by assumption. pose proof (exp_pos (- theta r)).
    apply Rmult_integral in H. destruct H; [lra|assumption].
  - rewrite prime_decm_exp_eq, H by (try apply exp_pos; assumption). ring.
Qed.

(** The expected values are sums of exact averages of the pair law. *)
Lemma q_enh_zero z y w : z * y = 0 -> 0 <= y < 1 -> q_enh z y w = if linked w then 0 else 1.
Proof.
  intros H Hy. destruct w as [|w].
  - rewrite q_enh_0, H. simpl. field. lra.
  - rewrite q_enh_S, H. simpl. ring.
Qed.

Lemma is_series_single0 (a : nat -> R) : (forall w, a (S w) = 0) -> is_series a (a O).
Proof.
  intros H.
  assert (G : is_series (fun w : nat => 0 * (1 / 2) ^ w) (0 * / (1 - 1 / 2))).
  { apply is_series_Rscal. apply is_series_geom. rewrite Rabs_pos_eq; lra. }
  rewrite Rmult_0_l in G.
  replace (a O) with (a O + 0) by ring. apply is_series_shift.
  eapply is_series_ext; [|exact G].
  intros w. rewrite H. apply Rmult_0_l.
Qed.

Lemma q_enh_means z y : 0 <= z -> 0 <= y < 1 ->
  is_series (q_enh z y) 1 /\
  is_series (fun w => ind (linked w) * q_enh z y w) (z * y / (1 - y + z * y)) /\
  is_series (fun w => INR w * q_enh z y w) (z * y / ((1 - y + z * y) * (1 - y))).
Proof.
  intros Hz Hy. destruct (Req_EM_T (z * y) 0) as [E|E].
  - assert (Q : forall w, q_enh z y w = if linked w then 0 else 1) by (intros; apply q_enh_zero; assumption).
    repeat split.
    + replace 1 with (q_enh z y 0) by (rewrite Q; reflexivity). apply is_series_single0. intros; rewrite Q; reflexivity.
    + replace (z * y / (1 - y + z * y)) with (ind (linked 0) * q_enh z y 0) by (rewrite E; simpl; field; lra).
      apply (is_series_single0 (fun w => ind (linked w) * q_enh z y w)). intros. rewrite Q. simpl. ring.
    + replace (z * y / ((1 - y + z * y) * (1 - y))) with (INR 0 * q_enh z y 0) by (rewrite E; simpl; field; lra).
      apply (is_series_single0 (fun w => INR w * q_enh z y w)). intros. rewrite Q. simpl. ring.
  - assert (z <> 0) by (intros E'; apply E; rewrite E'; ring).
    assert (y <> 0) by (intros E'; apply E; rewrite E'; ring).
    repeat split; [apply q_enh_total|apply q_enh_link_mean|apply q_enh_weight_mean]; lra.
Qed.

Lemma expected_decm_means n x :
  decm_dom n x ->
  exists pd pw : nat -> nat -> R,
    (forall i j, (i < n)%nat -> (j < n)%nat -> i <> j ->
       let q := q_enh (x i * x (j + n)%nat) (x (i + 2 * n)%nat * x (j + 3 * n)%nat) in
       is_series q 1 /\ is_series (fun w => ind (linked w) * q w) (pd i j) /\
       is_series (fun w => INR w * q w) (pw i j)) /\
    (forall i, (i < n)%nat ->
      expected_decm n x i = rsum n (fun j => if Nat.eqb i j then 0 else pd i j) /\
      expected_decm n x (i + n) = rsum n (fun j => if Nat.eqb i j then 0 else pd j i) /\
      expected_decm n x (i + 2 * n) = rsum n (fun j => if Nat.eqb i j then 0 else pw i j) /\
      expected_decm n x (i + 3 * n) = rsum n (fun j => if Nat.eqb i j then 0 else pw j i)).
Proof.
  intros HD. exists (PP n x), (MM n x). split.
  - intros i j Hi Hj Hij. dpf HD i j. cbv zeta. apply q_enh_means; lra.
  - intros i Hi. rewrite expected_decm_0, expected_decm_1, expected_decm_2, expected_decm_3 by assumption.
    repeat split; reflexivity.
Qed.
