(** Proofs about the UECM functions. *)
From Coq Require Import Reals List Arith Lia Lra Bool.
From Coquelicot Require Import Coquelicot.
From Verif Require Import Base SpecDeriv SpecGraph SpecWeighted ProofsDeriv ProofsGraph ProofsPairW ModelECM.
Local Open Scope R_scope.

(** * Domain facts *)

Lemma ecm_pair_facts n sol i j :
  ecm_dom n sol -> (i < n)%nat -> (j < n)%nat -> i <> j ->
  0 < sol i /\ 0 < sol j /\ 0 < sol (i + n)%nat /\ 0 < sol (j + n)%nat /\
  0 < sol i * sol j /\ 0 < sol (i + n)%nat * sol (j + n)%nat < 1 /\
  0 < 1 - sol (i + n)%nat * sol (j + n)%nat /\
  0 < sol i * sol j * (sol (i + n)%nat * sol (j + n)%nat) /\
  0 < 1 - sol (i + n)%nat * sol (j + n)%nat + sol i * sol j * (sol (i + n)%nat * sol (j + n)%nat).
Proof.
  intros [Hp Hl] Hi Hj Hij. destruct (Hp i Hi), (Hp j Hj). pose proof (Hl i j Hi Hj Hij).
  assert (0 < sol i * sol j) by (apply Rmult_lt_0_compat; assumption).
  assert (0 < sol (i + n)%nat * sol (j + n)%nat) by (apply Rmult_lt_0_compat; assumption).
  assert (0 < sol i * sol j * (sol (i + n)%nat * sol (j + n)%nat)) by (apply Rmult_lt_0_compat; assumption).
  repeat split; lra.
Qed.

Ltac pairfacts H i j :=
  let F := fresh "F" in
  pose proof (ecm_pair_facts _ _ i j H ltac:(lia) ltac:(lia) ltac:(lia)) as F;
  destruct F as (? & ? & ? & ? & ? & ? & ? & ? & ?).

(** * Normal forms *)

Section NF.
Variables (n : nat) (k s sol : nat -> R).
Let x := sol.
Let y := fun i => sol (i + n)%nat.

Lemma loglik_ecm_nf :
  loglikelihood_ecm n k s sol =
  rsum n (fun i => k i * ln (sol i) + s i * ln (sol (i + n)%nat))
  + usum n (fun j i => ln ((1 - sol (i + n)%nat * sol (j + n)%nat) /
       (1 - sol (i + n)%nat * sol (j + n)%nat
          + sol i * sol j * (sol (i + n)%nat * sol (j + n)%nat)))).
Proof.
  unfold loglikelihood_ecm. cbv zeta. unfold usum. rewrite <- rsum_plus.
  rewrite (loop_add n 0 _ (fun i => (k i * ln (sol i) + s i * ln (sol (i + n)%nat)) +
    rsum i (fun j => ln ((1 - sol (i + n)%nat * sol (j + n)%nat) /
       (1 - sol (i + n)%nat * sol (j + n)%nat
          + sol i * sol j * (sol (i + n)%nat * sol (j + n)%nat)))))).
  - ring.
  - intros i acc Hi. rewrite (loop_add i _ _ (fun j => ln ((1 - sol (i + n)%nat * sol (j + n)%nat) /
       (1 - sol (i + n)%nat * sol (j + n)%nat
          + sol i * sol j * (sol (i + n)%nat * sol (j + n)%nat))))).
    + ring.
    + reflexivity.
Qed.

Lemma prime_ecm_x i : (i < n)%nat ->
  loglikelihood_prime_ecm n k s sol i =
  k i / x i - rsum n (fun j => if Nat.eqb i j then 0 else
     x j * (y i * y j) / (1 - y i * y j + x i * x j * (y i * y j))).
Proof.
  intros Hi. unfold loglikelihood_prime_ecm. apply Nat.ltb_lt in Hi. rewrite Hi. cbv zeta.
  rewrite loop_sub_skip. unfold x, y. ring.
Qed.

Lemma prime_ecm_y i :
  loglikelihood_prime_ecm n k s sol (i + n) =
  s i / y i - rsum n (fun j => if Nat.eqb i j then 0 else
     x i * x j * y j / ((1 - y i * y j) * (1 - y i * y j + x i * x j * (y i * y j)))).
Proof.
  unfold loglikelihood_prime_ecm. rewrite ltb_plus_n. cbv zeta. rewrite plus_n_minus.
  rewrite loop_sub_skip. unfold x, y. ring.
Qed.

Lemma expected_ecm_x i : (i < n)%nat ->
  expected_ecm n sol i = rsum n (fun j => if Nat.eqb i j then 0 else
     x i * x j * (y i * y j) / (1 - y i * y j + x i * x j * (y i * y j))).
Proof.
  intros Hi. unfold expected_ecm. apply Nat.ltb_lt in Hi. rewrite Hi. cbv zeta.
  rewrite loop_add_skip. unfold x, y. ring.
Qed.

Lemma expected_ecm_y i :
  expected_ecm n sol (i + n) = rsum n (fun j => if Nat.eqb i j then 0 else
     x i * x j * (y i * y j) / ((1 - y i * y j + x i * x j * (y i * y j)) * (1 - y i * y j))).
Proof.
  unfold expected_ecm. rewrite ltb_plus_n. cbv zeta. rewrite plus_n_minus.
  rewrite loop_add_skip. unfold x, y. ring.
Qed.

End NF.

Section NFexp.
Variables (n : nat) (k s sol : nat -> R).
Let x := fun i => exp (- sol i).
Let y := fun i => exp (- sol (i + n)%nat).

Lemma loglik_ecm_exp_nf :
  loglikelihood_ecm_exp n k s sol =
  - rsum n (fun i => k i * sol i + s i * sol (i + n)%nat)
  - usum n (fun j i => ln (1 + exp (- sol i) * exp (- sol j) *
       (exp (- sol (i + n)%nat) * exp (- sol (j + n)%nat) /
        (1 - exp (- sol (i + n)%nat) * exp (- sol (j + n)%nat))))).
Proof.
  unfold loglikelihood_ecm_exp. cbv zeta. unfold usum.
  rewrite (loop_sub n 0 _ (fun i => (k i * sol i + s i * sol (i + n)%nat) +
    rsum i (fun j => ln (1 + exp (- sol i) * exp (- sol j) *
       (exp (- sol (i + n)%nat) * exp (- sol (j + n)%nat) /
        (1 - exp (- sol (i + n)%nat) * exp (- sol (j + n)%nat))))))).
  - rewrite rsum_plus. ring.
  - intros i acc Hi. rewrite (loop_sub i _ _ (fun j => ln (1 + exp (- sol i) * exp (- sol j) *
       (exp (- sol (i + n)%nat) * exp (- sol (j + n)%nat) /
        (1 - exp (- sol (i + n)%nat) * exp (- sol (j + n)%nat)))))).
    + rewrite !ln_exp. ring.
    + reflexivity.
Qed.

Lemma prime_ecm_exp_x i : (i < n)%nat ->
  loglikelihood_prime_ecm_exp n k s sol i =
  - k i + rsum n (fun j => if Nat.eqb i j then 0 else
     x i * x j * (y i * y j) / (1 - y i * y j + x i * x j * (y i * y j))).
Proof.
  intros Hi. unfold loglikelihood_prime_ecm_exp. apply Nat.ltb_lt in Hi. rewrite Hi. cbv zeta.
  rewrite loop_add_skip. unfold x, y. ring.
Qed.

Lemma prime_ecm_exp_y i :
  loglikelihood_prime_ecm_exp n k s sol (i + n) =
  - s i + rsum n (fun j => if Nat.eqb i j then 0 else
     x i * x j * (y i * y j) / ((1 - y i * y j) * (1 - y i * y j + x i * x j * (y i * y j)))).
Proof.
  unfold loglikelihood_prime_ecm_exp. rewrite ltb_plus_n. cbv zeta. rewrite plus_n_minus.
  rewrite loop_add_skip. unfold x, y. ring.
Qed.

End NFexp.

(** * Gradient *)

Ltac dside := repeat split; first [exact I | lra | assumption | idtac].

Lemma grad_ecm_x n k s sol h :
  (h < n)%nat -> ecm_dom n sol ->
  partial (loglikelihood_ecm n k s) sol h (loglikelihood_prime_ecm n k s sol h).
Proof.
  intros Hh HD. eapply partial_ext; [intros z; symmetry; apply loglik_ecm_nf|].
  rewrite prime_ecm_x by exact Hh. unfold partial.
  apply is_derive_Rplus_opp; [|rewrite rsum_skip_opp].
  - apply (is_derive_rsum_one n h (fun i t => k i * ln (upd sol h t i) + s i * ln (upd sol h t (i + n)%nat)));
      [exact Hh| |].
    + intros i Hi Hih. dsimp. apply is_derive_R0.
    + dsimp. destruct HD as [Hp _]. destruct (Hp h Hh). auto_derive; [lra|]. field. lra.
  - apply (is_derive_usum n h (fun j i t => ln ((1 - upd sol h t (i + n)%nat * upd sol h t (j + n)%nat) /
       (1 - upd sol h t (i + n)%nat * upd sol h t (j + n)%nat
          + upd sol h t i * upd sol h t j * (upd sol h t (i + n)%nat * upd sol h t (j + n)%nat)))));
      [exact Hh| | |].
    + intros i j Hij Hj Hih Hjh. dsimp. apply is_derive_R0.
    + intros j Hj. dsimp. pairfacts HD h j.
      auto_derive.
      * split; [lra|]. split; [|exact I]. apply Rdiv_lt_0_compat; lra.
      * field. lra.
    + intros j Hj Hjn. dsimp. pairfacts HD j h.
      auto_derive.
      * split; [lra|]. split; [|exact I]. apply Rdiv_lt_0_compat; lra.
      * field. lra.
Qed.

Lemma grad_ecm_y n k s sol h :
  (h < n)%nat -> ecm_dom n sol ->
  partial (loglikelihood_ecm n k s) sol (h + n) (loglikelihood_prime_ecm n k s sol (h + n)).
Proof.
  intros Hh HD. eapply partial_ext; [intros z; symmetry; apply loglik_ecm_nf|].
  rewrite prime_ecm_y. unfold partial.
  apply is_derive_Rplus_opp; [|rewrite rsum_skip_opp].
  - apply (is_derive_rsum_one n h (fun i t => k i * ln (upd sol (h + n) t i)
       + s i * ln (upd sol (h + n) t (i + n)%nat)));
      [exact Hh| |].
    + intros i Hi Hih. dsimp. apply is_derive_R0.
    + dsimp. destruct HD as [Hp _]. destruct (Hp h Hh). auto_derive; [lra|]. field. lra.
  - apply (is_derive_usum n h (fun j i t =>
       ln ((1 - upd sol (h + n) t (i + n)%nat * upd sol (h + n) t (j + n)%nat) /
       (1 - upd sol (h + n) t (i + n)%nat * upd sol (h + n) t (j + n)%nat
          + upd sol (h + n) t i * upd sol (h + n) t j *
            (upd sol (h + n) t (i + n)%nat * upd sol (h + n) t (j + n)%nat)))));
      [exact Hh| | |].
    + intros i j Hij Hj Hih Hjh. dsimp. apply is_derive_R0.
    + intros j Hj. dsimp. pairfacts HD h j.
      auto_derive.
      * split; [lra|]. split; [|exact I]. apply Rdiv_lt_0_compat; lra.
      * field. lra.
    + intros j Hj Hjn. dsimp. pairfacts HD j h.
      auto_derive.
      * split; [lra|]. split; [|exact I]. apply Rdiv_lt_0_compat; lra.
      * field. lra.
Qed.

(** Splitting a coordinate of a [2n] vector into a node and a kind. *)
Lemma coord2 n (P : nat -> Prop) :
  (forall i, (i < n)%nat -> P i) -> (forall i, (i < n)%nat -> P (i + n)%nat) ->
  forall r, (r < 2 * n)%nat -> P r.
Proof.
  intros H1 H2 r Hr. destruct (Nat.lt_ge_cases r n) as [H|H]; [auto|].
  replace r with (r - n + n)%nat by lia. apply H2. lia.
Qed.

Lemma gradient_ecm n k s sol r :
  (r < 2 * n)%nat -> ecm_dom n sol ->
  partial (loglikelihood_ecm n k s) sol r (loglikelihood_prime_ecm n k s sol r).
Proof.
  intros Hr HD. revert r Hr. apply coord2; intros i Hi.
  - apply grad_ecm_x; assumption.
  - apply grad_ecm_y; assumption.
Qed.

(** * Second derivatives *)

(** Rows of the gradient for node [i]. *)
Lemma partial_prime_ecm_x n k s sol i r d :
  (i < n)%nat ->
  is_derive (fun t => k i / upd sol r t i - rsum n (fun j => if Nat.eqb i j then 0 else
     upd sol r t j * (upd sol r t (i + n) * upd sol r t (j + n)) /
     (1 - upd sol r t (i + n) * upd sol r t (j + n)
      + upd sol r t i * upd sol r t j * (upd sol r t (i + n) * upd sol r t (j + n))))) (sol r) d ->
  partial (fun z => loglikelihood_prime_ecm n k s z i) sol r d.
Proof.
  intros Hi H. unfold partial. eapply is_derive_fext; [|exact H].
  intros u. rewrite prime_ecm_x by exact Hi. reflexivity.
Qed.

Lemma partial_prime_ecm_y n k s sol i r d :
  is_derive (fun t => s i / upd sol r t (i + n) - rsum n (fun j => if Nat.eqb i j then 0 else
     upd sol r t i * upd sol r t j * upd sol r t (j + n) /
     ((1 - upd sol r t (i + n) * upd sol r t (j + n)) *
      (1 - upd sol r t (i + n) * upd sol r t (j + n)
      + upd sol r t i * upd sol r t j * (upd sol r t (i + n) * upd sol r t (j + n)))))) (sol r) d ->
  partial (fun z => loglikelihood_prime_ecm n k s z (i + n)) sol r d.
Proof.
  intros H. unfold partial. eapply is_derive_fext; [|exact H].
  intros u. rewrite prime_ecm_y. reflexivity.
Qed.

(** Own-node derivative: every term of the row moves. *)
Ltac own_row HD i :=
  match goal with
  | |- is_derive (fun t => @?A t - rsum ?n (fun j => if Nat.eqb _ j then 0 else @?F t j)) ?p (?a - rsum _ (fun j' => if Nat.eqb _ j' then 0 else @?D j')) =>
      apply (is_derive_Rminus A (fun t => rsum n (fun j => if Nat.eqb i j then 0 else F t j)));
      [ dsimp
      | apply (is_derive_row n i (fun j t => F t j) p D);
        let jj := fresh "j" in let Hj := fresh "Hj" in let Hji := fresh "Hji" in
        intros jj Hj Hji; dsimp; pairfacts HD i jj ]
  end.

(** Other-node derivative: only the term of node [h] moves. *)
Ltac other_row HD i h :=
  match goal with
  | |- is_derive (fun t => @?A t - rsum ?n (fun j => if Nat.eqb _ j then 0 else @?F t j)) ?p ?d =>
      apply (is_derive_eq _ _ (0 - - d)); [|ring];
      apply (is_derive_Rminus A (fun t => rsum n (fun j => if Nat.eqb i j then 0 else F t j)));
      [ dsimp; apply is_derive_R0
      | apply (is_derive_row_one n i h (fun j t => F t j) p); [lia|lia| |];
        [ let jj := fresh "j" in let Hj := fresh "Hj" in let Hji := fresh "Hji" in
          let Hjh := fresh "Hjh" in intros jj Hj Hji Hjh; dsimp; apply is_derive_R0
        | dsimp; pairfacts HD i h ] ]
  end.

Lemma hess_ecm_xx_diag n k s sol i :
  (i < n)%nat -> ecm_dom n sol ->
  partial (fun z => loglikelihood_prime_ecm n k s z i) sol i
    (- k i / sol i ^ 2 - rsum n (fun j => if Nat.eqb i j then 0 else
       - ((sol j * (sol (i + n)%nat * sol (j + n)%nat)) ^ 2 /
       (1 - sol (i + n)%nat * sol (j + n)%nat
        + sol i * sol j * (sol (i + n)%nat * sol (j + n)%nat)) ^ 2))).
Proof.
  intros Hi HD. apply partial_prime_ecm_x; [exact Hi|].
  own_row HD i.
  - destruct HD as [Hp _]. destruct (Hp i Hi). auto_derive; [lra|]. field. lra.
  - auto_derive; [lra|]. field. lra.
Qed.

Lemma hess_ecm_yy_diag n k s sol i :
  (i < n)%nat -> ecm_dom n sol ->
  partial (fun z => loglikelihood_prime_ecm n k s z (i + n)) sol (i + n)
    (- s i / sol (i + n)%nat ^ 2 - rsum n (fun j => if Nat.eqb i j then 0 else
       - ((sol i * sol j * sol (j + n)%nat *
          (sol i * sol j * sol (j + n)%nat * (1 - 2 * (sol (i + n)%nat * sol (j + n)%nat))
           - 2 * sol (j + n)%nat * (1 - sol (i + n)%nat * sol (j + n)%nat))) /
       ((1 - sol (i + n)%nat * sol (j + n)%nat) ^ 2 *
       (1 - sol (i + n)%nat * sol (j + n)%nat
        + sol i * sol j * (sol (i + n)%nat * sol (j + n)%nat)) ^ 2)))).
Proof.
  intros Hi HD. apply partial_prime_ecm_y.
  own_row HD i.
  - destruct HD as [Hp _]. destruct (Hp i Hi). auto_derive; [lra|]. field. lra.
  - auto_derive; [repeat split; try lra; apply Rmult_integral_contrapositive; split; lra|]. field. lra.
Qed.

Lemma hess_ecm_xy_diag n k s sol i :
  (i < n)%nat -> ecm_dom n sol ->
  partial (fun z => loglikelihood_prime_ecm n k s z i) sol (i + n)
    (0 - rsum n (fun j => if Nat.eqb i j then 0 else
       (sol j * sol (j + n)%nat) /
       (1 - sol (i + n)%nat * sol (j + n)%nat
        + sol i * sol j * (sol (i + n)%nat * sol (j + n)%nat)) ^ 2)).
Proof.
  intros Hi HD. apply partial_prime_ecm_x; [exact Hi|].
  own_row HD i.
  - apply is_derive_R0.
  - auto_derive; [lra|]. field. lra.
Qed.

Lemma hess_ecm_yx_diag n k s sol i :
  (i < n)%nat -> ecm_dom n sol ->
  partial (fun z => loglikelihood_prime_ecm n k s z (i + n)) sol i
    (0 - rsum n (fun j => if Nat.eqb i j then 0 else
       (sol j * sol (j + n)%nat) /
       (1 - sol (i + n)%nat * sol (j + n)%nat
        + sol i * sol j * (sol (i + n)%nat * sol (j + n)%nat)) ^ 2)).
Proof.
  intros Hi HD. apply partial_prime_ecm_y.
  own_row HD i.
  - apply is_derive_R0.
  - auto_derive; [repeat split; try lra; apply Rmult_integral_contrapositive; split; lra|]. field. lra.
Qed.

Lemma hess_ecm_xx_off n k s sol i h :
  (i < n)%nat -> (h < n)%nat -> h <> i -> ecm_dom n sol ->
  partial (fun z => loglikelihood_prime_ecm n k s z i) sol h
    (hessian_ecm_xx n sol i h).
Proof.
  intros Hi Hh Hhi HD. apply partial_prime_ecm_x; [exact Hi|]. unfold hessian_ecm_xx; cbv zeta.
  other_row HD i h. auto_derive; [lra|]. field. lra.
Qed.

Lemma hess_ecm_xy_off n k s sol i h :
  (i < n)%nat -> (h < n)%nat -> h <> i -> ecm_dom n sol ->
  partial (fun z => loglikelihood_prime_ecm n k s z i) sol (h + n)
    (hessian_ecm_xy n sol i h).
Proof.
  intros Hi Hh Hhi HD. apply partial_prime_ecm_x; [exact Hi|]. unfold hessian_ecm_xy; cbv zeta.
  other_row HD i h. auto_derive; [lra|]. field. lra.
Qed.

Lemma hess_ecm_yy_off n k s sol i h :
  (i < n)%nat -> (h < n)%nat -> h <> i -> ecm_dom n sol ->
  partial (fun z => loglikelihood_prime_ecm n k s z (i + n)) sol (h + n)
    (hessian_ecm_yy n sol i h).
Proof.
  intros Hi Hh Hhi HD. apply partial_prime_ecm_y. unfold hessian_ecm_yy; cbv zeta.
  other_row HD i h.
  auto_derive; [repeat split; try lra; apply Rmult_integral_contrapositive; split; lra|]. field. lra.
Qed.

Lemma hess_ecm_yx_off n k s sol i h :
  (i < n)%nat -> (h < n)%nat -> h <> i -> ecm_dom n sol ->
  partial (fun z => loglikelihood_prime_ecm n k s z (i + n)) sol h
    (hessian_ecm_yx n sol i h).
Proof.
  intros Hi Hh Hhi HD. apply partial_prime_ecm_y. unfold hessian_ecm_yx; cbv zeta.
  other_row HD i h.
  auto_derive; [repeat split; try lra; apply Rmult_integral_contrapositive; split; lra|]. field. lra.
Qed.

Lemma coord22 n (P : nat -> nat -> Prop) :
  (forall i j, (i < n)%nat -> (j < n)%nat -> P i j) ->
  (forall i j, (i < n)%nat -> (j < n)%nat -> P i (j + n)%nat) ->
  (forall i j, (i < n)%nat -> (j < n)%nat -> P (i + n)%nat j) ->
  (forall i j, (i < n)%nat -> (j < n)%nat -> P (i + n)%nat (j + n)%nat) ->
  forall r t, (r < 2 * n)%nat -> (t < 2 * n)%nat -> P r t.
Proof.
  intros H1 H2 H3 H4 r t Hr Ht. revert t Ht. revert r Hr.
  apply (coord2 n (fun r => forall t, (t < 2 * n)%nat -> P r t)); intros i Hi; apply coord2; auto.
Qed.

Lemma hessian_ecm_correct n k s sol r t :
  (r < 2 * n)%nat -> (t < 2 * n)%nat -> ecm_dom n sol ->
  partial (fun z => loglikelihood_prime_ecm n k s z r) sol t
    (loglikelihood_hessian_ecm n k s sol r t).
Proof.
  intros Hr Ht HD. revert r t Hr Ht.
  apply coord22; intros i j Hi Hj;
  unfold loglikelihood_hessian_ecm, assemble2; cbv zeta;
  rewrite ?ltb_plus_n, ?plus_n_minus, ?(proj2 (Nat.ltb_lt i n) Hi), ?(proj2 (Nat.ltb_lt j n) Hj);
  destruct (Nat.eqb_spec i j) as [<-|Hij]; try (destruct (Nat.ltb_spec i j)).
  - unfold hessian_ecm_f1; cbv zeta. rewrite loop_add_skip'. eapply is_derive_eq; [apply hess_ecm_xx_diag; assumption|].
    rewrite <- rsum_skip_opp. unfold Rminus. rewrite Ropp_involutive. reflexivity.
  - apply hess_ecm_xx_off; auto.
  - eapply is_derive_eq; [apply hess_ecm_xx_off; auto|]. unfold hessian_ecm_xx; cbv zeta.
    pairfacts HD i j. field. lra.
  - unfold hessian_ecm_f3; cbv zeta. rewrite loop_sub_skip'. apply hess_ecm_xy_diag; assumption.
  - apply hess_ecm_xy_off; auto.
  - eapply is_derive_eq; [apply hess_ecm_xy_off; auto|]. unfold hessian_ecm_xy, hessian_ecm_yx; cbv zeta.
    pairfacts HD i j. field. lra.
  - unfold hessian_ecm_f3; cbv zeta. rewrite loop_sub_skip'. apply hess_ecm_yx_diag; assumption.
  - apply hess_ecm_yx_off; auto.
  - eapply is_derive_eq; [apply hess_ecm_yx_off; auto|]. unfold hessian_ecm_xy, hessian_ecm_yx; cbv zeta.
    pairfacts HD i j. field. lra.
  - unfold hessian_ecm_f2; cbv zeta. rewrite loop_add_skip'. eapply is_derive_eq; [apply hess_ecm_yy_diag; assumption|].
    rewrite <- rsum_skip_opp. unfold Rminus. rewrite Ropp_involutive. reflexivity.
  - apply hess_ecm_yy_off; auto.
  - eapply is_derive_eq; [apply hess_ecm_yy_off; auto|]. unfold hessian_ecm_yy; cbv zeta.
    pairfacts HD i j. field. lra.
Qed.

Lemma hessian_diag_ecm_correct n k s sol r :
  (r < 2 * n)%nat -> ecm_dom n sol ->
  partial (fun z => loglikelihood_prime_ecm n k s z r) sol r
    (loglikelihood_hessian_diag_ecm n k s sol r).
Proof.
  intros Hr HD. revert r Hr. apply coord2; intros i Hi; unfold loglikelihood_hessian_diag_ecm; cbv zeta;
  rewrite ?ltb_plus_n, ?plus_n_minus, ?(proj2 (Nat.ltb_lt i n) Hi); rewrite loop_add_skip'.
  - eapply is_derive_eq; [apply hess_ecm_xx_diag; assumption|].
    rewrite <- rsum_skip_opp. unfold Rminus. rewrite Ropp_involutive. f_equal.
    destruct HD as [Hp _]. destruct (Hp i Hi). field. lra.
  - eapply is_derive_eq; [apply hess_ecm_yy_diag; assumption|].
    rewrite <- rsum_skip_opp. unfold Rminus. rewrite Ropp_involutive. f_equal.
    destruct HD as [Hp _]. destruct (Hp i Hi). field. lra.
Qed.

(** * Exponential parametrisation *)

Lemma exp_opp_mult_lt1 a b : 0 < a + b -> exp (- a) * exp (- b) < 1.
Proof.
  intros H. rewrite <- exp_plus, <- exp_0. apply exp_increasing. lra.
Qed.

Lemma exp_dom n sol : ecm_exp_dom n sol -> ecm_dom n (fun r => exp (- sol r)).
Proof.
  intros H. split.
  - intros i Hi. split; apply exp_pos.
  - intros i j Hi Hj Hij. apply exp_opp_mult_lt1. apply H; assumption.
Qed.

Ltac epairfacts H i j := pairfacts (exp_dom _ _ H) i j.

Lemma grad_ecm_exp_x n k s sol h :
  (h < n)%nat -> ecm_exp_dom n sol ->
  partial (loglikelihood_ecm_exp n k s) sol h (loglikelihood_prime_ecm_exp n k s sol h).
Proof.
  intros Hh HD. eapply partial_ext; [intros z; symmetry; apply loglik_ecm_exp_nf|].
  rewrite prime_ecm_exp_x by exact Hh. unfold partial.
  eapply is_derive_eq; [eapply (is_derive_Rminus _ _ (sol h) (- k h) (- _))|unfold Rminus; rewrite Ropp_involutive; reflexivity].
  - eapply is_derive_fext; [intros u; apply rsum_opp|].
    apply (is_derive_rsum_one n h (fun i t => - (k i * upd sol h t i + s i * upd sol h t (i + n)%nat)));
      [exact Hh| |].
    + intros i Hi Hih. dsimp. apply is_derive_R0.
    + dsimp. auto_derive; [exact I|]. ring.
  - rewrite rsum_skip_opp.
    apply (is_derive_usum n h (fun j i t => ln (1 + exp (- upd sol h t i) * exp (- upd sol h t j) *
       (exp (- upd sol h t (i + n)%nat) * exp (- upd sol h t (j + n)%nat) /
        (1 - exp (- upd sol h t (i + n)%nat) * exp (- upd sol h t (j + n)%nat))))));
      [exact Hh| | |].
    + intros i j Hij Hj Hih Hjh. dsimp. apply is_derive_R0.
    + intros j Hj. dsimp. epairfacts HD h j.
      auto_derive.
      * repeat split; try lra. apply Rplus_lt_0_compat; [lra|]. apply Rmult_lt_0_compat; [lra|].
        apply Rdiv_lt_0_compat; lra.
      * field. lra.
    + intros j Hj Hjn. dsimp. epairfacts HD j h.
      auto_derive.
      * repeat split; try lra. apply Rplus_lt_0_compat; [lra|]. apply Rmult_lt_0_compat; [lra|].
        apply Rdiv_lt_0_compat; lra.
      * field. lra.
Qed.

Lemma grad_ecm_exp_y n k s sol h :
  (h < n)%nat -> ecm_exp_dom n sol ->
  partial (loglikelihood_ecm_exp n k s) sol (h + n) (loglikelihood_prime_ecm_exp n k s sol (h + n)).
Proof.
  intros Hh HD. eapply partial_ext; [intros z; symmetry; apply loglik_ecm_exp_nf|].
  rewrite prime_ecm_exp_y. unfold partial.
  eapply is_derive_eq; [eapply (is_derive_Rminus _ _ (sol (h + n)%nat) (- s h) (- _))|unfold Rminus; rewrite Ropp_involutive; reflexivity].
  - eapply is_derive_fext; [intros u; apply rsum_opp|].
    apply (is_derive_rsum_one n h (fun i t => - (k i * upd sol (h + n) t i + s i * upd sol (h + n) t (i + n)%nat)));
      [exact Hh| |].
    + intros i Hi Hih. dsimp. apply is_derive_R0.
    + dsimp. auto_derive; [exact I|]. ring.
  - rewrite rsum_skip_opp.
    apply (is_derive_usum n h (fun j i t => ln (1 + exp (- upd sol (h + n) t i) * exp (- upd sol (h + n) t j) *
       (exp (- upd sol (h + n) t (i + n)%nat) * exp (- upd sol (h + n) t (j + n)%nat) /
        (1 - exp (- upd sol (h + n) t (i + n)%nat) * exp (- upd sol (h + n) t (j + n)%nat))))));
      [exact Hh| | |].
    + intros i j Hij Hj Hih Hjh. dsimp. apply is_derive_R0.
    + intros j Hj. dsimp. epairfacts HD h j.
      auto_derive.
      * repeat split; try lra. apply Rplus_lt_0_compat; [lra|]. apply Rmult_lt_0_compat; [lra|].
        apply Rdiv_lt_0_compat; lra.
      * field. lra.
    + intros j Hj Hjn. dsimp. epairfacts HD j h.
      auto_derive.
      * repeat split; try lra. apply Rplus_lt_0_compat; [lra|]. apply Rmult_lt_0_compat; [lra|].
        apply Rdiv_lt_0_compat; lra.
      * field. lra.
Qed.

Lemma gradient_ecm_exp n k s sol r :
  (r < 2 * n)%nat -> ecm_exp_dom n sol ->
  partial (loglikelihood_ecm_exp n k s) sol r (loglikelihood_prime_ecm_exp n k s sol r).
Proof.
  intros Hr HD. revert r Hr. apply coord2; intros i Hi.
  - apply grad_ecm_exp_x; assumption.
  - apply grad_ecm_exp_y; assumption.
Qed.

Lemma partial_prime_ecm_exp_x n k s sol i r d :
  (i < n)%nat ->
  is_derive (fun t : R => - k i - rsum n (fun j => if Nat.eqb i j then 0 else
     - (exp (- upd sol r t i) * exp (- upd sol r t j) * (exp (- upd sol r t (i + n)%nat) * exp (- upd sol r t (j + n)%nat)) /
     (1 - exp (- upd sol r t (i + n)%nat) * exp (- upd sol r t (j + n)%nat)
      + exp (- upd sol r t i) * exp (- upd sol r t j) * (exp (- upd sol r t (i + n)%nat) * exp (- upd sol r t (j + n)%nat)))))) (sol r) d ->
  partial (fun z => loglikelihood_prime_ecm_exp n k s z i) sol r d.
Proof.
  intros Hi H. unfold partial. eapply is_derive_fext; [|exact H].
  intros u. cbv beta. rewrite prime_ecm_exp_x by exact Hi. rewrite <- rsum_skip_opp. unfold Rminus.
  rewrite Ropp_involutive. reflexivity.
Qed.

Lemma partial_prime_ecm_exp_y n k s sol i r d :
  is_derive (fun t : R => - s i - rsum n (fun j => if Nat.eqb i j then 0 else
     - (exp (- upd sol r t i) * exp (- upd sol r t j) * (exp (- upd sol r t (i + n)%nat) * exp (- upd sol r t (j + n)%nat)) /
     ((1 - exp (- upd sol r t (i + n)%nat) * exp (- upd sol r t (j + n)%nat)) *
     (1 - exp (- upd sol r t (i + n)%nat) * exp (- upd sol r t (j + n)%nat)
      + exp (- upd sol r t i) * exp (- upd sol r t j) * (exp (- upd sol r t (i + n)%nat) * exp (- upd sol r t (j + n)%nat))))))) (sol r) d ->
  partial (fun z => loglikelihood_prime_ecm_exp n k s z (i + n)) sol r d.
Proof.
  intros H. unfold partial. eapply is_derive_fext; [|exact H].
  intros u. cbv beta. rewrite prime_ecm_exp_y. rewrite <- rsum_skip_opp. unfold Rminus.
  rewrite Ropp_involutive. reflexivity.
Qed.

Ltac nz := repeat split; try lra; try (apply Rmult_integral_contrapositive; split; lra).

Lemma hess_ecm_exp_xx_diag n k s sol i :
  (i < n)%nat -> ecm_exp_dom n sol ->
  partial (fun z => loglikelihood_prime_ecm_exp n k s z i) sol i (hessian_ecm_exp_f1 n sol i).
Proof.
  intros Hi HD. apply partial_prime_ecm_exp_x; [exact Hi|].
  unfold hessian_ecm_exp_f1; cbv zeta. rewrite loop_sub_skip'.
  own_row (exp_dom _ _ HD) i; [apply is_derive_R0|]. auto_derive; [nz|]. field. lra.
Qed.

Lemma hess_ecm_exp_yy_diag n k s sol i :
  (i < n)%nat -> ecm_exp_dom n sol ->
  partial (fun z => loglikelihood_prime_ecm_exp n k s z (i + n)) sol (i + n) (hessian_ecm_exp_f2 n sol i).
Proof.
  intros Hi HD. apply partial_prime_ecm_exp_y.
  unfold hessian_ecm_exp_f2; cbv zeta. rewrite loop_sub_skip'.
  own_row (exp_dom _ _ HD) i; [apply is_derive_R0|]. auto_derive; [nz|]. field. lra.
Qed.

Lemma hess_ecm_exp_xy_diag n k s sol i :
  (i < n)%nat -> ecm_exp_dom n sol ->
  partial (fun z => loglikelihood_prime_ecm_exp n k s z i) sol (i + n) (hessian_ecm_exp_f3 n sol i).
Proof.
  intros Hi HD. apply partial_prime_ecm_exp_x; [exact Hi|].
  unfold hessian_ecm_exp_f3; cbv zeta. rewrite loop_sub_skip'.
  own_row (exp_dom _ _ HD) i; [apply is_derive_R0|]. auto_derive; [nz|]. field. lra.
Qed.

Lemma hess_ecm_exp_yx_diag n k s sol i :
  (i < n)%nat -> ecm_exp_dom n sol ->
  partial (fun z => loglikelihood_prime_ecm_exp n k s z (i + n)) sol i (hessian_ecm_exp_f3 n sol i).
Proof.
  intros Hi HD. apply partial_prime_ecm_exp_y.
  unfold hessian_ecm_exp_f3; cbv zeta. rewrite loop_sub_skip'.
  own_row (exp_dom _ _ HD) i; [apply is_derive_R0|]. auto_derive; [nz|]. field. lra.
Qed.

Lemma hess_ecm_exp_xx_off n k s sol i h :
  (i < n)%nat -> (h < n)%nat -> h <> i -> ecm_exp_dom n sol ->
  partial (fun z => loglikelihood_prime_ecm_exp n k s z i) sol h (hessian_ecm_exp_xx n sol i h).
Proof.
  intros Hi Hh Hhi HD. apply partial_prime_ecm_exp_x; [exact Hi|]. unfold hessian_ecm_exp_xx; cbv zeta.
  other_row (exp_dom _ _ HD) i h. auto_derive; [nz|]. field. lra.
Qed.

Lemma hess_ecm_exp_xy_off n k s sol i h :
  (i < n)%nat -> (h < n)%nat -> h <> i -> ecm_exp_dom n sol ->
  partial (fun z => loglikelihood_prime_ecm_exp n k s z i) sol (h + n) (hessian_ecm_exp_xy n sol i h).
Proof.
  intros Hi Hh Hhi HD. apply partial_prime_ecm_exp_x; [exact Hi|]. unfold hessian_ecm_exp_xy; cbv zeta.
  other_row (exp_dom _ _ HD) i h. auto_derive; [nz|]. field. lra.
Qed.

Lemma hess_ecm_exp_yy_off n k s sol i h :
  (i < n)%nat -> (h < n)%nat -> h <> i -> ecm_exp_dom n sol ->
  partial (fun z => loglikelihood_prime_ecm_exp n k s z (i + n)) sol (h + n) (hessian_ecm_exp_yy n sol i h).
Proof.
  intros Hi Hh Hhi HD. apply partial_prime_ecm_exp_y. unfold hessian_ecm_exp_yy; cbv zeta.
  other_row (exp_dom _ _ HD) i h. auto_derive; [nz|]. field. lra.
Qed.

Lemma hess_ecm_exp_yx_off n k s sol i h :
  (i < n)%nat -> (h < n)%nat -> h <> i -> ecm_exp_dom n sol ->
  partial (fun z => loglikelihood_prime_ecm_exp n k s z (i + n)) sol h (hessian_ecm_exp_yx n sol i h).
Proof.
  intros Hi Hh Hhi HD. apply partial_prime_ecm_exp_y. unfold hessian_ecm_exp_yx; cbv zeta.
  other_row (exp_dom _ _ HD) i h. auto_derive; [nz|]. field. lra.
Qed.

Lemma hessian_ecm_exp_correct n k s sol r t :
  (r < 2 * n)%nat -> (t < 2 * n)%nat -> ecm_exp_dom n sol ->
  partial (fun z => loglikelihood_prime_ecm_exp n k s z r) sol t
    (loglikelihood_hessian_ecm_exp n sol r t).
Proof.
  intros Hr Ht HD. revert r t Hr Ht.
  apply coord22; intros i j Hi Hj;
  unfold loglikelihood_hessian_ecm_exp, assemble2; cbv zeta;
  rewrite ?ltb_plus_n, ?plus_n_minus, ?(proj2 (Nat.ltb_lt i n) Hi), ?(proj2 (Nat.ltb_lt j n) Hj);
  destruct (Nat.eqb_spec i j) as [<-|Hij]; try (destruct (Nat.ltb_spec i j)).
  - apply hess_ecm_exp_xx_diag; assumption.
  - apply hess_ecm_exp_xx_off; auto.
  - eapply is_derive_eq; [apply hess_ecm_exp_xx_off; auto|]. unfold hessian_ecm_exp_xx; cbv zeta.
    epairfacts HD i j. field. lra.
  - apply hess_ecm_exp_xy_diag; assumption.
  - apply hess_ecm_exp_xy_off; auto.
  - eapply is_derive_eq; [apply hess_ecm_exp_xy_off; auto|]. unfold hessian_ecm_exp_xy, hessian_ecm_exp_yx; cbv zeta.
    epairfacts HD i j. field. lra.
  - apply hess_ecm_exp_yx_diag; assumption.
  - apply hess_ecm_exp_yx_off; auto.
  - eapply is_derive_eq; [apply hess_ecm_exp_yx_off; auto|]. unfold hessian_ecm_exp_xy, hessian_ecm_exp_yx; cbv zeta.
    epairfacts HD i j. field. lra.
  - apply hess_ecm_exp_yy_diag; assumption.
  - apply hess_ecm_exp_yy_off; auto.
  - eapply is_derive_eq; [apply hess_ecm_exp_yy_off; auto|]. unfold hessian_ecm_exp_yy; cbv zeta.
    epairfacts HD i j. field. lra.
Qed.

Lemma hessian_diag_ecm_exp_correct n k s sol r :
  (r < 2 * n)%nat -> ecm_exp_dom n sol ->
  partial (fun z => loglikelihood_prime_ecm_exp n k s z r) sol r
    (loglikelihood_hessian_diag_ecm_exp n sol r).
Proof.
  intros Hr HD. revert r Hr. apply coord2; intros i Hi; unfold loglikelihood_hessian_diag_ecm_exp; cbv zeta;
  rewrite ?ltb_plus_n, ?plus_n_minus, ?(proj2 (Nat.ltb_lt i n) Hi).
  - apply hess_ecm_exp_xx_diag; assumption.
  - apply hess_ecm_exp_yy_diag; assumption.
Qed.
