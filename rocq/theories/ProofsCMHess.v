(** Second derivatives of the UBCM log-likelihood and what the code returns for them. *)
From Coq Require Import Reals List Arith Lia Lra Bool.
From Coquelicot Require Import Coquelicot.
From Verif Require Import Base SpecDeriv SpecGraph ProofsDeriv ProofsGraph ModelCM ProofsCM.
Local Open Scope R_scope.

Lemma partial_iff F x h d e : partial F x h d -> (partial F x h e <-> e = d).
Proof.
  intros H. split.
  - intros H'. exact (partial_unique _ _ _ _ _ H' H).
  - intros ->. exact H.
Qed.

(** True mixed derivative. *)
Lemma cm_mixed n k c x i j :
  (i < n)%nat -> (j < n)%nat -> i <> j -> (forall q, (q < n)%nat -> 0 < x q) ->
  partial (fun y => loglikelihood_prime_cm n k c y i) x j
          (- (c i * c j / (1 + x i * x j) ^ 2)).
Proof.
  intros Hi Hj Hij Hx.
  apply (partial_ext (fun y => c i * k i / y i
     - rsum n (fun s => pairmult c i s * (y s / (1 + y i * y s))))).
  { intros y. rewrite prime_cm_nf by exact Hi. reflexivity. }
  unfold partial.
  apply (is_derive_eq _ _ (0 - c i * c j / (1 + x i * x j) ^ 2)). 2: { ring. }
  apply is_derive_Rminus.
  - apply (is_derive_fext (fun _ => c i * k i / x i)).
    { intros u. upd_simpl. reflexivity. }
    apply is_derive_R0.
  - apply (is_derive_rsum_one n j (fun s t => pairmult c i s * (upd x j t s / (1 + upd x j t i * upd x j t s))));
      [exact Hj| |].
    + intros s Hs Hsj. apply (is_derive_fext (fun _ => pairmult c i s * (x s / (1 + x i * x s)))).
      { intros u. upd_simpl. reflexivity. }
      apply is_derive_R0.
    + apply (is_derive_fext (fun t => c i * c j * (t / (1 + x i * t)))).
      { intros u. upd_simpl. unfold pairmult.
        destruct (Nat.eqb_spec i j); [congruence|reflexivity]. }
      assert (0 < x i * x j) by (apply Rmult_lt_0_compat; auto).
      auto_derive; [lra|]. field. lra.
Qed.

(** True second derivative along one coordinate. *)
Lemma cm_second n k c x i :
  (i < n)%nat -> (forall q, (q < n)%nat -> 0 < x q) ->
  partial (fun y => loglikelihood_prime_cm n k c y i) x i
    (- (c i * k i / (x i) ^ 2)
     + rsum n (fun s => if Nat.eqb i s
          then c i * (c i - 1) * (((x i) ^ 2 - 1) / (1 + (x i) ^ 2) ^ 2)
          else c i * c s * ((x s) ^ 2 / (1 + x i * x s) ^ 2))).
Proof.
  intros Hi Hx.
  apply (partial_ext (fun y => c i * k i / y i
     - rsum n (fun s => pairmult c i s * (y s / (1 + y i * y s))))).
  { intros y. rewrite prime_cm_nf by exact Hi. reflexivity. }
  unfold partial.
  apply (is_derive_eq _ _ (- (c i * k i / (x i) ^ 2)
     - rsum n (fun s => - (if Nat.eqb i s
          then c i * (c i - 1) * (((x i) ^ 2 - 1) / (1 + (x i) ^ 2) ^ 2)
          else c i * c s * ((x s) ^ 2 / (1 + x i * x s) ^ 2))))).
  2: { rewrite rsum_opp. ring. }
  apply is_derive_Rminus.
  - apply (is_derive_fext (fun t => c i * k i / t)).
    { intros u. upd_simpl. reflexivity. }
    specialize (Hx i Hi). auto_derive; [lra|]. field. lra.
  - apply (is_derive_rsum n (fun s t => pairmult c i s * (upd x i t s / (1 + upd x i t i * upd x i t s)))).
    intros s Hs. unfold pairmult. destruct (Nat.eqb_spec i s) as [<-|Hne].
    + apply (is_derive_fext (fun t => c i * (c i - 1) * (t / (1 + t * t)))).
      { intros u. upd_simpl. reflexivity. }
      assert (0 < x i * x i) by (apply Rmult_lt_0_compat; auto).
      auto_derive; [lra|]. field. replace (x i ^ 2) with (x i * x i) by ring. lra.
    + apply (is_derive_fext (fun t => c i * c s * (x s / (1 + t * x s)))).
      { intros u. upd_simpl. reflexivity. }
      assert (0 < x i * x s) by (apply Rmult_lt_0_compat; auto).
      auto_derive; [lra|]. field. lra.
Qed.

Lemma hessian_cm_offdiag_iff n k c x i j :
  (i < j)%nat -> (j < n)%nat -> (forall q, (q < n)%nat -> 0 < x q) ->
  (partial (fun y => loglikelihood_prime_cm n k c y i) x j
     (loglikelihood_hessian_cm n k c x i j)
   <-> c i * c j * (x j * (x j - x i)) = 0).
Proof.
  intros Hij Hj Hx.
  rewrite (partial_iff _ _ _ _ _ (cm_mixed n k c x i j ltac:(lia) Hj ltac:(lia) Hx)).
  unfold loglikelihood_hessian_cm, hessian_cm_aux.
  destruct (Nat.leb_spec i j); [|lia]. destruct (Nat.eqb_spec i j); [lia|].
  assert (0 < x i * x j) by (apply Rmult_lt_0_compat; apply Hx; lia).
  cbv zeta.
  assert (E : (x j * x j - (1 + x i * x j)) / ((1 + x i * x j) * (1 + x i * x j)) * c i * c j =
     - (c i * c j / (1 + x i * x j) ^ 2) + c i * c j * (x j * (x j - x i)) / (1 + x i * x j) ^ 2).
  { field. lra. }
  rewrite E.
  assert (Hp : 0 < (1 + x i * x j) ^ 2) by (apply pow_lt; lra).
  split; intros H1.
  - assert (H2 : c i * c j * (x j * (x j - x i)) / (1 + x i * x j) ^ 2 = 0) by lra.
    apply (Rmult_eq_compat_r ((1 + x i * x j) ^ 2)) in H2.
    rewrite Rmult_0_l in H2. rewrite <- H2. field. lra.
  - rewrite H1. unfold Rdiv. ring.
Qed.

Lemma hessian_cm_diag_eq n k c x i :
  loglikelihood_hessian_diag_cm n k c x i = loglikelihood_hessian_cm n k c x i i.
Proof.
  unfold loglikelihood_hessian_cm, hessian_cm_aux, loglikelihood_hessian_diag_cm.
  rewrite Nat.leb_refl, Nat.eqb_refl.
  replace (0 - k i / (x i * x i) * c i) with (- k i / (x i * x i) * c i) by (unfold Rdiv; ring).
  reflexivity.
Qed.

Lemma hessian_diag_cm_nf n k c x i :
  (i < n)%nat ->
  loglikelihood_hessian_diag_cm n k c x i =
  - (k i / (x i * x i) * c i) + rsum n (fun s => if Nat.eqb i s
     then (x s * x s) / ((1 + x s * x s) * (1 + x s * x s)) * c i * (c s - 1)
     else (x s * x s) / ((1 + x i * x s) * (1 + x i * x s)) * c i * c s).
Proof.
  intros Hi. unfold loglikelihood_hessian_diag_cm. cbv zeta.
  rewrite (loop_add n _ _ (fun s => if Nat.eqb i s
     then (x s * x s) / ((1 + x s * x s) * (1 + x s * x s)) * c i * (c s - 1)
     else (x s * x s) / ((1 + x i * x s) * (1 + x i * x s)) * c i * c s)).
  - ring.
  - intros j acc _. destruct (Nat.eqb i j); reflexivity.
Qed.

Lemma hessian_diag_cm_iff n k c x i :
  (i < n)%nat -> (forall q, (q < n)%nat -> 0 < x q) ->
  (partial (fun y => loglikelihood_prime_cm n k c y i) x i
     (loglikelihood_hessian_diag_cm n k c x i)
   <-> c i * (c i - 1) = 0).
Proof.
  intros Hi Hx.
  rewrite (partial_iff _ _ _ _ _ (cm_second n k c x i Hi Hx)).
  rewrite hessian_diag_cm_nf by exact Hi.
  assert (Hxi : 0 < x i) by auto.
  assert (Hxx : 0 < x i * x i) by (apply Rmult_lt_0_compat; auto).
  set (D := 1 / (1 + x i ^ 2) ^ 2).
  assert (HD : 0 < D).
  { unfold D. apply Rdiv_lt_0_compat; [lra|]. apply pow_lt.
    replace (x i ^ 2) with (x i * x i) by ring. lra. }
  assert (E : rsum n (fun s => if Nat.eqb i s
     then (x s * x s) / ((1 + x s * x s) * (1 + x s * x s)) * c i * (c s - 1)
     else (x s * x s) / ((1 + x i * x s) * (1 + x i * x s)) * c i * c s)
   = rsum n (fun s => if Nat.eqb i s
          then c i * (c i - 1) * (((x i) ^ 2 - 1) / (1 + (x i) ^ 2) ^ 2)
          else c i * c s * ((x s) ^ 2 / (1 + x i * x s) ^ 2))
     + c i * (c i - 1) * D).
  { rewrite <- (rsum_single n i (fun _ => c i * (c i - 1) * D) Hi).
    rewrite <- rsum_plus. apply rsum_ext. intros s Hs.
    rewrite (Nat.eqb_sym s i). destruct (Nat.eqb_spec i s) as [<-|Hne].
    - unfold D. field. replace (x i ^ 2) with (x i * x i) by ring. lra.
    - assert (0 < x i * x s) by (apply Rmult_lt_0_compat; auto). field. lra. }
  rewrite E.
  assert (E2 : k i / (x i * x i) * c i = c i * k i / x i ^ 2) by (field; lra).
  rewrite E2. split; intros H.
  - assert (H2 : c i * (c i - 1) * D = 0) by lra.
    apply Rmult_integral in H2. destruct H2; lra.
  - rewrite H. ring.
Qed.

(** * Exponential parametrisation *)

Lemma cm_exp_mixed n k c x i j :
  (i < n)%nat -> (j < n)%nat -> i <> j ->
  partial (fun y => loglikelihood_prime_cm_exp n k c y i) x j
    (- (c i * c j * (exp (- x i) * exp (- x j) / (1 + exp (- x i) * exp (- x j)) ^ 2))).
Proof.
  intros Hi Hj Hij.
  apply (partial_ext (fun y => - (c i * k i)
     + rsum n (fun s => pairmult c i s * (exp (- y i) * exp (- y s) / (1 + exp (- y i) * exp (- y s)))))).
  { intros y. rewrite prime_cm_exp_nf by exact Hi. reflexivity. }
  unfold partial.
  match goal with |- is_derive _ _ ?d => apply (is_derive_eq _ _ (0 + d)); [|ring] end.
  apply is_derive_Rplus; [apply is_derive_R0|].
  apply (is_derive_rsum_one n j (fun s t => pairmult c i s *
     (exp (- upd x j t i) * exp (- upd x j t s) / (1 + exp (- upd x j t i) * exp (- upd x j t s)))));
      [exact Hj| |].
  - intros s Hs Hsj. apply (is_derive_fext (fun _ => pairmult c i s *
       (exp (- x i) * exp (- x s) / (1 + exp (- x i) * exp (- x s))))).
    { intros u. upd_simpl. reflexivity. }
    apply is_derive_R0.
  - apply (is_derive_fext (fun t => c i * c j * (exp (- x i) * exp (- t) / (1 + exp (- x i) * exp (- t))))).
    { intros u. upd_simpl. unfold pairmult.
      destruct (Nat.eqb_spec i j); [congruence|reflexivity]. }
    pose proof (exp_pos (- x i)). pose proof (exp_pos (- x j)).
    assert (0 < exp (- x i) * exp (- x j)) by (apply Rmult_lt_0_compat; auto).
    auto_derive; [lra|]. field. lra.
Qed.

Lemma cm_exp_second n k c x i :
  (i < n)%nat ->
  partial (fun y => loglikelihood_prime_cm_exp n k c y i) x i
    (- rsum n (fun s => if Nat.eqb i s
          then 2 * (c i * (c i - 1) * (exp (- x i) ^ 2 / (1 + exp (- x i) ^ 2) ^ 2))
          else c i * c s * (exp (- x i) * exp (- x s) / (1 + exp (- x i) * exp (- x s)) ^ 2))).
Proof.
  intros Hi.
  apply (partial_ext (fun y => - (c i * k i)
     + rsum n (fun s => pairmult c i s * (exp (- y i) * exp (- y s) / (1 + exp (- y i) * exp (- y s)))))).
  { intros y. rewrite prime_cm_exp_nf by exact Hi. reflexivity. }
  unfold partial. rewrite <- rsum_opp.
  match goal with |- is_derive _ _ ?d => apply (is_derive_eq _ _ (0 + d)); [|ring] end.
  apply is_derive_Rplus; [apply is_derive_R0|].
  apply (is_derive_rsum n (fun s t => pairmult c i s *
     (exp (- upd x i t i) * exp (- upd x i t s) / (1 + exp (- upd x i t i) * exp (- upd x i t s))))).
  intros s Hs. unfold pairmult. pose proof (exp_pos (- x i)).
  destruct (Nat.eqb_spec i s) as [<-|Hne].
  - apply (is_derive_fext (fun t => c i * (c i - 1) * (exp (- t) * exp (- t) / (1 + exp (- t) * exp (- t))))).
    { intros u. upd_simpl. reflexivity. }
    assert (0 < exp (- x i) * exp (- x i)) by (apply Rmult_lt_0_compat; auto).
    auto_derive; [lra|]. field. replace (exp (- x i) ^ 2) with (exp (- x i) * exp (- x i)) by ring. lra.
  - apply (is_derive_fext (fun t => c i * c s * (exp (- t) * exp (- x s) / (1 + exp (- t) * exp (- x s))))).
    { intros u. upd_simpl. reflexivity. }
    pose proof (exp_pos (- x s)).
    assert (0 < exp (- x i) * exp (- x s)) by (apply Rmult_lt_0_compat; auto).
    auto_derive; [lra|]. field. lra.
Qed.

Lemma hessian_cm_exp_offdiag n k c x i j :
  (i < n)%nat -> (j < n)%nat -> i <> j ->
  partial (fun y => loglikelihood_prime_cm_exp n k c y i) x j
    (loglikelihood_hessian_cm_exp n c x i j).
Proof.
  intros Hi Hj Hij.
  rewrite (partial_iff _ _ _ _ _ (cm_exp_mixed n k c x i j Hi Hj Hij)).
  unfold loglikelihood_hessian_cm_exp, hessian_cm_exp_aux.
  destruct (Nat.leb_spec i j).
  - destruct (Nat.eqb_spec i j); [lia|]. cbv zeta. ring.
  - destruct (Nat.eqb_spec j i); [lia|]. cbv zeta.
    rewrite (Rmult_comm (exp (- x j))). ring.
Qed.

Lemma hessian_cm_exp_diag_nf n c x i :
  loglikelihood_hessian_cm_exp n c x i i =
  - rsum n (fun s => if Nat.eqb i s
          then c i * (c i - 1) * (exp (- x i) ^ 2 / (1 + exp (- x i) ^ 2) ^ 2)
          else c i * c s * (exp (- x i) * exp (- x s) / (1 + exp (- x i) * exp (- x s)) ^ 2)).
Proof.
  unfold loglikelihood_hessian_cm_exp, hessian_cm_exp_aux.
  rewrite Nat.leb_refl, Nat.eqb_refl. cbv zeta.
  rewrite (loop_sub n _ _ (fun s => if Nat.eqb i s
          then c i * (c i - 1) * (exp (- x i) ^ 2 / (1 + exp (- x i) ^ 2) ^ 2)
          else c i * c s * (exp (- x i) * exp (- x s) / (1 + exp (- x i) * exp (- x s)) ^ 2))).
  - ring.
  - intros j acc _. destruct (Nat.eqb_spec i j) as [<-|]; ring.
Qed.

Lemma hessian_cm_exp_diag_iff n k c x i :
  (i < n)%nat ->
  (partial (fun y => loglikelihood_prime_cm_exp n k c y i) x i
    (loglikelihood_hessian_cm_exp n c x i i)
   <-> c i * (c i - 1) = 0).
Proof.
  intros Hi.
  rewrite (partial_iff _ _ _ _ _ (cm_exp_second n k c x i Hi)).
  rewrite hessian_cm_exp_diag_nf.
  set (D := exp (- x i) ^ 2 / (1 + exp (- x i) ^ 2) ^ 2).
  assert (HD : 0 < D).
  { unfold D. pose proof (exp_pos (- x i)). assert (0 < exp (- x i) ^ 2) by (apply pow_lt; lra).
    apply Rdiv_lt_0_compat; [lra|]. apply pow_lt. lra. }
  assert (E : rsum n (fun s => if Nat.eqb i s then 2 * (c i * (c i - 1) * D)
     else c i * c s * (exp (- x i) * exp (- x s) / (1 + exp (- x i) * exp (- x s)) ^ 2))
   = rsum n (fun s => if Nat.eqb i s then c i * (c i - 1) * D
     else c i * c s * (exp (- x i) * exp (- x s) / (1 + exp (- x i) * exp (- x s)) ^ 2))
     + c i * (c i - 1) * D).
  { eapply eq_trans; [|apply f_equal2; [reflexivity|exact (rsum_single n i (fun _ => c i * (c i - 1) * D) Hi)]].
    rewrite <- rsum_plus. apply rsum_ext. intros s Hs.
    rewrite (Nat.eqb_sym s i). destruct (Nat.eqb i s); ring. }
  rewrite E. split; intros H.
  - assert (H2 : c i * (c i - 1) * D = 0) by lra.
    apply Rmult_integral in H2. destruct H2; lra.
  - rewrite H. ring.
Qed.

Lemma hessian_diag_cm_exp_nf n c x i :
  loglikelihood_hessian_diag_cm_exp n c x i =
  - rsum n (fun s => pairmult c i s *
      (exp (- x i) * exp (- x s) / (1 + exp (- x i) * exp (- x s)))).
Proof.
  unfold loglikelihood_hessian_diag_cm_exp. cbv zeta.
  rewrite (loop_sub n _ _ (fun s => pairmult c i s *
      (exp (- x i) * exp (- x s) / (1 + exp (- x i) * exp (- x s))))).
  - ring.
  - intros j acc _. unfold pairmult. destruct (Nat.eqb_spec i j) as [<-|]; [|ring].
    replace (exp (- x i) ^ 2) with (exp (- x i) * exp (- x i)) by ring. ring.
Qed.

(** On the unreduced problem the returned diagonal is never the second
    derivative once there are two nodes: it is minus the expected degree. *)
Lemma hessian_diag_cm_exp_wrong n k x i :
  (2 <= n)%nat -> (i < n)%nat ->
  ~ partial (fun y => loglikelihood_prime_cm_exp n k (fun _ => 1) y i) x i
      (loglikelihood_hessian_diag_cm_exp n (fun _ => 1) x i).
Proof.
  intros Hn Hi.
  rewrite (partial_iff _ _ _ _ _ (cm_exp_second n k (fun _ => 1) x i Hi)).
  rewrite hessian_diag_cm_exp_nf. intros H.
  set (A := fun s => exp (- x i) * exp (- x s)).
  assert (HA : forall s, 0 < A s).
  { intros s. unfold A. apply Rmult_lt_0_compat; apply exp_pos. }
  assert (H0 : rsum n (fun s => if Nat.eqb i s then 0 else (A s) ^ 2 / (1 + A s) ^ 2) = 0).
  { assert (E : forall a b c : R, c = a - b -> - a = - b -> c = 0) by (intros; lra).
    refine (E _ _ _ _ H). clear E H.
    rewrite <- rsum_minus. apply rsum_ext. intros s Hs. rewrite pairmult_one.
    destruct (Nat.eqb i s); [ring|]. change (exp (- x i) * exp (- x s)) with (A s). specialize (HA s). field. lra. }
  assert (Hnn : forall s, (s < n)%nat ->
     0 <= (fun s => if Nat.eqb i s then 0 else (A s) ^ 2 / (1 + A s) ^ 2) s).
  { intros s _. cbv beta. destruct (Nat.eqb i s); [lra|]. specialize (HA s).
    apply Rlt_le. apply Rdiv_lt_0_compat; apply pow_lt; lra. }
  assert (exists j, (j < n)%nat /\ j <> i) as [j [Hj Hji]].
  { destruct i; [exists 1%nat|exists 0%nat]; split; lia. }
  pose proof (rsum_nonneg_zero n _ Hnn H0 j Hj) as Hz. cbv beta in Hz.
  destruct (Nat.eqb_spec i j); [congruence|].
  specialize (HA j).
  assert (0 < A j ^ 2 / (1 + A j) ^ 2).
  { apply Rdiv_lt_0_compat; apply pow_lt; lra. }
  lra.
Qed.
