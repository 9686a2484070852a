(** Proofs about the UBCM functions. *)
From Coq Require Import Reals List Arith Lia Lra Bool.
From Coquelicot Require Import Coquelicot.
From Verif Require Import Base SpecDeriv SpecGraph ProofsDeriv ProofsGraph ModelCM.
Local Open Scope R_scope.

(** * Normal forms *)

Lemma prime_cm_nf n k c x i :
  (i < n)%nat ->
  loglikelihood_prime_cm n k c x i =
  c i * k i / x i - rsum n (fun j => pairmult c i j * (x j / (1 + x i * x j))).
Proof.
  intros Hi. unfold loglikelihood_prime_cm.
  rewrite (loop_sub n _ _ (fun j => pairmult c i j * (x j / (1 + x i * x j)))).
  - ring.
  - intros j acc Hj. unfold pairmult.
    destruct (Nat.eqb_spec i j) as [<-|Hij]; [|ring].
    replace (x i ^ 2) with (x i * x i) by ring. ring.
Qed.

Lemma loglik_cm_nf n k c x :
  loglikelihood_cm n k c x =
  rsum n (fun i => c i * k i * ln (x i))
  - rsum n (fun i => rsum n (fun j => pairmult c i j * ln (1 + x i * x j))) / 2.
Proof.
  unfold loglikelihood_cm.
  rewrite (loop_add n _ _ (fun i => c i * k i * ln (x i)
     - rsum n (fun j => pairmult c i j * ln (1 + x i * x j)) / 2)).
  - rewrite rsum_minus. unfold Rdiv. rewrite rsum_scal_r. ring.
  - intros i acc Hi. cbv zeta.
    rewrite (loop_sub n _ _ (fun j => pairmult c i j * ln (1 + x i * x j) * / 2)).
    + rewrite rsum_scal_r. unfold Rdiv. ring.
    + intros j acc' Hj. unfold pairmult.
      destruct (Nat.eqb_spec i j) as [<-|Hij].
      * replace (x i ^ 2) with (x i * x i) by ring. field.
      * field.
Qed.

Lemma prime_cm_exp_nf n k c x i :
  (i < n)%nat ->
  loglikelihood_prime_cm_exp n k c x i =
  - (c i * k i) + rsum n (fun j => pairmult c i j *
      (exp (- x i) * exp (- x j) / (1 + exp (- x i) * exp (- x j)))).
Proof.
  intros Hi. unfold loglikelihood_prime_cm_exp. cbv zeta.
  rewrite (loop_add n _ _ (fun j => pairmult c i j *
      (exp (- x i) * exp (- x j) / (1 + exp (- x i) * exp (- x j))))).
  - ring.
  - intros j acc Hj. unfold pairmult.
    destruct (Nat.eqb_spec i j) as [<-|Hij]; [|ring].
    replace (exp (- x i) ^ 2) with (exp (- x i) * exp (- x i)) by ring. ring.
Qed.

Lemma loglik_cm_exp_nf n k c x :
  loglikelihood_cm_exp n k c x =
  - rsum n (fun i => c i * k i * x i)
  - rsum n (fun i => rsum n (fun j => pairmult c i j * ln (1 + exp (- x i) * exp (- x j)))) / 2.
Proof.
  unfold loglikelihood_cm_exp. cbv zeta.
  rewrite (loop_sub n _ _ (fun i => c i * k i * x i
     + rsum n (fun j => pairmult c i j * ln (1 + exp (- x i) * exp (- x j))) / 2)).
  - rewrite rsum_plus. unfold Rdiv. rewrite rsum_scal_r. ring.
  - intros i acc Hi.
    rewrite (loop_sub n _ _ (fun j => pairmult c i j * ln (1 + exp (- x i) * exp (- x j)) * / 2)).
    + rewrite rsum_scal_r. unfold Rdiv. ring.
    + intros j acc' Hj. unfold pairmult.
      destruct (Nat.eqb_spec i j) as [<-|Hij].
      * replace (exp (- x i) ^ 2) with (exp (- x i) * exp (- x i)) by ring. field.
      * field.
Qed.

(** The exp variant at [x] is the plain one at [exp (-x)]. *)
Lemma loglik_cm_exp_eq n k c x :
  loglikelihood_cm_exp n k c x = loglikelihood_cm n k c (fun i => exp (- x i)).
Proof.
  rewrite loglik_cm_exp_nf, loglik_cm_nf. f_equal.
  rewrite <- rsum_opp. apply rsum_ext. intros i _. rewrite ln_exp. ring.
Qed.

Lemma prime_cm_exp_eq n k c x i :
  (i < n)%nat ->
  loglikelihood_prime_cm_exp n k c x i =
  - exp (- x i) * loglikelihood_prime_cm n k c (fun j => exp (- x j)) i.
Proof.
  intros Hi. rewrite prime_cm_exp_nf, prime_cm_nf by exact Hi.
  pose proof (exp_pos (- x i)).
  rewrite Rmult_minus_distr_l, <- rsum_scal_l. unfold Rminus. rewrite <- rsum_opp.
  f_equal; [field; lra|].
  apply rsum_ext. intros j _. unfold Rdiv. ring.
Qed.

(** * Likelihood is the log-probability of the graph *)

Lemma loglik_cm_logprob n m cls c k x a :
  simple_graph n a -> classes n m cls c ->
  (forall i, (i < n)%nat -> k (cls i) = deg n a i) ->
  (forall q, (q < m)%nat -> 0 < x q) ->
  loglikelihood_cm m k c x = ln (prob_undirected n (p_ubcm (fun i => x (cls i))) a).
Proof.
  intros [Hsym Hhol] Hcls Hk Hx.
  assert (HX : forall i, (i < n)%nat -> 0 < x (cls i)).
  { intros i Hi. apply Hx. apply Hcls; exact Hi. }
  rewrite ln_prob_undirected.
  2: { intros i j Hi Hj _. unfold p_ubcm. apply odds_prob. apply Rmult_lt_0_compat; auto. }
  set (X := fun i => x (cls i)).
  rewrite (usum_ext n _ (fun i j => ind (a i j) * (ln (X i) + ln (X j)) - ln (1 + X i * X j))).
  2: { intros i j Hij Hj. unfold p_ubcm. fold X.
       assert (0 < X i * X j) by (apply Rmult_lt_0_compat; apply HX; lia).
       rewrite ln_odds, ln_odds_compl, ln_mult by (auto; apply HX; lia). ring. }
  rewrite loglik_cm_nf.
  rewrite <- (class_group2 n m cls c (fun q s => ln (1 + x q * x s)) Hcls).
  rewrite (rsum_offdiag_sym n (fun i j => ln (1 + x (cls i) * x (cls j)))).
  2: { intros i j. f_equal. ring. }
  rewrite usum_minus.
  assert (HA : usum n (fun i j => ind (a i j) * (ln (X i) + ln (X j)))
     = rsum n (fun i => deg n a i * ln (X i))).
  { (* symmetrise through a globally symmetric version of [a] *)
    set (b := fun i j => if andb (Nat.ltb i n) (Nat.ltb j n) then a i j else false).
    assert (Hb : forall i j, (i < n)%nat -> (j < n)%nat -> b i j = a i j).
    { intros i j Hi Hj. unfold b. apply Nat.ltb_lt in Hi, Hj. now rewrite Hi, Hj. }
    assert (Hbs : forall i j, b i j = b j i).
    { intros i j. unfold b. rewrite andb_comm.
      destruct (Nat.ltb_spec j n); destruct (Nat.ltb_spec i n); simpl; auto. }
    rewrite (usum_ext n _ (fun i j => ind (b i j) * (ln (X i) + ln (X j)))).
    2: { intros i j Hij Hj. rewrite Hb by lia. reflexivity. }
    assert (H2 := rsum_offdiag_sym n (fun i j => ind (b i j) * (ln (X i) + ln (X j)))).
    specialize (H2 ltac:(intros i j; cbv beta; rewrite (Hbs i j); ring)).
    apply (Rmult_eq_reg_l 2); [|lra]. rewrite <- H2. clear H2.
    rewrite (rsum_ext n _ (fun i => rsum n (fun j => ind (b i j) * ln (X i))
                                  + rsum n (fun j => ind (b i j) * ln (X j)))).
    2: { intros i Hi. rewrite <- rsum_plus. apply rsum_ext. intros j Hj.
         destruct (Nat.eqb_spec i j) as [<-|Hij]; [|ring].
         rewrite Hb, Hhol by exact Hi. simpl; ring. }
    rewrite rsum_plus.
    rewrite (rsum_swap n n (fun i j => ind (b i j) * ln (X j))).
    rewrite <- rsum_plus, <- rsum_scal_l. apply rsum_ext. intros i Hi.
    unfold deg.
    rewrite !rsum_scal_r.
    rewrite (rsum_ext n (fun i0 => ind (b i0 i)) (fun j => ind (a i j))).
    2: { intros j Hj. rewrite Hbs, Hb by lia. reflexivity. }
    rewrite (rsum_ext n (fun j => ind (b i j)) (fun j => ind (a i j))).
    2: { intros j Hj. rewrite Hb by lia. reflexivity. }
    ring. }
  rewrite HA.
  rewrite (rsum_ext m (fun i => c i * k i * ln (x i)) (fun q => c q * (k q * ln (x q)))).
  2: { intros; ring. }
  rewrite <- (class_group n m cls c (fun q => k q * ln (x q)) Hcls).
  rewrite (rsum_ext n (fun i => k (cls i) * ln (x (cls i))) (fun i => deg n a i * ln (X i))).
  2: { intros i Hi. rewrite Hk by exact Hi. reflexivity. }
  unfold X. field.
Qed.

(** * Gradient *)

Ltac upd_simpl :=
  repeat first
   [ rewrite upd_eq
   | rewrite upd_neq by (auto; congruence) ].

Lemma prime_cm_is_gradient n k c x h :
  (h < n)%nat -> (forall i, (i < n)%nat -> 0 < x i) ->
  partial (loglikelihood_cm n k c) x h (loglikelihood_prime_cm n k c x h).
Proof.
  intros Hh Hx.
  apply (partial_ext (fun x => rsum n (fun i => c i * k i * ln (x i))
     - rsum n (fun i => rsum n (fun j => pairmult c i j * ln (1 + x i * x j) / 2)))).
  { intros y. rewrite loglik_cm_nf. f_equal. unfold Rdiv. rewrite <- rsum_scal_r.
    apply rsum_ext. intros i _. rewrite <- rsum_scal_r. reflexivity. }
  rewrite prime_cm_nf by exact Hh. unfold partial.
  apply is_derive_Rminus.
  - apply (is_derive_rsum_one n h (fun i t => c i * k i * ln (upd x h t i))); [exact Hh| |].
    + intros j Hj Hjh. apply (is_derive_fext (fun _ => c j * k j * ln (x j))).
      { intros u. rewrite upd_neq by exact Hjh. reflexivity. }
      apply is_derive_R0.
    + apply (is_derive_fext (fun t => c h * k h * ln t)).
      { intros u. rewrite upd_eq. reflexivity. }
      specialize (Hx h Hh). auto_derive; [exact Hx|]. field. lra.
  - apply (is_derive_eq _ _ (
       rsum n (fun j => pairmult c h j * (x j / (1 + x h * x j)) / 2)
     + rsum n (fun j => pairmult c h j * (x j / (1 + x h * x j)) / 2))).
    2: { unfold Rdiv. rewrite !rsum_scal_r. lra. }
    apply (is_derive_cross n h (fun i j t => pairmult c i j * ln (1 + upd x h t i * upd x h t j) / 2));
      [exact Hh| | | |].
    + intros i j Hi Hj Hih Hjh.
      apply (is_derive_fext (fun _ => pairmult c i j * ln (1 + x i * x j) / 2)).
      { intros u. upd_simpl. reflexivity. }
      apply is_derive_R0.
    + intros j Hj Hjh.
      apply (is_derive_fext (fun t => pairmult c h j * ln (1 + t * x j) / 2)).
      { intros u. upd_simpl. reflexivity. }
      assert (0 < x h * x j) by (apply Rmult_lt_0_compat; auto).
      auto_derive; [lra|]. field. lra.
    + intros j Hj Hjh.
      apply (is_derive_fext (fun t => pairmult c h j * ln (1 + x j * t) / 2)).
      { intros u. upd_simpl. rewrite pairmult_sym. reflexivity. }
      assert (0 < x h * x j) by (apply Rmult_lt_0_compat; auto).
      assert (0 < x j * x h) by (apply Rmult_lt_0_compat; auto).
      auto_derive; [lra|]. field. lra.
    + apply (is_derive_fext (fun t => pairmult c h h * ln (1 + t * t) / 2)).
      { intros u. upd_simpl. reflexivity. }
      assert (0 < x h * x h) by (apply Rmult_lt_0_compat; auto).
      auto_derive; [lra|]. field. lra.
Qed.

Lemma prime_cm_exp_is_gradient n k c x h :
  (h < n)%nat ->
  partial (loglikelihood_cm_exp n k c) x h (loglikelihood_prime_cm_exp n k c x h).
Proof.
  intros Hh.
  rewrite prime_cm_exp_eq by exact Hh.
  pose proof (prime_cm_is_gradient n k c (fun i => exp (- x i)) h Hh
     (fun i _ => exp_pos _)) as H.
  unfold partial in *.
  apply (is_derive_fext (fun t => loglikelihood_cm n k c
     (upd (fun i => exp (- x i)) h (exp (- t))))).
  { intros t. rewrite loglik_cm_exp_eq, !loglik_cm_nf.
    assert (E : forall i, exp (- upd x h t i) = upd (fun i => exp (- x i)) h (exp (- t)) i).
    { intros i. unfold upd. destruct (Nat.eqb i h); reflexivity. }
    f_equal.
    - apply rsum_ext. intros i _. rewrite E. reflexivity.
    - f_equal. apply rsum_ext. intros i _. apply rsum_ext. intros j _.
      rewrite !E. reflexivity. }
  apply (is_derive_eq _ _ (scal (- exp (- x h)) (loglikelihood_prime_cm n k c (fun j => exp (- x j)) h))).
  2: { reflexivity. }
  apply (is_derive_comp (fun s => loglikelihood_cm n k c (upd (fun i => exp (- x i)) h s))
            (fun t => exp (- t))).
  - exact H.
  - auto_derive; [exact I|]. ring.
Qed.

(** * Stationarity and expected degrees *)

Lemma expected_degree_cm_nf n x i :
  expected_degree_cm n x i =
  rsum n (fun j => if Nat.eqb i j then 0 else p_ubcm x i j).
Proof.
  unfold expected_degree_cm.
  rewrite (loop_add n _ _ (fun j => if Nat.eqb i j then 0 else p_ubcm x i j)).
  - ring.
  - intros j acc Hj. unfold p_ubcm. destruct (Nat.eqb i j); ring.
Qed.

Lemma class_count_nat n m cls c q :
  classes n m cls c -> (q < m)%nat -> exists r : nat, c q = INR r.
Proof.
  intros [_ H] Hq. rewrite (H q Hq). clear. induction n as [|n [r IH]].
  - exists O. reflexivity.
  - simpl. rewrite IH. destruct (Nat.eqb (cls n) q); simpl.
    + exists (S r). rewrite S_INR. reflexivity.
    + exists r. ring.
Qed.

Lemma class_count_pos n m cls c i :
  classes n m cls c -> (i < n)%nat -> 0 < c (cls i).
Proof.
  intros [H1 H2] Hi. rewrite H2 by auto.
  apply (rsum_pos n _ i); auto.
  - intros j _. destruct (Nat.eqb (cls j) (cls i)); simpl; lra.
  - rewrite Nat.eqb_refl. simpl. lra.
Qed.

Lemma pairmult_nonneg n m cls c q s :
  classes n m cls c -> (q < m)%nat -> (s < m)%nat -> 0 <= pairmult c q s.
Proof.
  intros H Hq Hs.
  destruct (class_count_nat _ _ _ _ q H Hq) as [r Hr].
  destruct (class_count_nat _ _ _ _ s H Hs) as [t Ht].
  unfold pairmult. rewrite Hr, Ht. destruct (Nat.eqb q s).
  - destruct r as [|r]; [simpl; lra|].
    apply Rmult_le_pos; [apply pos_INR|]. rewrite S_INR. pose proof (pos_INR r). lra.
  - apply Rmult_le_pos; apply pos_INR.
Qed.

(** Sum over the other nodes expressed on classes. *)
Lemma class_row n m cls c (G : nat -> R) i :
  classes n m cls c -> (i < n)%nat ->
  c (cls i) * rsum n (fun j => if Nat.eqb i j then 0 else G (cls j))
  = rsum m (fun s => pairmult c (cls i) s * G s).
Proof.
  intros H Hi.
  assert (E : rsum n (fun j => if Nat.eqb i j then 0 else G (cls j)) =
    rsum m (fun s => c s * G s) - G (cls i)).
  { rewrite <- (class_group n m cls c G H).
    rewrite (rsum_pull n i (fun j => G (cls j)) Hi).
    rewrite (rsum_ext n (fun j => if Nat.eqb i j then 0 else G (cls j))
       (fun j => if Nat.eqb j i then 0 else G (cls j))); [ring|].
    intros j _. rewrite Nat.eqb_sym. reflexivity. }
  rewrite E. assert (Hq : (cls i < m)%nat) by (apply H; exact Hi).
  rewrite <- (rsum_single m (cls i) G Hq).
  rewrite <- rsum_minus, <- rsum_scal_l. apply rsum_ext. intros s Hs.
  unfold pairmult. rewrite Nat.eqb_sym. destruct (Nat.eqb_spec (cls i) s) as [<-|]; ring.
Qed.

Lemma prime_cm_expected n m cls c k x i :
  classes n m cls c -> (i < n)%nat -> (forall q, (q < m)%nat -> 0 < x q) ->
  loglikelihood_prime_cm m k c x (cls i) =
  c (cls i) / x (cls i) * (k (cls i) - expected_degree_cm n (fun j => x (cls j)) i).
Proof.
  intros H Hi Hx.
  assert (Hq : (cls i < m)%nat) by (apply H; exact Hi).
  rewrite prime_cm_nf by exact Hq. rewrite expected_degree_cm_nf.
  rewrite (rsum_ext m _ (fun s => pairmult c (cls i) s *
     (fun s => / x (cls i) * (x (cls i) * x s / (1 + x (cls i) * x s))) s)).
  2: { intros s Hs. specialize (Hx s Hs) as H1. specialize (Hx (cls i) Hq) as H2.
       assert (0 < x (cls i) * x s) by (apply Rmult_lt_0_compat; auto). field. lra. }
  rewrite <- (class_row n m cls c _ i H Hi).
  rewrite (rsum_ext n (fun j => if Nat.eqb i j then 0 else
     / x (cls i) * (x (cls i) * x (cls j) / (1 + x (cls i) * x (cls j))))
     (fun j => / x (cls i) * (if Nat.eqb i j then 0 else p_ubcm (fun j => x (cls j)) i j))).
  2: { intros j _. unfold p_ubcm. destruct (Nat.eqb i j); ring. }
  rewrite rsum_scal_l. specialize (Hx (cls i) Hq). field. lra.
Qed.

Lemma prime_cm_empty_class n k c x q :
  (q < n)%nat -> c q = 0 -> loglikelihood_prime_cm n k c x q = 0.
Proof.
  intros Hq H. rewrite prime_cm_nf by exact Hq. rewrite H.
  rewrite rsum_zero; [unfold Rdiv; ring|].
  intros j _. unfold pairmult. rewrite H. destruct (Nat.eqb q j); ring.
Qed.

Lemma class_empty_or_node n m cls c q :
  classes n m cls c -> (q < m)%nat ->
  c q = 0 \/ exists i, (i < n)%nat /\ cls i = q.
Proof.
  intros [_ H] Hq. rewrite (H q Hq). clear.
  induction n as [|n IH]; [left; reflexivity|].
  destruct (Nat.eq_dec (cls n) q) as [E|E].
  - right. exists n. split; [lia|exact E].
  - destruct IH as [IH|[i [Hi Ei]]].
    + left. simpl. apply Nat.eqb_neq in E. rewrite E, IH. simpl. ring.
    + right. exists i. split; [lia|exact Ei].
Qed.

Lemma stationary_cm_iff n m cls c k x :
  classes n m cls c -> (forall q, (q < m)%nat -> 0 < x q) ->
  ((forall q, (q < m)%nat -> loglikelihood_prime_cm m k c x q = 0) <->
   (forall i, (i < n)%nat -> expected_degree_cm n (fun j => x (cls j)) i = k (cls i))).
Proof.
  intros H Hx. split.
  - intros H0 i Hi.
    assert (Hq : (cls i < m)%nat) by (apply H; exact Hi).
    specialize (H0 (cls i) Hq). rewrite (prime_cm_expected n m cls) in H0 by assumption.
    pose proof (class_count_pos _ _ _ _ i H Hi). specialize (Hx _ Hq).
    apply Rmult_integral in H0. destruct H0 as [H0|H0]; [|lra].
    assert (0 < c (cls i) / x (cls i)) by (apply Rdiv_lt_0_compat; assumption). lra.
  - intros H0 q Hq.
    destruct (class_empty_or_node _ _ _ _ q H Hq) as [E|[i [Hi <-]]].
    + apply prime_cm_empty_class; assumption.
    + rewrite (prime_cm_expected n m cls) by assumption. rewrite H0 by exact Hi. ring.
Qed.

Lemma stationary_cm_exp_iff n m cls c k x :
  classes n m cls c ->
  ((forall q, (q < m)%nat -> loglikelihood_prime_cm_exp m k c x q = 0) <->
   (forall i, (i < n)%nat -> expected_degree_cm n (fun j => exp (- x (cls j))) i = k (cls i))).
Proof.
  intros H.
  rewrite <- (stationary_cm_iff n m cls c k (fun q => exp (- x q)) H
     ltac:(intros; apply exp_pos)).
  split; intros H0 q Hq; specialize (H0 q Hq).
  - rewrite prime_cm_exp_eq in H0 by exact Hq. pose proof (exp_pos (- x q)).
    apply Rmult_integral in H0. destruct H0; [lra|assumption].
  - rewrite prime_cm_exp_eq, H0 by exact Hq. ring.
Qed.

(** * Fixed points *)

Lemma iterative_cm_nf n k c x i :
  (i < n)%nat ->
  iterative_cm n k c x i =
  (let fx := rsum n (fun j => (if Nat.eqb i j then c j - 1 else c j) * (x j / (1 + x j * x i))) in
   if Req_EM_T fx 0 then 0 else k i / fx).
Proof.
  intros Hi. unfold iterative_cm. cbv zeta.
  rewrite (loop_add n 0 _ (fun j => (if Nat.eqb i j then c j - 1 else c j) * (x j / (1 + x j * x i)))).
  - rewrite Rplus_0_l. reflexivity.
  - intros j acc Hj. destruct (Nat.eqb i j); ring.
Qed.

Lemma prime_cm_fx n k c x i :
  (i < n)%nat ->
  loglikelihood_prime_cm n k c x i =
  c i * (k i / x i - rsum n (fun j => (if Nat.eqb i j then c j - 1 else c j) * (x j / (1 + x j * x i)))).
Proof.
  intros Hi. rewrite prime_cm_nf by exact Hi.
  rewrite Rmult_minus_distr_l, <- rsum_scal_l. f_equal; [unfold Rdiv; ring|].
  apply rsum_ext. intros j Hj. unfold pairmult.
  rewrite (Rmult_comm (x i) (x j)).
  destruct (Nat.eqb_spec i j) as [<-|]; ring.
Qed.

Lemma fixed_point_cm_iff n k c x i :
  (i < n)%nat -> 0 < c i -> 0 < k i -> 0 < x i ->
  (iterative_cm n k c x i = x i <-> loglikelihood_prime_cm n k c x i = 0).
Proof.
  intros Hi Hc Hk Hx. rewrite iterative_cm_nf, prime_cm_fx by exact Hi. cbv zeta.
  set (fx := rsum n _). destruct (Req_EM_T fx 0) as [E|E].
  - rewrite E. split; intros H; [lra|].
    apply Rmult_integral in H. destruct H; [lra|].
    assert (0 < k i / x i) by (apply Rdiv_lt_0_compat; lra). lra.
  - split; intros H.
    + rewrite <- H. replace (k i / (k i / fx)) with fx by (field; split; lra). ring.
    + apply Rmult_integral in H. destruct H as [H|H]; [lra|].
      replace fx with (k i / x i) by lra. field. lra.
Qed.

Lemma iterative_cm_exp_nf n k c x i :
  (i < n)%nat ->
  iterative_cm_exp n k c x i =
  (let fx := rsum n (fun j => (if Nat.eqb i j then c j - 1 else c j)
       * (exp (- x j) / (1 + exp (- x j) * exp (- x i)))) in
   if Req_EM_T fx 0 then 0 else - ln (k i / fx)).
Proof.
  intros Hi. unfold iterative_cm_exp. cbv zeta.
  rewrite (loop_add n 0 _ (fun j => (if Nat.eqb i j then c j - 1 else c j)
       * (exp (- x j) / (1 + exp (- x j) * exp (- x i))))).
  - rewrite Rplus_0_l. reflexivity.
  - intros j acc Hj. destruct (Nat.eqb i j); ring.
Qed.

(** The field felt by a class is positive as soon as there is another node. *)
Lemma field_pos n c (y : nat -> R) i :
  (i < n)%nat -> (forall j, (j < n)%nat -> 1 <= c j) ->
  (forall j, (j < n)%nat -> 0 < y j) ->
  1 < rsum n c ->
  0 < rsum n (fun j => (if Nat.eqb i j then c j - 1 else c j) * (y j / (1 + y j * y i))).
Proof.
  intros Hi Hc Hy Hn.
  assert (Hterm : forall j, (j < n)%nat -> 0 < y j / (1 + y j * y i)).
  { intros j Hj. assert (0 < y j * y i) by (apply Rmult_lt_0_compat; auto).
    apply Rdiv_lt_0_compat; [auto|lra]. }
  assert (Hnn : forall j, (j < n)%nat ->
     0 <= (if Nat.eqb i j then c j - 1 else c j) * (y j / (1 + y j * y i))).
  { intros j Hj. specialize (Hterm j Hj). specialize (Hc j Hj).
    apply Rmult_le_pos; [destruct (Nat.eqb i j); lra|lra]. }
  destruct (Rlt_dec 1 (c i)) as [H1|H1].
  - apply (rsum_pos n _ i Hnn Hi). rewrite Nat.eqb_refl.
    apply Rmult_lt_0_compat; [lra|apply Hterm; exact Hi].
  - assert (exists j, (j < n)%nat /\ j <> i) as [j [Hj Hji]].
    { destruct n as [|[|n]]; [lia| |].
      - assert (i = 0)%nat by lia. subst. simpl in Hn. lra.
      - destruct i; [exists 1%nat|exists 0%nat]; split; lia. }
    apply (rsum_pos n _ j Hnn Hj). destruct (Nat.eqb_spec i j); [congruence|].
    apply Rmult_lt_0_compat; [|apply Hterm; exact Hj]. specialize (Hc j Hj). lra.
Qed.

Lemma fixed_point_cm_exp_iff n k c x i :
  (i < n)%nat -> (forall j, (j < n)%nat -> 1 <= c j) -> 1 < rsum n c -> 0 < k i ->
  (iterative_cm_exp n k c x i = x i <-> loglikelihood_prime_cm_exp n k c x i = 0).
Proof.
  intros Hi Hc Hn Hk.
  rewrite prime_cm_exp_eq by exact Hi.
  assert (Hz : loglikelihood_prime_cm n k c (fun j => exp (- x j)) i = 0 <->
     - exp (- x i) * loglikelihood_prime_cm n k c (fun j => exp (- x j)) i = 0).
  { pose proof (exp_pos (- x i)). split; intros H0; [rewrite H0; ring|].
    apply Rmult_integral in H0; destruct H0; lra. }
  rewrite <- Hz. clear Hz.
  rewrite prime_cm_fx, iterative_cm_exp_nf by exact Hi. cbv zeta.
  pose proof (field_pos n c (fun j => exp (- x j)) i Hi Hc (fun j _ => exp_pos _) Hn) as Hf.
  clear Hn. cbv beta in *.
  set (fx := rsum n _) in *.
  destruct (Req_EM_T fx 0) as [E|E]; [lra|].
  assert (Hq : 0 < k i / fx) by (apply Rdiv_lt_0_compat; lra).
  pose proof (exp_pos (- x i)) as He. specialize (Hc i Hi).
  split; intros H.
  - assert (E1 : exp (- x i) = k i / fx).
    { rewrite <- H, Ropp_involutive. apply exp_ln. exact Hq. }
    rewrite E1. replace (k i / (k i / fx)) with fx by (field; split; lra). ring.
  - apply Rmult_integral in H. destruct H as [H|H]; [lra|].
    assert (E1 : k i / fx = exp (- x i)).
    { replace fx with (k i / exp (- x i)) by lra. field. lra. }
    rewrite E1, ln_exp. ring.
Qed.

(** * Global maximum and uniqueness *)

(** Log-likelihood with the degrees replaced by the expected degrees at [x]. *)
Lemma loglik_cm_at_solution n m cls c k x z :
  classes n m cls c -> (forall q, (q < m)%nat -> 0 < z q) ->
  (forall i, (i < n)%nat -> expected_degree_cm n (fun j => x (cls j)) i = k (cls i)) ->
  loglikelihood_cm m k c z =
  usum n (fun i j => p_ubcm (fun j => x (cls j)) i j * ln (z (cls i) * z (cls j))
                     - ln (1 + z (cls i) * z (cls j))).
Proof.
  intros H Hz Hs. rewrite loglik_cm_nf.
  rewrite <- (class_group2 n m cls c (fun q s => ln (1 + z q * z s)) H).
  rewrite (rsum_offdiag_sym n (fun i j => ln (1 + z (cls i) * z (cls j)))).
  2: { intros i j. f_equal. ring. }
  rewrite usum_minus.
  rewrite (rsum_ext m (fun i => c i * k i * ln (z i)) (fun q => c q * (k q * ln (z q)))).
  2: { intros; ring. }
  rewrite <- (class_group n m cls c (fun q => k q * ln (z q)) H).
  assert (HA : usum n (fun i j => p_ubcm (fun j => x (cls j)) i j * ln (z (cls i) * z (cls j)))
     = rsum n (fun i => k (cls i) * ln (z (cls i)))).
  { rewrite (usum_ext n _ (fun i j => p_ubcm (fun j => x (cls j)) i j
        * (ln (z (cls i)) + ln (z (cls j))))).
    2: { intros i j Hij Hj. rewrite ln_mult; auto; apply Hz; apply H; lia. }
    apply (Rmult_eq_reg_l 2); [|lra].
    rewrite <- (rsum_offdiag_sym n).
    2: { intros i j. unfold p_ubcm. rewrite (Rmult_comm (x (cls i))). ring. }
    rewrite (rsum_ext n _ (fun i =>
        rsum n (fun j => (if Nat.eqb i j then 0 else p_ubcm (fun j => x (cls j)) i j) * ln (z (cls i)))
      + rsum n (fun j => (if Nat.eqb i j then 0 else p_ubcm (fun j => x (cls j)) i j) * ln (z (cls j))))).
    2: { intros i Hi. rewrite <- rsum_plus. apply rsum_ext. intros j Hj.
         destruct (Nat.eqb i j); ring. }
    rewrite rsum_plus.
    rewrite (rsum_swap n n (fun i j =>
       (if Nat.eqb i j then 0 else p_ubcm (fun j => x (cls j)) i j) * ln (z (cls j)))).
    rewrite <- rsum_plus, <- rsum_scal_l. apply rsum_ext. intros i Hi.
    rewrite !rsum_scal_r. rewrite <- Hs by exact Hi. rewrite expected_degree_cm_nf.
    rewrite (rsum_ext n (fun i0 => if Nat.eqb i0 i then 0 else p_ubcm (fun j => x (cls j)) i0 i)
      (fun j => if Nat.eqb i j then 0 else p_ubcm (fun j => x (cls j)) i j)).
    2: { intros j _. rewrite Nat.eqb_sym. unfold p_ubcm.
         rewrite (Rmult_comm (x (cls j))). reflexivity. }
    ring. }
  rewrite HA. field.
Qed.

Lemma solution_cm_max n m cls c k x z :
  classes n m cls c ->
  (forall q, (q < m)%nat -> 0 < x q) -> (forall q, (q < m)%nat -> 0 < z q) ->
  (forall i, (i < n)%nat -> expected_degree_cm n (fun j => x (cls j)) i = k (cls i)) ->
  loglikelihood_cm m k c z <= loglikelihood_cm m k c x.
Proof.
  intros H Hx Hz Hs.
  rewrite !(loglik_cm_at_solution n m cls c k x) by assumption.
  apply Rminus_le. rewrite <- usum_minus.
  apply Ropp_le_cancel. rewrite Ropp_0. unfold usum.
  rewrite <- rsum_opp.
  apply rsum_nonneg. intros i Hi. rewrite <- rsum_opp. apply rsum_nonneg. intros j Hj.
  pose proof (pair_binary_max (x (cls j) * x (cls i)) (z (cls j) * z (cls i))) as P.
  unfold p_ubcm.
  specialize (P ltac:(apply Rmult_lt_0_compat; apply Hx; apply H; lia)
                ltac:(apply Rmult_lt_0_compat; apply Hz; apply H; lia)). lra.
Qed.

Lemma solution_cm_strict n m cls c k x z :
  classes n m cls c ->
  (forall q, (q < m)%nat -> 0 < x q) -> (forall q, (q < m)%nat -> 0 < z q) ->
  (forall i, (i < n)%nat -> expected_degree_cm n (fun j => x (cls j)) i = k (cls i)) ->
  loglikelihood_cm m k c z = loglikelihood_cm m k c x ->
  forall i j, (i < n)%nat -> (j < n)%nat -> i <> j ->
    z (cls i) * z (cls j) = x (cls i) * x (cls j).
Proof.
  intros H Hx Hz Hs Heq.
  rewrite !(loglik_cm_at_solution n m cls c k x) in Heq by assumption.
  assert (Hlt : forall i j, (i < j)%nat -> (j < n)%nat ->
     z (cls i) * z (cls j) = x (cls i) * x (cls j)).
  { intros i j Hij Hj.
    set (g := fun i j => (p_ubcm (fun j => x (cls j)) i j * ln (x (cls i) * x (cls j))
                     - ln (1 + x (cls i) * x (cls j))) -
       (p_ubcm (fun j => x (cls j)) i j * ln (z (cls i) * z (cls j))
                     - ln (1 + z (cls i) * z (cls j)))).
    assert (Hg : forall i j, (i < j)%nat -> (j < n)%nat -> 0 <= g i j).
    { intros a b Hab Hb. unfold g, p_ubcm.
      pose proof (pair_binary_max (x (cls a) * x (cls b)) (z (cls a) * z (cls b))) as P.
      specialize (P ltac:(apply Rmult_lt_0_compat; apply Hx; apply H; lia)
                ltac:(apply Rmult_lt_0_compat; apply Hz; apply H; lia)). lra. }
    assert (Hg0 : usum n g = 0) by (unfold g; rewrite usum_minus; lra).
    pose proof (usum_nonneg_zero n g Hg Hg0 i j Hij Hj) as Hgij.
    destruct (Req_dec (z (cls i) * z (cls j)) (x (cls i) * x (cls j))) as [E|E]; [exact E|].
    exfalso. unfold g, p_ubcm in Hgij.
    pose proof (pair_binary_max_strict (x (cls i) * x (cls j)) (z (cls i) * z (cls j))) as P.
    specialize (P ltac:(apply Rmult_lt_0_compat; apply Hx; apply H; lia)
                ltac:(apply Rmult_lt_0_compat; apply Hz; apply H; lia) ltac:(auto)). lra. }
  intros i j Hi Hj Hij. destruct (Nat.lt_ge_cases i j) as [L|L].
  - apply Hlt; assumption.
  - rewrite (Rmult_comm (z (cls i))), (Rmult_comm (x (cls i))). apply Hlt; lia.
Qed.

Lemma solution_cm_unique n m cls c k x z :
  classes n m cls c ->
  (forall q, (q < m)%nat -> 0 < x q) -> (forall q, (q < m)%nat -> 0 < z q) ->
  (forall i, (i < n)%nat -> expected_degree_cm n (fun j => x (cls j)) i = k (cls i)) ->
  (forall i, (i < n)%nat -> expected_degree_cm n (fun j => z (cls j)) i = k (cls i)) ->
  forall i j, (i < n)%nat -> (j < n)%nat ->
    pmatrix_cm (fun v => z (cls v)) i j = pmatrix_cm (fun v => x (cls v)) i j.
Proof.
  intros H Hx Hz Hsx Hsz i j Hi Hj.
  assert (Heq : loglikelihood_cm m k c z = loglikelihood_cm m k c x).
  { apply Rle_antisym; apply (solution_cm_max n m cls); assumption. }
  pose proof (solution_cm_strict n m cls c k x z H Hx Hz Hsx Heq) as P.
  unfold pmatrix_cm. destruct (Nat.ltb_spec i j); [rewrite P by lia; reflexivity|].
  destruct (Nat.ltb_spec j i); [rewrite P by lia; reflexivity|reflexivity].
Qed.

(** * Probability matrix *)

Lemma pmatrix_cm_eq x i j :
  pmatrix_cm x i j = if Nat.eqb i j then 0 else p_ubcm x i j.
Proof.
  unfold pmatrix_cm, p_ubcm.
  destruct (Nat.ltb_spec i j); destruct (Nat.ltb_spec j i); destruct (Nat.eqb_spec i j);
    try lia; try reflexivity.
  rewrite (Rmult_comm (x j)). reflexivity.
Qed.

Lemma pmatrix_cm_props n x :
  (forall i, (i < n)%nat -> 0 <= x i) ->
  (forall i j, (i < n)%nat -> (j < n)%nat ->
     pmatrix_cm x i j = pmatrix_cm x j i /\ 0 <= pmatrix_cm x i j < 1) /\
  (forall i, pmatrix_cm x i i = 0) /\
  (forall i, (i < n)%nat -> rsum n (fun j => pmatrix_cm x i j) = expected_degree_cm n x i).
Proof.
  intros Hx. repeat split.
  - rewrite !pmatrix_cm_eq, (Nat.eqb_sym j i). unfold p_ubcm.
    rewrite (Rmult_comm (x j)). reflexivity.
  - rewrite pmatrix_cm_eq. destruct (Nat.eqb i j); [lra|].
    apply odds_prob_nonneg. apply Rmult_le_pos; auto.
  - rewrite pmatrix_cm_eq. destruct (Nat.eqb i j); [lra|].
    apply odds_prob_nonneg. apply Rmult_le_pos; auto.
  - intros i. rewrite pmatrix_cm_eq, Nat.eqb_refl. reflexivity.
  - intros i Hi. rewrite expected_degree_cm_nf. apply rsum_ext. intros j _.
    apply pmatrix_cm_eq.
Qed.

(** * Degree reduction *)

Lemma reduction_loglik_cm n m cls c k x :
  classes n m cls c ->
  loglikelihood_cm m k c x =
  loglikelihood_cm n (fun i => k (cls i)) (fun _ => 1) (fun i => x (cls i)).
Proof.
  intros H. rewrite !loglik_cm_nf. f_equal.
  - rewrite (rsum_ext m _ (fun q => c q * (k q * ln (x q)))) by (intros; ring).
    rewrite <- (class_group n m cls c (fun q => k q * ln (x q)) H).
    apply rsum_ext. intros; ring.
  - f_equal. rewrite <- (class_group2 n m cls c (fun q s => ln (1 + x q * x s)) H).
    apply rsum_ext. intros i _. apply rsum_ext. intros j _. rewrite pairmult_one.
    destruct (Nat.eqb i j); ring.
Qed.

Lemma reduction_prime_cm n m cls c k x i :
  classes n m cls c -> (i < n)%nat ->
  loglikelihood_prime_cm m k c x (cls i) =
  c (cls i) * loglikelihood_prime_cm n (fun i => k (cls i)) (fun _ => 1) (fun i => x (cls i)) i.
Proof.
  intros H Hi. assert (Hq : (cls i < m)%nat) by (apply H; exact Hi).
  rewrite !prime_cm_nf by assumption.
  rewrite <- (class_row n m cls c (fun s => x s / (1 + x (cls i) * x s)) i H Hi).
  rewrite Rmult_minus_distr_l. f_equal.
  - unfold Rdiv. ring.
  - f_equal. apply rsum_ext. intros j _. rewrite pairmult_one. destruct (Nat.eqb i j); ring.
Qed.

Lemma reduction_iterative_cm n m cls c k x i :
  classes n m cls c -> (i < n)%nat ->
  iterative_cm m k c x (cls i) =
  iterative_cm n (fun i => k (cls i)) (fun _ => 1) (fun i => x (cls i)) i.
Proof.
  intros H Hi. assert (Hq : (cls i < m)%nat) by (apply H; exact Hi).
  rewrite !iterative_cm_nf by assumption. cbv zeta.
  assert (E : rsum m (fun j => (if Nat.eqb (cls i) j then c j - 1 else c j) * (x j / (1 + x j * x (cls i))))
    = rsum n (fun j => (if Nat.eqb i j then 1 - 1 else 1) * (x (cls j) / (1 + x (cls j) * x (cls i))))).
  { set (G := fun s => x s / (1 + x s * x (cls i))).
    pose proof (class_count_pos _ _ _ _ i H Hi) as Hp.
    apply (Rmult_eq_reg_l (c (cls i))); [|lra].
    rewrite (rsum_ext n _ (fun j => if Nat.eqb i j then 0 else G (cls j))).
    2: { intros j _. unfold G. destruct (Nat.eqb i j); ring. }
    rewrite (class_row n m cls c G i H Hi), <- rsum_scal_l.
    apply rsum_ext. intros s _. unfold G, pairmult.
    destruct (Nat.eqb_spec (cls i) s) as [<-|]; ring. }
  rewrite E. reflexivity.
Qed.

Lemma reduction_loglik_cm_exp n m cls c k x :
  classes n m cls c ->
  loglikelihood_cm_exp m k c x =
  loglikelihood_cm_exp n (fun i => k (cls i)) (fun _ => 1) (fun i => x (cls i)).
Proof.
  intros H. rewrite !loglik_cm_exp_eq.
  exact (reduction_loglik_cm n m cls c k (fun q => exp (- x q)) H).
Qed.

Lemma reduction_prime_cm_exp n m cls c k x i :
  classes n m cls c -> (i < n)%nat ->
  loglikelihood_prime_cm_exp m k c x (cls i) =
  c (cls i) * loglikelihood_prime_cm_exp n (fun i => k (cls i)) (fun _ => 1) (fun i => x (cls i)) i.
Proof.
  intros H Hi. assert (Hq : (cls i < m)%nat) by (apply H; exact Hi).
  rewrite !prime_cm_exp_eq by assumption.
  rewrite (reduction_prime_cm n m cls c k (fun q => exp (- x q)) i H Hi). ring.
Qed.

Lemma reduction_iterative_cm_exp n m cls c k x i :
  classes n m cls c -> (i < n)%nat ->
  iterative_cm_exp m k c x (cls i) =
  iterative_cm_exp n (fun i => k (cls i)) (fun _ => 1) (fun i => x (cls i)) i.
Proof.
  intros H Hi.
  pose proof (reduction_iterative_cm n m cls c (fun _ => 1) (fun q => exp (- x q)) i H Hi) as E.
  assert (Hq : (cls i < m)%nat) by (apply H; exact Hi).
  rewrite !iterative_cm_nf in E by assumption. rewrite !iterative_cm_exp_nf by assumption.
  cbv zeta in *.
  destruct (Req_EM_T _ 0) as [E1|E1] in E; destruct (Req_EM_T _ 0) as [E2|E2] in E.
  - rewrite E1, E2. destruct (Req_EM_T 0 0); [reflexivity|congruence].
  - exfalso. symmetry in E. unfold Rdiv in E. rewrite Rmult_1_l in E.
    revert E. apply Rinv_neq_0_compat. exact E2.
  - exfalso. unfold Rdiv in E. rewrite Rmult_1_l in E.
    revert E. apply Rinv_neq_0_compat. exact E1.
  - unfold Rdiv in E. rewrite !Rmult_1_l in E. apply (f_equal Rinv) in E.
    rewrite !Rinv_inv in E. unfold Rdiv.
    rewrite E. reflexivity.
Qed.

(** The exp log-likelihood as a log-probability. *)
Lemma loglik_cm_exp_logprob n m cls c k x a :
  simple_graph n a -> classes n m cls c ->
  (forall i, (i < n)%nat -> k (cls i) = deg n a i) ->
  loglikelihood_cm_exp m k c x =
  ln (prob_undirected n (p_ubcm (fun i => exp (- x (cls i)))) a).
Proof.
  intros Ha H Hk. rewrite loglik_cm_exp_eq.
  apply (loglik_cm_logprob n m cls c k (fun q => exp (- x q))); auto.
  intros; apply exp_pos.
Qed.

Lemma solution_cm_exp_max n m cls c k x z :
  classes n m cls c ->
  (forall i, (i < n)%nat -> expected_degree_cm n (fun j => exp (- x (cls j))) i = k (cls i)) ->
  loglikelihood_cm_exp m k c z <= loglikelihood_cm_exp m k c x.
Proof.
  intros H Hs. rewrite !loglik_cm_exp_eq.
  apply (solution_cm_max n m cls c k (fun q => exp (- x q)) (fun q => exp (- z q))); auto;
    intros; apply exp_pos.
Qed.
