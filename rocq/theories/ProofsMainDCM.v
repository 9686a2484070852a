(** DBCM: probability, solutions, fixed points, maximum. *)
From Coq Require Import Reals List Arith Lia Lra Bool.
From Verif Require Import Base SpecDeriv ProofsDeriv SpecGraph ProofsGraph SpecEnsemble ProofsEnsemble.
From Verif Require Import ProofsCM ModelDCM SpecDirected ProofsList ProofsDCM.
Local Open Scope R_scope.

Lemma expand_out n m cls x i : (i < n)%nat -> expand n m cls x i = x (cls i).
Proof. intros H. unfold expand. rewrite (proj2 (Nat.ltb_lt i n) H). reflexivity. Qed.
Lemma expand_in n m cls x j : expand n m cls x (j + n) = x (cls j + m)%nat.
Proof. unfold expand. rewrite ltb_plus_n, plus_n_minus. reflexivity. Qed.

Lemma full_out_nonneg n nzo nzi x i : dcm_full n nzo nzi x -> (i < n)%nat -> 0 <= x i.
Proof.
  intros [[H1 _] [H2 _]] Hi. destruct (memb_spec i nzo) as [H|H].
  - left. apply H1, H.
  - rewrite H2 by assumption. lra.
Qed.
Lemma full_in_nonneg n nzo nzi x j : dcm_full n nzo nzi x -> (j < n)%nat -> 0 <= x (j + n)%nat.
Proof.
  intros [[_ H1] [_ H2]] Hi. destruct (memb_spec j nzi) as [H|H].
  - left. apply H1, H.
  - rewrite H2 by assumption. lra.
Qed.

Lemma lsum_unmask n l f : index_list n l ->
  (forall j, (j < n)%nat -> ~ In j l -> f j = 0) -> lsum l f = rsum n f.
Proof.
  intros H H0. rewrite (lsum_mask n) by exact H. apply rsum_ext. intros j Hj.
  destruct (memb_spec j l) as [Hin|Hin]; [reflexivity|]. symmetry. auto.
Qed.

Lemma nonzero_out n k l i : nonzero_list n k l -> (i < n)%nat -> ~ In i l -> k i = 0.
Proof.
  intros [_ H] Hi Hn. destruct (Req_dec (k i) 0) as [E|E]; [exact E|].
  exfalso. apply Hn, H. auto.
Qed.

(** Log-likelihood without the index arrays. *)
Lemma loglik_dcm_unmasked n k_out k_in nzo nzi c x :
  nonzero_list n k_out nzo -> nonzero_list n k_in nzi -> dcm_full n nzo nzi x ->
  loglikelihood_dcm n k_out k_in nzo nzi c x =
  (rsum n (fun i => c i * (k_out i * ln (x i))) + rsum n (fun j => c j * (k_in j * ln (x (j + n)%nat))))
  - rsum n (fun i => rsum n (fun j => pairmult c i j * ln (1 + x i * x (j + n)%nat))).
Proof.
  intros Ho Hi [_ [Zo Zi]]. pose proof (nonzero_index _ _ _ Ho). pose proof (nonzero_index _ _ _ Hi).
  rewrite loglik_dcm_nf.
  rewrite (lsum_unmask n nzo) by (auto; intros i Hn Hm; rewrite (nonzero_out n k_out nzo i Ho Hn Hm); ring).
  rewrite (lsum_unmask n nzi) by (auto; intros i Hn Hm; rewrite (nonzero_out n k_in nzi i Hi Hn Hm); ring).
  rewrite (lsum_unmask n nzo).
  - f_equal; [f_equal; apply rsum_ext; intros; ring|].
    apply rsum_ext. intros i Hin. rewrite (lsum_unmask n nzi); auto.
    intros j Hj Hm. rewrite (Zi j Hj Hm). rewrite Rmult_0_r, Rplus_0_r, ln_1. ring.
  - auto.
  - intros i Hn Hm. apply lsum_zero. intros j Hj. rewrite (Zo i Hn Hm).
    rewrite Rmult_0_l, Rplus_0_r, ln_1. ring.
Qed.

(** ... and at node level. *)
Lemma loglik_dcm_nodes n m cls k_out k_in nzo nzi c x :
  classes n m cls c ->
  nonzero_list m k_out nzo -> nonzero_list m k_in nzi -> dcm_full m nzo nzi x ->
  loglikelihood_dcm m k_out k_in nzo nzi c x =
  (rsum n (fun i => k_out (cls i) * ln (x (cls i))) + rsum n (fun j => k_in (cls j) * ln (x (cls j + m)%nat)))
  - rsum n (fun i => rsum n (fun j => if Nat.eqb i j then 0 else ln (1 + x (cls i) * x (cls j + m)%nat))).
Proof.
  intros H Ho Hi Hx. rewrite loglik_dcm_unmasked by assumption.
  rewrite (class_group2 n m cls c (fun q s => ln (1 + x q * x (s + m)%nat)) H).
  rewrite (class_group n m cls c (fun q => k_out q * ln (x q)) H).
  rewrite (class_group n m cls c (fun q => k_in q * ln (x (q + m)%nat)) H). reflexivity.
Qed.

Lemma ln_prob_directed_gen n (p : nat -> nat -> R) (a : nat -> nat -> bool) :
  (forall i j, (i < n)%nat -> (j < n)%nat -> i <> j -> 0 < (if a i j then p i j else 1 - p i j)) ->
  ln (prob_directed n p a) =
  rsum n (fun i => rsum n (fun j => if Nat.eqb i j then 0 else ln (if a i j then p i j else 1 - p i j))).
Proof.
  intros Hp. unfold prob_directed.
  assert (P : forall i j, (i < n)%nat -> (j < n)%nat ->
     0 < (if Nat.eqb i j then 1 else if a i j then p i j else 1 - p i j)).
  { intros i j Hi Hj. destruct (Nat.eqb_spec i j); [lra|]. apply Hp; assumption. }
  rewrite ln_rprod.
  - apply rsum_ext. intros i Hi. rewrite ln_rprod by (intros; apply P; assumption).
    apply rsum_ext. intros j Hj. destruct (Nat.eqb i j); [apply ln_1|reflexivity].
  - intros i Hi. apply rprod_pos. intros j Hj. apply P; assumption.
Qed.

Lemma deg_zero n a i : deg n a i = 0 -> forall j, (j < n)%nat -> a i j = false.
Proof.
  intros H j Hj. unfold deg in H.
  assert (ind (a i j) = 0) as E.
  { apply (rsum_nonneg_zero n (fun j => ind (a i j))); auto.
    intros l _. destruct (a i l); simpl; lra. }
  destruct (a i j); simpl in E; [lra|reflexivity].
Qed.
Lemma indeg_zero n a j : indeg n a j = 0 -> forall i, (i < n)%nat -> a i j = false.
Proof.
  intros H i Hi. unfold indeg in H.
  assert (ind (a i j) = 0) as E.
  { apply (rsum_nonneg_zero n (fun i => ind (a i j))); auto.
    intros l _. destruct (a l j); simpl; lra. }
  destruct (a i j); simpl in E; [lra|reflexivity].
Qed.

Lemma loglik_dcm_logprob n m cls k_out k_in nzo nzi c x a :
  loopless n a -> classes n m cls c ->
  nonzero_list m k_out nzo -> nonzero_list m k_in nzi -> dcm_full m nzo nzi x ->
  (forall i, (i < n)%nat -> k_out (cls i) = deg n a i) ->
  (forall i, (i < n)%nat -> k_in (cls i) = indeg n a i) ->
  loglikelihood_dcm m k_out k_in nzo nzi c x =
  ln (prob_directed n (p_dbcm (fun i => x (cls i)) (fun j => x (cls j + m)%nat)) a).
Proof.
  intros Hl H Ho Hi Hx Hko Hki.
  set (X := fun i => x (cls i)). set (Y := fun j => x (cls j + m)%nat).
  assert (Hc : forall i, (i < n)%nat -> (cls i < m)%nat) by (intros; apply H; assumption).
  assert (HX : forall i, (i < n)%nat -> 0 <= X i) by (intros; apply (full_out_nonneg m nzo nzi x); auto).
  assert (HY : forall i, (i < n)%nat -> 0 <= Y i) by (intros; apply (full_in_nonneg m nzo nzi x); auto).
  assert (Hpos : forall i j, (i < n)%nat -> (j < n)%nat -> a i j = true -> 0 < X i /\ 0 < Y j).
  { intros i j Hin Hj Haij. destruct Hx as [[D1 D2] _]. split.
    - apply D1. apply Ho. split; [auto|]. rewrite Hko by exact Hin. intros E.
      rewrite (deg_zero n a i E j Hj) in Haij. discriminate.
    - apply D2. apply Hi. split; [auto|]. rewrite Hki by exact Hj. intros E.
      rewrite (indeg_zero n a j E i Hin) in Haij. discriminate. }
  assert (Hfac : forall i j, (i < n)%nat -> (j < n)%nat ->
     0 < (if a i j then p_dbcm X Y i j else 1 - p_dbcm X Y i j) /\
     ln (if a i j then p_dbcm X Y i j else 1 - p_dbcm X Y i j) =
     ind (a i j) * (ln (X i) + ln (Y j)) - ln (1 + X i * Y j)).
  { intros i j Hin Hj. unfold p_dbcm. destruct (a i j) eqn:Ea; simpl.
    - destruct (Hpos i j Hin Hj Ea) as [P1 P2]. assert (0 < X i * Y j) by (apply Rmult_lt_0_compat; assumption).
      split; [apply odds_prob; assumption|]. rewrite ln_odds, ln_mult by assumption. ring.
    - pose proof (Rmult_le_pos _ _ (HX i Hin) (HY j Hj)) as P.
      replace (1 - X i * Y j / (1 + X i * Y j)) with (/ (1 + X i * Y j)) by (field; lra).
      split; [apply Rinv_0_lt_compat; lra|]. rewrite ln_Rinv by lra. ring. }
  rewrite ln_prob_directed_gen by (intros i j Hin Hj _; apply Hfac; assumption).
  rewrite (loglik_dcm_nodes n m cls) by assumption.
  match goal with |- _ = rsum n ?F => rewrite (rsum_ext n F (fun i => rsum n (fun j => ind (a i j) * ln (X i)) + rsum n (fun j => ind (a i j) * ln (Y j))
     - rsum n (fun j => if Nat.eqb i j then 0 else ln (1 + X i * Y j)))) end.
  2: { intros i Hin. rewrite <- rsum_plus, <- rsum_minus. apply rsum_ext. intros j Hj.
       destruct (Nat.eqb_spec i j) as [<-|]; [rewrite (Hl i Hin); simpl; ring|].
       rewrite (proj2 (Hfac i j Hin Hj)). ring. }
  rewrite rsum_minus, rsum_plus. f_equal. f_equal.
  - apply rsum_ext. intros i Hin. rewrite rsum_scal_r. rewrite (Hko i Hin). reflexivity.
  - rewrite rsum_swap. apply rsum_ext. intros j Hj. rewrite rsum_scal_r. rewrite (Hki j Hj). reflexivity.
Qed.

(** The two parametrisations. *)
Lemma loglik_dcm_exp_eq n k_out k_in nzo nzi c theta x :
  (forall i, In i nzo -> x i = exp (- theta i)) ->
  (forall j, In j nzi -> x (j + n)%nat = exp (- theta (j + n)%nat)) ->
  loglikelihood_dcm_exp n k_out k_in nzo nzi c theta = loglikelihood_dcm n k_out k_in nzo nzi c x.
Proof.
  intros Eo Ei. rewrite loglik_dcm_exp_nf, loglik_dcm_nf. f_equal; [f_equal|].
  - apply lsum_ext. intros i Hi. rewrite Eo, ln_exp by exact Hi. ring.
  - apply lsum_ext. intros i Hi. rewrite Ei, ln_exp by exact Hi. ring.
  - apply lsum_ext. intros i Hi. apply lsum_ext. intros j Hj.
    rewrite Eo, Ei by assumption. reflexivity.
Qed.

Lemma prime_dcm_exp_eq n k_out k_in nzo nzi c theta x r :
  (r < 2 * n)%nat ->
  (forall i, In i nzo -> x i = exp (- theta i)) ->
  (forall j, In j nzi -> x (j + n)%nat = exp (- theta (j + n)%nat)) ->
  loglikelihood_prime_dcm_exp n k_out k_in nzo nzi c theta r =
  - x r * loglikelihood_prime_dcm n k_out k_in nzo nzi c x r.
Proof.
  intros Hr Eo Ei. destruct (Nat.ltb_spec r n) as [Hn|Hn].
  - destruct (memb_spec r nzo) as [Hin|Hin].
    + rewrite prime_dcm_exp_out, prime_dcm_out by assumption.
      rewrite (Eo r Hin). pose proof (exp_pos (- theta r)).
      rewrite Rmult_minus_distr_l, <- lsum_scal. f_equal.
      * field. lra.
      * apply lsum_ext. intros j Hj. rewrite (Ei j Hj). unfold Rdiv. ring.
    + rewrite prime_dcm_exp_out_none, prime_dcm_out_none by assumption. ring.
  - replace r with (r - n + n)%nat by lia. set (j := (r - n)%nat).
    destruct (memb_spec j nzi) as [Hin|Hin].
    + rewrite prime_dcm_exp_in, prime_dcm_in by assumption.
      rewrite (Ei j Hin). pose proof (exp_pos (- theta (j + n)%nat)).
      rewrite Rmult_minus_distr_l, <- lsum_scal. f_equal.
      * field. lra.
      * apply lsum_ext. intros i Hi. rewrite (Eo i Hi). unfold Rdiv. ring.
    + rewrite prime_dcm_exp_in_none, prime_dcm_in_none by assumption. ring.
Qed.

Lemma loglik_dcm_exp_logprob n m cls k_out k_in nzo nzi c theta x a :
  loopless n a -> classes n m cls c ->
  nonzero_list m k_out nzo -> nonzero_list m k_in nzi -> dcm_full m nzo nzi x ->
  (forall i, In i nzo -> x i = exp (- theta i)) ->
  (forall j, In j nzi -> x (j + m)%nat = exp (- theta (j + m)%nat)) ->
  (forall i, (i < n)%nat -> k_out (cls i) = deg n a i) ->
  (forall i, (i < n)%nat -> k_in (cls i) = indeg n a i) ->
  loglikelihood_dcm_exp m k_out k_in nzo nzi c theta =
  ln (prob_directed n (p_dbcm (fun i => x (cls i)) (fun j => x (cls j + m)%nat)) a).
Proof.
  intros. rewrite (loglik_dcm_exp_eq m k_out k_in nzo nzi c theta x) by assumption.
  apply loglik_dcm_logprob; assumption.
Qed.

(** * Expected degrees *)
Lemma expected_out_degree_dcm_nf n sol i : (i < n)%nat ->
  expected_out_degree_dcm n sol i =
  rsum n (fun j => if Nat.eqb i j then 0 else p_dbcm sol (fun j => sol (j + n)%nat) i j).
Proof.
  intros Hi. unfold expected_out_degree_dcm, p_dbcm. cbv zeta. destruct (Req_EM_T (sol i) 0) as [E|E].
  - symmetry. apply rsum_zero. intros j _. destruct (Nat.eqb i j); [reflexivity|].
    rewrite E. unfold Rdiv. ring.
  - rewrite (loop_add n 0 _ (fun j => if Nat.eqb i j then 0 else sol i * sol (j + n)%nat / (1 + sol i * sol (j + n)%nat))).
    + ring.
    + intros j a _. destruct (Req_EM_T (sol (j + n)%nat) 0) as [E'|E'].
      * rewrite E'. destruct (Nat.eqb i j); unfold Rdiv; ring.
      * destruct (Nat.eqb i j); simpl; [ring|].
        rewrite (Rmult_comm (sol (j + n)%nat)). reflexivity.
Qed.

Lemma expected_in_degree_dcm_nf n sol i : (i < n)%nat ->
  expected_in_degree_dcm n sol i =
  rsum n (fun j => if Nat.eqb i j then 0 else p_dbcm sol (fun j => sol (j + n)%nat) j i).
Proof.
  intros Hi. unfold expected_in_degree_dcm, p_dbcm. cbv zeta. destruct (Req_EM_T (sol (i + n)%nat) 0) as [E|E].
  - symmetry. apply rsum_zero. intros j _. destruct (Nat.eqb i j); [reflexivity|].
    rewrite E. unfold Rdiv. ring.
  - rewrite (loop_add n 0 _ (fun j => if Nat.eqb i j then 0 else sol j * sol (i + n)%nat / (1 + sol j * sol (i + n)%nat))).
    + ring.
    + intros j a _. destruct (Req_EM_T (sol j) 0) as [E'|E'].
      * rewrite E'. destruct (Nat.eqb i j); unfold Rdiv; ring.
      * destruct (Nat.eqb i j); simpl; [ring|].
        rewrite (Rmult_comm (sol (i + n)%nat)). reflexivity.
Qed.

Lemma expected_out_degree_dcm_mean n sol i : (i < n)%nat ->
  mean_directed n (p_dbcm sol (fun j => sol (j + n)%nat)) (fun a => deg n a i) =
  expected_out_degree_dcm n sol i.
Proof. intros Hi. rewrite mean_directed_deg, expected_out_degree_dcm_nf by exact Hi. reflexivity. Qed.

Lemma expected_in_degree_dcm_mean n sol i : (i < n)%nat ->
  mean_directed n (p_dbcm sol (fun j => sol (j + n)%nat)) (fun a => indeg n a i) =
  expected_in_degree_dcm n sol i.
Proof.
  intros Hi. rewrite mean_directed_indeg, expected_in_degree_dcm_nf by exact Hi.
  apply rsum_ext. intros j _. rewrite (Nat.eqb_sym j i). reflexivity.
Qed.

Lemma expected_in_degree_dcm_exp_eq n theta i : (i < n)%nat ->
  expected_in_degree_dcm_exp n theta i = expected_in_degree_dcm n (fun r => exp (- theta r)) i.
Proof.
  intros Hi. rewrite expected_in_degree_dcm_nf by exact Hi.
  unfold expected_in_degree_dcm_exp, p_dbcm. cbv zeta.
  rewrite (loop_add n 0 _ (fun j => if Nat.eqb i j then 0 else exp (- theta j) * exp (- theta (i + n)%nat)
     / (1 + exp (- theta j) * exp (- theta (i + n)%nat)))).
  - ring.
  - intros j a _. destruct (Nat.eqb i j); simpl; [ring|].
    rewrite (Rmult_comm (exp (- theta (i + n)%nat))). reflexivity.
Qed.

(** The out version pairs the out parameters with each other. *)
Lemma expected_out_degree_dcm_exp_is n theta i : (i < n)%nat ->
  expected_out_degree_dcm_exp n theta i =
  rsum n (fun j => if Nat.eqb i j then 0 else p_ubcm (fun j => exp (- theta j)) i j).
Proof.
  intros Hi. unfold expected_out_degree_dcm_exp, p_ubcm. cbv zeta.
  rewrite (loop_add n 0 _ (fun j => if Nat.eqb i j then 0 else exp (- theta i) * exp (- theta j)
     / (1 + exp (- theta i) * exp (- theta j)))).
  - ring.
  - intros j a _. destruct (Nat.eqb i j); simpl; ring.
Qed.

Lemma expected_out_degree_dcm_exp_refuted :
  exists n theta i, (i < n)%nat /\
    expected_out_degree_dcm_exp n theta i <> expected_out_degree_dcm n (fun r => exp (- theta r)) i.
Proof.
  exists 2%nat, (fun r => if Nat.eqb r 3 then - ln 2 else 0), 0%nat. split; [lia|].
  rewrite expected_out_degree_dcm_exp_is, expected_out_degree_dcm_nf by lia.
  unfold p_ubcm, p_dbcm. simpl. rewrite Ropp_involutive, Ropp_0, exp_0, exp_ln by lra. lra.
Qed.

(** * Solutions *)
Section Sol.
Variables (n m : nat) (cls : nat -> nat) (k_out k_in : nat -> R) (nzo nzi : list nat) (c x : nat -> R).
Hypothesis H : classes n m cls c.
Hypothesis Ho : nonzero_list m k_out nzo.
Hypothesis Hi : nonzero_list m k_in nzi.
Hypothesis Hx : dcm_full m nzo nzi x.

Lemma expected_out_expand i : (i < n)%nat ->
  expected_out_degree_dcm n (expand n m cls x) i =
  rsum n (fun j => if Nat.eqb i j then 0 else x (cls i) * x (cls j + m)%nat / (1 + x (cls i) * x (cls j + m)%nat)).
Proof.
  intros Hin. rewrite expected_out_degree_dcm_nf by exact Hin. apply rsum_ext. intros j Hj.
  unfold p_dbcm. rewrite expand_out, expand_in by exact Hin. reflexivity.
Qed.
Lemma expected_in_expand i : (i < n)%nat ->
  expected_in_degree_dcm n (expand n m cls x) i =
  rsum n (fun j => if Nat.eqb i j then 0 else x (cls j) * x (cls i + m)%nat / (1 + x (cls j) * x (cls i + m)%nat)).
Proof.
  intros Hin. rewrite expected_in_degree_dcm_nf by exact Hin. apply rsum_ext. intros j Hj.
  unfold p_dbcm. rewrite expand_out, expand_in by exact Hj. reflexivity.
Qed.

Lemma prime_dcm_out_expected i : (i < n)%nat -> In (cls i) nzo ->
  loglikelihood_prime_dcm m k_out k_in nzo nzi c x (cls i) =
  c (cls i) / x (cls i) * (k_out (cls i) - expected_out_degree_dcm n (expand n m cls x) i).
Proof.
  intros Hin Hm. assert (Hc : (cls i < m)%nat) by (apply H; exact Hin).
  rewrite prime_dcm_out by assumption. rewrite expected_out_expand by exact Hin.
  pose proof (proj1 (proj1 Hx) _ Hm) as Px.
  rewrite (lsum_unmask m nzi).
  - rewrite <- (class_row n m cls c (fun s => x (s + m)%nat / (1 + x (cls i) * x (s + m)%nat)) i H Hin).
    unfold Rdiv at 3. rewrite Rmult_minus_distr_l. f_equal; [field; lra|].
    rewrite Rmult_assoc. f_equal. rewrite <- rsum_scal_l. apply rsum_ext. intros j Hj.
    destruct (Nat.eqb i j); [ring|].
    pose proof (full_in_nonneg m nzo nzi x (cls j) Hx ltac:(apply H; exact Hj)) as Py.
    assert (0 <= x (cls i) * x (cls j + m)%nat) by (apply Rmult_le_pos; lra). field. lra.
  - apply (nonzero_index m k_in), Hi.
  - intros j Hj Hn. rewrite (proj2 (proj2 Hx) j Hj Hn). unfold Rdiv. ring.
Qed.

Lemma prime_dcm_in_expected i : (i < n)%nat -> In (cls i) nzi ->
  loglikelihood_prime_dcm m k_out k_in nzo nzi c x (cls i + m) =
  c (cls i) / x (cls i + m)%nat * (k_in (cls i) - expected_in_degree_dcm n (expand n m cls x) i).
Proof.
  intros Hin Hm. assert (Hc : (cls i < m)%nat) by (apply H; exact Hin).
  rewrite prime_dcm_in by assumption. rewrite expected_in_expand by exact Hin.
  pose proof (proj2 (proj1 Hx) _ Hm) as Px.
  rewrite (lsum_unmask m nzo).
  - rewrite (rsum_ext m _ (fun q => pairmult c (cls i) q * (x q / (1 + x q * x (cls i + m)%nat))))
      by (intros; rewrite pairmult_sym; reflexivity).
    rewrite <- (class_row n m cls c (fun s => x s / (1 + x s * x (cls i + m)%nat)) i H Hin).
    unfold Rdiv at 3. rewrite Rmult_minus_distr_l. f_equal; [field; lra|].
    rewrite Rmult_assoc. f_equal. rewrite <- rsum_scal_l. apply rsum_ext. intros j Hj.
    destruct (Nat.eqb i j); [ring|].
    pose proof (full_out_nonneg m nzo nzi x (cls j) Hx ltac:(apply H; exact Hj)) as Py.
    assert (0 <= x (cls j) * x (cls i + m)%nat) by (apply Rmult_le_pos; lra). field. lra.
  - apply (nonzero_index m k_out), Ho.
  - intros j Hj Hn. rewrite (proj1 (proj2 Hx) j Hj Hn). unfold Rdiv. ring.
Qed.

Lemma prime_dcm_empty_out q : (q < m)%nat -> c q = 0 ->
  loglikelihood_prime_dcm m k_out k_in nzo nzi c x q = 0.
Proof.
  intros Hq E. destruct (memb_spec q nzo) as [Hin|Hin].
  - rewrite prime_dcm_out by assumption. rewrite lsum_zero; [rewrite E; unfold Rdiv; ring|].
    intros j _. unfold pairmult. destruct (Nat.eqb q j); rewrite E; ring.
  - apply prime_dcm_out_none; assumption.
Qed.
Lemma prime_dcm_empty_in q : c q = 0 ->
  loglikelihood_prime_dcm m k_out k_in nzo nzi c x (q + m) = 0.
Proof.
  intros E. destruct (memb_spec q nzi) as [Hin|Hin].
  - rewrite prime_dcm_in by assumption. rewrite lsum_zero; [rewrite E; unfold Rdiv; ring|].
    intros j _. rewrite pairmult_sym. unfold pairmult. destruct (Nat.eqb q j); rewrite E; ring.
  - apply prime_dcm_in_none; assumption.
Qed.

Lemma stationary_dcm_iff :
  (forall r, (r < 2 * m)%nat -> loglikelihood_prime_dcm m k_out k_in nzo nzi c x r = 0) <->
  (forall i, (i < n)%nat ->
     expected_out_degree_dcm n (expand n m cls x) i = k_out (cls i) /\
     expected_in_degree_dcm n (expand n m cls x) i = k_in (cls i)).
Proof.
  split.
  - intros H0 i Hin. assert (Hc : (cls i < m)%nat) by (apply H; exact Hin).
    pose proof (class_count_pos _ _ _ _ i H Hin) as Pc. split.
    + destruct (memb_spec (cls i) nzo) as [Hm|Hm].
      * specialize (H0 (cls i) ltac:(lia)). rewrite prime_dcm_out_expected in H0 by assumption.
        pose proof (proj1 (proj1 Hx) _ Hm) as Px.
        assert (0 < c (cls i) / x (cls i)) by (apply Rdiv_lt_0_compat; assumption).
        apply Rmult_integral in H0. destruct H0; lra.
      * rewrite (nonzero_out m k_out nzo (cls i) Ho Hc Hm), expected_out_expand by exact Hin.
        apply rsum_zero. intros j _. rewrite (proj1 (proj2 Hx) _ Hc Hm).
        destruct (Nat.eqb i j); unfold Rdiv; ring.
    + destruct (memb_spec (cls i) nzi) as [Hm|Hm].
      * specialize (H0 (cls i + m)%nat ltac:(lia)). rewrite prime_dcm_in_expected in H0 by assumption.
        pose proof (proj2 (proj1 Hx) _ Hm) as Px.
        assert (0 < c (cls i) / x (cls i + m)%nat) by (apply Rdiv_lt_0_compat; assumption).
        apply Rmult_integral in H0. destruct H0; lra.
      * rewrite (nonzero_out m k_in nzi (cls i) Hi Hc Hm), expected_in_expand by exact Hin.
        apply rsum_zero. intros j _. rewrite (proj2 (proj2 Hx) _ Hc Hm).
        destruct (Nat.eqb i j); unfold Rdiv; ring.
  - intros H0 r Hr. destruct (Nat.ltb_spec r m) as [Hm|Hm].
    + destruct (class_empty_or_node _ _ _ _ r H Hm) as [E|[i [Hin <-]]].
      * apply prime_dcm_empty_out; assumption.
      * destruct (memb_spec (cls i) nzo) as [Hz|Hz]; [|apply prime_dcm_out_none; assumption].
        rewrite prime_dcm_out_expected by assumption. rewrite (proj1 (H0 i Hin)). ring.
    + replace r with (r - m + m)%nat by lia. assert (Hq : (r - m < m)%nat) by lia.
      destruct (class_empty_or_node _ _ _ _ _ H Hq) as [E|[i [Hin <-]]].
      * apply prime_dcm_empty_in; assumption.
      * destruct (memb_spec (cls i) nzi) as [Hz|Hz]; [|apply prime_dcm_in_none; assumption].
        rewrite prime_dcm_in_expected by assumption. rewrite (proj2 (H0 i Hin)). ring.
Qed.

Lemma stationary_dcm_exp_iff theta :
  (forall i, In i nzo -> x i = exp (- theta i)) ->
  (forall j, In j nzi -> x (j + m)%nat = exp (- theta (j + m)%nat)) ->
  ((forall r, (r < 2 * m)%nat -> loglikelihood_prime_dcm_exp m k_out k_in nzo nzi c theta r = 0) <->
   (forall i, (i < n)%nat ->
     expected_out_degree_dcm n (expand n m cls x) i = k_out (cls i) /\
     expected_in_degree_dcm n (expand n m cls x) i = k_in (cls i))).
Proof.
  intros Eo Ei. rewrite <- stationary_dcm_iff. split; intros H0 r Hr.
  - specialize (H0 r Hr). rewrite (prime_dcm_exp_eq m k_out k_in nzo nzi c theta x) in H0 by assumption.
    apply Rmult_integral in H0. destruct H0 as [H0|H0]; [|exact H0].
    destruct (Nat.ltb_spec r m) as [Hm|Hm].
    + destruct (memb_spec r nzo) as [Hz|Hz]; [|apply prime_dcm_out_none; assumption].
      pose proof (proj1 (proj1 Hx) _ Hz). lra.
    + replace r with (r - m + m)%nat in * by lia.
      destruct (memb_spec (r - m)%nat nzi) as [Hz|Hz]; [|apply prime_dcm_in_none; assumption].
      pose proof (proj2 (proj1 Hx) _ Hz). lra.
  - rewrite (prime_dcm_exp_eq m k_out k_in nzo nzi c theta x) by assumption.
    rewrite H0 by exact Hr. ring.
Qed.

(** * Global maximum *)
Definition at_sol (z : nat -> R) : R :=
  rsum n (fun i => rsum n (fun j => if Nat.eqb i j then 0 else
    x (cls i) * x (cls j + m)%nat / (1 + x (cls i) * x (cls j + m)%nat) * (ln (z (cls i)) + ln (z (cls j + m)%nat))
    - ln (1 + z (cls i) * z (cls j + m)%nat))).

Lemma loglik_dcm_at_solution z :
  dcm_full m nzo nzi z ->
  (forall i, (i < n)%nat ->
     expected_out_degree_dcm n (expand n m cls x) i = k_out (cls i) /\
     expected_in_degree_dcm n (expand n m cls x) i = k_in (cls i)) ->
  loglikelihood_dcm m k_out k_in nzo nzi c z = at_sol z.
Proof.
  intros Hz Hs. rewrite (loglik_dcm_nodes n m cls) by assumption. unfold at_sol.
  set (P := fun i j => x (cls i) * x (cls j + m)%nat / (1 + x (cls i) * x (cls j + m)%nat)).
  rewrite (rsum_ext n (fun i => rsum n (fun j => if Nat.eqb i j then 0 else
      x (cls i) * x (cls j + m)%nat / (1 + x (cls i) * x (cls j + m)%nat) * (ln (z (cls i)) + ln (z (cls j + m)%nat))
      - ln (1 + z (cls i) * z (cls j + m)%nat)))
    (fun i => rsum n (fun j => (if Nat.eqb i j then 0 else P i j) * ln (z (cls i)))
       + rsum n (fun j => (if Nat.eqb i j then 0 else P i j) * ln (z (cls j + m)%nat))
       - rsum n (fun j => if Nat.eqb i j then 0 else ln (1 + z (cls i) * z (cls j + m)%nat)))).
  2: { intros i Hin. rewrite <- rsum_plus, <- rsum_minus. apply rsum_ext. intros j Hj.
       unfold P. destruct (Nat.eqb i j); ring. }
  rewrite rsum_minus, rsum_plus. f_equal. f_equal.
  - apply rsum_ext. intros i Hin. rewrite rsum_scal_r. f_equal.
    rewrite <- (proj1 (Hs i Hin)), expected_out_expand by exact Hin. reflexivity.
  - rewrite rsum_swap. apply rsum_ext. intros j Hj. rewrite rsum_scal_r. f_equal.
    rewrite <- (proj2 (Hs j Hj)), expected_in_expand by exact Hj.
    apply rsum_ext. intros i _. rewrite (Nat.eqb_sym i j). reflexivity.
Qed.

Lemma at_sol_term z i j :
  dcm_full m nzo nzi z -> (i < n)%nat -> (j < n)%nat ->
  let u := x (cls i) * x (cls j + m)%nat in let v := z (cls i) * z (cls j + m)%nat in
  let t := fun y => u / (1 + u) * (ln (y (cls i)) + ln (y (cls j + m)%nat)) - ln (1 + y (cls i) * y (cls j + m)%nat) in
  t z <= t x /\ (t z = t x -> u = v).
Proof.
  intros Hz Hin Hj. cbv zeta.
  assert (Hc : (cls i < m)%nat) by (apply H; exact Hin).
  assert (Hd : (cls j < m)%nat) by (apply H; exact Hj).
  destruct (memb_spec (cls i) nzo) as [M1|M1].
  - destruct (memb_spec (cls j) nzi) as [M2|M2].
    + destruct Hx as [[D1 D2] _], Hz as [[E1 E2] _].
      pose proof (D1 _ M1). pose proof (D2 _ M2). pose proof (E1 _ M1). pose proof (E2 _ M2).
      rewrite <- !ln_mult by assumption.
      assert (Pu : 0 < x (cls i) * x (cls j + m)%nat) by (apply Rmult_lt_0_compat; assumption).
      assert (Pv : 0 < z (cls i) * z (cls j + m)%nat) by (apply Rmult_lt_0_compat; assumption).
      split; [apply pair_binary_max; assumption|]. intros E.
      destruct (Req_dec (x (cls i) * x (cls j + m)%nat) (z (cls i) * z (cls j + m)%nat)) as [Q|Q]; [exact Q|].
      pose proof (pair_binary_max_strict _ _ Pu Pv Q). lra.
    + rewrite (proj2 (proj2 Hx) _ Hd M2), (proj2 (proj2 Hz) _ Hd M2). rewrite !Rmult_0_r.
      unfold Rdiv. rewrite !Rmult_0_l. split; [lra|reflexivity].
  - rewrite (proj1 (proj2 Hx) _ Hc M1), (proj1 (proj2 Hz) _ Hc M1). rewrite !Rmult_0_l.
    unfold Rdiv. rewrite !Rmult_0_l. split; [lra|reflexivity].
Qed.

Lemma solution_dcm_max_full z :
  dcm_full m nzo nzi z ->
  (forall i, (i < n)%nat ->
     expected_out_degree_dcm n (expand n m cls x) i = k_out (cls i) /\
     expected_in_degree_dcm n (expand n m cls x) i = k_in (cls i)) ->
  loglikelihood_dcm m k_out k_in nzo nzi c z <= loglikelihood_dcm m k_out k_in nzo nzi c x.
Proof.
  intros Hz Hs. rewrite !loglik_dcm_at_solution by assumption. unfold at_sol.
  apply rsum_le. intros i Hin. apply rsum_le. intros j Hj.
  destruct (Nat.eqb i j); [lra|]. apply (at_sol_term z i j Hz Hin Hj).
Qed.

Lemma solution_dcm_strict z :
  dcm_full m nzo nzi z ->
  (forall i, (i < n)%nat ->
     expected_out_degree_dcm n (expand n m cls x) i = k_out (cls i) /\
     expected_in_degree_dcm n (expand n m cls x) i = k_in (cls i)) ->
  loglikelihood_dcm m k_out k_in nzo nzi c z = loglikelihood_dcm m k_out k_in nzo nzi c x ->
  forall i j, (i < n)%nat -> (j < n)%nat -> i <> j ->
  x (cls i) * x (cls j + m)%nat = z (cls i) * z (cls j + m)%nat.
Proof.
  intros Hz Hs. rewrite !loglik_dcm_at_solution by assumption. intros E i j Hin Hj Hij.
  apply (at_sol_term z i j Hz Hin Hj).
  set (T := fun y i j => if Nat.eqb i j then 0 else
    x (cls i) * x (cls j + m)%nat / (1 + x (cls i) * x (cls j + m)%nat) * (ln (y (cls i)) + ln (y (cls j + m)%nat))
    - ln (1 + y (cls i) * y (cls j + m)%nat)).
  assert (L : forall a b, (a < n)%nat -> (b < n)%nat -> 0 <= T x a b - T z a b).
  { intros a b Ha Hb. unfold T. destruct (Nat.eqb a b); [lra|].
    pose proof (proj1 (at_sol_term z a b Hz Ha Hb)) as Q. cbv beta in Q. lra. }
  assert (S0 : rsum n (fun a => rsum n (fun b => T x a b - T z a b)) = 0).
  { rewrite (rsum_ext n _ (fun a => rsum n (T x a) - rsum n (T z a))) by (intros; apply rsum_minus).
    rewrite rsum_minus. unfold at_sol in E. unfold T. lra. }
  pose proof (rsum_nonneg_zero n _ (fun a Ha => rsum_nonneg n _ (fun b Hb => L a b Ha Hb)) S0 i Hin) as S1.
  pose proof (rsum_nonneg_zero n _ (fun b Hb => L i b Hin Hb) S1 j Hj) as S2.
  unfold T in S2. rewrite (proj2 (Nat.eqb_neq i j) Hij) in S2. lra.
Qed.

End Sol.

(** Coordinates outside the index arrays are not read. *)
Definition trunc (m : nat) (nzo nzi : list nat) (z : nat -> R) (r : nat) : R :=
  if Nat.ltb r m then if memb r nzo then z r else 0
  else if memb (r - m) nzi then z r else 0.

Lemma trunc_full m nzo nzi z :
  index_list m nzo -> dcm_dom m nzo nzi z -> dcm_full m nzo nzi (trunc m nzo nzi z).
Proof.
  intros [_ Bo] [D1 D2]. unfold trunc. repeat split.
  - intros i Hi. rewrite (proj2 (Nat.ltb_lt i m) (Bo i Hi)), (proj2 (memb_In i nzo) Hi). auto.
  - intros j Hj. rewrite ltb_plus_n, plus_n_minus, (proj2 (memb_In j nzi) Hj). auto.
  - intros i Hi Hn. rewrite (proj2 (Nat.ltb_lt i m) Hi). destruct (memb_spec i nzo); [contradiction|reflexivity].
  - intros j Hj Hn. rewrite ltb_plus_n, plus_n_minus. destruct (memb_spec j nzi); [contradiction|reflexivity].
Qed.

Lemma trunc_loglik m k_out k_in nzo nzi c z :
  index_list m nzo ->
  loglikelihood_dcm m k_out k_in nzo nzi c (trunc m nzo nzi z) = loglikelihood_dcm m k_out k_in nzo nzi c z.
Proof.
  intros [_ Bo].
  assert (E1 : forall i, In i nzo -> trunc m nzo nzi z i = z i).
  { intros i Hi. unfold trunc. rewrite (proj2 (Nat.ltb_lt i m) (Bo i Hi)), (proj2 (memb_In i nzo) Hi). reflexivity. }
  assert (E2 : forall i, In i nzi -> trunc m nzo nzi z (i + m)%nat = z (i + m)%nat).
  { intros i Hi. unfold trunc. rewrite ltb_plus_n, plus_n_minus, (proj2 (memb_In i nzi) Hi). reflexivity. }
  rewrite !loglik_dcm_nf. f_equal; [f_equal|].
  - apply lsum_ext. intros i Hi. rewrite E1 by exact Hi. reflexivity.
  - apply lsum_ext. intros i Hi. rewrite E2 by exact Hi. reflexivity.
  - apply lsum_ext. intros i Hi. apply lsum_ext. intros j Hj. rewrite E1, E2 by assumption. reflexivity.
Qed.

Lemma solution_dcm_max n m cls k_out k_in nzo nzi c x z :
  classes n m cls c -> nonzero_list m k_out nzo -> nonzero_list m k_in nzi ->
  dcm_full m nzo nzi x -> dcm_dom m nzo nzi z ->
  (forall i, (i < n)%nat ->
     expected_out_degree_dcm n (expand n m cls x) i = k_out (cls i) /\
     expected_in_degree_dcm n (expand n m cls x) i = k_in (cls i)) ->
  loglikelihood_dcm m k_out k_in nzo nzi c z <= loglikelihood_dcm m k_out k_in nzo nzi c x.
Proof.
  intros H Ho Hi Hx Hz Hs. pose proof (nonzero_index _ _ _ Ho) as Io.
  rewrite <- (trunc_loglik m k_out k_in nzo nzi c z Io).
  apply (solution_dcm_max_full n m cls); auto. apply trunc_full; auto.
Qed.

Lemma solution_dcm_exp_max n m cls k_out k_in nzo nzi c x theta z :
  classes n m cls c -> nonzero_list m k_out nzo -> nonzero_list m k_in nzi ->
  dcm_full m nzo nzi x ->
  (forall i, In i nzo -> x i = exp (- theta i)) ->
  (forall j, In j nzi -> x (j + m)%nat = exp (- theta (j + m)%nat)) ->
  (forall i, (i < n)%nat ->
     expected_out_degree_dcm n (expand n m cls x) i = k_out (cls i) /\
     expected_in_degree_dcm n (expand n m cls x) i = k_in (cls i)) ->
  loglikelihood_dcm_exp m k_out k_in nzo nzi c z <= loglikelihood_dcm_exp m k_out k_in nzo nzi c theta.
Proof.
  intros H Ho Hi Hx Eo Ei Hs.
  rewrite (loglik_dcm_exp_eq m k_out k_in nzo nzi c theta x) by assumption.
  rewrite (loglik_dcm_exp_eq m k_out k_in nzo nzi c z (fun r => exp (- z r))) by reflexivity.
  apply (solution_dcm_max n m cls); auto. split; intros; apply exp_pos.
Qed.

Lemma solution_dcm_unique n m cls k_out k_in nzo nzi c x z :
  classes n m cls c -> nonzero_list m k_out nzo -> nonzero_list m k_in nzi ->
  dcm_full m nzo nzi x -> dcm_full m nzo nzi z ->
  (forall i, (i < n)%nat ->
     expected_out_degree_dcm n (expand n m cls x) i = k_out (cls i) /\
     expected_in_degree_dcm n (expand n m cls x) i = k_in (cls i)) ->
  (forall i, (i < n)%nat ->
     expected_out_degree_dcm n (expand n m cls z) i = k_out (cls i) /\
     expected_in_degree_dcm n (expand n m cls z) i = k_in (cls i)) ->
  forall io ii i j, (i < n)%nat -> (j < n)%nat ->
  pmatrix_dcm n io ii (expand n m cls z) i j = pmatrix_dcm n io ii (expand n m cls x) i j.
Proof.
  intros H Ho Hi Hx Hz Hsx Hsz io ii i j Hin Hj.
  assert (E : loglikelihood_dcm m k_out k_in nzo nzi c z = loglikelihood_dcm m k_out k_in nzo nzi c x).
  { apply Rle_antisym; apply (solution_dcm_max_full n m cls); assumption. }
  pose proof (solution_dcm_strict n m cls k_out k_in nzo nzi c x H Ho Hi Hx z Hz Hsx E) as P.
  unfold pmatrix_dcm. destruct (andb (memb i io) (memb j ii)); [|reflexivity].
  destruct (Nat.eqb_spec i j) as [|Hij]; [reflexivity|]. simpl.
  rewrite !expand_in, !expand_out by exact Hin. rewrite (P i j Hin Hj Hij). reflexivity.
Qed.

Lemma pmatrix_dcm_props n io ii sol :
  nonzero_list n sol io -> nonzero_list n (fun j => sol (j + n)%nat) ii ->
  (forall r, (r < 2 * n)%nat -> 0 <= sol r) ->
  (forall i j, (i < n)%nat -> (j < n)%nat ->
     0 <= pmatrix_dcm n io ii sol i j < 1 /\
     (i <> j -> pmatrix_dcm n io ii sol i j = p_dbcm sol (fun j => sol (j + n)%nat) i j)) /\
  (forall i, pmatrix_dcm n io ii sol i i = 0) /\
  (forall i, (i < n)%nat -> rsum n (fun j => pmatrix_dcm n io ii sol i j) = expected_out_degree_dcm n sol i) /\
  (forall j, (j < n)%nat -> rsum n (fun i => pmatrix_dcm n io ii sol i j) = expected_in_degree_dcm n sol j).
Proof.
  intros Ho Hi Hs.
  assert (E : forall i j, (i < n)%nat -> (j < n)%nat -> pmatrix_dcm n io ii sol i j =
     if Nat.eqb i j then 0 else p_dbcm sol (fun j => sol (j + n)%nat) i j).
  { intros i j Hin Hj. unfold pmatrix_dcm, p_dbcm. cbv zeta.
    destruct (memb_spec i io) as [M1|M1]; simpl.
    - destruct (memb_spec j ii) as [M2|M2].
      + destruct (Nat.eqb i j); reflexivity.
      + rewrite (nonzero_out n _ ii j Hi Hj M2). destruct (Nat.eqb i j); unfold Rdiv; ring.
    - rewrite (nonzero_out n _ io i Ho Hin M1). destruct (Nat.eqb i j); unfold Rdiv; ring. }
  split; [|split; [|split]].
  - intros i j Hin Hj. rewrite E by assumption. split.
    + destruct (Nat.eqb i j); [lra|]. unfold p_dbcm. apply odds_prob_nonneg.
      apply Rmult_le_pos; apply Hs; lia.
    + intros Hij. rewrite (proj2 (Nat.eqb_neq i j) Hij). reflexivity.
  - intros i. unfold pmatrix_dcm. rewrite Nat.eqb_refl. destruct (andb _ _); reflexivity.
  - intros i Hin. rewrite expected_out_degree_dcm_nf by exact Hin. apply rsum_ext. intros j Hj. auto.
  - intros j Hj. rewrite expected_in_degree_dcm_nf by exact Hj. apply rsum_ext. intros i Hin.
    rewrite E by assumption. rewrite (Nat.eqb_sym i j). reflexivity.
Qed.
