(** DBCM: fixed points, reduction, quasi-Newton diagonal, witnesses. *)
From Coq Require Import Reals List Arith Lia Lra Bool.
From Verif Require Import Base SpecDeriv ProofsDeriv SpecGraph ProofsGraph SpecEnsemble ProofsEnsemble.
From Verif Require Import ProofsCM ModelDCM SpecDirected ProofsList ProofsDCM ProofsMainDCM.
Local Open Scope R_scope.
Import ListNotations.

(** * Fixed points *)
Lemma dcm_f_out_nf n c x i :
  c i * dcm_f_out n c x i = rsum n (fun j => pairmult c i j * (x (j + n)%nat / (1 + x i * x (j + n)%nat))).
Proof.
  unfold dcm_f_out.
  rewrite (loop_add n 0 _ (fun j => (if Nat.eqb i j then c j - 1 else c j) * (x (j + n)%nat / (1 + x i * x (j + n)%nat)))).
  - rewrite Rplus_0_l, <- rsum_scal_l. apply rsum_ext. intros j _. unfold pairmult.
    destruct (Nat.eqb_spec i j) as [->|]; ring.
  - intros j a _. rewrite (Nat.eqb_sym j i). destruct (Nat.eqb i j); simpl; unfold Rdiv; ring.
Qed.
Lemma dcm_f_in_nf n c x j :
  c j * dcm_f_in n c x j = rsum n (fun i => pairmult c i j * (x i / (1 + x i * x (j + n)%nat))).
Proof.
  unfold dcm_f_in.
  rewrite (loop_add n 0 _ (fun i => (if Nat.eqb i j then c i - 1 else c i) * (x i / (1 + x i * x (j + n)%nat)))).
  - rewrite Rplus_0_l, <- rsum_scal_l. apply rsum_ext. intros i _. unfold pairmult.
    destruct (Nat.eqb_spec i j) as [->|]; ring.
  - intros i a _. rewrite (Nat.eqb_sym j i). destruct (Nat.eqb i j); simpl; unfold Rdiv; ring.
Qed.

Lemma fdiv_fix k f x c : 0 < c -> 0 < k -> 0 < x ->
  (fdiv k f = Fin x <-> c * k / x - c * f = 0).
Proof.
  intros Hc Hk Hx. unfold fdiv.
  assert (E : c * k / x - c * f = 0 <-> k = f * x).
  { split; intros E.
    - assert (E' : c * (k - f * x) = 0).
      { replace (c * (k - f * x)) with ((c * k / x - c * f) * x) by (field; lra). rewrite E; ring. }
      apply Rmult_integral in E'. destruct E'; lra.
    - rewrite E. field. lra. }
  rewrite E. clear E.
  destruct (Req_EM_T f 0) as [E0|E0].
  - subst f. destruct (Req_EM_T k 0); [lra|]. destruct (Rlt_dec 0 k); [|lra].
    split; intros F; [discriminate|lra].
  - split; intros F.
    + injection F as F. rewrite <- F. field. exact E0.
    + f_equal. rewrite F. field. exact E0.
Qed.

Lemma fneglog_fix k f t c : 0 < c -> 0 < k -> 0 <= f ->
  (fneglog (fdiv k f) = Fin t <-> c * k / exp (- t) - c * f = 0).
Proof.
  intros Hc Hk Hf. rewrite <- (fdiv_fix k f (exp (- t)) c Hc Hk (exp_pos _)). unfold fdiv.
  destruct (Req_EM_T f 0) as [E0|E0].
  - destruct (Req_EM_T k 0); [lra|]. destruct (Rlt_dec 0 k); [|lra]. simpl. split; discriminate.
  - assert (P : 0 < k / f) by (apply Rdiv_lt_0_compat; lra). simpl.
    destruct (Rlt_dec 0 (k / f)); [|lra]. split; intros F; injection F as F; f_equal.
    + rewrite <- F, Ropp_involutive, exp_ln; auto.
    + rewrite F, ln_exp. ring.
Qed.

Section Fix.
Variables (n : nat) (k_out k_in : nat -> R) (nzo nzi : list nat) (c : nat -> R).
Hypothesis Ho : nonzero_list n k_out nzo.
Hypothesis Hi : nonzero_list n k_in nzi.

Lemma prime_dcm_out_f x i : (i < n)%nat -> In i nzo ->
  (forall j, (j < n)%nat -> ~ In j nzi -> x (j + n)%nat = 0) ->
  loglikelihood_prime_dcm n k_out k_in nzo nzi c x i = c i * k_out i / x i - c i * dcm_f_out n c x i.
Proof.
  intros Hin Hm Z. rewrite prime_dcm_out by assumption. f_equal.
  rewrite dcm_f_out_nf. apply lsum_unmask; [apply (nonzero_index n k_in), Hi|].
  intros j Hj Hn. rewrite (Z j Hj Hn). unfold Rdiv. ring.
Qed.
Lemma prime_dcm_in_f x j : In j nzi ->
  (forall i, (i < n)%nat -> ~ In i nzo -> x i = 0) ->
  loglikelihood_prime_dcm n k_out k_in nzo nzi c x (j + n) = c j * k_in j / x (j + n)%nat - c j * dcm_f_in n c x j.
Proof.
  intros Hm Z. rewrite prime_dcm_in by assumption. f_equal.
  rewrite dcm_f_in_nf. apply lsum_unmask; [apply (nonzero_index n k_out), Ho|].
  intros i Hin Hn. rewrite (Z i Hin Hn). unfold Rdiv. ring.
Qed.

Lemma fixed_point_dcm_iff x r :
  dcm_full n nzo nzi x -> (r < 2 * n)%nat ->
  (forall q, (q < n)%nat -> 0 < c q) ->
  (forall q, (q < n)%nat -> 0 <= k_out q /\ 0 <= k_in q) ->
  (In r nzo \/ exists j, In j nzi /\ r = (j + n)%nat) ->
  (iterative_dcm n k_out k_in c x r = Fin (x r) <->
   loglikelihood_prime_dcm n k_out k_in nzo nzi c x r = 0).
Proof.
  intros [[D1 D2] [Z1 Z2]] Hr Hc Hk Hm. unfold iterative_dcm. destruct Hm as [Hm|[j [Hm ->]]].
  - destruct (proj1 (proj2 Ho r) Hm) as [Hn Hne].
    rewrite (proj2 (Nat.ltb_lt r n) Hn), prime_dcm_out_f by assumption.
    apply fdiv_fix; [auto| |auto]. destruct (Hk r Hn); lra.
  - destruct (proj1 (proj2 Hi j) Hm) as [Hn Hne].
    rewrite ltb_plus_n, plus_n_minus, prime_dcm_in_f by assumption.
    apply fdiv_fix; [auto| |auto]. destruct (Hk j Hn); lra.
Qed.

Lemma dcm_f_nonneg x q :
  (forall i, (i < n)%nat -> 0 <= x i /\ 0 <= x (i + n)%nat) -> (q < n)%nat ->
  (forall i, (i < n)%nat -> 1 <= c i) ->
  0 <= dcm_f_out n c x q /\ 0 <= dcm_f_in n c x q.
Proof.
  intros Hx Hq Hc. pose proof (Hc q Hq).
  assert (G : forall i j, (i < n)%nat -> (j < n)%nat -> 0 <= pairmult c i j).
  { intros i j Hin Hj. pose proof (Hc i Hin). pose proof (Hc j Hj). unfold pairmult.
    destruct (Nat.eqb i j); apply Rmult_le_pos; lra. }
  assert (D : forall i j, (i < n)%nat -> (j < n)%nat -> 0 < 1 + x i * x (j + n)%nat).
  { intros i j Hin Hj. destruct (Hx i Hin), (Hx j Hj).
    assert (0 <= x i * x (j + n)%nat) by (apply Rmult_le_pos; lra). lra. }
  split; apply (Rmult_le_reg_l (c q)); try lra; rewrite Rmult_0_r.
  - rewrite dcm_f_out_nf. apply rsum_nonneg. intros j Hj. apply Rmult_le_pos; [auto|].
    apply Rmult_le_pos; [apply Hx; exact Hj|]. left. apply Rinv_0_lt_compat. auto.
  - rewrite dcm_f_in_nf. apply rsum_nonneg. intros j Hj. apply Rmult_le_pos; [auto|].
    apply Rmult_le_pos; [apply Hx; exact Hj|]. left. apply Rinv_0_lt_compat. auto.
Qed.

Lemma expneg_facts theta th : theta_full n nzo nzi theta th ->
  dcm_full n nzo nzi (fun r => expneg (theta r)) /\
  (forall i, In i nzo -> expneg (theta i) = exp (- th i)) /\
  (forall j, In j nzi -> expneg (theta (j + n)%nat) = exp (- th (j + n)%nat)).
Proof.
  intros [T1 [T2 [T3 T4]]]. repeat split; intros i.
  - intros Hm. rewrite (T1 i Hm). apply exp_pos.
  - intros Hm. rewrite (T2 i Hm). apply exp_pos.
  - intros Hl Hm. rewrite (T3 i Hl Hm). reflexivity.
  - intros Hl Hm. rewrite (T4 i Hl Hm). reflexivity.
  - intros Hm. rewrite (T1 i Hm). reflexivity.
  - intros Hm. rewrite (T2 i Hm). reflexivity.
Qed.

Lemma opp_exp_zero t y : - exp (- t) * y = 0 <-> y = 0.
Proof.
  pose proof (exp_pos (- t)). split; intros E; [|rewrite E; ring].
  apply Rmult_integral in E. destruct E; lra.
Qed.

Lemma fixed_point_dcm_exp_iff theta th r :
  theta_full n nzo nzi theta th -> (r < 2 * n)%nat ->
  (forall q, (q < n)%nat -> 1 <= c q) ->
  (forall q, (q < n)%nat -> 0 <= k_out q /\ 0 <= k_in q) ->
  (In r nzo \/ exists j, In j nzi /\ r = (j + n)%nat) ->
  (iterative_dcm_exp n k_out k_in c theta r = Fin (th r) <->
   loglikelihood_prime_dcm_exp n k_out k_in nzo nzi c th r = 0).
Proof.
  intros T Hr Hc Hk Hm. destruct (expneg_facts _ _ T) as [F [Eo Ei]].
  rewrite (prime_dcm_exp_eq n k_out k_in nzo nzi c th (fun r => expneg (theta r)) r Hr Eo Ei).
  set (x := fun r => expneg (theta r)) in *.
  assert (NN : forall i, (i < n)%nat -> 0 <= x i /\ 0 <= x (i + n)%nat).
  { intros i Hin. split; [eapply full_out_nonneg|eapply full_in_nonneg]; eassumption. }
  unfold iterative_dcm_exp. fold x. cbv zeta. destruct Hm as [Hm|[j [Hm ->]]].
  - destruct (proj1 (proj2 Ho r) Hm) as [Hn Hne].
    rewrite (proj2 (Nat.ltb_lt r n) Hn), prime_dcm_out_f by (try assumption; apply F).
    change (expneg (theta r)) with (x r). replace (x r) with (exp (- th r)) by (symmetry; apply Eo, Hm).
    rewrite opp_exp_zero.
    apply fneglog_fix; [specialize (Hc r Hn); lra|destruct (Hk r Hn); lra|].
    apply dcm_f_nonneg; assumption.
  - destruct (proj1 (proj2 Hi j) Hm) as [Hn Hne].
    rewrite ltb_plus_n, plus_n_minus, prime_dcm_in_f by (try assumption; apply F).
    change (expneg (theta (j + n)%nat)) with (x (j + n)%nat).
    replace (x (j + n)%nat) with (exp (- th (j + n)%nat)) by (symmetry; apply Ei, Hm).
    rewrite opp_exp_zero.
    apply fneglog_fix; [specialize (Hc j Hn); lra|destruct (Hk j Hn); lra|].
    apply dcm_f_nonneg; assumption.
Qed.

(** The second fixed-point map: same value on positive degrees, NaN on zero
    degrees. *)
Lemma iterative_dcm_exp_2_eq theta th r :
  theta_full n nzo nzi theta th ->
  (In r nzo \/ exists j, In j nzi /\ r = (j + n)%nat) ->
  iterative_dcm_exp_2 n k_out k_in nzo nzi c theta r = iterative_dcm_exp n k_out k_in c theta r.
Proof.
  intros T Hm. destruct (expneg_facts _ _ T) as [F [Eo Ei]].
  unfold iterative_dcm_exp_2, iterative_dcm_exp. cbv zeta.
  set (x := fun r => expneg (theta r)) in *.
  destruct Hm as [Hm|[j [Hm ->]]].
  - destruct (proj1 (proj2 Ho r) Hm) as [Hn Hne].
    rewrite (proj2 (Nat.ltb_lt r n) Hn), (proj2 (memb_In _ _) Hm).
    destruct (Req_EM_T (k_out r) 0) as [E|_]; [contradiction|]. f_equal. f_equal.
    rewrite (lloop_add nzi _ _ (fun j => (if Nat.eqb j r then c j - 1 else c j) * (x (j + n)%nat / (1 + x r * x (j + n)%nat)))).
    2: { intros j a _. unfold x. destruct (Nat.eqb j r); simpl; unfold Rdiv; ring. }
    unfold dcm_f_out.
    rewrite (loop_add n 0 _ (fun j => (if Nat.eqb j r then c j - 1 else c j) * (x (j + n)%nat / (1 + x r * x (j + n)%nat)))).
    2: { intros j a _. unfold x. destruct (Nat.eqb j r); simpl; unfold Rdiv; ring. }
    f_equal. apply lsum_unmask; [apply (nonzero_index n k_in), Hi|].
    intros j Hj Hnj. rewrite (proj2 (proj2 F) j Hj Hnj). unfold Rdiv. ring.
  - destruct (proj1 (proj2 Hi j) Hm) as [Hn Hne].
    rewrite ltb_plus_n, plus_n_minus, (proj2 (memb_In _ _) Hm).
    destruct (Req_EM_T (k_in j) 0) as [E|_]; [contradiction|]. f_equal. f_equal.
    rewrite (lloop_add nzo _ _ (fun i => (if Nat.eqb j i then c i - 1 else c i) * (x i / (1 + x i * x (j + n)%nat)))).
    2: { intros i a _. unfold x. destruct (Nat.eqb j i); simpl; unfold Rdiv; ring. }
    unfold dcm_f_in.
    rewrite (loop_add n 0 _ (fun i => (if Nat.eqb j i then c i - 1 else c i) * (x i / (1 + x i * x (j + n)%nat)))).
    2: { intros i a _. unfold x. destruct (Nat.eqb j i); simpl; unfold Rdiv; ring. }
    f_equal. apply lsum_unmask; [apply (nonzero_index n k_out), Ho|].
    intros i Hin Hni. rewrite (proj1 (proj2 F) i Hin Hni). unfold Rdiv. ring.
Qed.

Lemma iterative_dcm_exp_2_zero theta r : (r < 2 * n)%nat ->
  ((r < n)%nat /\ k_out r = 0 \/ (n <= r)%nat /\ k_in (r - n)%nat = 0) ->
  iterative_dcm_exp_2 n k_out k_in nzo nzi c theta r = NaN.
Proof.
  intros Hr [[Hn E]|[Hn E]]; unfold iterative_dcm_exp_2; cbv zeta.
  - rewrite (proj2 (Nat.ltb_lt r n) Hn). rewrite E. destruct (Req_EM_T 0 0); [reflexivity|congruence].
  - rewrite (proj2 (Nat.ltb_ge r n) Hn). rewrite E. destruct (Req_EM_T 0 0); [reflexivity|congruence].
Qed.

End Fix.

(** A class of zero out-degree: the map returns 0 (so that the class stays out of
    the model) unless its denominator vanishes, where it returns NaN. *)
Lemma iterative_dcm_zero n k_out k_in c x i : (i < n)%nat -> k_out i = 0 ->
  (iterative_dcm n k_out k_in c x i = Fin 0 <-> dcm_f_out n c x i <> 0) /\
  (iterative_dcm n k_out k_in c x i = NaN <-> dcm_f_out n c x i = 0).
Proof.
  intros Hi E. unfold iterative_dcm, fdiv. rewrite (proj2 (Nat.ltb_lt i n) Hi), E.
  destruct (Req_EM_T (dcm_f_out n c x i) 0) as [F|F].
  - destruct (Req_EM_T 0 0); [|congruence]. split; split; intros; (discriminate || contradiction || auto).
  - replace (0 / dcm_f_out n c x i) with 0 by (field; exact F).
    split; split; intros; (discriminate || contradiction || auto).
Qed.

(** * Reduction *)
Lemma classes_one n : classes n n (fun i => i) (fun _ => 1).
Proof. apply classes_id. Qed.

Section Red.
Variables (n m : nat) (cls : nat -> nat) (k_out k_in : nat -> R) (nzo nzi nzo' nzi' : list nat) (c x : nat -> R).
Hypothesis H : classes n m cls c.
Hypothesis Ho : nonzero_list m k_out nzo.
Hypothesis Hi : nonzero_list m k_in nzi.
Hypothesis Ho' : nonzero_list n (fun i => k_out (cls i)) nzo'.
Hypothesis Hi' : nonzero_list n (fun i => k_in (cls i)) nzi'.
Hypothesis Hx : dcm_full m nzo nzi x.

Lemma node_out_iff i : (i < n)%nat -> (In i nzo' <-> In (cls i) nzo).
Proof.
  intros Hin. rewrite (proj2 Ho'), (proj2 Ho). split; intros [_ E]; split; auto. apply H, Hin.
Qed.
Lemma node_in_iff i : (i < n)%nat -> (In i nzi' <-> In (cls i) nzi).
Proof.
  intros Hin. rewrite (proj2 Hi'), (proj2 Hi). split; intros [_ E]; split; auto. apply H, Hin.
Qed.

Lemma expand_full : dcm_full n nzo' nzi' (expand n m cls x).
Proof.
  destruct Hx as [[D1 D2] [Z1 Z2]]. repeat split.
  - intros i Hm. assert (Hn : (i < n)%nat) by (apply (proj2 Ho'), Hm).
    rewrite expand_out by exact Hn. apply D1. apply node_out_iff; assumption.
  - intros i Hm. assert (Hn : (i < n)%nat) by (apply (proj2 Hi'), Hm).
    rewrite expand_in. apply D2. apply node_in_iff; assumption.
  - intros i Hn Hm. rewrite expand_out by exact Hn. apply Z1; [apply H, Hn|].
    rewrite <- node_out_iff by exact Hn. exact Hm.
  - intros i Hn Hm. rewrite expand_in. apply Z2; [apply H, Hn|].
    rewrite <- node_in_iff by exact Hn. exact Hm.
Qed.

Lemma reduction_loglik_dcm :
  loglikelihood_dcm m k_out k_in nzo nzi c x =
  loglikelihood_dcm n (fun i => k_out (cls i)) (fun i => k_in (cls i)) nzo' nzi' (fun _ => 1) (expand n m cls x).
Proof.
  rewrite (loglik_dcm_nodes n m cls) by assumption.
  rewrite (loglik_dcm_nodes n n (fun i => i) _ _ nzo' nzi' (fun _ => 1) (expand n m cls x))
    by (auto using classes_id, expand_full).
  f_equal; [f_equal|]; apply rsum_ext; intros i Hin.
  - rewrite expand_out by exact Hin. reflexivity.
  - rewrite expand_in. reflexivity.
  - apply rsum_ext. intros j Hj. rewrite expand_out, expand_in by exact Hin. reflexivity.
Qed.

Lemma expand_id i : (i < 2 * n)%nat -> expand n n (fun i => i) (expand n m cls x) i = expand n m cls x i.
Proof.
  intros Hin. unfold expand at 1. destruct (Nat.ltb_spec i n); [reflexivity|].
  f_equal. lia.
Qed.

Lemma expected_out_ext y z i : (i < n)%nat -> (forall r, (r < 2 * n)%nat -> y r = z r) ->
  expected_out_degree_dcm n y i = expected_out_degree_dcm n z i.
Proof.
  intros Hin E. rewrite !expected_out_degree_dcm_nf by exact Hin. apply rsum_ext. intros j Hj.
  unfold p_dbcm. rewrite !E by lia. reflexivity.
Qed.
Lemma expected_in_ext y z i : (i < n)%nat -> (forall r, (r < 2 * n)%nat -> y r = z r) ->
  expected_in_degree_dcm n y i = expected_in_degree_dcm n z i.
Proof.
  intros Hin E. rewrite !expected_in_degree_dcm_nf by exact Hin. apply rsum_ext. intros j Hj.
  unfold p_dbcm. rewrite !E by lia. reflexivity.
Qed.

Lemma reduction_prime_dcm i : (i < n)%nat ->
  loglikelihood_prime_dcm m k_out k_in nzo nzi c x (cls i) = c (cls i) *
  loglikelihood_prime_dcm n (fun i => k_out (cls i)) (fun i => k_in (cls i)) nzo' nzi' (fun _ => 1) (expand n m cls x) i
  /\
  loglikelihood_prime_dcm m k_out k_in nzo nzi c x (cls i + m) = c (cls i) *
  loglikelihood_prime_dcm n (fun i => k_out (cls i)) (fun i => k_in (cls i)) nzo' nzi' (fun _ => 1) (expand n m cls x) (i + n).
Proof.
  intros Hin. assert (Hc : (cls i < m)%nat) by (apply H, Hin).
  pose proof (classes_id n) as Hid. pose proof expand_full as HF. split.
  - destruct (memb_spec (cls i) nzo) as [Hm|Hm].
    + rewrite (prime_dcm_out_expected n m cls) by assumption.
      rewrite (prime_dcm_out_expected n n (fun i => i) _ _ nzo' nzi' (fun _ => 1) (expand n m cls x) Hid Hi' HF i Hin)
        by (apply node_out_iff; assumption).
      rewrite (expected_out_ext (expand n n (fun i => i) (expand n m cls x)) (expand n m cls x))
        by (auto using expand_id).
      rewrite expand_out by exact Hin. unfold Rdiv. ring.
    + rewrite !prime_dcm_out_none; try assumption; [ring|].
      rewrite node_out_iff by exact Hin. exact Hm.
  - destruct (memb_spec (cls i) nzi) as [Hm|Hm].
    + rewrite (prime_dcm_in_expected n m cls k_out k_in nzo nzi) by assumption.
      rewrite (prime_dcm_in_expected n n (fun i => i) _ _ nzo' nzi' (fun _ => 1) (expand n m cls x) Hid Ho' HF i Hin)
        by (apply node_in_iff; assumption).
      rewrite (expected_in_ext (expand n n (fun i => i) (expand n m cls x)) (expand n m cls x))
        by (auto using expand_id).
      rewrite expand_in. unfold Rdiv. ring.
    + rewrite !prime_dcm_in_none; try assumption; [ring|].
      rewrite node_in_iff by exact Hin. exact Hm.
Qed.

Lemma reduction_f_dcm i : (i < n)%nat ->
  dcm_f_out m c x (cls i) = dcm_f_out n (fun _ => 1) (expand n m cls x) i /\
  dcm_f_in m c x (cls i) = dcm_f_in n (fun _ => 1) (expand n m cls x) i.
Proof.
  intros Hin. pose proof (class_count_pos _ _ _ _ i H Hin) as Pc.
  assert (E1 : forall i, dcm_f_out n (fun _ => 1) (expand n m cls x) i =
     rsum n (fun j => pairmult (fun _ => 1) i j * (expand n m cls x (j + n)%nat / (1 + expand n m cls x i * expand n m cls x (j + n)%nat)))).
  { intros l. rewrite <- dcm_f_out_nf. ring. }
  assert (E2 : forall i, dcm_f_in n (fun _ => 1) (expand n m cls x) i =
     rsum n (fun j => pairmult (fun _ => 1) j i * (expand n m cls x j / (1 + expand n m cls x j * expand n m cls x (i + n)%nat)))).
  { intros l. rewrite <- dcm_f_in_nf. ring. }
  split; apply (Rmult_eq_reg_l (c (cls i))); try lra.
  - rewrite dcm_f_out_nf, E1.
    rewrite <- (class_row n m cls c (fun s => x (s + m)%nat / (1 + x (cls i) * x (s + m)%nat)) i H Hin).
    f_equal. apply rsum_ext. intros j Hj. rewrite pairmult_one, expand_in, expand_out by exact Hin.
    destruct (Nat.eqb i j); ring.
  - rewrite dcm_f_in_nf, E2.
    rewrite (rsum_ext m _ (fun q => pairmult c (cls i) q * (x q / (1 + x q * x (cls i + m)%nat))))
      by (intros; rewrite pairmult_sym; reflexivity).
    rewrite <- (class_row n m cls c (fun s => x s / (1 + x s * x (cls i + m)%nat)) i H Hin).
    f_equal. apply rsum_ext. intros j Hj. rewrite pairmult_sym, pairmult_one, expand_in, expand_out by exact Hj.
    destruct (Nat.eqb i j); ring.
Qed.

Lemma reduction_iterative_dcm i : (i < n)%nat ->
  iterative_dcm m k_out k_in c x (cls i) =
  iterative_dcm n (fun i => k_out (cls i)) (fun i => k_in (cls i)) (fun _ => 1) (expand n m cls x) i /\
  iterative_dcm m k_out k_in c x (cls i + m) =
  iterative_dcm n (fun i => k_out (cls i)) (fun i => k_in (cls i)) (fun _ => 1) (expand n m cls x) (i + n).
Proof.
  intros Hin. destruct (reduction_f_dcm i Hin) as [E1 E2]. unfold iterative_dcm.
  rewrite !ltb_plus_n, !plus_n_minus. rewrite (proj2 (Nat.ltb_lt i n) Hin).
  rewrite (proj2 (Nat.ltb_lt (cls i) m) (proj1 H i Hin)). rewrite E1, E2. split; reflexivity.
Qed.
End Red.

(** * Quasi-Newton diagonal *)
Lemma hessian_diag_dcm_iff n k_out k_in nzo nzi c x r :
  (r < 2 * n)%nat -> index_list n nzo -> index_list n nzi -> dcm_dom n nzo nzi x ->
  (partial (fun z => loglikelihood_prime_dcm n k_out k_in nzo nzi c z r) x r
     (loglikelihood_hessian_diag_dcm n k_out k_in nzo nzi c x r)
   <-> (c (node_of n r) - 1) * loglikelihood_hessian_diag_dcm n k_out k_in nzo nzi c x r = 0).
Proof.
  intros Hr Ho Hi Hx.
  pose proof (hessian_dcm_correct n k_out k_in nzo nzi c x r r Hr Hr Ho Hi Hx) as P.
  rewrite (hessian_diag_dcm_scaled n k_out k_in nzo nzi c x r Hx) in P.
  set (d := loglikelihood_hessian_diag_dcm n k_out k_in nzo nzi c x r) in *.
  split.
  - intros Q. pose proof (partial_unique _ _ _ _ _ P Q). lra.
  - intros E. replace d with (c (node_of n r) * d) by lra. exact P.
Qed.

Lemma hessian_diag_dcm_unreduced n k_out k_in nzo nzi x r :
  (r < 2 * n)%nat -> index_list n nzo -> index_list n nzi -> dcm_dom n nzo nzi x ->
  partial (fun z => loglikelihood_prime_dcm n k_out k_in nzo nzi (fun _ => 1) z r) x r
     (loglikelihood_hessian_diag_dcm n k_out k_in nzo nzi (fun _ => 1) x r).
Proof. intros Hr Ho Hi Hx. apply hessian_diag_dcm_iff; auto. ring. Qed.

(** * Witnesses *)

(** Two reciprocal nodes, one class. *)
Definition recip2 (i j : nat) : bool := negb (Nat.eqb i j).
Lemma recip2_facts :
  loopless 2 recip2 /\ classes 2 1 (fun _ => 0%nat) (fun _ => 2) /\
  (forall i, (i < 2)%nat -> 1 = deg 2 recip2 i) /\ (forall i, (i < 2)%nat -> 1 = indeg 2 recip2 i) /\
  nonzero_list 1 (fun _ => 1) [0%nat] /\ dcm_full 1 [0%nat] [0%nat] (fun _ => 1).
Proof.
  split; [intros i Hi; unfold recip2; rewrite Nat.eqb_refl; reflexivity|].
  split; [split; [intros; lia|intros q Hq; destruct q; [simpl; lra|lia]]|].
  split; [intros [|[|i]] Hi; [| |lia]; unfold deg; simpl; lra|].
  split; [intros [|[|i]] Hi; [| |lia]; unfold indeg; simpl; lra|].
  split.
  - split; [repeat constructor; simpl; tauto|]. intros i. simpl. split.
    + intros [<-|[]]. split; [lia|lra].
    + intros [Hi _]. lia.
  - repeat split; intros; try lra; exfalso; match goal with N : ~ _ |- _ => apply N; simpl; lia end.
Qed.

Lemma quasinewton_dcm_refuted :
  exists n m cls k_out k_in nzo nzi c x a r,
    loopless n a /\ classes n m cls c /\
    (forall i, (i < n)%nat -> k_out (cls i) = deg n a i) /\
    (forall i, (i < n)%nat -> k_in (cls i) = indeg n a i) /\
    nonzero_list m k_out nzo /\ nonzero_list m k_in nzi /\ dcm_full m nzo nzi x /\ (r < 2 * m)%nat /\
    ~ partial (fun z => loglikelihood_prime_dcm m k_out k_in nzo nzi c z r) x r
        (loglikelihood_hessian_diag_dcm m k_out k_in nzo nzi c x r).
Proof.
  destruct recip2_facts as [H1 [H2 [H3 [H4 [H5 H6]]]]].
  exists 2%nat, 1%nat, (fun _ => 0%nat), (fun _ => 1), (fun _ => 1), [0%nat], [0%nat], (fun _ => 2), (fun _ => 1), recip2, 0%nat.
  split; [exact H1|]. split; [exact H2|]. split; [exact H3|]. split; [exact H4|].
  split; [exact H5|]. split; [exact H5|]. split; [exact H6|]. split; [lia|].
  pose proof (nonzero_index _ _ _ H5) as I. intros P.
  apply (hessian_diag_dcm_iff 1 (fun _ => 1) (fun _ => 1) [0%nat] [0%nat] (fun _ => 2) (fun _ => 1) 0) in P;
    [|lia|exact I|exact I|apply H6].
  unfold loglikelihood_hessian_diag_dcm, lloop in P. simpl in P. lra.
Qed.

(** Two sources and two sinks, two links: classes (0,1) and (1,0). *)
Definition bip4 (i j : nat) : bool := orb (andb (Nat.eqb i 0) (Nat.eqb j 2)) (andb (Nat.eqb i 1) (Nat.eqb j 3)).
Definition bip4_cls (i : nat) : nat := if Nat.ltb i 2 then 1%nat else 0%nat.
Definition bip4_out (q : nat) : R := match q with O => 0 | _ => 1 end.
Definition bip4_in (q : nat) : R := match q with O => 1 | _ => 0 end.
Definition bip4_x (r : nat) : R := match r with O => 0 | 1%nat => 1 | 2%nat => 1 | _ => 0 end.

Lemma bip4_facts :
  loopless 4 bip4 /\ classes 4 2 bip4_cls (fun _ => 2) /\
  (forall i, (i < 4)%nat -> bip4_out (bip4_cls i) = deg 4 bip4 i) /\
  (forall i, (i < 4)%nat -> bip4_in (bip4_cls i) = indeg 4 bip4 i) /\
  nonzero_list 2 bip4_out [1%nat] /\ nonzero_list 2 bip4_in [0%nat] /\
  dcm_full 2 [1%nat] [0%nat] bip4_x.
Proof.
  split; [intros [|[|[|[|i]]]] Hi; try reflexivity; lia|].
  split; [split; [intros i Hi; unfold bip4_cls; destruct (Nat.ltb i 2); lia
    |intros [|[|q]] Hq; [simpl; lra|simpl; lra|lia]]|].
  split; [intros [|[|[|[|i]]]] Hi; try lia; unfold deg; simpl; lra|].
  split; [intros [|[|[|[|i]]]] Hi; try lia; unfold indeg; simpl; lra|].
  split; [|split].
  - split; [repeat constructor; simpl; tauto|]. intros [|[|i]]; simpl; (split;
      [intros [?|[]]; try lia; (split; [lia|lra])|intros [? ?]; try lia; try lra; auto]).
  - split; [repeat constructor; simpl; tauto|]. intros [|[|i]]; simpl; (split;
      [intros [?|[]]; try lia; (split; [lia|lra])|intros [? ?]; try lia; try lra; auto]).
  - repeat split.
    + intros i [<-|[]]; simpl; lra.
    + intros i [<-|[]]; simpl; lra.
    + intros [|[|i]] Hi N; simpl; [reflexivity| |lia]. exfalso. apply N. simpl. auto.
    + intros [|[|i]] Hi N; simpl; [|reflexivity|lia]. exfalso. apply N. simpl. auto.
Qed.

Lemma bip4_solution : forall i, (i < 4)%nat ->
  expected_out_degree_dcm 4 (expand 4 2 bip4_cls bip4_x) i = bip4_out (bip4_cls i) /\
  expected_in_degree_dcm 4 (expand 4 2 bip4_cls bip4_x) i = bip4_in (bip4_cls i).
Proof.
  intros i Hi. rewrite expected_out_degree_dcm_nf, expected_in_degree_dcm_nf by exact Hi.
  unfold p_dbcm.
  destruct i as [|[|[|[|i]]]]; try lia; simpl; unfold expand; simpl; split; field.
Qed.

Lemma bip4_fixed :
  iterative_dcm 2 bip4_out bip4_in (fun _ => 2) bip4_x 1 = Fin 1 /\
  iterative_dcm 2 bip4_out bip4_in (fun _ => 2) bip4_x 2 = Fin 1.
Proof.
  destruct bip4_facts as [_ [H [_ [_ [Ho [Hi Hx]]]]]].
  pose proof (proj2 (stationary_dcm_iff 4 2 bip4_cls bip4_out bip4_in [1%nat] [0%nat] (fun _ => 2) bip4_x H Ho Hi Hx)
    bip4_solution) as S.
  assert (K : forall q, (q < 2)%nat -> 0 <= bip4_out q /\ 0 <= bip4_in q).
  { intros [|[|q]] Hq; simpl; lra. }
  split.
  - apply (fixed_point_dcm_iff 2 bip4_out bip4_in [1%nat] [0%nat] (fun _ => 2) Ho Hi bip4_x 1 Hx); [lia|intros; lra|exact K| |apply S; lia].
    left. simpl. auto.
  - apply (fixed_point_dcm_iff 2 bip4_out bip4_in [1%nat] [0%nat] (fun _ => 2) Ho Hi bip4_x 2 Hx); [lia|intros; lra|exact K| |apply S; lia].
    right. exists 0%nat. simpl. auto.
Qed.

(** A single link: the node without out-links gets NaN from the fixed-point map. *)
Lemma iterative_dcm_nan :
  exists n k_out k_in nzo nzi x a r,
    loopless n a /\
    (forall i, (i < n)%nat -> k_out i = deg n a i) /\ (forall i, (i < n)%nat -> k_in i = indeg n a i) /\
    nonzero_list n k_out nzo /\ nonzero_list n k_in nzi /\ dcm_full n nzo nzi x /\ (r < 2 * n)%nat /\
    iterative_dcm n k_out k_in (fun _ => 1) x r = NaN.
Proof.
  exists 2%nat, (fun i => match i with O => 1 | _ => 0 end), (fun i => match i with O => 0 | _ => 1 end),
    [0%nat], [1%nat], (fun r => match r with O => 1 | 3%nat => 1 | _ => 0 end),
    (fun i j => andb (Nat.eqb i 0) (Nat.eqb j 1)), 1%nat.
  split; [intros [|[|i]] Hi; try reflexivity; lia|].
  split; [intros [|[|i]] Hi; try lia; unfold deg; simpl; lra|].
  split; [intros [|[|i]] Hi; try lia; unfold indeg; simpl; lra|].
  split; [|split; [|split; [|split; [lia|]]]].
  - split; [repeat constructor; simpl; tauto|]. intros [|[|i]]; simpl; (split;
      [intros [?|[]]; try lia; (split; [lia|lra])|intros [? ?]; try lia; try lra; auto]).
  - split; [repeat constructor; simpl; tauto|]. intros [|[|i]]; simpl; (split;
      [intros [?|[]]; try lia; (split; [lia|lra])|intros [? ?]; try lia; try lra; auto]).
  - repeat split.
    + intros i [<-|[]]; simpl; lra.
    + intros i [<-|[]]; simpl; lra.
    + intros [|[|i]] Hi N; simpl; [|reflexivity|lia]. exfalso. apply N. simpl. auto.
    + intros [|[|i]] Hi N; simpl; [reflexivity| |lia]. exfalso. apply N. simpl. auto.
  - apply iterative_dcm_zero; [lia|reflexivity|]. unfold dcm_f_out. rewrite !loop_S, loop_0. simpl. field.
Qed.
