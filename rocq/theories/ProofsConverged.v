(** What a converged run of the solver says about the constraints. *)
From Coq Require Import List Arith Bool Reals Lra Lia.
From Verif Require Import Base SpecGraph ModelCM ProofsGraph ProofsCM ModelECM SpecWeighted ProofsPairW ProofsECM ProofsMainECM ModelDCM SpecDirected ProofsList ProofsDCM
  ProofsMainDCM ModelDECM ProofsDECM ProofsMainDECM ModelCReMa SpecCReMa ProofsCReMa ProofsDirCReMa ModelSolver SpecSolver ProofsSolver.
Import ListNotations.
Local Open Scope R_scope.

Lemma converged_bound (M : Type) n (N : numerics (nat -> R) M R) P O x0 x :
  exact_numerics n N -> converged N P O x0 x ->
  exists f, p_fun P x = Some f /\ forall i, (i < n)%nat -> Rabs (f i) <= o_tol O.
Proof. intros HN (m & no & di & al & a & HS & Ha & Hg). exact (solver_exact_bound M n N P O x0 x m no di al a HN HS Ha Hg). Qed.

Lemma bound_mult a b t : 0 < a -> Rabs (- (a * b)) <= t -> Rabs b <= t / a.
Proof.
  intros Ha H. rewrite Rabs_Ropp, Rabs_mult, (Rabs_right a) in H by lra.
  apply Rmult_le_reg_l with a; [exact Ha|]. replace (a * (t / a)) with t by (field; lra). exact H.
Qed.

Lemma converged_cm (M : Type) n m cls c k (N : numerics (nat -> R) M R) P O x0 x :
  classes n m cls c -> exact_numerics m N ->
  (forall z f, p_fun P z = Some f -> forall q, (q < m)%nat -> f q = - loglikelihood_prime_cm m k c z q) ->
  converged N P O x0 x -> (forall q, (q < m)%nat -> 0 < x q) ->
  forall i, (i < n)%nat -> Rabs (k (cls i) - expected_degree_cm n (fun j => x (cls j)) i) <= x (cls i) * o_tol O / c (cls i).
Proof.
  intros H HN HP HC Hx i Hi. destruct (converged_bound M m N P O x0 x HN HC) as (f & Ef & B).
  assert (B0 := fun q Hq => eq_ind _ (fun v => Rabs v <= o_tol O) (B q Hq) _ (HP _ _ Ef q Hq)). clear B; rename B0 into B. assert (Hq : (cls i < m)%nat) by (apply H; exact Hi). specialize (B _ Hq). simpl in B.
  rewrite (prime_cm_expected n m cls c k x i H Hi Hx) in B.
  pose proof (class_count_pos _ _ _ _ i H Hi) as Pc. pose proof (Hx _ Hq) as Px.
  apply bound_mult in B; [|apply Rdiv_lt_0_compat; assumption].
  replace (x (cls i) * o_tol O / c (cls i)) with (o_tol O / (c (cls i) / x (cls i))) by (field; lra). exact B.
Qed.

Lemma converged_cm_exp (M : Type) n m cls c k (N : numerics (nat -> R) M R) P O x0 x :
  classes n m cls c -> exact_numerics m N ->
  (forall z f, p_fun P z = Some f -> forall q, (q < m)%nat -> f q = - loglikelihood_prime_cm_exp m k c z q) ->
  converged N P O x0 x ->
  forall i, (i < n)%nat -> Rabs (k (cls i) - expected_degree_cm n (fun j => exp (- x (cls j))) i) <= o_tol O / c (cls i).
Proof.
  intros H HN HP HC i Hi. destruct (converged_bound M m N P O x0 x HN HC) as (f & Ef & B).
  assert (B0 := fun q Hq => eq_ind _ (fun v => Rabs v <= o_tol O) (B q Hq) _ (HP _ _ Ef q Hq)). clear B; rename B0 into B. assert (Hq : (cls i < m)%nat) by (apply H; exact Hi). specialize (B _ Hq). simpl in B.
  rewrite prime_cm_exp_eq in B by exact Hq.
  rewrite (prime_cm_expected n m cls c k (fun j => exp (- x j)) i H Hi) in B by (intros; apply exp_pos).
  pose proof (class_count_pos _ _ _ _ i H Hi) as Pc. pose proof (exp_pos (- x (cls i))) as Px.
  apply bound_mult; [exact Pc|]. rewrite Rabs_Ropp. eapply Rle_trans; [|exact B]. right. f_equal. field. lra.
Qed.

Lemma converged_ecm (M : Type) n k s (N : numerics (nat -> R) M R) P O x0 x :
  exact_numerics (2 * n) N ->
  (forall z f, p_fun P z = Some f -> forall q, (q < 2 * n)%nat -> f q = - loglikelihood_prime_ecm n k s z q) ->
  converged N P O x0 x -> ecm_dom n x ->
  forall r, (r < 2 * n)%nat ->
    Rabs ((if Nat.ltb r n then k r else s (r - n)%nat) - expected_ecm n x r) <= x r * o_tol O.
Proof.
  intros HN HP HC HD r Hr. destruct (converged_bound M (2 * n) N P O x0 x HN HC) as (f & Ef & B).
  assert (B0 := fun q Hq => eq_ind _ (fun v => Rabs v <= o_tol O) (B q Hq) _ (HP _ _ Ef q Hq)). clear B; rename B0 into B. specialize (B _ Hr). cbv beta in B.
  rewrite prime_ecm_expected in B by assumption.
  assert (Px : 0 < x r).
  { destruct (Nat.ltb_spec r n) as [L|L]; [apply (proj1 HD r L)|].
    replace r with (r - n + n)%nat by lia. apply (proj1 HD (r - n)%nat). lia. }
  unfold Rdiv in B. rewrite Rmult_comm in B. apply bound_mult in B; [|apply Rinv_0_lt_compat; exact Px].
  replace (x r * o_tol O) with (o_tol O / / x r) by (field; lra). exact B.
Qed.

Lemma converged_ecm_exp (M : Type) n k s (N : numerics (nat -> R) M R) P O x0 x :
  exact_numerics (2 * n) N ->
  (forall z f, p_fun P z = Some f -> forall q, (q < 2 * n)%nat -> f q = - loglikelihood_prime_ecm_exp n k s z q) ->
  converged N P O x0 x -> ecm_exp_dom n x ->
  forall r, (r < 2 * n)%nat ->
    Rabs ((if Nat.ltb r n then k r else s (r - n)%nat) - expected_ecm n (fun r => exp (- x r)) r) <= o_tol O.
Proof.
  intros HN HP HC HD r Hr. destruct (converged_bound M (2 * n) N P O x0 x HN HC) as (f & Ef & B).
  assert (B0 := fun q Hq => eq_ind _ (fun v => Rabs v <= o_tol O) (B q Hq) _ (HP _ _ Ef q Hq)). clear B; rename B0 into B. specialize (B _ Hr). cbv beta in B.
  rewrite prime_ecm_exp_eq in B by assumption.
  rewrite prime_ecm_expected in B by (try assumption; apply exp_dom; exact HD).
  eapply Rle_trans; [|exact B]. right. f_equal. pose proof (exp_pos (- x r)). field. lra.
Qed.

Lemma converged_dcm (M : Type) n m cls k_out k_in nzo nzi c (N : numerics (nat -> R) M R) P O x0 x :
  classes n m cls c -> nonzero_list m k_out nzo -> nonzero_list m k_in nzi -> exact_numerics (2 * m) N ->
  (forall z f, p_fun P z = Some f -> forall q, (q < 2 * m)%nat -> f q = - loglikelihood_prime_dcm m k_out k_in nzo nzi c z q) ->
  converged N P O x0 x -> dcm_full m nzo nzi x ->
  forall i, (i < n)%nat ->
    Rabs (k_out (cls i) - expected_out_degree_dcm n (expand n m cls x) i) <= x (cls i) * o_tol O / c (cls i) /\
    Rabs (k_in (cls i) - expected_in_degree_dcm n (expand n m cls x) i) <= x (cls i + m)%nat * o_tol O / c (cls i).
Proof.
  intros H Ho Hi HN HP HC Hx i Hin. destruct (converged_bound M (2 * m) N P O x0 x HN HC) as (f & Ef & B).
  assert (B0 := fun q Hq => eq_ind _ (fun v => Rabs v <= o_tol O) (B q Hq) _ (HP _ _ Ef q Hq)). clear B; rename B0 into B. assert (Hq : (cls i < m)%nat) by (apply H; exact Hin).
  pose proof (class_count_pos _ _ _ _ i H Hin) as Pc. split.
  - destruct (memb_spec (cls i) nzo) as [Hm|Hm].
    + specialize (B (cls i) ltac:(lia)). cbv beta in B.
      rewrite (prime_dcm_out_expected n m cls k_out k_in nzo nzi c x H Hi Hx i Hin Hm) in B.
      pose proof (proj1 (proj1 Hx) _ Hm) as Px. apply bound_mult in B; [|apply Rdiv_lt_0_compat; assumption].
      replace (x (cls i) * o_tol O / c (cls i)) with (o_tol O / (c (cls i) / x (cls i))) by (field; lra). exact B.
    + rewrite (nonzero_out m k_out nzo (cls i) Ho Hq Hm), expected_out_expand by exact Hin.
      rewrite (proj1 (proj2 Hx) _ Hq Hm).
      rewrite rsum_zero by (intros j _; destruct (Nat.eqb i j); unfold Rdiv; ring).
      rewrite Rminus_0_r, Rabs_R0. unfold Rdiv. rewrite !Rmult_0_l. lra.
  - destruct (memb_spec (cls i) nzi) as [Hm|Hm].
    + specialize (B (cls i + m)%nat ltac:(lia)). cbv beta in B.
      rewrite (prime_dcm_in_expected n m cls k_out k_in nzo nzi c x H Ho Hx i Hin Hm) in B.
      pose proof (proj2 (proj1 Hx) _ Hm) as Px. apply bound_mult in B; [|apply Rdiv_lt_0_compat; assumption].
      replace (x (cls i + m)%nat * o_tol O / c (cls i)) with (o_tol O / (c (cls i) / x (cls i + m)%nat)) by (field; lra). exact B.
    + rewrite (nonzero_out m k_in nzi (cls i) Hi Hq Hm), expected_in_expand by exact Hin.
      rewrite (proj2 (proj2 Hx) _ Hq Hm).
      rewrite rsum_zero by (intros j _; destruct (Nat.eqb i j); unfold Rdiv; ring).
      rewrite Rminus_0_r, Rabs_R0. unfold Rdiv. rewrite !Rmult_0_l. lra.
Qed.

Lemma converged_dcm_exp (M : Type) n m cls k_out k_in nzo nzi c (N : numerics (nat -> R) M R) P O theta0 theta x :
  classes n m cls c -> nonzero_list m k_out nzo -> nonzero_list m k_in nzi -> exact_numerics (2 * m) N -> 0 <= o_tol O ->
  (forall z f, p_fun P z = Some f -> forall q, (q < 2 * m)%nat -> f q = - loglikelihood_prime_dcm_exp m k_out k_in nzo nzi c z q) ->
  converged N P O theta0 theta -> dcm_full m nzo nzi x ->
  (forall i, In i nzo -> x i = exp (- theta i)) ->
  (forall j, In j nzi -> x (j + m)%nat = exp (- theta (j + m)%nat)) ->
  forall i, (i < n)%nat ->
    Rabs (k_out (cls i) - expected_out_degree_dcm n (expand n m cls x) i) <= o_tol O / c (cls i) /\
    Rabs (k_in (cls i) - expected_in_degree_dcm n (expand n m cls x) i) <= o_tol O / c (cls i).
Proof.
  intros H Ho Hi HN HT HP HC Hx Eo Ei i Hin. destruct (converged_bound M (2 * m) N P O theta0 theta HN HC) as (f & Ef & B).
  assert (B0 := fun q Hq => eq_ind _ (fun v => Rabs v <= o_tol O) (B q Hq) _ (HP _ _ Ef q Hq)). clear B; rename B0 into B. assert (Hq : (cls i < m)%nat) by (apply H; exact Hin).
  pose proof (class_count_pos _ _ _ _ i H Hin) as Pc.
  assert (PT : 0 <= o_tol O / c (cls i)) by (apply Rmult_le_pos; [exact HT|left; apply Rinv_0_lt_compat; exact Pc]).
  split.
  - destruct (memb_spec (cls i) nzo) as [Hm|Hm].
    + specialize (B (cls i) ltac:(lia)). cbv beta in B.
      rewrite (prime_dcm_exp_eq m k_out k_in nzo nzi c theta x) in B by (try assumption; lia).
      rewrite (prime_dcm_out_expected n m cls k_out k_in nzo nzi c x H Hi Hx i Hin Hm) in B.
      pose proof (proj1 (proj1 Hx) _ Hm) as Px. apply bound_mult; [exact Pc|]. rewrite Rabs_Ropp.
      eapply Rle_trans; [|exact B]. right. f_equal. field. lra.
    + rewrite (nonzero_out m k_out nzo (cls i) Ho Hq Hm), expected_out_expand by exact Hin.
      rewrite (proj1 (proj2 Hx) _ Hq Hm).
      rewrite rsum_zero by (intros j _; destruct (Nat.eqb i j); unfold Rdiv; ring).
      rewrite Rminus_0_r, Rabs_R0. exact PT.
  - destruct (memb_spec (cls i) nzi) as [Hm|Hm].
    + specialize (B (cls i + m)%nat ltac:(lia)). cbv beta in B.
      rewrite (prime_dcm_exp_eq m k_out k_in nzo nzi c theta x) in B by (try assumption; lia).
      rewrite (prime_dcm_in_expected n m cls k_out k_in nzo nzi c x H Ho Hx i Hin Hm) in B.
      pose proof (proj2 (proj1 Hx) _ Hm) as Px. apply bound_mult; [exact Pc|]. rewrite Rabs_Ropp.
      eapply Rle_trans; [|exact B]. right. f_equal. field. lra.
    + rewrite (nonzero_out m k_in nzi (cls i) Hi Hq Hm), expected_in_expand by exact Hin.
      rewrite (proj2 (proj2 Hx) _ Hq Hm).
      rewrite rsum_zero by (intros j _; destruct (Nat.eqb i j); unfold Rdiv; ring).
      rewrite Rminus_0_r, Rabs_R0. exact PT.
Qed.

Lemma converged_decm (M : Type) n ko ki so si (N : numerics (nat -> R) M R) P O x0 x :
  exact_numerics (4 * n) N ->
  (forall z f, p_fun P z = Some f -> forall q, (q < 4 * n)%nat -> f q = - loglikelihood_prime_decm n ko ki so si z q) ->
  converged N P O x0 x -> decm_dom n x ->
  forall r, (r < 4 * n)%nat -> 0 < x r ->
    Rabs (decm_constraint n ko ki so si r - expected_decm n x r) <= x r * o_tol O.
Proof.
  intros HN HP HC HD r Hr Px. destruct (converged_bound M (4 * n) N P O x0 x HN HC) as (f & Ef & B).
  assert (B0 := fun q Hq => eq_ind _ (fun v => Rabs v <= o_tol O) (B q Hq) _ (HP _ _ Ef q Hq)). clear B; rename B0 into B. specialize (B _ Hr). cbv beta in B.
  rewrite (prime_decm_expected n x HD ko ki so si r Hr Px) in B.
  unfold Rdiv in B. rewrite Rmult_comm in B. apply bound_mult in B; [|apply Rinv_0_lt_compat; exact Px].
  replace (x r * o_tol O) with (o_tol O / / x r) by (field; lra). exact B.
Qed.

Lemma converged_decm_exp (M : Type) n ko ki so si (N : numerics (nat -> R) M R) P O x0 x :
  exact_numerics (4 * n) N ->
  (forall z f, p_fun P z = Some f -> forall q, (q < 4 * n)%nat -> f q = - loglikelihood_prime_decm_exp n ko ki so si z q) ->
  converged N P O x0 x -> decm_exp_dom n x ->
  forall r, (r < 4 * n)%nat ->
    Rabs (decm_constraint n ko ki so si r - expected_decm n (fun r => exp (- x r)) r) <= o_tol O.
Proof.
  intros HN HP HC HD r Hr. destruct (converged_bound M (4 * n) N P O x0 x HN HC) as (f & Ef & B).
  assert (B0 := fun q Hq => eq_ind _ (fun v => Rabs v <= o_tol O) (B q Hq) _ (HP _ _ Ef q Hq)). clear B; rename B0 into B. specialize (B _ Hr). cbv beta in B.
  rewrite prime_decm_exp_eq in B by assumption.
  pose proof (exp_pos (- x r)) as Px.
  rewrite (prime_decm_expected n (fun r => exp (- x r)) (decm_exp_dom_exp n x HD) ko ki so si r Hr Px) in B.
  eapply Rle_trans; [|exact B]. right. f_equal. field. lra.
Qed.

Lemma converged_crema (M : Type) n s es (N : numerics (nat -> R) M R) P O x0 x :
  exact_numerics n N ->
  (forall z, p_fun P z = option_map (fun F q => - F q) (loglikelihood_prime_crema_undirected n s es z)) ->
  converged N P O x0 x -> crema_dom es x ->
  exists E, expected_strength_crema_undirected es x = Some E /\
    forall i, (i < n)%nat -> Rabs (s i - E i) <= o_tol O.
Proof.
  intros HN HP HC HD. destruct (converged_bound M n N P O x0 x HN HC) as (f & Ef & B).
  destruct (prime_crema_some n s es x HD) as (F & EF & OF). destruct (expected_crema_some es x HD) as (E & EE & OE).
  rewrite HP, EF in Ef. injection Ef as <-. exists E. split; [exact EE|]. intros i Hi. specialize (B i Hi). cbv beta in B.
  rewrite OF, (proj2 (Nat.ltb_lt i n) Hi) in B. rewrite OE. eapply Rle_trans; [|exact B]. right. f_equal. ring.
Qed.

Lemma converged_crema_directed (M : Type) n s_out s_in es nzo nzi (N : numerics (nat -> R) M R) P O x0 x :
  nonzero_list n s_out nzo -> nonzero_list n s_in nzi -> pairs_below n es -> exact_numerics (2 * n) N ->
  (forall z, p_fun P z = option_map (fun F q => - F q) (loglikelihood_prime_crema_directed n s_out s_in es nzo nzi z)) ->
  converged N P O x0 x -> crema_dir_dom n es x ->
  exists EO EI, expected_out_strength_crema_directed n es x = Some EO /\
    expected_in_strength_crema_directed n es x = Some EI /\
    forall i, (i < n)%nat -> Rabs (s_out i - EO i) <= o_tol O /\ Rabs (s_in i - EI i) <= o_tol O.
Proof.
  intros Ho Hi HB HN HP HC HD. destruct (converged_bound M (2 * n) N P O x0 x HN HC) as (f & Ef & B).
  destruct (prime_crema_dir_entries n s_out s_in es nzo nzi x Ho Hi HB HD) as (F & EO & EI & EF & E1 & E2 & OF).
  rewrite HP, EF in Ef. injection Ef as <-. exists EO, EI. split; [exact E1|]. split; [exact E2|]. intros i Hin.
  destruct (OF i Hin) as [A1 A2]. split.
  - specialize (B i ltac:(lia)). cbv beta in B. rewrite A1 in B. eapply Rle_trans; [|exact B]. right. f_equal. ring.
  - specialize (B (i + n)%nat ltac:(lia)). cbv beta in B. rewrite A2 in B. eapply Rle_trans; [|exact B]. right. f_equal. ring.
Qed.

(** * Fixed-point runs *)
Lemma fixed_point_step_converged (M : Type) n (N : numerics (nat -> R) M R) P O x0 x :
  exact_numerics n N -> exact_vectors N -> o_method O = FixedPoint -> o_linsearch O = false ->
  step_converged N P O x0 x ->
  exists x_old g, p_fun P x_old = Some g /\
    forall i, x i = g i /\ ((i < n)%nat -> Rabs (g i - x_old i) <= o_eps O).
Proof.
  intros [HN HG] (V1 & V2 & V3 & V4 & V5) HM HL (m & no & di & al & b & HS & Hm & Hb & Hg).
  destruct (solver_fixed_point_diff _ _ _ N P O x0 x m no di al HM HL HS Hm) as (x_old & g & Eg & Ex & Ed).
  rewrite Hb in Ed. injection Ed as ->. exists x_old, g. split; [exact Eg|].
  assert (EX : forall i, x i = g i) by (intros i; rewrite Ex, V1, V3, V5, V2; ring).
  intros i. split; [apply EX|]. intros Hi.
  assert (HB : vnorm N (vnan_fix N (vsub N x x_old)) <= o_eps O).
  { destruct (Rle_lt_dec (vnorm N (vnan_fix N (vsub N x x_old))) (o_eps O)) as [L|L]; [exact L|].
    assert (gtb N (vnorm N (vnan_fix N (vsub N x x_old))) (o_eps O) = true) by (apply HG; lra). congruence. }
  rewrite HN in HB. pose proof (norm_bound n (vnan_fix N (vsub N x x_old)) i Hi) as NB. rewrite V4, V2, EX in NB. lra.
Qed.
