(** Expectation and standard deviation of the two-node motifs under the DBCM. *)
From Coq Require Import Reals List Arith Bool ZArith Lia Lra.
From Verif Require Import Base SpecGraph SpecEnsemble ProofsEnsemble ModelNetwork SpecNetwork ProofsUnique ProofsNetwork ModelMotifs SpecMotifs ProofsDyads.
Local Open Scope R_scope.
Import ListNotations.

Lemma dsum_usum n u : dsum n u = usum n (fun i j => u i j + u j i).
Proof.
  assert (E : dsum n u + dsum n u = 2 * usum n (fun i j => u i j + u j i)).
  { rewrite <- (rsum_offdiag_sym n (fun i j => u i j + u j i)) by (intros; ring). rewrite <- (dsum_swap n u) at 2.
    rewrite <- (dsum_plus n u (fun i j => u j i)). reflexivity. }
  lra.
Qed.
Lemma dsum_diag n u : dsum n u = rsum n (fun i => rsum n (fun j => u i j) - u i i).
Proof.
  apply rsum_ext. intros i Hi. rewrite (rsum_pull n i (fun j => u i j) Hi).
  transitivity (rsum n (fun j => if Nat.eqb j i then 0 else u i j)); [apply rsum_ext; intros; rewrite Nat.eqb_sym; reflexivity|ring].
Qed.
Lemma loops_dsum n u : loop n 0 (fun i t => loop n t (fun j t => if negb (Nat.eqb i j) then t + u i j else t)) = dsum n u.
Proof.
  unfold dsum.
  rewrite (loop_add n 0 _ (fun i => rsum n (fun j => if Nat.eqb i j then 0 else u i j))); [ring|].
  intros i t _. rewrite (loop_add n t _ (fun j => if Nat.eqb i j then 0 else u i j)); [reflexivity|].
  intros j s _. destruct (Nat.eqb i j); simpl; ring.
Qed.
Lemma dsum_nonneg n u : (forall i j, (i < n)%nat -> (j < n)%nat -> i <> j -> 0 <= u i j) -> 0 <= dsum n u.
Proof.
  intros HU. apply rsum_nonneg. intros i Hi. apply rsum_nonneg. intros j Hj. destruct (Nat.eqb_spec i j); [lra|auto].
Qed.
Lemma dsum_pos n u : (2 <= n)%nat -> (forall i j, (i < n)%nat -> (j < n)%nat -> i <> j -> 0 < u i j) -> 0 < dsum n u.
Proof.
  intros Hn HU. apply (rsum_pos n _ 0%nat); [|lia|].
  - intros i Hi. apply rsum_nonneg. intros j Hj. destruct (Nat.eqb_spec i j); [lra|apply Rlt_le; auto].
  - apply (rsum_pos n _ 1%nat); [|lia|simpl; apply HU; lia]. intros j Hj. destruct (Nat.eqb_spec 0 j); [lra|apply Rlt_le; auto; apply HU; lia].
Qed.

(** * Counts of the graphs of the ensemble *)
Lemma as_matrix_of n g : matrix_of n g (as_matrix g). Proof. intros i j _ _. reflexivity. Qed.
Lemma digraph_loopless n g : In g (all_digraphs n) -> loopless n g.
Proof. intros HG i Hi. apply (graphs_on_absent (dpairs n)); [exact HG|]. rewrite in_dpairs. lia. Qed.
Lemma count_2_dsum n g : loopless n g -> INR (count_2motif_2 n (as_matrix g)) = dsum n (fun i j => ind (g i j) * ind (g j i)).
Proof.
  intros HL. rewrite (count_2_meaning n g _ (as_matrix_of n g) HL), mult_INR, INR_pairs_with, dsum_usum. replace (INR 2) with 2 by (simpl; ring).
  replace (2 * usum n (fun i j => ind (full_dyad g i j))) with (usum n (fun i j => ind (full_dyad g i j)) + usum n (fun i j => ind (full_dyad g i j))) by ring.
  rewrite <- usum_plus. apply usum_ext. intros i j _ _. unfold full_dyad. destruct (g i j), (g j i); simpl; ring.
Qed.
Lemma count_1_dsum n g : loopless n g -> INR (count_2motif_1 n (as_matrix g)) = dsum n (fun i j => ind (g i j) * (1 - ind (g j i))).
Proof.
  intros HL. rewrite (count_1_meaning n g _ (as_matrix_of n g) HL), INR_pairs_with, dsum_usum.
  apply usum_ext. intros i j _ _. unfold single_dyad. destruct (g i j), (g j i); simpl; ring.
Qed.
Lemma count_0_dsum n g : loopless n g -> exists c, count_2motif_0 KNdarray n (as_matrix g) = Some c /\
  IZR c = dsum n (fun i j => (1 - ind (g i j)) * (1 - ind (g j i))).
Proof.
  intros HL. eexists. split; [apply (count_0_meaning n g _ _ (as_matrix_of n g) HL); auto|].
  rewrite <- INR_IZR_INZ, mult_INR, INR_pairs_with, dsum_usum. replace (INR 2) with 2 by (simpl; ring).
  replace (2 * usum n (fun i j => ind (empty_dyad g i j))) with (usum n (fun i j => ind (empty_dyad g i j)) + usum n (fun i j => ind (empty_dyad g i j))) by ring.
  rewrite <- usum_plus. apply usum_ext. intros i j _ _. unfold empty_dyad. destruct (g i j), (g j i); simpl; ring.
Qed.
(** Number of ordered empty pairs of a graph, as returned on its matrix. *)
Definition zeros_of (n : nat) (g : nat -> nat -> bool) : R :=
  match count_2motif_0 KNdarray n (as_matrix g) with Some c => IZR c | None => 0 end.
Lemma zeros_dsum n g : loopless n g -> zeros_of n g = dsum n (fun i j => (1 - ind (g i j)) * (1 - ind (g j i))).
Proof. intros HL. unfold zeros_of. destruct (count_0_dsum n g HL) as (c & -> & E). exact E. Qed.

(** * The link probabilities *)
Section Point.
Variables (n : nat) (sol : nat -> R).
Hypothesis HS : forall r, (r < 2 * n)%nat -> 0 <= sol r.
Local Notation P := (p_dbcm (fun i => sol i) (fun i => sol (n + i)%nat)).
Lemma den_pos i j : (i < n)%nat -> (j < n)%nat -> 0 < 1 + sol i * sol (n + j)%nat.
Proof. intros Hi Hj. assert (0 <= sol i * sol (n + j)%nat) by (apply Rmult_le_pos; apply HS; lia). lra. Qed.
Lemma link_range i j : (i < n)%nat -> (j < n)%nat -> 0 <= P i j < 1.
Proof.
  intros Hi Hj. pose proof (den_pos i j Hi Hj) as HD. unfold p_dbcm.
  assert (HN : 0 <= sol i * sol (n + j)%nat) by (apply Rmult_le_pos; apply HS; lia). split.
  - apply Rmult_le_pos; [exact HN|apply Rlt_le, Rinv_0_lt_compat; exact HD].
  - apply (Rmult_lt_reg_r (1 + sol i * sol (n + j)%nat)); [exact HD|]. unfold Rdiv. rewrite Rmult_assoc, Rinv_l by lra. lra.
Qed.

Lemma expected_2_dsum : expected_dcm_2motif_2 n sol = dsum n (fun i j => P i j * P j i).
Proof.
  unfold expected_dcm_2motif_2. rewrite dsum_diag.
  rewrite (loop_add n 0 _ (fun i => rsum n (fun j => P i j * P j i) - P i i * P i i)); [ring|].
  intros i er Hi. rewrite (loop_add n 0 _ (fun j => sol (n + j)%nat * sol j / ((1 + sol (n + i)%nat * sol j) * (1 + sol i * sol (n + j)%nat)))) by reflexivity.
  f_equal. rewrite Rplus_0_l, Rmult_minus_distr_l, <- rsum_scal_l. f_equal.
  - apply rsum_ext. intros j Hj. unfold p_dbcm. pose proof (den_pos i j Hi Hj). pose proof (den_pos j i Hj Hi).
    rewrite (Rmult_comm (sol (n + i)%nat) (sol j)). field. split; lra.
  - unfold p_dbcm. pose proof (den_pos i i Hi Hi). rewrite (Rmult_comm (sol (n + i)%nat) (sol i)). field. lra.
Qed.
Lemma expected_1_dsum : expected_dcm_2motif_1 n sol = dsum n (fun i j => P i j * (1 - P j i)).
Proof.
  rewrite <- dsum_swap. unfold expected_dcm_2motif_1. rewrite dsum_diag.
  rewrite (loop_add n 0 _ (fun i => rsum n (fun j => P j i * (1 - P i j)) - P i i * (1 - P i i))); [ring|].
  intros i er Hi. rewrite (loop_add n 0 _ (fun j => sol j * sol (n + i)%nat / ((1 + sol (n + i)%nat * sol j) * (1 + sol i * sol (n + j)%nat)))) by reflexivity.
  f_equal. rewrite Rplus_0_l. f_equal.
  - apply rsum_ext. intros j Hj. unfold p_dbcm. pose proof (den_pos i j Hi Hj). pose proof (den_pos j i Hj Hi).
    rewrite (Rmult_comm (sol (n + i)%nat) (sol j)). field. split; lra.
  - unfold p_dbcm. pose proof (den_pos i i Hi Hi). rewrite (Rmult_comm (sol (n + i)%nat) (sol i)). field. lra.
Qed.
Lemma expected_0_dsum : expected_dcm_2motif_0 n sol = dsum n (fun i j => (1 - P i j) * (1 - P j i)).
Proof.
  unfold expected_dcm_2motif_0. rewrite dsum_diag.
  rewrite (loop_add n 0 _ (fun i => rsum n (fun j => (1 - P i j) * (1 - P j i)) - (1 - P i i) * (1 - P i i))); [ring|].
  intros i er Hi. rewrite (loop_add n 0 _ (fun j => 1 / ((1 + sol (n + i)%nat * sol j) * (1 + sol i * sol (n + j)%nat)))) by reflexivity.
  f_equal. rewrite Rplus_0_l. f_equal.
  - apply rsum_ext. intros j Hj. unfold p_dbcm. pose proof (den_pos i j Hi Hj). pose proof (den_pos j i Hj Hi).
    rewrite (Rmult_comm (sol (n + i)%nat) (sol j)). field. split; lra.
  - unfold p_dbcm. pose proof (den_pos i i Hi Hi). rewrite (Rmult_comm (sol (n + i)%nat) (sol i)). field. lra.
Qed.
Lemma std_2_dsum : std_dcm_2motif_2 n sol = sqrt (dsum n (fun i j => 2 * P i j * P j i * (1 - P i j * P j i))).
Proof. unfold std_dcm_2motif_2. f_equal. rewrite <- loops_dsum. reflexivity. Qed.
Lemma std_1_dsum : std_dcm_2motif_1 n sol = sqrt (dsum n (fun i j => P i j * (1 - P j i) * (1 - P i j * (1 - P j i) - P j i * (1 - P i j)))).
Proof. unfold std_dcm_2motif_1. f_equal. rewrite <- loops_dsum. reflexivity. Qed.
Lemma std_0_dsum : std_dcm_2motif_0 n sol = sqrt (dsum n (fun i j => 2 * (1 - P i j) * (1 - P j i) * (1 - (1 - P i j) * (1 - P j i)))).
Proof. unfold std_dcm_2motif_0. f_equal. rewrite <- loops_dsum. reflexivity. Qed.
End Point.

Lemma mean_on_digraphs n p f g : (forall a, loopless n a -> f a = g a) -> mean_directed n p f = mean_directed n p g.
Proof. intros E. unfold mean_directed. apply lsum_ext. intros a Ha. rewrite E by (apply digraph_loopless; exact Ha). reflexivity. Qed.
Lemma var_on_digraphs n p f g : (forall a, loopless n a -> f a = g a) -> var_directed n p f = var_directed n p g.
Proof.
  intros E. unfold var_directed. rewrite (mean_on_digraphs n p f g E). apply mean_on_digraphs. intros a Ha. rewrite E by exact Ha. reflexivity.
Qed.

Lemma pair_mean_values n p i j : (i < n)%nat -> (j < n)%nat -> i <> j ->
  mean_directed n p (fun a => ind (a i j) * ind (a j i)) = p i j * p j i /\
  mean_directed n p (fun a => ind (a i j) * (1 - ind (a j i))) = p i j * (1 - p j i) /\
  mean_directed n p (fun a => (1 - ind (a i j)) * (1 - ind (a j i))) = (1 - p i j) * (1 - p j i).
Proof.
  intros Hi Hj NE.
  split; [|split].
  - rewrite (mean_pair n p i j ind ind Hi Hj NE). simpl. ring.
  - rewrite (mean_pair n p i j ind (fun b => 1 - ind b) Hi Hj NE). simpl. ring.
  - rewrite (mean_pair n p i j (fun b => 1 - ind b) (fun b => 1 - ind b) Hi Hj NE). simpl. ring.
Qed.

Lemma ind_sq b : ind b * ind b = ind b. Proof. destruct b; simpl; ring. Qed.
Lemma nind_sq b : (1 - ind b) * (1 - ind b) = 1 - ind b. Proof. destruct b; simpl; ring. Qed.
Lemma ind_nind b : ind b * (1 - ind b) = 0. Proof. destruct b; simpl; ring. Qed.

Lemma moments_2 n sol : (forall r, (r < 2 * n)%nat -> 0 <= sol r) ->
  let p := p_dbcm (fun i => sol i) (fun i => sol (n + i)%nat) in
  expected_dcm_2motif_2 n sol = mean_directed n p (fun g => INR (count_2motif_2 n (as_matrix g))) /\
  (std_dcm_2motif_2 n sol) ^ 2 = var_directed n p (fun g => INR (count_2motif_2 n (as_matrix g))).
Proof.
  intros HS p. split.
  - rewrite (expected_2_dsum n sol HS), (mean_on_digraphs n p _ _ (fun a Ha => count_2_dsum n a Ha)).
    rewrite (mean_dsum n p (fun a i j => ind (a i j) * ind (a j i))). apply dsum_ext. intros i j Hi Hj NE. symmetry. apply pair_mean_values; assumption.
  - rewrite std_2_dsum, (var_on_digraphs n p _ _ (fun a Ha => count_2_dsum n a Ha)), (variance_dsum n p ind ind).
    rewrite pow2_sqrt.
    + apply dsum_ext. intros i j Hi Hj NE.
      rewrite (mean_directed_ext n p (fun a => ind (a i j) * ind (a j i) * (ind (a i j) * ind (a j i))) (fun a => ind (a i j) * ind (a j i)))
        by (intros a; rewrite <- (ind_sq (a i j)), <- (ind_sq (a j i)) at 3; destruct (a i j), (a j i); simpl; ring).
      rewrite (mean_directed_ext n p (fun a => ind (a i j) * ind (a j i) * (ind (a j i) * ind (a i j))) (fun a => ind (a i j) * ind (a j i)))
        by (intros a; destruct (a i j), (a j i); simpl; ring).
      rewrite (proj1 (pair_mean_values n p i j Hi Hj NE)), (proj1 (pair_mean_values n p j i Hj Hi (not_eq_sym NE))). fold p. ring.
    + apply dsum_nonneg. intros i j Hi Hj _. pose proof (link_range n sol HS i j Hi Hj) as H1. pose proof (link_range n sol HS j i Hj Hi) as H2.
      fold p in H1, H2 |- *. clearbody p. assert (0 <= p i j * p j i <= 1) by (split; nra). apply Rmult_le_pos; [|lra]. repeat apply Rmult_le_pos; lra.
Qed.
Lemma moments_1 n sol : (forall r, (r < 2 * n)%nat -> 0 <= sol r) ->
  let p := p_dbcm (fun i => sol i) (fun i => sol (n + i)%nat) in
  expected_dcm_2motif_1 n sol = mean_directed n p (fun g => INR (count_2motif_1 n (as_matrix g))) /\
  (std_dcm_2motif_1 n sol) ^ 2 = var_directed n p (fun g => INR (count_2motif_1 n (as_matrix g))).
Proof.
  intros HS p. split.
  - rewrite (expected_1_dsum n sol HS), (mean_on_digraphs n p _ _ (fun a Ha => count_1_dsum n a Ha)).
    rewrite (mean_dsum n p (fun a i j => ind (a i j) * (1 - ind (a j i)))). apply dsum_ext. intros i j Hi Hj NE. symmetry. apply pair_mean_values; assumption.
  - rewrite std_1_dsum, (var_on_digraphs n p _ _ (fun a Ha => count_1_dsum n a Ha)), (variance_dsum n p ind (fun b => 1 - ind b)).
    rewrite pow2_sqrt.
    + apply dsum_ext. intros i j Hi Hj NE.
      rewrite (mean_directed_ext n p (fun a => ind (a i j) * (1 - ind (a j i)) * (ind (a i j) * (1 - ind (a j i)))) (fun a => ind (a i j) * (1 - ind (a j i))))
        by (intros a; destruct (a i j), (a j i); simpl; ring).
      rewrite (mean_directed_ext n p (fun a => ind (a i j) * (1 - ind (a j i)) * (ind (a j i) * (1 - ind (a i j)))) (fun a => 0 * (ind (a i j) * ind (a j i))))
        by (intros a; destruct (a i j), (a j i); simpl; ring).
      rewrite mean_directed_scal, (proj1 (proj2 (pair_mean_values n p i j Hi Hj NE))), (proj1 (proj2 (pair_mean_values n p j i Hj Hi (not_eq_sym NE)))). fold p. ring.
    + apply dsum_nonneg. intros i j Hi Hj _. pose proof (link_range n sol HS i j Hi Hj) as H1. pose proof (link_range n sol HS j i Hj Hi) as H2.
      fold p in H1, H2 |- *. clearbody p. replace (1 - p i j * (1 - p j i) - p j i * (1 - p i j)) with ((1 - p i j) * (1 - p j i) + p i j * p j i) by ring.
      apply Rmult_le_pos; [apply Rmult_le_pos; lra|]. apply Rplus_le_le_0_compat; apply Rmult_le_pos; lra.
Qed.
Lemma moments_0 n sol : (forall r, (r < 2 * n)%nat -> 0 <= sol r) ->
  let p := p_dbcm (fun i => sol i) (fun i => sol (n + i)%nat) in
  expected_dcm_2motif_0 n sol = mean_directed n p (zeros_of n) /\
  (std_dcm_2motif_0 n sol) ^ 2 = var_directed n p (zeros_of n).
Proof.
  intros HS p. split.
  - rewrite (expected_0_dsum n sol HS), (mean_on_digraphs n p _ _ (fun a Ha => zeros_dsum n a Ha)).
    rewrite (mean_dsum n p (fun a i j => (1 - ind (a i j)) * (1 - ind (a j i)))). apply dsum_ext. intros i j Hi Hj NE. symmetry. apply pair_mean_values; assumption.
  - rewrite std_0_dsum, (var_on_digraphs n p _ _ (fun a Ha => zeros_dsum n a Ha)), (variance_dsum n p (fun b => 1 - ind b) (fun b => 1 - ind b)).
    rewrite pow2_sqrt.
    + apply dsum_ext. intros i j Hi Hj NE.
      rewrite (mean_directed_ext n p (fun a => (1 - ind (a i j)) * (1 - ind (a j i)) * ((1 - ind (a i j)) * (1 - ind (a j i)))) (fun a => (1 - ind (a i j)) * (1 - ind (a j i))))
        by (intros a; destruct (a i j), (a j i); simpl; ring).
      rewrite (mean_directed_ext n p (fun a => (1 - ind (a i j)) * (1 - ind (a j i)) * ((1 - ind (a j i)) * (1 - ind (a i j)))) (fun a => (1 - ind (a i j)) * (1 - ind (a j i))))
        by (intros a; destruct (a i j), (a j i); simpl; ring).
      rewrite (proj2 (proj2 (pair_mean_values n p i j Hi Hj NE))), (proj2 (proj2 (pair_mean_values n p j i Hj Hi (not_eq_sym NE)))). fold p. ring.
    + apply dsum_nonneg. intros i j Hi Hj _. pose proof (link_range n sol HS i j Hi Hj) as H1. pose proof (link_range n sol HS j i Hj Hi) as H2.
      fold p in H1, H2 |- *. clearbody p. assert (0 <= (1 - p i j) * (1 - p j i) <= 1) by (split; nra). apply Rmult_le_pos; [|lra]. repeat apply Rmult_le_pos; lra.
Qed.
Lemma std2_pos n sol : (2 <= n)%nat -> (forall r, (r < 2 * n)%nat -> 0 < sol r) ->
  0 < std_dcm_2motif_2 n sol /\ 0 < std_dcm_2motif_1 n sol /\ 0 < std_dcm_2motif_0 n sol.
Proof.
  intros Hn HS. assert (HS' : forall r, (r < 2 * n)%nat -> 0 <= sol r) by (intros; apply Rlt_le; auto).
  set (p := p_dbcm (fun i => sol i) (fun i => sol (n + i)%nat)).
  assert (HP : forall i j, (i < n)%nat -> (j < n)%nat -> 0 < p i j < 1).
  { intros i j Hi Hj. pose proof (link_range n sol HS' i j Hi Hj) as H1. fold p in H1. split; [|lra]. unfold p, p_dbcm.
    apply Rdiv_lt_0_compat; [apply Rmult_lt_0_compat; apply HS; lia|apply (den_pos n sol HS' i j Hi Hj)]. }
  rewrite std_2_dsum, std_1_dsum, std_0_dsum. fold p.
  split; [|split]; (apply sqrt_lt_R0, dsum_pos; [exact Hn|]); intros i j Hi Hj _; pose proof (HP i j Hi Hj); pose proof (HP j i Hj Hi); clearbody p.
  - repeat apply Rmult_lt_0_compat; try lra; nra.
  - replace (1 - p i j * (1 - p j i) - p j i * (1 - p i j)) with ((1 - p i j) * (1 - p j i) + p i j * p j i) by ring.
    apply Rmult_lt_0_compat; [apply Rmult_lt_0_compat; lra|]. apply Rplus_lt_0_compat; apply Rmult_lt_0_compat; lra.
  - repeat apply Rmult_lt_0_compat; try lra; nra.
Qed.
