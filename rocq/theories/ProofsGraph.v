(** Grouping of sums by classes, logarithms of graph probabilities, Gibbs inequality. *)
From Coq Require Import Reals List Arith Lia Lra Bool.
From Verif Require Import Base SpecGraph.
Local Open Scope R_scope.

(** Multiplicity of ordered pairs of distinct nodes between two classes. *)
Definition pairmult (c : nat -> R) (q s : nat) : R :=
  if Nat.eqb q s then c q * (c q - 1) else c q * c s.

Lemma pairmult_sym c q s : pairmult c q s = pairmult c s q.
Proof.
  unfold pairmult. rewrite (Nat.eqb_sym s q).
  destruct (Nat.eqb_spec q s) as [->|]; ring.
Qed.

Lemma class_group n m cls c (F : nat -> R) :
  classes n m cls c ->
  rsum n (fun i => F (cls i)) = rsum m (fun q => c q * F q).
Proof.
  intros [Hc Hm].
  rewrite (rsum_ext n _ (fun i => rsum m (fun q => if Nat.eqb q (cls i) then F q else 0))).
  2: { intros i Hi. rewrite (rsum_single m (cls i) F); [reflexivity|auto]. }
  rewrite rsum_swap. apply rsum_ext. intros q Hq. rewrite (Hm q Hq).
  rewrite <- rsum_scal_r. apply rsum_ext. intros i Hi.
  rewrite Nat.eqb_sym. destruct (Nat.eqb (cls i) q); simpl; ring.
Qed.

Lemma class_group2 n m cls c (G : nat -> nat -> R) :
  classes n m cls c ->
  rsum n (fun i => rsum n (fun j => if Nat.eqb i j then 0 else G (cls i) (cls j)))
  = rsum m (fun q => rsum m (fun s => pairmult c q s * G q s)).
Proof.
  intros H.
  rewrite (rsum_ext n _ (fun i => rsum m (fun s => c s * G (cls i) s) - G (cls i) (cls i))).
  - rewrite rsum_minus.
    rewrite (class_group n m cls c (fun q => rsum m (fun s => c s * G q s)) H).
    rewrite (class_group n m cls c (fun q => G q q) H).
    rewrite <- rsum_minus. apply rsum_ext. intros q Hq.
    rewrite <- rsum_scal_l.
    rewrite <- (rsum_single m q (fun s => c q * G q s) Hq).
    rewrite <- rsum_minus. apply rsum_ext. intros s Hs. unfold pairmult.
    rewrite Nat.eqb_sym. destruct (Nat.eqb_spec q s) as [->|]; ring.
  - intros i Hi.
    rewrite <- (class_group n m cls c (fun s => G (cls i) s) H).
    rewrite (rsum_pull n i (fun j => G (cls i) (cls j)) Hi).
    rewrite (rsum_ext n (fun j => if Nat.eqb i j then 0 else G (cls i) (cls j))
       (fun j => if Nat.eqb j i then 0 else G (cls i) (cls j))).
    + ring.
    + intros j _. rewrite Nat.eqb_sym. reflexivity.
Qed.

(** The classes of the identity map: one node per class. *)
Lemma classes_id n : classes n n (fun i => i) (fun _ => 1).
Proof.
  split; [auto|]. intros q Hq. symmetry.
  apply (rsum_single n q (fun _ => 1) Hq).
Qed.

Lemma pairmult_one q s : pairmult (fun _ => 1) q s = if Nat.eqb q s then 0 else 1.
Proof. unfold pairmult. destruct (Nat.eqb q s); ring. Qed.

(** Logarithm of the probability of an undirected graph. *)
Lemma ln_prob_undirected n p a :
  (forall i j, (i < n)%nat -> (j < n)%nat -> i <> j -> 0 < p i j < 1) ->
  ln (prob_undirected n p a) =
  usum n (fun i j => ind (a i j) * ln (p i j) + (1 - ind (a i j)) * ln (1 - p i j)).
Proof.
  intros Hp. unfold prob_undirected, usum.
  assert (Hpos : forall i j, (i < n)%nat -> (j < i)%nat ->
     0 < (if a j i then p j i else 1 - p j i)).
  { intros i j Hi Hj. specialize (Hp j i ltac:(lia) ltac:(lia) ltac:(lia)).
    destruct (a j i); lra. }
  rewrite ln_rprod.
  - apply rsum_ext. intros i Hi. rewrite ln_rprod.
    + apply rsum_ext. intros j Hj. destruct (a j i); simpl; ring.
    + intros j Hj. apply Hpos; lia.
  - intros i Hi. apply rprod_pos. intros j Hj. apply Hpos; lia.
Qed.

Lemma ln_prob_directed n p a :
  (forall i j, (i < n)%nat -> (j < n)%nat -> i <> j -> 0 < p i j < 1) ->
  ln (prob_directed n p a) =
  rsum n (fun i => rsum n (fun j => if Nat.eqb i j then 0 else
     ind (a i j) * ln (p i j) + (1 - ind (a i j)) * ln (1 - p i j))).
Proof.
  intros Hp. unfold prob_directed.
  assert (Hpos : forall i j, (i < n)%nat -> (j < n)%nat ->
     0 < (if Nat.eqb i j then 1 else if a i j then p i j else 1 - p i j)).
  { intros i j Hi Hj. destruct (Nat.eqb_spec i j); [lra|].
    specialize (Hp i j Hi Hj n0). destruct (a i j); lra. }
  rewrite ln_rprod.
  - apply rsum_ext. intros i Hi. rewrite ln_rprod.
    + apply rsum_ext. intros j Hj.
      destruct (Nat.eqb i j); [apply ln_1|]. destruct (a i j); simpl; ring.
    + intros j Hj. apply Hpos; lia.
  - intros i Hi. apply rprod_pos. intros j Hj. apply Hpos; lia.
Qed.

Lemma odds_prob u : 0 < u -> 0 < u / (1 + u) < 1.
Proof.
  intros H. split.
  - apply Rdiv_lt_0_compat; lra.
  - apply (Rmult_lt_reg_r (1 + u)); [lra|].
    replace (u / (1 + u) * (1 + u)) with u by (field; lra). lra.
Qed.

Lemma odds_prob_nonneg u : 0 <= u -> 0 <= u / (1 + u) < 1.
Proof.
  intros [H|<-]; [pose proof (odds_prob u H); lra|].
  unfold Rdiv. rewrite Rmult_0_l. lra.
Qed.

Lemma ln_div a b : 0 < a -> 0 < b -> ln (a / b) = ln a - ln b.
Proof.
  intros Ha Hb. unfold Rdiv. rewrite ln_mult, ln_Rinv; try assumption; [ring|].
  apply Rinv_0_lt_compat; assumption.
Qed.

Lemma ln_odds u : 0 < u -> ln (u / (1 + u)) = ln u - ln (1 + u).
Proof. intros H. rewrite ln_div; lra. Qed.

Lemma ln_odds_compl u : 0 < u -> ln (1 - u / (1 + u)) = - ln (1 + u).
Proof.
  intros H. replace (1 - u / (1 + u)) with (/ (1 + u)) by (field; lra).
  apply ln_Rinv. lra.
Qed.

(** * Gibbs inequality for two outcomes *)

Lemma ln_le_minus1 z : 0 < z -> ln z <= z - 1.
Proof.
  intros Hz. pose proof (exp_ineq1_le (ln z)) as H. rewrite exp_ln in H by exact Hz. lra.
Qed.

Lemma ln_lt_minus1 z : 0 < z -> z <> 1 -> ln z < z - 1.
Proof.
  intros Hz H1.
  assert (Hl : ln z <> 0).
  { intros H0. apply H1. apply ln_inv; [lra|lra|rewrite ln_1; exact H0]. }
  pose proof (exp_ineq1 (ln z) Hl) as H. rewrite exp_ln in H by exact Hz. lra.
Qed.

Lemma gibbs2 p q :
  0 < p < 1 -> 0 < q < 1 ->
  p * ln q + (1 - p) * ln (1 - q) <= p * ln p + (1 - p) * ln (1 - p).
Proof.
  intros Hp Hq.
  pose proof (ln_le_minus1 (q / p) ltac:(apply Rdiv_lt_0_compat; lra)) as H1.
  pose proof (ln_le_minus1 ((1 - q) / (1 - p)) ltac:(apply Rdiv_lt_0_compat; lra)) as H2.
  rewrite ln_div in H1, H2 by lra.
  apply (Rmult_le_compat_l p) in H1; [|lra].
  apply (Rmult_le_compat_l (1 - p)) in H2; [|lra].
  replace (p * (q / p - 1)) with (q - p) in H1 by (field; lra).
  replace ((1 - p) * ((1 - q) / (1 - p) - 1)) with (p - q) in H2 by (field; lra).
  lra.
Qed.

Lemma gibbs2_strict p q :
  0 < p < 1 -> 0 < q < 1 -> p <> q ->
  p * ln q + (1 - p) * ln (1 - q) < p * ln p + (1 - p) * ln (1 - p).
Proof.
  intros Hp Hq Hne.
  assert (Hz : q / p <> 1).
  { intros H. apply Hne. apply (f_equal (fun z => z * p)) in H.
    replace (q / p * p) with q in H by (field; lra). lra. }
  pose proof (ln_lt_minus1 (q / p) ltac:(apply Rdiv_lt_0_compat; lra) Hz) as H1.
  pose proof (ln_le_minus1 ((1 - q) / (1 - p)) ltac:(apply Rdiv_lt_0_compat; lra)) as H2.
  rewrite ln_div in H1, H2 by lra.
  apply (Rmult_lt_compat_l p) in H1; [|lra].
  apply (Rmult_le_compat_l (1 - p)) in H2; [|lra].
  replace (p * (q / p - 1)) with (q - p) in H1 by (field; lra).
  replace ((1 - p) * ((1 - q) / (1 - p) - 1)) with (p - q) in H2 by (field; lra).
  lra.
Qed.

(** The pair term of a binary log-likelihood with mean [u/(1+u)] is maximal at odds [u]. *)
Lemma pair_binary_max u v :
  0 < u -> 0 < v ->
  u / (1 + u) * ln v - ln (1 + v) <= u / (1 + u) * ln u - ln (1 + u).
Proof.
  intros Hu Hv.
  pose proof (gibbs2 _ _ (odds_prob u Hu) (odds_prob v Hv)) as H.
  rewrite !ln_odds, !ln_odds_compl in H by assumption. lra.
Qed.

Lemma pair_binary_max_strict u v :
  0 < u -> 0 < v -> u <> v ->
  u / (1 + u) * ln v - ln (1 + v) < u / (1 + u) * ln u - ln (1 + u).
Proof.
  intros Hu Hv Hne.
  assert (Hp : u / (1 + u) <> v / (1 + v)).
  { intros H. apply Hne. apply (f_equal (fun z => z * ((1 + u) * (1 + v)))) in H.
    replace (u / (1 + u) * ((1 + u) * (1 + v))) with (u * (1 + v)) in H by (field; lra).
    replace (v / (1 + v) * ((1 + u) * (1 + v))) with (v * (1 + u)) in H by (field; lra).
    lra. }
  pose proof (gibbs2_strict _ _ (odds_prob u Hu) (odds_prob v Hv) Hp) as H.
  rewrite !ln_odds, !ln_odds_compl in H by assumption. lra.
Qed.
