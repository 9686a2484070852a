(** Three-node motifs: counts, expectations, derivatives. *)
From Coq Require Import Reals List Arith Bool Lia Lra.
From Coquelicot Require Import Coquelicot.
From Verif Require Import Base SpecGraph SpecEnsemble ProofsEnsemble ModelNetwork SpecNetwork ProofsUnique ProofsNetwork ModelMotifs SpecMotifs ProofsDyads ProofsDyadMoments.
Local Open Scope R_scope.
Import ListNotations.

(** * The summands as products of six factors *)
Definition fac (b : bool) (v : R) : R := if b then v else 1 - v.
Definition sg (b : bool) : R := if b then 1 else -1.
Definition pat (t : triad) (ij ji ik ki jk kj : R) : R :=
  match t with (a, b, c, d, e, f) => fac a ij * fac b ji * fac c ik * fac d ki * fac e jk * fac f kj end.
Lemma motif_cases (Q : nat -> Prop) : Q 1%nat -> Q 2%nat -> Q 3%nat -> Q 4%nat -> Q 5%nat -> Q 6%nat -> Q 7%nat -> Q 8%nat -> Q 9%nat -> Q 10%nat ->
  Q 11%nat -> Q 12%nat -> Q 13%nat -> forall m, (1 <= m <= 13)%nat -> Q m.
Proof. intros. do 14 (destruct m as [|m]; [assumption || lia|]). lia. Qed.
Lemma count_term_pat m : (1 <= m <= 13)%nat -> forall ij ji ik ki jk kj, count_term m ij ji ik ki jk kj = pat (motif m) ij ji ik ki jk kj.
Proof.
  intros Hm. pattern m. apply motif_cases; [..|exact Hm]; intros; unfold pat, fac; cbn [count_term motif];
  unfold count_term_1, count_term_2, count_term_3, count_term_4, count_term_5, count_term_6, count_term_7, count_term_8, count_term_9,
    count_term_10, count_term_11, count_term_12, count_term_13; ring.
Qed.
Lemma exp_term_pat m : (1 <= m <= 13)%nat -> forall ij ji ik ki jk kj, exp_term m ij ji ik ki jk kj = pat (motif m) ij ji ik ki jk kj.
Proof.
  intros Hm. pattern m. apply motif_cases; [..|exact Hm]; intros; unfold pat, fac; cbn [exp_term motif];
  unfold exp_term_1, exp_term_2, exp_term_3, exp_term_4, exp_term_5, exp_term_6, exp_term_7, exp_term_8, exp_term_9,
    exp_term_10, exp_term_11, exp_term_12, exp_term_13; ring.
Qed.

(** Derivative of the sum over the six positions of the link [u -> v] in a triple with
    third node [w], with respect to its probability. *)
Definition slope (t : triad) (vu uw wu vw wv : R) : R :=
  match t with (b1, b2, b3, b4, b5, b6) =>
    sg b1 * (fac b2 vu * fac b3 uw * fac b4 wu * fac b5 vw * fac b6 wv)
    + sg b2 * (fac b1 vu * fac b3 vw * fac b4 wv * fac b5 uw * fac b6 wu)
    + sg b3 * (fac b1 uw * fac b2 wu * fac b4 vu * fac b5 wv * fac b6 vw)
    + sg b4 * (fac b1 vw * fac b2 wv * fac b3 vu * fac b5 wu * fac b6 uw)
    + sg b5 * (fac b1 wu * fac b2 uw * fac b3 wv * fac b4 vw * fac b6 vu)
    + sg b6 * (fac b1 wv * fac b2 vw * fac b3 wu * fac b4 uw * fac b5 vu)
  end.
Lemma std_step_slope m : (1 <= m <= 12)%nat -> forall pij pik pki pjk pkj s,
  std_step m pij pik pki pjk pkj s = s + slope (motif m) pij pjk pkj pik pki.
Proof.
  intros Hm. assert (Hm' : (1 <= m <= 13)%nat) by lia. revert Hm. pattern m.
  apply motif_cases; [..|exact Hm']; intros Hm; intros; try lia; unfold slope, fac, sg; cbn [std_step motif];
  unfold std_step_1, std_step_2, std_step_3, std_step_4, std_step_5, std_step_6, std_step_7, std_step_8, std_step_9,
    std_step_10, std_step_11, std_step_12; ring.
Qed.
Lemma std_step_slope_13 pij pik pki pjk pkj s : 6 * std_step 13 pij pik pki pjk pkj s = 6 * s + slope (motif 13) pij pjk pkj pik pki.
Proof. unfold slope, fac, sg; cbn [std_step motif]. unfold std_step_13. ring. Qed.

(** * Sums over ordered triples of distinct nodes *)
Definition dist3 (i j k : nat) : bool := negb (Nat.eqb i j) && negb (Nat.eqb i k) && negb (Nat.eqb j k).
Definition tri (n : nat) (f : nat -> nat -> nat -> R) : R :=
  rsum n (fun i => rsum n (fun j => rsum n (fun k => if dist3 i j k then f i j k else 0))).
Lemma dist3_true i j k : dist3 i j k = true <-> i <> j /\ i <> k /\ j <> k.
Proof. unfold dist3. rewrite !andb_true_iff, !negb_true_iff, !Nat.eqb_neq. tauto. Qed.
Lemma tri_ext n f g : (forall i j k, (i < n)%nat -> (j < n)%nat -> (k < n)%nat -> i <> j -> i <> k -> j <> k -> f i j k = g i j k) -> tri n f = tri n g.
Proof.
  intros E. apply rsum_ext. intros i Hi. apply rsum_ext. intros j Hj. apply rsum_ext. intros k Hk.
  destruct (dist3 i j k) eqn:D; [|reflexivity]. apply dist3_true in D. apply E; tauto.
Qed.
Lemma tri_plus n f g : tri n (fun i j k => f i j k + g i j k) = tri n f + tri n g.
Proof.
  unfold tri. rewrite <- rsum_plus. apply rsum_ext. intros i _. rewrite <- rsum_plus. apply rsum_ext. intros j _.
  rewrite <- rsum_plus. apply rsum_ext. intros k _. destruct (dist3 i j k); ring.
Qed.
Lemma tri_scal n c f : tri n (fun i j k => c * f i j k) = c * tri n f.
Proof.
  unfold tri. rewrite <- rsum_scal_l. apply rsum_ext. intros i _. rewrite <- rsum_scal_l. apply rsum_ext. intros j _.
  rewrite <- rsum_scal_l. apply rsum_ext. intros k _. destruct (dist3 i j k); ring.
Qed.
Lemma tri_swap12 n f : tri n (fun i j k => f j i k) = tri n f.
Proof.
  unfold tri. rewrite rsum_swap. apply rsum_ext. intros i _. apply rsum_ext. intros j _. apply rsum_ext. intros k _.
  replace (dist3 j i k) with (dist3 i j k); [reflexivity|]. unfold dist3. rewrite (Nat.eqb_sym i j). destruct (Nat.eqb j i), (Nat.eqb i k), (Nat.eqb j k); reflexivity.
Qed.
Lemma tri_swap23 n f : tri n (fun i j k => f i k j) = tri n f.
Proof.
  unfold tri. apply rsum_ext. intros i _. rewrite rsum_swap. apply rsum_ext. intros j _. apply rsum_ext. intros k _.
  replace (dist3 i k j) with (dist3 i j k); [reflexivity|]. unfold dist3. rewrite (Nat.eqb_sym j k). destruct (Nat.eqb i j), (Nat.eqb i k), (Nat.eqb k j); reflexivity.
Qed.
Lemma tri_relabel n p f : relabelling n p -> tri n (fun i j k => f (p i) (p j) (p k)) = tri n f.
Proof.
  intros HP. unfold tri.
  transitivity (rsum n (fun i => rsum n (fun j => rsum n (fun k => if dist3 (p i) (p j) (p k) then f (p i) (p j) (p k) else 0)))).
  - apply rsum_ext. intros i Hi. apply rsum_ext. intros j Hj. apply rsum_ext. intros k Hk.
    assert (EB : forall a b, (a < n)%nat -> (b < n)%nat -> Nat.eqb (p a) (p b) = Nat.eqb a b).
    { intros a b Ha Hb. destruct (Nat.eqb_spec a b) as [->|NE]; [apply Nat.eqb_refl|]. apply Nat.eqb_neq. intros E. apply NE. apply (proj2 HP); assumption. }
    unfold dist3. rewrite !EB by assumption. reflexivity.
  - set (F := fun i j k => if dist3 i j k then f i j k else 0).
    change (rsum n (fun i => rsum n (fun j => rsum n (fun k => F (p i) (p j) (p k)))) = rsum n (fun i => rsum n (fun j => rsum n (fun k => F i j k)))).
    rewrite <- (rsum_relabel n p (fun i => rsum n (fun j => rsum n (fun k => F i j k))) HP). apply rsum_ext. intros i Hi.
    rewrite <- (rsum_relabel n p (fun j => rsum n (fun k => F (p i) j k)) HP). apply rsum_ext. intros j Hj.
    apply (rsum_relabel n p (fun k => F (p i) (p j) k) HP).
Qed.

(** Sum over three-node sets. *)
Definition tsum (n : nat) (f : nat -> nat -> nat -> R) : R := rsum n (fun k => rsum k (fun j => rsum j (fun i => f i j k))).
Lemma tri_S n f : tri (S n) f = tri n f + dsum n (fun i j => f i j n + f i n j + f n i j).
Proof.
  unfold tri, dsum. cbn [rsum].
  assert (D1 : forall i, dist3 i n n = false) by (intros; unfold dist3; rewrite Nat.eqb_refl; simpl; rewrite andb_false_r; reflexivity).
  assert (D2 : forall k, dist3 n n k = false) by (intros; unfold dist3; rewrite Nat.eqb_refl; reflexivity).
  assert (D3 : forall j, dist3 n j n = false) by (intros; unfold dist3; rewrite Nat.eqb_refl; rewrite andb_false_r; reflexivity).
  rewrite (D1 n). rewrite (rsum_zero n (fun k => if dist3 n n k then f n n k else 0)) by (intros; rewrite D2; reflexivity).
  rewrite (rsum_ext n (fun j => rsum n (fun k => if dist3 n j k then f n j k else 0) + (if dist3 n j n then f n j n else 0))
     (fun j => rsum n (fun k => if Nat.eqb j k then 0 else f n j k))).
  2:{ intros j Hj. rewrite D3, Rplus_0_r. apply rsum_ext. intros k Hk. unfold dist3.
      destruct (Nat.eqb_spec n j); [lia|]. destruct (Nat.eqb_spec n k); [lia|]. simpl. destruct (Nat.eqb j k); reflexivity. }
  rewrite (rsum_ext n (fun i => rsum n (fun j => rsum n (fun k => if dist3 i j k then f i j k else 0) + (if dist3 i j n then f i j n else 0)) +
     (rsum n (fun k => if dist3 i n k then f i n k else 0) + (if dist3 i n n then f i n n else 0)))
     (fun i => rsum n (fun j => rsum n (fun k => if dist3 i j k then f i j k else 0)) +
        (rsum n (fun j => if Nat.eqb i j then 0 else f i j n) + rsum n (fun j => if Nat.eqb i j then 0 else f i n j)))).
  2:{ intros i Hi. rewrite D1, rsum_plus, Rplus_0_r, Rplus_assoc. f_equal. f_equal.
      - apply rsum_ext. intros j Hj. unfold dist3. destruct (Nat.eqb_spec i n); [lia|]. destruct (Nat.eqb_spec j n); [lia|]. destruct (Nat.eqb i j); reflexivity.
      - apply rsum_ext. intros k Hk. unfold dist3. destruct (Nat.eqb_spec i n); [lia|]. destruct (Nat.eqb_spec n k); [lia|]. destruct (Nat.eqb i k); reflexivity. }
  rewrite rsum_plus, rsum_plus, Rplus_0_r, Rplus_0_r, !Rplus_assoc. f_equal.
  rewrite <- !rsum_plus. apply rsum_ext. intros i _. rewrite <- !rsum_plus. apply rsum_ext. intros j _. destruct (Nat.eqb i j); ring.
Qed.
Lemma tri_sets n f : tri n f = tsum n (fun i j k => f i j k + f i k j + f j i k + f j k i + f k i j + f k j i).
Proof.
  induction n as [|n IH]; [reflexivity|]. rewrite tri_S, IH. unfold tsum at 2. cbn [rsum].
  change (rsum n (fun k => rsum k (fun j => rsum j (fun i => f i j k + f i k j + f j i k + f j k i + f k i j + f k j i))))
    with (tsum n (fun i j k => f i j k + f i k j + f j i k + f j k i + f k i j + f k j i)). f_equal.
  rewrite dsum_usum. unfold usum. apply rsum_ext. intros j _. apply rsum_ext. intros i _. ring.
Qed.

(** * The functions as sums over triples *)
Lemma count_tri is_not m n a : (forall i j, (i < n)%nat -> (j < n)%nat -> is_not i j = negb (Nat.eqb i j)) ->
  count_loops is_not n a (count_term m) = tri n (fun i j k => count_term m (a i j) (a j i) (a i k) (a k i) (a j k) (a k j)).
Proof.
  intros HI. unfold count_loops, tri.
  rewrite (loop_add n 0 _ (fun i => rsum n (fun j => rsum n (fun k => if dist3 i j k then count_term m (a i j) (a j i) (a i k) (a k i) (a j k) (a k j) else 0)))); [ring|].
  intros i s Hi. rewrite (loop_add n s _ (fun j => rsum n (fun k => if dist3 i j k then count_term m (a i j) (a j i) (a i k) (a k i) (a j k) (a k j) else 0))); [reflexivity|].
  intros j s' Hj. rewrite HI, (Nat.eqb_sym j i) by assumption. destruct (Nat.eqb_spec i j) as [<-|NE]; simpl.
  - rewrite rsum_zero; [ring|]. intros k _. unfold dist3. rewrite Nat.eqb_refl. reflexivity.
  - apply loop_add. intros k s'' Hk. rewrite !HI by assumption. unfold dist3. rewrite (Nat.eqb_sym k j), (Nat.eqb_sym k i).
    destruct (Nat.eqb i j), (Nat.eqb i k), (Nat.eqb j k); simpl; ring.
Qed.
Lemma count_pat m n a : (1 <= m <= 13)%nat -> count_3motif_ndarray m n a = tri n (fun i j k => pat (motif m) (a i j) (a j i) (a i k) (a k i) (a j k) (a k j)).
Proof.
  intros Hm. unfold count_3motif_ndarray. rewrite count_tri by reflexivity. apply tri_ext. intros. apply count_term_pat. exact Hm.
Qed.
Lemma expected_pat m n sol : (1 <= m <= 13)%nat -> let p := p_dbcm (fun i => sol i) (fun i => sol (n + i)%nat) in
  expected_dcm_3motif m n sol = tri n (fun i j k => pat (motif m) (p i j) (p j i) (p i k) (p k i) (p j k) (p k j)).
Proof.
  intros Hm p. unfold expected_dcm_3motif, tri.
  rewrite (loop_add n 0 _ (fun i => rsum n (fun j => rsum n (fun k => if dist3 i j k then exp_term m (p i j) (p j i) (p i k) (p k i) (p j k) (p k j) else 0)))).
  - rewrite Rplus_0_l. apply rsum_ext. intros i _. apply rsum_ext. intros j _. apply rsum_ext. intros k _. rewrite (exp_term_pat m Hm). reflexivity.
  - intros i s Hi. rewrite (loop_add n s _ (fun j => rsum n (fun k => if dist3 i j k then exp_term m (p i j) (p j i) (p i k) (p k i) (p j k) (p k j) else 0))); [reflexivity|].
    intros j s' Hj. unfold is_not_compiled at 1. rewrite (Nat.eqb_sym j i). destruct (Nat.eqb_spec i j) as [<-|NE]; simpl.
    + rewrite rsum_zero; [ring|]. intros k _. unfold dist3. rewrite Nat.eqb_refl. reflexivity.
    + apply loop_add. intros k s'' Hk. unfold is_not_compiled, dist3. rewrite (Nat.eqb_sym k j), (Nat.eqb_sym k i).
      destruct (Nat.eqb_spec i j); [contradiction|]. simpl. destruct (Nat.eqb j k), (Nat.eqb i k); simpl; try ring. reflexivity.
Qed.

(** * Meaning of the counts *)
Lemma fac_ind b c : fac b (ind c) = ind (Bool.eqb b c). Proof. destruct b, c; simpl; ring. Qed.
Lemma ind_and b c : ind b * ind c = ind (b && c). Proof. destruct b, c; simpl; ring. Qed.
Lemma pat_ind t a b c d e f : pat t (ind a) (ind b) (ind c) (ind d) (ind e) (ind f) = ind (triad_eqb t (a, b, c, d, e, f)).
Proof. destruct t as [[[[[t1 t2] t3] t4] t5] t6]. unfold pat, triad_eqb. rewrite !fac_ind, !ind_and. reflexivity. Qed.
Lemma count_ordered m n g a : (1 <= m <= 13)%nat -> matrix_of n g a ->
  count_3motif_ndarray m n a = tri n (fun i j k => ind (triad_eqb (motif m) (induced g i j k))).
Proof.
  intros Hm HM. rewrite (count_pat m n a Hm). apply tri_ext. intros i j k Hi Hj Hk _ _ _. rewrite !HM by assumption. apply pat_ind.
Qed.
Lemma INR_triads_with n g P : INR (triads_with n g P) = tsum n (fun i j k => ind (P (induced g i j k))).
Proof.
  unfold triads_with, tsum. rewrite length_filter_flat, INR_list_sum_seq. apply rsum_ext. intros k _.
  rewrite length_filter_flat, INR_list_sum_seq. apply rsum_ext. intros j _. rewrite filter_map_length. apply (INR_filter_seq j (fun i => P (induced g i j k))).
Qed.
(** Each three-node set of the class of [t] is counted once per automorphism. *)
Lemma triad_orders t s : (length (filter (triad_eqb t) (orderings s)) = if isomorphic s t then automorphisms t else 0)%nat.
Proof.
  destruct t as [[[[[t1 t2] t3] t4] t5] t6], s as [[[[[s1 s2] s3] s4] s5] s6].
  destruct t1, t2, t3, t4, t5, t6, s1, s2, s3, s4, s5, s6; reflexivity.
Qed.
Lemma count_sets m n g a : (1 <= m <= 13)%nat -> matrix_of n g a ->
  count_3motif_ndarray m n a = INR (automorphisms (motif m)) * INR (triads_with n g (fun s => isomorphic s (motif m))).
Proof.
  intros Hm HM. rewrite (count_ordered m n g a Hm HM), tri_sets, INR_triads_with. unfold tsum.
  rewrite <- rsum_scal_l. apply rsum_ext. intros k _. rewrite <- rsum_scal_l. apply rsum_ext. intros j _. rewrite <- rsum_scal_l. apply rsum_ext. intros i _.
  transitivity (INR (length (filter (triad_eqb (motif m)) (orderings (induced g i j k))))).
  - cbn [orderings induced filter]. unfold induced.
    repeat match goal with |- context [triad_eqb ?x ?y] => destruct (triad_eqb x y) end; simpl; ring.
  - rewrite triad_orders. destruct (isomorphic (induced g i j k) (motif m)); simpl ind; [ring|simpl; ring].
Qed.
