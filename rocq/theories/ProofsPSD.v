(** Minus the second-derivative matrices used by Newton's method are positive semidefinite. *)
From Coq Require Import Reals List Arith Bool Lia Lra.
From Verif Require Import Base SpecGraph SpecDirected SpecWeighted SpecLinsearch SpecCReMa SpecEnsemble ModelCM ModelDCM ModelECM ModelDECM ModelCReMa
  ProofsEnsemble ProofsList ProofsRelabel ProofsCReMa ProofsDirCReMa ProofsCMHess ProofsECM ProofsDECM.
Local Open Scope R_scope.

Definition dsum (n : nat) (f : nat -> nat -> R) : R := rsum n (fun i => rsum n (fun j => f i j)).
Lemma dsum_ext n f g : (forall i j, (i < n)%nat -> (j < n)%nat -> f i j = g i j) -> dsum n f = dsum n g.
Proof. intros H. apply rsum_ext. intros i Hi. apply rsum_ext. intros j Hj. apply H; assumption. Qed.
Lemma dsum_plus n f g : dsum n (fun i j => f i j + g i j) = dsum n f + dsum n g.
Proof. unfold dsum. rewrite <- rsum_plus. apply rsum_ext. intros i _. apply rsum_plus. Qed.
Lemma dsum_scal n a f : dsum n (fun i j => a * f i j) = a * dsum n f.
Proof. unfold dsum. rewrite <- rsum_scal_l. apply rsum_ext. intros i _. apply rsum_scal_l. Qed.
Lemma dsum_swap n f : dsum n (fun i j => f j i) = dsum n f.
Proof. unfold dsum. apply rsum_swap. Qed.
Lemma dsum_diag n (u w : nat -> R) (G : nat -> nat -> R) :
  dsum n (fun i j => u i * (if Nat.eqb i j then rsum n (G i) else 0) * w j) = dsum n (fun i j => u i * G i j * w i).
Proof.
  apply rsum_ext. intros i Hi.
  rewrite (rsum_ext n _ (fun j => if Nat.eqb j i then (fun j => u i * rsum n (G i) * w j) j else 0)).
  2:{ intros j _. rewrite (Nat.eqb_sym j i). destruct (Nat.eqb i j); ring. }
  rewrite rsum_single by exact Hi. rewrite rsum_scal_r, rsum_scal_l. reflexivity.
Qed.
Lemma dsum_nonneg n f : (forall i j, (i < n)%nat -> (j < n)%nat -> 0 <= f i j) -> 0 <= dsum n f.
Proof. intros H. apply rsum_nonneg. intros i Hi. apply rsum_nonneg. intros j Hj. apply H; assumption. Qed.

Lemma rsum_cut n m f : rsum (n + m) f = rsum n f + rsum m (fun i => f (i + n)%nat).
Proof.
  induction m as [|m IH]; [rewrite Nat.add_0_r; simpl; ring|]. rewrite Nat.add_succ_r. cbn [rsum]. rewrite IH, (Nat.add_comm n m). ring.
Qed.
Lemma rsum_two n f : rsum (2 * n) f = rsum n (fun i => f i + f (i + n)%nat).
Proof. replace (2 * n)%nat with (n + n)%nat by lia. rewrite rsum_cut, <- rsum_plus. reflexivity. Qed.
Lemma rsum_four n f : rsum (4 * n) f = rsum n (fun i => f i + f (i + n)%nat + f (i + 2 * n)%nat + f (i + 3 * n)%nat).
Proof.
  replace (4 * n)%nat with (n + (n + (n + n)))%nat by lia. rewrite !rsum_cut, !rsum_plus.
  rewrite (rsum_ext n (fun i => f (i + n + n)%nat) (fun i => f (i + 2 * n)%nat)) by (intros; f_equal; lia).
  rewrite (rsum_ext n (fun i => f (i + n + n + n)%nat) (fun i => f (i + 3 * n)%nat)) by (intros; f_equal; lia). ring.
Qed.

(** One array of [n] parameters. *)
Lemma form_sym_eq n a d w v :
  (forall i j, (i < n)%nat -> (j < n)%nat -> a i j = (if Nat.eqb i j then rsum n (fun k => (if Nat.eqb i k then d i else 0) + w i k) else 0) + w i j) ->
  (forall i j, (i < n)%nat -> (j < n)%nat -> w i j = w j i) ->
  2 * qform n a v = dsum n (fun i j => 2 * ((if Nat.eqb i j then d i else 0) * (v i * v i)) + w i j * ((v i + v j) * (v i + v j))).
Proof.
  intros Ha Hs. unfold qform. change (2 * dsum n (fun i j => v i * a i j * v j) = dsum n (fun i j => 2 * ((if Nat.eqb i j then d i else 0) * (v i * v i)) + w i j * ((v i + v j) * (v i + v j)))).
  rewrite (dsum_ext n _ (fun i j => v i * (if Nat.eqb i j then rsum n ((fun i k => (if Nat.eqb i k then d i else 0) + w i k) i) else 0) * v j + v i * w i j * v j)).
  2:{ intros i j Hi Hj. rewrite Ha by assumption. ring. }
  rewrite dsum_plus, dsum_diag, <- dsum_plus.
  replace (2 * dsum n (fun i j => v i * ((if Nat.eqb i j then d i else 0) + w i j) * v i + v i * w i j * v j))
    with (dsum n (fun i j => v i * ((if Nat.eqb i j then d i else 0) + w i j) * v i + v i * w i j * v j)
        + dsum n (fun i j => v i * ((if Nat.eqb i j then d i else 0) + w i j) * v i + v i * w i j * v j)) by ring.
  rewrite <- (dsum_swap n (fun i j => v i * ((if Nat.eqb i j then d i else 0) + w i j) * v i + v i * w i j * v j)) at 2.
  rewrite <- dsum_plus. apply dsum_ext. intros i j Hi Hj. rewrite (Hs j i) by assumption.
  rewrite (Nat.eqb_sym j i). destruct (Nat.eqb_spec i j) as [->|]; ring.
Qed.
Lemma form_sym n a d w v :
  (forall i j, (i < n)%nat -> (j < n)%nat -> a i j = (if Nat.eqb i j then rsum n (fun k => (if Nat.eqb i k then d i else 0) + w i k) else 0) + w i j) ->
  (forall i j, (i < n)%nat -> (j < n)%nat -> w i j = w j i) ->
  (forall i j, (i < n)%nat -> (j < n)%nat -> 0 <= w i j) -> (forall i, (i < n)%nat -> 0 <= d i) ->
  0 <= qform n a v.
Proof.
  intros Ha Hs Hw Hd. apply Rmult_le_reg_l with 2; [lra|]. rewrite Rmult_0_r, (form_sym_eq n a d w v Ha Hs).
  apply dsum_nonneg. intros i j Hi Hj.
  apply Rplus_le_le_0_compat; [|apply Rmult_le_pos; [apply Hw; assumption|apply Rle_0_sqr]].
  apply Rmult_le_pos; [lra|]. apply Rmult_le_pos; [|apply Rle_0_sqr].
  destruct (Nat.eqb i j); [apply Hd; exact Hi|lra].
Qed.

(** Two arrays, each entry of the one coupled with each entry of the other. *)
Lemma form_two_eq n a W v :
  (forall i j, (i < n)%nat -> (j < n)%nat -> a i j = if Nat.eqb i j then rsum n (W i) else 0) ->
  (forall i j, (i < n)%nat -> (j < n)%nat -> a i (j + n)%nat = W i j) ->
  (forall i j, (i < n)%nat -> (j < n)%nat -> a (i + n)%nat j = W j i) ->
  (forall i j, (i < n)%nat -> (j < n)%nat -> a (i + n)%nat (j + n)%nat = if Nat.eqb i j then rsum n (fun k => W k i) else 0) ->
  qform (2 * n) a v = dsum n (fun i j => W i j * ((v i + v (j + n)%nat) * (v i + v (j + n)%nat))).
Proof.
  intros H00 H01 H10 H11.
  unfold qform. rewrite rsum_two.
    rewrite (rsum_ext n _ (fun i => rsum n (fun j => v i * a i j * v j + v i * a i (j + n)%nat * v (j + n)%nat
       + v (i + n)%nat * a (i + n)%nat j * v j + v (i + n)%nat * a (i + n)%nat (j + n)%nat * v (j + n)%nat))).
    2:{ intros i _. rewrite !rsum_two, <- rsum_plus. apply rsum_ext. intros j _. ring. }
    fold (dsum n (fun i j => v i * a i j * v j + v i * a i (j + n)%nat * v (j + n)%nat
       + v (i + n)%nat * a (i + n)%nat j * v j + v (i + n)%nat * a (i + n)%nat (j + n)%nat * v (j + n)%nat)).
    rewrite !dsum_plus.
    rewrite (dsum_ext n (fun i j => v i * a i j * v j) (fun i j => v i * (if Nat.eqb i j then rsum n (W i) else 0) * v j)) by (intros; rewrite H00 by assumption; reflexivity).
    rewrite (dsum_ext n (fun i j => v i * a i (j + n)%nat * v (j + n)%nat) (fun i j => v i * W i j * v (j + n)%nat)) by (intros; rewrite H01 by assumption; reflexivity).
    rewrite (dsum_ext n (fun i j => v (i + n)%nat * a (i + n)%nat j * v j) (fun i j => v (i + n)%nat * W j i * v j)) by (intros; rewrite H10 by assumption; reflexivity).
    rewrite (dsum_ext n (fun i j => v (i + n)%nat * a (i + n)%nat (j + n)%nat * v (j + n)%nat)
      (fun i j => v (i + n)%nat * (if Nat.eqb i j then rsum n ((fun i k => W k i) i) else 0) * v (j + n)%nat)) by (intros; rewrite H11 by assumption; reflexivity).
    rewrite dsum_diag, (dsum_diag n (fun i => v (i + n)%nat) (fun i => v (i + n)%nat) (fun i k => W k i)).
    rewrite <- (dsum_swap n (fun i j => v (i + n)%nat * W j i * v j)).
    rewrite <- (dsum_swap n (fun i j => v (i + n)%nat * W j i * v (i + n)%nat)).
    rewrite <- !dsum_plus. apply dsum_ext. intros; ring.
Qed.
Lemma form_two n a W v :
  (forall i j, (i < n)%nat -> (j < n)%nat -> a i j = if Nat.eqb i j then rsum n (W i) else 0) ->
  (forall i j, (i < n)%nat -> (j < n)%nat -> a i (j + n)%nat = W i j) ->
  (forall i j, (i < n)%nat -> (j < n)%nat -> a (i + n)%nat j = W j i) ->
  (forall i j, (i < n)%nat -> (j < n)%nat -> a (i + n)%nat (j + n)%nat = if Nat.eqb i j then rsum n (fun k => W k i) else 0) ->
  (forall i j, (i < n)%nat -> (j < n)%nat -> 0 <= W i j) -> 0 <= qform (2 * n) a v.
Proof.
  intros H00 H01 H10 H11 HW. rewrite (form_two_eq n a W v H00 H01 H10 H11).
  apply dsum_nonneg. intros i j Hi Hj. apply Rmult_le_pos; [apply HW; assumption|apply Rle_0_sqr].
Qed.
(** Four arrays: degrees and strengths, out and in. *)
Lemma form_four n a (A B C : nat -> nat -> R) v :
  (forall i j, (i < n)%nat -> (j < n)%nat -> a i j = (if Nat.eqb i j then rsum n (A i) else 0)) ->
  (forall i j, (i < n)%nat -> (j < n)%nat -> a i (j + n)%nat = A i j) ->
  (forall i j, (i < n)%nat -> (j < n)%nat -> a i (j + 2 * n)%nat = (if Nat.eqb i j then rsum n (B i) else 0)) ->
  (forall i j, (i < n)%nat -> (j < n)%nat -> a i (j + 3 * n)%nat = B i j) ->
  (forall i j, (i < n)%nat -> (j < n)%nat -> a (i + n)%nat j = A j i) ->
  (forall i j, (i < n)%nat -> (j < n)%nat -> a (i + n)%nat (j + n)%nat = (if Nat.eqb i j then rsum n (fun k => A k i) else 0)) ->
  (forall i j, (i < n)%nat -> (j < n)%nat -> a (i + n)%nat (j + 2 * n)%nat = B j i) ->
  (forall i j, (i < n)%nat -> (j < n)%nat -> a (i + n)%nat (j + 3 * n)%nat = (if Nat.eqb i j then rsum n (fun k => B k i) else 0)) ->
  (forall i j, (i < n)%nat -> (j < n)%nat -> a (i + 2 * n)%nat j = (if Nat.eqb i j then rsum n (B i) else 0)) ->
  (forall i j, (i < n)%nat -> (j < n)%nat -> a (i + 2 * n)%nat (j + n)%nat = B i j) ->
  (forall i j, (i < n)%nat -> (j < n)%nat -> a (i + 2 * n)%nat (j + 2 * n)%nat = (if Nat.eqb i j then rsum n (C i) else 0)) ->
  (forall i j, (i < n)%nat -> (j < n)%nat -> a (i + 2 * n)%nat (j + 3 * n)%nat = C i j) ->
  (forall i j, (i < n)%nat -> (j < n)%nat -> a (i + 3 * n)%nat j = B j i) ->
  (forall i j, (i < n)%nat -> (j < n)%nat -> a (i + 3 * n)%nat (j + n)%nat = (if Nat.eqb i j then rsum n (fun k => B k i) else 0)) ->
  (forall i j, (i < n)%nat -> (j < n)%nat -> a (i + 3 * n)%nat (j + 2 * n)%nat = C j i) ->
  (forall i j, (i < n)%nat -> (j < n)%nat -> a (i + 3 * n)%nat (j + 3 * n)%nat = (if Nat.eqb i j then rsum n (fun k => C k i) else 0)) ->
  qform (4 * n) a v = dsum n (fun i j =>
    A i j * ((v i + v (j + n)%nat) * (v i + v (j + n)%nat))
    + 2 * B i j * ((v i + v (j + n)%nat) * (v (i + 2 * n)%nat + v (j + 3 * n)%nat))
    + C i j * ((v (i + 2 * n)%nat + v (j + 3 * n)%nat) * (v (i + 2 * n)%nat + v (j + 3 * n)%nat))).
Proof.
  intros H00 H01 H02 H03 H10 H11 H12 H13 H20 H21 H22 H23 H30 H31 H32 H33.
  unfold qform. rewrite rsum_four.
  rewrite (rsum_ext n _ (fun i => rsum n (fun j => v i * a i j * v j + v i * a i (j + n)%nat * v (j + n)%nat + v i * a i (j + 2 * n)%nat * v (j + 2 * n)%nat + v i * a i (j + 3 * n)%nat * v (j + 3 * n)%nat + v (i + n)%nat * a (i + n)%nat j * v j + v (i + n)%nat * a (i + n)%nat (j + n)%nat * v (j + n)%nat + v (i + n)%nat * a (i + n)%nat (j + 2 * n)%nat * v (j + 2 * n)%nat + v (i + n)%nat * a (i + n)%nat (j + 3 * n)%nat * v (j + 3 * n)%nat + v (i + 2 * n)%nat * a (i + 2 * n)%nat j * v j + v (i + 2 * n)%nat * a (i + 2 * n)%nat (j + n)%nat * v (j + n)%nat + v (i + 2 * n)%nat * a (i + 2 * n)%nat (j + 2 * n)%nat * v (j + 2 * n)%nat + v (i + 2 * n)%nat * a (i + 2 * n)%nat (j + 3 * n)%nat * v (j + 3 * n)%nat + v (i + 3 * n)%nat * a (i + 3 * n)%nat j * v j + v (i + 3 * n)%nat * a (i + 3 * n)%nat (j + n)%nat * v (j + n)%nat + v (i + 3 * n)%nat * a (i + 3 * n)%nat (j + 2 * n)%nat * v (j + 2 * n)%nat + v (i + 3 * n)%nat * a (i + 3 * n)%nat (j + 3 * n)%nat * v (j + 3 * n)%nat))).
  2:{ intros i _. rewrite !rsum_four, <- !rsum_plus. apply rsum_ext. intros j _. ring. }
  fold (dsum n (fun i j => v i * a i j * v j + v i * a i (j + n)%nat * v (j + n)%nat + v i * a i (j + 2 * n)%nat * v (j + 2 * n)%nat + v i * a i (j + 3 * n)%nat * v (j + 3 * n)%nat + v (i + n)%nat * a (i + n)%nat j * v j + v (i + n)%nat * a (i + n)%nat (j + n)%nat * v (j + n)%nat + v (i + n)%nat * a (i + n)%nat (j + 2 * n)%nat * v (j + 2 * n)%nat + v (i + n)%nat * a (i + n)%nat (j + 3 * n)%nat * v (j + 3 * n)%nat + v (i + 2 * n)%nat * a (i + 2 * n)%nat j * v j + v (i + 2 * n)%nat * a (i + 2 * n)%nat (j + n)%nat * v (j + n)%nat + v (i + 2 * n)%nat * a (i + 2 * n)%nat (j + 2 * n)%nat * v (j + 2 * n)%nat + v (i + 2 * n)%nat * a (i + 2 * n)%nat (j + 3 * n)%nat * v (j + 3 * n)%nat + v (i + 3 * n)%nat * a (i + 3 * n)%nat j * v j + v (i + 3 * n)%nat * a (i + 3 * n)%nat (j + n)%nat * v (j + n)%nat + v (i + 3 * n)%nat * a (i + 3 * n)%nat (j + 2 * n)%nat * v (j + 2 * n)%nat + v (i + 3 * n)%nat * a (i + 3 * n)%nat (j + 3 * n)%nat * v (j + 3 * n)%nat)). rewrite !dsum_plus.
  rewrite (dsum_ext n (fun i j => v i * a i j * v j) (fun i j => v i * (if Nat.eqb i j then rsum n (A i) else 0) * v j)) by (intros; rewrite H00 by assumption; reflexivity).
  rewrite (dsum_ext n (fun i j => v i * a i (j + n)%nat * v (j + n)%nat) (fun i j => v i * A i j * v (j + n)%nat)) by (intros; rewrite H01 by assumption; reflexivity).
  rewrite (dsum_ext n (fun i j => v i * a i (j + 2 * n)%nat * v (j + 2 * n)%nat) (fun i j => v i * (if Nat.eqb i j then rsum n (B i) else 0) * v (j + 2 * n)%nat)) by (intros; rewrite H02 by assumption; reflexivity).
  rewrite (dsum_ext n (fun i j => v i * a i (j + 3 * n)%nat * v (j + 3 * n)%nat) (fun i j => v i * B i j * v (j + 3 * n)%nat)) by (intros; rewrite H03 by assumption; reflexivity).
  rewrite (dsum_ext n (fun i j => v (i + n)%nat * a (i + n)%nat j * v j) (fun i j => v (i + n)%nat * A j i * v j)) by (intros; rewrite H10 by assumption; reflexivity).
  rewrite (dsum_ext n (fun i j => v (i + n)%nat * a (i + n)%nat (j + n)%nat * v (j + n)%nat) (fun i j => v (i + n)%nat * (if Nat.eqb i j then rsum n ((fun i k => A k i) i) else 0) * v (j + n)%nat)) by (intros; rewrite H11 by assumption; reflexivity).
  rewrite (dsum_ext n (fun i j => v (i + n)%nat * a (i + n)%nat (j + 2 * n)%nat * v (j + 2 * n)%nat) (fun i j => v (i + n)%nat * B j i * v (j + 2 * n)%nat)) by (intros; rewrite H12 by assumption; reflexivity).
  rewrite (dsum_ext n (fun i j => v (i + n)%nat * a (i + n)%nat (j + 3 * n)%nat * v (j + 3 * n)%nat) (fun i j => v (i + n)%nat * (if Nat.eqb i j then rsum n ((fun i k => B k i) i) else 0) * v (j + 3 * n)%nat)) by (intros; rewrite H13 by assumption; reflexivity).
  rewrite (dsum_ext n (fun i j => v (i + 2 * n)%nat * a (i + 2 * n)%nat j * v j) (fun i j => v (i + 2 * n)%nat * (if Nat.eqb i j then rsum n (B i) else 0) * v j)) by (intros; rewrite H20 by assumption; reflexivity).
  rewrite (dsum_ext n (fun i j => v (i + 2 * n)%nat * a (i + 2 * n)%nat (j + n)%nat * v (j + n)%nat) (fun i j => v (i + 2 * n)%nat * B i j * v (j + n)%nat)) by (intros; rewrite H21 by assumption; reflexivity).
  rewrite (dsum_ext n (fun i j => v (i + 2 * n)%nat * a (i + 2 * n)%nat (j + 2 * n)%nat * v (j + 2 * n)%nat) (fun i j => v (i + 2 * n)%nat * (if Nat.eqb i j then rsum n (C i) else 0) * v (j + 2 * n)%nat)) by (intros; rewrite H22 by assumption; reflexivity).
  rewrite (dsum_ext n (fun i j => v (i + 2 * n)%nat * a (i + 2 * n)%nat (j + 3 * n)%nat * v (j + 3 * n)%nat) (fun i j => v (i + 2 * n)%nat * C i j * v (j + 3 * n)%nat)) by (intros; rewrite H23 by assumption; reflexivity).
  rewrite (dsum_ext n (fun i j => v (i + 3 * n)%nat * a (i + 3 * n)%nat j * v j) (fun i j => v (i + 3 * n)%nat * B j i * v j)) by (intros; rewrite H30 by assumption; reflexivity).
  rewrite (dsum_ext n (fun i j => v (i + 3 * n)%nat * a (i + 3 * n)%nat (j + n)%nat * v (j + n)%nat) (fun i j => v (i + 3 * n)%nat * (if Nat.eqb i j then rsum n ((fun i k => B k i) i) else 0) * v (j + n)%nat)) by (intros; rewrite H31 by assumption; reflexivity).
  rewrite (dsum_ext n (fun i j => v (i + 3 * n)%nat * a (i + 3 * n)%nat (j + 2 * n)%nat * v (j + 2 * n)%nat) (fun i j => v (i + 3 * n)%nat * C j i * v (j + 2 * n)%nat)) by (intros; rewrite H32 by assumption; reflexivity).
  rewrite (dsum_ext n (fun i j => v (i + 3 * n)%nat * a (i + 3 * n)%nat (j + 3 * n)%nat * v (j + 3 * n)%nat) (fun i j => v (i + 3 * n)%nat * (if Nat.eqb i j then rsum n ((fun i k => C k i) i) else 0) * v (j + 3 * n)%nat)) by (intros; rewrite H33 by assumption; reflexivity).
  rewrite (dsum_diag n (fun i => v i) (fun i => v i) A).
  rewrite (dsum_diag n (fun i => v i) (fun i => v (i + 2 * n)%nat) B).
  rewrite <- (dsum_swap n (fun i j => v (i + n)%nat * A j i * v j)).
  rewrite (dsum_diag n (fun i => v (i + n)%nat) (fun i => v (i + n)%nat) (fun i k => A k i)).
  rewrite <- (dsum_swap n (fun i j => v (i + n)%nat * A j i * v (i + n)%nat)).
  rewrite <- (dsum_swap n (fun i j => v (i + n)%nat * B j i * v (j + 2 * n)%nat)).
  rewrite (dsum_diag n (fun i => v (i + n)%nat) (fun i => v (i + 3 * n)%nat) (fun i k => B k i)).
  rewrite <- (dsum_swap n (fun i j => v (i + n)%nat * B j i * v (i + 3 * n)%nat)).
  rewrite (dsum_diag n (fun i => v (i + 2 * n)%nat) (fun i => v i) B).
  rewrite (dsum_diag n (fun i => v (i + 2 * n)%nat) (fun i => v (i + 2 * n)%nat) C).
  rewrite <- (dsum_swap n (fun i j => v (i + 3 * n)%nat * B j i * v j)).
  rewrite (dsum_diag n (fun i => v (i + 3 * n)%nat) (fun i => v (i + n)%nat) (fun i k => B k i)).
  rewrite <- (dsum_swap n (fun i j => v (i + 3 * n)%nat * B j i * v (i + n)%nat)).
  rewrite <- (dsum_swap n (fun i j => v (i + 3 * n)%nat * C j i * v (j + 2 * n)%nat)).
  rewrite (dsum_diag n (fun i => v (i + 3 * n)%nat) (fun i => v (i + 3 * n)%nat) (fun i k => C k i)).
  rewrite <- (dsum_swap n (fun i j => v (i + 3 * n)%nat * C j i * v (i + 3 * n)%nat)).
  rewrite <- !dsum_plus. apply dsum_ext. intros; ring.
Qed.

(** Two arrays coupled by undirected pairs: degrees and strengths. *)
Lemma form_pairs n a (A B C : nat -> nat -> R) v :
  (forall i j, (i < n)%nat -> (j < n)%nat -> a i j = (if Nat.eqb i j then rsum n (A i) else 0) + A i j) ->
  (forall i j, (i < n)%nat -> (j < n)%nat -> a i (j + n)%nat = (if Nat.eqb i j then rsum n (B i) else 0) + B i j) ->
  (forall i j, (i < n)%nat -> (j < n)%nat -> a (i + n)%nat j = (if Nat.eqb i j then rsum n (B i) else 0) + B i j) ->
  (forall i j, (i < n)%nat -> (j < n)%nat -> a (i + n)%nat (j + n)%nat = (if Nat.eqb i j then rsum n (C i) else 0) + C i j) ->
  (forall i j, (i < n)%nat -> (j < n)%nat -> A i j = A j i) ->
  (forall i j, (i < n)%nat -> (j < n)%nat -> B i j = B j i) ->
  (forall i j, (i < n)%nat -> (j < n)%nat -> C i j = C j i) ->
  2 * qform (2 * n) a v = dsum n (fun i j =>
    A i j * ((v i + v j) * (v i + v j)) + 2 * B i j * ((v i + v j) * (v (i + n)%nat + v (j + n)%nat))
    + C i j * ((v (i + n)%nat + v (j + n)%nat) * (v (i + n)%nat + v (j + n)%nat))).
Proof.
  intros H00 H01 H10 H11 SA SB SC.
  assert (E : qform (2 * n) a v = dsum n (fun i j =>
    (v i * A i j * v i + v i * A i j * v j) + (v i * B i j * v (i + n)%nat + v i * B i j * v (j + n)%nat) + (v (i + n)%nat * B i j * v i + v (i + n)%nat * B i j * v j) + (v (i + n)%nat * C i j * v (i + n)%nat + v (i + n)%nat * C i j * v (j + n)%nat))).
  { unfold qform. rewrite rsum_two.
  rewrite (rsum_ext n _ (fun i => rsum n (fun j => v i * a i j * v j + v i * a i (j + n)%nat * v (j + n)%nat + v (i + n)%nat * a (i + n)%nat j * v j + v (i + n)%nat * a (i + n)%nat (j + n)%nat * v (j + n)%nat))).
  2:{ intros i _. rewrite !rsum_two, <- !rsum_plus. apply rsum_ext. intros j _. ring. }
  fold (dsum n (fun i j => v i * a i j * v j + v i * a i (j + n)%nat * v (j + n)%nat + v (i + n)%nat * a (i + n)%nat j * v j + v (i + n)%nat * a (i + n)%nat (j + n)%nat * v (j + n)%nat)). rewrite !dsum_plus.
  rewrite (dsum_ext n (fun i j => v i * a i j * v j) (fun i j => v i * (if Nat.eqb i j then rsum n (A i) else 0) * v j + v i * A i j * v j)) by (intros; rewrite H00 by assumption; ring).
  rewrite (dsum_plus n (fun i j => v i * (if Nat.eqb i j then rsum n (A i) else 0) * v j)), (dsum_diag n (fun i => v i) (fun i => v i) A).
  rewrite (dsum_ext n (fun i j => v i * a i (j + n)%nat * v (j + n)%nat) (fun i j => v i * (if Nat.eqb i j then rsum n (B i) else 0) * v (j + n)%nat + v i * B i j * v (j + n)%nat)) by (intros; rewrite H01 by assumption; ring).
  rewrite (dsum_plus n (fun i j => v i * (if Nat.eqb i j then rsum n (B i) else 0) * v (j + n)%nat)), (dsum_diag n (fun i => v i) (fun i => v (i + n)%nat) B).
  rewrite (dsum_ext n (fun i j => v (i + n)%nat * a (i + n)%nat j * v j) (fun i j => v (i + n)%nat * (if Nat.eqb i j then rsum n (B i) else 0) * v j + v (i + n)%nat * B i j * v j)) by (intros; rewrite H10 by assumption; ring).
  rewrite (dsum_plus n (fun i j => v (i + n)%nat * (if Nat.eqb i j then rsum n (B i) else 0) * v j)), (dsum_diag n (fun i => v (i + n)%nat) (fun i => v i) B).
  rewrite (dsum_ext n (fun i j => v (i + n)%nat * a (i + n)%nat (j + n)%nat * v (j + n)%nat) (fun i j => v (i + n)%nat * (if Nat.eqb i j then rsum n (C i) else 0) * v (j + n)%nat + v (i + n)%nat * C i j * v (j + n)%nat)) by (intros; rewrite H11 by assumption; ring).
  rewrite (dsum_plus n (fun i j => v (i + n)%nat * (if Nat.eqb i j then rsum n (C i) else 0) * v (j + n)%nat)), (dsum_diag n (fun i => v (i + n)%nat) (fun i => v (i + n)%nat) C).
  reflexivity. }
  match type of E with _ = dsum n ?F => set (G := F) in E end.
  replace (2 * qform (2 * n) a v) with (dsum n G + dsum n (fun i j => G j i)) by (rewrite (dsum_swap n G), E; ring).
  rewrite <- dsum_plus. apply dsum_ext. intros i j Hi Hj. unfold G. rewrite (SA j i), (SB j i), (SC j i) by assumption. ring.
Qed.
