(** The Hessian regularisers. *)
From Coq Require Import Reals List Arith Lia Lra Bool.
From Verif Require Import Base ModelLinsearch SpecLinsearch.
Local Open Scope R_scope.

Lemma qform_ext n a b v : (forall i j, (i < n)%nat -> (j < n)%nat -> a i j = b i j) -> qform n a v = qform n b v.
Proof. intros H. unfold qform. apply rsum_ext. intros i Hi. apply rsum_ext. intros j Hj. rewrite H by assumption. reflexivity. Qed.

Lemma qform_apply n a v : qform n a v = scalar n v (apply_mat n a v).
Proof.
  unfold qform, scalar, apply_mat. apply rsum_ext. intros i Hi. rewrite <- rsum_scal_l. apply rsum_ext. intros j Hj. ring.
Qed.

Lemma qform_sym n b v : qform n (symmetrise b) v = qform n b v.
Proof.
  unfold qform, symmetrise.
  rewrite (rsum_ext n _ (fun i => rsum n (fun j => / 2 * (v i * b i j * v j)) + rsum n (fun j => / 2 * (v i * b j i * v j)))).
  2: { intros i Hi. rewrite <- rsum_plus. apply rsum_ext. intros j Hj. field. }
  rewrite rsum_plus. rewrite (rsum_swap n n (fun i j => / 2 * (v i * b j i * v j))).
  rewrite <- rsum_plus. apply rsum_ext. intros i Hi. rewrite <- rsum_plus. apply rsum_ext. intros j Hj. field.
Qed.

(** * The identity-based regulariser *)
Lemma regulariser_spec n b eps :
  symmetric n (matrix_regulariser_function b eps) /\
  forall v, qform n (matrix_regulariser_function b eps) v = qform n b v + eps * scalar n v v.
Proof.
  split.
  - intros i j Hi Hj. unfold matrix_regulariser_function, symmetrise, identity. cbv zeta. rewrite (Nat.eqb_sym j i). ring.
  - intros v. rewrite <- (qform_sym n b v). unfold qform, scalar, matrix_regulariser_function, identity. cbv zeta.
    rewrite <- rsum_scal_l, <- rsum_plus. apply rsum_ext. intros i Hi.
    rewrite (rsum_ext n _ (fun j => v i * symmetrise b i j * v j + (if Nat.eqb j i then eps * (v i * v j) else 0))).
    2: { intros j Hj. rewrite (Nat.eqb_sym j i). destruct (Nat.eqb i j); ring. }
    rewrite rsum_plus. f_equal. rewrite (rsum_single n i (fun j => eps * (v i * v j)) Hi). ring.
Qed.

(** * The eigenvalue-based regulariser *)
Section Eigen.
  Variables (eigh : (nat -> nat -> R) -> (nat -> R) * (nat -> nat -> R)) (n : nat) (b : nat -> nat -> R) (eps : R).
  Let t := fst (eigh (symmetrise b)).
  Let e := snd (eigh (symmetrise b)).
  Hypothesis H : eigen_decomposition n (symmetrise b) t e.
  Let M := matrix_regulariser_function_eigen_based eigh n b eps.
  Let d (p : nat) : R := (if Rlt_dec eps (t p) then 0 else eps - t p) + t p.

  Lemma eigen_entry i j : (i < n)%nat -> (j < n)%nat -> M i j = rsum n (fun p => e i p * d p * e j p).
  Proof.
    intros Hi Hj. unfold M, matrix_regulariser_function_eigen_based, matmul, transpose, diag. cbv zeta.
    apply rsum_ext. intros p Hp. f_equal. fold t e.
    rewrite (rsum_ext n _ (fun k => if Nat.eqb k p then e i k * d k else 0)).
    - rewrite (rsum_single n p (fun k => e i k * d k) Hp). reflexivity.
    - intros k Hk. destruct (Nat.eqb k p); [reflexivity|ring].
  Qed.
  Lemma spectral_qform (w : nat -> R) (A : nat -> nat -> R) v :
    (forall i j, (i < n)%nat -> (j < n)%nat -> A i j = rsum n (fun p => e i p * w p * e j p)) ->
    qform n A v = rsum n (fun p => w p * (rsum n (fun i => e i p * v i) * rsum n (fun i => e i p * v i))).
  Proof.
    intros HA. unfold qform.
    rewrite (rsum_ext n _ (fun i => rsum n (fun p => (e i p * v i) * (w p * rsum n (fun j => e j p * v j))))).
    - rewrite rsum_swap. apply rsum_ext. intros p Hp. rewrite rsum_scal_r. ring.
    - intros i Hi. rewrite (rsum_ext n _ (fun j => rsum n (fun p => (e i p * v i) * w p * (e j p * v j)))).
      + rewrite rsum_swap. apply rsum_ext. intros p Hp. rewrite rsum_scal_l. ring.
      + intros j Hj. rewrite (HA i j Hi Hj), <- rsum_scal_l, <- rsum_scal_r. apply rsum_ext. intros p Hp. ring.
  Qed.
  Lemma parseval v : rsum n (fun p => rsum n (fun i => e i p * v i) * rsum n (fun i => e i p * v i)) = scalar n v v.
  Proof.
    transitivity (qform n (fun i j => if Nat.eqb i j then 1 else 0) v).
    - rewrite (spectral_qform (fun _ => 1)).
      + apply rsum_ext. intros p Hp. ring.
      + intros i j Hi Hj. rewrite <- (proj1 (proj2 H) i j Hi Hj). apply rsum_ext. intros; ring.
    - unfold qform, scalar. apply rsum_ext. intros i Hi.
      rewrite (rsum_ext n _ (fun j => if Nat.eqb j i then v i * v j else 0)).
      + rewrite (rsum_single n i (fun j => v i * v j) Hi). reflexivity.
      + intros j Hj. rewrite (Nat.eqb_sym j i). destruct (Nat.eqb i j); ring.
  Qed.
  Lemma d_ge p : eps <= d p.
  Proof. unfold d. destruct (Rlt_dec eps (t p)); lra. Qed.

  Lemma eigen_sym : symmetric n M.
  Proof. intros i j Hi Hj. rewrite !eigen_entry by assumption. apply rsum_ext. intros; ring. Qed.
  Lemma eigen_qform v : eps * scalar n v v <= qform n M v.
  Proof.
    rewrite (spectral_qform d M v eigen_entry), <- (parseval v), <- rsum_scal_l. apply rsum_le. intros p Hp.
    apply Rmult_le_compat_r; [apply Rle_0_sqr|apply d_ge].
  Qed.
  Lemma scalar_pos v : (exists i, (i < n)%nat /\ v i <> 0) -> 0 < scalar n v v.
  Proof.
    intros (i & Hi & Hv). unfold scalar. apply Rlt_le_trans with (v i * v i).
    - assert (0 < Rsqr (v i)) by (apply Rsqr_pos_lt; exact Hv). unfold Rsqr in *. assumption.
    - rewrite <- (rsum_single n i (fun i => v i * v i) Hi). apply rsum_le. intros j Hj. destruct (Nat.eqb j i); [lra|apply Rle_0_sqr].
  Qed.
  Lemma eigen_eigenvalue l v : (exists i, (i < n)%nat /\ v i <> 0) ->
    (forall i, (i < n)%nat -> apply_mat n M v i = l * v i) -> eps <= l.
  Proof.
    intros Hv HE. pose proof (scalar_pos v Hv) as HP. pose proof (eigen_qform v) as HQ. rewrite qform_apply in HQ.
    assert (E : scalar n v (apply_mat n M v) = l * scalar n v v).
    { unfold scalar. rewrite <- rsum_scal_l. apply rsum_ext. intros i Hi. rewrite (HE i Hi). ring. }
    rewrite E in HQ. apply Rmult_le_reg_r with (scalar n v v); assumption.
  Qed.
  Lemma eigen_unchanged : (forall v, eps * scalar n v v <= qform n b v) ->
    forall i j, (i < n)%nat -> (j < n)%nat -> M i j = symmetrise b i j.
  Proof.
    intros HB i j Hi Hj. rewrite eigen_entry by assumption. rewrite (proj2 (proj2 H) i j Hi Hj). apply rsum_ext. intros p Hp. f_equal. f_equal.
    assert (HT : eps <= t p).
    { specialize (HB (fun i => e i p)). rewrite <- qform_sym in HB.
      rewrite (spectral_qform t _ _ (proj2 (proj2 H))) in HB.
      rewrite (rsum_ext n _ (fun q => if Nat.eqb q p then t q else 0)) in HB.
      - rewrite (rsum_single n p t Hp) in HB. unfold scalar in HB. rewrite (proj1 H p p Hp Hp), Nat.eqb_refl in HB. lra.
      - intros q Hq. rewrite (proj1 H q p Hq Hp). destruct (Nat.eqb q p); ring. }
    unfold d. destruct (Rlt_dec eps (t p)); lra.
  Qed.
End Eigen.

Lemma eigen_regulariser_spec eigh n b eps :
  eigen_decomposition n (symmetrise b) (fst (eigh (symmetrise b))) (snd (eigh (symmetrise b))) ->
  let M := matrix_regulariser_function_eigen_based eigh n b eps in
  symmetric n M /\
  (forall v, eps * scalar n v v <= qform n M v) /\
  (forall l v, (exists i, (i < n)%nat /\ v i <> 0) -> (forall i, (i < n)%nat -> apply_mat n M v i = l * v i) -> eps <= l) /\
  ((forall v, eps * scalar n v v <= qform n b v) -> symmetric n b ->
     forall i j, (i < n)%nat -> (j < n)%nat -> M i j = b i j).
Proof.
  intros H M. split; [apply eigen_sym|]. split; [apply eigen_qform; exact H|]. split; [apply eigen_eigenvalue; exact H|].
  intros HB HS i j Hi Hj. unfold M. rewrite (eigen_unchanged eigh n b eps H HB i j Hi Hj). unfold symmetrise.
  rewrite (HS j i Hj Hi). field.
Qed.

(** * Newton directions *)
Lemma nonzero_or_all n (v : nat -> R) : (exists i, (i < n)%nat /\ v i <> 0) \/ (forall i, (i < n)%nat -> v i = 0).
Proof.
  induction n as [|n [(i & Hi & Hv)|IH]]; [right; intros; lia|left; exists i; split; [lia|exact Hv]|].
  destruct (Req_EM_T (v n) 0) as [E|E]; [right|left; exists n; split; [lia|exact E]].
  intros i Hi. destruct (Nat.eq_dec i n) as [->|Hne]; [exact E|apply IH; lia].
Qed.
Lemma newton_descent n B f dx :
  (forall v, (exists i, (i < n)%nat /\ v i <> 0) -> 0 < qform n B v) ->
  (forall i, (i < n)%nat -> apply_mat n B dx i = - f i) -> (exists i, (i < n)%nat /\ f i <> 0) ->
  scalar n f dx < 0.
Proof.
  intros HP HE (i & Hi & Hf).
  assert (HV : 0 < qform n B dx).
  { apply HP. destruct (nonzero_or_all n dx) as [NZ|Z]; [exact NZ|].
    exfalso. apply Hf. specialize (HE i Hi). unfold apply_mat in HE. rewrite rsum_zero in HE; [lra|].
    intros j Hj. rewrite (Z j Hj). ring. }
  rewrite qform_apply in HV.
  assert (E : scalar n dx (apply_mat n B dx) = - scalar n f dx).
  { unfold scalar. rewrite <- rsum_opp. apply rsum_ext. intros j Hj. rewrite (HE j Hj). ring. }
  lra.
Qed.

(** Direction computed from the eigenvalue-based regularised matrix. *)
Lemma regularised_descent eigh n b eps f dx :
  0 < eps -> eigen_decomposition n (symmetrise b) (fst (eigh (symmetrise b))) (snd (eigh (symmetrise b))) ->
  (forall i, (i < n)%nat -> apply_mat n (matrix_regulariser_function_eigen_based eigh n b eps) dx i = - f i) ->
  (exists i, (i < n)%nat /\ f i <> 0) -> scalar n f dx < 0.
Proof.
  intros He H HE Hf. apply (newton_descent n (matrix_regulariser_function_eigen_based eigh n b eps)); [|exact HE|exact Hf].
  intros v Hv. apply Rlt_le_trans with (eps * scalar n v v); [|apply eigen_qform; exact H].
  apply Rmult_lt_0_compat; [exact He|apply scalar_pos; exact Hv].
Qed.
(** ... and from the identity-based one when the matrix is positive semidefinite. *)
Lemma regularised_descent_identity n b eps f dx :
  0 < eps -> (forall v, 0 <= qform n b v) ->
  (forall i, (i < n)%nat -> apply_mat n (matrix_regulariser_function b eps) dx i = - f i) ->
  (exists i, (i < n)%nat /\ f i <> 0) -> scalar n f dx < 0.
Proof.
  intros He H HE Hf. apply (newton_descent n (matrix_regulariser_function b eps)); [|exact HE|exact Hf].
  intros v Hv. rewrite (proj2 (regulariser_spec n b eps) v). pose proof (scalar_pos n v Hv). specialize (H v).
  assert (0 < eps * scalar n v v) by (apply Rmult_lt_0_compat; assumption). lra.
Qed.
(** The identity-based regulariser does not make an arbitrary matrix definite. *)
Lemma identity_regulariser_refuted : exists n b eps v, 0 < eps /\ symmetric n b /\
  (exists i, (i < n)%nat /\ v i <> 0) /\ qform n (matrix_regulariser_function b eps) v < 0.
Proof.
  exists 1%nat, (fun _ _ => - (2)), 1, (fun _ => 1). split; [lra|]. split; [intros i j Hi Hj; reflexivity|].
  split; [exists 0%nat; split; [lia|lra]|]. unfold qform, rsum, loop, matrix_regulariser_function, symmetrise, identity. simpl. lra.
Qed.

(** A concrete decomposition. *)
Definition demo_b (i j : nat) : R := if Nat.eqb i j then (if Nat.eqb i 0 then 3 else - (1)) else 0.
Definition demo_eigh (b : nat -> nat -> R) : (nat -> R) * (nat -> nat -> R) := (fun i => b i i, identity).
Lemma demo_eigen : eigen_decomposition 2 (symmetrise demo_b) (fst (demo_eigh (symmetrise demo_b))) (snd (demo_eigh (symmetrise demo_b))) /\
  matrix_regulariser_function_eigen_based demo_eigh 2 demo_b (/ 2) 1%nat 1%nat = / 2 /\
  matrix_regulariser_function_eigen_based demo_eigh 2 demo_b (/ 2) 0%nat 0%nat = 3.
Proof.
  split; [|split].
  - unfold eigen_decomposition, demo_eigh, symmetrise, demo_b, identity, rsum, loop. simpl.
    split; [|split]; intros i j Hi Hj; destruct i as [|[|i]], j as [|[|j]]; try lia; simpl; lra.
  - unfold matrix_regulariser_function_eigen_based, demo_eigh, symmetrise, demo_b, identity, matmul, transpose, diag, rsum, loop. simpl.
    repeat destruct (Rlt_dec _ _); lra.
  - unfold matrix_regulariser_function_eigen_based, demo_eigh, symmetrise, demo_b, identity, matmul, transpose, diag, rsum, loop. simpl.
    repeat destruct (Rlt_dec _ _); lra.
Qed.
