(** Every function of the degree models commutes with a renaming of the nodes. *)
From Coq Require Import Reals List Arith Lia Lra Bool.
From Verif Require Import Base SpecDirected SpecNetwork SpecSymmetry SpecEnsemble.
From Verif Require Import ModelCM ModelECM ModelDCM ModelDECM.
From Verif Require Import ProofsUnique ProofsList ProofsECM ProofsDECM ProofsRelabel.
Local Open Scope R_scope.

Section Equi.
Variables (n : nat) (p : nat -> nat).
Hypothesis HP : relabelling n p.

Local Notation ren v := (fun i : nat => v (p i)).
Local Notation renb v := (fun r : nat => v (lift n p r)).

(** * UBCM *)

Lemma iterative_cm_equi k c x i : (i < n)%nat ->
  iterative_cm n (ren k) (ren c) (ren x) i = iterative_cm n k c x (p i).
Proof. intros Hi. unfold iterative_cm. cbv zeta. relab HP. Qed.
Lemma prime_cm_equi k c x i : (i < n)%nat ->
  loglikelihood_prime_cm n (ren k) (ren c) (ren x) i = loglikelihood_prime_cm n k c x (p i).
Proof. intros Hi. unfold loglikelihood_prime_cm. cbv zeta. relab HP. Qed.
Lemma hessian_diag_cm_equi k c x i : (i < n)%nat ->
  loglikelihood_hessian_diag_cm n (ren k) (ren c) (ren x) i = loglikelihood_hessian_diag_cm n k c x (p i).
Proof. intros Hi. unfold loglikelihood_hessian_diag_cm. cbv zeta. relab HP. Qed.
Lemma expected_cm_equi x i : (i < n)%nat ->
  expected_degree_cm n (ren x) i = expected_degree_cm n x (p i).
Proof. intros Hi. unfold expected_degree_cm. cbv zeta. relab HP. Qed.
Lemma loglik_cm_equi k c x : loglikelihood_cm n (ren k) (ren c) (ren x) = loglikelihood_cm n k c x.
Proof. unfold loglikelihood_cm. cbv zeta. relab HP. Qed.

Lemma iterative_cm_exp_equi k c x i : (i < n)%nat ->
  iterative_cm_exp n (ren k) (ren c) (ren x) i = iterative_cm_exp n k c x (p i).
Proof. intros Hi. unfold iterative_cm_exp. cbv zeta. relab HP. Qed.
Lemma prime_cm_exp_equi k c x i : (i < n)%nat ->
  loglikelihood_prime_cm_exp n (ren k) (ren c) (ren x) i = loglikelihood_prime_cm_exp n k c x (p i).
Proof. intros Hi. unfold loglikelihood_prime_cm_exp. cbv zeta. relab HP. Qed.
Lemma hessian_diag_cm_exp_equi c x i : (i < n)%nat ->
  loglikelihood_hessian_diag_cm_exp n (ren c) (ren x) i = loglikelihood_hessian_diag_cm_exp n c x (p i).
Proof. intros Hi. unfold loglikelihood_hessian_diag_cm_exp. cbv zeta. relab HP. Qed.
Lemma loglik_cm_exp_equi k c x :
  loglikelihood_cm_exp n (ren k) (ren c) (ren x) = loglikelihood_cm_exp n k c x.
Proof. unfold loglikelihood_cm_exp. cbv zeta. relab HP. Qed.

(** * UECM *)

Ltac by2 := apply coord2; intros i Hi; cbv beta; rewrite ?plus_n_minus; lifts HP;
  rewrite ?ltb_plus_n, ?plus_n_minus, ?(proj2 (Nat.ltb_lt _ _) Hi),
    ?(proj2 (Nat.ltb_lt _ _) (relabelling_lt n p i HP Hi)); lifts HP.

Lemma iterative_ecm_equi k s x : forall r, (r < 2 * n)%nat ->
  iterative_ecm n (ren k) (ren s) (renb x) r = iterative_ecm n k s x (lift n p r).
Proof. unfold iterative_ecm. cbv zeta. by2; relab HP. Qed.
Lemma prime_ecm_equi k s x : forall r, (r < 2 * n)%nat ->
  loglikelihood_prime_ecm n (ren k) (ren s) (renb x) r = loglikelihood_prime_ecm n k s x (lift n p r).
Proof. unfold loglikelihood_prime_ecm. cbv zeta. by2; relab HP. Qed.
Lemma hessian_diag_ecm_equi k s x : forall r, (r < 2 * n)%nat ->
  loglikelihood_hessian_diag_ecm n (ren k) (ren s) (renb x) r
  = loglikelihood_hessian_diag_ecm n k s x (lift n p r).
Proof. unfold loglikelihood_hessian_diag_ecm. cbv zeta. by2; relab HP. Qed.
Lemma expected_ecm_equi x : forall r, (r < 2 * n)%nat ->
  expected_ecm n (renb x) r = expected_ecm n x (lift n p r).
Proof. unfold expected_ecm. cbv zeta. by2; relab HP. Qed.
Lemma iterative_ecm_exp_equi k s x : forall r, (r < 2 * n)%nat ->
  iterative_ecm_exp n (ren k) (ren s) (renb x) r = iterative_ecm_exp n k s x (lift n p r).
Proof. unfold iterative_ecm_exp. cbv zeta. by2; relab HP. Qed.
Lemma prime_ecm_exp_equi k s x : forall r, (r < 2 * n)%nat ->
  loglikelihood_prime_ecm_exp n (ren k) (ren s) (renb x) r = loglikelihood_prime_ecm_exp n k s x (lift n p r).
Proof. unfold loglikelihood_prime_ecm_exp. cbv zeta. by2; relab HP. Qed.
Lemma hessian_diag_ecm_exp_equi x : forall r, (r < 2 * n)%nat ->
  loglikelihood_hessian_diag_ecm_exp n (renb x) r = loglikelihood_hessian_diag_ecm_exp n x (lift n p r).
Proof. unfold loglikelihood_hessian_diag_ecm_exp. cbv zeta. by2; relab HP. Qed.

Lemma usum_relabel g g' : (forall i j, g i j = g j i) -> (forall i j, g' i j = g' j i) ->
  (forall i j, (i < n)%nat -> (j < n)%nat -> g' i j = g (p i) (p j)) ->
  usum n g' = usum n g.
Proof.
  intros Hs Hs' H. apply Rmult_eq_reg_l with 2; [|lra].
  rewrite <- (rsum_offdiag_sym n g' Hs'), <- (rsum_offdiag_sym n g Hs).
  rewrite <- (rsum_relabel n p (fun i => rsum n (fun j => if Nat.eqb i j then 0 else g i j)) HP).
  apply rsum_ext. intros i Hi.
  rewrite <- (rsum_relabel n p (fun j => if Nat.eqb (p i) j then 0 else g (p i) j) HP).
  apply rsum_ext. intros j Hj. rewrite (eqb_relabel n p i j HP Hi Hj).
  destruct (Nat.eqb i j); [reflexivity|]. apply H; assumption.
Qed.

Lemma loglik_ecm_equi k s x : loglikelihood_ecm n (ren k) (ren s) (renb x) = loglikelihood_ecm n k s x.
Proof.
  rewrite !loglik_ecm_nf. f_equal.
  - rewrite <- (rsum_relabel n p (fun i => k i * ln (x i) + s i * ln (x (i + n)%nat)) HP).
    apply rsum_ext. intros i Hi. lifts HP. reflexivity.
  - apply usum_relabel.
    + intros i j. rewrite (Rmult_comm (x (j + n)%nat)), (Rmult_comm (x j)). reflexivity.
    + intros i j. rewrite (Rmult_comm (x (lift n p (j + n)))), (Rmult_comm (x (lift n p j))). reflexivity.
    + intros i j Hi Hj. lifts HP. reflexivity.
Qed.
Lemma loglik_ecm_exp_equi k s x :
  loglikelihood_ecm_exp n (ren k) (ren s) (renb x) = loglikelihood_ecm_exp n k s x.
Proof.
  rewrite !loglik_ecm_exp_nf. f_equal; [f_equal|].
  - rewrite <- (rsum_relabel n p (fun i => k i * x i + s i * x (i + n)%nat) HP).
    apply rsum_ext. intros i Hi. lifts HP. reflexivity.
  - apply usum_relabel.
    + intros i j. rewrite (Rmult_comm (exp (- x (j + n)%nat))), (Rmult_comm (exp (- x j))). reflexivity.
    + intros i j. rewrite (Rmult_comm (exp (- x (lift n p (j + n))))), (Rmult_comm (exp (- x (lift n p j)))). reflexivity.
    + intros i j Hi Hj. lifts HP. reflexivity.
Qed.

(** Hessians written on one side of the diagonal and copied: the value must not
    depend on which of the two nodes comes first. *)
Lemma assemble2_equi d1 d2 d3 xx xy yy yx d1' d2' d3' xx' xy' yy' yx' :
  (forall i, (i < n)%nat -> d1' i = d1 (p i) /\ d2' i = d2 (p i) /\ d3' i = d3 (p i)) ->
  (forall i j, (i < n)%nat -> (j < n)%nat ->
     xx' i j = xx (p i) (p j) /\ xy' i j = xy (p i) (p j) /\ yy' i j = yy (p i) (p j) /\ yx' i j = yx (p i) (p j)) ->
  (forall i j, xx i j = xx j i) -> (forall i j, yy i j = yy j i) -> (forall i j, xy i j = yx j i) ->
  forall r t, (r < 2 * n)%nat -> (t < 2 * n)%nat ->
  assemble2 n d1' d2' d3' xx' xy' yy' yx' r t = assemble2 n d1 d2 d3 xx xy yy yx (lift n p r) (lift n p t).
Proof.
  intros HD HO Sx Sy Sm.
  assert (K : forall (c c' : bool) (a a' b b' : R), a = a' -> a' = b' -> b = b' ->
     (if c then a else b) = (if c' then a' else b')).
  { intros c c' a a' b b' -> -> ->. destruct c, c'; reflexivity. }
  assert (L : forall i, (i < n)%nat -> Nat.ltb i n = true) by (intros; apply Nat.ltb_lt; assumption).
  apply (coord22 n (fun r t => assemble2 n d1' d2' d3' xx' xy' yy' yx' r t
     = assemble2 n d1 d2 d3 xx xy yy yx (lift n p r) (lift n p t))); intros i j Hi Hj;
    pose proof (relabelling_lt n p i HP Hi) as Hpi; pose proof (relabelling_lt n p j HP Hj) as Hpj;
    unfold assemble2; lifts HP; rewrite ?ltb_plus_n, ?plus_n_minus, ?(L i Hi), ?(L j Hj), ?(L _ Hpi), ?(L _ Hpj);
    rewrite ?(eqb_relabel n p i j HP Hi Hj);
    destruct (HD i Hi) as (D1 & D2 & D3); destruct (HO i j Hi Hj) as (O1 & O2 & O3 & O4);
    destruct (HO j i Hj Hi) as (Q1 & Q2 & Q3 & Q4);
    (destruct (Nat.eqb i j) eqn:E; [assumption|]);
    apply K; auto.
Qed.

Ltac symm := intros i j; cbv beta zeta;
  repeat match goal with
  | |- context [?a (?f i) * ?a (?f j)] =>
      match goal with |- context [a (f j) * a (f i)] => rewrite (Rmult_comm (a (f j)) (a (f i))) end
  end.

Lemma hessian_ecm_equi k s x : forall r t, (r < 2 * n)%nat -> (t < 2 * n)%nat ->
  loglikelihood_hessian_ecm n (ren k) (ren s) (renb x) r t
  = loglikelihood_hessian_ecm n k s x (lift n p r) (lift n p t).
Proof.
  unfold loglikelihood_hessian_ecm. apply assemble2_equi.
  - intros i Hi. split; [|split].
    + unfold hessian_ecm_f1. cbv zeta. lifts HP. relab HP.
    + unfold hessian_ecm_f2. cbv zeta. lifts HP. relab HP.
    + unfold hessian_ecm_f3. cbv zeta. lifts HP. relab HP.
  - intros i j Hi Hj. unfold hessian_ecm_xx, hessian_ecm_xy, hessian_ecm_yy, hessian_ecm_yx. cbv zeta.
    lifts HP. repeat split; reflexivity.
  - intros i j. unfold hessian_ecm_xx. cbv zeta.
    rewrite (Rmult_comm (x j)), (Rmult_comm (x (j + n)%nat)). reflexivity.
  - intros i j. unfold hessian_ecm_yy. cbv zeta.
    rewrite (Rmult_comm (x j)), (Rmult_comm (x (j + n)%nat)). reflexivity.
  - intros i j. unfold hessian_ecm_xy, hessian_ecm_yx. cbv zeta.
    rewrite (Rmult_comm (x j) (x i)), (Rmult_comm (x (j + n)%nat)). reflexivity.
Qed.
Lemma hessian_ecm_exp_equi x : forall r t, (r < 2 * n)%nat -> (t < 2 * n)%nat ->
  loglikelihood_hessian_ecm_exp n (renb x) r t
  = loglikelihood_hessian_ecm_exp n x (lift n p r) (lift n p t).
Proof.
  unfold loglikelihood_hessian_ecm_exp. apply assemble2_equi.
  - intros i Hi. split; [|split].
    + unfold hessian_ecm_exp_f1. cbv zeta. lifts HP. relab HP.
    + unfold hessian_ecm_exp_f2. cbv zeta. lifts HP. relab HP.
    + unfold hessian_ecm_exp_f3. cbv zeta. lifts HP. relab HP.
  - intros i j Hi Hj. unfold hessian_ecm_exp_xx, hessian_ecm_exp_xy, hessian_ecm_exp_yy, hessian_ecm_exp_yx. cbv zeta.
    lifts HP. repeat split; reflexivity.
  - intros i j. unfold hessian_ecm_exp_xx. cbv zeta.
    rewrite (Rmult_comm (exp (- x j))), (Rmult_comm (exp (- x (j + n)%nat))). reflexivity.
  - intros i j. unfold hessian_ecm_exp_yy. cbv zeta.
    rewrite (Rmult_comm (exp (- x j))), (Rmult_comm (exp (- x (j + n)%nat))). reflexivity.
  - intros i j. unfold hessian_ecm_exp_xy, hessian_ecm_exp_yx. cbv zeta.
    rewrite (Rmult_comm (exp (- x j)) (exp (- x i))), (Rmult_comm (exp (- x (j + n)%nat))). reflexivity.
Qed.

Lemma hessian_cm_exp_equi c x i j : (i < n)%nat -> (j < n)%nat ->
  loglikelihood_hessian_cm_exp n (ren c) (ren x) i j = loglikelihood_hessian_cm_exp n c x (p i) (p j).
Proof.
  intros Hi Hj.
  assert (S : forall i j, hessian_cm_exp_aux n c x i j = hessian_cm_exp_aux n c x j i).
  { intros a b. unfold hessian_cm_exp_aux. cbv zeta.
    destruct (Nat.eqb_spec a b) as [->|N]; [rewrite Nat.eqb_refl; reflexivity|].
    rewrite (proj2 (Nat.eqb_neq b a)) by auto.
    rewrite (Rmult_comm (exp (- x b))). ring. }
  assert (A : forall i j, (i < n)%nat -> (j < n)%nat ->
     hessian_cm_exp_aux n (ren c) (ren x) i j = hessian_cm_exp_aux n c x (p i) (p j)).
  { intros a b Ha Hb. unfold hessian_cm_exp_aux. cbv zeta. lifts HP.
    destruct (Nat.eqb a b); relab HP. }
  unfold loglikelihood_hessian_cm_exp.
  destruct (Nat.leb i j), (Nat.leb (p i) (p j)); rewrite ?A by assumption; auto.
Qed.

(** The diagonal of the UBCM Hessian. *)
Lemma hessian_cm_diag_equi k c x i : (i < n)%nat ->
  loglikelihood_hessian_cm n (ren k) (ren c) (ren x) i i = loglikelihood_hessian_cm n k c x (p i) (p i).
Proof.
  intros Hi. unfold loglikelihood_hessian_cm, hessian_cm_aux. rewrite !Nat.leb_refl, !Nat.eqb_refl.
  cbv zeta. relab HP.
Qed.

(** * DBCM *)
Section DCM.
Variables (nzo nzi nzo' nzi' : list nat).
Hypothesis HO : renamed_list n p nzo' nzo.
Hypothesis HI : renamed_list n p nzi' nzi.

Lemma f_out_equi c x i : (i < n)%nat -> dcm_f_out n (ren c) (renb x) i = dcm_f_out n c x (p i).
Proof. intros Hi. unfold dcm_f_out. lifts HP. relab HP. Qed.
Lemma f_in_equi c x i : (i < n)%nat -> dcm_f_in n (ren c) (renb x) i = dcm_f_in n c x (p i).
Proof. intros Hi. unfold dcm_f_in. lifts HP. relab HP. Qed.

Lemma iterative_dcm_equi ko ki c x : forall r, (r < 2 * n)%nat ->
  iterative_dcm n (ren ko) (ren ki) (ren c) (renb x) r = iterative_dcm n ko ki c x (lift n p r).
Proof.
  unfold iterative_dcm. by2; [rewrite f_out_equi|rewrite f_in_equi]; auto.
Qed.
Lemma iterative_dcm_exp_equi ko ki c x : forall r, (r < 2 * n)%nat ->
  iterative_dcm_exp n (ren ko) (ren ki) (ren c) (renb x) r = iterative_dcm_exp n ko ki c x (lift n p r).
Proof.
  unfold iterative_dcm_exp. cbv zeta.
  by2; [rewrite (f_out_equi c (fun r => expneg (x r)))|rewrite (f_in_equi c (fun r => expneg (x r)))]; auto.
Qed.

Ltac mem := rewrite ?(memb_relabel n p nzo' nzo _ HO), ?(memb_relabel n p nzi' nzi _ HI) by assumption.

Lemma prime_dcm_equi ko ki c x : forall r, (r < 2 * n)%nat ->
  loglikelihood_prime_dcm n (ren ko) (ren ki) nzo' nzi' (ren c) (renb x) r
  = loglikelihood_prime_dcm n ko ki nzo nzi c x (lift n p r).
Proof. unfold loglikelihood_prime_dcm. cbv zeta. by2; mem; relab HP. Qed.
Lemma hessian_diag_dcm_equi ko ki c x : forall r, (r < 2 * n)%nat ->
  loglikelihood_hessian_diag_dcm n (ren ko) (ren ki) nzo' nzi' (ren c) (renb x) r
  = loglikelihood_hessian_diag_dcm n ko ki nzo nzi c x (lift n p r).
Proof. unfold loglikelihood_hessian_diag_dcm. cbv zeta. by2; mem; relab HP. Qed.
Lemma loglik_dcm_equi ko ki c x :
  loglikelihood_dcm n (ren ko) (ren ki) nzo' nzi' (ren c) (renb x) = loglikelihood_dcm n ko ki nzo nzi c x.
Proof. unfold loglikelihood_dcm. cbv zeta. relab HP. Qed.
Lemma expected_out_dcm_equi x i : (i < n)%nat ->
  expected_out_degree_dcm n (renb x) i = expected_out_degree_dcm n x (p i).
Proof. intros Hi. unfold expected_out_degree_dcm. cbv zeta. lifts HP. relab HP. Qed.
Lemma expected_in_dcm_equi x i : (i < n)%nat ->
  expected_in_degree_dcm n (renb x) i = expected_in_degree_dcm n x (p i).
Proof. intros Hi. unfold expected_in_degree_dcm. cbv zeta. lifts HP. relab HP. Qed.
Lemma iterative_dcm_exp_2_equi ko ki c x : forall r, (r < 2 * n)%nat ->
  iterative_dcm_exp_2 n (ren ko) (ren ki) nzo' nzi' (ren c) (renb x) r
  = iterative_dcm_exp_2 n ko ki nzo nzi c x (lift n p r).
Proof. unfold iterative_dcm_exp_2. cbv zeta. by2; mem; relab HP. Qed.
Lemma prime_dcm_exp_equi ko ki c x : forall r, (r < 2 * n)%nat ->
  loglikelihood_prime_dcm_exp n (ren ko) (ren ki) nzo' nzi' (ren c) (renb x) r
  = loglikelihood_prime_dcm_exp n ko ki nzo nzi c x (lift n p r).
Proof. unfold loglikelihood_prime_dcm_exp. cbv zeta. by2; mem; relab HP. Qed.
Lemma hessian_diag_dcm_exp_equi c x : forall r, (r < 2 * n)%nat ->
  loglikelihood_hessian_diag_dcm_exp n nzo' nzi' (ren c) (renb x) r
  = loglikelihood_hessian_diag_dcm_exp n nzo nzi c x (lift n p r).
Proof. unfold loglikelihood_hessian_diag_dcm_exp. cbv zeta. by2; mem; relab HP. Qed.
Lemma loglik_dcm_exp_equi ko ki c x :
  loglikelihood_dcm_exp n (ren ko) (ren ki) nzo' nzi' (ren c) (renb x) = loglikelihood_dcm_exp n ko ki nzo nzi c x.
Proof. unfold loglikelihood_dcm_exp. cbv zeta. relab HP. Qed.
Lemma expected_out_dcm_exp_equi x i : (i < n)%nat ->
  expected_out_degree_dcm_exp n (renb x) i = expected_out_degree_dcm_exp n x (p i).
Proof. intros Hi. unfold expected_out_degree_dcm_exp. cbv zeta. lifts HP. relab HP. Qed.
Lemma expected_in_dcm_exp_equi x i : (i < n)%nat ->
  expected_in_degree_dcm_exp n (renb x) i = expected_in_degree_dcm_exp n x (p i).
Proof. intros Hi. unfold expected_in_degree_dcm_exp. cbv zeta. lifts HP. relab HP. Qed.

Lemma eqb_block i j : (i < n)%nat -> (j < n)%nat -> Nat.eqb (p i + n) (p j + n) = Nat.eqb (i + n) (j + n).
Proof.
  intros Hi Hj. pose proof (eqb_relabel n p i j HP Hi Hj) as E.
  destruct (Nat.eqb_spec (p i + n) (p j + n)), (Nat.eqb_spec (i + n) (j + n)),
    (Nat.eqb_spec (p i) (p j)), (Nat.eqb_spec i j); try lia; try reflexivity; discriminate.
Qed.
Ltac by22 := apply (coord22 n (fun r t => _ = _)); intros i j Hi Hj; cbv beta;
  pose proof (relabelling_lt n p i HP Hi) as Hpi; pose proof (relabelling_lt n p j HP Hj) as Hpj;
  rewrite ?plus_n_minus; lifts HP;
  rewrite ?ltb_plus_n, ?plus_n_minus, ?(proj2 (Nat.ltb_lt _ _) Hi), ?(proj2 (Nat.ltb_lt _ _) Hj),
    ?(proj2 (Nat.ltb_lt _ _) Hpi), ?(proj2 (Nat.ltb_lt _ _) Hpj); lifts HP;
  rewrite ?(eqb_block i j Hi Hj).
Lemma hessian_dcm_equi ko ki c x : forall r t, (r < 2 * n)%nat -> (t < 2 * n)%nat ->
  loglikelihood_hessian_dcm n (ren ko) (ren ki) nzo' nzi' (ren c) (renb x) r t
  = loglikelihood_hessian_dcm n ko ki nzo nzi c x (lift n p r) (lift n p t).
Proof. unfold loglikelihood_hessian_dcm. cbv zeta. by22; mem; relab HP. Qed.
Lemma hessian_dcm_exp_equi c x : forall r t, (r < 2 * n)%nat -> (t < 2 * n)%nat ->
  loglikelihood_hessian_dcm_exp n nzo' nzi' (ren c) (renb x) r t
  = loglikelihood_hessian_dcm_exp n nzo nzi c x (lift n p r) (lift n p t).
Proof. unfold loglikelihood_hessian_dcm_exp. cbv zeta. by22; mem; relab HP. Qed.
End DCM.

(** * DECM *)

Ltac by4 := apply coord4; intros i Hi; cbv beta; pose proof (relabelling_lt n p i HP Hi) as Hpi;
  lifts HP; rewrite ?by_block0, ?by_block1, ?by_block2, ?by_block3 by assumption; lifts HP.

Lemma iterative_decm_equi ko ki so si x : forall r, (r < 4 * n)%nat ->
  iterative_decm n (ren ko) (ren ki) (ren so) (ren si) (renb x) r = iterative_decm n ko ki so si x (lift n p r).
Proof. unfold iterative_decm. cbv zeta. by4; relab HP. Qed.
Lemma prime_decm_equi ko ki so si x : forall r, (r < 4 * n)%nat ->
  loglikelihood_prime_decm n (ren ko) (ren ki) (ren so) (ren si) (renb x) r
  = loglikelihood_prime_decm n ko ki so si x (lift n p r).
Proof. unfold loglikelihood_prime_decm. cbv zeta. by4; relab HP. Qed.
Lemma hessian_diag_decm_equi ko ki so si x : forall r, (r < 4 * n)%nat ->
  loglikelihood_hessian_diag_decm n (ren ko) (ren ki) (ren so) (ren si) (renb x) r
  = loglikelihood_hessian_diag_decm n ko ki so si x (lift n p r).
Proof. unfold loglikelihood_hessian_diag_decm. cbv zeta. by4; relab HP. Qed.
Lemma expected_decm_equi x : forall r, (r < 4 * n)%nat ->
  expected_decm n (renb x) r = expected_decm n x (lift n p r).
Proof. unfold expected_decm. cbv zeta. by4; relab HP. Qed.
Lemma loglik_decm_equi ko ki so si x :
  loglikelihood_decm n (ren ko) (ren ki) (ren so) (ren si) (renb x) = loglikelihood_decm n ko ki so si x.
Proof. unfold loglikelihood_decm. cbv zeta. relab HP. Qed.
Lemma iterative_decm_exp_equi ko ki so si x : forall r, (r < 4 * n)%nat ->
  iterative_decm_exp n (ren ko) (ren ki) (ren so) (ren si) (renb x) r = iterative_decm_exp n ko ki so si x (lift n p r).
Proof. unfold iterative_decm_exp. cbv zeta. by4; relab HP. Qed.
Lemma iterative_decm_exp_2_equi ko ki so si x : forall r, (r < 4 * n)%nat ->
  iterative_decm_exp_2 n (ren ko) (ren ki) (ren so) (ren si) (renb x) r
  = iterative_decm_exp_2 n ko ki so si x (lift n p r).
Proof. unfold iterative_decm_exp_2. cbv zeta. by4; relab HP. Qed.
Lemma prime_decm_exp_equi ko ki so si x : forall r, (r < 4 * n)%nat ->
  loglikelihood_prime_decm_exp n (ren ko) (ren ki) (ren so) (ren si) (renb x) r
  = loglikelihood_prime_decm_exp n ko ki so si x (lift n p r).
Proof. unfold loglikelihood_prime_decm_exp. cbv zeta. by4; relab HP. Qed.
Lemma hessian_diag_decm_exp_equi x : forall r, (r < 4 * n)%nat ->
  loglikelihood_hessian_diag_decm_exp n (renb x) r = loglikelihood_hessian_diag_decm_exp n x (lift n p r).
Proof. unfold loglikelihood_hessian_diag_decm_exp. cbv zeta. by4; relab HP. Qed.
Lemma expected_decm_exp_equi x : forall r, (r < 4 * n)%nat ->
  expected_decm_exp n (renb x) r = expected_decm_exp n x (lift n p r).
Proof. unfold expected_decm_exp. cbv zeta. by4; relab HP. Qed.
Lemma loglik_decm_exp_equi ko ki so si x :
  loglikelihood_decm_exp n (ren ko) (ren ki) (ren so) (ren si) (renb x) = loglikelihood_decm_exp n ko ki so si x.
Proof. unfold loglikelihood_decm_exp. cbv zeta. relab HP. Qed.

Lemma coord44 (P : nat -> nat -> Prop) :
  (forall i j qi qj, (i < n)%nat -> (j < n)%nat -> (qi < 4)%nat -> (qj < 4)%nat ->
     P (i + qi * n)%nat (j + qj * n)%nat) ->
  forall r t, (r < 4 * n)%nat -> (t < 4 * n)%nat -> P r t.
Proof.
  intros H r t Hr Ht. assert (n <> 0)%nat by lia.
  assert (D : forall u, (u < 4 * n)%nat -> exists i q, (i < n)%nat /\ (q < 4)%nat /\ u = (i + q * n)%nat).
  { intros u Hu. exists (u mod n)%nat, (u / n)%nat. split; [apply Nat.mod_upper_bound; assumption|].
    split; [apply Nat.div_lt_upper_bound; lia|]. rewrite (Nat.div_mod u n) at 1 by assumption. lia. }
  destruct (D r Hr) as (i & qi & Hi & Hqi & ->). destruct (D t Ht) as (j & qj & Hj & Hqj & ->).
  apply H; assumption.
Qed.
Lemma blk_block i q : (i < n)%nat -> (q < 4)%nat -> blk n (i + q * n) = q.
Proof.
  intros Hi Hq. destruct q as [|[|[|[|q]]]]; [| | | |lia].
  - rewrite Nat.add_0_r. apply blk0; exact Hi.
  - rewrite Nat.mul_1_l. apply blk1; exact Hi.
  - apply blk2; exact Hi.
  - apply blk3; exact Hi.
Qed.
Lemma pos_block i q : (i < n)%nat -> (q < 4)%nat -> pos n (i + q * n) = i.
Proof. intros Hi Hq. unfold pos. rewrite blk_block by assumption. lia. Qed.

Ltac by44 := intros i j qi qj Hi Hj Hqi Hqj; cbv beta;
  pose proof (relabelling_lt n p i HP Hi) as Hpi; pose proof (relabelling_lt n p j HP Hj) as Hpj;
  rewrite !(lift_block n p i qi Hi), !(lift_block n p j qj Hj);
  rewrite !(blk_block i qi), !(blk_block j qj), !(blk_block (p i) qi), !(blk_block (p j) qj),
    !(pos_block i qi), !(pos_block j qj), !(pos_block (p i) qi), !(pos_block (p j) qj) by assumption; lifts HP;
  destruct qi as [|[|[|[|qi]]]]; [| | | |lia]; (destruct qj as [|[|[|[|qj]]]]; [| | | |lia]).
Lemma hessian_decm_equi ko ki so si x : forall r t, (r < 4 * n)%nat -> (t < 4 * n)%nat ->
  loglikelihood_hessian_decm n (ren ko) (ren ki) (ren so) (ren si) (renb x) r t
  = loglikelihood_hessian_decm n ko ki so si x (lift n p r) (lift n p t).
Proof. unfold loglikelihood_hessian_decm. cbv zeta. apply coord44. by44; relab HP. Qed.
Lemma hessian_decm_exp_equi x : forall r t, (r < 4 * n)%nat -> (t < 4 * n)%nat ->
  loglikelihood_hessian_decm_exp n (renb x) r t
  = loglikelihood_hessian_decm_exp n x (lift n p r) (lift n p t).
Proof. unfold loglikelihood_hessian_decm_exp. cbv zeta. apply coord44. by44; relab HP. Qed.

(** * Probability matrices *)

Lemma pmatrix_cm_equi x i j : (i < n)%nat -> (j < n)%nat ->
  pmatrix_cm (ren x) i j = pmatrix_cm x (p i) (p j).
Proof.
  intros Hi Hj. unfold pmatrix_cm. cbv zeta.
  pose proof (eqb_relabel n p i j HP Hi Hj) as E. rewrite (Rmult_comm (x (p j)) (x (p i))).
  destruct (Nat.eqb_spec i j) as [->|N].
  - rewrite Nat.ltb_irrefl, Nat.ltb_irrefl. reflexivity.
  - apply Nat.eqb_neq in E.
    destruct (Nat.ltb_spec i j), (Nat.ltb_spec (p i) (p j)), (Nat.ltb_spec j i), (Nat.ltb_spec (p j) (p i));
      try reflexivity; lia.
Qed.
Lemma pmatrix_dcm_equi io ii io' ii' x i j : renamed_list n p io' io -> renamed_list n p ii' ii ->
  (i < n)%nat -> (j < n)%nat ->
  pmatrix_dcm n io' ii' (renb x) i j = pmatrix_dcm n io ii x (p i) (p j).
Proof.
  intros HO HI Hi Hj. unfold pmatrix_dcm. cbv zeta. lifts HP.
  rewrite (memb_relabel n p io' io i HO Hi), (memb_relabel n p ii' ii j HI Hj). reflexivity.
Qed.

End Equi.
