(** Positive semidefiniteness of minus the second derivatives, model by model. *)
From Coq Require Import Reals List Arith Bool Lia Lra Psatz.
From Verif Require Import Base SpecGraph SpecDirected SpecWeighted SpecLinsearch SpecCReMa SpecEnsemble ModelCM ModelDCM ModelECM ModelDECM ModelCReMa
  ProofsEnsemble ProofsList ProofsRelabel ProofsCReMa ProofsDirCReMa ProofsCMHess ProofsECM ProofsDECM ProofsRegular ProofsPSD.
Local Open Scope R_scope.

Definition expw (a b : R) : R := exp (- a) * exp (- b) / (1 + exp (- a) * exp (- b)) ^ 2.
Lemma expw_nonneg a b : 0 <= expw a b.
Proof.
  unfold expw. pose proof (exp_pos (- a)). pose proof (exp_pos (- b)). assert (0 < exp (- a) * exp (- b)) by (apply Rmult_lt_0_compat; assumption).
  apply Rle_mult_inv_pos; [lra|]. apply pow_lt. lra.
Qed.
Lemma expw_sym a b : expw a b = expw b a.
Proof. unfold expw. rewrite (Rmult_comm (exp (- a))). reflexivity. Qed.

Lemma cm_exp_qform n c theta v :
  2 * qform n (fun i j => - loglikelihood_hessian_cm_exp n c theta i j) v =
  dsum n (fun i j => 2 * ((if Nat.eqb i j then c i * (c i - 1) * expw (theta i) (theta i) else 0) * (v i * v i))
    + (if Nat.eqb i j then 0 else c i * c j * expw (theta i) (theta j)) * ((v i + v j) * (v i + v j))).
Proof.
  apply (form_sym_eq n _ (fun i => c i * (c i - 1) * expw (theta i) (theta i)) (fun i j => if Nat.eqb i j then 0 else c i * c j * expw (theta i) (theta j))).
  - intros i j Hi Hj. destruct (Nat.eqb_spec i j) as [<-|Hij].
    + rewrite hessian_cm_exp_diag_nf, Ropp_involutive, Rplus_0_r. apply rsum_ext. intros k Hk.
      unfold expw. replace (exp (- theta i) ^ 2) with (exp (- theta i) * exp (- theta i)) by ring.
      destruct (Nat.eqb i k); ring.
    + unfold loglikelihood_hessian_cm_exp, hessian_cm_exp_aux. destruct (Nat.leb_spec i j).
      * destruct (Nat.eqb_spec i j); [lia|]. cbv zeta. unfold expw. ring.
      * destruct (Nat.eqb_spec j i); [lia|]. cbv zeta. rewrite expw_sym. unfold expw. ring.
  - intros i j _ _. rewrite (Nat.eqb_sym j i), (expw_sym (theta j)). destruct (Nat.eqb i j); ring.
Qed.
Lemma cm_exp_psd n c theta v : (forall i, (i < n)%nat -> 1 <= c i) ->
  0 <= qform n (fun i j => - loglikelihood_hessian_cm_exp n c theta i j) v.
Proof.
  intros Hc. apply Rmult_le_reg_l with 2; [lra|]. rewrite Rmult_0_r, cm_exp_qform. apply dsum_nonneg. intros i j Hi Hj.
  pose proof (Hc i Hi). pose proof (Hc j Hj). destruct (Nat.eqb i j).
  - apply Rplus_le_le_0_compat; [|lra]. apply Rmult_le_pos; [lra|]. apply Rmult_le_pos; [|apply Rle_0_sqr].
    apply Rmult_le_pos; [apply Rmult_le_pos; lra|apply expw_nonneg].
  - apply Rplus_le_le_0_compat; [lra|]. apply Rmult_le_pos; [|apply Rle_0_sqr]. apply Rmult_le_pos; [apply Rmult_le_pos; lra|apply expw_nonneg].
Qed.

Lemma dcm_exp_qform n nzo nzi c theta v : index_list n nzo -> index_list n nzi ->
  qform (2 * n) (fun i j => - loglikelihood_hessian_dcm_exp n nzo nzi c theta i j) v =
  dsum n (fun i j => (if andb (memb i nzo) (memb j nzi)
    then (if Nat.eqb j i then c i * (c i - 1) else c i * c j) * expw (theta (j + n)%nat) (theta i) else 0) * ((v i + v (j + n)%nat) * (v i + v (j + n)%nat))).
Proof.
  intros Ho Hi.
  apply (form_two_eq n _ (fun i j => if andb (memb i nzo) (memb j nzi)
    then (if Nat.eqb j i then c i * (c i - 1) else c i * c j) * expw (theta (j + n)%nat) (theta i) else 0)).
  - intros i j Hil Hjl. unfold loglikelihood_hessian_dcm_exp. rewrite (proj2 (Nat.ltb_lt i n) Hil), (proj2 (Nat.ltb_lt j n) Hjl).
    destruct (Nat.eqb_spec i j) as [<-|Hij]; cbn [andb]; [|ring].
    destruct (memb i nzo); cbn [andb]; [|rewrite rsum_0; ring].
    rewrite Ropp_involutive. cbv zeta.
    rewrite (lloop_add nzi _ _ (fun k => (if Nat.eqb k i then c i * (c i - 1) else c i * c k) * expw (theta (k + n)%nat) (theta i))).
    2:{ intros k a Hk. unfold expw, Rdiv. ring. }
    rewrite (lsum_mask n _ _ Hi). ring.
  - intros i j Hil Hjl. unfold loglikelihood_hessian_dcm_exp. rewrite (proj2 (Nat.ltb_lt i n) Hil), ltb_plus_n, plus_n_minus. cbv zeta.
    destruct (andb (memb i nzo) (memb j nzi)); [|ring]. unfold expw, Rdiv. ring.
  - intros i j Hil Hjl. unfold loglikelihood_hessian_dcm_exp. rewrite (proj2 (Nat.ltb_lt j n) Hjl), ltb_plus_n, plus_n_minus. cbv zeta.
    destruct (andb (memb j nzo) (memb i nzi)); [|ring]. rewrite expw_sym. unfold expw, Rdiv. ring.
  - intros i j Hil Hjl. unfold loglikelihood_hessian_dcm_exp. rewrite !ltb_plus_n, !plus_n_minus.
    replace (Nat.eqb (i + n) (j + n)) with (Nat.eqb i j) by (destruct (Nat.eqb_spec i j), (Nat.eqb_spec (i + n) (j + n)); lia).
    destruct (Nat.eqb_spec i j) as [<-|Hij]; cbn [andb]; [|ring].
    destruct (memb i nzi).
    + rewrite Ropp_involutive. cbv zeta.
      rewrite (lloop_add nzo _ _ (fun k => (if Nat.eqb i k then c k * (c k - 1) else c k * c i) * expw (theta (i + n)%nat) (theta k))).
      2:{ intros k a Hk. rewrite expw_sym. unfold expw, Rdiv. ring. }
      rewrite (lsum_mask n _ _ Ho), Rplus_0_l. apply rsum_ext. intros k Hk. rewrite andb_true_r. reflexivity.
    + rewrite (rsum_zero n) by (intros k _; rewrite andb_false_r; reflexivity). ring.
Qed.
Lemma dcm_exp_psd n nzo nzi c theta v : index_list n nzo -> index_list n nzi -> (forall i, (i < n)%nat -> 1 <= c i) ->
  0 <= qform (2 * n) (fun i j => - loglikelihood_hessian_dcm_exp n nzo nzi c theta i j) v.
Proof.
  intros Ho Hi Hc. rewrite dcm_exp_qform by assumption. apply dsum_nonneg.
  intros i j Hil Hjl. pose proof (Hc i Hil). pose proof (Hc j Hjl). apply Rmult_le_pos; [|apply Rle_0_sqr].
  destruct (andb (memb i nzo) (memb j nzi)); [|lra].
  apply Rmult_le_pos; [|apply expw_nonneg]. destruct (Nat.eqb j i); apply Rmult_le_pos; lra.
Qed.

(** The second derivatives of one pair of an enhanced model. *)
Definition pA (t0 t1 : R) : R := (1 - t1) * t0 * t1 / (1 - t1 + t0 * t1) ^ 2.
Definition pB (t0 t1 : R) : R := t0 * t1 / (1 - t1 + t0 * t1) ^ 2.
Definition pC (t0 t1 : R) : R := t0 * t1 * (1 - t1 ^ 2 + t0 * t1 ^ 2) / ((1 - t1) ^ 2 * (1 - t1 + t0 * t1) ^ 2).
Lemma pair_psd t0 t1 p q : 0 < t0 -> 0 < t1 < 1 -> 0 <= pA t0 t1 * (p * p) + 2 * pB t0 t1 * (p * q) + pC t0 t1 * (q * q).
Proof.
  intros H0 H1. assert (Hd : 0 < 1 - t1 + t0 * t1) by (assert (0 < t0 * t1) by (apply Rmult_lt_0_compat; lra); lra).
  assert (Hp : 0 < t0 * t1) by (apply Rmult_lt_0_compat; lra).
  replace (pA t0 t1 * (p * p) + 2 * pB t0 t1 * (p * q) + pC t0 t1 * (q * q))
    with (t0 * t1 / ((1 - t1 + t0 * t1) ^ 2 * (1 - t1)) * (((1 - t1) * p + q) ^ 2 + (t1 * (1 - t1) + t0 * t1 * t1) / (1 - t1) * q ^ 2)).
  2:{ unfold pA, pB, pC. field. lra. }
  apply Rmult_le_pos.
  - apply Rle_mult_inv_pos; [lra|]. apply Rmult_lt_0_compat; [apply pow_lt; lra|lra].
  - apply Rplus_le_le_0_compat; [apply pow2_ge_0|]. apply Rmult_le_pos; [|apply pow2_ge_0].
    apply Rle_mult_inv_pos; [|lra]. apply Rplus_le_le_0_compat; apply Rmult_le_pos; lra.
Qed.

Lemma exp_pair_lt a b : 0 < a + b -> 0 < exp (- a) * exp (- b) < 1.
Proof.
  intros H. split; [apply Rmult_lt_0_compat; apply exp_pos|]. rewrite <- exp_plus. rewrite <- exp_0. apply exp_increasing. lra.
Qed.

Lemma ecm_exp_psd n theta v : ecm_exp_dom n theta ->
  0 <= qform (2 * n) (fun i j => - loglikelihood_hessian_ecm_exp n theta i j) v.
Proof.
  intros HD.
  pose (x := fun i => exp (- theta i)). pose (y := fun i => exp (- theta (i + n)%nat)).
  pose (mk := fun (f : R -> R -> R) i j => if Nat.eqb j i then 0 else f (x i * x j) (y i * y j)).
  assert (E : 2 * qform (2 * n) (fun i j => - loglikelihood_hessian_ecm_exp n theta i j) v = dsum n (fun i j =>
    mk pA i j * ((v i + v j) * (v i + v j)) + 2 * mk pB i j * ((v i + v j) * (v (i + n)%nat + v (j + n)%nat))
    + mk pC i j * ((v (i + n)%nat + v (j + n)%nat) * (v (i + n)%nat + v (j + n)%nat)))).
  { assert (Hloop : forall f i g b, (forall h, g h = f (x i * x h) (y i * y h)) ->
      (forall h a, b h a = if negb (Nat.eqb h i) then a - g h else a) ->
      - loop n 0 b = rsum n (mk f i)).
    { intros f i g b Hg Hb. rewrite (loop_sub n _ _ (mk f i)).
      - ring.
      - intros h a _. rewrite Hb. unfold mk. destruct (Nat.eqb h i); cbn [negb]; [ring|rewrite Hg; ring]. }
    apply form_pairs.
    - intros i j Hi Hj. unfold loglikelihood_hessian_ecm_exp, assemble2. rewrite (proj2 (Nat.ltb_lt i n) Hi), (proj2 (Nat.ltb_lt j n) Hj).
      destruct (Nat.eqb_spec i j) as [<-|Hij].
      + unfold mk at 2. rewrite Nat.eqb_refl, Rplus_0_r. eapply Hloop; [intros h; unfold pA; reflexivity|].
        intros h a. cbv zeta. unfold x, y, Rdiv. destruct (negb (Nat.eqb h i)); ring.
      + rewrite Rplus_0_l. unfold mk. destruct (Nat.eqb_spec j i); [lia|]. unfold hessian_ecm_exp_xx, pA, x, y. cbv zeta.
        destruct (Nat.ltb i j); unfold Rdiv; rewrite ?(Rmult_comm (exp (- theta j))), ?(Rmult_comm (exp (- theta (j + n)%nat))); ring.
    - intros i j Hi Hj. unfold loglikelihood_hessian_ecm_exp, assemble2. rewrite (proj2 (Nat.ltb_lt i n) Hi), ltb_plus_n, plus_n_minus.
      destruct (Nat.eqb_spec i j) as [<-|Hij].
      + unfold mk at 2. rewrite Nat.eqb_refl, Rplus_0_r. eapply Hloop; [intros h; unfold pB; reflexivity|].
        intros h a. cbv zeta. unfold x, y, Rdiv. destruct (negb (Nat.eqb h i)); ring.
      + rewrite Rplus_0_l. unfold mk. destruct (Nat.eqb_spec j i); [lia|]. unfold hessian_ecm_exp_xy, hessian_ecm_exp_yx, pB, x, y. cbv zeta.
        destruct (Nat.ltb i j); unfold Rdiv; rewrite ?(Rmult_comm (exp (- theta j))), ?(Rmult_comm (exp (- theta (j + n)%nat))); ring.
    - intros i j Hi Hj. unfold loglikelihood_hessian_ecm_exp, assemble2. rewrite (proj2 (Nat.ltb_lt j n) Hj), ltb_plus_n, plus_n_minus.
      destruct (Nat.eqb_spec i j) as [<-|Hij].
      + unfold mk at 2. rewrite Nat.eqb_refl, Rplus_0_r. eapply Hloop; [intros h; unfold pB; reflexivity|].
        intros h a. cbv zeta. unfold x, y, Rdiv. destruct (negb (Nat.eqb h i)); ring.
      + rewrite Rplus_0_l. unfold mk. destruct (Nat.eqb_spec j i); [lia|]. unfold hessian_ecm_exp_xy, hessian_ecm_exp_yx, pB, x, y. cbv zeta.
        destruct (Nat.ltb i j); unfold Rdiv; rewrite ?(Rmult_comm (exp (- theta j))), ?(Rmult_comm (exp (- theta (j + n)%nat))); ring.
    - intros i j Hi Hj. unfold loglikelihood_hessian_ecm_exp, assemble2. rewrite !ltb_plus_n, !plus_n_minus.
      destruct (Nat.eqb_spec i j) as [<-|Hij].
      + unfold mk at 2. rewrite Nat.eqb_refl, Rplus_0_r. eapply Hloop; [intros h; unfold pC; reflexivity|].
        intros h a. cbv zeta. unfold x, y, Rdiv. destruct (negb (Nat.eqb h i)); ring.
      + rewrite Rplus_0_l. unfold mk. destruct (Nat.eqb_spec j i); [lia|]. unfold hessian_ecm_exp_yy, pC, x, y. cbv zeta.
        destruct (Nat.ltb i j); unfold Rdiv; rewrite ?(Rmult_comm (exp (- theta j))), ?(Rmult_comm (exp (- theta (j + n)%nat))); ring.
    - intros i j _ _. unfold mk. rewrite (Nat.eqb_sym i j), (Rmult_comm (x j)), (Rmult_comm (y j)). reflexivity.
    - intros i j _ _. unfold mk. rewrite (Nat.eqb_sym i j), (Rmult_comm (x j)), (Rmult_comm (y j)). reflexivity.
    - intros i j _ _. unfold mk. rewrite (Nat.eqb_sym i j), (Rmult_comm (x j)), (Rmult_comm (y j)). reflexivity. }
  apply Rmult_le_reg_l with 2; [lra|]. rewrite Rmult_0_r, E. apply dsum_nonneg. intros i j Hi Hj. unfold mk.
  destruct (Nat.eqb_spec j i); [lra|]. apply pair_psd; [apply Rmult_lt_0_compat; apply exp_pos|].
  apply exp_pair_lt. apply HD; auto.
Qed.

Lemma decm_exp_psd n theta v : decm_exp_dom n theta ->
  0 <= qform (4 * n) (fun i j => - loglikelihood_hessian_decm_exp n theta i j) v.
Proof.
  intros HD.
  pose (x := fun i => exp (- theta i)).
  pose (mk := fun (f : R -> R -> R) i j => if Nat.eqb i j then 0 else f (x i * x (j + n)%nat) (x (i + 2 * n)%nat * x (j + 3 * n)%nat)).
  assert (Hout : forall f i b, (forall h a, (h < n)%nat -> b h a = if negb (Nat.eqb h i) then a - f (x i * x (h + n)%nat) (x (i + 2 * n)%nat * x (h + 3 * n)%nat) else a) ->
      - loop n 0 b = rsum n (mk f i)).
  { intros f i b Hb. rewrite (loop_sub n _ _ (mk f i)); [ring|].
    intros h a Hh. rewrite Hb by exact Hh. unfold mk. rewrite (Nat.eqb_sym i h). destruct (Nat.eqb h i); cbn [negb]; ring. }
  assert (Hin : forall f i b, (forall h a, (h < n)%nat -> b h a = if negb (Nat.eqb h i) then a - f (x h * x (i + n)%nat) (x (h + 2 * n)%nat * x (i + 3 * n)%nat) else a) ->
      - loop n 0 b = rsum n (fun h => mk f h i)).
  { intros f i b Hb. rewrite (loop_sub n _ _ (fun h => mk f h i)); [ring|].
    intros h a Hh. rewrite Hb by exact Hh. unfold mk. destruct (Nat.eqb h i); cbn [negb]; ring. }
  assert (Dn : forall i j, (i < n)%nat -> (j < n)%nat -> i <> j ->
    0 < 1 - x (i + 2 * n)%nat * x (j + 3 * n)%nat /\ 0 < 1 - x (i + 2 * n)%nat * x (j + 3 * n)%nat + x i * x (j + n)%nat * (x (i + 2 * n)%nat * x (j + 3 * n)%nat)).
  { intros i j Hi Hj Hij. destruct (exp_pair_lt _ _ (HD i j Hi Hj Hij)) as [P1 P2]. fold (x (i + 2 * n)%nat) in *. fold (x (j + 3 * n)%nat) in *.
    split; [lra|]. assert (0 < x i * x (j + n)%nat) by (apply Rmult_lt_0_compat; apply exp_pos).
    assert (0 < x i * x (j + n)%nat * (x (i + 2 * n)%nat * x (j + 3 * n)%nat)) by (apply Rmult_lt_0_compat; assumption). lra. }
  assert (E : qform (4 * n) (fun i j => - loglikelihood_hessian_decm_exp n theta i j) v = dsum n (fun i j =>
    mk pA i j * ((v i + v (j + n)%nat) * (v i + v (j + n)%nat))
    + 2 * mk pB i j * ((v i + v (j + n)%nat) * (v (i + 2 * n)%nat + v (j + 3 * n)%nat))
    + mk pC i j * ((v (i + 2 * n)%nat + v (j + 3 * n)%nat) * (v (i + 2 * n)%nat + v (j + 3 * n)%nat)))).
  { apply form_four; intros i j Hi Hj; unfold loglikelihood_hessian_decm_exp; cbv zeta;
    rewrite ?(blk1 n i Hi), ?(blk2 n i Hi), ?(blk3 n i Hi), ?(pos1 n i Hi), ?(pos2 n i Hi), ?(pos3 n i Hi),
      ?(blk1 n j Hj), ?(blk2 n j Hj), ?(blk3 n j Hj), ?(pos1 n j Hj), ?(pos2 n j Hj), ?(pos3 n j Hj),
      ?(blk0 n i Hi), ?(blk0 n j Hj), ?(pos0 n i Hi), ?(pos0 n j Hj); cbv iota.
    all: destruct (Nat.eqb_spec i j) as [<-|Hij].
    all: try (unfold mk; rewrite Nat.eqb_refl; ring).
    all: try (rewrite Ropp_0; reflexivity).
    all: try (apply Hout; intros h a Hh; destruct (Nat.eqb_spec h i); cbn [negb]; [reflexivity|]; destruct (Dn i h Hi Hh ltac:(auto)) as [D1 D2];
      unfold pA, pB, pC; fold (x i) (x (i + 2 * n)%nat) (x (h + n)%nat) (x (h + 3 * n)%nat); f_equal; field; repeat split; intros Z; lra).
    all: try (apply Hin; intros h a Hh; destruct (Nat.eqb_spec h i); cbn [negb]; [reflexivity|]; destruct (Dn h i Hh Hi ltac:(auto)) as [D1 D2];
      unfold pA, pB, pC; fold (x h) (x (h + 2 * n)%nat) (x (i + n)%nat) (x (i + 3 * n)%nat); f_equal; field; repeat split; intros Z; lra).
    all: unfold mk. all: rewrite ?(Nat.eqb_sym j i). all: rewrite ?(proj2 (Nat.eqb_neq i j) Hij).
    all: pose proof (Dn i j Hi Hj Hij) as [D1 D2]. all: pose proof (Dn j i Hj Hi ltac:(auto)) as [D3 D4].
    all: fold (x i) (x (i + n)%nat) (x (i + 2 * n)%nat) (x (i + 3 * n)%nat) (x j) (x (j + n)%nat) (x (j + 2 * n)%nat) (x (j + 3 * n)%nat).
    all: unfold pA, pB, pC. all: try (field; repeat split; intros Z; lra).  }
  rewrite E. apply dsum_nonneg. intros i j Hi Hj. unfold mk.
  destruct (Nat.eqb_spec i j); [lra|]. apply pair_psd; [apply Rmult_lt_0_compat; apply exp_pos|].
  apply exp_pair_lt. apply HD; auto.
Qed.

Lemma crema_form n es beta v : pairs_below n es -> crema_dom es beta ->
  qform n (fun k l => - cH es beta k l) v = esum es (fun i j w => w / (beta i + beta j) ^ 2 * ((v i + v j) * (v i + v j))).
Proof.
  intros HB HD. unfold qform, cH.
  rewrite (rsum_ext n _ (fun k => esum es (fun i j w => w / (beta i + beta j) ^ 2 * (hit i j k * v k) * (v i + v j)))).
  - rewrite <- esum_rsum. apply esum_ext. intros i j w Hin. destruct (HB i j w Hin) as [Hi Hj].
    rewrite rsum_scal_r, rsum_scal_l, rsum_hit by assumption. ring.
  - intros k Hk.
    rewrite (rsum_ext n _ (fun l => esum es (fun i j w => w / (beta i + beta j) ^ 2 * (hit i j k * v k) * (hit i j l * v l)))).
    + rewrite <- esum_rsum. apply esum_ext. intros i j w Hin. destruct (HB i j w Hin) as [Hi Hj].
      rewrite rsum_scal_l, rsum_hit by assumption. reflexivity.
    + intros l Hl. rewrite esum_opp, Ropp_involutive, <- esum_scal, (Rmult_comm _ (v l)), <- esum_scal. apply esum_ext. intros; ring.
Qed.
Lemma crema_psd n es beta H v : pairs_below n es -> crema_dom es beta -> simple_pairs es -> nonneg_weights es ->
  loglikelihood_hessian_crema_undirected es beta = Some H -> 0 <= qform n (fun i j => - H i j) v.
Proof.
  intros HB HD HS HW E. destruct (hessian_crema_some es beta HD HS) as (F & E' & O). rewrite E in E'. inversion E'; subst F.
  rewrite (qform_ext n _ (fun k l => - cH es beta k l) v) by (intros; rewrite O; reflexivity).
  rewrite crema_form by assumption. apply esum_nonneg. intros i j w Hin.
  apply Rmult_le_pos; [|apply Rle_0_sqr]. apply Rle_mult_inv_pos; [apply (HW i j w Hin)|]. apply pow_lt. exact (HD i j w Hin).
Qed.
Lemma crema_dir_psd n es beta H v : pairs_below n es -> crema_dir_dom n es beta -> simple_arcs es -> nonneg_weights es ->
  loglikelihood_hessian_crema_directed n es beta = Some H -> 0 <= qform (2 * n) (fun i j => - H i j) v.
Proof.
  intros HB HD HS HW E. rewrite (hessian_crema_dir_eq n es HB) in E. replace (2 * n)%nat with (n + n)%nat by lia.
  exact (crema_psd (n + n) (sh n es) beta H v (sh_below n es HB) (proj2 (sh_dom n es beta) HD) (sh_simple n es HB HS) (sh_nonneg n es HW) E).
Qed.
