(** CReMa, undirected: the sparse functions against the dense ones. *)
From Coq Require Import Reals List Arith Lia Lra Bool.
From Coquelicot Require Import Coquelicot.
From Verif Require Import Base SpecDeriv ProofsDeriv SpecGraph ProofsGraph SpecEnsemble ProofsEnsemble.
From Verif Require Import ModelCM ModelDCM SpecDirected ProofsList ModelDECM ModelCReMa SpecCReMa ProofsCReMa ProofsMainCReMa.
Local Open Scope R_scope.
Import ListNotations.

Definition pf (x : nat -> R) (i j : nat) : R := x i * x j / (1 + x i * x j).
Lemma pf_sym x i j : pf x i j = pf x j i.
Proof. unfold pf. rewrite (Rmult_comm (x i)). reflexivity. Qed.
Lemma pmatrix_pf x i j : i <> j -> pmatrix_cm x i j = pf x i j.
Proof.
  intros H. unfold pmatrix_cm, pf. destruct (Nat.ltb_spec i j); [reflexivity|].
  destruct (Nat.ltb_spec j i); [rewrite (Rmult_comm (x j)); reflexivity|lia].
Qed.
Lemma pmatrix_diag x i : pmatrix_cm x i i = 0.
Proof. unfold pmatrix_cm. rewrite Nat.ltb_irrefl. reflexivity. Qed.
Lemma pf_nonneg n x i j : (forall i, (i < n)%nat -> 0 <= x i) -> (i < n)%nat -> (j < n)%nat -> 0 <= pf x i j.
Proof.
  intros H Hi Hj. pose proof (Rmult_le_pos _ _ (H i Hi) (H j Hj)). unfold pf. apply Rdiv_le_0_compat; lra.
Qed.
Lemma aux_ne n x i j : (forall i, (i < n)%nat -> 0 <= x i) -> (i < n)%nat -> (j < n)%nat -> 1 + x i * x j <> 0.
Proof. intros H Hi Hj. pose proof (Rmult_le_pos _ _ (H i Hi) (H j Hj)). lra. Qed.

(** Sums over the triangle. *)
Lemma tri_hit n (g : nat -> nat -> R) k :
  (k < n)%nat -> (forall i j, (i < n)%nat -> (j < n)%nat -> g i j = g j i) ->
  rsum n (fun i => rsum i (fun j => hit i j k * g i j)) = rsum n (fun j => if Nat.eqb k j then 0 else g k j).
Proof.
  intros Hk Hg. pose proof (usum_sym_group n g (fun i => if Nat.eqb i k then 1 else 0) Hg) as U.
  transitivity (usum n (fun i j => g i j * ((if Nat.eqb i k then 1 else 0) + (if Nat.eqb j k then 1 else 0)))).
  - unfold usum. apply rsum_ext. intros i Hi. apply rsum_ext. intros j Hj. unfold hit. rewrite (Hg i j) by lia. ring.
  - rewrite U. rewrite (rsum_ext n _ (fun i => if Nat.eqb i k then rsum n (fun j => if Nat.eqb i j then 0 else g i j) else 0)).
    + apply (rsum_single n k (fun i => rsum n (fun j => if Nat.eqb i j then 0 else g i j)) Hk).
    + intros i _. destruct (Nat.eqb i k); ring.
Qed.

Lemma tri_flip n (g : nat -> nat -> R) :
  (forall i j, (i < n)%nat -> (j < n)%nat -> g i j = g j i) ->
  rsum n (fun i => rsum i (fun j => g j i)) = rsum n (fun i => rsum i (fun j => g i j)).
Proof. intros H. apply rsum_ext. intros i Hi. apply rsum_ext. intros j Hj. apply H; lia. Qed.

Lemma esum_pmatrix n x (G : nat -> nat -> R -> R) :
  (forall i j, G i j 0 = 0) -> (forall i j w, G i j w = G j i w) ->
  esum (triu_edges n (pmatrix_cm x)) G = rsum n (fun i => rsum i (fun j => G i j (pf x i j))).
Proof.
  intros H0 HG. rewrite esum_triu_hollow; [|exact H0|intros; apply pmatrix_diag].
  apply rsum_ext. intros i Hi. apply rsum_ext. intros j Hj. rewrite pmatrix_pf by lia. rewrite HG, pf_sym. reflexivity.
Qed.

Lemma esum_pmatrix_hit n x (G : nat -> nat -> R -> R) k : (k < n)%nat ->
  (forall i j, G i j 0 = 0) -> (forall i j w, G i j w = G j i w) ->
  esum (triu_edges n (pmatrix_cm x)) (fun i j w => hit i j k * G i j w) =
  rsum n (fun j => if Nat.eqb k j then 0 else G k j (pf x k j)).
Proof.
  intros Hk H0 HG. rewrite esum_pmatrix.
  - apply (tri_hit n (fun i j => G i j (pf x i j)) k Hk). intros i j _ _. rewrite HG, pf_sym. reflexivity.
  - intros. rewrite H0. ring.
  - intros. rewrite HG, hit_sym. reflexivity.
Qed.

Lemma dom_pmatrix n x beta i j : (forall i, (i < n)%nat -> 0 <= x i) ->
  crema_dom (triu_edges n (pmatrix_cm x)) beta -> (i < n)%nat -> (j < n)%nat -> i <> j -> 0 < pf x i j -> 0 < beta i + beta j.
Proof.
  intros Hx HD Hi Hj Hij Hp. destruct (Nat.lt_ge_cases i j).
  - apply (HD i j (pmatrix_cm x i j)). apply in_triu. repeat split; try lia. rewrite pmatrix_pf by lia. lra.
  - rewrite Rplus_comm. apply (HD j i (pmatrix_cm x j i)). apply in_triu. repeat split; try lia.
    rewrite pmatrix_pf, pf_sym by lia. lra.
Qed.

(** * Triangular loops *)
Section Tri.
  Variables (n : nat) (x beta : nat -> R).
  Hypothesis Hx : forall i, (i < n)%nat -> 0 <= x i.
  Hypothesis HD : crema_dom (triu_edges n (pmatrix_cm x)) beta.

  Lemma loglik_crema_sparse_eq s :
    loglikelihood_crema_undirected_sparse n s x beta =
    Some (loglikelihood_crema_undirected n s (triu_edges n (pmatrix_cm x)) beta).
  Proof.
    rewrite loglik_crema_nf. unfold loglikelihood_crema_undirected_sparse.
    match goal with |- oloop n 0 ?b = _ =>
      destruct (oloop_obs (fun (_ : unit) (f : R) => f) n b
        (fun _ i => - (s i * beta i) + rsum i (fun j => pf x i j * ln (beta i + beta j))) 0) as (F & E & O) end.
    - intros i f Hi. cbv beta zeta.
      match goal with |- context [oloop i ?f0 ?b] =>
        destruct (oloop_obs (fun (_ : unit) (f : R) => f) i b (fun _ j => pf x i j * ln (beta i + beta j)) f0) as (F & E & O) end.
      + intros j f' Hj. rewrite sdiv_some by (apply (aux_ne n); auto; lia). cbn [obind]. fold (pf x i j).
        pose proof (pf_nonneg n x i j Hx Hi ltac:(lia)).
        destruct (Rlt_dec 0 (pf x i j)); eexists; (split; [reflexivity|]); intros _; cbv beta; [ring|].
        replace (pf x i j) with 0 by lra. ring.
      + exists F. split; [exact E|]. intros u. rewrite (O u). ring.
    - cbv beta zeta in E |- *. rewrite E. f_equal. specialize (O tt). cbv beta in O. rewrite O. unfold cL.
      rewrite (esum_pmatrix n x (fun i j w => w * ln (beta i + beta j))).
      + rewrite rsum_plus, rsum_opp. ring.
      + intros. ring.
      + intros. rewrite (Rplus_comm (beta i)). reflexivity.
  Qed.

  (** Array loops [f[i] += d; f[j] += d] guarded by a positive probability. *)
  Lemma tri_obs (g : nat -> nat -> R -> R) (init : nat -> (nat -> R) -> (nat -> R)) (c : nat -> nat -> R)
      (body : nat -> nat -> (nat -> R) -> option (nat -> R)) (f0 : nat -> R) :
    (forall i f k, init i f k = f k + c k i) ->
    (forall i j f, (j < i < n)%nat -> exists f', body i j f = Some f' /\
       forall k, f' k = f k + hit i j k * g i j (pf x i j)) ->
    exists F, oloop n f0 (fun i f => oloop i (init i f) (body i)) = Some F /\
      forall k, F k = f0 k + (rsum n (c k) + rsum n (fun i => rsum i (fun j => hit i j k * g i j (pf x i j)))).
  Proof.
    intros Hi Hb.
    destruct (oloop_obs (fun k (f : nat -> R) => f k) n (fun i f => oloop i (init i f) (body i))
      (fun k i => c k i + rsum i (fun j => hit i j k * g i j (pf x i j))) f0) as (F & E & O).
    - intros i f Hin.
      destruct (oloop_obs (fun k (f : nat -> R) => f k) i (body i) (fun k j => hit i j k * g i j (pf x i j)) (init i f)) as (F & E & O).
      + intros j f' Hj. apply Hb. lia.
      + exists F. split; [exact E|]. intros k. rewrite O, Hi. ring.
    - exists F. split; [exact E|]. intros k. rewrite O, rsum_plus. reflexivity.
  Qed.

  Lemma prime_crema_sparse_2_eq s k : (k < n)%nat ->
    oentry (loglikelihood_prime_crema_sparse_2 n s x beta) k =
    oentry (loglikelihood_prime_crema_undirected n s (triu_edges n (pmatrix_cm x)) beta) k.
  Proof.
    intros Hk. destruct (prime_crema_some n s _ beta HD) as (P & EP & OP). rewrite EP. unfold loglikelihood_prime_crema_sparse_2.
    destruct (tri_obs (fun i j w => w / (beta i + beta j)) (fun i f => upd f i (f i - s i)) (fun k i => if Nat.eqb i k then - s i else 0)
      (fun i j f => let aux := x i * x j in
        obind (sdiv aux (1 + aux)) (fun aux_value =>
        if Rlt_dec 0 aux_value then
          obind (sdiv aux_value (beta i + beta j)) (fun d =>
          let f := upd f i (f i + d) in Some (upd f j (f j + d)))
        else Some f)) (fun _ => 0)) as (F & E & O).
    - intros i f r. cbv beta. destruct (Nat.eqb_spec i r) as [->|Hn]; [rewrite upd_eq; ring|rewrite upd_neq by auto; ring].
    - intros i j f Hij. cbv beta zeta. rewrite sdiv_some by (apply (aux_ne n); auto; lia). cbn [obind]. fold (pf x i j).
      pose proof (pf_nonneg n x i j Hx ltac:(lia) ltac:(lia)).
      destruct (Rlt_dec 0 (pf x i j)) as [Hp|Hp].
      + pose proof (dom_pmatrix n x beta i j Hx HD ltac:(lia) ltac:(lia) ltac:(lia) Hp).
        rewrite sdiv_some by lra. cbn [obind]. eexists; split; [reflexivity|]. intros r. apply upd2_hit.
      + exists f. split; [reflexivity|]. intros r. replace (pf x i j) with 0 by lra. unfold Rdiv. ring.
    - cbv beta zeta in E |- *. rewrite E. simpl. f_equal. rewrite O, OP, (proj2 (Nat.ltb_lt k n) Hk).
      rewrite (rsum_single n k (fun i => - s i) Hk). unfold cE. rewrite (esum_pmatrix n x (fun i j w => hit i j k * (w / (beta i + beta j)))).
      + ring.
      + intros. unfold Rdiv. ring.
      + intros. rewrite hit_sym, (Rplus_comm (beta i)). reflexivity.
  Qed.

  Lemma expected_crema_sparse_eq k :
    oentry (expected_strength_crema_undirected_sparse n x beta) k =
    oentry (expected_strength_crema_undirected (triu_edges n (pmatrix_cm x)) beta) k.
  Proof.
    destruct (expected_crema_some _ beta HD) as (P & EP & OP). rewrite EP. unfold expected_strength_crema_undirected_sparse.
    match goal with |- oentry (oloop n ?f0 (fun i f => oloop i f (@?b i))) k = _ =>
      destruct (tri_obs (fun i j w => w / (beta i + beta j)) (fun _ f => f) (fun k i => 0) b f0) as (F & E & O) end.
    - intros. ring.
    - intros i j f Hij. cbv beta zeta. rewrite sdiv_some by (apply (aux_ne n); auto; lia). cbn [obind]. fold (pf x i j).
      pose proof (pf_nonneg n x i j Hx ltac:(lia) ltac:(lia)).
      destruct (Rlt_dec 0 (pf x i j)) as [Hp|Hp].
      + pose proof (dom_pmatrix n x beta i j Hx HD ltac:(lia) ltac:(lia) ltac:(lia) Hp).
        rewrite sdiv_some by lra. cbn [obind]. eexists; split; [reflexivity|]. intros r. apply upd2_hit.
      + exists f. split; [reflexivity|]. intros r. replace (pf x i j) with 0 by lra. unfold Rdiv. ring.
    - cbv beta zeta in E |- *. rewrite E. simpl. f_equal. rewrite O, OP, rsum_0.
      unfold cE. rewrite (esum_pmatrix n x (fun i j w => hit i j k * (w / (beta i + beta j)))).
      + ring.
      + intros. unfold Rdiv. ring.
      + intros. rewrite hit_sym, (Rplus_comm (beta i)). reflexivity.
  Qed.

  Lemma hessian_diag_crema_sparse_2_eq k :
    oentry (loglikelihood_hessian_diag_crema_sparse_2 n x beta) k =
    oentry (loglikelihood_hessian_diag_crema_undirected (triu_edges n (pmatrix_cm x)) beta) k.
  Proof.
    destruct (diag_crema_some _ beta HD) as (P & EP & OP). rewrite EP. unfold loglikelihood_hessian_diag_crema_sparse_2.
    match goal with |- oentry (oloop n ?f0 (fun i f => oloop i f (@?b i))) k = _ =>
      destruct (tri_obs (fun i j w => - (w / (beta i + beta j) ^ 2)) (fun _ f => f) (fun k i => 0) b f0) as (F & E & O) end.
    - intros. ring.
    - intros i j f Hij. cbv beta zeta. rewrite (proj2 (Nat.eqb_neq i j)) by lia. cbn [negb].
      rewrite sdiv_some by (apply (aux_ne n); auto; lia). cbn [obind]. fold (pf x i j).
      pose proof (pf_nonneg n x i j Hx ltac:(lia) ltac:(lia)).
      destruct (Rlt_dec 0 (pf x i j)) as [Hp|Hp].
      + pose proof (dom_pmatrix n x beta i j Hx HD ltac:(lia) ltac:(lia) ltac:(lia) Hp).
        rewrite sdiv_some by (apply pow_nonzero; lra). cbn [obind]. eexists; split; [reflexivity|]. intros r. unfold Rminus.
        apply (upd2_hit f i j (- (pf x i j / (beta i + beta j) ^ 2)) r).
      + exists f. split; [reflexivity|]. intros r. replace (pf x i j) with 0 by lra. unfold Rdiv. ring.
    - cbv beta zeta in E |- *. rewrite E. simpl oentry. f_equal. rewrite O, OP, rsum_0.
      rewrite esum_pmatrix.
      + rewrite Rplus_0_l, Rplus_0_l. try rewrite <- rsum_opp. apply rsum_ext. intros i Hi. try rewrite <- rsum_opp.
        apply rsum_ext. intros j Hj. try unfold Rdiv; ring.
      + intros. unfold Rdiv. ring.
      + intros. rewrite hit_sym, (Rplus_comm (beta i)). reflexivity.
  Qed.
End Tri.

(** * Array (prange) functions *)
Lemma fsum_fin n v g : (forall j, (j < n)%nat -> v j = Fin (g j)) -> fsum n v = Fin (rsum n g).
Proof.
  unfold fsum. induction n as [|n IH]; intros H; [reflexivity|].
  rewrite loop_S, IH by (intros; apply H; lia). rewrite H by lia. reflexivity.
Qed.
Lemma fadd_nan_r a : fadd a NaN = NaN.
Proof. destruct a; reflexivity. Qed.
Lemma fadd_nan_l a : fadd NaN a = NaN.
Proof. destruct a; reflexivity. Qed.
Lemma fsum_nan n v j : (j < n)%nat -> v j = NaN -> fsum n v = NaN.
Proof.
  unfold fsum. induction n as [|n IH]; intros Hj H; [lia|]. rewrite loop_S.
  destruct (Nat.eq_dec j n) as [->|Hn]; [rewrite H; apply fadd_nan_r|].
  rewrite IH by (auto; lia). reflexivity.
Qed.
Lemma fdiv_fin a b : b <> 0 -> fdiv a b = Fin (a / b).
Proof. intros H. unfold fdiv. destruct (Req_EM_T b 0); [contradiction|reflexivity]. Qed.
Lemma fdiv_nan : fdiv 0 0 = NaN.
Proof. unfold fdiv. destruct (Req_EM_T 0 0); [|congruence]. destruct (Req_EM_T 0 0); [reflexivity|congruence]. Qed.

Section Arr.
  Variables (n : nat) (x beta : nat -> R).
  Hypothesis Hx : forall i, (i < n)%nat -> 0 <= x i.

  Lemma rsum_minus_own g i : (i < n)%nat -> rsum n g - g i = rsum n (fun j => if Nat.eqb i j then 0 else g j).
  Proof.
    intros Hi. pose proof (rsum_single n i g Hi) as S.
    transitivity (rsum n g - rsum n (fun j => if Nat.eqb j i then g j else 0)); [rewrite S; reflexivity|].
    rewrite <- rsum_minus. apply rsum_ext. intros j _. rewrite (Nat.eqb_sym i j). destruct (Nat.eqb j i); ring.
  Qed.

  Lemma prime_crema_sparse_fin s i :
    (i < n)%nat -> (forall j, (j < n)%nat -> beta i + beta j <> 0) ->
    loglikelihood_prime_crema_undirected_sparse n s x beta i =
    Fin (- s i + rsum n (fun j => if Nat.eqb i j then 0 else pf x i j / (beta i + beta j))).
  Proof.
    intros Hi Hb. unfold loglikelihood_prime_crema_undirected_sparse. cbv zeta.
    assert (A : forall j, (j < n)%nat -> fquo (fdiv (x i * x j) (1 + x i * x j)) (Fin (beta i + beta j)) = Fin (pf x i j / (beta i + beta j))).
    { intros j Hj. rewrite fdiv_fin by (apply (aux_ne n); auto). simpl. rewrite fdiv_fin by (apply Hb; exact Hj). reflexivity. }
    rewrite (fsum_fin n _ (fun j => pf x i j / (beta i + beta j))) by exact A. rewrite (A i Hi).
    cbn [fsub fadd fopp]. f_equal. rewrite <- (rsum_minus_own (fun j => pf x i j / (beta i + beta j)) i Hi). ring.
  Qed.

  Lemma prime_crema_sparse_eq s i :
    crema_dom (triu_edges n (pmatrix_cm x)) beta ->
    (i < n)%nat -> (forall j, (j < n)%nat -> beta i + beta j <> 0) ->
    exists P, loglikelihood_prime_crema_undirected n s (triu_edges n (pmatrix_cm x)) beta = Some P /\
      loglikelihood_prime_crema_undirected_sparse n s x beta i = Fin (P i).
  Proof.
    intros HD Hi Hb. destruct (prime_crema_some n s _ beta HD) as (P & EP & OP). exists P. split; [exact EP|].
    rewrite prime_crema_sparse_fin by assumption. f_equal. rewrite OP, (proj2 (Nat.ltb_lt i n) Hi). unfold cE.
    rewrite (esum_pmatrix_hit n x (fun i j w => w / (beta i + beta j)) i Hi).
    - ring.
    - intros. unfold Rdiv. ring.
    - intros a b w. rewrite (Rplus_comm (beta a)). reflexivity.
  Qed.

  Lemma diag_crema_sparse_eq i :
    crema_dom (triu_edges n (pmatrix_cm x)) beta ->
    (i < n)%nat -> (forall j, (j < n)%nat -> beta i + beta j <> 0) ->
    exists P, loglikelihood_hessian_diag_crema_undirected (triu_edges n (pmatrix_cm x)) beta = Some P /\
      loglikelihood_hessian_diag_crema_undirected_sparse n x beta i = Fin (P i).
  Proof.
    intros HD Hi Hb. destruct (diag_crema_some _ beta HD) as (P & EP & OP). exists P. split; [exact EP|].
    unfold loglikelihood_hessian_diag_crema_undirected_sparse. cbv zeta.
    assert (A : forall j, (j < n)%nat -> fquo (fdiv (x i * x j) (1 + x i * x j)) (Fin ((beta i + beta j) ^ 2)) = Fin (pf x i j / (beta i + beta j) ^ 2)).
    { intros j Hj. rewrite fdiv_fin by (apply (aux_ne n); auto). cbn [fquo]. rewrite fdiv_fin by (apply pow_nonzero, Hb; exact Hj). reflexivity. }
    rewrite (fsum_fin n _ (fun j => pf x i j / (beta i + beta j) ^ 2)) by exact A. rewrite (A i Hi).
    cbn [fsub fadd fopp]. f_equal. rewrite OP, esum_opp.
    rewrite (esum_pmatrix_hit n x (fun i j w => w / (beta i + beta j) ^ 2) i Hi).
    - rewrite <- (rsum_minus_own (fun j => pf x i j / (beta i + beta j) ^ 2) i Hi). ring.
    - intros. unfold Rdiv. ring.
    - intros a b w. rewrite (Rplus_comm (beta a)). reflexivity.
  Qed.

  Lemma iterative_crema_sparse_fin s i :
    (i < n)%nat -> 0 <= s i -> beta i <> 0 -> (forall j, (j < n)%nat -> beta i + beta j <> 0) ->
    iterative_crema_undirected_sparse n s x beta i =
    Fin (- (beta i * rsum n (fun j => if Nat.eqb i j then 0 else pf x i j / (beta i + beta j))) / (s i + exp (- (100)))).
  Proof.
    intros Hi Hs Hb0 Hb. unfold iterative_crema_undirected_sparse. cbv zeta.
    assert (A : forall j, (j < n)%nat -> fquo (fdiv (x i * x j) (1 + x i * x j)) (fadd (Fin 1) (fdiv (beta j) (beta i))) = Fin (beta i * (pf x i j / (beta i + beta j)))).
    { intros j Hj. rewrite fdiv_fin by (apply (aux_ne n); auto). rewrite fdiv_fin by exact Hb0. cbn [fadd fquo].
      rewrite fdiv_fin by (apply ratio_ne; auto). f_equal. apply ratio_w; auto. }
    rewrite (fsum_fin n _ (fun j => beta i * (pf x i j / (beta i + beta j)))) by exact A. rewrite (A i Hi).
    cbn [fadd fopp fquo]. pose proof (exp_pos (- (100))). rewrite fdiv_fin by lra. f_equal. f_equal.
    rewrite <- (rsum_minus_own (fun j => pf x i j / (beta i + beta j)) i Hi). rewrite rsum_scal_l. ring.
  Qed.
End Arr.

(** Fixed points of the sparse map: the expected strength is [s_i + exp(-100)]. *)
Lemma fixed_point_crema_sparse_iff n s x beta i :
  (forall i, (i < n)%nat -> 0 <= x i) ->
  (i < n)%nat -> 0 <= s i -> beta i <> 0 -> (forall j, (j < n)%nat -> beta i + beta j <> 0) ->
  (fopp (iterative_crema_undirected_sparse n s x beta i) = Fin (beta i) <->
   loglikelihood_prime_crema_undirected_sparse n s x beta i = Fin (exp (- (100)))).
Proof.
  intros Hx Hi Hs Hb0 Hb. rewrite iterative_crema_sparse_fin, prime_crema_sparse_fin by assumption.
  cbn [fopp]. set (A := rsum n _). pose proof (exp_pos (- (100))) as Hp. revert Hp. generalize (exp (- (100))) as e. intros e Hp.
  split; intros E; injection E as E; f_equal.
  - assert (Q : beta i * A = beta i * (s i + e)).
    { replace (beta i * (s i + e)) with (- (- (beta i * A) / (s i + e)) * (s i + e)) by (rewrite E; ring). field. lra. }
    apply Rmult_eq_reg_l in Q; [lra|exact Hb0].
  - replace A with (s i + e) by lra. field. lra.
Qed.

(** NaN at a node without links whose parameter is 0. *)
Lemma crema_sparse_isolated_nan n s x beta i :
  (i < n)%nat -> x i = 0 -> beta i = 0 ->
  loglikelihood_prime_crema_undirected_sparse n s x beta i = NaN /\
  loglikelihood_hessian_diag_crema_undirected_sparse n x beta i = NaN /\
  iterative_crema_undirected_sparse n s x beta i = NaN.
Proof.
  intros Hi Zx Zb.
  assert (D : fdiv (x i * x i) (1 + x i * x i) = Fin 0).
  { rewrite Zx. rewrite fdiv_fin by lra. f_equal. field. }
  assert (B : fdiv (beta i) (beta i) = NaN) by (rewrite Zb; apply fdiv_nan).
  split; [|split].
  - unfold loglikelihood_prime_crema_undirected_sparse. cbv zeta.
    rewrite (fsum_nan n _ i Hi); [unfold fsub; rewrite fadd_nan_l; apply fadd_nan_r|].
    cbv beta. rewrite D, Zb, Rplus_0_l. apply fdiv_nan.
  - unfold loglikelihood_hessian_diag_crema_undirected_sparse. cbv zeta.
    rewrite (fsum_nan n _ i Hi); [unfold fsub; rewrite fadd_nan_l; reflexivity|].
    cbv beta. rewrite D, Zb, Rplus_0_l. rewrite pow_i by lia. apply fdiv_nan.
  - unfold iterative_crema_undirected_sparse. cbv zeta.
    rewrite (fsum_nan n _ i Hi).
    + simpl fopp. rewrite fadd_nan_l. reflexivity.
    + cbv beta. rewrite D, B. reflexivity.
Qed.

(** The dense functions on the same topology do not see that node. *)
Lemma crema_dense_isolated n s x beta i :
  (forall i, (i < n)%nat -> 0 <= x i) -> crema_dom (triu_edges n (pmatrix_cm x)) beta ->
  (i < n)%nat -> x i = 0 -> s i = 0 ->
  oentry (loglikelihood_prime_crema_undirected n s (triu_edges n (pmatrix_cm x)) beta) i = Some 0.
Proof.
  intros Hx HD Hi Zx Zs. destruct (prime_crema_some n s _ beta HD) as (P & EP & OP). rewrite EP. simpl. f_equal.
  rewrite OP, (proj2 (Nat.ltb_lt i n) Hi), Zs. unfold cE.
  rewrite (esum_pmatrix_hit n x (fun i j w => w / (beta i + beta j)) i Hi).
  - rewrite rsum_zero; [ring|]. intros j Hj. destruct (Nat.eqb i j); [reflexivity|]. unfold pf. rewrite Zx. unfold Rdiv. ring.
  - intros. unfold Rdiv. ring.
  - intros a b w. rewrite (Rplus_comm (beta a)). reflexivity.
Qed.

(** * The self-pair *)
Lemma opartial_unique F x h d e : opartial F x h d -> opartial F x h e -> d = e.
Proof.
  intros (G & PG & LG) (G' & PG' & LG').
  assert (L : locally (x h) (fun t => G (upd x h t) = G' (upd x h t))).
  { generalize (filter_and _ _ LG LG'). apply filter_imp. intros t [H1 H2]. congruence. }
  unfold partial in PG, PG'. pose proof (is_derive_ext_loc _ _ _ _ L PG) as Q.
  apply is_derive_unique in Q. apply is_derive_unique in PG'. exact (eq_trans (eq_sym Q) PG').
Qed.

Lemma crema_self_pair_refuted :
  exists n s es beta, pairs_below n es /\ nonneg_weights es /\ crema_dom es beta /\
    (forall d, opartial (fun b => oentry (loglikelihood_prime_crema_undirected n s es b) 0) beta 0 d ->
       oentry2 (loglikelihood_hessian_crema_undirected es beta) 0 0 <> Some d /\
       oentry (loglikelihood_hessian_diag_crema_undirected es beta) 0 <> Some d).
Proof.
  exists 1%nat, (fun _ => 1), [(0%nat, 0%nat, 1)], (fun _ => 1).
  assert (HD : crema_dom [(0%nat, 0%nat, 1)] (fun _ => 1)).
  { intros i j w [E|[]]. lra. }
  split; [intros i j w [E|[]]; injection E as <- <- <-; split; lia|].
  split; [intros i j w [E|[]]; injection E as <- <- <-; lra|]. split; [exact HD|].
  intros d Hd.
  pose proof (opartial_prime 1 (fun _ => 1) [(0%nat, 0%nat, 1)] (fun _ => 1) 0 0 _ HD eq_refl) as Hm.
  pose proof (opartial_unique _ _ _ _ _ Hd Hm) as ->.
  unfold cH, esum, hit. simpl.
  unfold loglikelihood_hessian_crema_undirected, loglikelihood_hessian_diag_crema_undirected, eloop, upd2. simpl.
  rewrite !sdiv_some by lra. simpl. rewrite !upd_eq. split; intros E; injection E as E; lra.
Qed.
