(** Approximate solutions of the CReMa models; two approximate solutions are close to each other. *)
From Coq Require Import Reals List Arith Lia Lra.
From Coquelicot Require Import Coquelicot.
From Verif Require Import Base SpecGraph SpecWeighted SpecEnsemble SpecSolve SpecNear ProofsGraph ProofsPairW ProofsEnsemble ProofsResidual ProofsNear.
Local Open Scope R_scope.

Lemma rate_near p b c : 0 <= p -> (p <> 0 -> 0 < b) -> (p <> 0 -> 0 < c) -> p * ln c <= p * ln b + p / b * (c - b).
Proof.
  intros Hp Hb Hc. destruct (Req_dec p 0) as [->|N]; [unfold Rdiv; lra|]. specialize (Hb N). specialize (Hc N).
  pose proof (ln_le_minus1 (c / b) ltac:(apply Rdiv_lt_0_compat; assumption)) as L. unfold Rdiv in L at 1. rewrite ln_mult in L by (try apply Rinv_0_lt_compat; assumption). rewrite ln_Rinv in L by assumption.
  replace (p * ln b + p / b * (c - b)) with (p * (ln b + (c / b - 1))) by (field; lra). apply Rmult_le_compat_l; [exact Hp|]. lra.
Qed.
Lemma near_crema n p s b c e : (forall i j, (i < j < n)%nat -> 0 <= p i j) -> positive_rates n p b -> positive_rates n p c ->
  (forall i, (i < n)%nat -> Rabs (crema_mean n p b i - s i) <= e) ->
  crema_loglik n p s c <= crema_loglik n p s b + e * one_norm n b c.
Proof.
  intros Hp Hb Hc He. unfold crema_loglik.
  assert (T : usum n (fun i j => p i j * ln (c i + c j)) <= usum n (fun i j => p i j * ln (b i + b j) + p (Nat.min i j) (Nat.max i j) / (b i + b j) * ((c i - b i) + (c j - b j)))).
  { apply rsum_le. intros j Hj. apply rsum_le. intros i Hi. rewrite Nat.min_l, Nat.max_r by lia. replace (c i - b i + (c j - b j)) with (c i + c j - (b i + b j)) by ring.
    apply rate_near; [apply Hp; lia|intros N; apply Hb; [lia|exact N]|intros N; apply Hc; [lia|exact N]]. }
  rewrite usum_plus in T.
  rewrite (usum_sym_group n (fun i j => p (Nat.min i j) (Nat.max i j) / (b i + b j)) (fun i => c i - b i)) in T.
  2: { intros i j _ _. rewrite (Nat.min_comm i), (Nat.max_comm i), (Rplus_comm (b i)). reflexivity. }
  change (rsum n (fun j => rsum j (fun i => p i j * ln (c i + c j)))) with (usum n (fun i j => p i j * ln (c i + c j))).
  change (rsum n (fun j => rsum j (fun i => p i j * ln (b i + b j)))) with (usum n (fun i j => p i j * ln (b i + b j))).
  pose proof (weigh n (fun i => crema_mean n p b i - s i) (fun i => c i - b i) e He) as W. cbv beta in W. change (rsum n (fun i => Rabs (c i - b i))) with (one_norm n b c) in W.
  assert (E : rsum n (fun i => (crema_mean n p b i - s i) * (c i - b i)) =
    rsum n (fun i => rsum n (fun j => if Nat.eqb i j then 0 else p (Nat.min i j) (Nat.max i j) / (b i + b j)) * (c i - b i)) - (rsum n (fun i => s i * c i) - rsum n (fun i => s i * b i))).
  { rewrite <- !rsum_minus. apply rsum_ext. intros i _. unfold crema_mean. ring. }
  lra.
Qed.
Lemma near_crema_dir n p so si bo bi co ci e1 e2 : (forall i j, (i < n)%nat -> (j < n)%nat -> 0 <= p i j) -> positive_rates_dir n p bo bi -> positive_rates_dir n p co ci ->
  (forall i, (i < n)%nat -> Rabs (crema_mean_out n p bo bi i - so i) <= e1) ->
  (forall i, (i < n)%nat -> Rabs (crema_mean_in n p bo bi i - si i) <= e2) ->
  crema_loglik_dir n p so si co ci <= crema_loglik_dir n p so si bo bi + (e1 * one_norm n bo co + e2 * one_norm n bi ci).
Proof.
  intros Hp Hb Hc H1 H2. unfold crema_loglik_dir.
  assert (T : rsum n (fun i => rsum n (fun j => p i j * ln (co i + ci j))) <=
    rsum n (fun i => rsum n (fun j => p i j * ln (bo i + bi j) + (p i j / (bo i + bi j) * (co i - bo i) + p i j / (bo i + bi j) * (ci j - bi j))))).
  { apply rsum_le. intros i Hi. apply rsum_le. intros j Hj. replace (p i j / (bo i + bi j) * (co i - bo i) + p i j / (bo i + bi j) * (ci j - bi j)) with (p i j / (bo i + bi j) * (co i + ci j - (bo i + bi j))) by ring.
    apply rate_near; [apply Hp; assumption|intros N; apply Hb; assumption|intros N; apply Hc; assumption]. }
  rewrite (rsum_ext n (fun i => rsum n (fun j => p i j * ln (bo i + bi j) + (p i j / (bo i + bi j) * (co i - bo i) + p i j / (bo i + bi j) * (ci j - bi j)))) (fun i => rsum n (fun j => p i j * ln (bo i + bi j)) + (crema_mean_out n p bo bi i * (co i - bo i) + rsum n (fun j => p i j / (bo i + bi j) * (ci j - bi j))))) in T.
  2: { intros i _. rewrite !rsum_plus. rewrite rsum_scal_r. reflexivity. }
  rewrite !rsum_plus in T. rewrite (rsum_swap n n (fun i j => p i j / (bo i + bi j) * (ci j - bi j))) in T.
  rewrite (rsum_ext n (fun j => rsum n (fun i => p i j / (bo i + bi j) * (ci j - bi j))) (fun j => crema_mean_in n p bo bi j * (ci j - bi j))) in T by (intros j _; rewrite rsum_scal_r; reflexivity).
  pose proof (weigh n (fun i => crema_mean_out n p bo bi i - so i) (fun i => co i - bo i) e1 H1) as W1. cbv beta in W1. change (rsum n (fun i => Rabs (co i - bo i))) with (one_norm n bo co) in W1.
  pose proof (weigh n (fun i => crema_mean_in n p bo bi i - si i) (fun i => ci i - bi i) e2 H2) as W2. cbv beta in W2. change (rsum n (fun i => Rabs (ci i - bi i))) with (one_norm n bi ci) in W2.
  assert (E1 : rsum n (fun i => (crema_mean_out n p bo bi i - so i) * (co i - bo i)) = rsum n (fun i => crema_mean_out n p bo bi i * (co i - bo i)) - (rsum n (fun i => so i * co i) - rsum n (fun i => so i * bo i))).
  { rewrite <- !rsum_minus. apply rsum_ext. intros i _. ring. }
  assert (E2 : rsum n (fun i => (crema_mean_in n p bo bi i - si i) * (ci i - bi i)) = rsum n (fun i => crema_mean_in n p bo bi i * (ci i - bi i)) - (rsum n (fun i => si i * ci i) - rsum n (fun i => si i * bi i))).
  { rewrite <- !rsum_minus. apply rsum_ext. intros i _. ring. }
  lra.
Qed.

(** * Two approximate solutions *)
Definition logistic (s : R) : R := exp s / (1 + exp s).
Lemma logistic_derive s : is_derive logistic s (logistic s * (1 - logistic s)).
Proof. unfold logistic. pose proof (exp_pos s). auto_derive; [lra|]. field. lra. Qed.
Lemma logistic_close a b : a <= b -> 0 <= logistic b - logistic a <= (b - a) / 4.
Proof.
  intros H. destruct (MVT_gen logistic a b (fun s => logistic s * (1 - logistic s))) as (c & _ & E).
  - intros s _. apply logistic_derive.
  - intros s _. apply continuity_pt_filterlim. apply (ex_derive_continuous logistic). eexists. apply logistic_derive.
  - assert (P : 0 <= logistic c <= 1). { unfold logistic. pose proof (exp_pos c). split; [apply Rdiv_le_0_compat; lra|]. apply (Rmult_le_reg_r (1 + exp c)); [lra|]. unfold Rdiv. rewrite Rmult_assoc, Rinv_l by lra. lra. }
    assert (Q : 0 <= logistic c * (1 - logistic c) <= / 4).
    { split; [apply Rmult_le_pos; lra|]. pose proof (Rle_0_sqr (logistic c - / 2)) as S. unfold Rsqr in S. lra. }
    rewrite E. split; [apply Rmult_le_pos; lra|]. unfold Rdiv. rewrite (Rmult_comm (b - a)). apply Rmult_le_compat_r; lra.
Qed.
Lemma odds_logistic t : 0 < t -> t / (1 + t) = logistic (ln t).
Proof. intros H. unfold logistic. rewrite exp_ln by exact H. reflexivity. Qed.
Lemma odds_close t u : 0 < t -> 0 < u -> 4 * (t / (1 + t) - u / (1 + u)) ^ 2 <= (u / (1 + u) - t / (1 + t)) * (ln u - ln t).
Proof.
  intros Ht Hu. rewrite !odds_logistic by assumption. set (a := ln t). set (b := ln u). clearbody a b.
  destruct (Rle_or_lt a b) as [L|L].
  - destruct (logistic_close a b L) as [P Q]. set (d := logistic b - logistic a) in *. replace ((logistic a - logistic b) ^ 2) with (d * d) by (unfold d; ring).
    replace (4 * (d * d)) with (d * (4 * d)) by ring. apply Rmult_le_compat_l; lra.
  - destruct (logistic_close b a ltac:(lra)) as [P Q]. set (d := logistic a - logistic b) in *. replace ((logistic b - logistic a) * (b - a)) with (d * (a - b)) by (unfold d; ring).
    replace (4 * d ^ 2) with (d * (4 * d)) by ring. apply Rmult_le_compat_l; lra.
Qed.
Lemma pair_close x y z w : 0 <= x -> 0 <= y -> 0 <= z -> 0 <= w -> (0 < x <-> 0 < z) -> (0 < y <-> 0 < w) ->
  4 * (x * y / (1 + x * y) - z * w / (1 + z * w)) ^ 2 <= (z * w / (1 + z * w) - x * y / (1 + x * y)) * (lgap x z + lgap y w).
Proof.
  intros Hx Hy Hz Hw S1 S2.
  destruct (Rle_lt_or_eq_dec _ _ Hx) as [Px|<-]; [destruct (Rle_lt_or_eq_dec _ _ Hy) as [Py|<-]|].
  - assert (0 < z) by tauto. assert (0 < w) by tauto. rewrite lgap_mult by assumption. apply odds_close; apply Rmult_lt_0_compat; assumption.
  - replace w with 0 by (destruct (Rle_lt_or_eq_dec _ _ Hw); [exfalso; assert (0 < 0) by tauto; lra|assumption]). rewrite !Rmult_0_r. unfold Rdiv. rewrite Rmult_0_l. lra.
  - replace z with 0 by (destruct (Rle_lt_or_eq_dec _ _ Hz); [exfalso; assert (0 < 0) by tauto; lra|assumption]). rewrite !Rmult_0_l. unfold Rdiv. rewrite Rmult_0_l. lra.
Qed.
Lemma two_errors a b k e f : Rabs (a - k) <= e -> Rabs (b - k) <= f -> Rabs (b - a) <= e + f.
Proof. intros H1 H2. replace (b - a) with ((b - k) + - (a - k)) by ring. eapply Rle_trans; [apply Rabs_triang|]. rewrite Rabs_Ropp. lra. Qed.

Lemma close_und n k x z e f : comparable n x z -> comparable n z x ->
  (forall i, (i < n)%nat -> Rabs (mean_undirected n (p_ubcm x) (fun b => deg n b i) - k i) <= e) ->
  (forall i, (i < n)%nat -> Rabs (mean_undirected n (p_ubcm z) (fun b => deg n b i) - k i) <= f) ->
  4 * apart_und n (p_ubcm x) (p_ubcm z) <= (e + f) * log_gap n x z.
Proof.
  intros H1 H2 E F. set (l := fun i => lgap (x i) (z i)).
  assert (S : forall y u v, p_ubcm y u v = p_ubcm y v u) by (intros y u v; unfold p_ubcm; rewrite (Rmult_comm (y u)); reflexivity).
  apply (Rle_trans _ (usum n (fun i j => (p_ubcm z i j - p_ubcm x i j) * (l i + l j)))).
  - unfold apart_und, usum. rewrite <- rsum_scal_l. apply rsum_le. intros j Hj. rewrite <- rsum_scal_l. apply rsum_le. intros i Hi.
    destruct (H1 i ltac:(lia)) as (A1 & A2 & A3), (H1 j Hj) as (B1 & B2 & B3), (H2 i ltac:(lia)) as (_ & _ & C3), (H2 j Hj) as (_ & _ & D3).
    unfold p_ubcm, l. apply pair_close; try assumption; split; assumption.
  - rewrite usum_sym_group by (intros i j _ _; rewrite (S z), (S x); reflexivity). rewrite log_gap_abs. apply weigh. intros i Hi.
    eapply Rle_trans; [right|apply (two_errors _ _ _ _ _ (E i Hi) (F i Hi))]. f_equal. rewrite !mean_undirected_deg by (try apply S; exact Hi). rewrite <- rsum_minus. apply rsum_ext. intros j _. destruct (Nat.eqb i j); ring.
Qed.
Lemma close_dir n ko ki x y z w e1 e2 f1 f2 : comparable n x z -> comparable n z x -> comparable n y w -> comparable n w y ->
  (forall i, (i < n)%nat -> Rabs (mean_directed n (p_dbcm x y) (fun b => deg n b i) - ko i) <= e1) ->
  (forall i, (i < n)%nat -> Rabs (mean_directed n (p_dbcm x y) (fun b => indeg n b i) - ki i) <= e2) ->
  (forall i, (i < n)%nat -> Rabs (mean_directed n (p_dbcm z w) (fun b => deg n b i) - ko i) <= f1) ->
  (forall i, (i < n)%nat -> Rabs (mean_directed n (p_dbcm z w) (fun b => indeg n b i) - ki i) <= f2) ->
  4 * apart_dir n (p_dbcm x y) (p_dbcm z w) <= (e1 + f1) * log_gap n x z + (e2 + f2) * log_gap n y w.
Proof.
  intros H1 H2 H3 H4 E1 E2 F1 F2. set (l := fun i => lgap (x i) (z i)). set (k := fun i => lgap (y i) (w i)).
  apply (Rle_trans _ (rsum n (fun i => rsum n (fun j => if Nat.eqb i j then 0 else (p_dbcm z w i j - p_dbcm x y i j) * (l i + k j))))).
  - unfold apart_dir. rewrite <- rsum_scal_l. apply rsum_le. intros i Hi. rewrite <- rsum_scal_l. apply rsum_le. intros j Hj. destruct (Nat.eqb i j); [lra|].
    destruct (H1 i Hi) as (A1 & A2 & A3), (H3 j Hj) as (B1 & B2 & B3), (H2 i Hi) as (_ & _ & C3), (H4 j Hj) as (_ & _ & D3).
    unfold p_dbcm, l, k. apply pair_close; try assumption; split; assumption.
  - replace (rsum n (fun i => rsum n (fun j => if Nat.eqb i j then 0 else (p_dbcm z w i j - p_dbcm x y i j) * (l i + k j)))) with
      (rsum n (fun i => rsum n (fun j => if Nat.eqb i j then 0 else p_dbcm z w i j - p_dbcm x y i j) * l i) + rsum n (fun j => rsum n (fun i => if Nat.eqb i j then 0 else p_dbcm z w i j - p_dbcm x y i j) * k j)).
    2: { rewrite (rsum_ext n (fun j => rsum n (fun i => if Nat.eqb i j then 0 else p_dbcm z w i j - p_dbcm x y i j) * k j) (fun j => rsum n (fun i => if Nat.eqb i j then 0 else (p_dbcm z w i j - p_dbcm x y i j) * k j))).
         2: { intros j _. rewrite <- rsum_scal_r. apply rsum_ext. intros i _. destruct (Nat.eqb i j); ring. }
         rewrite <- (rsum_swap n n (fun i j => if Nat.eqb i j then 0 else (p_dbcm z w i j - p_dbcm x y i j) * k j)). rewrite <- rsum_plus. apply rsum_ext. intros i _.
         rewrite <- rsum_scal_r, <- rsum_plus. apply rsum_ext. intros j _. destruct (Nat.eqb i j); ring. }
    rewrite !log_gap_abs. apply Rplus_le_compat; apply weigh; intros i Hi.
    + eapply Rle_trans; [right|apply (two_errors _ _ _ _ _ (E1 i Hi) (F1 i Hi))]. f_equal. rewrite !mean_directed_deg by exact Hi. rewrite <- rsum_minus. apply rsum_ext. intros j _. destruct (Nat.eqb i j); ring.
    + eapply Rle_trans; [right|apply (two_errors _ _ _ _ _ (E2 i Hi) (F2 i Hi))]. f_equal. rewrite !mean_directed_indeg by exact Hi. rewrite <- rsum_minus. apply rsum_ext. intros j _. destruct (Nat.eqb j i); ring.
Qed.
Lemma rate_close p b c : (p <> 0 -> 0 < b) -> (p <> 0 -> 0 < c) -> p * ((/ b - / c) ^ 2 / (/ b * / c)) = (p / b - p / c) * (c - b).
Proof. intros Hb Hc. destruct (Req_dec p 0) as [->|N]; [unfold Rdiv; ring|]. specialize (Hb N). specialize (Hc N). field. lra. Qed.
Lemma close_crema n p s b c e f : positive_rates n p b -> positive_rates n p c ->
  (forall i, (i < n)%nat -> Rabs (crema_mean n p b i - s i) <= e) -> (forall i, (i < n)%nat -> Rabs (crema_mean n p c i - s i) <= f) ->
  rates_apart n p b c <= (e + f) * one_norm n b c.
Proof.
  intros Hb Hc E F. set (q := fun i j => p (Nat.min i j) (Nat.max i j)).
  replace (rates_apart n p b c) with (usum n (fun i j => (q i j / (b i + b j) - q i j / (c i + c j)) * ((c i - b i) + (c j - b j)))).
  2: { unfold rates_apart, usum. apply rsum_ext. intros j Hj. apply rsum_ext. intros i Hi. unfold q. rewrite Nat.min_l, Nat.max_r by lia.
       rewrite rate_close; [ring|intros N; apply Hb; [lia|exact N]|intros N; apply Hc; [lia|exact N]]. }
  rewrite (usum_sym_group n (fun i j => q i j / (b i + b j) - q i j / (c i + c j)) (fun i => c i - b i)).
  2: { intros i j _ _. unfold q. rewrite (Nat.min_comm i), (Nat.max_comm i), (Rplus_comm (b i)), (Rplus_comm (c i)). reflexivity. }
  apply weigh. intros i Hi. rewrite Rplus_comm. eapply Rle_trans; [right|apply (two_errors _ _ _ _ _ (F i Hi) (E i Hi))]. f_equal. unfold crema_mean. rewrite <- rsum_minus. apply rsum_ext. intros j _.
  unfold q. destruct (Nat.eqb i j); ring.
Qed.
Lemma close_crema_dir n p so si bo bi co ci e1 e2 f1 f2 : positive_rates_dir n p bo bi -> positive_rates_dir n p co ci ->
  (forall i, (i < n)%nat -> Rabs (crema_mean_out n p bo bi i - so i) <= e1) -> (forall i, (i < n)%nat -> Rabs (crema_mean_in n p bo bi i - si i) <= e2) ->
  (forall i, (i < n)%nat -> Rabs (crema_mean_out n p co ci i - so i) <= f1) -> (forall i, (i < n)%nat -> Rabs (crema_mean_in n p co ci i - si i) <= f2) ->
  rates_apart_dir n p bo bi co ci <= (e1 + f1) * one_norm n bo co + (e2 + f2) * one_norm n bi ci.
Proof.
  intros Hb Hc E1 E2 F1 F2. set (d := fun i j => p i j / (bo i + bi j) - p i j / (co i + ci j)).
  replace (rates_apart_dir n p bo bi co ci) with (rsum n (fun i => rsum n (d i) * (co i - bo i)) + rsum n (fun j => rsum n (fun i => d i j) * (ci j - bi j))).
  2: { rewrite (rsum_ext n (fun j => rsum n (fun i => d i j) * (ci j - bi j)) (fun j => rsum n (fun i => d i j * (ci j - bi j)))) by (intros j _; rewrite rsum_scal_r; reflexivity).
       rewrite <- (rsum_swap n n (fun i j => d i j * (ci j - bi j))). rewrite <- rsum_plus. unfold rates_apart_dir. apply rsum_ext. intros i Hi. rewrite <- rsum_scal_r, <- rsum_plus. apply rsum_ext. intros j Hj.
       unfold d. rewrite rate_close; [ring|intros N; apply Hb; assumption|intros N; apply Hc; assumption]. }
  apply Rplus_le_compat; apply weigh; intros i Hi; rewrite Rplus_comm.
  - eapply Rle_trans; [right|apply (two_errors _ _ _ _ _ (F1 i Hi) (E1 i Hi))]. f_equal. unfold crema_mean_out, d. rewrite <- rsum_minus. reflexivity.
  - eapply Rle_trans; [right|apply (two_errors _ _ _ _ _ (F2 i Hi) (E2 i Hi))]. f_equal. unfold crema_mean_in, d. rewrite <- rsum_minus. reflexivity.
Qed.
