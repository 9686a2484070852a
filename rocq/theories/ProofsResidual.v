(** The distance of the mean degrees from the degrees after a short step. *)
From Coq Require Import Reals List Arith Bool Lia Lra Psatz.
From Verif Require Import Base SpecGraph SpecExist SpecConverge ModelLinsearch ProofsLinsearch ProofsConverge ProofsConvergeSys.
Import ListNotations.
Local Open Scope R_scope.

Lemma norm2_ge n v i : (i < n)%nat -> Rabs (v i) <= norm2 n v.
Proof.
  intros Hi. unfold norm2. rewrite <- sqrt_Rsqr_abs. apply sqrt_le_1_alt. unfold dot, Rsqr. rewrite (rsum_pull n i) by exact Hi.
  assert (0 <= rsum n (fun j => if Nat.eqb j i then 0 else v j * v j)).
  { apply rsum_nonneg. intros j _. destruct (Nat.eqb j i); [lra|]. apply Rle_0_sqr. }
  lra.
Qed.
Lemma rsum_abs n f : Rabs (rsum n f) <= rsum n (fun j => Rabs (f j)).
Proof.
  induction n as [|n IH]; cbn [rsum]; [rewrite Rabs_R0; lra|]. apply Rle_trans with (1 := Rabs_triang _ _). lra.
Qed.
Lemma class_mean_diff n c p q i e : (forall j, (j < n)%nat -> 1 <= c j) -> (forall j, (j < n)%nat -> Rabs (p i j - q i j) <= e) -> 0 <= e ->
  Rabs (class_mean n c p i - class_mean n c q i) <= rsum n c * e.
Proof.
  intros Hc H He. unfold class_mean. rewrite <- rsum_minus. apply Rle_trans with (1 := rsum_abs _ _).
  apply Rle_trans with (rsum n (fun j => c j * e)).
  - apply rsum_le. intros j Hj. specialize (H j Hj). specialize (Hc j Hj).
    rewrite <- Rmult_minus_distr_l, Rabs_mult. destruct (Nat.eqb i j); (rewrite Rabs_pos_eq by lra).
    + apply Rmult_le_compat; try lra. apply Rabs_pos.
    + apply Rmult_le_compat; try lra. apply Rabs_pos.
  - right. rewrite (rsum_ext n (fun j => c j * e) (fun j => e * c j)) by (intros; ring). rewrite rsum_scal_l. ring.
Qed.
Lemma prob_lip u v : 0 <= u -> 0 <= v -> Rabs (u / (1 + u) - v / (1 + v)) <= Rabs (u - v).
Proof.
  intros Hu Hv. replace (u / (1 + u) - v / (1 + v)) with ((u - v) / ((1 + u) * (1 + v))) by (field; split; lra).
  unfold Rdiv. rewrite Rabs_mult. rewrite <- (Rmult_1_r (Rabs (u - v))) at 2. apply Rmult_le_compat_l; [apply Rabs_pos|].
  assert (1 <= (1 + u) * (1 + v)) by nra. rewrite Rabs_pos_eq by (left; apply Rinv_0_lt_compat; lra).
  rewrite <- Rinv_1. apply Rinv_le_contravar; lra.
Qed.
Definition inside (n : nat) (U : R) (x : nat -> R) : Prop := forall j, (j < n)%nat -> 0 <= x j <= U.
Definition apart (n : nat) (d : R) (x x' : nat -> R) : Prop := forall j, (j < n)%nat -> Rabs (x' j - x j) <= d.

Lemma mean_lip n c x y x' y' i U d : (forall j, (j < n)%nat -> 1 <= c j) -> (i < n)%nat -> 0 <= d ->
  inside n U x -> inside n U y -> inside n U x' -> inside n U y' -> apart n d x x' -> apart n d y y' ->
  Rabs (class_mean n c (p_dbcm x' y') i - class_mean n c (p_dbcm x y) i) <= rsum n c * (2 * U * d).
Proof.
  intros Hc Hi Hd Ix Iy Ix' Iy' Ax Ay. assert (U0 : 0 <= U) by (specialize (Ix i Hi); lra). apply class_mean_diff; [exact Hc| |nra].
  intros j Hj. unfold p_dbcm. destruct (Ix i Hi), (Iy j Hj), (Ix' i Hi), (Iy' j Hj). specialize (Ax i Hi). specialize (Ay j Hj).
  apply Rle_trans with (1 := prob_lip (x' i * y' j) (x i * y j) ltac:(nra) ltac:(nra)).
  replace (x' i * y' j - x i * y j) with (x' i * (y' j - y j) + y j * (x' i - x i)) by ring.
  apply Rle_trans with (1 := Rabs_triang _ _). rewrite !Rabs_mult, (Rabs_pos_eq (x' i)), (Rabs_pos_eq (y j)) by assumption.
  assert (Rabs_p1 := Rabs_pos (y' j - y j)). assert (Rabs_p2 := Rabs_pos (x' i - x i)).
  assert (x' i * Rabs (y' j - y j) <= U * d) by (apply Rmult_le_compat; assumption).
  assert (y j * Rabs (x' i - x i) <= U * d) by (apply Rmult_le_compat; assumption). lra.
Qed.
Lemma pull_bound n c x y i U : (forall j, (j < n)%nat -> 1 <= c j) -> (i < n)%nat -> inside n U x -> inside n U y ->
  0 <= pull n (cw c) x y i <= rsum n c * U.
Proof.
  intros Hc Hi Ix Iy.
  assert (T : forall j, (j < n)%nat -> 0 <= y j / (1 + x i * y j) <= U).
  { intros j Hj. destruct (Ix i Hi), (Iy j Hj). assert (P : 1 <= 1 + x i * y j) by nra. assert (Q : 0 < / (1 + x i * y j) <= 1).
    { split; [apply Rinv_0_lt_compat; lra|]. apply Rle_trans with (/ 1); [apply Rinv_le_contravar; lra|rewrite Rinv_1; lra]. }
    unfold Rdiv. split; nra. }
  assert (C : forall j, (j < n)%nat -> 0 <= cw c i j <= c j) by (intros j Hj; unfold cw; specialize (Hc j Hj); destruct (Nat.eqb i j); lra).
  split.
  - apply rsum_nonneg. intros j Hj. apply Rmult_le_pos; [apply C|apply T]; exact Hj.
  - apply Rle_trans with (rsum n (fun j => U * c j)).
    + apply rsum_le. intros j Hj. destruct (T j Hj), (C j Hj). rewrite Rmult_comm. apply Rmult_le_compat; assumption.
    + rewrite rsum_scal_l. right. ring.
Qed.
Lemma mean_pull' n c x y i : class_mean n c (p_dbcm x y) i = x i * pull n (cw c) x y i.
Proof.
  unfold class_mean, pull, p_dbcm, cw. rewrite <- rsum_scal_l. apply rsum_ext. intros j _. unfold Rdiv. ring.
Qed.

(** Linear parameters: [g] is the image of the coordinate [x i]. *)
Lemma residual_linear n c k x y x' y' g i U d al : (forall j, (j < n)%nat -> 1 <= c j) -> (i < n)%nat -> 0 < al <= 1 -> 0 <= d ->
  inside n U x -> inside n U y -> inside n U x' -> inside n U y' -> apart n d x x' -> apart n d y y' ->
  0 < pull n (cw c) x y i /\ g = k / pull n (cw c) x y i \/ k = 0 /\ x i = 0 -> al * Rabs (g - x i) <= d ->
  Rabs (class_mean n c (p_dbcm x' y') i - k) <= rsum n c * U * (2 + / al) * d.
Proof.
  intros Hc Hi Ha Hd Ix Iy Ix' Iy' Ax Ay Hg Hs. assert (U0 : 0 <= U) by (specialize (Ix i Hi); lra).
  assert (M := mean_lip n c x y x' y' i U d Hc Hi Hd Ix Iy Ix' Iy' Ax Ay).
  destruct (pull_bound n c x y i U Hc Hi Ix Iy) as [B1 B2].
  assert (Ia : 0 < / al) by (apply Rinv_0_lt_compat; lra).
  assert (S0 : 0 <= rsum n c) by (apply rsum_nonneg; intros j Hj; specialize (Hc j Hj); lra).
  assert (Q : Rabs (class_mean n c (p_dbcm x y) i - k) <= rsum n c * U * (/ al * d)).
  { rewrite mean_pull'. destruct Hg as [[Pp Eg]|[Ek Ex]].
    - replace (x i * pull n (cw c) x y i - k) with (- (pull n (cw c) x y i * (g - x i))) by (rewrite Eg; field; lra).
      rewrite Rabs_Ropp, Rabs_mult, (Rabs_pos_eq (pull n (cw c) x y i)) by exact B1. apply Rmult_le_compat; [exact B1|apply Rabs_pos|exact B2|].
      apply Rmult_le_reg_l with al; [lra|]. rewrite <- Rmult_assoc, Rinv_r, Rmult_1_l by lra. exact Hs.
    - rewrite Ek, Ex, Rmult_0_l, Rminus_0_r, Rabs_R0. apply Rmult_le_pos; [apply Rmult_le_pos; assumption|]. apply Rmult_le_pos; lra. }
  replace (class_mean n c (p_dbcm x' y') i - k) with ((class_mean n c (p_dbcm x' y') i - class_mean n c (p_dbcm x y) i) + (class_mean n c (p_dbcm x y) i - k)) by ring.
  apply Rle_trans with (1 := Rabs_triang _ _).
  replace (rsum n c * U * (2 + / al) * d) with (rsum n c * (2 * U * d) + rsum n c * U * (/ al * d)) by ring. lra.
Qed.

(** Exponential parameters. *)
Lemma exp_ge x : 1 + x <= exp x.
Proof. destruct (Req_dec x 0) as [->|N]; [rewrite exp_0; lra|]. left. apply exp_ineq1. exact N. Qed.
Lemma logistic_lip s t : s <= t -> 0 <= exp (- s) / (1 + exp (- s)) - exp (- t) / (1 + exp (- t)) <= t - s.
Proof.
  intros H. assert (Ps := exp_pos (- s)). assert (Pt := exp_pos (- t)).
  assert (E : exp (- t) = exp (- s) * exp (- (t - s))) by (rewrite <- exp_plus; f_equal; ring).
  assert (G := exp_ge (- (t - s))). assert (L : exp (- (t - s)) <= 1) by (rewrite <- exp_0; destruct (Req_dec s t) as [->|N]; [replace (- (t - t)) with 0 by ring; lra|left; apply exp_increasing; lra]).
  replace (exp (- s) / (1 + exp (- s)) - exp (- t) / (1 + exp (- t))) with ((exp (- s) - exp (- t)) * / ((1 + exp (- s)) * (1 + exp (- t)))) by (field; split; lra).
  assert (D : 0 < (1 + exp (- s)) * (1 + exp (- t))) by nra. assert (I := Rinv_0_lt_compat _ D).
  assert (N1 : 0 <= exp (- s) - exp (- t)) by nra. split; [apply Rmult_le_pos; lra|].
  apply Rmult_le_reg_r with ((1 + exp (- s)) * (1 + exp (- t))); [exact D|]. rewrite Rmult_assoc, Rinv_l, Rmult_1_r by lra.
  assert (N2 : exp (- s) - exp (- t) <= exp (- s) * (t - s)) by nra.
  assert (N3 : exp (- s) * (t - s) <= (1 + exp (- s)) * (1 + exp (- t)) * (t - s)) by (apply Rmult_le_compat_r; nra). lra.
Qed.
Lemma logistic_abs s t : Rabs (exp (- s) / (1 + exp (- s)) - exp (- t) / (1 + exp (- t))) <= Rabs (t - s).
Proof.
  destruct (Rle_dec s t) as [L|L].
  - destruct (logistic_lip s t L) as [A B]. rewrite !Rabs_pos_eq by lra. exact B.
  - destruct (logistic_lip t s ltac:(lra)) as [A B]. rewrite !Rabs_left1 by lra. lra.
Qed.
Lemma mean_exp_lip n c (a b a' b' : nat -> R) i d : (forall j, (j < n)%nat -> 1 <= c j) -> (i < n)%nat -> 0 <= d -> apart n d a a' -> apart n d b b' ->
  Rabs (class_mean n c (p_dbcm (expn a') (expn b')) i - class_mean n c (p_dbcm (expn a) (expn b)) i) <= rsum n c * (2 * d).
Proof.
  intros Hc Hi Hd Ha Hb. apply class_mean_diff; [exact Hc| |lra]. intros j Hj. unfold p_dbcm, expn.
  rewrite <- !exp_plus. replace (- a' i + - b' j) with (- (a' i + b' j)) by ring. replace (- a i + - b j) with (- (a i + b j)) by ring.
  apply Rle_trans with (1 := logistic_abs _ _). specialize (Ha i Hi). specialize (Hb j Hj).
  replace (a i + b j - (a' i + b' j)) with (- ((a' i - a i) + (b' j - b j))) by ring. rewrite Rabs_Ropp.
  apply Rle_trans with (1 := Rabs_triang _ _). lra.
Qed.
Lemma mean_bound n c x y i : (forall j, (j < n)%nat -> 1 <= c j) -> (i < n)%nat -> (forall j, (j < n)%nat -> 0 <= x j) -> (forall j, (j < n)%nat -> 0 <= y j) ->
  class_mean n c (p_dbcm x y) i <= rsum n c.
Proof.
  intros Hc Hi Hx Hy. unfold class_mean. apply rsum_le. intros j Hj. unfold p_dbcm. specialize (Hx i Hi). specialize (Hy j Hj). specialize (Hc j Hj).
  assert (P : 0 <= x i * y j) by (apply Rmult_le_pos; assumption).
  assert (Q : 0 <= x i * y j / (1 + x i * y j) <= 1).
  { assert (I : 0 < / (1 + x i * y j)) by (apply Rinv_0_lt_compat; lra). split; [apply Rmult_le_pos; lra|].
    apply Rmult_le_reg_r with (1 + x i * y j); [lra|]. unfold Rdiv. rewrite Rmult_assoc, Rinv_l by lra. lra. }
  destruct (Nat.eqb i j); nra.
Qed.
Lemma factor_gap S m k dl : 0 < k <= S -> m <= S -> m = k * exp dl -> Rabs (m - k) <= S * Rabs dl.
Proof.
  intros Hk Hm E. assert (P := exp_pos dl). destruct (Rle_dec 0 dl) as [L|L].
  - assert (G := exp_ge (- dl)). assert (I : exp (- dl) * exp dl = 1) by (rewrite <- exp_plus; replace (- dl + dl) with 0 by ring; apply exp_0).
    assert (k = m * exp (- dl)) by (rewrite E, Rmult_assoc, (Rmult_comm (exp dl)), I; ring).
    assert (G1 := exp_ge dl). assert (1 <= exp dl) by lra. rewrite Rabs_pos_eq by nra. rewrite Rabs_pos_eq by exact L.
    assert (Pm : 0 < m) by (rewrite E; apply Rmult_lt_0_compat; lra). assert (m * (1 + - dl) <= m * exp (- dl)) by (apply Rmult_le_compat_l; lra). assert (m * dl <= S * dl) by (apply Rmult_le_compat_r; lra). lra.
  - assert (G := exp_ge dl). assert (m < k). { assert (exp dl < 1) by (rewrite <- exp_0; apply exp_increasing; lra). nra. }
    rewrite Rabs_left by lra. rewrite Rabs_left by lra. assert (H3 : k * (1 + dl) <= k * exp dl) by (apply Rmult_le_compat_l; lra). assert (H4 : k * - dl <= S * - dl) by (apply Rmult_le_compat_r; lra). lra.
Qed.
Lemma residual_exp n c k (a b a' b' : nat -> R) g i d al : (forall j, (j < n)%nat -> 1 <= c j) -> (i < n)%nat -> 0 < al <= 1 -> 0 <= d ->
  apart n d a a' -> apart n d b b' -> 0 < k <= rsum n c ->
  0 < pull n (cw c) (expn a) (expn b) i -> exp (- g) = k / pull n (cw c) (expn a) (expn b) i -> al * Rabs (g - a i) <= d ->
  Rabs (class_mean n c (p_dbcm (expn a') (expn b')) i - k) <= rsum n c * (2 + / al) * d.
Proof.
  intros Hc Hi Hal Hd Aa Ab Hk Hp Hg Hs.
  assert (M := mean_exp_lip n c a b a' b' i d Hc Hi Hd Aa Ab).
  assert (Ia : 0 < / al) by (apply Rinv_0_lt_compat; lra).
  assert (Q : Rabs (class_mean n c (p_dbcm (expn a) (expn b)) i - k) <= rsum n c * Rabs (g - a i)).
  { apply factor_gap; [exact Hk|apply mean_bound; try assumption; intros; left; apply exp_pos|].
    rewrite mean_pull'. replace (g - a i) with (- a i + - - g) by ring. rewrite exp_plus. unfold expn at 1. rewrite (exp_Ropp (- g)), Hg. field. split; lra. }
  assert (T : Rabs (g - a i) <= / al * d) by (apply Rmult_le_reg_l with al; [lra|]; rewrite <- Rmult_assoc, Rinv_r, Rmult_1_l by lra; exact Hs).
  replace (class_mean n c (p_dbcm (expn a') (expn b')) i - k) with ((class_mean n c (p_dbcm (expn a') (expn b')) i - class_mean n c (p_dbcm (expn a) (expn b)) i) + (class_mean n c (p_dbcm (expn a) (expn b)) i - k)) by ring.
  apply Rle_trans with (1 := Rabs_triang _ _).
  assert (rsum n c * Rabs (g - a i) <= rsum n c * (/ al * d)) by (apply Rmult_le_compat_l; lra).
  replace (rsum n c * (2 + / al) * d) with (rsum n c * (2 * d) + rsum n c * (/ al * d)) by ring. lra.
Qed.
