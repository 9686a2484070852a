(** Every real symmetric matrix has an orthonormal eigenbasis, so the contract asked of
    [scipy.linalg.eigh] can be met in every dimension; likewise for [np.linalg.solve]. *)
From Coq Require Import Reals List Arith Bool Lia Lra Classical ClassicalChoice.
From Verif Require Import Base SpecLinsearch SpecRun.
Local Open Scope R_scope.

Definition unit_vec (i j : nat) : R := if Nat.eqb j i then 1 else 0.
Lemma rsum_unit_l m i f : (i < m)%nat -> rsum m (fun j => unit_vec i j * f j) = f i.
Proof.
  intros H. rewrite <- (rsum_single m i f H). apply rsum_ext. intros j _. unfold unit_vec. destruct (Nat.eqb j i); ring.
Qed.
Lemma rsum_unit_r m i f : (i < m)%nat -> rsum m (fun j => f j * unit_vec i j) = f i.
Proof. intros H. rewrite <- (rsum_unit_l m i f H). apply rsum_ext. intros j _. ring. Qed.

Lemma Rabs_between a b : Rabs a <= b -> - b <= a <= b.
Proof. intros H. pose proof (Rle_abs a) as H1. pose proof (Rle_abs (- a)) as H2. rewrite Rabs_Ropp in H2. lra. Qed.
Lemma scalar_nonneg m x : 0 <= scalar m x x.
Proof. apply rsum_nonneg. intros j _. exact (Rle_0_sqr (x j)). Qed.
Lemma scalar_zero m x : scalar m x x = 0 -> forall i, (i < m)%nat -> x i = 0.
Proof.
  intros H i Hi. pose proof (rsum_nonneg_zero m (fun j => x j * x j) (fun j _ => Rle_0_sqr (x j)) H i Hi) as E. cbv beta in E.
  destruct (Rmult_integral _ _ E); assumption.
Qed.
Lemma scalar_comm m x y : scalar m x y = scalar m y x.
Proof. apply rsum_ext. intros j _. ring. Qed.
Lemma scalar_plus_l m x y z : scalar m (fun i => x i + y i) z = scalar m x z + scalar m y z.
Proof. unfold scalar. rewrite <- rsum_plus. apply rsum_ext. intros j _. ring. Qed.
Lemma scalar_scal_l m a x z : scalar m (fun i => a * x i) z = a * scalar m x z.
Proof. unfold scalar. rewrite <- rsum_scal_l. apply rsum_ext. intros j _. ring. Qed.
Lemma scalar_ext m x x' z : (forall i, (i < m)%nat -> x i = x' i) -> scalar m x z = scalar m x' z.
Proof. intros H. apply rsum_ext. intros j Hj. rewrite H by exact Hj. reflexivity. Qed.
Lemma qform_apply m B x : qform m B x = scalar m x (apply_mat m B x).
Proof.
  unfold qform, scalar, apply_mat. apply rsum_ext. intros i _. rewrite <- rsum_scal_l. apply rsum_ext. intros j _. ring.
Qed.
Lemma apply_sym m B x y : symmetric m B -> scalar m x (apply_mat m B y) = scalar m (apply_mat m B x) y.
Proof.
  intros S. unfold scalar, apply_mat.
  transitivity (rsum m (fun i => rsum m (fun j => x i * B i j * y j))).
  { apply rsum_ext. intros i _. rewrite <- rsum_scal_l. apply rsum_ext. intros j _. ring. }
  rewrite rsum_swap. apply rsum_ext. intros i Hi. rewrite <- rsum_scal_r. apply rsum_ext. intros j Hj.
  rewrite (S i j Hi Hj). ring.
Qed.

(** * A positive semidefinite matrix has a kernel or is bounded below *)
Definition psd (m : nat) (M : nat -> nat -> R) : Prop := forall x, 0 <= qform m M x.
Lemma qform_S m M x : symmetric (S m) M ->
  qform (S m) M x = qform m M x + 2 * x m * rsum m (fun j => M m j * x j) + M m m * x m * x m.
Proof.
  intros S. unfold qform. cbn [rsum]. rewrite rsum_plus.
  replace (rsum m (fun i => x i * M i m * x m)) with (x m * rsum m (fun j => M m j * x j)).
  - replace (rsum m (fun j => x m * M m j * x j)) with (x m * rsum m (fun j => M m j * x j)); [ring|].
    rewrite <- rsum_scal_l. apply rsum_ext. intros j _. ring.
  - rewrite <- rsum_scal_l. apply rsum_ext. intros j Hj. rewrite (S m j) by lia. ring.
Qed.
Lemma qform_ext m M x y : (forall i, (i < m)%nat -> x i = y i) -> qform m M x = qform m M y.
Proof.
  intros H. unfold qform. apply rsum_ext. intros i Hi. apply rsum_ext. intros j Hj. rewrite (H i Hi), (H j Hj). reflexivity.
Qed.
Definition extend (m : nat) (y : nat -> R) (z : R) (i : nat) : R := if Nat.eqb i m then z else y i.
Lemma extend_lt m y z i : (i < m)%nat -> extend m y z i = y i.
Proof. intros H. unfold extend. destruct (Nat.eqb_spec i m); [lia|reflexivity]. Qed.
Lemma extend_at m y z : extend m y z m = z.
Proof. unfold extend. rewrite Nat.eqb_refl. reflexivity. Qed.
Lemma qform_extend m M y z : symmetric (S m) M ->
  qform (S m) M (extend m y z) = qform m M y + 2 * z * rsum m (fun j => M m j * y j) + M m m * z * z.
Proof.
  intros S. rewrite (qform_S m M _ S), extend_at. rewrite (qform_ext m M (extend m y z) y) by (intros; apply extend_lt; assumption).
  rewrite (rsum_ext m (fun j => M m j * extend m y z j) (fun j => M m j * y j)); [reflexivity|].
  intros j Hj. rewrite extend_lt by exact Hj. reflexivity.
Qed.
Definition schur (m : nat) (M : nat -> nat -> R) (i j : nat) : R := M i j - M m i * M m j / M m m.
Lemma qform_schur m M y : M m m <> 0 ->
  qform m (schur m M) y = qform m M y - Rsqr (rsum m (fun j => M m j * y j)) / M m m.
Proof.
  intros H. unfold qform, schur. set (s := rsum m (fun j => M m j * y j)).
  replace (Rsqr s / M m m) with (rsum m (fun i => rsum m (fun j => (M m i * y i) * (M m j * y j) / M m m))).
  - rewrite <- rsum_minus. apply rsum_ext. intros i _. rewrite <- rsum_minus. apply rsum_ext. intros j _. field. exact H.
  - transitivity (rsum m (fun i => (M m i * y i) * (s / M m m))).
    + apply rsum_ext. intros i _. unfold s. unfold Rdiv. rewrite <- rsum_scal_r, <- rsum_scal_l. apply rsum_ext. intros j _. ring.
    + rewrite rsum_scal_r. fold s. unfold Rsqr. field. exact H.
Qed.
Lemma cauchy m x y : Rsqr (scalar m x y) <= scalar m x x * scalar m y y.
Proof.
  destruct (Req_EM_T (scalar m y y) 0) as [Z|Z].
  - assert (E : scalar m x y = 0). { apply rsum_zero. intros j Hj. rewrite (scalar_zero m y Z j Hj). ring. }
    rewrite E, Z. unfold Rsqr. lra.
  - assert (P : 0 < scalar m y y) by (pose proof (scalar_nonneg m y); lra).
    set (t := - scalar m x y / scalar m y y).
    pose proof (scalar_nonneg m (fun i => x i + t * y i)) as H.
    assert (E : scalar m (fun i => x i + t * y i) (fun i => x i + t * y i) = scalar m x x + 2 * t * scalar m x y + t * t * scalar m y y).
    { unfold scalar. rewrite <- !rsum_scal_l, <- !rsum_plus. apply rsum_ext. intros j _. ring. }
    rewrite E in H. unfold t in H.
    assert (E2 : scalar m x x + 2 * (- scalar m x y / scalar m y y) * scalar m x y + - scalar m x y / scalar m y y * (- scalar m x y / scalar m y y) * scalar m y y
                 = scalar m x x - Rsqr (scalar m x y) / scalar m y y) by (unfold Rsqr; field; lra).
    rewrite E2 in H. assert (H' : Rsqr (scalar m x y) / scalar m y y <= scalar m x x) by lra.
    apply (Rmult_le_compat_r (scalar m y y)) in H'; [|lra]. unfold Rdiv in H'. rewrite Rmult_assoc, Rinv_l, Rmult_1_r in H' by lra. exact H'.
Qed.

Lemma psd_split m : forall M, symmetric m M -> psd m M ->
  (exists x, (exists i, (i < m)%nat /\ x i <> 0) /\ forall i, (i < m)%nat -> apply_mat m M x i = 0) \/
  (exists c, 0 < c /\ forall x, c * scalar m x x <= qform m M x).
Proof.
  induction m as [|m IH]; intros M S P.
  - right. exists 1. split; [lra|]. intros x. unfold scalar, qform. cbn [rsum]. lra.
  - assert (P' : forall y z, 0 <= qform m M y + 2 * z * rsum m (fun j => M m j * y j) + M m m * z * z)
      by (intros y z; rewrite <- (qform_extend m M y z S); apply P).
    assert (Ha : 0 <= M m m).
    { specialize (P' (fun _ => 0) 1). replace (qform m M (fun _ => 0)) with 0 in P'.
      - rewrite (rsum_zero m (fun j => M m j * 0)) in P' by (intros; ring). lra.
      - symmetry. unfold qform. apply rsum_zero. intros i _. apply rsum_zero. intros j _. ring. }
    destruct (Req_EM_T (M m m) 0) as [Z|Z].
    + left. exists (unit_vec m). split; [exists m; split; [lia|]; unfold unit_vec; rewrite Nat.eqb_refl; lra|].
      intros i Hi. unfold apply_mat. rewrite rsum_unit_r by lia.
      destruct (Nat.eq_dec i m) as [->|Hne]; [exact Z|]. assert (Hi' : (i < m)%nat) by lia.
      rewrite (S i m) by lia. destruct (Req_EM_T (M m i) 0) as [Y|Y]; [exact Y|exfalso].
      specialize (P' (unit_vec i) (- (qform m M (unit_vec i) + 1) / (2 * M m i))).
      rewrite rsum_unit_r, Z in P' by exact Hi'.
      replace (2 * (- (qform m M (unit_vec i) + 1) / (2 * M m i)) * M m i) with (- (qform m M (unit_vec i) + 1)) in P' by (field; exact Y). lra.
    + assert (Ha' : 0 < M m m) by lra.
      assert (SS : symmetric m (schur m M)).
      { intros i j Hi Hj. unfold schur. rewrite (S i j) by lia. unfold Rdiv. ring. }
      assert (PS : psd m (schur m M)).
      { intros y. rewrite (qform_schur m M y Z). set (s := rsum m (fun j => M m j * y j)). specialize (P' y (- s / M m m)). fold s in P'.
        replace (2 * (- s / M m m) * s + 0) with (2 * (- s / M m m) * s) in P' by ring.
        replace (qform m M y + 2 * (- s / M m m) * s + M m m * (- s / M m m) * (- s / M m m)) with (qform m M y - Rsqr s / M m m) in P' by (unfold Rsqr; field; exact Z).
        exact P'. }
      destruct (IH (schur m M) SS PS) as [(y & (i & Hi & Hyi) & Hy)|(c & Hc & Hy)].
      * left. set (s := rsum m (fun j => M m j * y j)). exists (extend m y (- s / M m m)). split.
        { exists i. split; [lia|]. rewrite extend_lt by exact Hi. exact Hyi. }
        intros j Hj. unfold apply_mat. cbn [rsum]. rewrite extend_at.
        rewrite (rsum_ext m (fun h => M j h * extend m y (- s / M m m) h) (fun h => M j h * y h)) by (intros h Hh; rewrite extend_lt by exact Hh; reflexivity).
        destruct (Nat.eq_dec j m) as [->|Hne]; [fold s; field; exact Z|]. assert (Hj' : (j < m)%nat) by lia.
        specialize (Hy j Hj'). unfold apply_mat, schur in Hy.
        rewrite (rsum_ext m _ (fun h => M j h * y h - M m j / M m m * (M m h * y h))) in Hy by (intros h _; field; exact Z).
        rewrite rsum_minus, rsum_scal_l in Hy. fold s in Hy. rewrite (S j m) by lia. rewrite <- Hy. field. exact Z.
      * right. set (nb := scalar m (M m) (M m)). assert (Hnb : 0 <= nb) by apply scalar_nonneg.
        (* x_m^2 <= 2 z^2 + 2 nb |y|^2 / a^2 *)
        set (a := M m m) in *. set (C := 1 + 2 / a + (1 + 2 * nb / (a * a)) / c).
        assert (H2a : 0 < 2 / a) by (apply Rdiv_lt_0_compat; lra).
        assert (Haa : 0 < a * a) by (apply Rmult_lt_0_compat; lra).
        assert (Hnb2 : 0 <= 2 * nb / (a * a)) by (apply Rmult_le_pos; [lra|]; left; apply Rinv_0_lt_compat; exact Haa).
        assert (Hk : 0 < (1 + 2 * nb / (a * a)) / c) by (apply Rdiv_lt_0_compat; lra).
        assert (HC : 0 < C) by (unfold C; lra).
        exists (/ C). split; [apply Rinv_0_lt_compat; exact HC|]. intros x.
        rewrite (qform_S m M x S). fold a. set (s := rsum m (fun j => M m j * x j)).
        set (w := x m + s / a). set (Y := scalar m x x).
        assert (HY : 0 <= Y) by apply scalar_nonneg.
        assert (E1 : qform m M x + 2 * x m * s + a * x m * x m = qform m (schur m M) x + a * (w * w)).
        { rewrite (qform_schur m M x Z). fold a. fold s. unfold w, Rsqr. field. exact Z. }
        rewrite E1. specialize (Hy x). fold Y in Hy. unfold scalar. cbn [rsum]. fold (scalar m x x). fold Y.
        assert (HS : Rsqr s <= nb * Y) by apply cauchy. unfold Rsqr in HS.
        assert (HX : x m * x m <= 2 * (w * w) + 2 * nb / (a * a) * Y).
        { assert (E2 : x m = w - s / a) by (unfold w; field; exact Z). rewrite E2.
          assert (E3 : (w - s / a) * (w - s / a) <= 2 * (w * w) + 2 * ((s / a) * (s / a))).
          { pose proof (Rle_0_sqr (w + s / a)) as Q. unfold Rsqr in Q. lra. }
          assert (E4 : (s / a) * (s / a) <= nb * Y / (a * a)).
          { replace (s / a * (s / a)) with (s * s * / (a * a)) by (field; exact Z). unfold Rdiv.
            apply Rmult_le_compat_r; [left; apply Rinv_0_lt_compat; exact Haa|exact HS]. }
          replace (2 * nb / (a * a) * Y) with (2 * (nb * Y / (a * a))) by (field; exact Z). lra. }
        set (V := qform m (schur m M) x) in *.
        assert (HV : Y <= V / c).
        { apply (Rmult_le_reg_r c); [exact Hc|]. unfold Rdiv. rewrite Rmult_assoc, Rinv_l, Rmult_1_r by lra. lra. }
        assert (HW : 2 * (w * w) = 2 / a * (a * (w * w))) by (field; exact Z).
        assert (HV0 : 0 <= V) by apply PS. assert (HWW : 0 <= a * (w * w)) by (apply Rmult_le_pos; [lra|exact (Rle_0_sqr w)]).
        assert (HT : Y + x m * x m <= C * (V + a * (w * w))).
        { apply Rle_trans with ((1 + 2 * nb / (a * a)) * Y + 2 / a * (a * (w * w))); [lra|].
          assert ((1 + 2 * nb / (a * a)) * Y <= (1 + 2 * nb / (a * a)) / c * V).
          { replace ((1 + 2 * nb / (a * a)) / c * V) with ((1 + 2 * nb / (a * a)) * (V / c)) by (field; lra). apply Rmult_le_compat_l; [lra|exact HV]. }
          unfold C. set (k1 := (1 + 2 * nb / (a * a)) / c) in *. set (k2 := 2 / a) in *.
          assert (0 <= k1 * (a * (w * w))) by (apply Rmult_le_pos; lra). assert (0 <= k2 * V) by (apply Rmult_le_pos; lra). lra. }
        apply (Rmult_le_reg_l C); [exact HC|]. rewrite <- Rmult_assoc, Rinv_r, Rmult_1_l by lra. exact HT.
Qed.

(** * A top eigenvector *)
Lemma qform_bounded m B : exists K, 0 <= K /\ forall x, Rabs (qform m B x) <= K * scalar m x x.
Proof.
  exists (rsum m (fun i => rsum m (fun j => Rabs (B i j)))). split.
  { apply rsum_nonneg. intros i _. apply rsum_nonneg. intros j _. apply Rabs_pos. }
  intros x.
  assert (T : forall n f, Rabs (rsum n f) <= rsum n (fun i => Rabs (f i))).
  { clear. induction n as [|n IH]; intros f; cbn [rsum]; [rewrite Rabs_R0; lra|].
    apply Rle_trans with (Rabs (rsum n f) + Rabs (f n)); [apply Rabs_triang|]. specialize (IH f). lra. }
  apply Rle_trans with (rsum m (fun i => Rabs (rsum m (fun j => x i * B i j * x j)))); [apply T|].
  rewrite <- rsum_scal_r. apply rsum_le. intros i Hi. apply Rle_trans with (rsum m (fun j => Rabs (x i * B i j * x j))); [apply T|].
  rewrite <- rsum_scal_r. apply rsum_le. intros j Hj. rewrite !Rabs_mult.
  assert (Le : forall h, (h < m)%nat -> Rabs (x h) * Rabs (x h) <= scalar m x x).
  { intros h Hh. replace (Rabs (x h) * Rabs (x h)) with (x h * x h) by (rewrite <- Rabs_mult; symmetry; apply Rabs_right; apply Rle_ge, Rle_0_sqr).
    unfold scalar. rewrite (rsum_pull m h (fun i => x i * x i) Hh).
    assert (0 <= rsum m (fun j => if Nat.eqb j h then 0 else x j * x j)); [|lra].
    apply rsum_nonneg. intros p _. destruct (Nat.eqb p h); [lra|exact (Rle_0_sqr (x p))]. }
  pose proof (Le i Hi) as L1. pose proof (Le j Hj) as L2. pose proof (Rabs_pos (B i j)) as L3.
  assert (L4 : Rabs (x i) * Rabs (x j) <= scalar m x x).
  { pose proof (Rle_0_sqr (Rabs (x i) - Rabs (x j))) as Q. unfold Rsqr in Q. lra. }
  replace (Rabs (x i) * Rabs (B i j) * Rabs (x j)) with (Rabs (B i j) * (Rabs (x i) * Rabs (x j))) by ring.
  apply Rmult_le_compat_l; assumption.
Qed.
Definition shifted (lam : R) (B : nat -> nat -> R) (i j : nat) : R := lam * unit_vec i j - B i j.
Lemma qform_shifted m lam B x : qform m (shifted lam B) x = lam * scalar m x x - qform m B x.
Proof.
  unfold qform, scalar, shifted. rewrite <- rsum_scal_l, <- rsum_minus. apply rsum_ext. intros i Hi.
  rewrite (rsum_ext m (fun j => x i * (lam * unit_vec i j - B i j) * x j) (fun j => unit_vec i j * (lam * x i * x j) - x i * B i j * x j)) by (intros; ring).
  rewrite rsum_minus, rsum_unit_l by exact Hi. ring.
Qed.
Lemma apply_shifted m lam B x i : (i < m)%nat -> apply_mat m (shifted lam B) x i = lam * x i - apply_mat m B x i.
Proof.
  intros Hi. unfold apply_mat, shifted.
  rewrite (rsum_ext m _ (fun j => unit_vec i j * (lam * x j) - B i j * x j)) by (intros; ring).
  rewrite rsum_minus, rsum_unit_l by exact Hi. reflexivity.
Qed.
Lemma top_eigenvector m B : (0 < m)%nat -> symmetric m B ->
  exists lam x, scalar m x x = 1 /\ (forall i, (i < m)%nat -> apply_mat m B x i = lam * x i) /\
    forall y, qform m B y <= lam * scalar m y y.
Proof.
  intros Hm S. destruct (qform_bounded m B) as (K & HK & HB).
  set (E := fun u => forall x, qform m B x <= - u * scalar m x x).
  assert (one : scalar m (unit_vec 0) (unit_vec 0) = 1).
  { unfold scalar. rewrite rsum_unit_l by exact Hm. unfold unit_vec. reflexivity. }
  destruct (completeness E) as (l & Ub & Lub).
  - exists K. intros u Hu. specialize (Hu (unit_vec 0)). rewrite one in Hu. specialize (HB (unit_vec 0)). rewrite one in HB.
    apply Rabs_between in HB. lra.
  - exists (- K). intros x. specialize (HB x). rewrite Ropp_involutive. apply Rle_trans with (Rabs (qform m B x)); [apply Rle_abs|exact HB].
  - assert (El : E l).
    { intros x. destruct (Rle_lt_dec (qform m B x) (- l * scalar m x x)) as [L|L]; [exact L|exfalso].
      pose proof (scalar_nonneg m x) as N. destruct (Req_EM_T (scalar m x x) 0) as [Z|Z].
      - specialize (HB x). rewrite Z, Rmult_0_r in HB. apply Rabs_between in HB. rewrite Z in L. lra.
      - set (u := - (qform m B x) / scalar m x x).
        assert (is_upper_bound E u).
        { intros v Hv. specialize (Hv x). unfold u. apply (Rmult_le_reg_r (scalar m x x)); [lra|]. unfold Rdiv. rewrite Rmult_assoc, Rinv_l, Rmult_1_r by exact Z. lra. }
        specialize (Lub u H). unfold u in Lub. apply (Rmult_le_compat_r (scalar m x x)) in Lub; [|lra].
        unfold Rdiv in Lub. rewrite Rmult_assoc, Rinv_l, Rmult_1_r in Lub by exact Z. lra. }
    set (M := shifted (- l) B).
    assert (SM : symmetric m M).
    { intros i j Hi Hj. unfold M, shifted, unit_vec. rewrite (S i j Hi Hj), (Nat.eqb_sym j i). reflexivity. }
    assert (PM : psd m M) by (intros x; unfold M; rewrite qform_shifted; specialize (El x); lra).
    destruct (psd_split m M SM PM) as [(x & (i & Hi & Hx) & Hk)|(c & Hc & Hx)].
    + assert (N : 0 < scalar m x x).
      { apply (rsum_pos m (fun j => x j * x j) i); [intros; exact (Rle_0_sqr (x j))|exact Hi|]. apply Rsqr_pos_lt in Hx. exact Hx. }
      pose proof (sqrt_lt_R0 _ N) as N'.
      exists (- l), (fun j => / sqrt (scalar m x x) * x j). split; [|split].
      * set (r := sqrt (scalar m x x)) in *. rewrite scalar_scal_l, (scalar_comm m x (fun j => / r * x j)), scalar_scal_l.
        replace (scalar m x x) with (r * r) by (apply sqrt_sqrt; lra). field. lra.
      * intros j Hj. specialize (Hk j Hj). unfold M in Hk. rewrite apply_shifted in Hk by exact Hj.
        assert (E2 : apply_mat m B (fun h => / sqrt (scalar m x x) * x h) j = / sqrt (scalar m x x) * apply_mat m B x j).
        { unfold apply_mat. rewrite <- rsum_scal_l. apply rsum_ext. intros; ring. }
        rewrite E2. replace (apply_mat m B x j) with (- l * x j) by lra. ring.
      * intros y. exact (El y).
    + exfalso. assert (EE : E (l + c)).
      { intros x. specialize (Hx x). unfold M in Hx. rewrite qform_shifted in Hx. lra. }
      specialize (Ub _ EE). lra.
Qed.

(** * An orthonormal family of eigenvectors of every size up to the dimension *)
Definition eigen_family (m k : nat) (B : nat -> nat -> R) (lam : nat -> R) (v : nat -> nat -> R) : Prop :=
  (forall p q, (p < k)%nat -> (q < k)%nat -> scalar m (v p) (v q) = if Nat.eqb p q then 1 else 0) /\
  (forall p i, (p < k)%nat -> (i < m)%nat -> apply_mat m B (v p) i = lam p * v p i).

(** What is left of the [i]th unit vector after projecting on the family. *)
Definition residue (k : nat) (v : nat -> nat -> R) (i j : nat) : R := unit_vec i j - rsum k (fun p => v p i * v p j).
Lemma residue_orthogonal m k B lam v i q : eigen_family m k B lam v -> (i < m)%nat -> (q < k)%nat -> scalar m (residue k v i) (v q) = 0.
Proof.
  intros [O _] Hi Hq. unfold scalar, residue.
  rewrite (rsum_ext m _ (fun j => unit_vec i j * v q j - rsum k (fun p => v p i * (v p j * v q j)))).
  2:{ intros j _. rewrite Rmult_minus_distr_r, <- rsum_scal_r. f_equal. apply rsum_ext. intros; ring. }
  rewrite rsum_minus, rsum_unit_l, rsum_swap by exact Hi.
  rewrite (rsum_ext k _ (fun p => v p i * unit_vec q p)).
  2:{ intros p Hp. rewrite rsum_scal_l. change (rsum m (fun j => v p j * v q j)) with (scalar m (v p) (v q)). rewrite (O p q Hp Hq). reflexivity. }
  rewrite rsum_unit_r by exact Hq. ring.
Qed.
Lemma residue_norm m k B lam v i : eigen_family m k B lam v -> (i < m)%nat ->
  scalar m (residue k v i) (residue k v i) = 1 - rsum k (fun p => v p i * v p i).
Proof.
  intros F Hi.
  assert (E : scalar m (residue k v i) (residue k v i) = residue k v i i).
  { transitivity (scalar m (residue k v i) (unit_vec i) - rsum k (fun p => v p i * scalar m (residue k v i) (v p))).
    - unfold scalar at 1 2. rewrite (rsum_ext k (fun p => v p i * scalar m (residue k v i) (v p)) (fun p => rsum m (fun j => v p i * (residue k v i j * v p j)))).
      2:{ intros p _. unfold scalar. rewrite rsum_scal_l. reflexivity. }
      rewrite rsum_swap, <- rsum_minus. apply rsum_ext. intros j _. unfold residue at 2.
      rewrite Rmult_minus_distr_l, <- rsum_scal_l. f_equal. apply rsum_ext. intros; ring.
    - rewrite (rsum_zero k) by (intros p Hp; rewrite (residue_orthogonal m k B lam v i p F Hi Hp); ring).
      unfold scalar. rewrite rsum_unit_r by exact Hi. ring. }
  rewrite E. unfold residue, unit_vec. rewrite Nat.eqb_refl. reflexivity.
Qed.
Lemma residue_total m k B lam v : eigen_family m k B lam v ->
  rsum m (fun i => 1 - rsum k (fun p => v p i * v p i)) = INR m - INR k.
Proof.
  intros [O _]. rewrite rsum_minus, rsum_const, rsum_swap.
  rewrite (rsum_ext k _ (fun _ => 1)).
  - rewrite rsum_const. ring.
  - intros p Hp. change (scalar m (v p) (v p) = 1). rewrite (O p p Hp Hp), Nat.eqb_refl. reflexivity.
Qed.

Lemma family_extend m k B lam v : symmetric m B -> (k < m)%nat -> eigen_family m k B lam v ->
  exists lam' v', eigen_family m (S k) B lam' v'.
Proof.
  intros S Hk F. pose proof F as [O E].
  (* a vector orthogonal to the family *)
  assert (W : exists w, 0 < scalar m w w /\ forall q, (q < k)%nat -> scalar m w (v q) = 0).
  { apply NNPP. intros N. assert (Z : rsum m (fun i => 1 - rsum k (fun p => v p i * v p i)) <= 0).
    - rewrite <- (rsum_0 m). apply rsum_le. intros i Hi. rewrite <- (residue_norm m k B lam v i F Hi).
      destruct (Rle_lt_dec (scalar m (residue k v i) (residue k v i)) 0) as [L|L]; [exact L|exfalso].
      apply N. exists (residue k v i). split; [exact L|]. intros q Hq. exact (residue_orthogonal m k B lam v i q F Hi Hq).
    - rewrite (residue_total m k B lam v F) in Z. apply lt_INR in Hk. lra. }
  destruct W as (w & Hw & Ow).
  destruct (qform_bounded m B) as (K & HK & HB). set (T := K + 1).
  set (B' := fun i j => B i j - rsum k (fun p => (lam p + T) * (v p i * v p j))).
  assert (S' : symmetric m B').
  { intros i j Hi Hj. unfold B'. rewrite (S i j Hi Hj). f_equal. apply rsum_ext. intros; ring. }
  assert (A' : forall y i, (i < m)%nat -> apply_mat m B' y i = apply_mat m B y i - rsum k (fun p => (lam p + T) * v p i * scalar m (v p) y)).
  { intros y i Hi. unfold apply_mat, B'.
    rewrite (rsum_ext m _ (fun j => B i j * y j - rsum k (fun p => (lam p + T) * v p i * (v p j * y j)))).
    2:{ intros j _. rewrite Rmult_minus_distr_r, <- rsum_scal_r. f_equal. apply rsum_ext. intros; ring. }
    rewrite rsum_minus, rsum_swap. f_equal. apply rsum_ext. intros p _. rewrite rsum_scal_l. reflexivity. }
  assert (Av : forall q i, (q < k)%nat -> (i < m)%nat -> apply_mat m B' (v q) i = - T * v q i).
  { intros q i Hq Hi. rewrite (A' (v q) i Hi), (E q i Hq Hi).
    rewrite (rsum_ext k _ (fun p => (lam p + T) * v p i * unit_vec q p)).
    - rewrite rsum_unit_r by exact Hq. ring.
    - intros p Hp. rewrite (O p q Hp Hq). reflexivity. }
  destruct (top_eigenvector m B' ltac:(lia) S') as (mu & x & Nx & Ex & Top).
  assert (Hmu : - T < mu).
  { specialize (Top w). rewrite qform_apply in Top.
    rewrite (rsum_ext m (fun i => w i * apply_mat m B' w i) (fun i => w i * apply_mat m B w i)) in Top || idtac.
    assert (Q : scalar m w (apply_mat m B' w) = qform m B w).
    { rewrite qform_apply. apply rsum_ext. intros i Hi. rewrite (A' w i Hi), (rsum_zero k); [ring|].
      intros p Hp. rewrite (scalar_comm m (v p) w), (Ow p Hp). ring. }
    rewrite Q in Top. specialize (HB w). apply Rabs_between in HB.
    assert (L : - K * scalar m w w <= mu * scalar m w w) by lra. apply Rmult_le_reg_r in L; [|exact Hw]. unfold T. lra. }
  assert (Ox : forall q, (q < k)%nat -> scalar m (v q) x = 0).
  { intros q Hq. assert (L : scalar m (v q) (apply_mat m B' x) = scalar m (apply_mat m B' (v q)) x) by (apply apply_sym; exact S').
    rewrite (scalar_comm m (v q)) in L. rewrite (scalar_ext m (apply_mat m B' x) (fun i => mu * x i)) in L by exact Ex.
    rewrite (scalar_ext m (apply_mat m B' (v q)) (fun i => - T * v q i)) in L by (intros i Hi; exact (Av q i Hq Hi)).
    rewrite !scalar_scal_l, (scalar_comm m x (v q)) in L.
    assert (Z : (mu + T) * scalar m (v q) x = 0) by lra. destruct (Rmult_integral _ _ Z); [lra|assumption]. }
  exists (fun p => if Nat.eqb p k then mu else lam p), (fun p => if Nat.eqb p k then x else v p). split.
  - intros p q Hp Hq. destruct (Nat.eqb_spec p k) as [->|Np], (Nat.eqb_spec q k) as [->|Nq].
    + rewrite Nat.eqb_refl. exact Nx.
    + destruct (Nat.eqb_spec k q); [lia|]. rewrite scalar_comm. apply Ox. lia.
    + destruct (Nat.eqb_spec p k); [lia|]. apply Ox. lia.
    + apply O; lia.
  - intros p i Hp Hi. destruct (Nat.eqb_spec p k) as [->|Np]; [|apply E; lia].
    rewrite <- (Ex i Hi), (A' x i Hi), (rsum_zero k); [ring|]. intros q Hq. rewrite (Ox q Hq). ring.
Qed.
Lemma family_exists m B : symmetric m B -> forall k, (k <= m)%nat -> exists lam v, eigen_family m k B lam v.
Proof.
  intros S k. induction k as [|k IH]; intros Hk.
  - exists (fun _ => 0), (fun _ _ => 0). split; intros; lia.
  - destruct (IH ltac:(lia)) as (lam & v & F). exact (family_extend m k B lam v S Hk F).
Qed.
Theorem spectral m B : symmetric m B -> exists lam e, eigen_decomposition m B lam e.
Proof.
  intros S. destruct (family_exists m B S m (le_n m)) as (lam & v & F). exists lam, (fun i p => v p i).
  pose proof F as [O E].
  assert (Z : forall i, (i < m)%nat -> scalar m (residue m v i) (residue m v i) = 0).
  { intros i Hi. rewrite (residue_norm m m B lam v i F Hi).
    apply (rsum_nonneg_zero m (fun i => 1 - rsum m (fun p => v p i * v p i))); [|rewrite (residue_total m m B lam v F); ring|exact Hi].
    intros j Hj. rewrite <- (residue_norm m m B lam v j F Hj). apply scalar_nonneg. }
  assert (R : forall i j, (i < m)%nat -> (j < m)%nat -> rsum m (fun p => v p i * v p j) = unit_vec i j).
  { intros i j Hi Hj. pose proof (scalar_zero m _ (Z i Hi) j Hj) as Y. unfold residue in Y. lra. }
  split; [|split].
  - exact O.
  - intros i j Hi Hj. rewrite (R i j Hi Hj). unfold unit_vec. rewrite Nat.eqb_sym. reflexivity.
  - intros i j Hi Hj. transitivity (apply_mat m B (unit_vec j) i); [unfold apply_mat; rewrite rsum_unit_r by exact Hj; reflexivity|].
    transitivity (rsum m (fun p => v p j * apply_mat m B (v p) i)).
    + unfold apply_mat. rewrite (rsum_ext m (fun h => B i h * unit_vec j h) (fun h => rsum m (fun p => v p j * (B i h * v p h)))).
      * rewrite rsum_swap. apply rsum_ext. intros p _. rewrite rsum_scal_l. reflexivity.
      * intros h Hh. rewrite <- (R j h Hj Hh), <- rsum_scal_l. apply rsum_ext. intros; ring.
    + apply rsum_ext. intros p Hp. rewrite (E p i Hp Hi). ring.
Qed.

(** * Both contracts can be met in every dimension *)
Lemma eigen_solver_exists m : exists eigh, eigen_solver m eigh.
Proof.
  destruct (choice (fun (b : nat -> nat -> R) (r : (nat -> R) * (nat -> nat -> R)) => symmetric m b -> eigen_decomposition m b (fst r) (snd r))) as (eigh & H).
  - intros b. destruct (classic (symmetric m b)) as [S|S].
    + destruct (spectral m b S) as (lam & e & D). exists (lam, e). intros _. exact D.
    + exists (fun _ => 0, fun _ _ => 0). intros C. contradiction.
  - exists eigh. exact H.
Qed.
(** A solver that answers exactly when the system has a solution. *)
Lemma linear_solver_exists m : exists linsolve, linear_solver m linsolve /\
  forall B v, (exists d, forall i, (i < m)%nat -> apply_mat m B d i = v i) -> linsolve B v <> None.
Proof.
  destruct (choice (fun (q : (nat -> nat -> R) * (nat -> R)) (r : option (nat -> R)) =>
    (forall d, r = Some d -> forall i, (i < m)%nat -> apply_mat m (fst q) d i = snd q i) /\
    ((exists d, forall i, (i < m)%nat -> apply_mat m (fst q) d i = snd q i) -> r <> None))) as (f & H).
  - intros [B v]. cbn [fst snd]. destruct (classic (exists d, forall i, (i < m)%nat -> apply_mat m B d i = v i)) as [(d & D)|N].
    + exists (Some d). split; [intros d' X; injection X as <-; exact D|discriminate].
    + exists None. split; [discriminate|]. intros C. contradiction.
  - exists (fun B v => f (B, v)). split.
    + intros B v d X. exact (proj1 (H (B, v)) d X).
    + intros B v X. exact (proj2 (H (B, v)) X).
Qed.
