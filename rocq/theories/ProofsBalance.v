(** Parameters with prescribed row and column sums, for the three kinds of link
    laws (binary, enhanced, exponential weights).  No model definition here. *)
From Coq Require Import Reals List Arith Lia Lra.
From Coquelicot Require Import Coquelicot.
From Verif Require Import Base SpecDeriv ProofsDeriv ProofsCompact ProofsEngine.
Local Open Scope R_scope.

Lemma sq_cont (t : R) : continuous (fun u : R => u * u) t.
Proof. apply (ex_derive_continuous (fun u : R => u * u)). auto_derive. exact I. Qed.
Lemma sq_coercive : coercive (fun u => u * u).
Proof.
  intros M. exists (Rmax 1 M). intros t Ht. pose proof (Rmax_l 1 M). pose proof (Rmax_r 1 M).
  destruct (Rle_dec (Rabs t) 1); [lra|]. apply Rnot_le_lt in n.
  assert (Rabs t * Rabs t = t * t) by (rewrite <- Rabs_mult; apply Rabs_pos_eq; nra). nra.
Qed.
Lemma zero_bounded : on_bounded (fun _ => 0).
Proof. intros C. exists 0. intros t _. rewrite Rabs_R0. lra. Qed.

(** * Binary *)
Lemma bin_bound p t : 0 < p < 1 -> Rmin p (1 - p) * Rabs t <= p * t + ln (1 + exp (- t)).
Proof.
  intros Hp. pose proof (Rmin_l p (1 - p)). pose proof (Rmin_r p (1 - p)). pose proof (exp_pos (- t)).
  destruct (Rle_dec 0 t) as [T0|T0].
  - rewrite Rabs_pos_eq by exact T0.
    assert (0 <= ln (1 + exp (- t))) by (rewrite <- ln_1; apply ln_le; lra). nra.
  - rewrite Rabs_left by lra. assert (- t <= ln (1 + exp (- t))) by (rewrite <- (ln_exp (- t)) at 1; apply ln_le; lra). nra.
Qed.
Lemma bin_nonneg p t : 0 < p < 1 -> 0 <= p * t + ln (1 + exp (- t)).
Proof.
  intros Hp. pose proof (bin_bound p t Hp). pose proof (Rabs_pos t).
  assert (0 < Rmin p (1 - p)) by (apply Rmin_pos; lra). nra.
Qed.
Lemma bin_coercive p : 0 < p < 1 -> coercive (fun t => p * t + ln (1 + exp (- t))).
Proof.
  intros Hp M. assert (0 < Rmin p (1 - p)) by (apply Rmin_pos; lra). exists (M / Rmin p (1 - p)). intros t Ht.
  pose proof (bin_bound p t Hp). apply Rmult_le_reg_r with (Rmin p (1 - p)); [assumption|].
  unfold Rdiv. rewrite Rmult_assoc, Rinv_l by lra. lra.
Qed.
Lemma bin_derive p (t : R) : is_derive (fun t : R => p * t + ln (1 + exp (- t))) t (p - exp (- t) / (1 + exp (- t))).
Proof.
  pose proof (exp_pos (- t)). auto_derive; [lra|]. field. lra.
Qed.

Lemma balance_bin n (E : nat -> nat -> bool) p :
  (forall i j, (i < n)%nat -> (j < n)%nat -> E i j = true -> 0 < p i j < 1) ->
  exists th, forall h, (h < n)%nat ->
    rsum n (fun j => if E h j then p h j - exp (- (th h + th (j + n)%nat)) / (1 + exp (- (th h + th (j + n)%nat))) else 0) = 0 /\
    rsum n (fun i => if E i h then p i h - exp (- (th i + th (h + n)%nat)) / (1 + exp (- (th i + th (h + n)%nat))) else 0) = 0.
Proof.
  intros Hp0. set (E' := fun i j => if Nat.ltb i n then if Nat.ltb j n then E i j else false else false).
  assert (EE : forall i j, (i < n)%nat -> (j < n)%nat -> E' i j = E i j).
  { intros i j Hi Hj. unfold E'. rewrite (proj2 (Nat.ltb_lt i n) Hi), (proj2 (Nat.ltb_lt j n) Hj). reflexivity. }
  assert (Hp : forall i j, E' i j = true -> 0 < p i j < 1).
  { intros i j. unfold E'. destruct (Nat.ltb_spec i n); [|discriminate]. destruct (Nat.ltb_spec j n); [|discriminate].
    apply Hp0; assumption. }
  set (A := fun i j (t : R) => p i j * t + ln (1 + exp (- t))).
  set (K := fun (_ _ : nat) (_ : R) => 0). set (B := fun (_ _ : nat) (u : R) => u * u).
  assert (Kd : forall i j (t : R), is_derive (K i j) t 0) by (intros; apply (is_derive_R0 t 0)).
  destruct (engine_min n E' A K B) as (th & Hmin).
  - intros i j He t. apply (ex_derive_continuous (A i j)). eexists. apply bin_derive.
  - intros i j He t. apply (ex_derive_continuous (K i j)). eexists. apply Kd.
  - intros i j He t. apply sq_cont.
  - intros i j He t. apply bin_nonneg, Hp, He.
  - intros i j He t. unfold B. nra.
  - intros i j He. apply bin_coercive, Hp, He.
  - intros i j He. apply sq_coercive.
  - intros i j He. apply zero_bounded.
  - exists th. intros h Hh.
    destruct (engine_stationary n E' A K B th
      (fun i j => p i j - exp (- (th i + th (j + n)%nat)) / (1 + exp (- (th i + th (j + n)%nat))))
      (fun _ _ => 0) (fun i j => 2 * uu n th i j) Hmin) with (h := h) as (H1 & H2 & _); [| | |exact Hh|].
    + intros i j Hi Hj He. unfold K, tt. rewrite Rplus_0_r. apply bin_derive.
    + intros i j Hi Hj He. apply Kd.
    + intros i j Hi Hj He. unfold B. auto_derive; [exact I|ring].
    + split; [refine (eq_trans _ H1)|refine (eq_trans _ H2)]; apply rsum_ext; intros j Hj; rewrite EE by assumption; reflexivity.
Qed.

(** * A barrier at [l]: [f (max u l) + (l - u)^+]. *)
Definition barrier (l : R) (f : R -> R) (u : R) : R := f (Rmax u l) + Rmax (l - u) 0.
Lemma Rmax_cont (l t : R) : continuous (fun u : R => Rmax u l) t.
Proof.
  apply (continuous_ext (fun u : R => (u + l + Rabs (u - l)) / 2)).
  - intros u. unfold Rmax, Rabs. destruct (Rle_dec u l), (Rcase_abs (u - l)); lra.
  - apply (continuous_mult (fun u : R => u + l + Rabs (u - l)) (fun _ => / 2)); [|apply continuous_const].
    apply (continuous_plus (fun u : R => u + l) (fun u => Rabs (u - l))).
    + apply (continuous_plus (fun u : R => u) (fun _ => l)); [apply continuous_id|apply continuous_const].
    + apply (continuous_comp (fun u : R => u - l) Rabs); [|apply continuous_Rabs].
      apply (continuous_plus (fun u : R => u) (fun _ => - l)); [apply continuous_id|apply continuous_const].
Qed.
Lemma barrier_cont l f : (forall t : R, l <= t -> continuous f t) -> forall t : R, continuous (barrier l f) t.
Proof.
  intros Hf t. unfold barrier.
  apply (continuous_plus (fun u : R => f (Rmax u l)) (fun u => Rmax (l - u) 0)).
  - apply (continuous_comp (fun u : R => Rmax u l) f); [apply Rmax_cont|apply Hf, Rmax_r].
  - apply (continuous_comp (fun u : R => l - u) (fun v => Rmax v 0)); [|apply Rmax_cont].
    apply (ex_derive_continuous (fun u : R => l - u)). auto_derive. exact I.
Qed.
Lemma barrier_hi l f u : l <= u -> barrier l f u = f u.
Proof. intros H. unfold barrier. rewrite (Rmax_left u l) by lra. rewrite (Rmax_right (l - u) 0) by lra. ring. Qed.
Lemma barrier_lo l f u : u <= l -> barrier l f u = f l + (l - u).
Proof. intros H. unfold barrier. rewrite (Rmax_right u l) by lra. rewrite (Rmax_left (l - u) 0) by lra. ring. Qed.
Lemma barrier_derive l f (u d : R) : l < u -> is_derive f u d -> is_derive (barrier l f) u d.
Proof.
  intros Hl Hd. apply (is_derive_ext_loc f); [|exact Hd].
  exists (mkposreal (u - l) ltac:(lra)). intros v Hv. symmetry. apply barrier_hi.
  unfold ball in Hv; cbn in Hv. unfold AbsRing_ball, abs, minus, plus, opp in Hv; cbn in Hv. apply Rabs_def2 in Hv. lra.
Qed.
Lemma barrier_coercive l f a b : 0 < a -> (forall u, l <= u -> a * u + b <= f u) -> 0 < l -> coercive (barrier l f).
Proof.
  intros Ha Hf Hl M. exists (Rmax ((M - b) / a) (Rmax (M - b) l)). intros u Hu.
  pose proof (Rmax_l ((M - b) / a) (Rmax (M - b) l)). pose proof (Rmax_r ((M - b) / a) (Rmax (M - b) l)).
  pose proof (Rmax_l (M - b) l). pose proof (Rmax_r (M - b) l).
  destruct (Rle_dec l u) as [Hlu|Hlu].
  - rewrite barrier_hi in Hu by exact Hlu. rewrite Rabs_pos_eq by lra. specialize (Hf u Hlu).
    assert (u <= (M - b) / a); [|lra]. apply Rmult_le_reg_r with a; [exact Ha|]. unfold Rdiv. rewrite Rmult_assoc, Rinv_l by lra. lra.
  - rewrite barrier_lo in Hu by lra. specialize (Hf l (Rle_refl l)).
    assert (0 < a * l) by (apply Rmult_lt_0_compat; assumption).
    destruct (Rle_dec 0 u); [rewrite Rabs_pos_eq by assumption; lra|]. rewrite Rabs_left by lra. lra.
Qed.

(** * Exponential weights *)
Definition exg (v f u : R) : R := v * u - f * ln u - f - f * ln (v / f).
Lemma ln_le_sub1 a : 0 < a -> ln a <= a - 1.
Proof.
  intros Ha. pose proof (exp_ineq1_le (ln a)) as H. rewrite exp_ln in H by exact Ha. lra.
Qed.
Lemma ln_tangent a u : 0 < a -> 0 < u -> ln u <= a * u - 1 - ln a.
Proof.
  intros Ha Hu. assert (0 < a * u) by (apply Rmult_lt_0_compat; assumption).
  pose proof (ln_le_sub1 (a * u) H) as L. rewrite ln_mult in L by assumption. lra.
Qed.
Lemma exg_nonneg v f u : 0 < v -> 0 < f -> 0 < u -> 0 <= exg v f u.
Proof.
  intros Hv Hf Hu. unfold exg. assert (0 < v / f) by (apply Rdiv_lt_0_compat; assumption).
  pose proof (ln_tangent (v / f) u H Hu) as L. assert (f * (v / f * u) = v * u) by (field; lra). nra.
Qed.
Lemma exg_linear v f u : 0 < v -> 0 < f -> 0 < u -> v / 2 * u + (f * (ln (v / 2 / f)) - f * ln (v / f)) <= exg v f u.
Proof.
  intros Hv Hf Hu. unfold exg. assert (0 < v / 2 / f) by (apply Rdiv_lt_0_compat; lra).
  pose proof (ln_tangent (v / 2 / f) u H Hu) as L. assert (f * (v / 2 / f * u) = v / 2 * u) by (field; lra). nra.
Qed.
Lemma exg_derive v f (u : R) : 0 < u -> is_derive (exg v f) u (v - f / u).
Proof. intros Hu. unfold exg. auto_derive; [exact Hu|]. field. lra. Qed.

Definition exl (M v f : R) : R := Rmin (1 / 2) (exp (- ((M + f + f * ln (v / f) + 1) / f))).
Lemma exl_pos M v f : 0 < exl M v f < 1.
Proof.
  unfold exl. split; [apply Rmin_pos; [lra|apply exp_pos]|].
  pose proof (Rmin_l (1 / 2) (exp (- ((M + f + f * ln (v / f) + 1) / f)))). lra.
Qed.
Lemma exl_high M v f : 0 < v -> 0 < f -> M < exg v f (exl M v f).
Proof.
  intros Hv Hf. destruct (exl_pos M v f) as [Hl _]. unfold exg.
  assert (ln (exl M v f) <= - ((M + f + f * ln (v / f) + 1) / f)).
  { rewrite <- (ln_exp (- ((M + f + f * ln (v / f) + 1) / f))). apply ln_le; [exact Hl|apply Rmin_r]. }
  assert (f * ((M + f + f * ln (v / f) + 1) / f) = M + f + f * ln (v / f) + 1) by (field; lra). nra.
Qed.

Lemma balance_exp n (E : nat -> nat -> bool) v f :
  (forall i j, (i < n)%nat -> (j < n)%nat -> E i j = true -> 0 < v i j /\ 0 < f i j) ->
  exists th, (forall i j, (i < n)%nat -> (j < n)%nat -> E i j = true -> 0 < th i + th (j + n)%nat) /\
    forall h, (h < n)%nat ->
    rsum n (fun j => if E h j then v h j - f h j / (th h + th (j + n)%nat) else 0) = 0 /\
    rsum n (fun i => if E i h then v i h - f i h / (th i + th (h + n)%nat) else 0) = 0.
Proof.
  intros Hp0. set (E' := fun i j => if Nat.ltb i n then if Nat.ltb j n then E i j else false else false).
  assert (EE : forall i j, (i < n)%nat -> (j < n)%nat -> E' i j = E i j).
  { intros i j Hi Hj. unfold E'. rewrite (proj2 (Nat.ltb_lt i n) Hi), (proj2 (Nat.ltb_lt j n) Hj). reflexivity. }
  assert (Hp : forall i j, E' i j = true -> 0 < v i j /\ 0 < f i j).
  { intros i j. unfold E'. destruct (Nat.ltb_spec i n); [|discriminate]. destruct (Nat.ltb_spec j n); [|discriminate].
    apply Hp0; assumption. }
  set (M := rsum n (fun i => rsum n (fun j => if E' i j then exg (v i j) (f i j) 1 else 0))).
  set (l := fun i j => exl M (v i j) (f i j)).
  assert (Hl : forall i j, 0 < l i j < 1) by (intros; apply exl_pos).
  set (A := fun i j => barrier (l i j) (exg (v i j) (f i j))).
  set (K := fun (_ _ : nat) (_ : R) => 0). set (B := fun (_ _ : nat) (u : R) => u * u).
  assert (Kd : forall i j (t : R), is_derive (K i j) t 0) by (intros; apply (is_derive_R0 t 0)).
  assert (A0 : forall i j, E' i j = true -> forall t, 0 <= A i j t).
  { intros i j He t. destruct (Hp i j He). pose proof (Hl i j). unfold A, barrier.
    pose proof (Rmax_r t (l i j)). pose proof (Rmax_r (l i j - t) 0).
    pose proof (exg_nonneg (v i j) (f i j) (Rmax t (l i j)) ltac:(assumption) ltac:(assumption) ltac:(lra)). lra. }
  assert (B0 : forall i j, E' i j = true -> forall t, 0 <= B i j t) by (intros i j He t; unfold B; nra).
  destruct (engine_min n E' A K B) as (th & Hmin).
  - intros i j He t. apply barrier_cont. intros u Hu. apply (ex_derive_continuous (exg (v i j) (f i j))). eexists.
    apply exg_derive. pose proof (Hl i j). lra.
  - intros i j He t. apply (ex_derive_continuous (K i j)). eexists. apply Kd.
  - intros i j He t. apply sq_cont.
  - exact A0.
  - exact B0.
  - intros i j He. destruct (Hp i j He) as [H1 H2]. pose proof (Hl i j).
    apply (barrier_coercive _ _ (v i j / 2) (f i j * (ln (v i j / 2 / f i j)) - f i j * ln (v i j / f i j))); [lra| |lra].
    intros u Hu. apply exg_linear; lra.
  - intros i j He. apply sq_coercive.
  - intros i j He. apply zero_bounded.
  - assert (EM : eF n E' A K B (fun r => if Nat.ltb r (2 * n) then 1 / 2 else 0) = M).
    { unfold eF, M. apply rsum_ext. intros i Hi. apply rsum_ext. intros j Hj. destruct (E' i j); [|reflexivity].
      unfold eterm, tt, uu, K, B. rewrite !(proj2 (Nat.ltb_lt _ (2 * n))) by lia. rewrite !(proj2 (Nat.ltb_ge _ (2 * n))) by lia.
      unfold A. replace (1 / 2 + 1 / 2 + 0) with 1 by lra. rewrite barrier_hi by (pose proof (Hl i j); lra). ring. }
    assert (HT : forall i j, (i < n)%nat -> (j < n)%nat -> E' i j = true -> l i j < th i + th (j + n)%nat).
    { intros i j Hi Hj He. apply Rnot_le_lt. intros Hle.
      pose proof (eterm_le n E' A K B A0 B0 th i j Hi Hj He) as Ht. pose proof (Hmin (fun r => if Nat.ltb r (2 * n) then 1 / 2 else 0)) as Hm.
      rewrite EM in Hm. pose proof (Rle_trans _ _ _ Ht Hm) as Hq. clear Ht. rename Hq into Ht. unfold eterm, K, A in Ht. rewrite Rplus_0_r in Ht. change (tt n th i j) with (th i + th (j + n)%nat) in Ht.
      rewrite barrier_lo in Ht by exact Hle. pose proof (B0 i j He (uu n th i j)). destruct (Hp i j He) as [H1 H2].
      pose proof (exl_high M (v i j) (f i j) H1 H2). fold (l i j) in H0. lra. }
    exists th. split.
    { intros i j Hi Hj He. pose proof (Hl i j). rewrite <- EE in He by assumption. specialize (HT i j Hi Hj He). lra. }
    intros h Hh.
    destruct (engine_stationary n E' A K B th
      (fun i j => v i j - f i j / (th i + th (j + n)%nat))
      (fun _ _ => 0) (fun i j => 2 * uu n th i j) Hmin) with (h := h) as (H1 & H2 & _); [| | |exact Hh|].
    + intros i j Hi Hj He. unfold K, tt. rewrite Rplus_0_r. specialize (HT i j Hi Hj He). pose proof (Hl i j).
      apply barrier_derive; [exact HT|]. apply exg_derive. lra.
    + intros i j Hi Hj He. apply Kd.
    + intros i j Hi Hj He. unfold B. auto_derive; [exact I|ring].
    + split; [refine (eq_trans _ H1)|refine (eq_trans _ H2)]; apply rsum_ext; intros j Hj; rewrite EE by assumption; reflexivity.
Qed.

(** * Enhanced *)
Definition enb (p w u : R) : R := (w - p) * u - p * ln (1 - exp (- u)).
Lemma one_minus_exp u : 0 < u -> 0 < 1 - exp (- u) < 1.
Proof. intros Hu. pose proof (exp_pos (- u)). assert (exp (- u) < exp 0) by (apply exp_increasing; lra). rewrite exp_0 in H0. lra. Qed.
Lemma enb_bound p w u : 0 < p -> p < w -> 0 < u -> (w - p) * u + 0 <= enb p w u.
Proof.
  intros Hp Hw Hu. unfold enb. pose proof (one_minus_exp u Hu).
  assert (ln (1 - exp (- u)) <= 0) by (rewrite <- ln_1; apply ln_le; lra). nra.
Qed.
Lemma enb_derive p w (u : R) : 0 < u -> is_derive (enb p w) u (w - p - p * exp (- u) / (1 - exp (- u))).
Proof. intros Hu. pose proof (one_minus_exp u Hu). unfold enb. auto_derive; [lra|]. field. lra. Qed.
Definition enl (M p : R) : R := Rmin (1 / 2) (- ln (1 - exp (- ((M + 1) / p)))).
Lemma enl_pos M p : 0 <= M -> 0 < p -> 0 < enl M p < 1.
Proof.
  intros HM Hp. unfold enl. assert (0 < (M + 1) / p) by (apply Rdiv_lt_0_compat; lra).
  pose proof (one_minus_exp _ H). split.
  - apply Rmin_pos; [lra|]. assert (ln (1 - exp (- ((M + 1) / p))) < ln 1) by (apply ln_increasing; lra). rewrite ln_1 in H1. lra.
  - pose proof (Rmin_l (1 / 2) (- ln (1 - exp (- ((M + 1) / p))))). lra.
Qed.
Lemma enl_high M p w : 0 <= M -> 0 < p -> p < w -> M < enb p w (enl M p).
Proof.
  intros HM Hp Hw. destruct (enl_pos M p HM Hp) as [Hl _]. unfold enb.
  assert (HP : 0 < (M + 1) / p) by (apply Rdiv_lt_0_compat; lra). pose proof (one_minus_exp _ HP). pose proof (one_minus_exp _ Hl).
  assert (ln (1 - exp (- enl M p)) <= - ((M + 1) / p)).
  { rewrite <- (ln_exp (- ((M + 1) / p))). apply ln_le; [lra|].
    assert (1 - exp (- ((M + 1) / p)) <= exp (- enl M p)); [|lra].
    rewrite <- (exp_ln (1 - exp (- ((M + 1) / p)))) by lra.
    assert (- enl M p >= ln (1 - exp (- ((M + 1) / p)))).
    { pose proof (Rmin_r (1 / 2) (- ln (1 - exp (- ((M + 1) / p))))). fold (enl M p) in H1. lra. }
    destruct (Rle_lt_or_eq_dec _ _ (Rge_le _ _ H1)) as [Hlt|Heq]; [left; apply exp_increasing; exact Hlt|rewrite Heq; right; reflexivity]. }
  assert (p * ((M + 1) / p) = M + 1) by (field; lra). assert (0 < (w - p) * enl M p) by (apply Rmult_lt_0_compat; lra). nra.
Qed.
Definition enk (l u : R) : R := ln (exp (Rmax u l) - 1).
Lemma exp_minus1 u : 0 < u -> 0 < exp u - 1.
Proof. intros Hu. assert (exp 0 < exp u) by (apply exp_increasing; exact Hu). rewrite exp_0 in H. lra. Qed.
Lemma enk_cont l : 0 < l -> forall t : R, continuous (enk l) t.
Proof.
  intros Hl t. unfold enk. apply (continuous_comp (fun u : R => Rmax u l) (fun u => ln (exp u - 1))); [apply Rmax_cont|].
  apply (ex_derive_continuous (fun u : R => ln (exp u - 1))).
  assert (0 < Rmax t l) by (pose proof (Rmax_r t l); lra). pose proof (exp_minus1 _ H). auto_derive. lra.
Qed.
Lemma enk_bounded l : 0 < l -> on_bounded (enk l).
Proof.
  intros Hl C. exists (Rmax (ln (exp (Rmax C l) - 1)) (- ln (exp l - 1))). intros t Ht. unfold enk.
  assert (t <= C) by (pose proof (Rle_abs t); lra).
  assert (L1 : l <= Rmax t l <= Rmax C l).
  { split; [apply Rmax_r|]. apply Rmax_lub; [pose proof (Rmax_l C l); lra|apply Rmax_r]. }
  assert (ML : forall a b, 0 < a -> a <= b -> ln (exp a - 1) <= ln (exp b - 1)).
  { intros a b Ha Hab. apply ln_le; [apply exp_minus1; exact Ha|].
    destruct Hab as [Hlt|Heq]; [pose proof (exp_increasing a b Hlt); lra|subst b; lra]. }
  pose proof (ML l (Rmax t l) Hl (proj1 L1)). pose proof (ML (Rmax t l) (Rmax C l) ltac:(lra) (proj2 L1)).
  pose proof (Rmax_l (ln (exp (Rmax C l) - 1)) (- ln (exp l - 1))). pose proof (Rmax_r (ln (exp (Rmax C l) - 1)) (- ln (exp l - 1))).
  apply Rabs_le. lra.
Qed.
Lemma enk_hi l u : l <= u -> enk l u = ln (exp u - 1).
Proof. intros H. unfold enk. rewrite Rmax_left by exact H. reflexivity. Qed.
Lemma enk_derive l (u : R) : 0 < l -> l < u -> is_derive (enk l) u (/ (1 - exp (- u))).
Proof.
  intros H0 Hl. apply (is_derive_ext_loc (fun u : R => ln (exp u - 1))).
  - exists (mkposreal (u - l) ltac:(lra)). intros v Hv. symmetry. apply enk_hi.
    unfold ball in Hv; cbn in Hv. unfold AbsRing_ball, abs, minus, plus, opp in Hv; cbn in Hv. apply Rabs_def2 in Hv. lra.
  - pose proof (exp_minus1 u ltac:(lra)). pose proof (one_minus_exp u ltac:(lra)). pose proof (exp_pos u). auto_derive; [lra|].
    rewrite exp_Ropp in *. field. lra.
Qed.

Lemma balance_enh n (E : nat -> nat -> bool) p w :
  (forall i j, (i < n)%nat -> (j < n)%nat -> E i j = true -> 0 < p i j < 1 /\ p i j < w i j) ->
  exists th, (forall i j, (i < n)%nat -> (j < n)%nat -> E i j = true -> 0 < th (i + 2 * n)%nat + th (j + 3 * n)%nat) /\
    let P := fun i j => exp (- (th i + th (j + n)%nat)) * exp (- (th (i + 2 * n)%nat + th (j + 3 * n)%nat))
       / (1 - exp (- (th (i + 2 * n)%nat + th (j + 3 * n)%nat))
          + exp (- (th i + th (j + n)%nat)) * exp (- (th (i + 2 * n)%nat + th (j + 3 * n)%nat))) in
    let W := fun i j => P i j / (1 - exp (- (th (i + 2 * n)%nat + th (j + 3 * n)%nat))) in
    forall h, (h < n)%nat ->
    rsum n (fun j => if E h j then p h j - P h j else 0) = 0 /\
    rsum n (fun i => if E i h then p i h - P i h else 0) = 0 /\
    rsum n (fun j => if E h j then w h j - W h j else 0) = 0 /\
    rsum n (fun i => if E i h then w i h - W i h else 0) = 0.
Proof.
  intros Hp0. set (E' := fun i j => if Nat.ltb i n then if Nat.ltb j n then E i j else false else false).
  assert (EE : forall i j, (i < n)%nat -> (j < n)%nat -> E' i j = E i j).
  { intros i j Hi Hj. unfold E'. rewrite (proj2 (Nat.ltb_lt i n) Hi), (proj2 (Nat.ltb_lt j n) Hj). reflexivity. }
  assert (Hp : forall i j, E' i j = true -> 0 < p i j < 1 /\ p i j < w i j).
  { intros i j. unfold E'. destruct (Nat.ltb_spec i n); [|discriminate]. destruct (Nat.ltb_spec j n); [|discriminate].
    apply Hp0; assumption. }
  set (g := fun i j (t : R) => p i j * t + ln (1 + exp (- t))).
  set (M := rsum n (fun i => rsum n (fun j => if E' i j then g i j (ln (exp 1 - 1)) + enb (p i j) (w i j) 1 else 0))).
  assert (HM : 0 <= M).
  { apply rsum_nonneg. intros i Hi. apply rsum_nonneg. intros j Hj. destruct (E' i j) eqn:He; [|lra].
    destruct (Hp i j He) as [H1 H2]. pose proof (bin_nonneg (p i j) (ln (exp 1 - 1)) H1).
    pose proof (enb_bound (p i j) (w i j) 1 ltac:(lra) H2 ltac:(lra)). unfold g. nra. }
  set (l := fun i j => enl M (p i j)).
  assert (Hl : forall i j, E' i j = true -> 0 < l i j < 1) by (intros i j He; apply enl_pos; [exact HM|apply Hp in He; lra]).
  set (K := fun i j => enk (l i j)).
  set (B := fun i j => barrier (l i j) (enb (p i j) (w i j))).
  assert (A0 : forall i j, E' i j = true -> forall t, 0 <= g i j t) by (intros i j He t; apply bin_nonneg, Hp, He).
  assert (B0 : forall i j, E' i j = true -> forall t, 0 <= B i j t).
  { intros i j He t. destruct (Hp i j He). pose proof (Hl i j He). unfold B, barrier.
    pose proof (Rmax_r t (l i j)). pose proof (Rmax_r (l i j - t) 0).
    pose proof (enb_bound (p i j) (w i j) (Rmax t (l i j)) ltac:(lra) ltac:(assumption) ltac:(lra)). nra. }
  destruct (engine_min n E' g K B) as (th & Hmin).
  - intros i j He t. apply (ex_derive_continuous (g i j)). eexists. apply bin_derive.
  - intros i j He t. apply enk_cont, Hl, He.
  - intros i j He t. apply barrier_cont. intros u Hu. apply (ex_derive_continuous (enb (p i j) (w i j))). eexists.
    apply enb_derive. pose proof (Hl i j He). lra.
  - exact A0.
  - exact B0.
  - intros i j He. apply bin_coercive, Hp, He.
  - intros i j He. destruct (Hp i j He). pose proof (Hl i j He).
    apply (barrier_coercive _ _ (w i j - p i j) 0); [lra| |lra]. intros u Hu. apply enb_bound; lra.
  - intros i j He. apply enk_bounded, Hl, He.
  - assert (EM : eF n E' g K B (fun r => if Nat.ltb r (2 * n) then 0 else 1 / 2) = M).
    { unfold eF, M. apply rsum_ext. intros i Hi. apply rsum_ext. intros j Hj. destruct (E' i j) eqn:He; [|reflexivity].
      unfold eterm, tt, uu, K, B. rewrite !(proj2 (Nat.ltb_lt _ (2 * n))) by lia. rewrite !(proj2 (Nat.ltb_ge _ (2 * n))) by lia.
      replace (1 / 2 + 1 / 2) with 1 by lra. pose proof (Hl i j He). rewrite enk_hi, barrier_hi, Rplus_0_r, Rplus_0_l by lra. reflexivity. }
    assert (HT : forall i j, (i < n)%nat -> (j < n)%nat -> E' i j = true -> l i j < uu n th i j).
    { intros i j Hi Hj He. apply Rnot_le_lt. intros Hle.
      pose proof (eterm_le n E' g K B A0 B0 th i j Hi Hj He) as Ht. pose proof (Hmin (fun r => if Nat.ltb r (2 * n) then 0 else 1 / 2)) as Hm.
      rewrite EM in Hm. pose proof (Rle_trans _ _ _ Ht Hm) as Hq. unfold eterm in Hq.
      pose proof (A0 i j He (tt n th i j + K i j (uu n th i j))) as Ha. unfold B in Hq.
      rewrite barrier_lo in Hq by exact Hle. destruct (Hp i j He) as [H1 H2].
      pose proof (enl_high M (p i j) (w i j) HM ltac:(lra) H2) as Hh. fold (l i j) in Hh. lra. }
    exists th. split.
    { intros i j Hi Hj He. rewrite <- EE in He by assumption. pose proof (Hl i j He). specialize (HT i j Hi Hj He). unfold uu in HT. lra. }
    intros P W h Hh.
    assert (EP : forall i j, (i < n)%nat -> (j < n)%nat -> E' i j = true ->
      exp (- (tt n th i j + K i j (uu n th i j))) / (1 + exp (- (tt n th i j + K i j (uu n th i j)))) = P i j).
    { intros i j Hi Hj He. specialize (HT i j Hi Hj He). pose proof (Hl i j He). unfold K. rewrite enk_hi by lra.
      rewrite Ropp_plus_distr, exp_plus, (exp_Ropp (ln _)), exp_ln by (apply exp_minus1; lra).
      unfold P. fold (tt n th i j). fold (uu n th i j). pose proof (exp_minus1 (uu n th i j) ltac:(lra)).
      pose proof (exp_pos (- tt n th i j)). pose proof (exp_pos (uu n th i j)). rewrite (exp_Ropp (uu n th i j)). field.
      repeat split; nra. }
    destruct (engine_stationary n E' g K B th (fun i j => p i j - P i j) (fun i j => / (1 - exp (- uu n th i j)))
      (fun i j => w i j - p i j - p i j * exp (- uu n th i j) / (1 - exp (- uu n th i j))) Hmin) with (h := h) as (H1 & H2 & H3 & H4);
      [| | |exact Hh|].
    + intros i j Hi Hj He. rewrite <- EP by assumption. apply bin_derive.
    + intros i j Hi Hj He. apply enk_derive; [apply Hl, He|apply HT; assumption].
    + intros i j Hi Hj He. pose proof (Hl i j He). specialize (HT i j Hi Hj He). apply barrier_derive; [exact HT|]. apply enb_derive. lra.
    + split; [|split; [|split]].
      * refine (eq_trans _ H1). apply rsum_ext. intros j Hj. rewrite EE by assumption. reflexivity.
      * refine (eq_trans _ H2). apply rsum_ext. intros j Hj. rewrite EE by assumption. reflexivity.
      * refine (eq_trans _ H3). apply rsum_ext. intros j Hj. rewrite EE by assumption. destruct (E h j) eqn:He; [|reflexivity].
        rewrite <- EE in He by assumption. specialize (HT h j Hh Hj He). pose proof (Hl h j He). pose proof (one_minus_exp (uu n th h j) ltac:(lra)).
        unfold W. fold (uu n th h j). field. lra.
      * refine (eq_trans _ H4). apply rsum_ext. intros j Hj. rewrite EE by assumption. destruct (E j h) eqn:He; [|reflexivity].
        rewrite <- EE in He by assumption. specialize (HT j h Hj Hh He). pose proof (Hl j h He). pose proof (one_minus_exp (uu n th j h) ltac:(lra)).
        unfold W. fold (uu n th j h). field. lra.
Qed.
