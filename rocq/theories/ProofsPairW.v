(** The pair law of the enhanced models. *)
From Coq Require Import Reals List Arith Lia Lra Bool.
From Coquelicot Require Import Coquelicot.
From Verif Require Import Base SpecGraph SpecWeighted ProofsGraph.
Local Open Scope R_scope.

Lemma enh_den_pos z y : 0 <= z -> 0 <= y < 1 -> 0 < 1 - y + z * y.
Proof. intros Hz Hy. assert (0 <= z * y) by (apply Rmult_le_pos; lra). lra. Qed.

Lemma q_enh_0 z y : q_enh z y 0 = (1 - y) / (1 - y + z * y).
Proof. unfold q_enh. simpl. ring. Qed.

Lemma q_enh_S z y w : q_enh z y (S w) = z * y * ((1 - y) / (1 - y + z * y)) * y ^ w.
Proof. unfold q_enh. simpl. ring. Qed.

Lemma q_enh_pos z y w : 0 < z -> 0 < y < 1 -> 0 < q_enh z y w.
Proof.
  intros Hz Hy. unfold q_enh. pose proof (enh_den_pos z y ltac:(lra) ltac:(lra)).
  apply Rmult_lt_0_compat; [apply Rmult_lt_0_compat|].
  - destruct (linked w); lra.
  - apply pow_lt. lra.
  - apply Rdiv_lt_0_compat; lra.
Qed.

Lemma ln_pow_nat y w : 0 < y -> ln (y ^ w) = INR w * ln y.
Proof.
  intros Hy. induction w as [|w IH]; [simpl; rewrite ln_1; ring|].
  rewrite S_INR. simpl. rewrite ln_mult, IH; [ring|exact Hy|apply pow_lt; exact Hy].
Qed.

Lemma ln_q_enh z y w : 0 < z -> 0 < y < 1 ->
  ln (q_enh z y w) = ind (linked w) * ln z + INR w * ln y + ln ((1 - y) / (1 - y + z * y)).
Proof.
  intros Hz Hy. unfold q_enh. pose proof (enh_den_pos z y ltac:(lra) ltac:(lra)).
  assert (0 < y ^ w) by (apply pow_lt; lra).
  assert (0 < (1 - y) / (1 - y + z * y)) by (apply Rdiv_lt_0_compat; lra).
  destruct (linked w); unfold ind.
  - rewrite ln_mult, ln_mult, ln_pow_nat; try lra. apply Rmult_lt_0_compat; lra.
  - rewrite ln_mult, ln_mult, ln_pow_nat, ln_1; lra.
Qed.

(** * Normalisation and means *)

Lemma is_series_shift (a : nat -> R) (l : R) : is_series (fun w => a (S w)) l -> is_series a (a O + l).
Proof.
  intros H.
  rewrite Rplus_comm. apply is_series_decr_1.
  change (is_series (fun w => a (S w)) (l + a O + - a O)).
  replace (l + a O + - a O) with l by ring. exact H.
Qed.

Lemma is_series_Rscal (c : R) (a : nat -> R) (l : R) :
  is_series a l -> is_series (fun w => c * a w) (c * l).
Proof. exact (is_series_scal_l c a l). Qed.

Lemma is_series_geom_w y : 0 < y < 1 -> is_series (fun w : nat => INR (S w) * y ^ w) (/ (1 - y) * / (1 - y)).
Proof.
  intros Hy.
  assert (G : is_series (fun w => y ^ w) (/ (1 - y))).
  { apply is_series_geom. rewrite Rabs_pos_eq; lra. }
  assert (P : forall w, 0 <= y ^ w) by (intros; apply pow_le; lra).
  pose proof (is_series_mult_pos _ _ _ _ G G P P) as M.
  eapply is_series_ext; [|exact M].
  intros w. cbv beta. match goal with |- @eq _ ?a ?b => change (@eq R a b) end.
  rewrite <- (sum_eq (fun _ => y ^ w)).
  - rewrite sum_cte. ring.
  - intros i Hi. rewrite <- pow_add. f_equal. lia.
Qed.

Lemma q_enh_total z y : 0 < z -> 0 < y < 1 -> is_series (q_enh z y) 1.
Proof.
  intros Hz Hy. pose proof (enh_den_pos z y ltac:(lra) ltac:(lra)) as HD.
  replace 1 with (q_enh z y 0 + z * y * ((1 - y) / (1 - y + z * y)) * / (1 - y)).
  2: { rewrite q_enh_0. field. lra. }
  apply is_series_shift.
  eapply is_series_ext; [intros w; symmetry; apply q_enh_S|].
  apply (is_series_Rscal (z * y * ((1 - y) / (1 - y + z * y)))).
  apply is_series_geom. rewrite Rabs_pos_eq; lra.
Qed.

Lemma q_enh_link_mean z y : 0 < z -> 0 < y < 1 ->
  is_series (fun w => ind (linked w) * q_enh z y w) (z * y / (1 - y + z * y)).
Proof.
  intros Hz Hy. pose proof (enh_den_pos z y ltac:(lra) ltac:(lra)) as HD.
  replace (z * y / (1 - y + z * y)) with
    (ind (linked 0) * q_enh z y 0 + z * y * ((1 - y) / (1 - y + z * y)) * / (1 - y)).
  2: { unfold linked, ind; simpl. field. lra. }
  apply (is_series_shift (fun w => ind (linked w) * q_enh z y w)).
  eapply is_series_ext; [intros w; symmetry; rewrite q_enh_S; unfold linked, ind; simpl; apply Rmult_1_l|].
  apply (is_series_Rscal (z * y * ((1 - y) / (1 - y + z * y)))).
  apply is_series_geom. rewrite Rabs_pos_eq; lra.
Qed.

Lemma q_enh_weight_mean z y : 0 < z -> 0 < y < 1 ->
  is_series (fun w => INR w * q_enh z y w) (z * y / ((1 - y + z * y) * (1 - y))).
Proof.
  intros Hz Hy. pose proof (enh_den_pos z y ltac:(lra) ltac:(lra)) as HD.
  replace (z * y / ((1 - y + z * y) * (1 - y))) with
    (INR 0 * q_enh z y 0 + z * y * ((1 - y) / (1 - y + z * y)) * (/ (1 - y) * / (1 - y))).
  2: { simpl. field. lra. }
  apply (is_series_shift (fun w => INR w * q_enh z y w)).
  eapply is_series_ext.
  2: { apply (is_series_Rscal (z * y * ((1 - y) / (1 - y + z * y)))). apply is_series_geom_w. exact Hy. }
  intros w. rewrite q_enh_S.
  change (z * y * ((1 - y) / (1 - y + z * y)) * (INR (S w) * y ^ w) =
    INR (S w) * (z * y * ((1 - y) / (1 - y + z * y)) * y ^ w)). ring.
Qed.

(** * The pair term is maximal at the parameters giving its means *)

(** Pair term of the log-likelihood with mean link [p] and mean weight [m]. *)
Definition pairterm (p m z y : R) : R :=
  p * ln z + m * ln y + ln ((1 - y) / (1 - y + z * y)).

Lemma pairterm_split p m z y : 0 < z -> 0 < y < 1 ->
  pairterm p m z y =
  (p * ln (z * y / (1 - y + z * y)) + (1 - p) * ln (1 - z * y / (1 - y + z * y)))
  + (p * ln (1 - y) + (m - p) * ln y).
Proof.
  intros Hz Hy. pose proof (enh_den_pos z y ltac:(lra) ltac:(lra)) as HD.
  assert (0 < z * y) by (apply Rmult_lt_0_compat; lra).
  replace (1 - z * y / (1 - y + z * y)) with ((1 - y) / (1 - y + z * y)) by (field; lra).
  unfold pairterm. rewrite !ln_div, ln_mult by lra. ring.
Qed.

Lemma enh_prob_range z y : 0 < z -> 0 < y < 1 -> 0 < z * y / (1 - y + z * y) < 1.
Proof.
  intros Hz Hy. pose proof (enh_den_pos z y ltac:(lra) ltac:(lra)) as HD.
  assert (0 < z * y) by (apply Rmult_lt_0_compat; lra).
  split; [apply Rdiv_lt_0_compat; lra|].
  apply Rmult_lt_reg_r with (1 - y + z * y); [lra|].
  replace (z * y / (1 - y + z * y) * (1 - y + z * y)) with (z * y) by (field; lra). lra.
Qed.

Lemma pairterm_max z0 y0 z y :
  0 < z0 -> 0 < y0 < 1 -> 0 < z -> 0 < y < 1 ->
  let p := z0 * y0 / (1 - y0 + z0 * y0) in
  let m := z0 * y0 / ((1 - y0 + z0 * y0) * (1 - y0)) in
  pairterm p m z y <= pairterm p m z0 y0.
Proof.
  intros Hz0 Hy0 Hz Hy p m.
  rewrite !pairterm_split by assumption. fold p.
  pose proof (enh_prob_range z0 y0 Hz0 Hy0) as Hp. fold p in Hp.
  pose proof (enh_prob_range z y Hz Hy) as Hp'.
  pose proof (gibbs2 p _ Hp Hp') as G1.
  pose proof (gibbs2 y0 y ltac:(lra) ltac:(lra)) as G2.
  assert (Em : m = p / (1 - y0)).
  { unfold m, p. pose proof (enh_den_pos z0 y0 ltac:(lra) ltac:(lra)). field. lra. }
  assert (Hm : 0 < m) by (rewrite Em; apply Rdiv_lt_0_compat; lra).
  assert (E1 : p = m * (1 - y0)) by (rewrite Em; field; lra).
  assert (Ea : forall v, p * ln (1 - v) + (m - p) * ln v = m * (y0 * ln v + (1 - y0) * ln (1 - v))).
  { intros v. rewrite E1 at 1 2. ring. }
  rewrite !Ea.
  assert (G3 : m * (y0 * ln y + (1 - y0) * ln (1 - y)) <= m * (y0 * ln y0 + (1 - y0) * ln (1 - y0))).
  { apply Rmult_le_compat_l; lra. }
  lra.
Qed.

Lemma pairterm_max_strict z0 y0 z y :
  0 < z0 -> 0 < y0 < 1 -> 0 < z -> 0 < y < 1 ->
  let p := z0 * y0 / (1 - y0 + z0 * y0) in
  let m := z0 * y0 / ((1 - y0 + z0 * y0) * (1 - y0)) in
  pairterm p m z y = pairterm p m z0 y0 -> z = z0 /\ y = y0.
Proof.
  intros Hz0 Hy0 Hz Hy p m.
  rewrite !pairterm_split by assumption. fold p.
  pose proof (enh_prob_range z0 y0 Hz0 Hy0) as Hp. fold p in Hp.
  pose proof (enh_prob_range z y Hz Hy) as Hp'.
  pose proof (gibbs2 p _ Hp Hp') as G1.
  pose proof (gibbs2 y0 y ltac:(lra) ltac:(lra)) as G2.
  pose proof (enh_den_pos z0 y0 ltac:(lra) ltac:(lra)) as D0.
  pose proof (enh_den_pos z y ltac:(lra) ltac:(lra)) as D1.
  assert (Em : m = p / (1 - y0)) by (unfold m, p; field; lra).
  assert (Hm : 0 < m) by (rewrite Em; apply Rdiv_lt_0_compat; lra).
  assert (E1 : p = m * (1 - y0)) by (rewrite Em; field; lra).
  assert (Ea : forall v, p * ln (1 - v) + (m - p) * ln v = m * (y0 * ln v + (1 - y0) * ln (1 - v))).
  { intros v. rewrite E1 at 1 2. ring. }
  rewrite !Ea. intros E.
  assert (G3 : m * (y0 * ln y + (1 - y0) * ln (1 - y)) <= m * (y0 * ln y0 + (1 - y0) * ln (1 - y0))).
  { apply Rmult_le_compat_l; lra. }
  assert (Hy' : y = y0).
  { destruct (Req_dec y0 y) as [H|H]; [auto|exfalso].
    pose proof (gibbs2_strict y0 y ltac:(lra) ltac:(lra) H) as G.
    apply (Rmult_lt_compat_l m) in G; [|exact Hm]. lra. }
  assert (Hpp : p = z * y / (1 - y + z * y)).
  { destruct (Req_dec p (z * y / (1 - y + z * y))) as [H|H]; [auto|exfalso].
    pose proof (gibbs2_strict p _ Hp Hp' H) as G. lra. }
  split; [|exact Hy']. subst y. unfold p in Hpp.
  apply (f_equal (fun u => u * ((1 - y0 + z0 * y0) * (1 - y0 + z * y0)))) in Hpp.
  replace (z0 * y0 / (1 - y0 + z0 * y0) * ((1 - y0 + z0 * y0) * (1 - y0 + z * y0)))
    with (z0 * y0 * (1 - y0 + z * y0)) in Hpp by (field; lra).
  replace (z * y0 / (1 - y0 + z * y0) * ((1 - y0 + z0 * y0) * (1 - y0 + z * y0)))
    with (z * y0 * (1 - y0 + z0 * y0)) in Hpp by (field; lra).
  assert (F : (z - z0) * (y0 * (1 - y0)) = 0) by lra.
  apply Rmult_integral in F. destruct F as [F|F]; [lra|].
  assert (0 < y0 * (1 - y0)) by (apply Rmult_lt_0_compat; lra). lra.
Qed.
