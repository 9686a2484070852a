(** An approximate solution is nearly the most likely one. *)
From Coq Require Import Reals List Arith Lia Lra.
From Coquelicot Require Import Coquelicot.
From Verif Require Import Base SpecGraph SpecWeighted SpecEnsemble SpecSolve SpecNear ProofsGraph ProofsPairW ProofsEnsemble ProofsResidual.
Local Open Scope R_scope.

(** * Products *)
Lemma rprod_le n f g : (forall i, (i < n)%nat -> 0 <= f i <= g i) -> 0 <= rprod n f <= rprod n g.
Proof.
  induction n as [|n IH]; intros H; cbn [rprod]; [lra|].
  destruct (IH (fun i Hi => H i ltac:(lia))) as [A B]. destruct (H n ltac:(lia)) as [C D].
  split; [apply Rmult_le_pos; assumption|apply Rmult_le_compat; assumption].
Qed.
Lemma rprod_exp n f l : rprod n (fun i => f i * exp (l i)) = rprod n f * exp (rsum n l).
Proof. induction n as [|n IH]; cbn [rprod rsum]; [rewrite exp_0; ring|]. rewrite IH, exp_plus. ring. Qed.
Lemma und_product n f g l : (forall i j, (i < j)%nat -> (j < n)%nat -> 0 <= f i j <= g i j * exp (l i j)) ->
  rprod n (fun j => rprod j (fun i => f i j)) <= rprod n (fun j => rprod j (fun i => g i j)) * exp (usum n l).
Proof.
  intros H. unfold usum. rewrite <- rprod_exp. apply rprod_le. intros j Hj. rewrite <- rprod_exp. apply rprod_le. intros i Hi. apply H; lia.
Qed.
Lemma dir_product n f g l : (forall i j, (i < n)%nat -> (j < n)%nat -> i <> j -> 0 <= f i j <= g i j * exp (l i j)) ->
  rprod n (fun i => rprod n (fun j => if Nat.eqb i j then 1 else f i j)) <=
  rprod n (fun i => rprod n (fun j => if Nat.eqb i j then 1 else g i j)) * exp (rsum n (fun i => rsum n (fun j => if Nat.eqb i j then 0 else l i j))).
Proof.
  intros H. rewrite <- rprod_exp. apply rprod_le. intros i Hi. rewrite <- rprod_exp. apply rprod_le. intros j Hj.
  destruct (Nat.eqb_spec i j); [rewrite exp_0; lra|apply H; assumption].
Qed.

(** * Pairs *)
Definition lgap (x z : R) : R := if Rlt_dec 0 x then ln z - ln x else 0.
Lemma log_gap_abs n x z : log_gap n x z = rsum n (fun i => Rabs (lgap (x i) (z i))).
Proof. unfold log_gap, lgap. apply rsum_ext. intros i _. destruct (Rlt_dec 0 (x i)); [reflexivity|rewrite Rabs_R0; reflexivity]. Qed.
Lemma lgap_mult x y z w : 0 < x -> 0 < y -> 0 < z -> 0 < w -> lgap x z + lgap y w = ln (z * w) - ln (x * y).
Proof.
  intros Hx Hy Hz Hw. unfold lgap. destruct (Rlt_dec 0 x); [|lra]. destruct (Rlt_dec 0 y); [|lra]. rewrite !ln_mult by assumption. ring.
Qed.
Lemma below_exp a b l : 0 < a -> 0 < b -> ln a <= ln b + l -> a <= b * exp l.
Proof.
  intros Ha Hb H. rewrite <- (exp_ln a Ha) at 1. rewrite <- (exp_ln b Hb) at 1. rewrite <- exp_plus.
  destruct (Rle_lt_or_eq_dec _ _ H) as [L|E]; [left; apply exp_increasing, L|rewrite E; right; reflexivity].
Qed.
Lemma pair_near b x y z w : 0 <= x -> 0 <= y -> 0 <= z -> 0 <= w -> (0 < x -> 0 < z) -> (0 < y -> 0 < w) -> (b = true -> 0 < x /\ 0 < y) ->
  0 <= (if b then z * w / (1 + z * w) else 1 - z * w / (1 + z * w)) <=
  (if b then x * y / (1 + x * y) else 1 - x * y / (1 + x * y)) * exp ((ind b - x * y / (1 + x * y)) * (lgap x z + lgap y w)).
Proof.
  intros Hx Hy Hz Hw Sx Sy Sb.
  assert (U : 0 <= z * w) by (apply Rmult_le_pos; assumption).
  assert (E1 : forall t, 0 <= t -> 1 - t / (1 + t) = / (1 + t)) by (intros t Ht; field; lra).
  rewrite (E1 _ U), (E1 (x * y)) by (apply Rmult_le_pos; assumption).
  destruct (Rle_lt_or_eq_dec _ _ Hx) as [Px|Zx]; [destruct (Rle_lt_or_eq_dec _ _ Hy) as [Py|Zy]|].
  - specialize (Sx Px). specialize (Sy Py). assert (T : 0 < x * y) by (apply Rmult_lt_0_compat; assumption).
    assert (V : 0 < z * w) by (apply Rmult_lt_0_compat; assumption). rewrite lgap_mult by assumption.
    pose proof (pair_binary_max (x * y) (z * w) T V) as M. set (t := x * y) in *. set (u := z * w) in *. clearbody t u.
    split; [destruct b; [apply Rdiv_le_0_compat; lra|left; apply Rinv_0_lt_compat; lra]|].
    apply below_exp.
    + destruct b; [apply Rdiv_lt_0_compat; lra|apply Rinv_0_lt_compat; lra].
    + destruct b; [apply Rdiv_lt_0_compat; lra|apply Rinv_0_lt_compat; lra].
    + set (p := t / (1 + t)) in *. destruct b; cbn [ind]; unfold Rdiv in *.
      * fold p. rewrite ln_mult by (try apply Rinv_0_lt_compat; lra). rewrite ln_Rinv by lra.
        replace (ln p) with (ln t - ln (1 + t)) by (unfold p; rewrite ln_mult by (try apply Rinv_0_lt_compat; lra); rewrite ln_Rinv by lra; ring). lra.
      * rewrite !ln_Rinv by lra. lra.
  - subst y. rewrite Rmult_0_r. destruct b; [destruct (Sb eq_refl); lra|]. cbn [ind]. unfold Rdiv. rewrite Rmult_0_l, Rminus_0_r, Rmult_0_l, exp_0, Rplus_0_r, Rinv_1, Rmult_1_r.
    split; [left; apply Rinv_0_lt_compat; lra|]. rewrite <- Rinv_1. apply Rinv_le_contravar; lra.
  - subst x. rewrite Rmult_0_l. destruct b; [destruct (Sb eq_refl); lra|]. cbn [ind]. unfold Rdiv. rewrite Rmult_0_l, Rminus_0_r, Rmult_0_l, exp_0, Rplus_0_r, Rinv_1, Rmult_1_r.
    split; [left; apply Rinv_0_lt_compat; lra|]. rewrite <- Rinv_1. apply Rinv_le_contravar; lra.
Qed.

(** * Weighing the logarithms with the errors *)
Lemma weigh n d l e : (forall i, (i < n)%nat -> Rabs (d i) <= e) -> rsum n (fun i => d i * l i) <= e * rsum n (fun i => Rabs (l i)).
Proof.
  intros H. rewrite <- rsum_scal_l. apply rsum_le. intros i Hi. eapply Rle_trans; [apply Rle_abs|]. rewrite Rabs_mult.
  apply Rmult_le_compat_r; [apply Rabs_pos|apply H, Hi].
Qed.
Lemma exp_le a b : a <= b -> exp a <= exp b.
Proof. intros [H|H]; [left; apply exp_increasing, H|rewrite H; right; reflexivity]. Qed.

Lemma near_und n a x z e : simple_graph n a -> comparable n x z -> may_link n x x a ->
  (forall i, (i < n)%nat -> Rabs (mean_undirected n (p_ubcm x) (fun b => deg n b i) - deg n a i) <= e) ->
  prob_undirected n (p_ubcm z) a <= prob_undirected n (p_ubcm x) a * exp (e * log_gap n x z).
Proof.
  intros [Hs Hl] HC HM HE.
  set (p := p_ubcm x). set (l := fun i => lgap (x i) (z i)).
  assert (PS : forall u v, p u v = p v u) by (intros u v; unfold p, p_ubcm; rewrite (Rmult_comm (x u)); reflexivity).
  eapply Rle_trans.
  - unfold prob_undirected. apply (und_product n _ (fun i j => if a i j then p i j else 1 - p i j) (fun i j => (ind (a i j) - p i j) * (l i + l j))).
    intros i j Hij Hj. destruct (HC i ltac:(lia)) as (X1 & X2 & X3), (HC j Hj) as (Y1 & Y2 & Y3). unfold p_ubcm at 1 2. unfold p, p_ubcm, l. apply pair_near; try assumption.
    intros Hb. apply HM; try lia. exact Hb.
  - fold (prob_undirected n p a). apply Rmult_le_compat_l.
    + unfold prob_undirected. refine (proj1 (rprod_le n _ _ _)). intros j Hj. split; [|apply Rle_refl]. refine (proj1 (rprod_le j _ _ _)). intros i Hi. split; [|apply Rle_refl].
      destruct (HC i ltac:(lia)) as (X1 & _ & _), (HC j Hj) as (Y1 & _ & _). unfold p, p_ubcm. assert (0 <= x i * x j) by (apply Rmult_le_pos; assumption).
      destruct (a i j); [apply Rdiv_le_0_compat; lra|]. replace (1 - x i * x j / (1 + x i * x j)) with (/ (1 + x i * x j)) by (field; lra). left. apply Rinv_0_lt_compat. lra.
    + apply exp_le. rewrite usum_sym_group; [|intros i j Hi Hj; rewrite Hs, PS by assumption; reflexivity]. rewrite log_gap_abs. apply weigh.
      intros i Hi. rewrite <- Rabs_Ropp. eapply Rle_trans; [right|apply (HE i Hi)]. f_equal. rewrite mean_undirected_deg by assumption. fold p. unfold deg.
      rewrite <- rsum_opp, <- rsum_minus. apply rsum_ext. intros j Hj. destruct (Nat.eqb_spec i j) as [->|N]; [rewrite Hl by exact Hj; cbn; ring|ring].
Qed.

Lemma near_dir n a x y z w e1 e2 : loopless n a -> comparable n x z -> comparable n y w -> may_link n x y a ->
  (forall i, (i < n)%nat -> Rabs (mean_directed n (p_dbcm x y) (fun b => deg n b i) - deg n a i) <= e1) ->
  (forall i, (i < n)%nat -> Rabs (mean_directed n (p_dbcm x y) (fun b => indeg n b i) - indeg n a i) <= e2) ->
  prob_directed n (p_dbcm z w) a <= prob_directed n (p_dbcm x y) a * exp (e1 * log_gap n x z + e2 * log_gap n y w).
Proof.
  intros Hl HX HY HM H1 H2.
  set (p := p_dbcm x y). set (l := fun i => lgap (x i) (z i)). set (k := fun i => lgap (y i) (w i)).
  eapply Rle_trans.
  - unfold prob_directed. apply (dir_product n (fun i j => if a i j then p_dbcm z w i j else 1 - p_dbcm z w i j) (fun i j => if a i j then p i j else 1 - p i j) (fun i j => (ind (a i j) - p i j) * (l i + k j))).
    intros i j Hi Hj Hij. destruct (HX i Hi) as (X1 & X2 & X3), (HY j Hj) as (Y1 & Y2 & Y3). unfold p, p_dbcm, l, k. apply pair_near; try assumption.
    intros Hb. apply HM; assumption.
  - fold (prob_directed n p a). apply Rmult_le_compat_l.
    + unfold prob_directed. refine (proj1 (rprod_le n _ _ _)). intros i Hi. split; [|apply Rle_refl]. refine (proj1 (rprod_le n _ _ _)). intros j Hj. split; [|apply Rle_refl].
      destruct (Nat.eqb i j); [lra|].
      destruct (HX i Hi) as (X1 & _ & _), (HY j Hj) as (Y1 & _ & _). unfold p, p_dbcm. assert (0 <= x i * y j) by (apply Rmult_le_pos; assumption).
      destruct (a i j); [apply Rdiv_le_0_compat; lra|]. replace (1 - x i * y j / (1 + x i * y j)) with (/ (1 + x i * y j)) by (field; lra). left. apply Rinv_0_lt_compat. lra.
    + apply exp_le.
      replace (rsum n (fun i => rsum n (fun j => if Nat.eqb i j then 0 else (ind (a i j) - p i j) * (l i + k j)))) with
        (rsum n (fun i => rsum n (fun j => if Nat.eqb i j then 0 else ind (a i j) - p i j) * l i) + rsum n (fun j => rsum n (fun i => if Nat.eqb i j then 0 else ind (a i j) - p i j) * k j)).
      2: { rewrite (rsum_ext n (fun j => rsum n (fun i => if Nat.eqb i j then 0 else ind (a i j) - p i j) * k j) (fun j => rsum n (fun i => if Nat.eqb i j then 0 else (ind (a i j) - p i j) * k j))).
           2: { intros j _. rewrite <- rsum_scal_r. apply rsum_ext. intros i _. destruct (Nat.eqb i j); ring. }
           rewrite <- (rsum_swap n n (fun i j => if Nat.eqb i j then 0 else (ind (a i j) - p i j) * k j)). rewrite <- rsum_plus. apply rsum_ext. intros i _.
           rewrite <- rsum_scal_r, <- rsum_plus. apply rsum_ext. intros j _. destruct (Nat.eqb i j); ring. }
      rewrite !log_gap_abs. apply Rplus_le_compat; apply weigh; intros i Hi; rewrite <- Rabs_Ropp.
      * eapply Rle_trans; [right|apply (H1 i Hi)]. f_equal. rewrite mean_directed_deg by assumption. fold p. unfold deg.
        rewrite <- rsum_opp, <- rsum_minus. apply rsum_ext. intros j Hj. destruct (Nat.eqb_spec i j) as [->|N]; [rewrite Hl by exact Hj; cbn; ring|ring].
      * eapply Rle_trans; [right|apply (H2 i Hi)]. f_equal. rewrite mean_directed_indeg by assumption. fold p. unfold indeg.
        rewrite <- rsum_opp, <- rsum_minus. apply rsum_ext. intros j Hj. destruct (Nat.eqb_spec j i) as [->|N]; [rewrite Hl by exact Hi; cbn; ring|ring].
Qed.
