(** An approximate solution of a weighted model is nearly the most likely one. *)
From Coq Require Import Reals List Arith Lia Lra.
From Coquelicot Require Import Coquelicot.
From Verif Require Import Base SpecGraph SpecWeighted SpecEnsemble SpecSolve SpecNear ProofsGraph ProofsPairW ProofsEnsemble ProofsResidual ProofsNear.
Local Open Scope R_scope.

Lemma linked_zero w : w <> O -> linked w = true.
Proof. intros H. unfold linked. destruct (Nat.eqb_spec w 0); [contradiction|reflexivity]. Qed.
Lemma ln_q_enh z y w : 0 < z -> 0 < y < 1 -> 0 < q_enh z y w /\ ln (q_enh z y w) = ind (linked w) * ln z + INR w * ln y + ln ((1 - y) / (1 - y + z * y)).
Proof.
  intros Hz Hy. assert (P : 0 < z * y) by (apply Rmult_lt_0_compat; lra).
  assert (D : 0 < (1 - y) / (1 - y + z * y)) by (apply Rdiv_lt_0_compat; lra).
  assert (W : 0 < y ^ w) by (apply pow_lt; lra).
  assert (T : 0 < (if linked w then z else 1)) by (destruct (linked w); lra).
  unfold q_enh. split; [apply Rmult_lt_0_compat; [apply Rmult_lt_0_compat; assumption|exact D]|].
  rewrite ln_mult; [|apply Rmult_lt_0_compat; assumption|assumption]. rewrite ln_mult by assumption. rewrite ln_pow by lra.
  destruct (linked w); cbn [ind]; [ring|rewrite ln_1; ring].
Qed.
Lemma pair_near_enh w x y z v bo bi co ci :
  0 <= x -> 0 <= y -> 0 <= bo -> 0 <= bi -> 0 <= z -> 0 <= v -> 0 <= co -> 0 <= ci -> bo * bi < 1 -> co * ci < 1 ->
  (0 < x -> 0 < z) -> (0 < y -> 0 < v) -> (0 < bo -> 0 < co) -> (0 < bi -> 0 < ci) ->
  (w <> O -> 0 < x /\ 0 < y /\ 0 < bo /\ 0 < bi) ->
  0 <= q_enh (z * v) (co * ci) w <= q_enh (x * y) (bo * bi) w *
    exp ((ind (linked w) - link_mean (x * y) (bo * bi)) * (lgap x z + lgap y v) + (INR w - weight_mean (x * y) (bo * bi)) * (lgap bo co + lgap bi ci)).
Proof.
  intros Hx Hy Hbo Hbi Hz Hv Hco Hci B C Sx Sy So Si Sw.
  assert (U : 0 <= z * v) by (apply Rmult_le_pos; assumption). assert (K : 0 <= co * ci) by (apply Rmult_le_pos; assumption).
  assert (UK : 0 <= z * v * (co * ci)) by (apply Rmult_le_pos; assumption).
  assert (T : 0 <= x * y) by (apply Rmult_le_pos; assumption). assert (L : 0 <= bo * bi) by (apply Rmult_le_pos; assumption).
  assert (Z : x * y * (bo * bi) = 0 -> 0 <= q_enh (z * v) (co * ci) w <= q_enh (x * y) (bo * bi) w *
    exp ((ind (linked w) - link_mean (x * y) (bo * bi)) * (lgap x z + lgap y v) + (INR w - weight_mean (x * y) (bo * bi)) * (lgap bo co + lgap bi ci))).
  { intros E. destruct (Nat.eq_dec w 0) as [->|N].
    2: { destruct (Sw N) as (P1 & P2 & P3 & P4). exfalso. assert (0 < x * y * (bo * bi)) by (repeat apply Rmult_lt_0_compat; assumption). lra. }
    unfold link_mean, weight_mean. rewrite E. unfold Rdiv. rewrite !Rmult_0_l. cbn [linked Nat.eqb negb ind INR].
    replace (linked 0) with false by reflexivity. cbn [ind]. rewrite !Rminus_0_r, !Rmult_0_l, Rplus_0_r, exp_0, Rmult_1_r.
    unfold q_enh. replace (linked 0) with false by reflexivity. cbn [pow]. rewrite !Rmult_1_l, E, Rplus_0_r.
    replace ((1 - bo * bi) / (1 - bo * bi)) with 1 by (field; lra).
    split; [apply Rdiv_le_0_compat; lra|]. apply (Rmult_le_reg_r (1 - co * ci + z * v * (co * ci))); [lra|]. unfold Rdiv. rewrite Rmult_assoc, Rinv_l by lra. lra. }
  destruct (Rle_lt_or_eq_dec _ _ Hx) as [Px|<-]; [|apply Z; ring].
  destruct (Rle_lt_or_eq_dec _ _ Hy) as [Py|<-]; [|apply Z; ring].
  destruct (Rle_lt_or_eq_dec _ _ Hbo) as [Po|<-]; [|apply Z; ring].
  destruct (Rle_lt_or_eq_dec _ _ Hbi) as [Pi|<-]; [|apply Z; ring]. clear Z.
  specialize (Sx Px). specialize (Sy Py). specialize (So Po). specialize (Si Pi). rewrite !lgap_mult by assumption.
  assert (T' : 0 < x * y) by (apply Rmult_lt_0_compat; assumption). assert (L' : 0 < bo * bi) by (apply Rmult_lt_0_compat; assumption).
  assert (U' : 0 < z * v) by (apply Rmult_lt_0_compat; assumption). assert (K' : 0 < co * ci) by (apply Rmult_lt_0_compat; assumption).
  set (t := x * y) in *. set (u := z * v) in *. set (b := bo * bi) in *. set (c := co * ci) in *. clearbody t u b c.
  pose proof (pairterm_max t b u c T' ltac:(lra) U' ltac:(lra)) as M. cbv zeta in M. fold (link_mean t b) in M. fold (weight_mean t b) in M. unfold pairterm in M.
  destruct (ln_q_enh u c w U' ltac:(lra)) as [Q1 E1], (ln_q_enh t b w T' ltac:(lra)) as [Q2 E2].
  split; [lra|]. apply below_exp; try assumption. rewrite E1, E2. lra.
Qed.
Lemma q_enh_nonneg z y w : 0 <= z -> 0 <= y < 1 -> 0 <= q_enh z y w.
Proof.
  intros Hz Hy. assert (0 <= z * y) by (apply Rmult_le_pos; lra). unfold q_enh. repeat apply Rmult_le_pos; try lra; [destruct (linked w); lra|apply pow_le; lra|left; apply Rinv_0_lt_compat; lra].
Qed.

Lemma near_wund n w x y z v ek es : weighted_graph n w -> comparable n x z -> comparable n y v -> tame n y y -> tame n v v -> may_weigh n x x y y w ->
  (forall i, (i < n)%nat -> Rabs (mean_deg_und n x y i - wdeg n w i) <= ek) ->
  (forall i, (i < n)%nat -> Rabs (mean_str_und n x y i - wstr n w i) <= es) ->
  prob_wundirected n (fun i j => q_enh (z i * z j) (v i * v j)) w <=
  prob_wundirected n (fun i j => q_enh (x i * x j) (y i * y j)) w * exp (ek * log_gap n x z + es * log_gap n y v).
Proof.
  intros [Hs Hl] HX HY TY TV HM H1 H2. set (l := fun i => lgap (x i) (z i)). set (k := fun i => lgap (y i) (v i)).
  set (p := fun i j => ind (linked (w i j)) - link_mean (x i * x j) (y i * y j)). set (m := fun i j => INR (w i j) - weight_mean (x i * x j) (y i * y j)).
  eapply Rle_trans.
  - unfold prob_wundirected. apply (und_product n (fun i j => q_enh (z i * z j) (v i * v j) (w i j)) (fun i j => q_enh (x i * x j) (y i * y j) (w i j)) (fun i j => p i j * (l i + l j) + m i j * (k i + k j))).
    intros i j Hij Hj. destruct (HX i ltac:(lia)) as (X1 & X2 & X3), (HX j Hj) as (X4 & X5 & X6), (HY i ltac:(lia)) as (Y1 & Y2 & Y3), (HY j Hj) as (Y4 & Y5 & Y6).
    unfold p, m, l, k. apply pair_near_enh; try assumption; try (apply TY; lia); try (apply TV; lia). intros Hw. apply HM; try lia; exact Hw.
  - fold (prob_wundirected n (fun i j => q_enh (x i * x j) (y i * y j)) w). apply Rmult_le_compat_l.
    + unfold prob_wundirected. refine (proj1 (rprod_le n _ _ _)). intros j Hj. split; [|apply Rle_refl]. refine (proj1 (rprod_le j _ _ _)). intros i Hi. split; [|apply Rle_refl].
      destruct (HX i ltac:(lia)) as (X1 & _), (HX j Hj) as (X2 & _), (HY i ltac:(lia)) as (Y1 & _), (HY j Hj) as (Y2 & _).
      apply q_enh_nonneg; [apply Rmult_le_pos; assumption|]. split; [apply Rmult_le_pos; assumption|apply TY; lia].
    + apply exp_le. rewrite usum_plus. rewrite !usum_sym_group.
      2: { intros i j Hi Hj. unfold m. rewrite Hs by assumption. rewrite (Rmult_comm (x i)), (Rmult_comm (y i)). reflexivity. }
      2: { intros i j Hi Hj. unfold p. rewrite Hs by assumption. rewrite (Rmult_comm (x i)), (Rmult_comm (y i)). reflexivity. }
      rewrite !log_gap_abs. apply Rplus_le_compat; apply weigh; intros i Hi; rewrite <- Rabs_Ropp.
      * eapply Rle_trans; [right|apply (H1 i Hi)]. f_equal. unfold mean_deg_und, wdeg. rewrite <- rsum_opp, <- rsum_minus. apply rsum_ext. intros j Hj.
        unfold p. destruct (Nat.eqb_spec i j) as [->|N]; [rewrite Hl by exact Hj; cbn; ring|ring].
      * eapply Rle_trans; [right|apply (H2 i Hi)]. f_equal. unfold mean_str_und, wstr. rewrite <- rsum_opp, <- rsum_minus. apply rsum_ext. intros j Hj.
        unfold m. destruct (Nat.eqb_spec i j) as [->|N]; [rewrite Hl by exact Hj; cbn; ring|ring].
Qed.

Lemma near_wdir n w x y bo bi z v co ci e1 e2 e3 e4 : weighted_digraph n w ->
  comparable n x z -> comparable n y v -> comparable n bo co -> comparable n bi ci -> tame n bo bi -> tame n co ci -> may_weigh n x y bo bi w ->
  (forall i, (i < n)%nat -> Rabs (mean_out_deg n x y bo bi i - wdeg n w i) <= e1) ->
  (forall i, (i < n)%nat -> Rabs (mean_in_deg n x y bo bi i - windeg n w i) <= e2) ->
  (forall i, (i < n)%nat -> Rabs (mean_out_str n x y bo bi i - wstr n w i) <= e3) ->
  (forall i, (i < n)%nat -> Rabs (mean_in_str n x y bo bi i - winstr n w i) <= e4) ->
  prob_wdirected n (fun i j => q_enh (z i * v j) (co i * ci j)) w <=
  prob_wdirected n (fun i j => q_enh (x i * y j) (bo i * bi j)) w *
    exp (e1 * log_gap n x z + e2 * log_gap n y v + (e3 * log_gap n bo co + e4 * log_gap n bi ci)).
Proof.
  intros Hl HX HY HO HI TB TC HM H1 H2 H3 H4.
  set (l1 := fun i => lgap (x i) (z i)). set (l2 := fun i => lgap (y i) (v i)). set (l3 := fun i => lgap (bo i) (co i)). set (l4 := fun i => lgap (bi i) (ci i)).
  set (p := fun i j => ind (linked (w i j)) - link_mean (x i * y j) (bo i * bi j)). set (m := fun i j => INR (w i j) - weight_mean (x i * y j) (bo i * bi j)).
  eapply Rle_trans.
  - unfold prob_wdirected. apply (dir_product n (fun i j => q_enh (z i * v j) (co i * ci j) (w i j)) (fun i j => q_enh (x i * y j) (bo i * bi j) (w i j)) (fun i j => p i j * (l1 i + l2 j) + m i j * (l3 i + l4 j))).
    intros i j Hi Hj Hij. destruct (HX i Hi) as (X1 & X2 & X3), (HY j Hj) as (X4 & X5 & X6), (HO i Hi) as (Y1 & Y2 & Y3), (HI j Hj) as (Y4 & Y5 & Y6).
    unfold p, m, l1, l2, l3, l4. apply pair_near_enh; try assumption; try (apply TB; assumption); try (apply TC; assumption). intros Hw. apply HM; assumption.
  - fold (prob_wdirected n (fun i j => q_enh (x i * y j) (bo i * bi j)) w). apply Rmult_le_compat_l.
    + unfold prob_wdirected. refine (proj1 (rprod_le n _ _ _)). intros i Hi. split; [|apply Rle_refl]. refine (proj1 (rprod_le n _ _ _)). intros j Hj. split; [|apply Rle_refl].
      destruct (Nat.eqb_spec i j); [lra|].
      destruct (HX i Hi) as (X1 & _), (HY j Hj) as (X2 & _), (HO i Hi) as (Y1 & _), (HI j Hj) as (Y2 & _).
      apply q_enh_nonneg; [apply Rmult_le_pos; assumption|]. split; [apply Rmult_le_pos; assumption|apply TB; assumption].
    + apply exp_le.
      assert (R : forall (f : nat -> nat -> R) (a b : nat -> R), rsum n (fun i => rsum n (fun j => if Nat.eqb i j then 0 else f i j * (a i + b j))) =
        rsum n (fun i => rsum n (fun j => if Nat.eqb i j then 0 else f i j) * a i) + rsum n (fun j => rsum n (fun i => if Nat.eqb j i then 0 else f i j) * b j)).
      { intros f a b. rewrite (rsum_ext n (fun j => rsum n (fun i => if Nat.eqb j i then 0 else f i j) * b j) (fun j => rsum n (fun i => if Nat.eqb i j then 0 else f i j * b j))).
        2: { intros j _. rewrite <- rsum_scal_r. apply rsum_ext. intros i _. rewrite Nat.eqb_sym. destruct (Nat.eqb i j); ring. }
        rewrite <- (rsum_swap n n (fun i j => if Nat.eqb i j then 0 else f i j * b j)). rewrite <- rsum_plus. apply rsum_ext. intros i _.
        rewrite <- rsum_scal_r, <- rsum_plus. apply rsum_ext. intros j _. destruct (Nat.eqb i j); ring. }
      rewrite (rsum_ext n _ (fun i => rsum n (fun j => if Nat.eqb i j then 0 else p i j * (l1 i + l2 j)) + rsum n (fun j => if Nat.eqb i j then 0 else m i j * (l3 i + l4 j)))).
      2: { intros i _. rewrite <- rsum_plus. apply rsum_ext. intros j _. destruct (Nat.eqb i j); ring. }
      rewrite rsum_plus, !R, !log_gap_abs. repeat apply Rplus_le_compat; apply weigh; intros i Hi; rewrite <- Rabs_Ropp.
      * eapply Rle_trans; [right|apply (H1 i Hi)]. f_equal. unfold mean_out_deg, wdeg. rewrite <- rsum_opp, <- rsum_minus. apply rsum_ext. intros j Hj.
        unfold p. destruct (Nat.eqb_spec i j) as [->|N]; [rewrite Hl by exact Hj; cbn; ring|ring].
      * eapply Rle_trans; [right|apply (H2 i Hi)]. f_equal. unfold mean_in_deg, windeg. rewrite <- rsum_opp, <- rsum_minus. apply rsum_ext. intros j Hj.
        unfold p. destruct (Nat.eqb_spec i j) as [->|N]; [rewrite Hl by exact Hj; cbn; ring|ring].
      * eapply Rle_trans; [right|apply (H3 i Hi)]. f_equal. unfold mean_out_str, wstr. rewrite <- rsum_opp, <- rsum_minus. apply rsum_ext. intros j Hj.
        unfold m. destruct (Nat.eqb_spec i j) as [->|N]; [rewrite Hl by exact Hj; cbn; ring|ring].
      * eapply Rle_trans; [right|apply (H4 i Hi)]. f_equal. unfold mean_in_str, winstr. rewrite <- rsum_opp, <- rsum_minus. apply rsum_ext. intros j Hj.
        unfold m. destruct (Nat.eqb_spec i j) as [->|N]; [rewrite Hl by exact Hj; cbn; ring|ring].
Qed.
