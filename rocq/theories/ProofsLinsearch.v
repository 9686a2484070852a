(** Line searches: step lengths, admissibility, termination. *)
From Coq Require Import Reals List Arith Lia Lra Bool.
From Coquelicot Require Import Coquelicot.
From Verif Require Import Base ModelDCM ModelCReMa ModelLinsearch SpecDirected SpecWeighted SpecLinsearch.
Import ListNotations.
Local Open Scope R_scope.

(** * The loops *)
Lemma halve_spec cond beta k a : exists m, (m <= k)%nat /\ halve cond beta k a = a * beta ^ m /\
  (forall m', (m' < m)%nat -> cond (a * beta ^ m') = false) /\ (m = k \/ cond (a * beta ^ m) = true).
Proof.
  revert a. induction k as [|k IH]; intros a; simpl.
  - exists 0%nat. simpl. rewrite Rmult_1_r. repeat split; auto; lia.
  - destruct (cond a) eqn:E.
    + exists 0%nat. simpl. rewrite Rmult_1_r. repeat split; auto; lia.
    + destruct (IH (a * beta)) as (m & Hm & Er & Hf & Hc). exists (S m). simpl.
      rewrite <- Rmult_assoc. repeat split; [lia|exact Er| |].
      * intros [|m'] H; [simpl; rewrite Rmult_1_r; exact E|]. simpl. rewrite <- Rmult_assoc. apply Hf. lia.
      * destruct Hc as [->|Hc]; [left; reflexivity|right; exact Hc].
Qed.

Lemma feasible_spec cond beta fuel a r : feasible_loop cond beta fuel a = Some r ->
  exists m, (m < fuel)%nat /\ r = a * beta ^ m /\ (forall m', (m' < m)%nat -> cond (a * beta ^ m') = false) /\ cond r = true.
Proof.
  revert a. induction fuel as [|fuel IH]; intros a; simpl; [discriminate|].
  destruct (cond a) eqn:E.
  - intros H. injection H as <-. exists 0%nat. simpl. rewrite Rmult_1_r. repeat split; auto; lia.
  - intros H. destruct (IH (a * beta) H) as (m & Hm & Er & Hf & Hc). exists (S m). simpl.
    rewrite <- Rmult_assoc. repeat split; [lia|exact Er| |exact Hc].
    intros [|m'] Hm'; [simpl; rewrite Rmult_1_r; exact E|]. simpl. rewrite <- Rmult_assoc. apply Hf. lia.
Qed.

Lemma feasible_some cond beta m fuel a : cond (a * beta ^ m) = true -> (m < fuel)%nat ->
  exists r, feasible_loop cond beta fuel a = Some r.
Proof.
  revert m a. induction fuel as [|fuel IH]; intros m a Hc Hm; [lia|]. simpl.
  destruct (cond a) eqn:E; [eexists; reflexivity|]. destruct m as [|m].
  - simpl in Hc. rewrite Rmult_1_r in Hc. congruence.
  - apply (IH m); [|lia]. simpl in Hc. rewrite Rmult_assoc. exact Hc.
Qed.

Lemma feasible_never cond beta fuel a : (forall m, cond (a * beta ^ m) = false) -> feasible_loop cond beta fuel a = None.
Proof.
  revert a. induction fuel as [|fuel IH]; intros a H; [reflexivity|]. simpl.
  specialize (H 0%nat) as H0. simpl in H0. rewrite Rmult_1_r in H0. rewrite H0. apply IH. intros m.
  specialize (H (S m)). simpl in H. rewrite Rmult_assoc. exact H.
Qed.

Lemma pow_unit beta m : 0 < beta <= 1 -> 0 < beta ^ m <= 1.
Proof.
  intros H. induction m as [|m IH]; simpl; [lra|]. split; [apply Rmult_lt_0_compat; lra|].
  replace 1 with (1 * 1) by ring. apply Rmult_le_compat; lra.
Qed.
Lemma shrink a beta m : 0 < a -> 0 < beta <= 1 -> 0 < a * beta ^ m <= a.
Proof.
  intros Ha Hb. pose proof (pow_unit beta m Hb). split; [apply Rmult_lt_0_compat; lra|].
  rewrite <- (Rmult_1_r a) at 2. apply Rmult_le_compat_l; lra.
Qed.
Lemma shrink0 a beta m : 0 <= a -> 0 < beta <= 1 -> 0 <= a * beta ^ m <= a.
Proof.
  intros Ha Hb. pose proof (pow_unit beta m Hb). split; [apply Rmult_le_pos; lra|].
  rewrite <- (Rmult_1_r a) at 2. apply Rmult_le_compat_l; lra.
Qed.

(** * Clamps *)
Lemma clamp_core x d a : 0 <= x -> d < 0 -> 0 <= a -> a <= (/ 100 - 1) * x / d -> x / 100 <= x + a * d.
Proof.
  intros Hx Hd Ha H. assert (d * ((/ 100 - 1) * x / d) <= d * a) by (apply Rmult_le_compat_neg_l; lra).
  replace (d * ((/ 100 - 1) * x / d)) with ((/ 100 - 1) * x) in * by (field; lra). lra.
Qed.

Lemma clamp_ge_spec n x dx alfa : 0 < alfa -> (forall i, (i < n)%nat -> 0 <= x i) ->
  let r := clamp_ge n x dx alfa in
  0 <= r <= alfa /\
  (forall i a, (i < n)%nat -> 0 <= a <= r -> x i / 100 <= x i + a * dx i) /\
  (0 < r <-> (forall i, (i < n)%nat -> x i = 0 -> dx i = 0)).
Proof.
  intros Ha. unfold clamp_ge. induction n as [|n IH]; intros Hx.
  - cbv zeta. rewrite loop_0. repeat split; intros; try lra; exfalso; lia.
  - rewrite loop_S. cbv zeta in *. set (r0 := loop n alfa _) in *. destruct IH as (I1 & I2 & I3); [intros; apply Hx; lia|].
    specialize (Hx n ltac:(lia)) as Hxn. unfold fdiv.
    destruct (Req_EM_T (dx n) 0) as [E|NE].
    + replace (match (if Req_EM_T ((/ 100 - 1) * x n) 0 then NaN else if Rlt_dec 0 ((/ 100 - 1) * x n) then PInf else MInf) with
        | Fin a => if Rle_dec 0 a then Rmin r0 a else r0 | _ => r0 end) with r0
        by (destruct (Req_EM_T ((/ 100 - 1) * x n) 0); [|destruct (Rlt_dec 0 ((/ 100 - 1) * x n))]; reflexivity).
      split; [exact I1|]. split.
      * intros i a Hi Hr. destruct (Nat.eq_dec i n) as [->|Hne]; [rewrite E; lra|apply I2; [lia|exact Hr]].
      * rewrite I3. split; intros H i Hi H0.
        -- destruct (Nat.eq_dec i n) as [->|Hne]; [exact E|apply H; [lia|exact H0]].
        -- apply H; [lia|exact H0].
    + destruct (Rle_dec 0 ((/ 100 - 1) * x n / dx n)) as [Hc|Hc].
      * assert (Hm : forall a, a <= Rmin r0 ((/ 100 - 1) * x n / dx n) -> a <= r0 /\ a <= (/ 100 - 1) * x n / dx n).
        { intros a Hl. split; eapply Rle_trans; [exact Hl|apply Rmin_l|exact Hl|apply Rmin_r]. }
        split; [split; [apply Rmin_glb; lra|apply Rle_trans with r0; [apply Rmin_l|lra]]|]. split.
        -- intros i a Hi [Hr1 Hr2]. apply Hm in Hr2. destruct Hr2 as [Hr2 Hr3].
           destruct (Nat.eq_dec i n) as [->|Hne]; [|apply I2; [lia|lra]].
           destruct (Rlt_dec (dx n) 0) as [Hd|Hd]; [apply clamp_core; lra|].
           assert (0 <= a * dx n) by (apply Rmult_le_pos; lra). lra.
        -- split.
           ++ intros Hp i Hi H0. assert (0 < r0) by (apply Rlt_le_trans with (1 := Hp), Rmin_l).
              destruct (Nat.eq_dec i n) as [->|Hne]; [|apply I3; [assumption|lia|exact H0]].
              exfalso. assert (0 < (/ 100 - 1) * x n / dx n) by (apply Rlt_le_trans with (1 := Hp), Rmin_r).
              rewrite H0 in *. unfold Rdiv in *. rewrite Rmult_0_r, Rmult_0_l in *. lra.
           ++ intros H. apply Rmin_glb_lt; [apply I3; intros; apply H; [lia|assumption]|].
              destruct Hc as [Hc|Hc]; [exact Hc|]. exfalso. apply NE, H; [lia|].
              symmetry in Hc. unfold Rdiv in Hc. apply Rmult_integral in Hc. destruct Hc as [Hc|Hc]; [|apply Rinv_neq_0_compat in NE; lra].
              apply Rmult_integral in Hc. destruct Hc; lra.
      * assert (Hd : 0 < dx n /\ 0 < x n).
        { split.
          - apply Rnot_le_lt. intros Hd. apply Hc. unfold Rdiv.
            replace ((/ 100 - 1) * x n * / dx n) with ((1 - / 100) * x n * / - dx n) by (field; lra).
            apply Rmult_le_pos; [apply Rmult_le_pos; lra|]. apply Rlt_le, Rinv_0_lt_compat. lra.
          - destruct Hxn as [Hxn|Hxn]; [exact Hxn|]. exfalso. apply Hc. rewrite <- Hxn. unfold Rdiv. rewrite Rmult_0_r, Rmult_0_l. lra. }
        split; [exact I1|]. split.
        -- intros i a Hi Hr. destruct (Nat.eq_dec i n) as [->|Hne]; [|apply I2; [lia|exact Hr]].
           assert (0 <= a * dx n) by (apply Rmult_le_pos; lra). lra.
        -- rewrite I3. split; intros H i Hi H0.
           ++ destruct (Nat.eq_dec i n) as [->|Hne]; [lra|apply H; [lia|exact H0]].
           ++ apply H; [lia|exact H0].
Qed.

Lemma clamp_gt_spec n x dx alfa : 0 < alfa ->
  let r := clamp_gt n x dx alfa in
  0 < r <= alfa /\
  (forall i a, (i < n)%nat -> 0 < x i -> 0 <= a <= r -> x i / 100 <= x i + a * dx i).
Proof.
  intros Ha. unfold clamp_gt. induction n as [|n IH].
  - cbv zeta. rewrite loop_0. repeat split; intros; try lra; exfalso; lia.
  - rewrite loop_S. cbv zeta in *. set (r0 := loop n alfa _) in *. destruct IH as (I1 & I2).
    destruct (Req_EM_T (dx n) 0) as [E|NE].
    + split; [exact I1|]. intros i a Hi Hp Hr.
      destruct (Nat.eq_dec i n) as [->|Hne]; [rewrite E; lra|apply I2; [lia|exact Hp|exact Hr]].
    + destruct (Rlt_dec 0 ((/ 100 - 1) * x n / dx n)) as [Hc|Hc].
      * split; [split; [apply Rmin_glb_lt; lra|apply Rle_trans with r0; [apply Rmin_l|lra]]|].
        intros i a Hi Hp [Hr1 Hr2].
        assert (a <= r0) by (apply Rle_trans with (1 := Hr2), Rmin_l).
        assert (a <= (/ 100 - 1) * x n / dx n) by (apply Rle_trans with (1 := Hr2), Rmin_r).
        destruct (Nat.eq_dec i n) as [->|Hne]; [|apply I2; [lia|exact Hp|lra]].
        destruct (Rlt_dec (dx n) 0) as [Hd|Hd]; [apply clamp_core; lra|].
        assert (0 <= a * dx n) by (apply Rmult_le_pos; lra). lra.
      * split; [exact I1|]. intros i a Hi Hp Hr. destruct (Nat.eq_dec i n) as [->|Hne]; [|apply I2; [lia|exact Hp|exact Hr]].
        assert (0 < dx n).
        { apply Rnot_le_lt. intros Hd. apply Hc. unfold Rdiv.
          replace ((/ 100 - 1) * x n * / dx n) with ((1 - / 100) * x n * / - dx n) by (field; lra).
          apply Rmult_lt_0_compat; [apply Rmult_lt_0_compat; lra|]. apply Rinv_0_lt_compat. lra. }
        assert (0 <= a * dx n) by (apply Rmult_le_pos; lra). lra.
Qed.

(** The shared halving loops only shrink. *)
Lemma decrease_loop_shape n step_fun x dx beta a f : exists m, (m <= 50)%nat /\
  decrease_loop n step_fun x dx beta a f = a * beta ^ m /\
  (forall m', (m' < m)%nat -> sufficient_decrease_condition n (fopp (step_fun x)) (fopp (step_fun (moved x (a * beta ^ m') dx))) (a * beta ^ m') f dx = false) /\
  (m = 50%nat \/ sufficient_decrease_condition n (fopp (step_fun x)) (fopp (step_fun (moved x (a * beta ^ m) dx))) (a * beta ^ m) f dx = true).
Proof.
  unfold decrease_loop. cbv zeta.
  destruct (halve_spec (fun alfa => sufficient_decrease_condition n (fopp (step_fun x)) (fopp (step_fun (axpy x alfa dx))) alfa f dx) beta 50 a)
    as (m & Hm & E & Hf & Hc). exists m. auto.
Qed.
Lemma norm_loop_shape n dx dx_old a beta step : exists m, (m <= 50)%nat /\ (step = 0%nat -> m = 0%nat) /\
  norm_loop n dx dx_old a beta step = a * beta ^ m /\
  (step <> 0%nat -> m = 50%nat \/ sqrt (scalar n (fun i => a * beta ^ m * dx i) (fun i => a * beta ^ m * dx i)) < sqrt (scalar n dx_old dx_old)) /\
  (forall m', (m' < m)%nat -> sqrt (scalar n dx_old dx_old) <= sqrt (scalar n (fun i => a * beta ^ m' * dx i) (fun i => a * beta ^ m' * dx i))).
Proof.
  unfold norm_loop. destruct step as [|step].
  - exists 0%nat. simpl. rewrite Rmult_1_r. repeat split; lia.
  - destruct (halve_spec (fun alfa => if Rlt_dec (norm2 n (fun i => alfa * dx i)) (norm2 n dx_old) then true else false) beta 50 a)
      as (m & Hm & E & Hf & Hc). exists m. split; [exact Hm|]. split; [congruence|]. split; [exact E|]. split.
    + intros _. destruct Hc as [Hc|Hc]; [left; exact Hc|right]. unfold norm2, dot in Hc.
      destruct (Rlt_dec _ _) in Hc; [assumption|discriminate].
    + intros m' Hm'. specialize (Hf m' Hm'). unfold norm2, dot in Hf. cbv beta in Hf.
      destruct (Rlt_dec _ _) in Hf; [discriminate|]. apply Rnot_lt_le. assumption.
Qed.

(** * Extremal entries *)
Lemma top2_S n v : top2 (S n) v = match top2 n v with
    | [] => [v n]
    | [a] => if Rle_dec (v n) a then [a; v n] else [v n; a]
    | a :: b :: _ => if Rle_dec (v n) b then [a; b] else if Rle_dec (v n) a then [a; v n] else [v n; a]
    end.
Proof. unfold top2. rewrite loop_S. reflexivity. Qed.

Lemma top2_spec n v : (2 <= n)%nat -> exists a b, top2 n v = [a; b] /\ b <= a /\
  (forall i, (i < n)%nat -> v i <= a) /\
  (forall i j, (i < n)%nat -> (j < n)%nat -> i <> j -> v i <= b \/ v j <= b) /\
  (exists i j, (i < n)%nat /\ (j < n)%nat /\ i <> j /\ a = v i /\ b = v j).
Proof.
  intros H. induction n as [|n IH]; [lia|]. destruct (Nat.eq_dec n 1) as [->|Hn].
  - rewrite top2_S. replace (top2 1 v) with [v 0%nat] by (rewrite top2_S; reflexivity).
    assert (D : forall i, (i < 2)%nat -> i = 0%nat \/ i = 1%nat) by lia.
    destruct (Rle_dec (v 1%nat) (v 0%nat)) as [L|L]; (do 2 eexists; split; [reflexivity|]); (split; [lra|]); (split; [|split]).
    + intros i Hi. destruct (D i Hi); subst; lra.
    + intros i j Hi Hj Hne. destruct (D i Hi), (D j Hj); subst; try lia; lra.
    + exists 0%nat, 1%nat. repeat split; lia.
    + intros i Hi. destruct (D i Hi); subst; lra.
    + intros i j Hi Hj Hne. destruct (D i Hi), (D j Hj); subst; try lia; lra.
    + exists 1%nat, 0%nat. repeat split; lia.
  - destruct IH as (a & b & E & Hab & H1 & H2 & (p & q & Hp & Hq & Hpq & Ea & Eb)); [lia|]. rewrite top2_S, E.
    assert (D : forall i, (i < S n)%nat -> (i < n)%nat \/ i = n) by lia.
    destruct (Rle_dec (v n) b) as [L|L]; [|destruct (Rle_dec (v n) a) as [L'|L']]; (do 2 eexists; split; [reflexivity|]).
    + split; [exact Hab|]. split; [|split].
      * intros i Hi. destruct (D i Hi) as [Hi'| ->]; [apply H1; exact Hi'|lra].
      * intros i j Hi Hj Hne. destruct (D i Hi) as [Hi'| ->], (D j Hj) as [Hj'| ->]; [apply H2; assumption|right; exact L|left; exact L|lia].
      * exists p, q. repeat split; auto; lia.
    + split; [exact L'|]. split; [|split].
      * intros i Hi. destruct (D i Hi) as [Hi'| ->]; [apply H1; exact Hi'|lra].
      * intros i j Hi Hj Hne. destruct (D i Hi) as [Hi'| ->], (D j Hj) as [Hj'| ->]; [|right; lra|left; lra|lia].
        destruct (H2 i j Hi' Hj' Hne); [left|right]; lra.
      * exists p, n. repeat split; auto; lia.
    + split; [lra|]. split; [|split].
      * intros i Hi. destruct (D i Hi) as [Hi'| ->]; [specialize (H1 i Hi'); lra|lra].
      * intros i j Hi Hj Hne. destruct (D i Hi) as [Hi'| ->], (D j Hj) as [Hj'| ->]; [left; auto|left; auto|right; auto|lia].
      * exists n, p. repeat split; auto; lia.
Qed.

Lemma vmax_spec n v : (0 < n)%nat -> (forall i, (i < n)%nat -> v i <= vmax n v) /\ exists i, (i < n)%nat /\ vmax n v = v i.
Proof.
  intros H. unfold vmax. destruct n as [|n]; [lia|]. replace (S n - 1)%nat with n by lia. clear H.
  induction n as [|n [I1 (p & Hp & Ep)]].
  - rewrite loop_0. split; [intros i Hi; replace i with 0%nat by lia; lra|exists 0%nat; split; [lia|reflexivity]].
  - rewrite loop_S. replace (n + 1)%nat with (S n) by lia. set (m := loop n (v 0%nat) _) in *. split.
    + intros i Hi. destruct (Nat.eq_dec i (S n)) as [->|Hne]; [apply Rmax_r|].
      apply Rle_trans with m; [apply I1; lia|apply Rmax_l].
    + unfold Rmax. destruct (Rle_dec m (v (S n))); [exists (S n); split; [lia|reflexivity]|exists p; split; [lia|exact Ep]].
Qed.
Lemma vmin_spec n v : (0 < n)%nat -> (forall i, (i < n)%nat -> vmin n v <= v i) /\ exists i, (i < n)%nat /\ vmin n v = v i.
Proof.
  intros H. unfold vmin. destruct n as [|n]; [lia|]. replace (S n - 1)%nat with n by lia. clear H.
  induction n as [|n [I1 (p & Hp & Ep)]].
  - rewrite loop_0. split; [intros i Hi; replace i with 0%nat by lia; lra|exists 0%nat; split; [lia|reflexivity]].
  - rewrite loop_S. replace (n + 1)%nat with (S n) by lia. set (m := loop n (v 0%nat) _) in *. split.
    + intros i Hi. destruct (Nat.eq_dec i (S n)) as [->|Hne]; [apply Rmin_r|].
      apply Rle_trans with m; [apply Rmin_l|apply I1; lia].
    + unfold Rmin. destruct (Rle_dec m (v (S n))); [exists p; split; [lia|exact Ep]|exists (S n); split; [lia|reflexivity]].
Qed.

(** * The feasibility tests in terms of pairs *)
Lemma ecm_cond_pairs n x dx a : (2 <= n)%nat -> (forall i, (i < n)%nat -> 0 <= moved x a dx (i + n)%nat) ->
  (ecm_cond n x dx a = true <->
   forall i j, (i < n)%nat -> (j < n)%nat -> i <> j -> moved x a dx (i + n)%nat * moved x a dx (j + n)%nat < 1).
Proof.
  intros Hn Hp. unfold ecm_cond. fold (moved x a dx) in *. change (axpy x a dx) with (moved x a dx).
  set (v := fun i => moved x a dx (i + n)%nat) in *.
  destruct (top2_spec n v Hn) as (b & c & E & Hbc & H1 & H2 & (p & q & Hpn & Hqn & Hpq & Eb & Ec)). rewrite E. unfold lprod. simpl.
  rewrite Rmult_1_l. split.
  - intros Hc i j Hi Hj Hne. destruct (Rlt_dec (b * c) 1) as [L|L]; [|discriminate].
    apply Rle_lt_trans with (b * c); [|exact L]. fold (v i) (v j).
    pose proof (Hp i Hi). pose proof (Hp j Hj). fold (v i) in *. fold (v j) in *.
    destruct (H2 i j Hi Hj Hne) as [Hl|Hl].
    + rewrite Rmult_comm. apply Rmult_le_compat; auto.
    + apply Rmult_le_compat; auto.
  - intros H. specialize (H p q Hpn Hqn Hpq). fold (v p) in H. fold (v q) in H. rewrite <- Eb, <- Ec in H.
    destruct (Rlt_dec (b * c) 1); [reflexivity|contradiction].
Qed.

Lemma ecm_exp_cond_pairs n x dx a : (2 <= n)%nat ->
  (ecm_exp_cond n x dx a = true <->
   forall i j, (i < n)%nat -> (j < n)%nat -> i <> j -> / 10 ^ 14 < moved x a dx (i + n)%nat + moved x a dx (j + n)%nat).
Proof.
  intros Hn. unfold ecm_exp_cond, bot2. change (axpy x a dx) with (moved x a dx).
  set (v := fun i => - moved x a dx (i + n)%nat) in *.
  destruct (top2_spec n v Hn) as (b & c & E & Hbc & H1 & H2 & (p & q & Hpn & Hqn & Hpq & Eb & Ec)). rewrite E. unfold lsum2. cbn [map fold_left].
  split.
  - intros Hc i j Hi Hj Hne. destruct (Rlt_dec _ _) as [L|L] in Hc; [|discriminate].
    apply Rlt_le_trans with (1 := L). pose proof (H1 i Hi) as A. pose proof (H1 j Hj) as B. unfold v in A, B.
    destruct (H2 i j Hi Hj Hne) as [Hl|Hl]; unfold v in Hl; lra.
  - intros H. specialize (H p q Hpn Hqn Hpq). destruct (Rlt_dec _ _) as [L|L]; [reflexivity|].
    exfalso. apply L. rewrite Eb, Ec. unfold v. lra.
Qed.

Lemma decm_cond_pairs n x dx a : (0 < n)%nat ->
  (forall i, (i < n)%nat -> 0 <= moved x a dx (i + 2 * n)%nat /\ 0 <= moved x a dx (i + 3 * n)%nat) ->
  (decm_cond n x dx a = true <-> decm_pairs n (moved x a dx)).
Proof.
  intros Hn Hp. unfold decm_cond, decm_pairs. change (axpy x a dx) with (moved x a dx).
  destruct (vmax_spec n (fun i => moved x a dx (i + 2 * n)%nat) Hn) as [A1 (p & Hpn & A2)].
  destruct (vmax_spec n (fun i => moved x a dx (i + 3 * n)%nat) Hn) as [B1 (q & Hqn & B2)].
  split.
  - intros Hc i j Hi Hj. destruct (Rlt_dec _ _) as [L|L] in Hc; [|discriminate].
    apply Rle_lt_trans with (2 := L). apply Rmult_le_compat; [apply Hp; exact Hi|apply Hp; exact Hj|apply A1; exact Hi|apply B1; exact Hj].
  - intros H. specialize (H p q Hpn Hqn). rewrite A2, B2. destruct (Rlt_dec _ _); [reflexivity|contradiction].
Qed.

(** Sum of the two minima at the current point. *)
Definition exp_gap (n : nat) (x : nat -> R) : R :=
  vmin n (fun i => x (i + 2 * n)%nat) + vmin n (fun i => x (i + 3 * n)%nat).
Lemma exp_gap_pos n x : (0 < n)%nat -> (0 < exp_gap n x <-> decm_exp_pairs n x).
Proof.
  intros Hn. unfold exp_gap, decm_exp_pairs.
  destruct (vmin_spec n (fun i => x (i + 2 * n)%nat) Hn) as [A1 (p & Hpn & A2)].
  destruct (vmin_spec n (fun i => x (i + 3 * n)%nat) Hn) as [B1 (q & Hqn & B2)].
  split.
  - intros H i j Hi Hj. specialize (A1 i Hi). specialize (B1 j Hj). cbv beta in *. lra.
  - intros H. rewrite A2, B2. apply H; assumption.
Qed.
Lemma decm_exp_cond_pairs n x dx a : (0 < n)%nat ->
  (decm_exp_cond n x dx a = true <->
   forall i j, (i < n)%nat -> (j < n)%nat -> exp_gap n x / 100 < moved x a dx (i + 2 * n)%nat + moved x a dx (j + 3 * n)%nat).
Proof.
  intros Hn. unfold decm_exp_cond. cbv zeta. fold (exp_gap n x). change (axpy x a dx) with (moved x a dx).
  destruct (vmin_spec n (fun i => moved x a dx (i + 2 * n)%nat) Hn) as [A1 (p & Hpn & A2)].
  destruct (vmin_spec n (fun i => moved x a dx (i + 3 * n)%nat) Hn) as [B1 (q & Hqn & B2)].
  split.
  - intros Hc i j Hi Hj. destruct (Rlt_dec _ _) as [L|L] in Hc; [|discriminate].
    apply Rlt_le_trans with (1 := L). apply Rplus_le_compat; [apply A1|apply B1]; assumption.
  - intros H. specialize (H p q Hpn Hqn). rewrite A2, B2. destruct (Rlt_dec _ _); [reflexivity|contradiction].
Qed.

(** * Small steps *)
Lemma finite_delta n (Q : nat -> R -> Prop) :
  (forall i, (i < n)%nat -> exists d, 0 < d /\ forall a, 0 <= a < d -> Q i a) ->
  exists d, 0 < d /\ forall a, 0 <= a < d -> forall i, (i < n)%nat -> Q i a.
Proof.
  induction n as [|n IH]; intros H; [exists 1; split; [lra|intros; lia]|].
  destruct IH as (d1 & P1 & H1); [intros; apply H; lia|]. destruct (H n ltac:(lia)) as (d2 & P2 & H2).
  exists (Rmin d1 d2). split; [apply Rmin_glb_lt; assumption|]. intros a Ha i Hi.
  pose proof (Rmin_l d1 d2). pose proof (Rmin_r d1 d2).
  destruct (Nat.eq_dec i n) as [->|Hne]; [apply H2; lra|apply H1; [lra|lia]].
Qed.
Lemma small_power a beta d : 0 <= a -> 0 < beta < 1 -> 0 < d -> exists m, 0 <= a * beta ^ m < d.
Proof.
  intros Ha Hb Hd. destruct (pow_lt_1_zero beta ltac:(rewrite Rabs_pos_eq; lra) (d / (a + 1)) ltac:(apply Rdiv_lt_0_compat; lra)) as [m Hm].
  exists m. specialize (Hm m (le_n m)). pose proof (pow_unit beta m ltac:(lra)). rewrite Rabs_pos_eq in Hm by lra.
  split; [apply Rmult_le_pos; lra|]. apply Rle_lt_trans with ((a + 1) * beta ^ m); [apply Rmult_le_compat_r; lra|].
  apply Rmult_lt_reg_l with (/ (a + 1)); [apply Rinv_0_lt_compat; lra|]. rewrite <- Rmult_assoc, Rinv_l by lra.
  unfold Rdiv in Hm. rewrite Rmult_1_l, (Rmult_comm (/ (a + 1))). exact Hm.
Qed.
Lemma linear_small u e b : b < u -> exists d, 0 < d /\ forall a, 0 <= a < d -> b < u + a * e.
Proof.
  intros H. exists ((u - b) / (Rabs e + 1)). pose proof (Rabs_pos e). split; [apply Rdiv_lt_0_compat; lra|].
  intros a [Ha1 Ha2]. assert (a * (Rabs e + 1) < u - b).
  { apply Rmult_lt_reg_r with (/ (Rabs e + 1)); [apply Rinv_0_lt_compat; lra|]. rewrite Rmult_assoc, Rinv_r by lra. unfold Rdiv in Ha2. lra. }
  assert (- (a * Rabs e) <= a * e).
  { rewrite <- Ropp_mult_distr_r_reverse. apply Rmult_le_compat_l; [lra|]. pose proof (Rle_abs (- e)). rewrite Rabs_Ropp in *. lra. }
  lra.
Qed.
Lemma product_small u e v g : u * v < 1 -> exists d, 0 < d /\ forall a, 0 <= a < d -> (u + a * e) * (v + a * g) < 1.
Proof.
  intros H. set (K := Rabs (u * g + v * e) + Rabs (e * g) + 1).
  pose proof (Rabs_pos (u * g + v * e)). pose proof (Rabs_pos (e * g)).
  exists (Rmin 1 ((1 - u * v) / K)). split; [apply Rmin_glb_lt; [lra|apply Rdiv_lt_0_compat; unfold K; lra]|].
  intros a [Ha1 Ha2]. assert (a < 1) by (apply Rlt_le_trans with (1 := Ha2), Rmin_l).
  assert (a < (1 - u * v) / K) by (apply Rlt_le_trans with (1 := Ha2), Rmin_r).
  assert (a * K < 1 - u * v).
  { apply Rmult_lt_reg_r with (/ K); [apply Rinv_0_lt_compat; unfold K; lra|]. rewrite Rmult_assoc, Rinv_r by (unfold K; lra). unfold Rdiv in *. lra. }
  replace ((u + a * e) * (v + a * g)) with (u * v + a * (u * g + v * e) + a * a * (e * g)) by ring.
  assert (a * (u * g + v * e) <= a * Rabs (u * g + v * e)) by (apply Rmult_le_compat_l; [lra|apply Rle_abs]).
  assert (a * a * (e * g) <= a * Rabs (e * g)).
  { apply Rle_trans with (a * a * Rabs (e * g)); [apply Rmult_le_compat_l; [apply Rmult_le_pos; lra|apply Rle_abs]|].
    apply Rmult_le_compat_r; [lra|]. rewrite <- (Rmult_1_r a) at 3. apply Rmult_le_compat_l; lra. }
  unfold K in *. lra.
Qed.
