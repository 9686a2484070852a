(** Existence of solutions of the CReMa models. *)
From Coq Require Import Reals List Arith Lia Lra Bool.
From Verif Require Import Base SpecGraph SpecEnsemble SpecCReMa SpecExist SpecReduce.
From Verif Require Import ModelCReMa.
From Verif Require Import ProofsEnsemble ProofsCReMa ProofsMainCReMa ProofsDirCReMa ProofsReduce ProofsBalance.
Local Open Scope R_scope.
Import ListNotations.

Definition at_pair (a b i j : nat) : bool := Nat.eqb a i && Nat.eqb b j.
Definition agg (es : topology) (i j : nat) : R := esum es (fun a b w => if at_pair a b i j then w else 0).
Definition listed (es : topology) (i j : nat) : bool := existsb (fun e => at_pair (fst (fst e)) (snd (fst e)) i j) es.

Lemma at_pair_true a b i j : at_pair a b i j = true <-> a = i /\ b = j.
Proof. unfold at_pair. rewrite andb_true_iff, !Nat.eqb_eq. reflexivity. Qed.
Lemma listed_true es i j : listed es i j = true <-> exists w, In (i, j, w) es.
Proof.
  unfold listed. rewrite existsb_exists. split.
  - intros [[[a b] w] [Hin H]]. cbn in H. apply at_pair_true in H. destruct H as [-> ->]. eauto.
  - intros [w Hin]. exists (i, j, w). split; [exact Hin|]. apply at_pair_true. cbn. auto.
Qed.
Lemma listed_fst es fs i j : map fst fs = map fst es -> listed fs i j = listed es i j.
Proof.
  revert es. induction fs as [|f fs IH]; intros [|e es] H; try discriminate; [reflexivity|].
  cbn in H. injection H as H1 H2. unfold listed in *. cbn. rewrite H1. f_equal. exact (IH es H2).
Qed.
Lemma agg_unlisted es i j : listed es i j = false -> agg es i j = 0.
Proof.
  intros H. unfold agg. apply esum_zero. intros a b w Hin. destruct (at_pair a b i j) eqn:E; [|reflexivity].
  exfalso. apply at_pair_true in E. destruct E as [-> ->].
  assert (listed es i j = true) by (apply listed_true; eauto). congruence.
Qed.
Lemma agg_listed es i j : positive_weights es -> listed es i j = true -> 0 < agg es i j.
Proof.
  intros HW H. apply listed_true in H. destruct H as [w Hin].
  assert (NN : forall a b v, In (a, b, v) es -> 0 <= (if at_pair a b i j then v else 0)).
  { intros a b v Hv. destruct (at_pair a b i j); [left; exact (HW a b v Hv)|lra]. }
  destruct (Rle_lt_or_eq_dec 0 (agg es i j) (esum_nonneg es _ NN)) as [L|E]; [exact L|exfalso].
  symmetry in E. pose proof (esum_nonneg_zero es _ NN E i j w Hin) as Z. cbv beta in Z.
  rewrite (proj2 (at_pair_true i j i j)) in Z by auto. pose proof (HW i j w Hin). lra.
Qed.

Lemma agg_row n es i (g : nat -> R) : pairs_below n es ->
  rsum n (fun j => agg es i j * g j) = esum es (fun a b w => if Nat.eqb a i then w * g b else 0).
Proof.
  intros HB. transitivity (esum es (fun a b w => rsum n (fun j => (if at_pair a b i j then w else 0) * g j))).
  - rewrite esum_rsum. apply rsum_ext. intros j Hj. unfold agg. rewrite Rmult_comm, <- esum_scal. apply esum_ext. intros; ring.
  - apply esum_ext. intros a b w Hin. destruct (HB a b w Hin) as [_ Hb]. unfold at_pair. destruct (Nat.eqb a i); cbn.
    + rewrite <- (rsum_single n b (fun j => w * g j) Hb). apply rsum_ext. intros j _. rewrite (Nat.eqb_sym j b). destruct (Nat.eqb b j); ring.
    + apply rsum_zero. intros; ring.
Qed.
Lemma agg_col n es j (g : nat -> R) : pairs_below n es ->
  rsum n (fun i => agg es i j * g i) = esum es (fun a b w => if Nat.eqb b j then w * g a else 0).
Proof.
  intros HB. transitivity (esum es (fun a b w => rsum n (fun i => (if at_pair a b i j then w else 0) * g i))).
  - rewrite esum_rsum. apply rsum_ext. intros i Hi. unfold agg. rewrite Rmult_comm, <- esum_scal. apply esum_ext. intros; ring.
  - apply esum_ext. intros a b w Hin. destruct (HB a b w Hin) as [Ha _]. unfold at_pair. destruct (Nat.eqb b j); cbn.
    + rewrite <- (rsum_single n a (fun i => w * g i) Ha). apply rsum_ext. intros i _. rewrite (Nat.eqb_sym i a), andb_true_r. destruct (Nat.eqb a i); ring.
    + apply rsum_zero. intros; rewrite andb_false_r; ring.
Qed.
Lemma out_weight_esum fs k : out_weight fs k = esum fs (fun a b w => if Nat.eqb a k then w * 1 else 0).
Proof.
  induction fs as [|e fs IH]; [reflexivity|]. unfold esum in *. cbn. rewrite IH. f_equal. destruct (Nat.eqb _ k); ring.
Qed.
Lemma in_weight_esum fs k : in_weight fs k = esum fs (fun a b w => if Nat.eqb b k then w * 1 else 0).
Proof.
  induction fs as [|e fs IH]; [reflexivity|]. unfold esum in *. cbn. rewrite IH. f_equal. destruct (Nat.eqb _ k); ring.
Qed.
Lemma reweighted_below n es fs : reweighted es fs -> pairs_below n es -> pairs_below n fs.
Proof.
  intros [HM _] HB i j w Hin.
  assert (L : listed es i j = true) by (rewrite <- (listed_fst es fs i j HM); apply listed_true; eauto).
  apply listed_true in L. destruct L as [v Hv]. exact (HB i j v Hv).
Qed.

Lemma cE_out n es beta k : (k < n)%nat ->
  cE (sh n es) beta k = esum es (fun i j w => if Nat.eqb i k then w * / (beta i + beta (j + n)%nat) else 0).
Proof.
  intros Hk. unfold cE, esum, sh. rewrite lsum_map. apply lsum_ext. intros [[i j] w] _. cbn. unfold hit.
  rewrite (proj2 (Nat.eqb_neq (j + n) k)) by lia. destruct (Nat.eqb i k); unfold Rdiv; ring.
Qed.
Lemma cE_in n es beta k : pairs_below n es -> (k < n)%nat ->
  cE (sh n es) beta (k + n) = esum es (fun i j w => if Nat.eqb j k then w * / (beta i + beta (j + n)%nat) else 0).
Proof.
  intros HB Hk. unfold cE, esum, sh. rewrite lsum_map. apply lsum_ext. intros [[i j] w] Hin. cbn. unfold hit.
  destruct (HB i j w Hin) as [Hi _]. rewrite (proj2 (Nat.eqb_neq i (k + n))) by lia.
  destruct (Nat.eqb_spec (j + n) (k + n)) as [E|E], (Nat.eqb_spec j k) as [E'|E']; try lia; unfold Rdiv; ring.
Qed.

Lemma solution_crema_dir_exists n s_out s_in es fs : pairs_below n es -> positive_weights es -> reweighted es fs ->
  (forall k, (k < n)%nat -> out_weight fs k = s_out k /\ in_weight fs k = s_in k) ->
  exists beta, crema_dir_dom n es beta /\
    exists EO EI, expected_out_strength_crema_directed n es beta = Some EO /\
      expected_in_strength_crema_directed n es beta = Some EI /\
      forall k, (k < n)%nat -> EO k = s_out k /\ EI k = s_in k.
Proof.
  intros HB HW HR HS. pose proof (reweighted_below n es fs HR HB) as HBf. destruct HR as [HM HWf].
  destruct (balance_exp n (listed es) (agg fs) (agg es)) as (th & Hp & Hb).
  { intros i j Hi Hj HL. split; apply agg_listed; auto. rewrite (listed_fst es fs); assumption. }
  assert (HD : crema_dir_dom n es th).
  { intros i j w Hin. destruct (HB i j w Hin). apply Hp; auto. apply listed_true; eauto. }
  exists th. split; [exact HD|].
  destruct (expected_out_crema_dir n es th HD) as (EO & H1 & O1).
  destruct (expected_in_crema_dir n es HB th HD) as (EI & H2 & O2).
  exists EO, EI. split; [exact H1|]. split; [exact H2|]. intros k Hk.
  rewrite O1, O2, cE_out, cE_in by assumption. destruct (HS k Hk) as [<- <-]. rewrite out_weight_esum, in_weight_esum.
  destruct (Hb k Hk) as [B1 B2].
  assert (X : forall i j, agg fs i j * 1 - agg es i j * / (th i + th (j + n)%nat) =
     if listed es i j then agg fs i j - agg es i j / (th i + th (j + n)%nat) else 0).
  { intros i j. destruct (listed es i j) eqn:L; [unfold Rdiv; ring|].
    rewrite (agg_unlisted es i j L), (agg_unlisted fs i j) by (rewrite (listed_fst es fs); assumption). ring. }
  split; apply Rminus_diag_uniq_sym.
  - refine (eq_trans _ B1). rewrite <- (agg_row n fs k (fun _ => 1) HBf).
    transitivity (rsum n (fun j => agg fs k j * 1) - rsum n (fun j => agg es k j * / (th k + th (j + n)%nat))).
    + f_equal. rewrite (agg_row n es k _ HB). apply esum_ext. intros i j w _. destruct (Nat.eqb_spec i k) as [->|]; reflexivity.
    + rewrite <- rsum_minus. apply rsum_ext. intros j _. apply X.
  - refine (eq_trans _ B2). rewrite <- (agg_col n fs k (fun _ => 1) HBf).
    transitivity (rsum n (fun i => agg fs i k * 1) - rsum n (fun i => agg es i k * / (th i + th (k + n)%nat))).
    + f_equal. rewrite (agg_col n es k _ HB). apply esum_ext. intros i j w _. destruct (Nat.eqb_spec j k) as [->|]; reflexivity.
    + rewrite <- rsum_minus. apply rsum_ext. intros i _. apply X.
Qed.

Lemma reweight_map es (g : nat -> nat -> R) : positive_weights es -> (forall i j w, In (i, j, w) es -> 0 < g i j) ->
  reweighted es (map (fun e => (fst e, snd e * g (fst (fst e)) (snd (fst e)))) es).
Proof.
  intros HW Hg. split; [rewrite map_map; apply map_ext; reflexivity|].
  intros i j w Hin. apply in_map_iff in Hin. destruct Hin as [[[a b] v] [E Hv]]. cbn in E. injection E as <- <- <-.
  apply Rmult_lt_0_compat; [exact (HW a b v Hv)|exact (Hg a b v Hv)].
Qed.
Lemma esum_map es (g : nat -> nat -> R) F :
  esum (map (fun e => (fst e, snd e * g (fst (fst e)) (snd (fst e)))) es) F = esum es (fun i j w => F i j (w * g i j)).
Proof. unfold esum. rewrite lsum_map. reflexivity. Qed.

Lemma solution_crema_dir_inner n s_out s_in es beta : pairs_below n es -> positive_weights es -> crema_dir_dom n es beta ->
  (exists EO EI, expected_out_strength_crema_directed n es beta = Some EO /\
      expected_in_strength_crema_directed n es beta = Some EI /\
      forall k, (k < n)%nat -> EO k = s_out k /\ EI k = s_in k) ->
  exists fs, reweighted es fs /\ forall k, (k < n)%nat -> out_weight fs k = s_out k /\ in_weight fs k = s_in k.
Proof.
  intros HB HW HD (EO & EI & H1 & H2 & HS).
  destruct (expected_out_crema_dir n es beta HD) as (EO' & H1' & O1). rewrite H1 in H1'. injection H1' as <-.
  destruct (expected_in_crema_dir n es HB beta HD) as (EI' & H2' & O2). rewrite H2 in H2'. injection H2' as <-.
  exists (map (fun e => (fst e, snd e * / (beta (fst (fst e)) + beta (snd (fst e) + n)%nat))) es). split.
  - apply (reweight_map es (fun i j => / (beta i + beta (j + n)%nat)) HW). intros i j w Hin. apply Rinv_0_lt_compat, (HD i j w Hin).
  - intros k Hk. destruct (HS k Hk) as [<- <-]. rewrite O1, O2, cE_out, cE_in by assumption.
    rewrite out_weight_esum, in_weight_esum, !(esum_map es (fun i j => / (beta i + beta (j + n)%nat))).
    split; apply esum_ext; intros i j w _; rewrite Rmult_1_r; reflexivity.
Qed.
Lemma solvable_crema_dir_iff n s_out s_in es : pairs_below n es -> positive_weights es ->
  (exists beta, crema_dir_dom n es beta /\
    exists EO EI, expected_out_strength_crema_directed n es beta = Some EO /\
      expected_in_strength_crema_directed n es beta = Some EI /\
      forall k, (k < n)%nat -> EO k = s_out k /\ EI k = s_in k) <->
  exists fs, reweighted es fs /\ forall k, (k < n)%nat -> out_weight fs k = s_out k /\ in_weight fs k = s_in k.
Proof.
  intros HB HW. split.
  - intros (beta & HD & H). exact (solution_crema_dir_inner n s_out s_in es beta HB HW HD H).
  - intros (fs & HR & HS). exact (solution_crema_dir_exists n s_out s_in es fs HB HW HR HS).
Qed.

(** * Undirected *)
Lemma both_ways_fst es fs : map fst fs = map fst es -> map fst (both_ways fs) = map fst (both_ways es).
Proof.
  revert es. induction fs as [|[[i j] w] fs IH]; intros [|[[i' j'] w'] es] H; try discriminate; [reflexivity|].
  cbn in H. injection H as -> -> H. cbn. do 2 f_equal. exact (IH es H).
Qed.
Lemma both_ways_weight fs k : out_weight (both_ways fs) k = out_weight fs k + in_weight fs k /\
  in_weight (both_ways fs) k = out_weight fs k + in_weight fs k.
Proof.
  rewrite !out_weight_esum, !in_weight_esum, !esum_both_ways, !esum_plus. split; [reflexivity|]. apply Rplus_comm.
Qed.

Lemma solution_crema_exists n s es fs : pairs_below n es -> positive_weights es -> reweighted es fs ->
  (forall k, (k < n)%nat -> out_weight fs k + in_weight fs k = s k) ->
  exists beta, crema_dom es beta /\
    exists E, expected_strength_crema_undirected es beta = Some E /\ forall k, (k < n)%nat -> E k = s k.
Proof.
  intros HB HW [HM HWf] HS.
  pose proof (both_ways_below n es HB) as HB2.
  assert (HW2 : positive_weights (both_ways es)).
  { intros i j w Hin. apply in_both_ways in Hin. destruct Hin as [H|H]; exact (HW _ _ _ H). }
  assert (HR2 : reweighted (both_ways es) (both_ways fs)).
  { split; [apply both_ways_fst; exact HM|]. intros i j w Hin. apply in_both_ways in Hin. destruct Hin as [H|H]; exact (HWf _ _ _ H). }
  destruct (solution_crema_dir_exists n s s (both_ways es) (both_ways fs) HB2 HW2 HR2) as (z & HD & EO & EI & H1 & H2 & H3).
  { intros k Hk. destruct (both_ways_weight fs k) as [-> ->]. rewrite (HS k Hk). auto. }
  set (f := fun r => if Nat.ltb r n then z (r + n)%nat else z (r - n)%nat).
  assert (F0 : forall i, (i < n)%nat -> f i = z (i + n)%nat).
  { intros i Hi. unfold f. rewrite (proj2 (Nat.ltb_lt i n) Hi). reflexivity. }
  assert (F1 : forall i, f (i + n)%nat = z i).
  { intros i. unfold f. rewrite ltb_plus_n, plus_n_minus. reflexivity. }
  assert (FD : crema_dir_dom n (both_ways es) f).
  { intros i j w Hin. destruct (HB2 i j w Hin) as [Hi Hj]. rewrite F0, F1 by exact Hi. rewrite Rplus_comm.
    apply (HD j i w). apply in_both_ways. apply in_both_ways in Hin. tauto. }
  destruct (expected_out_crema_dir n (both_ways es) z HD) as (EO0 & H1' & O1). rewrite H1 in H1'. injection H1' as <-.
  destruct (expected_in_crema_dir n (both_ways es) HB2 z HD) as (EI0 & H2' & O2). rewrite H2 in H2'. injection H2' as <-.
  destruct (expected_out_crema_dir n (both_ways es) f FD) as (FO & G1 & P1).
  destruct (expected_in_crema_dir n (both_ways es) HB2 f FD) as (FI & G2 & P2).
  assert (FS : forall k, (k < n)%nat -> FO k = s k /\ FI k = s k).
  { intros k Hk. destruct (H3 k Hk) as [E1 E2]. rewrite O1, cE_out in E1 by exact Hk. rewrite O2, cE_in in E2 by assumption.
    rewrite P1, P2, cE_out, cE_in by assumption. split.
    - rewrite <- E2, !esum_both_ways. apply esum_ext. intros i j w Hin. destruct (HB i j w Hin) as [Hi Hj].
      rewrite (F0 i Hi), (F0 j Hj), !F1. rewrite (Rplus_comm (z (i + n)%nat) (z j)), (Rplus_comm (z (j + n)%nat) (z i)). apply Rplus_comm.
    - rewrite <- E1, !esum_both_ways. apply esum_ext. intros i j w Hin. destruct (HB i j w Hin) as [Hi Hj].
      rewrite (F0 i Hi), (F0 j Hj), !F1. rewrite (Rplus_comm (z (i + n)%nat) (z j)), (Rplus_comm (z (j + n)%nat) (z i)). apply Rplus_comm. }
  assert (EQ : forall i j w, In (i, j, w) es -> z j + z (i + n)%nat = z i + z (j + n)%nat).
  { intros i j w Hin. destruct (HB i j w Hin) as [Hi Hj].
    assert (Hb : In (i, j, w) (both_ways es)) by (apply in_both_ways; auto).
    assert (Hw : w <> 0) by (pose proof (HW i j w Hin); lra).
    assert (NNW : nonneg_weights (both_ways es)) by (intros a b v Hv; left; exact (HW2 a b v Hv)).
    pose proof (solution_crema_dir_unique n s s (both_ways es) z f HB2 NNW HD FD
      (ex_intro _ EO (ex_intro _ EI (conj H1 (conj H2 H3)))) (ex_intro _ FO (ex_intro _ FI (conj G1 (conj G2 FS)))) i j w Hb Hw) as U.
    rewrite F0, F1 in U by exact Hi. rewrite <- (Rinv_inv (z j + z (i + n)%nat)), <- (Rinv_inv (z i + z (j + n)%nat)), <- U.
    do 2 f_equal. ring. }
  set (beta := fun i => (z i + z (i + n)%nat) / 2).
  assert (BB : forall i j w, In (i, j, w) es -> beta i + beta j = z i + z (j + n)%nat).
  { intros i j w Hin. unfold beta. pose proof (EQ i j w Hin). lra. }
  assert (BD : crema_dom es beta).
  { intros i j w Hin. rewrite (BB i j w Hin). apply (HD i j w). apply in_both_ways. auto. }
  exists beta. split; [exact BD|]. destruct (expected_crema_some es beta BD) as (E & HE & OE).
  exists E. split; [exact HE|]. intros k Hk. rewrite OE. destruct (H3 k Hk) as [<- _].
  rewrite O1, cE_out, esum_both_ways by exact Hk. unfold cE. apply esum_ext. intros i j w Hin.
  rewrite (BB i j w Hin), (EQ i j w Hin). unfold hit, Rdiv. destruct (Nat.eqb i k), (Nat.eqb j k); ring.
Qed.
Lemma solution_crema_inner n s es beta : pairs_below n es -> positive_weights es -> crema_dom es beta ->
  (exists E, expected_strength_crema_undirected es beta = Some E /\ forall k, (k < n)%nat -> E k = s k) ->
  exists fs, reweighted es fs /\ forall k, (k < n)%nat -> out_weight fs k + in_weight fs k = s k.
Proof.
  intros HB HW HD (E & HE & HS). destruct (expected_crema_some es beta HD) as (E' & HE' & OE).
  rewrite HE in HE'. injection HE' as <-.
  exists (map (fun e => (fst e, snd e * / (beta (fst (fst e)) + beta (snd (fst e))))) es). split.
  - apply (reweight_map es (fun i j => / (beta i + beta j)) HW). intros i j w Hin. apply Rinv_0_lt_compat, (HD i j w Hin).
  - intros k Hk. rewrite <- (HS k Hk), OE.
    rewrite out_weight_esum, in_weight_esum, !(esum_map es (fun i j => / (beta i + beta j))), <- esum_plus.
    apply esum_ext; intros i j w _. unfold hit, Rdiv. destruct (Nat.eqb i k), (Nat.eqb j k); ring.
Qed.
Lemma solvable_crema_iff n s es : pairs_below n es -> positive_weights es ->
  (exists beta, crema_dom es beta /\
    exists E, expected_strength_crema_undirected es beta = Some E /\ forall k, (k < n)%nat -> E k = s k) <->
  exists fs, reweighted es fs /\ forall k, (k < n)%nat -> out_weight fs k + in_weight fs k = s k.
Proof.
  intros HB HW. split.
  - intros (beta & HD & H). exact (solution_crema_inner n s es beta HB HW HD H).
  - intros (fs & HR & HS). exact (solution_crema_exists n s es fs HB HW HR HS).
Qed.
