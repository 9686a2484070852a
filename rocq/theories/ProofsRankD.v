(** The parameters of CReMa on a directed network and the order of the strengths. *)
From Coq Require Import Reals List Arith Bool String Lia Lra.
From Verif Require Import Base SpecSolve SpecRank ModelSolve ProofsGraph ProofsSolveD ProofsRank.
Import ListNotations.
Local Open Scope R_scope.

Lemma rsum_pick n i j (f : nat -> R) : (i < n)%nat -> (j < n)%nat -> i <> j ->
  rsum n f = f i + f j + rsum n (fun l => if Nat.eqb l i then 0 else if Nat.eqb l j then 0 else f l).
Proof.
  intros Hi Hj Hij. rewrite <- (rsum_single n i f Hi), <- (rsum_single n j f Hj), <- !rsum_plus. apply rsum_ext. intros l _.
  destruct (Nat.eqb_spec l i), (Nat.eqb_spec l j); subst; try congruence; ring.
Qed.
Lemma out_rank n a bo bi s e i j : (forall u, a u u = 0) -> (forall u w, (u < n)%nat -> (w < n)%nat -> 0 <= a u w) -> positive_rates_dir n a bo bi -> same_links n a i j -> a i j = a j i ->
  (forall q, (q < n)%nat -> Rabs (crema_mean_out n a bo bi q - s q) <= e) -> (i < n)%nat -> (j < n)%nat -> s i + 2 * e < s j ->
  (bo j < bo i \/ bi i < bi j) /\ (a i j = 0 -> bo j < bo i).
Proof.
  intros H0 Ha HR HL Hm HE Hi Hj H. destruct (Nat.eq_dec i j) as [<-|Hij]; [pose proof (Rabs_pos (crema_mean_out n a bo bi i - s i)); specialize (HE i Hi); lra|].
  pose proof (dev_gap _ _ _ _ _ (HE i Hi) (HE j Hj)) as D. cbv beta in D.
  assert (K : bo i <= bo j -> 0 <= a i j / (bo i + bi j) - a j i / (bo j + bi i) -> False).
  { intros C M. cut (0 <= crema_mean_out n a bo bi i - crema_mean_out n a bo bi j); [lra|]. unfold crema_mean_out. rewrite <- rsum_minus, (rsum_pick n i j) by assumption.
    rewrite !H0. apply Rplus_le_le_0_compat; [unfold Rdiv in *; lra|]. apply rsum_nonneg. intros l Hl. destruct (Nat.eqb_spec l i); [lra|]. destruct (Nat.eqb_spec l j); [lra|].
    rewrite <- (HL l Hl) by assumption. cut (a i l / (bo j + bi l) <= a i l / (bo i + bi l)); [lra|]. apply div_rank; [apply Ha; assumption|intros Z; apply HR; assumption|lra]. }
  split.
  - destruct (Rlt_le_dec (bo j) (bo i)) as [L|L]; [left; exact L|]. right. apply Rnot_le_lt. intros C. apply (K L). rewrite <- Hm.
    cut (a i j / (bo j + bi i) <= a i j / (bo i + bi j)); [lra|]. apply div_rank; [apply Ha; assumption|intros Z; apply HR; assumption|lra].
  - intros Z. apply Rnot_le_lt. intros C. apply (K C). rewrite <- Hm, Z. unfold Rdiv. lra.
Qed.
Lemma in_as_out n a bo bi j : crema_mean_in n a bo bi j = crema_mean_out n (fun u w => a w u) bi bo j.
Proof. unfold crema_mean_in, crema_mean_out. apply rsum_ext. intros i _. rewrite Rplus_comm. reflexivity. Qed.
Lemma d_rank_crema g c o o' a : (0 < dn_n g)%nat -> In (c_model c) ["crema"; "crema-sparse"]%string -> c_adjacency c = AdjMatrix a ->
  (forall u, a u u = 0) -> (forall u w, (u < dn_n g)%nat -> (w < dn_n g)%nat -> 0 <= a u w) -> d_solve_tool g c o = (o', None) ->
  (forall bo bi, ds_bo o' = Some bo -> ds_bi o' = Some bi -> positive_rates_dir (dn_n g) a bo bi) ->
  exists bo bi err, ds_bo o' = Some bo /\ ds_bi o' = Some bi /\ ds_err o' = Some err /\
    forall i j, (i < dn_n g)%nat -> (j < dn_n g)%nat -> a i j = a j i ->
      (same_links (dn_n g) a i j -> dn_sout g i + 2 * err < dn_sout g j -> (bo j < bo i \/ bi i < bi j) /\ (a i j = 0 -> bo j < bo i)) /\
      (same_links (dn_n g) (fun u w => a w u) i j -> dn_sin g i + 2 * err < dn_sin g j -> (bi j < bi i \/ bo i < bo j) /\ (a i j = 0 -> bi j < bi i)).
Proof.
  intros Hn Hm Ha H0 HN H HP. destruct (d_error_crema_matrix g c o o' a Hn Hm Ha H HP) as (v & bo & bi & e1 & e2 & _ & BO & BI & E & _ & [S1 _] & [S2 _]).
  specialize (HP _ _ BO BI). pose proof (Rmax_l e1 e2). pose proof (Rmax_r e1 e2). exists bo, bi, (Rmax e1 e2). do 3 (split; [assumption|]). intros i j Hi Hj Hs. split; intros HL Q.
  - apply (out_rank (dn_n g) a bo bi (dn_sout g) (Rmax e1 e2)); try assumption. intros q Hq. eapply Rle_trans; [apply S1, Hq|assumption].
  - rewrite Hs. apply (out_rank (dn_n g) (fun u w => a w u) bi bo (dn_sin g) (Rmax e1 e2)); try assumption.
    + intros u w Hu Hw. apply HN; assumption.
    + intros u w Hu Hw Z. rewrite Rplus_comm. apply HP; assumption.
    + symmetry; exact Hs.
    + intros q Hq. rewrite <- in_as_out. eapply Rle_trans; [apply S2, Hq|assumption].
Qed.
