(** Motif statistics at the level of the graph object, and concrete cases. *)
From Coq Require Import Reals List Arith Bool ZArith Lia Lra String.
From Coquelicot Require Import Coquelicot.
From Verif Require Import Base SpecGraph SpecEnsemble ProofsEnsemble ModelDECM ModelNetwork SpecNetwork ProofsUnique ProofsNetwork ModelMotifs SpecMotifs ProofsDyads ProofsDyadMoments ProofsTriads ProofsTriadMoments.
Local Open Scope R_scope.
Import ListNotations.

Lemma moments_0_closed n sol : (forall r, (r < 2 * n)%nat -> 0 <= sol r) ->
  let p := p_dbcm (fun i => sol i) (fun i => sol (n + i)%nat) in
  let c0 g := match count_2motif_0 KNdarray n (as_matrix g) with Some c => IZR c | None => 0 end in
  expected_dcm_2motif_0 n sol = mean_directed n p c0 /\ (std_dcm_2motif_0 n sol) ^ 2 = var_directed n p c0.
Proof. exact (moments_0 n sol). Qed.
Lemma count_0_spmatrix n a : count_2motif_0 KSpmatrix n a = None /\ forall sol, zscore_dcm_2motif_0 KSpmatrix n sol a = None.
Proof. split; reflexivity. Qed.
Lemma count_3_csr_array m n a : count_3motif KCsrArray m n a = None.
Proof. reflexivity. Qed.

(** * [DirectedGraph.zscore_2motifs], [DirectedGraph.zscore_3motifs] *)
Lemma mean_directed_p n p q f : (forall i j, (i < n)%nat -> (j < n)%nat -> p i j = q i j) -> mean_directed n p f = mean_directed n q f.
Proof.
  intros E. unfold mean_directed. apply lsum_ext. intros a _. f_equal. rewrite <- !weight_dpairs. unfold weight. apply lprod_ext.
  intros [i j] HI. apply in_dpairs in HI. simpl. rewrite E by apply HI. reflexivity.
Qed.
Lemma var_directed_p n p q f : (forall i j, (i < n)%nat -> (j < n)%nat -> p i j = q i j) -> var_directed n p f = var_directed n q f.
Proof. intros E. unfold var_directed. rewrite (mean_directed_p n p q _ E), (mean_directed_p n p q f E). reflexivity. Qed.
Lemma concatenate_p n x y i j : (i < n)%nat -> (j < n)%nat ->
  p_dbcm (fun i => concatenate n x y i) (fun i => concatenate n x y (n + i)%nat) i j = p_dbcm x y i j.
Proof.
  intros Hi Hj. unfold p_dbcm, concatenate. rewrite (proj2 (Nat.ltb_lt i n) Hi). replace (Nat.ltb (n + j) n) with false by (symmetry; apply Nat.ltb_ge; lia).
  replace (n + j - n)%nat with j by lia. reflexivity.
Qed.
Lemma concatenate_pos n x y : (forall i, (i < n)%nat -> 0 < x i) -> (forall i, (i < n)%nat -> 0 < y i) -> forall r, (r < 2 * n)%nat -> 0 < concatenate n x y r.
Proof. intros HX HY r Hr. unfold concatenate. destruct (Nat.ltb_spec r n); [apply HX; assumption|apply HY; lia]. Qed.
Lemma graph_zscore_2motifs n x y g : (2 <= n)%nat -> (forall i, (i < n)%nat -> 0 < x i) -> (forall i, (i < n)%nat -> 0 < y i) -> loopless n g ->
  let p := p_dbcm x y in
  let z (c : (nat -> nat -> bool) -> R) := Some ((c g - mean_directed n p c) / sqrt (var_directed n p c)) in
  zscore_2motifs "dcm" n x y (as_matrix g) =
    [(0%nat, z (fun h => match count_2motif_0 KNdarray n (as_matrix h) with Some c => IZR c | None => 0 end));
     (1%nat, z (fun h => INR (count_2motif_1 n (as_matrix h)))); (2%nat, z (fun h => INR (count_2motif_2 n (as_matrix h))))].
Proof.
  intros Hn HX HY HL p z. unfold zscore_2motifs. cbn [String.eqb Ascii.eqb Bool.eqb]. cbv zeta.
  destruct (zscores_2 n (concatenate n x y) (as_matrix g) Hn (concatenate_pos n x y HX HY)) as (Z2 & Z1 & Z0 & _).
  assert (E : forall i j, (i < n)%nat -> (j < n)%nat -> p_dbcm (fun i => concatenate n x y i) (fun i => concatenate n x y (n + i)%nat) i j = p i j) by (intros; apply concatenate_p; assumption).
  rewrite Z2, Z1, (Z0 _ (count_0_meaning n g (as_matrix g) KNdarray (as_matrix_of n g) HL (or_introl eq_refl))). unfold z.
  rewrite (count_0_meaning n g (as_matrix g) KNdarray (as_matrix_of n g) HL (or_introl eq_refl)).
  rewrite !(mean_directed_p n _ p _ E), !(var_directed_p n _ p _ E). reflexivity.
Qed.
Lemma graph_zscore_3motifs n x y g : (forall i, (i < n)%nat -> 0 < x i) -> (forall i, (i < n)%nat -> 0 < y i) ->
  let p := p_dbcm x y in let sol := concatenate n x y in
  map fst (zscore_3motifs "dcm" KNdarray n x y (as_matrix g)) = seq 1 13 /\
  forall m v, In (m, v) (zscore_3motifs "dcm" KNdarray n x y (as_matrix g)) -> std_dcm_3motif m n sol <> 0 ->
    let c := fun h => count_3motif_ndarray m n (as_matrix h) in
    v = Some ((c g - mean_directed n p c) / std_dcm_3motif m n sol) /\ (v = Some 0 <-> c g = mean_directed n p c).
Proof.
  intros HX HY p sol. unfold zscore_3motifs. cbn [String.eqb Ascii.eqb Bool.eqb]. cbv zeta. split.
  - rewrite map_map. apply map_id.
  - intros m v HI HS. apply in_map_iff in HI. destruct HI as (m' & E & HI). injection E as -> <-. apply in_seq in HI.
    assert (HP : forall r, (r < 2 * n)%nat -> 0 <= sol r) by (intros r Hr; apply Rlt_le; exact (concatenate_pos n x y HX HY r Hr)).
    destruct (zscores_3 m n sol (as_matrix g) ltac:(lia) HP HS) as [Z1 Z2].
    assert (E : forall i j, (i < n)%nat -> (j < n)%nat -> p_dbcm (fun i => sol i) (fun i => sol (n + i)%nat) i j = p i j) by (intros; apply concatenate_p; assumption).
    rewrite (mean_directed_p n _ p _ E) in Z1, Z2. split; assumption.
Qed.
Lemma graph_zscores_other model k n x y a : model <> "dcm"%string -> zscore_2motifs model n x y a = [] /\ zscore_3motifs model k n x y a = [].
Proof.
  intros N. unfold zscore_2motifs, zscore_3motifs. destruct (String.eqb_spec model "dcm"); [contradiction|]. split; reflexivity.
Qed.

(** * Concrete cases *)
(** Links 0->1, 1->0, 1->2 on three nodes: motif 7 or 3; one reciprocated, one single, one empty dyad. *)
Definition sample3 (i j : nat) : bool :=
  match i, j with O, S O => true | S O, O => true | S O, S (S O) => true | _, _ => false end.
Lemma sample3_dyads : loopless 3 sample3 /\ count_2motif_2 3 (as_matrix sample3) = 2%nat /\ count_2motif_1 3 (as_matrix sample3) = 1%nat /\
  count_2motif_0 KNdarray 3 (as_matrix sample3) = Some 2%Z.
Proof.
  assert (HL : loopless 3 sample3) by (intros i Hi; do 3 (destruct i as [|i]; [reflexivity|]); lia). split; [exact HL|].
  rewrite (count_2_meaning 3 sample3), (count_1_meaning 3 sample3), (count_0_meaning 3 sample3) by (assumption || apply as_matrix_of || (left; reflexivity)).
  repeat split.
Qed.
Lemma sample3_triads : map (fun m => triads_with 3 sample3 (fun s => isomorphic s (motif m))) (seq 1 13) = [0; 0; 1; 0; 0; 0; 0; 0; 0; 0; 0; 0; 0]%nat /\
  count_3motif_ndarray 3 3 (as_matrix sample3) = 1.
Proof.
  split; [reflexivity|]. rewrite (count_sets 3 3 sample3) by (apply as_matrix_of || lia). simpl. ring.
Qed.
Definition cycle3 (i j : nat) : bool := match i, j with O, S O => true | S O, S (S O) => true | S (S O), O => true | _, _ => false end.
Lemma cycle3_triads : count_3motif_ndarray 9 3 (as_matrix cycle3) = 3 /\ count_3motif_ndarray 5 3 (as_matrix cycle3) = 0.
Proof. split; rewrite (count_sets _ 3 cycle3) by (apply as_matrix_of || lia); simpl; ring. Qed.
(** x = y = 1: every link has probability 1/2. *)
Lemma half_moments : expected_dcm_2motif_2 2 (fun _ => 1) = 1 / 2 /\ (std_dcm_2motif_2 2 (fun _ => 1)) ^ 2 = 3 / 4.
Proof.
  split; [rewrite expected_2_dsum|rewrite std_2_dsum, pow2_sqrt].
  all: intros; unfold dsum, p_dbcm; simpl; try lra; try field.
Qed.
Lemma half_triads : expected_dcm_3motif 13 3 (fun _ => 1) = 6 / 64 /\ 0 < std_dcm_3motif 13 3 (fun _ => 1).
Proof.
  split; [|apply std13_pos; [lia|intros; lra]]. rewrite expected_pat by lia. unfold tri, dist3, p_dbcm. simpl. field.
Qed.
Lemma half_triads_std : (std_dcm_3motif 13 3 (fun _ => 1)) ^ 2 = 6 * (1 / 4) * (6 / 32) ^ 2.
Proof.
  rewrite std_slopes by lia. rewrite pow2_sqrt; unfold dsum, link_slope, p_dbcm; simpl; try field. lra.
Qed.
Lemma sample_relabelling4 : relabelling 4 (fun i => 3 - i)%nat.
Proof. split; [intros; lia|]. intros i j Hi Hj E. lia. Qed.
