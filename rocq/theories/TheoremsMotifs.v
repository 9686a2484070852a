(** Motif statistics: the properties.  Each proof is one [exact] of a lemma. *)
From Coq Require Import Reals List Arith Bool ZArith Lia Lra String.
From Coquelicot Require Import Coquelicot.
From Verif Require Import Base SpecGraph SpecEnsemble ProofsEnsemble ModelDECM ModelNetwork SpecNetwork ModelMotifs SpecMotifs ProofsDyads ProofsDyadMoments ProofsTriads ProofsTriadMoments WitnessMotifs.
Local Open Scope R_scope.
Import ListNotations.

(** C45 *)
Theorem C45_full_dyads :
  forall n g a,
  matrix_of n g a -> loopless n g -> count_2motif_2 n a = (2 * pairs_with n (full_dyad g))%nat.
Proof. exact count_2_meaning. Qed.
Print Assumptions C45_full_dyads.

Theorem C45_single_dyads :
  forall n g a,
  matrix_of n g a -> loopless n g -> count_2motif_1 n a = pairs_with n (single_dyad g).
Proof. exact count_1_meaning. Qed.
Print Assumptions C45_single_dyads.

Theorem C45_empty_dyads :
  forall n g a k,
  matrix_of n g a -> loopless n g -> k = KNdarray \/ k = KCsrArray ->
  count_2motif_0 k n a = Some (Z.of_nat (2 * pairs_with n (empty_dyad g))).
Proof. exact count_0_meaning. Qed.
Print Assumptions C45_empty_dyads.

Theorem C45_identity :
  forall n g a,
  matrix_of n g a -> loopless n g -> exists c0, count_2motif_0 KNdarray n a = Some c0 /\
  (Z.of_nat (count_2motif_2 n a) + 2 * Z.of_nat (count_2motif_1 n a) + c0 = Z.of_nat n * (Z.of_nat n - 1))%Z.
Proof. exact dyad_identity. Qed.
Print Assumptions C45_identity.

Theorem C45_relabelling :
  forall n p a k,
  relabelling n p ->
  count_2motif_2 n (fun i j => a (p i) (p j)) = count_2motif_2 n a /\
  count_2motif_1 n (fun i j => a (p i) (p j)) = count_2motif_1 n a /\
  count_2motif_0 k n (fun i j => a (p i) (p j)) = count_2motif_0 k n a.
Proof. exact dyads_relabel. Qed.
Print Assumptions C45_relabelling.

Theorem C45_spmatrix_none_refuted :
  forall n a,
  count_2motif_0 KSpmatrix n a = None /\ forall sol, zscore_dcm_2motif_0 KSpmatrix n sol a = None.
Proof. exact count_0_spmatrix. Qed.
Print Assumptions C45_spmatrix_none_refuted.

Example C45_nonvacuous :
  loopless 3 sample3 /\ count_2motif_2 3 (as_matrix sample3) = 2%nat /\ count_2motif_1 3 (as_matrix sample3) = 1%nat /\
  count_2motif_0 KNdarray 3 (as_matrix sample3) = Some 2%Z.
Proof. exact sample3_dyads. Qed.

Example C45_relabelling_nonvacuous :
  relabelling 4 (fun i => 3 - i)%nat.
Proof. exact sample_relabelling4. Qed.

(** C46 *)
Theorem C46_full :
  forall n sol,
  (forall r, (r < 2 * n)%nat -> 0 <= sol r) ->
  let p := p_dbcm (fun i => sol i) (fun i => sol (n + i)%nat) in
  expected_dcm_2motif_2 n sol = mean_directed n p (fun g => INR (count_2motif_2 n (as_matrix g))) /\
  (std_dcm_2motif_2 n sol) ^ 2 = var_directed n p (fun g => INR (count_2motif_2 n (as_matrix g))).
Proof. exact moments_2. Qed.
Print Assumptions C46_full.

Theorem C46_single :
  forall n sol,
  (forall r, (r < 2 * n)%nat -> 0 <= sol r) ->
  let p := p_dbcm (fun i => sol i) (fun i => sol (n + i)%nat) in
  expected_dcm_2motif_1 n sol = mean_directed n p (fun g => INR (count_2motif_1 n (as_matrix g))) /\
  (std_dcm_2motif_1 n sol) ^ 2 = var_directed n p (fun g => INR (count_2motif_1 n (as_matrix g))).
Proof. exact moments_1. Qed.
Print Assumptions C46_single.

Theorem C46_empty :
  forall n sol,
  (forall r, (r < 2 * n)%nat -> 0 <= sol r) ->
  let p := p_dbcm (fun i => sol i) (fun i => sol (n + i)%nat) in
  let c0 g := match count_2motif_0 KNdarray n (as_matrix g) with Some c => IZR c | None => 0 end in
  expected_dcm_2motif_0 n sol = mean_directed n p c0 /\ (std_dcm_2motif_0 n sol) ^ 2 = var_directed n p c0.
Proof. exact moments_0_closed. Qed.
Print Assumptions C46_empty.

Example C46_nonvacuous :
  expected_dcm_2motif_2 2 (fun _ => 1) = 1 / 2 /\ (std_dcm_2motif_2 2 (fun _ => 1)) ^ 2 = 3 / 4.
Proof. exact half_moments. Qed.

(** C47 *)
Theorem C47_count_ordered :
  forall m n g a,
  (1 <= m <= 13)%nat -> matrix_of n g a ->
  count_3motif_ndarray m n a = tri n (fun i j k => ind (triad_eqb (motif m) (induced g i j k))).
Proof. exact count_ordered. Qed.
Print Assumptions C47_count_ordered.

Theorem C47_count_sets :
  forall m n g a,
  (1 <= m <= 13)%nat -> matrix_of n g a ->
  count_3motif_ndarray m n a = INR (automorphisms (motif m)) * INR (triads_with n g (fun s => isomorphic s (motif m))).
Proof. exact count_sets. Qed.
Print Assumptions C47_count_sets.

Theorem C47_motifs_exhaustive :
  forall t,
  connected t = true <-> exists m, (1 <= m <= 13)%nat /\ isomorphic t (motif m) = true.
Proof. exact motifs_exhaustive. Qed.
Print Assumptions C47_motifs_exhaustive.

Theorem C47_motifs_distinct :
  forall t m m',
  (1 <= m <= 13)%nat -> (1 <= m' <= 13)%nat -> isomorphic t (motif m) = true -> isomorphic t (motif m') = true -> m = m'.
Proof. exact motifs_distinct. Qed.
Print Assumptions C47_motifs_distinct.

Theorem C47_motif_automorphisms :
  map (fun m => automorphisms (motif m)) (seq 1 13) = [2; 1; 1; 2; 1; 2; 1; 2; 3; 1; 2; 1; 6]%nat.
Proof. exact motif_automorphisms. Qed.
Print Assumptions C47_motif_automorphisms.

Theorem C47_total :
  forall n g a,
  matrix_of n g a ->
  rsum 13 (fun q => count_3motif_ndarray (S q) n a / INR (automorphisms (motif (S q)))) = INR (triads_with n g connected).
Proof. exact motifs_total. Qed.
Print Assumptions C47_total.

Theorem C47_count_relabelling :
  forall m n p a,
  (1 <= m <= 13)%nat -> relabelling n p -> count_3motif_ndarray m n (fun i j => a (p i) (p j)) = count_3motif_ndarray m n a.
Proof. exact count_relabel. Qed.
Print Assumptions C47_count_relabelling.

Theorem C47_expected :
  forall m n sol,
  (1 <= m <= 13)%nat -> (forall r, (r < 2 * n)%nat -> 0 <= sol r) ->
  expected_dcm_3motif m n sol =
  mean_directed n (p_dbcm (fun i => sol i) (fun i => sol (n + i)%nat)) (fun g => count_3motif_ndarray m n (as_matrix g)).
Proof. exact expected_mean. Qed.
Print Assumptions C47_expected.

Theorem C47_expected_relabelling :
  forall m n p sol,
  (1 <= m <= 13)%nat -> relabelling n p ->
  expected_dcm_3motif m n (fun r => if Nat.ltb r n then sol (p r) else sol (n + p (r - n))%nat) = expected_dcm_3motif m n sol.
Proof. exact expected_relabel. Qed.
Print Assumptions C47_expected_relabelling.

Theorem C47_sparse :
  forall m n a,
  (n <= 257)%nat -> count_3motif_sparse m n a = count_3motif_ndarray m n a.
Proof. exact count_sparse_small. Qed.
Print Assumptions C47_sparse.

Theorem C47_sparse_refuted :
  exists n g, loopless n g /\ count_3motif_ndarray 4 n (as_matrix g) = 0 /\ 1 <= count_3motif_sparse 4 n (as_matrix g).
Proof. exact sparse_refuted. Qed.
Print Assumptions C47_sparse_refuted.

Theorem C47_csr_array_raises :
  forall m n a,
  count_3motif KCsrArray m n a = None.
Proof. exact count_3_csr_array. Qed.
Print Assumptions C47_csr_array_raises.

Example C47_nonvacuous :
  map (fun m => triads_with 3 sample3 (fun s => isomorphic s (motif m))) (seq 1 13) = [0; 0; 1; 0; 0; 0; 0; 0; 0; 0; 0; 0; 0]%nat /\
  count_3motif_ndarray 3 3 (as_matrix sample3) = 1.
Proof. exact sample3_triads. Qed.

Example C47_cycle_nonvacuous :
  count_3motif_ndarray 9 3 (as_matrix cycle3) = 3 /\ count_3motif_ndarray 5 3 (as_matrix cycle3) = 0.
Proof. exact cycle3_triads. Qed.

Example C47_expected_nonvacuous :
  expected_dcm_3motif 13 3 (fun _ => 1) = 6 / 64 /\ 0 < std_dcm_3motif 13 3 (fun _ => 1).
Proof. exact half_triads. Qed.

(** C48 *)
Theorem C48_delta_method :
  forall m n sol,
  (1 <= m <= 13)%nat -> (forall r, (r < 2 * n)%nat -> 0 <= sol r) ->
  let p := p_dbcm (fun i => sol i) (fun i => sol (n + i)%nat) in
  exists d : nat -> nat -> R,
    (forall u v, (u < n)%nat -> (v < n)%nat -> u <> v ->
      is_derive (fun z : R => mean_directed n (set_entry p u v z) (fun g => count_3motif_ndarray m n (as_matrix g))) (p u v) (d u v)) /\
    (std_dcm_3motif m n sol) ^ 2 = rsum n (fun u => rsum n (fun v => if Nat.eqb u v then 0 else p u v * (1 - p u v) * (d u v) ^ 2)).
Proof. exact std_delta. Qed.
Print Assumptions C48_delta_method.

Example C48_nonvacuous :
  (std_dcm_3motif 13 3 (fun _ => 1)) ^ 2 = 6 * (1 / 4) * (6 / 32) ^ 2.
Proof. exact half_triads_std. Qed.

(** C49 *)
Theorem C49_two_node :
  forall n sol a,
  (2 <= n)%nat -> (forall r, (r < 2 * n)%nat -> 0 < sol r) ->
  let p := p_dbcm (fun i => sol i) (fun i => sol (n + i)%nat) in
  let z c f := Some ((c - mean_directed n p f) / sqrt (var_directed n p f)) in
  let c0 g := match count_2motif_0 KNdarray n (as_matrix g) with Some c => IZR c | None => 0 end in
  let c1 g := INR (count_2motif_1 n (as_matrix g)) in let c2 g := INR (count_2motif_2 n (as_matrix g)) in
  zscore_dcm_2motif_2 n sol a = z (INR (count_2motif_2 n a)) c2 /\
  zscore_dcm_2motif_1 n sol a = z (INR (count_2motif_1 n a)) c1 /\
  (forall c, count_2motif_0 KNdarray n a = Some c -> zscore_dcm_2motif_0 KNdarray n sol a = z (IZR c) c0) /\
  (zscore_dcm_2motif_2 n sol a = Some 0 <-> INR (count_2motif_2 n a) = mean_directed n p c2) /\
  (zscore_dcm_2motif_1 n sol a = Some 0 <-> INR (count_2motif_1 n a) = mean_directed n p c1) /\
  (forall c, count_2motif_0 KNdarray n a = Some c -> (zscore_dcm_2motif_0 KNdarray n sol a = Some 0 <-> IZR c = mean_directed n p c0)).
Proof. exact zscores_2. Qed.
Print Assumptions C49_two_node.

Theorem C49_two_node_std_positive :
  forall n sol,
  (2 <= n)%nat -> (forall r, (r < 2 * n)%nat -> 0 < sol r) ->
  0 < std_dcm_2motif_2 n sol /\ 0 < std_dcm_2motif_1 n sol /\ 0 < std_dcm_2motif_0 n sol.
Proof. exact std2_pos. Qed.
Print Assumptions C49_two_node_std_positive.

Theorem C49_three_node :
  forall m n sol a,
  (1 <= m <= 13)%nat -> (forall r, (r < 2 * n)%nat -> 0 <= sol r) -> std_dcm_3motif m n sol <> 0 ->
  let p := p_dbcm (fun i => sol i) (fun i => sol (n + i)%nat) in
  let e := mean_directed n p (fun g => count_3motif_ndarray m n (as_matrix g)) in
  zscore_dcm_3motif KNdarray m n sol a = Some ((count_3motif_ndarray m n a - e) / std_dcm_3motif m n sol) /\
  (zscore_dcm_3motif KNdarray m n sol a = Some 0 <-> count_3motif_ndarray m n a = e).
Proof. exact zscores_3. Qed.
Print Assumptions C49_three_node.

Theorem C49_motif13_std_positive :
  forall n sol,
  (3 <= n)%nat -> (forall r, (r < 2 * n)%nat -> 0 < sol r) -> 0 < std_dcm_3motif 13 n sol.
Proof. exact std13_pos. Qed.
Print Assumptions C49_motif13_std_positive.

Theorem C49_std_positive_refuted :
  forall m n,
  (1 <= m <= 12)%nat -> (3 <= n)%nat -> exists sol,
  (forall r, 0 < sol r) /\ std_dcm_3motif m n sol = 0 /\ (forall a, zscore_dcm_3motif KNdarray m n sol a = None) /\
  0 < var_directed n (p_dbcm (fun i => sol i) (fun i => sol (n + i)%nat)) (fun g => count_3motif_ndarray m n (as_matrix g)).
Proof. exact std3_refuted. Qed.
Print Assumptions C49_std_positive_refuted.

Theorem C49_cycle_refuted :
  (forall i, (i < 4)%nat ->
  rsum 4 (fun j => if Nat.eqb i j then 0 else p_dbcm (fun _ => flat 2) (fun _ => flat 2) i j) = rsum 4 (fun j => ind (cycle4 i j)) /\
  rsum 4 (fun j => if Nat.eqb i j then 0 else p_dbcm (fun _ => flat 2) (fun _ => flat 2) j i) = rsum 4 (fun j => ind (cycle4 j i))) /\
  zscore_dcm_3motif KNdarray 2 4 (fun _ => flat 2) (as_matrix cycle4) = None.
Proof. exact cycle_zscore. Qed.
Print Assumptions C49_cycle_refuted.

Theorem C49_graph_two_node :
  forall n x y g,
  (2 <= n)%nat -> (forall i, (i < n)%nat -> 0 < x i) -> (forall i, (i < n)%nat -> 0 < y i) -> loopless n g ->
  let p := p_dbcm x y in
  let z (c : (nat -> nat -> bool) -> R) := Some ((c g - mean_directed n p c) / sqrt (var_directed n p c)) in
  zscore_2motifs "dcm" n x y (as_matrix g) =
    [(0%nat, z (fun h => match count_2motif_0 KNdarray n (as_matrix h) with Some c => IZR c | None => 0 end));
     (1%nat, z (fun h => INR (count_2motif_1 n (as_matrix h)))); (2%nat, z (fun h => INR (count_2motif_2 n (as_matrix h))))].
Proof. exact graph_zscore_2motifs. Qed.
Print Assumptions C49_graph_two_node.

Theorem C49_graph_three_node :
  forall n x y g,
  (forall i, (i < n)%nat -> 0 < x i) -> (forall i, (i < n)%nat -> 0 < y i) ->
  let p := p_dbcm x y in let sol := concatenate n x y in
  map fst (zscore_3motifs "dcm" KNdarray n x y (as_matrix g)) = seq 1 13 /\
  forall m v, In (m, v) (zscore_3motifs "dcm" KNdarray n x y (as_matrix g)) -> std_dcm_3motif m n sol <> 0 ->
    let c := fun h => count_3motif_ndarray m n (as_matrix h) in
    v = Some ((c g - mean_directed n p c) / std_dcm_3motif m n sol) /\ (v = Some 0 <-> c g = mean_directed n p c).
Proof. exact graph_zscore_3motifs. Qed.
Print Assumptions C49_graph_three_node.

Theorem C49_graph_other_models :
  forall model k n x y a,
  model <> "dcm"%string -> zscore_2motifs model n x y a = [] /\ zscore_3motifs model k n x y a = [].
Proof. exact graph_zscores_other. Qed.
Print Assumptions C49_graph_other_models.

(** C66 *)
Theorem C66_std_refuted :
  forall m n,
  (1 <= m <= 12)%nat -> (3 <= n)%nat -> exists sol,
  (forall r, 0 < sol r) /\ std_dcm_3motif m n sol = 0 /\ (forall a, zscore_dcm_3motif KNdarray m n sol a = None) /\
  0 < var_directed n (p_dbcm (fun i => sol i) (fun i => sol (n + i)%nat)) (fun g => count_3motif_ndarray m n (as_matrix g)).
Proof. exact std3_refuted. Qed.
Print Assumptions C66_std_refuted.
