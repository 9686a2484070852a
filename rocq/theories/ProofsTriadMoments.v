(** Three-node motifs: classification, exact expectation, standard deviation, z-scores. *)
From Coq Require Import Reals List Arith Bool ZArith Lia Lra.
From Coquelicot Require Import Coquelicot.
From Verif Require Import Base SpecGraph SpecEnsemble ProofsEnsemble ModelDECM ModelNetwork SpecNetwork ProofsUnique ProofsNetwork ModelMotifs SpecMotifs ProofsDyads ProofsDyadMoments ProofsTriads.
Local Open Scope R_scope.
Import ListNotations.

(** * The thirteen motifs are the connected triads, up to isomorphism, without repetition *)
Lemma all_triads_all t : In t all_triads.
Proof. destruct t as [[[[[t1 t2] t3] t4] t5] t6]. 
  unfold all_triads. repeat (apply in_flat_map; eexists; split; [|]).
  all: try (match goal with |- In _ (map _ _) => apply in_map end).
  all: match goal with |- In ?x _ => destruct x; simpl; auto end.
Qed.
Lemma forall_triads (P : triad -> bool) : forallb P all_triads = true -> forall t, P t = true.
Proof. intros HP t. rewrite forallb_forall in HP. apply HP, all_triads_all. Qed.
Lemma motifs_exhaustive t : connected t = true <-> exists m, (1 <= m <= 13)%nat /\ isomorphic t (motif m) = true.
Proof.
  assert (HB : Bool.eqb (connected t) (existsb (fun m => isomorphic t (motif m)) (seq 1 13)) = true).
  { revert t. apply forall_triads. vm_compute. reflexivity. }
  apply eqb_prop in HB. rewrite HB, existsb_exists. split; intros (m & H1 & H2); exists m; (split; [|exact H2]).
  - apply in_seq in H1. lia.
  - apply in_seq. lia.
Qed.
Lemma motifs_distinct t m m' : (1 <= m <= 13)%nat -> (1 <= m' <= 13)%nat -> isomorphic t (motif m) = true -> isomorphic t (motif m') = true -> m = m'.
Proof.
  intros Hm Hm' H1 H2.
  assert (HB : Nat.leb (length (filter (fun m => isomorphic t (motif m)) (seq 1 13))) 1 = true).
  { clear - t. revert t. apply forall_triads. vm_compute. reflexivity. }
  apply Nat.leb_le in HB. set (l := filter (fun m => isomorphic t (motif m)) (seq 1 13)) in *.
  assert (I1 : In m l) by (apply filter_In; split; [apply in_seq; lia|exact H1]). assert (I2 : In m' l) by (apply filter_In; split; [apply in_seq; lia|exact H2]).
  destruct l as [|a [|b l]]; [destruct I1|destruct I1 as [<-|[]]; destruct I2 as [<-|[]]; reflexivity|simpl in HB; lia].
Qed.
(** The numbers of automorphisms. *)
Lemma motif_automorphisms : map (fun m => automorphisms (motif m)) (seq 1 13) = [2; 1; 1; 2; 1; 2; 1; 2; 3; 1; 2; 1; 6]%nat.
Proof. reflexivity. Qed.
(** Sum over the motifs: the connected three-node sets. *)
Lemma rsum_seq1 f m : rsum m (fun q => f (S q)) = fold_right Rplus 0 (map f (seq 1 m)).
Proof.
  induction m as [|m IH]; [reflexivity|]. cbn [rsum]. rewrite seq_S, map_app, fold_right_app, IH. simpl.
  generalize (f (S m)). clear. intros r. rewrite Rplus_0_r. induction (map f (seq 1 m)) as [|v l IHl]; simpl; [ring|]. rewrite <- IHl. ring.
Qed.
Lemma ind_iso_sum t : rsum 13 (fun q => ind (isomorphic t (motif (S q)))) = ind (connected t).
Proof.
  set (N := length (filter (fun m => isomorphic t (motif m)) (seq 1 13))).
  assert (HB : Nat.eqb N (if connected t then 1 else 0) = true).
  { unfold N. clear N. revert t. apply forall_triads. vm_compute. reflexivity. }
  apply Nat.eqb_eq in HB. transitivity (INR N).
  - unfold N. rewrite (rsum_seq1 (fun m => ind (isomorphic t (motif m)))). clear. generalize (seq 1 13). intros l.
    induction l as [|m l IH]; [reflexivity|]. cbn [map fold_right filter]. rewrite IH.
    destruct (isomorphic t (motif m)); [|simpl; ring]. simpl length. rewrite S_INR. simpl. ring.
  - rewrite HB. destruct (connected t); reflexivity.
Qed.
Lemma motifs_total n g a : matrix_of n g a ->
  rsum 13 (fun q => count_3motif_ndarray (S q) n a / INR (automorphisms (motif (S q)))) = INR (triads_with n g connected).
Proof.
  intros HM. rewrite INR_triads_with.
  transitivity (rsum 13 (fun q => tsum n (fun i j k => ind (isomorphic (induced g i j k) (motif (S q)))))).
  - apply rsum_ext. intros q Hq. rewrite (count_sets (S q) n g a) by (assumption || lia). rewrite INR_triads_with.
    assert (HA : INR (automorphisms (motif (S q))) <> 0).
    { do 13 (destruct q as [|q]; [vm_compute; lra|]). lia. }
    field. exact HA.
  - unfold tsum. rewrite rsum_swap. apply rsum_ext. intros k _. rewrite rsum_swap. apply rsum_ext. intros j _. rewrite rsum_swap. apply rsum_ext. intros i _.
    apply ind_iso_sum.
Qed.

(** * Invariance, sparse matrices *)
Lemma count_relabel m n p a : (1 <= m <= 13)%nat -> relabelling n p -> count_3motif_ndarray m n (fun i j => a (p i) (p j)) = count_3motif_ndarray m n a.
Proof.
  intros Hm HP. rewrite !count_pat by exact Hm. exact (tri_relabel n p (fun i j k => pat (motif m) (a i j) (a j i) (a i k) (a k i) (a j k) (a k j)) HP).
Qed.
Lemma expected_relabel m n p sol : (1 <= m <= 13)%nat -> relabelling n p ->
  expected_dcm_3motif m n (fun r => if Nat.ltb r n then sol (p r) else sol (n + p (r - n))%nat) = expected_dcm_3motif m n sol.
Proof.
  intros Hm HP. rewrite !expected_pat by exact Hm.
  rewrite <- (tri_relabel n p (fun i j k => pat (motif m) (p_dbcm (fun i => sol i) (fun i => sol (n + i)%nat) i j) (p_dbcm (fun i => sol i) (fun i => sol (n + i)%nat) j i) (p_dbcm (fun i => sol i) (fun i => sol (n + i)%nat) i k) (p_dbcm (fun i => sol i) (fun i => sol (n + i)%nat) k i) (p_dbcm (fun i => sol i) (fun i => sol (n + i)%nat) j k) (p_dbcm (fun i => sol i) (fun i => sol (n + i)%nat) k j)) HP).
  apply tri_ext. intros i j k Hi Hj Hk _ _ _. unfold p_dbcm.
  assert (E1 : forall u, (u < n)%nat -> Nat.ltb u n = true) by (intros; apply Nat.ltb_lt; assumption).
  assert (E2 : forall u, Nat.ltb (n + u) n = false) by (intros; apply Nat.ltb_ge; lia).
  rewrite (E1 i Hi), (E1 j Hj), (E1 k Hk), (E2 i), (E2 j), (E2 k). replace (n + i - n)%nat with i by lia. replace (n + j - n)%nat with j by lia. replace (n + k - n)%nat with k by lia. reflexivity.
Qed.
Lemma count_sparse_small m n a : (n <= 257)%nat -> count_3motif_sparse m n a = count_3motif_ndarray m n a.
Proof.
  intros Hn. unfold count_3motif_sparse, count_3motif_ndarray. rewrite !count_tri; [reflexivity|reflexivity|].
  intros i j Hi Hj. unfold is_not_object. destruct (Nat.ltb_spec 256 i); [lia|]. apply orb_false_r.
Qed.
(** A single link 257 -> 0. *)
Definition one_link (i j : nat) : bool := Nat.eqb i 257 && Nat.eqb j 0.
Lemma rsum_ge n f h : (forall j, (j < n)%nat -> 0 <= f j) -> (h < n)%nat -> f h <= rsum n f.
Proof.
  intros HF Hh. rewrite (rsum_pull n h f Hh). assert (0 <= rsum n (fun j => if Nat.eqb j h then 0 else f j)); [|lra].
  apply rsum_nonneg. intros j Hj. destruct (Nat.eqb j h); [lra|auto].
Qed.
Lemma one_link_dense : count_3motif_ndarray 4 258 (as_matrix one_link) = 0.
Proof.
  rewrite (count_ordered 4 258 one_link); [|lia|intros i j _ _; reflexivity].
  rewrite (tri_ext 258 _ (fun _ _ _ => 0)).
  - unfold tri. apply rsum_zero. intros. apply rsum_zero. intros. apply rsum_zero. intros k _. destruct (dist3 j j0 k); reflexivity.
  - intros i j k _ _ _ N1 N2 N3. unfold induced, one_link. cbn [motif triad_eqb].
    destruct (Nat.eqb_spec i 257), (Nat.eqb_spec j 257), (Nat.eqb_spec k 257), (Nat.eqb_spec i 0), (Nat.eqb_spec j 0), (Nat.eqb_spec k 0); try reflexivity; exfalso; lia.
Qed.
Lemma one_link_sparse : 1 <= count_3motif_sparse 4 258 (as_matrix one_link).
Proof.
  unfold count_3motif_sparse, count_loops. set (a := as_matrix one_link).
  set (f := fun i j k => if is_not_object j i then (if is_not_object k j && is_not_object k i && is_not_object i j
     then count_term 4 (a i j) (a j i) (a i k) (a k i) (a j k) (a k j) else 0) else 0).
  assert (HN : forall i j k, 0 <= f i j k).
  { intros i j k. unfold f. destruct (is_not_object j i); [|lra]. destruct (_ && _ && _); [|lra]. cbn [count_term]. unfold count_term_4, a, as_matrix.
    assert (HI : forall b, 0 <= ind b <= 1) by (intros []; simpl; lra).
    pose proof (HI (one_link i j)). pose proof (HI (one_link j i)). pose proof (HI (one_link i k)). pose proof (HI (one_link k i)). pose proof (HI (one_link j k)). pose proof (HI (one_link k j)).
    repeat apply Rmult_le_pos; lra. }
  rewrite (loop_add 258 0 _ (fun i => rsum 258 (fun j => rsum 258 (fun k => f i j k)))).
  - rewrite Rplus_0_l.
    apply Rle_trans with (rsum 258 (fun j => rsum 258 (fun k => f 257%nat j k))).
    2:{ apply (rsum_ge 258 (fun i => rsum 258 (fun j => rsum 258 (fun k => f i j k))) 257%nat); [|lia].
        intros. apply rsum_nonneg. intros. apply rsum_nonneg. intros. apply HN. }
    apply Rle_trans with (rsum 258 (fun k => f 257%nat 257%nat k)).
    2:{ apply (rsum_ge 258 (fun j => rsum 258 (fun k => f 257%nat j k)) 257%nat); [|lia]. intros. apply rsum_nonneg. intros. apply HN. }
    apply Rle_trans with (f 257%nat 257%nat 0%nat).
    + unfold f, a, as_matrix. cbn [count_term]. unfold count_term_4.
      replace (one_link 257 257) with false by reflexivity. replace (one_link 257 0) with true by reflexivity. replace (one_link 0 257) with false by reflexivity.
      replace (is_not_object 257 257) with true by reflexivity. replace (is_not_object 0 257) with true by reflexivity. simpl. lra.
    + apply (rsum_ge 258 (fun k => f 257%nat 257%nat k) 0%nat); [|lia]. intros. apply HN.
  - intros i s Hi. apply loop_add. intros j s' Hj. unfold f. destruct (is_not_object j i).
    + apply loop_add. intros k s'' Hk. destruct (_ && _ && _); ring.
    + rewrite rsum_0. ring.
Qed.
Lemma sparse_refuted : exists n g, loopless n g /\ count_3motif_ndarray 4 n (as_matrix g) = 0 /\ 1 <= count_3motif_sparse 4 n (as_matrix g).
Proof.
  exists 258%nat, one_link. split; [|split; [exact one_link_dense|exact one_link_sparse]].
  intros i _. unfold one_link. destruct (Nat.eqb_spec i 257); [|reflexivity]. destruct (Nat.eqb_spec i 0); [lia|reflexivity].
Qed.

(** * Exact expectation *)
Lemma mean_tri n p (f : (nat -> nat -> bool) -> nat -> nat -> nat -> R) :
  mean_directed n p (fun a => tri n (f a)) = tri n (fun i j k => mean_directed n p (fun a => f a i j k)).
Proof.
  rewrite mean_directed_on. unfold tri. rewrite mean_on_rsum. apply rsum_ext. intros i _. rewrite mean_on_rsum. apply rsum_ext. intros j _.
  rewrite mean_on_rsum. apply rsum_ext. intros k _. destruct (dist3 i j k); [rewrite mean_directed_on; reflexivity|apply mean_on_const, NoDup_dpairs].
Qed.
Lemma mean_triad n p t i j k : (i < n)%nat -> (j < n)%nat -> (k < n)%nat -> i <> j -> i <> k -> j <> k ->
  mean_directed n p (fun g => ind (triad_eqb t (induced g i j k))) = pat t (p i j) (p j i) (p i k) (p k i) (p j k) (p k j).
Proof.
  intros Hi Hj Hk N1 N2 N3. destruct t as [[[[[t1 t2] t3] t4] t5] t6]. rewrite mean_directed_on.
  set (phi := fun (e : nat * nat) (b : bool) =>
    if Nat.eqb (fst e) i then (if Nat.eqb (snd e) j then fac t1 (ind b) else fac t3 (ind b))
    else if Nat.eqb (fst e) j then (if Nat.eqb (snd e) i then fac t2 (ind b) else fac t5 (ind b))
    else (if Nat.eqb (snd e) i then fac t4 (ind b) else fac t6 (ind b))).
  pose proof (mean_on_prod_sub [(i, j); (j, i); (i, k); (k, i); (j, k); (k, j)] (dpairs n) p phi) as HM.
  unfold phi in HM. cbn [lprod fst snd] in HM. rewrite !Nat.eqb_refl in HM.
  destruct (Nat.eqb_spec j i); [congruence|]. destruct (Nat.eqb_spec k i); [congruence|]. destruct (Nat.eqb_spec k j); [congruence|].
  rewrite (mean_on_ext _ _ _ (fun a => fac t1 (ind (a i j)) * (fac t2 (ind (a j i)) * (fac t3 (ind (a i k)) * (fac t4 (ind (a k i)) * (fac t5 (ind (a j k)) * (fac t6 (ind (a k j)) * 1))))))).
  - rewrite HM; [unfold pat; destruct t1, t2, t3, t4, t5, t6; simpl; ring| |apply NoDup_dpairs|].
    + assert (E : forall a b c d : nat, (a, b) = (c, d) -> a = c /\ b = d) by (intros a b c d E; injection E; auto).
      repeat constructor; simpl; intros HI; repeat (destruct HI as [HI|HI]; [apply E in HI; destruct HI; subst; congruence|]); exact HI.
    + intros e [<-|[<-|[<-|[<-|[<-|[<-|[]]]]]]]; apply in_dpairs; auto.
  - intros a _. unfold induced. rewrite <- pat_ind. unfold pat. ring.
Qed.
Lemma mean_count m n p : (1 <= m <= 13)%nat -> mean_directed n p (fun g => count_3motif_ndarray m n (as_matrix g)) =
  tri n (fun i j k => pat (motif m) (p i j) (p j i) (p i k) (p k i) (p j k) (p k j)).
Proof.
  intros Hm. rewrite (mean_directed_ext n p _ (fun g => tri n (fun i j k => ind (triad_eqb (motif m) (induced g i j k)))))
    by (intros g; apply (count_ordered m n g); [exact Hm|apply as_matrix_of]).
  rewrite (mean_tri n p (fun g i j k => ind (triad_eqb (motif m) (induced g i j k)))). apply tri_ext. intros i j k Hi Hj Hk N1 N2 N3. apply mean_triad; assumption.
Qed.
Lemma expected_mean m n sol : (1 <= m <= 13)%nat -> (forall r, (r < 2 * n)%nat -> 0 <= sol r) ->
  expected_dcm_3motif m n sol =
  mean_directed n (p_dbcm (fun i => sol i) (fun i => sol (n + i)%nat)) (fun g => count_3motif_ndarray m n (as_matrix g)).
Proof. intros Hm _. rewrite (expected_pat m n sol Hm), mean_count by exact Hm. reflexivity. Qed.

(** * Derivative with respect to a link probability *)
Lemma set_same P u v z : set_entry P u v z u v = z.
Proof. unfold set_entry. rewrite !Nat.eqb_refl. reflexivity. Qed.
Lemma set_other P u v z i j : (i <> u \/ j <> v) -> set_entry P u v z i j = P i j.
Proof. intros H. unfold set_entry. destruct (Nat.eqb_spec i u), (Nat.eqb_spec j v); try reflexivity. lia. Qed.
Definition at_pair (u v : nat) (D : nat -> R) (i j k : nat) : R := if Nat.eqb i u && Nat.eqb j v then D k else 0.
Lemma tri_at_pair n u v D : (u < n)%nat -> (v < n)%nat -> u <> v ->
  tri n (at_pair u v D) = rsum n (fun w => if Nat.eqb w u || Nat.eqb w v then 0 else D w).
Proof.
  intros Hu Hv N. unfold tri, at_pair.
  rewrite (rsum_ext n _ (fun i => if Nat.eqb i u then rsum n (fun w => if Nat.eqb w u || Nat.eqb w v then 0 else D w) else 0));
    [apply (rsum_single n u (fun _ => rsum n (fun w => if Nat.eqb w u || Nat.eqb w v then 0 else D w)) Hu)|].
  intros i Hi. destruct (Nat.eqb_spec i u) as [->|Ni]; simpl.
  - rewrite (rsum_ext n _ (fun j => if Nat.eqb j v then rsum n (fun w => if Nat.eqb w u || Nat.eqb w v then 0 else D w) else 0));
      [apply (rsum_single n v (fun _ => rsum n (fun w => if Nat.eqb w u || Nat.eqb w v then 0 else D w)) Hv)|].
    intros j Hj. destruct (Nat.eqb_spec j v) as [->|Nj].
    + apply rsum_ext. intros k Hk. unfold dist3. rewrite (Nat.eqb_sym u k), (Nat.eqb_sym v k). destruct (Nat.eqb_spec u v); [contradiction|].
      simpl. destruct (Nat.eqb k u), (Nat.eqb k v); reflexivity.
    + apply rsum_zero. intros k _. destruct (dist3 u j k); reflexivity.
  - apply rsum_zero. intros j _. apply rsum_zero. intros k _. destruct (dist3 i j k); reflexivity.
Qed.
Lemma tri_rot n f : tri n (fun i j k => f k i j) = tri n f.
Proof. rewrite <- (tri_swap12 n f), <- (tri_swap23 n (fun i j k => f j i k)), <- (tri_swap12 n (fun i j k => f k i j)). rewrite (tri_swap12 n (fun i j k => f k i j)). reflexivity. Qed.
Lemma tri_rot' n f : tri n (fun i j k => f j k i) = tri n f.
Proof. rewrite <- (tri_swap23 n f). exact (tri_swap12 n (fun i j k => f i k j)). Qed.
Lemma tri_rev n f : tri n (fun i j k => f k j i) = tri n f.
Proof. rewrite <- (tri_swap12 n f), <- (tri_swap23 n (fun i j k => f j i k)). exact (tri_swap12 n (fun i j k => f k i j)). Qed.
Lemma fac_lin b z : fac b z = fac b 0 + z * sg b.
Proof. destruct b; simpl; ring. Qed.
Definition link_slope (n : nat) (t : triad) (P : nat -> nat -> R) (u v : nat) : R :=
  rsum n (fun w => if Nat.eqb w u || Nat.eqb w v then 0 else slope t (P v u) (P u w) (P w u) (P v w) (P w v)).
Lemma tri_affine n t P u v z : (u < n)%nat -> (v < n)%nat -> u <> v ->
  tri n (fun i j k => let Q := set_entry P u v z in pat t (Q i j) (Q j i) (Q i k) (Q k i) (Q j k) (Q k j)) =
  tri n (fun i j k => let Q := set_entry P u v 0 in pat t (Q i j) (Q j i) (Q i k) (Q k i) (Q j k) (Q k j)) + z * link_slope n t P u v.
Proof.
  intros Hu Hv N. destruct t as [[[[[b1 b2] b3] b4] b5] b6].
  set (D1 := fun w => sg b1 * (fac b2 (P v u) * fac b3 (P u w) * fac b4 (P w u) * fac b5 (P v w) * fac b6 (P w v))).
  set (D2 := fun w => sg b2 * (fac b1 (P v u) * fac b3 (P v w) * fac b4 (P w v) * fac b5 (P u w) * fac b6 (P w u))).
  set (D3 := fun w => sg b3 * (fac b1 (P u w) * fac b2 (P w u) * fac b4 (P v u) * fac b5 (P w v) * fac b6 (P v w))).
  set (D4 := fun w => sg b4 * (fac b1 (P v w) * fac b2 (P w v) * fac b3 (P v u) * fac b5 (P w u) * fac b6 (P u w))).
  set (D5 := fun w => sg b5 * (fac b1 (P w u) * fac b2 (P u w) * fac b3 (P w v) * fac b4 (P v w) * fac b6 (P v u))).
  set (D6 := fun w => sg b6 * (fac b1 (P w v) * fac b2 (P v w) * fac b3 (P w u) * fac b4 (P u w) * fac b5 (P v u))).
  replace (link_slope n (b1, b2, b3, b4, b5, b6) P u v) with
    (tri n (at_pair u v D1) + tri n (fun i j k => at_pair u v D2 j i k) + tri n (fun i j k => at_pair u v D3 i k j) +
     tri n (fun i j k => at_pair u v D4 k i j) + tri n (fun i j k => at_pair u v D5 j k i) + tri n (fun i j k => at_pair u v D6 k j i)).
  2:{ rewrite (tri_swap12 n (at_pair u v D2)), (tri_swap23 n (at_pair u v D3)), (tri_rot n (at_pair u v D4)), (tri_rot' n (at_pair u v D5)), (tri_rev n (at_pair u v D6)).
      rewrite !tri_at_pair by assumption. unfold link_slope. rewrite <- !rsum_plus. apply rsum_ext. intros w _. unfold D1, D2, D3, D4, D5, D6, slope.
      destruct (Nat.eqb w u || Nat.eqb w v); ring. }
  rewrite <- !tri_plus, <- tri_scal, <- tri_plus. apply tri_ext. intros i j k Hi Hj Hk N1 N2 N3. cbv zeta. unfold pat, at_pair, set_entry.
  unfold D1, D2, D3, D4, D5, D6. clear D1 D2 D3 D4 D5 D6.
  destruct (Nat.eqb_spec i u), (Nat.eqb_spec j u), (Nat.eqb_spec k u), (Nat.eqb_spec i v), (Nat.eqb_spec j v), (Nat.eqb_spec k v);
    try (exfalso; lia); cbn [andb]; subst; rewrite ?(fac_lin _ z); ring.
Qed.

(** * The reported standard deviation *)
Lemma std_slopes m n sol : (1 <= m <= 13)%nat -> let p := p_dbcm (fun i => sol i) (fun i => sol (n + i)%nat) in
  std_dcm_3motif m n sol = sqrt (dsum n (fun u v => p u v * (1 - p u v) * (link_slope n (motif m) p u v) ^ 2)).
Proof.
  intros Hm p. unfold std_dcm_3motif. f_equal. rewrite <- dsum_swap, <- loops_dsum. apply loop_ext. intros i t Hi. apply loop_ext. intros j t' Hj.
  destruct (Nat.eqb_spec i j) as [->|N]; [reflexivity|]. cbn [negb]. cbv zeta.
  change (sol j * sol (n + i)%nat / (1 + sol j * sol (n + i)%nat)) with (p j i). change (sol i * sol (n + j)%nat / (1 + sol i * sol (n + j)%nat)) with (p i j).
  enough (E : forall s, loop n 0 (fun k s0 => if negb (Nat.eqb i k) && negb (Nat.eqb j k) then std_step m (p i j) (p i k) (p k i) (p j k) (p k j) s0 else s0) = s ->
     std_square m s = (link_slope n (motif m) p j i) ^ 2).
  { transitivity (t' + (1 - p j i) * p j i * (link_slope n (motif m) p j i) ^ 2); [|ring]. exact (f_equal (fun w => t' + (1 - p j i) * p j i * w) (E _ eq_refl)). }
  intros s <-. unfold std_square. destruct (Nat.eqb_spec m 13) as [->|N13].
  - f_equal. rewrite (loop_add n 0 _ (fun k => if Nat.eqb k j || Nat.eqb k i then 0 else slope (motif 13) (p i j) (p j k) (p k j) (p i k) (p k i) / 6)).
    + unfold link_slope. rewrite Rplus_0_l, <- rsum_scal_l. apply rsum_ext. intros k _. destruct (Nat.eqb k j || Nat.eqb k i); field.
    + intros k s0 _. rewrite (Nat.eqb_sym i k), (Nat.eqb_sym j k). pose proof (std_step_slope_13 (p i j) (p i k) (p k i) (p j k) (p k j) s0).
      destruct (Nat.eqb k i), (Nat.eqb k j); cbn [negb andb orb]; lra.
  - f_equal. rewrite (loop_add n 0 _ (fun k => if Nat.eqb k j || Nat.eqb k i then 0 else slope (motif m) (p i j) (p j k) (p k j) (p i k) (p k i))).
    + unfold link_slope. ring.
    + intros k s0 _. rewrite (Nat.eqb_sym i k), (Nat.eqb_sym j k), std_step_slope by lia.
      destruct (Nat.eqb k i), (Nat.eqb k j); cbn [negb andb orb]; lra.
Qed.
Lemma mean_derive m n P u v : (1 <= m <= 13)%nat -> (u < n)%nat -> (v < n)%nat -> u <> v ->
  is_derive (fun z : R => mean_directed n (set_entry P u v z) (fun g => count_3motif_ndarray m n (as_matrix g))) (P u v) (link_slope n (motif m) P u v).
Proof.
  intros Hm Hu Hv N.
  apply (is_derive_ext (fun z : R => mean_directed n (set_entry P u v 0) (fun g => count_3motif_ndarray m n (as_matrix g)) + z * link_slope n (motif m) P u v)).
  - intros z. rewrite !mean_count by exact Hm. symmetry. exact (tri_affine n (motif m) P u v z Hu Hv N).
  - auto_derive; [exact I|ring].
Qed.
Lemma std_delta m n sol : (1 <= m <= 13)%nat -> (forall r, (r < 2 * n)%nat -> 0 <= sol r) ->
  let p := p_dbcm (fun i => sol i) (fun i => sol (n + i)%nat) in
  exists d : nat -> nat -> R,
    (forall u v, (u < n)%nat -> (v < n)%nat -> u <> v ->
      is_derive (fun z : R => mean_directed n (set_entry p u v z) (fun g => count_3motif_ndarray m n (as_matrix g))) (p u v) (d u v)) /\
    (std_dcm_3motif m n sol) ^ 2 = rsum n (fun u => rsum n (fun v => if Nat.eqb u v then 0 else p u v * (1 - p u v) * (d u v) ^ 2)).
Proof.
  intros Hm HS p. exists (link_slope n (motif m) p). split.
  - intros u v Hu Hv N. apply mean_derive; assumption.
  - rewrite (std_slopes m n sol Hm). fold p. rewrite pow2_sqrt; [reflexivity|]. apply dsum_nonneg. intros u v Hu Hv _.
    pose proof (link_range n sol HS u v Hu Hv) as HR. fold p in HR. clearbody p. apply Rmult_le_pos; [apply Rmult_le_pos; lra|apply pow2_ge_0].
Qed.

(** * z-scores *)
Lemma zscore_value c e s : 0 < s -> zscore_of c e s = Some ((c - e) / s).
Proof. intros HS. unfold zscore_of, sdiv. destruct (Req_EM_T s 0); [lra|reflexivity]. Qed.
Lemma zscore_zero_iff c e s : 0 < s -> (zscore_of c e s = Some 0 <-> c = e).
Proof.
  intros HS. rewrite (zscore_value c e s HS). split.
  - intros E. assert (E' : (c - e) / s = 0) by congruence. assert (c - e = 0); [|lra]. replace (c - e) with ((c - e) / s * s) by (field; lra). rewrite E'. ring.
  - intros ->. f_equal. field. lra.
Qed.
Lemma zscores_2 n sol a : (2 <= n)%nat -> (forall r, (r < 2 * n)%nat -> 0 < sol r) ->
  let p := p_dbcm (fun i => sol i) (fun i => sol (n + i)%nat) in
  let z c f := Some ((c - mean_directed n p f) / sqrt (var_directed n p f)) in
  let c0 g := match count_2motif_0 KNdarray n (as_matrix g) with Some c => IZR c | None => 0 end in
  let c1 g := INR (count_2motif_1 n (as_matrix g)) in let c2 g := INR (count_2motif_2 n (as_matrix g)) in
  zscore_dcm_2motif_2 n sol a = z (INR (count_2motif_2 n a)) c2 /\
  zscore_dcm_2motif_1 n sol a = z (INR (count_2motif_1 n a)) c1 /\
  (forall c, count_2motif_0 KNdarray n a = Some c -> zscore_dcm_2motif_0 KNdarray n sol a = z (IZR c) c0) /\
  (zscore_dcm_2motif_2 n sol a = Some 0 <-> INR (count_2motif_2 n a) = mean_directed n p c2) /\
  (zscore_dcm_2motif_1 n sol a = Some 0 <-> INR (count_2motif_1 n a) = mean_directed n p c1) /\
  (forall c, count_2motif_0 KNdarray n a = Some c -> (zscore_dcm_2motif_0 KNdarray n sol a = Some 0 <-> IZR c = mean_directed n p c0)).
Proof.
  intros Hn HS p z c0 c1 c2. destruct (std2_pos n sol Hn HS) as (S2 & S1 & S0).
  assert (HS' : forall r, (r < 2 * n)%nat -> 0 <= sol r) by (intros; apply Rlt_le; auto).
  destruct (moments_2 n sol HS') as [E2 V2]. destruct (moments_1 n sol HS') as [E1 V1]. destruct (moments_0 n sol HS') as [E0 V0].
  fold p c2 in E2, V2. fold p c1 in E1, V1. change (zeros_of n) with c0 in E0, V0. fold p in E0, V0.
  assert (Q2 : sqrt (var_directed n p c2) = std_dcm_2motif_2 n sol) by (rewrite <- V2; apply sqrt_pow2, Rlt_le, S2).
  assert (Q1 : sqrt (var_directed n p c1) = std_dcm_2motif_1 n sol) by (rewrite <- V1; apply sqrt_pow2, Rlt_le, S1).
  assert (Q0 : sqrt (var_directed n p c0) = std_dcm_2motif_0 n sol) by (rewrite <- V0; apply sqrt_pow2, Rlt_le, S0).
  unfold z. rewrite Q2, Q1, Q0, <- E2, <- E1, <- E0. unfold zscore_dcm_2motif_2, zscore_dcm_2motif_1, zscore_dcm_2motif_0.
  repeat split; try (apply zscore_value; assumption); try (apply zscore_zero_iff; assumption).
  - intros c ->. apply zscore_value, S0.
  - rewrite H. intros HZ. exact (proj1 (zscore_zero_iff _ _ _ S0) HZ).
  - rewrite H. intros HZ. exact (proj2 (zscore_zero_iff _ _ _ S0) HZ).
Qed.
Lemma zscores_3 m n sol a : (1 <= m <= 13)%nat -> (forall r, (r < 2 * n)%nat -> 0 <= sol r) -> std_dcm_3motif m n sol <> 0 ->
  let p := p_dbcm (fun i => sol i) (fun i => sol (n + i)%nat) in
  let e := mean_directed n p (fun g => count_3motif_ndarray m n (as_matrix g)) in
  zscore_dcm_3motif KNdarray m n sol a = Some ((count_3motif_ndarray m n a - e) / std_dcm_3motif m n sol) /\
  (zscore_dcm_3motif KNdarray m n sol a = Some 0 <-> count_3motif_ndarray m n a = e).
Proof.
  intros Hm HS HZ p e. assert (HP : 0 < std_dcm_3motif m n sol).
  { assert (0 <= std_dcm_3motif m n sol) by (rewrite (std_slopes m n sol Hm); apply sqrt_pos). lra. }
  assert (E : expected_dcm_3motif m n sol = e) by (apply expected_mean; assumption).
  unfold zscore_dcm_3motif. cbn [count_3motif]. rewrite E. split; [apply zscore_value, HP|apply zscore_zero_iff, HP].
Qed.
(** Motif 13 always has a positive standard deviation. *)
Lemma std13_pos n sol : (3 <= n)%nat -> (forall r, (r < 2 * n)%nat -> 0 < sol r) -> 0 < std_dcm_3motif 13 n sol.
Proof.
  intros Hn HS. assert (HS' : forall r, (r < 2 * n)%nat -> 0 <= sol r) by (intros; apply Rlt_le; auto).
  set (p := p_dbcm (fun i => sol i) (fun i => sol (n + i)%nat)).
  assert (HP : forall i j, (i < n)%nat -> (j < n)%nat -> 0 < p i j < 1).
  { intros i j Hi Hj. pose proof (link_range n sol HS' i j Hi Hj) as H1. fold p in H1. split; [|lra]. unfold p, p_dbcm.
    apply Rdiv_lt_0_compat; [apply Rmult_lt_0_compat; apply HS; lia|apply (den_pos n sol HS' i j Hi Hj)]. }
  rewrite std_slopes by lia. fold p. apply sqrt_lt_R0, dsum_pos; [lia|]. intros u v Hu Hv N. pose proof (HP u v Hu Hv).
  apply Rmult_lt_0_compat; [apply Rmult_lt_0_compat; lra|]. apply pow_lt. unfold link_slope.
  assert (HT : exists w, (w < n)%nat /\ w <> u /\ w <> v).
  { destruct (Nat.eq_dec u 0), (Nat.eq_dec v 0), (Nat.eq_dec u 1), (Nat.eq_dec v 1); try (exists 0%nat; lia); try (exists 1%nat; lia); try (exists 2%nat; lia). }
  destruct HT as (w & Hw & W1 & W2). clearbody p.
  assert (HW : forall w', (w' < n)%nat -> 0 < slope (motif 13) (p v u) (p u w') (p w' u) (p v w') (p w' v)).
  { intros w' Hw'. pose proof (HP v u Hv Hu). pose proof (HP u w' Hu Hw'). pose proof (HP w' u Hw' Hu). pose proof (HP v w' Hv Hw'). pose proof (HP w' v Hw' Hv).
    cbn [slope motif sg fac]. repeat apply Rplus_lt_0_compat; repeat apply Rmult_lt_0_compat; lra. }
  apply (rsum_pos n _ w); [|exact Hw|].
  - intros j Hj. destruct (Nat.eqb j u || Nat.eqb j v); [lra|apply Rlt_le, HW, Hj].
  - destruct (Nat.eqb_spec w u); [contradiction|]. destruct (Nat.eqb_spec w v); [contradiction|]. apply HW, Hw.
Qed.

(** * Solutions with a vanishing standard deviation *)
Definition links (t : triad) : nat :=
  match t with (a, b, c, d, e, f) => length (filter (fun b : bool => b) [a; b; c; d; e; f]) end.
Definition flat (m : nat) : R := sqrt (INR (links (motif m)) / (6 - INR (links (motif m)))).
Lemma links_range m : (1 <= m <= 12)%nat -> (2 <= links (motif m) <= 5)%nat.
Proof. intros H. do 13 (destruct m as [|m]; [cbv; lia|]). lia. Qed.
Lemma flat_sq m : (1 <= m <= 12)%nat -> 0 < flat m /\ flat m * flat m / (1 + flat m * flat m) = INR (links (motif m)) / 6.
Proof.
  intros Hm. pose proof (links_range m Hm) as [H1 H2]. apply le_INR in H1, H2. replace (INR 2) with 2 in H1 by (simpl; ring). replace (INR 5) with 5 in H2 by (simpl; ring).
  unfold flat. set (e := INR (links (motif m))) in *. assert (HQ : 0 < e / (6 - e)) by (apply Rdiv_lt_0_compat; lra).
  split; [apply sqrt_lt_R0, HQ|]. rewrite sqrt_sqrt by lra. field. split; lra.
Qed.
Lemma slope_flat t : (1 <= links t <= 5)%nat -> let q := INR (links t) / 6 in slope t q q q q q = 0.
Proof.
  destruct t as [[[[[b1 b2] b3] b4] b5] b6]. destruct b1, b2, b3, b4, b5, b6; simpl; intros HL; try (exfalso; lia); field.
Qed.
Lemma std_zero m n : (1 <= m <= 12)%nat -> std_dcm_3motif m n (fun _ => flat m) = 0.
Proof.
  intros Hm. rewrite std_slopes by lia. rewrite <- sqrt_0. f_equal. unfold dsum. apply rsum_zero. intros u _. apply rsum_zero. intros v _.
  destruct (Nat.eqb u v); [reflexivity|]. unfold link_slope, p_dbcm. rewrite (proj2 (flat_sq m Hm)).
  rewrite (rsum_zero n); [ring|]. intros w _. destruct (_ || _); [reflexivity|]. apply (slope_flat (motif m)). pose proof (links_range m Hm). lia.
Qed.
Lemma lsum_nonneg {A} (l : list A) f : (forall a, In a l -> 0 <= f a) -> 0 <= lsum l f.
Proof. induction l as [|a l IH]; intros H; simpl; [lra|]. apply Rplus_le_le_0_compat; [apply H; left; reflexivity|apply IH; intros; apply H; right; assumption]. Qed.
Lemma lsum_pos_in {A} (l : list A) f a : (forall b, In b l -> 0 <= f b) -> In a l -> 0 < f a -> 0 < lsum l f.
Proof.
  induction l as [|b l IH]; intros H HI HA; [destruct HI|]. simpl. destruct HI as [->|HI].
  - apply Rplus_lt_le_0_compat; [exact HA|]. apply lsum_nonneg. intros; apply H; right; assumption.
  - apply Rplus_le_lt_0_compat; [apply H; left; reflexivity|]. apply IH; [intros; apply H; right; assumption|exact HI|exact HA].
Qed.
Lemma lprod_pos {A} (l : list A) f : (forall a, In a l -> 0 < f a) -> 0 < lprod l f.
Proof. induction l as [|a l IH]; intros H; simpl; [lra|]. apply Rmult_lt_0_compat; [apply H; left; reflexivity|apply IH; intros; apply H; right; assumption]. Qed.
Lemma weight_pos n p a : (forall i j, (i < n)%nat -> (j < n)%nat -> i <> j -> 0 < p i j < 1) -> 0 < prob_directed n p a.
Proof.
  intros HP. rewrite <- weight_dpairs. unfold weight. apply lprod_pos. intros [i j] HI. apply in_dpairs in HI. destruct HI as (Hi & Hj & N). simpl.
  pose proof (HP i j Hi Hj N). destruct (a i j); simpl; lra.
Qed.
Lemma var_pos n p f g : (forall i j, (i < n)%nat -> (j < n)%nat -> i <> j -> 0 < p i j < 1) -> In g (all_digraphs n) -> f g <> mean_directed n p f -> 0 < var_directed n p f.
Proof.
  intros HP HG HF. unfold var_directed, mean_directed at 1. apply (lsum_pos_in _ _ g); [|exact HG|].
  - intros b _. apply Rmult_le_pos; [apply Rlt_le, weight_pos, HP|apply pow2_ge_0].
  - apply Rmult_lt_0_compat; [apply weight_pos, HP|]. assert (HN : f g - mean_directed n p f <> 0) by lra.
    pose proof (pow2_ge_0 (f g - mean_directed n p f)). pose proof (pow_nonzero _ 2 HN). lra.
Qed.
Lemma empty_in l : In (fun _ _ => false) (graphs_on l).
Proof. induction l as [|e l IH]; simpl; [left; reflexivity|]. apply in_flat_map. exists (fun _ _ => false). split; [exact IH|left; reflexivity]. Qed.
Lemma count_empty m n : (1 <= m <= 13)%nat -> count_3motif_ndarray m n (as_matrix (fun _ _ => false)) = 0.
Proof.
  intros Hm. rewrite (count_ordered m n (fun _ _ => false)) by (exact Hm || apply as_matrix_of).
  unfold tri. apply rsum_zero. intros. apply rsum_zero. intros. apply rsum_zero. intros. destruct (dist3 _ _ _); [|reflexivity].
  pattern m. apply motif_cases; [..|exact Hm]; reflexivity.
Qed.
Lemma mean_count_pos m n p : (1 <= m <= 13)%nat -> (3 <= n)%nat -> (forall i j, (i < n)%nat -> (j < n)%nat -> i <> j -> 0 < p i j < 1) ->
  0 < mean_directed n p (fun g => count_3motif_ndarray m n (as_matrix g)).
Proof.
  intros Hm Hn HP. rewrite mean_count by exact Hm. set (f := fun i j k => pat (motif m) (p i j) (p j i) (p i k) (p k i) (p j k) (p k j)).
  assert (HF : forall i j k, (i < n)%nat -> (j < n)%nat -> (k < n)%nat -> dist3 i j k = true -> 0 < f i j k).
  { intros i j k Hi Hj Hk HD. unfold dist3 in HD. destruct (Nat.eqb_spec i j); [discriminate|]. destruct (Nat.eqb_spec i k); [simpl in HD; discriminate|]. destruct (Nat.eqb_spec j k); [simpl in HD; discriminate|].
    pose proof (HP i j Hi Hj n0). assert (n0' : j <> i) by congruence. pose proof (HP j i Hj Hi n0'). pose proof (HP i k Hi Hk n1). assert (n1' : k <> i) by congruence. pose proof (HP k i Hk Hi n1').
    pose proof (HP j k Hj Hk n2). assert (n2' : k <> j) by congruence. pose proof (HP k j Hk Hj n2').
    unfold f. destruct (motif m) as [[[[[b1 b2] b3] b4] b5] b6]. unfold pat.
    assert (HA : forall b v, 0 < v < 1 -> 0 < fac b v) by (intros [] v Hv; simpl; lra).
    repeat apply Rmult_lt_0_compat; apply HA; assumption. }
  assert (HG : forall i j k, (i < n)%nat -> (j < n)%nat -> (k < n)%nat -> 0 <= if dist3 i j k then f i j k else 0).
  { intros i j k Hi Hj Hk. destruct (dist3 i j k) eqn:E; [apply Rlt_le, HF; assumption|lra]. }
  unfold tri. apply (rsum_pos n _ 0%nat); [|lia|].
  - intros i Hi. apply rsum_nonneg. intros j Hj. apply rsum_nonneg. intros k Hk. apply HG; assumption.
  - apply (rsum_pos n _ 1%nat); [|lia|].
    + intros j Hj. apply rsum_nonneg. intros k Hk. apply HG; lia.
    + apply (rsum_pos n _ 2%nat); [|lia|]; [intros k Hk; apply HG; lia|]. simpl. apply HF; try lia. reflexivity.
Qed.
(** For every motif but the last and every [n >= 3] there is a positive solution with reported
    standard deviation zero, no z-score for any matrix, and a positive true variance. *)
Lemma std3_refuted m n : (1 <= m <= 12)%nat -> (3 <= n)%nat -> exists sol,
  (forall r, 0 < sol r) /\ std_dcm_3motif m n sol = 0 /\ (forall a, zscore_dcm_3motif KNdarray m n sol a = None) /\
  0 < var_directed n (p_dbcm (fun i => sol i) (fun i => sol (n + i)%nat)) (fun g => count_3motif_ndarray m n (as_matrix g)).
Proof.
  intros Hm Hn. exists (fun _ => flat m). split; [intros; apply flat_sq, Hm|]. split; [apply std_zero, Hm|]. split.
  - intros a. unfold zscore_dcm_3motif. cbn [count_3motif]. unfold zscore_of, sdiv. rewrite std_zero by exact Hm. destruct (Req_EM_T 0 0); [reflexivity|contradiction].
  - assert (HP : forall i j, (i < n)%nat -> (j < n)%nat -> i <> j -> 0 < p_dbcm (fun _ => flat m) (fun _ => flat m) i j < 1).
    { intros i j _ _ _. unfold p_dbcm. rewrite (proj2 (flat_sq m Hm)). pose proof (links_range m Hm) as [H1 H2]. apply le_INR in H1, H2.
      replace (INR 2) with 2 in H1 by (simpl; ring). replace (INR 5) with 5 in H2 by (simpl; ring). lra. }
    apply (var_pos n _ _ (fun _ _ => false) HP); [apply empty_in|]. rewrite count_empty by lia.
    assert (Hm' : (1 <= m <= 13)%nat) by lia. pose proof (mean_count_pos m n _ Hm' Hn HP). lra.
Qed.
(** The directed cycle on four nodes: the maximum-likelihood solution is such a point for motif 2. *)
Definition cycle4 (i j : nat) : bool := Nat.eqb j (if Nat.eqb i 3 then 0 else S i) && Nat.ltb i 4.
Lemma cycle_solution : forall i, (i < 4)%nat ->
  rsum 4 (fun j => if Nat.eqb i j then 0 else p_dbcm (fun _ => flat 2) (fun _ => flat 2) i j) = rsum 4 (fun j => ind (cycle4 i j)) /\
  rsum 4 (fun j => if Nat.eqb i j then 0 else p_dbcm (fun _ => flat 2) (fun _ => flat 2) j i) = rsum 4 (fun j => ind (cycle4 j i)).
Proof.
  intros i Hi. unfold p_dbcm. rewrite (proj2 (flat_sq 2 ltac:(lia))). do 4 (destruct i as [|i]; [split; simpl; field|]). lia.
Qed.
Lemma cycle_zscore : (forall i, (i < 4)%nat ->
  rsum 4 (fun j => if Nat.eqb i j then 0 else p_dbcm (fun _ => flat 2) (fun _ => flat 2) i j) = rsum 4 (fun j => ind (cycle4 i j)) /\
  rsum 4 (fun j => if Nat.eqb i j then 0 else p_dbcm (fun _ => flat 2) (fun _ => flat 2) j i) = rsum 4 (fun j => ind (cycle4 j i))) /\
  zscore_dcm_3motif KNdarray 2 4 (fun _ => flat 2) (as_matrix cycle4) = None.
Proof.
  split; [exact cycle_solution|]. unfold zscore_dcm_3motif. cbn [count_3motif]. unfold zscore_of, sdiv. rewrite std_zero by lia. destruct (Req_EM_T 0 0); [reflexivity|contradiction].
Qed.
