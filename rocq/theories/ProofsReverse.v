(** Motif counts and z-scores under renaming of the nodes and reversal of the links. *)
From Coq Require Import Reals List Arith Bool ZArith Lia Lra String.
From Coquelicot Require Import Coquelicot.
From Verif Require Import Base SpecGraph SpecEnsemble ProofsEnsemble SpecGuess SpecSolver SpecRun SpecTool SpecReach ModelDECM ModelNetwork SpecNetwork ProofsUnique ProofsNetwork ModelMotifs SpecMotifs ProofsDyads ProofsDyadMoments ProofsTriads ProofsTriadMoments WitnessMotifs SpecZscore
  SpecDirected SpecLife ModelLife ProofsLifeDir ModelDispatch ModelSolve SpecSolve ProofsSolve ProofsSolveD ModelGuess ModelRun ModelTool ModelObject SpecObject SpecReachTool ModelZscore SpecRename ProofsZscore.
Import ListNotations.
Local Open Scope R_scope.

(** * The z-scores as functions of the link probabilities *)
Lemma concatenate_link n x y i j : (i < n)%nat -> (j < n)%nat -> p_dbcm (fun i => concatenate n x y i) (fun i => concatenate n x y (n + i)%nat) i j = p_dbcm x y i j.
Proof. intros Hi Hj. exact (concatenate_p n x y i j Hi Hj). Qed.
Definition dyad_scores (n : nat) (P : nat -> nat -> R) (a : matrix) : list (nat * option R) :=
  [(0%nat, match count_2motif_0 KNdarray n a with None => None | Some c => zscore_of (IZR c) (dsum n (fun i j => (1 - P i j) * (1 - P j i)))
        (sqrt (dsum n (fun i j => 2 * (1 - P i j) * (1 - P j i) * (1 - (1 - P i j) * (1 - P j i))))) end);
   (1%nat, zscore_of (INR (count_2motif_1 n a)) (dsum n (fun i j => P i j * (1 - P j i)))
        (sqrt (dsum n (fun i j => P i j * (1 - P j i) * (1 - P i j * (1 - P j i) - P j i * (1 - P i j))))));
   (2%nat, zscore_of (INR (count_2motif_2 n a)) (dsum n (fun i j => P i j * P j i)) (sqrt (dsum n (fun i j => 2 * P i j * P j i * (1 - P i j * P j i)))))].
Lemma dyad_scores_ext n P Q a : (forall i j, (i < n)%nat -> (j < n)%nat -> P i j = Q i j) -> dyad_scores n P a = dyad_scores n Q a.
Proof.
  intros E. unfold dyad_scores.
  repeat match goal with |- context [dsum n ?f] => match f with context [P] =>
    let g := eval pattern P in f in match g with ?h P => rewrite (dsum_ext n f (h Q)) by (intros i j Hi Hj _; cbv beta; rewrite !E by assumption; reflexivity) end end end.
  reflexivity.
Qed.
Lemma dyad_scores_model n x y a : (forall i, (i < n)%nat -> 0 <= x i /\ 0 <= y i) -> zscore_2motifs "dcm" n x y a = dyad_scores n (p_dbcm x y) a.
Proof.
  intros HP. pose proof (concatenate_nonneg n x y HP) as HS. rewrite <- (dyad_scores_ext n _ (p_dbcm x y) a (concatenate_link n x y)).
  unfold zscore_2motifs, dyad_scores. cbn [String.eqb Ascii.eqb Bool.eqb]. cbv zeta. unfold zscore_dcm_2motif_0, zscore_dcm_2motif_1, zscore_dcm_2motif_2.
  rewrite (expected_0_dsum n _ HS), (expected_1_dsum n _ HS), (expected_2_dsum n _ HS), (std_0_dsum n), (std_1_dsum n), (std_2_dsum n). reflexivity.
Qed.
Definition triad_exp (n m : nat) (P : nat -> nat -> R) : R := tri n (fun i j k => pat (motif m) (P i j) (P j i) (P i k) (P k i) (P j k) (P k j)).
Definition triad_std (n m : nat) (P : nat -> nat -> R) : R := sqrt (dsum n (fun u v => P u v * (1 - P u v) * (link_slope n (motif m) P u v) ^ 2)).
Lemma triad_exp_ext n m P Q : (forall i j, (i < n)%nat -> (j < n)%nat -> P i j = Q i j) -> triad_exp n m P = triad_exp n m Q.
Proof. intros E. apply tri_ext. intros i j k Hi Hj Hk _ _ _. rewrite !E by assumption. reflexivity. Qed.
Lemma link_slope_ext n t P Q u v : (forall i j, (i < n)%nat -> (j < n)%nat -> P i j = Q i j) -> (u < n)%nat -> (v < n)%nat -> link_slope n t P u v = link_slope n t Q u v.
Proof. intros E Hu Hv. apply rsum_ext. intros w Hw. rewrite !E by assumption. reflexivity. Qed.
Lemma triad_std_ext n m P Q : (forall i j, (i < n)%nat -> (j < n)%nat -> P i j = Q i j) -> triad_std n m P = triad_std n m Q.
Proof. intros E. unfold triad_std. f_equal. apply dsum_ext. intros u v Hu Hv _. rewrite (link_slope_ext n _ P Q u v E Hu Hv), !E by assumption. reflexivity. Qed.
Lemma triad_exp_model n m x y : (1 <= m <= 13)%nat -> expected_dcm_3motif m n (concatenate n x y) = triad_exp n m (p_dbcm x y).
Proof. intros Hm. rewrite (expected_pat m n _ Hm). exact (triad_exp_ext n m _ _ (concatenate_link n x y)). Qed.
Lemma triad_std_model n m x y : (1 <= m <= 13)%nat -> std_dcm_3motif m n (concatenate n x y) = triad_std n m (p_dbcm x y).
Proof. intros Hm. rewrite (std_slopes m n _ Hm). exact (triad_std_ext n m _ _ (concatenate_link n x y)). Qed.
Definition triad_score (n m : nat) (P : nat -> nat -> R) (a : matrix) : option R := zscore_of (triad_exp n m a) (triad_exp n m P) (triad_std n m P).
Lemma triad_score_model n m x y a : (1 <= m <= 13)%nat -> zscore_dcm_3motif KNdarray m n (concatenate n x y) a = triad_score n m (p_dbcm x y) a.
Proof. intros Hm. unfold zscore_dcm_3motif, triad_score. cbn [count_3motif]. rewrite (count_pat m n a Hm), triad_exp_model, triad_std_model by exact Hm. reflexivity. Qed.

(** * Renaming *)
Lemma relabelling_eqb n p u v : relabelling n p -> (u < n)%nat -> (v < n)%nat -> Nat.eqb (p u) (p v) = Nat.eqb u v.
Proof. intros HP Hu Hv. destruct (Nat.eqb_spec u v) as [->|NE]; [apply Nat.eqb_refl|]. apply Nat.eqb_neq. intros E. apply NE. apply (proj2 HP); assumption. Qed.
Lemma dsum_relabel n p u : relabelling n p -> dsum n (fun i j => u (p i) (p j)) = dsum n u.
Proof.
  intros HP. unfold dsum. rewrite <- (rsum_relabel n p (fun i => rsum n (fun j => if Nat.eqb i j then 0 else u i j)) HP). apply rsum_ext. intros i Hi.
  rewrite <- (rsum_relabel n p (fun j => if Nat.eqb (p i) j then 0 else u (p i) j) HP). apply rsum_ext. intros j Hj. rewrite (relabelling_eqb n p) by assumption. reflexivity.
Qed.
Lemma dyad_scores_relabel n p P a : relabelling n p -> dyad_scores n (fun i j => P (p i) (p j)) (fun i j => a (p i) (p j)) = dyad_scores n P a.
Proof.
  intros HP. unfold dyad_scores. destruct (dyads_relabel n p a KNdarray HP) as (-> & -> & ->).
  rewrite (dsum_relabel n p (fun i j => (1 - P i j) * (1 - P j i)) HP), (dsum_relabel n p (fun i j => 2 * (1 - P i j) * (1 - P j i) * (1 - (1 - P i j) * (1 - P j i))) HP),
    (dsum_relabel n p (fun i j => P i j * (1 - P j i)) HP), (dsum_relabel n p (fun i j => P i j * (1 - P j i) * (1 - P i j * (1 - P j i) - P j i * (1 - P i j))) HP),
    (dsum_relabel n p (fun i j => P i j * P j i) HP), (dsum_relabel n p (fun i j => 2 * P i j * P j i * (1 - P i j * P j i)) HP). reflexivity.
Qed.
Lemma triad_exp_relabel n m p P : relabelling n p -> triad_exp n m (fun i j => P (p i) (p j)) = triad_exp n m P.
Proof. intros HP. exact (tri_relabel n p (fun i j k => pat (motif m) (P i j) (P j i) (P i k) (P k i) (P j k) (P k j)) HP). Qed.
Lemma link_slope_relabel n t p P u v : relabelling n p -> (u < n)%nat -> (v < n)%nat -> link_slope n t (fun i j => P (p i) (p j)) u v = link_slope n t P (p u) (p v).
Proof.
  intros HP Hu Hv. unfold link_slope.
  rewrite <- (rsum_relabel n p (fun w => if Nat.eqb w (p u) || Nat.eqb w (p v) then 0 else slope t (P (p v) (p u)) (P (p u) w) (P w (p u)) (P (p v) w) (P w (p v))) HP).
  apply rsum_ext. intros w Hw. rewrite !(relabelling_eqb n p) by assumption. reflexivity.
Qed.
Lemma triad_std_relabel n m p P : relabelling n p -> triad_std n m (fun i j => P (p i) (p j)) = triad_std n m P.
Proof.
  intros HP. unfold triad_std. f_equal. rewrite <- (dsum_relabel n p (fun u v => P u v * (1 - P u v) * (link_slope n (motif m) P u v) ^ 2) HP).
  apply dsum_ext. intros u v Hu Hv _. rewrite (link_slope_relabel n _ p) by assumption. reflexivity.
Qed.
Lemma plus_transpose_ext n a b : (forall i j, (i < n)%nat -> (j < n)%nat -> a i j = b i j) -> forall test, count_entries n (plus_transpose a) test = count_entries n (plus_transpose b) test.
Proof. intros E test. rewrite !count_entries_nsum. apply nsum_ext. intros i Hi. apply nsum_ext. intros j Hj. unfold plus_transpose. rewrite !E by assumption. reflexivity. Qed.
Lemma dyad_scores_matrix n P a b : (forall i j, (i < n)%nat -> (j < n)%nat -> a i j = b i j) -> dyad_scores n P a = dyad_scores n P b.
Proof. intros E. unfold dyad_scores, count_2motif_0, count_2motif_1, count_2motif_2. cbv zeta. rewrite !(plus_transpose_ext n a b E). reflexivity. Qed.
Lemma link_renamed n p x' y' x y : relabelling n p -> (forall i, (i < n)%nat -> x' i = x (p i)) -> (forall i, (i < n)%nat -> y' i = y (p i)) ->
  forall i j, (i < n)%nat -> (j < n)%nat -> p_dbcm x' y' i j = p_dbcm x y (p i) (p j).
Proof. intros HP HX HY i j Hi Hj. unfold p_dbcm. rewrite HX, HY by assumption. reflexivity. Qed.
Lemma two_renamed n p x' y' x y a' a : relabelling n p -> renamed_matrix n p a' a -> (forall i, (i < n)%nat -> x' i = x (p i)) -> (forall i, (i < n)%nat -> y' i = y (p i)) ->
  (forall i, (i < n)%nat -> 0 <= x i /\ 0 <= y i) -> zscore_2motifs "dcm" n x' y' a' = zscore_2motifs "dcm" n x y a.
Proof.
  intros HP HA HX HY H0. rewrite (dyad_scores_model n x y a H0), (dyad_scores_model n x' y' a') by (intros i Hi; rewrite (HX i Hi), (HY i Hi); apply H0, (proj1 HP), Hi).
  rewrite (dyad_scores_matrix n _ a' (fun i j => a (p i) (p j)) HA), (dyad_scores_ext n _ _ _ (link_renamed n p x' y' x y HP HX HY)). apply dyad_scores_relabel. exact HP.
Qed.
Lemma three_renamed n p x' y' x y a' a : relabelling n p -> renamed_matrix n p a' a -> (forall i, (i < n)%nat -> x' i = x (p i)) -> (forall i, (i < n)%nat -> y' i = y (p i)) ->
  zscore_3motifs "dcm" KNdarray n x' y' a' = zscore_3motifs "dcm" KNdarray n x y a.
Proof.
  intros HP HA HX HY. unfold zscore_3motifs. cbn [String.eqb Ascii.eqb Bool.eqb]. cbv zeta. apply map_ext_in. intros m Hm. apply in_seq in Hm. f_equal.
  rewrite !triad_score_model by lia. unfold triad_score. rewrite (triad_exp_ext n m a' _ HA), (triad_exp_relabel n m p a HP).
  rewrite (triad_exp_ext n m _ _ (link_renamed n p x' y' x y HP HX HY)), (triad_exp_relabel n m p _ HP), (triad_std_ext n m _ _ (link_renamed n p x' y' x y HP HX HY)), (triad_std_relabel n m p _ HP). reflexivity.
Qed.

(** * Reversal *)
Lemma dyad_scores_reversed n P a : dyad_scores n (reversed P) (reversed a) = dyad_scores n P a.
Proof.
  unfold dyad_scores, reversed. 
  assert (E : forall test, count_entries n (plus_transpose (fun i j => a j i)) test = count_entries n (plus_transpose a) test).
  { intros test. rewrite !count_entries_nsum. apply nsum_ext. intros i Hi. apply nsum_ext. intros j Hj. unfold plus_transpose. rewrite Rplus_comm. reflexivity. }
  unfold count_2motif_0, count_2motif_1, count_2motif_2. cbv zeta. rewrite !E.
  rewrite (dsum_swap n (fun i j => (1 - P i j) * (1 - P j i))), (dsum_swap n (fun i j => 2 * (1 - P i j) * (1 - P j i) * (1 - (1 - P i j) * (1 - P j i)))),
    (dsum_swap n (fun i j => P i j * (1 - P j i))), (dsum_swap n (fun i j => P i j * (1 - P j i) * (1 - P i j * (1 - P j i) - P j i * (1 - P i j)))),
    (dsum_swap n (fun i j => P i j * P j i)), (dsum_swap n (fun i j => 2 * P i j * P j i * (1 - P i j * P j i))). reflexivity.
Qed.
Lemma triad_eqb_eq s t : triad_eqb s t = true -> s = t.
Proof.
  destruct s as [[[[[a b] c] d] e] f], t as [[[[[a' b'] c'] d'] e'] f']. cbn [triad_eqb]. rewrite !andb_true_iff, !eqb_true_iff. intros [[[[[-> ->] ->] ->] ->] ->]. reflexivity.
Qed.
Lemma isomorphic_pat n s t (P : nat -> nat -> R) : isomorphic s t = true ->
  tri n (fun i j k => pat t (P i j) (P j i) (P i k) (P k i) (P j k) (P k j)) = tri n (fun i j k => pat s (P i j) (P j i) (P i k) (P k i) (P j k) (P k j)).
Proof.
  set (f := fun s i j k => pat s (P i j) (P j i) (P i k) (P k i) (P j k) (P k j)). change (isomorphic s t = true -> tri n (f t) = tri n (f s)).
  unfold isomorphic. intros H. apply existsb_exists in H. destruct H as (t' & HI & HE). apply triad_eqb_eq in HE. subst t'. destruct s as [[[[[b1 b2] b3] b4] b5] b6]. set (s := (b1, b2, b3, b4, b5, b6)).
  destruct HI as [<-|[<-|[<-|[<-|[<-|[<-|[]]]]]]].
  - reflexivity.
  - rewrite <- (tri_swap23 n (f s)). apply tri_ext. intros i j k _ _ _ _ _ _. unfold f, s, pat. ring.
  - rewrite <- (tri_swap12 n (f s)). apply tri_ext. intros i j k _ _ _ _ _ _. unfold f, s, pat. ring.
  - rewrite <- (tri_swap12 n (f s)), <- (tri_swap23 n (fun i j k => f s j i k)). apply tri_ext. intros i j k _ _ _ _ _ _. unfold f, s, pat. ring.
  - rewrite <- (tri_swap23 n (f s)), <- (tri_swap12 n (fun i j k => f s i k j)). apply tri_ext. intros i j k _ _ _ _ _ _. unfold f, s, pat. ring.
  - rewrite <- (tri_swap12 n (f s)), <- (tri_swap23 n (fun i j k => f s j i k)), <- (tri_swap12 n (fun i j k => f s k i j)). apply tri_ext. intros i j k _ _ _ _ _ _. unfold f, s, pat. ring.
Qed.
Lemma isomorphic_slope s t : isomorphic s t = true -> forall vu uw wu vw wv, slope t vu uw wu vw wv = slope s vu uw wu vw wv.
Proof.
  unfold isomorphic. intros H. apply existsb_exists in H. destruct H as (t' & HI & HE). apply triad_eqb_eq in HE. subst t'. destruct s as [[[[[b1 b2] b3] b4] b5] b6]. intros.
  destruct HI as [<-|[<-|[<-|[<-|[<-|[<-|[]]]]]]]; unfold slope; ring.
Qed.
Lemma triad_exp_reversed n m m' P : mirror m m' -> triad_exp n m' (reversed P) = triad_exp n m P.
Proof.
  intros (_ & _ & HI). unfold triad_exp. rewrite (isomorphic_pat n _ _ (reversed P) HI). apply tri_ext. intros i j k _ _ _ _ _ _. unfold reversed.
  destruct (motif m) as [[[[[b1 b2] b3] b4] b5] b6]. cbn [reversed_triad]. unfold pat. ring.
Qed.
Lemma triad_std_reversed n m m' P : mirror m m' -> triad_std n m' (reversed P) = triad_std n m P.
Proof.
  intros (_ & _ & HI). unfold triad_std. f_equal. rewrite <- (dsum_swap n (fun u v => P u v * (1 - P u v) * (link_slope n (motif m) P u v) ^ 2)). apply dsum_ext. intros u v Hu Hv _.
  replace (link_slope n (motif m') (reversed P) u v) with (link_slope n (motif m) P v u); [reflexivity|]. apply rsum_ext. intros w Hw. rewrite (orb_comm (Nat.eqb w v)).
  destruct (Nat.eqb w u || Nat.eqb w v); [reflexivity|]. rewrite (isomorphic_slope _ _ HI). unfold reversed. destruct (motif m) as [[[[[b1 b2] b3] b4] b5] b6]. cbn [reversed_triad]. unfold slope. ring.
Qed.
Lemma link_reversed x y i j : p_dbcm y x i j = reversed (p_dbcm x y) i j.
Proof. unfold p_dbcm, reversed. rewrite (Rmult_comm (y i)). reflexivity. Qed.
Lemma two_reversed n x y a : (forall i, (i < n)%nat -> 0 <= x i /\ 0 <= y i) -> zscore_2motifs "dcm" n y x (reversed a) = zscore_2motifs "dcm" n x y a.
Proof.
  intros H0. rewrite (dyad_scores_model n x y a H0), (dyad_scores_model n y x) by (intros i Hi; destruct (H0 i Hi); split; assumption).
  rewrite (dyad_scores_ext n _ (reversed (p_dbcm x y))) by (intros; apply link_reversed). apply dyad_scores_reversed.
Qed.
Lemma three_reversed n x y a m m' : mirror m m' ->
  count_3motif_ndarray m' n (reversed a) = count_3motif_ndarray m n a /\
  expected_dcm_3motif m' n (concatenate n y x) = expected_dcm_3motif m n (concatenate n x y) /\
  std_dcm_3motif m' n (concatenate n y x) = std_dcm_3motif m n (concatenate n x y) /\
  forall z, In (m', z) (zscore_3motifs "dcm" KNdarray n y x (reversed a)) <-> In (m, z) (zscore_3motifs "dcm" KNdarray n x y a).
Proof.
  intros HM. destruct HM as (Hm & Hm' & HI) eqn:EM. clear EM HI. rewrite !count_pat, !triad_exp_model, !triad_std_model by assumption.
  assert (E1 : triad_exp n m' (reversed a) = triad_exp n m a) by (apply triad_exp_reversed; exact HM).
  assert (E2 : triad_exp n m' (p_dbcm y x) = triad_exp n m (p_dbcm x y)).
  { rewrite (triad_exp_ext n m' _ (reversed (p_dbcm x y))) by (intros; apply link_reversed). apply triad_exp_reversed. exact HM. }
  assert (E3 : triad_std n m' (p_dbcm y x) = triad_std n m (p_dbcm x y)).
  { rewrite (triad_std_ext n m' _ (reversed (p_dbcm x y))) by (intros; apply link_reversed). apply triad_std_reversed. exact HM. }
  split; [exact E1|]. split; [exact E2|]. split; [exact E3|]. intros z. unfold zscore_3motifs. cbn [String.eqb Ascii.eqb Bool.eqb]. cbv zeta.
  assert (G : forall k x y a, (1 <= k <= 13)%nat -> In (k, z) (map (fun m => (m, zscore_dcm_3motif KNdarray m n (concatenate n x y) a)) (seq 1 13)) <-> z = triad_score n k (p_dbcm x y) a).
  { intros k x0 y0 a0 Hk. rewrite in_map_iff. split.
    - intros (k' & E & HI). injection E as -> <-. apply triad_score_model. exact Hk.
    - intros ->. exists k. split; [rewrite triad_score_model by exact Hk; reflexivity|apply in_seq; lia]. }
  rewrite !G by assumption. unfold triad_score. rewrite E1, E2, E3. reflexivity.
Qed.
Lemma mirror_table m m' : mirror m m' <-> In (m, m') [(1, 4); (2, 2); (3, 7); (4, 1); (5, 5); (6, 11); (7, 3); (8, 8); (9, 9); (10, 10); (11, 6); (12, 12); (13, 13)]%nat.
Proof.
  split.
  - intros (Hm & Hm' & HI). revert HI. do 14 (destruct m as [|m]; [try lia; do 14 (destruct m' as [|m']; [try lia; vm_compute; intros HI; try discriminate HI; tauto|]); lia|]). lia.
  - intros H. cbn [In] in H. repeat destruct H as [H|H]; try contradiction; injection H as <- <-; (split; [lia|split; [lia|vm_compute; reflexivity]]).
Qed.

(** * Objects *)
Lemma carried_params n p x' x : carried (same_node n p) x' x -> match x', x with Some x', Some x => forall i, (i < n)%nat -> x' i = x (p i) | None, None => True | _, _ => False end.
Proof. unfold carried. destruct x', x; try tauto. intros H i Hi. apply H. split; [exact Hi|reflexivity]. Qed.
Lemma renamed_scores (L : Type) (leb eqb : L -> L -> bool) n p a' a g' g o' o : (0 < n)%nat -> nonneg_matrix n a -> relabelling n p -> renamed_matrix n p a' a ->
  @d_construct L leb eqb (ArrayAdj n a') NoEdges NoSeq NoSeq = inl g' -> @d_construct L leb eqb (ArrayAdj n a) NoEdges NoSeq NoSeq = inl g ->
  carried (same_node n p) (ds_x o') (ds_x o) -> carried (same_node n p) (ds_y o') (ds_y o) ->
  d_zscore_3motifs g' "dcm" o' = d_zscore_3motifs g "dcm" o /\
  ((forall x y i, ds_x o = Some x -> ds_y o = Some y -> (i < n)%nat -> 0 <= x i /\ 0 <= y i) -> d_zscore_2motifs g' "dcm" o' = d_zscore_2motifs g "dcm" o).
Proof.
  intros Hn HA HP HR E' E HX HY. apply carried_params in HX. apply carried_params in HY.
  assert (HA' : nonneg_matrix n a') by (intros i j Hi Hj; rewrite (HR i j Hi Hj); apply HA; apply (proj1 HP); assumption).
  destruct (matrix_object L leb eqb n a Hn HA) as (g0 & E0 & DA & DS & _). rewrite E in E0. injection E0 as <-.
  destruct (matrix_object L leb eqb n a' Hn HA') as (g0 & E0 & DA' & DS' & _). rewrite E' in E0. injection E0 as <-.
  unfold d_zscore_3motifs, d_zscore_2motifs. cbn [String.eqb Ascii.eqb Bool.eqb]. rewrite DA, DA', DS, DS'.
  destruct (ds_x o') as [x'|], (ds_x o) as [x|]; try contradiction; [|split; reflexivity].
  destruct (ds_y o') as [y'|], (ds_y o) as [y|]; try contradiction; [|split; reflexivity].
  split; [rewrite (three_renamed n p x' y' x y a' a HP HR HX HY); reflexivity|].
  intros H0. rewrite (two_renamed n p x' y' x y a' a HP HR HX HY (fun i Hi => H0 x y i eq_refl eq_refl Hi)). reflexivity.
Qed.
