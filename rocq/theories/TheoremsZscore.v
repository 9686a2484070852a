(** Z-scores of graph objects after a solve, and under renaming of the nodes and reversal of the
    links. *)
From Coq Require Import Reals List Arith Bool ZArith Lia Lra String.
From Coquelicot Require Import Coquelicot.
From Verif Require Import Base SpecGraph SpecEnsemble SpecDispatch SpecSolver SpecGuess SpecRun SpecSolve SpecTool SpecReach SpecNetwork SpecDirected ModelNetwork ModelMotifs SpecMotifs SpecZscore
  SpecLife ModelLife ModelDispatch ModelSolve ModelGuess ModelRun ModelTool ModelObject SpecObject WitnessObject WitnessRename SpecReachTool SpecRename ModelZscore ProofsZscore ProofsReverse ProofsFlat WitnessZscore.
Import ListNotations.
Local Open Scope R_scope.

(** C100 *)
Theorem C100_two_node :
  forall (L : Type) (leb eqb : L -> L -> bool) e n g t,
  (0 < n)%nat -> loopless n g -> In (t_model t) ["dcm"; "dcm_exp"]%string ->
  exists ob, @d_construct L leb eqb (ArrayAdj n (as_matrix g)) NoEdges NoSeq NoSeq = inl ob /\
  forall o', returned (d_new_tool e ob t) o' -> exists x y e1 e2, ds_x o' = Some x /\ ds_y o' = Some y /\ ds_err o' = Some (Rmax e1 e2) /\
    sup_dev n (fun i => mean_directed n (p_dbcm x y) (fun h => deg n h i)) (deg n g) e1 /\
    sup_dev n (fun i => mean_directed n (p_dbcm x y) (fun h => indeg n h i)) (indeg n g) e2 /\
    (t_model t = "dcm_exp"%string \/ (forall i, (i < n)%nat -> 0 <= x i /\ 0 <= y i) ->
     ((forall c, In c [empty_pairs n; single_pairs n; full_pairs n] -> 0 < var_directed n (p_dbcm x y) c) ->
        d_zscore_2motifs ob "dcm" o' = inr [(0%nat, Some (standard_score n (p_dbcm x y) g (empty_pairs n)));
          (1%nat, Some (standard_score n (p_dbcm x y) g (single_pairs n))); (2%nat, Some (standard_score n (p_dbcm x y) g (full_pairs n)))]) /\
     ((exists c, In c [empty_pairs n; single_pairs n; full_pairs n] /\ ~ 0 < var_directed n (p_dbcm x y) c) -> d_zscore_2motifs ob "dcm" o' = inl EArith)).
Proof. exact two_node_object. Qed.
Print Assumptions C100_two_node.
Theorem C100_two_node_variance :
  forall n x y,
  (2 <= n)%nat -> (forall i, (i < n)%nat -> 0 < x i /\ 0 < y i) ->
  forall c, In c [empty_pairs n; single_pairs n; full_pairs n] -> 0 < var_directed n (p_dbcm x y) c.
Proof. exact dyads_vary. Qed.
Print Assumptions C100_two_node_variance.
Theorem C100_three_node :
  forall (L : Type) (leb eqb : L -> L -> bool) e n g t,
  (0 < n)%nat -> In (t_model t) ["dcm"; "dcm_exp"]%string ->
  exists ob, @d_construct L leb eqb (ArrayAdj n (as_matrix g)) NoEdges NoSeq NoSeq = inl ob /\
  forall o', returned (d_new_tool e ob t) o' -> exists x y s, ds_x o' = Some x /\ ds_y o' = Some y /\
    (t_model t = "dcm_exp"%string \/ (forall i, (i < n)%nat -> 0 <= x i /\ 0 <= y i) ->
     (forall m, (1 <= m <= 13)%nat -> linear_std n (p_dbcm x y) (occurrences m n) (s m)) /\
     ((forall m, (1 <= m <= 13)%nat -> s m <> 0) ->
        d_zscore_3motifs ob "dcm" o' = inr (map (fun m => (m, Some ((occurrences m n g - mean_directed n (p_dbcm x y) (occurrences m n)) / s m))) (seq 1 13))) /\
     ((exists m, (1 <= m <= 13)%nat /\ s m = 0) -> d_zscore_3motifs ob "dcm" o' = inl EArith)).
Proof. exact three_node_object. Qed.
Print Assumptions C100_three_node.
Theorem C100_linear_std_unique :
  forall n p c s s',
  linear_std n p c s -> linear_std n p c s' -> s = s'.
Proof. exact linear_std_unique. Qed.
Print Assumptions C100_linear_std_unique.
Theorem C100_fitted :
  forall (L : Type) (leb eqb : L -> L -> bool) e nm tol n g ds,
  (2 <= n)%nat -> INR n <= 10 ^ 21 -> loopless n g ->
  distinct (combine (row_degrees n (as_matrix g)) (col_degrees n (as_matrix g))) ds -> sound_numpy (2 * List.length ds) e -> In nm binary_names -> 0 < tol ->
  exists ob, @d_construct L leb eqb (ArrayAdj n (as_matrix g)) NoEdges NoSeq NoSeq = inl ob /\
    eventually (fun M eps => forall t, exp_call "dcm_exp" nm e tol M eps t -> exists o' x y, returned (d_new_tool e ob t) o' /\ d_fitted n g tol o' /\ ds_x o' = Some x /\ ds_y o' = Some y /\
      d_zscore_2motifs ob "dcm" o' = inr [(0%nat, Some (standard_score n (p_dbcm x y) g (empty_pairs n)));
          (1%nat, Some (standard_score n (p_dbcm x y) g (single_pairs n))); (2%nat, Some (standard_score n (p_dbcm x y) g (full_pairs n)))]).
Proof. exact fitted_scores. Qed.
Print Assumptions C100_fitted.
Example C100_fitted_case :
  exists ds e, loopless 3 ring3 /\ INR 3 <= 10 ^ 21 /\ distinct (combine (row_degrees 3 (as_matrix ring3)) (col_degrees 3 (as_matrix ring3))) ds /\ sound_numpy (2 * List.length ds) e /\
  full_pairs 3 ring3 = 2 /\ single_pairs 3 ring3 = 2 /\ empty_pairs 3 ring3 = 0 /\
  forall meth nm tol M eps, In meth descent_methods -> exists t, exp_call "dcm_exp" nm e tol M eps t /\ t_method t = meth.
Proof. exact ring3_meets. Qed.
Example C100_returns_case :
  exists e ob t o, @d_construct nat Nat.leb Nat.eqb (ArrayAdj 3 (as_matrix ring3)) NoEdges NoSeq NoSeq = inl ob /\ t_model t = "dcm_exp"%string /\ t_guess t = GStr "degrees" /\
  returned (d_new_tool e ob t) o /\ exists z, d_zscore_2motifs ob "dcm" o = inr z /\ List.length z = 3%nat.
Proof. exact ring3_returns. Qed.
Theorem C100_unsolved :
  forall (L : Type) (ob : @dgraph L) sparse,
  d_zscore_2motifs ob "dcm" (d_fresh sparse) = inl EValue /\ d_zscore_3motifs ob "dcm" (d_fresh sparse) = inl EValue.
Proof. exact unsolved_scores. Qed.
Print Assumptions C100_unsolved.
Theorem C100_other_model :
  forall (L : Type) (ob : @dgraph L) model o,
  model <> "dcm"%string -> d_zscore_2motifs ob model o = inr [] /\ d_zscore_3motifs ob model o = inr [].
Proof. exact other_scores. Qed.
Print Assumptions C100_other_model.
Theorem C100_edges_raise :
  forall (L : Type) (leb eqb : L -> L -> bool) es ob o x y,
  (exists p, es = PairEdges p /\ p <> []) \/ (exists p, es = TripleEdges p /\ p <> []) ->
  @d_construct L leb eqb NoAdj es NoSeq NoSeq = inl ob -> ds_x o = Some x -> ds_y o = Some y ->
  d_zscore_2motifs ob "dcm" o = inl EAttribute /\ d_zscore_3motifs ob "dcm" o = inl EType.
Proof. exact edges_scores. Qed.
Print Assumptions C100_edges_raise.
Example C100_edges_case :
  exists ob : @dgraph nat, d_construct Nat.leb Nat.eqb NoAdj (TripleEdges tri_edges) NoSeq NoSeq = inl ob /\ tri_edges <> [].
Proof. exact edges_scores_case. Qed.
Theorem C100_sparse_raises :
  forall (L : Type) (leb eqb : L -> L -> bool) k stored n a ob o x y,
  (0 < stored)%nat -> k <> OtherKind -> nonneg_matrix n a ->
  @d_construct L leb eqb (SparseAdj k stored n a) NoEdges NoSeq NoSeq = inl ob -> ds_x o = Some x -> ds_y o = Some y -> d_zscore_2motifs ob "dcm" o = inl EType.
Proof. exact sparse_scores. Qed.
Print Assumptions C100_sparse_raises.
Example C100_sparse_case :
  exists ob : @dgraph nat, nonneg_matrix 3 tri_weights /\ d_construct Nat.leb Nat.eqb (SparseAdj Csr 4 3 tri_weights) NoEdges NoSeq NoSeq = inl ob.
Proof. exact sparse_case. Qed.
Theorem C100_flat_raises :
  forall (L : Type) (leb eqb : L -> L -> bool) n q a ob o x y,
  (0 < n)%nat -> (2 <= q <= 5)%nat -> nonneg_matrix n a -> @d_construct L leb eqb (ArrayAdj n a) NoEdges NoSeq NoSeq = inl ob ->
  ds_x o = Some x -> ds_y o = Some y -> (forall i j, (i < n)%nat -> (j < n)%nat -> i <> j -> p_dbcm x y i j = INR q / 6) -> d_zscore_3motifs ob "dcm" o = inl EArith.
Proof. exact flat_raises. Qed.
Print Assumptions C100_flat_raises.
Example C100_flat_case :
  exists x y : nat -> R, (forall i, (i < 4)%nat -> 0 < x i /\ 0 < y i) /\ (forall i j, (i < 4)%nat -> (j < 4)%nat -> i <> j -> p_dbcm x y i j = INR 2 / 6) /\
  (forall i, (i < 4)%nat -> rsum 4 (fun j => if Nat.eqb j i then 0 else p_dbcm x y i j) = 1 /\ rsum 4 (fun j => if Nat.eqb j i then 0 else p_dbcm x y j i) = 1).
Proof. exact flat_case. Qed.
Theorem C100_weighted_refuted :
  exists n a (ds : list (R * R)) e, nonneg_matrix n a /\ (forall i, (i < n)%nat -> a i i = 0) /\ sound_numpy (2 * List.length ds) e /\
  exists ob, @d_construct nat Nat.leb Nat.eqb (ArrayAdj n a) NoEdges NoSeq NoSeq = inl ob /\
  forall nm tol, In nm binary_names -> 0 < tol -> eventually (fun M eps => forall t, exp_call "dcm_exp" nm e tol M eps t ->
    exists o' x y z, returned (d_new_tool e ob t) o' /\ d_fitted n (links a) tol o' /\ ds_x o' = Some x /\ ds_y o' = Some y /\ d_zscore_2motifs ob "dcm" o' = inr z /\
      ~ In (1%nat, Some (standard_score n (p_dbcm x y) (links a) (single_pairs n))) z).
Proof. exact weighted_scores_refuted. Qed.
Print Assumptions C100_weighted_refuted.
Theorem C100_decm_links :
  forall x y bo bi i j,
  0 < x i * y j -> 0 < bo i * bi j < 1 -> p_dbcm x y i j = p_enhanced x y bo bi i j <-> bo i * bi j = / 2.
Proof. exact enhanced_agrees. Qed.
Print Assumptions C100_decm_links.
Theorem C100_decm_refuted :
  forall m meth,
  In m ["decm"; "decm_exp"]%string -> In meth descent_methods ->
  exists e t ob o' x y bo bi z z0 z1 z2, @d_construct nat Nat.leb Nat.eqb (ArrayAdj 3 tri_weights) NoEdges NoSeq NoSeq = inl ob /\ t_model t = m /\ t_method t = meth /\
    returned (d_new_tool e ob t) o' /\ ds_x o' = Some x /\ ds_y o' = Some y /\ ds_bo o' = Some bo /\ ds_bi o' = Some bi /\
    (forall i j, (i < 3)%nat -> (j < 3)%nat -> 0 < x i /\ 0 < y i /\ 0 < bo i * bi j < 1) /\
    d_zscore_2motifs ob "dcm" o' = inr z /\ z = [(0%nat, Some z0); (1%nat, Some z1); (2%nat, Some z2)] /\
    z1 = (1 - mean_directed 3 (p_dbcm x y) (single_pairs 3)) / sqrt (var_directed 3 (p_dbcm x y) (single_pairs 3)) /\
    forall i j, (i < 3)%nat -> (j < 3)%nat -> p_dbcm x y i j <> p_enhanced x y bo bi i j.
Proof. exact decm_scores_refuted. Qed.
Print Assumptions C100_decm_refuted.

(** C101 *)
Theorem C101_two_renamed :
  forall n p x' y' x y a' a,
  relabelling n p -> renamed_matrix n p a' a -> (forall i, (i < n)%nat -> x' i = x (p i)) -> (forall i, (i < n)%nat -> y' i = y (p i)) ->
  (forall i, (i < n)%nat -> 0 <= x i /\ 0 <= y i) -> zscore_2motifs "dcm" n x' y' a' = zscore_2motifs "dcm" n x y a.
Proof. exact two_renamed. Qed.
Print Assumptions C101_two_renamed.
Theorem C101_three_renamed :
  forall n p x' y' x y a' a,
  relabelling n p -> renamed_matrix n p a' a -> (forall i, (i < n)%nat -> x' i = x (p i)) -> (forall i, (i < n)%nat -> y' i = y (p i)) ->
  zscore_3motifs "dcm" KNdarray n x' y' a' = zscore_3motifs "dcm" KNdarray n x y a.
Proof. exact three_renamed. Qed.
Print Assumptions C101_three_renamed.
Theorem C101_object_renamed :
  forall (L : Type) (leb eqb : L -> L -> bool) e n p a' a t s o,
  (0 < n)%nat -> nonneg_matrix n a -> relabelling n p -> renamed_matrix n p a' a ->
  In (t_model t) ["dcm"; "dcm_exp"]%string -> t_guess t = GStr s ->
  exists g' g, @d_construct L leb eqb (ArrayAdj n a') NoEdges NoSeq NoSeq = inl g' /\ @d_construct L leb eqb (ArrayAdj n a) NoEdges NoSeq NoSeq = inl g /\
    (returned (d_new_tool e g t) o -> exists o', returned (d_new_tool e g' t) o' /\ d_zscore_3motifs g' "dcm" o' = d_zscore_3motifs g "dcm" o /\
      (t_model t = "dcm_exp"%string \/ (forall x y i, ds_x o = Some x -> ds_y o = Some y -> (i < n)%nat -> 0 <= x i /\ 0 <= y i) -> d_zscore_2motifs g' "dcm" o' = d_zscore_2motifs g "dcm" o)).
Proof. exact renamed_object_scores. Qed.
Print Assumptions C101_object_renamed.
Example C101_object_renamed_case :
  exists e t o g, relabelling 3 swap01 /\ renamed_matrix 3 swap01 (fun i j => as_matrix ring3 (swap01 i) (swap01 j)) (as_matrix ring3) /\ nonneg_matrix 3 (as_matrix ring3) /\
  In (t_model t) ["dcm"; "dcm_exp"]%string /\ t_guess t = GStr "degrees" /\ @d_construct nat Nat.leb Nat.eqb (ArrayAdj 3 (as_matrix ring3)) NoEdges NoSeq NoSeq = inl g /\ returned (d_new_tool e g t) o /\
  ring3 (swap01 0) (swap01 1) <> ring3 0 1.
Proof. exact ring3_renamed_case. Qed.
Theorem C101_two_reversed :
  forall n x y a,
  (forall i, (i < n)%nat -> 0 <= x i /\ 0 <= y i) -> zscore_2motifs "dcm" n y x (reversed a) = zscore_2motifs "dcm" n x y a.
Proof. exact two_reversed. Qed.
Print Assumptions C101_two_reversed.
Theorem C101_three_reversed :
  forall n x y a m m',
  mirror m m' ->
  count_3motif_ndarray m' n (reversed a) = count_3motif_ndarray m n a /\
  expected_dcm_3motif m' n (concatenate n y x) = expected_dcm_3motif m n (concatenate n x y) /\
  std_dcm_3motif m' n (concatenate n y x) = std_dcm_3motif m n (concatenate n x y) /\
  forall z, In (m', z) (zscore_3motifs "dcm" KNdarray n y x (reversed a)) <-> In (m, z) (zscore_3motifs "dcm" KNdarray n x y a).
Proof. exact three_reversed. Qed.
Print Assumptions C101_three_reversed.
Theorem C101_mirror :
  forall m m',
  mirror m m' <-> In (m, m') [(1, 4); (2, 2); (3, 7); (4, 1); (5, 5); (6, 11); (7, 3); (8, 8); (9, 9); (10, 10); (11, 6); (12, 12); (13, 13)]%nat.
Proof. exact mirror_table. Qed.
Print Assumptions C101_mirror.
Example C101_mirror_case :
  mirror 1 4 /\ mirror 13 13 /\ ~ mirror 1 1.
Proof. exact mirror_case. Qed.
