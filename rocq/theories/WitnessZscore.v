(** Concrete cases for the z-scores of graph objects. *)
From Coq Require Import Reals List Arith Bool ZArith Lia Lra String.
From Coquelicot Require Import Coquelicot.
From Verif Require Import Base SpecDispatch ProofsStart ProofsObjectLabels ProofsRenameDir ProofsLifeDir WitnessRename SpecGraph SpecEnsemble SpecSolver SpecGuess SpecRun SpecSolve SpecTool SpecReach SpecNetwork SpecDirected ModelNetwork ProofsNetwork ModelMotifs SpecMotifs ProofsDyads ProofsDyadMoments ProofsTriads ProofsTriadMoments SpecZscore
  SpecLife ModelLife ModelDispatch ModelSolve ModelGuess ModelRun ModelTool ModelObject SpecObject ProofsObjectForms WitnessMotifs WitnessTool WitnessStart WitnessObject WitnessReachTool SpecReachTool ProofsReachObject SpecRename ModelZscore ProofsZscore ProofsReverse ProofsFlat.
Import ListNotations.
Local Open Scope R_scope.

Lemma tri_single_weights : count_2motif_1 3 tri_weights = 1%nat.
Proof.
  unfold count_2motif_1. cbv zeta. rewrite count_entries_nsum. unfold plus_transpose, tri_weights, equalsb. cbn [nsum Nat.mul Nat.add nth].
  repeat (match goal with |- context [Req_EM_T ?a ?b] => destruct (Req_EM_T a b); try (exfalso; lra) end). reflexivity.
Qed.
Lemma tri_single_links : single_pairs 3 (links tri_weights) = 2.
Proof.
  unfold single_pairs, pairs_with, single_dyad, SpecReachTool.links, positiveb, tri_weights. cbn [flat_map seq map app filter fst snd Nat.mul Nat.add nth].
  repeat (match goal with |- context [Rlt_dec ?a ?b] => destruct (Rlt_dec a b); try (exfalso; lra) | |- context [Req_EM_T ?a ?b] => destruct (Req_EM_T a b); try (exfalso; lra) end). cbn. lra.
Qed.
Lemma tri_scores (ob : @dgraph nat) o x y : d_adjacency ob = Some (3%nat, tri_weights) -> d_is_sparse ob = false -> ds_x o = Some x -> ds_y o = Some y -> (forall i, (i < 3)%nat -> 0 < x i /\ 0 < y i) ->
  exists z z0 z1 z2, d_zscore_2motifs ob "dcm" o = inr z /\ z = [(0%nat, Some z0); (1%nat, Some z1); (2%nat, Some z2)] /\
    z1 = (1 - mean_directed 3 (p_dbcm x y) (single_pairs 3)) / sqrt (var_directed 3 (p_dbcm x y) (single_pairs 3)) /\ 0 < var_directed 3 (p_dbcm x y) (single_pairs 3).
Proof.
  intros DA DS Ex Ey HP. unfold d_zscore_2motifs. cbn [String.eqb Ascii.eqb Bool.eqb]. rewrite Ex, Ey, DA, DS.
  pose proof (concatenate_pos 3 x y (fun i Hi => proj1 (HP i Hi)) (fun i Hi => proj2 (HP i Hi))) as HS.
  assert (E : forall i j, (i < 3)%nat -> (j < 3)%nat -> p_dbcm (fun i => concatenate 3 x y i) (fun i => concatenate 3 x y (3 + i)%nat) i j = p_dbcm x y i j) by (intros; apply concatenate_p; assumption).
  destruct (zscores_2 3 (concatenate 3 x y) tri_weights ltac:(lia) HS) as (Z2 & Z1 & Z0 & _). cbv zeta in Z2, Z1, Z0.
  unfold zscore_2motifs. cbn [String.eqb Ascii.eqb Bool.eqb]. cbv zeta. rewrite Z2, Z1.
  destruct (count_2motif_0 KNdarray 3 tri_weights) as [c0|] eqn:C0; [|discriminate C0]. rewrite (Z0 c0 eq_refl).
  do 4 eexists. split; [reflexivity|]. split; [reflexivity|]. rewrite tri_single_weights.
  rewrite (mean_directed_p 3 _ _ _ E), (var_directed_p 3 _ _ _ E), (mean_on_digraphs 3 _ _ _ (count_single 3)), (var_on_digraphs 3 _ _ _ (count_single 3)).
  split; [reflexivity|]. apply dyads_vary; [lia|exact HP|cbn; tauto].
Qed.
Lemma tri_matrix_object : exists ob, @d_construct nat Nat.leb Nat.eqb (ArrayAdj 3 tri_weights) NoEdges NoSeq NoSeq = inl ob /\ d_adjacency ob = Some (3%nat, tri_weights) /\ d_is_sparse ob = false.
Proof. destruct (matrix_object nat Nat.leb Nat.eqb 3 tri_weights ltac:(lia) tri_weights_nonneg) as (ob & E & DA & DS & _). exists ob. auto. Qed.
Lemma tri_not_standard p s z1 : 0 < s -> z1 = (1 - mean_directed 3 p (single_pairs 3)) / s -> z1 <> (single_pairs 3 (links tri_weights) - mean_directed 3 p (single_pairs 3)) / s.
Proof. intros Hs -> E. rewrite tri_single_links in E. apply (f_equal (fun r => r * s)) in E. unfold Rdiv in E. rewrite !Rmult_assoc, Rinv_l in E by lra. lra. Qed.
(** The counts of the object are those of the weights. *)
Lemma weighted_scores_refuted : exists n a (ds : list (R * R)) e, nonneg_matrix n a /\ (forall i, (i < n)%nat -> a i i = 0) /\ sound_numpy (2 * List.length ds) e /\
  exists ob, @d_construct nat Nat.leb Nat.eqb (ArrayAdj n a) NoEdges NoSeq NoSeq = inl ob /\
  forall nm tol, In nm binary_names -> 0 < tol -> eventually (fun M eps => forall t, exp_call "dcm_exp" nm e tol M eps t ->
    exists o' x y z, returned (d_new_tool e ob t) o' /\ d_fitted n (links a) tol o' /\ ds_x o' = Some x /\ ds_y o' = Some y /\ d_zscore_2motifs ob "dcm" o' = inr z /\
      ~ In (1%nat, Some (standard_score n (p_dbcm x y) (links a) (single_pairs n))) z).
Proof.
  destruct (numpy_exists 6) as (e & HN & _). destruct tri_matrix_object as (ob & E & DA & DS).
  exists 3%nat, tri_weights, [(INR 1, INR 1); (INR 1, INR 2); (INR 2, INR 1)], e. split; [exact tri_weights_nonneg|].
  assert (HD : forall i, (i < 3)%nat -> tri_weights i i = 0) by (intros i Hi; do 3 (destruct i as [|i]; [reflexivity|]); lia). split; [exact HD|]. split; [exact HN|].
  exists ob. split; [exact E|]. intros nm tol Hnm Ht. destruct tri_rows as (R1 & R2 & _).
  destruct (object_dcm_exp nat Nat.leb Nat.eqb e nm tol 3 tri_weights [(INR 1, INR 1); (INR 1, INR 2); (INR 2, INR 1)] ltac:(lia) ltac:(simpl; lra) tri_weights_nonneg HD
    ltac:(rewrite R1, R2; split; [repeat constructor; cbn; intros Q; repeat (destruct Q as [Q|Q]; [inversion Q; lra|]); exact Q|intros v; cbn; tauto]) HN Hnm Ht) as (ob' & E' & M0 & e0 & He & H).
  rewrite E in E'. injection E' as <-. exists M0, e0. split; [exact He|]. intros M eps HM Heps t Hc. destruct (H M eps HM Heps t Hc) as (o' & HR & F).
  pose proof F as (x & y & err & Ex & Ey & _ & HP & _). destruct (tri_scores ob o' x y DA DS Ex Ey HP) as (z & z0 & z1 & z2 & EZ & Ez & E1 & HV).
  exists o', x, y, z. split; [exact HR|]. split; [exact F|]. split; [exact Ex|]. split; [exact Ey|]. split; [exact EZ|]. rewrite Ez. intros [Q|[Q|[Q|[]]]]; [discriminate Q| |discriminate Q].
  injection Q as Q. exact (tri_not_standard _ _ z1 (sqrt_lt_R0 _ HV) E1 Q).
Qed.
(** After decm the parameters are read as those of the binary model. *)
Lemma enhanced_agrees x y bo bi i j : 0 < x i * y j -> 0 < bo i * bi j < 1 -> p_dbcm x y i j = p_enhanced x y bo bi i j <-> bo i * bi j = / 2.
Proof.
  unfold p_dbcm, p_enhanced. set (a := x i * y j). set (b := bo i * bi j). intros Ha Hb.
  assert (HA : 0 < a * b) by (apply Rmult_lt_0_compat; lra). split.
  - intros E. assert (E' : a * (1 - b + a * b) = a * b * (1 + a)).
    { apply (Rmult_eq_reg_r (/ (1 + a) * / (1 - b + a * b))); [|apply Rmult_integral_contrapositive_currified; apply Rinv_neq_0_compat; lra].
      transitivity (a / (1 + a)); [field; lra|]. rewrite E. field. lra. }
    apply (Rmult_eq_reg_l a); [|lra]. nra.
  - intros ->. field. lra.
Qed.
Lemma decm_scores_refuted m meth : In m ["decm"; "decm_exp"]%string -> In meth descent_methods ->
  exists e t ob o' x y bo bi z z0 z1 z2, @d_construct nat Nat.leb Nat.eqb (ArrayAdj 3 tri_weights) NoEdges NoSeq NoSeq = inl ob /\ t_model t = m /\ t_method t = meth /\
    returned (d_new_tool e ob t) o' /\ ds_x o' = Some x /\ ds_y o' = Some y /\ ds_bo o' = Some bo /\ ds_bi o' = Some bi /\
    (forall i j, (i < 3)%nat -> (j < 3)%nat -> 0 < x i /\ 0 < y i /\ 0 < bo i * bi j < 1) /\
    d_zscore_2motifs ob "dcm" o' = inr z /\ z = [(0%nat, Some z0); (1%nat, Some z1); (2%nat, Some z2)] /\
    z1 = (1 - mean_directed 3 (p_dbcm x y) (single_pairs 3)) / sqrt (var_directed 3 (p_dbcm x y) (single_pairs 3)) /\
    forall i j, (i < 3)%nat -> (j < 3)%nat -> p_dbcm x y i j <> p_enhanced x y bo bi i j.
Proof.
  intros Hm Hme. destruct cold_world as (e & Hr). destruct tri_from_matrix as (g & E & E1 & E2 & E3 & E4 & E5 & K1 & K2 & E6). destruct tri_matrix_object as (ob & E' & DA & DS). rewrite E in E'. injection E' as <-.
  destruct (cold_net m meth e tri_net ltac:(cbn in Hm |- *; tauto) Hme Hr (tri_start_decm m Hm)) as (tol & o' & r & HC).
  set (t := cold m meth (GStr "uniform") AdjOther tol) in *.
  destruct (ProofsStart.start_decm_named e tri_net t (d_fresh false) o' "uniform" Hm (proj1 tri_nonneg) (proj2 tri_nonneg) eq_refl ltac:(cbn; tauto) ltac:(rewrite Hr; exact half_draws) ltac:(left; reflexivity) (proj1 HC)) as (x & y & bo & bi & Hx & Hy & Ho & Hi & V).
  set (u := if String.eqb (t_model t) "decm" then 9 / 10 else / 10) in V.
  assert (U : forall i, (i < 3)%nat -> x i = u /\ y i = u /\ bo i = u /\ bi i = u).
  { intros i Li. destruct (tri_positive i Li) as (P1 & P2 & P3 & P4). destruct (V i Li) as [V1 V2]. destruct (V1 P1 P3) as (_ & U1 & _). destruct (V2 P2 P4) as (_ & U2 & _).
    destruct (U1 eq_refl), (U2 eq_refl). auto. }
  assert (HU : 0 < u < 1) by (unfold u; destruct (String.eqb _ _); lra).
  assert (HU2 : u * u <> / 2) by (unfold u; destruct (String.eqb _ _); lra).
  assert (HP : forall i j, (i < 3)%nat -> (j < 3)%nat -> 0 < x i /\ 0 < y i /\ 0 < bo i * bi j < 1).
  { intros i j Li Lj. destruct (U i Li) as (-> & -> & -> & _). destruct (U j Lj) as (_ & _ & _ & ->). nra. }
  destruct (tri_scores g o' x y DA DS Hx Hy (fun i Li => conj (proj1 (HP i i Li Li)) (proj1 (proj2 (HP i i Li Li))))) as (z & z0 & z1 & z2 & EZ & Ez & E1' & HV).
  exists e, t, g, o', x, y, bo, bi, z, z0, z1, z2. split; [exact E|]. split; [reflexivity|]. split; [reflexivity|]. split.
  { eexists. rewrite (tri_new e g _ E1 E2 E3 E4 E5 K1 K2). rewrite d_tool_index_noindex by (change (t_model t) with m; cbn in Hm |- *; tauto). rewrite (proj1 HC). reflexivity. }
  do 4 (split; [assumption|]). split; [exact HP|]. split; [exact EZ|]. split; [exact Ez|]. split; [exact E1'|].
  intros i j Li Lj Q. apply enhanced_agrees in Q; [|destruct (HP i j Li Lj) as (? & _ & _), (HP j i Lj Li) as (_ & ? & _); apply Rmult_lt_0_compat; assumption|apply HP; assumption].
  destruct (U i Li) as (_ & _ & Eo & _), (U j Lj) as (_ & _ & _ & Ei). rewrite Eo, Ei in Q. exact (HU2 Q).
Qed.

(** * Cases *)
Definition ring3 (i j : nat) : bool := nth (3 * i + j)%nat [false; true; false; false; false; true; true; true; false] false.
Lemma ring3_degrees : row_degrees 3 (as_matrix ring3) = map INR [1; 1; 2]%nat /\ col_degrees 3 (as_matrix ring3) = map INR [1; 2; 1]%nat.
Proof. split; unfold row_degrees, col_degrees, as_matrix, ring3, count; cbn [ind]; decide_entry; reflexivity. Qed.
Lemma ring3_meets : exists ds e, loopless 3 ring3 /\ INR 3 <= 10 ^ 21 /\ distinct (combine (row_degrees 3 (as_matrix ring3)) (col_degrees 3 (as_matrix ring3))) ds /\ sound_numpy (2 * List.length ds) e /\
  full_pairs 3 ring3 = 2 /\ single_pairs 3 ring3 = 2 /\ empty_pairs 3 ring3 = 0 /\
  forall meth nm tol M eps, In meth descent_methods -> exists t, exp_call "dcm_exp" nm e tol M eps t /\ t_method t = meth.
Proof.
  destruct (numpy_exists 6) as (e & HN & HT). exists [(INR 1, INR 1); (INR 1, INR 2); (INR 2, INR 1)], e.
  split; [intros i Hi; do 3 (destruct i as [|i]; [reflexivity|]); lia|]. split; [simpl; lra|]. destruct ring3_degrees as (-> & ->).
  split; [split; [repeat constructor; cbn; intros Q; repeat (destruct Q as [Q|Q]; [inversion Q; lra|]); exact Q|intros v; cbn; tauto]|]. split; [exact HN|].
  split; [unfold full_pairs; cbn; lra|]. split; [unfold single_pairs; cbn; lra|]. split; [unfold empty_pairs; cbn; lra|]. intros; apply HT; assumption.
Qed.
Lemma mirror_case : mirror 1 4 /\ mirror 13 13 /\ ~ mirror 1 1.
Proof. rewrite !mirror_table. cbn [In]. split; [tauto|]. split; [tauto|]. intros H. repeat destruct H as [H|H]; try discriminate H. exact H. Qed.
Lemma flat_case : exists x y : nat -> R, (forall i, (i < 4)%nat -> 0 < x i /\ 0 < y i) /\ (forall i j, (i < 4)%nat -> (j < 4)%nat -> i <> j -> p_dbcm x y i j = INR 2 / 6) /\
  (forall i, (i < 4)%nat -> rsum 4 (fun j => if Nat.eqb j i then 0 else p_dbcm x y i j) = 1 /\ rsum 4 (fun j => if Nat.eqb j i then 0 else p_dbcm x y j i) = 1).
Proof.
  exists (fun _ => / 2), (fun _ => 1). split; [intros; lra|]. split; [intros; unfold p_dbcm; simpl; lra|].
  intros i Hi. do 4 (destruct i as [|i]; [unfold p_dbcm; cbn; lra|]). lia.
Qed.
(** A call on the renamed matrix. *)
Lemma renamed_object_scores (L : Type) (leb eqb : L -> L -> bool) e n p a' a t s o : (0 < n)%nat -> nonneg_matrix n a -> relabelling n p -> renamed_matrix n p a' a ->
  In (t_model t) ["dcm"; "dcm_exp"]%string -> t_guess t = GStr s ->
  exists g' g, @d_construct L leb eqb (ArrayAdj n a') NoEdges NoSeq NoSeq = inl g' /\ @d_construct L leb eqb (ArrayAdj n a) NoEdges NoSeq NoSeq = inl g /\
    (returned (d_new_tool e g t) o -> exists o', returned (d_new_tool e g' t) o' /\ d_zscore_3motifs g' "dcm" o' = d_zscore_3motifs g "dcm" o /\
      (t_model t = "dcm_exp"%string \/ (forall x y i, ds_x o = Some x -> ds_y o = Some y -> (i < n)%nat -> 0 <= x i /\ 0 <= y i) -> d_zscore_2motifs g' "dcm" o' = d_zscore_2motifs g "dcm" o)).
Proof.
  intros Hn Ha HP HR Hm Hg. destruct (d_matrix_renamed L leb eqb e n p a' a t s Hn Ha HP HR Hm Hg) as (g' & g & E' & E & C). exists g', g. split; [exact E'|]. split; [exact E|].
  intros H. pose proof H as [rep EQ]. rewrite EQ in C. destruct (d_new_tool e g' t) as [| |[o' e'] r'] eqn:ET; [destruct C|destruct C|]. destruct C as (-> & -> & _ & CX & CY).
  exists o'. split; [exists rep; reflexivity|]. destruct (renamed_scores L leb eqb n p a' a g' g o' o Hn Ha HP HR E' E CX CY) as (Z3 & Z2). split; [exact Z3|].
  intros [M|M]; apply Z2; [|exact M]. destruct (matrix_object L leb eqb n a Hn Ha) as (g0 & E0 & _ & _ & DO & DI). rewrite E in E0. injection E0 as <-.
  destruct (solved_object L e g t o n a Hn DO DI Hm H) as (x & y & _ & _ & Ex & Ey & _ & _ & _ & HX). intros x' y' i Ex' Ey' Hi. rewrite Ex in Ex'. rewrite Ey in Ey'. injection Ex' as <-. injection Ey' as <-. exact (HX M i Hi).
Qed.
Lemma ring3_returns : exists e ob t o, @d_construct nat Nat.leb Nat.eqb (ArrayAdj 3 (as_matrix ring3)) NoEdges NoSeq NoSeq = inl ob /\ t_model t = "dcm_exp"%string /\ t_guess t = GStr "degrees" /\
  returned (d_new_tool e ob t) o /\ exists z, d_zscore_2motifs ob "dcm" o = inr z /\ List.length z = 3%nat.
Proof.
  destruct ring3_meets as (ds & e & HL & Hb & HD & HN & _ & _ & _ & HT).
  destruct (fitted_scores nat Nat.leb Nat.eqb e "degrees" 1 3 ring3 ds ltac:(lia) Hb HL HD HN ltac:(cbn; tauto) ltac:(lra)) as (ob & E & M0 & e0 & He & H).
  destruct (HT "newton"%string "degrees"%string 1 M0 e0 ltac:(cbn; tauto)) as (t & Hc & _). destruct (H M0 e0 (le_n _) ltac:(lra) t Hc) as (o & x & y & HR & _ & _ & _ & Z).
  exists e, ob, t, o. split; [exact E|]. split; [exact (proj1 Hc)|]. split; [unfold exp_call in Hc; tauto|]. split; [exact HR|]. eexists. split; [exact Z|reflexivity].
Qed.
Lemma ring3_renamed_case : exists e t o g, relabelling 3 swap01 /\ renamed_matrix 3 swap01 (fun i j => as_matrix ring3 (swap01 i) (swap01 j)) (as_matrix ring3) /\ nonneg_matrix 3 (as_matrix ring3) /\
  In (t_model t) ["dcm"; "dcm_exp"]%string /\ t_guess t = GStr "degrees" /\ @d_construct nat Nat.leb Nat.eqb (ArrayAdj 3 (as_matrix ring3)) NoEdges NoSeq NoSeq = inl g /\ returned (d_new_tool e g t) o /\
  ring3 (swap01 0) (swap01 1) <> ring3 0 1.
Proof.
  destruct ring3_returns as (e & g & t & o & E & Em & Eg & HR & _). exists e, t, o, g. split; [exact (proj1 arrow_renamed_case)|]. split; [intros i j _ _; reflexivity|]. split; [apply graph_nonneg|].
  split; [rewrite Em; cbn; tauto|]. do 3 (split; [assumption|]). discriminate.
Qed.
Lemma sparse_case : exists ob : @dgraph nat, nonneg_matrix 3 tri_weights /\ d_construct Nat.leb Nat.eqb (SparseAdj Csr 4 3 tri_weights) NoEdges NoSeq NoSeq = inl ob.
Proof.
  destruct (d_from_matrix_ok (@d_blank nat) Csr true 3 tri_weights ltac:(discriminate) tri_weights_nonneg) as (g & E & _). exists g. split; [exact tri_weights_nonneg|].
  unfold d_construct. cbn [ModelLife.d_initialize d_init_adjacency]. cbn [Nat.ltb Nat.leb]. rewrite E. reflexivity.
Qed.
Lemma edges_scores_case : exists ob : @dgraph nat, d_construct Nat.leb Nat.eqb NoAdj (TripleEdges tri_edges) NoSeq NoSeq = inl ob /\ tri_edges <> [].
Proof. destruct tri_from_edges as (ob & E & _). exists ob. split; [exact E|discriminate]. Qed.
