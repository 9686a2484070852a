(** The z-scores of a graph object after a solve. *)
From Coq Require Import Reals List Arith Bool ZArith Lia Lra String FunctionalExtensionality.
From Coquelicot Require Import Coquelicot.
From Verif Require Import Base SpecGuess SpecReach SpecRun SpecTool SpecSolver SpecGraph SpecEnsemble ProofsEnsemble ModelDECM ModelNetwork SpecNetwork ProofsUnique ProofsNetwork ModelMotifs SpecMotifs ProofsDyads ProofsDyadMoments ProofsTriads ProofsTriadMoments WitnessMotifs SpecZscore
  SpecDirected SpecLife ModelLife ProofsLifeDir ModelDispatch ModelSolve SpecSolve ProofsSolve ProofsSolveD ModelGuess ModelRun ModelTool ModelObject SpecObject ProofsObject ProofsObjectForms SpecReachTool ProofsReachObject ProofsNoRaiseObject ModelZscore.
Import ListNotations.
Local Open Scope R_scope.

(** * The quotients *)
Lemma mean_on_digraphs n p f h : (forall a, loopless n a -> f a = h a) -> mean_directed n p f = mean_directed n p h.
Proof. intros E. unfold mean_directed. apply lsum_ext. intros a Ha. rewrite (E a (digraph_loopless n a Ha)). reflexivity. Qed.
Lemma var_on_digraphs n p f h : (forall a, loopless n a -> f a = h a) -> var_directed n p f = var_directed n p h.
Proof. intros E. unfold var_directed. rewrite (mean_on_digraphs n p f h E). apply mean_on_digraphs. intros a Ha. rewrite (E a Ha). reflexivity. Qed.
Lemma root_of s v : 0 <= s -> s ^ 2 = v -> s = sqrt v.
Proof. intros H <-. symmetry. rewrite sqrt_pow2; [reflexivity|exact H]. Qed.
Lemma zscore_var c e s v : 0 <= s -> s ^ 2 = v -> zscore_of c e s = if Rlt_dec 0 v then Some ((c - e) / sqrt v) else None.
Proof.
  intros H E. rewrite <- (root_of s v H E). unfold zscore_of, sdiv. destruct (Rlt_dec 0 v) as [P|P], (Req_EM_T s 0) as [Z|Z]; [|reflexivity|reflexivity|].
  - exfalso. rewrite <- E, Z in P. simpl in P. lra.
  - exfalso. apply P. rewrite <- E. simpl. nra.
Qed.
Lemma count_full n g : loopless n g -> INR (count_2motif_2 n (as_matrix g)) = full_pairs n g.
Proof. intros H. rewrite (count_2_meaning n g _ (as_matrix_of n g) H), mult_INR. reflexivity. Qed.
Lemma count_single n g : loopless n g -> INR (count_2motif_1 n (as_matrix g)) = single_pairs n g.
Proof. intros H. rewrite (count_1_meaning n g _ (as_matrix_of n g) H). reflexivity. Qed.
Lemma count_none n g : loopless n g -> exists c, count_2motif_0 KNdarray n (as_matrix g) = Some c /\ IZR c = empty_pairs n g.
Proof.
  intros H. eexists. split; [apply (count_0_meaning n g _ _ (as_matrix_of n g) H); auto|]. rewrite <- INR_IZR_INZ, mult_INR. reflexivity.
Qed.
Definition scored n p g c : option R := if Rlt_dec 0 (var_directed n p c) then Some (standard_score n p g c) else None.
Lemma std_root_pos z : 0 <= sqrt z. Proof. apply sqrt_pos. Qed.
Lemma concatenate_nonneg n x y : (forall i, (i < n)%nat -> 0 <= x i /\ 0 <= y i) -> forall r, (r < 2 * n)%nat -> 0 <= concatenate n x y r.
Proof. intros H r Hr. unfold concatenate. destruct (Nat.ltb_spec r n); apply H; lia. Qed.
Lemma two_scores n x y g : (forall i, (i < n)%nat -> 0 <= x i /\ 0 <= y i) -> loopless n g ->
  zscore_2motifs "dcm" n x y (as_matrix g) =
    [(0%nat, scored n (p_dbcm x y) g (empty_pairs n)); (1%nat, scored n (p_dbcm x y) g (single_pairs n)); (2%nat, scored n (p_dbcm x y) g (full_pairs n))].
Proof.
  intros HP HL. pose proof (concatenate_nonneg n x y HP) as HS. unfold zscore_2motifs. cbn [String.eqb Ascii.eqb Bool.eqb]. cbv zeta.
  assert (E : forall i j, (i < n)%nat -> (j < n)%nat -> p_dbcm (fun i => concatenate n x y i) (fun i => concatenate n x y (n + i)%nat) i j = p_dbcm x y i j) by (intros; apply concatenate_p; assumption).
  set (sol := concatenate n x y) in *.
  destruct (moments_2 n sol HS) as (M2 & V2), (moments_1 n sol HS) as (M1 & V1), (moments_0_closed n sol HS) as (M0 & V0).
  rewrite (mean_directed_p n _ _ _ E) in M2. rewrite (mean_directed_p n _ _ _ E) in M1. rewrite (mean_directed_p n _ _ _ E) in M0.
  rewrite (var_directed_p n _ _ _ E) in V2. rewrite (var_directed_p n _ _ _ E) in V1. rewrite (var_directed_p n _ _ _ E) in V0.
  assert (C0 : forall h, loopless n h -> match count_2motif_0 KNdarray n (as_matrix h) with Some c => IZR c | None => 0 end = empty_pairs n h).
  { intros h Hh. destruct (count_none n h Hh) as (c & -> & Hc). exact Hc. }
  rewrite (mean_on_digraphs n _ _ _ (count_full n)) in M2. rewrite (mean_on_digraphs n _ _ _ (count_single n)) in M1. rewrite (mean_on_digraphs n _ _ _ C0) in M0.
  rewrite (var_on_digraphs n _ _ _ (count_full n)) in V2. rewrite (var_on_digraphs n _ _ _ (count_single n)) in V1. rewrite (var_on_digraphs n _ _ _ C0) in V0.
  unfold zscore_dcm_2motif_0, zscore_dcm_2motif_1, zscore_dcm_2motif_2. destruct (count_none n g HL) as (c & -> & Hc). rewrite Hc, (count_single n g HL), (count_full n g HL), M0, M1, M2.
  rewrite (zscore_var _ _ _ _ (std_root_pos _) V0), (zscore_var _ _ _ _ (std_root_pos _) V1), (zscore_var _ _ _ _ (std_root_pos _) V2). reflexivity.
Qed.
Lemma count_occurrences m n g : (1 <= m <= 13)%nat -> count_3motif_ndarray m n (as_matrix g) = occurrences m n g.
Proof. intros H. apply (count_sets m n g _ H (as_matrix_of n g)). Qed.
Lemma set_entry_ext n (p q : nat -> nat -> R) u v z : (forall i j, (i < n)%nat -> (j < n)%nat -> p i j = q i j) -> forall i j, (i < n)%nat -> (j < n)%nat -> set_entry p u v z i j = set_entry q u v z i j.
Proof. intros E i j Hi Hj. unfold set_entry. destruct (Nat.eqb i u && Nat.eqb j v); [reflexivity|apply E; assumption]. Qed.
Lemma three_scores_std n x y g m : (1 <= m <= 13)%nat -> (forall i, (i < n)%nat -> 0 <= x i /\ 0 <= y i) ->
  linear_std n (p_dbcm x y) (occurrences m n) (std_dcm_3motif m n (concatenate n x y)) /\
    zscore_dcm_3motif KNdarray m n (concatenate n x y) (as_matrix g) = sdiv (occurrences m n g - mean_directed n (p_dbcm x y) (occurrences m n)) (std_dcm_3motif m n (concatenate n x y)).
Proof.
  intros Hm HP. pose proof (concatenate_nonneg n x y HP) as HS.
  assert (E : forall i j, (i < n)%nat -> (j < n)%nat -> p_dbcm (fun i => concatenate n x y i) (fun i => concatenate n x y (n + i)%nat) i j = p_dbcm x y i j) by (intros; apply concatenate_p; assumption).
  set (sol := concatenate n x y) in *. split.
  - destruct (std_delta m n sol Hm HS) as (d & D1 & D2). split; [apply sqrt_pos|]. exists d. split.
    + intros u v Hu Hv N. specialize (D1 u v Hu Hv N). rewrite <- (E u v Hu Hv). refine (is_derive_ext _ _ _ _ _ D1). intros z.
      rewrite (mean_directed_p n _ _ _ (set_entry_ext n _ _ u v z E)). apply mean_on_digraphs. intros a _. apply count_occurrences. exact Hm.
    + refine (eq_trans D2 _). apply rsum_ext. intros u Hu. apply rsum_ext. intros v Hv. rewrite <- (E u v Hu Hv). reflexivity.
  - unfold zscore_dcm_3motif, count_3motif, zscore_of. rewrite (count_occurrences m n g Hm), (expected_mean m n sol Hm HS), (mean_directed_p n _ _ _ E).
    rewrite (mean_on_digraphs n _ _ (occurrences m n)); [reflexivity|]. intros a _. apply count_occurrences. exact Hm.
Qed.
Lemma linear_std_unique n p c s s' : linear_std n p c s -> linear_std n p c s' -> s = s'.
Proof.
  intros (P & d & D & E) (P' & d' & D' & E'). rewrite (root_of s _ P eq_refl), (root_of s' _ P' eq_refl), E, E'. f_equal. apply rsum_ext. intros u Hu. apply rsum_ext. intros v Hv.
  destruct (Nat.eqb_spec u v) as [->|N]; [reflexivity|]. rewrite <- (is_derive_unique _ _ _ (D u v Hu Hv N)), <- (is_derive_unique _ _ _ (D' u v Hu Hv N)). reflexivity.
Qed.

(** * The object *)
Lemma matrix_object (L : Type) (leb eqb : L -> L -> bool) n a : (0 < n)%nat -> nonneg_matrix n a ->
  exists ob, @d_construct L leb eqb (ArrayAdj n a) NoEdges NoSeq NoSeq = inl ob /\ d_adjacency ob = Some (n, a) /\ d_is_sparse ob = false /\
    d_dseq_out ob = Some (row_degrees n a) /\ d_dseq_in ob = Some (col_degrees n a).
Proof.
  intros Hn Ha. destruct (d_from_matrix_ok (@d_blank L) Ndarray false n a ltac:(discriminate) Ha) as (g & E & _ & _ & DO & DI & _ & DA & _).
  unfold d_construct. cbn [ModelLife.d_initialize d_init_adjacency]. rewrite (proj2 (Nat.ltb_lt 0 (n * n)) ltac:(nia)), E. exists g. split; [reflexivity|]. split; [exact DA|]. split; [|split; assumption].
  revert E. unfold d_from_matrix. destruct (has_negative n a); [discriminate|]. destruct (in_degree Ndarray n a); [|discriminate]. destruct (out_degree Ndarray n a); [|discriminate].
  destruct (Req_EM_T _ _); [intros [= <-]; reflexivity|]. destruct (in_strength Ndarray n a); [|discriminate]. destruct (out_strength Ndarray n a); [|discriminate]. intros [= <-]; reflexivity.
Qed.
Lemma graph_nonneg n g : nonneg_matrix n (as_matrix g).
Proof. intros i j _ _. unfold as_matrix. destruct (g i j); simpl; lra. Qed.
Lemma graph_links g i j : links (as_matrix g) i j = g i j.
Proof. unfold links, positiveb, as_matrix. destruct (g i j); simpl; destruct (Rlt_dec _ _); try reflexivity; lra. Qed.
Lemma sup_dev_ext n f h o e : (forall i, (i < n)%nat -> o i = h i) -> sup_dev n f o e -> sup_dev n f h e.
Proof. intros E (A & i & Hi & B). split; [intros j Hj; rewrite <- (E j Hj); apply A; exact Hj|]. exists i. split; [exact Hi|]. rewrite <- (E i Hi). exact B. Qed.
Lemma solved_object (L : Type) e (ob : @dgraph L) t o' n a : (0 < n)%nat -> d_dseq_out ob = Some (row_degrees n a) -> d_dseq_in ob = Some (col_degrees n a) ->
  In (t_model t) ["dcm"; "dcm_exp"]%string -> returned (d_new_tool e ob t) o' ->
  exists x y e1 e2, ds_x o' = Some x /\ ds_y o' = Some y /\ ds_err o' = Some (Rmax e1 e2) /\
    sup_dev n (fun i => mean_directed n (p_dbcm x y) (fun h => deg n h i)) (deg n (links a)) e1 /\
    sup_dev n (fun i => mean_directed n (p_dbcm x y) (fun h => indeg n h i)) (indeg n (links a)) e2 /\
    (t_model t = "dcm_exp"%string -> forall i, (i < n)%nat -> 0 <= x i /\ 0 <= y i).
Proof.
  intros Hn DO DI Hm [rep HR]. destruct (d_object_binary L e ob t n a DO DI Hm) as (net & rep' & EN & HP & KO & KI & E). rewrite E in HR. injection HR as HT _.
  assert (HN : (0 < dn_n net)%nat) by (rewrite EN; exact Hn).
  unfold d_tool in HT. destruct (d_error_dcm net (d_call e net t (d_fresh (d_is_sparse ob))) (d_fresh (d_is_sparse ob)) o' HN HP ltac:(reflexivity) ltac:(exact Hm) HT) as (v & s & cls & m & x & y & e1 & e2 & _ & Ex & Ey & Ee & Es & _ & Hx & S1 & S2).
  rewrite EN in *. exists x, y, e1, e2. split; [exact Ex|]. split; [exact Ey|]. split; [exact Ee|].
  split; [refine (sup_dev_ext n _ _ _ _ _ S1); intros i Hi; apply (row_deg n a _ i KO Hi)|].
  split; [refine (sup_dev_ext n _ _ _ _ _ S2); intros i Hi; apply (col_deg n a _ i KI Hi)|].
  intros M i Hi. destruct (Hx i Hi) as (_ & -> & ->). rewrite Es. cbn [c_model d_call d_call_adjacency]. rewrite M. cbn [String.eqb Ascii.eqb Bool.eqb].
  unfold exp_neg. split; destruct (o_inf v _); try lra; apply Rlt_le, exp_pos.
Qed.

(** * Calls *)
Lemma two_node_object (L : Type) (leb eqb : L -> L -> bool) e n g t : (0 < n)%nat -> loopless n g -> In (t_model t) ["dcm"; "dcm_exp"]%string ->
  exists ob, @d_construct L leb eqb (ArrayAdj n (as_matrix g)) NoEdges NoSeq NoSeq = inl ob /\
  forall o', returned (d_new_tool e ob t) o' -> exists x y e1 e2, ds_x o' = Some x /\ ds_y o' = Some y /\ ds_err o' = Some (Rmax e1 e2) /\
    sup_dev n (fun i => mean_directed n (p_dbcm x y) (fun h => deg n h i)) (deg n g) e1 /\
    sup_dev n (fun i => mean_directed n (p_dbcm x y) (fun h => indeg n h i)) (indeg n g) e2 /\
    (t_model t = "dcm_exp"%string \/ (forall i, (i < n)%nat -> 0 <= x i /\ 0 <= y i) ->
     ((forall c, In c [empty_pairs n; single_pairs n; full_pairs n] -> 0 < var_directed n (p_dbcm x y) c) ->
        d_zscore_2motifs ob "dcm" o' = inr [(0%nat, Some (standard_score n (p_dbcm x y) g (empty_pairs n)));
          (1%nat, Some (standard_score n (p_dbcm x y) g (single_pairs n))); (2%nat, Some (standard_score n (p_dbcm x y) g (full_pairs n)))]) /\
     ((exists c, In c [empty_pairs n; single_pairs n; full_pairs n] /\ ~ 0 < var_directed n (p_dbcm x y) c) -> d_zscore_2motifs ob "dcm" o' = inl EArith)).
Proof.
  intros Hn HL Hm. destruct (matrix_object L leb eqb n (as_matrix g) Hn (graph_nonneg n g)) as (ob & E & DA & DS & DO & DI). exists ob. split; [exact E|].
  intros o' HR. destruct (solved_object L e ob t o' n (as_matrix g) Hn DO DI Hm HR) as (x & y & e1 & e2 & Ex & Ey & Ee & S1 & S2 & HX). exists x, y, e1, e2.
  split; [exact Ex|]. split; [exact Ey|]. split; [exact Ee|].
  split; [refine (sup_dev_ext n _ _ _ _ _ S1); intros i Hi; apply rsum_ext; intros j Hj; rewrite graph_links; reflexivity|].
  split; [refine (sup_dev_ext n _ _ _ _ _ S2); intros i Hi; apply rsum_ext; intros j Hj; rewrite graph_links; reflexivity|].
  intros HP. assert (HP' : forall i, (i < n)%nat -> 0 <= x i /\ 0 <= y i) by (destruct HP as [M|M]; [apply HX; exact M|exact M]).
  assert (Z : d_zscore_2motifs ob "dcm" o' = quotients [(0%nat, scored n (p_dbcm x y) g (empty_pairs n)); (1%nat, scored n (p_dbcm x y) g (single_pairs n)); (2%nat, scored n (p_dbcm x y) g (full_pairs n))]).
  { unfold d_zscore_2motifs. cbn [String.eqb Ascii.eqb Bool.eqb]. rewrite Ex, Ey, DA, DS, (two_scores n x y g HP' HL). reflexivity. }
  rewrite Z. unfold quotients, scored. cbn [forallb snd]. split.
  - intros V. destruct (Rlt_dec 0 (var_directed n (p_dbcm x y) (empty_pairs n))) as [_|N]; [|contradiction N; apply V; cbn; tauto].
    destruct (Rlt_dec 0 (var_directed n (p_dbcm x y) (single_pairs n))) as [_|N]; [|contradiction N; apply V; cbn; tauto].
    destruct (Rlt_dec 0 (var_directed n (p_dbcm x y) (full_pairs n))) as [_|N]; [reflexivity|contradiction N; apply V; cbn; tauto].
  - intros (c & HC & N). destruct HC as [<-|[<-|[<-|[]]]].
    + destruct (Rlt_dec 0 (var_directed n (p_dbcm x y) (empty_pairs n))); [contradiction|reflexivity].
    + destruct (Rlt_dec 0 (var_directed n (p_dbcm x y) (single_pairs n))); [contradiction|]. cbn. rewrite andb_false_r. reflexivity.
    + destruct (Rlt_dec 0 (var_directed n (p_dbcm x y) (full_pairs n))); [contradiction|]. cbn. rewrite !andb_false_r. reflexivity.
Qed.
Lemma quotients_spec l (f : nat -> option R) : 
  ((forall m, In m l -> f m <> None) -> quotients (map (fun m => (m, f m)) l) = inr (map (fun m => (m, f m)) l)) /\
  ((exists m, In m l /\ f m = None) -> quotients (map (fun m => (m, f m)) l) = inl EArith).
Proof.
  unfold quotients. split.
  - intros H. rewrite (proj2 (forallb_forall _ _)); [reflexivity|]. intros [m v] HI. apply in_map_iff in HI. destruct HI as (m' & E & HI). injection E as -> <-. cbn. specialize (H m HI). destruct (f m); [reflexivity|contradiction H; reflexivity].
  - intros (m & HI & Z). destruct (forallb _ _) eqn:F; [|reflexivity]. rewrite forallb_forall in F. specialize (F (m, f m) ltac:(apply in_map_iff; exists m; auto)). cbn in F. rewrite Z in F. discriminate.
Qed.
Lemma three_node_object (L : Type) (leb eqb : L -> L -> bool) e n g t : (0 < n)%nat -> In (t_model t) ["dcm"; "dcm_exp"]%string ->
  exists ob, @d_construct L leb eqb (ArrayAdj n (as_matrix g)) NoEdges NoSeq NoSeq = inl ob /\
  forall o', returned (d_new_tool e ob t) o' -> exists x y s, ds_x o' = Some x /\ ds_y o' = Some y /\
    (t_model t = "dcm_exp"%string \/ (forall i, (i < n)%nat -> 0 <= x i /\ 0 <= y i) ->
     (forall m, (1 <= m <= 13)%nat -> linear_std n (p_dbcm x y) (occurrences m n) (s m)) /\
     ((forall m, (1 <= m <= 13)%nat -> s m <> 0) ->
        d_zscore_3motifs ob "dcm" o' = inr (map (fun m => (m, Some ((occurrences m n g - mean_directed n (p_dbcm x y) (occurrences m n)) / s m))) (seq 1 13))) /\
     ((exists m, (1 <= m <= 13)%nat /\ s m = 0) -> d_zscore_3motifs ob "dcm" o' = inl EArith)).
Proof.
  intros Hn Hm. destruct (matrix_object L leb eqb n (as_matrix g) Hn (graph_nonneg n g)) as (ob & E & DA & DS & DO & DI). exists ob. split; [exact E|].
  intros o' HR. destruct (solved_object L e ob t o' n (as_matrix g) Hn DO DI Hm HR) as (x & y & e1 & e2 & Ex & Ey & Ee & S1 & S2 & HX).
  exists x, y, (fun m => std_dcm_3motif m n (concatenate n x y)). split; [exact Ex|]. split; [exact Ey|].
  intros HP. assert (HP' : forall i, (i < n)%nat -> 0 <= x i /\ 0 <= y i) by (destruct HP as [M|M]; [apply HX; exact M|exact M]).
  assert (S : forall m, (1 <= m <= 13)%nat -> linear_std n (p_dbcm x y) (occurrences m n) (std_dcm_3motif m n (concatenate n x y)) /\
    zscore_dcm_3motif KNdarray m n (concatenate n x y) (as_matrix g) = sdiv (occurrences m n g - mean_directed n (p_dbcm x y) (occurrences m n)) (std_dcm_3motif m n (concatenate n x y))).
  { intros m Hm'. exact (three_scores_std n x y g m Hm' HP'). }
  split; [intros m Hm'; apply S; exact Hm'|].
  assert (Z : d_zscore_3motifs ob "dcm" o' = quotients (map (fun m => (m, sdiv (occurrences m n g - mean_directed n (p_dbcm x y) (occurrences m n)) (std_dcm_3motif m n (concatenate n x y)))) (seq 1 13))).
  { unfold d_zscore_3motifs. cbn [String.eqb Ascii.eqb Bool.eqb]. rewrite Ex, Ey, DA, DS. unfold zscore_3motifs. cbn [String.eqb Ascii.eqb Bool.eqb]. cbv zeta. f_equal. apply map_ext_in.
    intros m HI. apply in_seq in HI. rewrite (proj2 (S m ltac:(lia))). reflexivity. }
  rewrite Z. destruct (quotients_spec (seq 1 13) (fun m => sdiv (occurrences m n g - mean_directed n (p_dbcm x y) (occurrences m n)) (std_dcm_3motif m n (concatenate n x y)))) as (Q1 & Q2). split.
  - intros N. rewrite Q1.
    + f_equal. apply map_ext_in. intros m HI. apply in_seq in HI. unfold sdiv. destruct (Req_EM_T _ _) as [K|_]; [contradiction (N m ltac:(lia)); exact K|reflexivity].
    + intros m HI. apply in_seq in HI. unfold sdiv. destruct (Req_EM_T _ _) as [K|_]; [contradiction (N m ltac:(lia)); exact K|discriminate].
  - intros (m & Hm' & K). apply Q2. exists m. split; [apply in_seq; lia|]. unfold sdiv. destruct (Req_EM_T _ _) as [_|N]; [reflexivity|contradiction].
Qed.
Lemma links_graph g : links (as_matrix g) = g.
Proof. apply functional_extensionality. intros i. apply functional_extensionality. intros j. apply graph_links. Qed.
Lemma dyads_vary n x y : (2 <= n)%nat -> (forall i, (i < n)%nat -> 0 < x i /\ 0 < y i) ->
  forall c, In c [empty_pairs n; single_pairs n; full_pairs n] -> 0 < var_directed n (p_dbcm x y) c.
Proof.
  intros Hn HP. pose proof (concatenate_pos n x y (fun i Hi => proj1 (HP i Hi)) (fun i Hi => proj2 (HP i Hi))) as HS.
  assert (HS' : forall r, (r < 2 * n)%nat -> 0 <= concatenate n x y r) by (intros r Hr; apply Rlt_le, HS, Hr).
  assert (E : forall i j, (i < n)%nat -> (j < n)%nat -> p_dbcm (fun i => concatenate n x y i) (fun i => concatenate n x y (n + i)%nat) i j = p_dbcm x y i j) by (intros; apply concatenate_p; assumption).
  destruct (std2_pos n _ Hn HS) as (P2 & P1 & P0).
  destruct (moments_2 n _ HS') as (_ & V2), (moments_1 n _ HS') as (_ & V1), (moments_0_closed n _ HS') as (_ & V0).
  rewrite (var_directed_p n _ _ _ E) in V2. rewrite (var_directed_p n _ _ _ E) in V1. rewrite (var_directed_p n _ _ _ E) in V0.
  assert (C0 : forall h, loopless n h -> match count_2motif_0 KNdarray n (as_matrix h) with Some c => IZR c | None => 0 end = empty_pairs n h).
  { intros h Hh. destruct (count_none n h Hh) as (c & -> & Hc). exact Hc. }
  rewrite (var_on_digraphs n _ _ _ (count_full n)) in V2. rewrite (var_on_digraphs n _ _ _ (count_single n)) in V1. rewrite (var_on_digraphs n _ _ _ C0) in V0.
  intros c [<-|[<-|[<-|[]]]]; [rewrite <- V0|rewrite <- V1|rewrite <- V2]; apply pow_lt; assumption.
Qed.
(** From a network to its z-scores. *)
Lemma fitted_scores (L : Type) (leb eqb : L -> L -> bool) e nm tol n g ds : (2 <= n)%nat -> INR n <= 10 ^ 21 -> loopless n g ->
  distinct (combine (row_degrees n (as_matrix g)) (col_degrees n (as_matrix g))) ds -> sound_numpy (2 * List.length ds) e -> In nm binary_names -> 0 < tol ->
  exists ob, @d_construct L leb eqb (ArrayAdj n (as_matrix g)) NoEdges NoSeq NoSeq = inl ob /\
    eventually (fun M eps => forall t, exp_call "dcm_exp" nm e tol M eps t -> exists o' x y, returned (d_new_tool e ob t) o' /\ d_fitted n g tol o' /\ ds_x o' = Some x /\ ds_y o' = Some y /\
      d_zscore_2motifs ob "dcm" o' = inr [(0%nat, Some (standard_score n (p_dbcm x y) g (empty_pairs n)));
          (1%nat, Some (standard_score n (p_dbcm x y) g (single_pairs n))); (2%nat, Some (standard_score n (p_dbcm x y) g (full_pairs n)))]).
Proof.
  intros Hn Hb HL HD HN Hnm Ht.
  destruct (object_dcm_exp L leb eqb e nm tol n (as_matrix g) ds ltac:(lia) Hb (graph_nonneg n g) ltac:(intros i Hi; unfold as_matrix; rewrite (HL i Hi); reflexivity) HD HN Hnm Ht) as (ob & E & M0 & e0 & He0 & H).
  exists ob. split; [exact E|]. exists M0, e0. split; [exact He0|]. intros M eps HM He t Hc. destruct (H M eps HM He t Hc) as (o' & R & F). rewrite links_graph in F.
  pose proof F as (x & y & err & Ex & Ey & _ & HP & _). exists o', x, y. split; [exact R|]. split; [exact F|]. split; [exact Ex|]. split; [exact Ey|].
  destruct (two_node_object L leb eqb e n g t ltac:(lia) HL ltac:(rewrite (proj1 Hc); cbn; tauto)) as (ob' & E' & K). rewrite E in E'. injection E' as <-.
  destruct (K o' R) as (x' & y' & e1 & e2 & Ex' & Ey' & _ & _ & _ & Z). rewrite Ex in Ex'. rewrite Ey in Ey'. injection Ex' as <-. injection Ey' as <-.
  apply (proj1 (Z (or_introl (proj1 Hc)))). apply dyads_vary; assumption.
Qed.

(** * Calls that raise *)
Lemma unsolved_scores (L : Type) (ob : @dgraph L) sparse : d_zscore_2motifs ob "dcm" (d_fresh sparse) = inl EValue /\ d_zscore_3motifs ob "dcm" (d_fresh sparse) = inl EValue.
Proof. split; reflexivity. Qed.
Lemma other_scores (L : Type) (ob : @dgraph L) model o : model <> "dcm"%string -> d_zscore_2motifs ob model o = inr [] /\ d_zscore_3motifs ob model o = inr [].
Proof. intros H. unfold d_zscore_2motifs, d_zscore_3motifs. apply String.eqb_neq in H. rewrite H. split; reflexivity. Qed.
Lemma edges_scores (L : Type) (leb eqb : L -> L -> bool) es ob o x y : (exists p, es = PairEdges p /\ p <> []) \/ (exists p, es = TripleEdges p /\ p <> []) ->
  @d_construct L leb eqb NoAdj es NoSeq NoSeq = inl ob -> ds_x o = Some x -> ds_y o = Some y ->
  d_zscore_2motifs ob "dcm" o = inl EAttribute /\ d_zscore_3motifs ob "dcm" o = inl EType.
Proof.
  intros HE E Ex Ey. assert (DA : d_adjacency ob = None).
  { revert E. unfold d_construct, ModelLife.d_initialize. destruct HE as [(p & -> & HN)|(p & -> & HN)]; (destruct p as [|e0 p]; [contradiction HN; reflexivity|]); cbn [d_init_edges].
    - destruct (edgelist_from_edgelist_directed leb eqb (e0 :: p)) as [[[[? ?] ?] ?]|]; [intros [= <-]; reflexivity|discriminate].
    - destruct (edgelist_from_edgelist_directed_w leb eqb _) as [[[[[[? ?] ?] ?] ?] ?]|]; [intros [= <-]; reflexivity|discriminate]. }
  unfold d_zscore_2motifs, d_zscore_3motifs. cbn [String.eqb Ascii.eqb Bool.eqb]. rewrite Ex, Ey, DA. split; reflexivity.
Qed.
Lemma sparse_scores (L : Type) (leb eqb : L -> L -> bool) k stored n a ob o x y : (0 < stored)%nat -> k <> OtherKind -> nonneg_matrix n a ->
  @d_construct L leb eqb (SparseAdj k stored n a) NoEdges NoSeq NoSeq = inl ob -> ds_x o = Some x -> ds_y o = Some y -> d_zscore_2motifs ob "dcm" o = inl EType.
Proof.
  intros Hs Hk Ha E Ex Ey. unfold d_construct in E. cbn [ModelLife.d_initialize d_init_adjacency] in E. rewrite (proj2 (Nat.ltb_lt 0 stored) Hs) in E.
  destruct (d_from_matrix_ok (@d_blank L) k true n a Hk Ha) as (g & E' & _ & _ & _ & _ & _ & DA & _). rewrite E' in E. injection E as <-.
  assert (DS : d_is_sparse g = true).
  { revert E'. unfold d_from_matrix. destruct (has_negative n a); [discriminate|]. destruct (in_degree k n a); [|discriminate]. destruct (out_degree k n a); [|discriminate].
    destruct (Req_EM_T _ _); [intros [= <-]; reflexivity|]. destruct (in_strength k n a); [|discriminate]. destruct (out_strength k n a); [|discriminate]. intros [= <-]; reflexivity. }
  unfold d_zscore_2motifs. cbn [String.eqb Ascii.eqb Bool.eqb]. rewrite Ex, Ey, DA, DS. reflexivity.
Qed.
