(** From the data of an object to the files: a solve that is bound to succeed, followed by
    [ensemble_sampler]. *)
From Coq Require Import Reals List Arith Bool ZArith String Lia Lra Permutation.
From Verif Require Import Base SpecGraph SpecDirected SpecEnsemble SpecNetwork SpecLife SpecLinsearch SpecSolver SpecDispatch SpecGuess SpecRun SpecSolve SpecTool SpecReach SpecReachTool SpecNear
  ModelCM ModelDCM ModelNetwork ModelLife ModelSolver ModelDispatch ModelGuess ModelRun ModelSolve ModelTool ModelObject SpecObject ModelSampler SpecSampler SpecSamples ModelSample SpecReported.
From Verif Require Import ProofsGraph ProofsEnsemble ProofsLife ProofsLifeDir ProofsLifeForms ProofsSolve ProofsSolveU ProofsSolveD ProofsTool ProofsToolD
  ProofsObject ProofsObjectForms ProofsObjectLabels ProofsReachTool ProofsReachObject ProofsSampler ProofsSamples ProofsReported ProofsReportedD ProofsNearTool.
Import ListNotations.
Local Open Scope R_scope.
#[local] Opaque u_dispatch d_dispatch lookup.

Lemma lt_pairs_all n i j : (i < j < n)%nat -> In (i, j) (lt_pairs n).
Proof. intros H. unfold lt_pairs. apply in_flat_map. exists i. split; [apply in_seq; lia|]. apply in_map_iff. exists j. split; [reflexivity|apply in_seq; lia]. Qed.
Lemma neq_pairs_all n i j : (i < n)%nat /\ (j < n)%nat /\ i <> j -> In (i, j) (neq_pairs n).
Proof. intros H. unfold neq_pairs. apply filter_In. split; [apply in_prod; apply in_seq; lia|]. apply negb_true_iff, Nat.eqb_neq. cbn. lia. Qed.
(** The draws depend on the attributes and the number of nodes only. *)
Lemma draws_cm net o' x : us_last o' = Some "cm_exp"%string -> us_x o' = Some x -> (forall i, (i < un_n net)%nat -> 0 < x i) ->
  u_draws net o' Unweighted (fun G => bare_outcome G (p_binary (array (un_n net) x) (array (un_n net) x))) (lt_pairs (un_n net)).
Proof.
  intros HL X HP G N cpu out seed entropy s0 choice HG HS HC. unfold u_ensemble_sampler. rewrite HL, X. set (n := un_n net) in *.
  cbn [among existsb String.eqb Ascii.eqb Bool.eqb orb].
  rewrite (sampler_cm G _ N cpu out seed entropy choice s0 HG); cbn [v_last_model v_x attributes]; rewrite ?length_array.
  + reflexivity.
  + right. left. reflexivity.
  + intros i j Hij. rewrite mul2_array by lia. left. apply Rmult_lt_0_compat; apply HP; lia.
  + lengths HC.
  + exact HS.
Qed.
Lemma draws_dcm net o' x y : ds_last o' = Some "dcm_exp"%string -> ds_x o' = Some x -> ds_y o' = Some y -> (forall i, (i < dn_n net)%nat -> 0 < x i /\ 0 < y i) ->
  d_draws net o' Unweighted (fun G => bare_outcome G (p_binary (array (dn_n net) x) (array (dn_n net) y))) (neq_pairs (dn_n net)).
Proof.
  intros HL X Y HP G N cpu out seed entropy s0 choice HG HS HC. unfold d_ensemble_sampler. rewrite HL, X, Y. set (n := dn_n net) in *.
  cbn [among existsb String.eqb Ascii.eqb Bool.eqb orb].
  rewrite (sampler_dcm G _ N cpu out seed entropy choice s0 HG); cbn [v_last_model v_x v_y attributes]; rewrite ?length_array.
  + reflexivity.
  + right. left. reflexivity.
  + reflexivity.
  + intros i j Hi Hj Hij. rewrite mul2_two by assumption. left. apply Rmult_lt_0_compat; [apply (HP i Hi)|apply (HP j Hj)].
  + lengths HC.
  + exact HS.
Qed.
Lemma returned_net L e (g : @ugraph L) t o' n a : t_model t = "cm_exp"%string -> u_dseq g = Some (row_degrees n a) -> returned (u_new_tool e g t) o' ->
  exists net, un_n net = n /\ (forall i, (i < n)%nat -> at_list (un_dseq net) i = deg n (links a) i) /\ u_solve_tool net (ModelTool.u_call e net t (u_fresh (u_is_sparse g))) (u_fresh (u_is_sparse g)) = (o', None).
Proof.
  intros HM ED [rep HR]. destruct (row_naturals n a) as (k & Ek & Lk). pose proof (naturals_inv _ _ Ek) as EK.
  set (net := {| un_dseq := k; un_str := match u_strength g with Some s => at_reals s | None => fun _ => 0 end |}). exists net. split; [exact Lk|].
  split; [intros i Hi; apply (row_deg n a k i (eq_sym EK) Hi)|].
  unfold u_new_tool, u_object_tool in HR. rewrite ED, Ek, HM in HR. change (reads_strengths "cm_exp") with false in HR. rewrite andb_false_r in HR.
  change (u_tool e net t (u_fresh (u_is_sparse g)) = (o', None)). unfold net. destruct (u_strength g); injection HR as HR _; exact HR.
Qed.
Lemma pipeline_cm (L : Type) e (g : @ugraph L) nm tol n a ds : (0 < n)%nat -> INR n <= 10 ^ 22 -> u_dseq g = Some (row_degrees n a) ->
  symmetric n a -> (forall i, (i < n)%nat -> a i i = 0) -> distinct (row_degrees n a) ds -> sound_numpy (List.length ds) e -> In nm binary_names -> 0 < tol ->
  eventually (fun M eps => forall t, exp_call "cm_exp" nm e tol M eps t -> exists o' x p pairs,
    returned (u_new_tool e g t) o' /\ us_x o' = Some x /\ (forall i, (i < n)%nat -> 0 < x i) /\
    (forall net, un_n net = n -> u_draws net o' Unweighted (fun G => bare_outcome G p) pairs) /\
    NoDup pairs /\ (forall i j, In (i, j) pairs <-> (i < j < n)%nat) /\ (forall i j, (i < j < n)%nat -> p i j = p_ubcm x i j) /\
    (forall i, (i < n)%nat -> Rabs (touching pairs p i - deg n (links a) i) <= tol) /\
    forall z, (forall i, (i < n)%nat -> 0 < z i) ->
      prob_undirected n (p_ubcm z) (links a) <= prob_undirected n (p_ubcm x) (links a) * exp (tol * log_gap n x z)).
Proof.
  intros Hn Hb ED Hs Hd HD HN Hnm Ht. destruct (object_cm_exp_data L e g nm tol n a ds Hn Hb ED Hs Hd HD HN Hnm Ht) as (M & e0 & He0 & H).
  exists M, e0. split; [exact He0|]. intros M' eps HM He t HT. destruct (H M' eps HM He t HT) as (o' & R & x & err & X & E & HP & HE & HF).
  destruct (returned_net L e g t o' n a (proj1 HT) ED R) as (net & EN & EK & RT).
  assert (CM : c_model (ModelTool.u_call e net t (u_fresh (u_is_sparse g))) = "cm_exp"%string) by exact (proj1 HT).
  assert (HL : us_last o' = Some "cm_exp"%string).
  { rewrite (u_tool_last net _ _ o' ltac:(rewrite CM; cbn; tauto) RT). f_equal. apply CM. }
  exists o', x, (p_binary (array n x) (array n x)), (lt_pairs n). split; [exact R|split; [exact X|split; [exact HP|split]]].
  { intros net' EN'. rewrite <- EN'. apply draws_cm; [exact HL|exact X|rewrite EN'; exact HP]. }
  destruct (lt_once n) as [ND HI]. split; [exact ND|]. split.
  { intros i j. split; [apply HI|]. intros Hij. apply lt_pairs_all. exact Hij. }
  assert (PE : forall i j, (i < j < n)%nat -> p_binary (array n x) (array n x) i j = p_ubcm x i j) by (intros i j Hij; rewrite p_binary_array by lia; reflexivity).
  split; [exact PE|]. split.
  - intros i Hi. rewrite Rabs_minus_sym. specialize (HF i Hi). rewrite mean_undirected_deg in HF by (try exact Hi; intros; unfold p_ubcm; rewrite (Rmult_comm (x _)); reflexivity).
    rewrite touch_lt by exact Hi. replace (rsum n (fun j => if Nat.eqb i j then 0 else p_binary (array n x) (array n x) (Nat.min i j) (Nat.max i j))) with (rsum n (fun j => if Nat.eqb i j then 0 else p_ubcm x i j)); [exact HF|].
    apply rsum_ext. intros j Hj. destruct (Nat.eqb_spec i j) as [|Q]; [reflexivity|]. destruct (Nat.lt_ge_cases i j) as [C|C].
    + rewrite Nat.min_l, Nat.max_r by lia. symmetry. apply PE. lia.
    + rewrite Nat.min_r, Nat.max_l by lia. rewrite PE by lia. unfold p_ubcm. rewrite (Rmult_comm (x i)). reflexivity.
  - intros z HZ.
    destruct (call_near_cm net _ (u_fresh (u_is_sparse g)) o' (links a) ltac:(rewrite EN; exact Hn) eq_refl ltac:(rewrite CM; cbn; tauto) ltac:(rewrite EN; apply links_simple; assumption)
      ltac:(intros i Hi; rewrite EN in Hi |- *; apply EK; exact Hi) RT) as (x' & err' & X' & E' & _ & K).
    rewrite X in X'. injection X' as <-. rewrite E in E'. injection E' as <-. rewrite EN in K.
    eapply Rle_trans; [apply K|apply scale_exp].
    + intros i Hi. specialize (HP i Hi). specialize (HZ i Hi). lra.
    + intros i j Hi Hj _. split; apply HP; assumption.
    + apply prob_und_nonneg. intros i Hi. left. apply HP, Hi.
    + apply Rmult_le_compat_r; [apply log_gap_nonneg|exact HE].
Qed.

(** Directed networks in which every node has links of both kinds. *)
Lemma returned_net_dir L e (g : @dgraph L) t o' n a : t_model t = "dcm_exp"%string -> d_dseq_out g = Some (row_degrees n a) -> d_dseq_in g = Some (col_degrees n a) -> returned (d_new_tool e g t) o' ->
  exists net, dn_n net = n /\ d_paired net /\ (forall i, (i < n)%nat -> at_list (dn_out net) i = deg n (links a) i) /\ (forall i, (i < n)%nat -> at_list (dn_in net) i = indeg n (links a) i) /\
    d_solve_tool net (ModelTool.d_call e net t (d_fresh (d_is_sparse g))) (d_fresh (d_is_sparse g)) = (o', None).
Proof.
  intros HM EO EI [rep HR]. destruct (row_naturals n a) as (k & Ek & Lk). pose proof (naturals_inv _ _ Ek) as EK.
  destruct (col_naturals n a) as (k' & Ek' & Lk'). pose proof (naturals_inv _ _ Ek') as EK'.
  remember (match d_out_strength g, d_in_strength g with
              | Some so, Some si => {| dn_out := k; dn_in := k'; dn_sout := at_reals so; dn_sin := at_reals si |}
              | _, _ => {| dn_out := k; dn_in := k'; dn_sout := fun _ => 0; dn_sin := fun _ => 0 |} end) as net eqn:Hnet.
  assert (E1 : dn_out net = k) by (rewrite Hnet; destruct (d_out_strength g), (d_in_strength g); reflexivity).
  assert (E2 : dn_in net = k') by (rewrite Hnet; destruct (d_out_strength g), (d_in_strength g); reflexivity).
  exists net. split; [unfold dn_n; rewrite E1; exact Lk|]. split; [unfold d_paired; rewrite E1, E2, Lk, Lk'; reflexivity|].
  split; [intros i Hi; rewrite E1; apply (row_deg n a k i (eq_sym EK) Hi)|]. split; [intros i Hi; rewrite E2; apply (col_deg n a k' i (eq_sym EK') Hi)|].
  change (d_tool e net t (d_fresh (d_is_sparse g)) = (o', None)).
  assert (TI : d_tool_index e net (d_index g) t (d_fresh (d_is_sparse g)) = d_tool e net t (d_fresh (d_is_sparse g))).
  { rewrite <- (proj1 (d_tool_indexed e net t (d_fresh (d_is_sparse g)))). unfold d_tool_index. f_equal. f_equal. f_equal. apply d_result_noindex. rewrite HM. reflexivity. }
  rewrite <- TI. unfold d_new_tool, d_object_tool in HR. rewrite EO, EI, Ek, Ek', HM in HR. change (reads_strengths "dcm_exp") with false in HR. rewrite andb_false_r in HR. change (reads_degrees "dcm_exp") with false in HR.
  rewrite Hnet. destruct (d_out_strength g), (d_in_strength g); injection HR as HR _; exact HR.
Qed.
Lemma pipeline_dcm (L : Type) e (g : @dgraph L) nm tol n a ds : (0 < n)%nat -> INR n <= 10 ^ 21 -> d_dseq_out g = Some (row_degrees n a) -> d_dseq_in g = Some (col_degrees n a) ->
  (forall i, (i < n)%nat -> a i i = 0) -> (forall i, (i < n)%nat -> 0 < deg n (links a) i /\ 0 < indeg n (links a) i) ->
  distinct (combine (row_degrees n a) (col_degrees n a)) ds -> sound_numpy (2 * List.length ds) e -> In nm binary_names -> 0 < tol ->
  eventually (fun M eps => forall t, exp_call "dcm_exp" nm e tol M eps t -> exists o' x y p pairs,
    returned (d_new_tool e g t) o' /\ ds_x o' = Some x /\ ds_y o' = Some y /\ (forall i, (i < n)%nat -> 0 < x i /\ 0 < y i) /\
    (forall net, dn_n net = n -> d_draws net o' Unweighted (fun G => bare_outcome G p) pairs) /\
    NoDup pairs /\ (forall i j, In (i, j) pairs <-> (i < n)%nat /\ (j < n)%nat /\ i <> j) /\ (forall i j, (i < n)%nat -> (j < n)%nat -> p i j = p_dbcm x y i j) /\
    (forall i, (i < n)%nat -> Rabs (leaving pairs p i - deg n (links a) i) <= tol /\ Rabs (entering pairs p i - indeg n (links a) i) <= tol) /\
    forall z w, (forall i, (i < n)%nat -> 0 < z i /\ 0 < w i) ->
      prob_directed n (p_dbcm z w) (links a) <= prob_directed n (p_dbcm x y) (links a) * exp (tol * (log_gap n x z + log_gap n y w))).
Proof.
  intros Hn Hb EO EI Hd HB HD HN Hnm Ht. destruct (object_dcm_exp_data L e g nm tol n a ds Hn Hb EO EI Hd HD HN Hnm Ht) as (M & e0 & He0 & H).
  exists M, e0. split; [exact He0|]. intros M' eps HM He t HT. destruct (H M' eps HM He t HT) as (o' & R & x & y & err & X & Y & E & HP & _ & HE). specialize (HE HB).
  destruct (returned_net_dir L e g t o' n a (proj1 HT) EO EI R) as (net & EN & EP & KO & KI & RT).
  assert (CM : c_model (ModelTool.d_call e net t (d_fresh (d_is_sparse g))) = "dcm_exp"%string) by exact (proj1 HT).
  assert (HL : ds_last o' = Some "dcm_exp"%string).
  { rewrite (d_tool_last net _ _ o' ltac:(rewrite CM; cbn; tauto) RT). f_equal. apply CM. }
  exists o', x, y, (p_binary (array n x) (array n y)), (neq_pairs n). split; [exact R|split; [exact X|split; [exact Y|split; [exact HP|split]]]].
  { intros net' EN'. rewrite <- EN'. apply draws_dcm; [exact HL|exact X|exact Y|rewrite EN'; exact HP]. }
  destruct (neq_once n) as [ND _]. split; [exact ND|]. split; [intros i j; split; [apply in_neq_pairs|apply neq_pairs_all]|].
  assert (PE : forall i j, (i < n)%nat -> (j < n)%nat -> p_binary (array n x) (array n y) i j = p_dbcm x y i j) by (intros i j Hi Hj; apply p_binary_two; assumption).
  split; [exact PE|].
  assert (DM : In (c_model (ModelTool.d_call e net t (d_fresh (d_is_sparse g)))) ["dcm"; "dcm_exp"]%string) by (rewrite CM; cbn; tauto).
  split.
  - destruct (d_error_dcm net _ (d_fresh (d_is_sparse g)) o' ltac:(rewrite EN; exact Hn) EP eq_refl DM RT) as (v & s & cls & m & x' & y' & e1 & e2 & _ & X' & Y' & E' & _ & _ & _ & S1 & S2).
    rewrite X in X'. injection X' as <-. rewrite Y in Y'. injection Y' as <-. rewrite E in E'. injection E' as ->. rewrite EN in S1, S2.
    pose proof (Rmax_l e1 e2). pose proof (Rmax_r e1 e2). intros i Hi.
    assert (D1 : sup_dev n (leaving (neq_pairs n) (p_binary (array n x) (array n y))) (at_list (dn_out net)) e1) by (apply (leave_same n _ (p_dbcm x y)); [|apply out_degree_mean, S1]; intros; apply PE; assumption).
    assert (D2 : sup_dev n (entering (neq_pairs n) (p_binary (array n x) (array n y))) (at_list (dn_in net)) e2) by (apply (enter_same n _ (p_dbcm x y)); [|apply in_degree_mean, S2]; intros; apply PE; assumption).
    pose proof (dev_of n _ _ _ _ D1 KO i Hi). pose proof (dev_of n _ _ _ _ D2 KI i Hi). lra.
  - intros z w HZ.
    destruct (call_near_dcm net _ (d_fresh (d_is_sparse g)) o' (links a) ltac:(rewrite EN; exact Hn) EP eq_refl DM ltac:(rewrite EN; apply links_loopless; assumption)
      ltac:(intros i Hi; rewrite EN in Hi |- *; apply KO; exact Hi) ltac:(intros i Hi; rewrite EN in Hi |- *; apply KI; exact Hi) RT) as (x' & y' & err' & X' & Y' & E' & _ & K).
    rewrite X in X'. injection X' as <-. rewrite Y in Y'. injection Y' as <-. rewrite E in E'. injection E' as <-. rewrite EN in K.
    eapply Rle_trans; [apply K|apply scale_exp].
    + intros i Hi. specialize (HP i Hi). specialize (HZ i Hi). lra.
    + intros i Hi. specialize (HP i Hi). specialize (HZ i Hi). lra.
    + intros i j Hi Hj _. split; [apply (HP i Hi)|apply (HP j Hj)].
    + apply prob_dir_nonneg. intros i Hi. destruct (HP i Hi). lra.
    + pose proof (log_gap_nonneg n x z). pose proof (log_gap_nonneg n y w). apply Rmult_le_compat_r; [lra|exact HE].
Qed.

(** * Objects made from a matrix *)
Lemma pipeline_cm_matrix (L : Type) (leb eqb : L -> L -> bool) e nm tol n a ds : (0 < n)%nat -> INR n <= 10 ^ 22 -> nonneg_matrix n a ->
  symmetric n a -> (forall i, (i < n)%nat -> a i i = 0) -> distinct (row_degrees n a) ds -> sound_numpy (List.length ds) e -> In nm binary_names -> 0 < tol ->
  exists g, u_construct leb eqb (ArrayAdj n a) NoEdges NoSeq NoSeq = inl g /\
  eventually (fun M eps => forall t, exp_call "cm_exp" nm e tol M eps t -> exists o' x p pairs,
    returned (u_new_tool e g t) o' /\ us_x o' = Some x /\ (forall i, (i < n)%nat -> 0 < x i) /\
    (forall net, un_n net = n -> u_draws net o' Unweighted (fun G => bare_outcome G p) pairs) /\
    NoDup pairs /\ (forall i j, In (i, j) pairs <-> (i < j < n)%nat) /\ (forall i j, (i < j < n)%nat -> p i j = p_ubcm x i j) /\
    (forall i, (i < n)%nat -> Rabs (touching pairs p i - deg n (links a) i) <= tol) /\
    forall z, (forall i, (i < n)%nat -> 0 < z i) ->
      prob_undirected n (p_ubcm z) (links a) <= prob_undirected n (p_ubcm x) (links a) * exp (tol * log_gap n x z)).
Proof.
  intros Hn Hb Ha Hs Hd HD HN Hnm Ht. destruct (u_from_matrix_ok (@u_blank L) Ndarray false n a ltac:(discriminate) Ha) as (g & E & _ & _ & D & _).
  unfold u_construct. cbn [ModelLife.u_initialize u_init_adjacency]. rewrite (proj2 (Nat.ltb_lt 0 (n * n)) ltac:(nia)), E. eexists. split; [reflexivity|].
  apply (pipeline_cm L e _ nm tol n a ds); assumption.
Qed.
Lemma pipeline_dcm_matrix (L : Type) (leb eqb : L -> L -> bool) e nm tol n a ds : (0 < n)%nat -> INR n <= 10 ^ 21 -> nonneg_matrix n a ->
  (forall i, (i < n)%nat -> a i i = 0) -> (forall i, (i < n)%nat -> 0 < deg n (links a) i /\ 0 < indeg n (links a) i) ->
  distinct (combine (row_degrees n a) (col_degrees n a)) ds -> sound_numpy (2 * List.length ds) e -> In nm binary_names -> 0 < tol ->
  exists g, d_construct leb eqb (ArrayAdj n a) NoEdges NoSeq NoSeq = inl g /\
  eventually (fun M eps => forall t, exp_call "dcm_exp" nm e tol M eps t -> exists o' x y p pairs,
    returned (d_new_tool e g t) o' /\ ds_x o' = Some x /\ ds_y o' = Some y /\ (forall i, (i < n)%nat -> 0 < x i /\ 0 < y i) /\
    (forall net, dn_n net = n -> d_draws net o' Unweighted (fun G => bare_outcome G p) pairs) /\
    NoDup pairs /\ (forall i j, In (i, j) pairs <-> (i < n)%nat /\ (j < n)%nat /\ i <> j) /\ (forall i j, (i < n)%nat -> (j < n)%nat -> p i j = p_dbcm x y i j) /\
    (forall i, (i < n)%nat -> Rabs (leaving pairs p i - deg n (links a) i) <= tol /\ Rabs (entering pairs p i - indeg n (links a) i) <= tol) /\
    forall z w, (forall i, (i < n)%nat -> 0 < z i /\ 0 < w i) ->
      prob_directed n (p_dbcm z w) (links a) <= prob_directed n (p_dbcm x y) (links a) * exp (tol * (log_gap n x z + log_gap n y w))).
Proof.
  intros Hn Hb Ha Hd HB HD HN Hnm Ht. destruct (d_from_matrix_ok (@d_blank L) Ndarray false n a ltac:(discriminate) Ha) as (g & E & _).
  destruct (d_matrix_object L leb eqb Ndarray false n a g ltac:(discriminate) Ha E) as (D1 & D2 & _).
  unfold d_construct. cbn [ModelLife.d_initialize d_init_adjacency]. rewrite (proj2 (Nat.ltb_lt 0 (n * n)) ltac:(nia)), E. exists g. split; [reflexivity|].
  apply (pipeline_dcm L e g nm tol n a ds); assumption.
Qed.
