(** Objects built from labelled edges, and where the form of the data matters. *)
From Coq Require Import Reals List Arith Bool ZArith String Lia Lra.
From Verif Require Import Base SpecDeriv SpecGraph SpecEnsemble SpecWeighted SpecDirected SpecCReMa SpecNetwork SpecLife SpecLinsearch SpecDispatch SpecRun SpecSolver SpecSolve SpecGuess SpecTool
  ModelCM ModelECM ModelDCM ModelDECM ModelCReMa ModelNetwork ModelLinsearch ModelLife ModelSolver ModelDispatch ModelGuess ModelRun ModelSolve ModelTool SpecStart ModelObject SpecObject.
From Verif Require Import ProofsUnique ProofsGraph ProofsGuess ProofsGuessW ProofsGuessV ProofsConverged ProofsReport ProofsNetwork ProofsAdjacency ProofsLife ProofsLifeDir ProofsLifeForms ProofsSolve ProofsSolveU ProofsSolveD ProofsTool ProofsToolD WitnessTool ProofsStart ProofsRestart WitnessStart
  ProofsObject ProofsObjectForms ProofsObjectLabels ProofsEvaluates.
Import ListNotations.
Local Open Scope R_scope.

(** * Directed CReMa on an edge list with weights *)
Lemma solve_without_args e opt m d x0 : solved_of (solve_with e opt m d None x0) = None.
Proof. unfold solve_with. destruct d; [destruct x0|]; reflexivity. Qed.
Lemma crema_without_result e g nz t o o' : is_crema (t_model t) = true -> solved_of (d_result_index e g nz t o) = None -> d_tool_index e g nz t o <> (o', None).
Proof.
  intros C H E. unfold d_tool_index in E. rewrite H in E. unfold d_solve_tool in E. cbn [c_model d_call_adjacency] in E. unfold is_crema in C.
  apply andthen_inv in E. destruct E as (o1 & E & _). replace (among (t_model t) ["dcm"; "dcm_exp"; "decm"; "decm_exp"]%string) with false in E
    by (apply among_in in C; destruct C as [<-|[<-|[]]]; reflexivity). rewrite C in E.
  unfold d_solve_crema in E. apply andthen_inv in E. destruct E as (o2 & _ & E). cbv zeta in E. apply andthen_inv in E. destruct E as (o3 & _ & E). discriminate.
Qed.
Lemma sparse_after g e t b : t_model t = "crema"%string -> ds_sparse (fst (d_set_adjacency g (d_call_adjacency e g t None) (d_fresh b))) = false.
Proof.
  intros Hm. unfold d_set_adjacency. cbn [c_model c_adjacency d_call_adjacency]. rewrite Hm. cbn [String.eqb Ascii.eqb Bool.eqb].
  destruct (t_adjacency t); try reflexivity. rewrite d_problem_blind. unfold andthen. destruct (d_solve_problem _ _ _ _ _ _ _) as [o1 [ex|]]; [reflexivity|]. cbn [fst snd].
  cbn [ds_x ds_y ds_sparse ds_pm ds_set_sparse]. destruct (ds_x o1); [|reflexivity]. destruct (ds_y o1); [|reflexivity]. destruct (ds_pm o1); reflexivity.
Qed.
Lemma crema_without_index e g t b o' : is_crema (t_model t) = true -> (In (t_method t) descent_methods \/ t_model t = "crema"%string \/ t_verbose t = true) ->
  d_tool_index e g None t (d_fresh b) <> (o', None).
Proof.
  intros C H. apply crema_without_result; [exact C|]. unfold d_result_index. rewrite C. cbv zeta.
  pose proof (sparse_after g e t b) as SA. set (o1 := fst (d_set_adjacency g (d_call_adjacency e g t None) (d_fresh b))) in *.
  replace (d_args_index g None (if ds_sparse o1 then "crema-sparse"%string else t_model t) (t_method t) (t_verbose t) (ds_adj o1)) with (@None arguments); [apply solve_without_args|].
  symmetry. unfold d_args_index. destruct (ds_adj o1); [|reflexivity]. destruct H as [[<-|[<-|[]]]|[H|H]].
  - rewrite andb_false_r. reflexivity.
  - rewrite andb_false_r. reflexivity.
  - rewrite (SA H), H. reflexivity.
  - rewrite H, andb_false_r. reflexivity.
Qed.
Lemma edges_no_index (L : Type) (leb eqb : L -> L -> bool) (es : list (L * L * R)) g : es <> [] ->
  d_construct leb eqb NoAdj (TripleEdges es) NoSeq NoSeq = inl g -> d_index g = None.
Proof.
  intros HN E. unfold d_construct in E. destruct es as [|e0 es]; [contradiction HN; reflexivity|]. cbn [ModelLife.d_initialize d_init_edges] in E.
  destruct (edgelist_from_edgelist_directed_w leb eqb (e0 :: es)) as [[[[[[? ?] ?] ?] ?] ?]|]; [|discriminate]. injection E as <-. reflexivity.
Qed.
Lemma object_crema_edges_raises (L : Type) (leb eqb : L -> L -> bool) (es : list (L * L * R)) g e t o' : es <> [] ->
  d_construct leb eqb NoAdj (TripleEdges es) NoSeq NoSeq = inl g -> In (t_model t) ["crema"; "crema-sparse"]%string ->
  (In (t_method t) ["newton"; "quasinewton"]%string \/ t_model t = "crema"%string \/ t_verbose t = true) -> ~ returned (d_new_tool e g t) o'.
Proof.
  intros HN E Hm H [rep HR]. pose proof (edges_no_index L leb eqb es g HN E) as EI. unfold d_new_tool, d_object_tool in HR. rewrite EI in HR.
  assert (C : is_crema (t_model t) = true) by (destruct Hm as [<-|[<-|[]]]; reflexivity).
  replace (reads_degrees (t_model t)) with false in HR by (destruct Hm as [<-|[<-|[]]]; reflexivity).
  rewrite (proj2 (d_edges_objects L leb eqb _ g (or_intror (ex_intro _ es (conj eq_refl HN))) E)) in HR. cbn [listed andb] in HR.
  assert (K : forall net rp, Run (d_tool_index e net None t (d_fresh (d_is_sparse g))) rp <> Run (o', None) rep).
  { intros net rp Q. injection Q as Q _. revert Q. apply crema_without_index; [exact C|]. unfold descent_methods. exact H. }
  destruct (d_dseq_out g); destruct (d_dseq_in g).
  1: { destruct (naturals l); [|discriminate]. destruct (naturals l0); [|discriminate]. destruct (d_out_strength g); destruct (d_in_strength g); try (exact (K _ _ HR)); destruct (reads_strengths _); try discriminate; exact (K _ _ HR). }
  all: destruct (d_out_strength g); try discriminate; destruct (d_in_strength g); try discriminate; destruct (_ && _); try discriminate; exact (K _ _ HR).
Qed.

(** * decm on an edge list with weights *)
Lemma decm_without_result e g t o o' : In (t_model t) ["decm"; "decm_exp"]%string -> d_solve_tool g (d_call_adjacency e g t None) o <> (o', None).
Proof.
  intros Hm E. unfold d_solve_tool in E. cbn [c_model d_call_adjacency] in E. apply andthen_inv in E. destruct E as (o1 & E & _).
  replace (among (t_model t) ["dcm"; "dcm_exp"; "decm"; "decm_exp"]%string) with true in E by (destruct Hm as [<-|[<-|[]]]; reflexivity).
  unfold d_solve_problem in E. apply andthen_inv in E. destruct E as (o2 & _ & E). discriminate.
Qed.
Lemma object_decm_edges_raises (L : Type) (leb eqb : L -> L -> bool) (es : list (L * L * R)) g e t o' : es <> [] ->
  d_construct leb eqb NoAdj (TripleEdges es) NoSeq NoSeq = inl g -> In (t_model t) ["decm"; "decm_exp"]%string -> ~ returned (d_new_tool e g t) o'.
Proof.
  intros HN E Hm [rep HR]. destruct (d_edges_objects L leb eqb _ g (or_intror (ex_intro _ es (conj eq_refl HN))) E) as [Z1 Z2].
  unfold d_new_tool, d_object_tool in HR. rewrite Z1, Z2 in HR. cbn [listed andb] in HR.
  replace (reads_degrees (t_model t)) with true in HR by (destruct Hm as [<-|[<-|[]]]; reflexivity).
  assert (K : forall net rp, Run (d_solve_tool net (d_call_adjacency e net t None) (d_fresh (d_is_sparse g))) rp <> Run (o', None) rep).
  { intros net rp Q. injection Q as Q _. revert Q. apply decm_without_result. exact Hm. }
  destruct (d_dseq_out g); destruct (d_dseq_in g).
  1: { destruct (naturals l); [|discriminate]. destruct (naturals l0); [|discriminate]. destruct (d_out_strength g); destruct (d_in_strength g); try (exact (K _ _ HR)); destruct (reads_strengths _); try discriminate; exact (K _ _ HR). }
  all: destruct (d_out_strength g); try discriminate; destruct (d_in_strength g); try discriminate; destruct (_ && _); try discriminate; exact (K _ _ HR).
Qed.

(** * Networks of WitnessTool, from labelled edges *)
Definition path_edges : list (nat * nat * R) := [((10, 20)%nat, 2); ((30, 20)%nat, 3)].
Definition tri_edges : list (nat * nat * R) := [((10, 20)%nat, 2); ((20, 30)%nat, 3); ((30, 10)%nat, 1); ((30, 20)%nat, 4)].
Definition tri_weights (i j : nat) : R := nth (3 * i + j)%nat [0; 2; 0; 0; 0; 3; 1; 4; 0] 0.
Lemma tri_weights_nonneg : nonneg_matrix 3 tri_weights.
Proof. intros i j _ _. unfold tri_weights. generalize (3 * i + j)%nat as q. intros q. do 9 (destruct q as [|q]; [cbn; lra|]). destruct q; cbn; lra. Qed.

Lemma path_from_edges : exists g, u_construct Nat.leb Nat.eqb NoAdj (TripleEdges path_edges) NoSeq NoSeq = inl g /\ u_nodes_dict g = Some [10; 20; 30]%nat /\ u_dseq g = Some (map INR [1; 2; 1]%nat) /\ u_strength g = Some [2; 5; 3] /\ u_is_sparse g = false /\ u_str_kind g = Numbers.
Proof.
  eexists. split; [reflexivity|]. split; [reflexivity|]. split; [reflexivity|]. split; [|split; reflexivity].
  cbn. repeat f_equal; lra.
Qed.
Lemma path_new e g t : u_dseq g = Some (map INR [1; 2; 1]%nat) -> u_strength g = Some [2; 5; 3] -> u_is_sparse g = false -> u_str_kind g = Numbers ->
  @u_new_tool nat e g t = Run (u_tool e path_net t (u_fresh false)) (u_report e path_net t (u_fresh false)).
Proof. intros H1 H2 H3 H4. unfold u_new_tool, u_object_tool. rewrite H1, H2, H3, H4, naturals_map. reflexivity. Qed.
Lemma tri_from_edges : exists g, d_construct Nat.leb Nat.eqb NoAdj (TripleEdges tri_edges) NoSeq NoSeq = inl g /\ d_nodes_dict g = Some [10; 20; 30]%nat /\ d_dseq_out g = Some (map INR [1; 1; 2]%nat) /\ d_dseq_in g = Some (map INR [1; 2; 1]%nat) /\ d_out_strength g = Some [2; 3; 5] /\ d_in_strength g = Some [1; 6; 3] /\ d_is_sparse g = false.
Proof.
  eexists. split; [reflexivity|]. do 3 (split; [reflexivity|]). split; [|split; [|reflexivity]]; cbn; repeat f_equal; lra.
Qed.
Lemma tri_new e g t : d_dseq_out g = Some (map INR [1; 1; 2]%nat) -> d_dseq_in g = Some (map INR [1; 2; 1]%nat) ->
  d_out_strength g = Some [2; 3; 5] -> d_in_strength g = Some [1; 6; 3] -> d_is_sparse g = false -> d_deg_kind g = Numbers -> d_str_kind g = Numbers ->
  @d_new_tool nat e g t = Run (d_tool_index e tri_net (d_index g) t (d_fresh false)) (report_of (d_result_index e tri_net (d_index g) t (d_fresh false))).
Proof. intros H1 H2 H3 H4 H5 H6 H7. unfold d_new_tool, d_object_tool. rewrite H1, H2, H3, H4, H5, H6, H7, !naturals_map. cbn [listed andb]. destruct (reads_degrees _); reflexivity. Qed.
Lemma u_start_cm g m : In m ["cm"; "cm_exp"]%string -> exists z, u_start g m half (GStr "uniform") = Some z.
Proof.
  intros Hm. unfold u_start, start_of. destruct Hm as [<-|[<-|[]]]; names; unfold set_initial_guess_cm; cbn -[where_zero neglog_nonzero all_fin u_length degree_reduction_und];
    destruct (degree_reduction_und (un_dseq g)) as [[[? ?] ?] ?];
    apply all_fin_some'; intros i Hi; cbn [g_x0]; [|apply neglog_fin]; unfold where_zero; destruct (Req_EM_T _ 0) as [Z|Z]; eexists; try (split; [reflexivity|]); try reflexivity; [left; reflexivity|right; lra].
Qed.
Lemma u_start_ecm g m : nonneg (un_n g) (un_str g) -> In m ["ecm"; "ecm_exp"]%string -> exists z, u_start g m half (GStr "uniform") = Some z.
Proof.
  assert (Hk : nonneg (un_n g) (at_list (un_dseq g))) by (intros i _; apply pos_INR).
  intros Hs Hm. unfold u_start, start_of. destruct Hm as [<-|[<-|[]]]; names.
  - destruct (guess_ecm_inside (un_n g) (at_list (un_dseq g)) (un_str g) half "uniform"%string ltac:(cbn; tauto) Hk Hs half_draws) as (o & x & -> & F & _).
    exact (all_fin_some _ _ _ F).
  - destruct (guess_ecm_exp_start (un_n g) (at_list (un_dseq g)) (un_str g) half "uniform"%string ltac:(cbn; tauto) Hk Hs half_draws) as (o & o' & x & y & -> & _ & F & _).
    exact (all_fin_some _ _ _ F).
Qed.
Lemma cold_unet m meth e g : In m ["cm"; "cm_exp"; "ecm"; "ecm_exp"]%string -> In meth descent_methods -> v_rnd e = half ->
  (exists z, u_start g m half (GStr "uniform") = Some z /\ u_evaluates g m z) -> exists tol o' r, cold_u e g (cold m meth (GStr "uniform") AdjOther tol) o' r.
Proof.
  intros Hm Hme Hr HZ.
  assert (HQ : exists D A, u_dispatch m meth None = inl D /\ u_args g m None = Some A).
  { destruct Hm as [<-|[<-|[<-|[<-|[]]]]], Hme as [<-|[<-|[]]]; eexists; eexists; (split; [reflexivity|]); reflexivity. }
  destruct HZ as (z & HZ & EV). destruct HQ as (D & A & HD & HA). destruct (EV meth D A Hme HD HA) as (f & Hf).
  set (t := cold m meth (GStr "uniform") AdjOther (norm2 (u_length g m) f)). exists (norm2 (u_length g m) f). fold t.
  assert (ER : u_result e g t (u_fresh false) = Full z 0 [norm2 (u_length g m) f] [1] []).
  { assert (EU : u_result e g t (u_fresh false) = u_solver e g t m meth (v_rnd e) (GStr "uniform") None).
    { unfold u_result. change (t_model t) with m. change (t_method t) with meth. change (t_guess t) with (GStr "uniform").
      destruct Hm as [<-|[<-|[<-|[<-|[]]]]]; reflexivity. }
    rewrite EU. unfold u_solver. eapply stop_cold; [reflexivity|reflexivity|exact HD|exact HA|rewrite Hr; exact HZ|exact Hf]. }
  destruct (u_completes e g t (u_fresh false) z D {| o_x := z; o_inf := fun _ => false |} Hm eq_refl ltac:(rewrite Hr; exact HZ) HD) as (o' & H).
  { rewrite ER. reflexivity. }
  exists o'. eexists. split; [exact H|]. unfold u_report. rewrite ER. cbn [report_of]. split; [reflexivity|]. split; [reflexivity|]. apply reached_now. apply Rle_refl.
Qed.

(** * Calls that return *)
Lemma labels_cm_case m meth : In m ["cm"; "cm_exp"]%string -> In meth descent_methods ->
  exists g e t o', total_order Nat.leb Nat.eqb /\ u_construct Nat.leb Nat.eqb NoAdj (PairEdges (map fst path_edges)) NoSeq NoSeq = inl g /\
    t_model t = m /\ t_method t = meth /\ returned (u_new_tool e g t) o'.
Proof.
  intros Hm Hme. destruct cold_world as (e & Hr). set (net := {| un_dseq := [1; 2; 1]%nat; un_str := fun _ => 0 |}).
  assert (HZ : exists z, u_start net m half (GStr "uniform") = Some z /\ u_evaluates net m z).
  { destruct (u_start_cm net m Hm) as (z & Hz). exists z. split; [exact Hz|]. destruct Hm as [<-|[<-|[]]]; [|apply cm_exp_evaluates].
    apply (start_cm_evaluates net half "uniform" z ltac:(cbn; tauto) half_draws Hz). intros i Hi. cbn in Hi. destruct i as [|[|[|i]]]; try lia; cbn; lia. }
  destruct (cold_unet m meth e net ltac:(cbn in Hm |- *; tauto) Hme Hr HZ) as (tol & o' & r & HC & HR & _).
  assert (A : exists g, u_construct Nat.leb Nat.eqb NoAdj (PairEdges (map fst path_edges)) NoSeq NoSeq = inl g /\ u_dseq g = Some (map INR [1; 2; 1]%nat) /\ u_strength g = None /\ u_is_sparse g = false).
  { eexists. split; [reflexivity|]. repeat split. }
  destruct A as (g & E & E1 & E2 & E3). exists g, e, (cold m meth (GStr "uniform") AdjOther tol), o'. split; [exact nat_order|]. split; [exact E|]. split; [reflexivity|]. split; [reflexivity|].
  exists (Some r). unfold u_new_tool, u_object_tool. rewrite E1, E2, E3.
  rewrite naturals_map. change (t_model (cold m meth (GStr "uniform") AdjOther tol)) with m. fold net.
  replace (reads_strengths m) with false by (destruct Hm as [<-|[<-|[]]]; reflexivity). rewrite HC, HR. reflexivity.
Qed.
Lemma labels_ecm_case m meth : In m ["ecm"; "ecm_exp"]%string -> In meth descent_methods ->
  exists g e t o', total_order Nat.leb Nat.eqb /\ u_construct Nat.leb Nat.eqb NoAdj (TripleEdges path_edges) NoSeq NoSeq = inl g /\
    t_model t = m /\ t_method t = meth /\ returned (u_new_tool e g t) o'.
Proof.
  intros Hm Hme. destruct cold_world as (e & Hr). destruct path_from_edges as (g & E & _ & E1 & E2 & E3 & E4).
  destruct (cold_path m meth e ltac:(cbn in Hm |- *; tauto) Hme Hr) as (tol & o' & r & HC & HR & _).
  exists g, e, (cold m meth (GStr "uniform") AdjOther tol), o'. split; [exact nat_order|]. split; [exact E|]. split; [reflexivity|]. split; [reflexivity|].
  exists (Some r). rewrite (path_new e g _ E1 E2 E3 E4), HC, HR. reflexivity.
Qed.
Lemma labels_dcm_case m meth : In m ["dcm"; "dcm_exp"]%string -> In meth descent_methods ->
  exists g e t o', total_order Nat.leb Nat.eqb /\ d_construct Nat.leb Nat.eqb NoAdj (PairEdges (map fst tri_edges)) NoSeq NoSeq = inl g /\
    t_model t = m /\ t_method t = meth /\ returned (d_new_tool e g t) o'.
Proof.
  intros Hm Hme. destruct cold_world as (e & Hr). set (net := {| dn_out := [1; 1; 2]%nat; dn_in := [1; 2; 1]%nat; dn_sout := fun _ => 0; dn_sin := fun _ => 0 |}).
  destruct (cold_net m meth e net ltac:(cbn in Hm |- *; tauto) Hme Hr (d_start_evaluates net m eq_refl ltac:(unfold balanced; cbn; ring) Hm)) as (tol & o' & r & HC & HR & _).
  assert (A : exists g, d_construct Nat.leb Nat.eqb NoAdj (PairEdges (map fst tri_edges)) NoSeq NoSeq = inl g /\ d_dseq_out g = Some (map INR [1; 1; 2]%nat) /\ d_dseq_in g = Some (map INR [1; 2; 1]%nat) /\ d_out_strength g = None /\ d_is_sparse g = false).
  { eexists. split; [reflexivity|]. repeat split. }
  destruct A as (g & E & E1 & E2 & E3 & E4). exists g, e, (cold m meth (GStr "uniform") AdjOther tol), o'. split; [exact nat_order|]. split; [exact E|]. split; [reflexivity|]. split; [reflexivity|].
  eexists. unfold d_new_tool, d_object_tool. rewrite E1, E2, E3, E4.
  rewrite !naturals_map. change (t_model (cold m meth (GStr "uniform") AdjOther tol)) with m. fold net.
  replace (reads_strengths m) with false by (destruct Hm as [<-|[<-|[]]]; reflexivity). rewrite andb_false_r.
  replace (reads_degrees m) with false by (destruct Hm as [<-|[<-|[]]]; reflexivity).
  rewrite d_tool_index_noindex by (cbn in Hm |- *; tauto). rewrite HC. reflexivity.
Qed.

(** * The form of the data matters *)
Lemma tri_rows : row_degrees 3 tri_weights = map INR [1; 1; 2]%nat /\ col_degrees 3 tri_weights = map INR [1; 2; 1]%nat /\
  row_strengths 3 tri_weights = [2; 3; 5] /\ col_strengths 3 tri_weights = [1; 6; 3].
Proof.
  assert (P : forall r, 0 < r -> positiveb r = true) by (intros r H; unfold positiveb; destruct (Rlt_dec 0 r); [reflexivity|contradiction]).
  assert (Z : positiveb 0 = false) by (unfold positiveb; destruct (Rlt_dec 0 0); [lra|reflexivity]).
  unfold row_degrees, col_degrees, row_strengths, col_strengths, tri_weights. cbn -[positiveb INR].
  rewrite !Z, !P by lra. repeat split; repeat f_equal; lra.
Qed.
Lemma tri_excess : excess 3 tri_weights <> 0.
Proof. unfold excess, tri_weights. cbn. repeat (destruct (Req_EM_T _ _); try lra). Qed.
Lemma tri_from_matrix : exists g, d_construct Nat.leb Nat.eqb (ArrayAdj 3 tri_weights) NoEdges NoSeq NoSeq = inl g /\
  d_dseq_out g = Some (map INR [1; 1; 2]%nat) /\ d_dseq_in g = Some (map INR [1; 2; 1]%nat) /\
  d_out_strength g = Some [2; 3; 5] /\ d_in_strength g = Some [1; 6; 3] /\ d_is_sparse g = false /\ d_deg_kind g = Numbers /\ d_str_kind g = Numbers /\
  d_index g = Some (nz_real 3 (dn_sout tri_net), nz_real 3 (dn_sin tri_net)).
Proof.
  destruct (d_from_matrix_ok (@d_blank nat) Ndarray false 3 tri_weights ltac:(discriminate) tri_weights_nonneg) as (g & E & _).
  destruct (d_matrix_object nat Nat.leb Nat.eqb Ndarray false 3 tri_weights g ltac:(discriminate) tri_weights_nonneg E) as (D1 & D2 & _ & D4).
  destruct (D4 tri_excess) as (S1 & S2 & S3). destruct tri_rows as (R1 & R2 & R3 & R4). rewrite R1 in D1. rewrite R2 in D2. rewrite R3 in S1, S3. rewrite R4 in S2, S3.
  exists g. split; [unfold d_construct; cbn [ModelLife.d_initialize d_init_adjacency]; cbn [Nat.ltb Nat.leb Nat.mul Nat.add]; rewrite E; reflexivity|].
  do 4 (split; [assumption|]). pose proof (d_from_matrix_kind nat d_blank _ _ _ _ _ eq_refl E) as [Z1 Z2]. split; [|split; [exact Z1|split; [exact Z2|rewrite S3, !nonzero_nz; reflexivity]]].
  unfold d_from_matrix in E. destruct (has_negative 3 tri_weights); [discriminate|]. destruct (in_degree Ndarray 3 tri_weights); [|discriminate]. destruct (out_degree Ndarray 3 tri_weights); [|discriminate].
  destruct (Req_EM_T _ _); [injection E as <-; reflexivity|]. destruct (in_strength Ndarray 3 tri_weights); [|discriminate]. destruct (out_strength Ndarray 3 tri_weights); [|discriminate]. injection E as <-. reflexivity.
Qed.
Lemma tri_matrix_of_edges : exists g es', d_construct Nat.leb Nat.eqb NoAdj (TripleEdges tri_edges) NoSeq NoSeq = inl g /\
  d_edgelist g = Some (map (fun e => (fst e, Some (snd e))) es') /\
  exists a, build_adjacency_fast_weighted es' true = Adj 3 a /\ forall i j, (i < 3)%nat -> (j < 3)%nat -> a i j = tri_weights i j.
Proof.
  eexists. exists [((0, 1)%nat, 2); ((1, 2)%nat, 3); ((2, 0)%nat, 1); ((2, 1)%nat, 4)]. split; [reflexivity|]. split; [reflexivity|].
  eexists. split; [reflexivity|]. intros i j Hi Hj. destruct i as [|[|[|i]]]; try lia; destruct j as [|[|[|j]]]; try lia; reflexivity.
Qed.
Lemma object_crema_edges_refuted : exists g e t o', d_construct Nat.leb Nat.eqb (ArrayAdj 3 tri_weights) NoEdges NoSeq NoSeq = inl g /\
  t_model t = "crema"%string /\ t_method t = "newton"%string /\ returned (d_new_tool e g t) o' /\
  exists ge, d_construct Nat.leb Nat.eqb NoAdj (TripleEdges tri_edges) NoSeq NoSeq = inl ge /\
    d_dseq_out ge = d_dseq_out g /\ d_dseq_in ge = d_dseq_in g /\ d_out_strength ge = d_out_strength g /\ d_in_strength ge = d_in_strength g /\
    forall o'', ~ returned (d_new_tool e ge t) o''.
Proof.
  destruct cold_world as (e & Hr). destruct tri_from_matrix as (g & E & E1 & E2 & E3 & E4 & E5 & K1 & K2 & E6). destruct tri_from_edges as (ge & F & _ & F1 & F2 & F3 & F4 & _).
  destruct (cold_tri_crema "random" "newton" e ltac:(cbn; tauto) ltac:(cbn; tauto) Hr) as (tol & o' & r & HC).
  exists g, e, (cold "crema" "newton" (GStr "random") (AdjMatrix tri_adj) tol), o'. split; [exact E|]. split; [reflexivity|]. split; [reflexivity|]. split.
  - eexists. rewrite (tri_new e g _ E1 E2 E3 E4 E5 K1 K2), E6. set (t := cold _ _ _ _ _) in *. pose proof (proj1 (d_tool_indexed e tri_net t (d_fresh false))) as Q. rewrite (proj1 HC) in Q. change (dn_n tri_net) with 3%nat in Q. rewrite Q. reflexivity.
  - exists ge. split; [exact F|]. do 4 (split; [congruence|]). intros o''. apply (object_crema_edges_raises nat Nat.leb Nat.eqb tri_edges ge); try assumption; [discriminate|left; reflexivity|right; left; reflexivity].
Qed.
Lemma object_decm_edges_refuted m meth : In m ["decm"; "decm_exp"]%string -> In meth descent_methods ->
  exists g e t o', d_construct Nat.leb Nat.eqb (ArrayAdj 3 tri_weights) NoEdges NoSeq NoSeq = inl g /\
  t_model t = m /\ t_method t = meth /\ returned (d_new_tool e g t) o' /\
  exists ge, d_construct Nat.leb Nat.eqb NoAdj (TripleEdges tri_edges) NoSeq NoSeq = inl ge /\
    d_dseq_out ge = d_dseq_out g /\ d_dseq_in ge = d_dseq_in g /\ d_out_strength ge = d_out_strength g /\ d_in_strength ge = d_in_strength g /\
    forall o'', ~ returned (d_new_tool e ge t) o''.
Proof.
  intros Hm Hme. destruct cold_world as (e & Hr). destruct tri_from_matrix as (g & E & E1 & E2 & E3 & E4 & E5 & K1 & K2 & E6). destruct tri_from_edges as (ge & F & _ & F1 & F2 & F3 & F4 & _).
  destruct (cold_net m meth e tri_net ltac:(cbn in Hm |- *; tauto) Hme Hr (tri_start_decm m Hm)) as (tol & o' & r & HC).
  set (t := cold m meth (GStr "uniform") AdjOther tol) in *.
  exists g, e, t, o'. split; [exact E|]. split; [reflexivity|]. split; [reflexivity|]. split.
  - eexists. rewrite (tri_new e g _ E1 E2 E3 E4 E5 K1 K2). rewrite d_tool_index_noindex by (change (t_model t) with m; cbn in Hm |- *; tauto). rewrite (proj1 HC). reflexivity.
  - exists ge. split; [exact F|]. do 4 (split; [congruence|]). intros o''. apply (object_decm_edges_raises nat Nat.leb Nat.eqb tri_edges ge); [discriminate|exact F|exact Hm].
Qed.

(** Weights all equal to 1. *)
Definition unit_edges : list (nat * nat * R) := [((10, 20)%nat, 1); ((30, 20)%nat, 1)].
Lemma object_unit_matrix_missing (L : Type) (leb eqb : L -> L -> bool) n a g e t : (0 < n)%nat -> nonneg_matrix n a -> excess n a = 0 ->
  u_construct leb eqb (ArrayAdj n a) NoEdges NoSeq NoSeq = inl g -> In (t_model t) ["ecm"; "ecm_exp"; "crema"; "crema-sparse"]%string -> u_new_tool e g t = Missing.
Proof.
  intros Hn Ha X E Hm. destruct (u_from_matrix_ok (@u_blank L) Ndarray false n a ltac:(discriminate) Ha) as (g' & E' & _ & _ & D & _ & _ & _ & _ & _ & U).
  unfold u_construct in E. cbn [ModelLife.u_initialize u_init_adjacency] in E. rewrite (proj2 (Nat.ltb_lt 0 (n * n)) ltac:(nia)), E' in E. injection E as <-.
  destruct (U (proj2 (test_excess n a Ha) X)) as [_ U2]. unfold u_new_tool, u_object_tool. cbn [u_dseq u_strength]. rewrite D, U2. destruct (row_naturals n a) as (k & -> & _).
  destruct Hm as [<-|[<-|[<-|[<-|[]]]]]; reflexivity.
Qed.
Lemma object_unit_weights_refuted : exists ge es' a g e t o', u_construct Nat.leb Nat.eqb NoAdj (TripleEdges unit_edges) NoSeq NoSeq = inl ge /\
  u_edgelist ge = Some (map (fun e => (fst e, Some (snd e))) es') /\ build_adjacency_fast_weighted es' false = Adj 3 a /\
  u_construct Nat.leb Nat.eqb (ArrayAdj 3 a) NoEdges NoSeq NoSeq = inl g /\
  t_model t = "ecm"%string /\ returned (u_new_tool e ge t) o' /\ u_new_tool e g t = Missing.
Proof.
  destruct cold_world as (e & Hr). set (net := {| un_dseq := [1; 2; 1]%nat; un_str := at_reals [1; 2; 1] |}).
  assert (Hs : nonneg (un_n net) (un_str net)) by (intros i Hi; cbn in Hi; destruct i as [|[|[|i]]]; try lia; cbn; lra).
  assert (HZ : exists z, u_start net "ecm" half (GStr "uniform") = Some z /\ u_evaluates net "ecm" z).
  { destruct (u_start_ecm net "ecm" Hs ltac:(cbn; tauto)) as (z & Hz). exists z. split; [exact Hz|].
    apply (start_ecm_evaluates net half "uniform" z ltac:(cbn; tauto) half_draws Hs Hz). intros i Hi. cbn in Hi. destruct i as [|[|[|i]]]; try lia; cbn; split; solve [lia|lra]. }
  destruct (cold_unet "ecm" "newton" e net ltac:(cbn; tauto) ltac:(cbn; tauto) Hr HZ) as (tol & o' & r & HC & HR & _).
  assert (A : exists ge, u_construct Nat.leb Nat.eqb NoAdj (TripleEdges unit_edges) NoSeq NoSeq = inl ge /\
    u_edgelist ge = Some (map (fun e => (fst e, Some (snd e))) [((0, 1)%nat, 1); ((2, 1)%nat, 1)]) /\
    u_dseq ge = Some (map INR [1; 2; 1]%nat) /\ u_strength ge = Some [1; 2; 1] /\ u_is_sparse ge = false /\ u_str_kind ge = Numbers).
  { eexists. split; [reflexivity|]. split; [reflexivity|]. split; [reflexivity|]. split; [|split; reflexivity]. cbn. repeat f_equal; lra. }
  destruct A as (ge & F & El & F1 & F2 & F3 & F4).
  assert (B : exists a, build_adjacency_fast_weighted [((0, 1)%nat, 1); ((2, 1)%nat, 1)] false = Adj 3 a /\ (forall i j, (i < 3)%nat -> (j < 3)%nat -> a i j = 0 \/ a i j = 1)).
  { eexists. split; [reflexivity|]. intros i j Hi Hj. destruct i as [|[|[|i]]]; try lia; destruct j as [|[|[|j]]]; try lia; auto. }
  destruct B as (a & B & B1). assert (Ha : nonneg_matrix 3 a) by (intros i j Hi Hj; destruct (B1 i j Hi Hj) as [->| ->]; lra).
  destruct (u_from_matrix_ok (@u_blank nat) Ndarray false 3 a ltac:(discriminate) Ha) as (g' & E' & _).
  assert (C : exists g, u_construct Nat.leb Nat.eqb (ArrayAdj 3 a) NoEdges NoSeq NoSeq = inl g).
  { unfold u_construct. cbn [ModelLife.u_initialize u_init_adjacency]. cbn [Nat.ltb Nat.leb Nat.mul Nat.add]. rewrite E'. eexists; reflexivity. }
  destruct C as (g & C). exists ge, [((0, 1)%nat, 1); ((2, 1)%nat, 1)], a, g, e, (cold "ecm" "newton" (GStr "uniform") AdjOther tol), o'.
  do 4 (split; [assumption|]). split; [reflexivity|]. split.
  - exists (Some r). unfold u_new_tool, u_object_tool. rewrite F1, F2, F3, F4, naturals_map. fold net. rewrite HC, HR. reflexivity.
  - apply (object_unit_matrix_missing nat Nat.leb Nat.eqb 3 a g); try assumption; [lia| |left; reflexivity]. apply excess_binary. exact B1.
Qed.

(** * The hypotheses of the theorems on forms *)
Lemma matrix_case : Csr <> OtherKind /\ (0 < 4)%nat /\ (0 < 3)%nat /\ nonneg_matrix 3 tri_weights /\ excess 3 tri_weights <> 0.
Proof. split; [discriminate|]. split; [lia|]. split; [lia|]. split; [exact tri_weights_nonneg|exact tri_excess]. Qed.
Lemma edges_case : total_order Nat.leb Nat.eqb /\ path_edges <> [] /\ simple_edges false (map fst path_edges) /\ (forall e, In e path_edges -> 0 < snd e) /\
  tri_edges <> [] /\ simple_edges true (map fst tri_edges) /\ (forall e, In e tri_edges -> 0 < snd e).
Proof.
  split; [exact nat_order|]. split; [discriminate|]. split; [|split; [|split; [discriminate|split]]].
  - split; [intros i Q; cbn in Q; intuition congruence|]. split; [repeat (constructor; [cbn; intuition congruence|]); constructor|].
    intros _ i j Q Q'. cbn in Q, Q'. intuition congruence.
  - intros e [<-|[<-|[]]]; cbn; lra.
  - split; [intros i Q; cbn in Q; intuition congruence|]. split; [repeat (constructor; [cbn; intuition congruence|]); constructor|]. discriminate.
  - intros e [<-|[<-|[<-|[<-|[]]]]]; cbn; lra.
Qed.
