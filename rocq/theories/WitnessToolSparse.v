(** Calls of [solve_tool] with crema-sparse and quasinewton meeting the hypotheses of the
    end-to-end theorems. *)
From Coq Require Import Reals List Arith Bool String Lia Lra.
From Verif Require Import Base SpecDeriv SpecGraph SpecEnsemble SpecWeighted SpecDirected SpecCReMa SpecNetwork SpecLinsearch SpecDispatch SpecRun SpecSolver SpecSolve SpecGuess SpecTool
  ModelCM ModelECM ModelDCM ModelDECM ModelCReMa ModelIEEE ModelNetwork ModelLinsearch ModelSolver ModelDispatch ModelGuess ModelRun ModelSolve ModelTool.
From Verif Require Import ProofsGraph ProofsUnique ProofsCM ProofsMainCM ProofsCReMa ProofsMainCReMa ProofsSparseCReMa ProofsAdjacency ProofsSolver ProofsConverged ProofsGuess ProofsGuessW ProofsDispatch ProofsRun ProofsSolve ProofsSolveU ProofsTool
  ProofsStart ProofsEvaluates ProofsSpectral ProofsToolSparse WitnessTool.
Import ListNotations.
Local Open Scope R_scope.

Lemma u_completes_sparse e g t x o z D v q o1 : t_model t = "crema-sparse"%string -> (forall i, (i < un_n g)%nat -> 0 <= x i) -> positive_rates (un_n g) (pmatrix_cm x) (o_x v) ->
  u_start g "crema-sparse" (v_rnd e) (t_guess t) = Some z -> u_dispatch "crema-sparse" (t_method t) None = inl D -> solved_of (u_result e g t o) = Some v ->
  u_set_adjacency g (u_call e g t o) o = (o1, None) -> us_adj o1 = Some (Factors1 x) -> us_sparse o1 = true -> us_given o1 = Some q ->
  (q = false -> us_x o1 <> None) ->
  exists o', u_tool e g t o = (o', None).
Proof.
  intros Hm Hx HP Hz HD Hv HA HJ HS HG HX. unfold u_tool, u_solve_tool. change (c_model (u_call e g t o)) with (t_model t). rewrite Hm. names.
  unfold u_solve_crema. rewrite HA. unfold andthen at 2. cbn [fst snd]. cbv beta iota zeta. rewrite HS.
  unfold u_initialize, u_set_guess, u_set_args. unfold u_call, u_call_adjacency. cbn [c_guess c_method c_out]. rewrite Hm, Hz. names. cbn [andthen fst snd ok us_adj us_set_beta us_set_last]. rewrite HJ.
  cbn [andthen fst snd ok]. rewrite HD. names. cbn [andthen fst snd ok]. rewrite Hv. cbn [u_run_solver]. unfold u_set_solved, degree_reduction_und.
  cbn [us_last us_set_step us_set_args us_set_beta us_set_last]. names. unfold andthen, ok. cbn [fst snd]. cbv beta iota zeta.
  unfold u_solution_error. cbn [us_last us_set_step us_set_args us_set_beta us_set_last us_set_sol]. names.
  unfold u_error_degree. cbn [us_x us_set_step us_set_args us_set_beta us_set_last us_set_sol].
  destruct (expected_sparse (un_n g) x (o_x v) Hx HP) as (E & EE & _).
  destruct (us_x o1) as [x1|] eqn:EX; unfold u_error_strength; cbn [us_beta us_adj us_sparse us_given us_ek us_set_ek us_set_es us_set_step us_set_args us_set_beta us_set_last us_set_sol];
    rewrite HJ, HS; cbn [adj0 obind]; rewrite EE, HG; (destruct q; [eexists; reflexivity|]).
  - cbn [us_ek us_set_ek us_set_es]. eexists. reflexivity.
  - exfalso. exact (HX eq_refl eq_refl).
Qed.
Lemma path_rates p z : (forall i, (i < 3)%nat -> 0 < z i) -> positive_rates 3 p z.
Proof. intros H i j Hij _. pose proof (H i ltac:(lia)). pose proof (H j ltac:(lia)). lra. Qed.
Lemma path_fun_sparse D x z : u_dispatch "crema-sparse" "quasinewton" None = inl D -> (forall i, (i < 3)%nat -> 0 < x i) -> (forall i, (i < 3)%nat -> 0 < z i) ->
  exists f, real_vec 3 (run_entry (d_fun D) (A3 3 (un_str path_net) (Factors1 x)) z) = Some f.
Proof.
  intros HD Hx Hz. injection HD as <-. change (exists f, all_fin 3 (fun i => fopp (loglikelihood_prime_crema_undirected_sparse 3 (un_str path_net) x z i)) = Some f).
  apply all_fin_some'. intros i Hi. rewrite (prime_crema_sparse_fin 3 x z (fun i Hi => Rlt_le _ _ (Hx i Hi))); [eexists; reflexivity|exact Hi|].
  intros j Hj. pose proof (Hz i Hi). pose proof (Hz j Hj). lra.
Qed.
Lemma path_sparse_at_once a nm methA e : In a ["cm"; "cm_exp"]%string -> In nm ["random"; "strengths"; "strengths_minor"]%string ->
  In methA descent_methods -> v_rnd e = half -> v_rnd_adjacency e = half ->
  exists tol o' r ra, let t := settings_for "crema-sparse" "quasinewton" (GStr nm) (AdjName a) methA (GStr "uniform") tol in
    at_once_u e path_net t (u_fresh false) o' r /\ u_report_adjacency e path_net t = Some ra /\ tolerance_reached tol ra.
Proof.
  intros Ha Hn HmA Hr HrA. destruct (path_start_cm a Ha) as (y & HY). destruct (path_start_crema nm Hn) as (z & HZ). pose proof (path_start_positive nm z Hn HZ) as Pz.
  assert (HQ : exists D A, u_dispatch a methA None = inl D /\ u_args path_net a None = Some A).
  { destruct Ha as [<-|[<-|[]]], HmA as [<-|[<-|[]]]; eexists; eexists; (split; [reflexivity|]); reflexivity. }
  destruct HQ as (DA & AA & HDA & HAA). destruct (path_evaluates a y ltac:(cbn in Ha |- *; tauto) HY methA DA AA HmA HDA HAA) as (fA & HfA).
  assert (HD : exists D, u_dispatch "crema-sparse" "quasinewton" None = inl D) by (eexists; reflexivity). destruct HD as (D & HD).
  set (x := fun i => cm_factor a {| o_x := y; o_inf := fun _ => false |} (u_class path_net i)).
  set (nA := norm2 (u_length path_net a) fA) in *.
  assert (EA0 : forall tol, nA <= tol -> u_solver e path_net (settings_for "crema-sparse" "quasinewton" (GStr nm) (AdjName a) methA (GStr "uniform") tol) a methA (v_rnd_adjacency e) (GStr "uniform") None = Full y 0 [nA] [1] []).
  { intros tol L. unfold u_solver. eapply stop_at_start; [reflexivity|exact HDA|exact HAA|rewrite HrA; exact HY|exact HfA|exact L]. }
  assert (Px : forall i, (i < 3)%nat -> 0 < x i).
  { intros i Hi. unfold x. destruct Ha as [<-|[<-|[]]]; [|apply exp_pos].
    destruct (cm_core e path_net (settings_for "crema-sparse" "quasinewton" (GStr nm) (AdjName "cm") methA (GStr "uniform") nA) methA (v_rnd_adjacency e) "uniform" None
      {| r_steps := 0; r_norms := [nA]; r_diffs := [1]; r_alfas := [] |} path_deg HmA) as (y' & Ey & _ & HP).
    { cbn. tauto. } { rewrite HrA. exact half_draws. } { reflexivity. } { rewrite (EA0 nA (Rle_refl _)). reflexivity. } { apply reached_now. apply Rle_refl. }
    rewrite (EA0 nA (Rle_refl _)) in Ey. injection Ey as <-. exact (proj1 (HP i Hi)). }
  destruct (path_fun_sparse D x z HD Px Pz) as (f & Hf). exists (Rmax nA (norm2 3 f)).
  set (t := settings_for "crema-sparse" "quasinewton" (GStr nm) (AdjName a) methA (GStr "uniform") (Rmax nA (norm2 3 f))).
  assert (EA : u_result_adjacency e path_net t = Full y 0 [nA] [1] []).
  { change (u_result_adjacency e path_net t) with (u_solver e path_net t a methA (v_rnd_adjacency e) (GStr "uniform") None).
    apply EA0. apply Rmax_l. }
  assert (HJ : forall out, exists o1, u_set_adjacency path_net (u_call_adjacency e path_net t out) (u_fresh false) = (o1, None) /\
    us_adj o1 = Some (Factors1 x) /\ us_sparse o1 = true /\ us_given o1 = Some false /\ us_x o1 = Some x).
  { intros out. unfold u_set_adjacency, u_call_adjacency. cbn [c_adjacency c_model c_method_adjacency c_guess_adjacency c_out_adjacency]. change (t_adjacency t) with (AdjName a).
    change (t_model t) with "crema-sparse"%string. change (t_method_adjacency t) with methA. rewrite EA. cbn [solved_of]. unfold u_start_adjacency. change (t_adjacency t) with (AdjName a). change (t_guess_adjacency t) with (GStr "uniform").
    rewrite HrA, HY. unfold u_solve_problem, u_initialize, u_set_guess, u_set_args, degree_reduction_und.
    destruct Ha as [<-|[<-|[]]]; names; unfold andthen, ok; cbn [fst snd]; rewrite HDA; names; cbn [fst snd u_run_solver];
      unfold u_set_solved, degree_reduction_und; cbn [us_last us_set_pm us_set_step us_set_args us_set_last]; names;
      cbn [us_x us_sparse us_pm us_set_x us_set_sol us_set_pm us_set_step us_set_args us_set_last us_set_sparse];
      eexists; (split; [reflexivity|]); repeat split; reflexivity. }
  assert (ER : u_result e path_net t (u_fresh false) = Full z 0 [norm2 3 f] [1] []).
  { unfold u_result. change (t_model t) with "crema-sparse"%string. names. cbv zeta. destruct (HJ None) as (o1 & E1 & E2 & E3 & _). rewrite E1. cbn [fst]. rewrite E2, E3.
    unfold u_solver. eapply stop_at_start; [reflexivity|exact HD|reflexivity|rewrite Hr; exact HZ|exact Hf|apply Rmax_r]. }
  destruct (HJ (solved_of (u_result e path_net t (u_fresh false)))) as (o1 & E1 & E2 & E3 & E4 & E5).
  edestruct (u_completes_sparse e path_net t x (u_fresh false) z D {| o_x := z; o_inf := fun _ => false |} false o1) as (o' & H).
  { reflexivity. } { intros i Hi. left. apply Px. exact Hi. } { exact (path_rates _ z Pz). } { rewrite Hr. exact HZ. } { exact HD. } { rewrite ER. reflexivity. } { exact E1. } { exact E2. } { exact E3. } { exact E4. } { intros _. rewrite E5. discriminate. }
  exists o'. eexists. eexists. cbv zeta. fold t. split; [split; [exact H|]|].
  - unfold u_report. rewrite ER. cbn [report_of]. split; [reflexivity|]. apply reached_now. apply Rmax_r.
  - unfold u_report_adjacency. rewrite EA. cbn [report_of]. split; [reflexivity|]. apply reached_now. apply Rmax_l.
Qed.

Lemma tool_sparse_cm_case : exists e g t (nma : string) (nm : string) o o' ra r,
  ((0 < un_n g)%nat) /\
  ((forall i, (i < un_n g)%nat -> nth i (un_dseq g) O <> O)) /\
  (nonneg (un_n g) (un_str g)) /\
  ((forall i j, (i < j < un_n g)%nat -> un_str g i <> 0 \/ un_str g j <> 0)) /\
  (t_model t = "crema-sparse"%string) /\
  (t_adjacency t = AdjName "cm") /\
  (In (t_method_adjacency t) descent_methods) /\
  (t_guess_adjacency t = GStr nma) /\
  (In nma binary_names) /\
  (draws (v_rnd_adjacency e)) /\
  (t_method t = "quasinewton"%string) /\
  (t_guess t = GStr nm) /\
  (In nm ["random"; "strengths"; "strengths_minor"]%string) /\
  (draws (v_rnd e)) /\
  (t_linsearch t = true) /\
  (u_tool e g t o = (o', None)) /\
  (u_report_adjacency e g t = Some ra) /\
  (tolerance_reached (t_tol t) ra) /\
  (u_report e g t o = Some r) /\
  (tolerance_reached (t_tol t) r) /\
  (never_gave_up r).
Proof.
  destruct (world (un_n path_net)) as (e & HL & HE & R1 & R2). destruct (path_sparse_at_once "cm" "random" "newton" e ltac:(cbn; tauto) ltac:(cbn; tauto) ltac:(cbn; tauto) R1 R2) as (tol & o' & r & ra & (H1 & H2 & H3 & H4) & H5 & H6).
  exists e, path_net, (settings_for "crema-sparse" "quasinewton" (GStr "random") (AdjName "cm") "newton" (GStr "uniform") tol), "uniform"%string, "random"%string, (u_fresh false), o', ra, r.
  repeat match goal with |- _ /\ _ => split end; case_done.
Qed.
Lemma tool_sparse_cm_exp_case : exists e g t (nm : string) o o' ra r,
  ((0 < un_n g)%nat) /\
  (nonneg (un_n g) (un_str g)) /\
  ((forall i j, (i < j < un_n g)%nat -> un_str g i <> 0 \/ un_str g j <> 0)) /\
  (t_model t = "crema-sparse"%string) /\
  (t_adjacency t = AdjName "cm_exp") /\
  (In (t_method_adjacency t) descent_methods) /\
  (t_method t = "quasinewton"%string) /\
  (t_guess t = GStr nm) /\
  (In nm ["random"; "strengths"; "strengths_minor"]%string) /\
  (draws (v_rnd e)) /\
  (t_linsearch t = true) /\
  (u_tool e g t o = (o', None)) /\
  (u_report_adjacency e g t = Some ra) /\
  (tolerance_reached (t_tol t) ra) /\
  (u_report e g t o = Some r) /\
  (tolerance_reached (t_tol t) r) /\
  (never_gave_up r).
Proof.
  destruct (world (un_n path_net)) as (e & HL & HE & R1 & R2). destruct (path_sparse_at_once "cm_exp" "random" "newton" e ltac:(cbn; tauto) ltac:(cbn; tauto) ltac:(cbn; tauto) R1 R2) as (tol & o' & r & ra & (H1 & H2 & H3 & H4) & H5 & H6).
  exists e, path_net, (settings_for "crema-sparse" "quasinewton" (GStr "random") (AdjName "cm_exp") "newton" (GStr "uniform") tol), "random"%string, (u_fresh false), o', ra, r.
  repeat match goal with |- _ /\ _ => split end; case_done.
Qed.
