(** Theorems on whole calls of [solve_tool] with crema-sparse.  Nothing else in this file;
    proofs are in ProofsToolSparse, ProofsToolSparseD, WitnessToolSparse and WitnessToolSparseD. *)
From Coq Require Import Reals List Arith Bool String Lia Lra.
From Verif Require Import Base SpecDeriv SpecGraph SpecEnsemble SpecWeighted SpecDirected SpecCReMa SpecNetwork SpecLinsearch SpecDispatch SpecRun SpecSolver SpecSolve SpecGuess SpecTool
  ModelCM ModelECM ModelDCM ModelDECM ModelCReMa ModelIEEE ModelNetwork ModelLinsearch ModelSolver ModelDispatch ModelGuess ModelRun ModelSolve ModelTool.
From Verif Require Import ProofsSolveD ProofsToolSparse ProofsToolSparseD WitnessToolSparse WitnessToolSparseD.
Import ListNotations.
Local Open Scope R_scope.

(** C82: a run that stops within the tolerance reports an error within it. *)
Theorem C82_crema_sparse_cm :
  forall e g t nma nm o o' ra r,
  (0 < un_n g)%nat ->
  (forall i, (i < un_n g)%nat -> nth i (un_dseq g) O <> O) ->
  nonneg (un_n g) (un_str g) -> (forall i j, (i < j < un_n g)%nat -> un_str g i <> 0 \/ un_str g j <> 0) ->
  t_model t = "crema-sparse"%string -> t_adjacency t = AdjName "cm" -> In (t_method_adjacency t) descent_methods ->
  t_guess_adjacency t = GStr nma -> In nma binary_names -> draws (v_rnd_adjacency e) ->
  t_method t = "quasinewton"%string -> t_guess t = GStr nm -> In nm ["random"; "strengths"; "strengths_minor"]%string -> draws (v_rnd e) -> t_linsearch t = true ->
  u_tool e g t o = (o', None) ->
  u_report_adjacency e g t = Some ra -> tolerance_reached (t_tol t) ra ->
  u_report e g t o = Some r -> tolerance_reached (t_tol t) r -> never_gave_up r ->
  exists x beta err, us_x o' = Some x /\ us_beta o' = Some beta /\ us_err o' = Some err /\ (forall i, (i < un_n g)%nat -> 0 < x i) /\
    positive_rates (un_n g) (p_ubcm x) beta /\ forall B, 1 <= B -> bounded_by (un_n g) x B -> err <= B * t_tol t.
Proof. exact tool_sparse_cm. Qed.
Print Assumptions C82_crema_sparse_cm.
Example C82_crema_sparse_cm_case :
  exists e g t (nma : string) (nm : string) o o' ra r,
  ((0 < un_n g)%nat) /\
  ((forall i, (i < un_n g)%nat -> nth i (un_dseq g) O <> O)) /\
  (nonneg (un_n g) (un_str g)) /\
  ((forall i j, (i < j < un_n g)%nat -> un_str g i <> 0 \/ un_str g j <> 0)) /\
  (t_model t = "crema-sparse"%string) /\
  (t_adjacency t = AdjName "cm") /\
  (In (t_method_adjacency t) descent_methods) /\
  (t_guess_adjacency t = GStr nma) /\
  (In nma binary_names) /\
  (draws (v_rnd_adjacency e)) /\
  (t_method t = "quasinewton"%string) /\
  (t_guess t = GStr nm) /\
  (In nm ["random"; "strengths"; "strengths_minor"]%string) /\
  (draws (v_rnd e)) /\
  (t_linsearch t = true) /\
  (u_tool e g t o = (o', None)) /\
  (u_report_adjacency e g t = Some ra) /\
  (tolerance_reached (t_tol t) ra) /\
  (u_report e g t o = Some r) /\
  (tolerance_reached (t_tol t) r) /\
  (never_gave_up r).
Proof. exact tool_sparse_cm_case. Qed.
Theorem C82_crema_sparse_cm_exp :
  forall e g t nm o o' ra r,
  (0 < un_n g)%nat ->
  nonneg (un_n g) (un_str g) -> (forall i j, (i < j < un_n g)%nat -> un_str g i <> 0 \/ un_str g j <> 0) ->
  t_model t = "crema-sparse"%string -> t_adjacency t = AdjName "cm_exp" -> In (t_method_adjacency t) descent_methods ->
  t_method t = "quasinewton"%string -> t_guess t = GStr nm -> In nm ["random"; "strengths"; "strengths_minor"]%string -> draws (v_rnd e) -> t_linsearch t = true ->
  u_tool e g t o = (o', None) ->
  u_report_adjacency e g t = Some ra -> tolerance_reached (t_tol t) ra ->
  u_report e g t o = Some r -> tolerance_reached (t_tol t) r -> never_gave_up r ->
  exists x beta err, us_x o' = Some x /\ us_beta o' = Some beta /\ us_err o' = Some err /\ (forall i, (i < un_n g)%nat -> 0 < x i) /\
    positive_rates (un_n g) (p_ubcm x) beta /\ err <= t_tol t.
Proof. exact tool_sparse_cm_exp. Qed.
Print Assumptions C82_crema_sparse_cm_exp.
Example C82_crema_sparse_cm_exp_case :
  exists e g t (nm : string) o o' ra r,
  ((0 < un_n g)%nat) /\
  (nonneg (un_n g) (un_str g)) /\
  ((forall i j, (i < j < un_n g)%nat -> un_str g i <> 0 \/ un_str g j <> 0)) /\
  (t_model t = "crema-sparse"%string) /\
  (t_adjacency t = AdjName "cm_exp") /\
  (In (t_method_adjacency t) descent_methods) /\
  (t_method t = "quasinewton"%string) /\
  (t_guess t = GStr nm) /\
  (In nm ["random"; "strengths"; "strengths_minor"]%string) /\
  (draws (v_rnd e)) /\
  (t_linsearch t = true) /\
  (u_tool e g t o = (o', None)) /\
  (u_report_adjacency e g t = Some ra) /\
  (tolerance_reached (t_tol t) ra) /\
  (u_report e g t o = Some r) /\
  (tolerance_reached (t_tol t) r) /\
  (never_gave_up r).
Proof. exact tool_sparse_cm_exp_case. Qed.
Theorem C82_crema_sparse_dcm :
  forall e g t nma nm o o' ra r,
  (0 < dn_n g)%nat -> d_paired g -> balanced (dn_out g) (dn_in g) ->
  linear_solver (d_length g "dcm") (v_linsolve e) -> eigen_solver (d_length g "dcm") (v_eigh e) ->
  nonneg (dn_n g) (dn_sout g) -> nonneg (dn_n g) (dn_sin g) ->
  (forall i, (i < dn_n g)%nat -> (nth i (dn_out g) O <> O <-> dn_sout g i <> 0) /\ (nth i (dn_in g) O <> O <-> dn_sin g i <> 0)) ->
  t_model t = "crema-sparse"%string -> t_adjacency t = AdjName "dcm" -> In (t_method_adjacency t) descent_methods ->
  t_guess_adjacency t = GStr nma -> In nma binary_names -> draws (v_rnd_adjacency e) ->
  t_method t = "quasinewton"%string -> t_guess t = GStr nm -> In nm ["random"; "strengths"; "strengths_minor"]%string -> draws (v_rnd e) -> t_linsearch t = true ->
  d_tool e g t o = (o', None) ->
  d_report_adjacency e g t = Some ra -> tolerance_reached (t_tol t) ra ->
  d_report e g t o = Some r -> tolerance_reached (t_tol t) r -> never_gave_up r ->
  exists x y bo bi err, ds_x o' = Some x /\ ds_y o' = Some y /\ ds_bo o' = Some bo /\ ds_bi o' = Some bi /\ ds_err o' = Some err /\
    supported (dn_n g) (at_list (dn_out g)) x /\ supported (dn_n g) (at_list (dn_in g)) y /\
    positive_rates_dir (dn_n g) (dcm_prob x y) bo bi /\
    forall B, 1 <= B -> bounded_by (dn_n g) x B -> bounded_by (dn_n g) y B -> err <= B * t_tol t.
Proof. exact tool_sparse_dcm. Qed.
Print Assumptions C82_crema_sparse_dcm.
Example C82_crema_sparse_dcm_case :
  exists e g t (nma : string) (nm : string) o o' ra r,
  ((0 < dn_n g)%nat) /\
  (d_paired g) /\
  (balanced (dn_out g) (dn_in g)) /\
  (linear_solver (d_length g "dcm") (v_linsolve e)) /\
  (eigen_solver (d_length g "dcm") (v_eigh e)) /\
  (nonneg (dn_n g) (dn_sout g)) /\
  (nonneg (dn_n g) (dn_sin g)) /\
  ((forall i, (i < dn_n g)%nat -> (nth i (dn_out g) O <> O <-> dn_sout g i <> 0) /\ (nth i (dn_in g) O <> O <-> dn_sin g i <> 0))) /\
  (t_model t = "crema-sparse"%string) /\
  (t_adjacency t = AdjName "dcm") /\
  (In (t_method_adjacency t) descent_methods) /\
  (t_guess_adjacency t = GStr nma) /\
  (In nma binary_names) /\
  (draws (v_rnd_adjacency e)) /\
  (t_method t = "quasinewton"%string) /\
  (t_guess t = GStr nm) /\
  (In nm ["random"; "strengths"; "strengths_minor"]%string) /\
  (draws (v_rnd e)) /\
  (t_linsearch t = true) /\
  (d_tool e g t o = (o', None)) /\
  (d_report_adjacency e g t = Some ra) /\
  (tolerance_reached (t_tol t) ra) /\
  (d_report e g t o = Some r) /\
  (tolerance_reached (t_tol t) r) /\
  (never_gave_up r).
Proof. exact tool_sparse_dcm_case. Qed.
Theorem C82_crema_sparse_dcm_exp :
  forall e g t nm o o' ra r,
  (0 < dn_n g)%nat -> d_paired g ->
  (forall i, (i < dn_n g)%nat -> nth i (dn_out g) O <> O /\ nth i (dn_in g) O <> O) ->
  nonneg (dn_n g) (dn_sout g) -> nonneg (dn_n g) (dn_sin g) ->
  (forall i, (i < dn_n g)%nat -> dn_sout g i <> 0 /\ dn_sin g i <> 0) ->
  t_model t = "crema-sparse"%string -> t_adjacency t = AdjName "dcm_exp" -> In (t_method_adjacency t) descent_methods ->
  t_method t = "quasinewton"%string -> t_guess t = GStr nm -> In nm ["random"; "strengths"; "strengths_minor"]%string -> draws (v_rnd e) -> t_linsearch t = true ->
  d_tool e g t o = (o', None) ->
  d_report_adjacency e g t = Some ra -> tolerance_reached (t_tol t) ra ->
  d_report e g t o = Some r -> tolerance_reached (t_tol t) r -> never_gave_up r ->
  exists x y bo bi err, ds_x o' = Some x /\ ds_y o' = Some y /\ ds_bo o' = Some bo /\ ds_bi o' = Some bi /\ ds_err o' = Some err /\
    (forall i, (i < dn_n g)%nat -> 0 < x i /\ 0 < y i) /\ positive_rates_dir (dn_n g) (dcm_prob x y) bo bi /\ err <= t_tol t.
Proof. exact tool_sparse_dcm_exp. Qed.
Print Assumptions C82_crema_sparse_dcm_exp.
Example C82_crema_sparse_dcm_exp_case :
  exists e g t (nm : string) o o' ra r,
  ((0 < dn_n g)%nat) /\
  (d_paired g) /\
  ((forall i, (i < dn_n g)%nat -> nth i (dn_out g) O <> O /\ nth i (dn_in g) O <> O)) /\
  (nonneg (dn_n g) (dn_sout g)) /\
  (nonneg (dn_n g) (dn_sin g)) /\
  ((forall i, (i < dn_n g)%nat -> dn_sout g i <> 0 /\ dn_sin g i <> 0)) /\
  (t_model t = "crema-sparse"%string) /\
  (t_adjacency t = AdjName "dcm_exp") /\
  (In (t_method_adjacency t) descent_methods) /\
  (t_method t = "quasinewton"%string) /\
  (t_guess t = GStr nm) /\
  (In nm ["random"; "strengths"; "strengths_minor"]%string) /\
  (draws (v_rnd e)) /\
  (t_linsearch t = true) /\
  (d_tool e g t o = (o', None)) /\
  (d_report_adjacency e g t = Some ra) /\
  (tolerance_reached (t_tol t) ra) /\
  (d_report e g t o = Some r) /\
  (tolerance_reached (t_tol t) r) /\
  (never_gave_up r).
Proof. exact tool_sparse_dcm_exp_case. Qed.
