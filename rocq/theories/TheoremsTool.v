(** Theorems on whole calls of [solve_tool].  Nothing else in this file; proofs are in
    ProofsTool, ProofsToolD, ProofsInert, ProofsSwitch, ProofsSpectral, WitnessTool and
    WitnessSwitch. *)
From Coq Require Import Reals List Arith Bool String Lia Lra.
From Verif Require Import Base SpecDeriv SpecGraph SpecEnsemble SpecWeighted SpecDirected SpecCReMa SpecNetwork SpecLinsearch SpecDispatch SpecRun SpecSolver SpecSolve SpecGuess SpecTool
  ModelCM ModelECM ModelDCM ModelDECM ModelCReMa ModelNetwork ModelLinsearch ModelSolver ModelDispatch ModelGuess ModelRun ModelSolve ModelTool.
From Verif Require Import ProofsSolveD ProofsTool ProofsToolD ProofsInert ProofsSwitch ProofsSpectral WitnessTool WitnessSwitch.
Import ListNotations.
Local Open Scope R_scope.

(** C82: a run that stops within the tolerance reports an error within it. *)
Theorem C82_cm :
  forall e g t nm o o' r,
  (0 < un_n g)%nat -> (forall i, (i < un_n g)%nat -> nth i (un_dseq g) O <> O) -> us_beta o = None ->
  t_model t = "cm"%string -> In (t_method t) descent_methods -> t_guess t = GStr nm -> In nm binary_names -> draws (v_rnd e) -> t_linsearch t = true ->
  u_tool e g t o = (o', None) -> u_report e g t o = Some r -> tolerance_reached (t_tol t) r ->
  exists x err, us_x o' = Some x /\ us_err o' = Some err /\ (forall i, (i < un_n g)%nat -> 0 < x i) /\
    forall B, bounded_by (un_n g) x B -> err <= B * t_tol t.
Proof. exact tool_cm. Qed.
Print Assumptions C82_cm.
Example C82_cm_case :
  exists e g t (nm : string) o o' r,
  ((0 < un_n g)%nat) /\
  ((forall i, (i < un_n g)%nat -> nth i (un_dseq g) O <> O)) /\
  (us_beta o = None) /\
  (t_model t = "cm"%string) /\
  (In (t_method t) descent_methods) /\
  (t_guess t = GStr nm) /\
  (In nm binary_names) /\
  (draws (v_rnd e)) /\
  (t_linsearch t = true) /\
  (u_tool e g t o = (o', None)) /\
  (u_report e g t o = Some r) /\
  (tolerance_reached (t_tol t) r).
Proof. exact tool_cm_case. Qed.
Theorem C82_cm_tolerance_refuted :
  exists e g t o o' r err, us_beta o = None /\ (forall i, (i < un_n g)%nat -> nth i (un_dseq g) O <> O) /\
  linear_solver (u_length g "cm") (v_linsolve e) /\ eigen_solver (u_length g "cm") (v_eigh e) /\
  t_model t = "cm"%string /\ In (t_method t) descent_methods /\ t_linsearch t = true /\
  u_tool e g t o = (o', None) /\ u_report e g t o = Some r /\ tolerance_reached (t_tol t) r /\ us_err o' = Some err /\ t_tol t < err.
Proof. exact tool_cm_refuted. Qed.
Print Assumptions C82_cm_tolerance_refuted.
Theorem C82_cm_exp :
  forall e g t o o' r,
  (0 < un_n g)%nat -> us_beta o = None -> t_model t = "cm_exp"%string -> In (t_method t) descent_methods ->
  u_tool e g t o = (o', None) -> u_report e g t o = Some r -> tolerance_reached (t_tol t) r ->
  exists x err, us_x o' = Some x /\ us_err o' = Some err /\ (forall i, (i < un_n g)%nat -> 0 < x i) /\ err <= t_tol t.
Proof. exact tool_cm_exp. Qed.
Print Assumptions C82_cm_exp.
Example C82_cm_exp_case :
  exists e g t o o' r,
  ((0 < un_n g)%nat) /\
  (us_beta o = None) /\
  (t_model t = "cm_exp"%string) /\
  (In (t_method t) descent_methods) /\
  (u_tool e g t o = (o', None)) /\
  (u_report e g t o = Some r) /\
  (tolerance_reached (t_tol t) r).
Proof. exact tool_cm_exp_case. Qed.
Theorem C82_ecm :
  forall e g t nm o o' r,
  (0 < un_n g)%nat -> nonneg (un_n g) (un_str g) -> (forall i, (i < un_n g)%nat -> nth i (un_dseq g) O <> O /\ un_str g i <> 0) ->
  t_model t = "ecm"%string -> In (t_method t) descent_methods -> t_guess t = GStr nm -> In nm weighted_names -> draws (v_rnd e) -> t_linsearch t = true ->
  u_tool e g t o = (o', None) -> u_report e g t o = Some r -> tolerance_reached (t_tol t) r ->
  exists x y err, us_x o' = Some x /\ us_y o' = Some y /\ us_err o' = Some err /\ (forall i, (i < un_n g)%nat -> 0 < x i /\ 0 < y i) /\
    ((forall i j, (i < un_n g)%nat -> (j < un_n g)%nat -> i <> j -> y i * y j < 1) ->
     forall B, bounded_by (un_n g) x B -> bounded_by (un_n g) y B -> err <= B * t_tol t).
Proof. exact tool_ecm. Qed.
Print Assumptions C82_ecm.
Example C82_ecm_case :
  exists e g t (nm : string) o o' r,
  ((0 < un_n g)%nat) /\
  (nonneg (un_n g) (un_str g)) /\
  ((forall i, (i < un_n g)%nat -> nth i (un_dseq g) O <> O /\ un_str g i <> 0)) /\
  (t_model t = "ecm"%string) /\
  (In (t_method t) descent_methods) /\
  (t_guess t = GStr nm) /\
  (In nm weighted_names) /\
  (draws (v_rnd e)) /\
  (t_linsearch t = true) /\
  (u_tool e g t o = (o', None)) /\
  (u_report e g t o = Some r) /\
  (tolerance_reached (t_tol t) r).
Proof. exact tool_ecm_case. Qed.
Theorem C82_ecm_exp :
  forall e g t nm o o' r,
  (0 < un_n g)%nat -> nonneg (un_n g) (un_str g) -> (forall i, (i < un_n g)%nat -> un_str g i <> 0) ->
  t_model t = "ecm_exp"%string -> In (t_method t) descent_methods -> t_guess t = GStr nm -> In nm weighted_names -> draws (v_rnd e) -> t_linsearch t = true ->
  u_tool e g t o = (o', None) -> u_report e g t o = Some r -> tolerance_reached (t_tol t) r ->
  exists x y err, us_x o' = Some x /\ us_y o' = Some y /\ us_err o' = Some err /\ (forall i, (i < un_n g)%nat -> 0 < x i /\ 0 < y i) /\
    (forall i j, (i < un_n g)%nat -> (j < un_n g)%nat -> i <> j -> y i * y j < 1) /\ err <= t_tol t.
Proof. exact tool_ecm_exp. Qed.
Print Assumptions C82_ecm_exp.
Example C82_ecm_exp_case :
  exists e g t (nm : string) o o' r,
  ((0 < un_n g)%nat) /\
  (nonneg (un_n g) (un_str g)) /\
  ((forall i, (i < un_n g)%nat -> un_str g i <> 0)) /\
  (t_model t = "ecm_exp"%string) /\
  (In (t_method t) descent_methods) /\
  (t_guess t = GStr nm) /\
  (In nm weighted_names) /\
  (draws (v_rnd e)) /\
  (t_linsearch t = true) /\
  (u_tool e g t o = (o', None)) /\
  (u_report e g t o = Some r) /\
  (tolerance_reached (t_tol t) r).
Proof. exact tool_ecm_exp_case. Qed.
Theorem C82_dcm :
  forall e g t nm o o' r,
  (0 < dn_n g)%nat -> d_paired g -> balanced (dn_out g) (dn_in g) -> ds_bo o = None ->
  linear_solver (d_length g "dcm") (v_linsolve e) -> eigen_solver (d_length g "dcm") (v_eigh e) ->
  t_model t = "dcm"%string -> In (t_method t) descent_methods -> t_guess t = GStr nm -> In nm binary_names -> draws (v_rnd e) -> t_linsearch t = true ->
  d_tool e g t o = (o', None) -> d_report e g t o = Some r -> tolerance_reached (t_tol t) r ->
  exists x y err, ds_x o' = Some x /\ ds_y o' = Some y /\ ds_err o' = Some err /\
    supported (dn_n g) (at_list (dn_out g)) x /\ supported (dn_n g) (at_list (dn_in g)) y /\
    forall B, bounded_by (dn_n g) x B -> bounded_by (dn_n g) y B -> err <= B * t_tol t.
Proof. exact tool_dcm. Qed.
Print Assumptions C82_dcm.
Example C82_dcm_case :
  exists e g t (nm : string) o o' r,
  ((0 < dn_n g)%nat) /\
  (d_paired g) /\
  (balanced (dn_out g) (dn_in g)) /\
  (ds_bo o = None) /\
  (linear_solver (d_length g "dcm") (v_linsolve e)) /\
  (eigen_solver (d_length g "dcm") (v_eigh e)) /\
  (t_model t = "dcm"%string) /\
  (In (t_method t) descent_methods) /\
  (t_guess t = GStr nm) /\
  (In nm binary_names) /\
  (draws (v_rnd e)) /\
  (t_linsearch t = true) /\
  (d_tool e g t o = (o', None)) /\
  (d_report e g t o = Some r) /\
  (tolerance_reached (t_tol t) r).
Proof. exact tool_dcm_case. Qed.
Theorem C82_dcm_exp :
  forall e g t o o' r,
  (0 < dn_n g)%nat -> d_paired g -> ds_bo o = None ->
  (forall i, (i < dn_n g)%nat -> nth i (dn_out g) O <> O /\ nth i (dn_in g) O <> O) ->
  t_model t = "dcm_exp"%string -> In (t_method t) descent_methods ->
  d_tool e g t o = (o', None) -> d_report e g t o = Some r -> tolerance_reached (t_tol t) r ->
  exists x y err, ds_x o' = Some x /\ ds_y o' = Some y /\ ds_err o' = Some err /\ (forall i, (i < dn_n g)%nat -> 0 < x i /\ 0 < y i) /\ err <= t_tol t.
Proof. exact tool_dcm_exp. Qed.
Print Assumptions C82_dcm_exp.
Example C82_dcm_exp_case :
  exists e g t o o' r,
  ((0 < dn_n g)%nat) /\
  (d_paired g) /\
  (ds_bo o = None) /\
  ((forall i, (i < dn_n g)%nat -> nth i (dn_out g) O <> O /\ nth i (dn_in g) O <> O)) /\
  (t_model t = "dcm_exp"%string) /\
  (In (t_method t) descent_methods) /\
  (d_tool e g t o = (o', None)) /\
  (d_report e g t o = Some r) /\
  (tolerance_reached (t_tol t) r).
Proof. exact tool_dcm_exp_case. Qed.
Theorem C82_decm :
  forall e g t nm o o' r,
  (0 < dn_n g)%nat -> nonneg (dn_n g) (dn_sout g) -> nonneg (dn_n g) (dn_sin g) ->
  (forall i, (i < dn_n g)%nat -> nth i (dn_out g) O <> O /\ nth i (dn_in g) O <> O /\ dn_sout g i <> 0 /\ dn_sin g i <> 0) ->
  linear_solver (4 * dn_n g) (v_linsolve e) -> eigen_solver (4 * dn_n g) (v_eigh e) ->
  t_model t = "decm"%string -> In (t_method t) descent_methods -> t_guess t = GStr nm -> In nm weighted_names ->
  (nm <> "strengths"%string \/ ~ single_flow (dn_n g) (dn_sout g) (dn_sin g)) -> draws (v_rnd e) -> t_linsearch t = true ->
  d_tool e g t o = (o', None) -> d_report e g t o = Some r -> tolerance_reached (t_tol t) r -> never_gave_up r ->
  exists x y bo bi err, ds_x o' = Some x /\ ds_y o' = Some y /\ ds_bo o' = Some bo /\ ds_bi o' = Some bi /\ ds_err o' = Some err /\
    (forall i, (i < dn_n g)%nat -> 0 < x i /\ 0 < y i /\ 0 < bo i /\ 0 < bi i) /\
    (forall i j, (i < dn_n g)%nat -> (j < dn_n g)%nat -> i <> j -> bo i * bi j < 1) /\
    forall B, bounded_by (dn_n g) x B -> bounded_by (dn_n g) y B -> bounded_by (dn_n g) bo B -> bounded_by (dn_n g) bi B -> err <= B * t_tol t.
Proof. exact tool_decm. Qed.
Print Assumptions C82_decm.
Example C82_decm_case :
  exists e g t (nm : string) o o' r,
  ((0 < dn_n g)%nat) /\
  (nonneg (dn_n g) (dn_sout g)) /\
  (nonneg (dn_n g) (dn_sin g)) /\
  ((forall i, (i < dn_n g)%nat -> nth i (dn_out g) O <> O /\ nth i (dn_in g) O <> O /\ dn_sout g i <> 0 /\ dn_sin g i <> 0)) /\
  (linear_solver (4 * dn_n g) (v_linsolve e)) /\
  (eigen_solver (4 * dn_n g) (v_eigh e)) /\
  (t_model t = "decm"%string) /\
  (In (t_method t) descent_methods) /\
  (t_guess t = GStr nm) /\
  (In nm weighted_names) /\
  ((nm <> "strengths"%string \/ ~ single_flow (dn_n g) (dn_sout g) (dn_sin g))) /\
  (draws (v_rnd e)) /\
  (t_linsearch t = true) /\
  (d_tool e g t o = (o', None)) /\
  (d_report e g t o = Some r) /\
  (tolerance_reached (t_tol t) r) /\
  (never_gave_up r).
Proof. exact tool_decm_case. Qed.
Theorem C82_decm_exp :
  forall e g t nm o o' r,
  (0 < dn_n g)%nat -> nonneg (dn_n g) (dn_sout g) -> nonneg (dn_n g) (dn_sin g) ->
  t_model t = "decm_exp"%string -> In (t_method t) descent_methods -> t_guess t = GStr nm -> In nm weighted_names -> nm <> "strengths"%string -> draws (v_rnd e) -> t_linsearch t = true ->
  d_tool e g t o = (o', None) -> d_report e g t o = Some r -> tolerance_reached (t_tol t) r ->
  exists x y bo bi err, ds_x o' = Some x /\ ds_y o' = Some y /\ ds_bo o' = Some bo /\ ds_bi o' = Some bi /\ ds_err o' = Some err /\
    (forall i, (i < dn_n g)%nat -> 0 < x i /\ 0 < y i /\ 0 < bo i /\ 0 < bi i) /\
    (forall i j, (i < dn_n g)%nat -> (j < dn_n g)%nat -> bo i * bi j < 1) /\ err <= t_tol t.
Proof. exact tool_decm_exp. Qed.
Print Assumptions C82_decm_exp.
Example C82_decm_exp_case :
  exists e g t (nm : string) o o' r,
  ((0 < dn_n g)%nat) /\
  (nonneg (dn_n g) (dn_sout g)) /\
  (nonneg (dn_n g) (dn_sin g)) /\
  (t_model t = "decm_exp"%string) /\
  (In (t_method t) descent_methods) /\
  (t_guess t = GStr nm) /\
  (In nm weighted_names) /\
  (nm <> "strengths"%string) /\
  (draws (v_rnd e)) /\
  (t_linsearch t = true) /\
  (d_tool e g t o = (o', None)) /\
  (d_report e g t o = Some r) /\
  (tolerance_reached (t_tol t) r).
Proof. exact tool_decm_exp_case. Qed.
Theorem C82_crema_matrix :
  forall e g t a nm o o' r,
  (0 < un_n g)%nat -> linear_solver (un_n g) (v_linsolve e) -> eigen_solver (un_n g) (v_eigh e) ->
  nonneg (un_n g) (un_str g) -> hollow a -> (forall i j, (i < j < un_n g)%nat -> 0 <= a i j) ->
  (forall i j, (i < j < un_n g)%nat -> a i j <> 0 -> un_str g i <> 0 \/ un_str g j <> 0) ->
  t_model t = "crema"%string -> t_adjacency t = AdjMatrix a ->
  In (t_method t) descent_methods -> t_guess t = GStr nm -> In nm ["random"; "strengths"; "strengths_minor"]%string -> draws (v_rnd e) -> t_linsearch t = true ->
  u_tool e g t o = (o', None) -> u_report e g t o = Some r -> tolerance_reached (t_tol t) r -> never_gave_up r ->
  exists beta err, us_beta o' = Some beta /\ us_err o' = Some err /\ positive_rates (un_n g) a beta /\ err <= t_tol t.
Proof. exact tool_crema_matrix. Qed.
Print Assumptions C82_crema_matrix.
Example C82_crema_matrix_case :
  exists e g t (a : nat -> nat -> R) (nm : string) o o' r,
  ((0 < un_n g)%nat) /\
  (linear_solver (un_n g) (v_linsolve e)) /\
  (eigen_solver (un_n g) (v_eigh e)) /\
  (nonneg (un_n g) (un_str g)) /\
  (hollow a) /\
  ((forall i j, (i < j < un_n g)%nat -> 0 <= a i j)) /\
  ((forall i j, (i < j < un_n g)%nat -> a i j <> 0 -> un_str g i <> 0 \/ un_str g j <> 0)) /\
  (t_model t = "crema"%string) /\
  (t_adjacency t = AdjMatrix a) /\
  (In (t_method t) descent_methods) /\
  (t_guess t = GStr nm) /\
  (In nm ["random"; "strengths"; "strengths_minor"]%string) /\
  (draws (v_rnd e)) /\
  (t_linsearch t = true) /\
  (u_tool e g t o = (o', None)) /\
  (u_report e g t o = Some r) /\
  (tolerance_reached (t_tol t) r) /\
  (never_gave_up r).
Proof. exact tool_crema_matrix_case. Qed.
Theorem C82_crema_cm :
  forall e g t nma nm o o' ra r,
  (0 < un_n g)%nat -> linear_solver (un_n g) (v_linsolve e) -> eigen_solver (un_n g) (v_eigh e) ->
  (forall i, (i < un_n g)%nat -> nth i (un_dseq g) O <> O) ->
  nonneg (un_n g) (un_str g) -> (forall i j, (i < j < un_n g)%nat -> un_str g i <> 0 \/ un_str g j <> 0) ->
  t_model t = "crema"%string -> t_adjacency t = AdjName "cm" -> In (t_method_adjacency t) descent_methods ->
  t_guess_adjacency t = GStr nma -> In nma binary_names -> draws (v_rnd_adjacency e) ->
  In (t_method t) descent_methods -> t_guess t = GStr nm -> In nm ["random"; "strengths"; "strengths_minor"]%string -> draws (v_rnd e) -> t_linsearch t = true ->
  u_tool e g t o = (o', None) ->
  u_report_adjacency e g t = Some ra -> tolerance_reached (t_tol t) ra ->
  u_report e g t o = Some r -> tolerance_reached (t_tol t) r -> never_gave_up r ->
  exists x beta err, us_x o' = Some x /\ us_beta o' = Some beta /\ us_err o' = Some err /\ (forall i, (i < un_n g)%nat -> 0 < x i) /\
    positive_rates (un_n g) (p_ubcm x) beta /\ forall B, 1 <= B -> bounded_by (un_n g) x B -> err <= B * t_tol t.
Proof. exact tool_crema_cm. Qed.
Print Assumptions C82_crema_cm.
Example C82_crema_cm_case :
  exists e g t (nma : string) (nm : string) o o' ra r,
  ((0 < un_n g)%nat) /\
  (linear_solver (un_n g) (v_linsolve e)) /\
  (eigen_solver (un_n g) (v_eigh e)) /\
  ((forall i, (i < un_n g)%nat -> nth i (un_dseq g) O <> O)) /\
  (nonneg (un_n g) (un_str g)) /\
  ((forall i j, (i < j < un_n g)%nat -> un_str g i <> 0 \/ un_str g j <> 0)) /\
  (t_model t = "crema"%string) /\
  (t_adjacency t = AdjName "cm") /\
  (In (t_method_adjacency t) descent_methods) /\
  (t_guess_adjacency t = GStr nma) /\
  (In nma binary_names) /\
  (draws (v_rnd_adjacency e)) /\
  (In (t_method t) descent_methods) /\
  (t_guess t = GStr nm) /\
  (In nm ["random"; "strengths"; "strengths_minor"]%string) /\
  (draws (v_rnd e)) /\
  (t_linsearch t = true) /\
  (u_tool e g t o = (o', None)) /\
  (u_report_adjacency e g t = Some ra) /\
  (tolerance_reached (t_tol t) ra) /\
  (u_report e g t o = Some r) /\
  (tolerance_reached (t_tol t) r) /\
  (never_gave_up r).
Proof. exact tool_crema_cm_case. Qed.
Theorem C82_crema_cm_exp :
  forall e g t nm o o' ra r,
  (0 < un_n g)%nat -> linear_solver (un_n g) (v_linsolve e) -> eigen_solver (un_n g) (v_eigh e) ->
  nonneg (un_n g) (un_str g) -> (forall i j, (i < j < un_n g)%nat -> un_str g i <> 0 \/ un_str g j <> 0) ->
  t_model t = "crema"%string -> t_adjacency t = AdjName "cm_exp" -> In (t_method_adjacency t) descent_methods ->
  In (t_method t) descent_methods -> t_guess t = GStr nm -> In nm ["random"; "strengths"; "strengths_minor"]%string -> draws (v_rnd e) -> t_linsearch t = true ->
  u_tool e g t o = (o', None) ->
  u_report_adjacency e g t = Some ra -> tolerance_reached (t_tol t) ra ->
  u_report e g t o = Some r -> tolerance_reached (t_tol t) r -> never_gave_up r ->
  exists x beta err, us_x o' = Some x /\ us_beta o' = Some beta /\ us_err o' = Some err /\ (forall i, (i < un_n g)%nat -> 0 < x i) /\
    positive_rates (un_n g) (p_ubcm x) beta /\ err <= t_tol t.
Proof. exact tool_crema_cm_exp. Qed.
Print Assumptions C82_crema_cm_exp.
Example C82_crema_cm_exp_case :
  exists e g t (nm : string) o o' ra r,
  ((0 < un_n g)%nat) /\
  (linear_solver (un_n g) (v_linsolve e)) /\
  (eigen_solver (un_n g) (v_eigh e)) /\
  (nonneg (un_n g) (un_str g)) /\
  ((forall i j, (i < j < un_n g)%nat -> un_str g i <> 0 \/ un_str g j <> 0)) /\
  (t_model t = "crema"%string) /\
  (t_adjacency t = AdjName "cm_exp") /\
  (In (t_method_adjacency t) descent_methods) /\
  (In (t_method t) descent_methods) /\
  (t_guess t = GStr nm) /\
  (In nm ["random"; "strengths"; "strengths_minor"]%string) /\
  (draws (v_rnd e)) /\
  (t_linsearch t = true) /\
  (u_tool e g t o = (o', None)) /\
  (u_report_adjacency e g t = Some ra) /\
  (tolerance_reached (t_tol t) ra) /\
  (u_report e g t o = Some r) /\
  (tolerance_reached (t_tol t) r) /\
  (never_gave_up r).
Proof. exact tool_crema_cm_exp_case. Qed.
Theorem C82_crema_dir_matrix :
  forall e g t a nm o o' r,
  (0 < dn_n g)%nat -> linear_solver (2 * dn_n g) (v_linsolve e) -> eigen_solver (2 * dn_n g) (v_eigh e) ->
  nonneg (dn_n g) (dn_sout g) -> nonneg (dn_n g) (dn_sin g) -> (forall i j, (i < dn_n g)%nat -> (j < dn_n g)%nat -> 0 <= a i j) ->
  (forall i j, (i < dn_n g)%nat -> (j < dn_n g)%nat -> a i j <> 0 -> dn_sout g i <> 0 \/ dn_sin g j <> 0) ->
  t_model t = "crema"%string -> t_adjacency t = AdjMatrix a ->
  In (t_method t) descent_methods -> t_guess t = GStr nm -> In nm ["random"; "strengths"; "strengths_minor"]%string -> draws (v_rnd e) -> t_linsearch t = true ->
  d_tool e g t o = (o', None) -> d_report e g t o = Some r -> tolerance_reached (t_tol t) r -> never_gave_up r ->
  exists bo bi err, ds_bo o' = Some bo /\ ds_bi o' = Some bi /\ ds_err o' = Some err /\ positive_rates_dir (dn_n g) a bo bi /\ err <= t_tol t.
Proof. exact tool_crema_dir_matrix. Qed.
Print Assumptions C82_crema_dir_matrix.
Example C82_crema_dir_matrix_case :
  exists e g t (a : nat -> nat -> R) (nm : string) o o' r,
  ((0 < dn_n g)%nat) /\
  (linear_solver (2 * dn_n g) (v_linsolve e)) /\
  (eigen_solver (2 * dn_n g) (v_eigh e)) /\
  (nonneg (dn_n g) (dn_sout g)) /\
  (nonneg (dn_n g) (dn_sin g)) /\
  ((forall i j, (i < dn_n g)%nat -> (j < dn_n g)%nat -> 0 <= a i j)) /\
  ((forall i j, (i < dn_n g)%nat -> (j < dn_n g)%nat -> a i j <> 0 -> dn_sout g i <> 0 \/ dn_sin g j <> 0)) /\
  (t_model t = "crema"%string) /\
  (t_adjacency t = AdjMatrix a) /\
  (In (t_method t) descent_methods) /\
  (t_guess t = GStr nm) /\
  (In nm ["random"; "strengths"; "strengths_minor"]%string) /\
  (draws (v_rnd e)) /\
  (t_linsearch t = true) /\
  (d_tool e g t o = (o', None)) /\
  (d_report e g t o = Some r) /\
  (tolerance_reached (t_tol t) r) /\
  (never_gave_up r).
Proof. exact tool_crema_dir_matrix_case. Qed.
Theorem C82_crema_dcm :
  forall e g t nma nm o o' ra r,
  (0 < dn_n g)%nat -> d_paired g -> balanced (dn_out g) (dn_in g) ->
  linear_solver (2 * dn_n g) (v_linsolve e) -> eigen_solver (2 * dn_n g) (v_eigh e) ->
  linear_solver (d_length g "dcm") (v_linsolve e) -> eigen_solver (d_length g "dcm") (v_eigh e) ->
  nonneg (dn_n g) (dn_sout g) -> nonneg (dn_n g) (dn_sin g) ->
  (forall i j, (i < dn_n g)%nat -> (j < dn_n g)%nat -> i <> j -> nth i (dn_out g) O <> O -> nth j (dn_in g) O <> O -> dn_sout g i <> 0 \/ dn_sin g j <> 0) ->
  t_model t = "crema"%string -> t_adjacency t = AdjName "dcm" -> In (t_method_adjacency t) descent_methods ->
  t_guess_adjacency t = GStr nma -> In nma binary_names -> draws (v_rnd_adjacency e) ->
  In (t_method t) descent_methods -> t_guess t = GStr nm -> In nm ["random"; "strengths"; "strengths_minor"]%string -> draws (v_rnd e) -> t_linsearch t = true ->
  d_tool e g t o = (o', None) ->
  d_report_adjacency e g t = Some ra -> tolerance_reached (t_tol t) ra ->
  d_report e g t o = Some r -> tolerance_reached (t_tol t) r -> never_gave_up r ->
  exists x y bo bi err, ds_x o' = Some x /\ ds_y o' = Some y /\ ds_bo o' = Some bo /\ ds_bi o' = Some bi /\ ds_err o' = Some err /\
    supported (dn_n g) (at_list (dn_out g)) x /\ supported (dn_n g) (at_list (dn_in g)) y /\
    positive_rates_dir (dn_n g) (dcm_prob x y) bo bi /\
    forall B, 1 <= B -> bounded_by (dn_n g) x B -> bounded_by (dn_n g) y B -> err <= B * t_tol t.
Proof. exact tool_crema_dcm. Qed.
Print Assumptions C82_crema_dcm.
Example C82_crema_dcm_case :
  exists e g t (nma : string) (nm : string) o o' ra r,
  ((0 < dn_n g)%nat) /\
  (d_paired g) /\
  (balanced (dn_out g) (dn_in g)) /\
  (linear_solver (2 * dn_n g) (v_linsolve e)) /\
  (eigen_solver (2 * dn_n g) (v_eigh e)) /\
  (linear_solver (d_length g "dcm") (v_linsolve e)) /\
  (eigen_solver (d_length g "dcm") (v_eigh e)) /\
  (nonneg (dn_n g) (dn_sout g)) /\
  (nonneg (dn_n g) (dn_sin g)) /\
  ((forall i j, (i < dn_n g)%nat -> (j < dn_n g)%nat -> i <> j -> nth i (dn_out g) O <> O -> nth j (dn_in g) O <> O -> dn_sout g i <> 0 \/ dn_sin g j <> 0)) /\
  (t_model t = "crema"%string) /\
  (t_adjacency t = AdjName "dcm") /\
  (In (t_method_adjacency t) descent_methods) /\
  (t_guess_adjacency t = GStr nma) /\
  (In nma binary_names) /\
  (draws (v_rnd_adjacency e)) /\
  (In (t_method t) descent_methods) /\
  (t_guess t = GStr nm) /\
  (In nm ["random"; "strengths"; "strengths_minor"]%string) /\
  (draws (v_rnd e)) /\
  (t_linsearch t = true) /\
  (d_tool e g t o = (o', None)) /\
  (d_report_adjacency e g t = Some ra) /\
  (tolerance_reached (t_tol t) ra) /\
  (d_report e g t o = Some r) /\
  (tolerance_reached (t_tol t) r) /\
  (never_gave_up r).
Proof. exact tool_crema_dcm_case. Qed.
Theorem C82_crema_dcm_exp :
  forall e g t nm o o' ra r,
  (0 < dn_n g)%nat -> d_paired g ->
  (forall i, (i < dn_n g)%nat -> nth i (dn_out g) O <> O /\ nth i (dn_in g) O <> O) ->
  linear_solver (2 * dn_n g) (v_linsolve e) -> eigen_solver (2 * dn_n g) (v_eigh e) ->
  nonneg (dn_n g) (dn_sout g) -> nonneg (dn_n g) (dn_sin g) ->
  (forall i j, (i < dn_n g)%nat -> (j < dn_n g)%nat -> i <> j -> dn_sout g i <> 0 \/ dn_sin g j <> 0) ->
  t_model t = "crema"%string -> t_adjacency t = AdjName "dcm_exp" -> In (t_method_adjacency t) descent_methods ->
  In (t_method t) descent_methods -> t_guess t = GStr nm -> In nm ["random"; "strengths"; "strengths_minor"]%string -> draws (v_rnd e) -> t_linsearch t = true ->
  d_tool e g t o = (o', None) ->
  d_report_adjacency e g t = Some ra -> tolerance_reached (t_tol t) ra ->
  d_report e g t o = Some r -> tolerance_reached (t_tol t) r -> never_gave_up r ->
  exists x y bo bi err, ds_x o' = Some x /\ ds_y o' = Some y /\ ds_bo o' = Some bo /\ ds_bi o' = Some bi /\ ds_err o' = Some err /\
    (forall i, (i < dn_n g)%nat -> 0 < x i /\ 0 < y i) /\ positive_rates_dir (dn_n g) (dcm_prob x y) bo bi /\ err <= t_tol t.
Proof. exact tool_crema_dcm_exp. Qed.
Print Assumptions C82_crema_dcm_exp.
Example C82_crema_dcm_exp_case :
  exists e g t (nm : string) o o' ra r,
  ((0 < dn_n g)%nat) /\
  (d_paired g) /\
  ((forall i, (i < dn_n g)%nat -> nth i (dn_out g) O <> O /\ nth i (dn_in g) O <> O)) /\
  (linear_solver (2 * dn_n g) (v_linsolve e)) /\
  (eigen_solver (2 * dn_n g) (v_eigh e)) /\
  (nonneg (dn_n g) (dn_sout g)) /\
  (nonneg (dn_n g) (dn_sin g)) /\
  ((forall i j, (i < dn_n g)%nat -> (j < dn_n g)%nat -> i <> j -> dn_sout g i <> 0 \/ dn_sin g j <> 0)) /\
  (t_model t = "crema"%string) /\
  (t_adjacency t = AdjName "dcm_exp") /\
  (In (t_method_adjacency t) descent_methods) /\
  (In (t_method t) descent_methods) /\
  (t_guess t = GStr nm) /\
  (In nm ["random"; "strengths"; "strengths_minor"]%string) /\
  (draws (v_rnd e)) /\
  (t_linsearch t = true) /\
  (d_tool e g t o = (o', None)) /\
  (d_report_adjacency e g t = Some ra) /\
  (tolerance_reached (t_tol t) ra) /\
  (d_report e g t o = Some r) /\
  (tolerance_reached (t_tol t) r) /\
  (never_gave_up r).
Proof. exact tool_crema_dcm_exp_case. Qed.

(** The contracts assumed of [np.linalg.solve] and [scipy.linalg.eigh] can be met in every
    dimension. *)
Example C82_eigen_solver :
  forall m,
  exists eigh, eigen_solver m eigh.
Proof. exact eigen_solver_exists. Qed.
Example C82_linear_solver :
  forall m,
  exists linsolve, linear_solver m linsolve /\
  forall B v, (exists d, forall i, (i < m)%nat -> apply_mat m B d i = v i) -> linsolve B v <> None.
Proof. exact linear_solver_exists. Qed.

(** C83: coordinates of zero degrees do not move; nodes without out-links or in-links end
    with the factor zero. *)
Theorem C83_zero_stays :
  forall (linsolve : (nat -> nat -> R) -> (nat -> R) -> option (nat -> R)) (ok : (nat -> nat -> R) -> bool)
      (eigh : (nat -> nat -> R) -> (nat -> R) * (nat -> nat -> R)) (fuel : nat) (model : string)
      (reg : option string) (meth : string) (n : nat) (ko ki : nat -> R) (nzo nzi : list nat) 
      (c : nat -> R) (O0 : options R) (x0 : nat -> R) (r : nat),
    In model ["dcm"%string; "dcm_exp"%string] ->
    In meth descent_methods ->
    o_method O0 = method_of_string meth ->
    o_regularise O0 = true ->
    0 < o_regularise_eps O0 ->
    0 <= o_tol O0 ->
    linear_solver (2 * n) linsolve ->
    eigen_solver (2 * n) eigh ->
    zero_constraint n nzo nzi r ->
    accepted d_dispatch model meth reg
      (fun D : dispatched =>
       forall (x : nat -> R) (k : nat) (ns ds als : list R),
       solver (run_numerics linsolve ok (2 * n)) (run_problem eigh fuel (2 * n) D (A5d n ko ki nzo nzi c)) O0 x0 =
       Full x k ns ds als -> x r = x0 r).
Proof. exact zero_stays. Qed.
Print Assumptions C83_zero_stays.
Theorem C83_zero_factor :
  forall e g t nm o o' r,
  (0 < dn_n g)%nat -> d_paired g -> balanced (dn_out g) (dn_in g) -> ds_bo o = None ->
  linear_solver (d_length g "dcm") (v_linsolve e) -> eigen_solver (d_length g "dcm") (v_eigh e) ->
  t_model t = "dcm"%string -> In (t_method t) descent_methods -> t_guess t = GStr nm -> In nm binary_names -> draws (v_rnd e) -> 0 <= t_tol t ->
  d_tool e g t o = (o', None) -> d_report e g t o = Some r ->
  exists x y, ds_x o' = Some x /\ ds_y o' = Some y /\
    forall i, (i < dn_n g)%nat -> (nth i (dn_out g) O = O -> x i = 0) /\ (nth i (dn_in g) O = O -> y i = 0).
Proof. exact tool_dcm_zero. Qed.
Print Assumptions C83_zero_factor.
Example C83_nonvacuous :
  exists e g t nm o o' r, (0 < dn_n g)%nat /\ d_paired g /\ balanced (dn_out g) (dn_in g) /\ ds_bo o = None /\
  linear_solver (d_length g "dcm") (v_linsolve e) /\ eigen_solver (d_length g "dcm") (v_eigh e) /\
  t_model t = "dcm"%string /\ In (t_method t) descent_methods /\ t_guess t = GStr nm /\ In nm binary_names /\ draws (v_rnd e) /\ 0 <= t_tol t /\
  d_tool e g t o = (o', None) /\ d_report e g t o = Some r /\ r_steps r = 1%nat /\ nth 1 (dn_out g) O = O /\ nth 0 (dn_in g) O = O.
Proof. exact arrow_zero_case. Qed.

(** C84: [linsearch=False]. *)
Theorem C84_off_undirected :
  forall e g t o r,
  t_linsearch t = false ->
  (u_report e g t o = Some r -> r_alfas r = []) /\ (u_report_adjacency e g t = Some r -> r_alfas r = []).
Proof. exact linsearch_off_u. Qed.
Print Assumptions C84_off_undirected.
Theorem C84_off_directed :
  forall e g t o r,
  t_linsearch t = false -> d_report e g t o = Some r -> r_alfas r = [].
Proof. exact linsearch_off_d. Qed.
Print Assumptions C84_off_directed.
Example C84_undirected_case :
  exists e g t o r ra, t_linsearch t = false /\
  u_report e g t o = Some r /\ r_steps r = 1%nat /\
  u_report_adjacency e g t = Some ra /\ r_steps ra = 1%nat.
Proof. exact linsearch_off_case_u. Qed.
Example C84_directed_case :
  exists e g t o r, t_linsearch t = false /\ d_report e g t o = Some r /\ r_steps r = 1%nat.
Proof. exact linsearch_off_case. Qed.
Theorem C84_directed_ignored :
  forall e g t t',
  t_adjacency t = t_adjacency t' -> t_method_adjacency t = t_method_adjacency t' -> t_guess_adjacency t = t_guess_adjacency t' ->
  t_max_steps t = t_max_steps t' -> t_full t = t_full t' -> t_verbose t = t_verbose t' -> t_tol t = t_tol t' -> t_eps t = t_eps t' ->
  d_result_adjacency e g t = d_result_adjacency e g t'.
Proof. exact linsearch_ignored. Qed.
Print Assumptions C84_directed_ignored.
Theorem C84_directed_adjacency_refuted :
  exists e g t r, linear_solver (d_length g "dcm") (v_linsolve e) /\ eigen_solver (d_length g "dcm") (v_eigh e) /\
  t_model t = "crema"%string /\ t_adjacency t = AdjName "dcm" /\ t_linsearch t = false /\ t_full t = true /\
  d_report_adjacency e g t = Some r /\ r_alfas r <> [].
Proof. exact linsearch_off_refuted. Qed.
Print Assumptions C84_directed_adjacency_refuted.
