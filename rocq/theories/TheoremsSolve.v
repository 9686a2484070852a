(** Theorems on the error reported by [solve_tool] and on [model_loglikelihood].  Nothing
    else in this file; proofs are in ProofsSolve, ProofsSolveU, ProofsSolveD and
    WitnessSolve. *)
From Coq Require Import Reals List Arith Bool String Lia Lra.
From Verif Require Import Base SpecDeriv SpecGraph SpecEnsemble SpecWeighted SpecDirected SpecCReMa SpecNetwork SpecDispatch SpecSolve
  ModelCM ModelECM ModelDCM ModelDECM ModelCReMa ModelNetwork ModelDispatch ModelSolve.
From Verif Require Import ProofsSolve ProofsSolveU ProofsSolveD WitnessSolve.
Import ListNotations.
Local Open Scope R_scope.

(** C60: a completed call reports the largest deviation of its own model.  For cm and dcm
    (and their exponential versions) the object must not have been used for the models
    that set the strength parameters; the histories that ensure it follow. *)
Theorem C60_error_cm_partial :
  forall g c o o',
  (0 < un_n g)%nat -> us_beta o = None -> In (c_model c) ["cm"; "cm_exp"]%string ->
  u_solve_tool g c o = (o', None) ->
  exists v cls x e, c_out c = Some v /\ us_x o' = Some x /\ us_err o' = Some e /\
    (forall i j, (i < un_n g)%nat -> (j < un_n g)%nat -> (cls i = cls j <-> nth i (un_dseq g) O = nth j (un_dseq g) O)) /\
    (forall i, x i = if String.eqb (c_model c) "cm" then o_x v (cls i) else exp (- o_x v (cls i))) /\
    sup_dev (un_n g) (fun i => mean_undirected (un_n g) (p_ubcm x) (fun a => deg (un_n g) a i)) (at_list (un_dseq g)) e.
Proof. exact u_error_cm. Qed.
Print Assumptions C60_error_cm_partial.
Theorem C60_history_cm :
  forall g h sparse,
  (forall c, In c h -> ~ In (c_model c) ["crema"; "crema-sparse"]%string) ->
  us_beta (u_history g h (u_fresh sparse)) = None.
Proof. exact u_history_beta. Qed.
Print Assumptions C60_history_cm.
Theorem C60_error_ecm :
  forall g c o o',
  (0 < un_n g)%nat -> In (c_model c) ["ecm"; "ecm_exp"]%string ->
  u_solve_tool g c o = (o', None) ->
  exists v x y ek es, c_out c = Some v /\ us_x o' = Some x /\ us_y o' = Some y /\ us_err o' = Some (Rmax es ek) /\
    (forall i, x i = if String.eqb (c_model c) "ecm" then o_x v i else exp (- o_x v i)) /\
    (forall i, y i = if String.eqb (c_model c) "ecm" then o_x v (i + un_n g)%nat else exp (- o_x v (i + un_n g)%nat)) /\
    sup_dev (un_n g) (mean_deg_und (un_n g) x y) (at_list (un_dseq g)) ek /\
    sup_dev (un_n g) (mean_str_und (un_n g) x y) (un_str g) es.
Proof. exact u_error_ecm. Qed.
Print Assumptions C60_error_ecm.
Theorem C60_error_crema_matrix :
  forall g c o o' a,
  (0 < un_n g)%nat -> In (c_model c) ["crema"; "crema-sparse"]%string ->
  c_adjacency c = AdjMatrix a -> hollow a ->
  u_solve_tool g c o = (o', None) -> (forall b, us_beta o' = Some b -> positive_rates (un_n g) a b) ->
  exists v e, c_out c = Some v /\ us_beta o' = Some (o_x v) /\ us_err o' = Some e /\
    sup_dev (un_n g) (crema_mean (un_n g) a (o_x v)) (un_str g) e.
Proof. exact u_error_crema_matrix. Qed.
Print Assumptions C60_error_crema_matrix.
Theorem C60_error_crema_name :
  forall g c o o' a,
  (0 < un_n g)%nat -> In (c_model c) ["crema"; "crema-sparse"]%string ->
  c_adjacency c = AdjName a -> In a ["cm"; "cm_exp"]%string ->
  u_solve_tool g c o = (o', None) ->
  (forall x b, us_x o' = Some x -> us_beta o' = Some b -> (forall i, (i < un_n g)%nat -> 0 <= x i) /\ positive_rates (un_n g) (p_ubcm x) b) ->
  exists va v cls x ek es, c_out_adjacency c = Some va /\ c_out c = Some v /\ us_x o' = Some x /\ us_beta o' = Some (o_x v) /\
    us_err o' = Some (Rmax es ek) /\
    (forall i j, (i < un_n g)%nat -> (j < un_n g)%nat -> (cls i = cls j <-> nth i (un_dseq g) O = nth j (un_dseq g) O)) /\
    (forall i, x i = if String.eqb a "cm" then o_x va (cls i) else exp (- o_x va (cls i))) /\
    sup_dev (un_n g) (fun i => mean_undirected (un_n g) (p_ubcm x) (fun a => deg (un_n g) a i)) (at_list (un_dseq g)) ek /\
    sup_dev (un_n g) (crema_mean (un_n g) (p_ubcm x) (o_x v)) (un_str g) es.
Proof. exact u_error_crema_name. Qed.
Print Assumptions C60_error_crema_name.
Theorem C60_error_dcm_partial :
  forall g c o o',
  (0 < dn_n g)%nat -> d_paired g -> ds_bo o = None -> In (c_model c) ["dcm"; "dcm_exp"]%string ->
  d_solve_tool g c o = (o', None) ->
  exists v s cls m x y e1 e2, c_out c = Some v /\ ds_x o' = Some x /\ ds_y o' = Some y /\ ds_err o' = Some (Rmax e1 e2) /\
    s = (if String.eqb (c_model c) "dcm" then o_x v else exp_neg v) /\
    (forall i j, (i < dn_n g)%nat -> (j < dn_n g)%nat ->
       (cls i = cls j <-> nth i (dn_out g) O = nth j (dn_out g) O /\ nth i (dn_in g) O = nth j (dn_in g) O)) /\
    (forall i, (i < dn_n g)%nat -> (cls i < m)%nat /\ x i = s (cls i) /\ y i = s (cls i + m)%nat) /\
    sup_dev (dn_n g) (fun i => mean_directed (dn_n g) (p_dbcm x y) (fun a => deg (dn_n g) a i)) (at_list (dn_out g)) e1 /\
    sup_dev (dn_n g) (fun i => mean_directed (dn_n g) (p_dbcm x y) (fun a => indeg (dn_n g) a i)) (at_list (dn_in g)) e2.
Proof. exact d_error_dcm. Qed.
Print Assumptions C60_error_dcm_partial.
Theorem C60_history_dcm :
  forall g h sparse,
  (forall c, In c h -> ~ In (c_model c) ["crema"; "crema-sparse"; "decm"; "decm_exp"]%string) ->
  ds_bo (d_history g h (d_fresh sparse)) = None.
Proof. exact d_history_b. Qed.
Print Assumptions C60_history_dcm.
Theorem C60_error_decm :
  forall g c o o',
  (0 < dn_n g)%nat -> In (c_model c) ["decm"; "decm_exp"]%string ->
  d_solve_tool g c o = (o', None) ->
  (forall x y bo bi, ds_x o' = Some x -> ds_y o' = Some y -> ds_bo o' = Some bo -> ds_bi o' = Some bi -> decm_dom (dn_n g) (join4 (dn_n g) x y bo bi)) ->
  exists v s x y bo bi e1 e2 e3 e4, c_out c = Some v /\ ds_x o' = Some x /\ ds_y o' = Some y /\ ds_bo o' = Some bo /\ ds_bi o' = Some bi /\
    ds_err o' = Some (Rmax (Rmax e1 e2) (Rmax e3 e4)) /\ ds_ek o' = Some (Rmax e1 e2) /\ ds_es o' = Some (Rmax e3 e4) /\
    s = (if String.eqb (c_model c) "decm" then o_x v else exp_neg v) /\
    (forall i, x i = s i /\ y i = s (i + dn_n g)%nat /\ bo i = s (i + 2 * dn_n g)%nat /\ bi i = s (i + 3 * dn_n g)%nat) /\
    sup_dev (dn_n g) (mean_out_deg (dn_n g) x y bo bi) (at_list (dn_out g)) e1 /\
    sup_dev (dn_n g) (mean_in_deg (dn_n g) x y bo bi) (at_list (dn_in g)) e2 /\
    sup_dev (dn_n g) (mean_out_str (dn_n g) x y bo bi) (dn_sout g) e3 /\
    sup_dev (dn_n g) (mean_in_str (dn_n g) x y bo bi) (dn_sin g) e4.
Proof. exact d_error_decm. Qed.
Print Assumptions C60_error_decm.
Theorem C60_error_crema_dir_matrix :
  forall g c o o' a,
  (0 < dn_n g)%nat -> In (c_model c) ["crema"; "crema-sparse"]%string ->
  c_adjacency c = AdjMatrix a -> d_solve_tool g c o = (o', None) ->
  (forall bo bi, ds_bo o' = Some bo -> ds_bi o' = Some bi -> positive_rates_dir (dn_n g) a bo bi) ->
  exists v bo bi e1 e2, c_out c = Some v /\ ds_bo o' = Some bo /\ ds_bi o' = Some bi /\ ds_err o' = Some (Rmax e1 e2) /\
    (forall i, bo i = o_x v i /\ bi i = o_x v (i + dn_n g)%nat) /\
    sup_dev (dn_n g) (crema_mean_out (dn_n g) a bo bi) (dn_sout g) e1 /\ sup_dev (dn_n g) (crema_mean_in (dn_n g) a bo bi) (dn_sin g) e2.
Proof. exact d_error_crema_matrix. Qed.
Print Assumptions C60_error_crema_dir_matrix.
Theorem C60_error_crema_dir_name :
  forall g c o o' a,
  (0 < dn_n g)%nat -> d_paired g -> In (c_model c) ["crema"; "crema-sparse"]%string ->
  c_adjacency c = AdjName a -> In a ["dcm"; "dcm_exp"]%string -> d_solve_tool g c o = (o', None) ->
  (forall x y bo bi, ds_x o' = Some x -> ds_y o' = Some y -> ds_bo o' = Some bo -> ds_bi o' = Some bi ->
     supported (dn_n g) (at_list (dn_out g)) x /\ supported (dn_n g) (at_list (dn_in g)) y /\ positive_rates_dir (dn_n g) (dcm_prob x y) bo bi) ->
  exists va v s cls m x y bo bi e1 e2 e3 e4, c_out_adjacency c = Some va /\ c_out c = Some v /\ ds_x o' = Some x /\ ds_y o' = Some y /\
    ds_bo o' = Some bo /\ ds_bi o' = Some bi /\ ds_err o' = Some (Rmax (Rmax e3 e4) (Rmax e1 e2)) /\
    s = (if String.eqb a "dcm" then o_x va else exp_neg va) /\
    (forall i j, (i < dn_n g)%nat -> (j < dn_n g)%nat ->
       (cls i = cls j <-> nth i (dn_out g) O = nth j (dn_out g) O /\ nth i (dn_in g) O = nth j (dn_in g) O)) /\
    (forall i, (i < dn_n g)%nat -> (cls i < m)%nat /\ x i = s (cls i) /\ y i = s (cls i + m)%nat) /\
    (forall i, bo i = o_x v i /\ bi i = o_x v (i + dn_n g)%nat) /\
    sup_dev (dn_n g) (fun i => mean_directed (dn_n g) (p_dbcm x y) (fun a => deg (dn_n g) a i)) (at_list (dn_out g)) e1 /\
    sup_dev (dn_n g) (fun i => mean_directed (dn_n g) (p_dbcm x y) (fun a => indeg (dn_n g) a i)) (at_list (dn_in g)) e2 /\
    sup_dev (dn_n g) (crema_mean_out (dn_n g) (dcm_prob x y) bo bi) (dn_sout g) e3 /\
    sup_dev (dn_n g) (crema_mean_in (dn_n g) (dcm_prob x y) bo bi) (dn_sin g) e4.
Proof. exact d_error_crema_name. Qed.
Print Assumptions C60_error_crema_dir_name.
(** The report exists: no exception when the starting point and the solver raise none. *)
Theorem C60_completes_undirected :
  forall g c o v0 v,
  In (c_model c) ["cm"; "cm_exp"; "ecm"; "ecm_exp"]%string -> In (c_method c) documented_methods ->
  (In (c_model c) ["cm"; "cm_exp"]%string -> us_beta o = None) ->
  c_guess c = Some v0 -> c_out c = Some v -> exists o', u_solve_tool g c o = (o', None).
Proof. exact u_completes. Qed.
Print Assumptions C60_completes_undirected.
Theorem C60_completes_crema :
  forall g c o a v0 v,
  c_model c = "crema"%string -> In (c_method c) documented_methods -> c_adjacency c = AdjMatrix a ->
  hollow a -> c_guess c = Some v0 -> c_out c = Some v -> positive_rates (un_n g) a (o_x v) -> exists o', u_solve_tool g c o = (o', None).
Proof. exact u_completes_crema. Qed.
Print Assumptions C60_completes_crema.
Theorem C60_completes_crema_name :
  forall g c o a w0 w v0 v,
  In (c_model c) ["crema"; "crema-sparse"]%string ->
  In (c_method c) ["quasinewton"; "fixed-point"]%string -> In (c_method_adjacency c) documented_methods ->
  c_adjacency c = AdjName a -> In a ["cm"; "cm_exp"]%string -> c_guess_adjacency c = Some w0 -> c_out_adjacency c = Some w ->
  c_guess c = Some v0 -> c_out c = Some v ->
  (forall q, 0 <= cm_factor a w q) -> (forall i j, (i < un_n g)%nat -> (j < un_n g)%nat -> 0 < o_x v i + o_x v j) ->
  exists o', u_solve_tool g c o = (o', None).
Proof. exact u_completes_name. Qed.
Print Assumptions C60_completes_crema_name.
Theorem C60_completes_directed :
  forall g c o v0 v,
  In (c_model c) ["dcm"; "dcm_exp"; "decm"; "decm_exp"]%string -> In (c_method c) documented_methods ->
  (In (c_model c) ["dcm"; "dcm_exp"]%string -> ds_bo o = None) ->
  c_guess c = Some v0 -> c_out c = Some v -> exists o', d_solve_tool g c o = (o', None).
Proof. exact d_completes. Qed.
Print Assumptions C60_completes_directed.
Theorem C60_completes_crema_dir :
  forall g c o a v0 v,
  In (c_model c) ["crema"; "crema-sparse"]%string -> In (c_method c) ["quasinewton"; "fixed-point"]%string ->
  c_adjacency c = AdjMatrix a -> c_guess c = Some v0 -> c_out c = Some v ->
  positive_rates_dir (dn_n g) a (o_x v) (drop (dn_n g) (o_x v)) -> exists o', d_solve_tool g c o = (o', None).
Proof. exact d_completes_matrix. Qed.
Print Assumptions C60_completes_crema_dir.
Theorem C60_completes_crema_dir_name :
  forall g c o a w0 w v0 v,
  d_paired g -> In (c_model c) ["crema"; "crema-sparse"]%string ->
  In (c_method c) ["quasinewton"; "fixed-point"]%string -> In (c_method_adjacency c) documented_methods ->
  c_adjacency c = AdjName a -> In a ["dcm"; "dcm_exp"]%string -> c_guess_adjacency c = Some w0 -> c_out_adjacency c = Some w ->
  c_guess c = Some v0 -> c_out c = Some v ->
  let s := dir_factor "dcm" a w in
  supported (dn_n g) (at_list (dn_out g)) (fun i => s (d_class g i)) ->
  supported (dn_n g) (at_list (dn_in g)) (fun i => s (d_class g i + d_classes_n g)%nat) ->
  (forall i j, (i < dn_n g)%nat -> (j < dn_n g)%nat -> 0 < o_x v i + o_x v (j + dn_n g)%nat) ->
  exists o', d_solve_tool g c o = (o', None) /\ ds_x o' = Some (fun i => s (d_class g i)) /\
    ds_y o' = Some (fun i => s (d_class g i + d_classes_n g)%nat) /\ ds_bo o' = Some (o_x v) /\ ds_bi o' = Some (drop (dn_n g) (o_x v)).
Proof. exact d_completes_name. Qed.
Print Assumptions C60_completes_crema_dir_name.
(** After CReMa on a given matrix, cm reports the old number; dcm after decm raises; an
    unknown model name is not refused. *)
Theorem C60_stale_error :
  forall g c1 c2 a o o1 o2,
  In (c_model c1) ["crema"; "crema-sparse"]%string -> c_adjacency c1 = AdjMatrix a ->
  In (c_model c2) ["cm"; "cm_exp"]%string ->
  u_solve_tool g c1 o = (o1, None) -> u_solve_tool g c2 o1 = (o2, None) -> us_err o2 = us_err o1.
Proof. exact u_stale. Qed.
Print Assumptions C60_stale_error.
Theorem C60_own_error_refuted :
  exists g c1 c2 o1 o2 x e, In (c_model c2) ["cm"; "cm_exp"]%string /\
  u_solve_tool g c1 (u_fresh false) = (o1, None) /\ u_solve_tool g c2 o1 = (o2, None) /\ us_x o2 = Some x /\ us_err o2 = Some e /\
  ~ sup_dev (un_n g) (fun i => mean_undirected (un_n g) (p_ubcm x) (fun a => deg (un_n g) a i)) (at_list (un_dseq g)) e.
Proof. exact stale_report. Qed.
Print Assumptions C60_own_error_refuted.
Theorem C60_dcm_after_decm_raises :
  forall g c1 c2 sparse o1 v0 v,
  In (c_model c1) ["decm"; "decm_exp"]%string -> In (c_model c2) ["dcm"; "dcm_exp"]%string ->
  In (c_method c2) documented_methods -> c_guess c2 = Some v0 -> c_out c2 = Some v ->
  d_solve_tool g c1 (d_fresh sparse) = (o1, None) -> snd (d_solve_tool g c2 o1) = Some EAttribute.
Proof. exact d_dcm_after_decm. Qed.
Print Assumptions C60_dcm_after_decm_raises.
Theorem C60_unknown_model_silent :
  forall g c c0 o o1,
  us_beta o = None -> In (c_model c) ["cm"; "cm_exp"]%string -> u_solve_tool g c o = (o1, None) ->
  ~ In (c_model c0) undirected_models ->
  exists o2, u_solve_tool g c0 o1 = (o2, None) /\ us_err o2 = us_err o1 /\ us_x o2 = us_x o1 /\ us_sol o2 = us_sol o1.
Proof. exact u_unknown. Qed.
Print Assumptions C60_unknown_model_silent.
Theorem C60_unknown_model_fresh :
  forall g c sparse,
  ~ In (c_model c) undirected_models -> u_solve_tool g c (u_fresh sparse) = (u_fresh sparse, None).
Proof. exact u_unknown_fresh. Qed.
Print Assumptions C60_unknown_model_fresh.
Example case_report_cm :
  exists o', (0 < un_n g2)%nat /\ us_beta (u_fresh false) = None /\ In (c_model k_cm) ["cm"; "cm_exp"]%string /\
  In (c_method k_cm) documented_methods /\ u_solve_tool g2 k_cm (u_fresh false) = (o', None) /\
  (forall v, c_model k_cm = "cm"%string -> c_out k_cm = Some v -> forall q, 0 < o_x v q) /\
  simple_graph (un_n g2) k2 /\ (forall i, (i < un_n g2)%nat -> at_list (un_dseq g2) i = deg (un_n g2) k2 i).
Proof. exact case_cm. Qed.
Example case_report_ecm :
  exists o', (0 < un_n g2)%nat /\ In (c_model k_ecm) ["ecm"; "ecm_exp"]%string /\
  In (c_method k_ecm) documented_methods /\ u_solve_tool g2 k_ecm (u_fresh false) = (o', None) /\
  (forall x y, us_x o' = Some x -> us_y o' = Some y -> ecm_dom (un_n g2) (join2 (un_n g2) x y)) /\
  weighted_graph (un_n g2) w2 /\ (forall i, (i < un_n g2)%nat -> at_list (un_dseq g2) i = wdeg (un_n g2) w2 i /\ un_str g2 i = wstr (un_n g2) w2 i).
Proof. exact case_ecm. Qed.
Example case_report_crema :
  exists o', (0 < un_n g2)%nat /\ c_model k_crema = "crema"%string /\ In (c_method k_crema) documented_methods /\
  c_adjacency k_crema = AdjMatrix ones /\ hollow ones /\ u_solve_tool g2 k_crema (u_fresh false) = (o', None) /\
  (forall b, us_beta o' = Some b -> positive_rates (un_n g2) ones b).
Proof. exact case_crema. Qed.
Example case_report_crema_name :
  exists o', (0 < un_n g2)%nat /\ In (c_model k_crema_name) ["crema"; "crema-sparse"]%string /\
  In (c_method k_crema_name) documented_methods /\ c_adjacency k_crema_name = AdjName "cm" /\
  u_solve_tool g2 k_crema_name (u_fresh false) = (o', None) /\
  (forall x b, us_x o' = Some x -> us_beta o' = Some b -> (forall i, (i < un_n g2)%nat -> 0 <= x i) /\ positive_rates (un_n g2) (p_ubcm x) b).
Proof. exact case_crema_name. Qed.
Example case_report_dcm :
  exists o', (0 < dn_n d2)%nat /\ d_paired d2 /\ ds_bo (d_fresh false) = None /\ c_model k_dcm = "dcm"%string /\
  In (c_method k_dcm) documented_methods /\ d_solve_tool d2 k_dcm (d_fresh false) = (o', None) /\
  (forall x y, ds_x o' = Some x -> ds_y o' = Some y -> supported (dn_n d2) (at_list (dn_out d2)) x /\ supported (dn_n d2) (at_list (dn_in d2)) y) /\
  loopless (dn_n d2) k2 /\ (forall i, (i < dn_n d2)%nat -> at_list (dn_out d2) i = deg (dn_n d2) k2 i /\ at_list (dn_in d2) i = indeg (dn_n d2) k2 i).
Proof. exact case_dcm. Qed.
Example case_report_decm :
  exists o', (0 < dn_n d2)%nat /\ c_model k_decm = "decm"%string /\
  In (c_method k_decm) documented_methods /\ d_solve_tool d2 k_decm (d_fresh false) = (o', None) /\
  (forall x y bo bi, ds_x o' = Some x -> ds_y o' = Some y -> ds_bo o' = Some bo -> ds_bi o' = Some bi ->
     decm_dom (dn_n d2) (join4 (dn_n d2) x y bo bi) /\
     decm_supp (dn_n d2) (at_list (dn_out d2)) (at_list (dn_in d2)) (dn_sout d2) (dn_sin d2) (join4 (dn_n d2) x y bo bi)) /\
  weighted_digraph (dn_n d2) w2 /\ (forall i, (i < dn_n d2)%nat -> at_list (dn_out d2) i = wdeg (dn_n d2) w2 i /\ at_list (dn_in d2) i = windeg (dn_n d2) w2 i /\
     dn_sout d2 i = wstr (dn_n d2) w2 i /\ dn_sin d2 i = winstr (dn_n d2) w2 i).
Proof. exact case_decm. Qed.
Example case_report_crema_dir :
  exists o', (0 < dn_n d2)%nat /\ c_model k_dcrema = "crema"%string /\ c_full k_dcrema = false /\ In (c_method k_dcrema) documented_methods /\
  c_adjacency k_dcrema = AdjMatrix ones /\ d_solve_tool d2 k_dcrema (d_fresh false) = (o', None) /\
  (forall bo bi, ds_bo o' = Some bo -> ds_bi o' = Some bi -> positive_rates_dir (dn_n d2) ones bo bi).
Proof. exact case_dcrema. Qed.
Example case_report_crema_dir_name :
  exists o', (0 < dn_n d2)%nat /\ d_paired d2 /\ In (c_model k_dcrema_name) ["crema"; "crema-sparse"]%string /\
  c_full k_dcrema_name = false /\ In (c_method k_dcrema_name) documented_methods /\ c_adjacency k_dcrema_name = AdjName "dcm" /\
  d_solve_tool d2 k_dcrema_name (d_fresh false) = (o', None) /\
  (forall x y bo bi, ds_x o' = Some x -> ds_y o' = Some y -> ds_bo o' = Some bo -> ds_bi o' = Some bi ->
     supported (dn_n d2) (at_list (dn_out d2)) x /\ supported (dn_n d2) (at_list (dn_in d2)) y /\ positive_rates_dir (dn_n d2) (dcm_prob x y) bo bi) /\
  (forall i, (i < dn_n d2)%nat -> (dn_sout d2 i = 0 <-> at_list (dn_out d2) i = 0) /\ (dn_sin d2 i = 0 <-> at_list (dn_in d2) i = 0)).
Proof. exact case_dcrema_name. Qed.
Example case_report_history :
  forall c, In c [k_cm; k_ecm; k_cm] -> ~ In (c_model c) ["crema"; "crema-sparse"]%string.
Proof. exact case_history. Qed.
Example case_report_history_dir :
  forall c, In c [k_dcm; k_dcm_exp; k_dcm] -> ~ In (c_model c) ["crema"; "crema-sparse"; "decm"; "decm_exp"]%string.
Proof. exact case_history_dir. Qed.
Example case_report_unknown :
  exists o1, us_beta (u_fresh false) = None /\ u_solve_tool g2 k_cm (u_fresh false) = (o1, None) /\ ~ In "cmm"%string undirected_models.
Proof. exact case_unknown. Qed.
Example case_report_decm_then_dcm :
  exists o1, d_solve_tool d2 k_decm (d_fresh false) = (o1, None) /\ In (c_model k_decm) ["decm"; "decm_exp"]%string /\
  In (c_model k_dcm) ["dcm"; "dcm_exp"]%string /\ In (c_method k_dcm) documented_methods.
Proof. exact case_decm_dcm. Qed.

(** C62: what [model_loglikelihood] returns. *)
Theorem C62_value_cm :
  forall g c o o' a,
  In (c_model c) ["cm"; "cm_exp"]%string -> In (c_method c) documented_methods ->
  u_solve_tool g c o = (o', None) ->
  (forall v, c_model c = "cm"%string -> c_out c = Some v -> forall q, 0 < o_x v q) ->
  simple_graph (un_n g) a -> (forall i, (i < un_n g)%nat -> at_list (un_dseq g) i = deg (un_n g) a i) ->
  exists x, us_x o' = Some x /\ scalar (u_model_loglikelihood o') = Some (- ln (prob_undirected (un_n g) (p_ubcm x) a)).
Proof. exact u_ll_cm. Qed.
Print Assumptions C62_value_cm.
Theorem C62_value_ecm :
  forall g c o o' w,
  In (c_model c) ["ecm"; "ecm_exp"]%string -> In (c_method c) documented_methods ->
  u_solve_tool g c o = (o', None) ->
  (forall x y, us_x o' = Some x -> us_y o' = Some y -> ecm_dom (un_n g) (join2 (un_n g) x y)) ->
  weighted_graph (un_n g) w -> (forall i, (i < un_n g)%nat -> at_list (un_dseq g) i = wdeg (un_n g) w i) ->
  (forall i, (i < un_n g)%nat -> un_str g i = wstr (un_n g) w i) ->
  exists x y, us_x o' = Some x /\ us_y o' = Some y /\
    scalar (u_model_loglikelihood o') = Some (- ln (prob_wundirected (un_n g) (fun i j => q_enh (x i * x j) (y i * y j)) w)).
Proof. exact u_ll_ecm. Qed.
Print Assumptions C62_value_ecm.
Theorem C62_value_crema :
  forall g c o o' a,
  c_model c = "crema"%string -> In (c_method c) documented_methods ->
  c_adjacency c = AdjMatrix a -> hollow a -> u_solve_tool g c o = (o', None) ->
  (forall b, us_beta o' = Some b -> positive_rates (un_n g) a b) ->
  exists b, us_beta o' = Some b /\ scalar (u_model_loglikelihood o') = Some (- crema_loglik (un_n g) a (un_str g) b).
Proof. exact u_ll_crema_matrix. Qed.
Print Assumptions C62_value_crema.
Theorem C62_value_crema_name :
  forall g c o o' a,
  In (c_model c) ["crema"; "crema-sparse"]%string -> In (c_method c) documented_methods ->
  c_adjacency c = AdjName a -> In a ["cm"; "cm_exp"]%string -> u_solve_tool g c o = (o', None) ->
  (forall x b, us_x o' = Some x -> us_beta o' = Some b -> (forall i, (i < un_n g)%nat -> 0 <= x i) /\ positive_rates (un_n g) (p_ubcm x) b) ->
  exists x b, us_x o' = Some x /\ us_beta o' = Some b /\
    scalar (u_model_loglikelihood o') = Some (- crema_loglik (un_n g) (p_ubcm x) (un_str g) b).
Proof. exact u_ll_crema_name. Qed.
Print Assumptions C62_value_crema_name.
Theorem C62_value_dcm :
  forall g c o o' a,
  d_paired g -> c_model c = "dcm"%string -> In (c_method c) documented_methods ->
  d_solve_tool g c o = (o', None) ->
  (forall x y, ds_x o' = Some x -> ds_y o' = Some y -> supported (dn_n g) (at_list (dn_out g)) x /\ supported (dn_n g) (at_list (dn_in g)) y) ->
  loopless (dn_n g) a -> (forall i, (i < dn_n g)%nat -> at_list (dn_out g) i = deg (dn_n g) a i) ->
  (forall i, (i < dn_n g)%nat -> at_list (dn_in g) i = indeg (dn_n g) a i) ->
  exists x y, ds_x o' = Some x /\ ds_y o' = Some y /\
    scalar (d_model_loglikelihood o') = Some (- ln (prob_directed (dn_n g) (p_dbcm x y) a)).
Proof. exact d_ll_dcm. Qed.
Print Assumptions C62_value_dcm.
Theorem C62_value_dcm_exp :
  forall g c o o' a,
  d_paired g -> c_model c = "dcm_exp"%string -> In (c_method c) documented_methods ->
  d_solve_tool g c o = (o', None) -> (forall i, (i < dn_n g)%nat -> at_list (dn_out g) i <> 0 /\ at_list (dn_in g) i <> 0) ->
  loopless (dn_n g) a -> (forall i, (i < dn_n g)%nat -> at_list (dn_out g) i = deg (dn_n g) a i) ->
  (forall i, (i < dn_n g)%nat -> at_list (dn_in g) i = indeg (dn_n g) a i) ->
  exists x y, ds_x o' = Some x /\ ds_y o' = Some y /\
    scalar (d_model_loglikelihood o') = Some (- ln (prob_directed (dn_n g) (p_dbcm (fun i => exp (- x i)) (fun i => exp (- y i))) a)).
Proof. exact d_ll_dcm_exp. Qed.
Print Assumptions C62_value_dcm_exp.
Theorem C62_value_decm :
  forall g c o o' w,
  c_model c = "decm"%string -> In (c_method c) documented_methods ->
  d_solve_tool g c o = (o', None) ->
  (forall x y bo bi, ds_x o' = Some x -> ds_y o' = Some y -> ds_bo o' = Some bo -> ds_bi o' = Some bi ->
     decm_dom (dn_n g) (join4 (dn_n g) x y bo bi) /\
     decm_supp (dn_n g) (at_list (dn_out g)) (at_list (dn_in g)) (dn_sout g) (dn_sin g) (join4 (dn_n g) x y bo bi)) ->
  weighted_digraph (dn_n g) w -> (forall i, (i < dn_n g)%nat -> at_list (dn_out g) i = wdeg (dn_n g) w i) ->
  (forall i, (i < dn_n g)%nat -> at_list (dn_in g) i = windeg (dn_n g) w i) ->
  (forall i, (i < dn_n g)%nat -> dn_sout g i = wstr (dn_n g) w i) -> (forall i, (i < dn_n g)%nat -> dn_sin g i = winstr (dn_n g) w i) ->
  exists x y bo bi, ds_x o' = Some x /\ ds_y o' = Some y /\ ds_bo o' = Some bo /\ ds_bi o' = Some bi /\
    scalar (d_model_loglikelihood o') = Some (- ln (prob_wdirected (dn_n g) (fun i j => q_enh (x i * y j) (bo i * bi j)) w)).
Proof. exact d_ll_decm. Qed.
Print Assumptions C62_value_decm.
Theorem C62_value_decm_exp :
  forall g c o o' w,
  c_model c = "decm_exp"%string -> In (c_method c) documented_methods ->
  d_solve_tool g c o = (o', None) ->
  (forall bo bi, ds_bo o' = Some bo -> ds_bi o' = Some bi -> forall i j, (i < dn_n g)%nat -> (j < dn_n g)%nat -> i <> j -> 0 < bo i + bi j) ->
  weighted_digraph (dn_n g) w -> (forall i, (i < dn_n g)%nat -> at_list (dn_out g) i = wdeg (dn_n g) w i) ->
  (forall i, (i < dn_n g)%nat -> at_list (dn_in g) i = windeg (dn_n g) w i) ->
  (forall i, (i < dn_n g)%nat -> dn_sout g i = wstr (dn_n g) w i) -> (forall i, (i < dn_n g)%nat -> dn_sin g i = winstr (dn_n g) w i) ->
  exists x y bo bi, ds_x o' = Some x /\ ds_y o' = Some y /\ ds_bo o' = Some bo /\ ds_bi o' = Some bi /\
    scalar (d_model_loglikelihood o') =
    Some (- ln (prob_wdirected (dn_n g) (fun i j => q_enh (exp (- x i) * exp (- y j)) (exp (- bo i) * exp (- bi j))) w)).
Proof. exact d_ll_decm_exp. Qed.
Print Assumptions C62_value_decm_exp.
Theorem C62_value_crema_dir :
  forall g c o o' a,
  c_model c = "crema"%string -> In (c_method c) documented_methods -> c_full c = false ->
  c_adjacency c = AdjMatrix a -> d_solve_tool g c o = (o', None) ->
  (forall bo bi, ds_bo o' = Some bo -> ds_bi o' = Some bi -> positive_rates_dir (dn_n g) a bo bi) ->
  exists bo bi, ds_bo o' = Some bo /\ ds_bi o' = Some bi /\
    scalar (d_model_loglikelihood o') = Some (- crema_loglik_dir (dn_n g) a (dn_sout g) (dn_sin g) bo bi).
Proof. exact d_ll_crema_matrix. Qed.
Print Assumptions C62_value_crema_dir.
Theorem C62_value_crema_dir_name :
  forall g c o o' a,
  d_paired g -> In (c_model c) ["crema"; "crema-sparse"]%string -> In (c_method c) documented_methods -> c_full c = false ->
  c_adjacency c = AdjName a -> In a ["dcm"; "dcm_exp"]%string -> d_solve_tool g c o = (o', None) ->
  (forall x y, ds_x o' = Some x -> ds_y o' = Some y ->
     supported (dn_n g) (at_list (dn_out g)) x /\ supported (dn_n g) (at_list (dn_in g)) y) ->
  (forall i, (i < dn_n g)%nat -> (dn_sout g i = 0 <-> at_list (dn_out g) i = 0) /\ (dn_sin g i = 0 <-> at_list (dn_in g) i = 0)) ->
  (forall x y bo bi, ds_x o' = Some x -> ds_y o' = Some y -> ds_bo o' = Some bo -> ds_bi o' = Some bi -> positive_rates_dir (dn_n g) (dcm_prob x y) bo bi) ->
  exists x y bo bi, ds_x o' = Some x /\ ds_y o' = Some y /\ ds_bo o' = Some bo /\ ds_bi o' = Some bi /\
    scalar (d_model_loglikelihood o') = Some (- crema_loglik_dir (dn_n g) (dcm_prob x y) (dn_sout g) (dn_sin g) bo bi).
Proof. exact d_ll_crema_name. Qed.
Print Assumptions C62_value_crema_dir_name.
Theorem C62_full_return_raises :
  forall g c o o',
  In (c_model c) ["crema"; "crema-sparse"]%string -> In (c_method c) documented_methods -> c_full c = true ->
  d_solve_tool g c o = (o', None) -> d_model_loglikelihood o' = None.
Proof. exact d_ll_full. Qed.
Print Assumptions C62_full_return_raises.
Theorem C62_sign_refuted :
  exists g c o' a x l, c_model c = "cm"%string /\ In (c_method c) documented_methods /\ u_solve_tool g c (u_fresh false) = (o', None) /\
  simple_graph (un_n g) a /\ (forall i, (i < un_n g)%nat -> at_list (un_dseq g) i = deg (un_n g) a i) /\
  us_x o' = Some x /\ scalar (u_model_loglikelihood o') = Some l /\ l <> ln (prob_undirected (un_n g) (p_ubcm x) a).
Proof. exact ll_sign. Qed.
Print Assumptions C62_sign_refuted.
Theorem C62_dcm_exp_refuted :
  exists g c o' a x y l, c_model c = "dcm_exp"%string /\ In (c_method c) documented_methods /\
  d_solve_tool g c (d_fresh false) = (o', None) /\ loopless (dn_n g) a /\
  (forall i, (i < dn_n g)%nat -> at_list (dn_out g) i = deg (dn_n g) a i /\ at_list (dn_in g) i = indeg (dn_n g) a i) /\
  ds_x o' = Some x /\ ds_y o' = Some y /\ scalar (d_model_loglikelihood o') = Some l /\
  l <> ln (prob_directed (dn_n g) (p_dbcm x y) a) /\ l <> - ln (prob_directed (dn_n g) (p_dbcm x y) a).
Proof. exact ll_dcm_exp_wrong. Qed.
Print Assumptions C62_dcm_exp_refuted.
Theorem C62_after_failure_refuted :
  exists g c1 c2 o1 o2 s a l, u_solve_tool g c1 (u_fresh false) = (o1, None) /\ c_adjacency c1 = AdjMatrix a /\
  u_solve_tool g c2 o1 = (o2, Some EValue) /\ us_sol o1 = Some s /\ us_sol o2 = Some s /\
  scalar (u_model_loglikelihood o1) = Some (- crema_loglik (un_n g) a (un_str g) s) /\
  scalar (u_model_loglikelihood o2) = Some l /\ l <> crema_loglik (un_n g) a (un_str g) s /\ l <> - crema_loglik (un_n g) a (un_str g) s.
Proof. exact ll_after_failure. Qed.
Print Assumptions C62_after_failure_refuted.
Example case_likelihood_dcm_exp :
  exists o', (0 < dn_n d2)%nat /\ d_paired d2 /\ c_model k_dcm_exp = "dcm_exp"%string /\
  In (c_method k_dcm_exp) documented_methods /\ d_solve_tool d2 k_dcm_exp (d_fresh false) = (o', None) /\
  (forall i, (i < dn_n d2)%nat -> at_list (dn_out d2) i <> 0 /\ at_list (dn_in d2) i <> 0) /\
  loopless (dn_n d2) k2 /\ (forall i, (i < dn_n d2)%nat -> at_list (dn_out d2) i = deg (dn_n d2) k2 i /\ at_list (dn_in d2) i = indeg (dn_n d2) k2 i).
Proof. exact case_dcm_exp. Qed.
Example case_likelihood_decm_exp :
  exists o', (0 < dn_n d2)%nat /\ c_model k_decm_exp = "decm_exp"%string /\
  In (c_method k_decm_exp) documented_methods /\ d_solve_tool d2 k_decm_exp (d_fresh false) = (o', None) /\
  (forall bo bi, ds_bo o' = Some bo -> ds_bi o' = Some bi -> forall i j, (i < dn_n d2)%nat -> (j < dn_n d2)%nat -> i <> j -> 0 < bo i + bi j) /\
  weighted_digraph (dn_n d2) w2 /\ (forall i, (i < dn_n d2)%nat -> at_list (dn_out d2) i = wdeg (dn_n d2) w2 i /\ at_list (dn_in d2) i = windeg (dn_n d2) w2 i /\
     dn_sout d2 i = wstr (dn_n d2) w2 i /\ dn_sin d2 i = winstr (dn_n d2) w2 i).
Proof. exact case_decm_exp. Qed.
Example case_likelihood_full :
  exists o', In (c_model k_dcrema_full) ["crema"; "crema-sparse"]%string /\ In (c_method k_dcrema_full) documented_methods /\
  c_full k_dcrema_full = true /\ d_solve_tool d2 k_dcrema_full (d_fresh false) = (o', None).
Proof. exact case_full. Qed.
