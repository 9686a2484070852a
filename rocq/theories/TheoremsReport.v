(** Theorems on the relative errors and the expected sequences.  Nothing else in this file;
    proofs are in ProofsReport and WitnessReport. *)
From Coq Require Import Reals List Arith Bool String Lia Lra.
From Verif Require Import Base SpecGraph SpecDirected SpecWeighted SpecCReMa SpecEnsemble SpecNetwork SpecSolve SpecDispatch SpecReport
  ModelCM ModelECM ModelDCM ModelDECM ModelCReMa ModelNetwork ModelDispatch ModelSolve ModelReport.
From Verif Require Import ProofsSolve ProofsSolveU ProofsSolveD ProofsReport ProofsReportFail WitnessSolve WitnessReport.
Import ListNotations.
Local Open Scope R_scope.

(** C87: the relative errors are the largest deviations in units of the constraint. *)
Theorem C87_cm :
  forall g c o m o' m',
  (0 < un_n g)%nat -> In (c_model c) ["cm"; "cm_exp"]%string -> u_solve_measured g c o m = ((o', None), m') ->
  exists x e, us_x o' = Some x /\ m_rk m' = Some (Fin e) /\
    sup_rel (un_n g) (fun i => mean_undirected (un_n g) (p_ubcm x) (fun a => deg (un_n g) a i)) (at_list (un_dseq g)) (padded (at_list (un_dseq g))) e.
Proof. exact u_rel_cm. Qed.
Print Assumptions C87_cm.
Example C87_cm_case :
  exists o' m', (0 < un_n g2)%nat /\ In (c_model k_cm) ["cm"; "cm_exp"]%string /\
  u_solve_measured g2 k_cm (u_fresh false) m_fresh = ((o', None), m').
Proof. exact report_cm. Qed.
Theorem C87_ecm :
  forall g c o m o' m',
  (0 < un_n g)%nat -> In (c_model c) ["ecm"; "ecm_exp"]%string -> u_solve_measured g c o m = ((o', None), m') ->
  (forall i, (i < un_n g)%nat -> nth i (un_dseq g) O <> O /\ 0 < un_str g i) ->
  exists x y ek es, us_x o' = Some x /\ us_y o' = Some y /\ m_rk m' = Some (Fin ek) /\ m_rs m' = Some (Fin es) /\
    sup_rel (un_n g) (mean_deg_und (un_n g) x y) (at_list (un_dseq g)) (at_list (un_dseq g)) ek /\
    sup_rel (un_n g) (mean_str_und (un_n g) x y) (un_str g) (un_str g) es.
Proof. exact u_rel_ecm. Qed.
Print Assumptions C87_ecm.
Example C87_ecm_case :
  exists o' m', (0 < un_n g2)%nat /\ In (c_model k_ecm) ["ecm"; "ecm_exp"]%string /\
  u_solve_measured g2 k_ecm (u_fresh false) m_fresh = ((o', None), m') /\
  (forall i, (i < un_n g2)%nat -> nth i (un_dseq g2) O <> O /\ 0 < un_str g2 i).
Proof. exact report_ecm. Qed.
Theorem C87_crema_matrix :
  forall g c o m o' m' a,
  (0 < un_n g)%nat -> In (c_model c) ["crema"; "crema-sparse"]%string -> c_adjacency c = AdjMatrix a -> hollow a ->
  (forall i, (i < un_n g)%nat -> 0 <= un_str g i) -> u_solve_measured g c o m = ((o', None), m') ->
  (forall b, us_beta o' = Some b -> positive_rates (un_n g) a b) ->
  exists beta e, us_beta o' = Some beta /\ m_rs m' = Some (Fin e) /\
    sup_rel (un_n g) (crema_mean (un_n g) a beta) (un_str g) (padded (un_str g)) e.
Proof. exact u_rel_crema_matrix. Qed.
Print Assumptions C87_crema_matrix.
Example C87_crema_matrix_case :
  exists o' m', (0 < un_n g2)%nat /\ In (c_model k_crema) ["crema"; "crema-sparse"]%string /\
  c_adjacency k_crema = AdjMatrix ones /\ hollow ones /\ (forall i, (i < un_n g2)%nat -> 0 <= un_str g2 i) /\
  u_solve_measured g2 k_crema (u_fresh false) m_fresh = ((o', None), m') /\
  (forall b, us_beta o' = Some b -> positive_rates (un_n g2) ones b).
Proof. exact report_crema. Qed.
Theorem C87_crema_name :
  forall g c o m o' m' a,
  (0 < un_n g)%nat -> In (c_model c) ["crema"; "crema-sparse"]%string -> c_adjacency c = AdjName a ->
  In a ["cm"; "cm_exp"]%string -> (forall i, (i < un_n g)%nat -> 0 <= un_str g i) -> u_solve_measured g c o m = ((o', None), m') ->
  (forall x b, us_x o' = Some x -> us_beta o' = Some b -> (forall i, (i < un_n g)%nat -> 0 <= x i) /\ positive_rates (un_n g) (p_ubcm x) b) ->
  exists x beta ek es, us_x o' = Some x /\ us_beta o' = Some beta /\ m_rk m' = Some (Fin ek) /\ m_rs m' = Some (Fin es) /\
    sup_rel (un_n g) (fun i => mean_undirected (un_n g) (p_ubcm x) (fun a => deg (un_n g) a i)) (at_list (un_dseq g)) (padded (at_list (un_dseq g))) ek /\
    sup_rel (un_n g) (crema_mean (un_n g) (p_ubcm x) beta) (un_str g) (padded (un_str g)) es.
Proof. exact u_rel_crema_name. Qed.
Print Assumptions C87_crema_name.
Example C87_crema_name_case :
  exists o' m', (0 < un_n g2)%nat /\ In (c_model k_crema_name) ["crema"; "crema-sparse"]%string /\
  c_adjacency k_crema_name = AdjName "cm" /\ (forall i, (i < un_n g2)%nat -> 0 <= un_str g2 i) /\
  u_solve_measured g2 k_crema_name (u_fresh false) m_fresh = ((o', None), m') /\
  (forall x b, us_x o' = Some x -> us_beta o' = Some b -> (forall i, (i < un_n g2)%nat -> 0 <= x i) /\ positive_rates (un_n g2) (p_ubcm x) b).
Proof. exact report_crema_name. Qed.
Theorem C87_dcm :
  forall g c o m o' m',
  (0 < dn_n g)%nat -> In (c_model c) ["dcm"; "dcm_exp"]%string -> d_solve_measured g c o m = ((o', None), m') ->
  exists x y e, ds_x o' = Some x /\ ds_y o' = Some y /\ m_rk m' = Some (Fin e) /\
    sup_rel2 (dn_n g) (fun i => mean_directed (dn_n g) (p_dbcm x y) (fun a => deg (dn_n g) a i)) (at_list (dn_out g)) (padded (at_list (dn_out g)))
      (fun i => mean_directed (dn_n g) (p_dbcm x y) (fun a => indeg (dn_n g) a i)) (at_list (dn_in g)) (padded (at_list (dn_in g))) e.
Proof. exact d_rel_dcm. Qed.
Print Assumptions C87_dcm.
Example C87_dcm_case :
  exists o' m', (0 < dn_n d2)%nat /\ In (c_model k_dcm) ["dcm"; "dcm_exp"]%string /\
  d_solve_measured d2 k_dcm (d_fresh false) m_fresh = ((o', None), m').
Proof. exact report_dcm. Qed.
Theorem C87_decm :
  forall g c o m o' m',
  (0 < dn_n g)%nat -> In (c_model c) ["decm"; "decm_exp"]%string ->
  (forall i, (i < dn_n g)%nat -> 0 <= dn_sout g i /\ 0 <= dn_sin g i) -> d_solve_measured g c o m = ((o', None), m') ->
  (forall x y bo bi, ds_x o' = Some x -> ds_y o' = Some y -> ds_bo o' = Some bo -> ds_bi o' = Some bi -> decm_dom (dn_n g) (join4 (dn_n g) x y bo bi)) ->
  exists x y bo bi ek es, ds_x o' = Some x /\ ds_y o' = Some y /\ ds_bo o' = Some bo /\ ds_bi o' = Some bi /\
    m_rk m' = Some (Fin ek) /\ m_rs m' = Some (Fin es) /\
    sup_rel2 (dn_n g) (mean_out_deg (dn_n g) x y bo bi) (at_list (dn_out g)) (padded (at_list (dn_out g)))
      (mean_in_deg (dn_n g) x y bo bi) (at_list (dn_in g)) (padded (at_list (dn_in g))) ek /\
    sup_rel2 (dn_n g) (mean_out_str (dn_n g) x y bo bi) (dn_sout g) (padded (dn_sout g))
      (mean_in_str (dn_n g) x y bo bi) (dn_sin g) (padded (dn_sin g)) es.
Proof. exact d_rel_decm. Qed.
Print Assumptions C87_decm.
Example C87_decm_case :
  exists o' m', (0 < dn_n d2)%nat /\ In (c_model k_decm) ["decm"; "decm_exp"]%string /\
  (forall i, (i < dn_n d2)%nat -> 0 <= dn_sout d2 i /\ 0 <= dn_sin d2 i) /\
  d_solve_measured d2 k_decm (d_fresh false) m_fresh = ((o', None), m') /\
  (forall x y bo bi, ds_x o' = Some x -> ds_y o' = Some y -> ds_bo o' = Some bo -> ds_bi o' = Some bi -> decm_dom (dn_n d2) (join4 (dn_n d2) x y bo bi)).
Proof. exact report_decm. Qed.
Theorem C87_crema_directed_matrix :
  forall g c o m o' m' a,
  (0 < dn_n g)%nat -> In (c_model c) ["crema"; "crema-sparse"]%string -> c_adjacency c = AdjMatrix a ->
  (forall i, (i < dn_n g)%nat -> 0 <= dn_sout g i /\ 0 <= dn_sin g i) -> d_solve_measured g c o m = ((o', None), m') ->
  (forall bo bi, ds_bo o' = Some bo -> ds_bi o' = Some bi -> positive_rates_dir (dn_n g) a bo bi) ->
  exists bo bi e, ds_bo o' = Some bo /\ ds_bi o' = Some bi /\ m_rs m' = Some (Fin e) /\
    sup_rel2 (dn_n g) (crema_mean_out (dn_n g) a bo bi) (dn_sout g) (padded (dn_sout g)) (crema_mean_in (dn_n g) a bo bi) (dn_sin g) (padded (dn_sin g)) e.
Proof. exact d_rel_crema_matrix. Qed.
Print Assumptions C87_crema_directed_matrix.
Example C87_crema_directed_matrix_case :
  exists o' m', (0 < dn_n d2)%nat /\ In (c_model k_dcrema) ["crema"; "crema-sparse"]%string /\
  c_adjacency k_dcrema = AdjMatrix ones /\ (forall i, (i < dn_n d2)%nat -> 0 <= dn_sout d2 i /\ 0 <= dn_sin d2 i) /\
  d_solve_measured d2 k_dcrema (d_fresh false) m_fresh = ((o', None), m') /\
  (forall bo bi, ds_bo o' = Some bo -> ds_bi o' = Some bi -> positive_rates_dir (dn_n d2) ones bo bi).
Proof. exact report_dcrema. Qed.
Theorem C87_crema_directed_name :
  forall g c o m o' m' a,
  (0 < dn_n g)%nat -> d_paired g -> In (c_model c) ["crema"; "crema-sparse"]%string ->
  c_adjacency c = AdjName a -> In a ["dcm"; "dcm_exp"]%string -> (forall i, (i < dn_n g)%nat -> 0 <= dn_sout g i /\ 0 <= dn_sin g i) ->
  d_solve_measured g c o m = ((o', None), m') ->
  (forall x y bo bi, ds_x o' = Some x -> ds_y o' = Some y -> ds_bo o' = Some bo -> ds_bi o' = Some bi ->
     supported (dn_n g) (at_list (dn_out g)) x /\ supported (dn_n g) (at_list (dn_in g)) y /\ positive_rates_dir (dn_n g) (dcm_prob x y) bo bi) ->
  exists x y bo bi ek es, ds_x o' = Some x /\ ds_y o' = Some y /\ ds_bo o' = Some bo /\ ds_bi o' = Some bi /\
    m_rk m' = Some (Fin ek) /\ m_rs m' = Some (Fin es) /\
    sup_rel2 (dn_n g) (fun i => mean_directed (dn_n g) (p_dbcm x y) (fun a => deg (dn_n g) a i)) (at_list (dn_out g)) (padded (at_list (dn_out g)))
      (fun i => mean_directed (dn_n g) (p_dbcm x y) (fun a => indeg (dn_n g) a i)) (at_list (dn_in g)) (padded (at_list (dn_in g))) ek /\
    sup_rel2 (dn_n g) (crema_mean_out (dn_n g) (dcm_prob x y) bo bi) (dn_sout g) (padded (dn_sout g))
      (crema_mean_in (dn_n g) (dcm_prob x y) bo bi) (dn_sin g) (padded (dn_sin g)) es.
Proof. exact d_rel_crema_name. Qed.
Print Assumptions C87_crema_directed_name.
Example C87_crema_directed_name_case :
  exists o' m', (0 < dn_n d2)%nat /\ d_paired d2 /\ In (c_model k_dcrema_name) ["crema"; "crema-sparse"]%string /\
  c_adjacency k_dcrema_name = AdjName "dcm" /\ (forall i, (i < dn_n d2)%nat -> 0 <= dn_sout d2 i /\ 0 <= dn_sin d2 i) /\
  d_solve_measured d2 k_dcrema_name (d_fresh false) m_fresh = ((o', None), m') /\
  (forall x y bo bi, ds_x o' = Some x -> ds_y o' = Some y -> ds_bo o' = Some bo -> ds_bi o' = Some bi ->
     supported (dn_n d2) (at_list (dn_out d2)) x /\ supported (dn_n d2) (at_list (dn_in d2)) y /\ positive_rates_dir (dn_n d2) (dcm_prob x y) bo bi).
Proof. exact report_dcrema_name. Qed.
Theorem C87_ecm_refuted :
  exists g g' c c' o1 o2 m1 m2 x1 y1 x2 y2 e, In (c_model c) ["ecm"; "ecm_exp"]%string /\ In (c_model c') ["ecm"; "ecm_exp"]%string /\
  u_solve_measured g c (u_fresh false) m_fresh = ((o1, None), m1) /\ u_solve_measured g' c' (u_fresh false) m_fresh = ((o2, None), m2) /\
  us_x o1 = Some x1 /\ us_y o1 = Some y1 /\ us_x o2 = Some x2 /\ us_y o2 = Some y2 /\ un_n g = un_n g' /\
  (forall i, (i < un_n g)%nat -> nth i (un_dseq g') O = nth (un_n g - 1 - i) (un_dseq g) O /\ un_str g' i = un_str g (un_n g - 1 - i)%nat /\
     x2 i = x1 (un_n g - 1 - i)%nat /\ y2 i = y1 (un_n g - 1 - i)%nat) /\
  m_rk m1 = Some NaN /\ m_rs m1 = Some NaN /\ m_rk m2 = Some (Fin e).
Proof. exact rel_order. Qed.
Print Assumptions C87_ecm_refuted.
Theorem C87_ecm_isolated :
  forall g c o m o' m' i,
  In (c_model c) ["ecm"; "ecm_exp"]%string -> u_solve_measured g c o m = ((o', None), m') ->
  (i < un_n g)%nat -> nth i (un_dseq g) O = O ->
  exists x y, us_x o' = Some x /\ us_y o' = Some y /\
    (mean_deg_und (un_n g) x y i <> 0 -> nth 0 (un_dseq g) O <> O \/ mean_deg_und (un_n g) x y O <> 0 -> m_rk m' = Some PInf).
Proof. exact u_rel_ecm_isolated. Qed.
Print Assumptions C87_ecm_isolated.
Theorem C87_ecm_exp_isolated :
  forall g c o m o' m' i,
  c_model c = "ecm_exp"%string -> u_solve_measured g c o m = ((o', None), m') ->
  (2 <= un_n g)%nat -> (i < un_n g)%nat -> nth i (un_dseq g) O = O ->
  (forall y, us_y o' = Some y -> forall j k, (j < un_n g)%nat -> (k < un_n g)%nat -> j <> k -> y j * y k < 1) ->
  m_rk m' = Some PInf.
Proof. exact u_rel_ecm_exp_isolated. Qed.
Print Assumptions C87_ecm_exp_isolated.
Example C87_ecm_exp_isolated_case :
  exists o' m', c_model call_pos = "ecm_exp"%string /\ u_solve_measured iso_last call_pos (u_fresh false) m_fresh = ((o', None), m') /\
  (2 <= un_n iso_last)%nat /\ (2 < un_n iso_last)%nat /\ nth 2 (un_dseq iso_last) O = O /\
  (forall y, us_y o' = Some y -> forall j k, (j < un_n iso_last)%nat -> (k < un_n iso_last)%nat -> j <> k -> y j * y k < 1).
Proof. exact isolated_pos. Qed.

(** C88: the expected sequences are those of the model just solved. *)
Theorem C88_cm :
  forall g c o m o' m',
  In (c_model c) ["cm"; "cm_exp"]%string -> u_solve_measured g c o m = ((o', None), m') ->
  exists x f, us_x o' = Some x /\ m_edseq m' = Some f /\
    forall i, (i < un_n g)%nat -> f i = mean_undirected (un_n g) (p_ubcm x) (fun a => deg (un_n g) a i).
Proof. exact u_exp_cm. Qed.
Print Assumptions C88_cm.
Theorem C88_ecm :
  forall g c o m o' m',
  In (c_model c) ["ecm"; "ecm_exp"]%string -> u_solve_measured g c o m = ((o', None), m') ->
  exists x y f h, us_x o' = Some x /\ us_y o' = Some y /\ m_edseq m' = Some f /\ m_estr m' = Some h /\
    forall i, (i < un_n g)%nat -> f i = mean_deg_und (un_n g) x y i /\ h i = mean_str_und (un_n g) x y i.
Proof. exact u_exp_ecm. Qed.
Print Assumptions C88_ecm.
Theorem C88_dcm :
  forall g c o m o' m',
  In (c_model c) ["dcm"; "dcm_exp"]%string -> d_solve_measured g c o m = ((o', None), m') ->
  exists x y f, ds_x o' = Some x /\ ds_y o' = Some y /\ m_edseq m' = Some f /\
    forall i, (i < dn_n g)%nat -> f i = mean_directed (dn_n g) (p_dbcm x y) (fun a => deg (dn_n g) a i) /\
      f (i + dn_n g)%nat = mean_directed (dn_n g) (p_dbcm x y) (fun a => indeg (dn_n g) a i).
Proof. exact d_exp_dcm. Qed.
Print Assumptions C88_dcm.
Theorem C88_decm :
  forall g c o m o' m',
  In (c_model c) ["decm"; "decm_exp"]%string -> d_solve_measured g c o m = ((o', None), m') ->
  (forall x y bo bi, ds_x o' = Some x -> ds_y o' = Some y -> ds_bo o' = Some bo -> ds_bi o' = Some bi -> decm_dom (dn_n g) (join4 (dn_n g) x y bo bi)) ->
  exists x y bo bi f h, ds_x o' = Some x /\ ds_y o' = Some y /\ ds_bo o' = Some bo /\ ds_bi o' = Some bi /\ m_edseq m' = Some f /\ m_estr m' = Some h /\
    forall i, (i < dn_n g)%nat ->
      f i = mean_out_deg (dn_n g) x y bo bi i /\ f (i + dn_n g)%nat = mean_in_deg (dn_n g) x y bo bi i /\
      h i = mean_out_str (dn_n g) x y bo bi i /\ h (i + dn_n g)%nat = mean_in_str (dn_n g) x y bo bi i.
Proof. exact d_exp_decm. Qed.
Print Assumptions C88_decm.
Theorem C88_crema_matrix_unassigned :
  forall g c o m o' m' a,
  In (c_model c) ["crema"; "crema-sparse"]%string -> c_adjacency c = AdjMatrix a -> hollow a ->
  u_solve_measured g c o m = ((o', None), m') ->
  (forall b, us_beta o' = Some b -> positive_rates (un_n g) a b) ->
  exists beta h, us_beta o' = Some beta /\ m_estr m' = m_estr m /\ m_estreg m' = Some h /\
    forall i, (i < un_n g)%nat -> h i = crema_mean (un_n g) a beta i.
Proof. exact u_exp_crema. Qed.
Print Assumptions C88_crema_matrix_unassigned.
Theorem C88_crema_name_unassigned :
  forall g c o m o' m' a,
  In (c_model c) ["crema"; "crema-sparse"]%string -> c_adjacency c = AdjName a ->
  In a ["cm"; "cm_exp"]%string -> u_solve_measured g c o m = ((o', None), m') ->
  (forall x b, us_x o' = Some x -> us_beta o' = Some b -> (forall i, (i < un_n g)%nat -> 0 <= x i) /\ positive_rates (un_n g) (p_ubcm x) b) ->
  exists x beta f h, us_x o' = Some x /\ us_beta o' = Some beta /\ m_edseq m' = Some f /\ m_estr m' = m_estr m /\ m_estreg m' = Some h /\
    forall i, (i < un_n g)%nat -> f i = mean_undirected (un_n g) (p_ubcm x) (fun a => deg (un_n g) a i) /\
      h i = crema_mean (un_n g) (p_ubcm x) beta i.
Proof. exact u_exp_crema_name. Qed.
Print Assumptions C88_crema_name_unassigned.
Theorem C88_crema_directed_unassigned :
  forall g c o m o' m' a,
  In (c_model c) ["crema"; "crema-sparse"]%string -> c_adjacency c = AdjMatrix a ->
  d_solve_measured g c o m = ((o', None), m') ->
  (forall bo bi, ds_bo o' = Some bo -> ds_bi o' = Some bi -> positive_rates_dir (dn_n g) a bo bi) ->
  exists bo bi h, ds_bo o' = Some bo /\ ds_bi o' = Some bi /\ m_estr m' = m_estr m /\ m_estreg m' = Some h /\
    forall i, (i < dn_n g)%nat -> h i = crema_mean_out (dn_n g) a bo bi i /\ h (i + dn_n g)%nat = crema_mean_in (dn_n g) a bo bi i.
Proof. exact d_exp_crema. Qed.
Print Assumptions C88_crema_directed_unassigned.
Example C88_cases :
  exists o' m', (0 < dn_n d2)%nat /\ In (c_model k_decm) ["decm"; "decm_exp"]%string /\
  (forall i, (i < dn_n d2)%nat -> 0 <= dn_sout d2 i /\ 0 <= dn_sin d2 i) /\
  d_solve_measured d2 k_decm (d_fresh false) m_fresh = ((o', None), m') /\
  (forall x y bo bi, ds_x o' = Some x -> ds_y o' = Some y -> ds_bo o' = Some bo -> ds_bi o' = Some bi -> decm_dom (dn_n d2) (join4 (dn_n d2) x y bo bi)).
Proof. exact report_decm. Qed.
Theorem C88_crema_refuted :
  exists g c a o' m' beta, In (c_model c) ["crema"; "crema-sparse"]%string /\ c_adjacency c = AdjMatrix a /\ hollow a /\
  u_solve_measured g c (u_fresh false) m_fresh = ((o', None), m') /\ us_beta o' = Some beta /\ positive_rates (un_n g) a beta /\ m_estr m' = None.
Proof. exact crema_unassigned. Qed.
Print Assumptions C88_crema_refuted.
Theorem C88_crema_directed_refuted :
  exists g c a o' m' bo bi, In (c_model c) ["crema"; "crema-sparse"]%string /\ c_adjacency c = AdjMatrix a /\
  d_solve_measured g c (d_fresh false) m_fresh = ((o', None), m') /\ ds_bo o' = Some bo /\ ds_bi o' = Some bi /\ positive_rates_dir (dn_n g) a bo bi /\
  m_estr m' = None.
Proof. exact dcrema_unassigned. Qed.
Print Assumptions C88_crema_directed_refuted.
Theorem C88_raised_cm :
  forall g c o m o' e m',
  In (c_model c) ["cm"; "cm_exp"]%string -> us_beta o = None -> u_solve_measured g c o m = ((o', Some e), m') -> m' = m.
Proof. exact u_raised_cm. Qed.
Print Assumptions C88_raised_cm.
Example C88_raised_cm_case :
  exists o' e, In (c_model (k_nosol "cm")) ["cm"; "cm_exp"]%string /\ us_beta (u_fresh false) = None /\
  u_solve_measured g2 (k_nosol "cm") (u_fresh false) m_fresh = ((o', Some e), m_fresh).
Proof. exact after_raise_cm. Qed.
Theorem C88_raised_ecm :
  forall g c o m o' e m',
  In (c_model c) ["ecm"; "ecm_exp"]%string -> u_solve_measured g c o m = ((o', Some e), m') -> m' = m.
Proof. exact u_raised_ecm. Qed.
Print Assumptions C88_raised_ecm.
Example C88_raised_ecm_case :
  exists o1 m1 o2 e, In (c_model k_ecm) ["ecm"; "ecm_exp"]%string /\
  u_solve_measured g2 k_ecm (u_fresh false) m_fresh = ((o1, None), m1) /\ m_rk m1 <> None /\
  u_solve_measured g2 (k_nosol "ecm_exp") o1 m1 = ((o2, Some e), m1).
Proof. exact after_raise. Qed.
Theorem C88_raised_dcm :
  forall g c o m o' e m',
  In (c_model c) ["dcm"; "dcm_exp"]%string -> ds_bo o = None -> d_solve_measured g c o m = ((o', Some e), m') -> m' = m.
Proof. exact d_raised_dcm. Qed.
Print Assumptions C88_raised_dcm.
Theorem C88_raised_decm :
  forall g c o m o' e m',
  In (c_model c) ["decm"; "decm_exp"]%string -> d_solve_measured g c o m = ((o', Some e), m') -> m' = m.
Proof. exact d_raised_decm. Qed.
Print Assumptions C88_raised_decm.
Example C88_raised_directed_case :
  exists o' e o'' e', In (c_model (k_nosol "decm")) ["decm"; "decm_exp"]%string /\
  d_solve_measured d2 (k_nosol "decm") (d_fresh false) m_fresh = ((o', Some e), m_fresh) /\
  In (c_model (k_nosol "dcm")) ["dcm"; "dcm_exp"]%string /\ ds_bo (d_fresh false) = None /\
  d_solve_measured d2 (k_nosol "dcm") (d_fresh false) m_fresh = ((o'', Some e'), m_fresh).
Proof. exact after_raise_dir. Qed.
