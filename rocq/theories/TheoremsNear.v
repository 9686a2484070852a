(** What the reported error says about the likelihood of the observed network and about other
    solves of it. *)
From Coq Require Import Reals List Arith Lia Lra String.
From Verif Require Import Base SpecGraph SpecWeighted SpecEnsemble SpecSolve SpecNear SpecDispatch ModelDispatch ModelSolve ProofsSolveU ProofsSolveD ProofsNearTool WitnessSolve WitnessNear.
Import ListNotations.
Local Open Scope R_scope.

(** C102 *)
Theorem C102_cm_likelihood :
  forall g c o o' a,
  (0 < un_n g)%nat -> us_beta o = None -> In (c_model c) ["cm"; "cm_exp"]%string ->
  simple_graph (un_n g) a -> (forall i, (i < un_n g)%nat -> at_list (un_dseq g) i = deg (un_n g) a i) ->
  u_solve_tool g c o = (o', None) ->
  exists x err, us_x o' = Some x /\ us_err o' = Some err /\ (c_model c = "cm_exp"%string -> forall i, 0 < x i) /\
    forall z, comparable (un_n g) x z -> may_link (un_n g) x x a ->
      prob_undirected (un_n g) (p_ubcm z) a <= prob_undirected (un_n g) (p_ubcm x) a * exp (err * log_gap (un_n g) x z).
Proof. exact call_near_cm. Qed.
Print Assumptions C102_cm_likelihood.
Theorem C102_cm_two_calls :
  forall g c1 c2 o1 o2 o1' o2',
  (0 < un_n g)%nat -> us_beta o1 = None -> us_beta o2 = None ->
  In (c_model c1) ["cm"; "cm_exp"]%string -> In (c_model c2) ["cm"; "cm_exp"]%string ->
  u_solve_tool g c1 o1 = (o1', None) -> u_solve_tool g c2 o2 = (o2', None) ->
  exists x1 e1 x2 e2, us_x o1' = Some x1 /\ us_err o1' = Some e1 /\ us_x o2' = Some x2 /\ us_err o2' = Some e2 /\
    (comparable (un_n g) x1 x2 -> comparable (un_n g) x2 x1 -> 4 * apart_und (un_n g) (p_ubcm x1) (p_ubcm x2) <= (e1 + e2) * log_gap (un_n g) x1 x2).
Proof. exact calls_close_cm. Qed.
Print Assumptions C102_cm_two_calls.
Example C102_cm_case :
  exists o' x, (0 < un_n g2)%nat /\ us_beta (u_fresh false) = None /\ In (c_model k_cm) ["cm"; "cm_exp"]%string /\
  simple_graph (un_n g2) k2 /\ (forall i, (i < un_n g2)%nat -> at_list (un_dseq g2) i = deg (un_n g2) k2 i) /\ u_solve_tool g2 k_cm (u_fresh false) = (o', None) /\
  us_x o' = Some x /\ comparable (un_n g2) x two /\ comparable (un_n g2) two x /\ may_link (un_n g2) x x k2.
Proof. exact cm_near_case. Qed.
Theorem C102_dcm_likelihood :
  forall g c o o' a,
  (0 < dn_n g)%nat -> d_paired g -> ds_bo o = None -> In (c_model c) ["dcm"; "dcm_exp"]%string ->
  loopless (dn_n g) a -> (forall i, (i < dn_n g)%nat -> at_list (dn_out g) i = deg (dn_n g) a i) -> (forall i, (i < dn_n g)%nat -> at_list (dn_in g) i = indeg (dn_n g) a i) ->
  d_solve_tool g c o = (o', None) ->
  exists x y err, ds_x o' = Some x /\ ds_y o' = Some y /\ ds_err o' = Some err /\
    (c_model c = "dcm_exp"%string -> forall i, (i < dn_n g)%nat -> 0 <= x i /\ 0 <= y i) /\
    forall z w, comparable (dn_n g) x z -> comparable (dn_n g) y w -> may_link (dn_n g) x y a ->
      prob_directed (dn_n g) (p_dbcm z w) a <= prob_directed (dn_n g) (p_dbcm x y) a * exp (err * (log_gap (dn_n g) x z + log_gap (dn_n g) y w)).
Proof. exact call_near_dcm. Qed.
Print Assumptions C102_dcm_likelihood.
Theorem C102_dcm_two_calls :
  forall g c1 c2 o1 o2 o1' o2',
  (0 < dn_n g)%nat -> d_paired g -> ds_bo o1 = None -> ds_bo o2 = None ->
  In (c_model c1) ["dcm"; "dcm_exp"]%string -> In (c_model c2) ["dcm"; "dcm_exp"]%string ->
  d_solve_tool g c1 o1 = (o1', None) -> d_solve_tool g c2 o2 = (o2', None) ->
  exists x1 y1 e1 x2 y2 e2, ds_x o1' = Some x1 /\ ds_y o1' = Some y1 /\ ds_err o1' = Some e1 /\ ds_x o2' = Some x2 /\ ds_y o2' = Some y2 /\ ds_err o2' = Some e2 /\
    (comparable (dn_n g) x1 x2 -> comparable (dn_n g) x2 x1 -> comparable (dn_n g) y1 y2 -> comparable (dn_n g) y2 y1 ->
     4 * apart_dir (dn_n g) (p_dbcm x1 y1) (p_dbcm x2 y2) <= (e1 + e2) * (log_gap (dn_n g) x1 x2 + log_gap (dn_n g) y1 y2)).
Proof. exact calls_close_dcm. Qed.
Print Assumptions C102_dcm_two_calls.
Example C102_dcm_case :
  exists o' x y, (0 < dn_n d2)%nat /\ d_paired d2 /\ ds_bo (d_fresh false) = None /\ In (c_model k_dcm) ["dcm"; "dcm_exp"]%string /\
  loopless (dn_n d2) k2 /\ (forall i, (i < dn_n d2)%nat -> at_list (dn_out d2) i = deg (dn_n d2) k2 i) /\ (forall i, (i < dn_n d2)%nat -> at_list (dn_in d2) i = indeg (dn_n d2) k2 i) /\
  d_solve_tool d2 k_dcm (d_fresh false) = (o', None) /\ ds_x o' = Some x /\ ds_y o' = Some y /\
  comparable (dn_n d2) x two /\ comparable (dn_n d2) two x /\ comparable (dn_n d2) y two /\ comparable (dn_n d2) two y /\ may_link (dn_n d2) x y k2.
Proof. exact dcm_near_case. Qed.
Theorem C102_ecm_likelihood :
  forall g c o o' w,
  (0 < un_n g)%nat -> In (c_model c) ["ecm"; "ecm_exp"]%string -> weighted_graph (un_n g) w ->
  (forall i, (i < un_n g)%nat -> at_list (un_dseq g) i = wdeg (un_n g) w i) -> (forall i, (i < un_n g)%nat -> un_str g i = wstr (un_n g) w i) ->
  u_solve_tool g c o = (o', None) ->
  exists x y err, us_x o' = Some x /\ us_y o' = Some y /\ us_err o' = Some err /\ (c_model c = "ecm_exp"%string -> forall i, 0 < x i /\ 0 < y i) /\
    forall z v, comparable (un_n g) x z -> comparable (un_n g) y v -> tame (un_n g) y y -> tame (un_n g) v v -> may_weigh (un_n g) x x y y w ->
      prob_wundirected (un_n g) (fun i j => q_enh (z i * z j) (v i * v j)) w <=
      prob_wundirected (un_n g) (fun i j => q_enh (x i * x j) (y i * y j)) w * exp (err * (log_gap (un_n g) x z + log_gap (un_n g) y v)).
Proof. exact call_near_ecm. Qed.
Print Assumptions C102_ecm_likelihood.
Example C102_ecm_case :
  exists o' x y, (0 < un_n g2)%nat /\ In (c_model k_ecm) ["ecm"; "ecm_exp"]%string /\ weighted_graph (un_n g2) w2 /\
  (forall i, (i < un_n g2)%nat -> at_list (un_dseq g2) i = wdeg (un_n g2) w2 i) /\ (forall i, (i < un_n g2)%nat -> un_str g2 i = wstr (un_n g2) w2 i) /\
  u_solve_tool g2 k_ecm (u_fresh false) = (o', None) /\ us_x o' = Some x /\ us_y o' = Some y /\
  comparable (un_n g2) x two /\ comparable (un_n g2) y third /\ tame (un_n g2) y y /\ tame (un_n g2) third third /\ may_weigh (un_n g2) x x y y w2.
Proof. exact ecm_near_case. Qed.
Theorem C102_decm_likelihood :
  forall g c o o' w,
  (0 < dn_n g)%nat -> In (c_model c) ["decm"; "decm_exp"]%string -> weighted_digraph (dn_n g) w ->
  (forall i, (i < dn_n g)%nat -> at_list (dn_out g) i = wdeg (dn_n g) w i) -> (forall i, (i < dn_n g)%nat -> at_list (dn_in g) i = windeg (dn_n g) w i) ->
  (forall i, (i < dn_n g)%nat -> dn_sout g i = wstr (dn_n g) w i) -> (forall i, (i < dn_n g)%nat -> dn_sin g i = winstr (dn_n g) w i) ->
  d_solve_tool g c o = (o', None) ->
  (forall x y bo bi, ds_x o' = Some x -> ds_y o' = Some y -> ds_bo o' = Some bo -> ds_bi o' = Some bi -> decm_dom (dn_n g) (join4 (dn_n g) x y bo bi)) ->
  exists x y bo bi err, ds_x o' = Some x /\ ds_y o' = Some y /\ ds_bo o' = Some bo /\ ds_bi o' = Some bi /\ ds_err o' = Some err /\
    forall z v co ci, comparable (dn_n g) x z -> comparable (dn_n g) y v -> comparable (dn_n g) bo co -> comparable (dn_n g) bi ci -> tame (dn_n g) co ci -> may_weigh (dn_n g) x y bo bi w ->
      prob_wdirected (dn_n g) (fun i j => q_enh (z i * v j) (co i * ci j)) w <=
      prob_wdirected (dn_n g) (fun i j => q_enh (x i * y j) (bo i * bi j)) w *
        exp (err * (log_gap (dn_n g) x z + log_gap (dn_n g) y v + (log_gap (dn_n g) bo co + log_gap (dn_n g) bi ci))).
Proof. exact call_near_decm. Qed.
Print Assumptions C102_decm_likelihood.
Example C102_decm_case :
  exists o' x y bo bi, (0 < dn_n d2)%nat /\ In (c_model k_decm) ["decm"; "decm_exp"]%string /\ weighted_digraph (dn_n d2) w2 /\
  (forall i, (i < dn_n d2)%nat -> at_list (dn_out d2) i = wdeg (dn_n d2) w2 i) /\ (forall i, (i < dn_n d2)%nat -> at_list (dn_in d2) i = windeg (dn_n d2) w2 i) /\
  (forall i, (i < dn_n d2)%nat -> dn_sout d2 i = wstr (dn_n d2) w2 i) /\ (forall i, (i < dn_n d2)%nat -> dn_sin d2 i = winstr (dn_n d2) w2 i) /\
  d_solve_tool d2 k_decm (d_fresh false) = (o', None) /\
  (forall x y bo bi, ds_x o' = Some x -> ds_y o' = Some y -> ds_bo o' = Some bo -> ds_bi o' = Some bi -> decm_dom (dn_n d2) (join4 (dn_n d2) x y bo bi)) /\
  ds_x o' = Some x /\ ds_y o' = Some y /\ ds_bo o' = Some bo /\ ds_bi o' = Some bi /\
  comparable (dn_n d2) x two /\ comparable (dn_n d2) y two /\ comparable (dn_n d2) bo third /\ comparable (dn_n d2) bi third /\ tame (dn_n d2) third third /\ may_weigh (dn_n d2) x y bo bi w2.
Proof. exact decm_near_case. Qed.
Theorem C102_crema_likelihood :
  forall g c o o' a,
  (0 < un_n g)%nat -> In (c_model c) ["crema"; "crema-sparse"]%string ->
  c_adjacency c = AdjMatrix a -> hollow a -> (forall i j, (i < j < un_n g)%nat -> 0 <= a i j) ->
  u_solve_tool g c o = (o', None) -> (forall b, us_beta o' = Some b -> positive_rates (un_n g) a b) ->
  exists b err, us_beta o' = Some b /\ us_err o' = Some err /\
    forall z, positive_rates (un_n g) a z -> crema_loglik (un_n g) a (un_str g) z <= crema_loglik (un_n g) a (un_str g) b + err * one_norm (un_n g) b z.
Proof. exact call_near_crema. Qed.
Print Assumptions C102_crema_likelihood.
Theorem C102_crema_two_calls :
  forall g c1 c2 o1 o2 o1' o2' a,
  (0 < un_n g)%nat -> In (c_model c1) ["crema"; "crema-sparse"]%string -> In (c_model c2) ["crema"; "crema-sparse"]%string ->
  c_adjacency c1 = AdjMatrix a -> c_adjacency c2 = AdjMatrix a -> hollow a ->
  u_solve_tool g c1 o1 = (o1', None) -> u_solve_tool g c2 o2 = (o2', None) ->
  (forall b, us_beta o1' = Some b -> positive_rates (un_n g) a b) -> (forall b, us_beta o2' = Some b -> positive_rates (un_n g) a b) ->
  exists b1 e1 b2 e2, us_beta o1' = Some b1 /\ us_err o1' = Some e1 /\ us_beta o2' = Some b2 /\ us_err o2' = Some e2 /\
    rates_apart (un_n g) a b1 b2 <= (e1 + e2) * one_norm (un_n g) b1 b2.
Proof. exact calls_close_crema. Qed.
Print Assumptions C102_crema_two_calls.
Example C102_crema_case :
  exists o', (0 < un_n g2)%nat /\ In (c_model k_crema) ["crema"; "crema-sparse"]%string /\ c_adjacency k_crema = AdjMatrix ones /\ hollow ones /\
  (forall i j, (i < j < un_n g2)%nat -> 0 <= ones i j) /\ u_solve_tool g2 k_crema (u_fresh false) = (o', None) /\
  (forall b, us_beta o' = Some b -> positive_rates (un_n g2) ones b) /\ positive_rates (un_n g2) ones two.
Proof. exact crema_near_case. Qed.
Theorem C102_crema_name_likelihood :
  forall g c o o' a,
  (0 < un_n g)%nat -> In (c_model c) ["crema"; "crema-sparse"]%string ->
  c_adjacency c = AdjName a -> In a ["cm"; "cm_exp"]%string -> u_solve_tool g c o = (o', None) ->
  (forall x b, us_x o' = Some x -> us_beta o' = Some b -> (forall i, (i < un_n g)%nat -> 0 <= x i) /\ positive_rates (un_n g) (p_ubcm x) b) ->
  exists x b err, us_x o' = Some x /\ us_beta o' = Some b /\ us_err o' = Some err /\
    forall z, positive_rates (un_n g) (p_ubcm x) z ->
      crema_loglik (un_n g) (p_ubcm x) (un_str g) z <= crema_loglik (un_n g) (p_ubcm x) (un_str g) b + err * one_norm (un_n g) b z.
Proof. exact call_near_crema_name. Qed.
Print Assumptions C102_crema_name_likelihood.
Example C102_crema_name_case :
  exists o', (0 < un_n g2)%nat /\ In (c_model k_crema_name) ["crema"; "crema-sparse"]%string /\ c_adjacency k_crema_name = AdjName "cm" /\ In "cm"%string ["cm"; "cm_exp"]%string /\
  u_solve_tool g2 k_crema_name (u_fresh false) = (o', None) /\
  (forall x b, us_x o' = Some x -> us_beta o' = Some b -> (forall i, (i < un_n g2)%nat -> 0 <= x i) /\ positive_rates (un_n g2) (p_ubcm x) b) /\
  (forall x, positive_rates (un_n g2) (p_ubcm x) two).
Proof. exact crema_name_near_case. Qed.
Theorem C102_crema_dir_likelihood :
  forall g c o o' a,
  (0 < dn_n g)%nat -> In (c_model c) ["crema"; "crema-sparse"]%string ->
  c_adjacency c = AdjMatrix a -> (forall i j, (i < dn_n g)%nat -> (j < dn_n g)%nat -> 0 <= a i j) -> d_solve_tool g c o = (o', None) ->
  (forall bo bi, ds_bo o' = Some bo -> ds_bi o' = Some bi -> positive_rates_dir (dn_n g) a bo bi) ->
  exists bo bi err, ds_bo o' = Some bo /\ ds_bi o' = Some bi /\ ds_err o' = Some err /\
    forall co ci, positive_rates_dir (dn_n g) a co ci ->
      crema_loglik_dir (dn_n g) a (dn_sout g) (dn_sin g) co ci <= crema_loglik_dir (dn_n g) a (dn_sout g) (dn_sin g) bo bi + err * (one_norm (dn_n g) bo co + one_norm (dn_n g) bi ci).
Proof. exact call_near_crema_dir. Qed.
Print Assumptions C102_crema_dir_likelihood.
Theorem C102_crema_dir_two_calls :
  forall g c1 c2 o1 o2 o1' o2' a,
  (0 < dn_n g)%nat -> In (c_model c1) ["crema"; "crema-sparse"]%string -> In (c_model c2) ["crema"; "crema-sparse"]%string ->
  c_adjacency c1 = AdjMatrix a -> c_adjacency c2 = AdjMatrix a ->
  d_solve_tool g c1 o1 = (o1', None) -> d_solve_tool g c2 o2 = (o2', None) ->
  (forall bo bi, ds_bo o1' = Some bo -> ds_bi o1' = Some bi -> positive_rates_dir (dn_n g) a bo bi) ->
  (forall bo bi, ds_bo o2' = Some bo -> ds_bi o2' = Some bi -> positive_rates_dir (dn_n g) a bo bi) ->
  exists bo1 bi1 e1 bo2 bi2 e2, ds_bo o1' = Some bo1 /\ ds_bi o1' = Some bi1 /\ ds_err o1' = Some e1 /\ ds_bo o2' = Some bo2 /\ ds_bi o2' = Some bi2 /\ ds_err o2' = Some e2 /\
    rates_apart_dir (dn_n g) a bo1 bi1 bo2 bi2 <= (e1 + e2) * (one_norm (dn_n g) bo1 bo2 + one_norm (dn_n g) bi1 bi2).
Proof. exact calls_close_crema_dir. Qed.
Print Assumptions C102_crema_dir_two_calls.
Example C102_crema_dir_case :
  exists o', (0 < dn_n d2)%nat /\ In (c_model k_dcrema) ["crema"; "crema-sparse"]%string /\ c_adjacency k_dcrema = AdjMatrix ones /\
  (forall i j, (i < dn_n d2)%nat -> (j < dn_n d2)%nat -> 0 <= ones i j) /\ d_solve_tool d2 k_dcrema (d_fresh false) = (o', None) /\
  (forall bo bi, ds_bo o' = Some bo -> ds_bi o' = Some bi -> positive_rates_dir (dn_n d2) ones bo bi) /\ positive_rates_dir (dn_n d2) ones two two.
Proof. exact dcrema_near_case. Qed.
