(** What the errors reported by two calls of a weighted model say about the two results, and
    what the error of directed CReMa on a named model says about its likelihood. *)
From Coq Require Import Reals List Arith Lia Lra String.
From Verif Require Import Base SpecGraph SpecCReMa SpecWeighted SpecEnsemble SpecSolve SpecNear SpecDispatch ModelDispatch ModelSolve ProofsSolveU ProofsSolveD ProofsNearE ProofsNearN WitnessSolve WitnessNear WitnessNearE WitnessNearN.
Import ListNotations.
Local Open Scope R_scope.

(** C102 *)
Theorem C102_ecm_two_calls :
  forall g c1 c2 o1 o2 o1' o2',
  (0 < un_n g)%nat -> In (c_model c1) ["ecm"; "ecm_exp"]%string -> In (c_model c2) ["ecm"; "ecm_exp"]%string ->
  u_solve_tool g c1 o1 = (o1', None) -> u_solve_tool g c2 o2 = (o2', None) ->
  exists x1 y1 e1 x2 y2 e2, us_x o1' = Some x1 /\ us_y o1' = Some y1 /\ us_err o1' = Some e1 /\ us_x o2' = Some x2 /\ us_y o2' = Some y2 /\ us_err o2' = Some e2 /\
    (comparable (un_n g) x1 x2 -> comparable (un_n g) x2 x1 -> comparable (un_n g) y1 y2 -> comparable (un_n g) y2 y1 -> tame (un_n g) y1 y1 -> tame (un_n g) y2 y2 ->
     4 * apart_und (un_n g) (fun i j => link_mean (x1 i * x1 j) (y1 i * y1 j)) (fun i j => link_mean (x2 i * x2 j) (y2 i * y2 j)) <=
     (e1 + e2) * (log_gap (un_n g) x1 x2 + log_gap (un_n g) y1 y2)).
Proof. exact calls_close_ecm. Qed.
Print Assumptions C102_ecm_two_calls.
Example C102_ecm_two_case :
  exists o1 o2 x1 y1 x2 y2, (0 < un_n g2)%nat /\ In (c_model k_ecm) ["ecm"; "ecm_exp"]%string /\ In (c_model k_ecm_third) ["ecm"; "ecm_exp"]%string /\
  u_solve_tool g2 k_ecm (u_fresh false) = (o1, None) /\ u_solve_tool g2 k_ecm_third (u_fresh false) = (o2, None) /\
  us_x o1 = Some x1 /\ us_y o1 = Some y1 /\ us_x o2 = Some x2 /\ us_y o2 = Some y2 /\
  comparable (un_n g2) x1 x2 /\ comparable (un_n g2) x2 x1 /\ comparable (un_n g2) y1 y2 /\ comparable (un_n g2) y2 y1 /\ tame (un_n g2) y1 y1 /\ tame (un_n g2) y2 y2 /\
  forall i, x1 i <> x2 i.
Proof. exact ecm_two_case. Qed.
Theorem C102_decm_two_calls :
  forall g c1 c2 o1 o2 o1' o2',
  (0 < dn_n g)%nat -> In (c_model c1) ["decm"; "decm_exp"]%string -> In (c_model c2) ["decm"; "decm_exp"]%string ->
  d_solve_tool g c1 o1 = (o1', None) -> d_solve_tool g c2 o2 = (o2', None) ->
  (forall x y bo bi, ds_x o1' = Some x -> ds_y o1' = Some y -> ds_bo o1' = Some bo -> ds_bi o1' = Some bi -> decm_dom (dn_n g) (join4 (dn_n g) x y bo bi)) ->
  (forall x y bo bi, ds_x o2' = Some x -> ds_y o2' = Some y -> ds_bo o2' = Some bo -> ds_bi o2' = Some bi -> decm_dom (dn_n g) (join4 (dn_n g) x y bo bi)) ->
  exists x y bo bi e z v co ci f, ds_x o1' = Some x /\ ds_y o1' = Some y /\ ds_bo o1' = Some bo /\ ds_bi o1' = Some bi /\ ds_err o1' = Some e /\
    ds_x o2' = Some z /\ ds_y o2' = Some v /\ ds_bo o2' = Some co /\ ds_bi o2' = Some ci /\ ds_err o2' = Some f /\
    (comparable (dn_n g) x z -> comparable (dn_n g) z x -> comparable (dn_n g) y v -> comparable (dn_n g) v y ->
     comparable (dn_n g) bo co -> comparable (dn_n g) co bo -> comparable (dn_n g) bi ci -> comparable (dn_n g) ci bi ->
     4 * apart_dir (dn_n g) (fun i j => link_mean (x i * y j) (bo i * bi j)) (fun i j => link_mean (z i * v j) (co i * ci j)) <=
     (e + f) * (log_gap (dn_n g) x z + log_gap (dn_n g) y v + (log_gap (dn_n g) bo co + log_gap (dn_n g) bi ci))).
Proof. exact calls_close_decm. Qed.
Print Assumptions C102_decm_two_calls.
Example C102_decm_two_case :
  exists o1 o2 x y bo bi z v co ci, (0 < dn_n d2)%nat /\ In (c_model k_decm) ["decm"; "decm_exp"]%string /\ In (c_model k_decm_third) ["decm"; "decm_exp"]%string /\
  d_solve_tool d2 k_decm (d_fresh false) = (o1, None) /\ d_solve_tool d2 k_decm_third (d_fresh false) = (o2, None) /\
  ds_x o1 = Some x /\ ds_y o1 = Some y /\ ds_bo o1 = Some bo /\ ds_bi o1 = Some bi /\ ds_x o2 = Some z /\ ds_y o2 = Some v /\ ds_bo o2 = Some co /\ ds_bi o2 = Some ci /\
  decm_dom (dn_n d2) (join4 (dn_n d2) x y bo bi) /\ decm_dom (dn_n d2) (join4 (dn_n d2) z v co ci) /\
  (comparable (dn_n d2) x z /\ comparable (dn_n d2) z x) /\ (comparable (dn_n d2) y v /\ comparable (dn_n d2) v y) /\
  (comparable (dn_n d2) bo co /\ comparable (dn_n d2) co bo) /\ (comparable (dn_n d2) bi ci /\ comparable (dn_n d2) ci bi) /\ forall i, x i <> z i.
Proof. exact decm_two_case. Qed.
Theorem C102_crema_dir_name_likelihood :
  forall g c o o' a,
  (0 < dn_n g)%nat -> d_paired g -> In (c_model c) ["crema"; "crema-sparse"]%string ->
  c_adjacency c = AdjName a -> In a ["dcm"; "dcm_exp"]%string -> d_solve_tool g c o = (o', None) ->
  (forall x y bo bi, ds_x o' = Some x -> ds_y o' = Some y -> ds_bo o' = Some bo -> ds_bi o' = Some bi ->
     supported (dn_n g) (at_list (dn_out g)) x /\ supported (dn_n g) (at_list (dn_in g)) y /\ positive_rates_dir (dn_n g) (dcm_prob x y) bo bi) ->
  exists x y bo bi err, ds_x o' = Some x /\ ds_y o' = Some y /\ ds_bo o' = Some bo /\ ds_bi o' = Some bi /\ ds_err o' = Some err /\
    forall co ci, positive_rates_dir (dn_n g) (dcm_prob x y) co ci ->
      crema_loglik_dir (dn_n g) (dcm_prob x y) (dn_sout g) (dn_sin g) co ci <=
      crema_loglik_dir (dn_n g) (dcm_prob x y) (dn_sout g) (dn_sin g) bo bi + err * (one_norm (dn_n g) bo co + one_norm (dn_n g) bi ci).
Proof. exact call_near_crema_dir_name. Qed.
Print Assumptions C102_crema_dir_name_likelihood.
Example C102_crema_dir_name_case :
  exists o', (0 < dn_n d2)%nat /\ d_paired d2 /\ In (c_model k_dcrema_name) ["crema"; "crema-sparse"]%string /\ c_adjacency k_dcrema_name = AdjName "dcm" /\
  In "dcm"%string ["dcm"; "dcm_exp"]%string /\ d_solve_tool d2 k_dcrema_name (d_fresh false) = (o', None) /\
  (forall x y bo bi, ds_x o' = Some x -> ds_y o' = Some y -> ds_bo o' = Some bo -> ds_bi o' = Some bi ->
     supported (dn_n d2) (at_list (dn_out d2)) x /\ supported (dn_n d2) (at_list (dn_in d2)) y /\ positive_rates_dir (dn_n d2) (dcm_prob x y) bo bi) /\
  (forall x y, positive_rates_dir (dn_n d2) (dcm_prob x y) two two).
Proof. exact dcrema_name_near_case. Qed.
