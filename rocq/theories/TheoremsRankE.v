(** Enhanced models: what the order of the constraints says about the parameters. *)
From Coq Require Import Reals List Arith Bool String Lia Lra.
From Verif Require Import Base SpecGraph SpecWeighted SpecSolve SpecNear SpecRank SpecDispatch ModelDispatch ModelSolve ProofsRankE WitnessSolve WitnessRankE.
Import ListNotations.
Local Open Scope R_scope.

(** C105 *)
Theorem C105_ecm :
  forall g c o o',
  (0 < un_n g)%nat -> In (c_model c) ["ecm"; "ecm_exp"]%string -> u_solve_tool g c o = (o', None) ->
  exists x y err, us_x o' = Some x /\ us_y o' = Some y /\ us_err o' = Some err /\ (c_model c = "ecm_exp"%string -> none_negative (un_n g) x /\ none_negative (un_n g) y) /\
    (none_negative (un_n g) x -> none_negative (un_n g) y -> tame (un_n g) y y -> forall i j, (i < un_n g)%nat -> (j < un_n g)%nat ->
       (at_list (un_dseq g) i + 2 * err < at_list (un_dseq g) j \/ un_str g i + 2 * err < un_str g j) -> x i < x j \/ y i < y j).
Proof. exact u_rank_ecm. Qed.
Print Assumptions C105_ecm.
Example C105_ecm_case :
  exists o' x y err, (0 < un_n wpath)%nat /\ In (c_model k_wpath) ["ecm"; "ecm_exp"]%string /\ u_solve_tool wpath k_wpath (u_fresh false) = (o', None) /\
  us_x o' = Some x /\ us_y o' = Some y /\ us_err o' = Some err /\ none_negative (un_n wpath) x /\ none_negative (un_n wpath) y /\ tame (un_n wpath) y y /\
  at_list (un_dseq wpath) 0 + 2 * err < at_list (un_dseq wpath) 1 /\ un_str wpath 0 + 2 * err < un_str wpath 1.
Proof. exact rank_ecm_case. Qed.
Theorem C105_decm :
  forall g c o o',
  (0 < dn_n g)%nat -> In (c_model c) ["decm"; "decm_exp"]%string -> d_solve_tool g c o = (o', None) ->
  (forall x y bo bi, ds_x o' = Some x -> ds_y o' = Some y -> ds_bo o' = Some bo -> ds_bi o' = Some bi -> decm_dom (dn_n g) (join4 (dn_n g) x y bo bi)) ->
  exists x y bo bi err, ds_x o' = Some x /\ ds_y o' = Some y /\ ds_bo o' = Some bo /\ ds_bi o' = Some bi /\ ds_err o' = Some err /\
    forall i j, (i < dn_n g)%nat -> (j < dn_n g)%nat ->
      (at_list (dn_out g) i + 1 + 2 * err < at_list (dn_out g) j -> x i < x j \/ bo i < bo j) /\
      (at_list (dn_in g) i + 1 + 2 * err < at_list (dn_in g) j -> y i < y j \/ bi i < bi j).
Proof. exact d_rank_decm. Qed.
Print Assumptions C105_decm.
Example C105_decm_case :
  exists o' err, (0 < dn_n wstar)%nat /\ In (c_model k_wstar) ["decm"; "decm_exp"]%string /\ d_solve_tool wstar k_wstar (d_fresh false) = (o', None) /\
  (forall x y bo bi, ds_x o' = Some x -> ds_y o' = Some y -> ds_bo o' = Some bo -> ds_bi o' = Some bi -> decm_dom (dn_n wstar) (join4 (dn_n wstar) x y bo bi)) /\
  ds_err o' = Some err /\ at_list (dn_out wstar) 1 + 1 + 2 * err < at_list (dn_out wstar) 0 /\ at_list (dn_in wstar) 1 + 1 + 2 * err < at_list (dn_in wstar) 0.
Proof. exact rank_decm_case. Qed.
