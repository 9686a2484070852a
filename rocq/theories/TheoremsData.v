(** What the difference of the constraints of two networks says about the difference of the
    results. *)
From Coq Require Import Reals List Arith Lia Lra String.
From Verif Require Import Base SpecGraph SpecWeighted SpecEnsemble SpecSolve SpecNear SpecData SpecDispatch ModelDispatch ModelSolve ProofsSolveU ProofsSolveD ProofsData WitnessSolve WitnessNear WitnessData.
Import ListNotations.
Local Open Scope R_scope.

(** C107 *)
Theorem C107_cm :
  forall g h c1 c2 o1 o2 o1' o2' d,
  (0 < un_n g)%nat -> un_n h = un_n g -> within (un_n g) (at_list (un_dseq g)) (at_list (un_dseq h)) d ->
  us_beta o1 = None -> us_beta o2 = None -> In (c_model c1) ["cm"; "cm_exp"]%string -> In (c_model c2) ["cm"; "cm_exp"]%string ->
  u_solve_tool g c1 o1 = (o1', None) -> u_solve_tool h c2 o2 = (o2', None) ->
  exists x1 e1 x2 e2, us_x o1' = Some x1 /\ us_err o1' = Some e1 /\ us_x o2' = Some x2 /\ us_err o2' = Some e2 /\
    (comparable (un_n g) x1 x2 -> comparable (un_n g) x2 x1 -> 4 * apart_und (un_n g) (p_ubcm x1) (p_ubcm x2) <= (e1 + e2 + d) * log_gap (un_n g) x1 x2).
Proof. exact data_cm. Qed.
Print Assumptions C107_cm.
Theorem C107_ecm :
  forall g h c1 c2 o1 o2 o1' o2' d,
  (0 < un_n g)%nat -> un_n h = un_n g -> within (un_n g) (at_list (un_dseq g)) (at_list (un_dseq h)) d -> within (un_n g) (un_str g) (un_str h) d ->
  In (c_model c1) ["ecm"; "ecm_exp"]%string -> In (c_model c2) ["ecm"; "ecm_exp"]%string ->
  u_solve_tool g c1 o1 = (o1', None) -> u_solve_tool h c2 o2 = (o2', None) ->
  exists x1 y1 e1 x2 y2 e2, us_x o1' = Some x1 /\ us_y o1' = Some y1 /\ us_err o1' = Some e1 /\ us_x o2' = Some x2 /\ us_y o2' = Some y2 /\ us_err o2' = Some e2 /\
    (comparable (un_n g) x1 x2 -> comparable (un_n g) x2 x1 -> comparable (un_n g) y1 y2 -> comparable (un_n g) y2 y1 -> tame (un_n g) y1 y1 -> tame (un_n g) y2 y2 ->
     4 * apart_und (un_n g) (fun i j => link_mean (x1 i * x1 j) (y1 i * y1 j)) (fun i j => link_mean (x2 i * x2 j) (y2 i * y2 j)) <=
     (e1 + e2 + d) * (log_gap (un_n g) x1 x2 + log_gap (un_n g) y1 y2)).
Proof. exact data_ecm. Qed.
Print Assumptions C107_ecm.
Theorem C107_crema :
  forall g h c1 c2 o1 o2 o1' o2' a d,
  (0 < un_n g)%nat -> un_n h = un_n g -> within (un_n g) (un_str g) (un_str h) d ->
  In (c_model c1) ["crema"; "crema-sparse"]%string -> In (c_model c2) ["crema"; "crema-sparse"]%string ->
  c_adjacency c1 = AdjMatrix a -> c_adjacency c2 = AdjMatrix a -> hollow a ->
  u_solve_tool g c1 o1 = (o1', None) -> u_solve_tool h c2 o2 = (o2', None) ->
  (forall b, us_beta o1' = Some b -> positive_rates (un_n g) a b) -> (forall b, us_beta o2' = Some b -> positive_rates (un_n g) a b) ->
  exists b1 e1 b2 e2, us_beta o1' = Some b1 /\ us_err o1' = Some e1 /\ us_beta o2' = Some b2 /\ us_err o2' = Some e2 /\
    rates_apart (un_n g) a b1 b2 <= (e1 + e2 + d) * one_norm (un_n g) b1 b2.
Proof. exact data_crema. Qed.
Print Assumptions C107_crema.
Example C107_undirected_case :
  (0 < un_n path3)%nat /\ un_n tri3 = un_n path3 /\ within (un_n path3) (at_list (un_dseq path3)) (at_list (un_dseq tri3)) 1 /\ within (un_n path3) (un_str path3) (un_str tri3) 1 /\
  (exists o1 o2 x1 x2, u_solve_tool path3 (k_of "cm" half) (u_fresh false) = (o1, None) /\ u_solve_tool tri3 (k_of "cm" third) (u_fresh false) = (o2, None) /\
    us_x o1 = Some x1 /\ us_x o2 = Some x2 /\ comparable (un_n path3) x1 x2 /\ comparable (un_n path3) x2 x1) /\
  (exists o1 o2 x1 y1 x2 y2, u_solve_tool path3 (k_of "ecm" half) (u_fresh false) = (o1, None) /\ u_solve_tool tri3 (k_of "ecm" third) (u_fresh false) = (o2, None) /\
    us_x o1 = Some x1 /\ us_y o1 = Some y1 /\ us_x o2 = Some x2 /\ us_y o2 = Some y2 /\
    (comparable (un_n path3) x1 x2 /\ comparable (un_n path3) x2 x1) /\ (comparable (un_n path3) y1 y2 /\ comparable (un_n path3) y2 y1) /\ tame (un_n path3) y1 y1 /\ tame (un_n path3) y2 y2) /\
  (exists o1 o2, hollow ones /\ u_solve_tool path3 (k_rates "newton" half) (u_fresh false) = (o1, None) /\ u_solve_tool tri3 (k_rates "newton" third) (u_fresh false) = (o2, None) /\
    (forall b, us_beta o1 = Some b -> positive_rates (un_n path3) ones b) /\ (forall b, us_beta o2 = Some b -> positive_rates (un_n path3) ones b)).
Proof. exact data_und_case. Qed.
Theorem C107_dcm :
  forall g h c1 c2 o1 o2 o1' o2' d,
  (0 < dn_n g)%nat -> dn_n h = dn_n g -> d_paired g -> d_paired h ->
  within (dn_n g) (at_list (dn_out g)) (at_list (dn_out h)) d -> within (dn_n g) (at_list (dn_in g)) (at_list (dn_in h)) d -> ds_bo o1 = None -> ds_bo o2 = None ->
  In (c_model c1) ["dcm"; "dcm_exp"]%string -> In (c_model c2) ["dcm"; "dcm_exp"]%string ->
  d_solve_tool g c1 o1 = (o1', None) -> d_solve_tool h c2 o2 = (o2', None) ->
  exists x1 y1 e1 x2 y2 e2, ds_x o1' = Some x1 /\ ds_y o1' = Some y1 /\ ds_err o1' = Some e1 /\ ds_x o2' = Some x2 /\ ds_y o2' = Some y2 /\ ds_err o2' = Some e2 /\
    (comparable (dn_n g) x1 x2 -> comparable (dn_n g) x2 x1 -> comparable (dn_n g) y1 y2 -> comparable (dn_n g) y2 y1 ->
     4 * apart_dir (dn_n g) (p_dbcm x1 y1) (p_dbcm x2 y2) <= (e1 + e2 + d) * (log_gap (dn_n g) x1 x2 + log_gap (dn_n g) y1 y2)).
Proof. exact data_dcm. Qed.
Print Assumptions C107_dcm.
Theorem C107_decm :
  forall g h c1 c2 o1 o2 o1' o2' d,
  (0 < dn_n g)%nat -> dn_n h = dn_n g ->
  within (dn_n g) (at_list (dn_out g)) (at_list (dn_out h)) d -> within (dn_n g) (at_list (dn_in g)) (at_list (dn_in h)) d -> within (dn_n g) (dn_sout g) (dn_sout h) d -> within (dn_n g) (dn_sin g) (dn_sin h) d ->
  In (c_model c1) ["decm"; "decm_exp"]%string -> In (c_model c2) ["decm"; "decm_exp"]%string ->
  d_solve_tool g c1 o1 = (o1', None) -> d_solve_tool h c2 o2 = (o2', None) ->
  (forall x y bo bi, ds_x o1' = Some x -> ds_y o1' = Some y -> ds_bo o1' = Some bo -> ds_bi o1' = Some bi -> decm_dom (dn_n g) (join4 (dn_n g) x y bo bi)) ->
  (forall x y bo bi, ds_x o2' = Some x -> ds_y o2' = Some y -> ds_bo o2' = Some bo -> ds_bi o2' = Some bi -> decm_dom (dn_n g) (join4 (dn_n g) x y bo bi)) ->
  exists x y bo bi e z v co ci f, ds_x o1' = Some x /\ ds_y o1' = Some y /\ ds_bo o1' = Some bo /\ ds_bi o1' = Some bi /\ ds_err o1' = Some e /\
    ds_x o2' = Some z /\ ds_y o2' = Some v /\ ds_bo o2' = Some co /\ ds_bi o2' = Some ci /\ ds_err o2' = Some f /\
    (comparable (dn_n g) x z -> comparable (dn_n g) z x -> comparable (dn_n g) y v -> comparable (dn_n g) v y ->
     comparable (dn_n g) bo co -> comparable (dn_n g) co bo -> comparable (dn_n g) bi ci -> comparable (dn_n g) ci bi ->
     4 * apart_dir (dn_n g) (fun i j => link_mean (x i * y j) (bo i * bi j)) (fun i j => link_mean (z i * v j) (co i * ci j)) <=
     (e + f + d) * (log_gap (dn_n g) x z + log_gap (dn_n g) y v + (log_gap (dn_n g) bo co + log_gap (dn_n g) bi ci))).
Proof. exact data_decm. Qed.
Print Assumptions C107_decm.
Theorem C107_crema_dir :
  forall g h c1 c2 o1 o2 o1' o2' a d,
  (0 < dn_n g)%nat -> dn_n h = dn_n g -> within (dn_n g) (dn_sout g) (dn_sout h) d -> within (dn_n g) (dn_sin g) (dn_sin h) d ->
  In (c_model c1) ["crema"; "crema-sparse"]%string -> In (c_model c2) ["crema"; "crema-sparse"]%string ->
  c_adjacency c1 = AdjMatrix a -> c_adjacency c2 = AdjMatrix a ->
  d_solve_tool g c1 o1 = (o1', None) -> d_solve_tool h c2 o2 = (o2', None) ->
  (forall bo bi, ds_bo o1' = Some bo -> ds_bi o1' = Some bi -> positive_rates_dir (dn_n g) a bo bi) ->
  (forall bo bi, ds_bo o2' = Some bo -> ds_bi o2' = Some bi -> positive_rates_dir (dn_n g) a bo bi) ->
  exists bo1 bi1 e1 bo2 bi2 e2, ds_bo o1' = Some bo1 /\ ds_bi o1' = Some bi1 /\ ds_err o1' = Some e1 /\ ds_bo o2' = Some bo2 /\ ds_bi o2' = Some bi2 /\ ds_err o2' = Some e2 /\
    rates_apart_dir (dn_n g) a bo1 bi1 bo2 bi2 <= (e1 + e2 + d) * (one_norm (dn_n g) bo1 bo2 + one_norm (dn_n g) bi1 bi2).
Proof. exact data_crema_dir. Qed.
Print Assumptions C107_crema_dir.
Example C107_directed_case :
  (0 < dn_n dpath3)%nat /\ dn_n dtri3 = dn_n dpath3 /\ d_paired dpath3 /\ d_paired dtri3 /\
  within (dn_n dpath3) (at_list (dn_out dpath3)) (at_list (dn_out dtri3)) 1 /\ within (dn_n dpath3) (at_list (dn_in dpath3)) (at_list (dn_in dtri3)) 1 /\
  within (dn_n dpath3) (dn_sout dpath3) (dn_sout dtri3) 1 /\ within (dn_n dpath3) (dn_sin dpath3) (dn_sin dtri3) 1 /\
  (exists o1 o2 x1 y1 x2 y2, d_solve_tool dpath3 (k_of "dcm" half) (d_fresh false) = (o1, None) /\ d_solve_tool dtri3 (k_of "dcm" third) (d_fresh false) = (o2, None) /\
    ds_x o1 = Some x1 /\ ds_y o1 = Some y1 /\ ds_x o2 = Some x2 /\ ds_y o2 = Some y2 /\
    (comparable (dn_n dpath3) x1 x2 /\ comparable (dn_n dpath3) x2 x1) /\ (comparable (dn_n dpath3) y1 y2 /\ comparable (dn_n dpath3) y2 y1)) /\
  (exists o1 o2 x y bo bi z v co ci, d_solve_tool dpath3 (k_of "decm" half) (d_fresh false) = (o1, None) /\ d_solve_tool dtri3 (k_of "decm" third) (d_fresh false) = (o2, None) /\
    ds_x o1 = Some x /\ ds_y o1 = Some y /\ ds_bo o1 = Some bo /\ ds_bi o1 = Some bi /\ ds_x o2 = Some z /\ ds_y o2 = Some v /\ ds_bo o2 = Some co /\ ds_bi o2 = Some ci /\
    decm_dom (dn_n dpath3) (join4 (dn_n dpath3) x y bo bi) /\ decm_dom (dn_n dpath3) (join4 (dn_n dpath3) z v co ci) /\
    (comparable (dn_n dpath3) x z /\ comparable (dn_n dpath3) z x) /\ (comparable (dn_n dpath3) y v /\ comparable (dn_n dpath3) v y) /\
    (comparable (dn_n dpath3) bo co /\ comparable (dn_n dpath3) co bo) /\ (comparable (dn_n dpath3) bi ci /\ comparable (dn_n dpath3) ci bi)) /\
  (exists o1 o2, d_solve_tool dpath3 (k_rates "quasinewton" half) (d_fresh false) = (o1, None) /\ d_solve_tool dtri3 (k_rates "quasinewton" third) (d_fresh false) = (o2, None) /\
    (forall bo bi, ds_bo o1 = Some bo -> ds_bi o1 = Some bi -> positive_rates_dir (dn_n dpath3) ones bo bi) /\
    (forall bo bi, ds_bo o2 = Some bo -> ds_bi o2 = Some bi -> positive_rates_dir (dn_n dpath3) ones bo bi)).
Proof. exact data_dir_case. Qed.
