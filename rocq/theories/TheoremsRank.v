(** The order of the parameters against the order of the constraints.  Nothing else in this
    file; proofs are in ProofsRank, WitnessReachTool and WitnessRank. *)
From Coq Require Import Reals List Arith Bool ZArith String Lia Lra.
From Verif Require Import Base SpecGraph SpecDirected SpecEnsemble SpecNetwork SpecLife SpecLinsearch SpecSolver SpecDispatch SpecGuess SpecRun SpecSolve SpecTool SpecReach SpecReachTool SpecRank
  ModelCM ModelDCM ModelNetwork ModelLife ModelSolver ModelDispatch ModelGuess ModelRun ModelSolve ModelTool ModelObject SpecObject.
From Verif Require Import ProofsSolve ProofsSolveU ProofsSolveD ProofsReachTool ProofsReachObject ProofsPipeline ProofsRank WitnessSolve WitnessObject WitnessReachTool WitnessTool WitnessRank.
Import ListNotations.
Local Open Scope string_scope.
Local Open Scope R_scope.

(** C105 *)
Theorem C105_cm :
  forall g c o o',
  (0 < un_n g)%nat -> us_beta o = None -> In (c_model c) ["cm"; "cm_exp"]%string -> u_solve_tool g c o = (o', None) ->
  exists x err, us_x o' = Some x /\ us_err o' = Some err /\ (c_model c = "cm_exp"%string -> forall i, 0 < x i) /\
    (forall i j, (i < un_n g)%nat -> (j < un_n g)%nat -> at_list (un_dseq g) i = at_list (un_dseq g) j -> x i = x j) /\
    (none_negative (un_n g) x ->
       (forall i j, (i < un_n g)%nat -> (j < un_n g)%nat -> at_list (un_dseq g) i + 2 * err < at_list (un_dseq g) j ->
          x i < x j /\ forall l, 0 < x l -> p_ubcm x i l < p_ubcm x j l) /\
       (err < / 2 -> same_ranking (un_n g) (at_list (un_dseq g)) x)).
Proof. exact u_rank. Qed.
Print Assumptions C105_cm.
Example C105_cm_case :
  exists g c o' err, (0 < un_n g)%nat /\ us_beta (u_fresh false) = None /\ c_model c = "cm_exp"%string /\
  u_solve_tool g c (u_fresh false) = (o', None) /\ us_err o' = Some err /\ err < / 2 /\ exists i j, (i < un_n g)%nat /\ (j < un_n g)%nat /\ at_list (un_dseq g) i + 2 * err < at_list (un_dseq g) j.
Proof. exact rank_cm_case. Qed.
Theorem C105_cm_regular :
  forall g c o o' d,
  (2 <= un_n g)%nat -> us_beta o = None -> In (c_model c) ["cm"; "cm_exp"]%string -> u_solve_tool g c o = (o', None) ->
  (forall i, (i < un_n g)%nat -> at_list (un_dseq g) i = d) ->
  exists x err p, us_x o' = Some x /\ us_err o' = Some err /\ (forall i j, (i < un_n g)%nat -> (j < un_n g)%nat -> p_ubcm x i j = p) /\
    Rabs (p - d / (INR (un_n g) - 1)) <= err / (INR (un_n g) - 1).
Proof. exact u_regular. Qed.
Print Assumptions C105_cm_regular.
Example C105_cm_regular_case :
  exists o', (2 <= un_n g2)%nat /\ us_beta (u_fresh false) = None /\ In (c_model k_cm) ["cm"; "cm_exp"]%string /\ u_solve_tool g2 k_cm (u_fresh false) = (o', None) /\
  forall i, (i < un_n g2)%nat -> at_list (un_dseq g2) i = 1.
Proof. exact regular_cm_case. Qed.
Theorem C105_cm_exp_every_network :
  forall (L : Type) e (g : @ugraph L) nm tol n a ds,
  (0 < n)%nat -> INR n <= 10 ^ 22 -> u_dseq g = Some (row_degrees n a) ->
  symmetric n a -> (forall i, (i < n)%nat -> a i i = 0) -> distinct (row_degrees n a) ds -> sound_numpy (List.length ds) e -> In nm binary_names -> 0 < tol < / 2 ->
  eventually (fun M eps => forall t, exp_call "cm_exp" nm e tol M eps t -> exists o' x,
    returned (u_new_tool e g t) o' /\ us_x o' = Some x /\ same_ranking n (deg n (links a)) x).
Proof. exact ranked_cm. Qed.
Print Assumptions C105_cm_exp_every_network.
Example C105_cm_exp_every_network_case :
  exists ds e, (0 < 4)%nat /\ INR 4 <= 10 ^ 22 /\ nonneg_matrix 4 lone_path /\ symmetric 4 lone_path /\ (forall i, (i < 4)%nat -> lone_path i i = 0) /\
  distinct (row_degrees 4 lone_path) ds /\ sound_numpy (List.length ds) e /\
  forall meth nm tol M eps, In meth descent_methods -> exists t, exp_call "cm_exp" nm e tol M eps t /\ t_method t = meth.
Proof. exact lone_meets. Qed.
Theorem C105_dcm :
  forall g c o o',
  (0 < dn_n g)%nat -> d_paired g -> ds_bo o = None -> In (c_model c) ["dcm"; "dcm_exp"]%string -> d_solve_tool g c o = (o', None) ->
  exists x y err, ds_x o' = Some x /\ ds_y o' = Some y /\ ds_err o' = Some err /\ (c_model c = "dcm_exp"%string -> none_negative (dn_n g) x /\ none_negative (dn_n g) y) /\
    (forall i j, (i < dn_n g)%nat -> (j < dn_n g)%nat -> at_list (dn_out g) i = at_list (dn_out g) j -> at_list (dn_in g) i = at_list (dn_in g) j -> x i = x j /\ y i = y j) /\
    (none_negative (dn_n g) x -> none_negative (dn_n g) y -> forall i j, (i < dn_n g)%nat -> (j < dn_n g)%nat ->
       (at_list (dn_out g) i + 1 + 2 * err <= at_list (dn_out g) j -> x i < x j /\ forall l, 0 < y l -> p_dbcm x y i l < p_dbcm x y j l) /\
       (at_list (dn_in g) i + 1 + 2 * err <= at_list (dn_in g) j -> y i < y j /\ forall l, 0 < x l -> p_dbcm x y l i < p_dbcm x y l j)).
Proof. exact d_rank. Qed.
Print Assumptions C105_dcm.
Example C105_dcm_case :
  exists g c o' err, (0 < dn_n g)%nat /\ d_paired g /\ ds_bo (d_fresh false) = None /\ c_model c = "dcm_exp"%string /\
  d_solve_tool g c (d_fresh false) = (o', None) /\ ds_err o' = Some err /\ exists i j, (i < dn_n g)%nat /\ (j < dn_n g)%nat /\
  at_list (dn_out g) i + 1 + 2 * err <= at_list (dn_out g) j /\ at_list (dn_in g) i + 1 + 2 * err <= at_list (dn_in g) j.
Proof. exact rank_dcm_case. Qed.
Theorem C105_dcm_regular :
  forall g c o o' d,
  (2 <= dn_n g)%nat -> d_paired g -> ds_bo o = None -> In (c_model c) ["dcm"; "dcm_exp"]%string -> d_solve_tool g c o = (o', None) ->
  (forall i, (i < dn_n g)%nat -> at_list (dn_out g) i = d /\ at_list (dn_in g) i = d) ->
  exists x y err p, ds_x o' = Some x /\ ds_y o' = Some y /\ ds_err o' = Some err /\ (forall i j, (i < dn_n g)%nat -> (j < dn_n g)%nat -> p_dbcm x y i j = p) /\
    Rabs (p - d / (INR (dn_n g) - 1)) <= err / (INR (dn_n g) - 1).
Proof. exact d_regular. Qed.
Print Assumptions C105_dcm_regular.
Example C105_dcm_regular_case :
  exists o', (2 <= dn_n d2)%nat /\ d_paired d2 /\ ds_bo (d_fresh false) = None /\ In (c_model k_dcm) ["dcm"; "dcm_exp"]%string /\ d_solve_tool d2 k_dcm (d_fresh false) = (o', None) /\
  forall i, (i < dn_n d2)%nat -> at_list (dn_out d2) i = 1 /\ at_list (dn_in d2) i = 1.
Proof. exact regular_dcm_case. Qed.
Theorem C105_crema :
  forall g c o o' a,
  (0 < un_n g)%nat -> In (c_model c) ["crema"; "crema-sparse"]%string -> c_adjacency c = AdjMatrix a -> hollow a ->
  (forall u w, a u w = a w u) -> (forall u w, (u < un_n g)%nat -> (w < un_n g)%nat -> 0 <= a u w) ->
  u_solve_tool g c o = (o', None) -> (forall b, us_beta o' = Some b -> positive_rates (un_n g) a b) ->
  exists b err, us_beta o' = Some b /\ us_err o' = Some err /\
    forall i j, (i < un_n g)%nat -> (j < un_n g)%nat -> same_links (un_n g) a i j -> un_str g i + 2 * err < un_str g j -> b j < b i.
Proof. exact u_rank_crema. Qed.
Print Assumptions C105_crema.
Example C105_crema_case :
  exists o' err, (0 < un_n path_net)%nat /\ In (c_model k_path) ["crema"; "crema-sparse"]%string /\ c_adjacency k_path = AdjMatrix path_adj /\ hollow path_adj /\
  (forall u w, path_adj u w = path_adj w u) /\ (forall u w, (u < un_n path_net)%nat -> (w < un_n path_net)%nat -> 0 <= path_adj u w) /\
  u_solve_tool path_net k_path (u_fresh false) = (o', None) /\ (forall b, us_beta o' = Some b -> positive_rates (un_n path_net) path_adj b) /\ us_err o' = Some err /\
  same_links (un_n path_net) path_adj 0 2 /\ un_str path_net 0 + 2 * err < un_str path_net 2.
Proof. exact rank_crema_case. Qed.
