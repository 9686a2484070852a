(** Two networks with close degrees: what calls bound to reach their tolerance return. *)
From Coq Require Import Reals List Arith Bool ZArith String Lia Lra.
From Verif Require Import Base SpecGraph SpecDirected SpecEnsemble SpecNetwork SpecLife SpecLinsearch SpecDispatch SpecGuess SpecRun SpecSolve SpecTool SpecReach SpecReachTool SpecNear SpecData
  ModelNetwork ModelLife ModelDispatch ModelGuess ModelSolve ModelTool ModelObject SpecObject.
From Verif Require Import ProofsDataReach WitnessReachTool WitnessDataReach.
Import ListNotations.
Local Open Scope R_scope.

(** C107 *)
Theorem C107_cm_exp_every_network :
  forall (L : Type) e e' (g h : @ugraph L) nm nm' tol n a b ds ds' d,
  (0 < n)%nat -> INR n <= 10 ^ 22 -> u_dseq g = Some (row_degrees n a) -> u_dseq h = Some (row_degrees n b) ->
  symmetric n a -> (forall i, (i < n)%nat -> a i i = 0) -> symmetric n b -> (forall i, (i < n)%nat -> b i i = 0) ->
  within n (deg n (links a)) (deg n (links b)) d ->
  distinct (row_degrees n a) ds -> sound_numpy (List.length ds) e -> distinct (row_degrees n b) ds' -> sound_numpy (List.length ds') e' ->
  In nm binary_names -> In nm' binary_names -> 0 < tol ->
  eventually (fun M eps => forall t t', exp_call "cm_exp" nm e tol M eps t -> exp_call "cm_exp" nm' e' tol M eps t' -> exists o o' x x',
    returned (u_new_tool e g t) o /\ returned (u_new_tool e' h t') o' /\ us_x o = Some x /\ us_x o' = Some x' /\
    (forall i, (i < n)%nat -> 0 < x i /\ 0 < x' i) /\ 4 * apart_und n (p_ubcm x) (p_ubcm x') <= (2 * tol + d) * log_gap n x x').
Proof. exact data_reached. Qed.
Print Assumptions C107_cm_exp_every_network.
Example C107_cm_exp_every_network_case :
  exists ds ds' e e', (0 < 4)%nat /\ INR 4 <= 10 ^ 22 /\ symmetric 4 lone_path /\ (forall i, (i < 4)%nat -> lone_path i i = 0) /\
  symmetric 4 lone_triangle /\ (forall i, (i < 4)%nat -> lone_triangle i i = 0) /\ within 4 (deg 4 (links lone_path)) (deg 4 (links lone_triangle)) 1 /\
  distinct (row_degrees 4 lone_path) ds /\ sound_numpy (List.length ds) e /\ distinct (row_degrees 4 lone_triangle) ds' /\ sound_numpy (List.length ds') e' /\
  forall meth nm tol M eps, In meth descent_methods -> exists t t', exp_call "cm_exp" nm e tol M eps t /\ exp_call "cm_exp" nm e' tol M eps t' /\ t_method t = meth /\ t_method t' = meth.
Proof. exact two_lone_meet. Qed.
Theorem C107_dcm_exp_every_network :
  forall (L : Type) e e' (g h : @dgraph L) nm nm' tol n a b ds ds' d,
  (0 < n)%nat -> INR n <= 10 ^ 21 ->
  d_dseq_out g = Some (row_degrees n a) -> d_dseq_in g = Some (col_degrees n a) -> d_dseq_out h = Some (row_degrees n b) -> d_dseq_in h = Some (col_degrees n b) ->
  (forall i, (i < n)%nat -> a i i = 0) -> (forall i, (i < n)%nat -> b i i = 0) ->
  (forall i, (i < n)%nat -> 0 < deg n (links a) i /\ 0 < indeg n (links a) i) -> (forall i, (i < n)%nat -> 0 < deg n (links b) i /\ 0 < indeg n (links b) i) ->
  within n (deg n (links a)) (deg n (links b)) d -> within n (indeg n (links a)) (indeg n (links b)) d ->
  distinct (combine (row_degrees n a) (col_degrees n a)) ds -> sound_numpy (2 * List.length ds) e ->
  distinct (combine (row_degrees n b) (col_degrees n b)) ds' -> sound_numpy (2 * List.length ds') e' ->
  In nm binary_names -> In nm' binary_names -> 0 < tol ->
  eventually (fun M eps => forall t t', exp_call "dcm_exp" nm e tol M eps t -> exp_call "dcm_exp" nm' e' tol M eps t' -> exists o o' x y x' y',
    returned (d_new_tool e g t) o /\ returned (d_new_tool e' h t') o' /\ ds_x o = Some x /\ ds_y o = Some y /\ ds_x o' = Some x' /\ ds_y o' = Some y' /\
    (forall i, (i < n)%nat -> 0 < x i /\ 0 < y i /\ 0 < x' i /\ 0 < y' i) /\
    4 * apart_dir n (p_dbcm x y) (p_dbcm x' y') <= (2 * tol + d) * (log_gap n x x' + log_gap n y y')).
Proof. exact data_reached_dir. Qed.
Print Assumptions C107_dcm_exp_every_network.
Example C107_dcm_exp_every_network_case :
  exists ds ds' e e', (0 < 3)%nat /\ INR 3 <= 10 ^ 21 /\ (forall i, (i < 3)%nat -> cycle_net i i = 0) /\ (forall i, (i < 3)%nat -> all_net i i = 0) /\
  (forall i, (i < 3)%nat -> 0 < deg 3 (links cycle_net) i /\ 0 < indeg 3 (links cycle_net) i) /\ (forall i, (i < 3)%nat -> 0 < deg 3 (links all_net) i /\ 0 < indeg 3 (links all_net) i) /\
  within 3 (deg 3 (links cycle_net)) (deg 3 (links all_net)) 1 /\ within 3 (indeg 3 (links cycle_net)) (indeg 3 (links all_net)) 1 /\
  distinct (combine (row_degrees 3 cycle_net) (col_degrees 3 cycle_net)) ds /\ sound_numpy (2 * List.length ds) e /\
  distinct (combine (row_degrees 3 all_net) (col_degrees 3 all_net)) ds' /\ sound_numpy (2 * List.length ds') e' /\
  forall meth nm tol M eps, In meth descent_methods -> exists t t', exp_call "dcm_exp" nm e tol M eps t /\ exp_call "dcm_exp" nm e' tol M eps t' /\ t_method t = meth /\ t_method t' = meth.
Proof. exact two_cycles_meet. Qed.
