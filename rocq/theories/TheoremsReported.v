(** What solve_tool reports and what ensemble_sampler draws from.  Nothing else in this file;
    proofs are in ProofsReported, ProofsReportedD, ProofsMeans and WitnessReported. *)
From Coq Require Import Reals List Arith Bool ZArith Permutation Lia Lra String.
From Coquelicot Require Import Coquelicot.
From Verif Require Import Base SpecDeriv SpecGraph SpecDirected SpecWeighted SpecCReMa SpecEnsemble SpecNetwork SpecSolve SpecDispatch
  ModelCM ModelECM ModelDCM ModelDECM ModelCReMa ModelNetwork ModelDispatch ModelSolve ModelSampler SpecSampler SpecSamples ModelSample SpecReported
  ProofsGraph ProofsEnsemble ProofsMainCReMa ProofsDispatch ProofsSolve ProofsSolveU ProofsSolveD ProofsSampler ProofsSamples ProofsReported ProofsReportedD ProofsMeans
  WitnessSampler WitnessSamples WitnessSolve WitnessReported.
Import ListNotations.
Local Open Scope R_scope.

(** C90: the error reported by a completed solve_tool is the largest deviation of the mean
    degrees and strengths of the files written next. *)
Theorem C90_cm :
  forall (g : unet) (c : call) (o o' : ustate),
    (0 < un_n g)%nat ->
    us_beta o = None ->
    In (c_model c) ["cm"%string; "cm_exp"%string] ->
    u_solve_tool g c o = (o', None) ->
    (forall x : nat -> R,
     us_x o' = Some x -> c_model c = "cm"%string -> forall i j : nat, (i < j < un_n g)%nat -> 0 <= x i * x j) ->
    exists (pairs : list (nat * nat)) (p : nat -> nat -> R) (e : R),
      u_draws g o' Unweighted (fun G : generator => bare_outcome G p) pairs /\
      once_und (un_n g) pairs /\ us_err o' = Some e /\ sup_dev (un_n g) (touching pairs p) (at_list (un_dseq g)) e.
Proof. exact reported_cm. Qed.
Print Assumptions C90_cm.
Example C90_cm_example :
  exists c o', (0 < un_n path3)%nat /\ us_beta (u_fresh false) = None /\ In (c_model c) ["cm"; "cm_exp"]%string /\
  u_solve_tool path3 c (u_fresh false) = (o', None) /\
  (forall x, us_x o' = Some x -> c_model c = "cm"%string -> forall i j, (i < j < un_n path3)%nat -> 0 <= x i * x j).
Proof. exact reported_cm_case. Qed.
Example C90_draws_example :
  numpy_contract gen0 /\ top_seed gen0 (Some 7%Z) start0 = Some start0 /\ forall m t, valid_choice gen0 1 m (ordered m t).
Proof. exact draws_case. Qed.

Theorem C90_ecm :
  forall (g : unet) (c : call) (o o' : ustate),
    (0 < un_n g)%nat ->
    In (c_model c) ["ecm"%string; "ecm_exp"%string] ->
    u_solve_tool g c o = (o', None) ->
    (forall x y : nat -> R,
     us_x o' = Some x ->
     us_y o' = Some y ->
     forall i j : nat,
     (i < j < un_n g)%nat -> (c_model c = "ecm"%string -> 0 <= x i * x j /\ 0 <= y i * y j) /\ y i * y j < 1) ->
    exists (pairs : list (nat * nat)) (p y : nat -> nat -> R) (ek es : R),
      u_draws g o' IntWeighted (fun G : generator => int_outcome G p y) pairs /\
      once_und (un_n g) pairs /\
      us_err o' = Some (Rmax es ek) /\
      sup_dev (un_n g) (touching pairs p) (at_list (un_dseq g)) ek /\
      sup_dev (un_n g) (touching pairs (int_weight p y)) (un_str g) es.
Proof. exact reported_ecm. Qed.
Print Assumptions C90_ecm.
Example C90_ecm_example :
  exists c o', (0 < un_n path3)%nat /\ In (c_model c) ["ecm"; "ecm_exp"]%string /\
  u_solve_tool path3 c (u_fresh false) = (o', None) /\
  (forall x y, us_x o' = Some x -> us_y o' = Some y -> forall i j, (i < j < un_n path3)%nat ->
     (c_model c = "ecm"%string -> 0 <= x i * x j /\ 0 <= y i * y j) /\ y i * y j < 1).
Proof. exact reported_ecm_case. Qed.

Theorem C90_crema_given :
  forall (g : unet) (c : call) (o o' : ustate) (a : nat -> nat -> R),
    (0 < un_n g)%nat ->
    c_model c = "crema"%string ->
    c_adjacency c = AdjMatrix a ->
    hollow a ->
    (forall i j : nat, (i < j < un_n g)%nat -> a i j = 0 \/ a i j = 1) ->
    u_solve_tool g c o = (o', None) ->
    (forall b : nat -> R, us_beta o' = Some b -> positive_rates (un_n g) a b) ->
    exists (pairs : list (nat * nat)) (b : nat -> nat -> R) (e : R),
      u_draws g o' RealWeighted (fun G : generator => sure_outcome G b) pairs /\
      once_und (un_n g) pairs /\
      (forall i j : nat, (i < j < un_n g)%nat -> In (i, j) pairs <-> a i j = 1) /\
      us_err o' = Some e /\ sup_dev (un_n g) (touching pairs (real_weight certain b)) (un_str g) e.
Proof. exact reported_crema_given. Qed.
Print Assumptions C90_crema_given.
Example C90_crema_given_example :
  exists c o', (0 < un_n path3)%nat /\ c_model c = "crema"%string /\ c_adjacency c = AdjMatrix path01 /\ hollow path01 /\
  (forall i j, (i < j < un_n path3)%nat -> path01 i j = 0 \/ path01 i j = 1) /\ u_solve_tool path3 c (u_fresh false) = (o', None) /\
  (forall b, us_beta o' = Some b -> positive_rates (un_n path3) path01 b).
Proof. exact reported_crema_given_case. Qed.

Theorem C90_crema_named :
  forall (g : unet) (c : call) (o o' : ustate) (a : string),
    (0 < un_n g)%nat ->
    c_model c = "crema"%string ->
    c_adjacency c = AdjName a ->
    In a ["cm"%string; "cm_exp"%string] ->
    u_solve_tool g c o = (o', None) ->
    (forall x b : nat -> R,
     us_x o' = Some x ->
     us_beta o' = Some b -> (forall i : nat, (i < un_n g)%nat -> 0 <= x i) /\ positive_rates (un_n g) (p_ubcm x) b) ->
    exists (pairs : list (nat * nat)) (p b : nat -> nat -> R) (ek es : R),
      u_draws g o' RealWeighted (fun G : generator => real_outcome G p b) pairs /\
      once_und (un_n g) pairs /\
      us_err o' = Some (Rmax es ek) /\
      sup_dev (un_n g) (touching pairs p) (at_list (un_dseq g)) ek /\
      sup_dev (un_n g) (touching pairs (real_weight p b)) (un_str g) es.
Proof. exact reported_crema_name. Qed.
Print Assumptions C90_crema_named.
Example C90_crema_named_example :
  exists c o', (0 < un_n path3)%nat /\ c_model c = "crema"%string /\ c_adjacency c = AdjName "cm" /\
  u_solve_tool path3 c (u_fresh false) = (o', None) /\
  (forall x b, us_x o' = Some x -> us_beta o' = Some b -> (forall i, (i < un_n path3)%nat -> 0 <= x i) /\ positive_rates (un_n path3) (p_ubcm x) b).
Proof. exact reported_crema_name_case. Qed.

Theorem C90_dcm :
  forall (g : dnet) (c : call) (o o' : dstate),
    (0 < dn_n g)%nat ->
    d_paired g ->
    ds_bo o = None ->
    In (c_model c) ["dcm"%string; "dcm_exp"%string] ->
    d_solve_tool g c o = (o', None) ->
    (forall x y : nat -> R,
     ds_x o' = Some x ->
     ds_y o' = Some y -> forall i j : nat, (i < dn_n g)%nat -> (j < dn_n g)%nat -> i <> j -> 0 <= x i * y j) ->
    exists (pairs : list (nat * nat)) (p : nat -> nat -> R) (e1 e2 : R),
      d_draws g o' Unweighted (fun G : generator => bare_outcome G p) pairs /\
      once_dir (dn_n g) pairs /\
      ds_err o' = Some (Rmax e1 e2) /\
      sup_dev (dn_n g) (leaving pairs p) (at_list (dn_out g)) e1 /\
      sup_dev (dn_n g) (entering pairs p) (at_list (dn_in g)) e2.
Proof. exact reported_dcm. Qed.
Print Assumptions C90_dcm.
Example C90_dcm_example :
  exists c o', (0 < dn_n d2)%nat /\ d_paired d2 /\ ds_bo (d_fresh false) = None /\ In (c_model c) ["dcm"; "dcm_exp"]%string /\
  d_solve_tool d2 c (d_fresh false) = (o', None) /\
  (forall x y, ds_x o' = Some x -> ds_y o' = Some y -> forall i j, (i < dn_n d2)%nat -> (j < dn_n d2)%nat -> i <> j -> 0 <= x i * y j).
Proof. exact reported_dcm_case. Qed.

Theorem C90_decm :
  forall (g : dnet) (c : call) (o o' : dstate),
    (0 < dn_n g)%nat ->
    In (c_model c) ["decm"%string; "decm_exp"%string] ->
    d_solve_tool g c o = (o', None) ->
    (forall x y bo bi : nat -> R,
     ds_x o' = Some x ->
     ds_y o' = Some y -> ds_bo o' = Some bo -> ds_bi o' = Some bi -> decm_dom (dn_n g) (join4 (dn_n g) x y bo bi)) ->
    exists (pairs : list (nat * nat)) (p y : nat -> nat -> R) (e1 e2 e3 e4 : R),
      d_draws g o' IntWeighted (fun G : generator => int_outcome G p y) pairs /\
      once_dir (dn_n g) pairs /\
      ds_err o' = Some (Rmax (Rmax e1 e2) (Rmax e3 e4)) /\
      sup_dev (dn_n g) (leaving pairs p) (at_list (dn_out g)) e1 /\
      sup_dev (dn_n g) (entering pairs p) (at_list (dn_in g)) e2 /\
      sup_dev (dn_n g) (leaving pairs (int_weight p y)) (dn_sout g) e3 /\
      sup_dev (dn_n g) (entering pairs (int_weight p y)) (dn_sin g) e4.
Proof. exact reported_decm. Qed.
Print Assumptions C90_decm.
Example C90_decm_example :
  exists c o', (0 < dn_n d2)%nat /\ In (c_model c) ["decm"; "decm_exp"]%string /\ d_solve_tool d2 c (d_fresh false) = (o', None) /\
  (forall x y bo bi, ds_x o' = Some x -> ds_y o' = Some y -> ds_bo o' = Some bo -> ds_bi o' = Some bi -> decm_dom (dn_n d2) (join4 (dn_n d2) x y bo bi)).
Proof. exact reported_decm_case. Qed.

Theorem C90_crema_given_directed :
  forall (g : dnet) (c : call) (o o' : dstate) (a : nat -> nat -> R),
    (0 < dn_n g)%nat ->
    c_model c = "crema"%string ->
    c_adjacency c = AdjMatrix a ->
    (forall i j : nat, (i < dn_n g)%nat -> (j < dn_n g)%nat -> a i j = 0 \/ a i j = 1) ->
    d_solve_tool g c o = (o', None) ->
    (forall bo bi : nat -> R, ds_bo o' = Some bo -> ds_bi o' = Some bi -> positive_rates_dir (dn_n g) a bo bi) ->
    exists (pairs : list (nat * nat)) (b : nat -> nat -> R) (e1 e2 : R),
      d_draws g o' RealWeighted (fun G : generator => sure_outcome G b) pairs /\
      once_dir (dn_n g) pairs /\
      (forall i j : nat, (i < dn_n g)%nat -> (j < dn_n g)%nat -> In (i, j) pairs <-> a i j = 1) /\
      ds_err o' = Some (Rmax e1 e2) /\
      sup_dev (dn_n g) (leaving pairs (real_weight certain b)) (dn_sout g) e1 /\
      sup_dev (dn_n g) (entering pairs (real_weight certain b)) (dn_sin g) e2.
Proof. exact reported_dcrema_given. Qed.
Print Assumptions C90_crema_given_directed.
Example C90_crema_given_directed_example :
  exists c o', (0 < dn_n d2)%nat /\ c_model c = "crema"%string /\ c_adjacency c = AdjMatrix ones /\
  (forall i j, (i < dn_n d2)%nat -> (j < dn_n d2)%nat -> ones i j = 0 \/ ones i j = 1) /\ d_solve_tool d2 c (d_fresh false) = (o', None) /\
  (forall bo bi, ds_bo o' = Some bo -> ds_bi o' = Some bi -> positive_rates_dir (dn_n d2) ones bo bi).
Proof. exact reported_dcrema_given_case. Qed.

Theorem C90_crema_named_directed :
  forall (g : dnet) (c : call) (o o' : dstate) (a : string),
    (0 < dn_n g)%nat ->
    d_paired g ->
    c_model c = "crema"%string ->
    c_adjacency c = AdjName a ->
    In a ["dcm"%string; "dcm_exp"%string] ->
    d_solve_tool g c o = (o', None) ->
    (forall x y bo bi : nat -> R,
     ds_x o' = Some x ->
     ds_y o' = Some y ->
     ds_bo o' = Some bo ->
     ds_bi o' = Some bi ->
     supported (dn_n g) (at_list (dn_out g)) x /\
     supported (dn_n g) (at_list (dn_in g)) y /\ positive_rates_dir (dn_n g) (dcm_prob x y) bo bi) ->
    exists (pairs : list (nat * nat)) (p b : nat -> nat -> R) (e1 e2 e3 e4 : R),
      d_draws g o' RealWeighted (fun G : generator => real_outcome G p b) pairs /\
      once_dir (dn_n g) pairs /\
      ds_err o' = Some (Rmax (Rmax e3 e4) (Rmax e1 e2)) /\
      sup_dev (dn_n g) (leaving pairs p) (at_list (dn_out g)) e1 /\
      sup_dev (dn_n g) (entering pairs p) (at_list (dn_in g)) e2 /\
      sup_dev (dn_n g) (leaving pairs (real_weight p b)) (dn_sout g) e3 /\
      sup_dev (dn_n g) (entering pairs (real_weight p b)) (dn_sin g) e4.
Proof. exact reported_dcrema_name. Qed.
Print Assumptions C90_crema_named_directed.
Example C90_crema_named_directed_example :
  exists c o', (0 < dn_n d2)%nat /\ d_paired d2 /\ c_model c = "crema"%string /\ c_adjacency c = AdjName "dcm" /\
  d_solve_tool d2 c (d_fresh false) = (o', None) /\
  (forall x y bo bi, ds_x o' = Some x -> ds_y o' = Some y -> ds_bo o' = Some bo -> ds_bi o' = Some bi ->
     supported (dn_n d2) (at_list (dn_out d2)) x /\ supported (dn_n d2) (at_list (dn_in d2)) y /\ positive_rates_dir (dn_n d2) (dcm_prob x y) bo bi).
Proof. exact reported_dcrema_name_case. Qed.

Theorem C90_crema_sparse_directed :
  forall (g : dnet) (c : call) (o o' : dstate) (a : string),
    (0 < dn_n g)%nat ->
    d_paired g ->
    c_model c = "crema-sparse"%string ->
    c_adjacency c = AdjName a ->
    In a ["dcm"%string; "dcm_exp"%string] ->
    d_solve_tool g c o = (o', None) ->
    (forall x y bo bi : nat -> R,
     ds_x o' = Some x ->
     ds_y o' = Some y ->
     ds_bo o' = Some bo ->
     ds_bi o' = Some bi ->
     supported (dn_n g) (at_list (dn_out g)) x /\
     supported (dn_n g) (at_list (dn_in g)) y /\
     (forall i j : nat, (i < dn_n g)%nat -> (j < dn_n g)%nat -> i <> j -> 0 < bo i + bi j)) ->
    exists (pairs : list (nat * nat)) (p b : nat -> nat -> R) (e1 e2 e3 e4 : R),
      d_draws g o' RealWeighted (fun G : generator => real_outcome G p b) pairs /\
      once_dir (dn_n g) pairs /\
      ds_err o' = Some (Rmax (Rmax e3 e4) (Rmax e1 e2)) /\
      sup_dev (dn_n g) (leaving pairs p) (at_list (dn_out g)) e1 /\
      sup_dev (dn_n g) (entering pairs p) (at_list (dn_in g)) e2 /\
      sup_dev (dn_n g) (leaving pairs (real_weight p b)) (dn_sout g) e3 /\
      sup_dev (dn_n g) (entering pairs (real_weight p b)) (dn_sin g) e4.
Proof. exact reported_dsparse. Qed.
Print Assumptions C90_crema_sparse_directed.
Example C90_crema_sparse_directed_example :
  exists c o', (0 < dn_n d2)%nat /\ d_paired d2 /\ c_model c = "crema-sparse"%string /\ c_adjacency c = AdjName "dcm" /\
  d_solve_tool d2 c (d_fresh false) = (o', None) /\
  (forall x y bo bi, ds_x o' = Some x -> ds_y o' = Some y -> ds_bo o' = Some bo -> ds_bi o' = Some bi ->
     supported (dn_n d2) (at_list (dn_out d2)) x /\ supported (dn_n d2) (at_list (dn_in d2)) y /\
     forall i j, (i < dn_n d2)%nat -> (j < dn_n d2)%nat -> i <> j -> 0 < bo i + bi j).
Proof. exact reported_dsparse_case. Qed.

(** The undirected sparse version: the reported error is that of half of what is written. *)
Theorem C90_crema_sparse_half :
  forall (g : unet) (c : call) (o o' : ustate) (a : string),
    (0 < un_n g)%nat ->
    c_model c = "crema-sparse"%string ->
    c_adjacency c = AdjName a ->
    In a ["cm"%string; "cm_exp"%string] ->
    u_solve_tool g c o = (o', None) ->
    (forall x b : nat -> R,
     us_x o' = Some x ->
     us_beta o' = Some b ->
     (forall i : nat, (i < un_n g)%nat -> 0 <= x i) /\ (forall i j : nat, (i < j < un_n g)%nat -> 0 < b i + b j)) ->
    exists (pairs : list (nat * nat)) (p b : nat -> nat -> R) (ek es : R),
      u_draws g o' RealWeighted (fun G : generator => real_outcome G p b) pairs /\
      once_dir (un_n g) pairs /\
      us_err o' = Some (Rmax es ek) /\
      sup_dev (un_n g) (fun i : nat => touching pairs p i / 2) (at_list (un_dseq g)) ek /\
      sup_dev (un_n g) (fun i : nat => touching pairs (real_weight p b) i / 2) (un_str g) es.
Proof. exact reported_sparse. Qed.
Print Assumptions C90_crema_sparse_half.
Example C90_crema_sparse_half_example :
  exists c o', (0 < un_n path3)%nat /\ c_model c = "crema-sparse"%string /\ c_adjacency c = AdjName "cm" /\
  u_solve_tool path3 c (u_fresh false) = (o', None) /\
  (forall x b, us_x o' = Some x -> us_beta o' = Some b -> (forall i, (i < un_n path3)%nat -> 0 <= x i) /\ forall i j, (i < j < un_n path3)%nat -> 0 < b i + b j).
Proof. exact reported_sparse_case. Qed.

(** Where the full statement fails. *)
Theorem C90_crema_sparse_refuted :
  exists g c o' pairs p b, c_model c = "crema-sparse"%string /\ In (c_method c) documented_methods /\ c_adjacency c = AdjName "cm" /\
  u_solve_tool g c (u_fresh false) = (o', None) /\ us_err o' = Some 0 /\
  u_draws g o' RealWeighted (fun G => real_outcome G p b) pairs /\
  forall i, (i < un_n g)%nat -> at_list (un_dseq g) i = 2 /\ touching pairs p i = 4 /\ un_str g i = 2 /\ touching pairs (real_weight p b) i = 4.
Proof. exact sparse_doubles. Qed.
Print Assumptions C90_crema_sparse_refuted.

Theorem C90_fractional_matrix_refuted :
  exists g c o' a pairs b, c_model c = "crema"%string /\ In (c_method c) documented_methods /\ c_adjacency c = AdjMatrix a /\
  (forall i j, 0 <= a i j <= 1) /\ u_solve_tool g c (u_fresh false) = (o', None) /\ us_err o' = Some 0 /\
  u_draws g o' RealWeighted (fun G => sure_outcome G b) pairs /\
  forall i, (i < un_n g)%nat -> un_str g i = 1 /\ touching pairs (real_weight certain b) i = 2.
Proof. exact fractional_all. Qed.
Print Assumptions C90_fractional_matrix_refuted.

Theorem C90_sparse_matrix_no_file :
  forall (g : unet) (c : call) (o o' : ustate) (a : nat -> nat -> R),
    c_model c = "crema-sparse"%string ->
    c_adjacency c = AdjMatrix a ->
    u_solve_tool g c o = (o', None) ->
    forall (G : generator) (N cpu : nat) (out : string) (seed : option Z) (entropy s0 : gstate G)
      (choice : nat -> pool_choice G),
    top_seed G seed entropy = Some s0 -> u_ensemble_sampler G N cpu out seed entropy choice g o' = Some [].
Proof. exact sparse_given_nothing. Qed.
Print Assumptions C90_sparse_matrix_no_file.
Theorem C90_sparse_matrix_no_file_directed :
  forall (g : dnet) (c : call) (o o' : dstate) (a : nat -> nat -> R),
    c_model c = "crema-sparse"%string ->
    c_adjacency c = AdjMatrix a ->
    d_solve_tool g c o = (o', None) ->
    forall (G : generator) (N cpu : nat) (out : string) (seed : option Z) (entropy s0 : gstate G)
      (choice : nat -> pool_choice G),
    top_seed G seed entropy = Some s0 -> d_ensemble_sampler G N cpu out seed entropy choice g o' = Some [].
Proof. exact sparse_given_nothing_dir. Qed.
Print Assumptions C90_sparse_matrix_no_file_directed.
Example C90_sparse_matrix_no_file_example :
  exists c o', c_model c = "crema-sparse"%string /\ c_adjacency c = AdjMatrix ones /\ d_solve_tool d2 c (d_fresh false) = (o', None).
Proof. exact sparse_matrix_case. Qed.

Theorem C90_failed_call_sampled :
  forall (g : unet) (c : call) (o : ustate) (z : nat -> R),
    In (c_model c) ["ecm"%string; "ecm_exp"%string] ->
    c_guess c = Some z ->
    (forall d : dispatched, u_dispatch (c_model c) (c_method c) None <> inl d) ->
    (forall i j : nat, (i < j < un_n g)%nat -> 0 <= z i * z j /\ 0 <= z (i + un_n g)%nat * z (j + un_n g)%nat < 1) ->
    exists (o' : ustate) (e : raised) (x y : list R),
      u_solve_tool g c o = (o', Some e) /\
      us_err o' = us_err o /\
      x = array (un_n g) z /\
      y = array (un_n g) (drop (un_n g) z) /\
      u_draws g o' IntWeighted (fun G : generator => int_outcome G (p_enh (mul2 x x) (mul2 y y)) (mul2 y y))
        (lt_pairs (un_n g)).
Proof. exact failed_then_sampled. Qed.
Print Assumptions C90_failed_call_sampled.
Example C90_failed_call_sampled_example :
  In (c_model k_misspelt) ["ecm"; "ecm_exp"]%string /\ c_guess k_misspelt = Some ecm_values /\
  (forall d, u_dispatch (c_model k_misspelt) (c_method k_misspelt) None <> inl d) /\
  (forall i j, (i < j < un_n path3)%nat -> 0 <= ecm_values i * ecm_values j /\ 0 <= ecm_values (i + un_n path3)%nat * ecm_values (j + un_n path3)%nat < 1).
Proof. exact failed_case. Qed.

(** The mean contribution of a pair. *)
Theorem C90_int_mean :
  forall (G : generator) (draw : R -> R -> gstate G) (z y : nat -> nat -> R) (i j : nat),
    numpy_contract G ->
    uniform_then_geometric G draw ->
    0 <= z i j ->
    0 <= y i j < 1 ->
    exists q : nat -> R,
      (forall k : nat, prob2 (fun u v : R => counts k (int_outcome G (p_enh z y) y (i, j) (draw u v))) (q k)) /\
      mean_of_law q (int_weight (p_enh z y) y i j) /\
      prob2 (fun u v : R => joins (int_outcome G (p_enh z y) y (i, j) (draw u v))) (p_enh z y i j).
Proof. exact int_mean. Qed.
Print Assumptions C90_int_mean.
Example C90_int_mean_example :
  mean_of_law (q_enh (1/2) (1/2)) (2/3) /\ int_weight (p_enh (fun _ _ => 1/2) (fun _ _ => 1/2)) (fun _ _ => 1/2) 0 1 = 2/3 /\
  uniform_then_geometric gen0 (two_draws start0).
Proof. exact int_mean_case. Qed.

Theorem C90_real_mean :
  forall (G : generator) (draw : R -> R -> gstate G) (p b : nat -> nat -> R) (i j : nat),
    uniform_then_exponential G draw ->
    0 <= p i j <= 1 ->
    0 < b i j ->
    exists T : R -> R,
      (forall t : R, 0 <= t -> prob2 (fun u v : R => exceeds t (real_outcome G p b (i, j) (draw u v))) (T t)) /\
      mean_of_tail T (real_weight p b i j) /\
      prob2 (fun u v : R => joins (real_outcome G p b (i, j) (draw u v))) (p i j).
Proof. exact real_mean. Qed.
Print Assumptions C90_real_mean.
Example C90_real_mean_example :
  mean_of_tail (fun t => 1/2 * exp (- 2 * t)) (1/4) /\ real_weight (fun _ _ => 1/2) (fun _ _ => 2) 0 1 = 1/4 /\
  uniform_then_exponential gen0 (two_draws start0).
Proof. exact real_mean_case. Qed.

Theorem C90_sure_mean :
  forall (G : generator) (draw : R -> gstate G) (b : nat -> nat -> R) (i j : nat),
    exponential_draws G draw ->
    0 < b i j ->
    exists T : R -> R,
      (forall t : R, 0 <= t -> prob1 (fun v : R => exceeds t (sure_outcome G b (i, j) (draw v))) (T t)) /\
      mean_of_tail T (real_weight certain b i j) /\
      (forall v : R, 0 <= v < 1 -> joins (sure_outcome G b (i, j) (draw v)) = true).
Proof. exact sure_mean. Qed.
Print Assumptions C90_sure_mean.
Example C90_sure_mean_example :
  real_weight certain (fun _ _ => 2) 0 1 = 1/2 /\ exponential_draws gen0 (fun v => two_draws start0 v 0).
Proof. exact sure_mean_case. Qed.
