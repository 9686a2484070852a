(** When the constraints have a solution.  Nothing else in this file; proofs are in
    ProofsExist, ProofsExistW, ProofsExistCReMa, ProofsExistCor and WitnessExist. *)
From Coq Require Import Reals List Arith Bool Lia Lra.
From Verif Require Import Base SpecDeriv SpecGraph SpecEnsemble SpecDirected SpecWeighted SpecCReMa SpecExist
  ModelCM ModelECM ModelDCM ModelDECM ModelCReMa.
From Verif Require Import ProofsExist ProofsExistW ProofsExistCReMa ProofsExistCor WitnessExist.
Import ListNotations.
Local Open Scope R_scope.

(** C77: a solution exists exactly when the constraints are mean values of a law in
    which no possible link is forbidden or certain. *)
Theorem C77_solvable_cm_iff :
  forall n k,
  (exists x, cm_full n k x /\ forall i, (i < n)%nat -> expected_degree_cm n x i = k i) <-> exists p, inner_und n k p.
Proof. exact solvable_cm_iff. Qed.
Print Assumptions C77_solvable_cm_iff.
Theorem C77_solvable_dcm_iff :
  forall n ko ki nzo nzi,
  nonzero_list n ko nzo -> nonzero_list n ki nzi ->
  ((exists x, dcm_full n nzo nzi x /\
     forall i, (i < n)%nat -> expected_out_degree_dcm n x i = ko i /\ expected_in_degree_dcm n x i = ki i) <->
   exists p, inner_dir n ko ki p).
Proof. exact solvable_dcm_iff. Qed.
Print Assumptions C77_solvable_dcm_iff.
Theorem C77_solvable_ecm_iff :
  forall n k s,
  (exists sol, ecm_dom n sol /\ forall i, (i < n)%nat -> expected_ecm n sol i = k i /\ expected_ecm n sol (i + n) = s i) <->
  exists p w, inner_undw n k s p w.
Proof. exact solvable_ecm_iff. Qed.
Print Assumptions C77_solvable_ecm_iff.
Theorem C77_solvable_decm_iff :
  forall n ko ki so si,
  (exists x, decm_dom n x /\ decm_supp n ko ki so si x /\
     forall r, (r < 4 * n)%nat -> expected_decm n x r = decm_constraint n ko ki so si r) <->
  exists p w, inner_dirw n ko ki so si p w.
Proof. exact solvable_decm_iff. Qed.
Print Assumptions C77_solvable_decm_iff.
Theorem C77_solvable_crema_iff :
  forall n s es,
  pairs_below n es -> positive_weights es ->
  (exists beta, crema_dom es beta /\
    exists E, expected_strength_crema_undirected es beta = Some E /\ forall k, (k < n)%nat -> E k = s k) <->
  exists fs, reweighted es fs /\ forall k, (k < n)%nat -> out_weight fs k + in_weight fs k = s k.
Proof. exact solvable_crema_iff. Qed.
Print Assumptions C77_solvable_crema_iff.
Theorem C77_solvable_crema_dir_iff :
  forall n s_out s_in es,
  pairs_below n es -> positive_weights es ->
  (exists beta, crema_dir_dom n es beta /\
    exists EO EI, expected_out_strength_crema_directed n es beta = Some EO /\
      expected_in_strength_crema_directed n es beta = Some EI /\
      forall k, (k < n)%nat -> EO k = s_out k /\ EI k = s_in k) <->
  exists fs, reweighted es fs /\ forall k, (k < n)%nat -> out_weight fs k = s_out k /\ in_weight fs k = s_in k.
Proof. exact solvable_crema_dir_iff. Qed.
Print Assumptions C77_solvable_crema_dir_iff.
Example C77_inner_und_case :
  inner_und 4 (fun _ => 2) (fun _ _ => 2 / 3).
Proof. exact inner_und_case. Qed.
Example C77_inner_dir_case :
  inner_dir 3 snd2 rcv3 law23 /\ nonzero_list 3 snd2 [0; 1]%nat /\ nonzero_list 3 rcv3 [0; 1; 2]%nat.
Proof. exact inner_dir_case. Qed.
Example C77_inner_undw_case :
  inner_undw 3 (fun _ => 1) (fun _ => 2) (fun _ _ => / 2) (fun _ _ => 1).
Proof. exact inner_undw_case. Qed.
Example C77_inner_dirw_case :
  inner_dirw 3 snd2 rcv3 (fun i => 2 * snd2 i) (fun i => 2 * rcv3 i) law23 (fun i j => 2 * law23 i j).
Proof. exact inner_dirw_case. Qed.
Example C77_reweighted_case :
  pairs_below 3 path3 /\ positive_weights path3 /\ reweighted path3 path23 /\
  (forall k, (k < 3)%nat -> out_weight path23 k + in_weight path23 k = match k with O => 2 | 1%nat => 5 | _ => 3 end) /\
  (forall k, (k < 3)%nat -> out_weight path23 k = match k with O => 2 | 1%nat => 3 | _ => 0 end /\
     in_weight path23 k = match k with O => 0 | 1%nat => 2 | _ => 3 end).
Proof. exact reweighted_case. Qed.

(** C78: which networks have a solution. *)
Theorem C78_crema_given_exists :
  forall n p W,
  (forall i j, (i < n)%nat -> (j < n)%nat -> W i j = W j i) -> (forall i, (i < n)%nat -> W i i = 0) ->
  (forall i j, (i < n)%nat -> (j < n)%nat -> 0 <= p i j /\ 0 <= W i j /\ (p i j = 0 <-> W i j = 0)) ->
  exists beta, crema_dom (triu_edges n p) beta /\
    exists E, expected_strength_crema_undirected (triu_edges n p) beta = Some E /\ forall k, (k < n)%nat -> E k = rsum n (W k).
Proof. exact crema_given_exists. Qed.
Print Assumptions C78_crema_given_exists.
Theorem C78_crema_dir_given_exists :
  forall n p W,
  (forall i j, (i < n)%nat -> (j < n)%nat -> 0 <= p i j /\ 0 <= W i j /\ (p i j = 0 <-> W i j = 0)) ->
  exists beta, crema_dir_dom n (all_edges n p) beta /\
    exists EO EI, expected_out_strength_crema_directed n (all_edges n p) beta = Some EO /\
      expected_in_strength_crema_directed n (all_edges n p) beta = Some EI /\
      forall k, (k < n)%nat -> EO k = rsum n (W k) /\ EI k = rsum n (fun i => W i k).
Proof. exact crema_dir_given_exists. Qed.
Print Assumptions C78_crema_dir_given_exists.
Theorem C78_crema_after_cm_exists :
  forall n a W x,
  simple_graph n a -> weights_on n a W ->
  (forall i j, (i < n)%nat -> (j < n)%nat -> W i j = W j i) ->
  cm_full n (deg n a) x -> (forall i, (i < n)%nat -> expected_degree_cm n x i = deg n a i) ->
  let es := triu_edges n (pmatrix_cm x) in
  exists beta, crema_dom es beta /\
    exists E, expected_strength_crema_undirected es beta = Some E /\ forall k, (k < n)%nat -> E k = rsum n (W k).
Proof. exact crema_after_cm_exists. Qed.
Print Assumptions C78_crema_after_cm_exists.
Theorem C78_crema_after_dcm_exists :
  forall n a W nzo nzi x,
  loopless n a -> weights_on n a W ->
  nonzero_list n (deg n a) nzo -> nonzero_list n (indeg n a) nzi -> dcm_full n nzo nzi x ->
  (forall i, (i < n)%nat -> expected_out_degree_dcm n x i = deg n a i /\ expected_in_degree_dcm n x i = indeg n a i) ->
  let es := all_edges n (pmatrix_dcm n nzo nzi x) in
  exists beta, crema_dir_dom n es beta /\
    exists EO EI, expected_out_strength_crema_directed n es beta = Some EO /\
      expected_in_strength_crema_directed n es beta = Some EI /\
      forall k, (k < n)%nat -> EO k = rsum n (W k) /\ EI k = rsum n (fun i => W i k).
Proof. exact crema_after_dcm_exists. Qed.
Print Assumptions C78_crema_after_dcm_exists.
Theorem C78_ecm_heavy_exists :
  forall n a W p,
  simple_graph n a -> weights_on n a W ->
  (forall i j, (i < n)%nat -> (j < n)%nat -> W i j = W j i) ->
  (forall i j, (i < n)%nat -> (j < n)%nat -> a i j = true -> 1 < W i j) ->
  (forall i, (i < n)%nat -> deg n a i <> 0) -> inner_und n (deg n a) p ->
  exists sol, ecm_dom n sol /\
    forall i, (i < n)%nat -> expected_ecm n sol i = deg n a i /\ expected_ecm n sol (i + n) = rsum n (W i).
Proof. exact ecm_heavy_exists. Qed.
Print Assumptions C78_ecm_heavy_exists.
Theorem C78_decm_heavy_exists :
  forall n a W p,
  loopless n a -> weights_on n a W ->
  (forall i j, (i < n)%nat -> (j < n)%nat -> a i j = true -> 1 < W i j) ->
  inner_dir n (deg n a) (indeg n a) p ->
  let so := fun i => rsum n (W i) in let si := fun i => rsum n (fun j => W j i) in
  exists x, decm_dom n x /\ decm_supp n (deg n a) (indeg n a) so si x /\
    forall r, (r < 4 * n)%nat -> expected_decm n x r = decm_constraint n (deg n a) (indeg n a) so si r.
Proof. exact decm_heavy_exists. Qed.
Print Assumptions C78_decm_heavy_exists.
Theorem C78_cm_sample_exists :
  forall n k (gs : list (nat -> nat -> bool)),
  gs <> [] ->
  (forall g, In g gs -> simple_graph n g /\ forall i, (i < n)%nat -> deg n g i = k i) ->
  (forall i j, (i < n)%nat -> (j < n)%nat -> i <> j -> k i <> 0 -> k j <> 0 ->
     (exists g, In g gs /\ g i j = true) /\ exists g, In g gs /\ g i j = false) ->
  exists x, cm_full n k x /\ forall i, (i < n)%nat -> expected_degree_cm n x i = k i.
Proof. exact cm_sample_exists. Qed.
Print Assumptions C78_cm_sample_exists.
Theorem C78_cm_degree_bound :
  forall n k x,
  cm_full n k x -> (forall i, (i < n)%nat -> expected_degree_cm n x i = k i) ->
  forall i, (i < n)%nat -> k i <> 0 -> 0 < k i < others n k i.
Proof. exact cm_degree_bound. Qed.
Print Assumptions C78_cm_degree_bound.
Theorem C78_ecm_strength_bound :
  forall n k s sol,
  (2 <= n)%nat -> ecm_dom n sol ->
  (forall i, (i < n)%nat -> expected_ecm n sol i = k i /\ expected_ecm n sol (i + n) = s i) ->
  forall i, (i < n)%nat -> 0 < k i < INR n - 1 /\ k i < s i.
Proof. exact ecm_strength_bound. Qed.
Print Assumptions C78_ecm_strength_bound.
Example C78_ring5_case :
  simple_graph 5 ring5 /\ weights_on 5 ring5 ring5w /\
  (forall i j, (i < 5)%nat -> (j < 5)%nat -> ring5w i j = ring5w j i) /\
  (forall i j, (i < 5)%nat -> (j < 5)%nat -> ring5 i j = true -> 1 < ring5w i j) /\
  (forall i, (i < 5)%nat -> deg 5 ring5 i <> 0) /\
  cm_full 5 (deg 5 ring5) (fun _ => 1) /\
  (forall i, (i < 5)%nat -> expected_degree_cm 5 (fun _ => 1) i = deg 5 ring5 i) /\
  inner_und 5 (deg 5 ring5) (fun _ _ => / 2).
Proof. exact ring5_case. Qed.
Example C78_ring3_case :
  loopless 3 ring3 /\ weights_on 3 ring3 ring3w /\
  (forall i j, (i < 3)%nat -> (j < 3)%nat -> ring3 i j = true -> 1 < ring3w i j) /\
  nonzero_list 3 (deg 3 ring3) [0; 1; 2]%nat /\ nonzero_list 3 (indeg 3 ring3) [0; 1; 2]%nat /\
  dcm_full 3 [0; 1; 2]%nat [0; 1; 2]%nat (fun _ => 1) /\
  (forall i, (i < 3)%nat -> expected_out_degree_dcm 3 (fun _ => 1) i = deg 3 ring3 i /\
     expected_in_degree_dcm 3 (fun _ => 1) i = indeg 3 ring3 i) /\
  inner_dir 3 (deg 3 ring3) (indeg 3 ring3) (fun _ _ => / 2).
Proof. exact ring3_case. Qed.
Example C78_sample_case :
  pairings <> [] /\
  (forall g, In g pairings -> simple_graph 4 g /\ forall i, (i < 4)%nat -> deg 4 g i = 1) /\
  (forall i j, (i < 4)%nat -> (j < 4)%nat -> i <> j ->
     (exists g, In g pairings /\ g i j = true) /\ exists g, In g pairings /\ g i j = false).
Proof. exact sample_case. Qed.
Example C78_star_none :
  ~ exists x, cm_full 3 star3 x /\ forall i, (i < 3)%nat -> expected_degree_cm 3 x i = star3 i.
Proof. exact star_none. Qed.
Example C78_unit_ring_none :
  ~ exists sol, ecm_dom 5 sol /\
  forall i, (i < 5)%nat -> expected_ecm 5 sol i = deg 5 ring5 i /\ expected_ecm 5 sol (i + 5) = deg 5 ring5 i.
Proof. exact unit_ring_none. Qed.
