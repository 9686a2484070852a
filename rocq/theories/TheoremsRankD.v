(** Directed CReMa: what the order of the strengths says about the parameters. *)
From Coq Require Import Reals List Arith Bool String Lia Lra.
From Verif Require Import Base SpecGraph SpecSolve SpecRank SpecDispatch ModelDispatch ModelSolve ProofsRankD WitnessSolve WitnessTool WitnessRankD.
Import ListNotations.
Local Open Scope R_scope.

(** C105 *)
Theorem C105_crema_dir :
  forall g c o o' a,
  (0 < dn_n g)%nat -> In (c_model c) ["crema"; "crema-sparse"]%string -> c_adjacency c = AdjMatrix a ->
  (forall u, a u u = 0) -> (forall u w, (u < dn_n g)%nat -> (w < dn_n g)%nat -> 0 <= a u w) -> d_solve_tool g c o = (o', None) ->
  (forall bo bi, ds_bo o' = Some bo -> ds_bi o' = Some bi -> positive_rates_dir (dn_n g) a bo bi) ->
  exists bo bi err, ds_bo o' = Some bo /\ ds_bi o' = Some bi /\ ds_err o' = Some err /\
    forall i j, (i < dn_n g)%nat -> (j < dn_n g)%nat -> a i j = a j i ->
      (same_links (dn_n g) a i j -> dn_sout g i + 2 * err < dn_sout g j -> (bo j < bo i \/ bi i < bi j) /\ (a i j = 0 -> bo j < bo i)) /\
      (same_links (dn_n g) (fun u w => a w u) i j -> dn_sin g i + 2 * err < dn_sin g j -> (bi j < bi i \/ bo i < bo j) /\ (a i j = 0 -> bi j < bi i)).
Proof. exact d_rank_crema. Qed.
Print Assumptions C105_crema_dir.
Example C105_crema_dir_case :
  exists o' err, (0 < dn_n dpath_net)%nat /\ In (c_model k_dpath) ["crema"; "crema-sparse"]%string /\ c_adjacency k_dpath = AdjMatrix path_adj /\
  (forall u, path_adj u u = 0) /\ (forall u w, (u < dn_n dpath_net)%nat -> (w < dn_n dpath_net)%nat -> 0 <= path_adj u w) /\
  d_solve_tool dpath_net k_dpath (d_fresh false) = (o', None) /\
  (forall bo bi, ds_bo o' = Some bo -> ds_bi o' = Some bi -> positive_rates_dir (dn_n dpath_net) path_adj bo bi) /\ ds_err o' = Some err /\
  path_adj 0 2 = path_adj 2 0 /\ path_adj 0 2 = 0 /\ same_links (dn_n dpath_net) path_adj 0 2 /\ same_links (dn_n dpath_net) (fun u w => path_adj w u) 0 2 /\
  dn_sout dpath_net 0 + 2 * err < dn_sout dpath_net 2 /\ dn_sin dpath_net 0 + 2 * err < dn_sin dpath_net 2.
Proof. exact rank_dcrema_case. Qed.
