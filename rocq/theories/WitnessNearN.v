(** A call that meets the hypotheses of the theorem on directed CReMa with a named adjacency. *)
From Coq Require Import Reals List Arith Lia Lra String.
From Verif Require Import Base SpecGraph SpecCReMa SpecSolve SpecNear SpecDispatch ModelDispatch ModelSolve ProofsSolveU ProofsSolveD WitnessSolve WitnessNear.
Import ListNotations.
Local Open Scope R_scope.

Lemma dcrema_name_near_case : exists o', (0 < dn_n d2)%nat /\ d_paired d2 /\ In (c_model k_dcrema_name) ["crema"; "crema-sparse"]%string /\ c_adjacency k_dcrema_name = AdjName "dcm" /\
  In "dcm"%string ["dcm"; "dcm_exp"]%string /\ d_solve_tool d2 k_dcrema_name (d_fresh false) = (o', None) /\
  (forall x y bo bi, ds_x o' = Some x -> ds_y o' = Some y -> ds_bo o' = Some bo -> ds_bi o' = Some bi ->
     supported (dn_n d2) (at_list (dn_out d2)) x /\ supported (dn_n d2) (at_list (dn_in d2)) y /\ positive_rates_dir (dn_n d2) (dcm_prob x y) bo bi) /\
  (forall x y, positive_rates_dir (dn_n d2) (dcm_prob x y) two two).
Proof.
  destruct case_dcrema_name as (o' & H1 & H2 & H3 & _ & _ & H4 & H5 & H6 & _). exists o'. do 4 (split; [assumption|]). split; [cbn; tauto|]. do 2 (split; [assumption|]).
  intros x y i j _ _ _. unfold two. lra.
Qed.
