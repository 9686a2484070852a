(** Calls that meet the hypotheses of the theorems on approximate solutions. *)
From Coq Require Import Reals List Arith Lia Lra String.
From Verif Require Import Base SpecGraph SpecWeighted SpecSolve SpecNear ModelDispatch SpecDispatch ModelSolve ProofsSolve ProofsSolveU ProofsSolveD WitnessSolve.
Import ListNotations.
Local Open Scope R_scope.

Definition two (_ : nat) : R := 2.
Definition third (_ : nat) : R := / 3.
Lemma half_two n x : (forall i, x i = 1 / 2) -> comparable n x two /\ comparable n two x /\ comparable n x third /\ may_link n x x k2.
Proof.
  intros H. repeat apply conj.
  - intros i _. rewrite H. unfold two. lra.
  - intros i _. rewrite H. unfold two. lra.
  - intros i _. rewrite H. unfold third. lra.
  - intros i j _ _ _. rewrite !H. lra.
Qed.
Lemma cm_near_case : exists o' x, (0 < un_n g2)%nat /\ us_beta (u_fresh false) = None /\ In (c_model k_cm) ["cm"; "cm_exp"]%string /\
  simple_graph (un_n g2) k2 /\ (forall i, (i < un_n g2)%nat -> at_list (un_dseq g2) i = deg (un_n g2) k2 i) /\ u_solve_tool g2 k_cm (u_fresh false) = (o', None) /\
  us_x o' = Some x /\ comparable (un_n g2) x two /\ comparable (un_n g2) two x /\ may_link (un_n g2) x x k2.
Proof.
  destruct case_cm as (o' & H1 & H2 & H3 & _ & H4 & _ & H5 & H6).
  destruct (u_error_cm g2 k_cm (u_fresh false) o' H1 H2 H3 H4) as (v & cls & x & e & V & X & _ & _ & HX & _). injection V as <-. cbn in HX.
  destruct (half_two (un_n g2) x HX) as (C1 & C2 & _ & C3). exists o', x. repeat (split; [assumption|]). assumption.
Qed.
Lemma dcm_near_case : exists o' x y, (0 < dn_n d2)%nat /\ d_paired d2 /\ ds_bo (d_fresh false) = None /\ In (c_model k_dcm) ["dcm"; "dcm_exp"]%string /\
  loopless (dn_n d2) k2 /\ (forall i, (i < dn_n d2)%nat -> at_list (dn_out d2) i = deg (dn_n d2) k2 i) /\ (forall i, (i < dn_n d2)%nat -> at_list (dn_in d2) i = indeg (dn_n d2) k2 i) /\
  d_solve_tool d2 k_dcm (d_fresh false) = (o', None) /\ ds_x o' = Some x /\ ds_y o' = Some y /\
  comparable (dn_n d2) x two /\ comparable (dn_n d2) two x /\ comparable (dn_n d2) y two /\ comparable (dn_n d2) two y /\ may_link (dn_n d2) x y k2.
Proof.
  destruct case_dcm as (o' & H1 & H2 & H3 & _ & _ & H4 & H5 & H6 & H7).
  assert (HM : In (c_model k_dcm) ["dcm"; "dcm_exp"]%string) by (cbn; tauto).
  destruct (d_error_dcm d2 k_dcm (d_fresh false) o' H1 H2 H3 HM H4) as (v & s & cls & m & x & y & e1 & e2 & V & X & Y & _).
  destruct (H5 x y X Y) as [S1 S2]. exists o', x, y.
  assert (P : forall i, (i < dn_n d2)%nat -> 0 < x i /\ 0 < y i).
  { intros i Hi. split; [apply S1; [exact Hi|]|apply S2; [exact Hi|]]; destruct i as [|[|i]]; cbn in Hi |- *; try lia; lra. }
  do 5 (split; [assumption|]). split; [intros i Hi; apply H7, Hi|split; [intros i Hi; apply H7, Hi|]]. do 3 (split; [assumption|]).
  repeat apply conj; try (intros i Hi; destruct (P i Hi); unfold two; lra). intros i j Hi Hj _. split; [apply (P i Hi)|apply (P j Hj)].
Qed.
Lemma ecm_near_case : exists o' x y, (0 < un_n g2)%nat /\ In (c_model k_ecm) ["ecm"; "ecm_exp"]%string /\ weighted_graph (un_n g2) w2 /\
  (forall i, (i < un_n g2)%nat -> at_list (un_dseq g2) i = wdeg (un_n g2) w2 i) /\ (forall i, (i < un_n g2)%nat -> un_str g2 i = wstr (un_n g2) w2 i) /\
  u_solve_tool g2 k_ecm (u_fresh false) = (o', None) /\ us_x o' = Some x /\ us_y o' = Some y /\
  comparable (un_n g2) x two /\ comparable (un_n g2) y third /\ tame (un_n g2) y y /\ tame (un_n g2) third third /\ may_weigh (un_n g2) x x y y w2.
Proof.
  destruct case_ecm as (o' & H1 & H2 & _ & H3 & _ & H4 & H5).
  destruct (u_error_ecm g2 k_ecm (u_fresh false) o' H1 H2 H3) as (v & x & y & ek & es & V & X & Y & _ & HX & HY & _). injection V as <-. cbn in HX, HY.
  exists o', x, y. do 3 (split; [assumption|]). split; [intros i Hi; apply H5, Hi|split; [intros i Hi; apply H5, Hi|]]. do 3 (split; [assumption|]).
  repeat apply conj.
  - apply (half_two (un_n g2) x HX).
  - apply (half_two (un_n g2) y HY).
  - intros i j _ _ _. rewrite !HY. unfold half. lra.
  - intros i j _ _ _. unfold third. lra.
  - intros i j _ _ _. rewrite !HX, !HY. unfold half. lra.
Qed.
Lemma decm_near_case : exists o' x y bo bi, (0 < dn_n d2)%nat /\ In (c_model k_decm) ["decm"; "decm_exp"]%string /\ weighted_digraph (dn_n d2) w2 /\
  (forall i, (i < dn_n d2)%nat -> at_list (dn_out d2) i = wdeg (dn_n d2) w2 i) /\ (forall i, (i < dn_n d2)%nat -> at_list (dn_in d2) i = windeg (dn_n d2) w2 i) /\
  (forall i, (i < dn_n d2)%nat -> dn_sout d2 i = wstr (dn_n d2) w2 i) /\ (forall i, (i < dn_n d2)%nat -> dn_sin d2 i = winstr (dn_n d2) w2 i) /\
  d_solve_tool d2 k_decm (d_fresh false) = (o', None) /\
  (forall x y bo bi, ds_x o' = Some x -> ds_y o' = Some y -> ds_bo o' = Some bo -> ds_bi o' = Some bi -> decm_dom (dn_n d2) (join4 (dn_n d2) x y bo bi)) /\
  ds_x o' = Some x /\ ds_y o' = Some y /\ ds_bo o' = Some bo /\ ds_bi o' = Some bi /\
  comparable (dn_n d2) x two /\ comparable (dn_n d2) y two /\ comparable (dn_n d2) bo third /\ comparable (dn_n d2) bi third /\ tame (dn_n d2) third third /\ may_weigh (dn_n d2) x y bo bi w2.
Proof.
  destruct case_decm as (o' & H1 & HM & _ & H2 & H3 & H4 & H5).
  assert (HM' : In (c_model k_decm) ["decm"; "decm_exp"]%string) by (cbn; tauto).
  assert (HD : forall x y bo bi, ds_x o' = Some x -> ds_y o' = Some y -> ds_bo o' = Some bo -> ds_bi o' = Some bi -> decm_dom (dn_n d2) (join4 (dn_n d2) x y bo bi)) by (intros; apply H3; assumption).
  destruct (d_error_decm d2 k_decm (d_fresh false) o' H1 HM' H2 HD) as (v & s & x & y & bo & bi & e1 & e2 & e3 & e4 & V & X & Y & BO & BI & _ & _ & _ & HS & HV & _).
  injection V as <-. cbn in HS.
  assert (P : forall i, x i = 1/2 /\ y i = 1/2 /\ bo i = 1/2 /\ bi i = 1/2) by (intros i; destruct (HV i) as (-> & -> & -> & ->); rewrite HS; repeat split; reflexivity).
  exists o', x, y, bo, bi. do 3 (split; [assumption|]). do 4 (split; [intros i Hi; apply H5, Hi|]). do 6 (split; [assumption|]).
  repeat apply conj.
  - apply (half_two (dn_n d2) x). intros i. apply P.
  - apply (half_two (dn_n d2) y). intros i. apply P.
  - apply (half_two (dn_n d2) bo). intros i. apply P.
  - apply (half_two (dn_n d2) bi). intros i. apply P.
  - intros i j _ _ _. unfold third. lra.
  - intros i j _ _ _. destruct (P i) as (-> & _ & -> & _), (P j) as (_ & -> & _ & ->). lra.
Qed.
Lemma crema_near_case : exists o', (0 < un_n g2)%nat /\ In (c_model k_crema) ["crema"; "crema-sparse"]%string /\ c_adjacency k_crema = AdjMatrix ones /\ hollow ones /\
  (forall i j, (i < j < un_n g2)%nat -> 0 <= ones i j) /\ u_solve_tool g2 k_crema (u_fresh false) = (o', None) /\
  (forall b, us_beta o' = Some b -> positive_rates (un_n g2) ones b) /\ positive_rates (un_n g2) ones two.
Proof.
  destruct case_crema as (o' & H1 & H2 & _ & H3 & H4 & H5 & H6). exists o'. split; [assumption|]. split; [cbn; tauto|]. do 2 (split; [assumption|]).
  split; [intros i j _; unfold ones; destruct (Nat.eqb i j); lra|]. do 2 (split; [assumption|]). intros i j _ _. unfold two. lra.
Qed.
Lemma crema_name_near_case : exists o', (0 < un_n g2)%nat /\ In (c_model k_crema_name) ["crema"; "crema-sparse"]%string /\ c_adjacency k_crema_name = AdjName "cm" /\ In "cm"%string ["cm"; "cm_exp"]%string /\
  u_solve_tool g2 k_crema_name (u_fresh false) = (o', None) /\
  (forall x b, us_x o' = Some x -> us_beta o' = Some b -> (forall i, (i < un_n g2)%nat -> 0 <= x i) /\ positive_rates (un_n g2) (p_ubcm x) b) /\
  (forall x, positive_rates (un_n g2) (p_ubcm x) two).
Proof.
  destruct case_crema_name as (o' & H1 & H2 & _ & H3 & H4 & H5). exists o'. do 3 (split; [assumption|]). split; [cbn; tauto|]. do 2 (split; [assumption|]). intros x i j _ _. unfold two. lra.
Qed.
Lemma dcrema_near_case : exists o', (0 < dn_n d2)%nat /\ In (c_model k_dcrema) ["crema"; "crema-sparse"]%string /\ c_adjacency k_dcrema = AdjMatrix ones /\
  (forall i j, (i < dn_n d2)%nat -> (j < dn_n d2)%nat -> 0 <= ones i j) /\ d_solve_tool d2 k_dcrema (d_fresh false) = (o', None) /\
  (forall bo bi, ds_bo o' = Some bo -> ds_bi o' = Some bi -> positive_rates_dir (dn_n d2) ones bo bi) /\ positive_rates_dir (dn_n d2) ones two two.
Proof.
  destruct case_dcrema as (o' & H1 & H2 & _ & _ & H3 & H4 & H5). exists o'. split; [assumption|]. split; [cbn; tauto|]. split; [assumption|].
  split; [intros i j _ _; unfold ones; destruct (Nat.eqb i j); lra|]. do 2 (split; [assumption|]). intros i j _ _ _. unfold two. lra.
Qed.
