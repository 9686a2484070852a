(** Calls that meet the hypotheses of the theorems on the order of the nodes in the enhanced
    models: a path and a star, solved with errors below one half. *)
From Coq Require Import Reals List Arith Bool String Lia Lra.
From Verif Require Import Base SpecGraph SpecWeighted SpecSolve SpecNear SpecRank SpecDispatch ModelDispatch ModelSolve ProofsSolve ProofsSolveU ProofsSolveD WitnessSolve.
Import ListNotations.
Local Open Scope R_scope.

Definition wpath : unet := {| un_dseq := [1; 2; 1]%nat; un_str := fun i => nth i [6/5; 12/5; 6/5] 0 |}.
Definition wpath_sol (r : nat) : R := nth r [/ 10; 270; / 10] (/ 2).
Definition k_wpath : call := call_of "ecm" "newton" AdjOther wpath_sol wpath_sol.
Definition wstar : dnet := {| dn_out := [3; 1; 1; 1]%nat; dn_in := [3; 1; 1; 1]%nat; dn_sout := fun i => nth i [18/5; 6/5; 6/5; 6/5] 0; dn_sin := fun i => nth i [18/5; 6/5; 6/5; 6/5] 0 |}.
Definition wstar_sol (r : nat) : R := nth r [270; / 10; / 10; / 10; 270; / 10; / 10; / 10] (/ 2).
Definition k_wstar : call := call_of "decm" "newton" AdjOther wstar_sol wstar_sol.
Ltac bound := unfold Rabs; destruct (Rcase_abs _); lra.
Lemma rank_ecm_case : exists o' x y err, (0 < un_n wpath)%nat /\ In (c_model k_wpath) ["ecm"; "ecm_exp"]%string /\ u_solve_tool wpath k_wpath (u_fresh false) = (o', None) /\
  us_x o' = Some x /\ us_y o' = Some y /\ us_err o' = Some err /\ none_negative (un_n wpath) x /\ none_negative (un_n wpath) y /\ tame (un_n wpath) y y /\
  at_list (un_dseq wpath) 0 + 2 * err < at_list (un_dseq wpath) 1 /\ un_str wpath 0 + 2 * err < un_str wpath 1.
Proof.
  destruct (u_completes wpath k_wpath (u_fresh false) wpath_sol (vec wpath_sol)) as (o' & H); [cbn; tauto|cbn; tauto|cbn; intros [E|[E|[]]]; discriminate E|reflexivity|reflexivity|].
  destruct (u_error_ecm wpath k_wpath (u_fresh false) o') as (v & x & y & ek & es & V & X & Y & E & HX & HY & [_ (i1 & Hi1 & S1)] & [_ (i2 & Hi2 & S2)]); [cbn; lia|cbn; tauto|exact H|].
  injection V as <-. cbn in HX, HY. assert (HY' : forall i, y i = / 2) by (intros i; rewrite HY; unfold wpath_sol; rewrite Nat.add_comm; do 2 (destruct i as [|i]; [reflexivity|]); destruct i; reflexivity).
  assert (X0 : x 0%nat = / 10) by apply HX. assert (X1 : x 1%nat = 270) by apply HX. assert (X2 : x 2%nat = / 10) by apply HX.
  assert (B : ek <= 1 / 5 /\ es <= 1 / 5).
  { cbn in Hi1, Hi2. rewrite S1, S2. split.
    - destruct i1 as [|[|[|i1]]]; try lia; unfold mean_deg_und, link_mean, at_list; cbn; rewrite ?HY', ?X0, ?X1, ?X2; bound.
    - destruct i2 as [|[|[|i2]]]; try lia; unfold mean_str_und, weight_mean; cbn; rewrite ?HY', ?X0, ?X1, ?X2; bound. }
  assert (M : Rmax es ek <= 1 / 5) by (apply Rmax_lub; apply B).
  exists o', x, y, (Rmax es ek). split; [cbn; lia|]. split; [cbn; tauto|]. do 4 (split; [assumption|]).
  split; [intros i Hi; cbn in Hi; destruct i as [|[|[|i]]]; try lia; rewrite ?X0, ?X1, ?X2; lra|]. split; [intros i _; rewrite HY'; lra|]. split; [intros i j _ _ _; rewrite !HY'; lra|].
  unfold at_list. cbn. lra.
Qed.
Lemma rank_decm_case : exists o' err, (0 < dn_n wstar)%nat /\ In (c_model k_wstar) ["decm"; "decm_exp"]%string /\ d_solve_tool wstar k_wstar (d_fresh false) = (o', None) /\
  (forall x y bo bi, ds_x o' = Some x -> ds_y o' = Some y -> ds_bo o' = Some bo -> ds_bi o' = Some bi -> decm_dom (dn_n wstar) (join4 (dn_n wstar) x y bo bi)) /\
  ds_err o' = Some err /\ at_list (dn_out wstar) 1 + 1 + 2 * err < at_list (dn_out wstar) 0 /\ at_list (dn_in wstar) 1 + 1 + 2 * err < at_list (dn_in wstar) 0.
Proof.
  destruct (d_completes wstar k_wstar (d_fresh false) wstar_sol (vec wstar_sol)) as (o' & H); [cbn; tauto|cbn; tauto|reflexivity|reflexivity|reflexivity|].
  assert (HA : exists x y bo bi, ds_x o' = Some x /\ ds_y o' = Some y /\ ds_bo o' = Some bo /\ ds_bi o' = Some bi /\
    (forall i, x i = wstar_sol i) /\ (forall i, y i = wstar_sol (i + 4)) /\ (forall i, bo i = / 2) /\ (forall i, bi i = / 2)).
  { destruct (d_tool_problem wstar k_wstar (d_fresh false) o' (or_intror (or_intror (or_introl eq_refl))) H) as (p & HS & HE).
    apply d_solve_decm in HS; [|cbn; tauto]. destruct HS as (d & w & _ & W & X1 & X2 & X3 & X4 & _). injection W as <-.
    apply d_error_frame in HE. destruct HE as (F1 & F2 & F3 & F4 & _). rewrite <- F1 in X1. rewrite <- F2 in X2. rewrite <- F3 in X3. rewrite <- F4 in X4.
    do 4 eexists. do 4 (split; [eassumption|]). unfold drop, dir_factor; cbn.
    assert (Z : forall i, wstar_sol (i + 8) = / 2) by (intros i; unfold wstar_sol; rewrite Nat.add_comm; cbn; destruct i; reflexivity).
    split; [reflexivity|]. split; [reflexivity|]. split; intros i; [apply Z|]. replace (i + 12)%nat with ((i + 4) + 8)%nat by lia. apply Z. }
  destruct HA as (x & y & bo & bi & X & Y & BO & BI & VX & VY & VBO & VBI).
  assert (PX : forall i, 0 < wstar_sol i) by (intros i; unfold wstar_sol; do 8 (destruct i as [|i]; [cbn; lra|]); destruct i; cbn; lra).
  assert (HD : forall x y bo bi, ds_x o' = Some x -> ds_y o' = Some y -> ds_bo o' = Some bo -> ds_bi o' = Some bi -> decm_dom (dn_n wstar) (join4 (dn_n wstar) x y bo bi)).
  { intros x' y' bo' bi' X' Y' BO' BI'. rewrite X in X'. rewrite Y in Y'. rewrite BO in BO'. rewrite BI in BI'. injection X' as <-. injection Y' as <-. injection BO' as <-. injection BI' as <-. split.
    - intros r _. unfold join4, join2. repeat match goal with |- context [if ?b then _ else _] => destruct b end; rewrite ?VX, ?VY, ?VBO, ?VBI; try lra; left; apply PX.
    - intros i j Hi Hj _. destruct (join4_blocks (dn_n wstar) x y bo bi i Hi) as (_ & _ & I3 & _), (join4_blocks (dn_n wstar) x y bo bi j Hj) as (_ & _ & _ & J4). rewrite I3, J4, VBO, VBI. lra. }
  destruct (d_error_decm wstar k_wstar (d_fresh false) o') as (v & s & x' & y' & bo' & bi' & e1 & e2 & e3 & e4 & _ & X' & Y' & BO' & BI' & E & _ & _ & _ & _ & [_ (i1 & Hi1 & S1)] & [_ (i2 & Hi2 & S2)] & [_ (i3 & Hi3 & S3)] & [_ (i4 & Hi4 & S4)]);
    [cbn; lia|cbn; tauto|exact H|exact HD|].
  rewrite X in X'. rewrite Y in Y'. rewrite BO in BO'. rewrite BI in BI'. injection X' as <-. injection Y' as <-. injection BO' as <-. injection BI' as <-.
  assert (X0 : x 0%nat = 270) by apply VX. assert (X1 : x 1%nat = / 10) by apply VX. assert (X2 : x 2%nat = / 10) by apply VX. assert (X3 : x 3%nat = / 10) by apply VX.
  assert (Y0 : y 0%nat = 270) by apply VY. assert (Y1 : y 1%nat = / 10) by apply VY. assert (Y2 : y 2%nat = / 10) by apply VY. assert (Y3 : y 3%nat = / 10) by apply VY.
  assert (B : e1 <= 2 / 5 /\ e2 <= 2 / 5 /\ e3 <= 2 / 5 /\ e4 <= 2 / 5).
  { cbn in Hi1, Hi2, Hi3, Hi4. rewrite S1, S2, S3, S4. split; [|split; [|split]].
    - destruct i1 as [|[|[|[|i1]]]]; try lia; unfold mean_out_deg, link_mean, at_list; cbn; rewrite ?VBO, ?VBI, ?X0, ?X1, ?X2, ?X3, ?Y0, ?Y1, ?Y2, ?Y3; bound.
    - destruct i2 as [|[|[|[|i2]]]]; try lia; unfold mean_in_deg, link_mean, at_list; cbn; rewrite ?VBO, ?VBI, ?X0, ?X1, ?X2, ?X3, ?Y0, ?Y1, ?Y2, ?Y3; bound.
    - destruct i3 as [|[|[|[|i3]]]]; try lia; unfold mean_out_str, weight_mean; cbn; rewrite ?VBO, ?VBI, ?X0, ?X1, ?X2, ?X3, ?Y0, ?Y1, ?Y2, ?Y3; bound.
    - destruct i4 as [|[|[|[|i4]]]]; try lia; unfold mean_in_str, weight_mean; cbn; rewrite ?VBO, ?VBI, ?X0, ?X1, ?X2, ?X3, ?Y0, ?Y1, ?Y2, ?Y3; bound. }
  destruct B as (B1 & B2 & B3 & B4). assert (M : Rmax (Rmax e1 e2) (Rmax e3 e4) <= 2 / 5) by (repeat apply Rmax_lub; assumption).
  exists o', (Rmax (Rmax e1 e2) (Rmax e3 e4)). split; [cbn; lia|]. split; [cbn; tauto|]. do 3 (split; [assumption|]). unfold at_list. cbn. lra.
Qed.
