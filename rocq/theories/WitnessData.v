(** Calls on two networks that meet the hypotheses of the theorems on close networks: a path
    and a triangle. *)
From Coq Require Import Reals List Arith Lia Lra String.
From Verif Require Import Base SpecGraph SpecWeighted SpecSolve SpecNear SpecData ModelDispatch SpecDispatch ModelSolve ProofsSolve ProofsSolveU ProofsSolveD WitnessSolve WitnessNear WitnessNearE.
Import ListNotations.
Local Open Scope R_scope.

Definition path3 : unet := {| un_dseq := [1; 2; 1]%nat; un_str := fun _ => 2 |}.
Definition tri3 : unet := {| un_dseq := [2; 2; 2]%nat; un_str := fun _ => 3 |}.
Definition dpath3 : dnet := {| dn_out := [1; 2; 1]%nat; dn_in := [1; 2; 1]%nat; dn_sout := fun _ => 2; dn_sin := fun _ => 2 |}.
Definition dtri3 : dnet := {| dn_out := [2; 2; 2]%nat; dn_in := [2; 2; 2]%nat; dn_sout := fun _ => 3; dn_sin := fun _ => 3 |}.
Lemma three_deg : within 3 (at_list [1; 2; 1]%nat) (at_list [2; 2; 2]%nat) 1.
Proof. intros i Hi. destruct i as [|[|[|i]]]; try lia; unfold at_list; cbn; unfold Rabs; destruct (Rcase_abs _); lra. Qed.
Lemma three_str : within 3 (fun _ => 2) (fun _ => 3) 1.
Proof. intros i _. unfold Rabs. destruct (Rcase_abs _); lra. Qed.

Lemma cm_at3 g v : (0 < un_n g)%nat -> exists o' x, u_solve_tool g (call_of "cm" "newton" AdjOther half v) (u_fresh false) = (o', None) /\
  us_x o' = Some x /\ (forall i, exists j, x i = v j).
Proof.
  intros Hn. set (k := call_of "cm" "newton" AdjOther half v).
  destruct (u_completes g k (u_fresh false) v (vec v)) as (o' & H); [cbn; tauto|cbn; tauto|intros _; reflexivity|reflexivity|reflexivity|].
  destruct (u_error_cm g k (u_fresh false) o' Hn eq_refl) as (w & cls & x & e & V & X & _ & _ & HX & _); [cbn; tauto|exact H|].
  injection V as <-. cbn in HX. exists o', x. do 2 (split; [assumption|]). intros i. exists (cls i). apply HX.
Qed.
Lemma ecm_at3 g v : (0 < un_n g)%nat -> exists o' x y, u_solve_tool g (call_of "ecm" "newton" AdjOther half v) (u_fresh false) = (o', None) /\
  us_x o' = Some x /\ us_y o' = Some y /\ (forall i, exists j, x i = v j) /\ (forall i, exists j, y i = v j).
Proof.
  intros Hn. set (k := call_of "ecm" "newton" AdjOther half v).
  destruct (u_completes g k (u_fresh false) v (vec v)) as (o' & H); [cbn; tauto|cbn; tauto|cbn; intros [E|[E|[]]]; discriminate E|reflexivity|reflexivity|].
  destruct (u_error_ecm g k (u_fresh false) o' Hn) as (w & x & y & ek & es & V & X & Y & _ & HX & HY & _); [cbn; tauto|exact H|].
  injection V as <-. cbn in HX, HY. exists o', x, y. do 3 (split; [assumption|]). split; intros i; [rewrite HX|rewrite HY]; eexists; reflexivity.
Qed.
Lemma crema_at3 g v : (0 < un_n g)%nat -> (forall i, 0 < v i) -> exists o', u_solve_tool g (call_of "crema" "newton" (AdjMatrix ones) half v) (u_fresh false) = (o', None) /\ us_beta o' = Some v.
Proof.
  intros Hn Hv. set (k := call_of "crema" "newton" (AdjMatrix ones) half v).
  assert (HO : hollow ones) by (intros i; unfold ones; rewrite Nat.eqb_refl; reflexivity).
  destruct (u_completes_crema g k (u_fresh false) ones v (vec v) eq_refl) as (o' & H); [cbn; tauto|reflexivity|exact HO|reflexivity|reflexivity|intros i j _ _; pose proof (Hv i); pose proof (Hv j); cbn; lra|].
  exists o'. split; [exact H|]. destruct (u_after_crema g k (u_fresh false) o' (or_introl eq_refl)) as (q & w & adj & _ & V & _ & _ & B & _); [cbn; tauto|exact H|]. injection V as <-. exact B.
Qed.
Lemma dcm_at3 g v : (0 < dn_n g)%nat -> d_paired g -> exists o' x y, d_solve_tool g (call_of "dcm" "newton" AdjOther half v) (d_fresh false) = (o', None) /\
  ds_x o' = Some x /\ ds_y o' = Some y /\ (forall i, (i < dn_n g)%nat -> exists j, x i = v j) /\ (forall i, (i < dn_n g)%nat -> exists j, y i = v j).
Proof.
  intros Hn HP. set (k := call_of "dcm" "newton" AdjOther half v).
  destruct (d_completes g k (d_fresh false) v (vec v)) as (o' & H); [cbn; tauto|cbn; tauto|reflexivity|reflexivity|reflexivity|].
  destruct (d_error_dcm g k (d_fresh false) o' Hn HP eq_refl) as (w & s & cls & m & x & y & e1 & e2 & V & X & Y & _ & HS & _ & HV & _); [cbn; tauto|exact H|].
  injection V as <-. cbn in HS. exists o', x, y. do 3 (split; [assumption|]). split; intros i Hi; destruct (HV i Hi) as (_ & EX & EY); [rewrite EX|rewrite EY]; rewrite HS; eexists; reflexivity.
Qed.
Lemma decm_at3 g v : exists o' x y bo bi, d_solve_tool g (call_of "decm" "newton" AdjOther half v) (d_fresh false) = (o', None) /\
  ds_x o' = Some x /\ ds_y o' = Some y /\ ds_bo o' = Some bo /\ ds_bi o' = Some bi /\
  (forall i, exists j, x i = v j) /\ (forall i, exists j, y i = v j) /\ (forall i, exists j, bo i = v j) /\ (forall i, exists j, bi i = v j).
Proof.
  set (k := call_of "decm" "newton" AdjOther half v).
  destruct (d_completes g k (d_fresh false) v (vec v)) as (o' & H); [cbn; tauto|cbn; tauto|reflexivity|reflexivity|reflexivity|].
  destruct (d_tool_problem g k (d_fresh false) o' (or_intror (or_intror (or_introl eq_refl))) H) as (p & HS & HE).
  apply d_solve_decm in HS; [|cbn; tauto]. destruct HS as (d & w & _ & W & X1 & X2 & X3 & X4 & _). injection W as <-.
  apply d_error_frame in HE. destruct HE as (F1 & F2 & F3 & F4 & _).
  rewrite <- F1 in X1. rewrite <- F2 in X2. rewrite <- F3 in X3. rewrite <- F4 in X4.
  do 5 eexists. split; [exact H|]. do 4 (split; [eassumption|]). unfold drop, dir_factor; cbn. repeat split; intros i; eexists; reflexivity.
Qed.
Lemma dcrema_at3 g v : (forall i, 0 < v i) -> exists o', d_solve_tool g (call_of "crema" "quasinewton" (AdjMatrix ones) half v) (d_fresh false) = (o', None) /\
  ds_bo o' = Some v /\ ds_bi o' = Some (drop (dn_n g) v).
Proof.
  intros Hv. set (k := call_of "crema" "quasinewton" (AdjMatrix ones) half v).
  destruct (d_completes_matrix g k (d_fresh false) ones v (vec v)) as (o' & H);
    [cbn; tauto|cbn; tauto|reflexivity|reflexivity|reflexivity|intros i j _ _ _; cbn; unfold drop; match goal with |- 0 < v ?a + v ?b => pose proof (Hv a); pose proof (Hv b) end; lra|].
  exists o'. split; [exact H|]. destruct (d_tool_crema g k (d_fresh false) o' (or_introl eq_refl) H) as (o1 & H1 & H2).
  apply d_crema_inv in H1; [|cbn; tauto]. destruct H1 as (o2 & d & w & v0 & adj & _ & _ & Hw & _ & ->). injection Hw as <-.
  destruct (d_error_frame _ _ _ _ H2) as (_ & _ & FB & FB' & _). cbn in FB, FB'. split; assumption.
Qed.

Definition k_of (model : string) (v : nat -> R) : call := call_of model "newton" AdjOther half v.
Definition k_rates (method : string) (v : nat -> R) : call := call_of "crema" method (AdjMatrix ones) half v.
Lemma halves_in n (x z : nat -> R) : (forall i, (i < n)%nat -> x i = 1 / 2) -> (forall i, (i < n)%nat -> z i = / 3) -> comparable n x z /\ comparable n z x.
Proof. intros H K. split; intros i Hi; rewrite (H i Hi), (K i Hi); lra. Qed.
Lemma data_und_case : (0 < un_n path3)%nat /\ un_n tri3 = un_n path3 /\ within (un_n path3) (at_list (un_dseq path3)) (at_list (un_dseq tri3)) 1 /\ within (un_n path3) (un_str path3) (un_str tri3) 1 /\
  (exists o1 o2 x1 x2, u_solve_tool path3 (k_of "cm" half) (u_fresh false) = (o1, None) /\ u_solve_tool tri3 (k_of "cm" third) (u_fresh false) = (o2, None) /\
    us_x o1 = Some x1 /\ us_x o2 = Some x2 /\ comparable (un_n path3) x1 x2 /\ comparable (un_n path3) x2 x1) /\
  (exists o1 o2 x1 y1 x2 y2, u_solve_tool path3 (k_of "ecm" half) (u_fresh false) = (o1, None) /\ u_solve_tool tri3 (k_of "ecm" third) (u_fresh false) = (o2, None) /\
    us_x o1 = Some x1 /\ us_y o1 = Some y1 /\ us_x o2 = Some x2 /\ us_y o2 = Some y2 /\
    (comparable (un_n path3) x1 x2 /\ comparable (un_n path3) x2 x1) /\ (comparable (un_n path3) y1 y2 /\ comparable (un_n path3) y2 y1) /\ tame (un_n path3) y1 y1 /\ tame (un_n path3) y2 y2) /\
  (exists o1 o2, hollow ones /\ u_solve_tool path3 (k_rates "newton" half) (u_fresh false) = (o1, None) /\ u_solve_tool tri3 (k_rates "newton" third) (u_fresh false) = (o2, None) /\
    (forall b, us_beta o1 = Some b -> positive_rates (un_n path3) ones b) /\ (forall b, us_beta o2 = Some b -> positive_rates (un_n path3) ones b)).
Proof.
  split; [cbn; lia|]. split; [reflexivity|]. split; [exact three_deg|]. split; [exact three_str|]. split; [|split].
  - destruct (cm_at3 path3 half ltac:(cbn; lia)) as (o1 & x1 & H1 & X1 & A1), (cm_at3 tri3 third ltac:(cbn; lia)) as (o2 & x2 & H2 & X2 & A2).
    exists o1, o2, x1, x2. do 4 (split; [assumption|]). apply halves; [apply (at_const _ _ A1)|apply (at_const _ _ A2)].
  - destruct (ecm_at3 path3 half ltac:(cbn; lia)) as (o1 & x1 & y1 & H1 & X1 & Y1 & A1 & B1), (ecm_at3 tri3 third ltac:(cbn; lia)) as (o2 & x2 & y2 & H2 & X2 & Y2 & A2 & B2).
    pose proof (at_const _ _ B1) as Q1. pose proof (at_const _ _ B2) as Q2.
    exists o1, o2, x1, y1, x2, y2. do 6 (split; [assumption|]). split; [apply halves; [apply (at_const _ _ A1)|apply (at_const _ _ A2)]|]. split; [apply halves; assumption|].
    split; intros i j _ _ _; [rewrite !Q1|rewrite !Q2]; lra.
  - destruct (crema_at3 path3 half ltac:(cbn; lia) ltac:(intros; unfold half; lra)) as (o1 & H1 & B1), (crema_at3 tri3 third ltac:(cbn; lia) ltac:(intros; unfold third; lra)) as (o2 & H2 & B2).
    exists o1, o2. split; [intros i; unfold ones; rewrite Nat.eqb_refl; reflexivity|]. do 2 (split; [assumption|]).
    split; intros b Hb; [rewrite B1 in Hb|rewrite B2 in Hb]; injection Hb as <-; intros i j _ _; unfold half, third; lra.
Qed.
Lemma data_dir_case : (0 < dn_n dpath3)%nat /\ dn_n dtri3 = dn_n dpath3 /\ d_paired dpath3 /\ d_paired dtri3 /\
  within (dn_n dpath3) (at_list (dn_out dpath3)) (at_list (dn_out dtri3)) 1 /\ within (dn_n dpath3) (at_list (dn_in dpath3)) (at_list (dn_in dtri3)) 1 /\
  within (dn_n dpath3) (dn_sout dpath3) (dn_sout dtri3) 1 /\ within (dn_n dpath3) (dn_sin dpath3) (dn_sin dtri3) 1 /\
  (exists o1 o2 x1 y1 x2 y2, d_solve_tool dpath3 (k_of "dcm" half) (d_fresh false) = (o1, None) /\ d_solve_tool dtri3 (k_of "dcm" third) (d_fresh false) = (o2, None) /\
    ds_x o1 = Some x1 /\ ds_y o1 = Some y1 /\ ds_x o2 = Some x2 /\ ds_y o2 = Some y2 /\
    (comparable (dn_n dpath3) x1 x2 /\ comparable (dn_n dpath3) x2 x1) /\ (comparable (dn_n dpath3) y1 y2 /\ comparable (dn_n dpath3) y2 y1)) /\
  (exists o1 o2 x y bo bi z v co ci, d_solve_tool dpath3 (k_of "decm" half) (d_fresh false) = (o1, None) /\ d_solve_tool dtri3 (k_of "decm" third) (d_fresh false) = (o2, None) /\
    ds_x o1 = Some x /\ ds_y o1 = Some y /\ ds_bo o1 = Some bo /\ ds_bi o1 = Some bi /\ ds_x o2 = Some z /\ ds_y o2 = Some v /\ ds_bo o2 = Some co /\ ds_bi o2 = Some ci /\
    decm_dom (dn_n dpath3) (join4 (dn_n dpath3) x y bo bi) /\ decm_dom (dn_n dpath3) (join4 (dn_n dpath3) z v co ci) /\
    (comparable (dn_n dpath3) x z /\ comparable (dn_n dpath3) z x) /\ (comparable (dn_n dpath3) y v /\ comparable (dn_n dpath3) v y) /\
    (comparable (dn_n dpath3) bo co /\ comparable (dn_n dpath3) co bo) /\ (comparable (dn_n dpath3) bi ci /\ comparable (dn_n dpath3) ci bi)) /\
  (exists o1 o2, d_solve_tool dpath3 (k_rates "quasinewton" half) (d_fresh false) = (o1, None) /\ d_solve_tool dtri3 (k_rates "quasinewton" third) (d_fresh false) = (o2, None) /\
    (forall bo bi, ds_bo o1 = Some bo -> ds_bi o1 = Some bi -> positive_rates_dir (dn_n dpath3) ones bo bi) /\
    (forall bo bi, ds_bo o2 = Some bo -> ds_bi o2 = Some bi -> positive_rates_dir (dn_n dpath3) ones bo bi)).
Proof.
  split; [cbn; lia|]. split; [reflexivity|]. split; [reflexivity|]. split; [reflexivity|]. split; [exact three_deg|]. split; [exact three_deg|]. split; [exact three_str|]. split; [exact three_str|]. split; [|split].
  - destruct (dcm_at3 dpath3 half ltac:(cbn; lia) eq_refl) as (o1 & x1 & y1 & H1 & X1 & Y1 & A1 & B1), (dcm_at3 dtri3 third ltac:(cbn; lia) eq_refl) as (o2 & x2 & y2 & H2 & X2 & Y2 & A2 & B2).
    exists o1, o2, x1, y1, x2, y2. do 6 (split; [assumption|]).
    split; apply halves_in; intros i Hi; [destruct (A1 i Hi) as (j & ->)|destruct (A2 i Hi) as (j & ->)|destruct (B1 i Hi) as (j & ->)|destruct (B2 i Hi) as (j & ->)]; reflexivity.
  - destruct (decm_at3 dpath3 half) as (o1 & x & y & bo & bi & H1 & X1 & X2 & X3 & X4 & A1 & A2 & A3 & A4), (decm_at3 dtri3 third) as (o2 & z & v & co & ci & H2 & Y1 & Y2 & Y3 & Y4 & B1 & B2 & B3 & B4).
    pose proof (at_const _ _ A1) as P1. pose proof (at_const _ _ A2) as P2. pose proof (at_const _ _ A3) as P3. pose proof (at_const _ _ A4) as P4.
    pose proof (at_const _ _ B1) as Q1. pose proof (at_const _ _ B2) as Q2. pose proof (at_const _ _ B3) as Q3. pose proof (at_const _ _ B4) as Q4.
    exists o1, o2, x, y, bo, bi, z, v, co, ci. do 10 (split; [assumption|]).
    split; [apply (decm_dom_const _ (1 / 2)); [lra|assumption..]|]. split; [apply (decm_dom_const _ (/ 3)); [lra|assumption..]|].
    do 3 (split; [apply halves; assumption|]). apply halves; assumption.
  - destruct (dcrema_at3 dpath3 half ltac:(intros; unfold half; lra)) as (o1 & H1 & B1 & C1), (dcrema_at3 dtri3 third ltac:(intros; unfold third; lra)) as (o2 & H2 & B2 & C2).
    exists o1, o2. do 2 (split; [assumption|]).
    split; intros bo bi Hb Hc; [rewrite B1 in Hb; rewrite C1 in Hc|rewrite B2 in Hb; rewrite C2 in Hc]; injection Hb as <-; injection Hc as <-; intros i j _ _ _; unfold drop, half, third; lra.
Qed.
