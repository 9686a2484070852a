(** Pairs of calls of the weighted models that meet the hypotheses of the theorems on two calls. *)
From Coq Require Import Reals List Arith Lia Lra String.
From Verif Require Import Base SpecGraph SpecWeighted SpecSolve SpecNear ModelDispatch SpecDispatch ModelSolve ProofsSolve ProofsSolveU ProofsSolveD WitnessSolve WitnessNear.
Import ListNotations.
Local Open Scope R_scope.

Definition k_ecm_third : call := call_of "ecm" "newton" AdjOther half third.
Definition k_decm_third : call := call_of "decm" "newton" AdjOther half third.
Lemma ecm_at v : exists o' x y, u_solve_tool g2 (call_of "ecm" "newton" AdjOther half v) (u_fresh false) = (o', None) /\
  us_x o' = Some x /\ us_y o' = Some y /\ (forall i, exists j, x i = v j) /\ (forall i, exists j, y i = v j).
Proof.
  set (k := call_of "ecm" "newton" AdjOther half v).
  destruct (u_completes g2 k (u_fresh false) v (vec v)) as (o' & H); [cbn; tauto|cbn; tauto|cbn; intros [E|[E|[]]]; discriminate E|reflexivity|reflexivity|].
  destruct (u_error_ecm g2 k (u_fresh false) o') as (w & x & y & ek & es & V & X & Y & _ & HX & HY & _); [cbn; lia|cbn; tauto|exact H|].
  injection V as <-. cbn in HX, HY. exists o', x, y. do 3 (split; [assumption|]). split; intros i; [rewrite HX|rewrite HY]; eexists; reflexivity.
Qed.
Lemma decm_at v : exists o' x y bo bi, d_solve_tool d2 (call_of "decm" "newton" AdjOther half v) (d_fresh false) = (o', None) /\
  ds_x o' = Some x /\ ds_y o' = Some y /\ ds_bo o' = Some bo /\ ds_bi o' = Some bi /\
  (forall i, exists j, x i = v j) /\ (forall i, exists j, y i = v j) /\ (forall i, exists j, bo i = v j) /\ (forall i, exists j, bi i = v j).
Proof.
  set (k := call_of "decm" "newton" AdjOther half v).
  destruct (d_completes d2 k (d_fresh false) v (vec v)) as (o' & H); [cbn; tauto|cbn; tauto|reflexivity|reflexivity|reflexivity|].
  destruct (d_tool_problem d2 k (d_fresh false) o' (or_intror (or_intror (or_introl eq_refl))) H) as (p & HS & HE).
  apply d_solve_decm in HS; [|cbn; tauto]. destruct HS as (d & w & _ & W & X1 & X2 & X3 & X4 & _). injection W as <-.
  apply d_error_frame in HE. destruct HE as (F1 & F2 & F3 & F4 & _).
  rewrite <- F1 in X1. rewrite <- F2 in X2. rewrite <- F3 in X3. rewrite <- F4 in X4.
  do 5 eexists. split; [exact H|]. do 4 (split; [eassumption|]). unfold drop, dir_factor; cbn. repeat split; intros i; eexists; reflexivity.
Qed.
Lemma at_const (h : R) (x : nat -> R) : (forall i, exists j : nat, x i = (fun _ => h) j) -> forall i, x i = h.
Proof. intros H i. destruct (H i) as (_ & E). exact E. Qed.
Lemma halves n (x z : nat -> R) : (forall i, x i = 1 / 2) -> (forall i, z i = / 3) ->
  comparable n x z /\ comparable n z x.
Proof. intros H K. split; intros i _; rewrite H, K; lra. Qed.
Lemma ecm_two_case : exists o1 o2 x1 y1 x2 y2, (0 < un_n g2)%nat /\ In (c_model k_ecm) ["ecm"; "ecm_exp"]%string /\ In (c_model k_ecm_third) ["ecm"; "ecm_exp"]%string /\
  u_solve_tool g2 k_ecm (u_fresh false) = (o1, None) /\ u_solve_tool g2 k_ecm_third (u_fresh false) = (o2, None) /\
  us_x o1 = Some x1 /\ us_y o1 = Some y1 /\ us_x o2 = Some x2 /\ us_y o2 = Some y2 /\
  comparable (un_n g2) x1 x2 /\ comparable (un_n g2) x2 x1 /\ comparable (un_n g2) y1 y2 /\ comparable (un_n g2) y2 y1 /\ tame (un_n g2) y1 y1 /\ tame (un_n g2) y2 y2 /\
  forall i, x1 i <> x2 i.
Proof.
  destruct (ecm_at half) as (o1 & x1 & y1 & H1 & X1 & Y1 & A1 & B1), (ecm_at third) as (o2 & x2 & y2 & H2 & X2 & Y2 & A2 & B2).
  pose proof (at_const _ _ A1) as P1. pose proof (at_const _ _ B1) as Q1. pose proof (at_const _ _ A2) as P2. pose proof (at_const _ _ B2) as Q2.
  destruct (halves (un_n g2) x1 x2 P1 P2) as [C1 C2], (halves (un_n g2) y1 y2 Q1 Q2) as [C3 C4].
  exists o1, o2, x1, y1, x2, y2. split; [cbn; lia|]. split; [cbn; tauto|]. split; [cbn; tauto|]. do 10 (split; [assumption|]).
  split; [intros i j _ _ _; rewrite !Q1; lra|]. split; [intros i j _ _ _; rewrite !Q2; lra|]. intros i. rewrite P1, P2. lra.
Qed.
Lemma decm_dom_const n h x y bo bi : 0 < h < 1 -> (forall i, x i = h) -> (forall i, y i = h) -> (forall i, bo i = h) -> (forall i, bi i = h) -> decm_dom n (join4 n x y bo bi).
Proof.
  intros Hh A B C D. assert (J : forall r, join4 n x y bo bi r = h).
  { intros r. unfold join4, join2. repeat match goal with |- context [if ?b then _ else _] => destruct b end; auto. }
  split; intros; rewrite !J; nra.
Qed.
Lemma decm_two_case : exists o1 o2 x y bo bi z v co ci, (0 < dn_n d2)%nat /\ In (c_model k_decm) ["decm"; "decm_exp"]%string /\ In (c_model k_decm_third) ["decm"; "decm_exp"]%string /\
  d_solve_tool d2 k_decm (d_fresh false) = (o1, None) /\ d_solve_tool d2 k_decm_third (d_fresh false) = (o2, None) /\
  ds_x o1 = Some x /\ ds_y o1 = Some y /\ ds_bo o1 = Some bo /\ ds_bi o1 = Some bi /\ ds_x o2 = Some z /\ ds_y o2 = Some v /\ ds_bo o2 = Some co /\ ds_bi o2 = Some ci /\
  decm_dom (dn_n d2) (join4 (dn_n d2) x y bo bi) /\ decm_dom (dn_n d2) (join4 (dn_n d2) z v co ci) /\
  (comparable (dn_n d2) x z /\ comparable (dn_n d2) z x) /\ (comparable (dn_n d2) y v /\ comparable (dn_n d2) v y) /\
  (comparable (dn_n d2) bo co /\ comparable (dn_n d2) co bo) /\ (comparable (dn_n d2) bi ci /\ comparable (dn_n d2) ci bi) /\ forall i, x i <> z i.
Proof.
  destruct (decm_at half) as (o1 & x & y & bo & bi & H1 & X1 & X2 & X3 & X4 & A1 & A2 & A3 & A4), (decm_at third) as (o2 & z & v & co & ci & H2 & Y1 & Y2 & Y3 & Y4 & B1 & B2 & B3 & B4).
  pose proof (at_const _ _ A1) as P1. pose proof (at_const _ _ A2) as P2. pose proof (at_const _ _ A3) as P3. pose proof (at_const _ _ A4) as P4.
  pose proof (at_const _ _ B1) as Q1. pose proof (at_const _ _ B2) as Q2. pose proof (at_const _ _ B3) as Q3. pose proof (at_const _ _ B4) as Q4.
  exists o1, o2, x, y, bo, bi, z, v, co, ci. split; [cbn; lia|]. split; [cbn; tauto|]. split; [cbn; tauto|]. do 10 (split; [assumption|]).
  split; [apply (decm_dom_const _ (1 / 2)); [lra|assumption..]|]. split; [apply (decm_dom_const _ (/ 3)); [lra|assumption..]|].
  do 4 (split; [apply halves; assumption|]). intros i. rewrite P1, Q1. lra.
Qed.
