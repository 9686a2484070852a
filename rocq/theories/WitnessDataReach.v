(** Two networks that meet the conditions: a path and a triangle, each beside an isolated node. *)
From Coq Require Import Reals List Arith Bool ZArith String Lia Lra.
From Verif Require Import Base SpecGraph SpecNetwork SpecLife SpecLinsearch SpecDispatch SpecGuess SpecRun SpecSolve SpecTool SpecReach SpecReachTool SpecNear SpecData
  ModelNetwork ModelLife ModelDispatch ModelGuess ModelSolve ModelTool ModelObject SpecObject.
From Verif Require Import ProofsReachObject ProofsReachTool ProofsReachNet WitnessReachTool.
Import ListNotations.
Local Open Scope R_scope.

Definition lone_triangle (i j : nat) : R := nth (4 * i + j)%nat [0; 2; 1; 0; 2; 0; 3; 0; 1; 3; 0; 0; 0; 0; 0; 0] 0.
Lemma triangle_degrees : row_degrees 4 lone_triangle = map INR [2; 2; 2; 0]%nat.
Proof. unfold row_degrees, lone_triangle, count. decide_entry. reflexivity. Qed.
Lemma triangle_meets : exists ds e, symmetric 4 lone_triangle /\ (forall i, (i < 4)%nat -> lone_triangle i i = 0) /\
  distinct (row_degrees 4 lone_triangle) ds /\ sound_numpy (List.length ds) e /\
  forall meth nm tol M eps, In meth descent_methods -> exists t, exp_call "cm_exp" nm e tol M eps t /\ t_method t = meth.
Proof.
  destruct (numpy_exists 2) as (e & H1 & H2). exists (map INR [0; 2]%nat), e.
  split. { intros i j Hi Hj. do 4 (destruct i as [|i]; [do 4 (destruct j as [|j]; [reflexivity|]); lia|]). lia. }
  split. { intros i Hi. do 4 (destruct i as [|i]; [reflexivity|]). lia. }
  split; [|split; [exact H1|intros; apply H2; assumption]].
  rewrite triangle_degrees. split; [cbn; repeat constructor; cbn; intros Q; repeat (destruct Q as [Q|Q]; [lra|]); exact Q|]. intros v. cbn. tauto.
Qed.
Lemma lone_within : within 4 (deg 4 (links lone_path)) (deg 4 (links lone_triangle)) 1.
Proof.
  intros i Hi. rewrite <- (row_deg 4 lone_path [1; 2; 1; 0]%nat i (eq_sym lone_degrees) Hi), <- (row_deg 4 lone_triangle [2; 2; 2; 0]%nat i (eq_sym triangle_degrees) Hi).
  do 4 (destruct i as [|i]; [unfold at_list; cbn; unfold Rabs; destruct (Rcase_abs _); lra|]). lia.
Qed.
Lemma two_lone_meet : exists ds ds' e e', (0 < 4)%nat /\ INR 4 <= 10 ^ 22 /\ symmetric 4 lone_path /\ (forall i, (i < 4)%nat -> lone_path i i = 0) /\
  symmetric 4 lone_triangle /\ (forall i, (i < 4)%nat -> lone_triangle i i = 0) /\ within 4 (deg 4 (links lone_path)) (deg 4 (links lone_triangle)) 1 /\
  distinct (row_degrees 4 lone_path) ds /\ sound_numpy (List.length ds) e /\ distinct (row_degrees 4 lone_triangle) ds' /\ sound_numpy (List.length ds') e' /\
  forall meth nm tol M eps, In meth descent_methods -> exists t t', exp_call "cm_exp" nm e tol M eps t /\ exp_call "cm_exp" nm e' tol M eps t' /\ t_method t = meth /\ t_method t' = meth.
Proof.
  destruct lone_meets as (ds & e & A1 & A2 & _ & A3 & A4 & A5 & A6 & A7). destruct triangle_meets as (ds' & e' & B3 & B4 & B5 & B6 & B7).
  exists ds, ds', e, e'. do 2 (split; [assumption|]). do 4 (split; [assumption|]). split; [exact lone_within|]. do 4 (split; [assumption|]).
  intros meth nm tol M eps Hm. destruct (A7 meth nm tol M eps Hm) as (t & T1 & T2). destruct (B7 meth nm tol M eps Hm) as (t' & T3 & T4). exists t, t'. tauto.
Qed.
(** A cycle of three nodes, and three nodes with all links. *)
Definition cycle_net (i j : nat) : R := nth (3 * i + j)%nat [0; 1; 0; 0; 0; 1; 1; 0; 0] 0.
Definition all_net (i j : nat) : R := nth (3 * i + j)%nat [0; 1; 1; 1; 0; 1; 1; 1; 0] 0.
Lemma cycle_degrees : row_degrees 3 cycle_net = map INR [1; 1; 1]%nat /\ col_degrees 3 cycle_net = map INR [1; 1; 1]%nat.
Proof. split; unfold row_degrees, col_degrees, cycle_net, count; decide_entry; reflexivity. Qed.
Lemma all_degrees : row_degrees 3 all_net = map INR [2; 2; 2]%nat /\ col_degrees 3 all_net = map INR [2; 2; 2]%nat.
Proof. split; unfold row_degrees, col_degrees, all_net, count; decide_entry; reflexivity. Qed.
Ltac three i Hi := do 3 (destruct i as [|i]; [unfold at_list; cbn; unfold Rabs; try destruct (Rcase_abs _); lra|]); lia.
Lemma two_cycles_meet : exists ds ds' e e', (0 < 3)%nat /\ INR 3 <= 10 ^ 21 /\ (forall i, (i < 3)%nat -> cycle_net i i = 0) /\ (forall i, (i < 3)%nat -> all_net i i = 0) /\
  (forall i, (i < 3)%nat -> 0 < deg 3 (links cycle_net) i /\ 0 < indeg 3 (links cycle_net) i) /\ (forall i, (i < 3)%nat -> 0 < deg 3 (links all_net) i /\ 0 < indeg 3 (links all_net) i) /\
  within 3 (deg 3 (links cycle_net)) (deg 3 (links all_net)) 1 /\ within 3 (indeg 3 (links cycle_net)) (indeg 3 (links all_net)) 1 /\
  distinct (combine (row_degrees 3 cycle_net) (col_degrees 3 cycle_net)) ds /\ sound_numpy (2 * List.length ds) e /\
  distinct (combine (row_degrees 3 all_net) (col_degrees 3 all_net)) ds' /\ sound_numpy (2 * List.length ds') e' /\
  forall meth nm tol M eps, In meth descent_methods -> exists t t', exp_call "dcm_exp" nm e tol M eps t /\ exp_call "dcm_exp" nm e' tol M eps t' /\ t_method t = meth /\ t_method t' = meth.
Proof.
  destruct (numpy_exists 2) as (e & H1 & H2). destruct cycle_degrees as [A B], all_degrees as [C D].
  assert (A' : forall i, (i < 3)%nat -> at_list [1; 1; 1]%nat i = deg 3 (links cycle_net) i) by (intros i Hi; apply row_deg; [exact (eq_sym A)|exact Hi]).
  assert (B' : forall i, (i < 3)%nat -> at_list [1; 1; 1]%nat i = indeg 3 (links cycle_net) i) by (intros i Hi; apply col_deg; [exact (eq_sym B)|exact Hi]).
  assert (C' : forall i, (i < 3)%nat -> at_list [2; 2; 2]%nat i = deg 3 (links all_net) i) by (intros i Hi; apply row_deg; [exact (eq_sym C)|exact Hi]).
  assert (D' : forall i, (i < 3)%nat -> at_list [2; 2; 2]%nat i = indeg 3 (links all_net) i) by (intros i Hi; apply col_deg; [exact (eq_sym D)|exact Hi]).
  exists [(INR 1, INR 1)], [(INR 2, INR 2)], e, e. split; [lia|]. split; [simpl; lra|].
  split. { intros i Hi. do 3 (destruct i as [|i]; [reflexivity|]). lia. }
  split. { intros i Hi. do 3 (destruct i as [|i]; [reflexivity|]). lia. }
  split. { intros i Hi. rewrite <- A', <- B' by exact Hi. split; three i Hi. }
  split. { intros i Hi. rewrite <- C', <- D' by exact Hi. split; three i Hi. }
  split. { intros i Hi. rewrite <- A', <- C' by exact Hi. three i Hi. }
  split. { intros i Hi. rewrite <- B', <- D' by exact Hi. three i Hi. }
  rewrite A, B, C, D. split; [split; [repeat constructor; cbn; tauto|intros v; cbn; tauto]|]. split; [exact H1|].
  split; [split; [repeat constructor; cbn; tauto|intros v; cbn; tauto]|]. split; [exact H1|].
  intros meth nm tol M eps Hm. destruct (H2 "dcm_exp"%string meth nm tol M eps Hm) as (t & T1 & T2). exists t, t. tauto.
Qed.
