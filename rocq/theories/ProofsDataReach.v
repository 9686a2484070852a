(** Two networks with close degrees, each solved by a call bound to reach its tolerance. *)
From Coq Require Import Reals List Arith Bool ZArith String Lia Lra.
From Verif Require Import Base SpecGraph SpecDirected SpecEnsemble SpecNetwork SpecLife SpecLinsearch SpecDispatch SpecGuess SpecRun SpecSolve SpecTool SpecReach SpecReachTool SpecNear SpecData
  ModelNetwork ModelLife ModelDispatch ModelGuess ModelSolve ModelTool ModelObject SpecObject.
From Verif Require Import ProofsSolve ProofsSolveU ProofsSolveD ProofsReachTool ProofsReachObject ProofsPipeline ProofsNearTool ProofsData.
Import ListNotations.
Local Open Scope R_scope.
#[local] Opaque u_dispatch d_dispatch lookup.

Lemma data_reached (L : Type) e e' (g h : @ugraph L) nm nm' tol n a b ds ds' d : (0 < n)%nat -> INR n <= 10 ^ 22 ->
  u_dseq g = Some (row_degrees n a) -> u_dseq h = Some (row_degrees n b) ->
  symmetric n a -> (forall i, (i < n)%nat -> a i i = 0) -> symmetric n b -> (forall i, (i < n)%nat -> b i i = 0) ->
  within n (deg n (links a)) (deg n (links b)) d ->
  distinct (row_degrees n a) ds -> sound_numpy (List.length ds) e -> distinct (row_degrees n b) ds' -> sound_numpy (List.length ds') e' ->
  In nm binary_names -> In nm' binary_names -> 0 < tol ->
  eventually (fun M eps => forall t t', exp_call "cm_exp" nm e tol M eps t -> exp_call "cm_exp" nm' e' tol M eps t' -> exists o o' x x',
    returned (u_new_tool e g t) o /\ returned (u_new_tool e' h t') o' /\ us_x o = Some x /\ us_x o' = Some x' /\
    (forall i, (i < n)%nat -> 0 < x i /\ 0 < x' i) /\ 4 * apart_und n (p_ubcm x) (p_ubcm x') <= (2 * tol + d) * log_gap n x x').
Proof.
  intros Hn Hb EA EB Sa Da Sb Db W Ha Na Hb' Nb Hnm Hnm' Ht.
  destruct (object_cm_exp_data L e g nm tol n a ds Hn Hb EA Sa Da Ha Na Hnm Ht) as (M1 & e1 & He1 & H1).
  destruct (object_cm_exp_data L e' h nm' tol n b ds' Hn Hb EB Sb Db Hb' Nb Hnm' Ht) as (M2 & e2 & He2 & H2).
  exists (Nat.max M1 M2), (Rmin e1 e2). split; [apply Rmin_pos; assumption|]. intros M eps HM He t t' T T'.
  pose proof (Rmin_l e1 e2) as L1. pose proof (Rmin_r e1 e2) as L2.
  destruct (H1 M eps ltac:(lia) ltac:(lra) t T) as (o & R & x & err & X & E & HP & HE & _).
  destruct (H2 M eps ltac:(lia) ltac:(lra) t' T') as (o' & R' & x' & err' & X' & E' & HP' & HE' & _).
  exists o, o', x, x'. split; [exact R|]. split; [exact R'|]. split; [exact X|]. split; [exact X'|].
  split; [intros i Hi; split; [apply HP, Hi|apply HP', Hi]|].
  destruct (returned_net L e g t o n a (proj1 T) EA R) as (net & EN & EK & RT).
  destruct (returned_net L e' h t' o' n b (proj1 T') EB R') as (net' & EN' & EK' & RT').
  assert (C1 : c_model (ModelTool.u_call e net t (u_fresh (u_is_sparse g))) = "cm_exp"%string) by exact (proj1 T).
  assert (C2 : c_model (ModelTool.u_call e' net' t' (u_fresh (u_is_sparse h))) = "cm_exp"%string) by exact (proj1 T').
  destruct (data_cm net net' _ _ (u_fresh (u_is_sparse g)) (u_fresh (u_is_sparse h)) o o' d ltac:(rewrite EN; exact Hn) ltac:(rewrite EN, EN'; reflexivity)
    ltac:(rewrite EN; intros i Hi; rewrite EK, EK' by exact Hi; apply W, Hi) eq_refl eq_refl ltac:(rewrite C1; cbn; tauto) ltac:(rewrite C2; cbn; tauto) RT RT')
    as (x1 & f1 & x2 & f2 & X1 & F1 & X2 & F2 & K).
  rewrite X in X1. injection X1 as <-. rewrite X' in X2. injection X2 as <-. rewrite E in F1. injection F1 as <-. rewrite E' in F2. injection F2 as <-.
  rewrite EN in K. eapply Rle_trans; [apply K|].
  - intros i Hi. pose proof (HP i Hi). pose proof (HP' i Hi). repeat split; lra.
  - intros i Hi. pose proof (HP i Hi). pose proof (HP' i Hi). repeat split; lra.
  - apply Rmult_le_compat_r; [apply log_gap_nonneg|lra].
Qed.
Lemma data_reached_dir (L : Type) e e' (g h : @dgraph L) nm nm' tol n a b ds ds' d : (0 < n)%nat -> INR n <= 10 ^ 21 ->
  d_dseq_out g = Some (row_degrees n a) -> d_dseq_in g = Some (col_degrees n a) -> d_dseq_out h = Some (row_degrees n b) -> d_dseq_in h = Some (col_degrees n b) ->
  (forall i, (i < n)%nat -> a i i = 0) -> (forall i, (i < n)%nat -> b i i = 0) ->
  (forall i, (i < n)%nat -> 0 < deg n (links a) i /\ 0 < indeg n (links a) i) -> (forall i, (i < n)%nat -> 0 < deg n (links b) i /\ 0 < indeg n (links b) i) ->
  within n (deg n (links a)) (deg n (links b)) d -> within n (indeg n (links a)) (indeg n (links b)) d ->
  distinct (combine (row_degrees n a) (col_degrees n a)) ds -> sound_numpy (2 * List.length ds) e ->
  distinct (combine (row_degrees n b) (col_degrees n b)) ds' -> sound_numpy (2 * List.length ds') e' ->
  In nm binary_names -> In nm' binary_names -> 0 < tol ->
  eventually (fun M eps => forall t t', exp_call "dcm_exp" nm e tol M eps t -> exp_call "dcm_exp" nm' e' tol M eps t' -> exists o o' x y x' y',
    returned (d_new_tool e g t) o /\ returned (d_new_tool e' h t') o' /\ ds_x o = Some x /\ ds_y o = Some y /\ ds_x o' = Some x' /\ ds_y o' = Some y' /\
    (forall i, (i < n)%nat -> 0 < x i /\ 0 < y i /\ 0 < x' i /\ 0 < y' i) /\
    4 * apart_dir n (p_dbcm x y) (p_dbcm x' y') <= (2 * tol + d) * (log_gap n x x' + log_gap n y y')).
Proof.
  intros Hn Hb EA EA' EB EB' Da Db Pa Pb W W' Ha Na Hb' Nb Hnm Hnm' Ht.
  destruct (object_dcm_exp_data L e g nm tol n a ds Hn Hb EA EA' Da Ha Na Hnm Ht) as (M1 & e1 & He1 & H1).
  destruct (object_dcm_exp_data L e' h nm' tol n b ds' Hn Hb EB EB' Db Hb' Nb Hnm' Ht) as (M2 & e2 & He2 & H2).
  exists (Nat.max M1 M2), (Rmin e1 e2). split; [apply Rmin_pos; assumption|]. intros M eps HM He t t' T T'.
  pose proof (Rmin_l e1 e2) as L1. pose proof (Rmin_r e1 e2) as L2.
  destruct (H1 M eps ltac:(lia) ltac:(lra) t T) as (o & R & x & y & err & X & Y & E & HP & _ & HE). specialize (HE Pa).
  destruct (H2 M eps ltac:(lia) ltac:(lra) t' T') as (o' & R' & x' & y' & err' & X' & Y' & E' & HP' & _ & HE'). specialize (HE' Pb).
  exists o, o', x, y, x', y'. split; [exact R|]. split; [exact R'|]. split; [exact X|]. split; [exact Y|]. split; [exact X'|]. split; [exact Y'|].
  split; [intros i Hi; destruct (HP i Hi), (HP' i Hi); tauto|].
  destruct (returned_net_dir L e g t o n a (proj1 T) EA EA' R) as (net & EN & PN & EK & EI & RT).
  destruct (returned_net_dir L e' h t' o' n b (proj1 T') EB EB' R') as (net' & EN' & PN' & EK' & EI' & RT').
  assert (C1 : c_model (ModelTool.d_call e net t (d_fresh (d_is_sparse g))) = "dcm_exp"%string) by exact (proj1 T).
  assert (C2 : c_model (ModelTool.d_call e' net' t' (d_fresh (d_is_sparse h))) = "dcm_exp"%string) by exact (proj1 T').
  destruct (data_dcm net net' _ _ (d_fresh (d_is_sparse g)) (d_fresh (d_is_sparse h)) o o' d ltac:(rewrite EN; exact Hn) ltac:(rewrite EN, EN'; reflexivity) PN PN'
    ltac:(rewrite EN; intros i Hi; rewrite EK, EK' by exact Hi; apply W, Hi) ltac:(rewrite EN; intros i Hi; rewrite EI, EI' by exact Hi; apply W', Hi)
    eq_refl eq_refl ltac:(rewrite C1; cbn; tauto) ltac:(rewrite C2; cbn; tauto) RT RT')
    as (x1 & y1 & f1 & x2 & y2 & f2 & X1 & Y1 & F1 & X2 & Y2 & F2 & K).
  rewrite X in X1. injection X1 as <-. rewrite X' in X2. injection X2 as <-. rewrite E in F1. injection F1 as <-. rewrite E' in F2. injection F2 as <-.
  rewrite Y in Y1. injection Y1 as <-. rewrite Y' in Y2. injection Y2 as <-.
  rewrite EN in K. eapply Rle_trans; [apply K|].
  1-4: intros i Hi; destruct (HP i Hi), (HP' i Hi); repeat split; lra.
  pose proof (log_gap_nonneg n x x'). pose proof (log_gap_nonneg n y y'). apply Rmult_le_compat_r; lra.
Qed.
