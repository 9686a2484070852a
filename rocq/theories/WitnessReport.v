(** Concrete cases for the relative errors and expected sequences; findings. *)
From Coq Require Import Reals List Arith Lra Lia Bool String.
From Verif Require Import Base SpecGraph SpecDirected SpecWeighted SpecCReMa SpecEnsemble SpecNetwork SpecSolve SpecDispatch SpecReport
  ModelCM ModelECM ModelDCM ModelDECM ModelCReMa ModelNetwork ModelDispatch ModelSolve ModelReport
  ProofsSolve ProofsSolveU ProofsSolveD ProofsReport ProofsReportFail WitnessSolve.
Local Open Scope R_scope.
Import ListNotations.
#[local] Opaque u_dispatch d_dispatch lookup.

Lemma report_cm : exists o' m', (0 < un_n g2)%nat /\ In (c_model k_cm) ["cm"; "cm_exp"]%string /\
  u_solve_measured g2 k_cm (u_fresh false) m_fresh = ((o', None), m').
Proof.
  destruct case_cm as (o' & H1 & _ & H2 & _ & H3 & _). destruct (u_measured_some _ _ _ _ m_fresh H3) as (m' & H4). exists o', m'. auto.
Qed.
Lemma report_ecm : exists o' m', (0 < un_n g2)%nat /\ In (c_model k_ecm) ["ecm"; "ecm_exp"]%string /\
  u_solve_measured g2 k_ecm (u_fresh false) m_fresh = ((o', None), m') /\
  (forall i, (i < un_n g2)%nat -> nth i (un_dseq g2) O <> O /\ 0 < un_str g2 i).
Proof.
  destruct case_ecm as (o' & H1 & H2 & _ & H3 & _). destruct (u_measured_some _ _ _ _ m_fresh H3) as (m' & H4). exists o', m'.
  do 3 (split; [assumption|]). intros i Hi. cbn in Hi |- *. destruct i as [|[|i]]; [split; [lia|lra]..|lia].
Qed.
Lemma report_crema : exists o' m', (0 < un_n g2)%nat /\ In (c_model k_crema) ["crema"; "crema-sparse"]%string /\
  c_adjacency k_crema = AdjMatrix ones /\ hollow ones /\ (forall i, (i < un_n g2)%nat -> 0 <= un_str g2 i) /\
  u_solve_measured g2 k_crema (u_fresh false) m_fresh = ((o', None), m') /\
  (forall b, us_beta o' = Some b -> positive_rates (un_n g2) ones b).
Proof.
  destruct case_crema as (o' & H1 & H2 & _ & H3 & H4 & H5 & H6). destruct (u_measured_some _ _ _ _ m_fresh H5) as (m' & H7). exists o', m'.
  split; [exact H1|]. split; [left; symmetry; exact H2|]. do 2 (split; [assumption|]). split; [intros; cbn; lra|]. split; assumption.
Qed.
Lemma report_crema_name : exists o' m', (0 < un_n g2)%nat /\ In (c_model k_crema_name) ["crema"; "crema-sparse"]%string /\
  c_adjacency k_crema_name = AdjName "cm" /\ (forall i, (i < un_n g2)%nat -> 0 <= un_str g2 i) /\
  u_solve_measured g2 k_crema_name (u_fresh false) m_fresh = ((o', None), m') /\
  (forall x b, us_x o' = Some x -> us_beta o' = Some b -> (forall i, (i < un_n g2)%nat -> 0 <= x i) /\ positive_rates (un_n g2) (p_ubcm x) b).
Proof.
  destruct case_crema_name as (o' & H1 & H2 & _ & H3 & H5 & H6). destruct (u_measured_some _ _ _ _ m_fresh H5) as (m' & H7). exists o', m'.
  do 3 (split; [assumption|]). split; [intros; cbn; lra|]. split; assumption.
Qed.
Lemma d2_nonneg i : (i < dn_n d2)%nat -> 0 <= dn_sout d2 i /\ 0 <= dn_sin d2 i.
Proof. intros _. cbn. lra. Qed.
Lemma report_dcm : exists o' m', (0 < dn_n d2)%nat /\ In (c_model k_dcm) ["dcm"; "dcm_exp"]%string /\
  d_solve_measured d2 k_dcm (d_fresh false) m_fresh = ((o', None), m').
Proof.
  destruct case_dcm as (o' & H1 & _ & _ & H2 & _ & H3 & _). destruct (d_measured_some _ _ _ _ m_fresh H3) as (m' & H4). exists o', m'.
  split; [exact H1|]. split; [left; symmetry; exact H2|exact H4].
Qed.
Lemma report_decm : exists o' m', (0 < dn_n d2)%nat /\ In (c_model k_decm) ["decm"; "decm_exp"]%string /\
  (forall i, (i < dn_n d2)%nat -> 0 <= dn_sout d2 i /\ 0 <= dn_sin d2 i) /\
  d_solve_measured d2 k_decm (d_fresh false) m_fresh = ((o', None), m') /\
  (forall x y bo bi, ds_x o' = Some x -> ds_y o' = Some y -> ds_bo o' = Some bo -> ds_bi o' = Some bi -> decm_dom (dn_n d2) (join4 (dn_n d2) x y bo bi)).
Proof.
  destruct case_decm as (o' & H1 & H2 & _ & H3 & H5 & _). destruct (d_measured_some _ _ _ _ m_fresh H3) as (m' & H4). exists o', m'.
  split; [exact H1|]. split; [left; symmetry; exact H2|]. split; [exact d2_nonneg|]. split; [exact H4|].
  intros x y bo bi X Y B B'. apply (H5 x y bo bi); assumption.
Qed.
Lemma report_dcrema : exists o' m', (0 < dn_n d2)%nat /\ In (c_model k_dcrema) ["crema"; "crema-sparse"]%string /\
  c_adjacency k_dcrema = AdjMatrix ones /\ (forall i, (i < dn_n d2)%nat -> 0 <= dn_sout d2 i /\ 0 <= dn_sin d2 i) /\
  d_solve_measured d2 k_dcrema (d_fresh false) m_fresh = ((o', None), m') /\
  (forall bo bi, ds_bo o' = Some bo -> ds_bi o' = Some bi -> positive_rates_dir (dn_n d2) ones bo bi).
Proof.
  destruct case_dcrema as (o' & H1 & H2 & _ & _ & H3 & H5 & H6). destruct (d_measured_some _ _ _ _ m_fresh H5) as (m' & H4). exists o', m'.
  split; [exact H1|]. split; [left; symmetry; exact H2|]. split; [exact H3|]. split; [exact d2_nonneg|]. split; assumption.
Qed.
Lemma report_dcrema_name : exists o' m', (0 < dn_n d2)%nat /\ d_paired d2 /\ In (c_model k_dcrema_name) ["crema"; "crema-sparse"]%string /\
  c_adjacency k_dcrema_name = AdjName "dcm" /\ (forall i, (i < dn_n d2)%nat -> 0 <= dn_sout d2 i /\ 0 <= dn_sin d2 i) /\
  d_solve_measured d2 k_dcrema_name (d_fresh false) m_fresh = ((o', None), m') /\
  (forall x y bo bi, ds_x o' = Some x -> ds_y o' = Some y -> ds_bo o' = Some bo -> ds_bi o' = Some bi ->
     supported (dn_n d2) (at_list (dn_out d2)) x /\ supported (dn_n d2) (at_list (dn_in d2)) y /\ positive_rates_dir (dn_n d2) (dcm_prob x y) bo bi).
Proof.
  destruct case_dcrema_name as (o' & H1 & H2 & H3 & _ & _ & H5 & H6 & H7 & _). destruct (d_measured_some _ _ _ _ m_fresh H6) as (m' & H4). exists o', m'.
  do 4 (split; [assumption|]). split; [exact d2_nonneg|]. split; assumption.
Qed.

(** * An isolated node and the enhanced model *)
Definition iso_first : unet := {| un_dseq := [0; 1; 1]%nat; un_str := fun i => match i with O => 0 | _ => 1 end |}.
Definition iso_last : unet := {| un_dseq := [1; 1; 0]%nat; un_str := fun i => match i with 2%nat => 0 | _ => 1 end |}.
Definition sol_first : nat -> R := fun r => match r with 0%nat | 3%nat => 0 | _ => 1/2 end.
Definition sol_last : nat -> R := fun r => match r with 2%nat | 5%nat => 0 | _ => 1/2 end.
Definition call_first : call := call_of "ecm" "newton" AdjOther half sol_first.
Definition call_last : call := call_of "ecm" "newton" AdjOther half sol_last.
Lemma fgt_nan v : fgt v NaN = false.
Proof. destruct v; reflexivity. Qed.
Lemma ecm_isolated : exists o1 m1 o2 m2 x1 y1 x2 y2 e,
  u_solve_measured iso_first call_first (u_fresh false) m_fresh = ((o1, None), m1) /\
  u_solve_measured iso_last call_last (u_fresh false) m_fresh = ((o2, None), m2) /\
  us_x o1 = Some x1 /\ us_y o1 = Some y1 /\ us_x o2 = Some x2 /\ us_y o2 = Some y2 /\
  (forall i, (i < 3)%nat -> nth i (un_dseq iso_last) O = nth (2 - i) (un_dseq iso_first) O /\ un_str iso_last i = un_str iso_first (2 - i)%nat /\
     x2 i = x1 (2 - i)%nat /\ y2 i = y1 (2 - i)%nat) /\
  m_rk m1 = Some NaN /\ m_rs m1 = Some NaN /\ m_rk m2 = Some (Fin e) /\ e = 12 / 13.
Proof.
  destruct (u_completes iso_first call_first (u_fresh false) sol_first (vec sol_first)) as (o1 & H1);
    [cbn; tauto|cbn; tauto|cbn; intros [E|[E|[]]]; discriminate E|reflexivity|reflexivity|].
  destruct (u_completes iso_last call_last (u_fresh false) sol_last (vec sol_last)) as (o2 & H2);
    [cbn; tauto|cbn; tauto|cbn; intros [E|[E|[]]]; discriminate E|reflexivity|reflexivity|].
  destruct (u_measured_some _ _ _ _ m_fresh H1) as (m1 & M1). destruct (u_measured_some _ _ _ _ m_fresh H2) as (m2 & M2).
  destruct (u_error_ecm iso_first call_first (u_fresh false) o1) as (v1 & x1 & y1 & _ & _ & V1 & X1 & Y1 & _ & HX1 & HY1 & _); [cbn; lia|cbn; tauto|exact H1|].
  destruct (u_error_ecm iso_last call_last (u_fresh false) o2) as (v2 & x2 & y2 & _ & _ & V2 & X2 & Y2 & _ & HX2 & HY2 & _); [cbn; lia|cbn; tauto|exact H2|].
  injection V1 as <-. injection V2 as <-. cbn in HX1, HY1, HX2, HY2.
  destruct (u_measured_inv _ _ _ _ _ _ M1) as [_ E1]. destruct (u_measured_inv _ _ _ _ _ _ M2) as [_ E2].
  destruct (u_state_ecm iso_first call_first (u_fresh false) o1) as (q1 & _ & _ & L1); [cbn; tauto|exact H1|].
  destruct (u_state_ecm iso_last call_last (u_fresh false) o2) as (q2 & _ & _ & L2); [cbn; tauto|exact H2|].
  destruct (u_measures_ecm iso_first o1 m_fresh _ _ _ L1 (or_introl eq_refl) X1 Y1) as (_ & _ & K1 & S1).
  destruct (u_measures_ecm iso_last o2 m_fresh _ _ _ L2 (or_introl eq_refl) X2 Y2) as (_ & _ & K2 & _).
  rewrite <- E1 in K1, S1. rewrite <- E2 in K2.
  pose proof (fun i Hi => ecm_expected (un_n iso_first) x1 y1 i Hi) as A1. pose proof (fun i Hi => ecm_expected (un_n iso_last) x2 y2 i Hi) as A2.
  change (un_n iso_first) with 3%nat in *. change (un_n iso_last) with 3%nat in *.
  exists o1, m1, o2, m2, x1, y1, x2, y2, (12/13). do 6 (split; [assumption|]). split; [|split; [|split; [|split; [|reflexivity]]]].
  - intros i Hi. rewrite HX1, HX2, HY1, HY2. destruct i as [|[|[|i]]]; [..|lia]; cbn; auto.
  - rewrite K1. f_equal. unfold py_max. cbn [seq Nat.sub fold_left].
    assert (Z : fabs (fdiv (at_list (un_dseq iso_first) 0 - expected_ecm 3 (join2 3 x1 y1) 0%nat) (at_list (un_dseq iso_first) 0)) = NaN).
    { destruct (A1 O ltac:(lia)) as [-> _]. unfold mean_deg_und, link_mean. cbn [rsum Nat.eqb]. rewrite !HX1, !HY1. cbn [at_list nth un_dseq iso_first sol_first Nat.add].
      unfold at_list. cbn [nth INR]. unfold fdiv. destruct (Req_EM_T 0 0) as [_|N]; [|contradiction].
      match goal with |- context [Req_EM_T ?t 0] => replace t with 0 by field end. destruct (Req_EM_T 0 0) as [_|N]; [reflexivity|contradiction]. }
    rewrite Z, !fgt_nan. reflexivity.
  - rewrite S1. f_equal. unfold py_max. cbn [seq Nat.sub fold_left].
    assert (Z : fabs (fdiv (un_str iso_first 0%nat - drop 3 (expected_ecm 3 (join2 3 x1 y1)) 0%nat) (un_str iso_first 0%nat)) = NaN).
    { destruct (A1 O ltac:(lia)) as [_ ->]. unfold mean_str_und, weight_mean. cbn [rsum Nat.eqb]. rewrite !HX1, !HY1. cbn [un_str iso_first sol_first Nat.add].
      unfold fdiv. destruct (Req_EM_T 0 0) as [_|N]; [|contradiction].
      match goal with |- context [Req_EM_T ?t 0] => replace t with 0 by field end. destruct (Req_EM_T 0 0) as [_|N]; [reflexivity|contradiction]. }
    rewrite Z, !fgt_nan. reflexivity.
  - rewrite K2. f_equal. unfold py_max. cbn [seq Nat.sub fold_left].
    assert (V : forall i, (i < 2)%nat -> fabs (fdiv (at_list (un_dseq iso_last) i - expected_ecm 3 (join2 3 x2 y2) i) (at_list (un_dseq iso_last) i)) = Fin (12/13)).
    { intros i Hi. destruct (A2 i ltac:(lia)) as [-> _]. unfold mean_deg_und, link_mean.
      destruct i as [|[|i]]; [| |lia]; cbn [rsum Nat.eqb]; rewrite !HX2, !HY2; cbn [sol_last Nat.add]; unfold at_list; cbn [nth un_dseq iso_last INR];
      unfold fdiv; (destruct (Req_EM_T 1 0) as [N|_]; [exfalso; lra|]); unfold fabs;
      match goal with |- Fin (Rabs ?t) = _ => replace t with (12/13) by field end; rewrite Rabs_right by lra; reflexivity. }
    rewrite (V 0%nat), (V 1%nat) by lia.
    assert (Z : fabs (fdiv (at_list (un_dseq iso_last) 2 - expected_ecm 3 (join2 3 x2 y2) 2%nat) (at_list (un_dseq iso_last) 2)) = NaN).
    { destruct (A2 2%nat ltac:(lia)) as [-> _]. unfold mean_deg_und, link_mean. cbn [rsum Nat.eqb]. rewrite !HX2, !HY2. cbn [sol_last Nat.add].
      unfold at_list. cbn [nth un_dseq iso_last INR]. unfold fdiv. destruct (Req_EM_T 0 0) as [_|N]; [|contradiction].
      match goal with |- context [Req_EM_T ?t 0] => replace t with 0 by field end. destruct (Req_EM_T 0 0) as [_|N]; [reflexivity|contradiction]. }
    rewrite Z. unfold fgt. destruct (Rlt_dec (12/13) (12/13)); reflexivity.
Qed.
Lemma rel_order : exists g g' c c' o1 o2 m1 m2 x1 y1 x2 y2 e, In (c_model c) ["ecm"; "ecm_exp"]%string /\ In (c_model c') ["ecm"; "ecm_exp"]%string /\
  u_solve_measured g c (u_fresh false) m_fresh = ((o1, None), m1) /\ u_solve_measured g' c' (u_fresh false) m_fresh = ((o2, None), m2) /\
  us_x o1 = Some x1 /\ us_y o1 = Some y1 /\ us_x o2 = Some x2 /\ us_y o2 = Some y2 /\ un_n g = un_n g' /\
  (forall i, (i < un_n g)%nat -> nth i (un_dseq g') O = nth (un_n g - 1 - i) (un_dseq g) O /\ un_str g' i = un_str g (un_n g - 1 - i)%nat /\
     x2 i = x1 (un_n g - 1 - i)%nat /\ y2 i = y1 (un_n g - 1 - i)%nat) /\
  m_rk m1 = Some NaN /\ m_rs m1 = Some NaN /\ m_rk m2 = Some (Fin e).
Proof.
  destruct ecm_isolated as (o1 & m1 & o2 & m2 & x1 & y1 & x2 & y2 & e & H1 & H2 & H3 & H4 & H5 & H6 & H7 & H8 & H9 & H10 & _).
  exists iso_first, iso_last, call_first, call_last, o1, o2, m1, m2, x1, y1, x2, y2, e.
  split; [cbn; tauto|]. split; [cbn; tauto|]. do 6 (split; [assumption|]). split; [reflexivity|]. split; [exact H7|]. repeat split; assumption.
Qed.

(** * The misspelt attribute *)
Lemma crema_unassigned : exists g c a o' m' beta, In (c_model c) ["crema"; "crema-sparse"]%string /\ c_adjacency c = AdjMatrix a /\ hollow a /\
  u_solve_measured g c (u_fresh false) m_fresh = ((o', None), m') /\ us_beta o' = Some beta /\ positive_rates (un_n g) a beta /\ m_estr m' = None.
Proof.
  destruct report_crema as (o' & m' & H1 & H2 & H3 & H4 & _ & H5 & H6).
  destruct (u_exp_crema _ _ _ _ _ _ _ H2 H3 H4 H5 H6) as (beta & h & B & E & _).
  exists g2, k_crema, ones, o', m', beta. do 5 (split; [assumption|]). split; [apply H6; exact B|exact E].
Qed.
Lemma dcrema_unassigned : exists g c a o' m' bo bi, In (c_model c) ["crema"; "crema-sparse"]%string /\ c_adjacency c = AdjMatrix a /\
  d_solve_measured g c (d_fresh false) m_fresh = ((o', None), m') /\ ds_bo o' = Some bo /\ ds_bi o' = Some bi /\ positive_rates_dir (dn_n g) a bo bi /\
  m_estr m' = None.
Proof.
  destruct report_dcrema as (o' & m' & H1 & H2 & H3 & _ & H5 & H6).
  destruct (d_exp_crema _ _ _ _ _ _ _ H2 H3 H5 H6) as (bo & bi & h & B & B' & E & _).
  exists d2, k_dcrema, ones, o', m', bo, bi. do 5 (split; [assumption|]). split; [apply H6; [exact B|exact B']|exact E].
Qed.

(** * Raised calls, and an isolated node with a positive expectation *)
Definition k_nosol (model : string) : call :=
  {| c_model := model; c_method := "newton"; c_full := false; c_adjacency := AdjOther; c_method_adjacency := "newton";
     c_guess := Some half; c_out := None; c_guess_adjacency := None; c_out_adjacency := None |}.
Lemma after_raise : exists o1 m1 o2 e, In (c_model k_ecm) ["ecm"; "ecm_exp"]%string /\
  u_solve_measured g2 k_ecm (u_fresh false) m_fresh = ((o1, None), m1) /\ m_rk m1 <> None /\
  u_solve_measured g2 (k_nosol "ecm_exp") o1 m1 = ((o2, Some e), m1).
Proof.
  destruct report_ecm as (o1 & m1 & H0 & H1 & H2 & H3). destruct (u_rel_ecm _ _ _ _ _ _ H0 H1 H2 H3) as (x & y & ek & es & _ & _ & K & _).
  destruct (refused_raises_measured g2 (k_nosol "ecm_exp") o1 m1) as (o2 & e & R); [cbn; tauto|reflexivity|].
  exists o1, m1, o2, e. do 2 (split; [assumption|]). split; [rewrite K; discriminate|exact R].
Qed.
Lemma after_raise_cm : exists o' e, In (c_model (k_nosol "cm")) ["cm"; "cm_exp"]%string /\ us_beta (u_fresh false) = None /\
  u_solve_measured g2 (k_nosol "cm") (u_fresh false) m_fresh = ((o', Some e), m_fresh).
Proof.
  destruct (u_solve_measured g2 (k_nosol "cm") (u_fresh false) m_fresh) as [[o' [e|]] m'] eqn:E.
  - exists o', e. split; [cbn; tauto|]. split; [reflexivity|]. rewrite (u_raised_cm _ (k_nosol "cm") (u_fresh false) _ _ _ _ (or_introl eq_refl) eq_refl E). reflexivity.
  - exfalso. apply u_measured_inv in E. destruct E as [E _]. destruct (u_tool_problem g2 (k_nosol "cm") (u_fresh false) o') as (o1 & H1 & _); [cbn; tauto|exact E|].
    apply u_solve_cm in H1; [|cbn; tauto]. destruct H1 as (d & v & _ & X & _). discriminate.
Qed.
Lemma after_raise_dir : exists o' e o'' e', In (c_model (k_nosol "decm")) ["decm"; "decm_exp"]%string /\
  d_solve_measured d2 (k_nosol "decm") (d_fresh false) m_fresh = ((o', Some e), m_fresh) /\
  In (c_model (k_nosol "dcm")) ["dcm"; "dcm_exp"]%string /\ ds_bo (d_fresh false) = None /\
  d_solve_measured d2 (k_nosol "dcm") (d_fresh false) m_fresh = ((o'', Some e'), m_fresh).
Proof.
  assert (A : exists o' e, d_solve_measured d2 (k_nosol "decm") (d_fresh false) m_fresh = ((o', Some e), m_fresh)).
  { destruct (d_solve_measured d2 (k_nosol "decm") (d_fresh false) m_fresh) as [[o' [e|]] m'] eqn:E.
    - exists o', e. rewrite (d_raised_decm _ (k_nosol "decm") _ _ _ _ _ (or_introl eq_refl) E). reflexivity.
    - exfalso. apply d_measured_inv in E. destruct E as [E _]. unfold d_solve_tool in E; cbn [among existsb String.eqb Ascii.eqb Bool.eqb orb c_model k_nosol] in E; apply andthen_inv in E; destruct E as (o1 & H1 & _).
      apply d_solve_decm in H1; [|cbn; tauto]. destruct H1 as (d & v & _ & X & _). discriminate. }
  assert (B : exists o' e, d_solve_measured d2 (k_nosol "dcm") (d_fresh false) m_fresh = ((o', Some e), m_fresh)).
  { destruct (d_solve_measured d2 (k_nosol "dcm") (d_fresh false) m_fresh) as [[o' [e|]] m'] eqn:E.
    - exists o', e. rewrite (d_raised_dcm _ (k_nosol "dcm") (d_fresh false) _ _ _ _ (or_introl eq_refl) eq_refl E). reflexivity.
    - exfalso. apply d_measured_inv in E. destruct E as [E _]. unfold d_solve_tool in E; cbn [among existsb String.eqb Ascii.eqb Bool.eqb orb c_model k_nosol] in E; apply andthen_inv in E; destruct E as (o1 & H1 & _).
      apply d_solve_dcm in H1; [|cbn; tauto]. destruct H1 as (d & v & _ & X & _). discriminate. }
  destruct A as (o' & e & A). destruct B as (o'' & e' & B). exists o', e, o'', e'. split; [cbn; tauto|]. split; [exact A|]. split; [cbn; tauto|]. split; [reflexivity|exact B].
Qed.
Definition sol_pos : nat -> R := fun _ => 1.
Definition call_pos : call := call_of "ecm_exp" "newton" AdjOther half sol_pos.
Lemma isolated_pos : exists o' m', c_model call_pos = "ecm_exp"%string /\ u_solve_measured iso_last call_pos (u_fresh false) m_fresh = ((o', None), m') /\
  (2 <= un_n iso_last)%nat /\ (2 < un_n iso_last)%nat /\ nth 2 (un_dseq iso_last) O = O /\
  (forall y, us_y o' = Some y -> forall j k, (j < un_n iso_last)%nat -> (k < un_n iso_last)%nat -> j <> k -> y j * y k < 1).
Proof.
  destruct (u_completes iso_last call_pos (u_fresh false) sol_pos (vec sol_pos)) as (o' & H);
    [cbn; tauto|cbn; tauto|cbn; intros [E|[E|[]]]; discriminate E|reflexivity|reflexivity|].
  destruct (u_measured_some _ _ _ _ m_fresh H) as (m' & M). exists o', m'. split; [reflexivity|]. split; [exact M|].
  split; [cbn; lia|]. split; [cbn; lia|]. split; [reflexivity|]. intros y Hy j k _ _ _.
  destruct (u_tool_problem iso_last call_pos (u_fresh false) o') as (o1 & H1 & H2); [cbn; tauto|exact H|].
  apply u_solve_ecm in H1; [|cbn; tauto]. destruct H1 as (d & v & _ & V & _ & Y & _). injection V as <-.
  apply u_error_frame in H2. destruct H2 as (_ & E2 & _). rewrite E2, Y in Hy. injection Hy as <-.
  unfold drop, ecm_factor, sol_pos. cbn [String.eqb Ascii.eqb Bool.eqb c_model call_pos call_of o_x vec]. rewrite <- exp_plus. assert (Q : exp (- 1 + - 1) < exp 0) by (apply exp_increasing; lra). rewrite exp_0 in Q. exact Q.
Qed.
