(** Where the report and the likelihood fail, and concrete cases. *)
From Coq Require Import Reals List Arith Lra Lia Bool String.
From Verif Require Import Base SpecDeriv SpecGraph SpecDirected SpecWeighted SpecCReMa SpecEnsemble SpecNetwork SpecSolve SpecDispatch
  ModelCM ModelECM ModelDCM ModelDECM ModelCReMa ModelNetwork ModelDispatch ModelSolve
  ProofsGraph ProofsEnsemble ProofsDispatch ProofsSolve ProofsSolveU ProofsSolveD ProofsIEEE ProofsEntries.
Local Open Scope R_scope.
Import ListNotations.

(** * Reports *)
#[local] Opaque u_dispatch lookup d_dispatch.
Lemma u_error_frame2 g o o' r : u_solution_error g o = (o', r) -> us_given o' = us_given o /\ us_sparse o' = us_sparse o.
Proof.
  intros H. unfold u_solution_error, u_error_strength, u_error_degree in H.
  repeat match type of H with
  | context [match ?t with _ => _ end] => match t with context [match _ with _ => _ end] => fail 1 | _ => destruct t eqn:? end
  end; cbn [us_x us_y us_beta us_adj us_given us_sparse us_last us_ek us_set_ek us_set_es us_set_err us_set_errs] in *; try discriminate;
  injection H as <- <-; split; cbn; congruence.
Qed.
Lemma u_error_some g o m beta adj o' : us_last o = Some m -> among m ["cm"; "cm_exp"; "crema"; "crema-sparse"]%string = true ->
  us_beta o = Some beta -> us_adj o = Some adj -> u_solution_error g o = (o', None) ->
  exists E, (if us_sparse o then expected_strength_crema_undirected_sparse (un_n g) (adj0 adj) beta
   else obind (adj_edges adj) (fun es => expected_strength_crema_undirected es beta)) = Some E.
Proof.
  intros HL HA HB HJ H. unfold u_solution_error in H. rewrite HL, HA in H.
  assert (K : us_beta (u_error_degree g o) = Some beta /\ us_adj (u_error_degree g o) = Some adj /\ us_sparse (u_error_degree g o) = us_sparse o).
  { unfold u_error_degree. destruct (us_x o); cbn [us_beta us_adj us_given us_sparse us_set_ek]; repeat split; assumption. }
  destruct K as (K1 & K2 & K4). unfold u_error_strength in H. rewrite K1, K2, K4 in H. cbv zeta in H.
  match type of H with match ?t with _ => _ end = _ => destruct t as [E|]; [exists E; reflexivity|discriminate] end.
Qed.
(** After CReMa on a given matrix, a later [cm] call reports the CReMa error again. *)
Lemma u_stale g c1 c2 a o o1 o2 : In (c_model c1) ["crema"; "crema-sparse"]%string -> c_adjacency c1 = AdjMatrix a ->
  In (c_model c2) ["cm"; "cm_exp"]%string ->
  u_solve_tool g c1 o = (o1, None) -> u_solve_tool g c2 o1 = (o2, None) -> us_err o2 = us_err o1.
Proof.
  intros M1 A1 M2 H1 H2. destruct (u_tool_crema _ _ _ _ M1 H1) as (p & P1 & P2).
  apply u_crema_inv in P1; [|exact M1]. destruct P1 as (q & d & v & v0 & adj & HA & _ & _ & HJ & ->).
  destruct (u_adj_matrix _ _ _ _ _ A1 HA) as (J1 & J2 & J3). rewrite J1 in HJ. injection HJ as <-.
  set (es := triu_edges (un_n g) a) in *.
  assert (EX : exists E, expected_strength_crema_undirected es (o_x v) = Some E).
  { match type of P2 with u_solution_error _ ?st = _ => destruct (u_error_some g st (c_model c1) (o_x v) (Triples es) o1 eq_refl) as (E & EE);
      [destruct M1 as [M|[M|[]]]; rewrite <- M; reflexivity|reflexivity|exact J1|exact P2|] end.
    cbn [us_sparse us_set_sol us_set_beta us_set_step us_set_args us_set_last] in EE. rewrite J3 in EE. exists E. exact EE. }
  destruct EX as (E & EE).
  assert (R1 : us_err o1 = Some (inf_norm (un_n g) E (un_str g))).
  { match type of P2 with u_solution_error _ ?st = _ => refine (proj1 (u_error_run g st (c_model c1) (o_x v) (Triples es) true E o1 _ _ _ J1 J2 _ P2) eq_refl) end; [reflexivity| |reflexivity|].
    - destruct M1 as [M|[M|[]]]; rewrite <- M; reflexivity.
    - cbn [us_sparse us_set_sol us_set_beta us_set_step us_set_args us_set_last]. rewrite J3. exact EE. }
  rewrite R1.
  assert (F : us_beta o1 = Some (o_x v) /\ us_adj o1 = Some (Triples es) /\ us_given o1 = Some true /\ us_sparse o1 = false).
  { destruct (u_error_frame _ _ _ _ P2) as (_ & _ & F1 & _ & _ & _ & _ & F2). cbn in F1, F2. rewrite J1 in F2.
    split; [exact F1|]. split; [exact F2|].
    destruct (u_error_frame2 _ _ _ _ P2) as [F3 F4]. cbn in F3, F4. rewrite J2 in F3. rewrite J3 in F4. split; assumption. }
  destruct F as (F1 & F2 & F3 & F4).
  unfold u_solve_tool in H2. apply andthen_inv in H2. destruct H2 as (p & P & Q).
  assert (HS : u_solve_problem g (c_model c2) (c_method c2) (c_guess c2) (c_out c2) o1 = (p, None)).
  { destruct M2 as [M|[M|[]]]; rewrite <- M in P |- *; names_in P; exact P. }
  apply u_solve_cm in HS; [|exact M2]. destruct HS as (d' & v' & _ & _ & ->).
  match type of Q with u_solution_error _ ?st = _ => refine (proj1 (u_error_run g st (c_model c2) (o_x v) (Triples es) true E o2 _ _ F1 F2 F3 _ Q) eq_refl) end; [reflexivity| |].
  - destruct M2 as [M|[M|[]]]; rewrite <- M; reflexivity.
  - cbn [us_sparse us_set_x us_set_sol us_set_pm us_set_step us_set_args us_set_last]. rewrite F4. exact EE.
Qed.
(** A [dcm] call after [decm] on a fresh object raises after solving. *)
Lemma d_dcm_after_decm g c1 c2 sparse o1 v0 v : In (c_model c1) ["decm"; "decm_exp"]%string -> In (c_model c2) ["dcm"; "dcm_exp"]%string ->
  In (c_method c2) documented_methods -> c_guess c2 = Some v0 -> c_out c2 = Some v ->
  d_solve_tool g c1 (d_fresh sparse) = (o1, None) -> snd (d_solve_tool g c2 o1) = Some EAttribute.
Proof.
  intros M1 M2 Hd Hg Hv H1. assert (Hm4 : In (c_model c1) ["dcm"; "dcm_exp"; "decm"; "decm_exp"]%string) by (cbn in M1 |- *; tauto).
  destruct (d_tool_problem _ _ _ _ Hm4 H1) as (p & HS & HE).
  assert (AD : ds_adj p = None).
  { unfold d_solve_problem in HS. apply andthen_inv in HS. destruct HS as (q & Q1 & Q2).
    apply d_init_decm in Q1; [|exact M1]. destruct Q1 as (d & w & _ & ->). apply d_solver_inv in Q2. destruct Q2 as (w' & _ & ->).
    unfold d_set_solved. destruct M1 as [M|[M|[]]]; rewrite <- M; reflexivity. }
  apply d_solve_decm in HS; [|exact M1]. destruct HS as (d & w & _ & _ & _ & _ & X3 & X4 & _).
  apply d_error_frame in HE. destruct HE as (_ & _ & F3 & F4 & _ & _ & _ & _ & F5). rewrite X3 in F3. rewrite X4 in F4. rewrite AD in F5.
  assert (M2' : In (c_model c2) ["dcm"; "dcm_exp"; "decm"; "decm_exp"]%string) by (cbn in M2 |- *; tauto).
  destruct (d_dispatch_documented _ _ M2' Hd) as (d' & D). clear M2'.
  unfold d_solve_tool, d_solve_problem, d_initialize, d_set_guess, d_set_args. rewrite Hg, Hv.
  cbn in M2. destruct M2 as [E|[E|[]]]; rewrite <- E in *; names; cbn [andthen fst snd ok]; rewrite D; names; cbn [andthen fst snd ok d_run_solver];
    unfold d_set_solved, d_set_solved_dcm; cbn [ds_last ds_set_pm ds_set_step ds_set_args ds_set_last]; names;
    unfold d_solution_error; cbn [ds_last ds_set_pm ds_set_step ds_set_args ds_set_xy ds_set_last ds_set_sol]; names;
    unfold d_error_degree; cbn [ds_x ds_y ds_set_xy]; unfold d_error_strength;
    cbn [ds_bo ds_bi ds_adj ds_set_pm ds_set_step ds_set_args ds_set_xy ds_set_last ds_set_sol ds_set_ek]; rewrite F3, F4, F5; reflexivity.
Qed.
(** An unknown model name solves nothing and, after a completed [cm] call, raises nothing
    and reports the previous error. *)
Lemma u_error_beta_none g o m x : us_last o = Some m -> among m ["cm"; "cm_exp"; "crema"; "crema-sparse"]%string = true ->
  us_beta o = None -> us_x o = Some x ->
  exists o', u_solution_error g o = (o', None) /\ us_beta o' = None /\ us_last o' = Some m /\ us_x o' = Some x /\ us_sol o' = us_sol o /\
    us_err o' = Some (inf_norm (un_n g) (expected_degree_cm (un_n g) x) (at_list (un_dseq g))).
Proof.
  intros HL HA HB HX. exists (u_error_degree g o). unfold u_solution_error. rewrite HL, HA.
  assert (K : us_beta (u_error_degree g o) = None) by (unfold u_error_degree; rewrite HX; exact HB).
  unfold u_error_strength. rewrite K. split; [reflexivity|]. split; [reflexivity|].
  unfold u_error_degree. rewrite HX. cbn [us_last us_x us_sol us_err us_set_ek]. repeat split; assumption.
Qed.
Lemma u_unknown g c c0 o o1 : us_beta o = None -> In (c_model c) ["cm"; "cm_exp"]%string -> u_solve_tool g c o = (o1, None) ->
  ~ In (c_model c0) undirected_models ->
  exists o2, u_solve_tool g c0 o1 = (o2, None) /\ us_err o2 = us_err o1 /\ us_x o2 = us_x o1 /\ us_sol o2 = us_sol o1.
Proof.
  intros Hb Hm H Hu. unfold u_solve_tool in H. apply andthen_inv in H. destruct H as (p & P & Q).
  assert (HS : u_solve_problem g (c_model c) (c_method c) (c_guess c) (c_out c) o = (p, None)).
  { destruct Hm as [M|[M|[]]]; rewrite <- M in P |- *; names_in P; exact P. }
  assert (HM : among (c_model c) ["cm"; "cm_exp"; "crema"; "crema-sparse"]%string = true) by (destruct Hm as [M|[M|[]]]; rewrite <- M; reflexivity).
  apply u_solve_cm in HS; [|exact Hm]. destruct HS as (d & v & _ & _ & E). clear P.
  assert (A : us_last p = Some (c_model c) /\ us_beta p = None /\ us_x p = Some (fun i => cm_factor (c_model c) v (u_class g i))) by (rewrite E; auto).
  destruct A as (A1 & A2 & A3). destruct (u_error_beta_none g p _ _ A1 HM A2 A3) as (o' & R & B1 & B2 & B3 & B4 & B5).
  rewrite R in Q. injection Q as <-. destruct (u_error_beta_none g o' _ _ B2 HM B1 B3) as (o2 & R2 & C1 & C2 & C3 & C4 & C5).
  exists o2. split; [|split; [congruence|split; congruence]].
  unfold u_solve_tool. rewrite (among_false (c_model c0)) by (cbn in Hu |- *; tauto). rewrite (among_false (c_model c0)) by (cbn in Hu |- *; tauto).
  exact R2.
Qed.
(** On a fresh object an unknown model passes silently. *)
Lemma u_unknown_fresh g c sparse : ~ In (c_model c) undirected_models -> u_solve_tool g c (u_fresh sparse) = (u_fresh sparse, None).
Proof.
  intros Hu. unfold u_solve_tool. rewrite (among_false (c_model c)) by (cbn in Hu |- *; tauto). rewrite (among_false (c_model c)) by (cbn in Hu |- *; tauto).
  reflexivity.
Qed.
(** CReMa on a given matrix completes when the rates are positive. *)
#[local] Transparent u_dispatch lookup.
Lemma u_crema_dispatch method : In method documented_methods -> exists d, u_dispatch "crema" method None = inl d.
Proof. intros [<-|[<-|[<-|[]]]]; eexists; reflexivity. Qed.
#[local] Opaque u_dispatch lookup.
Lemma u_completes_crema g c o a v0 v : c_model c = "crema"%string -> In (c_method c) documented_methods -> c_adjacency c = AdjMatrix a ->
  hollow a -> c_guess c = Some v0 -> c_out c = Some v -> positive_rates (un_n g) a (o_x v) -> exists o', u_solve_tool g c o = (o', None).
Proof.
  intros Hm Hd Ha Hh Hg Hv HP. destruct (u_crema_dispatch _ Hd) as (d & D). destruct (expected_triu _ _ _ Hh HP) as (E & E1 & _).
  unfold u_solve_tool, u_solve_crema, u_set_adjacency. rewrite Hm, Ha. names. cbn [andthen fst snd ok us_sparse us_set_adj].
  unfold u_initialize, u_set_guess, u_set_args. rewrite Hg, Hv. names. cbn [andthen fst snd ok us_adj us_set_beta us_set_adj us_set_last]. rewrite D.
  cbn [andthen fst snd ok u_run_solver]. unfold u_set_solved, degree_reduction_und. cbn [us_last us_set_step us_set_args us_set_beta us_set_last]. names.
  unfold u_solution_error. cbn [us_last us_set_sol us_set_step us_set_args us_set_beta us_set_last]. names.
  unfold u_error_degree. cbn [us_x us_set_sol us_set_step us_set_args us_set_beta us_set_last us_set_adj us_set_sparse].
  unfold u_error_strength. destruct (us_x o); cbn [us_beta us_adj us_sparse us_given us_set_ek us_set_es us_set_sol us_set_step us_set_args us_set_beta us_set_last us_set_adj us_set_sparse adj_edges obind];
    rewrite E1; cbn [us_given us_set_ek us_set_es us_set_sol us_set_step us_set_args us_set_beta us_set_last us_set_adj us_set_sparse]; eexists; reflexivity.
Qed.
(** The same with the probabilities of a named model. *)
Lemma u_error_completes g o m x beta adj given E : us_last o = Some m -> among m ["cm"; "cm_exp"; "crema"; "crema-sparse"]%string = true ->
  us_x o = Some x -> us_beta o = Some beta -> us_adj o = Some adj -> us_given o = Some given ->
  (if us_sparse o then expected_strength_crema_undirected_sparse (un_n g) (adj0 adj) beta
   else obind (adj_edges adj) (fun es => expected_strength_crema_undirected es beta)) = Some E -> exists o', u_solution_error g o = (o', None).
Proof.
  intros HL HA HX HB HJ HG HE. unfold u_solution_error. rewrite HL, HA. unfold u_error_degree. rewrite HX.
  unfold u_error_strength. cbn [us_beta us_adj us_sparse us_set_ek]. rewrite HB, HJ. cbv zeta. rewrite HE.
  cbn [us_given us_ek us_set_es us_set_ek]. rewrite HG. destruct given; eexists; reflexivity.
Qed.
#[local] Transparent u_dispatch lookup.
Lemma u_cm_dispatch a method : In a ["cm"; "cm_exp"]%string -> In method documented_methods -> exists d, u_dispatch a method None = inl d.
Proof. intros Ha Hm. apply u_dispatch_documented; [cbn in *; tauto|exact Hm]. Qed.
Lemma u_sparse_dispatch method : In method ["quasinewton"; "fixed-point"]%string -> exists d, u_dispatch "crema-sparse" method None = inl d.
Proof. intros [<-|[<-|[]]]; eexists; reflexivity. Qed.
#[local] Opaque u_dispatch lookup.
Lemma u_solve_cm_completes g a method v0 v o : In a ["cm"; "cm_exp"]%string -> In method documented_methods ->
  exists o', u_solve_problem g a method (Some v0) (Some v) o = (o', None).
Proof.
  intros Ha Hm. destruct (u_cm_dispatch a method Ha Hm) as (d & D).
  unfold u_solve_problem, u_initialize, u_set_guess, u_set_args, degree_reduction_und.
  destruct Ha as [<-|[<-|[]]]; names; cbn [andthen fst snd ok]; rewrite D; names; cbn [andthen fst snd ok u_run_solver]; eexists; reflexivity.
Qed.
Lemma u_completes_name g c o a w0 w v0 v : In (c_model c) ["crema"; "crema-sparse"]%string ->
  In (c_method c) ["quasinewton"; "fixed-point"]%string -> In (c_method_adjacency c) documented_methods ->
  c_adjacency c = AdjName a -> In a ["cm"; "cm_exp"]%string -> c_guess_adjacency c = Some w0 -> c_out_adjacency c = Some w ->
  c_guess c = Some v0 -> c_out c = Some v ->
  (forall q, 0 <= cm_factor a w q) -> (forall i j, (i < un_n g)%nat -> (j < un_n g)%nat -> 0 < o_x v i + o_x v j) ->
  exists o', u_solve_tool g c o = (o', None).
Proof.
  intros Hm Hd Hda Ha Hna Hg1 Ho1 Hg Ho Hx Hb.
  assert (D : exists d, u_dispatch (c_model c) (c_method c) None = inl d).
  { destruct Hm as [M|[M|[]]]; rewrite <- M; [apply u_crema_dispatch; cbn in *; tauto|apply u_sparse_dispatch; exact Hd]. }
  destruct D as (d & D).
  assert (AD : exists o1, u_set_adjacency g c o = (o1, None)).
  { unfold u_set_adjacency. rewrite Ha, Hg1, Ho1.
    destruct (u_solve_cm_completes g a (c_method_adjacency c) w0 w (us_set_sparse (String.eqb (c_model c) "crema-sparse") o) Hna Hda) as (p & P).
    rewrite P. cbn [andthen fst snd]. apply u_solve_cm in P; [|exact Hna]. destruct P as (d' & v' & _ & _ & ->).
    cbn [us_x us_sparse us_pm us_set_x us_set_sol us_set_pm us_set_step us_set_args us_set_last us_set_sparse].
    destruct (String.eqb (c_model c) "crema-sparse"); eexists; reflexivity. }
  destruct AD as (o1 & AD). destruct (u_adj_name _ _ _ _ _ Ha Hna AD) as (w' & W & J1 & J2 & J3 & J4). rewrite Ho1 in W. injection W as <-.
  set (x := fun i => cm_factor a w (u_class g i)) in *.
  assert (HX : forall i, (i < un_n g)%nat -> 0 <= x i) by (intros; apply Hx).
  assert (HR : positive_rates (un_n g) (pmatrix_cm x) (o_x v)) by (intros i j Hij _; apply Hb; lia).
  assert (SC : exists p, u_solve_crema g c o = (p, None)).
  { unfold u_solve_crema. rewrite AD. cbn [andthen fst snd]. rewrite J3.
    replace (if String.eqb (c_model c) "crema-sparse" then "crema-sparse"%string else c_model c) with (c_model c)
      by (destruct Hm as [M|[M|[]]]; rewrite <- M; reflexivity).
    unfold u_initialize, u_set_guess, u_set_args. rewrite Hg, Ho.
    destruct Hm as [M|[M|[]]]; rewrite <- M in *; names; cbn [andthen fst snd ok us_adj us_set_beta us_set_last]; rewrite J4; cbn [andthen fst snd ok]; rewrite D;
      cbn [andthen fst snd ok u_run_solver]; eexists; reflexivity. }
  destruct SC as (p & SC). unfold u_solve_tool.
  replace (among (c_model c) ["cm"; "cm_exp"; "ecm"; "ecm_exp"]%string) with false by (destruct Hm as [M|[M|[]]]; rewrite <- M; reflexivity).
  replace (among (c_model c) ["crema"; "crema-sparse"]%string) with true by (destruct Hm as [M|[M|[]]]; rewrite <- M; reflexivity).
  rewrite SC. cbn [andthen fst snd].
  apply u_crema_inv in SC; [|exact Hm]. destruct SC as (q & d' & v' & v0' & adj & HA & _ & Hv' & HJ & ->).
  rewrite AD in HA. injection HA as <-. rewrite Ho in Hv'. injection Hv' as <-. rewrite HJ in J4. injection J4 as ->.
  assert (HM : among (c_model c) ["cm"; "cm_exp"; "crema"; "crema-sparse"]%string = true) by (destruct Hm as [M|[M|[]]]; rewrite <- M; reflexivity).
  destruct (String.eqb (c_model c) "crema-sparse").
  - destruct (expected_sparse _ x _ HX HR) as (E & E1 & _).
    eapply (u_error_completes g _ (c_model c) x (o_x v) _ false E); [reflexivity|exact HM|exact J1|reflexivity|exact HJ|exact J2|].
    cbn [us_sparse us_set_sol us_set_beta us_set_step us_set_args us_set_last]. rewrite J3. exact E1.
  - destruct (expected_triu _ _ _ (pmatrix_hollow x) HR) as (E & E1 & _).
    eapply (u_error_completes g _ (c_model c) x (o_x v) _ false E); [reflexivity|exact HM|exact J1|reflexivity|exact HJ|exact J2|].
    cbn [us_sparse us_set_sol us_set_beta us_set_step us_set_args us_set_last]. rewrite J3. exact E1.
Qed.
(** Directed graphs. *)
#[local] Transparent d_dispatch lookup.
Lemma d_crema_dispatch m method : In m ["crema"; "crema-sparse"]%string -> In method ["quasinewton"; "fixed-point"]%string ->
  exists d, d_dispatch m method None = inl d.
Proof. intros [<-|[<-|[]]] [<-|[<-|[]]]; eexists; reflexivity. Qed.
#[local] Opaque d_dispatch lookup.
Lemma d_error_completes g o m bo bi adj given E : ds_last o = Some m -> among m ["dcm_exp"; "dcm"; "crema"; "crema-sparse"]%string = true ->
  (given = false -> exists x y, ds_x o = Some x /\ ds_y o = Some y) ->
  ds_bo o = Some bo -> ds_bi o = Some bi -> ds_adj o = Some adj -> ds_given o = Some given ->
  d_expected g (ds_sparse o) adj (join2 (dn_n g) bo bi) = Some E -> exists o', d_solution_error g o = (o', None).
Proof.
  intros HL HA HX HB HB' HJ HG HE. unfold d_solution_error. rewrite HL, HA.
  assert (K : ds_bo (d_error_degree g o) = Some bo /\ ds_bi (d_error_degree g o) = Some bi /\ ds_adj (d_error_degree g o) = Some adj /\
    ds_given (d_error_degree g o) = Some given /\ ds_sparse (d_error_degree g o) = ds_sparse o).
  { unfold d_error_degree. destruct (ds_x o), (ds_y o); cbn [ds_bo ds_bi ds_adj ds_given ds_sparse ds_set_ek]; repeat split; assumption. }
  destruct K as (K1 & K1' & K2 & K3 & K4). unfold d_error_strength. rewrite K1, K1', K2, K4. cbv zeta.
  unfold d_expected in HE. cbv zeta in HE. rewrite HE. cbn [ds_given ds_set_es ds_ek]. rewrite K3.
  destruct given; [eexists; reflexivity|]. destruct (HX eq_refl) as (x & y & X & Y). unfold d_error_degree. rewrite X, Y. eexists. reflexivity.
Qed.
Lemma d_crema_completes g c o o1 adj v0 v : In (c_model c) ["crema"; "crema-sparse"]%string -> In (c_method c) ["quasinewton"; "fixed-point"]%string ->
  d_set_adjacency g c o = (o1, None) -> ds_adj o1 = Some adj -> c_guess c = Some v0 -> c_out c = Some v ->
  (ds_sparse o1 = true -> c_model c = "crema-sparse"%string) ->
  exists p, d_solve_crema g c o = (p, None).
Proof.
  intros Hm Hd AD J4 Hg Ho J3. destruct (d_crema_dispatch _ _ Hm Hd) as (d & D).
  unfold d_solve_crema. rewrite AD. cbn [andthen fst snd].
  replace (if ds_sparse o1 then "crema-sparse"%string else c_model c) with (c_model c)
    by (destruct (ds_sparse o1); [apply J3; reflexivity|reflexivity]).
  unfold d_initialize, d_set_guess, d_set_args. rewrite Hg, Ho.
  destruct Hm as [M|[M|[]]]; rewrite <- M in *; names; cbn [andthen fst snd ok ds_adj ds_set_b ds_set_last]; rewrite J4; cbn [andthen fst snd ok]; rewrite D;
    cbn [andthen fst snd ok]; eexists; reflexivity.
Qed.
Lemma d_tool_crema_unfold g c o p : In (c_model c) ["crema"; "crema-sparse"]%string -> d_solve_crema g c o = (p, None) ->
  d_solve_tool g c o = d_solution_error g p.
Proof.
  intros Hm H. unfold d_solve_tool.
  replace (among (c_model c) ["dcm"; "dcm_exp"; "decm"; "decm_exp"]%string) with false by (destruct Hm as [M|[M|[]]]; rewrite <- M; reflexivity).
  replace (among (c_model c) ["crema"; "crema-sparse"]%string) with true by (destruct Hm as [M|[M|[]]]; rewrite <- M; reflexivity).
  rewrite H. reflexivity.
Qed.
Lemma d_completes_matrix g c o a v0 v : In (c_model c) ["crema"; "crema-sparse"]%string -> In (c_method c) ["quasinewton"; "fixed-point"]%string ->
  c_adjacency c = AdjMatrix a -> c_guess c = Some v0 -> c_out c = Some v ->
  positive_rates_dir (dn_n g) a (o_x v) (drop (dn_n g) (o_x v)) -> exists o', d_solve_tool g c o = (o', None).
Proof.
  intros Hm Hd Ha Hg Ho HP.
  assert (AD : exists o1, d_set_adjacency g c o = (o1, None)) by (unfold d_set_adjacency; rewrite Ha; eexists; reflexivity).
  destruct AD as (o1 & AD). destruct (d_adj_matrix _ _ _ _ _ Ha AD) as (J1 & J2 & J3).
  assert (SP : ds_sparse o1 = true -> c_model c = "crema-sparse"%string) by (rewrite J3; discriminate).
  destruct (d_crema_completes g c o o1 _ v0 v Hm Hd AD J1 Hg Ho SP) as (p & SC). rewrite (d_tool_crema_unfold _ _ _ _ Hm SC).
  apply d_crema_inv in SC; [|exact Hm]. destruct SC as (q & d' & v' & v0' & adj & HA & _ & Hv' & HJ & ->).
  rewrite AD in HA. injection HA as <-. rewrite Ho in Hv'. injection Hv' as <-. rewrite HJ in J1. injection J1 as ->.
  destruct (expected_all _ _ _ HP) as (EO & EI & E1 & E2 & _).
  assert (HM : among (c_model c) ["dcm_exp"; "dcm"; "crema"; "crema-sparse"]%string = true) by (destruct Hm as [M|[M|[]]]; rewrite <- M; reflexivity).
  eapply (d_error_completes g _ (c_model c) (o_x v) (drop (dn_n g) (o_x v)) _ true (join2 (dn_n g) EO EI)); [reflexivity|exact HM|discriminate|reflexivity|reflexivity|exact HJ|exact J2|].
  cbn [ds_sparse d_set_solved_crema ds_set_sol ds_set_b ds_set_step ds_set_args ds_set_last]. rewrite J3, join2_whole.
  unfold d_expected. cbn [adj_edges obind]. rewrite E1. cbn [obind]. rewrite E2. reflexivity.
Qed.
Lemma d_solve_dcm_completes g full a method v0 v o : In a ["dcm"; "dcm_exp"]%string -> In method documented_methods ->
  exists o', d_solve_problem g full a method (Some v0) (Some v) o = (o', None).
Proof.
  intros Ha Hm. assert (Ha' : In a ["dcm"; "dcm_exp"; "decm"; "decm_exp"]%string) by (cbn in *; tauto).
  destruct (d_dispatch_documented a method Ha' Hm) as (d & D).
  unfold d_solve_problem, d_initialize, d_set_guess, d_set_args.
  destruct Ha as [<-|[<-|[]]]; names; cbn [andthen fst snd ok]; rewrite D; names; cbn [andthen fst snd ok d_run_solver]; eexists; reflexivity.
Qed.
Lemma d_completes_name g c o a w0 w v0 v : d_paired g -> In (c_model c) ["crema"; "crema-sparse"]%string ->
  In (c_method c) ["quasinewton"; "fixed-point"]%string -> In (c_method_adjacency c) documented_methods ->
  c_adjacency c = AdjName a -> In a ["dcm"; "dcm_exp"]%string -> c_guess_adjacency c = Some w0 -> c_out_adjacency c = Some w ->
  c_guess c = Some v0 -> c_out c = Some v ->
  let s := dir_factor "dcm" a w in
  supported (dn_n g) (at_list (dn_out g)) (fun i => s (d_class g i)) ->
  supported (dn_n g) (at_list (dn_in g)) (fun i => s (d_class g i + d_classes_n g)%nat) ->
  (forall i j, (i < dn_n g)%nat -> (j < dn_n g)%nat -> 0 < o_x v i + o_x v (j + dn_n g)%nat) ->
  exists o', d_solve_tool g c o = (o', None) /\ ds_x o' = Some (fun i => s (d_class g i)) /\
    ds_y o' = Some (fun i => s (d_class g i + d_classes_n g)%nat) /\ ds_bo o' = Some (o_x v) /\ ds_bi o' = Some (drop (dn_n g) (o_x v)).
Proof.
  intros HL Hm Hd Hda Ha Hna Hg1 Ho1 Hg Ho s Hx Hy Hb.
  assert (AD : exists o1, d_set_adjacency g c o = (o1, None)).
  { unfold d_set_adjacency. rewrite Ha, Hg1, Ho1.
    destruct (d_solve_dcm_completes g (c_full c) a (c_method_adjacency c) w0 w (ds_set_sparse (String.eqb (c_model c) "crema-sparse") o) Hna Hda) as (p & P).
    rewrite P. cbn [andthen fst snd]. apply d_solve_dcm in P; [|exact Hna]. destruct P as (d' & v' & _ & _ & ->).
    cbn [ds_x ds_y ds_sparse ds_pm ds_set_xy ds_set_sol ds_set_pm ds_set_step ds_set_args ds_set_last ds_set_sparse].
    destruct (String.eqb (c_model c) "crema-sparse"); eexists; reflexivity. }
  destruct AD as (o1 & AD). destruct (d_adj_name _ _ _ _ _ Ha Hna AD) as (w' & W & J1 & J1' & J2 & J3 & J4). rewrite Ho1 in W. injection W as <-.
  fold s in J1, J1', J4. set (x := fun i => s (d_class g i)) in *. set (y := fun i => drop (d_classes_n g) s (d_class g i)) in *.
  change (fun i => s (d_class g i + d_classes_n g)%nat) with y in *.
  assert (HR : positive_rates_dir (dn_n g) (dcm_prob x y) (o_x v) (drop (dn_n g) (o_x v))) by (intros i j Hi Hj _; apply Hb; assumption).
  assert (SP : ds_sparse o1 = true -> c_model c = "crema-sparse"%string) by (rewrite J3; apply String.eqb_eq).
  destruct (d_crema_completes g c o o1 _ v0 v Hm Hd AD J4 Hg Ho SP) as (p & SC). rewrite (d_tool_crema_unfold _ _ _ _ Hm SC).
  apply d_crema_inv in SC; [|exact Hm]. destruct SC as (q & d' & v' & v0' & adj & HA & _ & Hv' & HJ & ->).
  rewrite AD in HA. injection HA as <-. rewrite Ho in Hv'. injection Hv' as <-. rewrite HJ in J4. injection J4 as ->.
  assert (HM : among (c_model c) ["dcm_exp"; "dcm"; "crema"; "crema-sparse"]%string = true) by (destruct Hm as [M|[M|[]]]; rewrite <- M; reflexivity).
  assert (EE : exists E, d_expected g (String.eqb (c_model c) "crema-sparse") (if String.eqb (c_model c) "crema-sparse" then Factors2 x y else Triples (all_edges (dn_n g) (d_pm g x y))) (o_x v) = Some E).
  { destruct (String.eqb (c_model c) "crema-sparse").
    - destruct (expected_dir_sparse (dn_n g) x y (o_x v) (supported_nonneg _ _ _ Hx) (supported_nonneg _ _ _ Hy) HR) as (EO & EI & E1 & E2 & _).
      eexists. unfold d_expected. cbn [adj1 adj0 obind]. rewrite E1. cbn [obind]. rewrite E2. reflexivity.
    - destruct (expected_all (dn_n g) (dcm_prob x y) (o_x v) HR) as (EO & EI & E1 & E2 & _).
      eexists. unfold d_expected. cbn [adj_edges obind].
      rewrite (all_edges_ext (dn_n g) (d_pm g x y) (dcm_prob x y)) by (intros; apply d_pm_prob; assumption).
      rewrite E1. cbn [obind]. rewrite E2. reflexivity. }
  destruct EE as (E & EE).
  match goal with |- exists o', d_solution_error g ?st = _ /\ _ => destruct (d_error_completes g st (c_model c) (o_x v) (drop (dn_n g) (o_x v))
     (if String.eqb (c_model c) "crema-sparse" then Factors2 x y else Triples (all_edges (dn_n g) (d_pm g x y))) false E) as (o' & R);
     [reflexivity|exact HM|intros _; exists x, y; split; [exact J1|exact J1']|reflexivity|reflexivity|exact HJ|exact J2| |] end.
  - cbn [ds_sparse d_set_solved_crema ds_set_sol ds_set_b ds_set_step ds_set_args ds_set_last]. rewrite J3, join2_whole. exact EE.
  - exists o'. split; [exact R|]. apply d_error_frame in R. destruct R as (F1 & F2 & F3 & F4 & _).
    rewrite F1, F2, F3, F4. split; [exact J1|]. split; [exact J1'|]. split; reflexivity.
Qed.

(** * The stale report on a two-node graph *)
Lemma u_stale_runs g c1 c2 a o o1 v0 v2 : In (c_model c1) ["crema"; "crema-sparse"]%string -> c_adjacency c1 = AdjMatrix a ->
  In (c_model c2) ["cm"; "cm_exp"]%string -> In (c_method c2) documented_methods -> c_guess c2 = Some v0 -> c_out c2 = Some v2 ->
  u_solve_tool g c1 o = (o1, None) ->
  exists o2, u_solve_tool g c2 o1 = (o2, None) /\ us_err o2 = us_err o1 /\ us_x o2 = Some (fun i => cm_factor (c_model c2) v2 (u_class g i)).
Proof.
  intros M1 A1 M2 D2 G2 O2 H1. pose proof H1 as H1'. destruct (u_tool_crema _ _ _ _ M1 H1') as (p & P1 & P2).
  apply u_crema_inv in P1; [|exact M1]. destruct P1 as (q & d & v & v0' & adj & HA & _ & _ & HJ & ->).
  destruct (u_adj_matrix _ _ _ _ _ A1 HA) as (J1 & J2 & J3). rewrite J1 in HJ. injection HJ as <-.
  set (es := triu_edges (un_n g) a) in *.
  assert (EX : exists E, expected_strength_crema_undirected es (o_x v) = Some E).
  { match type of P2 with u_solution_error _ ?st = _ => destruct (u_error_some g st (c_model c1) (o_x v) (Triples es) o1 eq_refl) as (E & EE);
      [destruct M1 as [M|[M|[]]]; rewrite <- M; reflexivity|reflexivity|exact J1|exact P2|] end.
    cbn [us_sparse us_set_sol us_set_beta us_set_step us_set_args us_set_last] in EE. rewrite J3 in EE. exists E. exact EE. }
  destruct EX as (E & EE).
  assert (F : us_beta o1 = Some (o_x v) /\ us_adj o1 = Some (Triples es) /\ us_given o1 = Some true /\ us_sparse o1 = false).
  { destruct (u_error_frame _ _ _ _ P2) as (_ & _ & F1 & _ & _ & _ & _ & F2). cbn in F1, F2. rewrite J1 in F2.
    split; [exact F1|]. split; [exact F2|].
    destruct (u_error_frame2 _ _ _ _ P2) as [F3 F4]. cbn in F3, F4. rewrite J2 in F3. rewrite J3 in F4. split; assumption. }
  destruct F as (F1 & F2 & F3 & F4).
  assert (HM : among (c_model c2) ["cm"; "cm_exp"; "crema"; "crema-sparse"]%string = true) by (destruct M2 as [M|[M|[]]]; rewrite <- M; reflexivity).
  destruct (u_solve_cm_completes g (c_model c2) (c_method c2) v0 v2 o1 M2 D2) as (r & R). pose proof R as R'.
  apply u_solve_cm in R; [|exact M2]. destruct R as (d' & w & _ & W & ER). injection W as <-.
  assert (K : us_last r = Some (c_model c2) /\ us_x r = Some (fun i => cm_factor (c_model c2) v2 (u_class g i)) /\ us_beta r = us_beta o1 /\ us_adj r = us_adj o1 /\ us_given r = us_given o1 /\ us_sparse r = us_sparse o1)
    by (rewrite ER; repeat split).
  clear ER. destruct K as (K1 & K2 & K3 & K4 & K5 & K6). rewrite F1 in K3. rewrite F2 in K4. rewrite F3 in K5. rewrite F4 in K6.
  destruct (u_error_completes g r (c_model c2) _ (o_x v) (Triples es) true E K1 HM K2 K3 K4 K5) as (o2 & Q); [rewrite K6; exact EE|].
  assert (HT : u_solve_tool g c2 o1 = (o2, None)).
  { unfold u_solve_tool. replace (among (c_model c2) ["cm"; "cm_exp"; "ecm"; "ecm_exp"]%string) with true by (destruct M2 as [M|[M|[]]]; rewrite <- M; reflexivity).
    rewrite G2, O2, R'. exact Q. }
  exists o2. split; [exact HT|]. split.
  - exact (u_stale g c1 c2 a o o1 o2 M1 A1 M2 H1 HT).
  - apply u_error_frame in Q. destruct Q as (Q1 & _). rewrite Q1. exact K2.
Qed.
Definition vec (x : nat -> R) : outcome_vec := {| o_x := x; o_inf := fun _ => false |}.
Definition call_of (model method : string) (adj : adjacency_arg) (a x : nat -> R) : call :=
  {| c_model := model; c_method := method; c_full := false; c_adjacency := adj; c_method_adjacency := "newton";
     c_guess := Some x; c_out := Some (vec x); c_guess_adjacency := Some a; c_out_adjacency := Some (vec a) |}.
Definition g2 : unet := {| un_dseq := [1; 1]%nat; un_str := fun _ => 1 |}.
Definition ones : nat -> nat -> R := fun i j => if Nat.eqb i j then 0 else 1.
Definition c_crema2 : call := call_of "crema" "newton" (AdjMatrix ones) (fun _ => 1) (fun _ => 1/2).
Definition c_cm2 : call := call_of "cm" "newton" AdjOther (fun _ => 1) (fun _ => 1).
Lemma ones_hollow : hollow ones.
Proof. intros i. unfold ones. rewrite Nat.eqb_refl. reflexivity. Qed.
Lemma crema2_rates : positive_rates (un_n g2) ones (fun _ => 1/2).
Proof. intros i j _ _. lra. Qed.
Lemma crema2_runs : exists o1, u_solve_tool g2 c_crema2 (u_fresh false) = (o1, None) /\ us_err o1 = Some 0.
Proof.
  destruct (u_completes_crema g2 c_crema2 (u_fresh false) ones (fun _ => 1/2) (vec (fun _ => 1/2)) eq_refl) as (o1 & H).
  { cbn. tauto. } { reflexivity. } { exact ones_hollow. } { reflexivity. } { reflexivity. } { exact crema2_rates. }
  exists o1. split; [exact H|].
  assert (HB : us_beta o1 = Some (fun _ => 1/2)).
  { destruct (u_after_crema g2 c_crema2 (u_fresh false) o1 (or_introl eq_refl)) as (q & v & adj & _ & V & _ & _ & B & _);
      [cbn; tauto|exact H|]. injection V as <-. exact B. }
  destruct (u_error_crema_matrix g2 c_crema2 (u_fresh false) o1 ones) as (v & e & V & _ & E & S).
  { cbn. lia. } { left. reflexivity. } { reflexivity. } { exact ones_hollow. } { exact H. }
  { intros b Hb. rewrite HB in Hb. injection Hb as <-. exact crema2_rates. }
  rewrite E. f_equal. injection V as <-. destruct S as (_ & i & Hi & ->).
  assert (HI : i = O \/ i = 1%nat) by (cbn in Hi; lia).
  destruct HI as [-> | ->]; unfold crema_mean, ones, g2; cbn; rewrite Rabs_pos_eq; lra.
Qed.
(** One call of each of two models: the second report is not the error of the second. *)
Lemma stale_report : exists g c1 c2 o1 o2 x e, In (c_model c2) ["cm"; "cm_exp"]%string /\
  u_solve_tool g c1 (u_fresh false) = (o1, None) /\ u_solve_tool g c2 o1 = (o2, None) /\ us_x o2 = Some x /\ us_err o2 = Some e /\
  ~ sup_dev (un_n g) (fun i => mean_undirected (un_n g) (p_ubcm x) (fun a => deg (un_n g) a i)) (at_list (un_dseq g)) e.
Proof.
  destruct crema2_runs as (o1 & H1 & E1).
  destruct (u_stale_runs g2 c_crema2 c_cm2 ones (u_fresh false) o1 (fun _ => 1) (vec (fun _ => 1)) (or_introl eq_refl) eq_refl (or_introl eq_refl)) as (o2 & H2 & E2 & X2).
  { cbn; tauto. } { reflexivity. } { reflexivity. } { exact H1. }
  exists g2, c_crema2, c_cm2, o1, o2, (fun i => cm_factor "cm" (vec (fun _ => 1)) (u_class g2 i)), 0.
  split; [left; reflexivity|]. split; [exact H1|]. split; [exact H2|]. split; [exact X2|]. split; [rewrite E2; exact E1|].
  intros (S & _). specialize (S 0%nat ltac:(cbn; lia)). 
  assert (PS : forall (x : nat -> R) u v, p_ubcm x u v = p_ubcm x v u) by (intros x u v; unfold p_ubcm; rewrite (Rmult_comm (x u)); reflexivity).
  rewrite mean_undirected_deg in S by (first [apply PS | cbn; lia]).
  revert S. unfold p_ubcm, cm_factor, g2, at_list; cbn. intros S.
  match type of S with Rabs ?t <= 0 => assert (t = - (1/2)) as T by lra; rewrite T in S end.
  unfold Rabs in S. destruct (Rcase_abs (- (1/2))); lra.
Qed.

(** * Concrete calls meeting the hypotheses *)
Definition k2 : nat -> nat -> bool := fun i j => negb (Nat.eqb i j).
Definition w2 : nat -> nat -> nat := fun i j => if Nat.eqb i j then 0%nat else 1%nat.
Definition d2 : dnet := {| dn_out := [1; 1]%nat; dn_in := [1; 1]%nat; dn_sout := fun _ => 1; dn_sin := fun _ => 1 |}.
Definition half : nat -> R := fun _ => 1/2.
Ltac two i H := let HI := fresh in assert (HI : i = O \/ i = 1%nat) by (cbn in H; lia); destruct HI as [-> | ->].
Lemma k2_simple : simple_graph 2 k2.
Proof. split; [intros i j Hi Hj; two i Hi; two j Hj; reflexivity|intros i Hi; two i Hi; reflexivity]. Qed.
Lemma k2_loopless : loopless 2 k2.
Proof. intros i Hi; two i Hi; reflexivity. Qed.
Lemma w2_graph : weighted_graph 2 w2 /\ weighted_digraph 2 w2.
Proof. split; [split; [intros i j Hi Hj; two i Hi; two j Hj; reflexivity|]|]; intros i Hi; two i Hi; reflexivity. Qed.
Lemma g2_deg i : (i < 2)%nat -> at_list (un_dseq g2) i = deg 2 k2 i /\ at_list (un_dseq g2) i = wdeg 2 w2 i /\ un_str g2 i = wstr 2 w2 i.
Proof. intros Hi; two i Hi; unfold at_list, deg, wdeg, wstr, k2, w2, ind, linked, g2; cbn; repeat split; ring. Qed.
Lemma d2_deg i : (i < 2)%nat -> at_list (dn_out d2) i = deg 2 k2 i /\ at_list (dn_in d2) i = indeg 2 k2 i /\
  at_list (dn_out d2) i = wdeg 2 w2 i /\ at_list (dn_in d2) i = windeg 2 w2 i /\ dn_sout d2 i = wstr 2 w2 i /\ dn_sin d2 i = winstr 2 w2 i.
Proof. intros Hi; two i Hi; unfold at_list, deg, indeg, wdeg, windeg, wstr, winstr, k2, w2, ind, linked, d2; cbn; repeat split; ring. Qed.
Definition k_cm : call := call_of "cm" "newton" AdjOther half half.
Definition k_ecm : call := call_of "ecm" "newton" AdjOther half half.
Definition k_crema : call := call_of "crema" "newton" (AdjMatrix ones) half half.
Definition k_crema_name : call := call_of "crema-sparse" "quasinewton" (AdjName "cm") half half.
Definition k_dcm : call := call_of "dcm" "newton" AdjOther half half.
Definition k_dcm_exp : call := call_of "dcm_exp" "newton" AdjOther (fun _ => 0) (fun _ => 0).
Definition k_decm : call := call_of "decm" "newton" AdjOther half half.
Definition k_decm_exp : call := call_of "decm_exp" "newton" AdjOther half half.
Definition k_dcrema : call := call_of "crema" "quasinewton" (AdjMatrix ones) half half.
Definition k_dcrema_name : call := call_of "crema-sparse" "quasinewton" (AdjName "dcm") half half.

Lemma case_cm : exists o', (0 < un_n g2)%nat /\ us_beta (u_fresh false) = None /\ In (c_model k_cm) ["cm"; "cm_exp"]%string /\
  In (c_method k_cm) documented_methods /\ u_solve_tool g2 k_cm (u_fresh false) = (o', None) /\
  (forall v, c_model k_cm = "cm"%string -> c_out k_cm = Some v -> forall q, 0 < o_x v q) /\
  simple_graph (un_n g2) k2 /\ (forall i, (i < un_n g2)%nat -> at_list (un_dseq g2) i = deg (un_n g2) k2 i).
Proof.
  destruct (u_completes g2 k_cm (u_fresh false) half (vec half)) as (o' & H); [cbn; tauto|cbn; tauto|reflexivity|reflexivity|reflexivity|].
  exists o'. split; [cbn; lia|]. split; [reflexivity|]. split; [cbn; tauto|]. split; [cbn; tauto|]. split; [exact H|].
  split; [|split; [exact k2_simple|apply g2_deg]].
  intros v _ E q. injection E as <-. unfold vec, half; cbn; lra.
Qed.
Lemma case_ecm : exists o', (0 < un_n g2)%nat /\ In (c_model k_ecm) ["ecm"; "ecm_exp"]%string /\
  In (c_method k_ecm) documented_methods /\ u_solve_tool g2 k_ecm (u_fresh false) = (o', None) /\
  (forall x y, us_x o' = Some x -> us_y o' = Some y -> ecm_dom (un_n g2) (join2 (un_n g2) x y)) /\
  weighted_graph (un_n g2) w2 /\ (forall i, (i < un_n g2)%nat -> at_list (un_dseq g2) i = wdeg (un_n g2) w2 i /\ un_str g2 i = wstr (un_n g2) w2 i).
Proof.
  destruct (u_completes g2 k_ecm (u_fresh false) half (vec half)) as (o' & H); [cbn; tauto|cbn; tauto|cbn; intros [E|[E|[]]]; discriminate E|reflexivity|reflexivity|].
  exists o'. split; [cbn; lia|]. split; [cbn; tauto|]. split; [cbn; tauto|]. split; [exact H|].
  split; [|split; [exact (proj1 w2_graph)|intros i Hi; exact (proj2 (g2_deg i Hi))]].
  destruct (u_error_ecm g2 k_ecm (u_fresh false) o') as (v & x0 & y0 & ek & es & V & X & Y & _ & HX & HY & _); [cbn; lia|cbn; tauto|exact H|].
  injection V as <-. cbn in HX, HY. intros x y X' Y'. rewrite X in X'. rewrite Y in Y'. injection X' as <-. injection Y' as <-.
  assert (J : forall r, join2 2 x0 y0 r = 1/2) by (intros r; unfold join2; destruct (Nat.ltb r 2); rewrite ?HX, ?HY; reflexivity).
  split; intros; cbn [un_n g2 un_dseq List.length]; rewrite !J; lra.
Qed.
Lemma case_crema : exists o', (0 < un_n g2)%nat /\ c_model k_crema = "crema"%string /\ In (c_method k_crema) documented_methods /\
  c_adjacency k_crema = AdjMatrix ones /\ hollow ones /\ u_solve_tool g2 k_crema (u_fresh false) = (o', None) /\
  (forall b, us_beta o' = Some b -> positive_rates (un_n g2) ones b).
Proof.
  destruct (u_completes_crema g2 k_crema (u_fresh false) ones half (vec half) eq_refl) as (o' & H);
    [cbn; tauto|reflexivity|exact ones_hollow|reflexivity|reflexivity|exact crema2_rates|].
  exists o'. split; [cbn; lia|]. split; [reflexivity|]. split; [cbn; tauto|]. split; [reflexivity|]. split; [exact ones_hollow|].
  split; [exact H|]. intros b Hb.
  destruct (u_after_crema g2 k_crema (u_fresh false) o' (or_introl eq_refl)) as (q & v & adj & _ & V & _ & _ & B & _);
      [cbn; tauto|exact H|]. injection V as <-. rewrite B in Hb. injection Hb as <-. exact crema2_rates.
Qed.
Lemma case_crema_name : exists o', (0 < un_n g2)%nat /\ In (c_model k_crema_name) ["crema"; "crema-sparse"]%string /\
  In (c_method k_crema_name) documented_methods /\ c_adjacency k_crema_name = AdjName "cm" /\
  u_solve_tool g2 k_crema_name (u_fresh false) = (o', None) /\
  (forall x b, us_x o' = Some x -> us_beta o' = Some b -> (forall i, (i < un_n g2)%nat -> 0 <= x i) /\ positive_rates (un_n g2) (p_ubcm x) b).
Proof.
  destruct (u_completes_name g2 k_crema_name (u_fresh false) "cm" half (vec half) half (vec half)) as (o' & H);
    [cbn; tauto|cbn; tauto|cbn; tauto|reflexivity|cbn; tauto|reflexivity|reflexivity|reflexivity|reflexivity|unfold cm_factor; cbn; unfold half; intros; lra|cbn; unfold half; intros; lra|].
  exists o'. split; [cbn; lia|]. split; [cbn; tauto|]. split; [cbn; tauto|]. split; [reflexivity|]. split; [exact H|].
  intros x b X B.
  destruct (u_after_crema g2 k_crema_name (u_fresh false) o' (or_intror (or_introl eq_refl))) as (q & v & adj & A & V & _ & X' & B' & _);
      [cbn; tauto|exact H|]. injection V as <-. rewrite B' in B. injection B as <-.
  destruct (u_adj_name g2 k_crema_name (u_fresh false) "cm" q eq_refl (or_introl eq_refl) A) as (w & W & J & _).
  injection W as <-. rewrite X', J in X. injection X as <-. split; [intros; unfold cm_factor; cbn; unfold half; lra|].
  intros i j _ _. cbn. unfold half. lra.
Qed.
Lemma case_dcm : exists o', (0 < dn_n d2)%nat /\ d_paired d2 /\ ds_bo (d_fresh false) = None /\ c_model k_dcm = "dcm"%string /\
  In (c_method k_dcm) documented_methods /\ d_solve_tool d2 k_dcm (d_fresh false) = (o', None) /\
  (forall x y, ds_x o' = Some x -> ds_y o' = Some y -> supported (dn_n d2) (at_list (dn_out d2)) x /\ supported (dn_n d2) (at_list (dn_in d2)) y) /\
  loopless (dn_n d2) k2 /\ (forall i, (i < dn_n d2)%nat -> at_list (dn_out d2) i = deg (dn_n d2) k2 i /\ at_list (dn_in d2) i = indeg (dn_n d2) k2 i).
Proof.
  destruct (d_completes d2 k_dcm (d_fresh false) half (vec half)) as (o' & H); [cbn; tauto|cbn; tauto|reflexivity|reflexivity|reflexivity|].
  exists o'. split; [cbn; lia|]. split; [reflexivity|]. split; [reflexivity|]. split; [reflexivity|]. split; [cbn; tauto|]. split; [exact H|].
  split; [|split; [exact k2_loopless|intros i Hi; destruct (d2_deg i Hi) as (A & B & _); split; assumption]].
  destruct (d_error_dcm d2 k_dcm (d_fresh false) o') as (v & s & cls & m & x0 & y0 & e1 & e2 & V & X & Y & _ & S & _ & XY & _);
    [cbn; lia|reflexivity|reflexivity|cbn; tauto|exact H|]. injection V as <-. cbn in S.
  intros x y X' Y'. rewrite X in X'. rewrite Y in Y'. injection X' as <-. injection Y' as <-.
  split; intros i Hi; destruct (XY i Hi) as (_ & U1 & U2); rewrite ?U1, ?U2, S; unfold half; two i Hi; cbn; split; lra.
Qed.
Lemma case_dcm_exp : exists o', (0 < dn_n d2)%nat /\ d_paired d2 /\ c_model k_dcm_exp = "dcm_exp"%string /\
  In (c_method k_dcm_exp) documented_methods /\ d_solve_tool d2 k_dcm_exp (d_fresh false) = (o', None) /\
  (forall i, (i < dn_n d2)%nat -> at_list (dn_out d2) i <> 0 /\ at_list (dn_in d2) i <> 0) /\
  loopless (dn_n d2) k2 /\ (forall i, (i < dn_n d2)%nat -> at_list (dn_out d2) i = deg (dn_n d2) k2 i /\ at_list (dn_in d2) i = indeg (dn_n d2) k2 i).
Proof.
  destruct (d_completes d2 k_dcm_exp (d_fresh false) (fun _ => 0) (vec (fun _ => 0))) as (o' & H); [cbn; tauto|cbn; tauto|reflexivity|reflexivity|reflexivity|].
  exists o'. split; [cbn; lia|]. split; [reflexivity|]. split; [reflexivity|]. split; [cbn; tauto|]. split; [exact H|].
  split; [|split; [exact k2_loopless|intros i Hi; destruct (d2_deg i Hi) as (A & B & _); split; assumption]].
  intros i Hi. two i Hi; cbn; split; lra.
Qed.
Lemma case_decm : exists o', (0 < dn_n d2)%nat /\ c_model k_decm = "decm"%string /\
  In (c_method k_decm) documented_methods /\ d_solve_tool d2 k_decm (d_fresh false) = (o', None) /\
  (forall x y bo bi, ds_x o' = Some x -> ds_y o' = Some y -> ds_bo o' = Some bo -> ds_bi o' = Some bi ->
     decm_dom (dn_n d2) (join4 (dn_n d2) x y bo bi) /\
     decm_supp (dn_n d2) (at_list (dn_out d2)) (at_list (dn_in d2)) (dn_sout d2) (dn_sin d2) (join4 (dn_n d2) x y bo bi)) /\
  weighted_digraph (dn_n d2) w2 /\ (forall i, (i < dn_n d2)%nat -> at_list (dn_out d2) i = wdeg (dn_n d2) w2 i /\ at_list (dn_in d2) i = windeg (dn_n d2) w2 i /\
     dn_sout d2 i = wstr (dn_n d2) w2 i /\ dn_sin d2 i = winstr (dn_n d2) w2 i).
Proof.
  destruct (d_completes d2 k_decm (d_fresh false) half (vec half)) as (o' & H); [cbn; tauto|cbn; tauto|reflexivity|reflexivity|reflexivity|].
  exists o'. split; [cbn; lia|]. split; [reflexivity|]. split; [cbn; tauto|]. split; [exact H|].
  split; [|split; [exact (proj2 w2_graph)|intros i Hi; destruct (d2_deg i Hi) as (_ & _ & A); exact A]].
  intros x y bo bi X Y BO BI.
  destruct (d_tool_problem d2 k_decm (d_fresh false) o' (or_intror (or_intror (or_introl eq_refl))) H) as (p & HS & HE).
  apply d_solve_decm in HS; [|cbn; tauto]. destruct HS as (d & w & _ & W & X1 & X2 & X3 & X4 & _). injection W as <-.
  apply d_error_frame in HE. destruct HE as (F1 & F2 & F3 & F4 & _).
  rewrite F1, X1 in X. rewrite F2, X2 in Y. rewrite F3, X3 in BO. rewrite F4, X4 in BI.
  injection X as <-. injection Y as <-. injection BO as <-. injection BI as <-.
  match goal with |- decm_dom _ ?f /\ _ => assert (J : forall r, f r = 1/2) end.
  { intros r. unfold join4, join2. cbn [c_model k_decm call_of]. unfold dir_factor, drop. cbn. unfold half.
    repeat match goal with |- context [if ?b then _ else _] => destruct b end; reflexivity. }
  split; [split; intros; rewrite !J; lra|]. intros i Hi. rewrite !J. repeat split; intros; lra.
Qed.
Lemma case_decm_exp : exists o', (0 < dn_n d2)%nat /\ c_model k_decm_exp = "decm_exp"%string /\
  In (c_method k_decm_exp) documented_methods /\ d_solve_tool d2 k_decm_exp (d_fresh false) = (o', None) /\
  (forall bo bi, ds_bo o' = Some bo -> ds_bi o' = Some bi -> forall i j, (i < dn_n d2)%nat -> (j < dn_n d2)%nat -> i <> j -> 0 < bo i + bi j) /\
  weighted_digraph (dn_n d2) w2 /\ (forall i, (i < dn_n d2)%nat -> at_list (dn_out d2) i = wdeg (dn_n d2) w2 i /\ at_list (dn_in d2) i = windeg (dn_n d2) w2 i /\
     dn_sout d2 i = wstr (dn_n d2) w2 i /\ dn_sin d2 i = winstr (dn_n d2) w2 i).
Proof.
  destruct (d_completes d2 k_decm_exp (d_fresh false) half (vec half)) as (o' & H); [cbn; tauto|cbn; tauto|reflexivity|reflexivity|reflexivity|].
  exists o'. split; [cbn; lia|]. split; [reflexivity|]. split; [cbn; tauto|]. split; [exact H|].
  split; [|split; [exact (proj2 w2_graph)|intros i Hi; destruct (d2_deg i Hi) as (_ & _ & A); exact A]].
  intros bo bi BO BI i j _ _ _.
  destruct (d_tool_problem d2 k_decm_exp (d_fresh false) o' (or_intror (or_intror (or_intror (or_introl eq_refl)))) H) as (p & HS & HE).
  apply d_solve_decm in HS; [|cbn; tauto]. destruct HS as (d & w & _ & W & X1 & X2 & X3 & X4 & _). injection W as <-.
  apply d_error_frame in HE. destruct HE as (F1 & F2 & F3 & F4 & _).
  rewrite F3, X3 in BO. rewrite F4, X4 in BI. injection BO as <-. injection BI as <-.
  unfold drop, dir_factor; cbn; unfold exp_neg; cbn. pose proof (exp_pos (- half (i + 4)%nat)). pose proof (exp_pos (- half (j + 6)%nat)).
  repeat match goal with |- context [exp ?t] => pose proof (exp_pos t); generalize dependent (exp t); intros end; lra.
Qed.
Lemma case_dcrema : exists o', (0 < dn_n d2)%nat /\ c_model k_dcrema = "crema"%string /\ c_full k_dcrema = false /\ In (c_method k_dcrema) documented_methods /\
  c_adjacency k_dcrema = AdjMatrix ones /\ d_solve_tool d2 k_dcrema (d_fresh false) = (o', None) /\
  (forall bo bi, ds_bo o' = Some bo -> ds_bi o' = Some bi -> positive_rates_dir (dn_n d2) ones bo bi).
Proof.
  destruct (d_completes_matrix d2 k_dcrema (d_fresh false) ones half (vec half)) as (o' & H);
    [cbn; tauto|cbn; tauto|reflexivity|reflexivity|reflexivity|intros i j _ _ _; cbn; unfold drop, half; lra|].
  exists o'. split; [cbn; lia|]. split; [reflexivity|]. split; [reflexivity|]. split; [cbn; tauto|]. split; [reflexivity|].
  split; [exact H|]. intros bo bi BO BI.
  destruct (d_after_crema d2 k_dcrema (d_fresh false) o' (or_introl eq_refl)) as (q & v & adj & _ & V & _ & _ & _ & B & B' & _);
      [cbn; tauto|exact H|]. injection V as <-. rewrite B in BO. rewrite B' in BI. injection BO as <-. injection BI as <-.
  intros i j _ _ _; cbn; unfold drop, half; lra.
Qed.
Lemma case_dcrema_name : exists o', (0 < dn_n d2)%nat /\ d_paired d2 /\ In (c_model k_dcrema_name) ["crema"; "crema-sparse"]%string /\
  c_full k_dcrema_name = false /\ In (c_method k_dcrema_name) documented_methods /\ c_adjacency k_dcrema_name = AdjName "dcm" /\
  d_solve_tool d2 k_dcrema_name (d_fresh false) = (o', None) /\
  (forall x y bo bi, ds_x o' = Some x -> ds_y o' = Some y -> ds_bo o' = Some bo -> ds_bi o' = Some bi ->
     supported (dn_n d2) (at_list (dn_out d2)) x /\ supported (dn_n d2) (at_list (dn_in d2)) y /\ positive_rates_dir (dn_n d2) (dcm_prob x y) bo bi) /\
  (forall i, (i < dn_n d2)%nat -> (dn_sout d2 i = 0 <-> at_list (dn_out d2) i = 0) /\ (dn_sin d2 i = 0 <-> at_list (dn_in d2) i = 0)).
Proof.
  destruct (d_completes_name d2 k_dcrema_name (d_fresh false) "dcm" half (vec half) half (vec half)) as (o' & H & X & Y & BO & BI);
    [reflexivity|cbn; tauto|cbn; tauto|cbn; tauto|reflexivity|cbn; tauto|reflexivity|reflexivity|reflexivity|reflexivity| | | |].
  1,2: intros i Hi; two i Hi; unfold dir_factor; cbn; unfold half; split; lra.
  { cbn; unfold half; intros; lra. }
  exists o'. split; [cbn; lia|]. split; [reflexivity|]. split; [cbn; tauto|]. split; [reflexivity|]. split; [cbn; tauto|]. split; [reflexivity|].
  split; [exact H|]. split.
  - intros x y bo bi X' Y' BO' BI'. rewrite X in X'. rewrite Y in Y'. rewrite BO in BO'. rewrite BI in BI'.
    injection X' as <-. injection Y' as <-. injection BO' as <-. injection BI' as <-.
    split; [|split]; [intros i Hi; two i Hi; unfold dir_factor; cbn; unfold half; split; lra..|].
    intros i j _ _ _; cbn; unfold drop, half; lra.
  - intros i Hi; two i Hi; cbn; split; split; intros; lra.
Qed.

(** * Likelihood reports that are not the log-likelihood of the solution *)
Lemma k2_prob_und p : prob_undirected 2 p k2 = p 0%nat 1%nat.
Proof. unfold prob_undirected, k2. cbn. ring. Qed.
Lemma k2_prob_dir p : prob_directed 2 p k2 = p 0%nat 1%nat * p 1%nat 0%nat.
Proof. unfold prob_directed, k2. cbn. ring. Qed.
(** The sign: the reported value is positive while the log-likelihood is negative. *)
Lemma ll_sign : exists g c o' a x l, c_model c = "cm"%string /\ In (c_method c) documented_methods /\ u_solve_tool g c (u_fresh false) = (o', None) /\
  simple_graph (un_n g) a /\ (forall i, (i < un_n g)%nat -> at_list (un_dseq g) i = deg (un_n g) a i) /\
  us_x o' = Some x /\ scalar (u_model_loglikelihood o') = Some l /\ l <> ln (prob_undirected (un_n g) (p_ubcm x) a).
Proof.
  destruct case_cm as (o' & Hn & Hb & Hm & Hd & H & Hp & Hs & Hk).
  destruct (u_ll_cm g2 k_cm (u_fresh false) o' k2 Hm Hd H Hp Hs Hk) as (x & X & L).
  exists g2, k_cm, o', k2, x, (- ln (prob_undirected (un_n g2) (p_ubcm x) k2)).
  split; [reflexivity|]. split; [exact Hd|]. split; [exact H|]. split; [exact Hs|]. split; [exact Hk|]. split; [exact X|]. split; [exact L|].
  destruct (u_after_cm g2 k_cm (u_fresh false) o' Hm Hd H) as (v & V & X' & _). rewrite X in X'. injection X' as ->. injection V as <-.
  change (un_n g2) with 2%nat. rewrite k2_prob_und. unfold p_ubcm, cm_factor; cbn. unfold half.
  match goal with |- - ln ?t <> _ => assert (T : ln t < 0) by (rewrite <- ln_1; apply ln_increasing; lra) end. lra.
Qed.
(** The exponential directed model: the value is, up to sign, a log-likelihood at other
    factors. *)
Lemma ll_dcm_exp_wrong : exists g c o' a x y l, c_model c = "dcm_exp"%string /\ In (c_method c) documented_methods /\
  d_solve_tool g c (d_fresh false) = (o', None) /\ loopless (dn_n g) a /\
  (forall i, (i < dn_n g)%nat -> at_list (dn_out g) i = deg (dn_n g) a i /\ at_list (dn_in g) i = indeg (dn_n g) a i) /\
  ds_x o' = Some x /\ ds_y o' = Some y /\ scalar (d_model_loglikelihood o') = Some l /\
  l <> ln (prob_directed (dn_n g) (p_dbcm x y) a) /\ l <> - ln (prob_directed (dn_n g) (p_dbcm x y) a).
Proof.
  destruct case_dcm_exp as (o' & Hn & Hpd & Hm & Hd & H & Hz & Hl & Hk).
  destruct (d_ll_dcm_exp d2 k_dcm_exp (d_fresh false) o' k2 Hpd Hm Hd H Hz Hl (fun i Hi => proj1 (Hk i Hi)) (fun i Hi => proj2 (Hk i Hi))) as (x & y & X & Y & L).
  destruct (d_error_dcm d2 k_dcm_exp (d_fresh false) o') as (v & s & cls & m & x0 & y0 & e1 & e2 & V & X' & Y' & _ & S & _ & XY & _);
    [cbn; lia|reflexivity|reflexivity|cbn; tauto|exact H|]. injection V as <-. cbn in S.
  rewrite X in X'. rewrite Y in Y'. injection X' as <-. injection Y' as <-.
  assert (X1 : forall i, (i < 2)%nat -> x i = 1 /\ y i = 1).
  { intros i Hi. destruct (XY i Hi) as (_ & -> & ->). rewrite S. unfold exp_neg, vec; cbn. rewrite Ropp_0, exp_0. split; reflexivity. }
  eexists d2, k_dcm_exp, o', k2, x, y, _.
  split; [reflexivity|]. split; [exact Hd|]. split; [exact H|]. split; [exact Hl|]. split; [exact Hk|]. split; [exact X|]. split; [exact Y|]. split; [exact L|].
  change (dn_n d2) with 2%nat. rewrite !k2_prob_dir. unfold p_dbcm.
  destruct (X1 0%nat) as [-> ->]; [lia|]. destruct (X1 1%nat) as [-> ->]; [lia|].
  set (e := exp (Ropp 1)). assert (E0 : 0 < e) by apply exp_pos.
  assert (E1 : e < 1) by (pose proof (exp_increasing (Ropp 1) 0 ltac:(lra)) as E1; rewrite exp_0 in E1; exact E1).
  replace (1 * 1 / (1 + 1 * 1) * (1 * 1 / (1 + 1 * 1))) with (/ 4) by field.
  set (q := e * e / (1 + e * e)).
  assert (Q0 : 0 < q) by (unfold q; apply Rdiv_lt_0_compat; nra).
  assert (Q1 : q < / 2).
  { unfold q. apply (Rmult_lt_reg_r (1 + e * e)); [nra|]. unfold Rdiv. rewrite Rmult_assoc, Rinv_l by nra. nra. }
  assert (LQ : ln (q * q) < ln (/ 4)) by (apply ln_increasing; nra).
  assert (L4 : ln (/ 4) < 0) by (rewrite <- ln_1; apply ln_increasing; lra).
  split; lra.
Qed.
(** A call that raises after the arguments have been replaced leaves the old solution with
    the new arguments. *)
#[local] Transparent u_dispatch lookup.
Lemma crema_bad : u_dispatch "crema" "unknown" None = inr RefValueError.
Proof. reflexivity. Qed.
#[local] Opaque u_dispatch lookup.
Lemma u_failed g c1 c2 b o o1 v0 : c_model c1 = "crema"%string -> In (c_method c1) documented_methods ->
  c_model c2 = "crema"%string -> c_method c2 = "unknown"%string -> c_adjacency c2 = AdjMatrix b -> hollow b -> c_guess c2 = Some v0 ->
  u_solve_tool g c1 o = (o1, None) -> (forall s, positive_rates (un_n g) b s) ->
  exists o2 s, u_solve_tool g c2 o1 = (o2, Some EValue) /\ us_sol o1 = Some s /\ us_sol o2 = Some s /\
    scalar (u_model_loglikelihood o2) = Some (- crema_loglik (un_n g) b (un_str g) s).
Proof.
  intros M1 D1 M2 D2 A2 Hh G2 H1 HP.
  assert (M1' : In (c_model c1) ["crema"; "crema-sparse"]%string) by (rewrite M1; left; reflexivity).
  destruct (u_tool_crema _ _ _ _ M1' H1) as (p & P1 & P2).
  apply u_crema_inv in P1; [|exact M1']. destruct P1 as (q & d & v & v1 & adj & HA & D & _ & _ & ->).
  apply u_error_frame in P2. destruct P2 as (_ & _ & _ & F2 & F3 & _ & _ & _). cbn [us_sol us_step us_set_sol us_set_beta us_set_step us_set_args us_set_last] in F2, F3.
  unfold u_solve_tool, u_solve_crema, u_set_adjacency, u_initialize, u_set_guess, u_set_args. rewrite M2, D2, A2, G2. names.
  cbn [andthen fst snd ok raising us_sparse us_set_adj us_adj us_set_last us_set_beta]. names.
  cbn [andthen fst snd ok raising us_sparse us_set_adj us_adj us_set_last us_set_beta].
  rewrite crema_bad. cbn [andthen fst snd ok raising].
  eexists _, (o_x v). split; [reflexivity|]. split; [exact F2|]. split; [exact F2|].
  unfold u_model_loglikelihood. cbn [us_step us_args us_sol us_set_args us_set_beta us_set_last us_set_adj us_set_sparse]. rewrite F2, F3.
  assert (HU : In "crema"%string undirected_models) by (cbn; tauto). rewrite M1 in D.
  rewrite (u_step_name _ _ _ HU D1 D). rewrite <- (loglik_triu (un_n g) b (un_str g) (o_x v) Hh).
  exact (f_equal scalar (neg_entry _ _ _ _ (e_ll_crema_undirected _ _ _ _ (triu_dom _ _ _ Hh (HP _))))).
Qed.
Lemma ll_after_failure : exists g c1 c2 o1 o2 s a l, u_solve_tool g c1 (u_fresh false) = (o1, None) /\ c_adjacency c1 = AdjMatrix a /\
  u_solve_tool g c2 o1 = (o2, Some EValue) /\ us_sol o1 = Some s /\ us_sol o2 = Some s /\
  scalar (u_model_loglikelihood o1) = Some (- crema_loglik (un_n g) a (un_str g) s) /\
  scalar (u_model_loglikelihood o2) = Some l /\ l <> crema_loglik (un_n g) a (un_str g) s /\ l <> - crema_loglik (un_n g) a (un_str g) s.
Proof.
  set (c1 := call_of "crema" "newton" (AdjMatrix ones) half (fun _ => 1)).
  set (c2 := call_of "crema" "unknown" (AdjMatrix (fun _ _ => 0)) half (fun _ => 1)).
  destruct (u_completes_crema g2 c1 (u_fresh false) ones (fun _ => 1) (vec (fun _ => 1)) eq_refl) as (o1 & H);
    [cbn; tauto|reflexivity|exact ones_hollow|reflexivity|reflexivity|intros i j _ _; cbn; lra|].
  destruct (u_failed g2 c1 c2 (fun _ _ => 0) (u_fresh false) o1 (fun _ => 1)) as (o2 & s & H2 & S1 & S2 & L2);
    [reflexivity|cbn; tauto|reflexivity|reflexivity|reflexivity|intros i; reflexivity|reflexivity|exact H|intros s' i j _ Z; elim Z; reflexivity|].
  assert (SV : s = fun _ => 1).
  { destruct (u_tool_crema _ _ _ _ (or_introl eq_refl : In (c_model c1) ["crema"; "crema-sparse"]%string) H) as (p & P1 & P2).
    apply u_crema_inv in P1; [|left; reflexivity]. destruct P1 as (q & d & v & v1 & adj & _ & _ & V & _ & ->). injection V as <-.
    apply u_error_frame in P2. destruct P2 as (_ & _ & _ & F2 & _). cbn in F2. rewrite S1 in F2. injection F2 as ->. reflexivity. }
  assert (BW : forall bt, us_beta o1 = Some bt -> bt = fun _ => 1).
  { intros bt B. destruct (u_after_crema g2 c1 (u_fresh false) o1 (or_introl eq_refl)) as (q & v & adj & _ & V & _ & _ & B' & _);
      [cbn; tauto|exact H|]. injection V as <-. rewrite B' in B. injection B as <-. reflexivity. }
  destruct (u_ll_crema_matrix g2 c1 (u_fresh false) o1 ones eq_refl) as (bt & B & L1);
    [cbn; tauto|reflexivity|exact ones_hollow|exact H|intros bt B i j _ _; rewrite (BW bt B); lra|].
  assert (BV := BW bt B).
  eexists g2, c1, c2, o1, o2, s, ones, _. rewrite BV in L1. rewrite SV in *.
  split; [exact H|]. split; [reflexivity|]. split; [exact H2|]. split; [exact S1|]. split; [exact S2|]. split; [exact L1|]. split; [exact L2|].
  unfold crema_loglik, ones, g2; cbn. replace (1 + 1) with 2 by ring.
  assert (LN : 0 < ln 2 < 1).
  { split; [rewrite <- ln_1; apply ln_increasing; lra|]. rewrite <- (ln_exp 1). apply ln_increasing; [lra|].
    pose proof (exp_ineq1 1 ltac:(lra)). lra. }
  split; lra.
Qed.
(** Directed CReMa with [full_return]: nothing is returned. *)
Lemma d_ll_full g c o o' : In (c_model c) ["crema"; "crema-sparse"]%string -> In (c_method c) documented_methods -> c_full c = true ->
  d_solve_tool g c o = (o', None) -> d_model_loglikelihood o' = None.
Proof. intros Hm Hd Hf H. destruct (d_after_crema _ _ _ _ Hm Hd H) as (o1 & v & adj & _ & _ & _ & _ & _ & _ & _ & K & _). exact (K Hf). Qed.
Definition k_dcrema_full : call := {| c_model := "crema"; c_method := "quasinewton"; c_full := true; c_adjacency := AdjMatrix ones;
  c_method_adjacency := "newton"; c_guess := Some half; c_out := Some (vec half); c_guess_adjacency := None; c_out_adjacency := None |}.
Lemma case_full : exists o', In (c_model k_dcrema_full) ["crema"; "crema-sparse"]%string /\ In (c_method k_dcrema_full) documented_methods /\
  c_full k_dcrema_full = true /\ d_solve_tool d2 k_dcrema_full (d_fresh false) = (o', None).
Proof.
  destruct (d_completes_matrix d2 k_dcrema_full (d_fresh false) ones half (vec half)) as (o' & H);
    [cbn; tauto|cbn; tauto|reflexivity|reflexivity|reflexivity|intros i j _ _ _; cbn; unfold drop, half; lra|].
  exists o'. split; [cbn; tauto|]. split; [cbn; tauto|]. split; [reflexivity|exact H].
Qed.
(** Non-vacuity of the other refutations. *)
Lemma case_unknown : exists o1, us_beta (u_fresh false) = None /\ u_solve_tool g2 k_cm (u_fresh false) = (o1, None) /\ ~ In "cmm"%string undirected_models.
Proof. destruct case_cm as (o1 & _ & A & _ & _ & B & _). exists o1. split; [exact A|]. split; [exact B|]. cbn. intros H. repeat destruct H as [H|H]; try discriminate H; exact H. Qed.
Lemma case_decm_dcm : exists o1, d_solve_tool d2 k_decm (d_fresh false) = (o1, None) /\ In (c_model k_decm) ["decm"; "decm_exp"]%string /\
  In (c_model k_dcm) ["dcm"; "dcm_exp"]%string /\ In (c_method k_dcm) documented_methods.
Proof. destruct case_decm as (o1 & _ & _ & _ & A & _). exists o1. split; [exact A|]. cbn; tauto. Qed.
Lemma case_history : forall c, In c [k_cm; k_ecm; k_cm] -> ~ In (c_model c) ["crema"; "crema-sparse"]%string.
Proof. intros c [<-|[<-|[<-|[]]]]; cbn; intros H; repeat destruct H as [H|H]; try discriminate H; exact H. Qed.
Lemma case_history_dir : forall c, In c [k_dcm; k_dcm_exp; k_dcm] -> ~ In (c_model c) ["crema"; "crema-sparse"; "decm"; "decm_exp"]%string.
Proof. intros c [<-|[<-|[<-|[]]]]; cbn; intros H; repeat destruct H as [H|H]; try discriminate H; exact H. Qed.
