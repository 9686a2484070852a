(** Calls of [solve_tool] that make a step, for the theorems on idle coordinates and on
    the switch of the line search. *)
From Coq Require Import Reals List Arith Bool String Lia Lra.
From Verif Require Import Base SpecDirected SpecNetwork SpecLinsearch SpecDispatch SpecRun SpecGuess SpecSolve SpecTool
  ModelDCM ModelDECM ModelNetwork ModelLinsearch ModelSolver ModelIEEE ModelDispatch ModelGuess ModelRun ModelSolve ModelTool.
From Verif Require Import ProofsIEEE ProofsMainLinsearch ProofsRun ProofsIterates ProofsSolve ProofsSolveU ProofsSolveD ProofsTool ProofsToolD ProofsSwitch WitnessTool.
Import ListNotations.
Local Open Scope R_scope.

(** A quasi-Newton call limited to one step, from a point where the coordinates that are
    read grow. *)
Lemma quasi_once e opt m D A z f (act : nat -> Prop) : o_method opt = QuasiNewton -> o_full_return opt = true -> o_verbose opt = false -> o_max_steps opt = 1%nat -> o_eps opt = 0 -> o_regularise opt = true -> 0 < o_regularise_eps opt -> 0 <= o_tol opt ->
  (forall w, (forall i, act i -> z i <= w i) -> exists v, p_fun (run_problem (v_eigh e) (v_fuel e) m D A) w = Some v) ->
  (exists b, p_jac_v (run_problem (v_eigh e) (v_fuel e) m D A) z = Some b /\ forall i, act i -> 0 < b i) ->
  (forall dx, exists v, 0 <= v /\ p_lin_nq (run_problem (v_eigh e) (v_fuel e) m D A) z dx (/ 2) 1 f = Some v) ->
  (forall i, act i -> f i <= 0) ->
  p_fun (run_problem (v_eigh e) (v_fuel e) m D A) z = Some f -> o_tol opt < norm2 m f ->
  exists x ns ds als, solve_with e opt m (inl D) (Some A) (Some z) = Full x 1 ns ds als /\ List.length als = if o_linsearch opt then 1%nat else 0%nat.
Proof.
  intros HM HF HV HS HE HR HRe HT Tf (b & Hb & Pb) Tl Nf Hf Hn. unfold solve_with. set (P := run_problem _ _ _ _ _) in *. set (N := run_numerics _ _ _).
  unfold solver. rewrite HS. unfold solver_init. rewrite Hf. cbn [sbind solver_loop]. unfold solver_continue at 1. cbn [s_norm s_n s_diff]. rewrite HS, HE.
  change (gtb N (vnorm N f) (o_tol opt)) with (if Rlt_dec (o_tol opt) (norm2 m f) then true else false). destruct (Rlt_dec _ _) as [_|Q]; [|contradiction].
  change (gtb N (sone N) 0) with (if Rlt_dec 0 1 then true else false). destruct (Rlt_dec 0 1) as [_|Q]; [|lra]. cbn [andb Nat.ltb Nat.leb].
  unfold solver_step. cbn [s_x s_f].
  match goal with |- context [solver_dx N P opt ?s0] => set (s := s0);
    assert (HD : exists dx, (forall i, act i -> 0 <= dx i) /\ solver_dx N P opt s = Some dx) end.
  { destruct (quasi_exists (v_linsolve e) (v_eigh_ok e) m P opt s b HM HR HRe Hf ltac:(cbn [s_f s]; lra) Hb) as (Q & E). eexists. split; [|exact Q].
    intros i Hi. specialize (Pb i Hi). specialize (Nf i Hi). cbn [s_f s]. apply Rmult_le_pos; [lra|]. left. apply Rinv_0_lt_compat. apply Rlt_le_trans with (1 := Pb). apply Rmax_l. }
  destruct HD as (dx & Pd & HD). rewrite HD. cbn [sbind]. unfold solver_alfa. rewrite HM. unfold s. cbn [s_x s_f s_alfas]. destruct (Tl dx) as (a & Pa & Ha).
  change (p_lin_nq P z dx (shalf N) (sone N) f) with (p_lin_nq P z dx (/ 2) 1 f). rewrite Ha.
  assert (HA : exists a' als', 0 <= a' /\ (if o_linsearch opt then sbind (Some a) (fun alfa => Some (alfa, if o_full_return opt then [] ++ [alfa] else [])) else Some (sone N, [])) = Some (a', als') /\
    List.length als' = if o_linsearch opt then 1%nat else 0%nat).
  { rewrite HF. destruct (o_linsearch opt); eexists; eexists; (split; [|split; reflexivity]); [exact Pa|]. cbn. lra. }
  destruct HA as (a' & als' & Pa' & HA & HN). rewrite HA. cbn [sbind fst snd]. destruct (Tf (vaxpy N z a' dx)) as (f1 & Hf1).
  { intros i Hi. change (z i <= z i + a' * dx i). specialize (Pd i Hi). assert (0 <= a' * dx i) by (apply Rmult_le_pos; assumption). lra. }
  rewrite Hf1. cbn [sbind]. rewrite HV. cbn [andb].
  unfold solver_continue. cbn [s_n]. rewrite HS. cbn [Nat.add Nat.ltb Nat.leb]. rewrite andb_false_r. cbn [andb]. rewrite HF. cbn [s_x s_n s_norms s_diffs s_alfas].
  do 4 eexists. split; [reflexivity|exact HN].
Qed.

(** One step, of the stated length if the search is on. *)
Definition one_step (model : string) (ls : bool) : settings :=
  {| t_model := model; t_method := "quasinewton"; t_guess := GStr "uniform"; t_adjacency := AdjName "dcm"; t_method_adjacency := "quasinewton"; t_guess_adjacency := GStr "uniform";
     t_max_steps := 1; t_full := true; t_verbose := false; t_linsearch := ls; t_tol := 0; t_eps := 0 |}.
Definition arrow_net : dnet := {| dn_out := [1; 0]%nat; dn_in := [0; 1]%nat; dn_sout := fun i => nth i [2; 0] 0; dn_sin := fun i => nth i [0; 2] 0 |}.
Lemma arrow_start : exists z, d_start arrow_net "dcm" half (GStr "uniform") = Some z /\ z 1%nat = / 2 /\ z 2%nat = / 2.
Proof.
  destruct (d_start_dcm arrow_net "dcm" ltac:(cbn; tauto)) as (z & Hz). exists z. split; [exact Hz|]. unfold d_start in Hz. names_in Hz.
  unfold set_initial_guess_dcm, dcm_values in Hz. cbn -[where_zero all_fin d_length degree_reduction_dir cat2] in Hz.
  change (d_length arrow_net "dcm") with 4%nat in Hz.
  pose proof (all_fin_inv _ _ _ Hz 1%nat ltac:(lia)) as H1. pose proof (all_fin_inv _ _ _ Hz 2%nat ltac:(lia)) as H2. unfold where_zero in H1, H2. cbn in H1, H2.
  destruct (Req_EM_T 1 0) as [Q|_]; [lra|]. split; congruence.
Qed.
Lemma norm_above m f i : (i < m)%nat -> f i <> 0 -> 0 < norm2 m f.
Proof.
  intros Hi Hf. unfold norm2. apply sqrt_lt_R0. unfold dot. apply (rsum_pos m _ i); [|exact Hi|].
  - intros j Hj. nra.
  - nra.
Qed.
Lemma dcm_jac D m ko ki nzo nzi c z : d_dispatch "dcm" "quasinewton" None = inl D -> dcm_dom m nzo nzi z ->
  real_vec (2 * m) (run_entry (d_jac D) (A5d m ko ki nzo nzi c) z) = Some (fun q => - loglikelihood_hessian_diag_dcm m ko ki nzo nzi c z q).
Proof.
  intros E H. injection E as <-. etransitivity; [exact (guarded_eq (2 * m) (dcm_divisors m nzo nzi z) (loglikelihood_hessian_diag_dcm m ko ki nzo nzi c z))|]. rewrite dcm_divisors_ok by exact H. reflexivity.
Qed.
(** The run on the arrow: one step, which changes nothing for the idle coordinates. *)
Lemma arrow_runs e ls : v_rnd e = half -> exists x ns ds als, d_solver e arrow_net (one_step "dcm" ls) "dcm" "quasinewton" ls (v_rnd e) (GStr "uniform") None = Full x 1 ns ds als /\
  List.length als = if ls then 1%nat else 0%nat.
Proof.
  intros Hr. destruct arrow_start as (z & Hz & Z1 & Z2). unfold d_solver. rewrite Hr, Hz, dargs_dcm by (cbn; tauto). change (d_length arrow_net "dcm") with (2 * 2)%nat.
  change (d_args_dcm arrow_net) with (A5d 2 (at_list [0; 1]%nat) (at_list [1; 0]%nat) [1]%nat [0]%nat (at_list [1; 1]%nat)).
  assert (HD : exists D, d_dispatch "dcm" "quasinewton" None = inl D) by (eexists; reflexivity). destruct HD as (D & HD). rewrite HD.
  assert (Dom : forall w, (forall i, (i = 1 \/ i = 2)%nat -> z i <= w i) -> dcm_dom 2 [1]%nat [0]%nat w).
  { intros w Hw. pose proof (Hw 1%nat ltac:(lia)). pose proof (Hw 2%nat ltac:(lia)). split; intros i [<-|[]]; cbn; lra. }
  pose proof (fun w => fun_dcm "quasinewton" D 2 (at_list [0; 1]%nat) (at_list [1; 0]%nat) [1]%nat [0]%nat (at_list [1; 1]%nat) w ltac:(cbn; tauto) HD) as HF.
  eapply (quasi_once e (t_options (one_step "dcm" ls) "quasinewton" ls) (2 * 2) D _ z _ (fun i => (i = 1 \/ i = 2)%nat)); try reflexivity; try (cbn; lra).
  - intros w Hw. cbn [p_fun run_problem]. rewrite HF, dcm_divisors_ok by (apply Dom; exact Hw). eexists. reflexivity.
  - cbn [p_jac_v run_problem]. rewrite (dcm_jac D) by (try exact HD; apply Dom; intros; lra). eexists. split; [reflexivity|].
    intros i [->| ->]; cbn; rewrite Z1, Z2; lra.
  - intros dx. injection HD as <-. eexists. split; [|reflexivity]. left. cbn [lins_size existsb String.eqb].
    refine (proj1 (proj1 (DCM_admissible 2 [1]%nat [0]%nat _ z dx (/ 2) 1 _ _ _ _ _ _))); try lra.
    + split; [repeat constructor; cbn; tauto|]. intros i [<-|[]]. lia.
    + split; [repeat constructor; cbn; tauto|]. intros i [<-|[]]. lia.
    + apply Dom. intros. lra.
  - instantiate (1 := fun q => - loglikelihood_prime_dcm 2 (at_list [0; 1]%nat) (at_list [1; 0]%nat) [1]%nat [0]%nat (at_list [1; 1]%nat) z q).
    intros i [->| ->]; cbn; rewrite Z1, Z2; lra.
  - cbn [p_fun run_problem]. rewrite HF, dcm_divisors_ok by (apply Dom; intros; lra). reflexivity.
  - cbn [o_tol t_options t_tol one_step]. apply (norm_above _ _ 1%nat); [lia|].
    cbn. rewrite Z1, Z2. lra.
Qed.
Lemma arrow_zero_case : exists e g t nm o o' r, (0 < dn_n g)%nat /\ d_paired g /\ balanced (dn_out g) (dn_in g) /\ ds_bo o = None /\
  linear_solver (d_length g "dcm") (v_linsolve e) /\ eigen_solver (d_length g "dcm") (v_eigh e) /\
  t_model t = "dcm"%string /\ In (t_method t) descent_methods /\ t_guess t = GStr nm /\ In nm binary_names /\ draws (v_rnd e) /\ 0 <= t_tol t /\
  d_tool e g t o = (o', None) /\ d_report e g t o = Some r /\ r_steps r = 1%nat /\ nth 1 (dn_out g) O = O /\ nth 0 (dn_in g) O = O.
Proof.
  destruct (world (d_length arrow_net "dcm")) as (e & HL & HE & R1 & R2). destruct (arrow_runs e true R1) as (x & ns & ds & als & Hrun & _).
  destruct arrow_start as (z & Hz & _). assert (HD : exists D, d_dispatch "dcm" "quasinewton" None = inl D) by (eexists; reflexivity). destruct HD as (D & HD).
  destruct (d_completes e arrow_net (one_step "dcm" true) (d_fresh false) z D {| o_x := x; o_inf := fun _ => false |}) as (o' & Ho).
  - cbn. tauto.
  - reflexivity.
  - rewrite R1. exact Hz.
  - exact HD.
  - change (d_result e arrow_net (one_step "dcm" true) (d_fresh false)) with (d_solver e arrow_net (one_step "dcm" true) "dcm" "quasinewton" true (v_rnd e) (GStr "uniform") None).
    rewrite Hrun. reflexivity.
  - exists e, arrow_net, (one_step "dcm" true), "uniform"%string, (d_fresh false), o', {| r_steps := 1; r_norms := ns; r_diffs := ds; r_alfas := als |}.
    assert (HR : d_report e arrow_net (one_step "dcm" true) (d_fresh false) = Some {| r_steps := 1; r_norms := ns; r_diffs := ds; r_alfas := als |}).
    { unfold d_report. change (d_result e arrow_net (one_step "dcm" true) (d_fresh false)) with (d_solver e arrow_net (one_step "dcm" true) "dcm" "quasinewton" true (v_rnd e) (GStr "uniform") None).
      rewrite Hrun. reflexivity. }
    repeat match goal with |- _ /\ _ => split end; first [exact HL|exact HE|exact Ho|exact HR|reflexivity|rewrite R1; exact half_draws|unfold balanced; cbn; ring|cbn; lia|cbn; tauto|cbn; lra].
Qed.

(** * The directed solve of the adjacency searches although it was told not to *)
Lemma linsearch_off_refuted : exists e g t r, linear_solver (d_length g "dcm") (v_linsolve e) /\ eigen_solver (d_length g "dcm") (v_eigh e) /\
  t_model t = "crema"%string /\ t_adjacency t = AdjName "dcm" /\ t_linsearch t = false /\ t_full t = true /\
  d_report_adjacency e g t = Some r /\ r_alfas r <> [].
Proof.
  destruct (world (d_length arrow_net "dcm")) as (e & HL & HE & R1 & R2). 
  set (e' := {| v_linsolve := v_linsolve e; v_eigh_ok := v_eigh_ok e; v_eigh := v_eigh e; v_fuel := v_fuel e; v_rnd := half; v_rnd_adjacency := half |}).
  destruct (arrow_runs e' true eq_refl) as (x & ns & ds & als & Hrun & HN).
  exists e', arrow_net, (one_step "crema" false). eexists. split; [exact HL|]. split; [exact HE|]. split; [reflexivity|]. split; [reflexivity|]. split; [reflexivity|]. split; [reflexivity|].
  split.
  - unfold d_report_adjacency.
    change (d_result_adjacency e' arrow_net (one_step "crema" false)) with (d_solver e' arrow_net (one_step "dcm" true) "dcm" "quasinewton" true (v_rnd e') (GStr "uniform") None).
    rewrite Hrun. reflexivity.
  - cbn. destruct als; [discriminate|discriminate].
Qed.
Lemma linsearch_ignored e g t t' : t_adjacency t = t_adjacency t' -> t_method_adjacency t = t_method_adjacency t' -> t_guess_adjacency t = t_guess_adjacency t' ->
  t_max_steps t = t_max_steps t' -> t_full t = t_full t' -> t_verbose t = t_verbose t' -> t_tol t = t_tol t' -> t_eps t = t_eps t' ->
  d_result_adjacency e g t = d_result_adjacency e g t'.
Proof.
  intros E1 E2 E3 E4 E5 E6 E7 E8. unfold d_result_adjacency. rewrite E1. destruct (t_adjacency t'); try reflexivity. unfold d_solver, t_options. rewrite E2, E3, E4, E5, E6, E7, E8. reflexivity.
Qed.
Lemma linsearch_off_case : exists e g t o r, t_linsearch t = false /\ d_report e g t o = Some r /\ r_steps r = 1%nat.
Proof.
  destruct (world (d_length arrow_net "dcm")) as (e & HL & HE & R1 & R2). destruct (arrow_runs e false R1) as (x & ns & ds & als & Hrun & _).
  exists e, arrow_net, (one_step "dcm" false), (d_fresh false). eexists. split; [reflexivity|]. split.
  - unfold d_report. change (d_result e arrow_net (one_step "dcm" false) (d_fresh false)) with (d_solver e arrow_net (one_step "dcm" false) "dcm" "quasinewton" false (v_rnd e) (GStr "uniform") None).
    rewrite Hrun. reflexivity.
  - reflexivity.
Qed.
Lemma path_start : exists z, u_start path_net "cm" half (GStr "uniform") = Some z /\ z 0%nat = / 2 /\ z 1%nat = / 2.
Proof.
  destruct (path_start_cm "cm" ltac:(cbn; tauto)) as (z & Hz). exists z. split; [exact Hz|]. unfold u_start in Hz. names_in Hz.
  unfold set_initial_guess_cm in Hz. cbn -[where_zero all_fin u_length] in Hz.
  change (u_length path_net "cm") with 2%nat in Hz.
  pose proof (all_fin_inv _ _ _ Hz 0%nat ltac:(lia)) as H1. pose proof (all_fin_inv _ _ _ Hz 1%nat ltac:(lia)) as H2. unfold where_zero in H1, H2. cbn in H1, H2.
  destruct (Req_EM_T 1 0) as [Q|_]; [lra|]. destruct (Req_EM_T (1 + 1) 0) as [Q|_]; [lra|]. split; congruence.
Qed.
Lemma linsearch_off_case_u : exists e g t o r ra, t_linsearch t = false /\
  u_report e g t o = Some r /\ r_steps r = 1%nat /\
  u_report_adjacency e g t = Some ra /\ r_steps ra = 1%nat.
Proof.
  destruct path_start as (z & Hz & Z1 & Z2).
  set (e := {| v_linsolve := fun _ _ => None; v_eigh_ok := fun _ => true; v_eigh := fun _ => (fun _ => 0, fun _ _ => 0); v_fuel := 0; v_rnd := half; v_rnd_adjacency := half |}).
  set (t := {| t_model := "cm"; t_method := "quasinewton"; t_guess := GStr "uniform"; t_adjacency := AdjName "cm"; t_method_adjacency := "quasinewton"; t_guess_adjacency := GStr "uniform";
     t_max_steps := 1; t_full := true; t_verbose := false; t_linsearch := false; t_tol := 0; t_eps := 0 |}).
  assert (HR : exists x ns ds als, u_solver e path_net t "cm" "quasinewton" half (GStr "uniform") None = Full x 1 ns ds als).
  { unfold u_solver. rewrite Hz. change (u_length path_net "cm") with 2%nat.
    assert (HD : exists D, u_dispatch "cm" "quasinewton" None = inl D) by (eexists; reflexivity). destruct HD as (D & HD). rewrite HD.
    change (u_args path_net "cm" None) with (Some (A2 2 (at_list [1; 2]%nat) (at_list [2; 1]%nat))).
    assert (Dom : forall w, (forall i, (i < 2)%nat -> z i <= w i) -> forall i, (i < 2)%nat -> 0 < w i).
    { intros w Hw i Hi. specialize (Hw i Hi). destruct i as [|[|i]]; try lia; lra. }
    pose proof (fun w => fun_cm "quasinewton" D 2 (at_list [1; 2]%nat) (at_list [2; 1]%nat) w ltac:(cbn; tauto) HD) as HF.
    edestruct (quasi_once e (t_options t "quasinewton" false) 2 D (A2 2 (at_list [1; 2]%nat) (at_list [2; 1]%nat)) z
      (fun q => - ModelCM.loglikelihood_prime_cm 2 (at_list [1; 2]%nat) (at_list [2; 1]%nat) z q) (fun i => (i < 2)%nat)) as (x & ns & ds & als & H & _); try reflexivity; try (cbn; lra).
    - intros w Hw. cbn [p_fun run_problem]. rewrite HF, cm_divisors_ok by (apply Dom; exact Hw). eexists. reflexivity.
    - cbn [p_jac_v run_problem]. exists (fun q => - ModelCM.loglikelihood_hessian_diag_cm 2 (at_list [1; 2]%nat) (at_list [2; 1]%nat) z q). split.
      + injection HD as <-. etransitivity; [exact (guarded_eq 2 (cm_divisors 2 z) (ModelCM.loglikelihood_hessian_diag_cm 2 (at_list [1; 2]%nat) (at_list [2; 1]%nat) z))|]. rewrite cm_divisors_ok by (apply Dom; intros; lra). reflexivity.
      + intros i Hi. destruct i as [|[|i]]; try lia; cbn; rewrite Z1, Z2; lra.
    - intros dx. injection HD as <-. eexists. split; [|reflexivity]. left.
      refine (proj1 (proj1 (CM_admissible 2 _ z dx (/ 2) 1 _ _ _ _))); try lra. intros i Hi. apply (Dom z); [intros; lra|exact Hi].
    - intros i Hi. destruct i as [|[|i]]; try lia; cbn; rewrite Z1, Z2; lra.
    - cbn [p_fun run_problem]. rewrite HF, cm_divisors_ok by (apply Dom; intros; lra). reflexivity.
    - cbn [o_tol t_options t_tol t]. apply (norm_above _ _ 0%nat); [lia|]. cbn. rewrite Z1, Z2. lra.
    - exists x, ns, ds, als. exact H. }
  destruct HR as (x & ns & ds & als & HR). exists e, path_net, t, (u_fresh false). eexists. eexists. split; [reflexivity|].
  split; [unfold u_report; change (u_result e path_net t (u_fresh false)) with (u_solver e path_net t "cm" "quasinewton" half (GStr "uniform") None); rewrite HR; reflexivity|].
  split; [reflexivity|].
  split; [unfold u_report_adjacency; change (u_result_adjacency e path_net t) with (u_solver e path_net t "cm" "quasinewton" half (GStr "uniform") None); rewrite HR; reflexivity|].
  reflexivity.
Qed.

(** * In the factors themselves the tolerance does not bound the error *)
Definition ring_net : unet := {| un_dseq := [2; 2; 2; 2]%nat; un_str := fun _ => 2 |}.
Definition far_start : settings :=
  {| t_model := "cm"; t_method := "newton"; t_guess := GArr 4 (fun _ => 10); t_adjacency := AdjOther; t_method_adjacency := ""; t_guess_adjacency := GOther;
     t_max_steps := 100; t_full := true; t_verbose := false; t_linsearch := true; t_tol := / 2; t_eps := 0 |}.
Lemma tool_cm_refuted : exists e g t o o' r err, us_beta o = None /\ (forall i, (i < un_n g)%nat -> nth i (un_dseq g) O <> O) /\
  linear_solver (u_length g "cm") (v_linsolve e) /\ eigen_solver (u_length g "cm") (v_eigh e) /\
  t_model t = "cm"%string /\ In (t_method t) descent_methods /\ t_linsearch t = true /\
  u_tool e g t o = (o', None) /\ u_report e g t o = Some r /\ tolerance_reached (t_tol t) r /\ us_err o' = Some err /\ t_tol t < err.
Proof.
  destruct (world (u_length ring_net "cm")) as (e & HL & HE & R1 & R2).
  assert (HZ : exists z, u_start ring_net "cm" half (GArr 4 (fun _ => 10)) = Some z /\ z 0%nat = 10).
  { unfold u_start, start_of. names. unfold set_initial_guess_cm. cbn -[where_zero all_fin u_length]. change (u_length ring_net "cm") with 1%nat.
    unfold all_fin. cbn [seq forallb]. unfold where_zero. cbn. destruct (Req_EM_T (1 + 1) 0) as [Q|_]; [lra|]. cbn [andb]. eexists. split; [reflexivity|].
    cbn. destruct (Req_EM_T (1 + 1) 0) as [Q|_]; [lra|]. reflexivity. }
  destruct HZ as (z & HZ & Ez).
  assert (HD : exists D A, u_dispatch "cm" "newton" None = inl D /\ u_args ring_net "cm" None = Some A /\
    real_vec 1 (run_entry (d_fun D) A z) = Some (fun q => - ModelCM.loglikelihood_prime_cm 1 (at_list [2]%nat) (at_list [4]%nat) z q)).
  { eexists. eexists. split; [reflexivity|]. split; [reflexivity|].
    rewrite (fun_cm "newton" _ 1 _ _ z ltac:(cbn; tauto) eq_refl). rewrite cm_divisors_ok; [reflexivity|]. intros i Hi. destruct i; [|lia]. rewrite Ez. lra. }
  destruct HD as (D & A & HD & HA & HF).
  assert (HN : norm2 1 (fun q => - ModelCM.loglikelihood_prime_cm 1 (at_list [2]%nat) (at_list [4]%nat) z q) <= / 2).
  { unfold norm2, dot. cbn [rsum]. match goal with |- sqrt ?a <= _ => assert (Q : a <= Rsqr (/ 2)) end.
    - unfold Rsqr. cbn. rewrite Ez. lra.
    - apply sqrt_le_1_alt in Q. rewrite sqrt_Rsqr in Q by lra. exact Q. }
  assert (ER : u_result e ring_net far_start (u_fresh false) = Full z 0 [norm2 1 (fun q => - ModelCM.loglikelihood_prime_cm 1 (at_list [2]%nat) (at_list [4]%nat) z q)] [1] []).
  { change (u_result e ring_net far_start (u_fresh false)) with (u_solver e ring_net far_start "cm" "newton" (v_rnd e) (GArr 4 (fun _ => 10)) None).
    unfold u_solver. change (u_length ring_net "cm") with 1%nat. eapply stop_at_start; [reflexivity|exact HD|exact HA|rewrite R1; exact HZ|exact HF|exact HN]. }
  destruct (u_completes e ring_net far_start (u_fresh false) z D {| o_x := z; o_inf := fun _ => false |} ltac:(cbn; tauto) eq_refl ltac:(rewrite R1; exact HZ) HD) as (o' & H).
  { rewrite ER. reflexivity. }
  destruct (tool_cm_state e ring_net far_start (u_fresh false) o' ltac:(cbn; lia) eq_refl ltac:(cbn; tauto) H) as (v & x & err & Ev & Ex & Ee & Exx & i & Hi & Ei).
  rewrite ER in Ev. cbn [solved_of] in Ev. injection Ev as <-.
  exists e, ring_net, far_start, (u_fresh false), o'. eexists. exists err. split; [reflexivity|].
  split; [intros j Hj; cbn in Hj; destruct j as [|[|[|[|j]]]]; try lia; cbn; lia|]. split; [exact HL|]. split; [exact HE|]. split; [reflexivity|]. split; [cbn; tauto|]. split; [reflexivity|].
  split; [exact H|]. split; [unfold u_report; rewrite ER; reflexivity|]. split; [apply reached_now; exact HN|]. split; [exact Ee|].
  assert (EX : forall j, (j < 4)%nat -> x j = 10) by (intros j Hj; rewrite Exx; destruct j as [|[|[|[|j]]]]; try lia; exact Ez).
  rewrite Ei. change (un_n ring_net) with 4%nat in *. unfold ModelCM.expected_degree_cm. rewrite !loop_S, loop_0. rewrite !EX by lia.
  cbn [t_tol far_start]. destruct i as [|[|[|[|i]]]]; try lia; cbn; rewrite Rabs_left; lra.
Qed.
