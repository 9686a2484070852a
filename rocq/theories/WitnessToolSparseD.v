(** Calls of [solve_tool] with crema-sparse and quasinewton on a DirectedGraph meeting the
    hypotheses of the end-to-end theorems. *)
From Coq Require Import Reals List Arith Bool String Lia Lra.
From Verif Require Import Base SpecDeriv SpecGraph SpecEnsemble SpecWeighted SpecDirected SpecCReMa SpecNetwork SpecLinsearch SpecDispatch SpecRun SpecSolver SpecSolve SpecGuess SpecTool
  ModelCM ModelECM ModelDCM ModelDECM ModelCReMa ModelIEEE ModelNetwork ModelLinsearch ModelSolver ModelDispatch ModelGuess ModelRun ModelSolve ModelTool.
From Verif Require Import ProofsGraph ProofsUnique ProofsCM ProofsMainCM ProofsCReMa ProofsMainCReMa ProofsSparseCReMa ProofsDirCReMa ProofsDirSparseCReMa ProofsAdjacency ProofsSolver ProofsConverged ProofsGuess ProofsGuessW ProofsDispatch ProofsRun ProofsSolve ProofsSolveU ProofsSolveD ProofsTool ProofsToolD
  ProofsStart ProofsEvaluates ProofsSpectral ProofsToolSparseD WitnessTool.
Import ListNotations.
Local Open Scope R_scope.

Lemma d_completes_sparse e g t x u o z D v q o1 : t_model t = "crema-sparse"%string -> (forall i, (i < dn_n g)%nat -> 0 <= x i) -> (forall i, (i < dn_n g)%nat -> 0 <= u i) -> positive_rates_dir (dn_n g) (dcm_prob x u) (o_x v) (drop (dn_n g) (o_x v)) ->
  d_start g "crema-sparse" (v_rnd e) (t_guess t) = Some z -> d_dispatch "crema-sparse" (t_method t) None = inl D -> solved_of (d_result e g t o) = Some v ->
  d_set_adjacency g (d_call e g t o) o = (o1, None) -> ds_adj o1 = Some (Factors2 x u) -> ds_sparse o1 = true -> ds_given o1 = Some q ->
  (q = false -> ds_x o1 <> None /\ ds_y o1 <> None) ->
  exists o', d_tool e g t o = (o', None).
Proof.
  intros Hm Hx Hu HP Hz HD Hv HA HJ HS HG HX. unfold d_tool, d_solve_tool. change (c_model (d_call e g t o)) with (t_model t). rewrite Hm. names.
  unfold d_solve_crema. rewrite HA. unfold andthen at 2. cbn [fst snd]. cbv beta iota zeta. rewrite HS.
  unfold d_initialize, d_set_guess, d_set_args. unfold d_call, d_call_adjacency. cbn [c_guess c_method c_out c_full]. rewrite Hm, Hz. names. unfold andthen, ok. cbn [fst snd ds_adj ds_set_b ds_set_last]. rewrite HJ.
  cbn [fst snd]. rewrite HD. names. cbn [fst snd]. rewrite Hv. cbn [fst snd]. unfold d_set_solved_crema.
  unfold d_solution_error. cbv zeta. cbn [ds_last ds_set_step ds_set_args ds_set_b ds_set_last ds_set_sol]. names.
  unfold d_error_degree. cbv zeta. cbn [ds_x ds_y ds_set_step ds_set_args ds_set_b ds_set_last ds_set_sol].
  assert (HP' : positive_rates_dir (dn_n g) (dcm_prob x u) (join2 (dn_n g) (o_x v) (drop (dn_n g) (o_x v))) (drop (dn_n g) (join2 (dn_n g) (o_x v) (drop (dn_n g) (o_x v))))).
  { intros i j Hi Hj Hp. specialize (HP i j Hi Hj Hp). unfold join2, drop in *. destruct (Nat.ltb_spec i (dn_n g)) as [_|Q]; [|lia].
    destruct (Nat.ltb_spec (j + dn_n g) (dn_n g)) as [Q|_]; [lia|]. rewrite Nat.add_sub. exact HP. }
  destruct (expected_dir_sparse (dn_n g) x u _ Hx Hu HP') as (EO & EI & E1 & E2 & _).
  destruct q.
  - destruct (ds_x o1) as [x1|] eqn:EX, (ds_y o1) as [y1|] eqn:EY; unfold d_error_strength; cbv zeta;
      cbn [ds_bo ds_bi ds_adj ds_sparse ds_given ds_ek ds_set_ek ds_set_es ds_set_step ds_set_args ds_set_b ds_set_last ds_set_sol];
      rewrite HJ, HS; cbn [adj0 adj1 obind]; rewrite E1; cbn [obind]; rewrite E2; cbn [obind ds_given ds_set_es ds_set_ek ds_set_step ds_set_args ds_set_b ds_set_last ds_set_sol]; rewrite HG; eexists; reflexivity.
  - destruct (HX eq_refl) as [N1 N2]. destruct (ds_x o1) as [x1|] eqn:EX; [|exfalso; apply N1; reflexivity]. destruct (ds_y o1) as [y1|] eqn:EY; [|exfalso; apply N2; reflexivity].
    unfold d_error_strength; cbv zeta;
      cbn [ds_bo ds_bi ds_adj ds_sparse ds_given ds_ek ds_set_ek ds_set_es ds_set_step ds_set_args ds_set_b ds_set_last ds_set_sol];
      rewrite HJ, HS; cbn [adj0 adj1 obind]; rewrite E1; cbn [obind]; rewrite E2; cbn [obind ds_given ds_ek ds_set_es ds_set_ek ds_set_step ds_set_args ds_set_b ds_set_last ds_set_sol]; rewrite HG; eexists; reflexivity.
Qed.
Lemma tri_fun_sparse D x u z : d_dispatch "crema-sparse" "quasinewton" None = inl D -> (forall i, (i < 3)%nat -> 0 < x i) -> (forall i, (i < 3)%nat -> 0 < u i) -> (forall i, (i < 6)%nat -> 0 < z i) ->
  exists f, real_vec 6 (run_entry (d_fun D) (d_args_crema tri_net (Factors2 x u)) z) = Some f.
Proof.
  intros HD Hx Hu Hz. injection HD as <-.
  change (exists f, all_fin 6 (fun r => fopp (loglikelihood_prime_crema_directed_sparse 3 (dn_sout tri_net) (dn_sin tri_net) x u (nz_real 3 (dn_sout tri_net)) (nz_real 3 (dn_sin tri_net)) z r)) = Some f).
  apply all_fin_some'. intros r Hr.
  destruct (prime_crema_dir_sparse_eq 3 x u z (fun i Hi => Rlt_le _ _ (Hx i Hi)) (fun i Hi => Rlt_le _ _ (Hu i Hi))) with (s_out := dn_sout tri_net) (s_in := dn_sin tri_net) (nzo := nz_real 3 (dn_sout tri_net)) (nzi := nz_real 3 (dn_sin tri_net)) (r := r) as (F & _ & ->).
  - intros i j w Hin. apply in_all in Hin. pose proof (Hz i ltac:(lia)). pose proof (Hz (j + 3)%nat ltac:(lia)). lra.
  - apply nz_real_list.
  - apply nz_real_list.
  - intros i Hi. split; intros _; [apply (tri_positive i Hi)|apply Rgt_not_eq; apply Hx; exact Hi].
  - intros i Hi. split; intros _; [apply (tri_positive i Hi)|apply Rgt_not_eq; apply Hu; exact Hi].
  - lia.
  - intros i j Hi Hj _. pose proof (Hz i ltac:(lia)). pose proof (Hz (j + 3)%nat ltac:(lia)). lra.
  - eexists. reflexivity.
Qed.
Lemma tri_sparse_at_once a nm methA e : In a ["dcm"; "dcm_exp"]%string -> In nm ["random"; "strengths"; "strengths_minor"]%string ->
  In methA descent_methods -> v_rnd e = half -> v_rnd_adjacency e = half ->
  linear_solver (d_length tri_net "dcm") (v_linsolve e) -> eigen_solver (d_length tri_net "dcm") (v_eigh e) ->
  exists tol o' r ra, let t := settings_for "crema-sparse" "quasinewton" (GStr nm) (AdjName a) methA (GStr "uniform") tol in
    at_once_d e tri_net t (d_fresh false) o' r /\ d_report_adjacency e tri_net t = Some ra /\ tolerance_reached tol ra.
Proof.
  intros Ha Hn HmA Hr HrA HL HE. destruct (d_start_dcm tri_net a Ha) as (y & HY). destruct (d_start_tri_crema nm Hn) as (z & HZ & Pz).
  assert (HQ : exists D A, d_dispatch a methA None = inl D /\ d_args tri_net a None = Some A).
  { destruct Ha as [<-|[<-|[]]], HmA as [<-|[<-|[]]]; eexists; eexists; (split; [reflexivity|]); reflexivity. }
  destruct HQ as (DA & AA & HDA & HAA). destruct (tri_evaluates a y ltac:(cbn in Ha |- *; tauto) HY methA DA AA HmA HDA HAA) as (fA & HfA).
  assert (HD : exists D, d_dispatch "crema-sparse" "quasinewton" None = inl D) by (eexists; reflexivity). destruct HD as (D & HD).
  set (w := fun i => if String.eqb a "dcm" then y i else exp (- y i)).
  set (x := fun i => w (d_class tri_net i)). set (u := fun i => drop (d_classes_n tri_net) w (d_class tri_net i)).
  set (nA := norm2 (d_length tri_net a) fA) in *.
  assert (EA0 : forall tol, nA <= tol -> d_solver e tri_net (settings_for "crema-sparse" "quasinewton" (GStr nm) (AdjName a) methA (GStr "uniform") tol) a methA true (v_rnd_adjacency e) (GStr "uniform") None = Full y 0 [nA] [1] []).
  { intros tol L. unfold d_solver. eapply stop_at_start; [reflexivity|exact HDA|exact HAA|rewrite HrA; exact HY|exact HfA|exact L]. }
  assert (Pxu : forall i, (i < 3)%nat -> 0 < x i /\ 0 < u i).
  { intros i Hi. unfold x, u, w. destruct Ha as [<-|[<-|[]]]; [|split; apply exp_pos].
    destruct (dcm_core e tri_net (settings_for "crema-sparse" "quasinewton" (GStr nm) (AdjName "dcm") methA (GStr "uniform") nA) methA (v_rnd_adjacency e) "uniform" None
      {| r_steps := 0; r_norms := [nA]; r_diffs := [1]; r_alfas := [] |} eq_refl HL HE tri_balanced HmA) as (y' & Ey & _ & HP & _).
    { cbn. tauto. } { rewrite HrA. exact half_draws. } { rewrite (EA0 nA (Rle_refl _)). reflexivity. } { apply reached_now. apply Rle_refl. }
    rewrite (EA0 nA (Rle_refl _)) in Ey. injection Ey as <-. destruct (full_supported tri_net y eq_refl HP) as [S1 S2]. destruct (tri_positive i Hi) as (N1 & N2 & _).
    split; [apply (proj1 (S1 i Hi)); exact (not_0_INR _ N1)|apply (proj1 (S2 i Hi)); exact (not_0_INR _ N2)]. }
  destruct (tri_fun_sparse D x u z HD (fun i Hi => proj1 (Pxu i Hi)) (fun i Hi => proj2 (Pxu i Hi)) Pz) as (f & Hf). exists (Rmax nA (norm2 6 f)).
  set (t := settings_for "crema-sparse" "quasinewton" (GStr nm) (AdjName a) methA (GStr "uniform") (Rmax nA (norm2 6 f))).
  assert (EA : d_result_adjacency e tri_net t = Full y 0 [nA] [1] []).
  { change (d_result_adjacency e tri_net t) with (d_solver e tri_net t a methA true (v_rnd_adjacency e) (GStr "uniform") None).
    apply EA0. apply Rmax_l. }
  assert (HJ : forall out, exists o1, d_set_adjacency tri_net (d_call_adjacency e tri_net t out) (d_fresh false) = (o1, None) /\
    ds_adj o1 = Some (Factors2 x u) /\ ds_sparse o1 = true /\ ds_given o1 = Some false /\ ds_x o1 = Some x /\ ds_y o1 = Some u).
  { intros out. unfold d_set_adjacency, d_call_adjacency. cbn [c_adjacency c_model c_full c_method_adjacency c_guess_adjacency c_out_adjacency]. change (t_adjacency t) with (AdjName a).
    change (t_model t) with "crema-sparse"%string. change (t_method_adjacency t) with methA. rewrite EA. cbn [solved_of]. unfold d_start_adjacency. change (t_adjacency t) with (AdjName a). change (t_guess_adjacency t) with (GStr "uniform").
    rewrite HrA, HY. unfold d_solve_problem, d_initialize, d_set_guess, d_set_args.
    destruct Ha as [<-|[<-|[]]]; names; unfold andthen, ok; cbn [fst snd]; rewrite HDA; names; cbn [fst snd d_run_solver]; unfold ok; cbn [fst snd];
      unfold d_set_solved, d_set_solved_dcm; cbv zeta; cbn [ds_last ds_set_pm ds_set_step ds_set_args ds_set_last]; names;
      cbn [ds_x ds_y ds_sparse ds_pm ds_set_xy ds_set_sol ds_set_pm ds_set_step ds_set_args ds_set_last ds_set_sparse];
      eexists; (split; [reflexivity|]); repeat split; reflexivity. }
  assert (ER : d_result e tri_net t (d_fresh false) = Full z 0 [norm2 6 f] [1] []).
  { unfold d_result. change (t_model t) with "crema-sparse"%string. names. cbv zeta. destruct (HJ None) as (o1 & E1 & E2 & E3 & _). rewrite E1. cbn [fst]. rewrite E2, E3.
    unfold d_solver. eapply stop_at_start; [reflexivity|exact HD|reflexivity|rewrite Hr; exact HZ|exact Hf|apply Rmax_r]. }
  destruct (HJ (solved_of (d_result e tri_net t (d_fresh false)))) as (o1 & E1 & E2 & E3 & E4 & E5 & E6).
  edestruct (d_completes_sparse e tri_net t x u (d_fresh false) z D {| o_x := z; o_inf := fun _ => false |} false o1) as (o' & H).
  { reflexivity. } { intros i Hi. left. apply Pxu. exact Hi. } { intros i Hi. left. apply Pxu. exact Hi. } { exact (tri_rates _ z Pz). } { rewrite Hr. exact HZ. } { exact HD. } { rewrite ER. reflexivity. } { exact E1. } { exact E2. } { exact E3. } { exact E4. }
  { intros _. rewrite E5, E6. split; discriminate. }
  exists o'. eexists. eexists. cbv zeta. fold t. split; [split; [exact H|]|].
  - unfold d_report. rewrite ER. cbn [report_of]. split; [reflexivity|]. apply reached_now. apply Rmax_r.
  - unfold d_report_adjacency. rewrite EA. cbn [report_of]. split; [reflexivity|]. apply reached_now. apply Rmax_l.
Qed.

Ltac sparse_done :=
  first [ case_done
        | (intros i Hi; destruct (tri_positive i Hi) as (A & B & C & E); split; assumption)
        | (intros i Hi; destruct (tri_positive i Hi) as (A & B & C & E); split; split; intros _; assumption) ].
Lemma tool_sparse_dcm_case : exists e g t (nma : string) (nm : string) o o' ra r,
  ((0 < dn_n g)%nat) /\
  (d_paired g) /\
  (balanced (dn_out g) (dn_in g)) /\
  (linear_solver (d_length g "dcm") (v_linsolve e)) /\
  (eigen_solver (d_length g "dcm") (v_eigh e)) /\
  (nonneg (dn_n g) (dn_sout g)) /\
  (nonneg (dn_n g) (dn_sin g)) /\
  ((forall i, (i < dn_n g)%nat -> (nth i (dn_out g) O <> O <-> dn_sout g i <> 0) /\ (nth i (dn_in g) O <> O <-> dn_sin g i <> 0))) /\
  (t_model t = "crema-sparse"%string) /\
  (t_adjacency t = AdjName "dcm") /\
  (In (t_method_adjacency t) descent_methods) /\
  (t_guess_adjacency t = GStr nma) /\
  (In nma binary_names) /\
  (draws (v_rnd_adjacency e)) /\
  (t_method t = "quasinewton"%string) /\
  (t_guess t = GStr nm) /\
  (In nm ["random"; "strengths"; "strengths_minor"]%string) /\
  (draws (v_rnd e)) /\
  (t_linsearch t = true) /\
  (d_tool e g t o = (o', None)) /\
  (d_report_adjacency e g t = Some ra) /\
  (tolerance_reached (t_tol t) ra) /\
  (d_report e g t o = Some r) /\
  (tolerance_reached (t_tol t) r) /\
  (never_gave_up r).
Proof.
  destruct (world (d_length tri_net "dcm")) as (e & HL & HE & R1 & R2). destruct (tri_sparse_at_once "dcm" "random" "newton" e ltac:(cbn; tauto) ltac:(cbn; tauto) ltac:(cbn; tauto) R1 R2 HL HE) as (tol & o' & r & ra & (H1 & H2 & H3 & H4) & H5 & H6).
  exists e, tri_net, (settings_for "crema-sparse" "quasinewton" (GStr "random") (AdjName "dcm") "newton" (GStr "uniform") tol), "uniform"%string, "random"%string, (d_fresh false), o', ra, r.
  repeat match goal with |- _ /\ _ => split end; sparse_done.
Qed.
Lemma tool_sparse_dcm_exp_case : exists e g t (nm : string) o o' ra r,
  ((0 < dn_n g)%nat) /\
  (d_paired g) /\
  ((forall i, (i < dn_n g)%nat -> nth i (dn_out g) O <> O /\ nth i (dn_in g) O <> O)) /\
  (nonneg (dn_n g) (dn_sout g)) /\
  (nonneg (dn_n g) (dn_sin g)) /\
  ((forall i, (i < dn_n g)%nat -> dn_sout g i <> 0 /\ dn_sin g i <> 0)) /\
  (t_model t = "crema-sparse"%string) /\
  (t_adjacency t = AdjName "dcm_exp") /\
  (In (t_method_adjacency t) descent_methods) /\
  (t_method t = "quasinewton"%string) /\
  (t_guess t = GStr nm) /\
  (In nm ["random"; "strengths"; "strengths_minor"]%string) /\
  (draws (v_rnd e)) /\
  (t_linsearch t = true) /\
  (d_tool e g t o = (o', None)) /\
  (d_report_adjacency e g t = Some ra) /\
  (tolerance_reached (t_tol t) ra) /\
  (d_report e g t o = Some r) /\
  (tolerance_reached (t_tol t) r) /\
  (never_gave_up r).
Proof.
  destruct (world (d_length tri_net "dcm")) as (e & HL & HE & R1 & R2). destruct (tri_sparse_at_once "dcm_exp" "random" "newton" e ltac:(cbn; tauto) ltac:(cbn; tauto) ltac:(cbn; tauto) R1 R2 HL HE) as (tol & o' & r & ra & (H1 & H2 & H3 & H4) & H5 & H6).
  exists e, tri_net, (settings_for "crema-sparse" "quasinewton" (GStr "random") (AdjName "dcm_exp") "newton" (GStr "uniform") tol), "random"%string, (d_fresh false), o', ra, r.
  repeat match goal with |- _ /\ _ => split end; sparse_done.
Qed.
