(** Calls of [solve_tool] meeting the hypotheses of the end-to-end theorems: a starting
    point already within the tolerance is returned as it is. *)
From Coq Require Import Reals List Arith Bool String Lia Lra.
From Verif Require Import Base SpecDeriv SpecGraph SpecEnsemble SpecWeighted SpecDirected SpecCReMa SpecNetwork SpecLinsearch SpecDispatch SpecRun SpecSolver SpecSolve SpecGuess SpecTool
  ModelCM ModelECM ModelDCM ModelDECM ModelCReMa ModelNetwork ModelLinsearch ModelSolver ModelDispatch ModelGuess ModelRun ModelSolve ModelTool.
From Verif Require Import ProofsGraph ProofsUnique ProofsCM ProofsMainCM ProofsECM ProofsMainECM ProofsCReMa ProofsMainCReMa ProofsAdjacency ProofsSolver ProofsConverged ProofsGuess ProofsGuessW ProofsDispatch ProofsRun ProofsSolve ProofsSolveU ProofsSolveD ProofsTool ProofsToolD ProofsStart ProofsEvaluates ProofsSpectral ProofsDirCReMa.
Import ListNotations.
Local Open Scope R_scope.

(** * Stopping at once *)
Lemma stop_at_start e opt m d a x0 D A z f : o_full_return opt = true -> d = inl D -> a = Some A -> x0 = Some z ->
  real_vec m (run_entry (d_fun D) A z) = Some f -> norm2 m f <= o_tol opt ->
  solve_with e opt m d a x0 = Full z 0 [norm2 m f] [1] [].
Proof.
  intros HF -> -> -> Hf Hn. unfold solve_with, solver, solver_init. cbn [p_fun run_problem]. rewrite Hf. cbn [sbind].
  cbn [solver_loop]. unfold solver_continue. cbn [s_norm s_n s_diff vnorm gtb run_numerics].
  destruct (Rlt_dec (o_tol opt) (norm2 m f)) as [L|_]; [lra|]. cbn [andb]. rewrite HF. reflexivity.
Qed.
Lemma all_fin_some m v x : (forall i, (i < m)%nat -> v i = Fin (x i)) -> exists z, all_fin m v = Some z.
Proof.
  intros H. unfold all_fin. replace (forallb _ (seq 0 m)) with true; [eexists; reflexivity|]. symmetry. apply forallb_forall.
  intros i Hi. apply in_seq in Hi. rewrite (H i) by lia. reflexivity.
Qed.
Lemma all_fin_some' m v : (forall i, (i < m)%nat -> exists r, v i = Fin r) -> exists z, all_fin m v = Some z.
Proof.
  intros H. unfold all_fin. replace (forallb _ (seq 0 m)) with true; [eexists; reflexivity|]. symmetry. apply forallb_forall.
  intros i Hi. apply in_seq in Hi. destruct (H i ltac:(lia)) as (r & ->). reflexivity.
Qed.
Definition settings_for (model method : string) (s : guess) (a : adjacency_arg) (ma : string) (sa : guess) (tol : R) : settings :=
  {| t_model := model; t_method := method; t_guess := s; t_adjacency := a; t_method_adjacency := ma; t_guess_adjacency := sa;
     t_max_steps := 100; t_full := true; t_verbose := false; t_linsearch := true; t_tol := tol; t_eps := 0 |}.
Definition half (i : nat) : R := / 2.
Lemma half_draws : draws half.
Proof. intros i. unfold half. lra. Qed.
(** numpy for a given dimension. *)
Lemma world m : exists e, linear_solver m (v_linsolve e) /\ eigen_solver m (v_eigh e) /\ v_rnd e = half /\ v_rnd_adjacency e = half.
Proof.
  destruct (linear_solver_exists m) as (ls & L & _). destruct (eigen_solver_exists m) as (ei & E).
  exists {| v_linsolve := ls; v_eigh_ok := fun _ => true; v_eigh := ei; v_fuel := 100; v_rnd := half; v_rnd_adjacency := half |}. split; [exact L|]. split; [exact E|]. split; reflexivity.
Qed.

(** * UndirectedGraph: a path of three nodes with weights 2 and 3 *)
Definition path_net : unet := {| un_dseq := [1; 2; 1]%nat; un_str := fun i => nth i [2; 5; 3] 0 |}.
Lemma path_str : nonneg (un_n path_net) (un_str path_net) /\ forall i, (i < un_n path_net)%nat -> un_str path_net i <> 0.
Proof. split; intros i Hi; cbn in Hi; destruct i as [|[|[|i]]]; try lia; cbn; lra. Qed.
Lemma path_deg i : (i < un_n path_net)%nat -> nth i (un_dseq path_net) O <> O.
Proof. intros Hi. cbn in Hi. destruct i as [|[|[|i]]]; try lia; cbn; lia. Qed.

(** Each call: it completes and reports the norm at the start. *)
Definition at_once_u (e : environment) (g : unet) (t : settings) (o : ustate) (o' : ustate) (r : report) : Prop :=
  u_tool e g t o = (o', None) /\ u_report e g t o = Some r /\ tolerance_reached (t_tol t) r /\ never_gave_up r.
Lemma reached_now tol a : a <= tol -> tolerance_reached tol {| r_steps := 0; r_norms := [a]; r_diffs := [1]; r_alfas := [] |} /\
  never_gave_up {| r_steps := 0; r_norms := [a]; r_diffs := [1]; r_alfas := [] |}.
Proof. intros H. split; [exists [], a; split; [reflexivity|exact H]|intros al []]. Qed.

Lemma neglog_fin v i : (exists r, v i = Fin r /\ (r = 0 \/ 0 < r)) -> exists r, neglog_nonzero v i = Fin r.
Proof.
  intros (r & E & H). unfold neglog_nonzero. rewrite E. destruct (Req_EM_T r 0) as [_|N]; [eexists; reflexivity|].
  destruct H as [->|H]; [lra|]. unfold fneglog. destruct (Rlt_dec 0 r) as [_|N']; [eexists; reflexivity|lra].
Qed.
Lemma path_start_cm m : In m ["cm"; "cm_exp"]%string -> exists z, u_start path_net m half (GStr "uniform") = Some z.
Proof.
  intros Hm. unfold u_start, start_of. destruct Hm as [<-|[<-|[]]]; names; unfold set_initial_guess_cm; cbn -[where_zero neglog_nonzero all_fin u_length];
    apply all_fin_some'; intros i Hi; [|apply neglog_fin]; unfold where_zero; destruct (Req_EM_T _ 0) as [Z|Z]; eexists; try (split; [reflexivity|]); try reflexivity; [left; reflexivity|right; lra].
Qed.
Lemma path_start_ecm m : In m ["ecm"; "ecm_exp"]%string -> exists z, u_start path_net m half (GStr "uniform") = Some z.
Proof.
  assert (Hk : nonneg (un_n path_net) (at_list (un_dseq path_net))) by (intros i _; apply pos_INR).
  intros Hm. unfold u_start, start_of. destruct Hm as [<-|[<-|[]]]; names.
  - destruct (guess_ecm_inside (un_n path_net) (at_list (un_dseq path_net)) (un_str path_net) half "uniform" ltac:(cbn; tauto) Hk (proj1 path_str) half_draws) as (o & x & -> & F & _).
    exact (all_fin_some _ _ _ F).
  - destruct (guess_ecm_exp_start (un_n path_net) (at_list (un_dseq path_net)) (un_str path_net) half "uniform" ltac:(cbn; tauto) Hk (proj1 path_str) half_draws) as (o & o' & x & y & -> & _ & F & _).
    exact (all_fin_some _ _ _ F).
Qed.
Lemma path_start_crema nm : In nm ["random"; "strengths"; "strengths_minor"]%string -> exists z, u_start path_net "crema" half (GStr nm) = Some z.
Proof.
  intros Hn. unfold u_start, start_of. names.
  destruct (guess_crema_inside (un_n path_net) (un_str path_net) half nm Hn (proj1 path_str) half_draws) as (o & x & -> & F & _).
  exact (all_fin_some _ _ _ F).
Qed.

Lemma path_evaluates m z : In m ["cm"; "cm_exp"; "ecm"; "ecm_exp"]%string -> u_start path_net m half (GStr "uniform") = Some z -> u_evaluates path_net m z.
Proof.
  intros [<-|[<-|[<-|[<-|[]]]]] H.
  - apply (start_cm_evaluates path_net half "uniform" z ltac:(cbn; tauto) half_draws H). exact path_deg.
  - apply cm_exp_evaluates.
  - apply (start_ecm_evaluates path_net half "uniform" z ltac:(cbn; tauto) half_draws (proj1 path_str) H). intros i Hi. split; [apply path_deg, Hi|apply path_str, Hi].
  - apply (start_ecm_exp_evaluates path_net half "uniform" z ltac:(cbn; tauto) half_draws (proj1 path_str) H). apply path_str.
Qed.

(** A solved call of the four models completes. *)
Lemma u_completes e g t o z D v : In (t_model t) ["cm"; "cm_exp"; "ecm"; "ecm_exp"]%string -> us_beta o = None ->
  u_start g (t_model t) (v_rnd e) (t_guess t) = Some z -> u_dispatch (t_model t) (t_method t) None = inl D -> solved_of (u_result e g t o) = Some v ->
  exists o', u_tool e g t o = (o', None).
Proof.
  intros Hm Hb Hz HD Hv. unfold u_tool, u_call. rewrite Hv. clear Hv. unfold u_solve_tool, u_call_adjacency. cbn [c_model c_method c_guess c_out]. rewrite Hz.
  unfold u_solve_problem, u_initialize, u_set_guess, u_set_args, degree_reduction_und.
  destruct Hm as [E|[E|[E|[E|[]]]]]; rewrite <- E in *; names; cbn [andthen fst snd ok]; rewrite HD; names; cbn [andthen fst snd ok u_run_solver];
    unfold u_set_solved, degree_reduction_und; cbn [us_last us_set_pm us_set_step us_set_args us_set_xy us_set_last]; names;
    unfold u_solution_error; cbn [us_last us_set_pm us_set_step us_set_args us_set_xy us_set_last us_set_x us_set_sol]; names;
    cbn [us_x us_y us_last us_set_pm us_set_step us_set_args us_set_xy us_set_last us_set_x us_set_sol]; try (eexists; reflexivity);
    unfold u_error_strength, u_error_degree; cbn [us_x us_beta us_set_ek us_last us_set_pm us_set_step us_set_args us_set_xy us_set_last us_set_x us_set_sol]; rewrite Hb; eexists; reflexivity.
Qed.

Definition at_start_tol (m : nat) (o : outcome) : R := match real_vec m o with Some f => norm2 m f | None => 0 end.
Lemma path_at_once m meth e : In m ["cm"; "cm_exp"; "ecm"; "ecm_exp"]%string -> In meth descent_methods -> v_rnd e = half ->
  exists tol o' r, at_once_u e path_net (settings_for m meth (GStr "uniform") AdjOther "" GOther tol) (u_fresh false) o' r.
Proof.
  intros Hm Hme Hr.
  assert (HZ : exists z, u_start path_net m half (GStr "uniform") = Some z).
  { destruct Hm as [E|[E|Hm]]; [apply path_start_cm; left; exact E|apply path_start_cm; right; left; exact E|].
    apply path_start_ecm. exact Hm. }
  assert (HQ : exists D A, u_dispatch m meth None = inl D /\ u_args path_net m None = Some A).
  { destruct Hm as [<-|[<-|[<-|[<-|[]]]]], Hme as [<-|[<-|[]]]; eexists; eexists; (split; [reflexivity|]); reflexivity. }
  destruct HZ as (z & HZ). destruct HQ as (D & A & HD & HA). destruct (path_evaluates m z Hm HZ meth D A Hme HD HA) as (f & Hf).
  set (t := settings_for m meth (GStr "uniform") AdjOther "" GOther (norm2 (u_length path_net m) f)). exists (norm2 (u_length path_net m) f). fold t.
  assert (ER : u_result e path_net t (u_fresh false) = Full z 0 [norm2 (u_length path_net m) f] [1] []).
  { assert (EU : u_result e path_net t (u_fresh false) = u_solver e path_net t m meth (v_rnd e) (GStr "uniform") None).
    { unfold u_result. change (t_model t) with m. change (t_method t) with meth. change (t_guess t) with (GStr "uniform").
      destruct Hm as [<-|[<-|[<-|[<-|[]]]]]; reflexivity. }
    rewrite EU. unfold u_solver. eapply stop_at_start; [reflexivity|exact HD|exact HA|rewrite Hr; exact HZ|exact Hf|apply Rle_refl]. }
  destruct (u_completes e path_net t (u_fresh false) z D {| o_x := z; o_inf := fun _ => false |} Hm eq_refl ltac:(rewrite Hr; exact HZ) HD) as (o' & H).
  { rewrite ER. reflexivity. }
  exists o'. eexists. split; [exact H|]. unfold u_report. rewrite ER. cbn [report_of]. split; [reflexivity|]. apply reached_now. apply Rle_refl.
Qed.

(** CReMa on the path itself. *)
Definition path_adj (i j : nat) : R := if Nat.eqb (i + 1) j || Nat.eqb (j + 1) i then 1 else 0.
Lemma path_adj_hollow : hollow path_adj.
Proof. intros i. unfold path_adj. destruct (Nat.eqb_spec (i + 1) i); [lia|]. reflexivity. Qed.
Lemma path_adj_nonneg i j : 0 <= path_adj i j.
Proof. unfold path_adj. destruct (_ || _); lra. Qed.
Lemma u_completes_crema e g t p o z D v q o1 : t_model t = "crema"%string -> crema_dom (triu_edges (un_n g) p) (o_x v) ->
  u_start g "crema" (v_rnd e) (t_guess t) = Some z -> u_dispatch "crema" (t_method t) None = inl D -> solved_of (u_result e g t o) = Some v ->
  u_set_adjacency g (u_call e g t o) o = (o1, None) -> us_adj o1 = Some (Triples (triu_edges (un_n g) p)) -> us_sparse o1 = false -> us_given o1 = Some q ->
  (q = false -> us_x o1 <> None) ->
  exists o', u_tool e g t o = (o', None).
Proof.
  intros Hm HP Hz HD Hv HA HJ HS HG HX. unfold u_tool, u_solve_tool. change (c_model (u_call e g t o)) with (t_model t). rewrite Hm. names.
  unfold u_solve_crema. rewrite HA. unfold andthen at 2. cbn [fst snd]. cbv beta iota zeta. rewrite HS. change (c_model (u_call e g t o)) with (t_model t). rewrite Hm.
  unfold u_initialize, u_set_guess, u_set_args. unfold u_call, u_call_adjacency. cbn [c_guess c_method c_out]. rewrite Hm, Hz. names. cbn [andthen fst snd ok us_adj us_set_beta us_set_last]. rewrite HJ.
  cbn [andthen fst snd ok]. rewrite HD. names. cbn [andthen fst snd ok]. rewrite Hv. cbn [u_run_solver]. unfold u_set_solved, degree_reduction_und.
  cbn [us_last us_set_step us_set_args us_set_beta us_set_last]. names. unfold andthen, ok. cbn [fst snd]. cbv beta iota zeta.
  unfold u_solution_error. cbn [us_last us_set_step us_set_args us_set_beta us_set_last us_set_sol]. names.
  unfold u_error_degree. cbn [us_x us_set_step us_set_args us_set_beta us_set_last us_set_sol].
  destruct (expected_crema_some _ (o_x v) HP) as (E & EE & _).
  destruct (us_x o1) as [x|] eqn:EX; unfold u_error_strength; cbn [us_beta us_adj us_sparse us_given us_ek us_set_ek us_set_es us_set_step us_set_args us_set_beta us_set_last us_set_sol];
    rewrite HJ, HS; cbn [adj_edges obind]; rewrite EE, HG; (destruct q; [eexists; reflexivity|]).
  - cbn [us_ek us_set_ek us_set_es]. eexists. reflexivity.
  - exfalso. exact (HX eq_refl eq_refl).
Qed.
Lemma path_dom p z : (forall i, (i < 3)%nat -> 0 < z i) -> crema_dom (triu_edges 3 p) z.
Proof. intros H i j w Hin. apply in_triu in Hin. pose proof (H i ltac:(lia)). pose proof (H j ltac:(lia)). lra. Qed.
Lemma path_start_positive nm z : In nm ["random"; "strengths"; "strengths_minor"]%string -> u_start path_net "crema" half (GStr nm) = Some z ->
  forall i, (i < 3)%nat -> 0 < z i.
Proof.
  intros Hn H i Hi. unfold u_start in H. names_in H.
  destruct (guess_crema_inside (un_n path_net) (un_str path_net) half nm Hn (proj1 path_str) half_draws) as (s & th & Es & Ft & HI). rewrite Es in H. cbn [start_of] in H.
  pose proof (all_fin_inv _ _ _ H i Hi) as E. rewrite (Ft i Hi) in E. injection E as <-. apply (HI i Hi). apply (proj2 path_str). exact Hi.
Qed.
Lemma path_fun_crema meth D p z : In meth descent_methods -> u_dispatch "crema" meth None = inl D -> (forall i, (i < 3)%nat -> 0 < z i) ->
  exists f, real_vec 3 (run_entry (d_fun D) (A3 3 (un_str path_net) (Triples (triu_edges 3 p))) z) = Some f.
Proof.
  intros Hme HD Hz. rewrite (fun_crema meth D _ _ _ z Hme HD).
  destruct (prime_crema_some 3 (un_str path_net) (triu_edges 3 p) z (path_dom p z Hz)) as (F & -> & _). eexists. reflexivity.
Qed.
Lemma path_crema_at_once nm meth e : In nm ["random"; "strengths"; "strengths_minor"]%string -> In meth descent_methods -> v_rnd e = half ->
  exists tol o' r, at_once_u e path_net (settings_for "crema" meth (GStr nm) (AdjMatrix path_adj) "" GOther tol) (u_fresh false) o' r.
Proof.
  intros Hn Hme Hr. destruct (path_start_crema nm Hn) as (z & HZ). pose proof (path_start_positive nm z Hn HZ) as Pz.
  assert (HD : exists D, u_dispatch "crema" meth None = inl D) by (destruct Hme as [<-|[<-|[]]]; eexists; reflexivity). destruct HD as (D & HD).
  destruct (path_fun_crema meth D path_adj z Hme HD Pz) as (f & Hf).
  set (t := settings_for "crema" meth (GStr nm) (AdjMatrix path_adj) "" GOther (norm2 3 f)). exists (norm2 3 f). fold t.
  assert (ER : u_result e path_net t (u_fresh false) = Full z 0 [norm2 3 f] [1] []).
  { change (u_result e path_net t (u_fresh false)) with (u_solver e path_net t "crema" meth (v_rnd e) (GStr nm) (Some (Triples (triu_edges 3 path_adj)))).
    unfold u_solver. eapply stop_at_start; [reflexivity|exact HD|reflexivity|rewrite Hr; exact HZ|exact Hf|apply Rle_refl]. }
  edestruct (u_completes_crema e path_net t path_adj (u_fresh false) z D {| o_x := z; o_inf := fun _ => false |} true) as (o' & H).
  { reflexivity. } { exact (path_dom path_adj z Pz). }
  { rewrite Hr. exact HZ. } { exact HD. } { rewrite ER. reflexivity. } { reflexivity. } { reflexivity. } { reflexivity. } { reflexivity. } { discriminate. }
  exists o'. eexists. split; [exact H|]. unfold u_report. rewrite ER. cbn [report_of]. split; [reflexivity|]. apply reached_now. apply Rle_refl.
Qed.

(** CReMa on the probabilities of the binary model. *)
Lemma path_crema_name_at_once a nm meth methA e : In a ["cm"; "cm_exp"]%string -> In nm ["random"; "strengths"; "strengths_minor"]%string ->
  In meth descent_methods -> In methA descent_methods -> v_rnd e = half -> v_rnd_adjacency e = half ->
  exists tol o' r ra, let t := settings_for "crema" meth (GStr nm) (AdjName a) methA (GStr "uniform") tol in
    at_once_u e path_net t (u_fresh false) o' r /\ u_report_adjacency e path_net t = Some ra /\ tolerance_reached tol ra.
Proof.
  intros Ha Hn Hme HmA Hr HrA. destruct (path_start_cm a Ha) as (y & HY). destruct (path_start_crema nm Hn) as (z & HZ). pose proof (path_start_positive nm z Hn HZ) as Pz.
  assert (HQ : exists D A, u_dispatch a methA None = inl D /\ u_args path_net a None = Some A).
  { destruct Ha as [<-|[<-|[]]], HmA as [<-|[<-|[]]]; eexists; eexists; (split; [reflexivity|]); reflexivity. }
  destruct HQ as (DA & AA & HDA & HAA). destruct (path_evaluates a y ltac:(cbn in Ha |- *; tauto) HY methA DA AA HmA HDA HAA) as (fA & HfA).
  assert (HD : exists D, u_dispatch "crema" meth None = inl D) by (destruct Hme as [<-|[<-|[]]]; eexists; reflexivity). destruct HD as (D & HD).
  set (x := fun i => cm_factor a {| o_x := y; o_inf := fun _ => false |} (u_class path_net i)).
  destruct (path_fun_crema meth D (pmatrix_cm x) z Hme HD Pz) as (f & Hf).
  set (nA := norm2 (u_length path_net a) fA) in *. exists (Rmax nA (norm2 3 f)).
  set (t := settings_for "crema" meth (GStr nm) (AdjName a) methA (GStr "uniform") (Rmax nA (norm2 3 f))).
  assert (EA : u_result_adjacency e path_net t = Full y 0 [nA] [1] []).
  { change (u_result_adjacency e path_net t) with (u_solver e path_net t a methA (v_rnd_adjacency e) (GStr "uniform") None).
    unfold u_solver. eapply stop_at_start; [reflexivity|exact HDA|exact HAA|rewrite HrA; exact HY|exact HfA|apply Rmax_l]. }
  assert (HJ : forall out, exists o1, u_set_adjacency path_net (u_call_adjacency e path_net t out) (u_fresh false) = (o1, None) /\
    us_adj o1 = Some (Triples (triu_edges 3 (pmatrix_cm x))) /\ us_sparse o1 = false /\ us_given o1 = Some false /\ us_x o1 = Some x).
  { intros out. unfold u_set_adjacency, u_call_adjacency. cbn [c_adjacency c_model c_method_adjacency c_guess_adjacency c_out_adjacency]. change (t_adjacency t) with (AdjName a).
    change (t_model t) with "crema"%string. change (t_method_adjacency t) with methA. rewrite EA. cbn [solved_of]. unfold u_start_adjacency. change (t_adjacency t) with (AdjName a). change (t_guess_adjacency t) with (GStr "uniform").
    rewrite HrA, HY. unfold u_solve_problem, u_initialize, u_set_guess, u_set_args, degree_reduction_und.
    destruct Ha as [<-|[<-|[]]]; names; unfold andthen, ok; cbn [fst snd]; rewrite HDA; names; cbn [fst snd u_run_solver];
      unfold u_set_solved, degree_reduction_und; cbn [us_last us_set_pm us_set_step us_set_args us_set_last]; names;
      cbn [us_x us_sparse us_pm us_set_x us_set_sol us_set_pm us_set_step us_set_args us_set_last us_set_sparse];
      eexists; (split; [reflexivity|]); repeat split; reflexivity. }
  assert (ER : u_result e path_net t (u_fresh false) = Full z 0 [norm2 3 f] [1] []).
  { unfold u_result. change (t_model t) with "crema"%string. names. cbv zeta. destruct (HJ None) as (o1 & E1 & E2 & E3 & _). rewrite E1. cbn [fst]. rewrite E2, E3.
    unfold u_solver. eapply stop_at_start; [reflexivity|exact HD|reflexivity|rewrite Hr; exact HZ|exact Hf|apply Rmax_r]. }
  destruct (HJ (solved_of (u_result e path_net t (u_fresh false)))) as (o1 & E1 & E2 & E3 & E4 & E5).
  edestruct (u_completes_crema e path_net t (pmatrix_cm x) (u_fresh false) z D {| o_x := z; o_inf := fun _ => false |} false o1) as (o' & H).
  { reflexivity. } { exact (path_dom _ z Pz). } { rewrite Hr. exact HZ. } { exact HD. } { rewrite ER. reflexivity. } { exact E1. } { exact E2. } { exact E3. } { exact E4. } { intros _. rewrite E5. discriminate. }
  exists o'. eexists. eexists. cbv zeta. fold t. split; [split; [exact H|]|].
  - unfold u_report. rewrite ER. cbn [report_of]. split; [reflexivity|]. apply reached_now. apply Rmax_r.
  - unfold u_report_adjacency. rewrite EA. cbn [report_of]. split; [reflexivity|]. apply reached_now. apply Rmax_l.
Qed.

(** * DirectedGraph *)
(** 0 -> 1 -> 2 -> 0 and 2 -> 1 with weights 2, 3, 1, 4; and the chain 0 -> 1 -> 2. *)
Definition tri_net : dnet := {| dn_out := [1; 1; 2]%nat; dn_in := [1; 2; 1]%nat; dn_sout := fun i => nth i [2; 3; 5] 0; dn_sin := fun i => nth i [1; 6; 3] 0 |}.
Definition chain_net : dnet := {| dn_out := [1; 1; 0]%nat; dn_in := [0; 1; 1]%nat; dn_sout := fun i => nth i [2; 3; 0] 0; dn_sin := fun i => nth i [0; 2; 3] 0 |}.
Lemma tri_nonneg : nonneg (dn_n tri_net) (dn_sout tri_net) /\ nonneg (dn_n tri_net) (dn_sin tri_net).
Proof. split; intros i Hi; cbn in Hi; destruct i as [|[|[|i]]]; try lia; cbn; lra. Qed.
Lemma tri_positive i : (i < dn_n tri_net)%nat -> nth i (dn_out tri_net) O <> O /\ nth i (dn_in tri_net) O <> O /\ dn_sout tri_net i <> 0 /\ dn_sin tri_net i <> 0.
Proof. intros Hi. cbn in Hi. destruct i as [|[|[|i]]]; try lia; cbn; repeat split; try lia; lra. Qed.
Lemma tri_balanced : balanced (dn_out tri_net) (dn_in tri_net).
Proof. unfold balanced. cbn. ring. Qed.
Lemma chain_balanced : balanced (dn_out chain_net) (dn_in chain_net).
Proof. unfold balanced. cbn. ring. Qed.

Definition at_once_d (e : environment) (g : dnet) (t : settings) (o : dstate) (o' : dstate) (r : report) : Prop :=
  d_tool e g t o = (o', None) /\ d_report e g t o = Some r /\ tolerance_reached (t_tol t) r /\ never_gave_up r.

Lemma d_start_dcm g m : In m ["dcm"; "dcm_exp"]%string -> exists z, d_start g m half (GStr "uniform") = Some z.
Proof.
  intros Hm. unfold d_start, start_of. cbv zeta. destruct Hm as [<-|[<-|[]]]; names; unfold set_initial_guess_dcm, set_initial_guess_dcm_exp, dcm_values;
    cbn -[where_zero neglog_nonzero all_fin d_length degree_reduction_dir cat2]; apply all_fin_some'; intros i Hi; unfold cat2; destruct (Nat.ltb _ _);
    unfold where_zero; destruct (Req_EM_T _ 0) as [Z|Z]; try (eexists; reflexivity); apply neglog_fin; exists (/ 2); split; try reflexivity; right; lra.
Qed.
Lemma d_start_tri_decm m : In m ["decm"; "decm_exp"]%string -> exists z, d_start tri_net m half (GStr "uniform") = Some z.
Proof.
  assert (Ho : nonneg (dn_n tri_net) (at_list (dn_out tri_net))) by (intros i _; apply pos_INR).
  assert (Hi : nonneg (dn_n tri_net) (at_list (dn_in tri_net))) by (intros i _; apply pos_INR).
  destruct tri_nonneg as [So Si]. intros Hm. unfold d_start, start_of. cbv zeta. destruct Hm as [<-|[<-|[]]]; names.
  - destruct (guess_decm_inside (dn_n tri_net) (at_list (dn_out tri_net)) (at_list (dn_in tri_net)) (dn_sout tri_net) (dn_sin tri_net) half "uniform" ltac:(cbn; tauto) Ho Hi So Si half_draws) as (o & x & -> & F & _).
    exact (all_fin_some _ _ _ F).
  - destruct (guess_decm_exp_start (dn_n tri_net) (at_list (dn_out tri_net)) (at_list (dn_in tri_net)) (dn_sout tri_net) (dn_sin tri_net) half "uniform" ltac:(cbn; tauto) Ho Hi So Si half_draws) as (o & x & -> & F & _).
    exact (all_fin_some _ _ _ F).
Qed.
Lemma d_start_evaluates g m : d_paired g -> balanced (dn_out g) (dn_in g) -> In m ["dcm"; "dcm_exp"]%string -> exists z, d_start g m half (GStr "uniform") = Some z /\ d_evaluates g m z.
Proof.
  intros HP HB Hm. destruct (d_start_dcm g m Hm) as (z & Hz). exists z. split; [exact Hz|]. destruct Hm as [<-|[<-|[]]]; [|apply dcm_exp_evaluates].
  apply (start_dcm_evaluates g half "uniform" z ltac:(cbn; tauto) half_draws HP HB Hz).
Qed.
Lemma tri_evaluates m z : In m ["dcm"; "dcm_exp"; "decm"; "decm_exp"]%string -> d_start tri_net m half (GStr "uniform") = Some z -> d_evaluates tri_net m z.
Proof.
  destruct tri_nonneg as [So Si]. intros [<-|[<-|[<-|[<-|[]]]]] H.
  - apply (start_dcm_evaluates tri_net half "uniform" z ltac:(cbn; tauto) half_draws eq_refl tri_balanced H).
  - apply dcm_exp_evaluates.
  - apply (start_decm_evaluates tri_net half "uniform" z ltac:(cbn; tauto) half_draws So Si ltac:(left; discriminate) H).
  - apply (start_decm_exp_evaluates tri_net half "uniform" z ltac:(cbn; tauto) half_draws So Si ltac:(left; discriminate) H).
Qed.
Lemma tri_start_decm m : In m ["decm"; "decm_exp"]%string -> exists z, d_start tri_net m half (GStr "uniform") = Some z /\ d_evaluates tri_net m z.
Proof. intros Hm. destruct (d_start_tri_decm m Hm) as (z & Hz). exists z. split; [exact Hz|]. apply tri_evaluates; [cbn in Hm |- *; tauto|exact Hz]. Qed.
Lemma d_start_tri_crema nm : In nm ["random"; "strengths"; "strengths_minor"]%string -> exists z, d_start tri_net "crema" half (GStr nm) = Some z /\
  forall i, (i < 6)%nat -> 0 < z i.
Proof.
  intros Hn. unfold d_start, start_of. cbv zeta. names. destruct tri_nonneg as [So Si].
  destruct (guess_crema_directed_inside (dn_n tri_net) (dn_sout tri_net) (dn_sin tri_net) half nm Hn So Si half_draws) as (o & x & -> & F & HI).
  destruct (all_fin_some _ _ _ F) as (z & Hz). exists z. split; [exact Hz|]. intros i Hi.
  pose proof (all_fin_inv _ _ _ Hz i Hi) as E. rewrite (F i Hi) in E. injection E as <-.
  destruct (Nat.lt_ge_cases i 3) as [L|L].
  - destruct (HI i L) as [[A _] _]. apply A. apply (tri_positive i L).
  - destruct (HI (i - 3)%nat) as [_ [A _]]; [cbn; lia|]. replace (i - 3 + dn_n tri_net)%nat with i in A by (cbn; lia). apply A. apply tri_positive. cbn. lia.
Qed.

Lemma d_completes e g t o z D v : In (t_model t) ["dcm"; "dcm_exp"; "decm"; "decm_exp"]%string -> ds_bo o = None ->
  d_start g (t_model t) (v_rnd e) (t_guess t) = Some z -> d_dispatch (t_model t) (t_method t) None = inl D -> solved_of (d_result e g t o) = Some v ->
  exists o', d_tool e g t o = (o', None).
Proof.
  intros Hm Hb Hz HD Hv. unfold d_tool, d_call. rewrite Hv. clear Hv. unfold d_solve_tool, d_call_adjacency. cbn [c_model c_method c_guess c_out c_full]. rewrite Hz.
  unfold d_solve_problem, d_initialize, d_set_guess, d_set_args.
  destruct Hm as [E|[E|[E|[E|[]]]]]; rewrite <- E in *; names; unfold andthen, ok; cbn [fst snd]; rewrite HD; names; cbn [fst snd d_run_solver]; unfold ok; cbn [fst snd];
    unfold d_set_solved, d_set_solved_dcm, d_set_solved_decm; cbv zeta; cbn [ds_last ds_set_pm ds_set_step ds_set_args ds_set_all ds_set_last]; names;
    unfold d_solution_error; cbn [ds_last ds_set_pm ds_set_step ds_set_args ds_set_xy ds_set_all ds_set_last ds_set_sol]; names;
    cbn [ds_x ds_y ds_bo ds_bi ds_last ds_set_pm ds_set_step ds_set_args ds_set_xy ds_set_all ds_set_last ds_set_sol]; try (eexists; reflexivity);
    unfold d_error_strength, d_error_degree; cbv zeta; cbn [ds_x ds_y ds_bo ds_set_ek ds_last ds_set_pm ds_set_step ds_set_args ds_set_xy ds_set_last ds_set_sol]; rewrite Hb; eexists; reflexivity.
Qed.
Lemma d_at_once m meth e g : In m ["dcm"; "dcm_exp"; "decm"; "decm_exp"]%string -> In meth descent_methods -> v_rnd e = half ->
  (exists z, d_start g m half (GStr "uniform") = Some z /\ d_evaluates g m z) ->
  exists tol o' r, at_once_d e g (settings_for m meth (GStr "uniform") AdjOther "" GOther tol) (d_fresh false) o' r.
Proof.
  intros Hm Hme Hr HZ.
  assert (HQ : exists D A, d_dispatch m meth None = inl D /\ d_args g m None = Some A).
  { destruct Hm as [<-|[<-|[<-|[<-|[]]]]], Hme as [<-|[<-|[]]]; eexists; eexists; (split; [reflexivity|]); reflexivity. }
  destruct HZ as (z & HZ & EV). destruct HQ as (D & A & HD & HA). destruct (EV meth D A Hme HD HA) as (f & Hf).
  set (t := settings_for m meth (GStr "uniform") AdjOther "" GOther (norm2 (d_length g m) f)). exists (norm2 (d_length g m) f). fold t.
  assert (ER : d_result e g t (d_fresh false) = Full z 0 [norm2 (d_length g m) f] [1] []).
  { assert (EU : d_result e g t (d_fresh false) = d_solver e g t m meth true (v_rnd e) (GStr "uniform") None).
    { unfold d_result. change (t_model t) with m. change (t_method t) with meth. change (t_guess t) with (GStr "uniform").
      destruct Hm as [<-|[<-|[<-|[<-|[]]]]]; reflexivity. }
    rewrite EU. unfold d_solver. eapply stop_at_start; [reflexivity|exact HD|exact HA|rewrite Hr; exact HZ|exact Hf|apply Rle_refl]. }
  destruct (d_completes e g t (d_fresh false) z D {| o_x := z; o_inf := fun _ => false |} Hm eq_refl ltac:(rewrite Hr; exact HZ) HD) as (o' & H).
  { rewrite ER. reflexivity. }
  exists o'. eexists. split; [exact H|]. unfold d_report. rewrite ER. cbn [report_of]. split; [reflexivity|]. apply reached_now. apply Rle_refl.
Qed.

(** CReMa on the three links, and on the probabilities of the binary model. *)
Definition tri_adj (i j : nat) : R := nth (3 * i + j)%nat [0; 1; 0; 0; 0; 1; 1; 1; 0] 0.
Lemma tri_adj_nonneg i j : 0 <= tri_adj i j.
Proof. unfold tri_adj. generalize (3 * i + j)%nat as q. intros q. do 9 (destruct q as [|q]; [cbn; lra|]). destruct q; cbn; lra. Qed.
Lemma d_completes_crema e g t p o z D v q o1 : t_model t = "crema"%string -> positive_rates_dir (dn_n g) p (o_x v) (drop (dn_n g) (o_x v)) ->
  d_start g "crema" (v_rnd e) (t_guess t) = Some z -> d_dispatch "crema" (t_method t) None = inl D -> solved_of (d_result e g t o) = Some v ->
  d_set_adjacency g (d_call e g t o) o = (o1, None) -> ds_adj o1 = Some (Triples (all_edges (dn_n g) p)) -> ds_sparse o1 = false -> ds_given o1 = Some q ->
  (q = false -> ds_x o1 <> None /\ ds_y o1 <> None) ->
  exists o', d_tool e g t o = (o', None).
Proof.
  intros Hm HP Hz HD Hv HA HJ HS HG HX. unfold d_tool, d_solve_tool. change (c_model (d_call e g t o)) with (t_model t). rewrite Hm. names.
  unfold d_solve_crema. rewrite HA. unfold andthen at 2. cbn [fst snd]. cbv beta iota zeta. rewrite HS. change (c_model (d_call e g t o)) with (t_model t). rewrite Hm.
  unfold d_initialize, d_set_guess, d_set_args. unfold d_call, d_call_adjacency. cbn [c_guess c_method c_out c_full]. rewrite Hm, Hz. names. unfold andthen, ok. cbn [fst snd ds_adj ds_set_b ds_set_last]. rewrite HJ.
  cbn [fst snd]. rewrite HD. names. cbn [fst snd]. rewrite Hv. cbn [fst snd]. unfold d_set_solved_crema.
  unfold d_solution_error. cbv zeta. cbn [ds_last ds_set_step ds_set_args ds_set_b ds_set_last ds_set_sol]. names.
  unfold d_error_degree. cbv zeta. cbn [ds_x ds_y ds_set_step ds_set_args ds_set_b ds_set_last ds_set_sol].
  assert (HP' : positive_rates_dir (dn_n g) p (join2 (dn_n g) (o_x v) (drop (dn_n g) (o_x v))) (drop (dn_n g) (join2 (dn_n g) (o_x v) (drop (dn_n g) (o_x v))))).
  { intros i j Hi Hj Hp. specialize (HP i j Hi Hj Hp). unfold join2, drop in *. destruct (Nat.ltb_spec i (dn_n g)) as [_|Q]; [|lia].
    destruct (Nat.ltb_spec (j + dn_n g) (dn_n g)) as [Q|_]; [lia|]. rewrite Nat.add_sub. exact HP. }
  destruct (expected_all (dn_n g) p _ HP') as (EO & EI & E1 & E2 & _).
  destruct q.
  - destruct (ds_x o1) as [x|] eqn:EX, (ds_y o1) as [y|] eqn:EY; unfold d_error_strength; cbv zeta;
      cbn [ds_bo ds_bi ds_adj ds_sparse ds_given ds_ek ds_set_ek ds_set_es ds_set_step ds_set_args ds_set_b ds_set_last ds_set_sol];
      rewrite HJ, HS; cbn [adj_edges obind]; rewrite E1; cbn [obind]; rewrite E2; cbn [obind ds_given ds_set_es ds_set_ek ds_set_step ds_set_args ds_set_b ds_set_last ds_set_sol]; rewrite HG; eexists; reflexivity.
  - destruct (HX eq_refl) as [N1 N2]. destruct (ds_x o1) as [x|] eqn:EX; [|exfalso; apply N1; reflexivity]. destruct (ds_y o1) as [y|] eqn:EY; [|exfalso; apply N2; reflexivity].
    unfold d_error_strength; cbv zeta;
      cbn [ds_bo ds_bi ds_adj ds_sparse ds_given ds_ek ds_set_ek ds_set_es ds_set_step ds_set_args ds_set_b ds_set_last ds_set_sol];
      rewrite HJ, HS; cbn [adj_edges obind]; rewrite E1; cbn [obind]; rewrite E2; cbn [obind ds_given ds_ek ds_set_es ds_set_ek ds_set_step ds_set_args ds_set_b ds_set_last ds_set_sol]; rewrite HG; eexists; reflexivity.
Qed.
Lemma tri_fun_crema meth D p z : In meth descent_methods -> d_dispatch "crema" meth None = inl D -> (forall i, (i < 6)%nat -> 0 < z i) ->
  exists f, real_vec 6 (run_entry (d_fun D) (d_args_crema tri_net (Triples (all_edges 3 p))) z) = Some f.
Proof.
  intros Hme HD Hz. pose proof (fun_crema_dir meth D 3 (dn_sout tri_net) (dn_sin tri_net) (all_edges 3 p) (nz_real 3 (dn_sout tri_net)) (nz_real 3 (dn_sin tri_net)) z Hme HD) as E.
  change (2 * 3)%nat with 6%nat in E. unfold d_args_crema. change (dn_n tri_net) with 3%nat. rewrite E.
  destruct (prime_crema_dir_entries 3 (dn_sout tri_net) (dn_sin tri_net) (all_edges 3 p) (nz_real 3 (dn_sout tri_net)) (nz_real 3 (dn_sin tri_net)) z) as (F & _ & _ & -> & _).
  - apply nz_real_list.
  - apply nz_real_list.
  - apply all_below.
  - intros i j w Hin. apply in_all in Hin. pose proof (Hz i ltac:(lia)). pose proof (Hz (j + 3)%nat ltac:(lia)). lra.
  - eexists. reflexivity.
Qed.
Lemma tri_rates p z : (forall i, (i < 6)%nat -> 0 < z i) -> positive_rates_dir 3 p z (drop 3 z).
Proof. intros H i j Hi Hj _. unfold drop. pose proof (H i ltac:(lia)). pose proof (H (j + 3)%nat ltac:(lia)). lra. Qed.
Lemma tri_crema_at_once nm meth e : In nm ["random"; "strengths"; "strengths_minor"]%string -> In meth descent_methods -> v_rnd e = half ->
  exists tol o' r, at_once_d e tri_net (settings_for "crema" meth (GStr nm) (AdjMatrix tri_adj) "" GOther tol) (d_fresh false) o' r.
Proof.
  intros Hn Hme Hr. destruct (d_start_tri_crema nm Hn) as (z & HZ & Pz).
  assert (HD : exists D, d_dispatch "crema" meth None = inl D) by (destruct Hme as [<-|[<-|[]]]; eexists; reflexivity). destruct HD as (D & HD).
  destruct (tri_fun_crema meth D tri_adj z Hme HD Pz) as (f & Hf).
  set (t := settings_for "crema" meth (GStr nm) (AdjMatrix tri_adj) "" GOther (norm2 6 f)). exists (norm2 6 f). fold t.
  assert (ER : d_result e tri_net t (d_fresh false) = Full z 0 [norm2 6 f] [1] []).
  { change (d_result e tri_net t (d_fresh false)) with (d_solver e tri_net t "crema" meth true (v_rnd e) (GStr nm) (Some (Triples (all_edges 3 tri_adj)))).
    unfold d_solver. eapply stop_at_start; [reflexivity|exact HD|reflexivity|rewrite Hr; exact HZ|exact Hf|apply Rle_refl]. }
  edestruct (d_completes_crema e tri_net t tri_adj (d_fresh false) z D {| o_x := z; o_inf := fun _ => false |} true) as (o' & H).
  { reflexivity. } { exact (tri_rates tri_adj z Pz). }
  { rewrite Hr. exact HZ. } { exact HD. } { rewrite ER. reflexivity. } { reflexivity. } { reflexivity. } { reflexivity. } { reflexivity. } { discriminate. }
  exists o'. eexists. split; [exact H|]. unfold d_report. rewrite ER. cbn [report_of]. split; [reflexivity|]. apply reached_now. apply Rle_refl.
Qed.
Lemma tri_crema_name_at_once a nm meth methA e : In a ["dcm"; "dcm_exp"]%string -> In nm ["random"; "strengths"; "strengths_minor"]%string ->
  In meth descent_methods -> In methA descent_methods -> v_rnd e = half -> v_rnd_adjacency e = half ->
  exists tol o' r ra, let t := settings_for "crema" meth (GStr nm) (AdjName a) methA (GStr "uniform") tol in
    at_once_d e tri_net t (d_fresh false) o' r /\ d_report_adjacency e tri_net t = Some ra /\ tolerance_reached tol ra.
Proof.
  intros Ha Hn Hme HmA Hr HrA. destruct (d_start_dcm tri_net a Ha) as (y & HY). destruct (d_start_tri_crema nm Hn) as (z & HZ & Pz).
  assert (HQ : exists D A, d_dispatch a methA None = inl D /\ d_args tri_net a None = Some A).
  { destruct Ha as [<-|[<-|[]]], HmA as [<-|[<-|[]]]; eexists; eexists; (split; [reflexivity|]); reflexivity. }
  destruct HQ as (DA & AA & HDA & HAA). destruct (tri_evaluates a y ltac:(cbn in Ha |- *; tauto) HY methA DA AA HmA HDA HAA) as (fA & HfA).
  assert (HD : exists D, d_dispatch "crema" meth None = inl D) by (destruct Hme as [<-|[<-|[]]]; eexists; reflexivity). destruct HD as (D & HD).
  set (w := fun i => if String.eqb a "dcm" then y i else exp (- y i)).
  set (x := fun i => w (d_class tri_net i)). set (u := fun i => drop (d_classes_n tri_net) w (d_class tri_net i)).
  set (p := pmatrix_dcm 3 (np_nonzero (dn_out tri_net)) (np_nonzero (dn_in tri_net)) (join2 3 x u)).
  destruct (tri_fun_crema meth D p z Hme HD Pz) as (f & Hf).
  set (nA := norm2 (d_length tri_net a) fA) in *. exists (Rmax nA (norm2 6 f)).
  set (t := settings_for "crema" meth (GStr nm) (AdjName a) methA (GStr "uniform") (Rmax nA (norm2 6 f))).
  assert (EA : d_result_adjacency e tri_net t = Full y 0 [nA] [1] []).
  { change (d_result_adjacency e tri_net t) with (d_solver e tri_net t a methA true (v_rnd_adjacency e) (GStr "uniform") None).
    unfold d_solver. eapply stop_at_start; [reflexivity|exact HDA|exact HAA|rewrite HrA; exact HY|exact HfA|apply Rmax_l]. }
  assert (HJ : forall out, exists o1, d_set_adjacency tri_net (d_call_adjacency e tri_net t out) (d_fresh false) = (o1, None) /\
    ds_adj o1 = Some (Triples (all_edges 3 p)) /\ ds_sparse o1 = false /\ ds_given o1 = Some false /\ ds_x o1 = Some x /\ ds_y o1 = Some u).
  { intros out. unfold d_set_adjacency, d_call_adjacency. cbn [c_adjacency c_model c_full c_method_adjacency c_guess_adjacency c_out_adjacency]. change (t_adjacency t) with (AdjName a).
    change (t_model t) with "crema"%string. change (t_method_adjacency t) with methA. rewrite EA. cbn [solved_of]. unfold d_start_adjacency. change (t_adjacency t) with (AdjName a). change (t_guess_adjacency t) with (GStr "uniform").
    rewrite HrA, HY. unfold d_solve_problem, d_initialize, d_set_guess, d_set_args.
    destruct Ha as [<-|[<-|[]]]; names; unfold andthen, ok; cbn [fst snd]; rewrite HDA; names; cbn [fst snd d_run_solver]; unfold ok; cbn [fst snd];
      unfold d_set_solved, d_set_solved_dcm; cbv zeta; cbn [ds_last ds_set_pm ds_set_step ds_set_args ds_set_last]; names;
      cbn [ds_x ds_y ds_sparse ds_pm ds_set_xy ds_set_sol ds_set_pm ds_set_step ds_set_args ds_set_last ds_set_sparse];
      eexists; (split; [reflexivity|]); repeat split; reflexivity. }
  assert (ER : d_result e tri_net t (d_fresh false) = Full z 0 [norm2 6 f] [1] []).
  { unfold d_result. change (t_model t) with "crema"%string. names. cbv zeta. destruct (HJ None) as (o1 & E1 & E2 & E3 & _). rewrite E1. cbn [fst]. rewrite E2, E3.
    unfold d_solver. eapply stop_at_start; [reflexivity|exact HD|reflexivity|rewrite Hr; exact HZ|exact Hf|apply Rmax_r]. }
  destruct (HJ (solved_of (d_result e tri_net t (d_fresh false)))) as (o1 & E1 & E2 & E3 & E4 & E5 & E6).
  edestruct (d_completes_crema e tri_net t p (d_fresh false) z D {| o_x := z; o_inf := fun _ => false |} false o1) as (o' & H).
  { reflexivity. } { exact (tri_rates p z Pz). } { rewrite Hr. exact HZ. } { exact HD. } { rewrite ER. reflexivity. } { exact E1. } { exact E2. } { exact E3. } { exact E4. }
  { intros _. rewrite E5, E6. split; discriminate. }
  exists o'. eexists. eexists. cbv zeta. fold t. split; [split; [exact H|]|].
  - unfold d_report. rewrite ER. cbn [report_of]. split; [reflexivity|]. apply reached_now. apply Rmax_r.
  - unfold d_report_adjacency. rewrite EA. cbn [report_of]. split; [reflexivity|]. apply reached_now. apply Rmax_l.
Qed.

(** * The cases *)
Ltac case_done :=
  first [ assumption | reflexivity | exact path_deg | exact (proj1 path_str) | exact (proj2 path_str) | exact path_adj_hollow
        | exact (proj1 tri_nonneg) | exact (proj2 tri_nonneg) | exact tri_balanced | exact chain_balanced | exact tri_positive
        | (cbn; tauto) | (cbn; lia)
        | match goal with R : v_rnd ?e = half |- draws (v_rnd ?e) => rewrite R; exact half_draws end
        | match goal with R : v_rnd_adjacency ?e = half |- draws (v_rnd_adjacency ?e) => rewrite R; exact half_draws end
        | (intros; apply path_adj_nonneg) | (intros; apply tri_adj_nonneg)
        | (intros; split; [apply path_deg; assumption|apply (proj2 path_str); assumption])
        | (intros; split; apply tri_positive; assumption)
        | (intros; left; apply (proj2 path_str); lia)
        | (intros; left; apply tri_positive; lia)
        | (left; discriminate) | discriminate ].

Lemma tool_cm_case : exists e g t (nm : string) o o' r,
  ((0 < un_n g)%nat) /\
  ((forall i, (i < un_n g)%nat -> nth i (un_dseq g) O <> O)) /\
  (us_beta o = None) /\
  (t_model t = "cm"%string) /\
  (In (t_method t) descent_methods) /\
  (t_guess t = GStr nm) /\
  (In nm binary_names) /\
  (draws (v_rnd e)) /\
  (t_linsearch t = true) /\
  (u_tool e g t o = (o', None)) /\
  (u_report e g t o = Some r) /\
  (tolerance_reached (t_tol t) r).
Proof.
  destruct (world (un_n path_net)) as (e & HL & HE & R1 & R2). destruct (path_at_once "cm" "newton" e ltac:(cbn; tauto) ltac:(cbn; tauto) R1) as (tol & o' & r & H1 & H2 & H3 & H4).
  exists e, path_net, (settings_for "cm" "newton" (GStr "uniform") AdjOther "" GOther tol), "uniform"%string, (u_fresh false), o', r.
  repeat match goal with |- _ /\ _ => split end; case_done.
Qed.
Lemma tool_cm_exp_case : exists e g t o o' r,
  ((0 < un_n g)%nat) /\
  (us_beta o = None) /\
  (t_model t = "cm_exp"%string) /\
  (In (t_method t) descent_methods) /\
  (u_tool e g t o = (o', None)) /\
  (u_report e g t o = Some r) /\
  (tolerance_reached (t_tol t) r).
Proof.
  destruct (world (un_n path_net)) as (e & HL & HE & R1 & R2). destruct (path_at_once "cm_exp" "quasinewton" e ltac:(cbn; tauto) ltac:(cbn; tauto) R1) as (tol & o' & r & H1 & H2 & H3 & H4).
  exists e, path_net, (settings_for "cm_exp" "quasinewton" (GStr "uniform") AdjOther "" GOther tol), (u_fresh false), o', r.
  repeat match goal with |- _ /\ _ => split end; case_done.
Qed.
Lemma tool_ecm_exp_case : exists e g t (nm : string) o o' r,
  ((0 < un_n g)%nat) /\
  (nonneg (un_n g) (un_str g)) /\
  ((forall i, (i < un_n g)%nat -> un_str g i <> 0)) /\
  (t_model t = "ecm_exp"%string) /\
  (In (t_method t) descent_methods) /\
  (t_guess t = GStr nm) /\
  (In nm weighted_names) /\
  (draws (v_rnd e)) /\
  (t_linsearch t = true) /\
  (u_tool e g t o = (o', None)) /\
  (u_report e g t o = Some r) /\
  (tolerance_reached (t_tol t) r).
Proof.
  destruct (world (un_n path_net)) as (e & HL & HE & R1 & R2). destruct (path_at_once "ecm_exp" "newton" e ltac:(cbn; tauto) ltac:(cbn; tauto) R1) as (tol & o' & r & H1 & H2 & H3 & H4).
  exists e, path_net, (settings_for "ecm_exp" "newton" (GStr "uniform") AdjOther "" GOther tol), "uniform"%string, (u_fresh false), o', r.
  repeat match goal with |- _ /\ _ => split end; case_done.
Qed.
Lemma tool_ecm_case : exists e g t (nm : string) o o' r,
  ((0 < un_n g)%nat) /\
  (nonneg (un_n g) (un_str g)) /\
  ((forall i, (i < un_n g)%nat -> nth i (un_dseq g) O <> O /\ un_str g i <> 0)) /\
  (t_model t = "ecm"%string) /\
  (In (t_method t) descent_methods) /\
  (t_guess t = GStr nm) /\
  (In nm weighted_names) /\
  (draws (v_rnd e)) /\
  (t_linsearch t = true) /\
  (u_tool e g t o = (o', None)) /\
  (u_report e g t o = Some r) /\
  (tolerance_reached (t_tol t) r).
Proof.
  destruct (world (un_n path_net)) as (e & HL & HE & R1 & R2). destruct (path_at_once "ecm" "quasinewton" e ltac:(cbn; tauto) ltac:(cbn; tauto) R1) as (tol & o' & r & H1 & H2 & H3 & H4).
  exists e, path_net, (settings_for "ecm" "quasinewton" (GStr "uniform") AdjOther "" GOther tol), "uniform"%string, (u_fresh false), o', r.
  repeat match goal with |- _ /\ _ => split end; case_done.
Qed.
Lemma tool_dcm_case : exists e g t (nm : string) o o' r,
  ((0 < dn_n g)%nat) /\
  (d_paired g) /\
  (balanced (dn_out g) (dn_in g)) /\
  (ds_bo o = None) /\
  (linear_solver (d_length g "dcm") (v_linsolve e)) /\
  (eigen_solver (d_length g "dcm") (v_eigh e)) /\
  (t_model t = "dcm"%string) /\
  (In (t_method t) descent_methods) /\
  (t_guess t = GStr nm) /\
  (In nm binary_names) /\
  (draws (v_rnd e)) /\
  (t_linsearch t = true) /\
  (d_tool e g t o = (o', None)) /\
  (d_report e g t o = Some r) /\
  (tolerance_reached (t_tol t) r).
Proof.
  destruct (world (d_length chain_net "dcm")) as (e & HL & HE & R1 & R2). destruct (d_at_once "dcm" "newton" e chain_net ltac:(cbn; tauto) ltac:(cbn; tauto) R1 (d_start_evaluates chain_net "dcm" eq_refl chain_balanced ltac:(cbn; tauto))) as (tol & o' & r & H1 & H2 & H3 & H4).
  exists e, chain_net, (settings_for "dcm" "newton" (GStr "uniform") AdjOther "" GOther tol), "uniform"%string, (d_fresh false), o', r.
  repeat match goal with |- _ /\ _ => split end; case_done.
Qed.
Lemma tool_dcm_exp_case : exists e g t o o' r,
  ((0 < dn_n g)%nat) /\
  (d_paired g) /\
  (ds_bo o = None) /\
  ((forall i, (i < dn_n g)%nat -> nth i (dn_out g) O <> O /\ nth i (dn_in g) O <> O)) /\
  (t_model t = "dcm_exp"%string) /\
  (In (t_method t) descent_methods) /\
  (d_tool e g t o = (o', None)) /\
  (d_report e g t o = Some r) /\
  (tolerance_reached (t_tol t) r).
Proof.
  destruct (world (d_length tri_net "dcm_exp")) as (e & HL & HE & R1 & R2). destruct (d_at_once "dcm_exp" "quasinewton" e tri_net ltac:(cbn; tauto) ltac:(cbn; tauto) R1 (d_start_evaluates tri_net "dcm_exp" eq_refl tri_balanced ltac:(cbn; tauto))) as (tol & o' & r & H1 & H2 & H3 & H4).
  exists e, tri_net, (settings_for "dcm_exp" "quasinewton" (GStr "uniform") AdjOther "" GOther tol), (d_fresh false), o', r.
  repeat match goal with |- _ /\ _ => split end; case_done.
Qed.
Lemma tool_decm_exp_case : exists e g t (nm : string) o o' r,
  ((0 < dn_n g)%nat) /\
  (nonneg (dn_n g) (dn_sout g)) /\
  (nonneg (dn_n g) (dn_sin g)) /\
  (t_model t = "decm_exp"%string) /\
  (In (t_method t) descent_methods) /\
  (t_guess t = GStr nm) /\
  (In nm weighted_names) /\
  (nm <> "strengths"%string) /\
  (draws (v_rnd e)) /\
  (t_linsearch t = true) /\
  (d_tool e g t o = (o', None)) /\
  (d_report e g t o = Some r) /\
  (tolerance_reached (t_tol t) r).
Proof.
  destruct (world (4 * dn_n tri_net)) as (e & HL & HE & R1 & R2). destruct (d_at_once "decm_exp" "newton" e tri_net ltac:(cbn; tauto) ltac:(cbn; tauto) R1 (tri_start_decm "decm_exp" ltac:(cbn; tauto))) as (tol & o' & r & H1 & H2 & H3 & H4).
  exists e, tri_net, (settings_for "decm_exp" "newton" (GStr "uniform") AdjOther "" GOther tol), "uniform"%string, (d_fresh false), o', r.
  repeat match goal with |- _ /\ _ => split end; case_done.
Qed.
Lemma tool_decm_case : exists e g t (nm : string) o o' r,
  ((0 < dn_n g)%nat) /\
  (nonneg (dn_n g) (dn_sout g)) /\
  (nonneg (dn_n g) (dn_sin g)) /\
  ((forall i, (i < dn_n g)%nat -> nth i (dn_out g) O <> O /\ nth i (dn_in g) O <> O /\ dn_sout g i <> 0 /\ dn_sin g i <> 0)) /\
  (linear_solver (4 * dn_n g) (v_linsolve e)) /\
  (eigen_solver (4 * dn_n g) (v_eigh e)) /\
  (t_model t = "decm"%string) /\
  (In (t_method t) descent_methods) /\
  (t_guess t = GStr nm) /\
  (In nm weighted_names) /\
  ((nm <> "strengths"%string \/ ~ single_flow (dn_n g) (dn_sout g) (dn_sin g))) /\
  (draws (v_rnd e)) /\
  (t_linsearch t = true) /\
  (d_tool e g t o = (o', None)) /\
  (d_report e g t o = Some r) /\
  (tolerance_reached (t_tol t) r) /\
  (never_gave_up r).
Proof.
  destruct (world (4 * dn_n tri_net)) as (e & HL & HE & R1 & R2). destruct (d_at_once "decm" "quasinewton" e tri_net ltac:(cbn; tauto) ltac:(cbn; tauto) R1 (tri_start_decm "decm" ltac:(cbn; tauto))) as (tol & o' & r & H1 & H2 & H3 & H4).
  exists e, tri_net, (settings_for "decm" "quasinewton" (GStr "uniform") AdjOther "" GOther tol), "uniform"%string, (d_fresh false), o', r.
  repeat match goal with |- _ /\ _ => split end; case_done.
Qed.
Lemma tool_crema_matrix_case : exists e g t (a : nat -> nat -> R) (nm : string) o o' r,
  ((0 < un_n g)%nat) /\
  (linear_solver (un_n g) (v_linsolve e)) /\
  (eigen_solver (un_n g) (v_eigh e)) /\
  (nonneg (un_n g) (un_str g)) /\
  (hollow a) /\
  ((forall i j, (i < j < un_n g)%nat -> 0 <= a i j)) /\
  ((forall i j, (i < j < un_n g)%nat -> a i j <> 0 -> un_str g i <> 0 \/ un_str g j <> 0)) /\
  (t_model t = "crema"%string) /\
  (t_adjacency t = AdjMatrix a) /\
  (In (t_method t) descent_methods) /\
  (t_guess t = GStr nm) /\
  (In nm ["random"; "strengths"; "strengths_minor"]%string) /\
  (draws (v_rnd e)) /\
  (t_linsearch t = true) /\
  (u_tool e g t o = (o', None)) /\
  (u_report e g t o = Some r) /\
  (tolerance_reached (t_tol t) r) /\
  (never_gave_up r).
Proof.
  destruct (world (un_n path_net)) as (e & HL & HE & R1 & R2). destruct (path_crema_at_once "random" "newton" e ltac:(cbn; tauto) ltac:(cbn; tauto) R1) as (tol & o' & r & H1 & H2 & H3 & H4).
  exists e, path_net, (settings_for "crema" "newton" (GStr "random") (AdjMatrix path_adj) "" GOther tol), path_adj, "random"%string, (u_fresh false), o', r.
  repeat match goal with |- _ /\ _ => split end; case_done.
Qed.
Lemma tool_crema_cm_case : exists e g t (nma : string) (nm : string) o o' ra r,
  ((0 < un_n g)%nat) /\
  (linear_solver (un_n g) (v_linsolve e)) /\
  (eigen_solver (un_n g) (v_eigh e)) /\
  ((forall i, (i < un_n g)%nat -> nth i (un_dseq g) O <> O)) /\
  (nonneg (un_n g) (un_str g)) /\
  ((forall i j, (i < j < un_n g)%nat -> un_str g i <> 0 \/ un_str g j <> 0)) /\
  (t_model t = "crema"%string) /\
  (t_adjacency t = AdjName "cm") /\
  (In (t_method_adjacency t) descent_methods) /\
  (t_guess_adjacency t = GStr nma) /\
  (In nma binary_names) /\
  (draws (v_rnd_adjacency e)) /\
  (In (t_method t) descent_methods) /\
  (t_guess t = GStr nm) /\
  (In nm ["random"; "strengths"; "strengths_minor"]%string) /\
  (draws (v_rnd e)) /\
  (t_linsearch t = true) /\
  (u_tool e g t o = (o', None)) /\
  (u_report_adjacency e g t = Some ra) /\
  (tolerance_reached (t_tol t) ra) /\
  (u_report e g t o = Some r) /\
  (tolerance_reached (t_tol t) r) /\
  (never_gave_up r).
Proof.
  destruct (world (un_n path_net)) as (e & HL & HE & R1 & R2). destruct (path_crema_name_at_once "cm" "random" "newton" "newton" e ltac:(cbn; tauto) ltac:(cbn; tauto) ltac:(cbn; tauto) ltac:(cbn; tauto) R1 R2) as (tol & o' & r & ra & (H1 & H2 & H3 & H4) & H5 & H6).
  exists e, path_net, (settings_for "crema" "newton" (GStr "random") (AdjName "cm") "newton" (GStr "uniform") tol), "uniform"%string, "random"%string, (u_fresh false), o', ra, r.
  repeat match goal with |- _ /\ _ => split end; case_done.
Qed.
Lemma tool_crema_cm_exp_case : exists e g t (nm : string) o o' ra r,
  ((0 < un_n g)%nat) /\
  (linear_solver (un_n g) (v_linsolve e)) /\
  (eigen_solver (un_n g) (v_eigh e)) /\
  (nonneg (un_n g) (un_str g)) /\
  ((forall i j, (i < j < un_n g)%nat -> un_str g i <> 0 \/ un_str g j <> 0)) /\
  (t_model t = "crema"%string) /\
  (t_adjacency t = AdjName "cm_exp") /\
  (In (t_method_adjacency t) descent_methods) /\
  (In (t_method t) descent_methods) /\
  (t_guess t = GStr nm) /\
  (In nm ["random"; "strengths"; "strengths_minor"]%string) /\
  (draws (v_rnd e)) /\
  (t_linsearch t = true) /\
  (u_tool e g t o = (o', None)) /\
  (u_report_adjacency e g t = Some ra) /\
  (tolerance_reached (t_tol t) ra) /\
  (u_report e g t o = Some r) /\
  (tolerance_reached (t_tol t) r) /\
  (never_gave_up r).
Proof.
  destruct (world (un_n path_net)) as (e & HL & HE & R1 & R2). destruct (path_crema_name_at_once "cm_exp" "random" "newton" "newton" e ltac:(cbn; tauto) ltac:(cbn; tauto) ltac:(cbn; tauto) ltac:(cbn; tauto) R1 R2) as (tol & o' & r & ra & (H1 & H2 & H3 & H4) & H5 & H6).
  exists e, path_net, (settings_for "crema" "newton" (GStr "random") (AdjName "cm_exp") "newton" (GStr "uniform") tol), "random"%string, (u_fresh false), o', ra, r.
  repeat match goal with |- _ /\ _ => split end; case_done.
Qed.
Lemma tool_crema_dir_matrix_case : exists e g t (a : nat -> nat -> R) (nm : string) o o' r,
  ((0 < dn_n g)%nat) /\
  (linear_solver (2 * dn_n g) (v_linsolve e)) /\
  (eigen_solver (2 * dn_n g) (v_eigh e)) /\
  (nonneg (dn_n g) (dn_sout g)) /\
  (nonneg (dn_n g) (dn_sin g)) /\
  ((forall i j, (i < dn_n g)%nat -> (j < dn_n g)%nat -> 0 <= a i j)) /\
  ((forall i j, (i < dn_n g)%nat -> (j < dn_n g)%nat -> a i j <> 0 -> dn_sout g i <> 0 \/ dn_sin g j <> 0)) /\
  (t_model t = "crema"%string) /\
  (t_adjacency t = AdjMatrix a) /\
  (In (t_method t) descent_methods) /\
  (t_guess t = GStr nm) /\
  (In nm ["random"; "strengths"; "strengths_minor"]%string) /\
  (draws (v_rnd e)) /\
  (t_linsearch t = true) /\
  (d_tool e g t o = (o', None)) /\
  (d_report e g t o = Some r) /\
  (tolerance_reached (t_tol t) r) /\
  (never_gave_up r).
Proof.
  destruct (world (2 * dn_n tri_net)) as (e & HL & HE & R1 & R2). destruct (tri_crema_at_once "random" "newton" e ltac:(cbn; tauto) ltac:(cbn; tauto) R1) as (tol & o' & r & H1 & H2 & H3 & H4).
  exists e, tri_net, (settings_for "crema" "newton" (GStr "random") (AdjMatrix tri_adj) "" GOther tol), tri_adj, "random"%string, (d_fresh false), o', r.
  repeat match goal with |- _ /\ _ => split end; case_done.
Qed.
Lemma tool_crema_dcm_case : exists e g t (nma : string) (nm : string) o o' ra r,
  ((0 < dn_n g)%nat) /\
  (d_paired g) /\
  (balanced (dn_out g) (dn_in g)) /\
  (linear_solver (2 * dn_n g) (v_linsolve e)) /\
  (eigen_solver (2 * dn_n g) (v_eigh e)) /\
  (linear_solver (d_length g "dcm") (v_linsolve e)) /\
  (eigen_solver (d_length g "dcm") (v_eigh e)) /\
  (nonneg (dn_n g) (dn_sout g)) /\
  (nonneg (dn_n g) (dn_sin g)) /\
  ((forall i j, (i < dn_n g)%nat -> (j < dn_n g)%nat -> i <> j -> nth i (dn_out g) O <> O -> nth j (dn_in g) O <> O -> dn_sout g i <> 0 \/ dn_sin g j <> 0)) /\
  (t_model t = "crema"%string) /\
  (t_adjacency t = AdjName "dcm") /\
  (In (t_method_adjacency t) descent_methods) /\
  (t_guess_adjacency t = GStr nma) /\
  (In nma binary_names) /\
  (draws (v_rnd_adjacency e)) /\
  (In (t_method t) descent_methods) /\
  (t_guess t = GStr nm) /\
  (In nm ["random"; "strengths"; "strengths_minor"]%string) /\
  (draws (v_rnd e)) /\
  (t_linsearch t = true) /\
  (d_tool e g t o = (o', None)) /\
  (d_report_adjacency e g t = Some ra) /\
  (tolerance_reached (t_tol t) ra) /\
  (d_report e g t o = Some r) /\
  (tolerance_reached (t_tol t) r) /\
  (never_gave_up r).
Proof.
  destruct (world (2 * dn_n tri_net)) as (e & HL & HE & R1 & R2). destruct (tri_crema_name_at_once "dcm" "random" "newton" "newton" e ltac:(cbn; tauto) ltac:(cbn; tauto) ltac:(cbn; tauto) ltac:(cbn; tauto) R1 R2) as (tol & o' & r & ra & (H1 & H2 & H3 & H4) & H5 & H6).
  exists e, tri_net, (settings_for "crema" "newton" (GStr "random") (AdjName "dcm") "newton" (GStr "uniform") tol), "uniform"%string, "random"%string, (d_fresh false), o', ra, r.
  repeat match goal with |- _ /\ _ => split end; case_done.
Qed.
Lemma tool_crema_dcm_exp_case : exists e g t (nm : string) o o' ra r,
  ((0 < dn_n g)%nat) /\
  (d_paired g) /\
  ((forall i, (i < dn_n g)%nat -> nth i (dn_out g) O <> O /\ nth i (dn_in g) O <> O)) /\
  (linear_solver (2 * dn_n g) (v_linsolve e)) /\
  (eigen_solver (2 * dn_n g) (v_eigh e)) /\
  (nonneg (dn_n g) (dn_sout g)) /\
  (nonneg (dn_n g) (dn_sin g)) /\
  ((forall i j, (i < dn_n g)%nat -> (j < dn_n g)%nat -> i <> j -> dn_sout g i <> 0 \/ dn_sin g j <> 0)) /\
  (t_model t = "crema"%string) /\
  (t_adjacency t = AdjName "dcm_exp") /\
  (In (t_method_adjacency t) descent_methods) /\
  (In (t_method t) descent_methods) /\
  (t_guess t = GStr nm) /\
  (In nm ["random"; "strengths"; "strengths_minor"]%string) /\
  (draws (v_rnd e)) /\
  (t_linsearch t = true) /\
  (d_tool e g t o = (o', None)) /\
  (d_report_adjacency e g t = Some ra) /\
  (tolerance_reached (t_tol t) ra) /\
  (d_report e g t o = Some r) /\
  (tolerance_reached (t_tol t) r) /\
  (never_gave_up r).
Proof.
  destruct (world (2 * dn_n tri_net)) as (e & HL & HE & R1 & R2). destruct (tri_crema_name_at_once "dcm_exp" "random" "newton" "newton" e ltac:(cbn; tauto) ltac:(cbn; tauto) ltac:(cbn; tauto) ltac:(cbn; tauto) R1 R2) as (tol & o' & r & ra & (H1 & H2 & H3 & H4) & H5 & H6).
  exists e, tri_net, (settings_for "crema" "newton" (GStr "random") (AdjName "dcm_exp") "newton" (GStr "uniform") tol), "random"%string, (d_fresh false), o', ra, r.
  repeat match goal with |- _ /\ _ => split end; case_done.
Qed.
