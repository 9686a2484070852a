(** Calls of [solve_tool] that make no step, and calls that start from their solutions. *)
From Coq Require Import Reals List Arith Bool String Lia Lra.
From Verif Require Import Base SpecDeriv SpecGraph SpecEnsemble SpecWeighted SpecDirected SpecCReMa SpecNetwork SpecLinsearch SpecDispatch SpecRun SpecSolver SpecSolve SpecGuess SpecTool
  ModelCM ModelECM ModelDCM ModelDECM ModelCReMa ModelNetwork ModelLinsearch ModelSolver ModelDispatch ModelGuess ModelRun ModelSolve ModelTool SpecStart.
From Verif Require Import ProofsGraph ProofsUnique ProofsCM ProofsMainCM ProofsECM ProofsMainECM ProofsDCM ProofsCReMa ProofsMainCReMa ProofsAdjacency ProofsSolver ProofsConverged ProofsGuess ProofsGuessW ProofsGuessV ProofsDispatch ProofsRun ProofsSolve ProofsSolveU ProofsSolveD ProofsTool ProofsToolD ProofsSpectral ProofsDirCReMa ProofsReport WitnessTool ProofsStart ProofsRestart ProofsEvaluates.
Import ListNotations.
Local Open Scope R_scope.

Definition cold (model method : string) (s : guess) (a : adjacency_arg) (tol : R) : settings :=
  {| t_model := model; t_method := method; t_guess := s; t_adjacency := a; t_method_adjacency := ""; t_guess_adjacency := GOther;
     t_max_steps := 0; t_full := true; t_verbose := false; t_linsearch := true; t_tol := tol; t_eps := 0 |}.
Lemma stop_cold e opt m d a x0 D A z f : o_full_return opt = true -> o_max_steps opt = O -> d = inl D -> a = Some A -> x0 = Some z ->
  real_vec m (run_entry (d_fun D) A z) = Some f -> solve_with e opt m d a x0 = Full z 0 [norm2 m f] [1] [].
Proof.
  intros HF HM -> -> -> Hf. unfold solve_with, solver, solver_init. cbn [p_fun run_problem]. rewrite Hf, HM. cbn [sbind].
  cbn [solver_loop]. unfold solver_continue. cbn [s_norm s_n s_diff]. rewrite HM, Nat.ltb_irrefl, andb_false_r. cbn [andb]. rewrite HF. reflexivity.
Qed.
(** A completed call without a step that reports a norm within the tolerance. *)
Definition cold_u (e : environment) (g : unet) (t : settings) (o' : ustate) (r : report) : Prop :=
  u_tool e g t (u_fresh false) = (o', None) /\ u_report e g t (u_fresh false) = Some r /\ r_steps r = O /\ tolerance_reached (t_tol t) r.
Definition cold_d (e : environment) (g : dnet) (t : settings) (o' : dstate) (r : report) : Prop :=
  d_tool e g t (d_fresh false) = (o', None) /\ d_report e g t (d_fresh false) = Some r /\ r_steps r = O /\ tolerance_reached (t_tol t) r.
Lemma cold_world : exists e, v_rnd e = half.
Proof. exists {| v_linsolve := fun _ _ => None; v_eigh_ok := fun _ => true; v_eigh := fun _ => (fun _ => 0, fun _ _ => 0); v_fuel := 100; v_rnd := half; v_rnd_adjacency := half |}. reflexivity. Qed.

(** * UndirectedGraph *)
Lemma cold_path m meth e : In m ["cm"; "cm_exp"; "ecm"; "ecm_exp"]%string -> In meth descent_methods -> v_rnd e = half ->
  exists tol o' r, cold_u e path_net (cold m meth (GStr "uniform") AdjOther tol) o' r.
Proof.
  intros Hm Hme Hr.
  assert (HZ : exists z, u_start path_net m half (GStr "uniform") = Some z).
  { destruct Hm as [E|[E|Hm]]; [apply path_start_cm; left; exact E|apply path_start_cm; right; left; exact E|]. apply path_start_ecm. exact Hm. }
  assert (HQ : exists D A, u_dispatch m meth None = inl D /\ u_args path_net m None = Some A).
  { destruct Hm as [<-|[<-|[<-|[<-|[]]]]], Hme as [<-|[<-|[]]]; eexists; eexists; (split; [reflexivity|]); reflexivity. }
  destruct HZ as (z & HZ). destruct HQ as (D & A & HD & HA). destruct (path_evaluates m z Hm HZ meth D A Hme HD HA) as (f & Hf).
  set (t := cold m meth (GStr "uniform") AdjOther (norm2 (u_length path_net m) f)). exists (norm2 (u_length path_net m) f). fold t.
  assert (ER : u_result e path_net t (u_fresh false) = Full z 0 [norm2 (u_length path_net m) f] [1] []).
  { assert (EU : u_result e path_net t (u_fresh false) = u_solver e path_net t m meth (v_rnd e) (GStr "uniform") None).
    { unfold u_result. change (t_model t) with m. change (t_method t) with meth. change (t_guess t) with (GStr "uniform").
      destruct Hm as [<-|[<-|[<-|[<-|[]]]]]; reflexivity. }
    rewrite EU. unfold u_solver. eapply stop_cold; [reflexivity|reflexivity|exact HD|exact HA|rewrite Hr; exact HZ|exact Hf]. }
  destruct (u_completes e path_net t (u_fresh false) z D {| o_x := z; o_inf := fun _ => false |} Hm eq_refl ltac:(rewrite Hr; exact HZ) HD) as (o' & H).
  { rewrite ER. reflexivity. }
  exists o'. eexists. split; [exact H|]. unfold u_report. rewrite ER. cbn [report_of]. split; [reflexivity|]. split; [reflexivity|]. apply reached_now. apply Rle_refl.
Qed.
Lemma cold_path_crema nm meth e : In nm ["random"; "strengths"; "strengths_minor"]%string -> In meth descent_methods -> v_rnd e = half ->
  exists tol o' r, cold_u e path_net (cold "crema" meth (GStr nm) (AdjMatrix path_adj) tol) o' r.
Proof.
  intros Hn Hme Hr. destruct (path_start_crema nm Hn) as (z & HZ). pose proof (path_start_positive nm z Hn HZ) as Pz.
  assert (HD : exists D, u_dispatch "crema" meth None = inl D) by (destruct Hme as [<-|[<-|[]]]; eexists; reflexivity). destruct HD as (D & HD).
  destruct (path_fun_crema meth D path_adj z Hme HD Pz) as (f & Hf).
  set (t := cold "crema" meth (GStr nm) (AdjMatrix path_adj) (norm2 3 f)). exists (norm2 3 f). fold t.
  assert (ER : u_result e path_net t (u_fresh false) = Full z 0 [norm2 3 f] [1] []).
  { change (u_result e path_net t (u_fresh false)) with (u_solver e path_net t "crema" meth (v_rnd e) (GStr nm) (Some (Triples (triu_edges 3 path_adj)))).
    unfold u_solver. eapply stop_cold; [reflexivity|reflexivity|exact HD|reflexivity|rewrite Hr; exact HZ|exact Hf]. }
  edestruct (u_completes_crema e path_net t path_adj (u_fresh false) z D {| o_x := z; o_inf := fun _ => false |} true) as (o' & H).
  { reflexivity. } { exact (path_dom path_adj z Pz). }
  { rewrite Hr. exact HZ. } { exact HD. } { rewrite ER. reflexivity. } { reflexivity. } { reflexivity. } { reflexivity. } { reflexivity. } { discriminate. }
  exists o'. eexists. split; [exact H|]. unfold u_report. rewrite ER. cbn [report_of]. split; [reflexivity|]. split; [reflexivity|]. apply reached_now. apply Rle_refl.
Qed.
Lemma start_cm_case m meth : In m ["cm"; "cm_exp"]%string -> In meth descent_methods ->
  exists e tol o' r x, cold_u e path_net (cold m meth (GStr "uniform") AdjOther tol) o' r /\ us_x o' = Some x /\ forall i, (i < 3)%nat -> x i = / 2.
Proof.
  intros Hm Hme. destruct cold_world as (e & Hr). destruct (cold_path m meth e ltac:(cbn in Hm |- *; tauto) Hme Hr) as (tol & o' & r & HC). exists e, tol, o', r.
  assert (HI : no_step (cold m meth (GStr "uniform") AdjOther tol) (u_report e path_net (cold m meth (GStr "uniform") AdjOther tol) (u_fresh false))) by (left; reflexivity).
  destruct (start_cm_named e path_net (cold m meth (GStr "uniform") AdjOther tol) (u_fresh false) o' "uniform" ltac:(cbn; lia) eq_refl Hm eq_refl ltac:(cbn; tauto) ltac:(rewrite Hr; exact half_draws) HI (proj1 HC)) as (x & Hx & V).
  exists x. split; [exact HC|]. split; [exact Hx|]. intros i Hi. destruct (V i Hi (path_deg i Hi)) as (q & _ & U & _). apply U. reflexivity.
Qed.
Lemma start_ecm_case m meth : In m ["ecm"; "ecm_exp"]%string -> In meth descent_methods ->
  exists e tol o' r x y, cold_u e path_net (cold m meth (GStr "uniform") AdjOther tol) o' r /\ us_x o' = Some x /\ us_y o' = Some y /\ forall i, (i < 3)%nat -> x i = / 1000 /\ y i = / 1000.
Proof.
  intros Hm Hme. destruct cold_world as (e & Hr). destruct (cold_path m meth e ltac:(cbn in Hm |- *; tauto) Hme Hr) as (tol & o' & r & HC). exists e, tol, o', r.
  assert (HI : no_step (cold m meth (GStr "uniform") AdjOther tol) (u_report e path_net (cold m meth (GStr "uniform") AdjOther tol) (u_fresh false))) by (left; reflexivity).
  destruct (start_ecm_named e path_net (cold m meth (GStr "uniform") AdjOther tol) (u_fresh false) o' "uniform" ltac:(cbn; lia) Hm (proj1 path_str) eq_refl ltac:(cbn; tauto) ltac:(rewrite Hr; exact half_draws) HI (proj1 HC)) as (x & y & Hx & Hy & V).
  exists x, y. split; [exact HC|]. split; [exact Hx|]. split; [exact Hy|]. intros i Hi. destruct (V i Hi (path_deg i Hi) (proj2 path_str i Hi)) as (_ & U & _). apply U. reflexivity.
Qed.
Lemma start_crema_case meth : In meth descent_methods ->
  exists e tol o' r b, cold_u e path_net (cold "crema" meth (GStr "strengths_minor") (AdjMatrix path_adj) tol) o' r /\ us_beta o' = Some b /\ b 0%nat = / 3 /\ b 1%nat = / 6 /\ b 2%nat = / 4.
Proof.
  intros Hme. destruct cold_world as (e & Hr). destruct (cold_path_crema "strengths_minor" meth e ltac:(cbn; tauto) Hme Hr) as (tol & o' & r & HC). exists e, tol, o', r.
  set (t := cold "crema" meth (GStr "strengths_minor") (AdjMatrix path_adj) tol) in *.
  destruct (start_crema_named e path_net t (u_fresh false) o' "strengths_minor" ltac:(cbn; tauto) (proj1 path_str) eq_refl ltac:(left; reflexivity) (proj1 HC)) as (b & Hb & V).
  exists b. split; [exact HC|]. split; [exact Hb|].
  pose proof (proj2 (proj2 (V 0%nat ltac:(cbn; lia) (proj2 path_str 0%nat ltac:(cbn; lia)))) eq_refl) as V0. pose proof (proj2 (proj2 (V 1%nat ltac:(cbn; lia) (proj2 path_str 1%nat ltac:(cbn; lia)))) eq_refl) as V1.
  pose proof (proj2 (proj2 (V 2%nat ltac:(cbn; lia) (proj2 path_str 2%nat ltac:(cbn; lia)))) eq_refl) as V2. cbn in V0, V1, V2. repeat split; lra.
Qed.

(** * DirectedGraph *)
Lemma cold_net m meth e g : In m ["dcm"; "dcm_exp"; "decm"; "decm_exp"]%string -> In meth descent_methods -> v_rnd e = half ->
  (exists z, d_start g m half (GStr "uniform") = Some z /\ d_evaluates g m z) ->
  exists tol o' r, cold_d e g (cold m meth (GStr "uniform") AdjOther tol) o' r.
Proof.
  intros Hm Hme Hr HZ.
  assert (HQ : exists D A, d_dispatch m meth None = inl D /\ d_args g m None = Some A).
  { destruct Hm as [<-|[<-|[<-|[<-|[]]]]], Hme as [<-|[<-|[]]]; eexists; eexists; (split; [reflexivity|]); reflexivity. }
  destruct HZ as (z & HZ & EV). destruct HQ as (D & A & HD & HA). destruct (EV meth D A Hme HD HA) as (f & Hf).
  set (t := cold m meth (GStr "uniform") AdjOther (norm2 (d_length g m) f)). exists (norm2 (d_length g m) f). fold t.
  assert (ER : d_result e g t (d_fresh false) = Full z 0 [norm2 (d_length g m) f] [1] []).
  { assert (EU : d_result e g t (d_fresh false) = d_solver e g t m meth true (v_rnd e) (GStr "uniform") None).
    { unfold d_result. change (t_model t) with m. change (t_method t) with meth. change (t_guess t) with (GStr "uniform").
      destruct Hm as [<-|[<-|[<-|[<-|[]]]]]; reflexivity. }
    rewrite EU. unfold d_solver. eapply stop_cold; [reflexivity|reflexivity|exact HD|exact HA|rewrite Hr; exact HZ|exact Hf]. }
  destruct (d_completes e g t (d_fresh false) z D {| o_x := z; o_inf := fun _ => false |} Hm eq_refl ltac:(rewrite Hr; exact HZ) HD) as (o' & H).
  { rewrite ER. reflexivity. }
  exists o'. eexists. split; [exact H|]. unfold d_report. rewrite ER. cbn [report_of]. split; [reflexivity|]. split; [reflexivity|]. apply reached_now. apply Rle_refl.
Qed.
Lemma cold_tri_crema nm meth e : In nm ["random"; "strengths"; "strengths_minor"]%string -> In meth descent_methods -> v_rnd e = half ->
  exists tol o' r, cold_d e tri_net (cold "crema" meth (GStr nm) (AdjMatrix tri_adj) tol) o' r.
Proof.
  intros Hn Hme Hr. destruct (d_start_tri_crema nm Hn) as (z & HZ & Pz).
  assert (HD : exists D, d_dispatch "crema" meth None = inl D) by (destruct Hme as [<-|[<-|[]]]; eexists; reflexivity). destruct HD as (D & HD).
  destruct (tri_fun_crema meth D tri_adj z Hme HD Pz) as (f & Hf).
  set (t := cold "crema" meth (GStr nm) (AdjMatrix tri_adj) (norm2 6 f)). exists (norm2 6 f). fold t.
  assert (ER : d_result e tri_net t (d_fresh false) = Full z 0 [norm2 6 f] [1] []).
  { change (d_result e tri_net t (d_fresh false)) with (d_solver e tri_net t "crema" meth true (v_rnd e) (GStr nm) (Some (Triples (all_edges 3 tri_adj)))).
    unfold d_solver. eapply stop_cold; [reflexivity|reflexivity|exact HD|reflexivity|rewrite Hr; exact HZ|exact Hf]. }
  edestruct (d_completes_crema e tri_net t tri_adj (d_fresh false) z D {| o_x := z; o_inf := fun _ => false |} true) as (o' & H).
  { reflexivity. } { exact (tri_rates tri_adj z Pz). }
  { rewrite Hr. exact HZ. } { exact HD. } { rewrite ER. reflexivity. } { reflexivity. } { reflexivity. } { reflexivity. } { reflexivity. } { discriminate. }
  exists o'. eexists. split; [exact H|]. unfold d_report. rewrite ER. cbn [report_of]. split; [reflexivity|]. split; [reflexivity|]. apply reached_now. apply Rle_refl.
Qed.
Lemma start_dcm_case m meth : In m ["dcm"; "dcm_exp"]%string -> In meth descent_methods ->
  exists e tol o' r x y, cold_d e chain_net (cold m meth (GStr "uniform") AdjOther tol) o' r /\ ds_x o' = Some x /\ ds_y o' = Some y /\
    x 0%nat = / 2 /\ x 1%nat = / 2 /\ y 1%nat = / 2 /\ y 2%nat = / 2.
Proof.
  intros Hm Hme. destruct cold_world as (e & Hr). destruct (cold_net m meth e chain_net ltac:(cbn in Hm |- *; tauto) Hme Hr (d_start_evaluates chain_net m eq_refl chain_balanced Hm)) as (tol & o' & r & HC). exists e, tol, o', r.
  set (t := cold m meth (GStr "uniform") AdjOther tol) in *.
  destruct (start_dcm_named e chain_net t (d_fresh false) o' "uniform" ltac:(cbn; lia) eq_refl eq_refl Hm eq_refl ltac:(cbn; tauto) ltac:(rewrite Hr; exact half_draws) chain_balanced ltac:(left; reflexivity) (proj1 HC)) as (x & y & Hx & Hy & V).
  exists x, y. split; [exact HC|]. split; [exact Hx|]. split; [exact Hy|].
  destruct (V 0%nat ltac:(cbn; lia)) as [V0 _]. destruct (V 1%nat ltac:(cbn; lia)) as [V1 V1']. destruct (V 2%nat ltac:(cbn; lia)) as [_ V2].
  destruct (V0 ltac:(cbn; lia)) as (? & _ & W0 & _). destruct (V1 ltac:(cbn; lia)) as (? & _ & W1 & _). destruct (V1' ltac:(cbn; lia)) as (? & _ & W2 & _). destruct (V2 ltac:(cbn; lia)) as (? & _ & W3 & _). auto.
Qed.
Lemma start_decm_case m meth : In m ["decm"; "decm_exp"]%string -> In meth descent_methods ->
  exists e tol o' r x bo, cold_d e tri_net (cold m meth (GStr "uniform") AdjOther tol) o' r /\ ds_x o' = Some x /\ ds_bo o' = Some bo /\
    forall i, (i < 3)%nat -> x i = bo i /\ bo i = if String.eqb m "decm" then 9 / 10 else / 10.
Proof.
  intros Hm Hme. destruct cold_world as (e & Hr). destruct (cold_net m meth e tri_net ltac:(cbn in Hm |- *; tauto) Hme Hr (tri_start_decm m Hm)) as (tol & o' & r & HC). exists e, tol, o', r.
  set (t := cold m meth (GStr "uniform") AdjOther tol) in *.
  destruct (start_decm_named e tri_net t (d_fresh false) o' "uniform" Hm (proj1 tri_nonneg) (proj2 tri_nonneg) eq_refl ltac:(cbn; tauto) ltac:(rewrite Hr; exact half_draws) ltac:(left; reflexivity) (proj1 HC)) as (x & y & bo & bi & Hx & Hy & Ho & Hi & V).
  exists x, bo. split; [exact HC|]. split; [exact Hx|]. split; [exact Ho|]. intros i Li. destruct (tri_positive i Li) as (P1 & P2 & P3 & P4).
  destruct (V i Li) as [V1 _]. destruct (V1 P1 P3) as (_ & U & _). destruct (U eq_refl) as [U1 U2]. split; [congruence|exact U2].
Qed.
Lemma start_crema_dir_case meth : In meth descent_methods ->
  exists e tol o' r bo bi, cold_d e tri_net (cold "crema" meth (GStr "strengths") (AdjMatrix tri_adj) tol) o' r /\ ds_bo o' = Some bo /\ ds_bi o' = Some bi /\
    forall i, (i < 3)%nat -> bo i = / 10 /\ bi i = / 10.
Proof.
  intros Hme. destruct cold_world as (e & Hr). destruct (cold_tri_crema "strengths" meth e ltac:(cbn; tauto) Hme Hr) as (tol & o' & r & HC). exists e, tol, o', r.
  set (t := cold "crema" meth (GStr "strengths") (AdjMatrix tri_adj) tol) in *.
  destruct (start_crema_dir_named e tri_net t (d_fresh false) o' "strengths" ltac:(cbn; tauto) (proj1 tri_nonneg) (proj2 tri_nonneg) eq_refl ltac:(left; reflexivity) (proj1 HC)) as (bo & bi & Ho & Hi & V).
  exists bo, bi. split; [exact HC|]. split; [exact Ho|]. split; [exact Hi|]. intros i Li. destruct (tri_positive i Li) as (P1 & P2 & P3 & P4).
  destruct (V i Li) as [V1 V2]. pose proof (proj1 (proj2 (V1 P3)) eq_refl) as E1. pose proof (proj1 (proj2 (V2 P4)) eq_refl) as E2. cbn in E1, E2. split; lra.
Qed.

(** * Starting again from the solution *)
Lemma resumes_cold m meth s s' a tol : resumes (cold m meth s a tol) (cold m meth s' a tol).
Proof. split; [reflexivity|]. split; [reflexivity|]. split; [apply Rle_refl|reflexivity]. Qed.
Lemma restart_cm_case m meth : In m ["cm"; "cm_exp"]%string -> In meth descent_methods ->
  exists e tol o' r x a, let t2 := cold m meth (GArr 3 a) AdjOther tol in
    cold_u e path_net (cold m meth (GStr "uniform") AdjOther tol) o' r /\ us_x o' = Some x /\ (forall i, (i < 3)%nat -> stands_for (String.eqb m "cm_exp") (a i) (x i)) /\
    exists o2 x2, u_tool e path_net t2 (u_fresh false) = (o2, None) /\ us_x o2 = Some x2 /\ forall i, (i < 3)%nat -> x2 i = / 2.
Proof.
  intros Hm Hme. destruct (start_cm_case m meth Hm Hme) as (e & tol & o' & r & x & HC & Hx & V). exists e, tol, o', r, x.
  exists (fun _ => if String.eqb m "cm_exp" then ln 2 else / 2). cbv zeta.
  assert (HS : forall i, (i < 3)%nat -> stands_for (String.eqb m "cm_exp") (if String.eqb m "cm_exp" then ln 2 else / 2) (x i)).
  { intros i Hi. unfold stands_for. rewrite (V i Hi). destruct (String.eqb m "cm_exp"); [rewrite exp_Ropp, exp_ln by lra|]; reflexivity. }
  split; [exact HC|]. split; [exact Hx|]. split; [exact HS|]. destruct HC as (H & Hr & _ & Ht).
  destruct (restart_cm e path_net (cold m meth (GStr "uniform") AdjOther tol) (u_fresh false) o' r x (fun _ => if String.eqb m "cm_exp" then ln 2 else / 2) e
    (cold m meth (GArr 3 (fun _ => if String.eqb m "cm_exp" then ln 2 else / 2)) AdjOther tol) (u_fresh false) ltac:(cbn; lia) eq_refl Hm Hme path_deg H Hr Ht Hx (resumes_cold _ _ _ _ _ _) eq_refl eq_refl HS)
    as (o2 & r2 & x2 & H2 & _ & _ & Hx2 & E2).
  exists o2, x2. split; [exact H2|]. split; [exact Hx2|]. intros i Hi. rewrite (E2 i Hi). apply V, Hi.
Qed.
Lemma restart_ecm_case m meth : In m ["ecm"; "ecm_exp"]%string -> In meth descent_methods ->
  exists e tol o' r x y a, let t2 := cold m meth (GArr 6 a) AdjOther tol in
    cold_u e path_net (cold m meth (GStr "uniform") AdjOther tol) o' r /\ us_x o' = Some x /\ us_y o' = Some y /\
    exists o2 x2 y2, u_tool e path_net t2 (u_fresh false) = (o2, None) /\ us_x o2 = Some x2 /\ us_y o2 = Some y2 /\ forall i, (i < 3)%nat -> x2 i = / 1000 /\ y2 i = / 1000.
Proof.
  intros Hm Hme. destruct (start_ecm_case m meth Hm Hme) as (e & tol & o' & r & x & y & HC & Hx & Hy & V). exists e, tol, o', r, x, y.
  set (a := fun _ : nat => if String.eqb m "ecm_exp" then ln 1000 else / 1000). exists a. cbv zeta.
  assert (HS : forall i, (i < 3)%nat -> stands_for (String.eqb m "ecm_exp") (a i) (x i) /\ stands_for (String.eqb m "ecm_exp") (a (i + 3)%nat) (y i)).
  { intros i Hi. unfold stands_for, a. destruct (V i Hi) as [-> ->]. destruct (String.eqb m "ecm_exp"); [rewrite exp_Ropp, exp_ln by lra|]; split; reflexivity. }
  split; [exact HC|]. split; [exact Hx|]. split; [exact Hy|]. destruct HC as (H & Hr & _ & Ht).
  destruct (restart_ecm e path_net (cold m meth (GStr "uniform") AdjOther tol) (u_fresh false) o' r x y a e
    (cold m meth (GArr 6 a) AdjOther tol) (u_fresh false) ltac:(cbn; lia) Hm Hme (fun i Hi => conj (path_deg i Hi) (proj2 path_str i Hi)) H Hr Ht Hx Hy (resumes_cold _ _ _ _ _ _) eq_refl eq_refl HS)
    as (o2 & r2 & x2 & y2 & H2 & _ & _ & Hx2 & Hy2 & E2).
  exists o2, x2, y2. split; [exact H2|]. split; [exact Hx2|]. split; [exact Hy2|]. intros i Hi. destruct (E2 i Hi) as [-> ->]. apply V, Hi.
Qed.
Lemma restart_crema_case meth : In meth descent_methods ->
  exists e tol o' r b o2 b2, cold_u e path_net (cold "crema" meth (GStr "strengths_minor") (AdjMatrix path_adj) tol) o' r /\ us_beta o' = Some b /\
    u_tool e path_net (cold "crema" meth (GArr 3 b) (AdjMatrix path_adj) tol) o' = (o2, None) /\ us_beta o2 = Some b2 /\ forall i, (i < 3)%nat -> b2 i = b i.
Proof.
  intros Hme. destruct (start_crema_case meth Hme) as (e & tol & o' & r & b & HC & Hb & B0 & B1 & B2). exists e, tol, o', r, b. pose proof HC as (H & Hr & _ & Ht).
  destruct (restart_crema e path_net (cold "crema" meth (GStr "strengths_minor") (AdjMatrix path_adj) tol) (u_fresh false) o' r path_adj b b e
    (cold "crema" meth (GArr 3 b) (AdjMatrix path_adj) tol) o' eq_refl Hme path_adj_hollow eq_refl eq_refl H Hr Ht Hb) as (o2 & r2 & b2 & H2 & _ & _ & Hb2 & E2).
  { intros i Hi Z. exfalso. exact (proj2 path_str i Hi Z). }
  { intros i j Hij _. cbn in Hij. destruct i as [|[|i]]; destruct j as [|[|[|j]]]; try lia; lra. }
  { apply resumes_cold. } { reflexivity. } { reflexivity. }
  exists o2, b2. split; [exact HC|]. split; [exact Hb|]. split; [exact H2|]. split; [exact Hb2|exact E2].
Qed.
Lemma restart_dcm_case m meth : In m ["dcm"; "dcm_exp"]%string -> In meth descent_methods ->
  exists e tol o' r x y o2 x2 y2, let a := fun i => if Nat.ltb i 3 then x i else y (i - 3)%nat in
    cold_d e chain_net (cold m meth (GStr "uniform") AdjOther tol) o' r /\ ds_x o' = Some x /\ ds_y o' = Some y /\
    d_tool e chain_net (cold m meth (GArr 6 a) AdjOther tol) (d_fresh false) = (o2, None) /\ ds_x o2 = Some x2 /\ ds_y o2 = Some y2 /\
    x2 0%nat = / 2 /\ x2 1%nat = / 2 /\ y2 1%nat = / 2 /\ y2 2%nat = / 2.
Proof.
  intros Hm Hme. destruct (start_dcm_case m meth Hm Hme) as (e & tol & o' & r & x & y & HC & Hx & Hy & X0 & X1 & Y1 & Y2). exists e, tol, o', r, x, y.
  set (a := fun i => if Nat.ltb i 3 then x i else y (i - 3)%nat). pose proof HC as (H & Hr & _ & Ht).
  destruct (restart_dcm e chain_net (cold m meth (GStr "uniform") AdjOther tol) (d_fresh false) o' r x y a e (cold m meth (GArr 6 a) AdjOther tol) (d_fresh false)
    ltac:(cbn; lia) eq_refl eq_refl Hm Hme H Hr Ht Hx Hy (resumes_cold _ _ _ _ _ _) eq_refl eq_refl) as (o2 & r2 & x2 & y2 & H2 & _ & _ & Hx2 & Hy2 & E2).
  { intros i Hi. cbn in Hi. unfold a. change (dn_n chain_net) with 3%nat. destruct (Nat.ltb_spec i 3); [|lia]. destruct (Nat.ltb_spec (i + 3) 3); [lia|]. rewrite Nat.add_sub. split; reflexivity. }
  exists o2, x2, y2. cbv zeta. split; [exact HC|]. split; [exact Hx|]. split; [exact Hy|]. split; [exact H2|]. split; [exact Hx2|]. split; [exact Hy2|].
  destruct (E2 0%nat ltac:(cbn; lia)) as [V0 _]. destruct (E2 1%nat ltac:(cbn; lia)) as [V1 V1']. destruct (E2 2%nat ltac:(cbn; lia)) as [_ V2].
  rewrite V0, V1, V1', V2 by (cbn; lia). auto.
Qed.
Lemma restart_decm_case m meth : In m ["decm"; "decm_exp"]%string -> In meth descent_methods ->
  exists e tol o' r x y bo bi o2 x2, let a := fun i => if Nat.ltb i 3 then x i else if Nat.ltb i 6 then y (i - 3)%nat else if Nat.ltb i 9 then bo (i - 6)%nat else bi (i - 9)%nat in
    cold_d e tri_net (cold m meth (GStr "uniform") AdjOther tol) o' r /\ ds_x o' = Some x /\ ds_y o' = Some y /\ ds_bo o' = Some bo /\ ds_bi o' = Some bi /\
    d_tool e tri_net (cold m meth (GArr 12 a) AdjOther tol) (d_fresh false) = (o2, None) /\ ds_x o2 = Some x2 /\ forall i, (i < 3)%nat -> x2 i = x i.
Proof.
  intros Hm Hme. destruct (start_decm_case m meth Hm Hme) as (e & tol & o' & r & x & bo & HC & Hx & Ho & V). pose proof HC as (H & Hr & _ & Ht).
  destruct (tool_decm_state e tri_net (cold m meth (GStr "uniform") AdjOther tol) (d_fresh false) o' Hm H) as (v & _ & _ & Hy & _ & Hi).
  set (y := drop (dn_n tri_net) (dir_factor "decm" (t_model (cold m meth (GStr "uniform") AdjOther tol)) v)) in Hy. set (bi := drop (3 * dn_n tri_net) (dir_factor "decm" (t_model (cold m meth (GStr "uniform") AdjOther tol)) v)) in Hi.
  exists e, tol, o', r, x, y, bo, bi.
  set (a := fun i => if Nat.ltb i 3 then x i else if Nat.ltb i 6 then y (i - 3)%nat else if Nat.ltb i 9 then bo (i - 6)%nat else bi (i - 9)%nat).
  destruct (restart_decm e tri_net (cold m meth (GStr "uniform") AdjOther tol) (d_fresh false) o' r x y bo bi a e (cold m meth (GArr 12 a) AdjOther tol) (d_fresh false)
    Hm Hme tri_positive H Hr Ht Hx Hy Ho Hi (resumes_cold _ _ _ _ _ _) eq_refl eq_refl) as (o2 & r2 & x2 & y2 & bo2 & bi2 & H2 & _ & _ & Hx2 & _ & _ & _ & E2).
  { intros i Li. change (dn_n tri_net) with 3%nat in *. destruct i as [|[|[|i]]]; [| | |lia]; repeat split; reflexivity. }
  exists o2, x2. cbv zeta. repeat (split; [assumption|]). intros i Li. apply (E2 i Li).
Qed.
Lemma restart_crema_dir_case meth : In meth descent_methods ->
  exists e tol o' r bo bi o2 bo2 bi2, let a := fun i => if Nat.ltb i 3 then bo i else bi (i - 3)%nat in
    cold_d e tri_net (cold "crema" meth (GStr "strengths") (AdjMatrix tri_adj) tol) o' r /\ ds_bo o' = Some bo /\ ds_bi o' = Some bi /\
    d_tool e tri_net (cold "crema" meth (GArr 6 a) (AdjMatrix tri_adj) tol) o' = (o2, None) /\ ds_bo o2 = Some bo2 /\ ds_bi o2 = Some bi2 /\ forall i, (i < 3)%nat -> bo2 i = / 10 /\ bi2 i = / 10.
Proof.
  intros Hme. destruct (start_crema_dir_case meth Hme) as (e & tol & o' & r & bo & bi & HC & Ho & Hi & V). exists e, tol, o', r, bo, bi. pose proof HC as (H & Hr & _ & Ht).
  set (a := fun i => if Nat.ltb i 3 then bo i else bi (i - 3)%nat).
  destruct (restart_crema_dir e tri_net (cold "crema" meth (GStr "strengths") (AdjMatrix tri_adj) tol) (d_fresh false) o' r tri_adj bo bi a e
    (cold "crema" meth (GArr 6 a) (AdjMatrix tri_adj) tol) o' eq_refl Hme eq_refl eq_refl H Hr Ht Ho Hi) as (o2 & r2 & bo2 & bi2 & H2 & _ & _ & Ho2 & Hi2 & E2).
  { intros i Li. destruct (tri_positive i Li) as (_ & _ & P3 & P4). split; intros Z; contradiction. }
  { intros i j Li Lj _. destruct (V i Li) as [-> _]. destruct (V j Lj) as [_ ->]. lra. }
  { apply resumes_cold. } { reflexivity. }
  { intros i Li. unfold a. change (dn_n tri_net) with 3%nat in *. destruct (Nat.ltb_spec i 3); [|lia]. destruct (Nat.ltb_spec (i + 3) 3); [lia|]. rewrite Nat.add_sub. split; reflexivity. }
  exists o2, bo2, bi2. cbv zeta. repeat (split; [assumption|]). intros i Li. destruct (E2 i Li) as [-> ->]. apply V, Li.
Qed.

(** For [cm_exp] and [ecm_exp] an array is read as exponents: starting again from the factors
    [g.x] (and [g.y]) starts somewhere else. *)
Lemma exp_half_not_half : exp (- / 2) <> / 2.
Proof.
  intros E. assert (E2 : exp (- / 2) * exp (- / 2) = exp (- 1)) by (rewrite <- exp_plus; f_equal; lra).
  assert (P : exp (- 1) * exp 1 = 1) by (rewrite <- exp_plus; replace (- 1 + 1) with 0 by ring; apply exp_0).
  pose proof exp_le_3. pose proof (exp_pos 1). rewrite E in E2. rewrite <- E2 in P. nra.
Qed.
Lemma again_cm_exp_refuted : exists e g t o' r x t2 o2 x2,
  u_tool e g t (u_fresh false) = (o', None) /\ u_report e g t (u_fresh false) = Some r /\ tolerance_reached (t_tol t) r /\ us_x o' = Some x /\
  t_model t = "cm_exp"%string /\ resumes t t2 /\ t_guess t2 = GArr (un_n g) x /\ t_max_steps t2 = O /\
  u_tool e g t2 (u_fresh false) = (o2, None) /\ us_x o2 = Some x2 /\ (0 < un_n g)%nat /\ forall i, (i < un_n g)%nat -> x2 i <> x i.
Proof.
  destruct (start_cm_case "cm_exp" "newton" ltac:(cbn; tauto) ltac:(left; reflexivity)) as (e & tol & o' & r & x & (H & Hr & _ & Ht) & Hx & V).
  set (t2 := cold "cm_exp" "newton" (GArr 3 x) AdjOther tol).
  assert (HZ : exists z, u_start path_net "cm_exp" (v_rnd e) (GArr 3 x) = Some z /\ forall q, (q < 2)%nat -> z q = / 2).
  { unfold u_start. names. unfold set_initial_guess_cm, degree_reduction_und. pose proof (first_below path_net) as FB. change (un_n path_net) with 3%nat in FB. rewrite FB. clear FB. cbn [gbind start_of g_x0]. change (u_length path_net "cm_exp") with 2%nat.
    match goal with |- exists z, all_fin _ ?w = Some z /\ _ => assert (F : forall q, (q < 2)%nat -> w q = Fin (/ 2)) end.
    { intros q Hq. destruct (u_first path_net q Hq) as [U1 U2]. rewrite where_zero_off.
      - f_equal. apply V. exact U1.
      - pose proof (u_class_degree path_net _ U1) as D. rewrite U2 in D. unfold at_list in D. rewrite D. apply not_0_INR, path_deg, U1. }
    destruct (all_fin_some 2 _ (fun _ => / 2) F) as (z & Hz). exists z. split; [exact Hz|]. intros q Hq. pose proof (all_fin_inv _ _ _ Hz q Hq) as E. rewrite (F q Hq) in E. injection E as <-. reflexivity. }
  destruct HZ as (z & HZ & Vz).
  assert (HQ : exists D f, u_dispatch "cm_exp" "newton" None = inl D /\ real_vec (u_length path_net "cm_exp") (run_entry (d_fun D) (u_args_cm path_net) z) = Some f)
    by (eexists; eexists; split; [reflexivity|]; apply all_fin_fin).
  destruct HQ as (D & f & HD & Hf).
  assert (ER : u_result e path_net t2 (u_fresh false) = Full z 0 [norm2 (u_length path_net "cm_exp") f] [1] []).
  { change (u_result e path_net t2 (u_fresh false)) with (u_solver e path_net t2 "cm_exp" "newton" (v_rnd e) (GArr 3 x) None).
    unfold u_solver. eapply stop_cold; [reflexivity|reflexivity|exact HD|reflexivity|exact HZ|exact Hf]. }
  destruct (u_completes e path_net t2 (u_fresh false) z D {| o_x := z; o_inf := fun _ => false |} ltac:(cbn; tauto) eq_refl HZ HD) as (o2 & H2).
  { rewrite ER. reflexivity. }
  destruct (tool_cm_state e path_net t2 (u_fresh false) o2 ltac:(cbn; lia) eq_refl ltac:(cbn; tauto) H2) as (v2 & x2 & _ & Ev2 & Ex2 & _ & XX2 & _).
  rewrite ER in Ev2. injection Ev2 as <-.
  exists e, path_net, (cold "cm_exp" "newton" (GStr "uniform") AdjOther tol), o', r, x, t2, o2, x2. do 4 (split; [assumption|]). split; [reflexivity|]. split; [apply resumes_cold|]. split; [reflexivity|]. split; [reflexivity|].
  split; [exact H2|]. split; [exact Ex2|]. split; [cbn; lia|]. intros i Hi. rewrite XX2, (V i Hi). unfold cm_factor. cbn [o_x].
  pose proof (proj2 (proj2 (u_class_error path_net i Hi))) as L. change (String.eqb (t_model t2) "cm") with false. cbv iota. rewrite (Vz _ L). exact exp_half_not_half.
Qed.
Lemma again_ecm_exp_refuted : exists e g t o' r x y t2 a o2 x2 y2,
  u_tool e g t (u_fresh false) = (o', None) /\ u_report e g t (u_fresh false) = Some r /\ tolerance_reached (t_tol t) r /\ us_x o' = Some x /\ us_y o' = Some y /\
  t_model t = "ecm_exp"%string /\ resumes t t2 /\ t_guess t2 = GArr (2 * un_n g) a /\ (forall i, (i < un_n g)%nat -> a i = x i /\ a (i + un_n g)%nat = y i) /\ t_max_steps t2 = O /\
  u_tool e g t2 (u_fresh false) = (o2, None) /\ us_x o2 = Some x2 /\ us_y o2 = Some y2 /\ (0 < un_n g)%nat /\ forall i, (i < un_n g)%nat -> x2 i <> x i /\ y2 i <> y i.
Proof.
  destruct (start_ecm_case "ecm_exp" "newton" ltac:(cbn; tauto) ltac:(left; reflexivity)) as (e & tol & o' & r & x & y & (H & Hr & _ & Ht) & Hx & Hy & V).
  set (a := fun _ : nat => / 1000). set (t2 := cold "ecm_exp" "newton" (GArr 6 a) AdjOther tol).
  assert (HZ : exists z, u_start path_net "ecm_exp" (v_rnd e) (GArr 6 a) = Some z /\ forall q, (q < 6)%nat -> z q = / 1000).
  { unfold u_start. names. destruct (guess_ecm_array true 3 (at_list (un_dseq path_net)) (un_str path_net) (v_rnd e) a) as (s & u & E & _ & _ & F0). change (un_n path_net) with 3%nat. change (2 * 3)%nat with 6%nat in E. change (String.eqb "ecm_exp" "ecm_exp") with true. rewrite E. cbn [start_of].
    assert (F : forall q, (q < 6)%nat -> g_x0 s q = Fin (/ 1000)).
    { intros q Hq. destruct (Nat.lt_ge_cases q 3) as [L|L].
      - rewrite (proj1 (F0 q L)). destruct (Req_EM_T _ 0) as [Z|_]; [exfalso; exact (not_0_INR _ (path_deg q L) Z)|reflexivity].
      - assert (L' : (q - 3 < 3)%nat) by lia. replace q with (q - 3 + 3)%nat by lia. rewrite (proj2 (F0 _ L')). destruct (Req_EM_T _ 0) as [Z|_]; [exfalso; exact (proj2 path_str _ L' Z)|reflexivity]. }
    destruct (all_fin_some 6 _ (fun _ => / 1000) F) as (z & Hz). exists z. split; [exact Hz|]. intros q Hq. pose proof (all_fin_inv _ _ _ Hz q Hq) as E'. rewrite (F q Hq) in E'. injection E' as <-. reflexivity. }
  destruct HZ as (z & HZ & Vz).
  assert (HQ : exists D f, u_dispatch "ecm_exp" "newton" None = inl D /\ real_vec (u_length path_net "ecm_exp") (run_entry (d_fun D) (A2 3 (at_list (un_dseq path_net)) (un_str path_net)) z) = Some f).
  { eexists. eexists. split; [reflexivity|]. change (u_length path_net "ecm_exp") with (2 * 3)%nat. rewrite (fun_ecm_exp "newton" _ 3 _ _ z ltac:(cbn; tauto) eq_refl).
    rewrite ProofsIEEE.ecm_exp_divisors_ok; [reflexivity|]. intros i j Hi Hj _. rewrite !Vz by lia. lra. }
  destruct HQ as (D & f & HD & Hf).
  assert (ER : u_result e path_net t2 (u_fresh false) = Full z 0 [norm2 (u_length path_net "ecm_exp") f] [1] []).
  { change (u_result e path_net t2 (u_fresh false)) with (u_solver e path_net t2 "ecm_exp" "newton" (v_rnd e) (GArr 6 a) None).
    unfold u_solver. eapply stop_cold; [reflexivity|reflexivity|exact HD|reflexivity|exact HZ|exact Hf]. }
  destruct (u_completes e path_net t2 (u_fresh false) z D {| o_x := z; o_inf := fun _ => false |} ltac:(cbn; tauto) eq_refl HZ HD) as (o2 & H2).
  { rewrite ER. reflexivity. }
  destruct (tool_ecm_state e path_net t2 (u_fresh false) o2 ltac:(cbn; lia) ltac:(cbn; tauto) H2) as (v2 & x2 & y2 & _ & Ev2 & Ex2 & Ey2 & _ & XX2 & YY2 & _).
  rewrite ER in Ev2. injection Ev2 as <-.
  exists e, path_net, (cold "ecm_exp" "newton" (GStr "uniform") AdjOther tol), o', r, x, y, t2, a, o2, x2, y2. do 5 (split; [assumption|]). split; [reflexivity|]. split; [apply resumes_cold|]. split; [reflexivity|].
  split; [intros i Hi; destruct (V i Hi) as [-> ->]; split; reflexivity|]. split; [reflexivity|].
  split; [exact H2|]. split; [exact Ex2|]. split; [exact Ey2|]. split; [cbn; lia|]. intros i Hi. rewrite XX2, YY2. destruct (V i Hi) as [-> ->]. unfold ecm_factor. cbn [o_x].
  change (un_n path_net) with 3%nat in *. change (String.eqb (t_model t2) "ecm") with false. cbv iota. rewrite !Vz by lia.
  assert (B : exp (- / 1000) <> / 1000) by (pose proof (exp_ineq1_le (- / 1000)); lra). split; exact B.
Qed.
