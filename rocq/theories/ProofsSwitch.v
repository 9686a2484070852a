(** Nodes without out-links or in-links, and the switch of the line search, in whole calls
    of [solve_tool]. *)
From Coq Require Import Reals List Arith Bool String Lia Lra.
From Verif Require Import Base SpecDirected SpecNetwork SpecLinsearch SpecDispatch SpecRun SpecGuess SpecSolve SpecTool
  ModelDCM ModelNetwork ModelLinsearch ModelSolver ModelDispatch ModelGuess ModelRun ModelSolve ModelTool.
From Verif Require Import ProofsList ProofsGraph ProofsGuess ProofsDispatch ProofsRun ProofsInert ProofsSolve ProofsSolveU ProofsSolveD ProofsTool ProofsToolD.
Import ListNotations.
Local Open Scope R_scope.

(** * A node without out-links or in-links keeps the factor zero *)
Lemma tool_dcm_zero e g t nm o o' r : (0 < dn_n g)%nat -> d_paired g -> balanced (dn_out g) (dn_in g) -> ds_bo o = None ->
  linear_solver (d_length g "dcm") (v_linsolve e) -> eigen_solver (d_length g "dcm") (v_eigh e) ->
  t_model t = "dcm"%string -> In (t_method t) descent_methods -> t_guess t = GStr nm -> In nm binary_names -> draws (v_rnd e) -> 0 <= t_tol t ->
  d_tool e g t o = (o', None) -> d_report e g t o = Some r ->
  exists x y, ds_x o' = Some x /\ ds_y o' = Some y /\
    forall i, (i < dn_n g)%nat -> (nth i (dn_out g) O = O -> x i = 0) /\ (nth i (dn_in g) O = O -> y i = 0).
Proof.
  intros Hn HP Hb Hbo HLS HES Hm Hme Hg Hnm Hr HT H HR.
  destruct (tool_dcm_state e g t o o' Hn HP Hbo ltac:(left; congruence) H) as (v & x & y & err & Ev & Ex & Ey & _ & Exx & Eyy & _).
  exists x, y. split; [exact Ex|]. split; [exact Ey|].
  unfold d_report in HR. unfold d_result in HR, Ev. rewrite Hm in HR, Ev, Exx, Eyy. names_in HR. names_in Ev. rewrite Hg in HR, Ev.
  unfold d_solver, solve_with in HR, Ev.
  destruct (d_dispatch "dcm" (t_method t) None) as [D|] eqn:ED; [|discriminate].
  rewrite dargs_dcm in HR, Ev by (cbn; tauto).
  destruct (d_start g "dcm" (v_rnd e) (GStr nm)) as [z|] eqn:Ez; [|discriminate].
  destruct (solver _ _ _ z) as [w|w k ns ds als| |] eqn:Hrun; try discriminate.
  cbn [solved_of] in Ev. injection Ev as <-.
  pose proof (directed_start_inside g (v_rnd e) nm z HP Hnm Hr Hb Ez) as (_ & Z1 & Z2). destruct (d_classes g HP) as (HCl & [_ HO] & [_ HI]).
  change (d_length g "dcm") with (2 * d_classes_n g)%nat in *.
  assert (Zs : forall q, zero_constraint (d_classes_n g) (nz_index_out (d_red g)) (nz_index_in (d_red g)) q -> w q = z q).
  { intros q Hq. destruct (zero_stays (v_linsolve e) (v_eigh_ok e) (v_eigh e) (v_fuel e) "dcm" None (t_method t) (d_classes_n g) (at_list (rnz_dseq_out (d_red g))) (at_list (rnz_dseq_in (d_red g)))
      (nz_index_out (d_red g)) (nz_index_in (d_red g)) (at_list (r_multiplicity (d_red g))) (t_options t (t_method t) (t_linsearch t)) z q) as (D' & ED' & ZS);
      try reflexivity; try assumption; try (cbn; tauto).
    { cbn [o_regularise_eps t_options]. lra. }
    rewrite ED in ED'. injection ED' as <-. exact (ZS _ _ _ _ _ Hrun). }
  intros i Hi. assert (Hq : (d_class g i < d_classes_n g)%nat) by (apply HCl; exact Hi). destruct (d_class_degrees g i HP Hi) as [D1 D2].
  assert (EX : x i = w (d_class g i)) by (rewrite Exx; reflexivity). assert (EY : y i = w (d_class g i + d_classes_n g)%nat) by (rewrite Eyy; reflexivity).
  split; intros E.
  - assert (N : ~ In (d_class g i) (nz_index_out (d_red g))).
    { intros M. apply HO in M. destruct M as [_ M]. apply M. rewrite D1. unfold at_list. rewrite E. reflexivity. }
    rewrite EX, Zs by (left; split; assumption). apply Z1; assumption.
  - assert (N : ~ In (d_class g i) (nz_index_in (d_red g))).
    { intros M. apply HI in M. destruct M as [_ M]. apply M. rewrite D2. unfold at_list. rewrite E. reflexivity. }
    rewrite EY, Zs by (right; split; [lia|rewrite Nat.add_sub; exact N]). apply Z2; assumption.
Qed.

(** * Without a line search no step length is recorded *)
Section Off.
  Context {V M S : Type}.
  Variables (N : numerics V M S) (P : problem V M S) (O : options S).
  Hypothesis off : o_linsearch O = false.
  Lemma loop_off fuel : forall s x k ns ds als, s_alfas s = [] -> solver_loop N P O fuel s = Full x k ns ds als -> als = [].
  Proof.
    induction fuel as [|fuel IH]; intros s x k ns ds als Hs H; [discriminate|]. cbn [solver_loop] in H.
    destruct (solver_continue N O s).
    - destruct (solver_step N P O s) as [s'|] eqn:E; [|discriminate]. refine (IH s' x k ns ds als _ H).
      unfold solver_step, solver_alfa in E. rewrite off in E. destruct (solver_dx N P O s) as [dx|]; [|discriminate]. cbn [sbind fst snd] in E.
      destruct (p_fun P _) as [f|]; [|discriminate]. cbn [sbind] in E. destruct (_ && _)%bool; [discriminate|]. injection E as <-. exact Hs.
    - destruct (o_full_return O); [|discriminate]. congruence.
  Qed.
  Lemma solver_off x0 x k ns ds als : solver N P O x0 = Full x k ns ds als -> als = [].
  Proof.
    unfold solver. destruct (solver_init N P O x0) as [s|] eqn:E; [|discriminate]. apply loop_off.
    unfold solver_init in E. destruct (p_fun P x0); [|discriminate]. injection E as <-. reflexivity.
  Qed.
End Off.
Lemma with_off e opt m d a x0 r : o_linsearch opt = false -> report_of (solve_with e opt m d a x0) = Some r -> r_alfas r = [].
Proof.
  intros off H. unfold solve_with in H. destruct d as [D|]; [|discriminate]. destruct a as [a|]; [|discriminate]. destruct x0 as [x0|]; [|discriminate].
  destruct (solver _ _ _ _) as [|x k ns ds als| |] eqn:E; try discriminate. injection H as <-. cbn. exact (solver_off _ _ _ off _ _ _ _ _ _ E).
Qed.
Lemma linsearch_off_u e g t o r : t_linsearch t = false ->
  (u_report e g t o = Some r -> r_alfas r = []) /\ (u_report_adjacency e g t = Some r -> r_alfas r = []).
Proof.
  intros off. unfold u_report, u_report_adjacency, u_result, u_result_adjacency, u_solver. rewrite off. split.
  - destruct (among _ _); apply with_off; reflexivity.
  - destruct (t_adjacency t); try discriminate. apply with_off. reflexivity.
Qed.
Lemma linsearch_off_d e g t o r : t_linsearch t = false -> d_report e g t o = Some r -> r_alfas r = [].
Proof. intros off. unfold d_report, d_result, d_solver. rewrite off. destruct (among _ _); apply with_off; reflexivity. Qed.
