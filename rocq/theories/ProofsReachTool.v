(** Runs that are bound to reach their tolerance: whole calls of [solve_tool]. *)
From Coq Require Import Reals List Arith Bool String Lia Lra FunctionalExtensionality.
From Verif Require Import Base SpecGraph SpecDirected SpecLinsearch SpecSolver SpecDispatch SpecGuess SpecRun SpecTool SpecReach SpecReachTool SpecEnsemble
  ModelCM ModelDCM ModelNetwork ModelSolver ModelDispatch ModelGuess ModelRun ModelSolve ModelTool.
From Verif Require Import ProofsGraph ProofsUnique ProofsSolver ProofsGuess ProofsSolveU ProofsSolveD ProofsTool ProofsToolD ProofsList ProofsMainCM ProofsFixDCM ProofsReachNet WitnessTool WitnessReach.
Import ListNotations.
Local Open Scope R_scope.
#[local] Opaque u_dispatch d_dispatch lookup.

(** [full_return] and [verbose] do not change what is returned. *)
Lemma solved_full (N : numerics (nat -> R) (nat -> nat -> R) R) P O x0 x k ns ds als :
  (o_verbose O = true -> (forall H, eigh_ok N H = true) /\ (o_method O = Newton -> o_regularise O = true)) ->
  solver N P (with_verbose false (with_full true O)) x0 = Full x k ns ds als -> solved_of (solver N P O x0) = Some {| o_x := x; o_inf := fun _ => false |}.
Proof.
  intros Hv H.
  assert (H1 : solver N P (with_full true O) x0 = Full x k ns ds als).
  { destruct (o_verbose O) eqn:E.
    - destruct (Hv eq_refl) as [V1 V2]. rewrite <- H, <- solver_verbose_neutral by assumption. f_equal. unfold with_verbose, with_full. cbn. rewrite E. reflexivity.
    - rewrite <- H. f_equal. unfold with_verbose, with_full. cbn. rewrite E. reflexivity. }
  destruct (o_full_return O) eqn:EF.
  - assert (EO : with_full true O = O) by (destruct O; cbn in EF; subst; reflexivity). rewrite EO in H1. rewrite H1. reflexivity.
  - assert (EO : with_full false O = O) by (destruct O; cbn in EF; subst; reflexivity).
    destruct (solver_full_same _ _ _ N P O x0) as [(x' & n & a & b & c & E1 & E2)|[E1 _]]; [|rewrite H1 in E1; discriminate].
    rewrite H1 in E1. injection E1 as <- _ _ _ _. rewrite EO in E2. rewrite E2. reflexivity.
Qed.
Lemma tol_count a c : 0 <= a -> 1 <= c -> a / c <= a.
Proof.
  intros Ha Hc. apply Rmult_le_reg_r with c; [lra|]. unfold Rdiv. rewrite Rmult_assoc, Rinv_l, Rmult_1_r by lra.
  assert (a * 1 <= a * c) by (apply Rmult_le_compat_l; assumption). lra.
Qed.

(** ** UndirectedGraph *)
Lemma u_inhabited g : inhabited_classes (un_n g) (u_length g "cm_exp") (u_class g).
Proof.
  intros q Hq. destruct (u_class_rep g q Hq) as (i & Hi & _ & E). exists i. split; [exact Hi|]. unfold u_class. apply nth_error_nth. exact E.
Qed.
Lemma tool_cm_exp_budget e g a t o x0 : (0 < un_n g)%nat -> simple_graph (un_n g) a -> (forall i, (i < un_n g)%nat -> at_list (un_dseq g) i = deg (un_n g) a i) ->
  linear_solver (u_length g "cm_exp") (v_linsolve e) -> solves_definite (u_length g "cm_exp") (v_linsolve e) -> eigen_solver (u_length g "cm_exp") (v_eigh e) ->
  t_model t = "cm_exp"%string -> In (t_method t) descent_methods -> t_linsearch t = true -> quiet t e -> us_beta o = None ->
  u_start g "cm_exp" (v_rnd e) (t_guess t) = Some x0 ->
  ample (u_length g "cm_exp") (INR (un_n g) * INR (un_n g))
    (- loglikelihood_cm_exp (u_length g "cm_exp") (at_list (np_unique Nat.leb Nat.eqb (un_dseq g))) (at_list (np_counts Nat.leb Nat.eqb (un_dseq g))) x0)
    (with_verbose false (with_full true (t_options t (t_method t) true))) ->
  exists o', u_tool e g t o = (o', None) /\ u_fitted (un_n g) a (t_tol t) o'.
Proof.
  intros Hn Ha Hdeg HL HD HE Hm Hme Hls Hq Hb Hx0 HA. set (m := u_length g "cm_exp") in *. set (O := with_verbose false (with_full true (t_options t (t_method t) true))) in *.
  assert (Ht : 0 < t_tol t) by apply HA.
  assert (HO : documented O (t_method t)) by (unfold documented; cbn; repeat split; lra).
  assert (HW : 0 < INR (un_n g) * INR (un_n g)) by (apply Rmult_lt_0_compat; apply lt_0_INR; exact Hn).
  assert (Hk : forall i, (i < un_n g)%nat -> at_list (np_unique Nat.leb Nat.eqb (un_dseq g)) (u_class g i) = deg (un_n g) a i).
  { intros i Hi. rewrite u_class_degree by exact Hi. apply Hdeg. exact Hi. }
  destruct (cm_exp_network_reaches (v_linsolve e) (v_eigh_ok e) (v_eigh e) (v_fuel e) None (t_method t) (un_n g) m (u_class g) (at_list (np_counts Nat.leb Nat.eqb (un_dseq g)))
    (at_list (np_unique Nat.leb Nat.eqb (un_dseq g))) a _ O x0 HL HD HE Hme HO Ha (u_classes g) (u_inhabited g) Hn Hk HW
    (fun q Hqm => square_bound _ _ _ _ q (u_classes g) (u_inhabited g) Hn Hqm) HA) as (D & ED & x & kk & ns & ds & als & norm & Hrun & _ & _ & _ & Hgood).
  assert (ES : solved_of (u_result e g t o) = Some {| o_x := x; o_inf := fun _ => false |}).
  { unfold u_result, u_solver, solve_with. rewrite Hm. names. rewrite ED, (args_cm g "cm_exp" None ltac:(cbn; tauto)), Hx0.
    refine (solved_full _ _ _ _ _ kk ns ds als _ _).
    - intros V. split; [exact (Hq V)|reflexivity].
    - rewrite Hls. exact Hrun. }
  destruct (u_completes e g t o x0 D {| o_x := x; o_inf := fun _ => false |}) as (o' & H).
  - rewrite Hm. cbn. tauto.
  - exact Hb.
  - rewrite Hm. exact Hx0.
  - rewrite Hm. exact ED.
  - exact ES.
  - destruct (tool_cm_state e g t o o' Hn Hb ltac:(right; left; congruence) H) as (v & z & err & Ev & Ez & Ee & Ezz & i & Hi & Ei).
    rewrite ES in Ev. injection Ev as <-. rewrite Hm in Ezz. assert (EZ : z = fun j => exp (- x (u_class g j))) by exact Ezz. subst z.
    assert (G : forall j, (j < un_n g)%nat -> Rabs (deg (un_n g) a j - expected_degree_cm (un_n g) (fun j => exp (- x (u_class g j))) j) <= t_tol t).
    { intros j Hj. apply Rle_trans with (1 := Hgood j Hj). apply tol_count; [cbn; lra|apply u_count_ge; exact Hj]. }
    exists o'. split; [exact H|]. exists (fun j => exp (- x (u_class g j))), err. split; [exact Ez|]. split; [exact Ee|]. split; [intros; apply exp_pos|]. split.
    + rewrite Ei, Hdeg by exact Hi. apply G. exact Hi.
    + intros j Hj. rewrite expected_degree_cm_mean by exact Hj. apply G. exact Hj.
Qed.

(** Every named guess starts at finite exponents, isolated nodes included. *)
Lemma start_cm_exp g rnd nm : In nm binary_names -> draws rnd -> exists x0, u_start g "cm_exp" rnd (GStr nm) = Some x0.
Proof.
  intros Hn Hr. unfold u_start. ProofsSolveU.names. destruct (guess_cm_exp_finite (un_dseq g) rnd nm Hn Hr) as (s & s' & Es & _ & Hs).
  change (String.eqb "cm_exp" "cm_exp") with true. rewrite Es. cbn [start_of]. apply all_fin_some'. intros q Hq.
  destruct (u_class_rep g q Hq) as (i & Hi & E1 & E2). destruct (Hs i _ q E1 E2) as (x & Ex & _). exists x. exact Ex.
Qed.
(** The constants of a call depend on the tolerance only. *)
Definition reference (tol : R) : options R :=
  {| o_tol := tol; o_eps := 0; o_max_steps := 0; o_method := Newton; o_verbose := false; o_regularise := true; o_regularise_eps := / 1000;
     o_full_return := true; o_linsearch := true |}.
Lemma reference_ample m W room tol M e t meth : t_tol t = tol -> t_max_steps t = M -> t_eps t = e -> ample m W room (with_budget (reference tol) M e) ->
  ample m W room (with_verbose false (with_full true (t_options t meth true))).
Proof. intros E1 E2 E3 H. subst. exact H. Qed.
Lemma tool_cm_exp_reaches e g a tol s x0 : (0 < un_n g)%nat -> INR (un_n g) <= 10 ^ 22 -> simple_graph (un_n g) a ->
  (forall i, (i < un_n g)%nat -> at_list (un_dseq g) i = deg (un_n g) a i) ->
  linear_solver (u_length g "cm_exp") (v_linsolve e) -> solves_definite (u_length g "cm_exp") (v_linsolve e) -> eigen_solver (u_length g "cm_exp") (v_eigh e) ->
  u_start g "cm_exp" (v_rnd e) s = Some x0 -> 0 < tol ->
  eventually (fun M eps => forall t o, t_model t = "cm_exp"%string -> In (t_method t) descent_methods -> t_guess t = s -> t_linsearch t = true -> quiet t e ->
    t_tol t = tol -> t_max_steps t = M -> t_eps t = eps -> us_beta o = None ->
    exists o', u_tool e g t o = (o', None) /\ u_fitted (un_n g) a (tol) o').
Proof.
  intros Hn Hbig Ha Hdeg HL HD HE Hx0 Ht. set (m := u_length g "cm_exp").
  assert (Hm : (0 < m)%nat) by (pose proof (proj1 (u_classes g) O Hn) as Q; change (List.length (np_unique Nat.leb Nat.eqb (un_dseq g))) with m in Q; lia).
  assert (HW : 0 < INR (un_n g) * INR (un_n g)) by (apply Rmult_lt_0_compat; apply lt_0_INR; exact Hn).
  assert (Hmn : INR m <= INR (un_n g)).
  { rewrite <- (classes_size _ _ _ _ (u_classes g)). change (List.length (np_unique Nat.leb Nat.eqb (un_dseq g))) with m.
    replace (INR m) with (rsum m (fun _ => 1)) by (rewrite rsum_const; ring). apply rsum_le. apply (classes_count _ _ _ _ (u_classes g) (u_inhabited g)). }
  destruct (ample_eventually m (INR (un_n g) * INR (un_n g))
    (- loglikelihood_cm_exp m (at_list (np_unique Nat.leb Nat.eqb (un_dseq g))) (at_list (np_counts Nat.leb Nat.eqb (un_dseq g))) x0) (reference tol) Hm HW) as (M & e0 & He0 & H);
    try reflexivity; [cbn; lra|exact Ht|apply any_size; lra|].
  exists M, e0. split; [exact He0|]. intros M' eps HM He t o Em Eme Es Els Hq Et EM Ee Hb. subst s.
  subst tol. apply (tool_cm_exp_budget e g a t o x0 Hn Ha Hdeg HL HD HE Em Eme Els Hq Hb Hx0).
  apply (reference_ample _ _ _ (t_tol t) M' eps); try assumption; try reflexivity. apply H; assumption.
Qed.
Lemma tool_cm_exp_named e g a tol nm : (0 < un_n g)%nat -> INR (un_n g) <= 10 ^ 22 -> simple_graph (un_n g) a ->
  (forall i, (i < un_n g)%nat -> at_list (un_dseq g) i = deg (un_n g) a i) ->
  linear_solver (u_length g "cm_exp") (v_linsolve e) -> solves_definite (u_length g "cm_exp") (v_linsolve e) -> eigen_solver (u_length g "cm_exp") (v_eigh e) ->
  In nm binary_names -> draws (v_rnd e) -> 0 < tol ->
  eventually (fun M eps => forall t o, t_model t = "cm_exp"%string -> In (t_method t) descent_methods -> t_guess t = GStr nm -> t_linsearch t = true -> quiet t e ->
    t_tol t = tol -> t_max_steps t = M -> t_eps t = eps -> us_beta o = None ->
    exists o', u_tool e g t o = (o', None) /\ u_fitted (un_n g) a (tol) o').
Proof.
  intros Hn Hbig Ha Hdeg HL HD HE Hnm Hr Ht. destruct (start_cm_exp g (v_rnd e) nm Hnm Hr) as (x0 & E0).
  exact (tool_cm_exp_reaches e g a tol (GStr nm) x0 Hn Hbig Ha Hdeg HL HD HE E0 Ht).
Qed.

(** ** DirectedGraph *)
Lemma d_inhabited g : d_paired g -> inhabited_classes (dn_n g) (d_classes_n g) (d_class g).
Proof. intros HP q Hq. exact (d_class_rep g q HP Hq). Qed.
Lemma tool_dcm_exp_budget e g a t o x0 : (0 < dn_n g)%nat -> d_paired g -> loopless (dn_n g) a ->
  (forall i, (i < dn_n g)%nat -> at_list (dn_out g) i = deg (dn_n g) a i) -> (forall i, (i < dn_n g)%nat -> at_list (dn_in g) i = indeg (dn_n g) a i) ->
  linear_solver (d_length g "dcm_exp") (v_linsolve e) -> solves_definite (d_length g "dcm_exp") (v_linsolve e) -> eigen_solver (d_length g "dcm_exp") (v_eigh e) ->
  t_model t = "dcm_exp"%string -> In (t_method t) descent_methods -> t_linsearch t = true -> quiet t e -> ds_bo o = None ->
  d_start g "dcm_exp" (v_rnd e) (t_guess t) = Some x0 ->
  ample (d_length g "dcm_exp") (INR (dn_n g) * INR (dn_n g))
    (- loglikelihood_dcm_exp (d_classes_n g) (at_list (rnz_dseq_out (d_red g))) (at_list (rnz_dseq_in (d_red g))) (nz_index_out (d_red g)) (nz_index_in (d_red g))
        (at_list (r_multiplicity (d_red g))) x0)
    (with_verbose false (with_full true (t_options t (t_method t) true))) ->
  exists o', d_tool e g t o = (o', None) /\ d_fitted (dn_n g) a (t_tol t) o'.
Proof.
  intros Hn HP Ha Hdo Hdi HL HD HE Hm Hme Hls Hq Hb Hx0 HA. set (m := d_classes_n g) in *. set (O := with_verbose false (with_full true (t_options t (t_method t) true))) in *.
  change (d_length g "dcm_exp") with (2 * m)%nat in *.
  assert (Ht : 0 < t_tol t) by apply HA.
  assert (HO : documented O (t_method t)) by (unfold documented; cbn; repeat split; lra).
  assert (HW : 0 < INR (dn_n g) * INR (dn_n g)) by (apply Rmult_lt_0_compat; apply lt_0_INR; exact Hn).
  destruct (d_classes g HP) as (HCl & HNo & HNi).
  assert (Hko : forall i, (i < dn_n g)%nat -> at_list (rnz_dseq_out (d_red g)) (d_class g i) = deg (dn_n g) a i).
  { intros i Hi. rewrite (proj1 (d_class_degrees g i HP Hi)). apply Hdo. exact Hi. }
  assert (Hki : forall i, (i < dn_n g)%nat -> at_list (rnz_dseq_in (d_red g)) (d_class g i) = indeg (dn_n g) a i).
  { intros i Hi. rewrite (proj2 (d_class_degrees g i HP Hi)). apply Hdi. exact Hi. }
  destruct (dcm_exp_network_reaches (v_linsolve e) (v_eigh_ok e) (v_eigh e) (v_fuel e) None (t_method t) (dn_n g) m (d_class g) (at_list (r_multiplicity (d_red g)))
    (at_list (rnz_dseq_out (d_red g))) (at_list (rnz_dseq_in (d_red g))) (nz_index_out (d_red g)) (nz_index_in (d_red g)) a _ O x0 HL HD HE Hme HO Ha HCl (d_inhabited g HP) Hn HNo HNi Hko Hki HW
    (fun q Hqm => square_bound _ _ _ _ q HCl (d_inhabited g HP) Hn Hqm) HA) as (D & ED & x & kk & ns & ds & als & norm & Hrun & _ & _ & _ & Hgood).
  assert (ES : solved_of (d_result e g t o) = Some {| o_x := x; o_inf := fun _ => false |}).
  { unfold d_result, d_solver, solve_with. rewrite Hm. names. rewrite ED, (dargs_dcm g "dcm_exp" None ltac:(cbn; tauto)), Hx0.
    refine (solved_full _ _ _ _ _ kk ns ds als _ _).
    - intros V. split; [exact (Hq V)|reflexivity].
    - rewrite Hls. exact Hrun. }
  destruct (d_completes e g t o x0 D {| o_x := x; o_inf := fun _ => false |}) as (o' & H).
  - rewrite Hm. cbn. tauto.
  - exact Hb.
  - rewrite Hm. exact Hx0.
  - rewrite Hm. exact ED.
  - exact ES.
  - destruct (tool_dcm_state e g t o o' Hn HP Hb ltac:(right; left; congruence) H) as (v & z & w & err & Ev & Ez & Ew & Ee & Ezz & Eww & i & Hi & Ei).
    rewrite ES in Ev. injection Ev as <-. rewrite Hm in Ezz, Eww.
    assert (EZ : z = fun j => exp (- x (d_class g j))) by exact Ezz. assert (EW : w = fun j => exp (- x (d_class g j + m)%nat)) by exact Eww. subst z w.
    assert (EM : forall r, (r < 2 * dn_n g)%nat -> expand (dn_n g) m (d_class g) (multipliers m (nz_index_out (d_red g)) (nz_index_in (d_red g)) x) r =
      join2 (dn_n g) (off_zero (at_list (dn_out g)) (fun j => exp (- x (d_class g j)))) (off_zero (at_list (dn_in g)) (fun j => exp (- x (d_class g j + m)%nat))) r).
    { intros r Hr. unfold expand, join2, multipliers, off_zero. destruct (Nat.ltb_spec r (dn_n g)) as [L|L].
      - assert (Q : (d_class g r < m)%nat) by (apply HCl; exact L). rewrite (proj2 (Nat.ltb_lt _ _) Q). rewrite <- (proj1 (d_class_degrees g r HP L)).
        destruct (Req_EM_T _ 0) as [Z|Z]; destruct (memb_spec (d_class g r) (nz_index_out (d_red g))) as [M|M]; try reflexivity; exfalso.
        + apply HNo in M. tauto.
        + apply M, HNo. split; assumption.
      - assert (Q : (d_class g (r - dn_n g) < m)%nat) by (apply HCl; lia). destruct (Nat.ltb_spec (d_class g (r - dn_n g) + m) m) as [L'|_]; [exfalso; lia|].
        rewrite Nat.add_sub, <- (proj2 (d_class_degrees g (r - dn_n g) HP ltac:(lia))).
        destruct (Req_EM_T _ 0) as [Z|Z]; destruct (memb_spec (d_class g (r - dn_n g)) (nz_index_in (d_red g))) as [M|M]; try reflexivity; exfalso.
        + apply HNi in M. tauto.
        + apply M, HNi. split; assumption. }
    assert (G : let z := join2 (dn_n g) (off_zero (at_list (dn_out g)) (fun j => exp (- x (d_class g j)))) (off_zero (at_list (dn_in g)) (fun j => exp (- x (d_class g j + m)%nat))) in
      forall i, (i < dn_n g)%nat -> Rabs (deg (dn_n g) a i - expected_out_degree_dcm (dn_n g) z i) <= t_tol t /\ Rabs (indeg (dn_n g) a i - expected_in_degree_dcm (dn_n g) z i) <= t_tol t).
    { intros z j Hj. destruct (Hgood j Hj) as [G1 G2]. rewrite (expected_out_ext _ _ z j Hj EM) in G1. rewrite (expected_in_ext _ _ z j Hj EM) in G2.
      pose proof (tol_count (o_tol O) _ ltac:(cbn; lra) (d_count_ge g j HP Hj)) as T. cbn [o_tol O] in *.
      split; [apply Rle_trans with (1 := G1)|apply Rle_trans with (1 := G2)]; exact T. }
    assert (OO : forall v j, (j < dn_n g)%nat -> off_zero (at_list (dn_out g)) v j = off_zero (deg (dn_n g) a) v j) by (intros v j Hj; unfold off_zero; rewrite Hdo by exact Hj; reflexivity).
    assert (OI : forall v j, (j < dn_n g)%nat -> off_zero (at_list (dn_in g)) v j = off_zero (indeg (dn_n g) a) v j) by (intros v j Hj; unfold off_zero; rewrite Hdi by exact Hj; reflexivity).
    exists o'. split; [exact H|]. exists (fun j => exp (- x (d_class g j))), (fun j => exp (- x (d_class g j + m)%nat)), err.
    split; [exact Ez|]. split; [exact Ew|]. split; [exact Ee|]. split; [intros; split; apply exp_pos|]. split.
    { intros j Hj p. subst p. rewrite <- d_mean_out, <- d_mean_in by exact Hj. destruct (G j Hj) as [G1 G2].
      assert (EQ : forall r, (r < 2 * dn_n g)%nat -> join2 (dn_n g) (off_zero (at_list (dn_out g)) (fun j => exp (- x (d_class g j)))) (off_zero (at_list (dn_in g)) (fun j => exp (- x (d_class g j + m)%nat))) r =
        join2 (dn_n g) (off_zero (deg (dn_n g) a) (fun j => exp (- x (d_class g j)))) (off_zero (indeg (dn_n g) a) (fun j => exp (- x (d_class g j + m)%nat))) r).
      { intros r Hr. unfold join2. destruct (Nat.ltb_spec r (dn_n g)) as [L|L]; [apply OO; exact L|apply OI; lia]. }
      rewrite (expected_out_ext _ _ _ j Hj EQ) in G1. rewrite (expected_in_ext _ _ _ j Hj EQ) in G2. split; assumption. }
    intros Hnz. destruct (G i Hi) as [G1 G2]. rewrite <- Hdo in G1 by exact Hi. rewrite <- Hdi in G2 by exact Hi.
    assert (EJ : forall r, (r < 2 * dn_n g)%nat -> join2 (dn_n g) (off_zero (at_list (dn_out g)) (fun j => exp (- x (d_class g j)))) (off_zero (at_list (dn_in g)) (fun j => exp (- x (d_class g j + m)%nat))) r =
      join2 (dn_n g) (fun j => exp (- x (d_class g j))) (fun j => exp (- x (d_class g j + m)%nat)) r).
    { intros r Hr. unfold join2, off_zero. destruct (Nat.ltb_spec r (dn_n g)) as [L|L].
      - destruct (Req_EM_T _ 0) as [Z|]; [exfalso|reflexivity]. rewrite Hdo in Z by exact L. pose proof (proj1 (Hnz r L)). lra.
      - destruct (Req_EM_T _ 0) as [Z|]; [exfalso|reflexivity]. rewrite Hdi in Z by lia. pose proof (proj2 (Hnz (r - dn_n g)%nat ltac:(lia))). lra. }
    rewrite (expected_out_ext _ _ _ i Hi EJ) in G1. rewrite (expected_in_ext _ _ _ i Hi EJ) in G2.
    destruct Ei as [-> | ->]; assumption.
Qed.
Lemma start_dcm_exp g rnd nm : d_paired g -> In nm binary_names -> draws rnd -> balanced (dn_out g) (dn_in g) -> exists x0, d_start g "dcm_exp" rnd (GStr nm) = Some x0.
Proof.
  intros HP Hn Hr Hb. unfold d_start. ProofsSolveU.names. destruct (guess_dcm_exp_inside (dn_out g) (dn_in g) rnd nm Hn Hr (eq_sym HP) Hb) as (s & s' & Es & _ & Hs).
  rewrite Es. cbn [start_of]. apply all_fin_some'. change (d_length g "dcm_exp") with (2 * d_classes_n g)%nat. intros q Hq. destruct (lt_dec q (d_classes_n g)) as [L|L].
  - destruct (d_class_error g q HP L) as (i & Hi & Eq & Eo & Ei & Er). destruct (Hs i _ _ q Eo Ei Er) as (x & y & X1 & _). exists x. exact X1.
  - destruct (d_class_error g (q - d_classes_n g) HP ltac:(lia)) as (i & Hi & Eq & Eo & Ei & Er). destruct (Hs i _ _ _ Eo Ei Er) as (x & y & _ & Y1 & _). exists y.
    fold (d_red g) in Y1. fold (d_classes_n g) in Y1. rewrite <- Y1. f_equal. lia.
Qed.
Lemma digraph_balanced g a : d_paired g -> (forall i, (i < dn_n g)%nat -> at_list (dn_out g) i = deg (dn_n g) a i) -> (forall i, (i < dn_n g)%nat -> at_list (dn_in g) i = indeg (dn_n g) a i) ->
  balanced (dn_out g) (dn_in g).
Proof.
  intros HP Ho Hi. unfold balanced. rewrite HP. change (List.length (dn_out g)) with (dn_n g).
  rewrite (rsum_ext (dn_n g) _ (fun i => rsum (dn_n g) (fun j => ind (a i j)))) by (intros i Hl; exact (Ho i Hl)).
  rewrite (rsum_ext (dn_n g) (fun i => INR (nth i (dn_in g) O)) (fun i => rsum (dn_n g) (fun j => ind (a j i)))) by (intros i Hl; exact (Hi i Hl)).
  apply rsum_swap.
Qed.
Lemma tool_dcm_exp_reaches e g a tol s x0 : (0 < dn_n g)%nat -> INR (dn_n g) <= 10 ^ 21 -> d_paired g -> loopless (dn_n g) a ->
  (forall i, (i < dn_n g)%nat -> at_list (dn_out g) i = deg (dn_n g) a i) -> (forall i, (i < dn_n g)%nat -> at_list (dn_in g) i = indeg (dn_n g) a i) ->
  linear_solver (d_length g "dcm_exp") (v_linsolve e) -> solves_definite (d_length g "dcm_exp") (v_linsolve e) -> eigen_solver (d_length g "dcm_exp") (v_eigh e) ->
  d_start g "dcm_exp" (v_rnd e) s = Some x0 -> 0 < tol ->
  eventually (fun M eps => forall t o, t_model t = "dcm_exp"%string -> In (t_method t) descent_methods -> t_guess t = s -> t_linsearch t = true -> quiet t e ->
    t_tol t = tol -> t_max_steps t = M -> t_eps t = eps -> ds_bo o = None ->
    exists o', d_tool e g t o = (o', None) /\ d_fitted (dn_n g) a (tol) o').
Proof.
  intros Hn Hbig HP Ha Hdo Hdi HL HD HE Hx0 Ht. set (m := d_classes_n g).
  destruct (d_classes g HP) as (HCl & HNo & HNi). fold m in HCl, HNo, HNi.
  assert (Hm : (0 < m)%nat) by (pose proof (proj1 HCl O Hn); lia).
  assert (HW : 0 < INR (dn_n g) * INR (dn_n g)) by (apply Rmult_lt_0_compat; apply lt_0_INR; exact Hn).
  assert (Hmn : INR m <= INR (dn_n g)).
  { rewrite <- (classes_size _ _ _ _ HCl).
    replace (INR m) with (rsum m (fun _ => 1)) by (rewrite rsum_const; ring). apply rsum_le. apply (classes_count _ _ _ _ HCl (d_inhabited g HP)). }
  destruct (ample_eventually (2 * m) (INR (dn_n g) * INR (dn_n g))
    (- loglikelihood_dcm_exp m (at_list (rnz_dseq_out (d_red g))) (at_list (rnz_dseq_in (d_red g))) (nz_index_out (d_red g)) (nz_index_in (d_red g)) (at_list (r_multiplicity (d_red g))) x0) (reference tol) ltac:(lia) HW) as (M & e0 & He0 & H);
    try reflexivity; [cbn; lra|exact Ht|apply any_size; rewrite mult_INR; simpl (INR 2); simpl pow in *; lra|].
  exists M, e0. split; [exact He0|]. intros M' eps HM He t o Em Eme Es Els Hq Et EM Ee Hb. subst s tol.
  apply (tool_dcm_exp_budget e g a t o x0 Hn HP Ha Hdo Hdi HL HD HE Em Eme Els Hq Hb Hx0).
  apply (reference_ample _ _ _ (t_tol t) M' eps); try assumption; try reflexivity. apply H; assumption.
Qed.
Lemma tool_dcm_exp_named e g a tol nm : (0 < dn_n g)%nat -> INR (dn_n g) <= 10 ^ 21 -> d_paired g -> loopless (dn_n g) a ->
  (forall i, (i < dn_n g)%nat -> at_list (dn_out g) i = deg (dn_n g) a i) -> (forall i, (i < dn_n g)%nat -> at_list (dn_in g) i = indeg (dn_n g) a i) ->
  linear_solver (d_length g "dcm_exp") (v_linsolve e) -> solves_definite (d_length g "dcm_exp") (v_linsolve e) -> eigen_solver (d_length g "dcm_exp") (v_eigh e) ->
  In nm binary_names -> draws (v_rnd e) -> 0 < tol ->
  eventually (fun M eps => forall t o, t_model t = "dcm_exp"%string -> In (t_method t) descent_methods -> t_guess t = GStr nm -> t_linsearch t = true -> quiet t e ->
    t_tol t = tol -> t_max_steps t = M -> t_eps t = eps -> ds_bo o = None ->
    exists o', d_tool e g t o = (o', None) /\ d_fitted (dn_n g) a (tol) o').
Proof.
  intros Hn Hbig HP Ha Hdo Hdi HL HD HE Hnm Hr Ht. destruct (start_dcm_exp g (v_rnd e) nm HP Hnm Hr (digraph_balanced g a HP Hdo Hdi)) as (x0 & E0).
  exact (tool_dcm_exp_reaches e g a tol (GStr nm) x0 Hn Hbig HP Ha Hdo Hdi HL HD HE E0 Ht).
Qed.
