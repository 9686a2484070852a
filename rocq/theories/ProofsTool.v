(** Whole calls of [solve_tool] on an UndirectedGraph. *)
From Coq Require Import Reals List Arith Bool String Lia Lra.
From Verif Require Import Base SpecDeriv SpecGraph SpecEnsemble SpecWeighted SpecDirected SpecCReMa SpecNetwork SpecLinsearch SpecDispatch SpecRun SpecSolver SpecSolve SpecGuess SpecTool
  ModelCM ModelECM ModelDCM ModelDECM ModelCReMa ModelIEEE ModelNetwork ModelLinsearch ModelSolver ModelDispatch ModelGuess ModelRun ModelSolve ModelTool.
From Verif Require Import ProofsGraph ProofsUnique ProofsCM ProofsMainCM ProofsECM ProofsMainECM ProofsCReMa ProofsMainCReMa ProofsAdjacency ProofsSolver ProofsConverged ProofsGuess ProofsGuessW ProofsDispatch ProofsRun ProofsIterates ProofsAscentU ProofsStays ProofsSolve ProofsSolveU.
Import ListNotations.
Local Open Scope R_scope.

(** * Any solve *)
Lemma run_exact linsolve ok m : exact_numerics m (run_numerics linsolve ok m).
Proof.
  split; [intros f; exact (norm2_scalar m f)|]. intros a b. cbn. destruct (Rlt_dec b a) as [H|H]; split; intros; try lra; try reflexivity; discriminate.
Qed.
Lemma all_fin_fin m f : all_fin m (fun i => Fin (f i)) = Some f.
Proof.
  unfold all_fin. replace (forallb _ (seq 0 m)) with true; [reflexivity|]. symmetry. apply forallb_forall. reflexivity.
Qed.
Lemma all_fin_inv m v f : all_fin m v = Some f -> forall i, (i < m)%nat -> v i = Fin (f i).
Proof.
  unfold all_fin. destruct (forallb _ (seq 0 m)) eqn:E; [|discriminate]. intros H i Hi. injection H as <-.
  rewrite forallb_forall in E. specialize (E i ltac:(apply in_seq; lia)). destruct (v i); try discriminate. reflexivity.
Qed.

Lemma solve_reached e opt m d a x0 r : report_of (solve_with e opt m d a x0) = Some r -> tolerance_reached (o_tol opt) r ->
  exists D A z x, d = inl D /\ a = Some A /\ x0 = Some z /\
    solver (run_numerics (v_linsolve e) (v_eigh_ok e) m) (run_problem (v_eigh e) (v_fuel e) m D A) opt z = Full x (r_steps r) (r_norms r) (r_diffs r) (r_alfas r) /\
    solved_of (solve_with e opt m d a x0) = Some {| o_x := x; o_inf := fun _ => false |} /\
    converged (run_numerics (v_linsolve e) (v_eigh_ok e) m) (run_problem (v_eigh e) (v_fuel e) m D A) opt z x.
Proof.
  unfold solve_with. destruct d as [D|]; [|discriminate]. destruct a as [A|]; [|discriminate]. destruct x0 as [z|]; [|discriminate].
  intros H (l & last & Hl & Ha). exists D, A, z.
  destruct (solver (run_numerics (v_linsolve e) (v_eigh_ok e) m) (run_problem (v_eigh e) (v_fuel e) m D A) opt z) as [x|x k ns ds als| |] eqn:E; try discriminate.
  cbn [report_of] in H. injection H as <-. cbn [r_steps r_norms r_diffs r_alfas] in *. exists x.
  split; [reflexivity|]. split; [reflexivity|]. split; [reflexivity|]. split; [reflexivity|]. split; [reflexivity|].
  destruct (solver_full_report _ _ _ _ _ _ _ _ _ _ _ _ E) as (L1 & _). exists k, ns, ds, als, last. split; [exact E|]. split.
  - rewrite Hl in L1 |- *. rewrite app_length in L1. cbn in L1. replace k with (List.length l) by lia. rewrite nth_error_app2, Nat.sub_diag by lia. reflexivity.
  - cbn. destruct (Rlt_dec (o_tol opt) last) as [Q|_]; [lra|reflexivity].
Qed.

Lemma reached_tol_nonneg linsolve ok m P (opt : options R) z x : converged (run_numerics linsolve ok m) P opt z x -> 0 <= o_tol opt.
Proof.
  intros (k & ns & ds & als & a & Hrun & Ha & Hlt). cbn in Hlt. destruct (Rlt_dec (o_tol opt) a) as [Q|Q]; [discriminate|].
  destruct (solver_full_report _ _ _ _ _ _ _ _ _ _ _ _ Hrun) as (_ & _ & _ & (f & _ & Ef) & _). rewrite Ha in Ef. injection Ef as ->.
  apply Rnot_lt_le in Q. refine (Rle_trans _ _ _ _ Q). cbn. unfold norm2. apply sqrt_pos.
Qed.

(** * The functions chosen *)
Lemma guarded_eq m g (h : nat -> R) : real_vec m (obind (guarded g (vec h)) (fun v => Some (ModelDispatch.vneg v))) = if g then Some (fun q => - h q) else None.
Proof. destruct g; [apply all_fin_fin|reflexivity]. Qed.
Lemma when_some (g : bool) (h f : nat -> R) : (if g then Some h else None) = Some f -> forall q, f q = h q.
Proof. destruct g; [|discriminate]. intros E. injection E as <-. reflexivity. Qed.
Lemma fun_cm meth D m k c z : In meth descent_methods -> u_dispatch "cm" meth None = inl D ->
  real_vec m (run_entry (d_fun D) (A2 m k c) z) = if cm_divisors m z then Some (fun q => - loglikelihood_prime_cm m k c z q) else None.
Proof. intros [<-|[<-|[]]] E; injection E as <-; apply (guarded_eq m (cm_divisors m z)). Qed.
Lemma fun_cm_exp meth D m k c z : In meth descent_methods -> u_dispatch "cm_exp" meth None = inl D ->
  real_vec m (run_entry (d_fun D) (A2 m k c) z) = Some (fun q => - loglikelihood_prime_cm_exp m k c z q).
Proof. intros [<-|[<-|[]]] E; injection E as <-; apply all_fin_fin. Qed.
Lemma fun_ecm meth D n k s z : In meth descent_methods -> u_dispatch "ecm" meth None = inl D ->
  real_vec (2 * n) (run_entry (d_fun D) (A2 n k s) z) = if ecm_divisors n z then Some (fun q => - loglikelihood_prime_ecm n k s z q) else None.
Proof. intros [<-|[<-|[]]] E; injection E as <-; apply (guarded_eq (2 * n) (ecm_divisors n z)). Qed.
Lemma fun_ecm_exp meth D n k s z : In meth descent_methods -> u_dispatch "ecm_exp" meth None = inl D ->
  real_vec (2 * n) (run_entry (d_fun D) (A2 n k s) z) = if ecm_exp_divisors n z then Some (fun q => - loglikelihood_prime_ecm_exp n k s z q) else None.
Proof. intros [<-|[<-|[]]] E; injection E as <-; apply (guarded_eq (2 * n) (ecm_exp_divisors n z)). Qed.

(** * Degree classes *)
Lemma u_class_rep g q : (q < List.length (np_unique Nat.leb Nat.eqb (un_dseq g)))%nat -> exists i, (i < un_n g)%nat /\
  nth_error (un_dseq g) i = Some (nth i (un_dseq g) O) /\ nth_error (np_inverse Nat.leb Nat.eqb (un_dseq g)) i = Some q.
Proof.
  intros Hq. pose proof (reduction_unique Nat.leb Nat.eqb (un_dseq g) nat_order) as (Hinc & _ & _ & _ & _ & Hv & Hf & _).
  destruct (nth_error (np_unique Nat.leb Nat.eqb (un_dseq g)) q) as [k|] eqn:E; [|apply nth_error_None in E; lia].
  destruct (Hf q k E) as (i & _ & Hi & _). exists i. assert (L : (i < un_n g)%nat) by (apply nth_error_Some; rewrite Hi; discriminate).
  split; [exact L|]. split; [apply nth_error_nth'; exact L|].
  destruct (Hv i k Hi) as (q' & Q1 & Q2). rewrite Q1. f_equal. destruct (Nat.lt_trichotomy q q') as [Q|[Q|Q]]; [|auto|].
  - destruct (Hinc _ _ _ _ Q E Q2) as [_ Z]. exfalso. apply Z. reflexivity.
  - destruct (Hinc _ _ _ _ Q Q2 E) as [_ Z]. exfalso. apply Z. reflexivity.
Qed.
Lemma u_count_ge g i : (i < un_n g)%nat -> 1 <= at_list (np_counts Nat.leb Nat.eqb (un_dseq g)) (u_class g i).
Proof.
  intros Hi. pose proof (class_count_pos _ _ _ _ i (u_classes g) Hi) as P. unfold at_list in *.
  apply (le_INR 1). assert (0 < nth (u_class g i) (np_counts Nat.leb Nat.eqb (un_dseq g)) 0)%nat; [|lia]. apply INR_lt. exact P.
Qed.

Lemma args_cm g m adj : In m ["cm"; "cm_exp"]%string -> u_args g m adj = Some (u_args_cm g).
Proof. intros [<-|[<-|[]]]; reflexivity. Qed.
(** What a completed binary solve leaves. *)
Lemma tool_cm_state e g t o o' : (0 < un_n g)%nat -> us_beta o = None -> In (t_model t) ["cm"; "cm_exp"]%string ->
  u_tool e g t o = (o', None) ->
  exists v x err, solved_of (u_result e g t o) = Some v /\ us_x o' = Some x /\ us_err o' = Some err /\
    x = (fun i => cm_factor (t_model t) v (u_class g i)) /\
    exists i, (i < un_n g)%nat /\ err = Rabs (at_list (un_dseq g) i - expected_degree_cm (un_n g) x i).
Proof.
  intros Hn Hb Hm H. unfold u_tool in H. destruct (u_error_cm g (u_call e g t o) o o' Hn Hb Hm H) as (v & cls & x & err & Ev & Ex & Ee & _ & _ & (_ & i & Hi & Ei)).
  exists v, x, err. split; [exact Ev|]. split; [exact Ex|]. split; [exact Ee|]. split.
  - unfold u_solve_tool in H. apply andthen_inv in H. destruct H as (o1 & H1 & H).
    assert (HS : u_solve_problem g (t_model t) (t_method t) (c_guess (u_call e g t o)) (c_out (u_call e g t o)) o = (o1, None)).
    { destruct Hm as [E|[E|[]]]; unfold u_call, u_call_adjacency in H1 |- *; cbn [c_model c_method c_guess c_out] in H1 |- *; rewrite <- E in H1 |- *; names_in H1; exact H1. }
    apply u_solve_cm in HS; [|exact Hm]. destruct HS as (d & v' & _ & Hv & ->). rewrite Ev in Hv. injection Hv as <-.
    apply u_error_frame in H. destruct H as (Fx & _). rewrite Ex in Fx. cbn in Fx. injection Fx as ->. reflexivity.
  - exists i. split; [exact Hi|]. rewrite Ei, Rabs_minus_sym. f_equal. f_equal. apply expected_degree_cm_mean. exact Hi.
Qed.

Lemma binary_start_inside g rnd nm x0 : In nm binary_names -> draws rnd -> (forall i, (i < un_n g)%nat -> nth i (un_dseq g) O <> O) ->
  u_start g "cm" rnd (GStr nm) = Some x0 -> positive_upto (u_length g "cm") x0.
Proof.
  intros Hn Hr Hd H q Hq. unfold u_start in H. names_in H.
  destruct (guess_cm_inside (un_dseq g) rnd nm Hn Hr) as (s & Es & Hs). change (String.eqb "cm" "cm_exp") with false in H. rewrite Es in H.
  cbn [start_of] in H. pose proof (all_fin_inv _ _ _ H q Hq) as E.
  unfold u_length, degree_reduction_und in Hq. names_in Hq.
  destruct (u_class_rep g q Hq) as (i & Li & Ei & Qi). destruct (Hs i _ q Ei Qi) as (x & E' & [Px _]).
  rewrite E in E'. injection E' as ->. apply Px. apply not_0_INR. apply Hd. exact Li.
Qed.

Lemma cm_core e g t meth rnd nm adj r : (forall i, (i < un_n g)%nat -> nth i (un_dseq g) O <> O) ->
  In meth descent_methods -> In nm binary_names -> draws rnd -> t_linsearch t = true ->
  let result := u_solver e g t "cm" meth rnd (GStr nm) adj in
  report_of result = Some r -> tolerance_reached (t_tol t) r ->
  exists y, solved_of result = Some {| o_x := y; o_inf := fun _ => false |} /\ 0 <= t_tol t /\
    forall i, (i < un_n g)%nat -> 0 < y (u_class g i) /\
      Rabs (at_list (un_dseq g) i - expected_degree_cm (un_n g) (fun j => y (u_class g j)) i) <= y (u_class g i) * t_tol t.
Proof.
  intros Hd Hme Hnm Hr HL result HR HT. unfold result, u_solver in *.
  destruct (solve_reached _ _ _ _ _ _ _ HR HT) as (D & A & z & y & ED & EA & Ez & Hrun & Es & HC). exists y. split; [exact Es|].
  rewrite args_cm in EA by (cbn; tauto). injection EA as <-.
  pose proof (binary_start_inside g rnd nm z Hnm Hr Hd Ez) as Pz.
  destruct (cm_stays (v_linsolve e) (v_eigh_ok e) (v_eigh e) (v_fuel e) None meth (u_length g "cm") (at_list (np_unique Nat.leb Nat.eqb (un_dseq g)))
    (at_list (np_counts Nat.leb Nat.eqb (un_dseq g))) (t_options t meth (t_linsearch t)) z) as (D' & ED' & ST); try exact Pz; try reflexivity; try exact HL.
  { destruct Hme as [<-|[<-|[]]]; cbn; auto. }
  rewrite ED in ED'. injection ED' as <-. pose proof (ST _ _ _ _ _ Hrun) as Py.
  assert (HP : forall q, (q < u_length g "cm")%nat -> 0 < y q) by exact Py.
  pose proof (reached_tol_nonneg _ _ _ _ _ _ _ HC) as T0. cbn [o_tol t_options] in T0. split; [exact T0|]. intros i Hi.
  assert (Px : 0 < y (u_class g i)) by (apply HP; apply (u_classes g); exact Hi). split; [exact Px|].
  pose proof (converged_cm (nat -> nat -> R) (un_n g) (u_length g "cm") (u_class g) (at_list (np_counts Nat.leb Nat.eqb (un_dseq g)))
    (at_list (np_unique Nat.leb Nat.eqb (un_dseq g))) _ (run_problem (v_eigh e) (v_fuel e) (u_length g "cm") D (u_args_cm g)) _ z y (u_classes g) (run_exact (v_linsolve e) (v_eigh_ok e) _)
    (fun w f Ef q _ => when_some _ _ _ (eq_trans (eq_sym (fun_cm meth D _ _ _ w Hme ED)) Ef) q) HC HP i Hi) as CB.
  rewrite u_class_degree in CB by exact Hi. refine (Rle_trans _ _ _ CB _). cbn [o_tol t_options].
  pose proof (u_count_ge g i Hi) as Pc.
  apply Rmult_le_reg_r with (at_list (np_counts Nat.leb Nat.eqb (un_dseq g)) (u_class g i)); [lra|].
  unfold Rdiv. rewrite Rmult_assoc, Rinv_l, Rmult_1_r by lra.
  assert (0 <= y (u_class g i) * t_tol t) by (apply Rmult_le_pos; lra).
  assert (y (u_class g i) * t_tol t * 1 <= y (u_class g i) * t_tol t * at_list (np_counts Nat.leb Nat.eqb (un_dseq g)) (u_class g i)) by (apply Rmult_le_compat_l; assumption). lra.
Qed.

Lemma cm_exp_core e g t meth rnd s adj r : In meth descent_methods ->
  let result := u_solver e g t "cm_exp" meth rnd s adj in
  report_of result = Some r -> tolerance_reached (t_tol t) r ->
  exists y, solved_of result = Some {| o_x := y; o_inf := fun _ => false |} /\
    forall i, (i < un_n g)%nat -> Rabs (at_list (un_dseq g) i - expected_degree_cm (un_n g) (fun j => exp (- y (u_class g j))) i) <= t_tol t.
Proof.
  intros Hme result HR HT. unfold result, u_solver in *.
  destruct (solve_reached _ _ _ _ _ _ _ HR HT) as (D & A & z & y & ED & EA & Ez & Hrun & Es & HC). exists y. split; [exact Es|].
  rewrite args_cm in EA by (cbn; tauto). injection EA as <-. intros i Hi.
  pose proof (converged_cm_exp (nat -> nat -> R) (un_n g) (u_length g "cm_exp") (u_class g) (at_list (np_counts Nat.leb Nat.eqb (un_dseq g)))
    (at_list (np_unique Nat.leb Nat.eqb (un_dseq g))) _ (run_problem (v_eigh e) (v_fuel e) (u_length g "cm_exp") D (u_args_cm g)) _ z y (u_classes g) (run_exact (v_linsolve e) (v_eigh_ok e) _)
    (fun w f Ef q _ => when_some true _ _ (eq_trans (eq_sym (fun_cm_exp meth D _ _ _ w Hme ED)) Ef) q) HC i Hi) as CB.
  rewrite u_class_degree in CB by exact Hi. refine (Rle_trans _ _ _ CB _). cbn [o_tol t_options].
  pose proof (u_count_ge g i Hi) as Pc. pose proof (reached_tol_nonneg _ _ _ _ _ _ _ HC) as T0. cbn [o_tol t_options] in T0.
  apply Rmult_le_reg_r with (at_list (np_counts Nat.leb Nat.eqb (un_dseq g)) (u_class g i)); [lra|].
  unfold Rdiv. rewrite Rmult_assoc, Rinv_l, Rmult_1_r by lra.
  assert (t_tol t * 1 <= t_tol t * at_list (np_counts Nat.leb Nat.eqb (un_dseq g)) (u_class g i)) by (apply Rmult_le_compat_l; assumption). lra.
Qed.

Lemma tool_cm e g t nm o o' r : (0 < un_n g)%nat -> (forall i, (i < un_n g)%nat -> nth i (un_dseq g) O <> O) -> us_beta o = None ->
  t_model t = "cm"%string -> In (t_method t) descent_methods -> t_guess t = GStr nm -> In nm binary_names -> draws (v_rnd e) -> t_linsearch t = true ->
  u_tool e g t o = (o', None) -> u_report e g t o = Some r -> tolerance_reached (t_tol t) r ->
  exists x err, us_x o' = Some x /\ us_err o' = Some err /\ (forall i, (i < un_n g)%nat -> 0 < x i) /\
    forall B, bounded_by (un_n g) x B -> err <= B * t_tol t.
Proof.
  intros Hn Hd Hb Hm Hme Hg Hnm Hr HL H HR HT.
  destruct (tool_cm_state e g t o o' Hn Hb ltac:(left; congruence) H) as (v & x & err & Ev & Ex & Ee & Exx & i & Hi & Ei).
  exists x, err. split; [exact Ex|]. split; [exact Ee|].
  unfold u_report in HR. unfold u_result in HR, Ev. rewrite Hm in HR, Ev, Exx. names_in HR. names_in Ev. rewrite Hg in HR, Ev.
  destruct (cm_core e g t _ _ nm _ r Hd Hme Hnm Hr HL HR HT) as (y & Es & T0 & HY). rewrite Es in Ev. injection Ev as <-.
  assert (EX : x = fun j => y (u_class g j)) by exact Exx. subst x.
  split; [intros j Hj; apply (HY j Hj)|]. intros B HB. destruct (HY i Hi) as [_ HE]. rewrite Ei. refine (Rle_trans _ _ _ HE _).
  apply Rmult_le_compat_r; [exact T0|]. apply (HB i Hi).
Qed.
Lemma tool_cm_exp e g t o o' r : (0 < un_n g)%nat -> us_beta o = None -> t_model t = "cm_exp"%string -> In (t_method t) descent_methods ->
  u_tool e g t o = (o', None) -> u_report e g t o = Some r -> tolerance_reached (t_tol t) r ->
  exists x err, us_x o' = Some x /\ us_err o' = Some err /\ (forall i, (i < un_n g)%nat -> 0 < x i) /\ err <= t_tol t.
Proof.
  intros Hn Hb Hm Hme H HR HT.
  destruct (tool_cm_state e g t o o' Hn Hb ltac:(right; left; congruence) H) as (v & x & err & Ev & Ex & Ee & Exx & i & Hi & Ei).
  exists x, err. split; [exact Ex|]. split; [exact Ee|].
  unfold u_report in HR. unfold u_result in HR, Ev. rewrite Hm in HR, Ev, Exx. names_in HR. names_in Ev.
  destruct (cm_exp_core e g t _ _ _ _ r Hme HR HT) as (y & Es & HY). rewrite Es in Ev. injection Ev as <-.
  assert (EX : x = fun j => exp (- y (u_class g j))) by exact Exx. subst x.
  split; [intros j Hj; apply exp_pos|]. rewrite Ei. apply HY. exact Hi.
Qed.

(** * Enhanced models *)
Lemma args_ecm g m adj : In m ["ecm"; "ecm_exp"]%string -> u_args g m adj = Some (A2 (un_n g) (at_list (un_dseq g)) (un_str g)).
Proof. intros [<-|[<-|[]]]; reflexivity. Qed.

Lemma tool_ecm_state e g t o o' : (0 < un_n g)%nat -> In (t_model t) ["ecm"; "ecm_exp"]%string ->
  u_tool e g t o = (o', None) ->
  exists v x y err, solved_of (u_result e g t o) = Some v /\ us_x o' = Some x /\ us_y o' = Some y /\ us_err o' = Some err /\
    (forall i, x i = ecm_factor (t_model t) v i) /\ (forall i, y i = ecm_factor (t_model t) v (i + un_n g)%nat) /\
    exists r, (r < 2 * un_n g)%nat /\
      err = Rabs ((if Nat.ltb r (un_n g) then at_list (un_dseq g) r else un_str g (r - un_n g)%nat) - expected_ecm (un_n g) (ecm_factor (t_model t) v) r).
Proof.
  intros Hn Hm H. unfold u_tool in H.
  destruct (u_error_ecm g (u_call e g t o) o o' Hn Hm H) as (v & x & y & ek & es & Ev & Ex & Ey & Ee & Xx & Yy & (_ & i & Hi & Ei) & (_ & j & Hj & Ej)).
  assert (EX : forall i, x i = ecm_factor (t_model t) v i) by (intros h; rewrite Xx; unfold ecm_factor; cbn [c_model u_call u_call_adjacency]; destruct (String.eqb (t_model t) "ecm"); reflexivity).
  assert (EY : forall i, y i = ecm_factor (t_model t) v (i + un_n g)%nat) by (intros h; rewrite Yy; unfold ecm_factor; cbn [c_model u_call u_call_adjacency]; destruct (String.eqb (t_model t) "ecm"); reflexivity).
  exists v, x, y, (Rmax es ek). split; [exact Ev|]. split; [exact Ex|]. split; [exact Ey|]. split; [exact Ee|]. split; [exact EX|]. split; [exact EY|].
  unfold Rmax. destruct (Rle_dec es ek) as [_|_].
  - exists i. split; [lia|]. rewrite Ei, Rabs_minus_sym. f_equal. destruct (Nat.ltb_spec i (un_n g)) as [_|Q]; [|lia]. f_equal.
    rewrite expected_ecm_x by exact Hi. unfold mean_deg_und, link_mean. apply rsum_ext. intros h Hh. rewrite !EX, !EY. reflexivity.
  - exists (j + un_n g)%nat. split; [lia|]. rewrite Ej, Rabs_minus_sym. f_equal. destruct (Nat.ltb_spec (j + un_n g) (un_n g)) as [Q|_]; [lia|].
    rewrite Nat.add_sub. f_equal.
    rewrite expected_ecm_y. unfold mean_str_und, weight_mean. apply rsum_ext. intros h Hh. rewrite !EX, !EY. reflexivity.
Qed.

Lemma weighted_start_exp g rnd nm x0 : In nm weighted_names -> draws rnd -> nonneg (un_n g) (un_str g) -> (forall i, (i < un_n g)%nat -> un_str g i <> 0) ->
  u_start g "ecm_exp" rnd (GStr nm) = Some x0 -> ecm_exp_dom (un_n g) x0.
Proof.
  intros Hn Hr Hs Hd H. unfold u_start in H. names_in H.
  destruct (guess_ecm_exp_start (un_n g) (at_list (un_dseq g)) (un_str g) rnd nm Hn ltac:(intros i _; apply pos_INR) Hs Hr) as (s & _ & th & _ & Es & _ & Ft & _ & _ & HD).
  change (String.eqb "ecm_exp" "ecm_exp") with true in H. rewrite Es in H. cbn [start_of] in H.
  assert (EE : forall q, (q < 2 * un_n g)%nat -> x0 q = th q).
  { intros q Hq. pose proof (all_fin_inv _ _ _ H q Hq) as E. rewrite (Ft q Hq) in E. injection E as ->. reflexivity. }
  intros i j Hi Hj Hij. rewrite !EE by lia. apply HD; assumption.
Qed.

Lemma tool_ecm_exp e g t nm o o' r : (0 < un_n g)%nat -> nonneg (un_n g) (un_str g) -> (forall i, (i < un_n g)%nat -> un_str g i <> 0) ->
  t_model t = "ecm_exp"%string -> In (t_method t) descent_methods -> t_guess t = GStr nm -> In nm weighted_names -> draws (v_rnd e) -> t_linsearch t = true ->
  u_tool e g t o = (o', None) -> u_report e g t o = Some r -> tolerance_reached (t_tol t) r ->
  exists x y err, us_x o' = Some x /\ us_y o' = Some y /\ us_err o' = Some err /\ (forall i, (i < un_n g)%nat -> 0 < x i /\ 0 < y i) /\
    (forall i j, (i < un_n g)%nat -> (j < un_n g)%nat -> i <> j -> y i * y j < 1) /\ err <= t_tol t.
Proof.
  intros Hn Hs Hd Hm Hme Hg Hnm Hr HL H HR HT.
  destruct (tool_ecm_state e g t o o' Hn ltac:(right; left; congruence) H) as (v & x & y & err & Ev & Ex & Ey & Ee & Xx & Yy & q & Hq & Eq).
  exists x, y, err. split; [exact Ex|]. split; [exact Ey|]. split; [exact Ee|].
  unfold u_report in HR. unfold u_result in HR, Ev. rewrite Hm in HR, Ev, Xx, Yy, Eq. names_in HR. names_in Ev. unfold u_solver in HR, Ev. rewrite Hg in HR, Ev.
  destruct (solve_reached _ _ _ _ _ _ _ HR HT) as (D & A & z & w & ED & EA & Ez & Hrun & Es & HC). rewrite Es in Ev. injection Ev as <-.
  rewrite args_ecm in EA by (cbn; tauto). injection EA as <-.
  pose proof (weighted_start_exp g (v_rnd e) nm z Hnm Hr Hs Hd Ez) as Pz.
  destruct (ecm_exp_stays (v_linsolve e) (v_eigh_ok e) (v_eigh e) (v_fuel e) None (t_method t) (un_n g) (at_list (un_dseq g)) (un_str g)
    (t_options t (t_method t) (t_linsearch t)) z) as (D' & ED' & ST); try exact Pz; try reflexivity; try exact HL.
  { destruct Hme as [<-|[<-|[]]]; cbn; auto. }
  rewrite ED in ED'. injection ED' as <-. pose proof (ST _ _ _ _ _ Hrun) as Py. change (ecm_exp_dom (un_n g) w) in Py.
  split; [intros i Hi; rewrite Xx, Yy; split; apply exp_pos|]. split.
  { intros i j Hi Hj Hij. rewrite !Yy. unfold ecm_factor. names. cbn [o_x]. rewrite <- exp_plus, <- exp_0. apply exp_increasing.
    specialize (Py i j Hi Hj Hij). lra. }
  rewrite Eq.
  exact (converged_ecm_exp (nat -> nat -> R) (un_n g) (at_list (un_dseq g)) (un_str g) _ (run_problem (v_eigh e) (v_fuel e) (2 * un_n g) D (A2 (un_n g) (at_list (un_dseq g)) (un_str g))) _ z w
    (run_exact (v_linsolve e) (v_eigh_ok e) _) (fun u f Ef q _ => when_some _ _ _ (eq_trans (eq_sym (fun_ecm_exp (t_method t) D _ _ _ u Hme ED)) Ef) q) HC Py q Hq).
Qed.

Lemma weighted_start_inside g rnd nm x0 : In nm weighted_names -> draws rnd -> nonneg (un_n g) (un_str g) ->
  (forall i, (i < un_n g)%nat -> nth i (un_dseq g) O <> O /\ un_str g i <> 0) ->
  u_start g "ecm" rnd (GStr nm) = Some x0 -> positive_upto (2 * un_n g) x0.
Proof.
  intros Hn Hr Hs Hd H q Hq. unfold u_start in H. names_in H.
  destruct (guess_ecm_inside (un_n g) (at_list (un_dseq g)) (un_str g) rnd nm Hn ltac:(intros i _; apply pos_INR) Hs Hr) as (s & th & Es & Ft & HI & _).
  change (String.eqb "ecm" "ecm_exp") with false in H. rewrite Es in H. cbn [start_of] in H.
  pose proof (all_fin_inv _ _ _ H q Hq) as E. rewrite (Ft q Hq) in E. assert (E' : x0 q = th q) by congruence. rewrite E'.
  destruct (Nat.lt_ge_cases q (un_n g)) as [L|L].
  - apply (proj1 (HI q L)). unfold at_list. apply not_0_INR. apply (Hd q L).
  - replace q with (q - un_n g + un_n g)%nat by lia. apply (proj2 (HI (q - un_n g)%nat ltac:(lia))). apply Hd. lia.
Qed.

Lemma tool_ecm e g t nm o o' r : (0 < un_n g)%nat -> nonneg (un_n g) (un_str g) -> (forall i, (i < un_n g)%nat -> nth i (un_dseq g) O <> O /\ un_str g i <> 0) ->
  t_model t = "ecm"%string -> In (t_method t) descent_methods -> t_guess t = GStr nm -> In nm weighted_names -> draws (v_rnd e) -> t_linsearch t = true ->
  u_tool e g t o = (o', None) -> u_report e g t o = Some r -> tolerance_reached (t_tol t) r ->
  exists x y err, us_x o' = Some x /\ us_y o' = Some y /\ us_err o' = Some err /\ (forall i, (i < un_n g)%nat -> 0 < x i /\ 0 < y i) /\
    ((forall i j, (i < un_n g)%nat -> (j < un_n g)%nat -> i <> j -> y i * y j < 1) ->
     forall B, bounded_by (un_n g) x B -> bounded_by (un_n g) y B -> err <= B * t_tol t).
Proof.
  intros Hn Hs Hd Hm Hme Hg Hnm Hr HL H HR HT.
  destruct (tool_ecm_state e g t o o' Hn ltac:(left; congruence) H) as (v & x & y & err & Ev & Ex & Ey & Ee & Xx & Yy & q & Hq & Eq).
  exists x, y, err. split; [exact Ex|]. split; [exact Ey|]. split; [exact Ee|].
  unfold u_report in HR. unfold u_result in HR, Ev. rewrite Hm in HR, Ev, Xx, Yy, Eq. names_in HR. names_in Ev. unfold u_solver in HR, Ev. rewrite Hg in HR, Ev.
  destruct (solve_reached _ _ _ _ _ _ _ HR HT) as (D & A & z & w & ED & EA & Ez & Hrun & Es & HC). rewrite Es in Ev. injection Ev as <-.
  rewrite args_ecm in EA by (cbn; tauto). injection EA as <-.
  pose proof (weighted_start_inside g (v_rnd e) nm z Hnm Hr Hs Hd Ez) as Pz.
  destruct (ecm_stays (v_linsolve e) (v_eigh_ok e) (v_eigh e) (v_fuel e) None (t_method t) (un_n g) (at_list (un_dseq g)) (un_str g)
    (t_options t (t_method t) (t_linsearch t)) z) as (D' & ED' & ST); try exact Pz; try reflexivity; try exact HL.
  { destruct Hme as [<-|[<-|[]]]; cbn; auto. }
  rewrite ED in ED'. injection ED' as <-. pose proof (ST _ _ _ _ _ Hrun) as Py. change (positive_upto (2 * un_n g) w) in Py.
  unfold ecm_factor in Xx, Yy, Eq. names_in Xx. names_in Yy. names_in Eq. cbn [o_x] in Xx, Yy, Eq.
  assert (PP : forall i, (i < un_n g)%nat -> 0 < w i /\ 0 < w (i + un_n g)%nat) by (intros i Hi; split; apply Py; lia).
  split; [intros i Hi; rewrite Xx, Yy; exact (PP i Hi)|]. intros HP B Bx By.
  assert (DD : ecm_dom (un_n g) w) by (split; [exact PP|]; intros i j Hi Hj Hij; rewrite <- !Yy; apply HP; assumption).
  rewrite Eq. refine (Rle_trans _ _ _ (converged_ecm (nat -> nat -> R) (un_n g) (at_list (un_dseq g)) (un_str g) _ (run_problem (v_eigh e) (v_fuel e) (2 * un_n g) D (A2 (un_n g) (at_list (un_dseq g)) (un_str g))) _ z w
    (run_exact (v_linsolve e) (v_eigh_ok e) _) (fun u f Ef q _ => when_some _ _ _ (eq_trans (eq_sym (fun_ecm (t_method t) D _ _ _ u Hme ED)) Ef) q) HC DD q Hq) _).
  cbn [o_tol t_options]. apply Rmult_le_compat_r; [exact (reached_tol_nonneg _ _ _ _ _ _ _ HC)|].
  destruct (Nat.lt_ge_cases q (un_n g)) as [L|L]; [specialize (Bx q L); rewrite Xx in Bx; exact Bx|].
  specialize (By (q - un_n g)%nat ltac:(lia)). rewrite Yy in By. replace (q - un_n g + un_n g)%nat with q in By by lia. exact By.
Qed.

(** * CReMa *)
Lemma fun_crema meth D n s es z : In meth descent_methods -> u_dispatch "crema" meth None = inl D ->
  real_vec n (run_entry (d_fun D) (A3 n s (Triples es)) z) = option_map (fun F q => - F q) (loglikelihood_prime_crema_undirected n s es z).
Proof.
  intros [<-|[<-|[]]] E; injection E as <-; cbn;
    destruct (loglikelihood_prime_crema_undirected n s es z) as [F|]; try reflexivity; apply all_fin_fin.
Qed.
Lemma args_crema g adj : u_args g "crema" (Some adj) = Some (A3 (un_n g) (un_str g) adj).
Proof. reflexivity. Qed.
Lemma crema_start_inside g rnd nm p x0 : In nm ["random"; "strengths"; "strengths_minor"]%string -> nonneg (un_n g) (un_str g) -> draws rnd -> hollow p ->
  (forall i j, (i < j < un_n g)%nat -> p i j <> 0 -> un_str g i <> 0 \/ un_str g j <> 0) ->
  u_start g "crema" rnd (GStr nm) = Some x0 -> crema_dom (triu_edges (un_n g) p) x0.
Proof.
  intros Hn Hs Hr Hh Hp H. unfold u_start in H. names_in H.
  destruct (guess_crema_inside (un_n g) (un_str g) rnd nm Hn Hs Hr) as (s & th & Es & Ft & HI). rewrite Es in H. cbn [start_of] in H.
  assert (EE : forall q, (q < un_n g)%nat -> x0 q = th q).
  { intros q Hq. pose proof (all_fin_inv _ _ _ H q Hq) as E. rewrite (Ft q Hq) in E. congruence. }
  apply triu_dom; [exact Hh|]. intros i j Hij Hp'. rewrite !EE by lia.
  assert (P : forall q, (q < un_n g)%nat -> 0 <= th q /\ (un_str g q <> 0 -> 0 < th q)).
  { intros q Hq. destruct (HI q Hq) as [A B]. split; [|exact A]. destruct (Req_dec (un_str g q) 0) as [Z|Z]; [rewrite B by exact Z; lra|left; apply A; exact Z]. }
  destruct (P i ltac:(lia)) as [A1 A2]. destruct (P j ltac:(lia)) as [B1 B2]. destruct (Hp i j Hij Hp') as [Z|Z]; [specialize (A2 Z)|specialize (B2 Z)]; lra.
Qed.

Lemma crema_core e g t p nm r : linear_solver (un_n g) (v_linsolve e) -> eigen_solver (un_n g) (v_eigh e) ->
  nonneg (un_n g) (un_str g) -> hollow p -> (forall i j, (i < j < un_n g)%nat -> 0 <= p i j) ->
  (forall i j, (i < j < un_n g)%nat -> p i j <> 0 -> un_str g i <> 0 \/ un_str g j <> 0) ->
  In (t_method t) descent_methods -> t_guess t = GStr nm -> In nm ["random"; "strengths"; "strengths_minor"]%string -> draws (v_rnd e) -> t_linsearch t = true ->
  let result := u_solver e g t "crema" (t_method t) (v_rnd e) (t_guess t) (Some (Triples (triu_edges (un_n g) p))) in
  report_of result = Some r -> tolerance_reached (t_tol t) r -> never_gave_up r ->
  exists w, solved_of result = Some {| o_x := w; o_inf := fun _ => false |} /\ positive_rates (un_n g) p w /\
    forall i, (i < un_n g)%nat -> Rabs (crema_mean (un_n g) p w i - un_str g i) <= t_tol t.
Proof.
  intros HLS HES Hs Hh Hp Hd Hme Hg Hnm Hr HL result HR HT HG. unfold result, u_solver in *. rewrite Hg in *.
  destruct (solve_reached _ _ _ _ _ _ _ HR HT) as (D & A & z & w & ED & EA & Ez & Hrun & Es & HC).
  rewrite args_crema in EA. injection EA as <-. exists w. split; [exact Es|].
  pose proof (crema_start_inside g (v_rnd e) nm p z Hnm Hs Hr Hh Hd Ez) as Pz.
  pose proof (reached_tol_nonneg _ _ _ _ _ _ _ HC) as T0. cbn [o_tol t_options] in T0.
  destruct (crema_increases (v_linsolve e) (v_eigh_ok e) (v_eigh e) (v_fuel e) None (t_method t) (un_n g) (un_str g) (triu_edges (un_n g) p)
    (t_options t (t_method t) (t_linsearch t)) z HLS HES Hme) as (D' & ED' & ST).
  { repeat split; cbn [o_method o_linsearch o_regularise o_regularise_eps o_tol t_options]; try assumption; lra. }
  { intros i j v Hin. apply in_triu in Hin. lia. }
  { apply triu_simple. intros i _. apply Hh. }
  { intros i j v Hin. apply in_triu in Hin. destruct Hin as (L & -> & Z). apply Hp. destruct (Nat.eq_dec i j) as [->|]; [exfalso; apply Z, Hh|lia]. }
  { exact Pz. }
  rewrite ED in ED'. injection ED' as <-. destruct (ST _ _ _ _ _ Hrun HG) as [Dw _].
  assert (PR : positive_rates (un_n g) p w) by (intros i j Hij Hpn; apply (Dw i j (p i j)); apply in_triu; repeat split; try lia; exact Hpn).
  split; [exact PR|]. intros i Hi.
  destruct (converged_crema (nat -> nat -> R) (un_n g) (un_str g) (triu_edges (un_n g) p) _ (run_problem (v_eigh e) (v_fuel e) (un_n g) D (A3 (un_n g) (un_str g) (Triples (triu_edges (un_n g) p)))) _ z w
    (run_exact (v_linsolve e) (v_eigh_ok e) _) (fun u => fun_crema (t_method t) D _ _ _ u Hme ED) HC Dw) as (E & EE & HB).
  destruct (expected_triu (un_n g) p w Hh PR) as (E' & EE' & HM). rewrite EE in EE'. injection EE' as <-. rewrite <- HM by exact Hi.
  rewrite Rabs_minus_sym. apply HB. exact Hi.
Qed.

Lemma tool_crema_matrix e g t a nm o o' r : (0 < un_n g)%nat -> linear_solver (un_n g) (v_linsolve e) -> eigen_solver (un_n g) (v_eigh e) ->
  nonneg (un_n g) (un_str g) -> hollow a -> (forall i j, (i < j < un_n g)%nat -> 0 <= a i j) ->
  (forall i j, (i < j < un_n g)%nat -> a i j <> 0 -> un_str g i <> 0 \/ un_str g j <> 0) ->
  t_model t = "crema"%string -> t_adjacency t = AdjMatrix a ->
  In (t_method t) descent_methods -> t_guess t = GStr nm -> In nm ["random"; "strengths"; "strengths_minor"]%string -> draws (v_rnd e) -> t_linsearch t = true ->
  u_tool e g t o = (o', None) -> u_report e g t o = Some r -> tolerance_reached (t_tol t) r -> never_gave_up r ->
  exists beta err, us_beta o' = Some beta /\ us_err o' = Some err /\ positive_rates (un_n g) a beta /\ err <= t_tol t.
Proof.
  intros Hn HLS HES Hs Hh Hp Hd Hm Ha Hme Hg Hnm Hr HL H HR HT HG.
  assert (ER : u_result e g t o = u_solver e g t "crema" (t_method t) (v_rnd e) (t_guess t) (Some (Triples (triu_edges (un_n g) a)))).
  { unfold u_result, u_set_adjacency. cbn [c_adjacency c_model u_call_adjacency]. rewrite Hm, Ha. names. reflexivity. }
  unfold u_report in HR. rewrite ER in HR.
  destruct (crema_core e g t a nm r HLS HES Hs Hh Hp Hd Hme Hg Hnm Hr HL HR HT HG) as (w & Ew & PR & HB). rewrite <- ER in Ew.
  assert (HM : In (c_model (u_call e g t o)) ["crema"; "crema-sparse"]%string) by (left; symmetry; exact Hm).
  assert (EB : us_beta o' = Some w).
  { destruct (u_tool_crema _ _ _ _ HM H) as (o1 & H1 & H2). apply u_crema_inv in H1; [|exact HM].
    destruct H1 as (o2 & d & v & v0 & adj & HA & _ & Hv & HJ & ->). destruct (u_error_frame _ _ _ _ H2) as (_ & _ & FB & _). cbn in FB. rewrite FB. f_equal.
    cbn [c_out u_call u_call_adjacency] in Hv. rewrite Ew in Hv. injection Hv as <-. reflexivity. }
  destruct (u_error_crema_matrix g (u_call e g t o) o o' a Hn HM Ha Hh H ltac:(intros b Hb; rewrite EB in Hb; injection Hb as <-; exact PR)) as (v & err & Ev & EB' & Ee & (_ & i & Hi & Ei)).
  exists w, err. split; [exact EB|]. split; [exact Ee|]. split; [exact PR|]. rewrite Ei. rewrite EB in EB'. injection EB' as <-. apply HB. exact Hi.
Qed.

(** CReMa with the adjacency inferred from the degrees. *)
Definition cm_point (a : string) (y : nat -> R) (cls : nat -> nat) (i : nat) : R := cm_factor a {| o_x := y; o_inf := fun _ => false |} (cls i).
Lemma tool_crema_state e g t a nm y o o' r : (0 < un_n g)%nat -> linear_solver (un_n g) (v_linsolve e) -> eigen_solver (un_n g) (v_eigh e) ->
  nonneg (un_n g) (un_str g) -> (forall i j, (i < j < un_n g)%nat -> un_str g i <> 0 \/ un_str g j <> 0) ->
  t_model t = "crema"%string -> t_adjacency t = AdjName a -> In a ["cm"; "cm_exp"]%string ->
  solved_of (u_result_adjacency e g t) = Some {| o_x := y; o_inf := fun _ => false |} -> (forall i, (i < un_n g)%nat -> 0 <= cm_point a y (u_class g) i) ->
  In (t_method t) descent_methods -> t_guess t = GStr nm -> In nm ["random"; "strengths"; "strengths_minor"]%string -> draws (v_rnd e) -> t_linsearch t = true ->
  u_tool e g t o = (o', None) -> u_report e g t o = Some r -> tolerance_reached (t_tol t) r -> never_gave_up r ->
  exists beta ek es, us_x o' = Some (cm_point a y (u_class g)) /\ us_beta o' = Some beta /\ us_err o' = Some (Rmax es ek) /\
    positive_rates (un_n g) (p_ubcm (cm_point a y (u_class g))) beta /\ es <= t_tol t /\
    exists i, (i < un_n g)%nat /\ ek = Rabs (at_list (un_dseq g) i - expected_degree_cm (un_n g) (cm_point a y (u_class g)) i).
Proof.
  intros Hn HLS HES Hs Hd Hm Ha Hna Hsol Hx Hme Hg Hnm Hr HL H HR HT HG. set (x := cm_point a y (u_class g)) in *.
  assert (HM : In (c_model (u_call e g t o)) ["crema"; "crema-sparse"]%string) by (left; symmetry; exact Hm).
  destruct (u_tool_crema _ _ _ _ HM H) as (o1 & H1 & H2). apply u_crema_inv in H1; [|exact HM].
  destruct H1 as (o2 & d & v & v0 & adj & HA & _ & Hv & HJ & ->). destruct (u_error_frame _ _ _ _ H2) as (FX & _ & FB & _). cbn in FB, FX.
  destruct (u_adj_name g (u_call e g t o) _ a _ Ha Hna HA) as (va & Hva & J1 & J2 & J3 & J4). cbn [c_out_adjacency u_call u_call_adjacency] in Hva. rewrite Hsol in Hva. injection Hva as <-.
  fold (cm_point a y (u_class g)) in J1, J4. change (us_x o2 = Some x) in J1.
  replace (String.eqb (c_model (u_call e g t o)) "crema-sparse") with false in J3, J4 by (cbn [c_model u_call u_call_adjacency]; rewrite Hm; reflexivity).
  change (us_adj o2 = Some (Triples (triu_edges (un_n g) (pmatrix_cm x)))) in J4. rewrite J1 in FX.
  assert (ER : u_result e g t o = u_solver e g t "crema" (t_method t) (v_rnd e) (t_guess t) (Some (Triples (triu_edges (un_n g) (pmatrix_cm x))))).
  { unfold u_result. change (u_set_adjacency g (u_call_adjacency e g t None) o) with (u_set_adjacency g (u_call e g t o) o). rewrite HA. cbn [fst].
    rewrite Hm, J3, J4. names. reflexivity. }
  unfold u_report in HR. rewrite ER in HR.
  assert (P0 : forall i j, (i < j < un_n g)%nat -> 0 <= pmatrix_cm x i j).
  { intros i j Hij. rewrite pmatrix_ubcm by lia. unfold p_ubcm. assert (0 <= x i * x j) by (apply Rmult_le_pos; apply Hx; lia).
    apply Rmult_le_pos; [assumption|]. left. apply Rinv_0_lt_compat. lra. }
  destruct (crema_core e g t (pmatrix_cm x) nm r HLS HES Hs (pmatrix_hollow x) P0 ltac:(intros i j Hij _; apply Hd; exact Hij) Hme Hg Hnm Hr HL HR HT HG) as (w & Ew & PR & HB).
  cbn [c_out u_call u_call_adjacency] in Hv. rewrite ER, Ew in Hv. injection Hv as <-. cbn [o_x] in FB.
  assert (PR' : positive_rates (un_n g) (p_ubcm x) w) by (intros i j Hij Hp; apply PR; [exact Hij|rewrite pmatrix_ubcm by lia; exact Hp]).
  destruct (u_error_crema_name g (u_call e g t o) o o' a Hn HM Ha Hna H) as (va & v & cls & x' & ek & es & _ & _ & EX & EB & Ee & _ & _ & (_ & i & Hi & Ei) & (_ & j & Hj & Ej)).
  { intros x'' b Ex' Eb'. rewrite FX in Ex'. injection Ex' as <-. rewrite FB in Eb'. injection Eb' as <-. split; assumption. }
  rewrite FX in EX. injection EX as <-. rewrite FB in EB. assert (EB' : o_x v = w) by congruence. rewrite EB' in Ej.
  exists w, ek, es. split; [exact FX|]. split; [exact FB|]. split; [exact Ee|]. split; [exact PR'|]. split.
  - rewrite Ej. specialize (HB j Hj). rewrite (crema_mean_ext _ _ (p_ubcm x)) in HB by (apply pmatrix_ubcm). exact HB.
  - exists i. split; [exact Hi|]. rewrite Ei, Rabs_minus_sym. f_equal. f_equal. apply expected_degree_cm_mean. exact Hi.
Qed.

Lemma tool_crema_cm e g t nma nm o o' ra r : (0 < un_n g)%nat -> linear_solver (un_n g) (v_linsolve e) -> eigen_solver (un_n g) (v_eigh e) ->
  (forall i, (i < un_n g)%nat -> nth i (un_dseq g) O <> O) ->
  nonneg (un_n g) (un_str g) -> (forall i j, (i < j < un_n g)%nat -> un_str g i <> 0 \/ un_str g j <> 0) ->
  t_model t = "crema"%string -> t_adjacency t = AdjName "cm" -> In (t_method_adjacency t) descent_methods ->
  t_guess_adjacency t = GStr nma -> In nma binary_names -> draws (v_rnd_adjacency e) ->
  In (t_method t) descent_methods -> t_guess t = GStr nm -> In nm ["random"; "strengths"; "strengths_minor"]%string -> draws (v_rnd e) -> t_linsearch t = true ->
  u_tool e g t o = (o', None) ->
  u_report_adjacency e g t = Some ra -> tolerance_reached (t_tol t) ra ->
  u_report e g t o = Some r -> tolerance_reached (t_tol t) r -> never_gave_up r ->
  exists x beta err, us_x o' = Some x /\ us_beta o' = Some beta /\ us_err o' = Some err /\ (forall i, (i < un_n g)%nat -> 0 < x i) /\
    positive_rates (un_n g) (p_ubcm x) beta /\ forall B, 1 <= B -> bounded_by (un_n g) x B -> err <= B * t_tol t.
Proof.
  intros Hn HLS HES Hdeg Hs Hd Hm Ha Hma Hga Hna Hra Hme Hg Hnm Hr HL H HRA HTA HR HT HG.
  unfold u_report_adjacency, u_result_adjacency in HRA. rewrite Ha, Hga in HRA.
  destruct (cm_core e g t _ _ nma _ ra Hdeg Hma Hna Hra HL HRA HTA) as (y & Es & T0 & HY).
  assert (Es' : solved_of (u_result_adjacency e g t) = Some {| o_x := y; o_inf := fun _ => false |}) by (unfold u_result_adjacency; rewrite Ha, Hga; exact Es).
  destruct (tool_crema_state e g t "cm" nm y o o' r Hn HLS HES Hs Hd Hm Ha ltac:(cbn; auto) Es') as (beta & ek & es & Ex & Eb & Ee & PR & B1 & i & Hi & Ei); try assumption.
  { intros i Hi. left. apply (HY i Hi). }
  exists (cm_point "cm" y (u_class g)), beta, (Rmax es ek). split; [exact Ex|]. split; [exact Eb|]. split; [exact Ee|]. split; [intros j Hj; apply (HY j Hj)|]. split; [exact PR|].
  intros B B0 HB. apply Rmax_lub.
  - assert (1 * t_tol t <= B * t_tol t) by (apply Rmult_le_compat_r; assumption). lra.
  - rewrite Ei. destruct (HY i Hi) as [_ HE]. refine (Rle_trans _ _ _ HE _). apply Rmult_le_compat_r; [exact T0|]. apply (HB i Hi).
Qed.
Lemma tool_crema_cm_exp e g t nm o o' ra r : (0 < un_n g)%nat -> linear_solver (un_n g) (v_linsolve e) -> eigen_solver (un_n g) (v_eigh e) ->
  nonneg (un_n g) (un_str g) -> (forall i j, (i < j < un_n g)%nat -> un_str g i <> 0 \/ un_str g j <> 0) ->
  t_model t = "crema"%string -> t_adjacency t = AdjName "cm_exp" -> In (t_method_adjacency t) descent_methods ->
  In (t_method t) descent_methods -> t_guess t = GStr nm -> In nm ["random"; "strengths"; "strengths_minor"]%string -> draws (v_rnd e) -> t_linsearch t = true ->
  u_tool e g t o = (o', None) ->
  u_report_adjacency e g t = Some ra -> tolerance_reached (t_tol t) ra ->
  u_report e g t o = Some r -> tolerance_reached (t_tol t) r -> never_gave_up r ->
  exists x beta err, us_x o' = Some x /\ us_beta o' = Some beta /\ us_err o' = Some err /\ (forall i, (i < un_n g)%nat -> 0 < x i) /\
    positive_rates (un_n g) (p_ubcm x) beta /\ err <= t_tol t.
Proof.
  intros Hn HLS HES Hs Hd Hm Ha Hma Hme Hg Hnm Hr HL H HRA HTA HR HT HG.
  unfold u_report_adjacency, u_result_adjacency in HRA. rewrite Ha in HRA.
  destruct (cm_exp_core e g t _ _ _ _ ra Hma HRA HTA) as (y & Es & HY).
  assert (Es' : solved_of (u_result_adjacency e g t) = Some {| o_x := y; o_inf := fun _ => false |}) by (unfold u_result_adjacency; rewrite Ha; exact Es).
  destruct (tool_crema_state e g t "cm_exp" nm y o o' r Hn HLS HES Hs Hd Hm Ha ltac:(cbn; auto) Es') as (beta & ek & es & Ex & Eb & Ee & PR & B1 & i & Hi & Ei); try assumption.
  { intros i Hi. left. apply exp_pos. }
  exists (cm_point "cm_exp" y (u_class g)), beta, (Rmax es ek). split; [exact Ex|]. split; [exact Eb|]. split; [exact Ee|]. split; [intros j Hj; apply exp_pos|]. split; [exact PR|].
  apply Rmax_lub; [exact B1|]. rewrite Ei. apply HY. exact Hi.
Qed.
