(** Whole calls of [solve_tool] on a DirectedGraph. *)
From Coq Require Import Reals List Arith Bool String Lia Lra.
From Verif Require Import Base SpecDeriv SpecGraph SpecEnsemble SpecWeighted SpecDirected SpecCReMa SpecNetwork SpecLinsearch SpecDispatch SpecRun SpecSolver SpecSolve SpecGuess SpecTool
  ModelCM ModelECM ModelDCM ModelDECM ModelCReMa ModelIEEE ModelNetwork ModelLinsearch ModelSolver ModelDispatch ModelGuess ModelRun ModelSolve ModelTool.
From Verif Require Import ProofsGraph ProofsUnique ProofsList ProofsCM ProofsMainCM ProofsMainDCM ProofsDECM ProofsMainDECM ProofsCReMa ProofsMainCReMa ProofsDirCReMa ProofsAdjacency WitnessCReMa ProofsSolver ProofsConverged ProofsGuess ProofsGuessW ProofsDispatch ProofsRun ProofsIterates ProofsAscentU ProofsStays ProofsSolve ProofsSolveU ProofsSolveD ProofsTool ProofsInert ProofsGuarded.
Import ListNotations.
Local Open Scope R_scope.

(** * The functions chosen *)
Lemma fun_dcm meth D m ko ki nzo nzi c z : In meth descent_methods -> d_dispatch "dcm" meth None = inl D ->
  real_vec (2 * m) (run_entry (d_fun D) (A5d m ko ki nzo nzi c) z) = if dcm_divisors m nzo nzi z then Some (fun q => - loglikelihood_prime_dcm m ko ki nzo nzi c z q) else None.
Proof. intros [<-|[<-|[]]] E; injection E as <-; apply (guarded_eq (2 * m) (dcm_divisors m nzo nzi z)). Qed.
Lemma fun_dcm_exp meth D m ko ki nzo nzi c z : In meth descent_methods -> d_dispatch "dcm_exp" meth None = inl D ->
  real_vec (2 * m) (run_entry (d_fun D) (A5d m ko ki nzo nzi c) z) = Some (fun q => - loglikelihood_prime_dcm_exp m ko ki nzo nzi c z q).
Proof. intros [<-|[<-|[]]] E; injection E as <-; apply all_fin_fin. Qed.
Lemma fun_decm meth D n ko ki so si z : In meth descent_methods -> d_dispatch "decm" meth None = inl D ->
  real_vec (4 * n) (run_entry (d_fun D) (A4 n ko ki so si) z) = if decm_divisors n ko ki so si z then Some (fun q => - loglikelihood_prime_decm n ko ki so si z q) else None.
Proof. intros [<-|[<-|[]]] E; injection E as <-; apply (guarded_eq (4 * n) (decm_divisors n ko ki so si z)). Qed.
Lemma fun_decm_exp_entry meth D n ko ki so si z : In meth descent_methods -> d_dispatch "decm_exp" meth None = inl D ->
  real_vec (4 * n) (run_entry (d_fun D) (A4 n ko ki so si) z) = all_fin (4 * n) (fun q => fopp (floglikelihood_prime_decm_exp n ko ki so si z q)).
Proof. intros [<-|[<-|[]]] E; injection E as <-; reflexivity. Qed.
Lemma fun_decm_exp meth D n ko ki so si z f : In meth descent_methods -> d_dispatch "decm_exp" meth None = inl D ->
  real_vec (4 * n) (run_entry (d_fun D) (A4 n ko ki so si) z) = Some f -> forall q, (q < 4 * n)%nat -> f q = - loglikelihood_prime_decm_exp n ko ki so si z q.
Proof.
  intros Hm E H q Hq. rewrite (fun_decm_exp_entry _ _ _ _ _ _ _ _ Hm E) in H. pose proof (all_fin_inv _ _ _ H q Hq) as Hf. cbv beta in Hf.
  destruct (floglikelihood_prime_decm_exp n ko ki so si z q) as [a| | |] eqn:Ea; try discriminate Hf. injection Hf as <-. f_equal. apply fdecm_exp_prime_inv. exact Ea.
Qed.
Lemma fun_crema_dir meth D n so si es nzo nzi z : In meth descent_methods -> d_dispatch "crema" meth None = inl D ->
  real_vec (2 * n) (run_entry (d_fun D) (A5c n so si (Triples es) nzo nzi) z) = option_map (fun F q => - F q) (loglikelihood_prime_crema_directed n so si es nzo nzi z).
Proof.
  intros [<-|[<-|[]]] E; injection E as <-; cbn -[Nat.mul];
    destruct (loglikelihood_prime_crema_directed n so si es nzo nzi z) as [F|]; try reflexivity; apply all_fin_fin.
Qed.
Lemma dargs_dcm g m adj : In m ["dcm"; "dcm_exp"]%string -> d_args g m adj = Some (d_args_dcm g).
Proof. intros [<-|[<-|[]]]; reflexivity. Qed.
Lemma dargs_decm g m adj : In m ["decm"; "decm_exp"]%string ->
  d_args g m adj = Some (A4 (dn_n g) (at_list (dn_out g)) (at_list (dn_in g)) (dn_sout g) (dn_sin g)).
Proof. intros [<-|[<-|[]]]; reflexivity. Qed.
Lemma dargs_crema g adj : d_args g "crema" (Some adj) = Some (d_args_crema g adj).
Proof. reflexivity. Qed.

(** * Binary models *)
Lemma d_class_error g q : d_paired g -> (q < d_classes_n g)%nat -> exists i, (i < dn_n g)%nat /\ d_class g i = q /\
  nth_error (dn_out g) i = Some (nth i (dn_out g) O) /\ nth_error (dn_in g) i = Some (nth i (dn_in g) O) /\
  nth_error (r_invert_dseq (d_red g)) i = Some q.
Proof.
  intros HL Hq. destruct (d_class_rep g q HL Hq) as (i & Hi & Ei). exists i. split; [exact Hi|]. split; [exact Ei|].
  assert (Hi' : (i < List.length (dn_in g))%nat) by (rewrite HL; exact Hi).
  split; [apply nth_error_nth'; exact Hi|]. split; [apply nth_error_nth'; exact Hi'|].
  destruct (reduction_directed (dn_out g) (dn_in g) (eq_sym HL)) as (_ & _ & _ & _ & Q & _).
  destruct (Q i _ _ (nth_error_nth' _ O Hi) (nth_error_nth' _ O Hi')) as (q' & Q1 & _). fold (d_red g) in Q1. rewrite Q1. f_equal.
  rewrite <- Ei. unfold d_class. symmetry. apply nth_error_nth. exact Q1.
Qed.
Lemma d_count_ge g i : d_paired g -> (i < dn_n g)%nat -> 1 <= at_list (r_multiplicity (d_red g)) (d_class g i).
Proof.
  intros HL Hi. pose proof (class_count_pos _ _ _ _ i (proj1 (d_classes g HL)) Hi) as P. unfold at_list in *.
  apply (le_INR 1). assert (0 < nth (d_class g i) (r_multiplicity (d_red g)) 0)%nat; [|lia]. apply INR_lt. exact P.
Qed.

Lemma tool_dcm_state e g t o o' : (0 < dn_n g)%nat -> d_paired g -> ds_bo o = None -> In (t_model t) ["dcm"; "dcm_exp"]%string ->
  d_tool e g t o = (o', None) ->
  exists v x y err, solved_of (d_result e g t o) = Some v /\ ds_x o' = Some x /\ ds_y o' = Some y /\ ds_err o' = Some err /\
    x = (fun i => dir_factor "dcm" (t_model t) v (d_class g i)) /\ y = (fun i => drop (d_classes_n g) (dir_factor "dcm" (t_model t) v) (d_class g i)) /\
    exists i, (i < dn_n g)%nat /\ (err = Rabs (at_list (dn_out g) i - expected_out_degree_dcm (dn_n g) (join2 (dn_n g) x y) i) \/
                                   err = Rabs (at_list (dn_in g) i - expected_in_degree_dcm (dn_n g) (join2 (dn_n g) x y) i)).
Proof.
  intros Hn HL Hb Hm H. unfold d_tool in H.
  destruct (d_error_dcm g (d_call e g t o) o o' Hn HL Hb Hm H) as (v & s & cls & m & x & y & e1 & e2 & Ev & Ex & Ey & Ee & _ & _ & _ & (_ & i & Hi & Ei) & (_ & j & Hj & Ej)).
  exists v, x, y, (Rmax e1 e2). split; [exact Ev|]. split; [exact Ex|]. split; [exact Ey|]. split; [exact Ee|].
  assert (Hm4 : In (c_model (d_call e g t o)) ["dcm"; "dcm_exp"; "decm"; "decm_exp"]%string) by (cbn in Hm |- *; tauto).
  destruct (d_tool_problem _ _ _ _ Hm4 H) as (o1 & HS & HE). apply d_solve_dcm in HS; [|exact Hm]. destruct HS as (d & v' & _ & Hv & ->).
  rewrite Ev in Hv. injection Hv as <-. apply d_error_frame in HE. destruct HE as (Fx & Fy & _).
  rewrite Ex in Fx. rewrite Ey in Fy. cbn in Fx, Fy. injection Fx as ->. injection Fy as ->. split; [reflexivity|]. split; [reflexivity|].
  unfold Rmax. destruct (Rle_dec e1 e2) as [_|_].
  - exists j. split; [exact Hj|]. right. rewrite Ej, Rabs_minus_sym. f_equal. f_equal. symmetry. apply d_mean_in. exact Hj.
  - exists i. split; [exact Hi|]. left. rewrite Ei, Rabs_minus_sym. f_equal. f_equal. symmetry. apply d_mean_out. exact Hi.
Qed.

Lemma directed_start_inside g rnd nm x0 : d_paired g -> In nm binary_names -> draws rnd -> balanced (dn_out g) (dn_in g) ->
  d_start g "dcm" rnd (GStr nm) = Some x0 -> dcm_full (d_classes_n g) (nz_index_out (d_red g)) (nz_index_in (d_red g)) x0.
Proof.
  intros HL Hn Hr Hb H. unfold d_start in H. names_in H.
  destruct (guess_dcm_inside (dn_out g) (dn_in g) rnd nm Hn Hr (eq_sym HL) Hb) as (s & Es & Hs). rewrite Es in H. cbn [start_of] in H.
  assert (K : forall q, (q < d_classes_n g)%nat -> starts_inside (at_list (rnz_dseq_out (d_red g)) q) (x0 q) /\
    starts_inside (at_list (rnz_dseq_in (d_red g)) q) (x0 (q + d_classes_n g)%nat)).
  { intros q Hq. destruct (d_class_error g q HL Hq) as (i & Hi & Eq & Eo & Ei & Er).
    destruct (Hs i _ _ q Eo Ei Er) as (x & y & X1 & Y1 & SX & SY).
    assert (Ll : (q < d_length g "dcm" /\ q + d_classes_n g < d_length g "dcm")%nat) by (change (d_length g "dcm") with (2 * d_classes_n g)%nat; lia).
    pose proof (all_fin_inv _ _ _ H q (proj1 Ll)) as F1. pose proof (all_fin_inv _ _ _ H _ (proj2 Ll)) as F2.
    fold (d_red g) in Y1. fold (d_classes_n g) in Y1. rewrite F1 in X1. rewrite F2 in Y1.
    assert (X' : x0 q = x) by congruence. assert (Y' : x0 (q + d_classes_n g)%nat = y) by congruence. rewrite X', Y'.
    destruct (d_class_degrees g i HL Hi) as [D1 D2]. rewrite Eq in D1, D2. rewrite D1, D2. split; assumption. }
  destruct (d_classes g HL) as (_ & [_ No] & [_ Ni]).
  split; [split|split].
  - intros q Hq. apply No in Hq. destruct Hq as [Hq Z]. apply (proj1 (K q Hq)). exact Z.
  - intros q Hq. apply Ni in Hq. destruct Hq as [Hq Z]. apply (proj2 (K q Hq)). exact Z.
  - intros q Hq Z. apply (proj1 (K q Hq)). destruct (Req_dec (at_list (rnz_dseq_out (d_red g)) q) 0) as [E|E]; [exact E|]. exfalso. apply Z, No. split; assumption.
  - intros q Hq Z. apply (proj2 (K q Hq)). destruct (Req_dec (at_list (rnz_dseq_in (d_red g)) q) 0) as [E|E]; [exact E|]. exfalso. apply Z, Ni. split; assumption.
Qed.

Lemma nonzero_index n k l : nonzero_list n k l -> index_list n l.
Proof. intros [A B]. split; [exact A|]. intros i Hi. apply B. exact Hi. Qed.
Lemma div_count a c : 0 <= a -> 1 <= c -> a / c <= a.
Proof.
  intros Ha Hc. apply Rmult_le_reg_r with c; [lra|]. unfold Rdiv. rewrite Rmult_assoc, Rinv_l, Rmult_1_r by lra.
  assert (a * 1 <= a * c) by (apply Rmult_le_compat_l; assumption). lra.
Qed.
Lemma dcm_core e g t meth rnd nm adj r : d_paired g -> linear_solver (2 * d_classes_n g) (v_linsolve e) -> eigen_solver (2 * d_classes_n g) (v_eigh e) ->
  balanced (dn_out g) (dn_in g) -> In meth descent_methods -> In nm binary_names -> draws rnd ->
  let result := d_solver e g t "dcm" meth true rnd (GStr nm) adj in
  report_of result = Some r -> tolerance_reached (t_tol t) r ->
  exists y, solved_of result = Some {| o_x := y; o_inf := fun _ => false |} /\ 0 <= t_tol t /\
    dcm_full (d_classes_n g) (nz_index_out (d_red g)) (nz_index_in (d_red g)) y /\
    forall i, (i < dn_n g)%nat ->
      Rabs (at_list (dn_out g) i - expected_out_degree_dcm (dn_n g) (expand (dn_n g) (d_classes_n g) (d_class g) y) i) <= y (d_class g i) * t_tol t /\
      Rabs (at_list (dn_in g) i - expected_in_degree_dcm (dn_n g) (expand (dn_n g) (d_classes_n g) (d_class g) y) i) <= y (d_class g i + d_classes_n g)%nat * t_tol t.
Proof.
  intros HP HLS HES Hb Hme Hnm Hr result HR HT. unfold result, d_solver in *.
  destruct (solve_reached _ _ _ _ _ _ _ HR HT) as (D & A & z & y & ED & EA & Ez & Hrun & Es & HC). exists y. split; [exact Es|].
  rewrite dargs_dcm in EA by (cbn; tauto). injection EA as <-.
  pose proof (directed_start_inside g rnd nm z HP Hnm Hr Hb Ez) as Fz. destruct (d_classes g HP) as (HCl & HO & HI).
  pose proof (reached_tol_nonneg _ _ _ _ _ _ _ HC) as T0. cbn [o_tol t_options] in T0. split; [exact T0|].
  change (d_length g "dcm") with (2 * d_classes_n g)%nat in *.
  destruct (dcm_stays (v_linsolve e) (v_eigh_ok e) (v_eigh e) (v_fuel e) None meth (d_classes_n g) (at_list (rnz_dseq_out (d_red g))) (at_list (rnz_dseq_in (d_red g)))
    (nz_index_out (d_red g)) (nz_index_in (d_red g)) (at_list (r_multiplicity (d_red g))) (t_options t meth true) z) as (D' & ED' & ST);
    try reflexivity; try exact (proj1 Fz); try (eapply nonzero_index; eassumption).
  { destruct Hme as [<-|[<-|[]]]; cbn; auto. }
  rewrite ED in ED'. injection ED' as <-. pose proof (ST _ _ _ _ _ Hrun) as Py.
  assert (Zs : forall q, zero_constraint (d_classes_n g) (nz_index_out (d_red g)) (nz_index_in (d_red g)) q -> y q = z q).
  { intros q Hq. destruct (zero_stays (v_linsolve e) (v_eigh_ok e) (v_eigh e) (v_fuel e) "dcm" None meth (d_classes_n g) (at_list (rnz_dseq_out (d_red g))) (at_list (rnz_dseq_in (d_red g)))
      (nz_index_out (d_red g)) (nz_index_in (d_red g)) (at_list (r_multiplicity (d_red g))) (t_options t meth true) z q) as (D' & ED' & ZS);
      try reflexivity; try assumption; try (cbn; tauto).
    { cbn [o_regularise_eps t_options]. lra. }
    rewrite ED in ED'. injection ED' as <-. exact (ZS _ _ _ _ _ Hrun). }
  assert (Fy : dcm_full (d_classes_n g) (nz_index_out (d_red g)) (nz_index_in (d_red g)) y).
  { split; [exact Py|]. destruct Fz as (_ & Z1 & Z2). split.
    - intros q Hq Z. rewrite Zs by (left; split; assumption). apply Z1; assumption.
    - intros q Hq Z. rewrite Zs by (right; split; [lia|rewrite Nat.add_sub; exact Z]). apply Z2; assumption. }
  split; [exact Fy|]. intros i Hi.
  destruct (converged_dcm (nat -> nat -> R) (dn_n g) (d_classes_n g) (d_class g) _ _ _ _ _ _ (run_problem (v_eigh e) (v_fuel e) (2 * d_classes_n g) D (d_args_dcm g)) _ z y HCl HO HI
    (run_exact (v_linsolve e) (v_eigh_ok e) _) (fun w f Ef q _ => when_some _ _ _ (eq_trans (eq_sym (fun_dcm meth D _ _ _ _ _ _ w Hme ED)) Ef) q) HC Fy i Hi) as [B1 B2].
  destruct (d_class_degrees g i HP Hi) as [D1 D2]. rewrite D1 in B1. rewrite D2 in B2. cbn [o_tol t_options] in B1, B2.
  pose proof (d_count_ge g i HP Hi) as Pc.
  assert (P1 : 0 <= y (d_class g i) /\ 0 <= y (d_class g i + d_classes_n g)%nat).
  { assert (Hq : (d_class g i < d_classes_n g)%nat) by (apply HCl; exact Hi). destruct Fy as ([P1 P2] & Z1 & Z2). split.
    - destruct (memb_spec (d_class g i) (nz_index_out (d_red g))) as [M|M]; [left; apply P1; exact M|rewrite Z1 by assumption; lra].
    - destruct (memb_spec (d_class g i) (nz_index_in (d_red g))) as [M|M]; [left; apply P2; exact M|rewrite Z2 by assumption; lra]. }
  split; [refine (Rle_trans _ _ _ B1 _)|refine (Rle_trans _ _ _ B2 _)]; (apply div_count; [apply Rmult_le_pos; tauto|exact Pc]).
Qed.

Lemma full_supported g y : d_paired g -> dcm_full (d_classes_n g) (nz_index_out (d_red g)) (nz_index_in (d_red g)) y ->
  supported (dn_n g) (at_list (dn_out g)) (fun i => y (d_class g i)) /\ supported (dn_n g) (at_list (dn_in g)) (fun i => drop (d_classes_n g) y (d_class g i)).
Proof.
  intros HP ([P1 P2] & Z1 & Z2). destruct (d_classes g HP) as (HCl & [_ HO] & [_ HI]). split; intros i Hi.
  - assert (Hq : (d_class g i < d_classes_n g)%nat) by (apply HCl; exact Hi). destruct (d_class_degrees g i HP Hi) as [D1 _]. rewrite <- D1. split; intros Z.
    + apply P1, HO. split; assumption.
    + apply Z1; [exact Hq|]. intros M. apply HO in M. tauto.
  - assert (Hq : (d_class g i < d_classes_n g)%nat) by (apply HCl; exact Hi). destruct (d_class_degrees g i HP Hi) as [_ D1]. rewrite <- D1. split; intros Z.
    + apply P2, HI. split; assumption.
    + apply Z2; [exact Hq|]. intros M. apply HI in M. tauto.
Qed.

Lemma tool_dcm e g t nm o o' r : (0 < dn_n g)%nat -> d_paired g -> balanced (dn_out g) (dn_in g) -> ds_bo o = None ->
  linear_solver (d_length g "dcm") (v_linsolve e) -> eigen_solver (d_length g "dcm") (v_eigh e) ->
  t_model t = "dcm"%string -> In (t_method t) descent_methods -> t_guess t = GStr nm -> In nm binary_names -> draws (v_rnd e) -> t_linsearch t = true ->
  d_tool e g t o = (o', None) -> d_report e g t o = Some r -> tolerance_reached (t_tol t) r ->
  exists x y err, ds_x o' = Some x /\ ds_y o' = Some y /\ ds_err o' = Some err /\
    supported (dn_n g) (at_list (dn_out g)) x /\ supported (dn_n g) (at_list (dn_in g)) y /\
    forall B, bounded_by (dn_n g) x B -> bounded_by (dn_n g) y B -> err <= B * t_tol t.
Proof.
  intros Hn HP Hb Hbo HLS HES Hm Hme Hg Hnm Hr HL H HR HT.
  destruct (tool_dcm_state e g t o o' Hn HP Hbo ltac:(left; congruence) H) as (v & x & y & err & Ev & Ex & Ey & Ee & Exx & Eyy & i & Hi & Ei).
  exists x, y, err. split; [exact Ex|]. split; [exact Ey|]. split; [exact Ee|].
  unfold d_report in HR. unfold d_result in HR, Ev. rewrite Hm in HR, Ev, Exx, Eyy. names_in HR. names_in Ev. rewrite Hg, HL in HR, Ev.
  destruct (dcm_core e g t _ _ nm _ r HP HLS HES Hb Hme Hnm Hr HR HT) as (w & Es & T0 & Fw & HY). rewrite Es in Ev. injection Ev as <-.
  assert (EX : x = fun j => w (d_class g j)) by exact Exx. assert (EY : y = fun j => drop (d_classes_n g) w (d_class g j)) by exact Eyy. subst x y.
  destruct (full_supported g w HP Fw) as [S1 S2]. split; [exact S1|]. split; [exact S2|].
  intros B HB1 HB2. destruct (HY i Hi) as [E1 E2]. specialize (HB1 i Hi). specialize (HB2 i Hi). cbv beta in HB1, HB2.
  destruct Ei as [Ei|Ei]; rewrite Ei; [refine (Rle_trans _ _ _ E1 _)|refine (Rle_trans _ _ _ E2 _)]; apply Rmult_le_compat_r; assumption.
Qed.

(** Exponential form, no zero degree. *)
Lemma dcm_exp_core e g t meth ls rnd s adj r : d_paired g ->
  (forall i, (i < dn_n g)%nat -> nth i (dn_out g) O <> O /\ nth i (dn_in g) O <> O) -> In meth descent_methods ->
  let result := d_solver e g t "dcm_exp" meth ls rnd s adj in
  report_of result = Some r -> tolerance_reached (t_tol t) r ->
  exists y, solved_of result = Some {| o_x := y; o_inf := fun _ => false |} /\ let w := fun q => exp (- y q) in
    forall i, (i < dn_n g)%nat ->
      Rabs (at_list (dn_out g) i - expected_out_degree_dcm (dn_n g) (expand (dn_n g) (d_classes_n g) (d_class g) w) i) <= t_tol t /\
      Rabs (at_list (dn_in g) i - expected_in_degree_dcm (dn_n g) (expand (dn_n g) (d_classes_n g) (d_class g) w) i) <= t_tol t.
Proof.
  intros HP Hd Hme result HR HT. unfold result, d_solver in *.
  destruct (solve_reached _ _ _ _ _ _ _ HR HT) as (D & A & z & y & ED & EA & Ez & Hrun & Es & HC). exists y. split; [exact Es|]. cbv zeta.
  rewrite dargs_dcm in EA by (cbn; tauto). injection EA as <-. destruct (d_classes g HP) as (HCl & HO & HI).
  pose proof (reached_tol_nonneg _ _ _ _ _ _ _ HC) as T0. cbn [o_tol t_options] in T0.
  change (d_length g "dcm_exp") with (2 * d_classes_n g)%nat in *.
  assert (K : forall q, (q < d_classes_n g)%nat -> In q (nz_index_out (d_red g)) /\ In q (nz_index_in (d_red g))).
  { intros q Hq. destruct (d_class_rep g q HP Hq) as (i & Hi & <-). destruct (d_class_degrees g i HP Hi) as [D1 D2]. destruct (Hd i Hi) as [N1 N2].
    split; [apply HO|apply HI]; (split; [exact Hq|]); [rewrite D1|rewrite D2]; apply not_0_INR; assumption. }
  assert (Fy : dcm_full (d_classes_n g) (nz_index_out (d_red g)) (nz_index_in (d_red g)) (fun q => exp (- y q))).
  { split; [split; intros; apply exp_pos|split; intros q Hq Z; exfalso; apply Z, K; exact Hq]. }
  intros i Hi.
  destruct (converged_dcm_exp (nat -> nat -> R) (dn_n g) (d_classes_n g) (d_class g) _ _ _ _ _ _ (run_problem (v_eigh e) (v_fuel e) (2 * d_classes_n g) D (d_args_dcm g)) (t_options t meth ls) z y _ HCl HO HI
    (run_exact (v_linsolve e) (v_eigh_ok e) _) T0 (fun w f Ef q _ => when_some true _ _ (eq_trans (eq_sym (fun_dcm_exp meth D _ _ _ _ _ _ w Hme ED)) Ef) q) HC Fy (fun _ _ => eq_refl) (fun _ _ => eq_refl) i Hi) as [B1 B2].
  destruct (d_class_degrees g i HP Hi) as [D1 D2]. rewrite D1 in B1. rewrite D2 in B2. cbn [o_tol t_options] in B1, B2.
  pose proof (d_count_ge g i HP Hi) as Pc.
  split; [refine (Rle_trans _ _ _ B1 _)|refine (Rle_trans _ _ _ B2 _)]; (apply div_count; assumption).
Qed.
Lemma tool_dcm_exp e g t o o' r : (0 < dn_n g)%nat -> d_paired g -> ds_bo o = None ->
  (forall i, (i < dn_n g)%nat -> nth i (dn_out g) O <> O /\ nth i (dn_in g) O <> O) ->
  t_model t = "dcm_exp"%string -> In (t_method t) descent_methods ->
  d_tool e g t o = (o', None) -> d_report e g t o = Some r -> tolerance_reached (t_tol t) r ->
  exists x y err, ds_x o' = Some x /\ ds_y o' = Some y /\ ds_err o' = Some err /\ (forall i, (i < dn_n g)%nat -> 0 < x i /\ 0 < y i) /\ err <= t_tol t.
Proof.
  intros Hn HP Hbo Hd Hm Hme H HR HT.
  destruct (tool_dcm_state e g t o o' Hn HP Hbo ltac:(right; left; congruence) H) as (v & x & y & err & Ev & Ex & Ey & Ee & Exx & Eyy & i & Hi & Ei).
  exists x, y, err. split; [exact Ex|]. split; [exact Ey|]. split; [exact Ee|].
  unfold d_report in HR. unfold d_result in HR, Ev. rewrite Hm in HR, Ev, Exx, Eyy. names_in HR. names_in Ev.
  destruct (dcm_exp_core e g t _ _ _ _ _ r HP Hd Hme HR HT) as (w & Es & HY). rewrite Es in Ev. injection Ev as <-.
  assert (EX : x = fun j => exp (- w (d_class g j))) by exact Exx. assert (EY : y = fun j => exp (- w (d_class g j + d_classes_n g)%nat)) by exact Eyy. subst x y.
  split; [intros j Hj; split; apply exp_pos|]. destruct (HY i Hi) as [E1 E2]. destruct Ei as [Ei|Ei]; rewrite Ei; assumption.
Qed.

(** * Enhanced models *)
Lemma tool_decm_state e g t o o' : In (t_model t) ["decm"; "decm_exp"]%string -> d_tool e g t o = (o', None) ->
  exists v, solved_of (d_result e g t o) = Some v /\ let s := dir_factor "decm" (t_model t) v in
    ds_x o' = Some s /\ ds_y o' = Some (drop (dn_n g) s) /\ ds_bo o' = Some (drop (2 * dn_n g) s) /\ ds_bi o' = Some (drop (3 * dn_n g) s).
Proof.
  intros Hm H. unfold d_tool in H.
  assert (Hm4 : In (c_model (d_call e g t o)) ["dcm"; "dcm_exp"; "decm"; "decm_exp"]%string) by (cbn in Hm |- *; tauto).
  destruct (d_tool_problem _ _ _ _ Hm4 H) as (o1 & HS & HE). apply d_solve_decm in HS; [|exact Hm]. destruct HS as (d & v & _ & Hv & X1 & X2 & X3 & X4 & _).
  exists v. split; [exact Hv|]. cbv zeta. destruct (d_error_frame _ _ _ _ HE) as (F1 & F2 & F3 & F4 & _). rewrite F1, F2, F3, F4. auto.
Qed.
Lemma join4_drop n s r : (r < 4 * n)%nat -> join4 n s (drop n s) (drop (2 * n) s) (drop (3 * n) s) r = s r.
Proof.
  intros Hr. pattern r. apply (four_blocks n); [| | | |exact Hr]; intros i Hi; destruct (join4_blocks n s (drop n s) (drop (2 * n) s) (drop (3 * n) s) i Hi) as (A & B & C & D); assumption.
Qed.
Lemma decm_dom_ext n s u : (forall r, (r < 4 * n)%nat -> u r = s r) -> decm_dom n s -> decm_dom n u.
Proof.
  intros E [A B]. split; [intros r Hr; rewrite E by exact Hr; apply A; exact Hr|]. intros i j Hi Hj Hij. rewrite !E by lia. apply B; assumption.
Qed.
Lemma tool_decm_error e g t o o' v bound : (0 < dn_n g)%nat -> In (t_model t) ["decm"; "decm_exp"]%string -> d_tool e g t o = (o', None) ->
  solved_of (d_result e g t o) = Some v -> let s := dir_factor "decm" (t_model t) v in decm_dom (dn_n g) s ->
  (forall r, (r < 4 * dn_n g)%nat -> Rabs (decm_constraint (dn_n g) (at_list (dn_out g)) (at_list (dn_in g)) (dn_sout g) (dn_sin g) r - expected_decm (dn_n g) s r) <= bound) ->
  exists err, ds_err o' = Some err /\ err <= bound.
Proof.
  intros Hn Hm H Hv s HD HB. destruct (tool_decm_state e g t o o' Hm H) as (v' & Ev & X1 & X2 & X3 & X4). rewrite Hv in Ev. injection Ev as <-.
  fold s in X1, X2, X3, X4. set (n := dn_n g) in *.
  destruct (d_error_decm g (d_call e g t o) o o' Hn Hm H) as (v' & s' & x & y & bo & bi & e1 & e2 & e3 & e4 & _ & Y1 & Y2 & Y3 & Y4 & Ee & _ & _ & _ & _ & (_ & i1 & I1 & E1) & (_ & i2 & I2 & E2) & (_ & i3 & I3 & E3) & (_ & i4 & I4 & E4)).
  { intros x y bo bi Y1 Y2 Y3 Y4. fold n in X2, X3, X4. rewrite X1 in Y1. rewrite X2 in Y2. rewrite X3 in Y3. rewrite X4 in Y4.
    injection Y1 as <-. injection Y2 as <-. injection Y3 as <-. injection Y4 as <-. fold n.
    apply (decm_dom_ext n s); [|exact HD]. intros r Hr. apply join4_drop. exact Hr. }
  fold n in I1, I2, I3, I4, E1, E2, E3, E4. rewrite X1 in Y1. rewrite X2 in Y2. rewrite X3 in Y3. rewrite X4 in Y4. injection Y1 as <-. injection Y2 as <-. injection Y3 as <-. injection Y4 as <-.
  exists (Rmax (Rmax e1 e2) (Rmax e3 e4)). split; [exact Ee|]. repeat apply Rmax_lub.
  - rewrite E1. specialize (HB i1 ltac:(lia)). rewrite (expected_decm_0 n s HD i1 I1), constraint_0 in HB by exact I1. rewrite Rabs_minus_sym. exact HB.
  - rewrite E2. specialize (HB (i2 + n)%nat ltac:(lia)). rewrite (expected_decm_1 n s HD i2 I2), constraint_1 in HB by exact I2. rewrite Rabs_minus_sym. exact HB.
  - rewrite E3. specialize (HB (i3 + 2 * n)%nat ltac:(lia)). rewrite (expected_decm_2 n s HD i3 I3), constraint_2 in HB by exact I3. rewrite Rabs_minus_sym. exact HB.
  - rewrite E4. specialize (HB (i4 + 3 * n)%nat ltac:(lia)). rewrite (expected_decm_3 n s HD i4 I4), constraint_3 in HB by exact I4. rewrite Rabs_minus_sym. exact HB.
Qed.

Definition decm_start_ok (g : dnet) : Prop := forall i, (i < dn_n g)%nat ->
  nth i (dn_out g) O <> O /\ nth i (dn_in g) O <> O /\ dn_sout g i <> 0 /\ dn_sin g i <> 0.
Lemma decm_start_inside g rnd nm x0 : In nm weighted_names -> draws rnd -> nonneg (dn_n g) (dn_sout g) -> nonneg (dn_n g) (dn_sin g) ->
  decm_start_ok g -> (nm <> "strengths"%string \/ ~ single_flow (dn_n g) (dn_sout g) (dn_sin g)) ->
  d_start g "decm" rnd (GStr nm) = Some x0 -> positive_upto (4 * dn_n g) x0 /\ decm_dom (dn_n g) x0.
Proof.
  intros Hn Hr Ho Hi Hd Hs H. unfold d_start in H. names_in H.
  destruct (guess_decm_inside (dn_n g) (at_list (dn_out g)) (at_list (dn_in g)) (dn_sout g) (dn_sin g) rnd nm Hn ltac:(intros i _; apply pos_INR) ltac:(intros i _; apply pos_INR) Ho Hi Hr) as (s & x & Es & Fx & SI & DI).
  rewrite Es in H. cbn [start_of] in H.
  assert (EE : forall q, (q < 4 * dn_n g)%nat -> x0 q = x q).
  { intros q Hq. pose proof (all_fin_inv _ _ _ H q Hq) as E. rewrite (Fx q Hq) in E. congruence. }
  split; [|apply (decm_dom_ext _ x); [exact EE|apply DI; exact Hs]].
  intros q Hq. rewrite EE by exact Hq. apply (SI q Hq). clear - Hd Hq. pattern q. apply (four_blocks (dn_n g)); [| | | |exact Hq]; intros i L; destruct (Hd i L) as (A & B & C & D).
  - rewrite constraint_0 by exact L. apply not_0_INR. exact A.
  - rewrite constraint_1 by exact L. apply not_0_INR. exact B.
  - rewrite constraint_2 by exact L. exact C.
  - rewrite constraint_3 by exact L. exact D.
Qed.
Lemma decm_exp_start_pairs g rnd nm x0 : In nm weighted_names -> nm <> "strengths"%string -> draws rnd -> nonneg (dn_n g) (dn_sout g) -> nonneg (dn_n g) (dn_sin g) ->
  d_start g "decm_exp" rnd (GStr nm) = Some x0 -> decm_exp_pairs (dn_n g) x0.
Proof.
  intros Hn Hns Hr So Si H. unfold d_start in H. names_in H. set (n := dn_n g) in *.
  destruct (decm_values_named (/ 10) n (at_list (dn_out g)) (at_list (dn_in g)) (dn_sout g) (dn_sin g) rnd nm Hn ltac:(lra) ltac:(intros i _; apply pos_INR) ltac:(intros i _; apply pos_INR) So Si Hr)
    as (x & y & bo & bi & E & _ & _ & Ho & Hi).
  unfold set_initial_guess_decm_exp in H. rewrite E in H. cbn [gbind start_of g_x0] in H.
  pose proof (all_fin_inv _ _ _ H) as F. change (d_length g "decm_exp") with (4 * n)%nat in F. clear H.
  assert (K : forall s b i t, 0 <= s i -> where_zero s 1000 (neglog_nonzero b) i = Fin t ->
    (0 < s i -> exists v, b i = Fin v /\ 0 < v <= 1 /\ (nm <> "strengths"%string -> v < 1)) -> 0 < t).
  { intros s b i t P0 Et Hb. destruct (masked_exponent1000 s b i P0) as (t' & E' & A & B).
    { intros P. destruct (Hb P) as (v & Ev & [V _] & _). exists v. auto. }
    rewrite Et in E'. assert (Q : t = t') by congruence. subst t'. destruct (Req_dec (s i) 0) as [Z|Z]; [rewrite (proj2 (B Z)); lra|].
    specialize (A Z). destruct (Hb ltac:(lra)) as (v & Ev & _ & V1). rewrite Ev in A. assert (Q : v = exp (- t)) by congruence.
    specialize (V1 Hns). rewrite Q, <- exp_0 in V1. apply exp_lt_inv in V1. lra. }
  intros i j Li Lj.
  pose proof (F (i + 2 * n)%nat ltac:(lia)) as F1. pose proof (F (j + 3 * n)%nat ltac:(lia)) as F2. rewrite cat4_2 in F1 by exact Li. rewrite cat4_3 in F2 by exact Lj.
  pose proof (K _ _ _ _ (So i Li) F1 ltac:(intros P; destruct (Ho i Li P) as (v & A & B & C & _); exists v; auto)).
  pose proof (K _ _ _ _ (Si j Lj) F2 ltac:(intros P; destruct (Hi j Lj P) as (v & A & B & C & _); exists v; auto)). lra.
Qed.

Lemma tool_decm_exp e g t nm o o' r : (0 < dn_n g)%nat -> nonneg (dn_n g) (dn_sout g) -> nonneg (dn_n g) (dn_sin g) ->
  t_model t = "decm_exp"%string -> In (t_method t) descent_methods -> t_guess t = GStr nm -> In nm weighted_names -> nm <> "strengths"%string -> draws (v_rnd e) -> t_linsearch t = true ->
  d_tool e g t o = (o', None) -> d_report e g t o = Some r -> tolerance_reached (t_tol t) r ->
  exists x y bo bi err, ds_x o' = Some x /\ ds_y o' = Some y /\ ds_bo o' = Some bo /\ ds_bi o' = Some bi /\ ds_err o' = Some err /\
    (forall i, (i < dn_n g)%nat -> 0 < x i /\ 0 < y i /\ 0 < bo i /\ 0 < bi i) /\
    (forall i j, (i < dn_n g)%nat -> (j < dn_n g)%nat -> bo i * bi j < 1) /\ err <= t_tol t.
Proof.
  intros Hn So Si Hm Hme Hg Hnm Hns Hr HL H HR HT.
  destruct (tool_decm_state e g t o o' ltac:(right; left; congruence) H) as (v & Ev & X1 & X2 & X3 & X4).
  do 4 eexists. exists (match ds_err o' with Some err => err | None => 0 end).
  split; [exact X1|]. split; [exact X2|]. split; [exact X3|]. split; [exact X4|].
  assert (Ev' := Ev).
  unfold d_report in HR. unfold d_result in HR, Ev. rewrite Hm in HR, Ev. names_in HR. names_in Ev. unfold d_solver in HR, Ev. rewrite Hg, HL in HR, Ev.
  destruct (solve_reached _ _ _ _ _ _ _ HR HT) as (D & A & z & w & ED & EA & Ez & Hrun & Es & HC). rewrite Es in Ev. injection Ev as <-.
  rewrite dargs_decm in EA by (cbn; tauto). injection EA as <-.
  pose proof (decm_exp_start_pairs g (v_rnd e) nm z Hnm Hns Hr So Si Ez) as Pz.
  change (d_length g "decm_exp") with (4 * dn_n g)%nat in *.
  destruct (decm_exp_stays (v_linsolve e) (v_eigh_ok e) (v_eigh e) (v_fuel e) None (t_method t) (dn_n g) (at_list (dn_out g)) (at_list (dn_in g)) (dn_sout g) (dn_sin g)
    (t_options t (t_method t) true) z) as (D' & ED' & ST); try exact Pz; try reflexivity.
  { destruct Hme as [<-|[<-|[]]]; cbn; auto. }
  rewrite ED in ED'. injection ED' as <-. pose proof (ST _ _ _ _ _ Hrun) as Py. change (decm_exp_pairs (dn_n g) w) in Py.
  assert (ES : forall q, dir_factor "decm" (t_model t) {| o_x := w; o_inf := fun _ => false |} q = exp (- w q)) by (intros q; rewrite Hm; reflexivity).
  assert (DE : decm_exp_dom (dn_n g) w) by (intros i j Hi Hj _; apply Py; assumption).
  pose proof (fun q Hq => converged_decm_exp (nat -> nat -> R) (dn_n g) (at_list (dn_out g)) (at_list (dn_in g)) (dn_sout g) (dn_sin g) _ (run_problem (v_eigh e) (v_fuel e) (4 * dn_n g) D (A4 (dn_n g) (at_list (dn_out g)) (at_list (dn_in g)) (dn_sout g) (dn_sin g))) _ z w
    (run_exact (v_linsolve e) (v_eigh_ok e) _) (fun u f Ef => fun_decm_exp (t_method t) D _ _ _ _ _ u f Hme ED Ef) HC DE q Hq) as HB.
  destruct (tool_decm_error e g t o o' _ (t_tol t) Hn ltac:(right; left; congruence) H Ev') as (err & Ee & Be).
  { apply (decm_dom_ext _ (fun q => exp (- w q))); [intros q _; apply ES|apply decm_exp_dom_exp; exact DE]. }
  { intros q Hq. cbn [o_tol t_options] in HB. specialize (HB q Hq). rewrite Hm. exact HB. }
  rewrite Ee. split; [reflexivity|]. split; [|split; [|exact Be]].
  - intros i Hi. unfold drop. rewrite !ES. repeat split; apply exp_pos.
  - intros i j Hi Hj. unfold drop. rewrite !ES, <- exp_plus, <- exp_0. apply exp_increasing. specialize (Py i j Hi Hj). lra.
Qed.

Lemma fun_bounded n (f : nat -> R) : exists B, forall q, (q < n)%nat -> f q <= B.
Proof.
  induction n as [|n [B IH]]; [exists 0; lia|]. exists (Rmax B (f n)). intros q Hq. destruct (Nat.eq_dec q n) as [->|Hne]; [apply Rmax_r|].
  eapply Rle_trans; [apply IH; lia|apply Rmax_l].
Qed.
Lemma tool_decm e g t nm o o' r : (0 < dn_n g)%nat -> nonneg (dn_n g) (dn_sout g) -> nonneg (dn_n g) (dn_sin g) ->
  (forall i, (i < dn_n g)%nat -> nth i (dn_out g) O <> O /\ nth i (dn_in g) O <> O /\ dn_sout g i <> 0 /\ dn_sin g i <> 0) ->
  linear_solver (4 * dn_n g) (v_linsolve e) -> eigen_solver (4 * dn_n g) (v_eigh e) ->
  t_model t = "decm"%string -> In (t_method t) descent_methods -> t_guess t = GStr nm -> In nm weighted_names ->
  (nm <> "strengths"%string \/ ~ single_flow (dn_n g) (dn_sout g) (dn_sin g)) -> draws (v_rnd e) -> t_linsearch t = true ->
  d_tool e g t o = (o', None) -> d_report e g t o = Some r -> tolerance_reached (t_tol t) r -> never_gave_up r ->
  exists x y bo bi err, ds_x o' = Some x /\ ds_y o' = Some y /\ ds_bo o' = Some bo /\ ds_bi o' = Some bi /\ ds_err o' = Some err /\
    (forall i, (i < dn_n g)%nat -> 0 < x i /\ 0 < y i /\ 0 < bo i /\ 0 < bi i) /\
    (forall i j, (i < dn_n g)%nat -> (j < dn_n g)%nat -> i <> j -> bo i * bi j < 1) /\
    forall B, bounded_by (dn_n g) x B -> bounded_by (dn_n g) y B -> bounded_by (dn_n g) bo B -> bounded_by (dn_n g) bi B -> err <= B * t_tol t.
Proof.
  intros Hn So Si Hd HLS HES Hm Hme Hg Hnm Hns Hr HL H HR HT HG.
  destruct (tool_decm_state e g t o o' ltac:(left; congruence) H) as (v & Ev & X1 & X2 & X3 & X4).
  do 4 eexists. exists (match ds_err o' with Some err => err | None => 0 end).
  split; [exact X1|]. split; [exact X2|]. split; [exact X3|]. split; [exact X4|].
  assert (Ev' := Ev).
  unfold d_report in HR. unfold d_result in HR, Ev. rewrite Hm in HR, Ev. names_in HR. names_in Ev. unfold d_solver in HR, Ev. rewrite Hg, HL in HR, Ev.
  destruct (solve_reached _ _ _ _ _ _ _ HR HT) as (D & A & z & w & ED & EA & Ez & Hrun & Es & HC). rewrite Es in Ev. injection Ev as <-.
  rewrite dargs_decm in EA by (cbn; tauto). injection EA as <-.
  destruct (decm_start_inside g (v_rnd e) nm z Hnm Hr So Si Hd Hns Ez) as [Pz Dz].
  change (d_length g "decm") with (4 * dn_n g)%nat in *.
  pose proof (reached_tol_nonneg _ _ _ _ _ _ _ HC) as T0. cbn [o_tol t_options] in T0.
  destruct (decm_increases (v_linsolve e) (v_eigh_ok e) (v_eigh e) (v_fuel e) None (t_method t) (dn_n g) (at_list (dn_out g)) (at_list (dn_in g)) (dn_sout g) (dn_sin g)
    (t_options t (t_method t) true) z HLS HES Hme) as (D' & ED' & ST); try exact Pz; try exact Dz.
  { repeat split; cbn [o_regularise_eps o_tol t_options]; try assumption; lra. }
  { intros _ Z. discriminate Z. }
  rewrite ED in ED'. injection ED' as <-. destruct (ST _ _ _ _ _ Hrun HG) as [[Pw Dw] _].
  assert (ES : forall q, dir_factor "decm" (t_model t) {| o_x := w; o_inf := fun _ => false |} q = w q) by (intros q; rewrite Hm; reflexivity).
  assert (PP : forall i, (i < dn_n g)%nat -> 0 < w i /\ 0 < w (i + dn_n g)%nat /\ 0 < w (i + 2 * dn_n g)%nat /\ 0 < w (i + 3 * dn_n g)%nat) by (intros i Hi; repeat split; apply Pw; lia).
  pose proof (fun q Hq => converged_decm (nat -> nat -> R) (dn_n g) (at_list (dn_out g)) (at_list (dn_in g)) (dn_sout g) (dn_sin g) _ (run_problem (v_eigh e) (v_fuel e) (4 * dn_n g) D (A4 (dn_n g) (at_list (dn_out g)) (at_list (dn_in g)) (dn_sout g) (dn_sin g))) _ z w
    (run_exact (v_linsolve e) (v_eigh_ok e) _) (fun u f Ef q _ => when_some _ _ _ (eq_trans (eq_sym (fun_decm (t_method t) D _ _ _ _ _ u Hme ED)) Ef) q) HC Dw q Hq (Pw q Hq)) as HB.
  assert (HE : forall B, (forall q, (q < 4 * dn_n g)%nat -> w q <= B) -> exists err, ds_err o' = Some err /\ err <= B * t_tol t).
  { intros B HBd. refine (tool_decm_error e g t o o' _ (B * t_tol t) Hn _ H Ev' _ _).
    - left; congruence.
    - apply (decm_dom_ext _ w); [intros q _; apply ES|exact Dw].
    - intros q Hq. specialize (HB q Hq). cbn [o_tol t_options] in HB. rewrite Hm. refine (Rle_trans _ _ _ HB _).
      apply Rmult_le_compat_r; [exact T0|]. apply HBd. exact Hq. }
  assert (EX : exists err, ds_err o' = Some err).
  { destruct (fun_bounded (4 * dn_n g) w) as (B & HBd). destruct (HE B HBd) as (err & Ee & _). exists err. exact Ee. }
  destruct EX as (err & Ee). rewrite Ee. split; [reflexivity|]. split; [|split].
  - intros i Hi. unfold drop. rewrite !ES. apply PP. exact Hi.
  - intros i j Hi Hj Hij. unfold drop. rewrite !ES. apply Dw; assumption.
  - intros B B1 B2 B3 B4. destruct (HE B) as (err' & Ee' & Be).
    { apply (four_blocks (dn_n g)); intros i Hi; [specialize (B1 i Hi)|specialize (B2 i Hi)|specialize (B3 i Hi)|specialize (B4 i Hi)];
        unfold drop in *; rewrite ES in *; assumption. }
    rewrite Ee in Ee'. injection Ee' as <-. exact Be.
Qed.

(** * CReMa *)
Lemma crema_dir_start_inside g rnd nm p x0 : In nm ["random"; "strengths"; "strengths_minor"]%string ->
  nonneg (dn_n g) (dn_sout g) -> nonneg (dn_n g) (dn_sin g) -> draws rnd ->
  (forall i j, (i < dn_n g)%nat -> (j < dn_n g)%nat -> p i j <> 0 -> dn_sout g i <> 0 \/ dn_sin g j <> 0) ->
  d_start g "crema" rnd (GStr nm) = Some x0 -> crema_dir_dom (dn_n g) (all_edges (dn_n g) p) x0.
Proof.
  intros Hn Ho Hi Hr Hp H. unfold d_start in H. names_in H.
  destruct (guess_crema_directed_inside (dn_n g) (dn_sout g) (dn_sin g) rnd nm Hn Ho Hi Hr) as (s & th & Es & Ft & HI). rewrite Es in H. cbn [start_of] in H.
  change (d_length g "crema") with (2 * dn_n g)%nat in H.
  assert (EE : forall q, (q < 2 * dn_n g)%nat -> x0 q = th q).
  { intros q Hq. pose proof (all_fin_inv _ _ _ H q Hq) as E. rewrite (Ft q Hq) in E. congruence. }
  intros i j w Hin. apply in_all in Hin. destruct Hin as (Li & Lj & -> & Hp'). rewrite !EE by lia.
  assert (P : forall c v, starts_inside c v -> 0 <= v /\ (c <> 0 -> 0 < v)).
  { intros c v [A B]. split; [|exact A]. destruct (Req_dec c 0) as [Z|Z]; [rewrite B by exact Z; lra|left; apply A; exact Z]. }
  destruct (P _ _ (proj1 (HI i Li))) as [A1 A2]. destruct (P _ _ (proj2 (HI j Lj))) as [B1 B2].
  destruct (Hp i j Li Lj Hp') as [Z|Z]; [specialize (A2 Z)|specialize (B2 Z)]; lra.
Qed.

Lemma crema_dir_core e g t p nm r : linear_solver (2 * dn_n g) (v_linsolve e) -> eigen_solver (2 * dn_n g) (v_eigh e) ->
  nonneg (dn_n g) (dn_sout g) -> nonneg (dn_n g) (dn_sin g) -> (forall i j, (i < dn_n g)%nat -> (j < dn_n g)%nat -> 0 <= p i j) ->
  (forall i j, (i < dn_n g)%nat -> (j < dn_n g)%nat -> p i j <> 0 -> dn_sout g i <> 0 \/ dn_sin g j <> 0) ->
  In (t_method t) descent_methods -> t_guess t = GStr nm -> In nm ["random"; "strengths"; "strengths_minor"]%string -> draws (v_rnd e) -> t_linsearch t = true ->
  let result := d_solver e g t "crema" (t_method t) (t_linsearch t) (v_rnd e) (t_guess t) (Some (Triples (all_edges (dn_n g) p))) in
  report_of result = Some r -> tolerance_reached (t_tol t) r -> never_gave_up r ->
  exists w, solved_of result = Some {| o_x := w; o_inf := fun _ => false |} /\ positive_rates_dir (dn_n g) p w (drop (dn_n g) w) /\
    forall i, (i < dn_n g)%nat -> Rabs (crema_mean_out (dn_n g) p w (drop (dn_n g) w) i - dn_sout g i) <= t_tol t /\
                                  Rabs (crema_mean_in (dn_n g) p w (drop (dn_n g) w) i - dn_sin g i) <= t_tol t.
Proof.
  intros HLS HES Ho Hi Hp Hd Hme Hg Hnm Hr HL result HR HT HG. unfold result, d_solver in *. rewrite Hg, HL in *.
  destruct (solve_reached _ _ _ _ _ _ _ HR HT) as (D & A & z & w & ED & EA & Ez & Hrun & Es & HC).
  rewrite dargs_crema in EA. injection EA as <-. exists w. split; [exact Es|].
  pose proof (crema_dir_start_inside g (v_rnd e) nm p z Hnm Ho Hi Hr Hd Ez) as Pz.
  pose proof (reached_tol_nonneg _ _ _ _ _ _ _ HC) as T0. cbn [o_tol t_options] in T0.
  change (d_length g "crema") with (2 * dn_n g)%nat in *.
  destruct (crema_dir_increases (v_linsolve e) (v_eigh_ok e) (v_eigh e) (v_fuel e) None (t_method t) (dn_n g) (dn_sout g) (dn_sin g) (all_edges (dn_n g) p)
    (nz_real (dn_n g) (dn_sout g)) (nz_real (dn_n g) (dn_sin g)) (t_options t (t_method t) true) z HLS HES Hme) as (D' & ED' & ST).
  { repeat split; cbn [o_regularise_eps o_tol t_options]; try assumption; lra. }
  { apply all_below. }
  { apply (all_edges_simple (dn_n g) p). }
  { intros i j v Hin. apply in_all in Hin. destruct Hin as (Li & Lj & -> & _). apply Hp; assumption. }
  { exact Pz. }
  rewrite ED in ED'. injection ED' as <-. destruct (ST _ _ _ _ _ Hrun HG) as [Dw _].
  assert (PR : positive_rates_dir (dn_n g) p w (drop (dn_n g) w)) by (intros i j Li Lj Hpn; apply (Dw i j (p i j)); apply in_all; repeat split; assumption).
  split; [exact PR|]. intros i Hin.
  destruct (converged_crema_directed (nat -> nat -> R) (dn_n g) (dn_sout g) (dn_sin g) (all_edges (dn_n g) p) (nz_real (dn_n g) (dn_sout g)) (nz_real (dn_n g) (dn_sin g)) _
    (run_problem (v_eigh e) (v_fuel e) (2 * dn_n g) D (d_args_crema g (Triples (all_edges (dn_n g) p)))) _ z w
    (nz_real_list _ _) (nz_real_list _ _) (all_below _ _) (run_exact (v_linsolve e) (v_eigh_ok e) _) (fun u => fun_crema_dir (t_method t) D _ _ _ _ _ _ u Hme ED) HC Dw) as (EO & EI & E1 & E2 & HB).
  destruct (expected_all (dn_n g) p w PR) as (EO' & EI' & E1' & E2' & HM). rewrite E1 in E1'. injection E1' as <-. rewrite E2 in E2'. injection E2' as <-.
  destruct (HM i Hin) as [<- <-]. rewrite Rabs_minus_sym, (Rabs_minus_sym (EI i)). apply HB. exact Hin.
Qed.

Lemma tool_crema_dir_matrix e g t a nm o o' r : (0 < dn_n g)%nat -> linear_solver (2 * dn_n g) (v_linsolve e) -> eigen_solver (2 * dn_n g) (v_eigh e) ->
  nonneg (dn_n g) (dn_sout g) -> nonneg (dn_n g) (dn_sin g) -> (forall i j, (i < dn_n g)%nat -> (j < dn_n g)%nat -> 0 <= a i j) ->
  (forall i j, (i < dn_n g)%nat -> (j < dn_n g)%nat -> a i j <> 0 -> dn_sout g i <> 0 \/ dn_sin g j <> 0) ->
  t_model t = "crema"%string -> t_adjacency t = AdjMatrix a ->
  In (t_method t) descent_methods -> t_guess t = GStr nm -> In nm ["random"; "strengths"; "strengths_minor"]%string -> draws (v_rnd e) -> t_linsearch t = true ->
  d_tool e g t o = (o', None) -> d_report e g t o = Some r -> tolerance_reached (t_tol t) r -> never_gave_up r ->
  exists bo bi err, ds_bo o' = Some bo /\ ds_bi o' = Some bi /\ ds_err o' = Some err /\ positive_rates_dir (dn_n g) a bo bi /\ err <= t_tol t.
Proof.
  intros Hn HLS HES Ho Hi Hp Hd Hm Ha Hme Hg Hnm Hr HL H HR HT HG.
  assert (ER : d_result e g t o = d_solver e g t "crema" (t_method t) (t_linsearch t) (v_rnd e) (t_guess t) (Some (Triples (all_edges (dn_n g) a)))).
  { unfold d_result, d_set_adjacency. cbn [c_adjacency c_model d_call_adjacency]. rewrite Hm, Ha. names. reflexivity. }
  unfold d_report in HR. rewrite ER in HR.
  destruct (crema_dir_core e g t a nm r HLS HES Ho Hi Hp Hd Hme Hg Hnm Hr HL HR HT HG) as (w & Ew & PR & HB). rewrite <- ER in Ew.
  assert (HM : In (c_model (d_call e g t o)) ["crema"; "crema-sparse"]%string) by (left; symmetry; exact Hm).
  assert (EB : ds_bo o' = Some w /\ ds_bi o' = Some (drop (dn_n g) w)).
  { destruct (d_tool_crema _ _ _ _ HM H) as (o1 & H1 & H2). apply d_crema_inv in H1; [|exact HM].
    destruct H1 as (o2 & d & v & v0 & adj & HA & _ & Hv & HJ & ->). destruct (d_error_frame _ _ _ _ H2) as (_ & _ & FB & FB' & _). cbn in FB, FB'. rewrite FB, FB'.
    cbn [c_out d_call d_call_adjacency] in Hv. rewrite Ew in Hv. injection Hv as <-. split; reflexivity. }
  destruct EB as [EB EB'].
  destruct (d_error_crema_matrix g (d_call e g t o) o o' a Hn HM Ha H) as (v & bo & bi & e1 & e2 & _ & Y1 & Y2 & Ee & _ & (_ & i & Li & Ei) & (_ & j & Lj & Ej)).
  { intros bo bi Y1 Y2. rewrite EB in Y1. rewrite EB' in Y2. injection Y1 as <-. injection Y2 as <-. exact PR. }
  rewrite EB in Y1. rewrite EB' in Y2. injection Y1 as <-. injection Y2 as <-.
  exists w, (drop (dn_n g) w), (Rmax e1 e2). split; [exact EB|]. split; [exact EB'|]. split; [exact Ee|]. split; [exact PR|].
  apply Rmax_lub; [rewrite Ei|rewrite Ej]; apply HB; assumption.
Qed.

(** CReMa with the adjacency inferred from the degrees. *)
Lemma supported_le n k x : supported n k x -> forall i, (i < n)%nat -> 0 <= x i.
Proof. intros H i Hi. destruct (H i Hi) as [A B]. destruct (Req_dec (k i) 0) as [Z|Z]; [rewrite B by exact Z; lra|left; apply A; exact Z]. Qed.
Lemma tool_crema_dir_state e g t a nm w o o' r : (0 < dn_n g)%nat -> d_paired g -> linear_solver (2 * dn_n g) (v_linsolve e) -> eigen_solver (2 * dn_n g) (v_eigh e) ->
  nonneg (dn_n g) (dn_sout g) -> nonneg (dn_n g) (dn_sin g) ->
  (forall i j, (i < dn_n g)%nat -> (j < dn_n g)%nat -> i <> j -> nth i (dn_out g) O <> O -> nth j (dn_in g) O <> O -> dn_sout g i <> 0 \/ dn_sin g j <> 0) ->
  t_model t = "crema"%string -> t_adjacency t = AdjName a -> In a ["dcm"; "dcm_exp"]%string ->
  solved_of (d_result_adjacency e g t) = Some {| o_x := w; o_inf := fun _ => false |} ->
  let s := dir_factor "dcm" a {| o_x := w; o_inf := fun _ => false |} in
  let x := fun i => s (d_class g i) in let y := fun i => drop (d_classes_n g) s (d_class g i) in
  supported (dn_n g) (at_list (dn_out g)) x -> supported (dn_n g) (at_list (dn_in g)) y ->
  In (t_method t) descent_methods -> t_guess t = GStr nm -> In nm ["random"; "strengths"; "strengths_minor"]%string -> draws (v_rnd e) -> t_linsearch t = true ->
  d_tool e g t o = (o', None) -> d_report e g t o = Some r -> tolerance_reached (t_tol t) r -> never_gave_up r ->
  exists bo bi ek es, ds_x o' = Some x /\ ds_y o' = Some y /\ ds_bo o' = Some bo /\ ds_bi o' = Some bi /\ ds_err o' = Some (Rmax es ek) /\
    positive_rates_dir (dn_n g) (dcm_prob x y) bo bi /\ es <= t_tol t /\
    exists i, (i < dn_n g)%nat /\ (ek = Rabs (at_list (dn_out g) i - expected_out_degree_dcm (dn_n g) (join2 (dn_n g) x y) i) \/
                                   ek = Rabs (at_list (dn_in g) i - expected_in_degree_dcm (dn_n g) (join2 (dn_n g) x y) i)).
Proof.
  intros Hn HP HLS HES Ho Hi Hd Hm Ha Hna Hsol s x y Sx Sy Hme Hg Hnm Hr HL H HR HT HG.
  assert (HM : In (c_model (d_call e g t o)) ["crema"; "crema-sparse"]%string) by (left; symmetry; exact Hm).
  destruct (d_tool_crema _ _ _ _ HM H) as (o1 & H1 & H2). apply d_crema_inv in H1; [|exact HM].
  destruct H1 as (o2 & d & v & v0 & adj & HA & _ & Hv & HJ & ->). destruct (d_error_frame _ _ _ _ H2) as (FX & FY & FB & FB' & _). cbn in FB, FB', FX, FY.
  destruct (d_adj_name g (d_call e g t o) _ a _ Ha Hna HA) as (va & Hva & J1 & J1' & J2 & J3 & J4). cbn [c_out_adjacency d_call d_call_adjacency] in Hva. rewrite Hsol in Hva. injection Hva as <-.
  fold s in J1, J1', J4. fold x in J1, J4. fold y in J1', J4. rewrite J1 in FX. rewrite J1' in FY.
  replace (String.eqb (c_model (d_call e g t o)) "crema-sparse") with false in J3, J4 by (cbn [c_model d_call d_call_adjacency]; rewrite Hm; reflexivity).
  rewrite (all_edges_ext (dn_n g) (d_pm g x y) (dcm_prob x y)) in J4 by (intros; apply d_pm_prob; assumption).
  assert (ER : d_result e g t o = d_solver e g t "crema" (t_method t) (t_linsearch t) (v_rnd e) (t_guess t) (Some (Triples (all_edges (dn_n g) (dcm_prob x y))))).
  { unfold d_result. change (d_set_adjacency g (d_call_adjacency e g t None) o) with (d_set_adjacency g (d_call e g t o) o). rewrite HA. cbn [fst].
    rewrite Hm, J3, J4. names. reflexivity. }
  unfold d_report in HR. rewrite ER in HR.
  assert (P0 : forall i j, (i < dn_n g)%nat -> (j < dn_n g)%nat -> 0 <= dcm_prob x y i j).
  { intros i j Li Lj. unfold dcm_prob. destruct (Nat.eqb i j); [lra|].
    assert (0 <= x i * y j) by (apply Rmult_le_pos; [apply (supported_le _ _ _ Sx)|apply (supported_le _ _ _ Sy)]; assumption).
    apply Rmult_le_pos; [assumption|]. left. apply Rinv_0_lt_compat. lra. }
  assert (PD : forall i j, (i < dn_n g)%nat -> (j < dn_n g)%nat -> dcm_prob x y i j <> 0 -> dn_sout g i <> 0 \/ dn_sin g j <> 0).
  { intros i j Li Lj Hpn. unfold dcm_prob in Hpn. destruct (Nat.eqb_spec i j) as [E|E]; [exfalso; apply Hpn; reflexivity|]. apply Hd; try assumption.
    - intros Z. apply Hpn. rewrite (proj2 (Sx i Li)) by (unfold at_list; rewrite Z; reflexivity). unfold Rdiv. ring.
    - intros Z. apply Hpn. rewrite (proj2 (Sy j Lj)) by (unfold at_list; rewrite Z; reflexivity). unfold Rdiv. ring. }
  destruct (crema_dir_core e g t (dcm_prob x y) nm r HLS HES Ho Hi P0 PD Hme Hg Hnm Hr HL HR HT HG) as (b & Ew & PR & HB).
  cbn [c_out d_call d_call_adjacency] in Hv. rewrite ER, Ew in Hv. injection Hv as <-. cbn [o_x] in FB, FB'.
  destruct (d_error_crema_name g (d_call e g t o) o o' a Hn HP HM Ha Hna H) as (va & v & s' & cls & m & x' & y' & bo & bi & e1 & e2 & e3 & e4 & _ & _ & EX & EY & EB & EB' & Ee & _ & _ & _ & _ & (_ & i1 & I1 & E1) & (_ & i2 & I2 & E2) & (_ & i3 & I3 & E3) & (_ & i4 & I4 & E4)).
  { intros x' y' bo bi E1 E2 E3 E4. rewrite FX in E1. rewrite FY in E2. rewrite FB in E3. rewrite FB' in E4.
    injection E1 as <-. injection E2 as <-. injection E3 as <-. injection E4 as <-. split; [exact Sx|]. split; [exact Sy|exact PR]. }
  rewrite FX in EX. rewrite FY in EY. rewrite FB in EB. rewrite FB' in EB'. injection EX as <-. injection EY as <-. injection EB as <-. injection EB' as <-.
  exists b, (drop (dn_n g) b), (Rmax e1 e2), (Rmax e3 e4). split; [exact FX|]. split; [exact FY|]. split; [exact FB|]. split; [exact FB'|]. split; [exact Ee|]. split; [exact PR|]. split.
  - apply Rmax_lub; [rewrite E3|rewrite E4]; apply HB; assumption.
  - unfold Rmax. destruct (Rle_dec e1 e2) as [_|_].
    + exists i2. split; [exact I2|]. right. rewrite E2, Rabs_minus_sym. f_equal. f_equal. symmetry. apply d_mean_in. exact I2.
    + exists i1. split; [exact I1|]. left. rewrite E1, Rabs_minus_sym. f_equal. f_equal. symmetry. apply d_mean_out. exact I1.
Qed.

Lemma tool_crema_dcm e g t nma nm o o' ra r : (0 < dn_n g)%nat -> d_paired g -> balanced (dn_out g) (dn_in g) ->
  linear_solver (2 * dn_n g) (v_linsolve e) -> eigen_solver (2 * dn_n g) (v_eigh e) ->
  linear_solver (d_length g "dcm") (v_linsolve e) -> eigen_solver (d_length g "dcm") (v_eigh e) ->
  nonneg (dn_n g) (dn_sout g) -> nonneg (dn_n g) (dn_sin g) ->
  (forall i j, (i < dn_n g)%nat -> (j < dn_n g)%nat -> i <> j -> nth i (dn_out g) O <> O -> nth j (dn_in g) O <> O -> dn_sout g i <> 0 \/ dn_sin g j <> 0) ->
  t_model t = "crema"%string -> t_adjacency t = AdjName "dcm" -> In (t_method_adjacency t) descent_methods ->
  t_guess_adjacency t = GStr nma -> In nma binary_names -> draws (v_rnd_adjacency e) ->
  In (t_method t) descent_methods -> t_guess t = GStr nm -> In nm ["random"; "strengths"; "strengths_minor"]%string -> draws (v_rnd e) -> t_linsearch t = true ->
  d_tool e g t o = (o', None) ->
  d_report_adjacency e g t = Some ra -> tolerance_reached (t_tol t) ra ->
  d_report e g t o = Some r -> tolerance_reached (t_tol t) r -> never_gave_up r ->
  exists x y bo bi err, ds_x o' = Some x /\ ds_y o' = Some y /\ ds_bo o' = Some bo /\ ds_bi o' = Some bi /\ ds_err o' = Some err /\
    supported (dn_n g) (at_list (dn_out g)) x /\ supported (dn_n g) (at_list (dn_in g)) y /\
    positive_rates_dir (dn_n g) (dcm_prob x y) bo bi /\
    forall B, 1 <= B -> bounded_by (dn_n g) x B -> bounded_by (dn_n g) y B -> err <= B * t_tol t.
Proof.
  intros Hn HP Hb HLS HES HLS' HES' Ho Hi Hd Hm Ha Hma Hga Hna Hra Hme Hg Hnm Hr HL H HRA HTA HR HT HG.
  unfold d_report_adjacency, d_result_adjacency in HRA. rewrite Ha, Hga in HRA.
  destruct (dcm_core e g t _ _ nma _ ra HP HLS' HES' Hb Hma Hna Hra HRA HTA) as (w & Es & T0 & Fw & HY).
  assert (Es' : solved_of (d_result_adjacency e g t) = Some {| o_x := w; o_inf := fun _ => false |}) by (unfold d_result_adjacency; rewrite Ha, Hga; exact Es).
  destruct (full_supported g w HP Fw) as [S1 S2].
  destruct (tool_crema_dir_state e g t "dcm" nm w o o' r Hn HP HLS HES Ho Hi Hd Hm Ha ltac:(cbn; auto) Es' S1 S2) as (bo & bi & ek & es & Ex & Ey & Eb & Eb' & Ee & PR & B1 & i & Li & Ei); try assumption.
  do 4 eexists. exists (Rmax es ek). split; [exact Ex|]. split; [exact Ey|]. split; [exact Eb|]. split; [exact Eb'|]. split; [exact Ee|]. split; [exact S1|]. split; [exact S2|]. split; [exact PR|].
  intros B B0 HB1 HB2. apply Rmax_lub.
  - assert (1 * t_tol t <= B * t_tol t) by (apply Rmult_le_compat_r; assumption). lra.
  - destruct (HY i Li) as [E1 E2]. specialize (HB1 i Li). specialize (HB2 i Li). cbv beta in HB1, HB2.
    destruct Ei as [Ei|Ei]; rewrite Ei; [refine (Rle_trans _ _ _ E1 _)|refine (Rle_trans _ _ _ E2 _)]; apply Rmult_le_compat_r; assumption.
Qed.
Lemma tool_crema_dcm_exp e g t nm o o' ra r : (0 < dn_n g)%nat -> d_paired g ->
  (forall i, (i < dn_n g)%nat -> nth i (dn_out g) O <> O /\ nth i (dn_in g) O <> O) ->
  linear_solver (2 * dn_n g) (v_linsolve e) -> eigen_solver (2 * dn_n g) (v_eigh e) ->
  nonneg (dn_n g) (dn_sout g) -> nonneg (dn_n g) (dn_sin g) ->
  (forall i j, (i < dn_n g)%nat -> (j < dn_n g)%nat -> i <> j -> dn_sout g i <> 0 \/ dn_sin g j <> 0) ->
  t_model t = "crema"%string -> t_adjacency t = AdjName "dcm_exp" -> In (t_method_adjacency t) descent_methods ->
  In (t_method t) descent_methods -> t_guess t = GStr nm -> In nm ["random"; "strengths"; "strengths_minor"]%string -> draws (v_rnd e) -> t_linsearch t = true ->
  d_tool e g t o = (o', None) ->
  d_report_adjacency e g t = Some ra -> tolerance_reached (t_tol t) ra ->
  d_report e g t o = Some r -> tolerance_reached (t_tol t) r -> never_gave_up r ->
  exists x y bo bi err, ds_x o' = Some x /\ ds_y o' = Some y /\ ds_bo o' = Some bo /\ ds_bi o' = Some bi /\ ds_err o' = Some err /\
    (forall i, (i < dn_n g)%nat -> 0 < x i /\ 0 < y i) /\ positive_rates_dir (dn_n g) (dcm_prob x y) bo bi /\ err <= t_tol t.
Proof.
  intros Hn HP Hdeg HLS HES Ho Hi Hd Hm Ha Hma Hme Hg Hnm Hr HL H HRA HTA HR HT HG.
  unfold d_report_adjacency, d_result_adjacency in HRA. rewrite Ha in HRA.
  destruct (dcm_exp_core e g t _ _ _ _ _ ra HP Hdeg Hma HRA HTA) as (w & Es & HY).
  assert (Es' : solved_of (d_result_adjacency e g t) = Some {| o_x := w; o_inf := fun _ => false |}) by (unfold d_result_adjacency; rewrite Ha; exact Es).
  destruct (tool_crema_dir_state e g t "dcm_exp" nm w o o' r Hn HP HLS HES Ho Hi) as (bo & bi & ek & es & Ex & Ey & Eb & Eb' & Ee & PR & B1 & i & Li & Ei); try assumption; try (cbn; tauto).
  { intros i j Li Lj Hij _ _. apply Hd; assumption. }
  { intros i Li. split; intros Z; [apply exp_pos|]. exfalso. revert Z. apply not_0_INR. apply (Hdeg i Li). }
  { intros i Li. split; intros Z; [apply exp_pos|]. exfalso. revert Z. apply not_0_INR. apply (Hdeg i Li). }
  do 4 eexists. exists (Rmax es ek). split; [exact Ex|]. split; [exact Ey|]. split; [exact Eb|]. split; [exact Eb'|]. split; [exact Ee|].
  split; [intros j Lj; split; apply exp_pos|]. split; [exact PR|].
  apply Rmax_lub; [exact B1|]. destruct (HY i Li) as [E1 E2]. destruct Ei as [Ei|Ei]; rewrite Ei; assumption.
Qed.
