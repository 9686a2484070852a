(** Whole calls of [solve_tool] with crema-sparse and quasinewton on a DirectedGraph. *)
From Coq Require Import Reals List Arith Bool String Lia Lra.
From Verif Require Import Base SpecDeriv SpecGraph SpecEnsemble SpecWeighted SpecDirected SpecCReMa SpecNetwork SpecLinsearch SpecDispatch SpecRun SpecSolver SpecSolve SpecGuess SpecTool
  ModelCM ModelECM ModelDCM ModelDECM ModelCReMa ModelIEEE ModelNetwork ModelLinsearch ModelSolver ModelDispatch ModelGuess ModelRun ModelSolve ModelTool.
From Verif Require Import ProofsList ProofsGraph ProofsUnique ProofsCM ProofsMainCM ProofsCReMa ProofsMainCReMa ProofsSparseCReMa ProofsDirCReMa ProofsDirSparseCReMa ProofsAdjacency ProofsSolver ProofsConverged ProofsGuess ProofsGuessW ProofsDispatch ProofsRun ProofsIterates ProofsAscentU ProofsAscentSparse
  ProofsStays ProofsSolve ProofsSolveU ProofsSolveD ProofsTool ProofsToolD.
Import ListNotations.
Local Open Scope R_scope.

Lemma dargs_crema_sparse g adj : d_args g "crema-sparse" (Some adj) = Some (d_args_crema g adj).
Proof. reflexivity. Qed.
Lemma start_crema_dir_sparse g rnd s : d_start g "crema-sparse" rnd s = d_start g "crema" rnd s.
Proof. reflexivity. Qed.
(** A finite entry of the sparse gradient divides by nonzero sums only. *)
Lemma fadd_finite a b r : fadd a b = Fin r -> (exists p, a = Fin p) /\ (exists q, b = Fin q).
Proof. destruct a, b; cbn [fadd]; intros H; try discriminate H; split; eexists; reflexivity. Qed.
Lemma fsum_finite n v r : fsum n v = Fin r -> forall j, (j < n)%nat -> exists q, v j = Fin q.
Proof.
  unfold fsum. revert r. induction n as [|n IH]; intros r H j Hj; [lia|]. rewrite loop_S in H. destruct (fadd_finite _ _ _ H) as [[p Hp] Hq].
  destruct (Nat.eq_dec j n) as [->|]; [exact Hq|]. apply (IH p Hp). lia.
Qed.
Lemma fquo_finite a b r : fquo a (Fin b) = Fin r -> b <> 0.
Proof.
  intros H ->. destruct a as [a| | |]; cbn [fquo] in H; [unfold fdiv in H; destruct (Req_EM_T 0 0); [|congruence]; destruct (Req_EM_T a 0); [discriminate|]; destruct (Rlt_dec 0 a); discriminate| | |discriminate];
    destruct (Rlt_dec 0 0); discriminate.
Qed.
Lemma fsub_finite a b r : fsub a b = Fin r -> exists p, a = Fin p.
Proof. unfold fsub. intros H. apply (fadd_finite _ _ _ H). Qed.
Lemma dir_sparse_finite n so si x y nzo nzi b r q : (r < n + n)%nat -> loglikelihood_prime_crema_directed_sparse n so si x y nzo nzi b r = Fin q ->
  (forall i, r = i -> (i < n)%nat -> In i nzo -> forall j, (j < n)%nat -> b i + b (j + n)%nat <> 0) /\
  (forall j, r = (j + n)%nat -> In j nzi -> forall i, (i < n)%nat -> b i + b (j + n)%nat <> 0).
Proof.
  intros Hr H. unfold loglikelihood_prime_crema_directed_sparse in H. split.
  - intros i -> Hi M j Hj. rewrite (proj2 (Nat.ltb_lt i n) Hi) in H. cbv zeta in H. destruct (memb_spec i nzo) as [_|N]; [|contradiction].
    destruct (fadd_finite _ _ _ H) as [_ [p Hp]]. destruct (fsub_finite _ _ _ Hp) as [p' Hp']. destruct (fsum_finite _ _ _ Hp' j Hj) as [s Hs]. exact (fquo_finite _ _ _ Hs).
  - intros j -> M i Hi. rewrite (proj2 (Nat.ltb_ge (j + n) n)) in H by lia. cbv zeta in H. rewrite Nat.add_sub in H. destruct (memb_spec j nzi) as [_|N]; [|contradiction].
    destruct (fadd_finite _ _ _ H) as [_ [p Hp]]. destruct (fsub_finite _ _ _ Hp) as [p' Hp']. destruct (fsum_finite _ _ _ Hp' i Hi) as [s Hs]. exact (fquo_finite _ _ _ Hs).
Qed.
Lemma dir_sparse_gradient_at n so si x y nzo nzi w f : (forall i, (i < n)%nat -> 0 <= x i) -> (forall i, (i < n)%nat -> 0 <= y i) ->
  nonzero_list n so nzo -> nonzero_list n si nzi -> (forall i, (i < n)%nat -> (x i <> 0 <-> so i <> 0)) -> (forall i, (i < n)%nat -> (y i <> 0 <-> si i <> 0)) ->
  crema_dir_dom n (all_edges n (dcm_prob x y)) w ->
  real_vec (2 * n) (run_entry (Neg "loglikelihood_prime_crema_directed_sparse") (A5c n so si (Factors2 x y) nzo nzi) w) = Some f ->
  exists F, loglikelihood_prime_crema_directed n so si (all_edges n (dcm_prob x y)) nzo nzi w = Some F /\ forall r, (r < 2 * n)%nat -> f r = - F r.
Proof.
  intros Hx Hy Ho Hi Cx Cy HD E. change (all_fin (2 * n) (fun r => fopp (loglikelihood_prime_crema_directed_sparse n so si x y nzo nzi w r)) = Some f) in E.
  pose proof (fun r Hr => all_fin_inv _ _ _ E r Hr) as V. cbv beta in V.
  assert (FV : forall r, (r < 2 * n)%nat -> loglikelihood_prime_crema_directed_sparse n so si x y nzo nzi w r = Fin (- f r)).
  { intros r Hr. specialize (V r Hr). destruct (loglikelihood_prime_crema_directed_sparse n so si x y nzo nzi w r) as [q| | |]; try discriminate V. cbn [fopp] in V. injection V as V. f_equal. lra. }
  assert (NZ : forall i j, (i < n)%nat -> (j < n)%nat -> so i <> 0 \/ si j <> 0 -> w i + w (j + n)%nat <> 0).
  { intros i j Li Lj [Z|Z].
    - apply (proj1 (dir_sparse_finite n so si x y nzo nzi w i _ ltac:(lia) (FV i ltac:(lia))) i eq_refl Li); [apply Ho; split; assumption|exact Lj].
    - apply (proj2 (dir_sparse_finite n so si x y nzo nzi w (j + n)%nat _ ltac:(lia) (FV (j + n)%nat ltac:(lia))) j eq_refl); [apply Hi; split; assumption|exact Li]. }
  destruct (prime_crema_dir_entries n so si (all_edges n (dcm_prob x y)) nzo nzi w Ho Hi (all_below _ _) HD) as (F & _ & _ & EF & _). exists F. split; [exact EF|]. intros r Hr.
  destruct (prime_crema_dir_sparse_eq n x y w Hx Hy HD so si nzo nzi Ho Hi Cx Cy r ltac:(lia) NZ) as (F' & EF' & Er). rewrite EF in EF'. injection EF' as <-.
  rewrite (FV r Hr) in Er. injection Er as Er. lra.
Qed.

Lemma dir_sparse_core e g t x y nm r :
  nonneg (dn_n g) (dn_sout g) -> nonneg (dn_n g) (dn_sin g) -> (forall i, (i < dn_n g)%nat -> 0 <= x i) -> (forall i, (i < dn_n g)%nat -> 0 <= y i) ->
  (forall i, (i < dn_n g)%nat -> (x i <> 0 <-> dn_sout g i <> 0)) -> (forall i, (i < dn_n g)%nat -> (y i <> 0 <-> dn_sin g i <> 0)) ->
  t_method t = "quasinewton"%string -> t_guess t = GStr nm -> In nm ["random"; "strengths"; "strengths_minor"]%string -> draws (v_rnd e) -> t_linsearch t = true ->
  let p := dcm_prob x y in
  let result := d_solver e g t "crema-sparse" (t_method t) (t_linsearch t) (v_rnd e) (t_guess t) (Some (Factors2 x y)) in
  report_of result = Some r -> tolerance_reached (t_tol t) r -> never_gave_up r ->
  exists w, solved_of result = Some {| o_x := w; o_inf := fun _ => false |} /\ positive_rates_dir (dn_n g) p w (drop (dn_n g) w) /\
    forall i, (i < dn_n g)%nat -> Rabs (crema_mean_out (dn_n g) p w (drop (dn_n g) w) i - dn_sout g i) <= t_tol t /\
                                  Rabs (crema_mean_in (dn_n g) p w (drop (dn_n g) w) i - dn_sin g i) <= t_tol t.
Proof.
  intros Ho Hi Hx Hy Cx Cy Hme Hg Hnm Hr HL p result HR HT HG. unfold result, d_solver in *. rewrite Hg, HL in *.
  destruct (solve_reached _ _ _ _ _ _ _ HR HT) as (D & A & z & w & ED & EA & Ez & Hrun & Es & HC).
  rewrite dargs_crema_sparse in EA. injection EA as <-. rewrite start_crema_dir_sparse in Ez. exists w. split; [exact Es|].
  assert (PD : forall i j, (i < dn_n g)%nat -> (j < dn_n g)%nat -> p i j <> 0 -> dn_sout g i <> 0 \/ dn_sin g j <> 0).
  { intros i j Li Lj Hpn. left. apply (Cx i Li). intros Z. apply Hpn. unfold p, dcm_prob. destruct (Nat.eqb i j); [reflexivity|]. rewrite Z. unfold Rdiv. ring. }
  pose proof (crema_dir_start_inside g (v_rnd e) nm p z Hnm Ho Hi Hr PD Ez) as Pz.
  pose proof (reached_tol_nonneg _ _ _ _ _ _ _ HC) as T0. cbn [o_tol t_options] in T0.
  change (d_length g "crema-sparse") with (2 * dn_n g)%nat in *.
  destruct (crema_dir_sparse_increases (v_linsolve e) (v_eigh_ok e) (v_eigh e) (v_fuel e) None (dn_n g) (dn_sout g) (dn_sin g) x y
    (nz_real (dn_n g) (dn_sout g)) (nz_real (dn_n g) (dn_sin g)) (t_options t (t_method t) true) z) as (D' & ED' & ST); try assumption; try apply nz_real_list.
  { rewrite Hme. repeat split; cbn [o_method o_linsearch o_regularise o_regularise_eps o_tol t_options]; try assumption; try reflexivity; lra. }
  rewrite Hme in ED. rewrite ED in ED'. injection ED' as <-. destruct (ST _ _ _ _ _ Hrun HG) as [Dw _].
  assert (PR : positive_rates_dir (dn_n g) p w (drop (dn_n g) w)) by (intros i j Li Lj Hpn; apply (Dw i j (p i j)); apply in_all; repeat split; assumption).
  split; [exact PR|]. intros i Hin.
  destruct (converged_bound _ _ _ _ _ _ _ (run_exact (v_linsolve e) (v_eigh_ok e) _) HC) as (f & Ef & B).
  injection ED as <-.
  destruct (dir_sparse_gradient_at (dn_n g) (dn_sout g) (dn_sin g) x y (nz_real (dn_n g) (dn_sout g)) (nz_real (dn_n g) (dn_sin g)) w f Hx Hy (nz_real_list _ _) (nz_real_list _ _) Cx Cy Dw Ef) as (F & EF & HF).
  destruct (prime_crema_dir_entries (dn_n g) (dn_sout g) (dn_sin g) (all_edges (dn_n g) p) _ _ w (nz_real_list _ _) (nz_real_list _ _) (all_below _ _) Dw) as (F' & EO & EI & EF' & E1 & E2 & OF).
  change (all_edges (dn_n g) p) with (all_edges (dn_n g) (dcm_prob x y)) in EF'. rewrite EF in EF'. injection EF' as <-.
  destruct (expected_all (dn_n g) p w PR) as (EO' & EI' & E1' & E2' & HM). rewrite E1 in E1'. injection E1' as <-. rewrite E2 in E2'. injection E2' as <-.
  destruct (HM i Hin) as [<- <-]. destruct (OF i Hin) as [A1 A2]. cbn [o_tol t_options] in B. split.
  - specialize (B i ltac:(lia)). cbv beta in B. rewrite HF, A1 in B by lia. eapply Rle_trans; [|exact B]. right. symmetry. apply Rabs_Ropp.
  - specialize (B (i + dn_n g)%nat ltac:(lia)). cbv beta in B. rewrite HF, A2 in B by lia. eapply Rle_trans; [|exact B]. right. symmetry. apply Rabs_Ropp.
Qed.

Lemma tool_sparse_dir_state e g t a nm w o o' r : (0 < dn_n g)%nat -> d_paired g ->
  nonneg (dn_n g) (dn_sout g) -> nonneg (dn_n g) (dn_sin g) ->
  (forall i, (i < dn_n g)%nat -> (nth i (dn_out g) O <> O <-> dn_sout g i <> 0) /\ (nth i (dn_in g) O <> O <-> dn_sin g i <> 0)) ->
  t_model t = "crema-sparse"%string -> t_adjacency t = AdjName a -> In a ["dcm"; "dcm_exp"]%string ->
  solved_of (d_result_adjacency e g t) = Some {| o_x := w; o_inf := fun _ => false |} ->
  let s := dir_factor "dcm" a {| o_x := w; o_inf := fun _ => false |} in
  let x := fun i => s (d_class g i) in let y := fun i => drop (d_classes_n g) s (d_class g i) in
  supported (dn_n g) (at_list (dn_out g)) x -> supported (dn_n g) (at_list (dn_in g)) y ->
  t_method t = "quasinewton"%string -> t_guess t = GStr nm -> In nm ["random"; "strengths"; "strengths_minor"]%string -> draws (v_rnd e) -> t_linsearch t = true ->
  d_tool e g t o = (o', None) -> d_report e g t o = Some r -> tolerance_reached (t_tol t) r -> never_gave_up r ->
  exists bo bi ek es, ds_x o' = Some x /\ ds_y o' = Some y /\ ds_bo o' = Some bo /\ ds_bi o' = Some bi /\ ds_err o' = Some (Rmax es ek) /\
    positive_rates_dir (dn_n g) (dcm_prob x y) bo bi /\ es <= t_tol t /\
    exists i, (i < dn_n g)%nat /\ (ek = Rabs (at_list (dn_out g) i - expected_out_degree_dcm (dn_n g) (join2 (dn_n g) x y) i) \/
                                   ek = Rabs (at_list (dn_in g) i - expected_in_degree_dcm (dn_n g) (join2 (dn_n g) x y) i)).
Proof.
  intros Hn HP Ho Hi Hd Hm Ha Hna Hsol s x y Sx Sy Hme Hg Hnm Hr HL H HR HT HG.
  assert (HM : In (c_model (d_call e g t o)) ["crema"; "crema-sparse"]%string) by (right; left; symmetry; exact Hm).
  destruct (d_tool_crema _ _ _ _ HM H) as (o1 & H1 & H2). apply d_crema_inv in H1; [|exact HM].
  destruct H1 as (o2 & d & v & v0 & adj & HA & _ & Hv & HJ & ->). destruct (d_error_frame _ _ _ _ H2) as (FX & FY & FB & FB' & _). cbn in FB, FB', FX, FY.
  destruct (d_adj_name g (d_call e g t o) _ a _ Ha Hna HA) as (va & Hva & J1 & J1' & J2 & J3 & J4). cbn [c_out_adjacency d_call d_call_adjacency] in Hva. rewrite Hsol in Hva. injection Hva as <-.
  fold s in J1, J1', J4. fold x in J1, J4. fold y in J1', J4. rewrite J1 in FX. rewrite J1' in FY.
  replace (String.eqb (c_model (d_call e g t o)) "crema-sparse") with true in J3, J4 by (cbn [c_model d_call d_call_adjacency]; rewrite Hm; reflexivity).
  assert (ER : d_result e g t o = d_solver e g t "crema-sparse" (t_method t) (t_linsearch t) (v_rnd e) (t_guess t) (Some (Factors2 x y))).
  { unfold d_result. change (d_set_adjacency g (d_call_adjacency e g t None) o) with (d_set_adjacency g (d_call e g t o) o). rewrite HA. cbn [fst].
    rewrite Hm, J3, J4. names. reflexivity. }
  unfold d_report in HR. rewrite ER in HR.
  assert (Cx : forall i, (i < dn_n g)%nat -> (x i <> 0 <-> dn_sout g i <> 0)).
  { intros i Li. rewrite <- (proj1 (Hd i Li)). destruct (Sx i Li) as [A B]. unfold at_list in *. split.
    - intros Z Q. apply Z. apply B. rewrite Q. reflexivity.
    - intros Z. assert (P := A (not_0_INR _ Z)). lra. }
  assert (Cy : forall i, (i < dn_n g)%nat -> (y i <> 0 <-> dn_sin g i <> 0)).
  { intros i Li. rewrite <- (proj2 (Hd i Li)). destruct (Sy i Li) as [A B]. unfold at_list in *. split.
    - intros Z Q. apply Z. apply B. rewrite Q. reflexivity.
    - intros Z. assert (P := A (not_0_INR _ Z)). lra. }
  destruct (dir_sparse_core e g t x y nm r Ho Hi (supported_le _ _ _ Sx) (supported_le _ _ _ Sy) Cx Cy Hme Hg Hnm Hr HL HR HT HG) as (b & Ew & PR & HB).
  cbn [c_out d_call d_call_adjacency] in Hv. rewrite ER, Ew in Hv. injection Hv as <-. cbn [o_x] in FB, FB'.
  destruct (d_error_crema_name g (d_call e g t o) o o' a Hn HP HM Ha Hna H) as (va & v & s' & cls & m & x' & y' & bo & bi & e1 & e2 & e3 & e4 & _ & _ & EX & EY & EB & EB' & Ee & _ & _ & _ & _ & (_ & i1 & I1 & E1) & (_ & i2 & I2 & E2) & (_ & i3 & I3 & E3) & (_ & i4 & I4 & E4)).
  { intros x' y' bo bi E1 E2 E3 E4. rewrite FX in E1. rewrite FY in E2. rewrite FB in E3. rewrite FB' in E4.
    injection E1 as <-. injection E2 as <-. injection E3 as <-. injection E4 as <-. split; [exact Sx|]. split; [exact Sy|exact PR]. }
  rewrite FX in EX. rewrite FY in EY. rewrite FB in EB. rewrite FB' in EB'. injection EX as <-. injection EY as <-. injection EB as <-. injection EB' as <-.
  exists b, (drop (dn_n g) b), (Rmax e1 e2), (Rmax e3 e4). split; [exact FX|]. split; [exact FY|]. split; [exact FB|]. split; [exact FB'|]. split; [exact Ee|]. split; [exact PR|]. split.
  - apply Rmax_lub; [rewrite E3|rewrite E4]; apply HB; assumption.
  - unfold Rmax. destruct (Rle_dec e1 e2) as [_|_].
    + exists i2. split; [exact I2|]. right. rewrite E2, Rabs_minus_sym. f_equal. f_equal. symmetry. apply d_mean_in. exact I2.
    + exists i1. split; [exact I1|]. left. rewrite E1, Rabs_minus_sym. f_equal. f_equal. symmetry. apply d_mean_out. exact I1.
Qed.

Lemma tool_sparse_dcm e g t nma nm o o' ra r : (0 < dn_n g)%nat -> d_paired g -> balanced (dn_out g) (dn_in g) ->
  linear_solver (d_length g "dcm") (v_linsolve e) -> eigen_solver (d_length g "dcm") (v_eigh e) ->
  nonneg (dn_n g) (dn_sout g) -> nonneg (dn_n g) (dn_sin g) ->
  (forall i, (i < dn_n g)%nat -> (nth i (dn_out g) O <> O <-> dn_sout g i <> 0) /\ (nth i (dn_in g) O <> O <-> dn_sin g i <> 0)) ->
  t_model t = "crema-sparse"%string -> t_adjacency t = AdjName "dcm" -> In (t_method_adjacency t) descent_methods ->
  t_guess_adjacency t = GStr nma -> In nma binary_names -> draws (v_rnd_adjacency e) ->
  t_method t = "quasinewton"%string -> t_guess t = GStr nm -> In nm ["random"; "strengths"; "strengths_minor"]%string -> draws (v_rnd e) -> t_linsearch t = true ->
  d_tool e g t o = (o', None) ->
  d_report_adjacency e g t = Some ra -> tolerance_reached (t_tol t) ra ->
  d_report e g t o = Some r -> tolerance_reached (t_tol t) r -> never_gave_up r ->
  exists x y bo bi err, ds_x o' = Some x /\ ds_y o' = Some y /\ ds_bo o' = Some bo /\ ds_bi o' = Some bi /\ ds_err o' = Some err /\
    supported (dn_n g) (at_list (dn_out g)) x /\ supported (dn_n g) (at_list (dn_in g)) y /\
    positive_rates_dir (dn_n g) (dcm_prob x y) bo bi /\
    forall B, 1 <= B -> bounded_by (dn_n g) x B -> bounded_by (dn_n g) y B -> err <= B * t_tol t.
Proof.
  intros Hn HP Hb HLS' HES' Ho Hi Hd Hm Ha Hma Hga Hna Hra Hme Hg Hnm Hr HL H HRA HTA HR HT HG.
  unfold d_report_adjacency, d_result_adjacency in HRA. rewrite Ha, Hga in HRA.
  destruct (dcm_core e g t _ _ nma _ ra HP HLS' HES' Hb Hma Hna Hra HRA HTA) as (w & Es & T0 & Fw & HY).
  assert (Es' : solved_of (d_result_adjacency e g t) = Some {| o_x := w; o_inf := fun _ => false |}) by (unfold d_result_adjacency; rewrite Ha, Hga; exact Es).
  destruct (full_supported g w HP Fw) as [S1 S2].
  destruct (tool_sparse_dir_state e g t "dcm" nm w o o' r Hn HP Ho Hi Hd Hm Ha ltac:(cbn; auto) Es' S1 S2) as (bo & bi & ek & es & Ex & Ey & Eb & Eb' & Ee & PR & B1 & i & Li & Ei); try assumption.
  do 4 eexists. exists (Rmax es ek). split; [exact Ex|]. split; [exact Ey|]. split; [exact Eb|]. split; [exact Eb'|]. split; [exact Ee|]. split; [exact S1|]. split; [exact S2|]. split; [exact PR|].
  intros B B0 HB1 HB2. apply Rmax_lub.
  - assert (1 * t_tol t <= B * t_tol t) by (apply Rmult_le_compat_r; assumption). lra.
  - destruct (HY i Li) as [E1 E2]. specialize (HB1 i Li). specialize (HB2 i Li). cbv beta in HB1, HB2.
    destruct Ei as [Ei|Ei]; rewrite Ei; [refine (Rle_trans _ _ _ E1 _)|refine (Rle_trans _ _ _ E2 _)]; apply Rmult_le_compat_r; assumption.
Qed.
Lemma tool_sparse_dcm_exp e g t nm o o' ra r : (0 < dn_n g)%nat -> d_paired g ->
  (forall i, (i < dn_n g)%nat -> nth i (dn_out g) O <> O /\ nth i (dn_in g) O <> O) ->
  nonneg (dn_n g) (dn_sout g) -> nonneg (dn_n g) (dn_sin g) ->
  (forall i, (i < dn_n g)%nat -> dn_sout g i <> 0 /\ dn_sin g i <> 0) ->
  t_model t = "crema-sparse"%string -> t_adjacency t = AdjName "dcm_exp" -> In (t_method_adjacency t) descent_methods ->
  t_method t = "quasinewton"%string -> t_guess t = GStr nm -> In nm ["random"; "strengths"; "strengths_minor"]%string -> draws (v_rnd e) -> t_linsearch t = true ->
  d_tool e g t o = (o', None) ->
  d_report_adjacency e g t = Some ra -> tolerance_reached (t_tol t) ra ->
  d_report e g t o = Some r -> tolerance_reached (t_tol t) r -> never_gave_up r ->
  exists x y bo bi err, ds_x o' = Some x /\ ds_y o' = Some y /\ ds_bo o' = Some bo /\ ds_bi o' = Some bi /\ ds_err o' = Some err /\
    (forall i, (i < dn_n g)%nat -> 0 < x i /\ 0 < y i) /\ positive_rates_dir (dn_n g) (dcm_prob x y) bo bi /\ err <= t_tol t.
Proof.
  intros Hn HP Hdeg Ho Hi Hd Hm Ha Hma Hme Hg Hnm Hr HL H HRA HTA HR HT HG.
  unfold d_report_adjacency, d_result_adjacency in HRA. rewrite Ha in HRA.
  destruct (dcm_exp_core e g t _ _ _ _ _ ra HP Hdeg Hma HRA HTA) as (w & Es & HY).
  assert (Es' : solved_of (d_result_adjacency e g t) = Some {| o_x := w; o_inf := fun _ => false |}) by (unfold d_result_adjacency; rewrite Ha; exact Es).
  destruct (tool_sparse_dir_state e g t "dcm_exp" nm w o o' r Hn HP Ho Hi) as (bo & bi & ek & es & Ex & Ey & Eb & Eb' & Ee & PR & B1 & i & Li & Ei); try assumption; try (cbn; tauto).
  { intros i Li. destruct (Hdeg i Li) as [D1 D2]. destruct (Hd i Li) as [D3 D4]. split; split; intros _; assumption. }
  { intros i Li. split; intros Z; [apply exp_pos|]. exfalso. revert Z. apply not_0_INR. apply (Hdeg i Li). }
  { intros i Li. split; intros Z; [apply exp_pos|]. exfalso. revert Z. apply not_0_INR. apply (Hdeg i Li). }
  do 4 eexists. exists (Rmax es ek). split; [exact Ex|]. split; [exact Ey|]. split; [exact Eb|]. split; [exact Eb'|]. split; [exact Ee|].
  split; [intros j Lj; split; apply exp_pos|]. split; [exact PR|].
  apply Rmax_lub; [exact B1|]. destruct (HY i Li) as [E1 E2]. destruct Ei as [Ei|Ei]; rewrite Ei; assumption.
Qed.
