(** Whole calls of [solve_tool] with crema-sparse and quasinewton on an UndirectedGraph. *)
From Coq Require Import Reals List Arith Bool String Lia Lra.
From Verif Require Import Base SpecDeriv SpecGraph SpecEnsemble SpecWeighted SpecDirected SpecCReMa SpecNetwork SpecLinsearch SpecDispatch SpecRun SpecSolver SpecSolve SpecGuess SpecTool
  ModelCM ModelECM ModelDCM ModelDECM ModelCReMa ModelIEEE ModelNetwork ModelLinsearch ModelSolver ModelDispatch ModelGuess ModelRun ModelSolve ModelTool.
From Verif Require Import ProofsGraph ProofsUnique ProofsCM ProofsMainCM ProofsCReMa ProofsMainCReMa ProofsSparseCReMa ProofsAdjacency ProofsSolver ProofsConverged ProofsGuess ProofsGuessW ProofsDispatch ProofsRun ProofsIterates ProofsAscentU ProofsAscentSparse
  ProofsStays ProofsSolve ProofsSolveU ProofsTool.
Import ListNotations.
Local Open Scope R_scope.

Lemma args_crema_sparse g adj : u_args g "crema-sparse" (Some adj) = Some (A3 (un_n g) (un_str g) adj).
Proof. reflexivity. Qed.
Lemma start_crema_sparse g rnd s : u_start g "crema-sparse" rnd s = u_start g "crema" rnd s.
Proof. reflexivity. Qed.
(** A finite entry of the sparse gradient has a nonzero parameter. *)
Lemma sparse_prime_finite n s x b i r : (i < n)%nat -> 0 < x i -> loglikelihood_prime_crema_undirected_sparse n s x b i = Fin r -> b i <> 0.
Proof.
  intros Hi Hx E Z. unfold loglikelihood_prime_crema_undirected_sparse in E. cbv zeta in E. assert (P : 0 < x i * x i) by (apply Rmult_lt_0_compat; exact Hx).
  rewrite (fdiv_fin (x i * x i)) in E by lra. rewrite Z in E.
  assert (A : fquo (Fin (x i * x i / (1 + x i * x i))) (Fin (0 + 0)) = PInf).
  { cbn [fquo]. rewrite Rplus_0_r. unfold fdiv. destruct (Req_EM_T 0 0) as [_|]; [|congruence]. assert (Q : 0 < x i * x i / (1 + x i * x i)) by (apply Rdiv_lt_0_compat; lra).
    destruct (Req_EM_T _ 0); [lra|]. destruct (Rlt_dec 0 _); [reflexivity|contradiction]. }
  rewrite A in E. unfold fsub in E. cbn [fopp] in E. destruct (fsum n _); cbn [fadd] in E; discriminate E.
Qed.
Lemma sparse_gradient_at n s x w f : (forall i, (i < n)%nat -> 0 < x i) -> crema_dom (triu_edges n (pmatrix_cm x)) w ->
  real_vec n (run_entry (Neg "loglikelihood_prime_crema_undirected_sparse") (A3 n s (Factors1 x)) w) = Some f ->
  exists F, loglikelihood_prime_crema_undirected n s (triu_edges n (pmatrix_cm x)) w = Some F /\ forall i, (i < n)%nat -> f i = - F i.
Proof.
  intros Hx HD E. change (all_fin n (fun i => fopp (loglikelihood_prime_crema_undirected_sparse n s x w i)) = Some f) in E.
  destruct (prime_crema_some n s _ w HD) as (F & EF & _). exists F. split; [exact EF|]. intros i Hi.
  pose proof (fun i Hi => all_fin_inv _ _ _ E i Hi) as V. cbv beta in V.
  assert (NZ : forall i, (i < n)%nat -> w i <> 0).
  { intros j Hj. specialize (V j Hj). destruct (loglikelihood_prime_crema_undirected_sparse n s x w j) as [r| | |] eqn:Er; try discriminate V. exact (sparse_prime_finite n s x w j r Hj (Hx j Hj) Er). }
  assert (PW : forall i j, (i < j < n)%nat -> 0 < w i + w j).
  { intros a b L. apply (HD a b (pmatrix_cm x a b)). apply in_triu. split; [lia|]. split; [reflexivity|]. unfold pmatrix_cm. rewrite (proj2 (Nat.ltb_lt a b)) by lia. cbv zeta.
    assert (0 < x a * x b) by (apply Rmult_lt_0_compat; apply Hx; lia). assert (0 < x a * x b / (1 + x a * x b)) by (apply Rdiv_lt_0_compat; lra). lra. }
  destruct (prime_crema_sparse_eq n x w (fun i Hi => Rlt_le _ _ (Hx i Hi)) s i HD Hi) as (F' & EF' & Ei).
  { intros j Hj. destruct (lt_eq_lt_dec i j) as [[L|<-]|L]; [assert (Q := PW i j ltac:(lia)); lra|assert (Q := NZ i Hi); lra|assert (Q := PW j i ltac:(lia)); lra]. }
  rewrite EF in EF'. injection EF' as <-. specialize (V i Hi). rewrite Ei in V. cbn [fopp] in V. injection V as V. congruence.
Qed.

Lemma sparse_core e g t x nm r : nonneg (un_n g) (un_str g) -> (forall i, (i < un_n g)%nat -> 0 < x i) ->
  (forall i j, (i < j < un_n g)%nat -> un_str g i <> 0 \/ un_str g j <> 0) ->
  t_method t = "quasinewton"%string -> t_guess t = GStr nm -> In nm ["random"; "strengths"; "strengths_minor"]%string -> draws (v_rnd e) -> t_linsearch t = true ->
  let result := u_solver e g t "crema-sparse" (t_method t) (v_rnd e) (t_guess t) (Some (Factors1 x)) in
  report_of result = Some r -> tolerance_reached (t_tol t) r -> never_gave_up r ->
  exists w, solved_of result = Some {| o_x := w; o_inf := fun _ => false |} /\ positive_rates (un_n g) (pmatrix_cm x) w /\
    forall i, (i < un_n g)%nat -> Rabs (crema_mean (un_n g) (pmatrix_cm x) w i - un_str g i) <= t_tol t.
Proof.
  intros Hs Hx Hd Hme Hg Hnm Hr HL result HR HT HG. unfold result, u_solver in *. rewrite Hg in *. set (p := pmatrix_cm x) in *.
  destruct (solve_reached _ _ _ _ _ _ _ HR HT) as (D & A & z & w & ED & EA & Ez & Hrun & Es & HC).
  rewrite args_crema_sparse in EA. injection EA as <-. rewrite start_crema_sparse in Ez. exists w. split; [exact Es|].
  pose proof (crema_start_inside g (v_rnd e) nm p z Hnm Hs Hr (pmatrix_hollow x) (fun i j Hij _ => Hd i j Hij) Ez) as Pz.
  pose proof (reached_tol_nonneg _ _ _ _ _ _ _ HC) as T0. cbn [o_tol t_options] in T0.
  destruct (crema_sparse_increases (v_linsolve e) (v_eigh_ok e) (v_eigh e) (v_fuel e) None (un_n g) (un_str g) x
    (t_options t (t_method t) (t_linsearch t)) z) as (D' & ED' & ST).
  { rewrite Hme. repeat split; cbn [o_method o_linsearch o_regularise o_regularise_eps o_tol t_options]; try assumption; try reflexivity; lra. }
  { intros i Hi. left. apply Hx. exact Hi. }
  { exact Pz. }
  rewrite Hme in ED. rewrite ED in ED'. injection ED' as <-. change (u_length g "crema-sparse") with (un_n g) in *. destruct (ST _ _ _ _ _ Hrun HG) as [Dw _].
  assert (PR : positive_rates (un_n g) p w) by (intros i j Hij Hpn; apply (Dw i j (p i j)); apply in_triu; repeat split; try lia; exact Hpn).
  split; [exact PR|]. intros i Hi.
  destruct (converged_bound _ _ _ _ _ _ _ (run_exact (v_linsolve e) (v_eigh_ok e) _) HC) as (f & Ef & B).
  injection ED as <-. destruct (sparse_gradient_at (un_n g) (un_str g) x w f Hx Dw Ef) as (F & EF & HF).
  destruct (prime_crema_some (un_n g) (un_str g) _ w Dw) as (F' & EF' & OF). rewrite EF in EF'. injection EF' as <-.
  destruct (expected_crema_some (triu_edges (un_n g) p) w Dw) as (E & EE & OE).
  destruct (expected_triu (un_n g) p w (pmatrix_hollow x) PR) as (E' & EE' & HM). rewrite EE in EE'. injection EE' as <-. rewrite <- HM by exact Hi.
  specialize (B i Hi). cbv beta in B. rewrite (HF i Hi), OF, (proj2 (Nat.ltb_lt i (un_n g)) Hi) in B. rewrite OE. eapply Rle_trans; [|exact B]. right. rewrite <- Rabs_Ropp. f_equal. unfold p. ring.
Qed.

Lemma tool_sparse_state e g t a nm y o o' r : (0 < un_n g)%nat ->
  nonneg (un_n g) (un_str g) -> (forall i j, (i < j < un_n g)%nat -> un_str g i <> 0 \/ un_str g j <> 0) ->
  t_model t = "crema-sparse"%string -> t_adjacency t = AdjName a -> In a ["cm"; "cm_exp"]%string ->
  solved_of (u_result_adjacency e g t) = Some {| o_x := y; o_inf := fun _ => false |} -> (forall i, (i < un_n g)%nat -> 0 < cm_point a y (u_class g) i) ->
  t_method t = "quasinewton"%string -> t_guess t = GStr nm -> In nm ["random"; "strengths"; "strengths_minor"]%string -> draws (v_rnd e) -> t_linsearch t = true ->
  u_tool e g t o = (o', None) -> u_report e g t o = Some r -> tolerance_reached (t_tol t) r -> never_gave_up r ->
  exists beta ek es, us_x o' = Some (cm_point a y (u_class g)) /\ us_beta o' = Some beta /\ us_err o' = Some (Rmax es ek) /\
    positive_rates (un_n g) (p_ubcm (cm_point a y (u_class g))) beta /\ es <= t_tol t /\
    exists i, (i < un_n g)%nat /\ ek = Rabs (at_list (un_dseq g) i - expected_degree_cm (un_n g) (cm_point a y (u_class g)) i).
Proof.
  intros Hn Hs Hd Hm Ha Hna Hsol Hx Hme Hg Hnm Hr HL H HR HT HG. set (x := cm_point a y (u_class g)) in *.
  assert (HM : In (c_model (u_call e g t o)) ["crema"; "crema-sparse"]%string) by (right; left; symmetry; exact Hm).
  destruct (u_tool_crema _ _ _ _ HM H) as (o1 & H1 & H2). apply u_crema_inv in H1; [|exact HM].
  destruct H1 as (o2 & d & v & v0 & adj & HA & _ & Hv & HJ & ->). destruct (u_error_frame _ _ _ _ H2) as (FX & _ & FB & _). cbn in FB, FX.
  destruct (u_adj_name g (u_call e g t o) _ a _ Ha Hna HA) as (va & Hva & J1 & J2 & J3 & J4). cbn [c_out_adjacency u_call u_call_adjacency] in Hva. rewrite Hsol in Hva. injection Hva as <-.
  fold (cm_point a y (u_class g)) in J1, J4. change (us_x o2 = Some x) in J1.
  replace (String.eqb (c_model (u_call e g t o)) "crema-sparse") with true in J3, J4 by (cbn [c_model u_call u_call_adjacency]; rewrite Hm; reflexivity).
  change (us_adj o2 = Some (Factors1 x)) in J4. rewrite J1 in FX.
  assert (ER : u_result e g t o = u_solver e g t "crema-sparse" (t_method t) (v_rnd e) (t_guess t) (Some (Factors1 x))).
  { unfold u_result. change (u_set_adjacency g (u_call_adjacency e g t None) o) with (u_set_adjacency g (u_call e g t o) o). rewrite HA. cbn [fst].
    rewrite Hm, J3, J4. names. reflexivity. }
  unfold u_report in HR. rewrite ER in HR.
  destruct (sparse_core e g t x nm r Hs Hx Hd Hme Hg Hnm Hr HL HR HT HG) as (w & Ew & PR & HB).
  cbn [c_out u_call u_call_adjacency] in Hv. rewrite ER, Ew in Hv. injection Hv as <-. cbn [o_x] in FB.
  assert (PR' : positive_rates (un_n g) (p_ubcm x) w) by (intros i j Hij Hp; apply PR; [exact Hij|rewrite pmatrix_ubcm by lia; exact Hp]).
  destruct (u_error_crema_name g (u_call e g t o) o o' a Hn HM Ha Hna H) as (va & v & cls & x' & ek & es & _ & _ & EX & EB & Ee & _ & _ & (_ & i & Hi & Ei) & (_ & j & Hj & Ej)).
  { intros x'' b Ex' Eb'. rewrite FX in Ex'. injection Ex' as <-. rewrite FB in Eb'. injection Eb' as <-. split; [intros q Hq; left; apply Hx; exact Hq|assumption]. }
  rewrite FX in EX. injection EX as <-. rewrite FB in EB. assert (EB' : o_x v = w) by congruence. rewrite EB' in Ej.
  exists w, ek, es. split; [exact FX|]. split; [exact FB|]. split; [exact Ee|]. split; [exact PR'|]. split.
  - rewrite Ej. specialize (HB j Hj). rewrite (crema_mean_ext _ _ (p_ubcm x)) in HB by (apply pmatrix_ubcm). exact HB.
  - exists i. split; [exact Hi|]. rewrite Ei, Rabs_minus_sym. f_equal. f_equal. apply expected_degree_cm_mean. exact Hi.
Qed.
Lemma tool_sparse_cm e g t nma nm o o' ra r : (0 < un_n g)%nat ->
  (forall i, (i < un_n g)%nat -> nth i (un_dseq g) O <> O) ->
  nonneg (un_n g) (un_str g) -> (forall i j, (i < j < un_n g)%nat -> un_str g i <> 0 \/ un_str g j <> 0) ->
  t_model t = "crema-sparse"%string -> t_adjacency t = AdjName "cm" -> In (t_method_adjacency t) descent_methods ->
  t_guess_adjacency t = GStr nma -> In nma binary_names -> draws (v_rnd_adjacency e) ->
  t_method t = "quasinewton"%string -> t_guess t = GStr nm -> In nm ["random"; "strengths"; "strengths_minor"]%string -> draws (v_rnd e) -> t_linsearch t = true ->
  u_tool e g t o = (o', None) ->
  u_report_adjacency e g t = Some ra -> tolerance_reached (t_tol t) ra ->
  u_report e g t o = Some r -> tolerance_reached (t_tol t) r -> never_gave_up r ->
  exists x beta err, us_x o' = Some x /\ us_beta o' = Some beta /\ us_err o' = Some err /\ (forall i, (i < un_n g)%nat -> 0 < x i) /\
    positive_rates (un_n g) (p_ubcm x) beta /\ forall B, 1 <= B -> bounded_by (un_n g) x B -> err <= B * t_tol t.
Proof.
  intros Hn Hdeg Hs Hd Hm Ha Hma Hga Hna Hra Hme Hg Hnm Hr HL H HRA HTA HR HT HG.
  unfold u_report_adjacency, u_result_adjacency in HRA. rewrite Ha, Hga in HRA.
  destruct (cm_core e g t _ _ nma _ ra Hdeg Hma Hna Hra HL HRA HTA) as (y & Es & T0 & HY).
  assert (Es' : solved_of (u_result_adjacency e g t) = Some {| o_x := y; o_inf := fun _ => false |}) by (unfold u_result_adjacency; rewrite Ha, Hga; exact Es).
  destruct (tool_sparse_state e g t "cm" nm y o o' r Hn Hs Hd Hm Ha ltac:(cbn; auto) Es') as (beta & ek & es & Ex & Eb & Ee & PR & B1 & i & Hi & Ei); try assumption.
  { intros i Hi. apply (HY i Hi). }
  exists (cm_point "cm" y (u_class g)), beta, (Rmax es ek). split; [exact Ex|]. split; [exact Eb|]. split; [exact Ee|]. split; [intros j Hj; apply (HY j Hj)|]. split; [exact PR|].
  intros B B0 HB. apply Rmax_lub.
  - assert (1 * t_tol t <= B * t_tol t) by (apply Rmult_le_compat_r; assumption). lra.
  - rewrite Ei. destruct (HY i Hi) as [_ HE]. refine (Rle_trans _ _ _ HE _). apply Rmult_le_compat_r; [exact T0|]. apply (HB i Hi).
Qed.
Lemma tool_sparse_cm_exp e g t nm o o' ra r : (0 < un_n g)%nat ->
  nonneg (un_n g) (un_str g) -> (forall i j, (i < j < un_n g)%nat -> un_str g i <> 0 \/ un_str g j <> 0) ->
  t_model t = "crema-sparse"%string -> t_adjacency t = AdjName "cm_exp" -> In (t_method_adjacency t) descent_methods ->
  t_method t = "quasinewton"%string -> t_guess t = GStr nm -> In nm ["random"; "strengths"; "strengths_minor"]%string -> draws (v_rnd e) -> t_linsearch t = true ->
  u_tool e g t o = (o', None) ->
  u_report_adjacency e g t = Some ra -> tolerance_reached (t_tol t) ra ->
  u_report e g t o = Some r -> tolerance_reached (t_tol t) r -> never_gave_up r ->
  exists x beta err, us_x o' = Some x /\ us_beta o' = Some beta /\ us_err o' = Some err /\ (forall i, (i < un_n g)%nat -> 0 < x i) /\
    positive_rates (un_n g) (p_ubcm x) beta /\ err <= t_tol t.
Proof.
  intros Hn Hs Hd Hm Ha Hma Hme Hg Hnm Hr HL H HRA HTA HR HT HG.
  unfold u_report_adjacency, u_result_adjacency in HRA. rewrite Ha in HRA.
  destruct (cm_exp_core e g t _ _ _ _ ra Hma HRA HTA) as (y & Es & HY).
  assert (Es' : solved_of (u_result_adjacency e g t) = Some {| o_x := y; o_inf := fun _ => false |}) by (unfold u_result_adjacency; rewrite Ha; exact Es).
  destruct (tool_sparse_state e g t "cm_exp" nm y o o' r Hn Hs Hd Hm Ha ltac:(cbn; auto) Es') as (beta & ek & es & Ex & Eb & Ee & PR & B1 & i & Hi & Ei); try assumption.
  { intros i Hi. apply exp_pos. }
  exists (cm_point "cm_exp" y (u_class g)), beta, (Rmax es ek). split; [exact Ex|]. split; [exact Eb|]. split; [exact Ee|]. split; [intros j Hj; apply exp_pos|]. split; [exact PR|].
  apply Rmax_lub; [exact B1|]. rewrite Ei. apply HY. exact Hi.
Qed.
