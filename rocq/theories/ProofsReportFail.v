(** Reports of calls that raise, and of solutions with an isolated node. *)
From Coq Require Import Reals List Arith Lra Lia Bool String.
From Verif Require Import Base SpecGraph SpecDirected SpecWeighted SpecCReMa SpecEnsemble SpecNetwork SpecSolve SpecDispatch SpecReport
  ModelCM ModelECM ModelDCM ModelDECM ModelCReMa ModelNetwork ModelDispatch ModelSolve ModelReport
  ProofsGraph ProofsCM ProofsMainCM ProofsECM ProofsMainECM ProofsEnsemble ProofsMainDCM ProofsDECM ProofsMainDECM
  ProofsCReMa ProofsMainCReMa ProofsUnique ProofsAdjacency ProofsDispatch ProofsSolve ProofsSolveU ProofsSolveD.

From Verif Require Import ProofsReport ProofsConvergeRun.
Local Open Scope R_scope.
Import ListNotations.
#[local] Opaque u_dispatch d_dispatch lookup.

(** A call that raises leaves what the previous one reported. *)
Lemma u_raised_ecm g c o m o' e m' : In (c_model c) ["ecm"; "ecm_exp"]%string -> u_solve_measured g c o m = ((o', Some e), m') -> m' = m.
Proof.
  intros Hm H. unfold u_solve_measured in H. cbv zeta in H.
  replace (among (c_model c) ["cm"; "cm_exp"; "ecm"; "ecm_exp"]%string) with true in H by (destruct Hm as [<-|[<-|[]]]; reflexivity).
  destruct (u_solve_problem g (c_model c) (c_method c) (c_guess c) (c_out c) o) as [o1 [e1|]] eqn:E; cbn [snd fst] in H; [injection H as _ _ <-; reflexivity|].
  exfalso. apply u_solve_ecm in E; [|exact Hm]. destruct E as (d & v & _ & _ & X & Y & _ & _ & _ & L).
  injection H as H _. unfold u_solution_error in H. rewrite L, X, Y in H.
  replace (among (c_model c) ["cm"; "cm_exp"; "crema"; "crema-sparse"]%string) with false in H by (destruct Hm as [<-|[<-|[]]]; reflexivity).
  replace (among (c_model c) ["ecm"; "ecm_exp"]%string) with true in H by (destruct Hm as [<-|[<-|[]]]; reflexivity).
  discriminate H.
Qed.
Lemma u_error_quiet g o m : us_last o = Some m -> among m ["cm"; "cm_exp"; "crema"; "crema-sparse"]%string = true -> us_beta o = None -> snd (u_solution_error g o) = None.
Proof.
  intros L A B. unfold u_solution_error. rewrite L, A. unfold u_error_strength.
  replace (us_beta (u_error_degree g o)) with (@None (nat -> R)) by (unfold u_error_degree; destruct (us_x o); cbn; rewrite B; reflexivity). reflexivity.
Qed.
Lemma d_error_quiet g o m : ds_last o = Some m -> among m ["dcm_exp"; "dcm"; "crema"; "crema-sparse"]%string = true -> ds_bo o = None -> snd (d_solution_error g o) = None.
Proof.
  intros L A B. unfold d_solution_error. cbv zeta. rewrite L, A. unfold d_error_strength.
  replace (ds_bo (d_error_degree g o)) with (@None (nat -> R)) by (unfold d_error_degree; destruct (ds_x o); [destruct (ds_y o)|]; cbn; rewrite B; reflexivity). reflexivity.
Qed.
Lemma u_raised_cm g c o m o' e m' : In (c_model c) ["cm"; "cm_exp"]%string -> us_beta o = None -> u_solve_measured g c o m = ((o', Some e), m') -> m' = m.
Proof.
  intros Hm HB H. unfold u_solve_measured in H. cbv zeta in H.
  replace (among (c_model c) ["cm"; "cm_exp"; "ecm"; "ecm_exp"]%string) with true in H by (destruct Hm as [<-|[<-|[]]]; reflexivity).
  destruct (u_solve_problem g (c_model c) (c_method c) (c_guess c) (c_out c) o) as [o1 [e1|]] eqn:E; cbn [snd fst] in H; [injection H as _ _ <-; reflexivity|].
  exfalso. apply u_solve_cm in E; [|exact Hm]. destruct E as (d & v & _ & _ & E).
  assert (Q : snd (u_solution_error g o1) = None).
  { apply (u_error_quiet g o1 (c_model c)); [rewrite E; reflexivity|destruct Hm as [<-|[<-|[]]]; reflexivity|rewrite E; exact HB]. }
  injection H as H _. rewrite H in Q. discriminate Q.
Qed.
Lemma d_raised_decm g c o m o' e m' : In (c_model c) ["decm"; "decm_exp"]%string -> d_solve_measured g c o m = ((o', Some e), m') -> m' = m.
Proof.
  intros Hm H. unfold d_solve_measured in H. cbv zeta in H.
  replace (among (c_model c) ["dcm"; "dcm_exp"; "decm"; "decm_exp"]%string) with true in H by (destruct Hm as [<-|[<-|[]]]; reflexivity).
  destruct (d_solve_problem g (c_full c) (c_model c) (c_method c) (c_guess c) (c_out c) o) as [o1 [e1|]] eqn:E; cbn [snd fst] in H; [injection H as _ _ <-; reflexivity|].
  exfalso. apply d_solve_decm in E; [|exact Hm]. destruct E as (d & v & _ & _ & X & Y & BO & BI & _ & _ & _ & L).
  injection H as H _. unfold d_solution_error in H. cbv zeta in H. rewrite L, X, Y, BO, BI in H.
  replace (among (c_model c) ["dcm_exp"; "dcm"; "crema"; "crema-sparse"]%string) with false in H by (destruct Hm as [<-|[<-|[]]]; reflexivity).
  replace (among (c_model c) ["decm"; "decm_exp"]%string) with true in H by (destruct Hm as [<-|[<-|[]]]; reflexivity).
  discriminate H.
Qed.
Lemma d_raised_dcm g c o m o' e m' : In (c_model c) ["dcm"; "dcm_exp"]%string -> ds_bo o = None -> d_solve_measured g c o m = ((o', Some e), m') -> m' = m.
Proof.
  intros Hm HB H. unfold d_solve_measured in H. cbv zeta in H.
  replace (among (c_model c) ["dcm"; "dcm_exp"; "decm"; "decm_exp"]%string) with true in H by (destruct Hm as [<-|[<-|[]]]; reflexivity).
  destruct (d_solve_problem g (c_full c) (c_model c) (c_method c) (c_guess c) (c_out c) o) as [o1 [e1|]] eqn:E; cbn [snd fst] in H; [injection H as _ _ <-; reflexivity|].
  exfalso. apply d_solve_dcm in E; [|exact Hm]. destruct E as (d & v & _ & _ & E).
  assert (Q : snd (d_solution_error g o1) = None).
  { apply (d_error_quiet g o1 (c_model c)); [rewrite E; reflexivity|destruct Hm as [<-|[<-|[]]]; reflexivity|rewrite E; exact HB]. }
  injection H as H _. rewrite H in Q. discriminate Q.
Qed.
Lemma refused_raises_measured g c o m : In (c_model c) ["ecm"; "ecm_exp"]%string -> c_out c = None ->
  exists o' e, u_solve_measured g c o m = ((o', Some e), m).
Proof.
  intros Hm Hc. destruct (u_solve_measured g c o m) as [[o' [e|]] m'] eqn:E.
  - exists o', e. rewrite (u_raised_ecm g c o m o' e m' Hm E). reflexivity.
  - exfalso. apply u_measured_inv in E. destruct E as [E _]. destruct (u_tool_problem g c o o') as (o1 & H1 & _); [cbn in Hm |- *; tauto|exact E|].
    apply u_solve_ecm in H1; [|exact Hm]. destruct H1 as (d & v & _ & X & _). rewrite Hc in X. discriminate.
Qed.

(** An isolated node of which the solution expects links: the relative error is infinite. *)
Lemma fgt_PInf_fold l (v : nat -> fval) acc : acc <> NaN -> acc = PInf \/ (exists i, In i l /\ v i = PInf) ->
  fold_left (fun acc i => if fgt (v i) acc then v i else acc) l acc = PInf.
Proof.
  revert acc. induction l as [|a l IH]; intros acc HN H; cbn [fold_left].
  - destruct H as [H|(i & [] & _)]. exact H.
  - assert (B : fgt (v a) acc = true -> v a <> NaN) by (intros F E; rewrite E in F; discriminate).
    destruct H as [->|(i & [->|Hi] & E)].
    + replace (fgt (v a) PInf) with false by (destruct (v a); reflexivity). apply IH; [discriminate|left; reflexivity].
    + destruct (fgt (v i) acc) eqn:F; [apply IH; [apply B; reflexivity|left; exact E]|].
      apply IH; [exact HN|]. left. rewrite E in F. destruct acc; cbn in F; congruence.
    + destruct (fgt (v a) acc) eqn:F; (apply IH; [|right; exists i; split; assumption]); [apply B; reflexivity|exact HN].
Qed.
Lemma py_max_PInf m (v : nat -> fval) : v O <> NaN -> (exists i, (i < m)%nat /\ v i = PInf) -> py_max m v = PInf.
Proof.
  intros HN (i & Hi & E). unfold py_max. apply fgt_PInf_fold; [exact HN|].
  destruct i as [|i]; [left; exact E|right; exists (S i); split; [apply in_seq; lia|exact E]].
Qed.
Lemma u_rel_ecm_isolated g c o m o' m' i : In (c_model c) ["ecm"; "ecm_exp"]%string -> u_solve_measured g c o m = ((o', None), m') ->
  (i < un_n g)%nat -> nth i (un_dseq g) O = O ->
  exists x y, us_x o' = Some x /\ us_y o' = Some y /\
    (mean_deg_und (un_n g) x y i <> 0 -> nth 0 (un_dseq g) O <> O \/ mean_deg_und (un_n g) x y O <> 0 -> m_rk m' = Some PInf).
Proof.
  intros Hm H Hi HD. apply u_measured_inv in H. destruct H as [H ->]. destruct (u_state_ecm _ _ _ _ Hm H) as (x & Hx & Hy & HL).
  destruct (u_measures_ecm g o' m _ _ _ HL Hm Hx Hy) as (_ & _ & M3 & _).
  exists x, (drop (un_n g) x). do 2 (split; [assumption|]). intros HE H0. rewrite M3. f_equal.
  assert (Z : forall j, (j < un_n g)%nat -> expected_ecm (un_n g) (join2 (un_n g) x (drop (un_n g) x)) j = mean_deg_und (un_n g) x (drop (un_n g) x) j)
    by (intros j Hj; apply ecm_expected, Hj).
  apply py_max_PInf.
  - rewrite Z by lia. unfold fdiv, at_list. destruct (Req_EM_T (INR (nth 0 (un_dseq g) O)) 0) as [E|E]; [|discriminate].
    destruct H0 as [H0|H0]; [exfalso; apply H0; apply INR_eq; exact E|]. rewrite E.
    destruct (Req_EM_T (0 - mean_deg_und (un_n g) x (drop (un_n g) x) O) 0); [exfalso; lra|].
    destruct (Rlt_dec 0 (0 - mean_deg_und (un_n g) x (drop (un_n g) x) O)); discriminate.
  - exists i. split; [exact Hi|]. rewrite Z by exact Hi. unfold at_list. rewrite HD. cbn [INR]. unfold fdiv.
    destruct (Req_EM_T 0 0) as [_|N]; [|lra].
    destruct (Req_EM_T (0 - mean_deg_und (un_n g) x (drop (un_n g) x) i) 0); [exfalso; lra|].
    destruct (Rlt_dec 0 (0 - mean_deg_und (un_n g) x (drop (un_n g) x) i)); reflexivity.
Qed.
Lemma mean_deg_und_pos n x y i : (2 <= n)%nat -> (i < n)%nat -> (forall j, (j < n)%nat -> 0 < x j /\ 0 < y j) ->
  (forall j k, (j < n)%nat -> (k < n)%nat -> j <> k -> y j * y k < 1) -> 0 < mean_deg_und n x y i.
Proof.
  intros Hn Hi HP HY. unfold mean_deg_und. set (j := if Nat.eqb i 0 then 1%nat else O).
  assert (Hj : (j < n)%nat /\ i <> j) by (unfold j; destruct (Nat.eqb_spec i 0); lia). destruct Hj as [Hj Hij].
  assert (P : forall k, (k < n)%nat -> 0 <= (if Nat.eqb i k then 0 else link_mean (x i * x k) (y i * y k)) /\
                        (i <> k -> 0 < (if Nat.eqb i k then 0 else link_mean (x i * x k) (y i * y k)))).
  { intros k Hk. destruct (Nat.eqb_spec i k) as [->|N]; [split; [lra|congruence]|].
    destruct (HP i Hi) as [A1 A2]. destruct (HP k Hk) as [B1 B2]. pose proof (HY i k Hi Hk N) as Y.
    assert (Q : 0 < link_mean (x i * x k) (y i * y k)).
    { assert (A : 0 < x i * x k * (y i * y k)) by (repeat apply Rmult_lt_0_compat; assumption).
      unfold link_mean. apply Rdiv_lt_0_compat; [exact A|]. set (t := y i * y k) in *. lra. }
    split; [lra|intros _; exact Q]. }
  apply Rlt_le_trans with (1 := proj2 (P j Hj) Hij).
  apply (rsum_ge_term n (fun k => if Nat.eqb i k then 0 else link_mean (x i * x k) (y i * y k)) j); [|exact Hj]. intros k Hk. apply P, Hk.
Qed.
Lemma u_rel_ecm_exp_isolated g c o m o' m' i : c_model c = "ecm_exp"%string -> u_solve_measured g c o m = ((o', None), m') ->
  (2 <= un_n g)%nat -> (i < un_n g)%nat -> nth i (un_dseq g) O = O ->
  (forall y, us_y o' = Some y -> forall j k, (j < un_n g)%nat -> (k < un_n g)%nat -> j <> k -> y j * y k < 1) ->
  m_rk m' = Some PInf.
Proof.
  intros Hm H Hn Hi HD HY. assert (Hin : In (c_model c) ["ecm"; "ecm_exp"]%string) by (rewrite Hm; cbn; tauto).
  destruct (u_rel_ecm_isolated _ _ _ _ _ _ i Hin H Hi HD) as (x & y & Hx & Hy & G).
  apply u_measured_inv in H. destruct H as [H _]. destruct (u_tool_problem g c o o') as (o1 & H1 & H2); [cbn in Hin |- *; tauto|exact H|].
  apply u_solve_ecm in H1; [|exact Hin]. destruct H1 as (d & v & _ & _ & X1 & Y1 & _).
  apply u_error_frame in H2. destruct H2 as (E1 & E2 & _). rewrite E1, X1 in Hx. rewrite E2, Y1 in Hy. injection Hx as <-. injection Hy as <-.
  rewrite E2, Y1 in HY. specialize (HY _ eq_refl).
  assert (HP : forall j, (j < un_n g)%nat -> 0 < ecm_factor (c_model c) v j /\ 0 < drop (un_n g) (ecm_factor (c_model c) v) j)
    by (intros j _; unfold drop, ecm_factor; rewrite Hm; cbn [String.eqb Ascii.eqb Bool.eqb]; split; apply exp_pos).
  apply G; [|right]; apply Rgt_not_eq, mean_deg_und_pos; assumption || lia.
Qed.
