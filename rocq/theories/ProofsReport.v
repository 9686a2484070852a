(** Relative errors and expected sequences written after a solve. *)
From Coq Require Import Reals List Arith Lra Lia Bool String.
From Verif Require Import Base SpecGraph SpecDirected SpecWeighted SpecCReMa SpecEnsemble SpecNetwork SpecSolve SpecDispatch SpecReport
  ModelCM ModelECM ModelDCM ModelDECM ModelCReMa ModelNetwork ModelDispatch ModelSolve ModelReport
  ProofsGraph ProofsCM ProofsMainCM ProofsECM ProofsMainECM ProofsEnsemble ProofsMainDCM ProofsDECM ProofsMainDECM
  ProofsCReMa ProofsMainCReMa ProofsUnique ProofsAdjacency ProofsDispatch ProofsSolve ProofsSolveU ProofsSolveD.
Local Open Scope R_scope.
Import ListNotations.
#[local] Opaque u_dispatch d_dispatch lookup.

(** * Maxima of finite values *)
Section Fold.
Variable f : fval -> nat -> fval.
Variable r : nat -> R.
Hypothesis Hf : forall a i, f (Fin a) i = if Rlt_dec a (r i) then Fin (r i) else Fin a.
Lemma fold_fin l a : exists e, fold_left f l (Fin a) = Fin e /\ a <= e /\ (forall i, In i l -> r i <= e) /\ (e = a \/ exists i, In i l /\ e = r i).
Proof.
  revert a. induction l as [|i l IH]; intros a.
  - exists a. repeat split; [lra|intros i []|now left].
  - cbn [fold_left]. rewrite Hf. destruct (Rlt_dec a (r i)) as [L|L].
    + destruct (IH (r i)) as (e & E & H1 & H2 & H3). exists e. split; [exact E|]. split; [lra|]. split.
      * intros j [<-|Hj]; [exact H1|apply H2; exact Hj].
      * right. destruct H3 as [->|(j & Hj & ->)]; [exists i; split; [now left|reflexivity]|exists j; split; [now right|reflexivity]].
    + destruct (IH a) as (e & E & H1 & H2 & H3). exists e. split; [exact E|]. split; [lra|]. split.
      * intros j [<-|Hj]; [lra|apply H2; exact Hj].
      * destruct H3 as [->|(j & Hj & ->)]; [now left|right; exists j; split; [now right|reflexivity]].
Qed.
Lemma fold_fin_max m : (0 < m)%nat -> exists e, fold_left f (seq 1 (m - 1)) (Fin (r O)) = Fin e /\
  (forall i, (i < m)%nat -> r i <= e) /\ exists i, (i < m)%nat /\ e = r i.
Proof.
  intros Hm. destruct (fold_fin (seq 1 (m - 1)) (r O)) as (e & E & H1 & H2 & H3). exists e. split; [exact E|]. split.
  - intros [|i] Hi; [exact H1|]. apply H2, in_seq. lia.
  - destruct H3 as [->|(i & Hi & ->)]; [exists O; split; [exact Hm|reflexivity]|exists i; apply in_seq in Hi; split; [lia|reflexivity]].
Qed.
End Fold.
Lemma fold_left_ext {A B} (f h : A -> B -> A) l : (forall a b, In b l -> f a b = h a b) -> forall a, fold_left f l a = fold_left h l a.
Proof.
  induction l as [|b l IH]; intros H a; [reflexivity|]. cbn [fold_left]. rewrite H by now left. apply IH. intros; apply H; now right.
Qed.
Lemma np_fmax_fin m v r : (0 < m)%nat -> (forall i, (i < m)%nat -> v i = Fin (r i)) ->
  exists e, np_fmax m v = Fin e /\ (forall i, (i < m)%nat -> r i <= e) /\ exists i, (i < m)%nat /\ e = r i.
Proof.
  intros Hm Hv. unfold np_fmax. rewrite (Hv O Hm).
  rewrite (fold_left_ext _ (fun acc i => if is_nan acc then acc else if fgt (Fin (r i)) acc then Fin (r i) else acc)).
  - apply fold_fin_max; [|exact Hm]. intros a i. cbn. destruct (Rlt_dec a (r i)); reflexivity.
  - intros a i Hi. apply in_seq in Hi. rewrite Hv by lia. reflexivity.
Qed.
Lemma py_max_fin m v r : (0 < m)%nat -> (forall i, (i < m)%nat -> v i = Fin (r i)) ->
  exists e, py_max m v = Fin e /\ (forall i, (i < m)%nat -> r i <= e) /\ exists i, (i < m)%nat /\ e = r i.
Proof.
  intros Hm Hv. unfold py_max. rewrite (Hv O Hm).
  rewrite (fold_left_ext _ (fun acc i => if fgt (Fin (r i)) acc then Fin (r i) else acc)).
  - apply fold_fin_max; [|exact Hm]. intros a i. cbn. destruct (Rlt_dec a (r i)); reflexivity.
  - intros a i Hi. apply in_seq in Hi. rewrite Hv by lia. reflexivity.
Qed.
Lemma fabs_fdiv a b : 0 < b -> fabs (fdiv a b) = Fin (Rabs a / b).
Proof.
  intros Hb. unfold fdiv. destruct (Req_EM_T b 0) as [E|_]; [lra|]. cbn. unfold Rdiv. rewrite Rabs_mult, (Rabs_right (/ b)); [reflexivity|].
  apply Rle_ge, Rlt_le, Rinv_0_lt_compat, Hb.
Qed.
Lemma rel_of_max m ex ob u e : (forall i, (i < m)%nat -> 0 < u i) ->
  (forall i, (i < m)%nat -> Rabs (ex i - ob i) / u i <= e) /\ (exists i, (i < m)%nat /\ e = Rabs (ex i - ob i) / u i) -> sup_rel m ex ob u e.
Proof.
  intros Hu [H1 (i & Hi & E)]. split.
  - intros j Hj. specialize (H1 j Hj). specialize (Hu j Hj). apply Rmult_le_compat_r with (r := u j) in H1; [|lra].
    replace (Rabs (ex j - ob j) / u j * u j) with (Rabs (ex j - ob j)) in H1 by (field; lra). exact H1.
  - exists i. split; [exact Hi|]. specialize (Hu i Hi). rewrite E. field. lra.
Qed.
Lemma np_fmax_rel m ex ob u : (0 < m)%nat -> (forall i, (i < m)%nat -> 0 < u i) ->
  exists e, np_fmax m (fun i => fabs (fdiv (ex i - ob i) (u i))) = Fin e /\ sup_rel m ex ob u e.
Proof.
  intros Hm Hu. destruct (np_fmax_fin m (fun i => fabs (fdiv (ex i - ob i) (u i))) (fun i => Rabs (ex i - ob i) / u i) Hm) as (e & E & H).
  - intros i Hi. apply fabs_fdiv, Hu, Hi.
  - exists e. split; [exact E|]. apply rel_of_max; assumption.
Qed.
Lemma py_max_rel m ex ob u : (0 < m)%nat -> (forall i, (i < m)%nat -> 0 < u i) ->
  exists e, py_max m (fun i => fabs (fdiv (ob i - ex i) (u i))) = Fin e /\ sup_rel m ex ob u e.
Proof.
  intros Hm Hu. destruct (py_max_fin m (fun i => fabs (fdiv (ob i - ex i) (u i))) (fun i => Rabs (ex i - ob i) / u i) Hm) as (e & E & H).
  - intros i Hi. rewrite fabs_fdiv by (apply Hu, Hi). rewrite Rabs_minus_sym. reflexivity.
  - exists e. split; [exact E|]. apply rel_of_max; assumption.
Qed.
Lemma sup_rel_ext m ex ob u ex' ob' u' e : (forall i, (i < m)%nat -> ex i = ex' i) -> (forall i, (i < m)%nat -> ob i = ob' i) ->
  (forall i, (i < m)%nat -> u i = u' i) -> sup_rel m ex ob u e -> sup_rel m ex' ob' u' e.
Proof.
  intros H1 H2 H3 [H4 (i & Hi & E)]. split.
  - intros j Hj. rewrite <- H1, <- H2, <- H3 by exact Hj. apply H4. exact Hj.
  - exists i. split; [exact Hi|]. rewrite <- H1, <- H2, <- H3 by exact Hi. exact E.
Qed.
Lemma sup_rel_blocks n ex ob u a b a' b' ua ub e :
  (forall i, (i < n)%nat -> ex i = a i /\ ex (i + n)%nat = b i) -> (forall i, (i < n)%nat -> ob i = a' i /\ ob (i + n)%nat = b' i) ->
  (forall i, (i < n)%nat -> u i = ua i /\ u (i + n)%nat = ub i) ->
  sup_rel (n + n) ex ob u e -> sup_rel2 n a a' ua b b' ub e.
Proof.
  intros H1 H2 H3 [H4 (i & Hi & E)]. split.
  - intros j Hj. destruct (H1 j Hj) as [A1 A2], (H2 j Hj) as [B1 B2], (H3 j Hj) as [C1 C2].
    rewrite <- A1, <- A2, <- B1, <- B2, <- C1, <- C2. split; apply H4; lia.
  - destruct (Nat.lt_ge_cases i n) as [L|L].
    + exists i. split; [exact L|]. left. destruct (H1 i L) as [A1 _], (H2 i L) as [B1 _], (H3 i L) as [C1 _]. rewrite <- A1, <- B1, <- C1. exact E.
    + exists (i - n)%nat. assert (L' : (i - n < n)%nat) by lia. split; [exact L'|]. right.
      destruct (H1 _ L') as [_ A1], (H2 _ L') as [_ B1], (H3 _ L') as [_ C1]. rewrite <- A1, <- B1, <- C1.
      replace (i - n + n)%nat with i by lia. exact E.
Qed.
Lemma guard_pos : 0 < guard.
Proof. apply exp_pos. Qed.
Lemma at_list_nonneg l i : 0 <= at_list l i.
Proof. unfold at_list. apply pos_INR. Qed.

(** * UndirectedGraph *)
Lemma u_measured_tool g c o m : fst (u_solve_measured g c o m) = u_solve_tool g c o.
Proof.
  unfold u_solve_measured, u_solve_tool, andthen. cbv zeta.
  match goal with |- context [snd ?r] => destruct r as [o1 [e|]] end; reflexivity.
Qed.
Lemma u_measured_some g c o o' m : u_solve_tool g c o = (o', None) -> exists m', u_solve_measured g c o m = ((o', None), m').
Proof.
  intros H. rewrite <- (u_measured_tool g c o m) in H. destruct (u_solve_measured g c o m) as [r m']. exists m'. cbn in H. rewrite H. reflexivity.
Qed.
Lemma u_error_sparse g o o' r : u_solution_error g o = (o', r) -> us_sparse o' = us_sparse o.
Proof.
  intros H. unfold u_solution_error, u_error_strength, u_error_degree in H.
  repeat match type of H with
  | context [match ?t with _ => _ end] => match t with context [match _ with _ => _ end] => fail 1 | _ => destruct t eqn:? end
  end; cbn [us_x us_y us_beta us_adj us_given us_sparse us_last us_ek us_set_ek us_set_es us_set_err us_set_errs] in *; try discriminate;
  injection H as <- <-; cbn; congruence.
Qed.
Lemma u_measured_inv g c o m o' m' : u_solve_measured g c o m = ((o', None), m') -> u_solve_tool g c o = (o', None) /\ m' = u_measures g o' m.
Proof.
  intros H. split; [rewrite <- (u_measured_tool g c o m), H; reflexivity|].
  unfold u_solve_measured in H. cbv zeta in H.
  match type of H with context [snd ?r] => destruct r as [o1 [e|]] end; cbn [snd fst] in H; [discriminate|].
  injection H as H <-. pose proof (u_error_sparse _ _ _ _ H) as ES. apply u_error_frame in H. destruct H as (E1 & E2 & E3 & _ & _ & _ & E4 & E5).
  unfold u_measures. rewrite E1, E2, E3, E4, E5, ES. reflexivity.
Qed.
Lemma u_tool_problem g c o o' : In (c_model c) ["cm"; "cm_exp"; "ecm"; "ecm_exp"]%string -> u_solve_tool g c o = (o', None) ->
  exists o1, u_solve_problem g (c_model c) (c_method c) (c_guess c) (c_out c) o = (o1, None) /\ u_solution_error g o1 = (o', None).
Proof.
  intros Hm H. unfold u_solve_tool in H. apply andthen_inv in H. destruct H as (o1 & H1 & H). exists o1. split; [|exact H].
  destruct Hm as [E|[E|[E|[E|[]]]]]; rewrite <- E in H1 |- *; names_in H1; exact H1.
Qed.
Ltac among_true Hm := repeat destruct Hm as [Hm|Hm]; try (rewrite <- Hm; reflexivity); try contradiction.
(** The degree part, whatever the strength part does. *)
Lemma u_measures_degree g o m l x : us_last o = Some l -> among l ["cm"; "cm_exp"; "crema"; "crema-sparse"]%string = true -> us_x o = Some x ->
  m_edseq (u_measures g o m) = Some (expected_degree_cm (un_n g) x) /\
  m_rk (u_measures g o m) = Some (np_fmax (un_n g) (fun i => fabs (fdiv (expected_degree_cm (un_n g) x i - at_list (un_dseq g) i) (at_list (un_dseq g) i + guard)))) /\
  m_estr (u_measures g o m) = m_estr m.
Proof.
  intros HL HA HX. unfold u_measures. cbv zeta. rewrite HL, HA, HX.
  destruct (us_beta o) as [b|]; [|repeat split]. destruct (us_adj o) as [adj|]; [|repeat split].
  match goal with |- context [match ?t with Some _ => _ | None => _ end] => destruct t end; repeat split.
Qed.
Lemma u_measures_strength g o m l beta adj E : us_last o = Some l -> among l ["cm"; "cm_exp"; "crema"; "crema-sparse"]%string = true ->
  us_beta o = Some beta -> us_adj o = Some adj ->
  (if us_sparse o then expected_strength_crema_undirected_sparse (un_n g) (adj0 adj) beta
   else obind (adj_edges adj) (fun es => expected_strength_crema_undirected es beta)) = Some E ->
  m_estreg (u_measures g o m) = Some E /\ m_estr (u_measures g o m) = m_estr m /\
  m_rs (u_measures g o m) = Some (np_fmax (un_n g) (fun i => fabs (fdiv (E i - un_str g i) (un_str g i + guard)))).
Proof.
  intros HL HA HB HJ HE. unfold u_measures. cbv zeta. rewrite HL, HA, HB, HJ, HE. destruct (us_x o); repeat split.
Qed.
Lemma u_state_cm g c o o' : In (c_model c) ["cm"; "cm_exp"]%string -> u_solve_tool g c o = (o', None) ->
  exists x, us_x o' = Some x /\ us_last o' = Some (c_model c).
Proof.
  intros Hm H. destruct (u_tool_problem g c o o') as (o1 & H1 & H2); [cbn in Hm |- *; tauto|exact H|].
  apply u_solve_cm in H1; [|exact Hm]. destruct H1 as (d & v & _ & _ & ->).
  apply u_error_frame in H2. destruct H2 as (E1 & _ & _ & _ & _ & _ & E2 & _). cbn in E1, E2. eexists. split; [exact E1|exact E2].
Qed.
Lemma u_degree_report g o m l x : (0 < un_n g)%nat -> us_last o = Some l -> among l ["cm"; "cm_exp"; "crema"; "crema-sparse"]%string = true -> us_x o = Some x ->
  exists f e, m_edseq (u_measures g o m) = Some f /\ m_rk (u_measures g o m) = Some (Fin e) /\
    (forall i, (i < un_n g)%nat -> f i = mean_undirected (un_n g) (p_ubcm x) (fun a => deg (un_n g) a i)) /\
    sup_rel (un_n g) (fun i => mean_undirected (un_n g) (p_ubcm x) (fun a => deg (un_n g) a i)) (at_list (un_dseq g)) (padded (at_list (un_dseq g))) e.
Proof.
  intros Hn HL HA HX. destruct (u_measures_degree g o m l x HL HA HX) as (D1 & D2 & _).
  destruct (np_fmax_rel (un_n g) (expected_degree_cm (un_n g) x) (at_list (un_dseq g)) (fun i => at_list (un_dseq g) i + guard) Hn) as (e & E & S).
  { intros i _. pose proof (at_list_nonneg (un_dseq g) i). pose proof guard_pos. lra. }
  exists (expected_degree_cm (un_n g) x), e. split; [exact D1|]. split; [rewrite D2; f_equal; exact E|].
  assert (M : forall i, (i < un_n g)%nat -> expected_degree_cm (un_n g) x i = mean_undirected (un_n g) (p_ubcm x) (fun a => deg (un_n g) a i))
    by (intros i Hi; symmetry; apply expected_degree_cm_mean; exact Hi).
  split; [exact M|]. eapply sup_rel_ext; [exact M|reflexivity|reflexivity|exact S].
Qed.
Lemma u_rel_cm g c o m o' m' : (0 < un_n g)%nat -> In (c_model c) ["cm"; "cm_exp"]%string -> u_solve_measured g c o m = ((o', None), m') ->
  exists x e, us_x o' = Some x /\ m_rk m' = Some (Fin e) /\
    sup_rel (un_n g) (fun i => mean_undirected (un_n g) (p_ubcm x) (fun a => deg (un_n g) a i)) (at_list (un_dseq g)) (padded (at_list (un_dseq g))) e.
Proof.
  intros Hn Hm H. apply u_measured_inv in H. destruct H as [H ->]. destruct (u_state_cm _ _ _ _ Hm H) as (x & Hx & HL).
  destruct (u_degree_report g o' m (c_model c) x Hn HL) as (f & e & _ & R2 & _ & R4); [among_true Hm|exact Hx|]. exists x, e. auto.
Qed.
Lemma u_exp_cm g c o m o' m' : In (c_model c) ["cm"; "cm_exp"]%string -> u_solve_measured g c o m = ((o', None), m') ->
  exists x f, us_x o' = Some x /\ m_edseq m' = Some f /\
    forall i, (i < un_n g)%nat -> f i = mean_undirected (un_n g) (p_ubcm x) (fun a => deg (un_n g) a i).
Proof.
  intros Hm H. apply u_measured_inv in H. destruct H as [H ->]. destruct (u_state_cm _ _ _ _ Hm H) as (x & Hx & HL).
  destruct (u_measures_degree g o' m (c_model c) x HL) as (D1 & _ & _); [among_true Hm|exact Hx|].
  exists x, (expected_degree_cm (un_n g) x). split; [exact Hx|]. split; [exact D1|]. intros i Hi. symmetry. apply expected_degree_cm_mean. exact Hi.
Qed.
Lemma u_state_ecm g c o o' : In (c_model c) ["ecm"; "ecm_exp"]%string -> u_solve_tool g c o = (o', None) ->
  exists x, us_x o' = Some x /\ us_y o' = Some (drop (un_n g) x) /\ us_last o' = Some (c_model c).
Proof.
  intros Hm H. destruct (u_tool_problem g c o o') as (o1 & H1 & H2); [cbn in Hm |- *; tauto|exact H|].
  apply u_solve_ecm in H1; [|exact Hm]. destruct H1 as (d & v & _ & _ & X1 & X2 & _ & _ & _ & X3).
  apply u_error_frame in H2. destruct H2 as (E1 & E2 & _ & _ & _ & _ & E3 & _). eexists. split; [rewrite E1; exact X1|].
  split; [rewrite E2; exact X2|rewrite E3; exact X3].
Qed.
Lemma u_measures_ecm g o m l x y : us_last o = Some l -> In l ["ecm"; "ecm_exp"]%string -> us_x o = Some x -> us_y o = Some y ->
  let ex := expected_ecm (un_n g) (join2 (un_n g) x y) in let k := at_list (un_dseq g) in let s := un_str g in
  m_edseq (u_measures g o m) = Some ex /\ m_estr (u_measures g o m) = Some (drop (un_n g) ex) /\
  m_rk (u_measures g o m) = Some (py_max (un_n g) (fun i => fabs (fdiv (k i - ex i) (k i)))) /\
  m_rs (u_measures g o m) = Some (py_max (un_n g) (fun i => fabs (fdiv (s i - drop (un_n g) ex i) (s i)))).
Proof.
  intros HL Hm HX HY. cbv zeta. unfold u_measures. cbv zeta. rewrite HL.
  replace (among l ["cm"; "cm_exp"; "crema"; "crema-sparse"]%string) with false by (destruct Hm as [<-|[<-|[]]]; reflexivity).
  replace (among l ["ecm"; "ecm_exp"]%string) with true by (destruct Hm as [<-|[<-|[]]]; reflexivity).
  rewrite HX, HY. repeat split.
Qed.
Lemma ecm_expected n x y i : (i < n)%nat -> expected_ecm n (join2 n x y) i = mean_deg_und n x y i /\ drop n (expected_ecm n (join2 n x y)) i = mean_str_und n x y i.
Proof.
  intros Hi. assert (EX : forall j, (j < n)%nat -> join2 n x y j = x j) by (intros; apply join2_l; assumption). split.
  - rewrite expected_ecm_x by exact Hi. unfold mean_deg_und, link_mean. apply rsum_ext. intros j Hj. rewrite !EX, !join2_r by assumption. reflexivity.
  - unfold drop at 1. rewrite expected_ecm_y. unfold mean_str_und, weight_mean. apply rsum_ext. intros j Hj. rewrite !EX, !join2_r by assumption. reflexivity.
Qed.
Lemma u_rel_ecm g c o m o' m' : (0 < un_n g)%nat -> In (c_model c) ["ecm"; "ecm_exp"]%string -> u_solve_measured g c o m = ((o', None), m') ->
  (forall i, (i < un_n g)%nat -> nth i (un_dseq g) O <> O /\ 0 < un_str g i) ->
  exists x y ek es, us_x o' = Some x /\ us_y o' = Some y /\ m_rk m' = Some (Fin ek) /\ m_rs m' = Some (Fin es) /\
    sup_rel (un_n g) (mean_deg_und (un_n g) x y) (at_list (un_dseq g)) (at_list (un_dseq g)) ek /\
    sup_rel (un_n g) (mean_str_und (un_n g) x y) (un_str g) (un_str g) es.
Proof.
  intros Hn Hm H HZ. apply u_measured_inv in H. destruct H as [H ->]. destruct (u_state_ecm _ _ _ _ Hm H) as (x & Hx & Hy & HL).
  destruct (u_measures_ecm g o' m _ _ _ HL Hm Hx Hy) as (_ & _ & M3 & M4).
  set (ex := expected_ecm (un_n g) (join2 (un_n g) x (drop (un_n g) x))) in *.
  destruct (py_max_rel (un_n g) ex (at_list (un_dseq g)) (at_list (un_dseq g)) Hn) as (ek & K1 & K2).
  { intros i Hi. destruct (HZ i Hi) as [Z _]. unfold at_list. apply lt_0_INR. lia. }
  destruct (py_max_rel (un_n g) (drop (un_n g) ex) (un_str g) (un_str g) Hn) as (es & S1 & S2); [intros i Hi; apply HZ, Hi|].
  exists x, (drop (un_n g) x), ek, es. do 2 (split; [assumption|]). split; [rewrite M3; f_equal; exact K1|]. split; [rewrite M4; f_equal; exact S1|].
  split; (eapply sup_rel_ext; [| | |first [exact K2|exact S2]]); try reflexivity; intros i Hi; apply ecm_expected; exact Hi.
Qed.
Lemma u_exp_ecm g c o m o' m' : In (c_model c) ["ecm"; "ecm_exp"]%string -> u_solve_measured g c o m = ((o', None), m') ->
  exists x y f h, us_x o' = Some x /\ us_y o' = Some y /\ m_edseq m' = Some f /\ m_estr m' = Some h /\
    forall i, (i < un_n g)%nat -> f i = mean_deg_und (un_n g) x y i /\ h i = mean_str_und (un_n g) x y i.
Proof.
  intros Hm H. apply u_measured_inv in H. destruct H as [H ->]. destruct (u_state_ecm _ _ _ _ Hm H) as (x & Hx & Hy & HL).
  destruct (u_measures_ecm g o' m _ _ _ HL Hm Hx Hy) as (M1 & M2 & _ & _). do 4 eexists. do 2 (split; [eassumption|]).
  split; [exact M1|]. split; [exact M2|]. intros i Hi. apply ecm_expected. exact Hi.
Qed.
Lemma u_strength_report g o m l beta adj E p : (0 < un_n g)%nat -> us_last o = Some l -> among l ["cm"; "cm_exp"; "crema"; "crema-sparse"]%string = true ->
  us_beta o = Some beta -> us_adj o = Some adj -> (forall i, (i < un_n g)%nat -> 0 <= un_str g i) ->
  (if us_sparse o then expected_strength_crema_undirected_sparse (un_n g) (adj0 adj) beta
   else obind (adj_edges adj) (fun es => expected_strength_crema_undirected es beta)) = Some E ->
  (forall i, (i < un_n g)%nat -> E i = crema_mean (un_n g) p beta i) ->
  exists e, m_rs (u_measures g o m) = Some (Fin e) /\ sup_rel (un_n g) (crema_mean (un_n g) p beta) (un_str g) (padded (un_str g)) e.
Proof.
  intros Hn HL HA HB HJ HS HE HP. destruct (u_measures_strength g o m l beta adj E HL HA HB HJ HE) as (_ & _ & R).
  destruct (np_fmax_rel (un_n g) E (un_str g) (fun i => un_str g i + guard) Hn) as (e & E1 & S).
  { intros i Hi. specialize (HS i Hi). pose proof guard_pos. lra. }
  exists e. split; [rewrite R; f_equal; exact E1|]. eapply sup_rel_ext; [exact HP|reflexivity|reflexivity|exact S].
Qed.
(** The CReMa state reached, with the strengths it expects. *)
Lemma u_crema_state_matrix g c o o' a : In (c_model c) ["crema"; "crema-sparse"]%string -> c_adjacency c = AdjMatrix a -> hollow a ->
  u_solve_tool g c o = (o', None) -> (forall b, us_beta o' = Some b -> positive_rates (un_n g) a b) ->
  exists beta adj E, us_beta o' = Some beta /\ us_last o' = Some (c_model c) /\ us_adj o' = Some adj /\
    (if us_sparse o' then expected_strength_crema_undirected_sparse (un_n g) (adj0 adj) beta
     else obind (adj_edges adj) (fun es => expected_strength_crema_undirected es beta)) = Some E /\
    forall i, (i < un_n g)%nat -> E i = crema_mean (un_n g) a beta i.
Proof.
  intros Hm Ha Hh H HP. destruct (u_tool_crema _ _ _ _ Hm H) as (o1 & H1 & H2).
  apply u_crema_inv in H1; [|exact Hm]. destruct H1 as (o2 & d & v & v0 & adj & HA & _ & Hv & HJ & ->).
  destruct (u_adj_matrix _ _ _ _ _ Ha HA) as (J1 & J2 & J3).
  pose proof (u_error_sparse _ _ _ _ H2) as ES. cbn in ES.
  destruct (u_error_frame _ _ _ _ H2) as (_ & _ & FB & _ & _ & _ & FL & FJ). cbn in FB, FL, FJ. specialize (HP _ FB).
  destruct (expected_triu _ _ _ Hh HP) as (E & E1 & E2). exists (o_x v), (Triples (triu_edges (un_n g) a)), E.
  do 2 (split; [assumption|]). split; [rewrite FJ; exact J1|]. split; [rewrite ES, J3; exact E1|exact E2].
Qed.
Lemma u_crema_state_name g c o o' a : In (c_model c) ["crema"; "crema-sparse"]%string -> c_adjacency c = AdjName a -> In a ["cm"; "cm_exp"]%string ->
  u_solve_tool g c o = (o', None) ->
  (forall x b, us_x o' = Some x -> us_beta o' = Some b -> (forall i, (i < un_n g)%nat -> 0 <= x i) /\ positive_rates (un_n g) (p_ubcm x) b) ->
  exists x beta adj E, us_x o' = Some x /\ us_beta o' = Some beta /\ us_last o' = Some (c_model c) /\ us_adj o' = Some adj /\
    (if us_sparse o' then expected_strength_crema_undirected_sparse (un_n g) (adj0 adj) beta
     else obind (adj_edges adj) (fun es => expected_strength_crema_undirected es beta)) = Some E /\
    forall i, (i < un_n g)%nat -> E i = crema_mean (un_n g) (p_ubcm x) beta i.
Proof.
  intros Hm Ha Hna H HP. destruct (u_tool_crema _ _ _ _ Hm H) as (o1 & H1 & H2).
  apply u_crema_inv in H1; [|exact Hm]. destruct H1 as (o2 & d & v & v0 & adj & HA & _ & Hv & HJ & ->).
  destruct (u_adj_name _ _ _ _ _ Ha Hna HA) as (va & Hva & J1 & J2 & J3 & J4). set (x := fun i => cm_factor a va (u_class g i)) in *.
  pose proof (u_error_sparse _ _ _ _ H2) as ES. cbn in ES.
  destruct (u_error_frame _ _ _ _ H2) as (FX & _ & FB & _ & _ & _ & FL & FJ). cbn in FB, FX, FL, FJ. rewrite J1 in FX.
  destruct (HP _ _ FX FB) as [HX HR].
  assert (HR' : positive_rates (un_n g) (pmatrix_cm x) (o_x v)).
  { intros i j Hij. rewrite pmatrix_ubcm by lia. apply HR. exact Hij. }
  assert (X : forall E, (forall i, (i < un_n g)%nat -> E i = crema_mean (un_n g) (pmatrix_cm x) (o_x v) i) ->
    forall i, (i < un_n g)%nat -> E i = crema_mean (un_n g) (p_ubcm x) (o_x v) i).
  { intros E HE i Hi. rewrite HE by exact Hi. apply crema_mean_ext. apply pmatrix_ubcm. }
  rewrite J3 in ES. rewrite J4 in FJ.
  destruct (String.eqb (c_model c) "crema-sparse") eqn:EM.
  - destruct (expected_sparse _ x _ HX HR') as (E & E1 & E2). do 4 eexists. split; [exact FX|]. split; [exact FB|]. split; [exact FL|].
    split; [exact FJ|]. split; [rewrite ES; exact E1|exact (X E E2)].
  - destruct (expected_triu _ _ _ (pmatrix_hollow x) HR') as (E & E1 & E2). do 4 eexists. split; [exact FX|]. split; [exact FB|]. split; [exact FL|].
    split; [exact FJ|]. split; [rewrite ES; exact E1|exact (X E E2)].
Qed.
Lemma u_rel_crema_matrix g c o m o' m' a : (0 < un_n g)%nat -> In (c_model c) ["crema"; "crema-sparse"]%string -> c_adjacency c = AdjMatrix a -> hollow a ->
  (forall i, (i < un_n g)%nat -> 0 <= un_str g i) -> u_solve_measured g c o m = ((o', None), m') ->
  (forall b, us_beta o' = Some b -> positive_rates (un_n g) a b) ->
  exists beta e, us_beta o' = Some beta /\ m_rs m' = Some (Fin e) /\
    sup_rel (un_n g) (crema_mean (un_n g) a beta) (un_str g) (padded (un_str g)) e.
Proof.
  intros Hn Hm Ha Hh HS H HP. apply u_measured_inv in H. destruct H as [H ->].
  destruct (u_crema_state_matrix _ _ _ _ _ Hm Ha Hh H HP) as (beta & adj & E & HB & HL & HJ & HE & HM).
  destruct (u_strength_report g o' m (c_model c) beta adj E a Hn HL) as (e & R1 & R2); [among_true Hm|assumption..|].
  exists beta, e. auto.
Qed.
Lemma u_rel_crema_name g c o m o' m' a : (0 < un_n g)%nat -> In (c_model c) ["crema"; "crema-sparse"]%string -> c_adjacency c = AdjName a ->
  In a ["cm"; "cm_exp"]%string -> (forall i, (i < un_n g)%nat -> 0 <= un_str g i) -> u_solve_measured g c o m = ((o', None), m') ->
  (forall x b, us_x o' = Some x -> us_beta o' = Some b -> (forall i, (i < un_n g)%nat -> 0 <= x i) /\ positive_rates (un_n g) (p_ubcm x) b) ->
  exists x beta ek es, us_x o' = Some x /\ us_beta o' = Some beta /\ m_rk m' = Some (Fin ek) /\ m_rs m' = Some (Fin es) /\
    sup_rel (un_n g) (fun i => mean_undirected (un_n g) (p_ubcm x) (fun a => deg (un_n g) a i)) (at_list (un_dseq g)) (padded (at_list (un_dseq g))) ek /\
    sup_rel (un_n g) (crema_mean (un_n g) (p_ubcm x) beta) (un_str g) (padded (un_str g)) es.
Proof.
  intros Hn Hm Ha Hna HS H HP. apply u_measured_inv in H. destruct H as [H ->].
  destruct (u_crema_state_name _ _ _ _ _ Hm Ha Hna H HP) as (x & beta & adj & E & HX & HB & HL & HJ & HE & HM).
  destruct (u_strength_report g o' m (c_model c) beta adj E (p_ubcm x) Hn HL) as (es & R1 & R2); [among_true Hm|assumption..|].
  destruct (u_degree_report g o' m (c_model c) x Hn HL) as (f & ek & _ & D2 & _ & D4); [among_true Hm|exact HX|].
  exists x, beta, ek, es. auto 10.
Qed.
(** A CReMa solve writes its expected strengths to the misspelt attribute. *)
Lemma u_exp_crema g c o m o' m' a : In (c_model c) ["crema"; "crema-sparse"]%string -> c_adjacency c = AdjMatrix a -> hollow a ->
  u_solve_measured g c o m = ((o', None), m') ->
  (forall b, us_beta o' = Some b -> positive_rates (un_n g) a b) ->
  exists beta h, us_beta o' = Some beta /\ m_estr m' = m_estr m /\ m_estreg m' = Some h /\
    forall i, (i < un_n g)%nat -> h i = crema_mean (un_n g) a beta i.
Proof.
  intros Hm Ha Hh H HP. apply u_measured_inv in H. destruct H as [H ->].
  destruct (u_crema_state_matrix _ _ _ _ _ Hm Ha Hh H HP) as (beta & adj & E & HB & HL & HJ & HE & HM).
  destruct (u_measures_strength g o' m (c_model c) beta adj E HL) as (R1 & R2 & R3); [among_true Hm|assumption..|].
  exists beta, E. auto.
Qed.
Lemma u_exp_crema_name g c o m o' m' a : In (c_model c) ["crema"; "crema-sparse"]%string -> c_adjacency c = AdjName a ->
  In a ["cm"; "cm_exp"]%string -> u_solve_measured g c o m = ((o', None), m') ->
  (forall x b, us_x o' = Some x -> us_beta o' = Some b -> (forall i, (i < un_n g)%nat -> 0 <= x i) /\ positive_rates (un_n g) (p_ubcm x) b) ->
  exists x beta f h, us_x o' = Some x /\ us_beta o' = Some beta /\ m_edseq m' = Some f /\ m_estr m' = m_estr m /\ m_estreg m' = Some h /\
    forall i, (i < un_n g)%nat -> f i = mean_undirected (un_n g) (p_ubcm x) (fun a => deg (un_n g) a i) /\
      h i = crema_mean (un_n g) (p_ubcm x) beta i.
Proof.
  intros Hm Ha Hna H HP. apply u_measured_inv in H. destruct H as [H ->].
  destruct (u_crema_state_name _ _ _ _ _ Hm Ha Hna H HP) as (x & beta & adj & E & HX & HB & HL & HJ & HE & HM).
  destruct (u_measures_strength g o' m (c_model c) beta adj E HL) as (R1 & R2 & R3); [among_true Hm|assumption..|].
  destruct (u_measures_degree g o' m (c_model c) x HL) as (D1 & _ & _); [among_true Hm|exact HX|].
  exists x, beta, (expected_degree_cm (un_n g) x), E. do 5 (split; [assumption|]). intros i Hi. split; [|apply HM; exact Hi].
  symmetry. apply expected_degree_cm_mean. exact Hi.
Qed.

(** * DirectedGraph *)
Lemma d_measured_tool g c o m : fst (d_solve_measured g c o m) = d_solve_tool g c o.
Proof.
  unfold d_solve_measured, d_solve_tool, andthen. cbv zeta.
  match goal with |- context [snd ?r] => destruct r as [o1 [e|]] end; reflexivity.
Qed.
Lemma d_measured_some g c o o' m : d_solve_tool g c o = (o', None) -> exists m', d_solve_measured g c o m = ((o', None), m').
Proof.
  intros H. rewrite <- (d_measured_tool g c o m) in H. destruct (d_solve_measured g c o m) as [r m']. exists m'. cbn in H. rewrite H. reflexivity.
Qed.
Lemma d_error_sparse g o o' r : d_solution_error g o = (o', r) -> ds_sparse o' = ds_sparse o.
Proof.
  intros H. unfold d_solution_error, d_error_strength, d_error_degree in H. cbv zeta in H.
  repeat match type of H with
  | context [match ?t with _ => _ end] => match t with context [match _ with _ => _ end] => fail 1 | _ => destruct t eqn:? end
  end; cbn [ds_x ds_y ds_bo ds_bi ds_adj ds_given ds_sparse ds_last ds_ek ds_set_ek ds_set_es ds_set_err ds_set_errs] in *; try discriminate;
  injection H as <- <-; cbn; congruence.
Qed.
Lemma d_measured_inv g c o m o' m' : d_solve_measured g c o m = ((o', None), m') -> d_solve_tool g c o = (o', None) /\ m' = d_measures g o' m.
Proof.
  intros H. split; [rewrite <- (d_measured_tool g c o m), H; reflexivity|].
  unfold d_solve_measured in H. cbv zeta in H.
  match type of H with context [snd ?r] => destruct r as [o1 [e|]] end; cbn [snd fst] in H; [discriminate|].
  injection H as H <-. pose proof (d_error_sparse _ _ _ _ H) as ES. apply d_error_frame in H.
  destruct H as (E1 & E2 & E3 & E4 & _ & _ & _ & E5 & E6).
  unfold d_measures. rewrite E1, E2, E3, E4, E5, E6, ES. reflexivity.
Qed.
Lemma d_measures_degree g o m l x y : ds_last o = Some l -> among l ["dcm_exp"; "dcm"; "crema"; "crema-sparse"]%string = true ->
  ds_x o = Some x -> ds_y o = Some y ->
  let n := dn_n g in let ex := join2 n (expected_out_degree_dcm n (join2 n x y)) (expected_in_degree_dcm n (join2 n x y)) in
  let k := join2 n (at_list (dn_out g)) (at_list (dn_in g)) in
  m_edseq (d_measures g o m) = Some ex /\
  m_rk (d_measures g o m) = Some (np_fmax (n + n) (fun i => fabs (fdiv (ex i - k i) (k i + guard)))) /\
  m_estr (d_measures g o m) = m_estr m.
Proof.
  intros HL HA HX HY. unfold d_measures. cbv zeta. rewrite HL, HA, HX, HY.
  destruct (ds_bo o) as [b|]; [|repeat split]. destruct (ds_bi o) as [b'|]; [|repeat split]. destruct (ds_adj o) as [adj|]; [|repeat split].
  match goal with |- context [match ?t with Some _ => _ | None => _ end] => destruct t end; repeat split.
Qed.
Lemma d_measures_strength g o m l bo bi adj E : ds_last o = Some l -> among l ["dcm_exp"; "dcm"; "crema"; "crema-sparse"]%string = true ->
  ds_bo o = Some bo -> ds_bi o = Some bi -> ds_adj o = Some adj -> d_expected g (ds_sparse o) adj (join2 (dn_n g) bo bi) = Some E ->
  let n := dn_n g in let s := join2 n (dn_sout g) (dn_sin g) in
  m_estreg (d_measures g o m) = Some E /\ m_estr (d_measures g o m) = m_estr m /\
  m_rs (d_measures g o m) = Some (np_fmax (n + n) (fun i => fabs (fdiv (E i - s i) (s i + guard)))).
Proof.
  intros HL HA HB HB' HJ HE. unfold d_expected in HE. cbv zeta in HE. unfold d_measures. cbv zeta. rewrite HL, HA, HB, HB', HJ, HE.
  destruct (ds_x o), (ds_y o); repeat split.
Qed.
Lemma padded_blocks n a b i : (i < n)%nat -> join2 n a b i + guard = padded a i /\ join2 n a b (i + n)%nat + guard = padded b i.
Proof. intros Hi. rewrite join2_l by exact Hi. rewrite join2_r. split; reflexivity. Qed.
Lemma join2_cases n a b i : (i < n + n)%nat -> exists j, (j < n)%nat /\ (join2 n a b i = a j \/ join2 n a b i = b j).
Proof.
  intros Hi. unfold join2. destruct (Nat.ltb_spec i n); [exists i; auto|exists (i - n)%nat; split; [lia|auto]].
Qed.
Lemma d_degree_report g o m l x y : (0 < dn_n g)%nat -> ds_last o = Some l -> among l ["dcm_exp"; "dcm"; "crema"; "crema-sparse"]%string = true ->
  ds_x o = Some x -> ds_y o = Some y ->
  exists e, m_rk (d_measures g o m) = Some (Fin e) /\
    sup_rel2 (dn_n g) (fun i => mean_directed (dn_n g) (p_dbcm x y) (fun a => deg (dn_n g) a i)) (at_list (dn_out g)) (padded (at_list (dn_out g)))
      (fun i => mean_directed (dn_n g) (p_dbcm x y) (fun a => indeg (dn_n g) a i)) (at_list (dn_in g)) (padded (at_list (dn_in g))) e.
Proof.
  intros Hn HL HA HX HY. destruct (d_measures_degree g o m l x y HL HA HX HY) as (_ & D2 & _). set (n := dn_n g) in *.
  set (ex := join2 n (expected_out_degree_dcm n (join2 n x y)) (expected_in_degree_dcm n (join2 n x y))) in *.
  set (k := join2 n (at_list (dn_out g)) (at_list (dn_in g))) in *.
  destruct (np_fmax_rel (n + n) ex k (fun i => k i + guard)) as (e & E & S); [lia| |].
  { intros i Hi. pose proof guard_pos. destruct (join2_cases n (at_list (dn_out g)) (at_list (dn_in g)) i Hi) as (j & _ & [J|J]); unfold k; rewrite J;
      pose proof (at_list_nonneg (dn_out g) j); pose proof (at_list_nonneg (dn_in g) j); lra. }
  exists e. split; [rewrite D2; f_equal; exact E|]. eapply sup_rel_blocks; [| | |exact S]; intros i Hi; unfold ex, k.
  - rewrite join2_l, join2_r by exact Hi. split; [apply d_mean_out|apply d_mean_in]; exact Hi.
  - rewrite join2_l, join2_r by exact Hi. split; reflexivity.
  - apply padded_blocks. exact Hi.
Qed.
Lemma d_state_dcm g c o o' : In (c_model c) ["dcm"; "dcm_exp"]%string -> d_solve_tool g c o = (o', None) ->
  exists x y, ds_x o' = Some x /\ ds_y o' = Some y /\ ds_last o' = Some (c_model c).
Proof.
  intros Hm H. destruct (d_tool_problem g c o o') as (o1 & H1 & H2); [cbn in Hm |- *; tauto|exact H|].
  apply d_solve_dcm in H1; [|exact Hm]. destruct H1 as (d & v & _ & _ & ->).
  apply d_error_frame in H2. destruct H2 as (E1 & E2 & _ & _ & _ & _ & _ & E3 & _). cbn in E1, E2, E3. do 2 eexists. split; [exact E1|]. split; [exact E2|exact E3].
Qed.
Lemma d_rel_dcm g c o m o' m' : (0 < dn_n g)%nat -> In (c_model c) ["dcm"; "dcm_exp"]%string -> d_solve_measured g c o m = ((o', None), m') ->
  exists x y e, ds_x o' = Some x /\ ds_y o' = Some y /\ m_rk m' = Some (Fin e) /\
    sup_rel2 (dn_n g) (fun i => mean_directed (dn_n g) (p_dbcm x y) (fun a => deg (dn_n g) a i)) (at_list (dn_out g)) (padded (at_list (dn_out g)))
      (fun i => mean_directed (dn_n g) (p_dbcm x y) (fun a => indeg (dn_n g) a i)) (at_list (dn_in g)) (padded (at_list (dn_in g))) e.
Proof.
  intros Hn Hm H. apply d_measured_inv in H. destruct H as [H ->]. destruct (d_state_dcm _ _ _ _ Hm H) as (x & y & Hx & Hy & HL).
  destruct (d_degree_report g o' m (c_model c) x y Hn HL) as (e & R1 & R2); [among_true Hm|exact Hx|exact Hy|]. exists x, y, e. auto.
Qed.
Lemma d_exp_dcm g c o m o' m' : In (c_model c) ["dcm"; "dcm_exp"]%string -> d_solve_measured g c o m = ((o', None), m') ->
  exists x y f, ds_x o' = Some x /\ ds_y o' = Some y /\ m_edseq m' = Some f /\
    forall i, (i < dn_n g)%nat -> f i = mean_directed (dn_n g) (p_dbcm x y) (fun a => deg (dn_n g) a i) /\
      f (i + dn_n g)%nat = mean_directed (dn_n g) (p_dbcm x y) (fun a => indeg (dn_n g) a i).
Proof.
  intros Hm H. apply d_measured_inv in H. destruct H as [H ->]. destruct (d_state_dcm _ _ _ _ Hm H) as (x & y & Hx & Hy & HL).
  destruct (d_measures_degree g o' m (c_model c) x y HL) as (D1 & _ & _); [among_true Hm|exact Hx|exact Hy|].
  do 3 eexists. split; [exact Hx|]. split; [exact Hy|]. split; [exact D1|]. intros i Hi. rewrite join2_l, join2_r by exact Hi.
  split; [apply d_mean_out|apply d_mean_in]; exact Hi.
Qed.
Lemma d_state_decm g c o o' : In (c_model c) ["decm"; "decm_exp"]%string -> d_solve_tool g c o = (o', None) ->
  exists x y bo bi, ds_x o' = Some x /\ ds_y o' = Some y /\ ds_bo o' = Some bo /\ ds_bi o' = Some bi /\ ds_last o' = Some (c_model c).
Proof.
  intros Hm H. destruct (d_tool_problem g c o o') as (o1 & H1 & H2); [cbn in Hm |- *; tauto|exact H|].
  apply d_solve_decm in H1; [|exact Hm]. destruct H1 as (d & v & _ & _ & X1 & X2 & X3 & X4 & _ & _ & _ & XL).
  apply d_error_frame in H2. destruct H2 as (E1 & E2 & E3 & E4 & _ & _ & _ & E5 & _).
  do 4 eexists. rewrite E1, E2, E3, E4, E5. repeat (split; [eassumption|]). exact XL.
Qed.
Lemma d_measures_decm g o m l x y bo bi : ds_last o = Some l -> In l ["decm"; "decm_exp"]%string ->
  ds_x o = Some x -> ds_y o = Some y -> ds_bo o = Some bo -> ds_bi o = Some bi ->
  let n := dn_n g in let ex := expected_decm n (join4 n x y bo bi) in
  let k := join2 n (at_list (dn_out g)) (at_list (dn_in g)) in let s := join2 n (dn_sout g) (dn_sin g) in
  m_edseq (d_measures g o m) = Some ex /\ m_estr (d_measures g o m) = Some (drop (2 * n) ex) /\
  m_rk (d_measures g o m) = Some (py_max (n + n) (fun i => fabs (fdiv (k i - ex i) (k i + guard)))) /\
  m_rs (d_measures g o m) = Some (py_max (n + n) (fun i => fabs (fdiv (s i - drop (2 * n) ex i) (s i + guard)))).
Proof.
  intros HL Hm H1 H2 H3 H4. cbv zeta. unfold d_measures. cbv zeta. rewrite HL.
  replace (among l ["dcm_exp"; "dcm"; "crema"; "crema-sparse"]%string) with false by (destruct Hm as [<-|[<-|[]]]; reflexivity).
  replace (among l ["decm"; "decm_exp"]%string) with true by (destruct Hm as [<-|[<-|[]]]; reflexivity).
  rewrite H1, H2, H3, H4. repeat split.
Qed.
Lemma decm_expected n x y bo bi i : decm_dom n (join4 n x y bo bi) -> (i < n)%nat -> let ex := expected_decm n (join4 n x y bo bi) in
  (ex i = mean_out_deg n x y bo bi i /\ ex (i + n)%nat = mean_in_deg n x y bo bi i) /\
  (drop (2 * n) ex i = mean_out_str n x y bo bi i /\ drop (2 * n) ex (i + n)%nat = mean_in_str n x y bo bi i).
Proof.
  intros HD Hi. cbv zeta. assert (BJ := fun i => join4_blocks n x y bo bi i). set (J := join4 n x y bo bi) in *. split.
  - rewrite (expected_decm_0 n J HD i Hi), (expected_decm_1 n J HD i Hi). unfold mean_out_deg, mean_in_deg, link_mean, PP, zz, yy.
    split; apply rsum_ext; intros j Hj; destruct (BJ i Hi) as (I1 & I2 & I3 & I4); destruct (BJ j Hj) as (J1 & J2 & J3 & J4); rewrite ?I1, ?I2, ?I3, ?I4, ?J1, ?J2, ?J3, ?J4; reflexivity.
  - unfold drop. replace (i + n + 2 * n)%nat with (i + 3 * n)%nat by lia.
    rewrite (expected_decm_2 n J HD i Hi), (expected_decm_3 n J HD i Hi). unfold mean_out_str, mean_in_str, weight_mean, MM, zz, yy.
    split; apply rsum_ext; intros j Hj; destruct (BJ i Hi) as (I1 & I2 & I3 & I4); destruct (BJ j Hj) as (J1 & J2 & J3 & J4); rewrite ?I1, ?I2, ?I3, ?I4, ?J1, ?J2, ?J3, ?J4; reflexivity.
Qed.
Lemma d_rel_decm g c o m o' m' : (0 < dn_n g)%nat -> In (c_model c) ["decm"; "decm_exp"]%string ->
  (forall i, (i < dn_n g)%nat -> 0 <= dn_sout g i /\ 0 <= dn_sin g i) -> d_solve_measured g c o m = ((o', None), m') ->
  (forall x y bo bi, ds_x o' = Some x -> ds_y o' = Some y -> ds_bo o' = Some bo -> ds_bi o' = Some bi -> decm_dom (dn_n g) (join4 (dn_n g) x y bo bi)) ->
  exists x y bo bi ek es, ds_x o' = Some x /\ ds_y o' = Some y /\ ds_bo o' = Some bo /\ ds_bi o' = Some bi /\
    m_rk m' = Some (Fin ek) /\ m_rs m' = Some (Fin es) /\
    sup_rel2 (dn_n g) (mean_out_deg (dn_n g) x y bo bi) (at_list (dn_out g)) (padded (at_list (dn_out g)))
      (mean_in_deg (dn_n g) x y bo bi) (at_list (dn_in g)) (padded (at_list (dn_in g))) ek /\
    sup_rel2 (dn_n g) (mean_out_str (dn_n g) x y bo bi) (dn_sout g) (padded (dn_sout g))
      (mean_in_str (dn_n g) x y bo bi) (dn_sin g) (padded (dn_sin g)) es.
Proof.
  intros Hn Hm HS H HD. apply d_measured_inv in H. destruct H as [H ->].
  destruct (d_state_decm _ _ _ _ Hm H) as (x & y & bo & bi & X1 & X2 & X3 & X4 & HL). specialize (HD _ _ _ _ X1 X2 X3 X4).
  destruct (d_measures_decm g o' m _ _ _ _ _ HL Hm X1 X2 X3 X4) as (_ & _ & M3 & M4). set (n := dn_n g) in *.
  pose proof (fun i Hi => decm_expected n x y bo bi i HD Hi) as HE. cbv zeta in HE.
  set (ex := expected_decm n (join4 n x y bo bi)) in *.
  set (k := join2 n (at_list (dn_out g)) (at_list (dn_in g))) in *. set (s := join2 n (dn_sout g) (dn_sin g)) in *.
  destruct (py_max_rel (n + n) ex k (fun i => k i + guard)) as (ek & K1 & K2); [lia| |].
  { intros i Hi. pose proof guard_pos. destruct (join2_cases n (at_list (dn_out g)) (at_list (dn_in g)) i Hi) as (j & _ & [J|J]); unfold k; rewrite J;
      pose proof (at_list_nonneg (dn_out g) j); pose proof (at_list_nonneg (dn_in g) j); lra. }
  destruct (py_max_rel (n + n) (drop (2 * n) ex) s (fun i => s i + guard)) as (es & S1 & S2); [lia| |].
  { intros i Hi. pose proof guard_pos. destruct (join2_cases n (dn_sout g) (dn_sin g) i Hi) as (j & Hj & [J|J]); unfold s; rewrite J; destruct (HS j Hj); lra. }
  exists x, y, bo, bi, ek, es. do 4 (split; [assumption|]). split; [rewrite M3; f_equal; exact K1|]. split; [rewrite M4; f_equal; exact S1|]. split.
  - eapply sup_rel_blocks; [| | |exact K2]; intros i Hi; unfold k.
    + apply HE. exact Hi.
    + rewrite join2_l, join2_r by exact Hi. split; reflexivity.
    + apply padded_blocks. exact Hi.
  - eapply sup_rel_blocks; [| | |exact S2]; intros i Hi; unfold s.
    + apply HE. exact Hi.
    + rewrite join2_l, join2_r by exact Hi. split; reflexivity.
    + apply padded_blocks. exact Hi.
Qed.
Lemma d_exp_decm g c o m o' m' : In (c_model c) ["decm"; "decm_exp"]%string -> d_solve_measured g c o m = ((o', None), m') ->
  (forall x y bo bi, ds_x o' = Some x -> ds_y o' = Some y -> ds_bo o' = Some bo -> ds_bi o' = Some bi -> decm_dom (dn_n g) (join4 (dn_n g) x y bo bi)) ->
  exists x y bo bi f h, ds_x o' = Some x /\ ds_y o' = Some y /\ ds_bo o' = Some bo /\ ds_bi o' = Some bi /\ m_edseq m' = Some f /\ m_estr m' = Some h /\
    forall i, (i < dn_n g)%nat ->
      f i = mean_out_deg (dn_n g) x y bo bi i /\ f (i + dn_n g)%nat = mean_in_deg (dn_n g) x y bo bi i /\
      h i = mean_out_str (dn_n g) x y bo bi i /\ h (i + dn_n g)%nat = mean_in_str (dn_n g) x y bo bi i.
Proof.
  intros Hm H HD. apply d_measured_inv in H. destruct H as [H ->].
  destruct (d_state_decm _ _ _ _ Hm H) as (x & y & bo & bi & X1 & X2 & X3 & X4 & HL). specialize (HD _ _ _ _ X1 X2 X3 X4).
  destruct (d_measures_decm g o' m _ _ _ _ _ HL Hm X1 X2 X3 X4) as (M1 & M2 & _ & _).
  do 6 eexists. do 4 (split; [eassumption|]). split; [exact M1|]. split; [exact M2|]. intros i Hi.
  destruct (decm_expected _ x y bo bi i HD Hi) as ((A & B) & C & D). auto.
Qed.
Lemma d_strength_report g o m l bo bi adj EO EI p : (0 < dn_n g)%nat -> ds_last o = Some l -> among l ["dcm_exp"; "dcm"; "crema"; "crema-sparse"]%string = true ->
  ds_bo o = Some bo -> ds_bi o = Some bi -> ds_adj o = Some adj -> (forall i, (i < dn_n g)%nat -> 0 <= dn_sout g i /\ 0 <= dn_sin g i) ->
  d_expected g (ds_sparse o) adj (join2 (dn_n g) bo bi) = Some (join2 (dn_n g) EO EI) ->
  (forall i, (i < dn_n g)%nat -> EO i = crema_mean_out (dn_n g) p bo bi i /\ EI i = crema_mean_in (dn_n g) p bo bi i) ->
  exists e, m_rs (d_measures g o m) = Some (Fin e) /\
    sup_rel2 (dn_n g) (crema_mean_out (dn_n g) p bo bi) (dn_sout g) (padded (dn_sout g)) (crema_mean_in (dn_n g) p bo bi) (dn_sin g) (padded (dn_sin g)) e.
Proof.
  intros Hn HL HA HB HB' HJ HS HE HP. destruct (d_measures_strength g o m l bo bi adj _ HL HA HB HB' HJ HE) as (_ & _ & R). set (n := dn_n g) in *.
  set (s := join2 n (dn_sout g) (dn_sin g)) in *.
  destruct (np_fmax_rel (n + n) (join2 n EO EI) s (fun i => s i + guard)) as (e & E1 & S); [lia| |].
  { intros i Hi. pose proof guard_pos. destruct (join2_cases n (dn_sout g) (dn_sin g) i Hi) as (j & Hj & [J|J]); unfold s; rewrite J; destruct (HS j Hj); lra. }
  exists e. split; [rewrite R; f_equal; exact E1|]. eapply sup_rel_blocks; [| | |exact S]; intros i Hi; unfold s.
  - rewrite join2_l, join2_r by exact Hi. apply HP. exact Hi.
  - rewrite join2_l, join2_r by exact Hi. split; reflexivity.
  - apply padded_blocks. exact Hi.
Qed.
Lemma d_crema_state_matrix g c o o' a : In (c_model c) ["crema"; "crema-sparse"]%string -> c_adjacency c = AdjMatrix a -> d_solve_tool g c o = (o', None) ->
  (forall bo bi, ds_bo o' = Some bo -> ds_bi o' = Some bi -> positive_rates_dir (dn_n g) a bo bi) ->
  exists bo bi adj EO EI, ds_bo o' = Some bo /\ ds_bi o' = Some bi /\ ds_last o' = Some (c_model c) /\ ds_adj o' = Some adj /\
    d_expected g (ds_sparse o') adj (join2 (dn_n g) bo bi) = Some (join2 (dn_n g) EO EI) /\
    forall i, (i < dn_n g)%nat -> EO i = crema_mean_out (dn_n g) a bo bi i /\ EI i = crema_mean_in (dn_n g) a bo bi i.
Proof.
  intros Hm Ha H HP. destruct (d_tool_crema _ _ _ _ Hm H) as (o1 & H1 & H2).
  apply d_crema_inv in H1; [|exact Hm]. destruct H1 as (o2 & d & v & v0 & adj & HA & _ & Hv & HJ & ->).
  destruct (d_adj_matrix _ _ _ _ _ Ha HA) as (J1 & J2 & J3). pose proof (d_error_sparse _ _ _ _ H2) as ES. cbn in ES.
  destruct (d_error_frame _ _ _ _ H2) as (_ & _ & FB & FB' & _ & _ & _ & FL & FJ). cbn in FB, FB', FL, FJ. specialize (HP _ _ FB FB').
  destruct (expected_all _ _ _ HP) as (EO & EI & E1 & E2 & E3).
  exists (o_x v), (drop (dn_n g) (o_x v)), (Triples (all_edges (dn_n g) a)), EO, EI. do 3 (split; [assumption|]). split; [rewrite FJ; exact J1|].
  split; [|exact E3]. rewrite ES, J3, join2_whole. unfold d_expected. cbn [adj_edges obind]. rewrite E1. cbn [obind]. rewrite E2. reflexivity.
Qed.
Lemma d_crema_state_name g c o o' a : d_paired g -> In (c_model c) ["crema"; "crema-sparse"]%string ->
  c_adjacency c = AdjName a -> In a ["dcm"; "dcm_exp"]%string -> d_solve_tool g c o = (o', None) ->
  (forall x y bo bi, ds_x o' = Some x -> ds_y o' = Some y -> ds_bo o' = Some bo -> ds_bi o' = Some bi ->
     supported (dn_n g) (at_list (dn_out g)) x /\ supported (dn_n g) (at_list (dn_in g)) y /\ positive_rates_dir (dn_n g) (dcm_prob x y) bo bi) ->
  exists x y bo bi adj EO EI, ds_x o' = Some x /\ ds_y o' = Some y /\ ds_bo o' = Some bo /\ ds_bi o' = Some bi /\ ds_last o' = Some (c_model c) /\ ds_adj o' = Some adj /\
    d_expected g (ds_sparse o') adj (join2 (dn_n g) bo bi) = Some (join2 (dn_n g) EO EI) /\
    forall i, (i < dn_n g)%nat -> EO i = crema_mean_out (dn_n g) (dcm_prob x y) bo bi i /\ EI i = crema_mean_in (dn_n g) (dcm_prob x y) bo bi i.
Proof.
  intros HL Hm Ha Hna H HP. destruct (d_tool_crema _ _ _ _ Hm H) as (o1 & H1 & H2).
  apply d_crema_inv in H1; [|exact Hm]. destruct H1 as (o2 & d & v & v0 & adj & HA & _ & Hv & HJ & ->).
  destruct (d_adj_name _ _ _ _ _ Ha Hna HA) as (va & Hva & J1 & J1' & J2 & J3 & J4). set (s := dir_factor "dcm" a va) in *.
  set (x := fun i => s (d_class g i)) in *. set (y := fun i => drop (d_classes_n g) s (d_class g i)) in *.
  pose proof (d_error_sparse _ _ _ _ H2) as ES. cbn in ES. rewrite J3 in ES.
  destruct (d_error_frame _ _ _ _ H2) as (FX & FY & FB & FB' & _ & _ & _ & FL & FJ). cbn in FB, FB', FX, FY, FL, FJ. rewrite J1 in FX. rewrite J1' in FY.
  destruct (HP _ _ _ _ FX FY FB FB') as (HX & HY & HR).
  assert (EE : exists EO EI, d_expected g (String.eqb (c_model c) "crema-sparse") adj (o_x v) = Some (join2 (dn_n g) EO EI) /\
     forall i, (i < dn_n g)%nat -> EO i = crema_mean_out (dn_n g) (dcm_prob x y) (o_x v) (drop (dn_n g) (o_x v)) i /\
                                   EI i = crema_mean_in (dn_n g) (dcm_prob x y) (o_x v) (drop (dn_n g) (o_x v)) i).
  { rewrite HJ in J4. injection J4 as ->. destruct (String.eqb (c_model c) "crema-sparse").
    - destruct (expected_dir_sparse (dn_n g) x y (o_x v) (supported_nonneg _ _ _ HX) (supported_nonneg _ _ _ HY) HR) as (EO & EI & E1 & E2 & E3).
      exists EO, EI. split; [|exact E3]. unfold d_expected. cbn [adj1 adj0 obind]. rewrite E1. cbn [obind]. rewrite E2. reflexivity.
    - destruct (expected_all (dn_n g) (dcm_prob x y) (o_x v) HR) as (EO & EI & E1 & E2 & E3).
      exists EO, EI. split; [|exact E3]. unfold d_expected. cbn [adj_edges obind].
      rewrite (all_edges_ext (dn_n g) (d_pm g x y) (dcm_prob x y)) by (intros; apply d_pm_prob; assumption).
      rewrite E1. cbn [obind]. rewrite E2. reflexivity. }
  destruct EE as (EO & EI & EX & E3).
  exists x, y, (o_x v), (drop (dn_n g) (o_x v)), adj, EO, EI. do 5 (split; [assumption|]). split; [rewrite FJ; exact HJ|]. split; [|exact E3].
  rewrite ES, join2_whole. exact EX.
Qed.
Lemma d_rel_crema_matrix g c o m o' m' a : (0 < dn_n g)%nat -> In (c_model c) ["crema"; "crema-sparse"]%string -> c_adjacency c = AdjMatrix a ->
  (forall i, (i < dn_n g)%nat -> 0 <= dn_sout g i /\ 0 <= dn_sin g i) -> d_solve_measured g c o m = ((o', None), m') ->
  (forall bo bi, ds_bo o' = Some bo -> ds_bi o' = Some bi -> positive_rates_dir (dn_n g) a bo bi) ->
  exists bo bi e, ds_bo o' = Some bo /\ ds_bi o' = Some bi /\ m_rs m' = Some (Fin e) /\
    sup_rel2 (dn_n g) (crema_mean_out (dn_n g) a bo bi) (dn_sout g) (padded (dn_sout g)) (crema_mean_in (dn_n g) a bo bi) (dn_sin g) (padded (dn_sin g)) e.
Proof.
  intros Hn Hm Ha HS H HP. apply d_measured_inv in H. destruct H as [H ->].
  destruct (d_crema_state_matrix _ _ _ _ _ Hm Ha H HP) as (bo & bi & adj & EO & EI & HB & HB' & HL & HJ & HE & HM).
  destruct (d_strength_report g o' m (c_model c) bo bi adj EO EI a Hn HL) as (e & R1 & R2); [among_true Hm|assumption..|].
  exists bo, bi, e. auto.
Qed.
Lemma d_rel_crema_name g c o m o' m' a : (0 < dn_n g)%nat -> d_paired g -> In (c_model c) ["crema"; "crema-sparse"]%string ->
  c_adjacency c = AdjName a -> In a ["dcm"; "dcm_exp"]%string -> (forall i, (i < dn_n g)%nat -> 0 <= dn_sout g i /\ 0 <= dn_sin g i) ->
  d_solve_measured g c o m = ((o', None), m') ->
  (forall x y bo bi, ds_x o' = Some x -> ds_y o' = Some y -> ds_bo o' = Some bo -> ds_bi o' = Some bi ->
     supported (dn_n g) (at_list (dn_out g)) x /\ supported (dn_n g) (at_list (dn_in g)) y /\ positive_rates_dir (dn_n g) (dcm_prob x y) bo bi) ->
  exists x y bo bi ek es, ds_x o' = Some x /\ ds_y o' = Some y /\ ds_bo o' = Some bo /\ ds_bi o' = Some bi /\
    m_rk m' = Some (Fin ek) /\ m_rs m' = Some (Fin es) /\
    sup_rel2 (dn_n g) (fun i => mean_directed (dn_n g) (p_dbcm x y) (fun a => deg (dn_n g) a i)) (at_list (dn_out g)) (padded (at_list (dn_out g)))
      (fun i => mean_directed (dn_n g) (p_dbcm x y) (fun a => indeg (dn_n g) a i)) (at_list (dn_in g)) (padded (at_list (dn_in g))) ek /\
    sup_rel2 (dn_n g) (crema_mean_out (dn_n g) (dcm_prob x y) bo bi) (dn_sout g) (padded (dn_sout g))
      (crema_mean_in (dn_n g) (dcm_prob x y) bo bi) (dn_sin g) (padded (dn_sin g)) es.
Proof.
  intros Hn Hd Hm Ha Hna HS H HP. apply d_measured_inv in H. destruct H as [H ->].
  destruct (d_crema_state_name _ _ _ _ _ Hd Hm Ha Hna H HP) as (x & y & bo & bi & adj & EO & EI & HX & HY & HB & HB' & HL & HJ & HE & HM).
  destruct (d_strength_report g o' m (c_model c) bo bi adj EO EI (dcm_prob x y) Hn HL) as (es & R1 & R2); [among_true Hm|assumption..|].
  destruct (d_degree_report g o' m (c_model c) x y Hn HL) as (ek & D1 & D2); [among_true Hm|exact HX|exact HY|].
  exists x, y, bo, bi, ek, es. do 6 (split; [assumption|]). split; assumption.
Qed.
Lemma d_exp_crema g c o m o' m' a : In (c_model c) ["crema"; "crema-sparse"]%string -> c_adjacency c = AdjMatrix a ->
  d_solve_measured g c o m = ((o', None), m') ->
  (forall bo bi, ds_bo o' = Some bo -> ds_bi o' = Some bi -> positive_rates_dir (dn_n g) a bo bi) ->
  exists bo bi h, ds_bo o' = Some bo /\ ds_bi o' = Some bi /\ m_estr m' = m_estr m /\ m_estreg m' = Some h /\
    forall i, (i < dn_n g)%nat -> h i = crema_mean_out (dn_n g) a bo bi i /\ h (i + dn_n g)%nat = crema_mean_in (dn_n g) a bo bi i.
Proof.
  intros Hm Ha H HP. apply d_measured_inv in H. destruct H as [H ->].
  destruct (d_crema_state_matrix _ _ _ _ _ Hm Ha H HP) as (bo & bi & adj & EO & EI & HB & HB' & HL & HJ & HE & HM).
  destruct (d_measures_strength g o' m (c_model c) bo bi adj (join2 (dn_n g) EO EI) HL) as (R1 & R2 & R3); [among_true Hm|assumption..|].
  exists bo, bi, (join2 (dn_n g) EO EI). do 4 (split; [assumption|]). intros i Hi. rewrite join2_l, join2_r by exact Hi. apply HM. exact Hi.
Qed.
