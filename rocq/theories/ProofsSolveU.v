(** UndirectedGraph: reported errors and [model_loglikelihood]. *)
From Coq Require Import Reals List Arith Lra Lia Bool String.
From Coquelicot Require Import Coquelicot.
From Verif Require Import Base SpecDeriv SpecGraph SpecDirected SpecWeighted SpecCReMa SpecEnsemble SpecNetwork SpecSolve SpecDispatch
  ModelCM ModelECM ModelDCM ModelDECM ModelCReMa ModelNetwork ModelDispatch ModelSolve
  ProofsGraph ProofsCM ProofsMainCM ProofsECM ProofsMainECM ProofsCReMa ProofsMainCReMa ProofsSparseCReMa ProofsDirCReMa ProofsDirSparseCReMa
  ProofsUnique ProofsAdjacency WitnessCReMa ProofsDispatch ProofsIEEE ProofsEntries ProofsSolve.
Local Open Scope R_scope.
Import ListNotations.
#[local] Opaque u_dispatch lookup.

Ltac names := cbn [among existsb String.eqb Ascii.eqb Bool.eqb orb andb].
Ltac names_in H := cbn [among existsb String.eqb Ascii.eqb Bool.eqb orb andb] in H.

(** * What a completed call leaves behind *)
Definition u_class (g : unet) (i : nat) : nat := nth i (np_inverse Nat.leb Nat.eqb (un_dseq g)) O.
Definition u_args_cm (g : unet) : arguments :=
  A2 (List.length (np_unique Nat.leb Nat.eqb (un_dseq g))) (at_list (np_unique Nat.leb Nat.eqb (un_dseq g))) (at_list (np_counts Nat.leb Nat.eqb (un_dseq g))).

Lemma u_init_cm g m method guess o o' : In m ["cm"; "cm_exp"]%string ->
  u_initialize g m method guess o = (o', None) ->
  exists d, u_dispatch m method None = inl d /\
    o' = us_set_pm true (us_set_step (Some (d_step d)) (us_set_args (Some (u_args_cm g)) o)).
Proof.
  intros Hm H. unfold u_initialize in H. apply andthen_inv in H. destruct H as (o1 & H1 & H).
  apply andthen_inv in H. destruct H as (o2 & H2 & H).
  destruct Hm as [<-|[<-|[]]]; unfold u_set_guess in H1; unfold u_set_args in H2; names_in H1; names_in H2; names_in H;
    (destruct guess; [|discriminate]); injection H1 as <-; unfold degree_reduction_und in H2; injection H2 as <-;
    (match type of H with context [u_dispatch ?a ?b ?c] => destruct (u_dispatch a b c) as [d|[|]] eqn:E end; [|discriminate|discriminate]);
    injection H as <-; exists d; split; reflexivity.
Qed.
Lemma u_init_ecm g m method guess o o' : In m ["ecm"; "ecm_exp"]%string ->
  u_initialize g m method guess o = (o', None) ->
  exists d v, u_dispatch m method None = inl d /\
    o' = us_set_step (Some (d_step d)) (us_set_args (Some (A2 (un_n g) (at_list (un_dseq g)) (un_str g)))
           (us_set_xy (Some v) (Some (drop (un_n g) v)) o)).
Proof.
  intros Hm H. unfold u_initialize in H. apply andthen_inv in H. destruct H as (o1 & H1 & H).
  apply andthen_inv in H. destruct H as (o2 & H2 & H).
  destruct Hm as [<-|[<-|[]]]; unfold u_set_guess in H1; unfold u_set_args in H2; names_in H1; names_in H2; names_in H;
    (destruct guess as [v|]; [|discriminate]); injection H1 as <-; injection H2 as <-;
    (match type of H with context [u_dispatch ?a ?b ?c] => destruct (u_dispatch a b c) as [d|[|]] eqn:E end; [|discriminate|discriminate]);
    injection H as <-; exists d, v; split; reflexivity.
Qed.
Lemma u_init_crema g m method guess o o' : In m ["crema"; "crema-sparse"]%string ->
  u_initialize g m method guess o = (o', None) ->
  exists d v adj, u_dispatch m method None = inl d /\ us_adj o = Some adj /\
    o' = us_set_step (Some (d_step d)) (us_set_args (Some (A3 (un_n g) (un_str g) adj)) (us_set_beta (Some v) o)).
Proof.
  intros Hm H. unfold u_initialize in H. apply andthen_inv in H. destruct H as (o1 & H1 & H).
  apply andthen_inv in H. destruct H as (o2 & H2 & H).
  destruct Hm as [<-|[<-|[]]]; unfold u_set_guess in H1; unfold u_set_args in H2; names_in H1; names_in H2; names_in H;
    (destruct guess as [v|]; [|discriminate]); injection H1 as <-; cbn [us_adj us_set_beta] in H2;
    (destruct (us_adj o) as [adj|]; [|discriminate]); injection H2 as <-;
    (match type of H with context [u_dispatch ?a ?b ?c] => destruct (u_dispatch a b c) as [d|[|]] eqn:E end; [|discriminate|discriminate]);
    injection H as <-; exists d, v, adj; split; [reflexivity|split; reflexivity| |]; try (split; reflexivity); reflexivity.
Qed.
Lemma u_solver_inv g out o o' : u_run_solver g out o = (o', None) -> exists v, out = Some v /\ o' = u_set_solved g v o.
Proof. unfold u_run_solver. destruct out as [v|]; [|discriminate]. intros H. injection H as <-. exists v. auto. Qed.

Definition cm_factor (m : string) (v : outcome_vec) (q : nat) : R := if String.eqb m "cm" then o_x v q else exp (- o_x v q).
Lemma u_solve_cm g m method guess out o o' : In m ["cm"; "cm_exp"]%string ->
  u_solve_problem g m method guess out o = (o', None) ->
  exists d v, u_dispatch m method None = inl d /\ out = Some v /\
    o' = us_set_x (Some (fun i => cm_factor m v (u_class g i))) (us_set_sol (Some (o_x v))
           (us_set_pm true (us_set_step (Some (d_step d)) (us_set_args (Some (u_args_cm g)) (us_set_last (Some m) o))))).
Proof.
  intros Hm H. unfold u_solve_problem in H. apply andthen_inv in H. destruct H as (o1 & H1 & H).
  apply (u_init_cm g m method guess) in H1; [|exact Hm]. destruct H1 as (d & Hd & ->).
  apply u_solver_inv in H. destruct H as (v & Hv & ->). exists d, v. split; [exact Hd|]. split; [exact Hv|].
  destruct Hm as [<-|[<-|[]]]; unfold u_set_solved, degree_reduction_und; cbn [us_last us_set_pm us_set_step us_set_args us_set_last]; names;
    unfold cm_factor; names; reflexivity.
Qed.
Definition ecm_factor (m : string) (v : outcome_vec) (q : nat) : R := if String.eqb m "ecm" then o_x v q else exp (- o_x v q).
Lemma u_solve_ecm g m method guess out o o' : In m ["ecm"; "ecm_exp"]%string ->
  u_solve_problem g m method guess out o = (o', None) ->
  exists d v, u_dispatch m method None = inl d /\ out = Some v /\
    us_x o' = Some (ecm_factor m v) /\ us_y o' = Some (drop (un_n g) (ecm_factor m v)) /\
    us_sol o' = Some (o_x v) /\ us_step o' = Some (d_step d) /\
    us_args o' = Some (A2 (un_n g) (at_list (un_dseq g)) (un_str g)) /\ us_last o' = Some m.
Proof.
  intros Hm H. unfold u_solve_problem in H. apply andthen_inv in H. destruct H as (o1 & H1 & H).
  apply (u_init_ecm g m method guess) in H1; [|exact Hm]. destruct H1 as (d & v0 & Hd & ->).
  apply u_solver_inv in H. destruct H as (v & Hv & ->). exists d, v. split; [exact Hd|]. split; [exact Hv|].
  destruct Hm as [<-|[<-|[]]]; unfold u_set_solved, degree_reduction_und; cbn [us_last us_set_xy us_set_step us_set_args us_set_last]; names;
    unfold ecm_factor; names; repeat split; reflexivity.
Qed.

(** The error report touches only the three error attributes. *)
Lemma u_error_frame g o o' r : u_solution_error g o = (o', r) ->
  us_x o' = us_x o /\ us_y o' = us_y o /\ us_beta o' = us_beta o /\ us_sol o' = us_sol o /\ us_step o' = us_step o /\
  us_args o' = us_args o /\ us_last o' = us_last o /\ us_adj o' = us_adj o.
Proof.
  intros H. unfold u_solution_error, u_error_strength, u_error_degree in H.
  repeat match type of H with
  | context [match ?t with _ => _ end] => match t with context [match _ with _ => _ end] => fail 1 | _ => destruct t eqn:? end
  end; cbn [us_x us_y us_beta us_adj us_given us_sparse us_last us_ek us_set_ek us_set_es us_set_err us_set_errs] in *; try discriminate;
  injection H as <- <-; repeat split; cbn; congruence.
Qed.

(** Nodes are in the same class exactly when they have the same degree. *)
Lemma u_class_iff g i j : (i < un_n g)%nat -> (j < un_n g)%nat ->
  (u_class g i = u_class g j <-> nth i (un_dseq g) O = nth j (un_dseq g) O).
Proof.
  intros Hi Hj. pose proof (reduction_unique Nat.leb Nat.eqb (un_dseq g) nat_order) as (Hinc & _ & _ & _ & _ & Hq & _).
  destruct (Hq i (nth i (un_dseq g) O) (nth_error_nth' _ _ Hi)) as (q & Q1 & Q2).
  destruct (Hq j (nth j (un_dseq g) O) (nth_error_nth' _ _ Hj)) as (q' & Q1' & Q2').
  unfold u_class. rewrite (nth_error_nth _ _ O Q1), (nth_error_nth _ _ O Q1'). split; [intros ->; congruence|].
  intros E. rewrite E in Q2. unfold increasing in Hinc. destruct (Nat.lt_trichotomy q q') as [L|[L|L]]; [|exact L|].
  - destruct (Hinc _ _ _ _ L Q2 Q2') as [_ D]. exfalso. apply D. reflexivity.
  - destruct (Hinc _ _ _ _ L Q2' Q2) as [_ D]. exfalso. apply D. reflexivity.
Qed.

(** * Errors *)
Lemma u_error_cm g c o o' : (0 < un_n g)%nat -> us_beta o = None -> In (c_model c) ["cm"; "cm_exp"]%string ->
  u_solve_tool g c o = (o', None) ->
  exists v cls x e, c_out c = Some v /\ us_x o' = Some x /\ us_err o' = Some e /\
    (forall i j, (i < un_n g)%nat -> (j < un_n g)%nat -> (cls i = cls j <-> nth i (un_dseq g) O = nth j (un_dseq g) O)) /\
    (forall i, x i = if String.eqb (c_model c) "cm" then o_x v (cls i) else exp (- o_x v (cls i))) /\
    sup_dev (un_n g) (fun i => mean_undirected (un_n g) (p_ubcm x) (fun a => deg (un_n g) a i)) (at_list (un_dseq g)) e.
Proof.
  intros Hn Hb Hm H. unfold u_solve_tool in H. apply andthen_inv in H. destruct H as (o1 & H1 & H).
  assert (HS : u_solve_problem g (c_model c) (c_method c) (c_guess c) (c_out c) o = (o1, None)).
  { destruct Hm as [E|[E|[]]]; rewrite <- E in H1 |- *; names_in H1; exact H1. }
  apply u_solve_cm in HS; [|exact Hm]. destruct HS as (d & v & _ & Hv & ->).
  set (x := fun i => cm_factor (c_model c) v (u_class g i)) in *.
  assert (E : u_solution_error g (us_set_x (Some x) (us_set_sol (Some (o_x v)) (us_set_pm true (us_set_step (Some (d_step d)) (us_set_args (Some (u_args_cm g)) (us_set_last (Some (c_model c)) o))))))
    = ok (u_error_degree g (us_set_x (Some x) (us_set_sol (Some (o_x v)) (us_set_pm true (us_set_step (Some (d_step d)) (us_set_args (Some (u_args_cm g)) (us_set_last (Some (c_model c)) o)))))))).
  { unfold u_solution_error. cbn [us_last us_set_x us_set_sol us_set_pm us_set_step us_set_args us_set_last].
    replace (among (c_model c) ["cm"; "cm_exp"; "crema"; "crema-sparse"]%string) with true
      by (destruct Hm as [E|[E|[]]]; rewrite <- E; reflexivity).
    unfold u_error_strength, u_error_degree. cbn. rewrite Hb. reflexivity. }
  rewrite E in H. injection H as <-. exists v, (u_class g), x, (inf_norm (un_n g) (expected_degree_cm (un_n g) x) (at_list (un_dseq g))).
  split; [exact Hv|]. split; [reflexivity|]. split; [reflexivity|]. split; [apply u_class_iff|]. split; [reflexivity|].
  apply (sup_dev_ext _ (expected_degree_cm (un_n g) x) (at_list (un_dseq g))).
  - intros i Hi. symmetry. apply expected_degree_cm_mean. exact Hi.
  - reflexivity.
  - apply inf_norm_sup. exact Hn.
Qed.
Lemma u_error_ecm g c o o' : (0 < un_n g)%nat -> In (c_model c) ["ecm"; "ecm_exp"]%string ->
  u_solve_tool g c o = (o', None) ->
  exists v x y ek es, c_out c = Some v /\ us_x o' = Some x /\ us_y o' = Some y /\ us_err o' = Some (Rmax es ek) /\
    (forall i, x i = if String.eqb (c_model c) "ecm" then o_x v i else exp (- o_x v i)) /\
    (forall i, y i = if String.eqb (c_model c) "ecm" then o_x v (i + un_n g)%nat else exp (- o_x v (i + un_n g)%nat)) /\
    sup_dev (un_n g) (mean_deg_und (un_n g) x y) (at_list (un_dseq g)) ek /\
    sup_dev (un_n g) (mean_str_und (un_n g) x y) (un_str g) es.
Proof.
  intros Hn Hm H. unfold u_solve_tool in H. apply andthen_inv in H. destruct H as (o1 & H1 & H).
  assert (HS : u_solve_problem g (c_model c) (c_method c) (c_guess c) (c_out c) o = (o1, None)).
  { destruct Hm as [E|[E|[]]]; rewrite <- E in H1 |- *; names_in H1; exact H1. }
  apply u_solve_ecm in HS; [|exact Hm]. destruct HS as (d & v & _ & Hv & Hx & Hy & _ & _ & _ & HL).
  set (x := ecm_factor (c_model c) v) in *.
  unfold u_solution_error in H. rewrite HL in H.
  replace (among (c_model c) ["cm"; "cm_exp"; "crema"; "crema-sparse"]%string) with false in H
    by (destruct Hm as [E|[E|[]]]; rewrite <- E; reflexivity).
  replace (among (c_model c) ["ecm"; "ecm_exp"]%string) with true in H by (destruct Hm as [E|[E|[]]]; rewrite <- E; reflexivity).
  rewrite Hx, Hy in H. injection H as <-. cbn [us_x us_y us_err us_set_errs]. rewrite Hx, Hy.
  do 5 eexists. do 4 (split; [first [exact Hv|reflexivity]|]). split; [reflexivity|]. split; [reflexivity|].
  assert (EX : forall i, (i < un_n g)%nat -> join2 (un_n g) x (drop (un_n g) x) i = x i) by (intros; apply join2_l; assumption).
  split; (eapply sup_dev_ext; [| |apply inf_norm_sup; exact Hn]); try reflexivity; intros i Hi; cbv beta.
  - rewrite expected_ecm_x by exact Hi. unfold mean_deg_und, link_mean. apply rsum_ext. intros j Hj. rewrite !EX, !join2_r by assumption. reflexivity.
  - unfold drop at 1. rewrite expected_ecm_y. unfold mean_str_und, weight_mean. apply rsum_ext. intros j Hj. rewrite !EX, !join2_r by assumption. reflexivity.
Qed.

(** * CReMa *)
Lemma u_init_sparse g m method guess o : us_sparse (fst (u_initialize g m method guess o)) = us_sparse o.
Proof.
  unfold u_initialize, u_set_guess, u_set_args, degree_reduction_und. destruct guess as [v|]; [|reflexivity].
  destruct (among m ["ecm"; "ecm_exp"]%string) eqn:E1, (among m ["crema"; "crema-sparse"]%string) eqn:E2, (among m ["cm"; "cm_exp"]%string) eqn:E3;
    cbn; try (destruct (us_adj o); cbn); destruct (u_dispatch m method None) as [d|[|]]; reflexivity.
Qed.
Lemma u_solved_sparse g v o : us_sparse (u_set_solved g v o) = us_sparse o.
Proof.
  unfold u_set_solved, degree_reduction_und. destruct (us_last o) as [m|]; [|reflexivity].
  repeat match goal with |- context [if ?b then _ else _] => destruct b end; reflexivity.
Qed.
Lemma u_solve_sparse g m method guess out o o' r : u_solve_problem g m method guess out o = (o', r) -> us_sparse o' = us_sparse o.
Proof.
  unfold u_solve_problem, andthen. pose proof (u_init_sparse g m method guess (us_set_last (Some m) o)) as H.
  destruct (u_initialize g m method guess (us_set_last (Some m) o)) as [o1 [e|]]; cbn in *; intros E.
  - injection E as <- _. exact H.
  - unfold u_run_solver in E. destruct out as [v|]; injection E as <- _; [rewrite u_solved_sparse|]; exact H.
Qed.
Lemma u_crema_inv g c o o' : In (c_model c) ["crema"; "crema-sparse"]%string ->
  u_solve_crema g c o = (o', None) ->
  exists o1 d v v0 adj, u_set_adjacency g c o = (o1, None) /\ u_dispatch (c_model c) (c_method c) None = inl d /\ c_out c = Some v /\
    us_adj o1 = Some adj /\
    o' = us_set_sol (Some (o_x v)) (us_set_beta (Some (o_x v)) (us_set_step (Some (d_step d)) (us_set_args (Some (A3 (un_n g) (un_str g) adj))
           (us_set_beta (Some v0) (us_set_last (Some (c_model c)) o1))))).
Proof.
  intros Hm H. unfold u_solve_crema in H. apply andthen_inv in H. destruct H as (o1 & H1 & H).
  assert (EM : (if us_sparse o1 then "crema-sparse"%string else c_model c) = c_model c).
  { destruct (us_sparse o1) eqn:ES; [|reflexivity]. destruct Hm as [E|[E|[]]]; [|symmetry in E |- *; exact E]. exfalso.
    unfold u_set_adjacency in H1. rewrite <- E in H1. names_in H1. destruct (c_adjacency c) as [a|a|].
    - apply andthen_inv in H1. destruct H1 as (o2 & H2 & H1). destruct (us_x o2); [|discriminate].
      rewrite (u_solve_sparse _ _ _ _ _ _ _ _ H2) in H1. cbn in H1. destruct (us_pm o2); [|discriminate]. injection H1 as <-. discriminate.
    - injection H1 as <-. discriminate.
    - discriminate. }
  rewrite EM in H. apply andthen_inv in H. destruct H as (o2 & H2 & H).
  apply u_init_crema in H2; [|exact Hm]. destruct H2 as (d & v0 & adj & Hd & Ha & ->).
  apply u_solver_inv in H. destruct H as (v & Hv & ->). exists o1, d, v, v0, adj.
  split; [exact H1|]. split; [exact Hd|]. split; [exact Hv|]. split; [exact Ha|].
  destruct Hm as [E|[E|[]]]; rewrite <- E; reflexivity.
Qed.


Lemma u_tool_crema g c o o' : In (c_model c) ["crema"; "crema-sparse"]%string ->
  u_solve_tool g c o = (o', None) -> exists o1, u_solve_crema g c o = (o1, None) /\ u_solution_error g o1 = (o', None).
Proof.
  intros Hm H. unfold u_solve_tool in H. apply andthen_inv in H. destruct H as (o1 & H1 & H). exists o1. split; [|exact H].
  destruct Hm as [E|[E|[]]]; rewrite <- E in H1; names_in H1; exact H1.
Qed.
Lemma u_adj_matrix g c o a o1 : c_adjacency c = AdjMatrix a -> u_set_adjacency g c o = (o1, None) ->
  us_adj o1 = Some (Triples (triu_edges (un_n g) a)) /\ us_given o1 = Some true /\ us_sparse o1 = false.
Proof. intros Ha H. unfold u_set_adjacency in H. rewrite Ha in H. injection H as <-. repeat split. Qed.
Lemma u_adj_name g c o a o1 : c_adjacency c = AdjName a -> In a ["cm"; "cm_exp"]%string -> u_set_adjacency g c o = (o1, None) ->
  exists v, c_out_adjacency c = Some v /\ let x := fun i => cm_factor a v (u_class g i) in us_x o1 = Some x /\ us_given o1 = Some false /\
    us_sparse o1 = String.eqb (c_model c) "crema-sparse" /\
    us_adj o1 = Some (if String.eqb (c_model c) "crema-sparse" then Factors1 x else Triples (triu_edges (un_n g) (pmatrix_cm x))).
Proof.
  intros Ha Hn H. unfold u_set_adjacency in H. rewrite Ha in H. apply andthen_inv in H. destruct H as (o2 & H2 & H).
  apply u_solve_cm in H2; [|exact Hn]. destruct H2 as (d & v & _ & Hv & ->). exists v. split; [exact Hv|]. cbv zeta.
  cbn in H. destruct (String.eqb (c_model c) "crema-sparse"); injection H as <-; repeat split.
Qed.
Lemma crema_mean_ext n p q b i : (forall i j, (i < j)%nat -> p i j = q i j) -> crema_mean n p b i = crema_mean n q b i.
Proof.
  intros H. unfold crema_mean. apply rsum_ext. intros j _. destruct (Nat.eqb_spec i j); [reflexivity|]. rewrite H by lia. reflexivity.
Qed.
Lemma pmatrix_ubcm x i j : (i < j)%nat -> pmatrix_cm x i j = p_ubcm x i j.
Proof. intros H. unfold pmatrix_cm. apply Nat.ltb_lt in H. rewrite H. reflexivity. Qed.
Lemma pmatrix_hollow x : hollow (pmatrix_cm x).
Proof. intros i. unfold pmatrix_cm. rewrite Nat.ltb_irrefl. reflexivity. Qed.

Lemma u_error_run g o m beta adj given E o' : us_last o = Some m -> among m ["cm"; "cm_exp"; "crema"; "crema-sparse"]%string = true ->
  us_beta o = Some beta -> us_adj o = Some adj -> us_given o = Some given ->
  (if us_sparse o then expected_strength_crema_undirected_sparse (un_n g) (adj0 adj) beta
   else obind (adj_edges adj) (fun es => expected_strength_crema_undirected es beta)) = Some E ->
  u_solution_error g o = (o', None) ->
  (given = true -> us_err o' = Some (inf_norm (un_n g) E (un_str g))) /\
  (forall x, given = false -> us_x o = Some x ->
     us_err o' = Some (Rmax (inf_norm (un_n g) E (un_str g)) (inf_norm (un_n g) (expected_degree_cm (un_n g) x) (at_list (un_dseq g))))).
Proof.
  intros HL HA HB HJ HG HE H. unfold u_solution_error in H. rewrite HL, HA in H.
  assert (K : us_beta (u_error_degree g o) = Some beta /\ us_adj (u_error_degree g o) = Some adj /\ us_given (u_error_degree g o) = Some given /\
    us_sparse (u_error_degree g o) = us_sparse o).
  { unfold u_error_degree. destruct (us_x o); cbn [us_beta us_adj us_given us_sparse us_set_ek]; repeat split; assumption. }
  destruct K as (K1 & K2 & K3 & K4). unfold u_error_strength in H. rewrite K1, K2, K4 in H. cbv zeta in H. rewrite HE in H.
  cbn [us_given us_set_es us_ek] in H. rewrite K3 in H. split.
  - intros ->. injection H as <-. reflexivity.
  - intros x -> Hx. unfold u_error_degree in H. rewrite Hx in H. cbn [us_ek us_set_ek] in H. injection H as <-. reflexivity.
Qed.
Lemma u_error_crema_matrix g c o o' a : (0 < un_n g)%nat -> In (c_model c) ["crema"; "crema-sparse"]%string ->
  c_adjacency c = AdjMatrix a -> hollow a ->
  u_solve_tool g c o = (o', None) -> (forall b, us_beta o' = Some b -> positive_rates (un_n g) a b) ->
  exists v e, c_out c = Some v /\ us_beta o' = Some (o_x v) /\ us_err o' = Some e /\
    sup_dev (un_n g) (crema_mean (un_n g) a (o_x v)) (un_str g) e.
Proof.
  intros Hn Hm Ha Hh H HP. destruct (u_tool_crema _ _ _ _ Hm H) as (o1 & H1 & H2).
  apply u_crema_inv in H1; [|exact Hm]. destruct H1 as (o2 & d & v & v0 & adj & HA & _ & Hv & HJ & ->).
  destruct (u_adj_matrix _ _ _ _ _ Ha HA) as (J1 & J2 & J3). rewrite J1 in HJ. injection HJ as <-.
  destruct (u_error_frame _ _ _ _ H2) as (_ & _ & FB & _). cbn in FB. specialize (HP _ FB).
  destruct (expected_triu _ _ _ Hh HP) as (E & E1 & E2).
  exists v, (inf_norm (un_n g) E (un_str g)). split; [exact Hv|]. split; [exact FB|].
  assert (ER : us_err o' = Some (inf_norm (un_n g) E (un_str g))).
  { match type of H2 with u_solution_error _ ?st = _ => refine (proj1 (u_error_run g st (c_model c) (o_x v) (Triples (triu_edges (un_n g) a)) true E o' _ _ _ J1 J2 _ H2) eq_refl) end; [reflexivity| |reflexivity|].
    - destruct Hm as [M|[M|[]]]; rewrite <- M; reflexivity.
    - cbn [us_sparse us_set_sol us_set_beta us_set_step us_set_args us_set_last]. rewrite J3. exact E1. }
  split; [exact ER|]. eapply sup_dev_ext; [exact E2|reflexivity|]. apply inf_norm_sup. exact Hn.
Qed.
Lemma u_error_crema_name g c o o' a : (0 < un_n g)%nat -> In (c_model c) ["crema"; "crema-sparse"]%string ->
  c_adjacency c = AdjName a -> In a ["cm"; "cm_exp"]%string ->
  u_solve_tool g c o = (o', None) ->
  (forall x b, us_x o' = Some x -> us_beta o' = Some b -> (forall i, (i < un_n g)%nat -> 0 <= x i) /\ positive_rates (un_n g) (p_ubcm x) b) ->
  exists va v cls x ek es, c_out_adjacency c = Some va /\ c_out c = Some v /\ us_x o' = Some x /\ us_beta o' = Some (o_x v) /\
    us_err o' = Some (Rmax es ek) /\
    (forall i j, (i < un_n g)%nat -> (j < un_n g)%nat -> (cls i = cls j <-> nth i (un_dseq g) O = nth j (un_dseq g) O)) /\
    (forall i, x i = if String.eqb a "cm" then o_x va (cls i) else exp (- o_x va (cls i))) /\
    sup_dev (un_n g) (fun i => mean_undirected (un_n g) (p_ubcm x) (fun a => deg (un_n g) a i)) (at_list (un_dseq g)) ek /\
    sup_dev (un_n g) (crema_mean (un_n g) (p_ubcm x) (o_x v)) (un_str g) es.
Proof.
  intros Hn Hm Ha Hna H HP. destruct (u_tool_crema _ _ _ _ Hm H) as (o1 & H1 & H2).
  apply u_crema_inv in H1; [|exact Hm]. destruct H1 as (o2 & d & v & v0 & adj & HA & _ & Hv & HJ & ->).
  destruct (u_adj_name _ _ _ _ _ Ha Hna HA) as (va & Hva & J1 & J2 & J3 & J4). set (x := fun i => cm_factor a va (u_class g i)) in *.
  destruct (u_error_frame _ _ _ _ H2) as (FX & _ & FB & _). cbn in FB, FX. rewrite J1 in FX.
  destruct (HP _ _ FX FB) as [HX HR].
  assert (HR' : positive_rates (un_n g) (pmatrix_cm x) (o_x v)).
  { intros i j Hij. rewrite pmatrix_ubcm by lia. apply HR. exact Hij. }
  set (ek := inf_norm (un_n g) (expected_degree_cm (un_n g) x) (at_list (un_dseq g))).
  assert (EE : exists E, us_err o' = Some (Rmax (inf_norm (un_n g) E (un_str g)) ek) /\
     forall i, (i < un_n g)%nat -> E i = crema_mean (un_n g) (pmatrix_cm x) (o_x v) i).
  { assert (HM : among (c_model c) ["cm"; "cm_exp"; "crema"; "crema-sparse"]%string = true) by (destruct Hm as [M|[M|[]]]; rewrite <- M; reflexivity).
    destruct (String.eqb (c_model c) "crema-sparse") eqn:ES.
    - destruct (expected_sparse _ x _ HX HR') as (E & E1 & E2). exists E. split; [|exact E2].
      match type of H2 with u_solution_error _ ?st = _ => refine (proj2 (u_error_run g st (c_model c) (o_x v) (Factors1 x) false E o' _ HM _ J4 J2 _ H2) x eq_refl J1) end; [reflexivity|reflexivity|].
      cbn [us_sparse us_set_sol us_set_beta us_set_step us_set_args us_set_last]. rewrite J3. exact E1.
    - destruct (expected_triu _ _ _ (pmatrix_hollow x) HR') as (E & E1 & E2). exists E. split; [|exact E2].
      match type of H2 with u_solution_error _ ?st = _ => refine (proj2 (u_error_run g st (c_model c) (o_x v) _ false E o' _ HM _ J4 J2 _ H2) x eq_refl J1) end; [reflexivity|reflexivity|].
      cbn [us_sparse us_set_sol us_set_beta us_set_step us_set_args us_set_last]. rewrite J3. exact E1. }
  destruct EE as (E & ER & E2). exists va, v, (u_class g), x, ek, (inf_norm (un_n g) E (un_str g)).
  do 5 (split; [assumption|]). split; [apply u_class_iff|]. split; [reflexivity|]. split.
  - apply (sup_dev_ext _ (expected_degree_cm (un_n g) x) (at_list (un_dseq g))); [|reflexivity|apply inf_norm_sup; exact Hn].
    intros i Hi. symmetry. apply expected_degree_cm_mean. exact Hi.
  - apply (sup_dev_ext _ E (un_str g)); [|reflexivity|apply inf_norm_sup; exact Hn].
    intros i Hi. rewrite E2 by exact Hi. apply crema_mean_ext. apply pmatrix_ubcm.
Qed.

(** * Histories without CReMa *)
Lemma u_init_beta g m method guess o : ~ In m ["crema"; "crema-sparse"]%string -> us_beta (fst (u_initialize g m method guess o)) = us_beta o.
Proof.
  intros Hm. assert (E2 : among m ["crema"; "crema-sparse"]%string = false).
  { apply not_true_iff_false. intros E. apply Hm. unfold among in E. apply existsb_exists in E. destruct E as (s & Hs & E).
    apply String.eqb_eq in E. subst. exact Hs. }
  unfold u_initialize, u_set_guess, u_set_args, degree_reduction_und. rewrite E2. destruct guess as [v|]; [|reflexivity].
  destruct (among m ["ecm"; "ecm_exp"]%string), (among m ["cm"; "cm_exp"]%string);
    cbn; destruct (u_dispatch m method None) as [d|[|]]; reflexivity.
Qed.
Lemma u_init_last g m method guess o : us_last (fst (u_initialize g m method guess o)) = us_last o.
Proof.
  unfold u_initialize, u_set_guess, u_set_args, degree_reduction_und. destruct guess as [v|]; [|reflexivity].
  destruct (among m ["ecm"; "ecm_exp"]%string) eqn:E1, (among m ["crema"; "crema-sparse"]%string) eqn:E2, (among m ["cm"; "cm_exp"]%string) eqn:E3;
    cbn; try (destruct (us_adj o); cbn); destruct (u_dispatch m method None) as [d|[|]]; reflexivity.
Qed.
Lemma u_history_beta g h sparse : (forall c, In c h -> ~ In (c_model c) ["crema"; "crema-sparse"]%string) ->
  us_beta (u_history g h (u_fresh sparse)) = None.
Proof.
  intros Hh. assert (G : forall o, us_beta o = None -> us_beta (u_history g h o) = None); [|apply G; reflexivity].
  induction h as [|c h IH]; intros o Ho; [exact Ho|]. cbn [u_history]. apply IH; [intros c' Hc; apply Hh; right; exact Hc|].
  specialize (Hh c (or_introl eq_refl)). clear IH.
  assert (E2 : among (c_model c) ["crema"; "crema-sparse"]%string = false).
  { apply not_true_iff_false. intros E. apply Hh. unfold among in E. apply existsb_exists in E. destruct E as (s & Hs & E).
    apply String.eqb_eq in E. rewrite E. exact Hs. }
  unfold u_solve_tool. rewrite E2.
  assert (GE : forall o2, us_beta o2 = None -> us_beta (fst (u_solution_error g o2)) = None).
  { intros o2 H2. destruct (u_solution_error g o2) as [o3 r] eqn:E. apply u_error_frame in E. destruct E as (_ & _ & E & _). cbn. congruence. }
  destruct (among (c_model c) ["cm"; "cm_exp"; "ecm"; "ecm_exp"]%string) eqn:E1; [|apply GE; exact Ho].
  assert (GS : us_beta (fst (u_solve_problem g (c_model c) (c_method c) (c_guess c) (c_out c) o)) = None).
  { unfold u_solve_problem, andthen. pose proof (u_init_beta g (c_model c) (c_method c) (c_guess c) (us_set_last (Some (c_model c)) o) Hh) as HB.
    pose proof (u_init_last g (c_model c) (c_method c) (c_guess c) (us_set_last (Some (c_model c)) o)) as HL.
    destruct (u_initialize g (c_model c) (c_method c) (c_guess c) (us_set_last (Some (c_model c)) o)) as [o1 [e|]]; cbn in *; [congruence|].
    unfold u_run_solver. destruct (c_out c) as [v|]; cbn; [|congruence]. unfold u_set_solved, degree_reduction_und. rewrite HL, E2.
    repeat match goal with |- context [if ?b then _ else _] => destruct b end; cbn; congruence. }
  unfold andthen. destruct (u_solve_problem g (c_model c) (c_method c) (c_guess c) (c_out c) o) as [o1 [e|]]; cbn in *; [exact GS|].
  apply GE. exact GS.
Qed.

(** * [model_loglikelihood] *)
#[local] Transparent u_dispatch lookup.
Definition ll_name (m : string) : string :=
  (if String.eqb m "crema" then "loglikelihood_crema_undirected"
   else if String.eqb m "crema-sparse" then "loglikelihood_crema_undirected_sparse" else "loglikelihood_" ++ m)%string.
Lemma u_step_name m method d : In m undirected_models -> In method documented_methods -> u_dispatch m method None = inl d ->
  d_step d = Neg (ll_name m).
Proof.
  intros Hm Hn. cbn in Hm, Hn.
  destruct Hm as [<-|[<-|[<-|[<-|[<-|[<-|[]]]]]]]; destruct Hn as [<-|[<-|[<-|[]]]]; intros E; injection E as <-; reflexivity.
Qed.
#[local] Opaque u_dispatch.
Lemma u_after_cm g c o o' : In (c_model c) ["cm"; "cm_exp"]%string -> In (c_method c) documented_methods ->
  u_solve_tool g c o = (o', None) ->
  exists v, c_out c = Some v /\ us_x o' = Some (fun i => cm_factor (c_model c) v (u_class g i)) /\
    u_model_loglikelihood o' = run_entry (Neg (ll_name (c_model c))) (u_args_cm g) (o_x v).
Proof.
  intros Hm Hd H. unfold u_solve_tool in H. apply andthen_inv in H. destruct H as (o1 & H1 & H).
  assert (HS : u_solve_problem g (c_model c) (c_method c) (c_guess c) (c_out c) o = (o1, None)).
  { destruct Hm as [E|[E|[]]]; rewrite <- E in H1 |- *; names_in H1; exact H1. }
  apply u_solve_cm in HS; [|exact Hm]. destruct HS as (d & v & D & Hv & ->).
  apply u_error_frame in H. destruct H as (F1 & _ & _ & F2 & F3 & F4 & _). cbn in F1, F2, F3, F4.
  exists v. split; [exact Hv|]. split; [exact F1|]. unfold u_model_loglikelihood. rewrite F2, F3, F4.
  assert (HU : In (c_model c) undirected_models) by (destruct Hm as [E|[E|[]]]; rewrite <- E; cbn; tauto).
  rewrite (u_step_name _ _ _ HU Hd D). reflexivity.
Qed.
Lemma u_classes g : classes (un_n g) (List.length (np_unique Nat.leb Nat.eqb (un_dseq g))) (u_class g) (at_list (np_counts Nat.leb Nat.eqb (un_dseq g))).
Proof. pose proof (reduction_unique Nat.leb Nat.eqb (un_dseq g) nat_order) as H. unfold reduction_ok in H. apply H. Qed.
Lemma u_class_degree g i : (i < un_n g)%nat -> at_list (np_unique Nat.leb Nat.eqb (un_dseq g)) (u_class g i) = at_list (un_dseq g) i.
Proof.
  intros Hi. pose proof (reduction_unique Nat.leb Nat.eqb (un_dseq g) nat_order) as (_ & _ & _ & _ & _ & Hq & _).
  destruct (Hq i (nth i (un_dseq g) O) (nth_error_nth' _ _ Hi)) as (q & Q1 & Q2). unfold u_class, at_list.
  rewrite (nth_error_nth _ _ O Q1), (nth_error_nth _ _ O Q2). reflexivity.
Qed.
Lemma u_ll_cm g c o o' a : In (c_model c) ["cm"; "cm_exp"]%string -> In (c_method c) documented_methods ->
  u_solve_tool g c o = (o', None) ->
  (forall v, c_model c = "cm"%string -> c_out c = Some v -> forall q, 0 < o_x v q) ->
  simple_graph (un_n g) a -> (forall i, (i < un_n g)%nat -> at_list (un_dseq g) i = deg (un_n g) a i) ->
  exists x, us_x o' = Some x /\ scalar (u_model_loglikelihood o') = Some (- ln (prob_undirected (un_n g) (p_ubcm x) a)).
Proof.
  intros Hm Hd H HP Hg Hk. destruct (u_after_cm _ _ _ _ Hm Hd H) as (v & Hv & HX & HLL). rewrite HLL.
  eexists. split; [exact HX|]. destruct Hm as [E|[E|[]]]; rewrite <- E in *; unfold cm_factor; names.
  - match goal with |- scalar (run_entry (Neg ?f) (u_args_cm g) ?p) = _ =>
      transitivity (scalar (num (- loglikelihood_cm (List.length (np_unique Nat.leb Nat.eqb (un_dseq g))) (at_list (np_unique Nat.leb Nat.eqb (un_dseq g))) (at_list (np_counts Nat.leb Nat.eqb (un_dseq g))) p))) end;
      [exact (f_equal scalar (neg_entry _ _ _ _ (e_ll_cm _ _ _ _ (fun q _ => HP v eq_refl Hv q))))|].
    rewrite (loglik_cm_logprob (un_n g) _ (u_class g) _ _ (o_x v) a Hg (u_classes g)); [reflexivity| |].
    + intros i Hi. rewrite u_class_degree by exact Hi. apply Hk. exact Hi.
    + intros q _. apply (HP v); auto.
  - match goal with |- scalar (run_entry (Neg ?f) (u_args_cm g) ?p) = _ =>
      change (scalar (num (- loglikelihood_cm_exp (List.length (np_unique Nat.leb Nat.eqb (un_dseq g))) (at_list (np_unique Nat.leb Nat.eqb (un_dseq g))) (at_list (np_counts Nat.leb Nat.eqb (un_dseq g))) p)) = Some (- ln (prob_undirected (un_n g) (p_ubcm (fun i => exp (- o_x v (u_class g i)))) a))) end.
    rewrite (loglik_cm_exp_logprob (un_n g) _ (u_class g) _ _ (o_x v) a Hg (u_classes g)); [reflexivity|].
    intros i Hi. rewrite u_class_degree by exact Hi. apply Hk. exact Hi.
Qed.
Lemma u_ll_ecm g c o o' w : In (c_model c) ["ecm"; "ecm_exp"]%string -> In (c_method c) documented_methods ->
  u_solve_tool g c o = (o', None) ->
  (forall x y, us_x o' = Some x -> us_y o' = Some y -> ecm_dom (un_n g) (join2 (un_n g) x y)) ->
  weighted_graph (un_n g) w -> (forall i, (i < un_n g)%nat -> at_list (un_dseq g) i = wdeg (un_n g) w i) ->
  (forall i, (i < un_n g)%nat -> un_str g i = wstr (un_n g) w i) ->
  exists x y, us_x o' = Some x /\ us_y o' = Some y /\
    scalar (u_model_loglikelihood o') = Some (- ln (prob_wundirected (un_n g) (fun i j => q_enh (x i * x j) (y i * y j)) w)).
Proof.
  intros Hm Hd H HP Hg Hk Hs. unfold u_solve_tool in H. apply andthen_inv in H. destruct H as (o1 & H1 & H).
  assert (HS : u_solve_problem g (c_model c) (c_method c) (c_guess c) (c_out c) o = (o1, None)).
  { destruct Hm as [E|[E|[]]]; rewrite <- E in H1 |- *; names_in H1; exact H1. }
  apply u_solve_ecm in HS; [|exact Hm]. destruct HS as (d & v & D & Hv & X1 & X2 & X3 & X4 & X5 & _).
  apply u_error_frame in H. destruct H as (F1 & F0 & _ & F2 & F3 & F4 & _). rewrite X1 in F1. rewrite X2 in F0.
  specialize (HP _ _ F1 F0).
  assert (HD : ecm_dom (un_n g) (ecm_factor (c_model c) v)).
  { destruct HP as [P1 P2]. split.
    - intros i Hi. specialize (P1 i Hi). rewrite !join2_drop in P1. exact P1.
    - intros i j Hi Hj Hij. specialize (P2 i j Hi Hj Hij). rewrite !join2_drop in P2. exact P2. }
  eexists _, _. split; [exact F1|]. split; [exact F0|]. unfold u_model_loglikelihood. rewrite F2, F3, F4, X3, X4, X5.
  assert (HU : In (c_model c) undirected_models) by (destruct Hm as [E|[E|[]]]; rewrite <- E; cbn; tauto).
  rewrite (u_step_name _ _ _ HU Hd D).
  destruct Hm as [E|[E|[]]]; rewrite <- E in *.
  - change (ecm_dom (un_n g) (o_x v)) in HD.
    transitivity (scalar (num (- loglikelihood_ecm (un_n g) (at_list (un_dseq g)) (un_str g) (o_x v)))); [exact (f_equal scalar (neg_entry _ _ _ _ (e_ll_ecm _ _ _ _ HD)))|]. rewrite (loglik_ecm_logprob _ _ _ _ w Hg Hk Hs HD). reflexivity.
  - assert (HE : ecm_exp_dom (un_n g) (o_x v)).
    { intros i j Hi Hj Hij. pose proof (proj2 HD i j Hi Hj Hij) as L. unfold ecm_factor in L. names_in L.
    rewrite <- exp_plus, <- exp_0 in L. apply exp_lt_inv in L. lra. }
    transitivity (scalar (num (- loglikelihood_ecm_exp (un_n g) (at_list (un_dseq g)) (un_str g) (o_x v)))); [exact (f_equal scalar (neg_entry _ _ _ _ (e_ll_ecm_exp _ _ _ _ HE)))|].
    rewrite (loglik_ecm_exp_logprob _ _ _ _ w Hg Hk Hs HE). reflexivity.
Qed.
Lemma u_after_crema g c o o' : In (c_model c) ["crema"; "crema-sparse"]%string -> In (c_method c) documented_methods ->
  u_solve_tool g c o = (o', None) ->
  exists o1 v adj, u_set_adjacency g c o = (o1, None) /\ c_out c = Some v /\ us_adj o1 = Some adj /\ us_x o' = us_x o1 /\
    us_beta o' = Some (o_x v) /\ u_model_loglikelihood o' = run_entry (Neg (ll_name (c_model c))) (A3 (un_n g) (un_str g) adj) (o_x v).
Proof.
  intros Hm Hd H. destruct (u_tool_crema _ _ _ _ Hm H) as (o1 & H1 & H2).
  apply u_crema_inv in H1; [|exact Hm]. destruct H1 as (o2 & d & v & v0 & adj & HA & D & Hv & HJ & ->).
  apply u_error_frame in H2. destruct H2 as (F1 & _ & F5 & F2 & F3 & F4 & _). cbn in F1, F2, F3, F4, F5.
  exists o2, v, adj. do 5 (split; [assumption|]). unfold u_model_loglikelihood. rewrite F2, F3, F4.
  assert (HU : In (c_model c) undirected_models) by (destruct Hm as [E|[E|[]]]; rewrite <- E; cbn; tauto).
  rewrite (u_step_name _ _ _ HU Hd D). reflexivity.
Qed.
Lemma u_ll_crema_matrix g c o o' a : c_model c = "crema"%string -> In (c_method c) documented_methods ->
  c_adjacency c = AdjMatrix a -> hollow a -> u_solve_tool g c o = (o', None) ->
  (forall b, us_beta o' = Some b -> positive_rates (un_n g) a b) ->
  exists b, us_beta o' = Some b /\ scalar (u_model_loglikelihood o') = Some (- crema_loglik (un_n g) a (un_str g) b).
Proof.
  intros Hm Hd Ha Hh H HP. assert (Hm' : In (c_model c) ["crema"; "crema-sparse"]%string) by (rewrite Hm; cbn; tauto).
  destruct (u_after_crema _ _ _ _ Hm' Hd H) as (o1 & v & adj & HA & Hv & HJ & _ & HB & ->).
  destruct (u_adj_matrix _ _ _ _ _ Ha HA) as (J1 & _ & _). rewrite J1 in HJ. injection HJ as <-.
  exists (o_x v). split; [exact HB|]. rewrite <- (loglik_triu (un_n g) a (un_str g) (o_x v) Hh), Hm.
  exact (f_equal scalar (neg_entry _ _ _ _ (e_ll_crema_undirected _ _ _ _ (triu_dom _ _ _ Hh (HP _ HB))))).
Qed.
Lemma u_ll_crema_name g c o o' a : In (c_model c) ["crema"; "crema-sparse"]%string -> In (c_method c) documented_methods ->
  c_adjacency c = AdjName a -> In a ["cm"; "cm_exp"]%string -> u_solve_tool g c o = (o', None) ->
  (forall x b, us_x o' = Some x -> us_beta o' = Some b -> (forall i, (i < un_n g)%nat -> 0 <= x i) /\ positive_rates (un_n g) (p_ubcm x) b) ->
  exists x b, us_x o' = Some x /\ us_beta o' = Some b /\
    scalar (u_model_loglikelihood o') = Some (- crema_loglik (un_n g) (p_ubcm x) (un_str g) b).
Proof.
  intros Hm Hd Ha Hna H HP. destruct (u_after_crema _ _ _ _ Hm Hd H) as (o1 & v & adj & HA & Hv & HJ & FX & HB & ->).
  destruct (u_adj_name _ _ _ _ _ Ha Hna HA) as (va & _ & J1 & _ & _ & J4). rewrite HJ in J4. injection J4 as ->. rewrite J1 in FX.
  set (x := fun i => cm_factor a va (u_class g i)) in *. destruct (HP _ _ FX HB) as [HX HR].
  assert (HR' : positive_rates (un_n g) (pmatrix_cm x) (o_x v)).
  { intros i j Hij. rewrite pmatrix_ubcm by lia. apply HR. exact Hij. }
  exists x, (o_x v). split; [exact FX|]. split; [exact HB|].
  assert (EL : crema_loglik (un_n g) (p_ubcm x) (un_str g) (o_x v) = loglikelihood_crema_undirected (un_n g) (un_str g) (triu_edges (un_n g) (pmatrix_cm x)) (o_x v)).
  { rewrite loglik_triu by apply pmatrix_hollow. unfold crema_loglik. f_equal. apply rsum_ext. intros j _. apply rsum_ext. intros i Hi.
    rewrite pmatrix_ubcm by lia. reflexivity. }
  rewrite EL. destruct Hm as [E|[E|[]]]; rewrite <- E; names.
  - exact (f_equal scalar (neg_entry _ _ _ _ (e_ll_crema_undirected _ _ _ _ (triu_dom _ _ _ (pmatrix_hollow x) HR')))).
  - exact (f_equal scalar (neg_entry _ _ _ _ (e_ll_crema_sparse _ _ _ _ HX (triu_dom _ _ _ (pmatrix_hollow x) HR')))).
Qed.

(** A documented call whose starting point and solver succeed completes on an object that
    never solved CReMa. *)
#[local] Transparent u_dispatch.
Lemma u_dispatch_documented m method : In m ["cm"; "cm_exp"; "ecm"; "ecm_exp"]%string -> In method documented_methods ->
  exists d, u_dispatch m method None = inl d.
Proof.
  intros Hm Hn. cbn in Hm, Hn.
  destruct Hm as [<-|[<-|[<-|[<-|[]]]]]; destruct Hn as [<-|[<-|[<-|[]]]]; eexists; reflexivity.
Qed.
#[local] Opaque u_dispatch.
Lemma u_completes g c o v0 v : In (c_model c) ["cm"; "cm_exp"; "ecm"; "ecm_exp"]%string -> In (c_method c) documented_methods ->
  (In (c_model c) ["cm"; "cm_exp"]%string -> us_beta o = None) ->
  c_guess c = Some v0 -> c_out c = Some v -> exists o', u_solve_tool g c o = (o', None).
Proof.
  intros Hm Hd Hb Hg Hv. destruct (u_dispatch_documented _ _ Hm Hd) as (d & D).
  unfold u_solve_tool, u_solve_problem, u_initialize, u_set_guess, u_set_args, degree_reduction_und. rewrite Hg, Hv.
  cbn in Hm, Hb. destruct Hm as [E|[E|[E|[E|[]]]]]; rewrite <- E in *; names; cbn [andthen fst snd ok]; rewrite D; names; cbn [andthen fst snd ok u_run_solver];
    unfold u_set_solved, degree_reduction_und; cbn [us_last us_set_pm us_set_step us_set_args us_set_xy us_set_last]; names;
    unfold u_solution_error; cbn [us_last us_x us_y us_set_pm us_set_step us_set_args us_set_xy us_set_last us_set_sol us_set_x]; names;
    try (eexists; reflexivity); rewrite <- ?E in Hb; unfold u_error_degree; cbn [us_x us_set_x]; unfold u_error_strength;
    cbn [us_beta us_set_pm us_set_step us_set_args us_set_xy us_set_last us_set_sol us_set_x us_set_ek]; rewrite Hb by tauto; eexists; reflexivity.
Qed.
