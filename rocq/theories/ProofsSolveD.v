(** DirectedGraph: reported errors and [model_loglikelihood]. *)
From Coq Require Import Reals List Arith Lra Lia Bool String.
From Coquelicot Require Import Coquelicot.
From Verif Require Import Base SpecDeriv SpecGraph SpecDirected SpecWeighted SpecCReMa SpecEnsemble SpecNetwork SpecSolve SpecDispatch
  ModelCM ModelECM ModelDCM ModelDECM ModelCReMa ModelNetwork ModelDispatch ModelSolve
  ProofsGraph ProofsEnsemble ProofsMainDCM ProofsDECM ProofsMainDECM ProofsCReMa ProofsMainCReMa ProofsDirCReMa ProofsDirSparseCReMa
  ProofsUnique ProofsAdjacency WitnessCReMa ProofsDispatch ProofsIEEE ProofsEntries ProofsSolve ProofsSolveU.
Local Open Scope R_scope.
Import ListNotations.
#[local] Opaque d_dispatch lookup.

(** * Norms of concatenations *)
Lemma fold_max_app (l1 l2 : list R) : (forall v, In v l1 -> 0 <= v) -> (forall v, In v l2 -> 0 <= v) ->
  fold_right Rmax 0 (l1 ++ l2) = Rmax (fold_right Rmax 0 l1) (fold_right Rmax 0 l2).
Proof.
  intros H1 H2. induction l1 as [|a l IH]; simpl.
  - rewrite Rmax_right; [reflexivity|]. clear - H2. induction l2 as [|b l2 IH]; simpl; [lra|].
    eapply Rle_trans; [apply (H2 b); left; reflexivity|apply Rmax_l].
  - rewrite IH by (intros; apply H1; right; assumption). apply Rmax_assoc.
Qed.
Lemma map_seq_shift (f : nat -> R) p q : forall s, map f (seq (s + p) q) = map (fun i => f (i + p)%nat) (seq s q).
Proof. induction q as [|q IH]; intros s; [reflexivity|]. simpl. f_equal. apply (IH (S s)). Qed.
Lemma inf_norm_split p q ex ob : inf_norm (p + q) ex ob = Rmax (inf_norm p ex ob) (inf_norm q (drop p ex) (drop p ob)).
Proof.
  unfold inf_norm. rewrite seq_app, map_app, fold_max_app.
  - f_equal. f_equal. apply (map_seq_shift (fun i => Rabs (ex i - ob i)) p q O).
  - intros v Hv. apply in_map_iff in Hv. destruct Hv as (i & <- & _). apply Rabs_pos.
  - intros v Hv. apply in_map_iff in Hv. destruct Hv as (i & <- & _). apply Rabs_pos.
Qed.
(** The error of a concatenation, from the errors of its blocks. *)
Lemma inf_norm_blocks n ex ob a b a' b' : (0 < n)%nat ->
  (forall i, (i < n)%nat -> ex i = a i /\ ex (i + n)%nat = b i) -> (forall i, (i < n)%nat -> ob i = a' i /\ ob (i + n)%nat = b' i) ->
  exists e1 e2, inf_norm (n + n) ex ob = Rmax e1 e2 /\ sup_dev n a a' e1 /\ sup_dev n b b' e2.
Proof.
  intros Hn H1 H2. rewrite inf_norm_split. eexists _, _. split; [reflexivity|]. split.
  - eapply sup_dev_ext; [| |apply inf_norm_sup; exact Hn]; intros i Hi; [apply (H1 i Hi)|apply (H2 i Hi)].
  - eapply sup_dev_ext; [| |apply inf_norm_sup; exact Hn]; intros i Hi; [apply (H1 i Hi)|apply (H2 i Hi)].
Qed.

(** * What a completed call leaves behind *)
Definition d_red (g : dnet) : reduction := degree_reduction_dir (dn_out g) (dn_in g).
Definition d_class (g : dnet) (i : nat) : nat := nth i (r_invert_dseq (d_red g)) O.
Definition d_classes_n (g : dnet) : nat := rnz_n_out (d_red g).
Definition d_args_dcm (g : dnet) : arguments :=
  A5d (d_classes_n g) (at_list (rnz_dseq_out (d_red g))) (at_list (rnz_dseq_in (d_red g))) (nz_index_out (d_red g)) (nz_index_in (d_red g))
      (at_list (r_multiplicity (d_red g))).
Definition d_args_crema (g : dnet) (adj : adjacency_crema) : arguments :=
  A5c (dn_n g) (dn_sout g) (dn_sin g) adj (nz_real (dn_n g) (dn_sout g)) (nz_real (dn_n g) (dn_sin g)).
Lemma d_init_dcm g m method guess o o' : In m ["dcm"; "dcm_exp"]%string ->
  d_initialize g m method guess o = (o', None) ->
  exists d, d_dispatch m method None = inl d /\
    o' = ds_set_pm true (ds_set_step (Some (d_step d)) (ds_set_args (Some (d_args_dcm g)) o)).
Proof.
  intros Hm H. unfold d_initialize in H. apply andthen_inv in H. destruct H as (o1 & H1 & H).
  apply andthen_inv in H. destruct H as (o2 & H2 & H).
  destruct Hm as [<-|[<-|[]]]; unfold d_set_guess in H1; unfold d_set_args in H2; names_in H1; names_in H2; names_in H;
    (destruct guess; [|discriminate]); injection H1 as <-; injection H2 as <-;
    (match type of H with context [d_dispatch ?a ?b ?c] => destruct (d_dispatch a b c) as [d|[|]] eqn:E end; [|discriminate|discriminate]);
    injection H as <-; exists d; split; reflexivity.
Qed.
Lemma d_init_decm g m method guess o o' : In m ["decm"; "decm_exp"]%string ->
  d_initialize g m method guess o = (o', None) ->
  exists d v, d_dispatch m method None = inl d /\
    o' = ds_set_step (Some (d_step d)) (ds_set_args (Some (A4 (dn_n g) (at_list (dn_out g)) (at_list (dn_in g)) (dn_sout g) (dn_sin g)))
           (ds_set_all (Some v) (Some (drop (dn_n g) v)) (Some (drop (2 * dn_n g) v)) (Some (drop (3 * dn_n g) v)) o)).
Proof.
  intros Hm H. unfold d_initialize in H. apply andthen_inv in H. destruct H as (o1 & H1 & H).
  apply andthen_inv in H. destruct H as (o2 & H2 & H).
  destruct Hm as [<-|[<-|[]]]; unfold d_set_guess in H1; unfold d_set_args in H2; names_in H1; names_in H2; names_in H;
    (destruct guess as [v|]; [|discriminate]); injection H1 as <-; injection H2 as <-;
    (match type of H with context [d_dispatch ?a ?b ?c] => destruct (d_dispatch a b c) as [d|[|]] eqn:E end; [|discriminate|discriminate]);
    injection H as <-; exists d, v; split; reflexivity.
Qed.
Lemma d_init_crema g m method guess o o' : In m ["crema"; "crema-sparse"]%string ->
  d_initialize g m method guess o = (o', None) ->
  exists d v adj, d_dispatch m method None = inl d /\ ds_adj o = Some adj /\
    o' = ds_set_step (Some (d_step d)) (ds_set_args (Some (d_args_crema g adj)) (ds_set_b (Some v) (Some (drop (dn_n g) v)) o)).
Proof.
  intros Hm H. unfold d_initialize in H. apply andthen_inv in H. destruct H as (o1 & H1 & H).
  apply andthen_inv in H. destruct H as (o2 & H2 & H).
  destruct Hm as [<-|[<-|[]]]; unfold d_set_guess in H1; unfold d_set_args in H2; names_in H1; names_in H2; names_in H;
    (destruct guess as [v|]; [|discriminate]); injection H1 as <-; cbn [ds_adj ds_set_b] in H2;
    (destruct (ds_adj o) as [adj|]; [|discriminate]); injection H2 as <-;
    (match type of H with context [d_dispatch ?a ?b ?c] => destruct (d_dispatch a b c) as [d|[|]] eqn:E end; [|discriminate|discriminate]);
    injection H as <-; exists d, v, adj; split; [reflexivity|split; reflexivity| |]; try (split; reflexivity); reflexivity.
Qed.
Lemma d_solver_inv g full out o o' : d_run_solver g full out o = (o', None) -> exists v, out = Some v /\ o' = d_set_solved g full v o.
Proof. unfold d_run_solver. destruct out as [v|]; [|discriminate]. intros H. injection H as <-. exists v. auto. Qed.

(** The array the object keeps for the plain and the exponential form of a model. *)
Definition dir_factor (plain m : string) (v : outcome_vec) : nat -> R := if String.eqb m plain then o_x v else exp_neg v.
Lemma d_solve_dcm g full m method guess out o o' : In m ["dcm"; "dcm_exp"]%string ->
  d_solve_problem g full m method guess out o = (o', None) ->
  exists d v, d_dispatch m method None = inl d /\ out = Some v /\
    o' = ds_set_xy (Some (fun i => dir_factor "dcm" m v (d_class g i))) (Some (fun i => drop (d_classes_n g) (dir_factor "dcm" m v) (d_class g i)))
           (ds_set_sol (Some (SArray (dir_factor "dcm" m v)))
           (ds_set_pm true (ds_set_step (Some (d_step d)) (ds_set_args (Some (d_args_dcm g)) (ds_set_last (Some m) o))))).
Proof.
  intros Hm H. unfold d_solve_problem in H. apply andthen_inv in H. destruct H as (o1 & H1 & H).
  apply (d_init_dcm g m method guess) in H1; [|exact Hm]. destruct H1 as (d & Hd & ->).
  apply d_solver_inv in H. destruct H as (v & Hv & ->). exists d, v. split; [exact Hd|]. split; [exact Hv|].
  destruct Hm as [<-|[<-|[]]]; unfold d_set_solved; cbn [ds_last ds_set_pm ds_set_step ds_set_args ds_set_last]; names;
    unfold dir_factor; names; reflexivity.
Qed.
Lemma d_solve_decm g full m method guess out o o' : In m ["decm"; "decm_exp"]%string ->
  d_solve_problem g full m method guess out o = (o', None) ->
  exists d v, d_dispatch m method None = inl d /\ out = Some v /\ let s := dir_factor "decm" m v in
    ds_x o' = Some s /\ ds_y o' = Some (drop (dn_n g) s) /\ ds_bo o' = Some (drop (2 * dn_n g) s) /\ ds_bi o' = Some (drop (3 * dn_n g) s) /\
    ds_sol o' = Some (SArray s) /\ ds_step o' = Some (d_step d) /\
    ds_args o' = Some (A4 (dn_n g) (at_list (dn_out g)) (at_list (dn_in g)) (dn_sout g) (dn_sin g)) /\ ds_last o' = Some m.
Proof.
  intros Hm H. unfold d_solve_problem in H. apply andthen_inv in H. destruct H as (o1 & H1 & H).
  apply (d_init_decm g m method guess) in H1; [|exact Hm]. destruct H1 as (d & v0 & Hd & ->).
  apply d_solver_inv in H. destruct H as (v & Hv & ->). exists d, v. split; [exact Hd|]. split; [exact Hv|].
  destruct Hm as [<-|[<-|[]]]; unfold d_set_solved; cbn [ds_last ds_set_all ds_set_step ds_set_args ds_set_last]; names;
    unfold dir_factor; names; repeat split; reflexivity.
Qed.
Lemma d_error_frame g o o' r : d_solution_error g o = (o', r) ->
  ds_x o' = ds_x o /\ ds_y o' = ds_y o /\ ds_bo o' = ds_bo o /\ ds_bi o' = ds_bi o /\ ds_sol o' = ds_sol o /\ ds_step o' = ds_step o /\
  ds_args o' = ds_args o /\ ds_last o' = ds_last o /\ ds_adj o' = ds_adj o.
Proof.
  intros H. unfold d_solution_error, d_error_strength, d_error_degree in H. cbv zeta in H.
  repeat match type of H with
  | context [match ?t with _ => _ end] => match t with context [match _ with _ => _ end] => fail 1 | _ => destruct t eqn:? end
  end; cbn [ds_x ds_y ds_bo ds_bi ds_adj ds_given ds_sparse ds_last ds_ek ds_set_ek ds_set_es ds_set_err ds_set_errs] in *; try discriminate;
  injection H as <- <-; repeat split; cbn; congruence.
Qed.

(** * Classes of nodes with the same pair of degrees *)
Definition d_paired (g : dnet) : Prop := List.length (dn_in g) = List.length (dn_out g).
Lemma d_combine g i : d_paired g -> (i < dn_n g)%nat ->
  nth_error (combine (dn_out g) (dn_in g)) i = Some (nth i (dn_out g) O, nth i (dn_in g) O).
Proof.
  unfold d_paired, dn_n. generalize (dn_out g) as u, (dn_in g) as w. induction i as [|i IH]; intros [|a u] [|b w]; simpl; intros HL Hi; try lia.
  - reflexivity.
  - apply IH; lia.
Qed.
Lemma d_class_iff g i j : d_paired g -> (i < dn_n g)%nat -> (j < dn_n g)%nat ->
  (d_class g i = d_class g j <-> nth i (dn_out g) O = nth j (dn_out g) O /\ nth i (dn_in g) O = nth j (dn_in g) O).
Proof.
  intros HL Hi Hj. pose proof (reduction_unique pair_leb pair_eqb (combine (dn_out g) (dn_in g)) pair_order) as (Hinc & _ & _ & _ & _ & Hq & _).
  destruct (Hq i _ (d_combine g i HL Hi)) as (q & Q1 & Q2). destruct (Hq j _ (d_combine g j HL Hj)) as (q' & Q1' & Q2').
  change (d_class g i) with (nth i (np_inverse pair_leb pair_eqb (combine (dn_out g) (dn_in g))) O).
  change (d_class g j) with (nth j (np_inverse pair_leb pair_eqb (combine (dn_out g) (dn_in g))) O).
  rewrite (nth_error_nth _ _ O Q1), (nth_error_nth _ _ O Q1'). split.
  - intros ->. rewrite Q2 in Q2'. injection Q2' as E1 E2. split; assumption.
  - intros [E1 E2]. rewrite E1, E2 in Q2. unfold increasing in Hinc. destruct (Nat.lt_trichotomy q q') as [L|[L|L]]; [|exact L|].
    + destruct (Hinc _ _ _ _ L Q2 Q2') as [_ D]. exfalso. apply D. reflexivity.
    + destruct (Hinc _ _ _ _ L Q2' Q2) as [_ D]. exfalso. apply D. reflexivity.
Qed.
Lemma d_class_degrees g i : d_paired g -> (i < dn_n g)%nat ->
  at_list (rnz_dseq_out (d_red g)) (d_class g i) = at_list (dn_out g) i /\ at_list (rnz_dseq_in (d_red g)) (d_class g i) = at_list (dn_in g) i.
Proof.
  intros HL Hi. destruct (reduction_directed (dn_out g) (dn_in g) (eq_sym HL)) as (_ & _ & _ & _ & Hq & _).
  assert (Hi' : (i < List.length (dn_in g))%nat) by (rewrite HL; exact Hi).
  destruct (Hq i _ _ (nth_error_nth' _ O Hi) (nth_error_nth' _ O Hi')) as (q & Q1 & Q2 & Q3). unfold d_class, d_red, at_list.
  rewrite (nth_error_nth _ _ O Q1), (nth_error_nth _ _ O Q2), (nth_error_nth _ _ O Q3). split; reflexivity.
Qed.
Lemma d_classes g : d_paired g -> classes (dn_n g) (d_classes_n g) (d_class g) (at_list (r_multiplicity (d_red g))) /\
  nonzero_list (d_classes_n g) (at_list (rnz_dseq_out (d_red g))) (nz_index_out (d_red g)) /\
  nonzero_list (d_classes_n g) (at_list (rnz_dseq_in (d_red g))) (nz_index_in (d_red g)).
Proof.
  intros HL. destruct (reduction_directed (dn_out g) (dn_in g) (eq_sym HL)) as (H1 & H2 & _ & _ & _ & H3 & H4).
  unfold reduction_ok in H1. destruct H1 as (_ & _ & _ & _ & _ & _ & _ & _ & H1).
  unfold d_classes_n. fold (d_red g) in *. rewrite H2. split; [|split; assumption].
  rewrite combine_length, HL, Nat.min_id in H1. exact H1.
Qed.
Lemma d_class_rep g q : d_paired g -> (q < d_classes_n g)%nat -> exists i, (i < dn_n g)%nat /\ d_class g i = q.
Proof.
  intros HL Hq. pose proof (reduction_unique pair_leb pair_eqb (combine (dn_out g) (dn_in g)) pair_order) as (Hinc & _ & _ & _ & _ & HQ & HF & _).
  change (d_classes_n g) with (List.length (map fst (np_unique pair_leb pair_eqb (combine (dn_out g) (dn_in g))))) in Hq.
  rewrite map_length in Hq. destruct (nth_error (np_unique pair_leb pair_eqb (combine (dn_out g) (dn_in g))) q) as [k|] eqn:E.
  2: { apply nth_error_None in E. lia. }
  destruct (HF q k E) as (i & _ & Hi & _). exists i.
  assert (Li : (i < dn_n g)%nat).
  { assert (i < List.length (combine (dn_out g) (dn_in g)))%nat by (apply nth_error_Some; congruence). rewrite combine_length in H. unfold dn_n. lia. }
  split; [exact Li|]. destruct (HQ i k Hi) as (q' & Q1 & Q2).
  change (d_class g i) with (nth i (np_inverse pair_leb pair_eqb (combine (dn_out g) (dn_in g))) O). rewrite (nth_error_nth _ _ O Q1).
  destruct (Nat.lt_trichotomy q q') as [L|[L|L]]; [|congruence|].
  - destruct (Hinc _ _ _ _ L E Q2) as [_ D]. exfalso. apply D. reflexivity.
  - destruct (Hinc _ _ _ _ L Q2 E) as [_ D]. exfalso. apply D. reflexivity.
Qed.

(** * Errors *)
Lemma d_mean_out n x y i : (i < n)%nat -> expected_out_degree_dcm n (join2 n x y) i = mean_directed n (p_dbcm x y) (fun a => deg n a i).
Proof.
  intros Hi. rewrite <- expected_out_degree_dcm_mean, !mean_directed_deg by exact Hi. apply rsum_ext. intros j Hj.
  destruct (Nat.eqb i j); [reflexivity|]. unfold p_dbcm. rewrite join2_r, join2_l by exact Hi. reflexivity.
Qed.
Lemma d_mean_in n x y i : (i < n)%nat -> expected_in_degree_dcm n (join2 n x y) i = mean_directed n (p_dbcm x y) (fun a => indeg n a i).
Proof.
  intros Hi. rewrite <- expected_in_degree_dcm_mean, !mean_directed_indeg by exact Hi. apply rsum_ext. intros j Hj.
  destruct (Nat.eqb j i); [reflexivity|]. unfold p_dbcm. rewrite join2_r, join2_l by exact Hj. reflexivity.
Qed.
Lemma d_degree_error n x y ko ki : (0 < n)%nat -> exists e1 e2,
  inf_norm (n + n) (join2 n (expected_out_degree_dcm n (join2 n x y)) (expected_in_degree_dcm n (join2 n x y))) (join2 n ko ki) = Rmax e1 e2 /\
  sup_dev n (fun i => mean_directed n (p_dbcm x y) (fun a => deg n a i)) ko e1 /\
  sup_dev n (fun i => mean_directed n (p_dbcm x y) (fun a => indeg n a i)) ki e2.
Proof.
  intros Hn. apply (inf_norm_blocks n); [exact Hn| |]; intros i Hi; (rewrite join2_l by exact Hi; rewrite join2_r).
  - split; [apply d_mean_out|apply d_mean_in]; exact Hi.
  - split; reflexivity.
Qed.
Lemma d_tool_problem g c o o' : In (c_model c) ["dcm"; "dcm_exp"; "decm"; "decm_exp"]%string -> d_solve_tool g c o = (o', None) ->
  exists o1, d_solve_problem g (c_full c) (c_model c) (c_method c) (c_guess c) (c_out c) o = (o1, None) /\ d_solution_error g o1 = (o', None).
Proof.
  intros Hm H. unfold d_solve_tool in H. apply andthen_inv in H. destruct H as (o1 & H1 & H). exists o1. split; [|exact H].
  destruct Hm as [E|[E|[E|[E|[]]]]]; rewrite <- E in H1 |- *; names_in H1; exact H1.
Qed.
Lemma d_error_dcm g c o o' : (0 < dn_n g)%nat -> d_paired g -> ds_bo o = None -> In (c_model c) ["dcm"; "dcm_exp"]%string ->
  d_solve_tool g c o = (o', None) ->
  exists v s cls m x y e1 e2, c_out c = Some v /\ ds_x o' = Some x /\ ds_y o' = Some y /\ ds_err o' = Some (Rmax e1 e2) /\
    s = (if String.eqb (c_model c) "dcm" then o_x v else exp_neg v) /\
    (forall i j, (i < dn_n g)%nat -> (j < dn_n g)%nat ->
       (cls i = cls j <-> nth i (dn_out g) O = nth j (dn_out g) O /\ nth i (dn_in g) O = nth j (dn_in g) O)) /\
    (forall i, (i < dn_n g)%nat -> (cls i < m)%nat /\ x i = s (cls i) /\ y i = s (cls i + m)%nat) /\
    sup_dev (dn_n g) (fun i => mean_directed (dn_n g) (p_dbcm x y) (fun a => deg (dn_n g) a i)) (at_list (dn_out g)) e1 /\
    sup_dev (dn_n g) (fun i => mean_directed (dn_n g) (p_dbcm x y) (fun a => indeg (dn_n g) a i)) (at_list (dn_in g)) e2.
Proof.
  intros Hn HL Hb Hm H. assert (Hm4 : In (c_model c) ["dcm"; "dcm_exp"; "decm"; "decm_exp"]%string) by (cbn in Hm |- *; tauto).
  destruct (d_tool_problem _ _ _ _ Hm4 H) as (o1 & HS & HE). clear H.
  apply d_solve_dcm in HS; [|exact Hm]. destruct HS as (d & v & _ & Hv & ->).
  set (s := dir_factor "dcm" (c_model c) v) in *. set (x := fun i => s (d_class g i)) in *. set (y := fun i => drop (d_classes_n g) s (d_class g i)) in *.
  match type of HE with d_solution_error _ ?st = _ => assert (E : d_solution_error g st = ok (d_error_degree g st)) end.
  { unfold d_solution_error. cbn [ds_last ds_set_xy ds_set_sol ds_set_pm ds_set_step ds_set_args ds_set_last].
    replace (among (c_model c) ["dcm_exp"; "dcm"; "crema"; "crema-sparse"]%string) with true
      by (destruct Hm as [E|[E|[]]]; rewrite <- E; reflexivity).
    unfold d_error_strength, d_error_degree. cbn [ds_x ds_y ds_bo ds_set_ek ds_set_xy ds_set_sol ds_set_pm ds_set_step ds_set_args ds_set_last]. rewrite Hb. reflexivity. }
  rewrite E in HE. injection HE as <-.
  destruct (d_degree_error (dn_n g) x y (at_list (dn_out g)) (at_list (dn_in g)) Hn) as (e1 & e2 & EE & S1 & S2).
  exists v, s, (d_class g), (d_classes_n g), x, y, e1, e2. split; [exact Hv|]. split; [reflexivity|]. split; [reflexivity|]. split.
  { unfold d_error_degree. cbn [ds_x ds_y ds_err ds_set_ek ds_set_xy ds_set_sol]. rewrite EE. reflexivity. }
  split; [reflexivity|]. split; [intros; apply d_class_iff; assumption|].
  split; [|split; assumption]. intros i Hi. destruct (d_classes g HL) as [[HC _] _]. split; [apply HC; exact Hi|]. split; reflexivity.
Qed.
Lemma join4_blocks n a b c d i : (i < n)%nat ->
  join4 n a b c d i = a i /\ join4 n a b c d (i + n)%nat = b i /\ join4 n a b c d (i + 2 * n)%nat = c i /\ join4 n a b c d (i + 3 * n)%nat = d i.
Proof.
  intros Hi. unfold join4.
  rewrite (join2_l (2 * n) _ _ i) by lia. rewrite (join2_l (2 * n) _ _ (i + n)) by lia. rewrite join2_r.
  replace (i + 3 * n)%nat with (i + n + 2 * n)%nat by lia. rewrite join2_r, !join2_r, !join2_l by exact Hi. repeat split.
Qed.
Lemma d_error_decm g c o o' : (0 < dn_n g)%nat -> In (c_model c) ["decm"; "decm_exp"]%string ->
  d_solve_tool g c o = (o', None) ->
  (forall x y bo bi, ds_x o' = Some x -> ds_y o' = Some y -> ds_bo o' = Some bo -> ds_bi o' = Some bi -> decm_dom (dn_n g) (join4 (dn_n g) x y bo bi)) ->
  exists v s x y bo bi e1 e2 e3 e4, c_out c = Some v /\ ds_x o' = Some x /\ ds_y o' = Some y /\ ds_bo o' = Some bo /\ ds_bi o' = Some bi /\
    ds_err o' = Some (Rmax (Rmax e1 e2) (Rmax e3 e4)) /\ ds_ek o' = Some (Rmax e1 e2) /\ ds_es o' = Some (Rmax e3 e4) /\
    s = (if String.eqb (c_model c) "decm" then o_x v else exp_neg v) /\
    (forall i, x i = s i /\ y i = s (i + dn_n g)%nat /\ bo i = s (i + 2 * dn_n g)%nat /\ bi i = s (i + 3 * dn_n g)%nat) /\
    sup_dev (dn_n g) (mean_out_deg (dn_n g) x y bo bi) (at_list (dn_out g)) e1 /\
    sup_dev (dn_n g) (mean_in_deg (dn_n g) x y bo bi) (at_list (dn_in g)) e2 /\
    sup_dev (dn_n g) (mean_out_str (dn_n g) x y bo bi) (dn_sout g) e3 /\
    sup_dev (dn_n g) (mean_in_str (dn_n g) x y bo bi) (dn_sin g) e4.
Proof.
  intros Hn Hm H HD. assert (Hm4 : In (c_model c) ["dcm"; "dcm_exp"; "decm"; "decm_exp"]%string) by (cbn in Hm |- *; tauto).
  destruct (d_tool_problem _ _ _ _ Hm4 H) as (o1 & HS & HE). clear H.
  apply d_solve_decm in HS; [|exact Hm]. destruct HS as (d & v & _ & Hv & X1 & X2 & X3 & X4 & _ & _ & _ & HL).
  set (s := dir_factor "decm" (c_model c) v) in *.
  destruct (d_error_frame _ _ _ _ HE) as (F1 & F2 & F3 & F4 & _). rewrite X1 in F1. rewrite X2 in F2. rewrite X3 in F3. rewrite X4 in F4.
  specialize (HD _ _ _ _ F1 F2 F3 F4).
  unfold d_solution_error in HE. rewrite HL in HE.
  replace (among (c_model c) ["dcm_exp"; "dcm"; "crema"; "crema-sparse"]%string) with false in HE
    by (destruct Hm as [E|[E|[]]]; rewrite <- E; reflexivity).
  replace (among (c_model c) ["decm"; "decm_exp"]%string) with true in HE by (destruct Hm as [E|[E|[]]]; rewrite <- E; reflexivity).
  rewrite X1, X2, X3, X4 in HE. cbv zeta in HE.
  set (N := dn_n g) in *. set (bo := drop (2 * N) s) in *. set (bi := drop (3 * N) s) in *. set (y := drop N s) in *.
  set (J := join4 N s y bo bi) in *.
  set (K := join4 N (at_list (dn_out g)) (at_list (dn_in g)) (dn_sout g) (dn_sin g)) in *.
  assert (BJ := fun i => join4_blocks N s y bo bi i). fold J in BJ.
  assert (BK := fun i => join4_blocks N (at_list (dn_out g)) (at_list (dn_in g)) (dn_sout g) (dn_sin g) i). fold K in BK.
  assert (B1 : exists e1 e2, inf_norm (N + N) (expected_decm N J) K = Rmax e1 e2 /\
     sup_dev N (mean_out_deg N s y bo bi) (at_list (dn_out g)) e1 /\ sup_dev N (mean_in_deg N s y bo bi) (at_list (dn_in g)) e2).
  { apply inf_norm_blocks; [exact Hn| |]; intros i Hi.
    - rewrite (expected_decm_0 N J HD i Hi), (expected_decm_1 N J HD i Hi). unfold mean_out_deg, mean_in_deg, link_mean, PP, zz, yy.
      split; apply rsum_ext; intros j Hj; destruct (BJ i Hi) as (I1 & I2 & I3 & I4); destruct (BJ j Hj) as (J1 & J2 & J3 & J4); rewrite ?I1, ?I2, ?I3, ?I4, ?J1, ?J2, ?J3, ?J4; reflexivity.
    - destruct (BK i Hi) as (K1 & K2 & _ & _). split; assumption. }
  assert (B2 : exists e3 e4, inf_norm (N + N) (drop (2 * N) (expected_decm N J)) (drop (2 * N) K) = Rmax e3 e4 /\
     sup_dev N (mean_out_str N s y bo bi) (dn_sout g) e3 /\ sup_dev N (mean_in_str N s y bo bi) (dn_sin g) e4).
  { apply inf_norm_blocks; [exact Hn| |]; intros i Hi; unfold drop; replace (i + N + 2 * N)%nat with (i + 3 * N)%nat by lia.
    - rewrite (expected_decm_2 N J HD i Hi), (expected_decm_3 N J HD i Hi). unfold mean_out_str, mean_in_str, weight_mean, MM, zz, yy.
      split; apply rsum_ext; intros j Hj; destruct (BJ i Hi) as (I1 & I2 & I3 & I4); destruct (BJ j Hj) as (J1 & J2 & J3 & J4); rewrite ?I1, ?I2, ?I3, ?I4, ?J1, ?J2, ?J3, ?J4; reflexivity.
    - destruct (BK i Hi) as (_ & _ & K3 & K4). split; assumption. }
  destruct B1 as (e1 & e2 & E12 & S1 & S2). destruct B2 as (e3 & e4 & E34 & S3 & S4).
  replace (2 * N)%nat with (N + N)%nat in HE by lia. replace (2 * N)%nat with (N + N)%nat in E34 by lia.
  replace (4 * N)%nat with ((N + N) + (N + N))%nat in HE by lia. rewrite (inf_norm_split (N + N) (N + N)) in HE. rewrite E12, E34 in HE.
  injection HE as <-.
  exists v, s, s, y, bo, bi, e1, e2, e3, e4. split; [exact Hv|]. do 4 (split; [assumption|]).
  do 4 (split; [reflexivity|]). split; [|repeat split; first [apply S1|apply S2|apply S3|apply S4]].
  intros i. repeat split.
Qed.

(** * CReMa *)
Lemma d_init_sparse g m method guess o : ds_sparse (fst (d_initialize g m method guess o)) = ds_sparse o.
Proof.
  unfold d_initialize, d_set_guess, d_set_args. destruct guess as [v|]; [|reflexivity].
  destruct (among m ["decm"; "decm_exp"]%string) eqn:E1, (among m ["crema"; "crema-sparse"]%string) eqn:E2, (among m ["dcm"; "dcm_exp"]%string) eqn:E3;
    cbn; try (destruct (ds_adj o); cbn); destruct (d_dispatch m method None) as [d|[|]]; reflexivity.
Qed.
Lemma d_solved_sparse g full v o : ds_sparse (d_set_solved g full v o) = ds_sparse o.
Proof.
  unfold d_set_solved. destruct (ds_last o) as [m|]; [|reflexivity].
  repeat match goal with |- context [if ?b then _ else _] => destruct b end; reflexivity.
Qed.
Lemma d_solve_sparse g full m method guess out o o' r : d_solve_problem g full m method guess out o = (o', r) -> ds_sparse o' = ds_sparse o.
Proof.
  unfold d_solve_problem, andthen. pose proof (d_init_sparse g m method guess (ds_set_last (Some m) o)) as H.
  destruct (d_initialize g m method guess (ds_set_last (Some m) o)) as [o1 [e|]]; cbn in *; intros E.
  - injection E as <- _. exact H.
  - unfold d_run_solver in E. destruct out as [v|]; injection E as <- _; [rewrite d_solved_sparse|]; exact H.
Qed.
Lemma d_crema_inv g c o o' : In (c_model c) ["crema"; "crema-sparse"]%string ->
  d_solve_crema g c o = (o', None) ->
  exists o1 d v v0 adj, d_set_adjacency g c o = (o1, None) /\ d_dispatch (c_model c) (c_method c) None = inl d /\ c_out c = Some v /\
    ds_adj o1 = Some adj /\
    o' = d_set_solved_crema g (c_full c) v (ds_set_step (Some (d_step d)) (ds_set_args (Some (d_args_crema g adj))
           (ds_set_b (Some v0) (Some (drop (dn_n g) v0)) (ds_set_last (Some (c_model c)) o1)))).
Proof.
  intros Hm H. unfold d_solve_crema in H. apply andthen_inv in H. destruct H as (o1 & H1 & H).
  assert (EM : (if ds_sparse o1 then "crema-sparse"%string else c_model c) = c_model c).
  { destruct (ds_sparse o1) eqn:ES; [|reflexivity]. destruct Hm as [E|[E|[]]]; [|symmetry in E |- *; exact E]. exfalso.
    unfold d_set_adjacency in H1. rewrite <- E in H1. names_in H1. destruct (c_adjacency c) as [a|a|].
    - apply andthen_inv in H1. destruct H1 as (o2 & H2 & H1). destruct (ds_x o2); [|discriminate]. destruct (ds_y o2); [|discriminate].
      rewrite (d_solve_sparse _ _ _ _ _ _ _ _ _ H2) in H1. cbn in H1. destruct (ds_pm o2); [|discriminate]. injection H1 as <-. discriminate.
    - injection H1 as <-. discriminate.
    - discriminate. }
  rewrite EM in H. apply andthen_inv in H. destruct H as (o2 & H2 & H).
  apply d_init_crema in H2; [|exact Hm]. destruct H2 as (d & v0 & adj & Hd & Ha & ->).
  destruct (c_out c) as [v|] eqn:Hv; [|discriminate]. injection H as <-. exists o1, d, v, v0, adj. repeat split; assumption.
Qed.
Lemma d_tool_crema g c o o' : In (c_model c) ["crema"; "crema-sparse"]%string ->
  d_solve_tool g c o = (o', None) -> exists o1, d_solve_crema g c o = (o1, None) /\ d_solution_error g o1 = (o', None).
Proof.
  intros Hm H. unfold d_solve_tool in H. apply andthen_inv in H. destruct H as (o1 & H1 & H). exists o1. split; [|exact H].
  destruct Hm as [E|[E|[]]]; rewrite <- E in H1; names_in H1; exact H1.
Qed.
Lemma d_adj_matrix g c o a o1 : c_adjacency c = AdjMatrix a -> d_set_adjacency g c o = (o1, None) ->
  ds_adj o1 = Some (Triples (all_edges (dn_n g) a)) /\ ds_given o1 = Some true /\ ds_sparse o1 = false.
Proof. intros Ha H. unfold d_set_adjacency in H. rewrite Ha in H. injection H as <-. repeat split. Qed.
Definition d_pm (g : dnet) (x y : nat -> R) : nat -> nat -> R :=
  pmatrix_dcm (dn_n g) (np_nonzero (dn_out g)) (np_nonzero (dn_in g)) (join2 (dn_n g) x y).
Lemma d_adj_name g c o a o1 : c_adjacency c = AdjName a -> In a ["dcm"; "dcm_exp"]%string -> d_set_adjacency g c o = (o1, None) ->
  exists v, c_out_adjacency c = Some v /\ let s := dir_factor "dcm" a v in let x := fun i => s (d_class g i) in
    let y := fun i => drop (d_classes_n g) s (d_class g i) in ds_x o1 = Some x /\ ds_y o1 = Some y /\ ds_given o1 = Some false /\
    ds_sparse o1 = String.eqb (c_model c) "crema-sparse" /\
    ds_adj o1 = Some (if String.eqb (c_model c) "crema-sparse" then Factors2 x y else Triples (all_edges (dn_n g) (d_pm g x y))).
Proof.
  intros Ha Hn H. unfold d_set_adjacency in H. rewrite Ha in H. apply andthen_inv in H. destruct H as (o2 & H2 & H).
  apply d_solve_dcm in H2; [|exact Hn]. destruct H2 as (d & v & _ & Hv & ->). exists v. split; [exact Hv|]. cbv zeta.
  cbn [ds_x ds_y ds_sparse ds_pm ds_set_xy ds_set_sol ds_set_pm ds_set_step ds_set_args ds_set_last ds_set_sparse] in H.
  destruct (String.eqb (c_model c) "crema-sparse"); injection H as <-; repeat split.
Qed.
Lemma d_pm_prob g x y i j : d_paired g -> supported (dn_n g) (at_list (dn_out g)) x -> supported (dn_n g) (at_list (dn_in g)) y ->
  (i < dn_n g)%nat -> (j < dn_n g)%nat -> d_pm g x y i j = dcm_prob x y i j.
Proof.
  intros HL Hx Hy Hi Hj. unfold d_pm.
  destruct (nonzero_is_nonzero_list (dn_out g)) as [_ No]. destruct (nonzero_is_nonzero_list (dn_in g)) as [_ Ni]. rewrite HL in Ni.
  fold (dn_n g) in No, Ni.
  rewrite pmatrix_dcm_prob; [| |exact Hi|exact Hj].
  - unfold dcm_prob. rewrite join2_r, join2_l by exact Hi. reflexivity.
  - split; [split|split].
    + intros k Hk. apply No in Hk. destruct Hk as [Hk Z]. rewrite join2_l by exact Hk. apply (Hx k Hk). exact Z.
    + intros k Hk. apply Ni in Hk. destruct Hk as [Hk Z]. rewrite join2_r. apply (Hy k Hk). exact Z.
    + intros k Hk Z. rewrite join2_l by exact Hk. apply (Hx k Hk). destruct (Req_dec (at_list (dn_out g) k) 0) as [E|E]; [exact E|].
      exfalso. apply Z, No. split; assumption.
    + intros k Hk Z. rewrite join2_r. apply (Hy k Hk). destruct (Req_dec (at_list (dn_in g) k) 0) as [E|E]; [exact E|].
      exfalso. apply Z, Ni. split; assumption.
Qed.
Lemma all_edges_ext n p q : (forall i j, (i < n)%nat -> (j < n)%nat -> p i j = q i j) -> all_edges n p = all_edges n q.
Proof.
  intros H. unfold all_edges. rewrite !flat_map_concat_map. f_equal. apply map_ext_in. intros i Hi. apply in_seq in Hi.
  unfold row_edges. rewrite !flat_map_concat_map. f_equal. apply map_ext_in. intros j Hj. apply in_seq in Hj.
  rewrite H by lia. reflexivity.
Qed.
Lemma d_strength_error n ex eo ei so si p b : (0 < n)%nat -> ex = join2 n eo ei ->
  (forall i, (i < n)%nat -> eo i = crema_mean_out n p b (drop n b) i /\ ei i = crema_mean_in n p b (drop n b) i) ->
  exists e1 e2, inf_norm (n + n) ex (join2 n so si) = Rmax e1 e2 /\
    sup_dev n (crema_mean_out n p b (drop n b)) so e1 /\ sup_dev n (crema_mean_in n p b (drop n b)) si e2.
Proof.
  intros Hn -> H. apply inf_norm_blocks; [exact Hn| |]; intros i Hi; (rewrite join2_l by exact Hi; rewrite join2_r).
  - apply H. exact Hi.
  - split; reflexivity.
Qed.
Definition d_expected (g : dnet) (sparse : bool) (adj : adjacency_crema) (sol : nat -> R) : option (nat -> R) :=
  let n := dn_n g in
  if sparse then
    obind (adj1 adj) (fun y =>
    obind (expected_out_strength_crema_directed_sparse n (adj0 adj) y sol) (fun eo =>
    obind (expected_in_stregth_crema_directed_sparse n (adj0 adj) y sol) (fun ei => Some (join2 n eo ei))))
  else
    obind (adj_edges adj) (fun es =>
    obind (expected_out_strength_crema_directed n es sol) (fun eo =>
    obind (expected_in_strength_crema_directed n es sol) (fun ei => Some (join2 n eo ei)))).
Lemma d_error_run g o m bo bi adj given E o' : ds_last o = Some m -> among m ["dcm_exp"; "dcm"; "crema"; "crema-sparse"]%string = true ->
  ds_bo o = Some bo -> ds_bi o = Some bi -> ds_adj o = Some adj -> ds_given o = Some given ->
  d_expected g (ds_sparse o) adj (join2 (dn_n g) bo bi) = Some E ->
  d_solution_error g o = (o', None) ->
  (given = true -> ds_err o' = Some (inf_norm (dn_n g + dn_n g) E (join2 (dn_n g) (dn_sout g) (dn_sin g)))) /\
  (forall x y, given = false -> ds_x o = Some x -> ds_y o = Some y ->
     ds_err o' = Some (Rmax (inf_norm (dn_n g + dn_n g) E (join2 (dn_n g) (dn_sout g) (dn_sin g)))
       (inf_norm (dn_n g + dn_n g) (join2 (dn_n g) (expected_out_degree_dcm (dn_n g) (join2 (dn_n g) x y)) (expected_in_degree_dcm (dn_n g) (join2 (dn_n g) x y)))
          (join2 (dn_n g) (at_list (dn_out g)) (at_list (dn_in g)))))).
Proof.
  intros HL HA HB HB' HJ HG HE H. unfold d_solution_error in H. rewrite HL, HA in H.
  assert (K : ds_bo (d_error_degree g o) = Some bo /\ ds_bi (d_error_degree g o) = Some bi /\ ds_adj (d_error_degree g o) = Some adj /\
    ds_given (d_error_degree g o) = Some given /\ ds_sparse (d_error_degree g o) = ds_sparse o).
  { unfold d_error_degree. destruct (ds_x o), (ds_y o); cbn [ds_bo ds_bi ds_adj ds_given ds_sparse ds_set_ek]; repeat split; assumption. }
  destruct K as (K1 & K1' & K2 & K3 & K4). unfold d_error_strength in H. rewrite K1, K1', K2, K4 in H. cbv zeta in H.
  unfold d_expected in HE. cbv zeta in HE. rewrite HE in H.
  cbn [ds_given ds_set_es ds_ek] in H. rewrite K3 in H. split.
  - intros ->. injection H as <-. reflexivity.
  - intros x y -> Hx Hy. unfold d_error_degree in H. rewrite Hx, Hy in H. cbn [ds_ek ds_set_ek] in H. injection H as <-. reflexivity.
Qed.
Lemma join2_whole n v : join2 n v (drop n v) = v.
Proof. apply FunctionalExtensionality.functional_extensionality. intros r. apply join2_drop. Qed.
Lemma d_error_crema_matrix g c o o' a : (0 < dn_n g)%nat -> In (c_model c) ["crema"; "crema-sparse"]%string ->
  c_adjacency c = AdjMatrix a -> d_solve_tool g c o = (o', None) ->
  (forall bo bi, ds_bo o' = Some bo -> ds_bi o' = Some bi -> positive_rates_dir (dn_n g) a bo bi) ->
  exists v bo bi e1 e2, c_out c = Some v /\ ds_bo o' = Some bo /\ ds_bi o' = Some bi /\ ds_err o' = Some (Rmax e1 e2) /\
    (forall i, bo i = o_x v i /\ bi i = o_x v (i + dn_n g)%nat) /\
    sup_dev (dn_n g) (crema_mean_out (dn_n g) a bo bi) (dn_sout g) e1 /\ sup_dev (dn_n g) (crema_mean_in (dn_n g) a bo bi) (dn_sin g) e2.
Proof.
  intros Hn Hm Ha H HP. destruct (d_tool_crema _ _ _ _ Hm H) as (o1 & H1 & H2).
  apply d_crema_inv in H1; [|exact Hm]. destruct H1 as (o2 & d & v & v0 & adj & HA & _ & Hv & HJ & ->).
  destruct (d_adj_matrix _ _ _ _ _ Ha HA) as (J1 & J2 & J3). rewrite J1 in HJ. injection HJ as <-.
  destruct (d_error_frame _ _ _ _ H2) as (_ & _ & FB & FB' & _). cbn in FB, FB'. specialize (HP _ _ FB FB').
  destruct (expected_all _ _ _ HP) as (EO & EI & E1 & E2 & E3).
  destruct (d_strength_error (dn_n g) _ EO EI (dn_sout g) (dn_sin g) a (o_x v) Hn eq_refl E3) as (e1 & e2 & EE & S1 & S2).
  exists v, (o_x v), (drop (dn_n g) (o_x v)), e1, e2. do 3 (split; [assumption|]).
  split; [|split; [intros i; split; reflexivity|split; assumption]]. rewrite <- EE.
  match type of H2 with d_solution_error _ ?st = _ => refine (proj1 (d_error_run g st (c_model c) (o_x v) (drop (dn_n g) (o_x v)) (Triples (all_edges (dn_n g) a)) true (join2 (dn_n g) EO EI) o' _ _ _ _ J1 J2 _ H2) eq_refl) end;
    [reflexivity| |reflexivity|reflexivity|].
  - destruct Hm as [M|[M|[]]]; rewrite <- M; reflexivity.
  - cbn [ds_sparse d_set_solved_crema ds_set_sol ds_set_b ds_set_step ds_set_args ds_set_last]. rewrite J3, join2_whole.
    unfold d_expected. cbn [adj_edges obind]. rewrite E1. cbn [obind]. rewrite E2. reflexivity.
Qed.
Lemma positive_rates_ext n p q bo bi : (forall i j, (i < n)%nat -> (j < n)%nat -> p i j = q i j) -> positive_rates_dir n p bo bi -> positive_rates_dir n q bo bi.
Proof. intros H HP i j Hi Hj. rewrite <- H by assumption. apply HP; assumption. Qed.
Lemma supported_nonneg n k x : supported n k x -> forall i, (i < n)%nat -> 0 <= x i.
Proof.
  intros H i Hi. destruct (Req_dec (k i) 0) as [E|E]; destruct (H i Hi) as [H1 H2]; [rewrite H2 by exact E; lra|specialize (H1 E); lra].
Qed.
Lemma d_error_crema_name g c o o' a : (0 < dn_n g)%nat -> d_paired g -> In (c_model c) ["crema"; "crema-sparse"]%string ->
  c_adjacency c = AdjName a -> In a ["dcm"; "dcm_exp"]%string -> d_solve_tool g c o = (o', None) ->
  (forall x y bo bi, ds_x o' = Some x -> ds_y o' = Some y -> ds_bo o' = Some bo -> ds_bi o' = Some bi ->
     supported (dn_n g) (at_list (dn_out g)) x /\ supported (dn_n g) (at_list (dn_in g)) y /\ positive_rates_dir (dn_n g) (dcm_prob x y) bo bi) ->
  exists va v s cls m x y bo bi e1 e2 e3 e4, c_out_adjacency c = Some va /\ c_out c = Some v /\ ds_x o' = Some x /\ ds_y o' = Some y /\
    ds_bo o' = Some bo /\ ds_bi o' = Some bi /\ ds_err o' = Some (Rmax (Rmax e3 e4) (Rmax e1 e2)) /\
    s = (if String.eqb a "dcm" then o_x va else exp_neg va) /\
    (forall i j, (i < dn_n g)%nat -> (j < dn_n g)%nat ->
       (cls i = cls j <-> nth i (dn_out g) O = nth j (dn_out g) O /\ nth i (dn_in g) O = nth j (dn_in g) O)) /\
    (forall i, (i < dn_n g)%nat -> (cls i < m)%nat /\ x i = s (cls i) /\ y i = s (cls i + m)%nat) /\
    (forall i, bo i = o_x v i /\ bi i = o_x v (i + dn_n g)%nat) /\
    sup_dev (dn_n g) (fun i => mean_directed (dn_n g) (p_dbcm x y) (fun a => deg (dn_n g) a i)) (at_list (dn_out g)) e1 /\
    sup_dev (dn_n g) (fun i => mean_directed (dn_n g) (p_dbcm x y) (fun a => indeg (dn_n g) a i)) (at_list (dn_in g)) e2 /\
    sup_dev (dn_n g) (crema_mean_out (dn_n g) (dcm_prob x y) bo bi) (dn_sout g) e3 /\
    sup_dev (dn_n g) (crema_mean_in (dn_n g) (dcm_prob x y) bo bi) (dn_sin g) e4.
Proof.
  intros Hn HL Hm Ha Hna H HP. destruct (d_tool_crema _ _ _ _ Hm H) as (o1 & H1 & H2).
  apply d_crema_inv in H1; [|exact Hm]. destruct H1 as (o2 & d & v & v0 & adj & HA & _ & Hv & HJ & ->).
  destruct (d_adj_name _ _ _ _ _ Ha Hna HA) as (va & Hva & J1 & J1' & J2 & J3 & J4). set (s := dir_factor "dcm" a va) in *.
  set (x := fun i => s (d_class g i)) in *. set (y := fun i => drop (d_classes_n g) s (d_class g i)) in *.
  destruct (d_error_frame _ _ _ _ H2) as (FX & FY & FB & FB' & _). cbn in FB, FB', FX, FY. rewrite J1 in FX. rewrite J1' in FY.
  destruct (HP _ _ _ _ FX FY FB FB') as (HX & HY & HR).
  assert (HM : among (c_model c) ["dcm_exp"; "dcm"; "crema"; "crema-sparse"]%string = true) by (destruct Hm as [M|[M|[]]]; rewrite <- M; reflexivity).
  destruct (d_degree_error (dn_n g) x y (at_list (dn_out g)) (at_list (dn_in g)) Hn) as (e1 & e2 & EK & S1 & S2).
  assert (EE : exists EO EI, d_expected g (String.eqb (c_model c) "crema-sparse") adj (o_x v) = Some (join2 (dn_n g) EO EI) /\
     forall i, (i < dn_n g)%nat -> EO i = crema_mean_out (dn_n g) (dcm_prob x y) (o_x v) (drop (dn_n g) (o_x v)) i /\
                                   EI i = crema_mean_in (dn_n g) (dcm_prob x y) (o_x v) (drop (dn_n g) (o_x v)) i).
  { rewrite HJ in J4. injection J4 as ->. destruct (String.eqb (c_model c) "crema-sparse").
    - destruct (expected_dir_sparse (dn_n g) x y (o_x v) (supported_nonneg _ _ _ HX) (supported_nonneg _ _ _ HY) HR) as (EO & EI & E1 & E2 & E3).
      exists EO, EI. split; [|exact E3]. unfold d_expected. cbn [adj1 adj0 obind]. rewrite E1. cbn [obind]. rewrite E2. reflexivity.
    - destruct (expected_all (dn_n g) (dcm_prob x y) (o_x v) HR) as (EO & EI & E1 & E2 & E3).
      exists EO, EI. split; [|exact E3]. unfold d_expected. cbn [adj_edges obind].
      rewrite (all_edges_ext (dn_n g) (d_pm g x y) (dcm_prob x y)) by (intros; apply d_pm_prob; assumption).
      rewrite E1. cbn [obind]. rewrite E2. reflexivity. }
  destruct EE as (EO & EI & EX & E3).
  destruct (d_strength_error (dn_n g) _ EO EI (dn_sout g) (dn_sin g) _ (o_x v) Hn eq_refl E3) as (e3 & e4 & ES & S3 & S4).
  exists va, v, s, (d_class g), (d_classes_n g), x, y, (o_x v), (drop (dn_n g) (o_x v)), e1, e2, e3, e4.
  do 6 (split; [assumption|]). split.
  { rewrite <- ES, <- EK.
    match type of H2 with d_solution_error _ ?st = _ => refine (proj2 (d_error_run g st (c_model c) (o_x v) (drop (dn_n g) (o_x v)) adj false (join2 (dn_n g) EO EI) o' _ HM _ _ HJ J2 _ H2) x y eq_refl J1 J1') end;
      [reflexivity|reflexivity|reflexivity|].
    cbn [ds_sparse d_set_solved_crema ds_set_sol ds_set_b ds_set_step ds_set_args ds_set_last]. rewrite J3, join2_whole. exact EX. }
  split; [reflexivity|]. split; [intros; apply d_class_iff; assumption|]. split.
  { intros i Hi. destruct (d_classes g HL) as [[HC _] _]. split; [apply HC; exact Hi|]. split; reflexivity. }
  split; [intros i; split; reflexivity|]. repeat (split; [assumption|]). exact S4.
Qed.

(** * Histories without CReMa or DECM *)
Lemma among_false m l : ~ In m l -> among m l = false.
Proof.
  intros Hm. apply not_true_iff_false. intros E. apply Hm. unfold among in E. apply existsb_exists in E. destruct E as (s & Hs & E).
  apply String.eqb_eq in E. subst. exact Hs.
Qed.
Lemma d_init_b g m method guess o : ~ In m ["crema"; "crema-sparse"; "decm"; "decm_exp"]%string -> ds_bo (fst (d_initialize g m method guess o)) = ds_bo o.
Proof.
  intros Hm. assert (E1 : among m ["crema"; "crema-sparse"]%string = false) by (apply among_false; cbn in *; tauto).
  assert (E2 : among m ["decm"; "decm_exp"]%string = false) by (apply among_false; cbn in *; tauto).
  unfold d_initialize, d_set_guess, d_set_args. rewrite E1, E2. destruct guess as [v|]; [|reflexivity].
  destruct (among m ["dcm"; "dcm_exp"]%string); cbn; destruct (d_dispatch m method None) as [d|[|]]; reflexivity.
Qed.
Lemma d_init_last g m method guess o : ds_last (fst (d_initialize g m method guess o)) = ds_last o.
Proof.
  unfold d_initialize, d_set_guess, d_set_args. destruct guess as [v|]; [|reflexivity].
  destruct (among m ["decm"; "decm_exp"]%string) eqn:E1, (among m ["crema"; "crema-sparse"]%string) eqn:E2, (among m ["dcm"; "dcm_exp"]%string) eqn:E3;
    cbn; try (destruct (ds_adj o); cbn); destruct (d_dispatch m method None) as [d|[|]]; reflexivity.
Qed.
Lemma d_history_b g h sparse : (forall c, In c h -> ~ In (c_model c) ["crema"; "crema-sparse"; "decm"; "decm_exp"]%string) ->
  ds_bo (d_history g h (d_fresh sparse)) = None.
Proof.
  intros Hh. assert (G : forall o, ds_bo o = None -> ds_bo (d_history g h o) = None); [|apply G; reflexivity].
  induction h as [|c h IH]; intros o Ho; [exact Ho|]. cbn [d_history]. apply IH; [intros c' Hc; apply Hh; right; exact Hc|].
  specialize (Hh c (or_introl eq_refl)). clear IH.
  assert (E2 : among (c_model c) ["crema"; "crema-sparse"]%string = false) by (apply among_false; cbn in *; tauto).
  unfold d_solve_tool. rewrite E2.
  assert (GE : forall o2, ds_bo o2 = None -> ds_bo (fst (d_solution_error g o2)) = None).
  { intros o2 H2. destruct (d_solution_error g o2) as [o3 r] eqn:E. apply d_error_frame in E. destruct E as (_ & _ & E & _). cbn. congruence. }
  destruct (among (c_model c) ["dcm"; "dcm_exp"; "decm"; "decm_exp"]%string) eqn:E1; [|apply GE; exact Ho].
  assert (GS : ds_bo (fst (d_solve_problem g (c_full c) (c_model c) (c_method c) (c_guess c) (c_out c) o)) = None).
  { unfold d_solve_problem, andthen. pose proof (d_init_b g (c_model c) (c_method c) (c_guess c) (ds_set_last (Some (c_model c)) o) Hh) as HB.
    pose proof (d_init_last g (c_model c) (c_method c) (c_guess c) (ds_set_last (Some (c_model c)) o)) as HL.
    destruct (d_initialize g (c_model c) (c_method c) (c_guess c) (ds_set_last (Some (c_model c)) o)) as [o1 [e|]]; cbn in *; [congruence|].
    unfold d_run_solver. destruct (c_out c) as [v|]; cbn; [|congruence]. unfold d_set_solved. rewrite HL.
    rewrite (among_false (c_model c) ["crema"; "crema-sparse"]%string) by (cbn in *; tauto).
    destruct (String.eqb_spec (c_model c) "decm") as [M|_]; [exfalso; apply Hh; rewrite M; tauto|].
    destruct (String.eqb_spec (c_model c) "decm_exp") as [M|_]; [exfalso; apply Hh; rewrite M; tauto|].
    repeat match goal with |- context [if ?b then _ else _] => destruct b end; cbn; congruence. }
  unfold andthen. destruct (d_solve_problem g (c_full c) (c_model c) (c_method c) (c_guess c) (c_out c) o) as [o1 [e|]]; cbn in *; [exact GS|].
  apply GE. exact GS.
Qed.

(** * [model_loglikelihood] *)
#[local] Transparent d_dispatch lookup.
Definition dll_name (m : string) : string :=
  (if String.eqb m "crema" then "loglikelihood_crema_directed"
   else if String.eqb m "crema-sparse" then "loglikelihood_crema_directed_sparse" else "loglikelihood_" ++ m)%string.
Lemma d_step_name m method d : In m directed_models -> In method documented_methods -> d_dispatch m method None = inl d ->
  d_step d = Neg (dll_name m).
Proof.
  intros Hm Hn. cbn in Hm, Hn.
  destruct Hm as [<-|[<-|[<-|[<-|[<-|[<-|[]]]]]]]; destruct Hn as [<-|[<-|[<-|[]]]]; intros E; injection E as <-; reflexivity.
Qed.
Lemma d_dispatch_documented m method : In m ["dcm"; "dcm_exp"; "decm"; "decm_exp"]%string -> In method documented_methods ->
  exists d, d_dispatch m method None = inl d.
Proof.
  intros Hm Hn. cbn in Hm, Hn.
  destruct Hm as [<-|[<-|[<-|[<-|[]]]]]; destruct Hn as [<-|[<-|[<-|[]]]]; eexists; reflexivity.
Qed.
#[local] Opaque d_dispatch.
Lemma d_after_dcm g c o o' : In (c_model c) ["dcm"; "dcm_exp"]%string -> In (c_method c) documented_methods ->
  d_solve_tool g c o = (o', None) ->
  exists v, let s := dir_factor "dcm" (c_model c) v in c_out c = Some v /\ ds_x o' = Some (fun i => s (d_class g i)) /\
    ds_y o' = Some (fun i => s (d_class g i + d_classes_n g)%nat) /\
    d_model_loglikelihood o' = run_entry (Neg (dll_name (c_model c))) (d_args_dcm g) s.
Proof.
  intros Hm Hd H. assert (Hm4 : In (c_model c) ["dcm"; "dcm_exp"; "decm"; "decm_exp"]%string) by (cbn in Hm |- *; tauto).
  destruct (d_tool_problem _ _ _ _ Hm4 H) as (o1 & HS & HE). clear H.
  apply d_solve_dcm in HS; [|exact Hm]. destruct HS as (d & v & D & Hv & ->).
  apply d_error_frame in HE. destruct HE as (F1 & F0 & _ & _ & F2 & F3 & F4 & _). cbn in F1, F0, F2, F3, F4.
  exists v. split; [exact Hv|]. split; [exact F1|]. split; [exact F0|]. unfold d_model_loglikelihood. rewrite F2, F3, F4.
  assert (HU : In (c_model c) directed_models) by (destruct Hm as [E|[E|[]]]; rewrite <- E; cbn; tauto).
  rewrite (d_step_name _ _ _ HU Hd D). reflexivity.
Qed.
Lemma d_full_classes g s : d_paired g ->
  supported (dn_n g) (at_list (dn_out g)) (fun i => s (d_class g i)) ->
  supported (dn_n g) (at_list (dn_in g)) (fun i => s (d_class g i + d_classes_n g)%nat) ->
  dcm_full (d_classes_n g) (nz_index_out (d_red g)) (nz_index_in (d_red g)) s.
Proof.
  intros HL H1 H2. destruct (d_classes g HL) as (_ & [_ No] & [_ Ni]). split; [split|split].
  - intros q Hq. apply No in Hq. destruct Hq as [Hq Z]. destruct (d_class_rep g q HL Hq) as (i & Hi & <-).
    rewrite (proj1 (d_class_degrees g i HL Hi)) in Z. apply (H1 i Hi). exact Z.
  - intros q Hq. apply Ni in Hq. destruct Hq as [Hq Z]. destruct (d_class_rep g q HL Hq) as (i & Hi & <-).
    rewrite (proj2 (d_class_degrees g i HL Hi)) in Z. apply (H2 i Hi). exact Z.
  - intros q Hq Z. destruct (d_class_rep g q HL Hq) as (i & Hi & <-). apply (H1 i Hi).
    destruct (Req_dec (at_list (dn_out g) i) 0) as [E|E]; [exact E|]. exfalso. apply Z, No. split; [exact Hq|].
    rewrite (proj1 (d_class_degrees g i HL Hi)). exact E.
  - intros q Hq Z. destruct (d_class_rep g q HL Hq) as (i & Hi & <-). apply (H2 i Hi).
    destruct (Req_dec (at_list (dn_in g) i) 0) as [E|E]; [exact E|]. exfalso. apply Z, Ni. split; [exact Hq|].
    rewrite (proj2 (d_class_degrees g i HL Hi)). exact E.
Qed.
Lemma d_ll_dcm g c o o' a : d_paired g -> c_model c = "dcm"%string -> In (c_method c) documented_methods ->
  d_solve_tool g c o = (o', None) ->
  (forall x y, ds_x o' = Some x -> ds_y o' = Some y -> supported (dn_n g) (at_list (dn_out g)) x /\ supported (dn_n g) (at_list (dn_in g)) y) ->
  loopless (dn_n g) a -> (forall i, (i < dn_n g)%nat -> at_list (dn_out g) i = deg (dn_n g) a i) ->
  (forall i, (i < dn_n g)%nat -> at_list (dn_in g) i = indeg (dn_n g) a i) ->
  exists x y, ds_x o' = Some x /\ ds_y o' = Some y /\
    scalar (d_model_loglikelihood o') = Some (- ln (prob_directed (dn_n g) (p_dbcm x y) a)).
Proof.
  intros HL Hm Hd H HP Hg Ho Hi. assert (Hm2 : In (c_model c) ["dcm"; "dcm_exp"]%string) by (rewrite Hm; cbn; tauto).
  destruct (d_after_dcm _ _ _ _ Hm2 Hd H) as (v & Hv & HX & HY & HLL). rewrite HLL.
  destruct (HP _ _ HX HY) as [S1 S2]. eexists _, _. split; [exact HX|]. split; [exact HY|].
  set (s := dir_factor "dcm" (c_model c) v) in *. rewrite Hm.
  transitivity (scalar (num (- loglikelihood_dcm (d_classes_n g) (at_list (rnz_dseq_out (d_red g))) (at_list (rnz_dseq_in (d_red g))) (nz_index_out (d_red g)) (nz_index_in (d_red g))
      (at_list (r_multiplicity (d_red g))) s))); [exact (f_equal scalar (neg_entry _ _ _ _ (e_ll_dcm _ _ _ _ _ _ _ (proj1 (d_full_classes g s HL S1 S2)))))|].
  destruct (d_classes g HL) as (HC & No & Ni).
  rewrite (loglik_dcm_logprob (dn_n g) (d_classes_n g) (d_class g) _ _ _ _ _ s a Hg HC No Ni (d_full_classes g s HL S1 S2)); [reflexivity| |].
  - intros i Hi'. rewrite (proj1 (d_class_degrees g i HL Hi')). apply Ho. exact Hi'.
  - intros i Hi'. rewrite (proj2 (d_class_degrees g i HL Hi')). apply Hi. exact Hi'.
Qed.
(** The exponential form is evaluated at the exponentials: the value belongs to the factors
    [exp (- x_i)], [x_i] the solution. *)
Lemma d_ll_dcm_exp g c o o' a : d_paired g -> c_model c = "dcm_exp"%string -> In (c_method c) documented_methods ->
  d_solve_tool g c o = (o', None) -> (forall i, (i < dn_n g)%nat -> at_list (dn_out g) i <> 0 /\ at_list (dn_in g) i <> 0) ->
  loopless (dn_n g) a -> (forall i, (i < dn_n g)%nat -> at_list (dn_out g) i = deg (dn_n g) a i) ->
  (forall i, (i < dn_n g)%nat -> at_list (dn_in g) i = indeg (dn_n g) a i) ->
  exists x y, ds_x o' = Some x /\ ds_y o' = Some y /\
    scalar (d_model_loglikelihood o') = Some (- ln (prob_directed (dn_n g) (p_dbcm (fun i => exp (- x i)) (fun i => exp (- y i))) a)).
Proof.
  intros HL Hm Hd H HZ Hg Ho Hi. assert (Hm2 : In (c_model c) ["dcm"; "dcm_exp"]%string) by (rewrite Hm; cbn; tauto).
  destruct (d_after_dcm _ _ _ _ Hm2 Hd H) as (v & Hv & HX & HY & HLL). rewrite HLL.
  eexists _, _. split; [exact HX|]. split; [exact HY|].
  set (s := dir_factor "dcm" (c_model c) v) in *. rewrite Hm.
  change (scalar (num (- loglikelihood_dcm_exp (d_classes_n g) (at_list (rnz_dseq_out (d_red g))) (at_list (rnz_dseq_in (d_red g))) (nz_index_out (d_red g)) (nz_index_in (d_red g))
      (at_list (r_multiplicity (d_red g))) s)) = Some (- ln (prob_directed (dn_n g) (p_dbcm (fun i => exp (- s (d_class g i))) (fun i => exp (- s (d_class g i + d_classes_n g)%nat))) a))).
  destruct (d_classes g HL) as (HC & No & Ni).
  assert (HF : dcm_full (d_classes_n g) (nz_index_out (d_red g)) (nz_index_in (d_red g)) (fun q => exp (- s q))).
  { apply d_full_classes; [exact HL| |]; intros i Hi'; destruct (HZ i Hi') as [Z1 Z2]; (split; [intros _; apply exp_pos|tauto]). }
  rewrite (loglik_dcm_exp_logprob (dn_n g) (d_classes_n g) (d_class g) _ _ _ _ _ s (fun q => exp (- s q)) a Hg HC No Ni HF); try reflexivity.
  - intros i Hi'. rewrite (proj1 (d_class_degrees g i HL Hi')). apply Ho. exact Hi'.
  - intros i Hi'. rewrite (proj2 (d_class_degrees g i HL Hi')). apply Hi. exact Hi'.
Qed.
Lemma d_after_decm g c o o' : In (c_model c) ["decm"; "decm_exp"]%string -> In (c_method c) documented_methods ->
  d_solve_tool g c o = (o', None) ->
  exists v, let s := dir_factor "decm" (c_model c) v in let n := dn_n g in c_out c = Some v /\ ds_x o' = Some s /\ ds_y o' = Some (drop n s) /\
    ds_bo o' = Some (drop (2 * n) s) /\ ds_bi o' = Some (drop (3 * n) s) /\
    d_model_loglikelihood o' = run_entry (Neg (dll_name (c_model c))) (A4 n (at_list (dn_out g)) (at_list (dn_in g)) (dn_sout g) (dn_sin g)) s.
Proof.
  intros Hm Hd H. assert (Hm4 : In (c_model c) ["dcm"; "dcm_exp"; "decm"; "decm_exp"]%string) by (cbn in Hm |- *; tauto).
  destruct (d_tool_problem _ _ _ _ Hm4 H) as (o1 & HS & HE). clear H.
  apply d_solve_decm in HS; [|exact Hm]. destruct HS as (d & v & D & Hv & X1 & X2 & X3 & X4 & X5 & X6 & X7 & _).
  apply d_error_frame in HE. destruct HE as (F1 & F0 & F5 & F6 & F2 & F3 & F4 & _).
  exists v. cbv zeta. split; [exact Hv|]. do 4 (split; [congruence|]). unfold d_model_loglikelihood. rewrite F2, F3, F4, X5, X6, X7.
  assert (HU : In (c_model c) directed_models) by (destruct Hm as [E|[E|[]]]; rewrite <- E; cbn; tauto).
  rewrite (d_step_name _ _ _ HU Hd D). reflexivity.
Qed.
Lemma d_ll_decm g c o o' w : c_model c = "decm"%string -> In (c_method c) documented_methods ->
  d_solve_tool g c o = (o', None) ->
  (forall x y bo bi, ds_x o' = Some x -> ds_y o' = Some y -> ds_bo o' = Some bo -> ds_bi o' = Some bi ->
     decm_dom (dn_n g) (join4 (dn_n g) x y bo bi) /\
     decm_supp (dn_n g) (at_list (dn_out g)) (at_list (dn_in g)) (dn_sout g) (dn_sin g) (join4 (dn_n g) x y bo bi)) ->
  weighted_digraph (dn_n g) w -> (forall i, (i < dn_n g)%nat -> at_list (dn_out g) i = wdeg (dn_n g) w i) ->
  (forall i, (i < dn_n g)%nat -> at_list (dn_in g) i = windeg (dn_n g) w i) ->
  (forall i, (i < dn_n g)%nat -> dn_sout g i = wstr (dn_n g) w i) -> (forall i, (i < dn_n g)%nat -> dn_sin g i = winstr (dn_n g) w i) ->
  exists x y bo bi, ds_x o' = Some x /\ ds_y o' = Some y /\ ds_bo o' = Some bo /\ ds_bi o' = Some bi /\
    scalar (d_model_loglikelihood o') = Some (- ln (prob_wdirected (dn_n g) (fun i j => q_enh (x i * y j) (bo i * bi j)) w)).
Proof.
  intros Hm Hd H HP Hg H1 H2 H3 H4. assert (Hm2 : In (c_model c) ["decm"; "decm_exp"]%string) by (rewrite Hm; cbn; tauto).
  destruct (d_after_decm _ _ _ _ Hm2 Hd H) as (v & Hv & HX & HY & HBO & HBI & HLL). rewrite HLL. cbv zeta in *.
  set (s := dir_factor "decm" (c_model c) v) in *. destruct (HP _ _ _ _ HX HY HBO HBI) as [D1 D2]. set (N := dn_n g) in *.
  assert (BJ : forall r, join4 N s (drop N s) (drop (2 * N) s) (drop (3 * N) s) r = s r).
  { intros r. unfold join4, join2, drop. repeat match goal with |- context [Nat.ltb ?p ?q] => destruct (Nat.ltb_spec p q) end; f_equal; lia. }
  eexists _, _, _, _. do 4 (split; [eassumption|]). rewrite Hm.
  assert (HD1 : decm_dom N s).
  { destruct D1 as [P1 P2]. split; [intros r Hr; rewrite <- BJ; apply P1; exact Hr|]. intros i j Hi Hj Hij. specialize (P2 i j Hi Hj Hij).
    rewrite !BJ in P2. exact P2. }
  assert (HD2 : decm_supp N (at_list (dn_out g)) (at_list (dn_in g)) (dn_sout g) (dn_sin g) s).
  { intros i Hi. specialize (D2 i Hi). rewrite !BJ in D2. exact D2. }
  transitivity (scalar (num (- loglikelihood_decm N (at_list (dn_out g)) (at_list (dn_in g)) (dn_sout g) (dn_sin g) s)));
    [exact (f_equal scalar (neg_entry _ _ _ _ (e_ll_decm _ _ _ _ _ _ HD1 HD2)))|].
  rewrite (loglik_decm_logprob N _ _ _ _ s w Hg H1 H2 H3 H4 HD1 HD2). reflexivity.
Qed.
(** [decm_exp]: evaluated at the exponentials, where it is outside the domain or belongs to
    other factors. *)
Lemma d_ll_decm_exp g c o o' w : c_model c = "decm_exp"%string -> In (c_method c) documented_methods ->
  d_solve_tool g c o = (o', None) ->
  (forall bo bi, ds_bo o' = Some bo -> ds_bi o' = Some bi -> forall i j, (i < dn_n g)%nat -> (j < dn_n g)%nat -> i <> j -> 0 < bo i + bi j) ->
  weighted_digraph (dn_n g) w -> (forall i, (i < dn_n g)%nat -> at_list (dn_out g) i = wdeg (dn_n g) w i) ->
  (forall i, (i < dn_n g)%nat -> at_list (dn_in g) i = windeg (dn_n g) w i) ->
  (forall i, (i < dn_n g)%nat -> dn_sout g i = wstr (dn_n g) w i) -> (forall i, (i < dn_n g)%nat -> dn_sin g i = winstr (dn_n g) w i) ->
  exists x y bo bi, ds_x o' = Some x /\ ds_y o' = Some y /\ ds_bo o' = Some bo /\ ds_bi o' = Some bi /\
    scalar (d_model_loglikelihood o') =
    Some (- ln (prob_wdirected (dn_n g) (fun i j => q_enh (exp (- x i) * exp (- y j)) (exp (- bo i) * exp (- bi j))) w)).
Proof.
  intros Hm Hd H HP Hg H1 H2 H3 H4. assert (Hm2 : In (c_model c) ["decm"; "decm_exp"]%string) by (rewrite Hm; cbn; tauto).
  destruct (d_after_decm _ _ _ _ Hm2 Hd H) as (v & Hv & HX & HY & HBO & HBI & HLL). rewrite HLL. cbv zeta in *.
  set (s := dir_factor "decm" (c_model c) v) in *. specialize (HP _ _ HBO HBI). set (N := dn_n g) in *.
  eexists _, _, _, _. do 4 (split; [eassumption|]). rewrite Hm.
  transitivity (scalar (num (- loglikelihood_decm_exp N (at_list (dn_out g)) (at_list (dn_in g)) (dn_sout g) (dn_sin g) s))); [exact (f_equal scalar (neg_entry _ _ _ _ (e_ll_decm_exp _ _ _ _ _ _ HP)))|].
  rewrite (loglik_decm_exp_logprob N _ _ _ _ s w Hg H1 H2 H3 H4); [reflexivity|]. exact HP.
Qed.
Lemma nz_real_list n s : nonzero_list n s (nz_real n s).
Proof. exact (nonzero_of_spec n s). Qed.
Lemma loglik_all n p so si b :
  loglikelihood_crema_directed n so si (all_edges n p) (nz_real n so) (nz_real n si) b = crema_loglik_dir n p so si b (drop n b).
Proof.
  rewrite (loglik_crema_dir_eq n so si (all_edges n p) _ _ (nz_real_list n so) (nz_real_list n si) b), loglik_crema_nf. unfold cL, crema_loglik_dir.
  rewrite (esum_sh_all n p (fun i j w => w * ln (b i + b j))) by (intros; ring).
  rewrite rsum_cat. rewrite (rsum_ext n (fun i => cat n so si i * b i) (fun i => so i * b i)).
  - rewrite (rsum_ext n (fun i => cat n so si (i + n) * b (i + n)%nat) (fun i => si i * drop n b i)); [unfold drop; ring|].
    intros i Hi. unfold cat, drop. destruct (Nat.ltb_spec (i + n) n); [lia|]. replace (i + n - n)%nat with i by lia. reflexivity.
  - intros i Hi. unfold cat. destruct (Nat.ltb_spec i n); [reflexivity|lia].
Qed.
Lemma d_after_crema g c o o' : In (c_model c) ["crema"; "crema-sparse"]%string -> In (c_method c) documented_methods ->
  d_solve_tool g c o = (o', None) ->
  exists o1 v adj, d_set_adjacency g c o = (o1, None) /\ c_out c = Some v /\ ds_adj o1 = Some adj /\ ds_x o' = ds_x o1 /\ ds_y o' = ds_y o1 /\
    ds_bo o' = Some (o_x v) /\ ds_bi o' = Some (drop (dn_n g) (o_x v)) /\
    (c_full c = true -> d_model_loglikelihood o' = None) /\
    (c_full c = false -> d_model_loglikelihood o' = run_entry (Neg (dll_name (c_model c))) (d_args_crema g adj) (o_x v)).
Proof.
  intros Hm Hd H. destruct (d_tool_crema _ _ _ _ Hm H) as (o1 & H1 & H2).
  apply d_crema_inv in H1; [|exact Hm]. destruct H1 as (o2 & d & v & v0 & adj & HA & D & Hv & HJ & ->).
  apply d_error_frame in H2. destruct H2 as (F1 & F0 & F5 & F6 & F2 & F3 & F4 & _). cbn in F1, F0, F2, F3, F4, F5, F6.
  exists o2, v, adj. do 7 (split; [assumption|]). unfold d_model_loglikelihood. rewrite F2, F3, F4.
  assert (HU : In (c_model c) directed_models) by (destruct Hm as [E|[E|[]]]; rewrite <- E; cbn; tauto).
  rewrite (d_step_name _ _ _ HU Hd D). split; intros ->; reflexivity.
Qed.
Lemma d_ll_crema_matrix g c o o' a : c_model c = "crema"%string -> In (c_method c) documented_methods -> c_full c = false ->
  c_adjacency c = AdjMatrix a -> d_solve_tool g c o = (o', None) ->
  (forall bo bi, ds_bo o' = Some bo -> ds_bi o' = Some bi -> positive_rates_dir (dn_n g) a bo bi) ->
  exists bo bi, ds_bo o' = Some bo /\ ds_bi o' = Some bi /\
    scalar (d_model_loglikelihood o') = Some (- crema_loglik_dir (dn_n g) a (dn_sout g) (dn_sin g) bo bi).
Proof.
  intros Hm Hd Hf Ha H HP. assert (Hm' : In (c_model c) ["crema"; "crema-sparse"]%string) by (rewrite Hm; cbn; tauto).
  destruct (d_after_crema _ _ _ _ Hm' Hd H) as (o1 & v & adj & HA & Hv & HJ & _ & _ & HB & HB' & _ & HLL). rewrite (HLL Hf).
  destruct (d_adj_matrix _ _ _ _ _ Ha HA) as (J1 & _ & _). rewrite J1 in HJ. injection HJ as <-.
  eexists _, _. split; [exact HB|]. split; [exact HB'|]. rewrite <- loglik_all, Hm.
  exact (f_equal scalar (neg_entry _ _ _ _ (e_ll_crema_directed _ _ _ _ _ _ _ (all_dom _ _ _ (HP _ _ HB HB'))))).
Qed.
Lemma d_ll_crema_name g c o o' a : d_paired g -> In (c_model c) ["crema"; "crema-sparse"]%string -> In (c_method c) documented_methods -> c_full c = false ->
  c_adjacency c = AdjName a -> In a ["dcm"; "dcm_exp"]%string -> d_solve_tool g c o = (o', None) ->
  (forall x y, ds_x o' = Some x -> ds_y o' = Some y ->
     supported (dn_n g) (at_list (dn_out g)) x /\ supported (dn_n g) (at_list (dn_in g)) y) ->
  (forall i, (i < dn_n g)%nat -> (dn_sout g i = 0 <-> at_list (dn_out g) i = 0) /\ (dn_sin g i = 0 <-> at_list (dn_in g) i = 0)) ->
  (forall x y bo bi, ds_x o' = Some x -> ds_y o' = Some y -> ds_bo o' = Some bo -> ds_bi o' = Some bi -> positive_rates_dir (dn_n g) (dcm_prob x y) bo bi) ->
  exists x y bo bi, ds_x o' = Some x /\ ds_y o' = Some y /\ ds_bo o' = Some bo /\ ds_bi o' = Some bi /\
    scalar (d_model_loglikelihood o') = Some (- crema_loglik_dir (dn_n g) (dcm_prob x y) (dn_sout g) (dn_sin g) bo bi).
Proof.
  intros HL Hm Hd Hf Ha Hna H HP HZ HR. destruct (d_after_crema _ _ _ _ Hm Hd H) as (o1 & v & adj & HA & Hv & HJ & FX & FY & HB & HB' & _ & HLL).
  rewrite (HLL Hf). destruct (d_adj_name _ _ _ _ _ Ha Hna HA) as (va & _ & J1 & J1' & _ & _ & J4). rewrite HJ in J4. injection J4 as ->.
  rewrite J1 in FX. rewrite J1' in FY. set (s := dir_factor "dcm" a va) in *. set (x := fun i => s (d_class g i)) in *.
  set (y := fun i => drop (d_classes_n g) s (d_class g i)) in *. destruct (HP _ _ FX FY) as [HX HY]. specialize (HR _ _ _ _ FX FY HB HB').
  exists x, y, (o_x v), (drop (dn_n g) (o_x v)). do 4 (split; [assumption|]). rewrite <- loglik_all.
  rewrite <- (all_edges_ext (dn_n g) (d_pm g x y) (dcm_prob x y)) at 1 by (intros; apply d_pm_prob; assumption).
  assert (NX : forall i, (i < dn_n g)%nat -> x i <> 0 <-> dn_sout g i <> 0).
  { intros i Hi. destruct (HX i Hi) as [A1 A2]. destruct (HZ i Hi) as [Z1 _]. destruct (Req_dec (at_list (dn_out g) i) 0) as [E|E].
    - rewrite (A2 E). tauto.
    - specialize (A1 E). split; [intros _ E'; apply E, Z1; exact E'|intros _; lra]. }
  assert (NY : forall i, (i < dn_n g)%nat -> y i <> 0 <-> dn_sin g i <> 0).
  { intros i Hi. destruct (HY i Hi) as [A1 A2]. destruct (HZ i Hi) as [_ Z1]. destruct (Req_dec (at_list (dn_in g) i) 0) as [E|E].
    - rewrite (A2 E). tauto.
    - specialize (A1 E). split; [intros _ E'; apply E, Z1; exact E'|intros _; lra]. }
  destruct Hm as [E|[E|[]]]; rewrite <- E; names.
  - rewrite (all_edges_ext (dn_n g) (d_pm g x y) (dcm_prob x y)) by (intros; apply d_pm_prob; assumption).
    exact (f_equal scalar (neg_entry _ _ _ _ (e_ll_crema_directed _ _ _ _ _ _ _ (all_dom _ _ _ HR)))).
  - rewrite (all_edges_ext (dn_n g) (d_pm g x y) (dcm_prob x y)) by (intros; apply d_pm_prob; assumption).
    exact (f_equal scalar (neg_entry _ _ _ _ (e_ll_crema_dir_sparse _ _ _ _ _ _ _ _ (supported_nonneg _ _ _ HX) (supported_nonneg _ _ _ HY) (nz_real_list _ _) (nz_real_list _ _) NX NY (all_dom _ _ _ HR)))).
Qed.
Lemma d_completes g c o v0 v : In (c_model c) ["dcm"; "dcm_exp"; "decm"; "decm_exp"]%string -> In (c_method c) documented_methods ->
  (In (c_model c) ["dcm"; "dcm_exp"]%string -> ds_bo o = None) ->
  c_guess c = Some v0 -> c_out c = Some v -> exists o', d_solve_tool g c o = (o', None).
Proof.
  intros Hm Hd Hb Hg Hv. destruct (d_dispatch_documented _ _ Hm Hd) as (d & D).
  unfold d_solve_tool, d_solve_problem, d_initialize, d_set_guess, d_set_args. rewrite Hg, Hv.
  cbn in Hm, Hb. destruct Hm as [E|[E|[E|[E|[]]]]]; rewrite <- E in *; names; cbn [andthen fst snd ok]; rewrite D; names; cbn [andthen fst snd ok d_run_solver];
    unfold d_set_solved, d_set_solved_dcm, d_set_solved_decm; cbn [ds_last ds_set_pm ds_set_step ds_set_args ds_set_all ds_set_xy ds_set_last]; names;
    unfold d_solution_error; cbn [ds_last ds_x ds_y ds_bo ds_bi ds_set_pm ds_set_step ds_set_args ds_set_all ds_set_xy ds_set_last ds_set_sol]; names;
    try (eexists; reflexivity); unfold d_error_degree; cbn [ds_x ds_y ds_set_xy]; unfold d_error_strength;
    cbn [ds_bo ds_set_pm ds_set_step ds_set_args ds_set_xy ds_set_last ds_set_sol ds_set_ek]; rewrite Hb by tauto; eexists; reflexivity.
Qed.
