(** The order of the nodes in calls of the binary models of a DirectedGraph. *)
From Coq Require Import Reals List Arith Bool ZArith String Lia Lra Permutation Sorting.Sorted.
From Verif Require Import Base SpecGraph SpecDirected SpecEnsemble SpecNetwork SpecLife SpecLinsearch SpecSolver SpecDispatch SpecGuess SpecRun SpecSolve SpecTool SpecSymmetry SpecObject SpecRename
  ModelCM ModelDCM ModelNetwork ModelLife ModelSolver ModelDispatch ModelGuess ModelRun ModelSolve ModelTool ModelObject.
From Verif Require Import ProofsGraph ProofsUnique ProofsNetwork ProofsAdjacency ProofsRelabel ProofsEquivariant ProofsSolve ProofsLife ProofsLifeDir ProofsSolveU ProofsSolveD ProofsLifeForms ProofsObject ProofsObjectForms ProofsReachObject ProofsNoRaiseObject ProofsRename.
Import ListNotations.
Local Open Scope R_scope.
#[local] Opaque u_dispatch d_dispatch lookup.

Definition d_degrees (g : dnet) : list (nat * nat) := combine (dn_out g) (dn_in g).
Definition same_degrees (g' g : dnet) (i' i : nat) : Prop := (i' < dn_n g')%nat /\ (i < dn_n g)%nat /\ nth i' (d_degrees g') (O, O) = nth i (d_degrees g) (O, O).
Lemma combine_fst {A B} (l : list A) (l' : list B) : List.length l' = List.length l -> map fst (combine l l') = l.
Proof. revert l'. induction l as [|a l IH]; intros [|b l'] E; try discriminate; [reflexivity|]. cbn. f_equal. apply IH. cbn in E. lia. Qed.
Lemma combine_snd {A B} (l : list A) (l' : list B) : List.length l' = List.length l -> map snd (combine l l') = l'.
Proof. revert l'. induction l as [|a l IH]; intros [|b l'] E; try discriminate; [reflexivity|]. cbn. f_equal. apply IH. cbn in E. lia. Qed.
Lemma d_solver_same e g' g t m meth ls rnd s : d_paired g' -> d_paired g -> In m ["dcm"; "dcm_exp"]%string -> Permutation (d_degrees g') (d_degrees g) ->
  d_start g' m rnd (GStr s) = d_start g m rnd (GStr s) /\ d_args g' m None = d_args g m None /\
  d_solver e g' t m meth ls rnd (GStr s) None = d_solver e g t m meth ls rnd (GStr s) None.
Proof.
  intros HP' HP Hm P. unfold d_degrees in P. pose proof (unique_same _ _ pair_order _ _ P) as U. pose proof (counts_same _ _ pair_order _ _ P) as C.
  assert (E : np_sum (List.length (dn_out g')) (fun i => INR (nth i (dn_out g') O)) = np_sum (List.length (dn_out g)) (fun i => INR (nth i (dn_out g) O))).
  { apply (np_sum_perm (dn_out g) (dn_out g')). rewrite <- (combine_fst (dn_out g') (dn_in g') HP'), <- (combine_fst (dn_out g) (dn_in g) HP). apply Permutation_map. exact P. }
  assert (S1 : d_start g' m rnd (GStr s) = d_start g m rnd (GStr s)).
  { destruct Hm as [<-|[<-|[]]]; unfold d_start, d_length, set_initial_guess_dcm, set_initial_guess_dcm_exp, dcm_values, degree_reduction_dir; cbn; rewrite U, E; reflexivity. }
  assert (S2 : d_args g' m None = d_args g m None).
  { destruct Hm as [<-|[<-|[]]]; unfold d_args, d_set_args, degree_reduction_dir; cbn; rewrite U, C; reflexivity. }
  split; [exact S1|]. split; [exact S2|]. unfold d_solver. rewrite S1, S2. f_equal.
  destruct Hm as [<-|[<-|[]]]; unfold d_length, degree_reduction_dir; cbn; rewrite U; reflexivity.
Qed.
Lemma d_init_same g' g m meth v o : In m ["dcm"; "dcm_exp"]%string -> Permutation (d_degrees g') (d_degrees g) ->
  ModelSolve.d_initialize g' m meth v o = ModelSolve.d_initialize g m meth v o.
Proof.
  intros Hm P. pose proof (unique_same _ _ pair_order _ _ P) as U. pose proof (counts_same _ _ pair_order _ _ P) as C. unfold d_degrees in U, C.
  unfold ModelSolve.d_initialize. f_equal.
  - destruct Hm as [<-|[<-|[]]]; destruct v; reflexivity.
  - apply FunctionalExtensionality.functional_extensionality. intros o1. f_equal.
    destruct Hm as [<-|[<-|[]]]; unfold d_set_args, degree_reduction_dir; cbn; rewrite U, C; reflexivity.
Qed.
(** What the preparation of a binary call leaves alone. *)
Lemma d_init_keeps g m meth v o : In m ["dcm"; "dcm_exp"]%string ->
  let o1 := fst (ModelSolve.d_initialize g m meth v o) in ds_x o1 = ds_x o /\ ds_y o1 = ds_y o /\ ds_last o1 = ds_last o /\ ds_bo o1 = ds_bo o.
Proof.
  intros Hm. unfold ModelSolve.d_initialize, d_set_guess, d_set_args. destruct v as [v|]; [|cbn; auto].
  destruct Hm as [<-|[<-|[]]]; unfold degree_reduction_dir; cbn; destruct (d_dispatch _ _ _) as [d|[]]; cbn; auto.
Qed.
Lemma expected_out_ext n x y i : (forall r, (r < n + n)%nat -> x r = y r) -> (i < n)%nat -> expected_out_degree_dcm n x i = expected_out_degree_dcm n y i.
Proof.
  intros H Hi. unfold expected_out_degree_dcm. rewrite (H i) by lia. destruct (Req_EM_T (y i) 0); [reflexivity|]. apply loop_ext. intros j acc Hj. rewrite (H (j + n)%nat) by lia. reflexivity.
Qed.
Lemma expected_in_ext n x y i : (forall r, (r < n + n)%nat -> x r = y r) -> (i < n)%nat -> expected_in_degree_dcm n x i = expected_in_degree_dcm n y i.
Proof.
  intros H Hi. unfold expected_in_degree_dcm. rewrite (H (i + n)%nat) by lia. destruct (Req_EM_T (y (i + n)%nat) 0); [reflexivity|]. apply loop_ext. intros j acc Hj. rewrite (H j) by lia. reflexivity.
Qed.
Lemma lift_ge n p r : (n <= r < n + n)%nat -> lift n p r = (p (r - n) + n)%nat.
Proof. intros H. replace r with ((r - n) + n)%nat at 1 by lia. apply lift1. lia. Qed.
Lemma lift_relabelling n p : relabelling n p -> relabelling (n + n) (lift n p).
Proof.
  intros HP. assert (S : forall r, (r < n + n)%nat -> (r < n)%nat /\ lift n p r = p r \/ exists q, (q < n)%nat /\ r = (q + n)%nat /\ lift n p r = (p q + n)%nat).
  { intros r Hr. destruct (Nat.lt_ge_cases r n) as [H|H]; [left; split; [exact H|apply lift0; exact H]|]. right. exists (r - n)%nat. split; [lia|]. split; [lia|].
    replace r with ((r - n) + n)%nat at 1 by lia. apply lift1. lia. }
  split.
  - intros i Hi. destruct (S i Hi) as [(H & ->)|(q & H & _ & ->)]; pose proof (relabelling_lt _ _ _ HP H); lia.
  - intros i j Hi Hj E. destruct (S i Hi) as [(H & Ei)|(q & H & -> & Ei)], (S j Hj) as [(H' & Ej)|(q' & H' & -> & Ej)]; rewrite Ei, Ej in E;
      pose proof (relabelling_lt _ _ _ HP H); pose proof (relabelling_lt _ _ _ HP H'); try lia.
    + apply (proj2 HP); assumption.
    + f_equal. apply (proj2 HP); [assumption|assumption|lia].
Qed.
Lemma d_tool_perm e g' g t s o : In (t_model t) ["dcm"; "dcm_exp"]%string -> t_guess t = GStr s -> d_paired g' -> d_paired g -> Permutation (d_degrees g') (d_degrees g) ->
  ds_bo o = None -> ds_x o = None -> ds_y o = None ->
  d_report e g' t o = d_report e g t o /\ snd (d_tool e g' t o) = snd (d_tool e g t o) /\
  ds_set_xy None None (fst (d_tool e g' t o)) = ds_set_xy None None (fst (d_tool e g t o)) /\
  carried (same_degrees g' g) (ds_x (fst (d_tool e g' t o))) (ds_x (fst (d_tool e g t o))) /\
  carried (same_degrees g' g) (ds_y (fst (d_tool e g' t o))) (ds_y (fst (d_tool e g t o))).
Proof.
  intros Hm Hg HP' HP P Hb Hx0 Hy0. assert (LC : forall g0, d_paired g0 -> List.length (d_degrees g0) = dn_n g0) by (intros g0 H0; unfold d_degrees, dn_n; rewrite combine_length, H0; lia).
  assert (En : dn_n g' = dn_n g) by (rewrite <- (LC g' HP'), <- (LC g HP); apply Permutation_length; exact P).
  destruct (d_solver_same e g' g t (t_model t) (t_method t) (t_linsearch t) (v_rnd e) s HP' HP Hm P) as (S1 & _ & S2).
  assert (RS : d_result e g' t o = d_result e g t o).
  { unfold d_result. replace (among (t_model t) ["crema"; "crema-sparse"]%string) with false by (destruct Hm as [<-|[<-|[]]]; reflexivity). rewrite Hg. exact S2. }
  split; [unfold d_report; rewrite RS; reflexivity|].
  unfold d_tool, d_call, d_solve_tool, d_call_adjacency. cbn [c_model c_method c_guess c_out c_full].
  replace (among (t_model t) ["dcm"; "dcm_exp"; "decm"; "decm_exp"]%string) with true by (destruct Hm as [<-|[<-|[]]]; reflexivity).
  rewrite RS, Hg, S1. unfold d_solve_problem. rewrite (d_init_same g' g _ _ _ _ Hm P).
  destruct (d_init_keeps g (t_model t) (t_method t) (d_start g (t_model t) (v_rnd e) (GStr s)) (ds_set_last (Some (t_model t)) o) Hm) as (X1 & Y1 & L & B).
  destruct (ModelSolve.d_initialize g (t_model t) (t_method t) (d_start g (t_model t) (v_rnd e) (GStr s)) (ds_set_last (Some (t_model t)) o)) as [o1 x1].
  cbn [fst ds_x ds_y ds_last ds_bo ds_set_last] in X1, Y1, L, B. rewrite Hx0 in X1. rewrite Hy0 in Y1. rewrite Hb in B.
  destruct x1 as [x1|].
  { cbn. rewrite X1, Y1. repeat split. }
  unfold andthen. cbn [fst snd]. destruct (solved_of (d_result e g t o)) as [v|].
  2:{ cbn. rewrite X1, Y1. repeat split. }
  unfold d_run_solver, ok. cbn [fst snd].
  set (R0 := List.length (map fst (np_unique pair_leb pair_eqb (d_degrees g)))).
  assert (Q : exists sol, forall g0, np_unique pair_leb pair_eqb (d_degrees g0) = np_unique pair_leb pair_eqb (d_degrees g) -> d_set_solved g0 (t_full t) v o1 =
     ds_set_xy (Some (fun i => sol (nth i (np_inverse pair_leb pair_eqb (d_degrees g0)) O))) (Some (fun i => drop R0 sol (nth i (np_inverse pair_leb pair_eqb (d_degrees g0)) O))) (ds_set_sol (Some (SArray sol)) o1)).
  { destruct Hm as [M|[M|[]]]; rewrite <- M in L; unfold d_set_solved; rewrite L; cbn [String.eqb Ascii.eqb Bool.eqb]; unfold R0.
    - exists (o_x v). intros g0 EU. rewrite <- EU. reflexivity.
    - exists (exp_neg v). intros g0 EU. rewrite <- EU. reflexivity. }
  destruct Q as (sol & Q). rewrite (Q g' (unique_same _ _ pair_order _ _ P)), (Q g eq_refl). clear Q.
  assert (SE : forall g0 x y o2, ds_last o2 = Some (t_model t) -> ds_bo o2 = None ->
     d_solution_error g0 (ds_set_xy (Some x) (Some y) o2) = (let e := inf_norm (dn_n g0 + dn_n g0) (join2 (dn_n g0) (expected_out_degree_dcm (dn_n g0) (join2 (dn_n g0) x y)) (expected_in_degree_dcm (dn_n g0) (join2 (dn_n g0) x y)))
        (join2 (dn_n g0) (at_list (dn_out g0)) (at_list (dn_in g0))) in ds_set_ek (Some e) (Some e) (ds_set_xy (Some x) (Some y) o2), None)).
  { intros g0 x y o2 L2 B2. unfold d_solution_error. cbn [ds_last ds_set_xy]. rewrite L2.
    replace (among (t_model t) ["dcm_exp"; "dcm"; "crema"; "crema-sparse"]%string) with true by (destruct Hm as [<-|[<-|[]]]; reflexivity).
    unfold d_error_strength, d_error_degree. cbn [ds_x ds_y ds_set_xy ds_bo ds_set_ek]. rewrite B2. reflexivity. }
  rewrite !SE by (cbn; assumption). cbn [fst snd ds_x ds_y ds_set_ek ds_set_xy].
  assert (CS : forall i' i, same_degrees g' g i' i -> nth i' (np_inverse pair_leb pair_eqb (d_degrees g')) O = nth i (np_inverse pair_leb pair_eqb (d_degrees g)) O).
  { intros i' i (H1 & H2 & H3). apply (inverse_same _ _ pair_order (d_degrees g) (d_degrees g') i' i (O, O) P); rewrite ?LC by assumption; assumption. }
  split; [reflexivity|]. split; [|cbn; split; intros i' i HI; rewrite (CS i' i HI); reflexivity].
  destruct (perm_positions (d_degrees g') (d_degrees g) (O, O) P) as (p & HR & Hp). rewrite (LC g HP) in HR, Hp. set (n := dn_n g) in *.
  assert (NT : forall g0 i, d_paired g0 -> (i < dn_n g0)%nat -> nth i (d_degrees g0) (O, O) = (nth i (dn_out g0) O, nth i (dn_in g0) O)).
  { intros g0 i H0 Hi. apply nth_error_nth. apply d_combine; assumption. }
  rewrite En. set (x' := fun i => sol (nth i (np_inverse pair_leb pair_eqb (d_degrees g')) O)). set (x := fun i => sol (nth i (np_inverse pair_leb pair_eqb (d_degrees g)) O)).
  set (y' := fun i => drop R0 sol (nth i (np_inverse pair_leb pair_eqb (d_degrees g')) O)). set (y := fun i => drop R0 sol (nth i (np_inverse pair_leb pair_eqb (d_degrees g)) O)).
  assert (CP : forall i, (i < n)%nat -> nth i (np_inverse pair_leb pair_eqb (d_degrees g')) O = nth (p i) (np_inverse pair_leb pair_eqb (d_degrees g)) O).
  { intros i Hi. apply CS. split; [rewrite En; exact Hi|]. split; [apply (relabelling_lt _ _ _ HR Hi)|apply Hp; exact Hi]. }
  assert (J : forall r, (r < n + n)%nat -> join2 n x' y' r = join2 n x y (lift n p r)).
  { intros r Hr. unfold join2. destruct (Nat.ltb_spec r n) as [H|H].
    - rewrite lift0 by exact H. rewrite (proj2 (Nat.ltb_lt (p r) n) (relabelling_lt _ _ _ HR H)). unfold x', x. rewrite (CP r H). reflexivity.
    - rewrite (lift_ge n p r) by lia. rewrite (proj2 (Nat.ltb_ge (p (r - n) + n)%nat n) ltac:(lia)).
      unfold y', y. rewrite (CP (r - n)%nat) by lia. replace (p (r - n) + n - n)%nat with (p (r - n)%nat) by lia. reflexivity. }
  assert (NE : inf_norm (n + n) (join2 n (expected_out_degree_dcm n (join2 n x' y')) (expected_in_degree_dcm n (join2 n x' y'))) (join2 n (at_list (dn_out g')) (at_list (dn_in g'))) =
               inf_norm (n + n) (join2 n (expected_out_degree_dcm n (join2 n x y)) (expected_in_degree_dcm n (join2 n x y))) (join2 n (at_list (dn_out g)) (at_list (dn_in g)))); [|rewrite NE; reflexivity].
  apply (inf_norm_moved _ (lift n p) _ _ _ _ (lift_relabelling n p HR)); intros r Hr.
  - unfold join2 at 1 4. destruct (Nat.ltb_spec r n) as [H|H].
    + rewrite lift0 by exact H. rewrite (proj2 (Nat.ltb_lt (p r) n) (relabelling_lt _ _ _ HR H)).
      rewrite <- (expected_out_dcm_equi n p HR _ r H). apply expected_out_ext; [exact J|exact H].
    + rewrite (lift_ge n p r) by lia. rewrite (proj2 (Nat.ltb_ge (p (r - n) + n)%nat n) ltac:(lia)). replace (p (r - n) + n - n)%nat with (p (r - n)%nat) by lia.
      rewrite <- (expected_in_dcm_equi n p HR _ (r - n)%nat ltac:(lia)). apply expected_in_ext; [exact J|lia].
  - assert (D : forall i, (i < n)%nat -> nth i (dn_out g') O = nth (p i) (dn_out g) O /\ nth i (dn_in g') O = nth (p i) (dn_in g) O).
    { intros i Hi. pose proof (Hp i Hi) as E. rewrite (NT g' i HP' ltac:(rewrite En; exact Hi)), (NT g (p i) HP (relabelling_lt _ _ _ HR Hi)) in E. injection E as E1 E2. auto. }
    unfold join2, at_list. destruct (Nat.ltb_spec r n) as [H|H].
    + rewrite lift0 by exact H. rewrite (proj2 (Nat.ltb_lt (p r) n) (relabelling_lt _ _ _ HR H)). rewrite (proj1 (D r H)). reflexivity.
    + rewrite (lift_ge n p r) by lia. rewrite (proj2 (Nat.ltb_ge (p (r - n) + n)%nat n) ltac:(lia)). replace (p (r - n) + n - n)%nat with (p (r - n)%nat) by lia.
      rewrite (proj2 (D (r - n)%nat ltac:(lia))). reflexivity.
Qed.

(** * Objects *)
Lemma d_object_degrees (L : Type) e (g : @dgraph L) t ko ki : d_dseq_out g = Some (map INR ko) -> d_dseq_in g = Some (map INR ki) -> In (t_model t) ["dcm"; "dcm_exp"]%string ->
  exists net, dn_out net = ko /\ dn_in net = ki /\ d_new_tool e g t = Run (d_tool e net t (d_fresh (d_is_sparse g))) (d_report e net t (d_fresh (d_is_sparse g))).
Proof.
  intros EO EI Hm.
  remember (match d_out_strength g, d_in_strength g with
              | Some so, Some si => {| dn_out := ko; dn_in := ki; dn_sout := at_reals so; dn_sin := at_reals si |}
              | _, _ => {| dn_out := ko; dn_in := ki; dn_sout := fun _ => 0; dn_sin := fun _ => 0 |} end) as net eqn:Hnet.
  exists net. split; [rewrite Hnet; destruct (d_out_strength g), (d_in_strength g); reflexivity|]. split; [rewrite Hnet; destruct (d_out_strength g), (d_in_strength g); reflexivity|].
  assert (C : is_crema (t_model t) = false) by (destruct Hm as [<-|[<-|[]]]; reflexivity).
  assert (RI : forall nz, d_result_index e net nz t (d_fresh (d_is_sparse g)) = d_result e net t (d_fresh (d_is_sparse g))) by (intros nz; unfold d_result_index; rewrite C; reflexivity).
  assert (TI : forall nz, d_tool_index e net nz t (d_fresh (d_is_sparse g)) = d_tool e net t (d_fresh (d_is_sparse g))) by (intros nz; unfold d_tool_index; rewrite RI; reflexivity).
  unfold d_report. rewrite <- (TI (d_index g)), <- (RI (d_index g)). unfold d_new_tool, d_object_tool. rewrite EO, EI, !naturals_map.
  replace (reads_strengths (t_model t)) with false by (destruct Hm as [<-|[<-|[]]]; reflexivity). rewrite andb_false_r.
  replace (reads_degrees (t_model t)) with false by (destruct Hm as [<-|[<-|[]]]; reflexivity). rewrite Hnet. destruct (d_out_strength g), (d_in_strength g); reflexivity.
Qed.
Lemma d_object_perm (L L' : Type) e (g' : @dgraph L') (g : @dgraph L) ko' ki' ko ki t s (M : nat -> nat -> Prop) :
  d_dseq_out g' = Some (map INR ko') -> d_dseq_in g' = Some (map INR ki') -> d_dseq_out g = Some (map INR ko) -> d_dseq_in g = Some (map INR ki) ->
  List.length ki' = List.length ko' -> List.length ki = List.length ko -> Permutation (combine ko' ki') (combine ko ki) -> d_is_sparse g' = d_is_sparse g ->
  (forall i' i, M i' i -> (i' < List.length ko')%nat /\ (i < List.length ko)%nat /\ nth i' (combine ko' ki') (O, O) = nth i (combine ko ki) (O, O)) ->
  In (t_model t) ["dcm"; "dcm_exp"]%string -> t_guess t = GStr s -> d_carried M (d_new_tool e g' t) (d_new_tool e g t).
Proof.
  intros EO' EI' EO EI L1 L2 P ES HM Hm Hg. destruct (d_object_degrees L' e g' t ko' ki' EO' EI' Hm) as (net' & A' & B' & ER'). destruct (d_object_degrees L e g t ko ki EO EI Hm) as (net & A & B & ER).
  rewrite ER', ER, ES.
  destruct (d_tool_perm e net' net t s (d_fresh (d_is_sparse g)) Hm Hg ltac:(unfold d_paired; rewrite A', B'; exact L1) ltac:(unfold d_paired; rewrite A, B; exact L2)
    ltac:(unfold d_degrees; rewrite A', B', A, B; exact P) eq_refl eq_refl eq_refl) as (H1 & H2 & H3 & H4 & H5).
  unfold d_carried. rewrite (surjective_pairing (d_tool e net' t (d_fresh (d_is_sparse g)))), (surjective_pairing (d_tool e net t (d_fresh (d_is_sparse g)))).
  split; [exact H2|]. split; [exact H1|]. split; [exact H3|].
  assert (W : forall i' i, M i' i -> same_degrees net' net i' i) by (intros i' i HI; unfold same_degrees, dn_n, d_degrees; rewrite A', B', A, B; apply HM; exact HI).
  split; [exact (carried_weaken M _ _ _ W H4)|exact (carried_weaken M _ _ _ W H5)].
Qed.
Lemma d_matrix_construct (L : Type) (leb eqb : L -> L -> bool) n a : (0 < n)%nat -> nonneg_matrix n a ->
  exists g, d_construct leb eqb (ArrayAdj n a) NoEdges NoSeq NoSeq = inl g /\ d_dseq_out g = Some (row_degrees n a) /\ d_dseq_in g = Some (col_degrees n a) /\ d_is_sparse g = false.
Proof.
  intros Hn Ha. destruct (d_from_matrix_ok (@d_blank L) Ndarray false n a ltac:(discriminate) Ha) as (g & E & _ & _ & D1 & D2 & _).
  unfold d_construct. cbn [ModelLife.d_initialize d_init_adjacency]. rewrite (proj2 (Nat.ltb_lt 0 (n * n)) ltac:(nia)), E. exists g. split; [reflexivity|]. split; [exact D1|]. split; [exact D2|].
  unfold d_from_matrix in E. destruct (has_negative n a); [discriminate|]. cbn [in_degree out_degree on_kind in_strength out_strength] in E.
  destruct (Req_EM_T (total_sum n a) (INR (total_positive n a))); injection E as <-; reflexivity.
Qed.
Lemma transposed_renamed n p a' a : renamed_matrix n p a' a -> renamed_matrix n p (fun i j => a' j i) (fun i j => a j i).
Proof. intros H i j Hi Hj. apply H; assumption. Qed.
Lemma d_matrix_renamed (L : Type) (leb eqb : L -> L -> bool) e n p a' a t s : (0 < n)%nat -> nonneg_matrix n a -> relabelling n p -> renamed_matrix n p a' a ->
  In (t_model t) ["dcm"; "dcm_exp"]%string -> t_guess t = GStr s ->
  exists g' g, d_construct leb eqb (ArrayAdj n a') NoEdges NoSeq NoSeq = inl g' /\ d_construct leb eqb (ArrayAdj n a) NoEdges NoSeq NoSeq = inl g /\
    d_carried (same_node n p) (d_new_tool e g' t) (d_new_tool e g t).
Proof.
  intros Hn Ha HP HR Hm Hg. destruct (d_matrix_construct L leb eqb n a Hn Ha) as (g & E & D1 & D2 & S).
  destruct (d_matrix_construct L leb eqb n a' Hn (renamed_nonneg n p a' a HP HR Ha)) as (g' & E' & D1' & D2' & S').
  exists g', g. split; [exact E'|]. split; [exact E|]. rewrite row_nat_ok in D1, D1'. rewrite col_nat_ok in D2, D2'.
  assert (LC : forall b, List.length (combine (row_nat n b) (col_nat n b)) = n) by (intros b; rewrite combine_length; unfold col_nat; rewrite !row_nat_length; lia).
  assert (NT : forall b i, (i < n)%nat -> nth i (combine (row_nat n b) (col_nat n b)) (O, O) = (nth i (row_nat n b) O, nth i (col_nat n b) O)).
  { intros b i Hi. apply combine_nth. unfold col_nat. rewrite !row_nat_length. reflexivity. }
  assert (NR : forall i, (i < n)%nat -> nth i (combine (row_nat n a') (col_nat n a')) (O, O) = nth (p i) (combine (row_nat n a) (col_nat n a)) (O, O)).
  { intros i Hi. rewrite !NT by (try exact Hi; exact (relabelling_lt _ _ _ HP Hi)). f_equal; [exact (row_nat_renamed n p a' a i HP HR Hi)|].
    exact (row_nat_renamed n p _ _ i HP (transposed_renamed n p a' a HR) Hi). }
  apply (d_object_perm L L e g' g _ _ _ _ t s _ D1' D2' D1 D2); [unfold col_nat; rewrite !row_nat_length; reflexivity|unfold col_nat; rewrite !row_nat_length; reflexivity| |congruence| |exact Hm|exact Hg].
  - apply (positions_perm _ _ (O, O) p); rewrite !LC; [reflexivity|exact HP|exact NR].
  - intros i' i (Hi & ->). rewrite !row_nat_length. split; [exact Hi|]. split; [exact (relabelling_lt _ _ _ HP Hi)|exact (NR i' Hi)].
Qed.
(** Edge lists. *)
Lemma d_edges_object (L : Type) (leb eqb : L -> L -> bool) (es : list (L * L)) g : total_order leb eqb -> es <> [] -> d_construct leb eqb NoAdj (PairEdges es) NoSeq NoSeq = inl g ->
  exists nodes, d_nodes_dict g = Some nodes /\ NoDup nodes /\ (forall v, In v nodes <-> is_end v es) /\ d_is_sparse g = false /\
    d_dseq_out g = Some (map INR (map (fun v => count (fun e => eqb (fst e) v) es) nodes)) /\ d_dseq_in g = Some (map INR (map (fun v => count (fun e => eqb (snd e) v) es) nodes)).
Proof.
  intros Ho HN EC. destruct (edgelist_directed_closed L leb eqb es Ho HN) as (es' & dout & din & nodes & E & In_ & Hn & _ & _ & HL & HL' & HD & _).
  assert (Q : dout = map (fun v => count (fun e => eqb (fst e) v) es) nodes /\ din = map (fun v => count (fun e => eqb (snd e) v) es) nodes).
  { split; apply nth_ext_error; intros i; rewrite nth_error_map; (destruct (nth_error nodes i) as [v|] eqn:Ev; [apply (HD i v Ev)|]; apply nth_error_None; apply nth_error_None in Ev; lia). }
  exists nodes. unfold d_construct in EC. destruct es as [|e0 es]; [contradiction HN; reflexivity|]. cbn [ModelLife.d_initialize d_init_edges] in EC. rewrite E in EC.
  injection EC as <-. split; [reflexivity|]. split; [exact (increasing_nodup leb nodes In_)|]. split; [exact Hn|]. split; [reflexivity|].
  split; cbn; [rewrite (proj1 Q) at 1|rewrite (proj2 Q) at 1]; reflexivity.
Qed.
Section Labels.
Context {L L' : Type}.
Variables (f : L -> L') (eqb : L -> L -> bool) (eqb' : L' -> L' -> bool) (leb : L -> L -> bool) (leb' : L' -> L' -> bool).
Hypotheses (Ho : total_order leb eqb) (Ho' : total_order leb' eqb') (Hf : forall u v, f u = f v -> u = v).
Lemma counts_image es' es v : renamed_edges f es' es ->
  count (fun e => eqb' (fst e) (f v)) es' = count (fun e => eqb (fst e) v) es /\ count (fun e => eqb' (snd e) (f v)) es' = count (fun e => eqb (snd e) v) es.
Proof.
  intros P. split; rewrite (count_perm _ _ _ P), count_map; apply count_ext_in; intros x _; cbn [fst snd]; apply (eqb_image f eqb eqb' leb leb' Ho Ho' Hf).
Qed.
Lemma d_edges_renamed e (es' : list (L' * L')) (es : list (L * L)) g' g t s : es <> [] -> renamed_edges f es' es ->
  d_construct leb' eqb' NoAdj (PairEdges es') NoSeq NoSeq = inl g' -> d_construct leb eqb NoAdj (PairEdges es) NoSeq NoSeq = inl g ->
  In (t_model t) ["dcm"; "dcm_exp"]%string -> t_guess t = GStr s ->
  exists nodes' nodes, d_nodes_dict g' = Some nodes' /\ d_nodes_dict g = Some nodes /\ (forall v, In v nodes <-> is_end v es) /\ (forall v, In v nodes <-> In (f v) nodes') /\
    d_carried (same_label f nodes' nodes) (d_new_tool e g' t) (d_new_tool e g t).
Proof.
  intros HN P EC' EC Hm Hg. assert (HN' : es' <> []) by (intros ->; apply Permutation_nil in P; destruct es; [congruence|discriminate]).
  destruct (d_edges_object L leb eqb es g Ho HN EC) as (nodes & D & N & I & S & KO & KI). destruct (d_edges_object L' leb' eqb' es' g' Ho' HN' EC') as (nodes' & D' & N' & I' & S' & KO' & KI').
  pose proof (nodes_image f Hf es' es nodes' nodes P N' N I' I) as PN.
  exists nodes', nodes. split; [exact D'|]. split; [exact D|]. split; [exact I|]. split.
  { intros v. rewrite I', (ends_image f Hf es' es _ P), I. split; [intros H; exists v; auto|]. intros (u & Hu & E). apply Hf in E. subst. exact Hu. }
  apply (d_object_perm L L' e g' g _ _ _ _ t s _ KO' KI' KO KI); [rewrite !map_length; reflexivity|rewrite !map_length; reflexivity| |congruence| |exact Hm|exact Hg].
  - rewrite !combine_map. rewrite (Permutation_map (fun v => (count (fun e0 => eqb' (fst e0) v) es', count (fun e0 => eqb' (snd e0) v) es')) PN), map_map.
    erewrite map_ext; [reflexivity|]. intros v. cbv beta. destruct (counts_image es' es v P) as [-> ->]. reflexivity.
  - intros i' i (v & E' & E). rewrite !map_length. split; [apply nth_error_Some; congruence|]. split; [apply nth_error_Some; congruence|]. rewrite !combine_map.
    rewrite (nth_error_nth _ i' (O, O) (x := (count (fun e0 => eqb' (fst e0) (f v)) es', count (fun e0 => eqb' (snd e0) (f v)) es'))) by (rewrite nth_error_map, E'; reflexivity).
    rewrite (nth_error_nth _ i (O, O) (x := (count (fun e0 => eqb (fst e0) v) es, count (fun e0 => eqb (snd e0) v) es))) by (rewrite nth_error_map, E; reflexivity).
    destruct (counts_image es' es v P) as [-> ->]. reflexivity.
Qed.
End Labels.
