(** The binary models read the degrees through their classes, so that a call does not see the
    order of the nodes. *)
From Coq Require Import Reals List Arith Bool ZArith String Lia Lra Permutation Sorting.Sorted.
From Verif Require Import Base SpecGraph SpecDirected SpecEnsemble SpecNetwork SpecLife SpecLinsearch SpecSolver SpecDispatch SpecGuess SpecRun SpecSolve SpecTool SpecSymmetry SpecObject SpecRename
  ModelCM ModelDCM ModelNetwork ModelLife ModelSolver ModelDispatch ModelGuess ModelRun ModelSolve ModelTool ModelObject.
From Verif Require Import ProofsGraph ProofsUnique ProofsNetwork ProofsRelabel ProofsEquivariant ProofsSolve ProofsLife ProofsSolveU ProofsSolveD ProofsLifeForms ProofsObject ProofsReachObject ProofsNoRaiseObject.
Import ListNotations.
Local Open Scope R_scope.
#[local] Opaque u_dispatch d_dispatch lookup.

(** * Sorting forgets the order *)
Section Order.
Context {K : Type}.
Variables (leb eqb : K -> K -> bool).
Hypothesis H : total_order leb eqb.
Lemma sorted_unique l l' : StronglySorted (fun a b => leb a b = true) l -> StronglySorted (fun a b => leb a b = true) l' -> Permutation l l' -> l = l'.
Proof.
  intros S. revert l'. induction S as [|a l S IH F]; intros l' S' P; [apply Permutation_nil in P; subst; reflexivity|].
  destruct S' as [|b l' S' F']; [apply Permutation_sym, Permutation_nil in P; discriminate|].
  assert (E : a = b).
  { rewrite Forall_forall in F, F'. assert (Ia : In a (b :: l')) by (apply (Permutation_in _ P); left; reflexivity).
    assert (Ib : In b (a :: l)) by (apply (Permutation_in _ (Permutation_sym P)); left; reflexivity).
    destruct Ia as [<-|Ia]; [reflexivity|]. destruct Ib as [<-|Ib]; [reflexivity|]. apply (le_antisym leb eqb H); [apply F; exact Ib|apply F'; exact Ia]. }
  subst b. f_equal. apply IH; [exact S'|]. apply Permutation_cons_inv with a. exact P.
Qed.
Lemma isort_same l l' : Permutation l l' -> isort leb l = isort leb l'.
Proof.
  intros P. apply sorted_unique; [exact (isort_sorted leb eqb H l)|exact (isort_sorted leb eqb H l')|].
  transitivity l; [apply isort_perm|]. transitivity l'; [exact P|apply Permutation_sym, isort_perm].
Qed.
Lemma unique_same l l' : Permutation l l' -> np_unique leb eqb l = np_unique leb eqb l'.
Proof. intros P. unfold np_unique. rewrite (isort_same l l' P). reflexivity. Qed.
Lemma counts_same l l' : Permutation l l' -> np_counts leb eqb l = np_counts leb eqb l'.
Proof. intros P. unfold np_counts. rewrite (isort_same l l' P). reflexivity. Qed.
Lemma inverse_same l l' i' i d : Permutation l' l -> (i' < List.length l')%nat -> (i < List.length l)%nat -> nth i' l' d = nth i l d ->
  nth i' (np_inverse leb eqb l') O = nth i (np_inverse leb eqb l) O.
Proof.
  intros P Hi' Hi E. unfold np_inverse. rewrite (unique_same l' l P).
  rewrite (nth_indep _ O (position eqb d (np_unique leb eqb l))) by (rewrite map_length; exact Hi').
  rewrite (nth_indep (map _ l) O (position eqb d (np_unique leb eqb l))) by (rewrite map_length; exact Hi).
  rewrite !(map_nth (fun v => position eqb v (np_unique leb eqb l))), E. reflexivity.
Qed.
End Order.

(** * Sums and largest deviations *)
Lemma np_sum_list l : np_sum (List.length l) (at_list l) = fold_right Rplus 0 (map INR l).
Proof.
  unfold np_sum. rewrite (loop_rsum (List.length l) 0 (fun j s => s + at_list l j)) by (intros j acc; ring).
  rewrite Rplus_0_l. induction l as [|a l IH] using rev_ind; [reflexivity|].
  rewrite app_length. cbn [List.length]. rewrite Nat.add_1_r. cbn [rsum]. rewrite map_app, fold_right_app. cbn [map fold_right].
  assert (G : forall l c, fold_right Rplus c (map INR l) = fold_right Rplus 0 (map INR l) + c) by (intros l0; induction l0 as [|b l0 J]; intros c; cbn; [ring|rewrite J; ring]).
  rewrite G, <- IH. f_equal.
  - apply rsum_ext. intros i Hi. unfold at_list. rewrite app_nth1 by exact Hi. ring.
  - unfold at_list. rewrite app_nth2, Nat.sub_diag by lia. cbn. ring.
Qed.
Lemma np_sum_perm l l' : Permutation l' l -> np_sum (List.length l') (at_list l') = np_sum (List.length l) (at_list l).
Proof. intros P. rewrite !np_sum_list. induction P; cbn; lra. Qed.
Lemma inf_norm_moved m p ex' ob' ex ob : relabelling m p -> (forall i, (i < m)%nat -> ex' i = ex (p i)) -> (forall i, (i < m)%nat -> ob' i = ob (p i)) ->
  inf_norm m ex' ob' = inf_norm m ex ob.
Proof.
  intros HP H1 H2. destruct m as [|m]; [reflexivity|]. apply (sup_dev_unique (S m) ex' ob'); [apply inf_norm_sup; lia|].
  destruct (inf_norm_sup (S m) ex ob ltac:(lia)) as [G (i & Hi & E)]. split.
  - intros j Hj. rewrite H1, H2 by exact Hj. apply G. apply (relabelling_lt _ _ _ HP Hj).
  - assert (X : In i (map p (seq 0 (S m)))).
    { eapply Permutation_in; [apply Permutation_sym, relabelling_perm, HP|]. apply in_seq. lia. }
    apply in_map_iff in X. destruct X as (j & Ej & Hj). apply in_seq in Hj. exists j. split; [lia|]. rewrite H1, H2 by lia. rewrite Ej. exact E.
Qed.
(** A permutation of a list is a renaming of its positions. *)
Lemma perm_positions {K} (l' l : list K) d : Permutation l' l ->
  exists p, relabelling (List.length l) p /\ forall i, (i < List.length l)%nat -> nth i l' d = nth (p i) l d.
Proof.
  intros P. apply Permutation_sym, (proj1 (Permutation_nth l l' d)) in P. destruct P as (_ & p & B & I & E). exists p. split; [split|].
  - exact B.
  - intros i j Hi Hj Q. apply I; assumption.
  - intros i Hi. apply E. exact Hi.
Qed.

(** * UndirectedGraph *)
Lemma u_solver_same e g' g t m meth rnd s : In m ["cm"; "cm_exp"]%string -> Permutation (un_dseq g') (un_dseq g) ->
  u_start g' m rnd (GStr s) = u_start g m rnd (GStr s) /\ u_args g' m None = u_args g m None /\
  u_solver e g' t m meth rnd (GStr s) None = u_solver e g t m meth rnd (GStr s) None.
Proof.
  intros Hm P. pose proof (unique_same _ _ nat_order _ _ P) as U. pose proof (counts_same _ _ nat_order _ _ P) as C. pose proof (np_sum_perm _ _ P) as E. unfold at_list in E.
  assert (S1 : u_start g' m rnd (GStr s) = u_start g m rnd (GStr s)).
  { destruct Hm as [<-|[<-|[]]]; unfold u_start, u_length, set_initial_guess_cm, degree_reduction_und; cbn; rewrite U, E; reflexivity. }
  assert (S2 : u_args g' m None = u_args g m None).
  { destruct Hm as [<-|[<-|[]]]; unfold u_args, u_set_args, degree_reduction_und; cbn; rewrite U, C; reflexivity. }
  split; [exact S1|]. split; [exact S2|]. unfold u_solver. rewrite S1, S2. f_equal.
  destruct Hm as [<-|[<-|[]]]; unfold u_length, degree_reduction_und; cbn; rewrite U; reflexivity.
Qed.
Definition same_degree (g' g : unet) (i' i : nat) : Prop := (i' < un_n g')%nat /\ (i < un_n g)%nat /\ nth i' (un_dseq g') O = nth i (un_dseq g) O.
Lemma u_init_same g' g m meth v o : In m ["cm"; "cm_exp"]%string -> Permutation (un_dseq g') (un_dseq g) ->
  ModelSolve.u_initialize g' m meth v o = ModelSolve.u_initialize g m meth v o.
Proof.
  intros Hm P. pose proof (unique_same _ _ nat_order _ _ P) as U. pose proof (counts_same _ _ nat_order _ _ P) as C.
  unfold ModelSolve.u_initialize. f_equal.
  - destruct Hm as [<-|[<-|[]]]; destruct v; reflexivity.
  - apply FunctionalExtensionality.functional_extensionality. intros o1. f_equal.
    destruct Hm as [<-|[<-|[]]]; unfold u_set_args, degree_reduction_und; cbn; rewrite U, C; reflexivity.
Qed.
(** Outside [x] the solution is stored in the same way. *)
Lemma u_init_last g m meth v o o1 : ModelSolve.u_initialize g m meth v o = (o1, None) -> us_last o1 = us_last o /\ us_beta o1 = us_beta o \/ among m ["crema"; "crema-sparse"]%string = true.
Proof.
  intros E. destruct (among m ["crema"; "crema-sparse"]%string) eqn:A; [right; reflexivity|left].
  unfold ModelSolve.u_initialize in E. unfold u_set_guess, u_set_args in E. rewrite A in E. destruct v as [v|]; [|discriminate].
  destruct (among m ["ecm"; "ecm_exp"]%string) eqn:B, (among m ["cm"; "cm_exp"]%string) eqn:C; cbn in E; unfold degree_reduction_und in E; cbn in E;
    destruct (u_dispatch m meth None) as [d|[]]; cbn in E; inversion E; subst; split; reflexivity.
Qed.
Lemma u_tool_perm e g' g t s o : In (t_model t) ["cm"; "cm_exp"]%string -> t_guess t = GStr s -> Permutation (un_dseq g') (un_dseq g) -> us_beta o = None -> us_x o = None ->
  u_report e g' t o = u_report e g t o /\ snd (u_tool e g' t o) = snd (u_tool e g t o) /\
  us_set_x None (fst (u_tool e g' t o)) = us_set_x None (fst (u_tool e g t o)) /\
  carried (same_degree g' g) (us_x (fst (u_tool e g' t o))) (us_x (fst (u_tool e g t o))).
Proof.
  intros Hm Hg P Hb Hx0. assert (En : un_n g' = un_n g) by (apply Permutation_length; exact P).
  destruct (u_solver_same e g' g t (t_model t) (t_method t) (v_rnd e) s Hm P) as (S1 & _ & S2).
  assert (RS : u_result e g' t o = u_result e g t o).
  { unfold u_result. replace (among (t_model t) ["crema"; "crema-sparse"]%string) with false by (destruct Hm as [<-|[<-|[]]]; reflexivity). rewrite Hg. exact S2. }
  split; [unfold u_report; rewrite RS; reflexivity|].
  unfold u_tool, u_call, u_solve_tool, u_call_adjacency. cbn [c_model c_method c_guess c_out].
  replace (among (t_model t) ["cm"; "cm_exp"; "ecm"; "ecm_exp"]%string) with true by (destruct Hm as [<-|[<-|[]]]; reflexivity).
  rewrite RS, Hg, S1. unfold u_solve_problem. rewrite (u_init_same g' g _ _ _ _ Hm P).
  destruct (ModelSolve.u_initialize g (t_model t) (t_method t) (u_start g (t_model t) (v_rnd e) (GStr s)) (us_set_last (Some (t_model t)) o)) as [o1 x1] eqn:EI.
  assert (X1 : us_x o1 = None).
  { unfold ModelSolve.u_initialize, u_set_guess, u_set_args in EI. destruct (u_start g (t_model t) (v_rnd e) (GStr s)) as [v|]; [|cbn in EI; inversion EI; subst; exact Hx0].
    destruct Hm as [M|[M|[]]]; rewrite <- M in EI; unfold degree_reduction_und in EI; cbn in EI; destruct (u_dispatch _ _ _) as [d|[]]; cbn in EI; inversion EI; subst; exact Hx0. }
  destruct x1 as [x1|].
  { cbn. rewrite X1. repeat split. }
  destruct (u_init_last g _ _ _ _ _ EI) as [[L B]|A]; [|exfalso; destruct Hm as [M|[M|[]]]; rewrite <- M in A; discriminate A].
  cbn [us_last us_set_last us_beta] in L, B. rewrite Hb in B.
  unfold andthen. cbn [fst snd]. destruct (solved_of (u_result e g t o)) as [v|].
  2:{ cbn. rewrite X1. repeat split. }
  unfold u_run_solver, ok. cbn [fst snd].
  assert (Q : exists (f : R -> R) , forall g0, u_set_solved g0 v o1 =
     us_set_x (Some (fun i => f (o_x v (nth i (np_inverse Nat.leb Nat.eqb (un_dseq g0)) O)))) (us_set_sol (Some (o_x v)) o1)).
  { destruct Hm as [M|[M|[]]]; rewrite <- M in L; unfold u_set_solved, degree_reduction_und; rewrite L; cbn.
    - exists (fun r => r). reflexivity.
    - exists (fun r => exp (- r)). reflexivity. }
  destruct Q as (f & Q). rewrite !Q. clear Q.
  assert (SE : forall g0 x o2, us_last o2 = Some (t_model t) -> us_beta o2 = None ->
     u_solution_error g0 (us_set_x (Some x) o2) = (let e := inf_norm (un_n g0) (expected_degree_cm (un_n g0) x) (at_list (un_dseq g0)) in us_set_ek (Some e) (Some e) (us_set_x (Some x) o2), None)).
  { intros g0 x o2 L2 B2. unfold u_solution_error. cbn [us_last us_set_x]. rewrite L2.
    replace (among (t_model t) ["cm"; "cm_exp"; "crema"; "crema-sparse"]%string) with true by (destruct Hm as [<-|[<-|[]]]; reflexivity).
    unfold u_error_strength, u_error_degree. cbn [us_x us_set_x us_beta us_set_ek]. rewrite B2. reflexivity. }
  rewrite !SE by (cbn; assumption). cbn [fst snd us_x us_set_ek us_set_x].
  assert (XS : forall i' i, same_degree g' g i' i -> f (o_x v (nth i' (np_inverse Nat.leb Nat.eqb (un_dseq g')) O)) = f (o_x v (nth i (np_inverse Nat.leb Nat.eqb (un_dseq g)) O))).
  { intros i' i (H1 & H2 & H3). rewrite (inverse_same _ _ nat_order (un_dseq g) (un_dseq g') i' i O P H1 H2 H3). reflexivity. }
  split; [reflexivity|]. split; [|cbn; exact XS].
  destruct (perm_positions (un_dseq g') (un_dseq g) O P) as (p & HP & Hp). fold (un_n g) in HP, Hp.
  rewrite En. set (x' := fun i => f (o_x v (nth i (np_inverse Nat.leb Nat.eqb (un_dseq g')) O))). set (x := fun i => f (o_x v (nth i (np_inverse Nat.leb Nat.eqb (un_dseq g)) O))).
  assert (XP : forall i, (i < un_n g)%nat -> x' i = x (p i)).
  { intros i Hi. apply XS. split; [rewrite En; exact Hi|]. split; [apply (relabelling_lt _ _ _ HP Hi)|apply Hp; exact Hi]. }
  assert (NE : inf_norm (un_n g) (expected_degree_cm (un_n g) x') (at_list (un_dseq g')) = inf_norm (un_n g) (expected_degree_cm (un_n g) x) (at_list (un_dseq g))).
  { apply (inf_norm_moved _ p _ _ _ _ HP).
    - intros i Hi. rewrite <- (expected_cm_equi (un_n g) p HP x i Hi). unfold expected_degree_cm. apply loop_ext. intros j acc Hj. rewrite !XP by assumption. reflexivity.
    - intros i Hi. unfold at_list. rewrite Hp by exact Hi. reflexivity. }
  rewrite NE. reflexivity.
Qed.

(** Two objects whose degrees are the same numbers in another order. *)
Lemma u_object_degrees (L : Type) e (g : @ugraph L) t k : u_dseq g = Some (map INR k) -> In (t_model t) ["cm"; "cm_exp"]%string ->
  exists net, un_dseq net = k /\ u_new_tool e g t = Run (u_tool e net t (u_fresh (u_is_sparse g))) (u_report e net t (u_fresh (u_is_sparse g))).
Proof.
  intros ED Hm. exists {| un_dseq := k; un_str := match u_strength g with Some s => at_reals s | None => fun _ => 0 end |}. split; [reflexivity|].
  unfold u_new_tool, u_object_tool. rewrite ED, naturals_map. replace (reads_strengths (t_model t)) with false by (destruct Hm as [<-|[<-|[]]]; reflexivity). rewrite andb_false_r. destruct (u_strength g); reflexivity.
Qed.
Lemma carried_weaken (M M' : nat -> nat -> Prop) x' x : (forall i' i, M i' i -> M' i' i) -> carried M' x' x -> carried M x' x.
Proof. intros H. destruct x', x; cbn; auto. Qed.
Lemma object_perm (L L' : Type) e (g' : @ugraph L') (g : @ugraph L) k' k t s (M : nat -> nat -> Prop) :
  u_dseq g' = Some (map INR k') -> u_dseq g = Some (map INR k) -> Permutation k' k -> u_is_sparse g' = u_is_sparse g ->
  (forall i' i, M i' i -> (i' < List.length k')%nat /\ (i < List.length k)%nat /\ nth i' k' O = nth i k O) ->
  In (t_model t) ["cm"; "cm_exp"]%string -> t_guess t = GStr s -> u_carried M (u_new_tool e g' t) (u_new_tool e g t).
Proof.
  intros ED' ED P ES HM Hm Hg. destruct (u_object_degrees L' e g' t k' ED' Hm) as (net' & E' & ER'). destruct (u_object_degrees L e g t k ED Hm) as (net & E & ER).
  rewrite ER', ER, ES. destruct (u_tool_perm e net' net t s (u_fresh (u_is_sparse g)) Hm Hg ltac:(rewrite E', E; exact P) eq_refl eq_refl) as (H1 & H2 & H3 & H4).
  unfold u_carried. rewrite (surjective_pairing (u_tool e net' t (u_fresh (u_is_sparse g)))), (surjective_pairing (u_tool e net t (u_fresh (u_is_sparse g)))).
  split; [exact H2|]. split; [exact H1|]. split; [exact H3|].
  apply (carried_weaken M (same_degree net' net)); [|exact H4]. intros i' i HI. unfold same_degree, un_n. rewrite E', E. apply HM. exact HI.
Qed.
Definition row_nat (n : nat) (a : nat -> nat -> R) : list nat := map (fun i => count (fun j => positiveb (a i j)) (seq 0 n)) (seq 0 n).
Definition col_nat (n : nat) (a : nat -> nat -> R) : list nat := row_nat n (fun i j => a j i).
Lemma row_nat_ok n a : row_degrees n a = map INR (row_nat n a).
Proof. unfold row_nat. rewrite map_map. reflexivity. Qed.
Lemma col_nat_ok n a : col_degrees n a = map INR (col_nat n a).
Proof. unfold col_nat, row_nat. rewrite map_map. reflexivity. Qed.
Lemma row_nat_nth n a i : (i < n)%nat -> nth i (row_nat n a) O = count (fun j => positiveb (a i j)) (seq 0 n).
Proof.
  intros Hi. unfold row_nat. rewrite (nth_indep _ O ((fun i => count (fun j => positiveb (a i j)) (seq 0 n)) O)) by (rewrite map_length, seq_length; exact Hi).
  rewrite (map_nth (fun i => count (fun j => positiveb (a i j)) (seq 0 n))), seq_nth by exact Hi. reflexivity.
Qed.
Lemma row_nat_length n a : List.length (row_nat n a) = n. Proof. unfold row_nat. rewrite map_length, seq_length. reflexivity. Qed.
Lemma count_map {A B} (f : A -> B) P l : count P (map f l) = count (fun x => P (f x)) l.
Proof. unfold count. induction l as [|x l IH]; cbn; [reflexivity|]. destruct (P (f x)); cbn; congruence. Qed.
Lemma count_ext_in {A} (P Q : A -> bool) l : (forall x, In x l -> P x = Q x) -> count P l = count Q l.
Proof.
  intros H. unfold count. induction l as [|x l IH]; cbn; [reflexivity|]. rewrite (H x) by (left; reflexivity).
  destruct (Q x); cbn; [f_equal|]; apply IH; intros y Hy; apply H; right; exact Hy.
Qed.
Lemma row_nat_renamed n p a' a i : relabelling n p -> renamed_matrix n p a' a -> (i < n)%nat -> nth i (row_nat n a') O = nth (p i) (row_nat n a) O.
Proof.
  intros HP HR Hi. rewrite !row_nat_nth by (try exact Hi; exact (relabelling_lt _ _ _ HP Hi)).
  rewrite <- (count_perm (fun j => positiveb (a (p i) j)) _ _ (relabelling_perm n p HP)), count_map. apply count_ext_in.
  intros j Hj. apply in_seq in Hj. rewrite (HR i j) by lia. reflexivity.
Qed.
Lemma map_nth_seq {K} (l : list K) d : map (fun i => nth i l d) (seq 0 (List.length l)) = l.
Proof.
  apply (nth_ext _ _ d d); [rewrite map_length, seq_length; reflexivity|]. intros i Hi. rewrite map_length, seq_length in Hi.
  rewrite (nth_indep _ d (nth O l d)) by (rewrite map_length, seq_length; exact Hi). rewrite (map_nth (fun i => nth i l d)), seq_nth by exact Hi. reflexivity.
Qed.
Lemma positions_perm {K} (l' l : list K) d p : List.length l' = List.length l -> relabelling (List.length l) p ->
  (forall i, (i < List.length l)%nat -> nth i l' d = nth (p i) l d) -> Permutation l' l.
Proof.
  intros EL HP E. rewrite <- (map_nth_seq l' d), <- (map_nth_seq l d). rewrite EL.
  rewrite (map_ext_in _ (fun i => nth (p i) l d)) by (intros i Hi; apply in_seq in Hi; apply E; lia).
  rewrite <- (map_map p (fun i => nth i l d)). apply Permutation_map, relabelling_perm, HP.
Qed.
Lemma row_nat_perm n p a' a : relabelling n p -> renamed_matrix n p a' a -> Permutation (row_nat n a') (row_nat n a).
Proof.
  intros HP HR. apply (positions_perm _ _ O p); rewrite !row_nat_length; [reflexivity|exact HP|]. intros i Hi. exact (row_nat_renamed n p a' a i HP HR Hi).
Qed.
Lemma renamed_nonneg n p a' a : relabelling n p -> renamed_matrix n p a' a -> nonneg_matrix n a -> nonneg_matrix n a'.
Proof. intros HP HR H i j Hi Hj. rewrite (HR i j Hi Hj). apply H; apply (relabelling_lt _ _ _ HP); assumption. Qed.
Lemma matrix_object (L : Type) (leb eqb : L -> L -> bool) n a : (0 < n)%nat -> nonneg_matrix n a ->
  exists g, u_construct leb eqb (ArrayAdj n a) NoEdges NoSeq NoSeq = inl g /\ u_dseq g = Some (row_degrees n a) /\ u_is_sparse g = false.
Proof.
  intros Hn Ha. destruct (u_from_matrix_ok (@u_blank L) Ndarray false n a ltac:(discriminate) Ha) as (g & E & _ & _ & D & _ & _ & _ & S & _).
  unfold u_construct. cbn [ModelLife.u_initialize u_init_adjacency]. rewrite (proj2 (Nat.ltb_lt 0 (n * n)) ltac:(nia)), E. eexists. split; [reflexivity|]. split; [exact D|exact S].
Qed.
Lemma matrix_renamed (L : Type) (leb eqb : L -> L -> bool) e n p a' a t s : (0 < n)%nat -> nonneg_matrix n a -> relabelling n p -> renamed_matrix n p a' a ->
  In (t_model t) ["cm"; "cm_exp"]%string -> t_guess t = GStr s ->
  exists g' g, u_construct leb eqb (ArrayAdj n a') NoEdges NoSeq NoSeq = inl g' /\ u_construct leb eqb (ArrayAdj n a) NoEdges NoSeq NoSeq = inl g /\
    u_carried (same_node n p) (u_new_tool e g' t) (u_new_tool e g t).
Proof.
  intros Hn Ha HP HR Hm Hg. destruct (matrix_object L leb eqb n a Hn Ha) as (g & E & D & S). destruct (matrix_object L leb eqb n a' Hn (renamed_nonneg n p a' a HP HR Ha)) as (g' & E' & D' & S').
  exists g', g. split; [exact E'|]. split; [exact E|]. rewrite row_nat_ok in D, D'.
  apply (object_perm L L e g' g (row_nat n a') (row_nat n a) t s _ D' D (row_nat_perm n p a' a HP HR) ltac:(congruence)); [|exact Hm|exact Hg].
  intros i' i (Hi & ->). rewrite !row_nat_length. split; [exact Hi|]. split; [exact (relabelling_lt _ _ _ HP Hi)|exact (row_nat_renamed n p a' a i' HP HR Hi)].
Qed.
(** Edge lists. *)
Lemma nth_ext_error {K} (l l' : list K) : (forall i, nth_error l i = nth_error l' i) -> l = l'.
Proof.
  revert l'. induction l as [|a l IH]; intros [|b l'] H; [reflexivity|specialize (H O); discriminate|specialize (H O); discriminate|].
  pose proof (H O) as E. injection E as ->. f_equal. apply IH. intros i. exact (H (S i)).
Qed.
Lemma edges_object (L : Type) (leb eqb : L -> L -> bool) (es : list (L * L)) g : total_order leb eqb -> es <> [] -> u_construct leb eqb NoAdj (PairEdges es) NoSeq NoSeq = inl g ->
  exists nodes, u_nodes_dict g = Some nodes /\ NoDup nodes /\ (forall v, In v nodes <-> is_end v es) /\ u_is_sparse g = false /\
    u_dseq g = Some (map INR (map (fun v => incidences eqb v es) nodes)).
Proof.
  intros Ho HN EC. destruct (edgelist_undirected_closed L leb eqb es Ho HN) as (es' & deg & nodes & E & In_ & Hn & _ & _ & HL & HD & _).
  assert (Q : deg = map (fun v => incidences eqb v es) nodes).
  { apply (nth_ext_error deg). intros i. rewrite nth_error_map. destruct (nth_error nodes i) as [v|] eqn:Ev; [apply HD; exact Ev|]. apply nth_error_None. apply nth_error_None in Ev. rewrite HL. exact Ev. }
  exists nodes. unfold u_construct in EC. destruct es as [|e0 es]; [contradiction HN; reflexivity|]. cbn [ModelLife.u_initialize u_init_edges] in EC. rewrite E in EC.
  injection EC as <-. split; [reflexivity|]. split; [exact (increasing_nodup leb nodes In_)|]. split; [exact Hn|]. split; [reflexivity|]. cbn. rewrite Q at 1. reflexivity.
Qed.
Section Labels.
Context {L L' : Type}.
Variables (f : L -> L') (eqb : L -> L -> bool) (eqb' : L' -> L' -> bool) (leb : L -> L -> bool) (leb' : L' -> L' -> bool).
Hypotheses (Ho : total_order leb eqb) (Ho' : total_order leb' eqb') (Hf : forall u v, f u = f v -> u = v).
Lemma eqb_image u v : eqb' (f u) (f v) = eqb u v.
Proof.
  destruct (eqb u v) eqn:E.
  - apply (eqb_true leb' eqb' Ho'). apply (eqb_true leb eqb Ho) in E. subst. reflexivity.
  - apply (eqb_false leb' eqb' Ho'). apply (eqb_false leb eqb Ho) in E. intros Q. apply E, Hf, Q.
Qed.
Lemma incidences_perm es1 es2 v : Permutation es1 es2 -> incidences eqb' v es1 = incidences eqb' v es2.
Proof. unfold incidences. induction 1; cbn; lia. Qed.
Lemma incidences_image es v : incidences eqb' (f v) (map (fun e => (f (fst e), f (snd e))) es) = incidences eqb v es.
Proof. unfold incidences. induction es as [|e es IH]; cbn; [reflexivity|]. rewrite IH. unfold ends_at. cbn [fst snd]. rewrite !eqb_image. reflexivity. Qed.
Lemma ends_image es' es v' : renamed_edges f es' es -> (is_end v' es' <-> exists v, is_end v es /\ v' = f v).
Proof.
  intros P. split.
  - intros (x & Hx & He). apply (Permutation_in _ P) in Hx. apply in_map_iff in Hx. destruct Hx as (y & <- & Hy). cbn [fst snd] in He.
    destruct He as [<-|<-]; eexists; (split; [|reflexivity]); exists y; auto.
  - intros (v & (y & Hy & He) & ->). exists (f (fst y), f (snd y)). split; [apply (Permutation_in _ (Permutation_sym P)); apply in_map_iff; eauto|]. cbn. destruct He as [->| ->]; auto.
Qed.
Lemma nodes_image es' es nodes' nodes : renamed_edges f es' es -> NoDup nodes' -> NoDup nodes -> (forall v, In v nodes' <-> is_end v es') -> (forall v, In v nodes <-> is_end v es) ->
  Permutation nodes' (map f nodes).
Proof.
  intros P N' N H' H. apply NoDup_Permutation; [exact N'|apply FinFun.Injective_map_NoDup; [exact Hf|exact N]|]. intros v'. rewrite H', (ends_image es' es v' P), in_map_iff.
  split; intros (v & A & B); exists v; split; auto; apply H; assumption.
Qed.
Lemma edges_renamed e (es' : list (L' * L')) (es : list (L * L)) g' g t s : es <> [] -> renamed_edges f es' es ->
  u_construct leb' eqb' NoAdj (PairEdges es') NoSeq NoSeq = inl g' -> u_construct leb eqb NoAdj (PairEdges es) NoSeq NoSeq = inl g ->
  In (t_model t) ["cm"; "cm_exp"]%string -> t_guess t = GStr s ->
  exists nodes' nodes, u_nodes_dict g' = Some nodes' /\ u_nodes_dict g = Some nodes /\ (forall v, In v nodes <-> is_end v es) /\ (forall v, In v nodes <-> In (f v) nodes') /\
    u_carried (same_label f nodes' nodes) (u_new_tool e g' t) (u_new_tool e g t).
Proof.
  intros HN P EC' EC Hm Hg. assert (HN' : es' <> []) by (intros ->; apply Permutation_nil in P; destruct es; [congruence|discriminate]).
  destruct (edges_object L leb eqb es g Ho HN EC) as (nodes & D & N & I & S & K). destruct (edges_object L' leb' eqb' es' g' Ho' HN' EC') as (nodes' & D' & N' & I' & S' & K').
  pose proof (nodes_image es' es nodes' nodes P N' N I' I) as PN.
  exists nodes', nodes. split; [exact D'|]. split; [exact D|]. split; [exact I|]. split.
  { intros v. rewrite I', (ends_image es' es _ P), I. split; [intros H; exists v; auto|]. intros (u & Hu & E). apply Hf in E. subst. exact Hu. }
  apply (object_perm L L' e g' g _ _ t s _ K' K); [| congruence| |exact Hm|exact Hg].
  - rewrite (Permutation_map (fun v => incidences eqb' v es') PN), map_map.
    replace (map (fun x => incidences eqb' (f x) es') nodes) with (map (fun v => incidences eqb v es) nodes); [reflexivity|]. apply map_ext. intros v.
    rewrite (incidences_perm _ _ (f v) P), incidences_image. reflexivity.
  - intros i' i (v & E' & E). rewrite !map_length. split; [apply nth_error_Some; congruence|]. split; [apply nth_error_Some; congruence|].
    rewrite (nth_error_nth _ i' O (x := incidences eqb' (f v) es')) by (rewrite nth_error_map, E'; reflexivity).
    rewrite (nth_error_nth _ i O (x := incidences eqb v es)) by (rewrite nth_error_map, E; reflexivity).
    rewrite (incidences_perm _ _ (f v) P). apply incidences_image.
Qed.
End Labels.
