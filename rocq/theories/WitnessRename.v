(** Renamed networks, and an initial guess given as an array. *)
From Coq Require Import Reals List Arith Bool ZArith String Lia Lra Permutation.
From Verif Require Import Base SpecGraph SpecDirected SpecEnsemble SpecNetwork SpecLife SpecLinsearch SpecSolver SpecDispatch SpecGuess SpecRun SpecSolve SpecTool SpecStart SpecReach SpecReachTool SpecIsolated SpecObject SpecRename ModelLinsearch
  ModelCM ModelDCM ModelNetwork ModelLife ModelSolver ModelDispatch ModelGuess ModelRun ModelSolve ModelTool ModelObject.
From Verif Require Import ProofsUnique ProofsSolve ProofsSolveU ProofsTool ProofsStart ProofsEvaluates ProofsObject ProofsNoRaiseObject ProofsRename ProofsRenameDir WitnessTool WitnessStart WitnessObject WitnessReachTool WitnessIsolated.
Import ListNotations.
Local Open Scope R_scope.

(** * Networks with their nodes in another order *)
Definition swap01 (i : nat) : nat := match i with 0%nat => 1%nat | 1%nat => 0%nat | _ => i end.
Lemma swap_involutive i : swap01 (swap01 i) = i.
Proof. destruct i as [|[|i]]; reflexivity. Qed.
Lemma swap_relabelling n : (2 <= n)%nat -> relabelling n swap01.
Proof.
  intros Hn. split; [intros [|[|i]] Hi; cbn; lia|]. intros i j _ _ E. rewrite <- (swap_involutive i), <- (swap_involutive j), E. reflexivity.
Qed.
(** The path 0 - 1 - 2 becomes 1 - 0 - 2, and the call of C98 on it returns. *)
Lemma path_renamed_case : relabelling 3 swap01 /\ renamed_matrix 3 swap01 (fun i j => path_matrix (swap01 i) (swap01 j)) path_matrix /\
  row_degrees 3 (fun i j => path_matrix (swap01 i) (swap01 j)) = map INR [2; 1; 1]%nat /\ row_degrees 3 path_matrix = map INR [1; 2; 1]%nat /\
  forall meth nm, In meth descent_methods -> In nm binary_names -> exists e t g o, t_model t = "cm"%string /\ t_method t = meth /\ t_guess t = GStr nm /\
    u_construct Nat.leb Nat.eqb (ArrayAdj 3 path_matrix) NoEdges NoSeq NoSeq = inl g /\ returned (u_new_tool e g t) o.
Proof.
  split; [apply swap_relabelling; lia|]. split; [intros i j _ _; reflexivity|]. split; [unfold row_degrees, path_matrix, count; decide_entry; reflexivity|]. split; [exact path_degrees|].
  intros meth nm Hme Hnm. destruct path_case as (ds & e & Ha & HD & Hr & HL & HC). destruct (HC meth nm Hme) as (t & H1 & H2 & H3 & H4).
  destruct (matrix_cm nat Nat.leb Nat.eqb e nm 3 path_matrix ds t ltac:(lia) Ha HD H4 Hnm Hr H1 H3) as (g & EG & HRet & _). destruct (HRet HL) as (o & HO). exists e, t, g, o.
  split; [apply H1|]. split; [exact H2|]. split; [apply H1|]. split; [exact EG|exact HO].
Qed.
Lemma arrow_renamed_case : relabelling 3 swap01 /\ renamed_matrix 3 swap01 (fun i j => arrow_matrix (swap01 i) (swap01 j)) arrow_matrix /\ nonneg_matrix 3 arrow_matrix /\
  row_degrees 3 (fun i j => arrow_matrix (swap01 i) (swap01 j)) = map INR [0; 1; 0]%nat /\ row_degrees 3 arrow_matrix = map INR [1; 0; 0]%nat.
Proof.
  split; [apply swap_relabelling; lia|]. split; [intros i j _ _; reflexivity|]. split; [intros [|i] [|[|j]] _ _; cbn; lra|].
  split; [unfold row_degrees, arrow_matrix, swap01, count; decide_entry; reflexivity|exact (proj1 arrow_degrees)].
Qed.
(** Edges 10 - 20 and 30 - 20 with labels 20 and 30 exchanged and the rows in another order:
    the node with two links is 20 in one object and 30 in the other. *)
Definition relabel20 (v : nat) : nat := if Nat.eqb v 20 then 30%nat else if Nat.eqb v 30 then 20%nat else v.
Lemma relabel_injective u v : relabel20 u = relabel20 v -> u = v.
Proof. unfold relabel20. destruct (Nat.eqb_spec u 20), (Nat.eqb_spec u 30), (Nat.eqb_spec v 20), (Nat.eqb_spec v 30); lia. Qed.
Lemma edges_renamed_case : renamed_edges relabel20 [(20, 30); (10, 30)]%nat (map fst path_edges) /\ map fst path_edges <> [] /\
  exists g' g, u_construct Nat.leb Nat.eqb NoAdj (PairEdges [(20, 30); (10, 30)]%nat) NoSeq NoSeq = inl g' /\ u_construct Nat.leb Nat.eqb NoAdj (PairEdges (map fst path_edges)) NoSeq NoSeq = inl g /\
    u_dseq g' = Some (map INR [1; 1; 2]%nat) /\ u_dseq g = Some (map INR [1; 2; 1]%nat).
Proof.
  split; [apply perm_swap|]. split; [discriminate|]. eexists. eexists. split; [reflexivity|]. split; [reflexivity|]. split; reflexivity.
Qed.
Lemma edges_renamed_case_dir : renamed_edges relabel20 [(20, 30); (10, 30)]%nat (map fst path_edges) /\ map fst path_edges <> [] /\
  exists g' g, d_construct Nat.leb Nat.eqb NoAdj (PairEdges [(20, 30); (10, 30)]%nat) NoSeq NoSeq = inl g' /\ d_construct Nat.leb Nat.eqb NoAdj (PairEdges (map fst path_edges)) NoSeq NoSeq = inl g /\
    d_dseq_in g' = Some (map INR [0; 0; 2]%nat) /\ d_dseq_in g = Some (map INR [0; 2; 0]%nat).
Proof.
  split; [apply perm_swap|]. split; [discriminate|]. eexists. eexists. split; [reflexivity|]. split; [reflexivity|]. split; reflexivity.
Qed.

(** * A guess given as an array *)
(** Two linked nodes with the guesses 1 and 2. *)
Definition pair_matrix (i j : nat) : R := match i, j with 0%nat, 1%nat | 1%nat, 0%nat => 1 | _, _ => 0 end.
Definition one_two (i : nat) : R := match i with O => 1 | _ => 2 end.
Lemma pair_degrees : row_degrees 2 pair_matrix = map INR [1; 1]%nat.
Proof. unfold row_degrees, pair_matrix, count. decide_entry. reflexivity. Qed.
Definition pair_call (z : guess) : settings := cold "cm_exp" "quasinewton" z AdjOther 1.
Lemma pair_run e (L : Type) (g : @ugraph L) z : u_dseq g = Some (map INR [1; 1]%nat) ->
  exists o x, returned (u_new_tool e g (pair_call (GArr 2 z))) o /\ us_x o = Some x /\ forall i, (i < 2)%nat -> x i = exp (- z 0%nat).
Proof.
  intros ED. destruct (u_object_degrees L e g (pair_call (GArr 2 z)) [1; 1]%nat ED ltac:(cbn; tauto)) as (net & EN & ER).
  set (t := pair_call (GArr 2 z)) in *. set (o0 := u_fresh (u_is_sparse g)) in *.
  assert (EU : u_length net "cm_exp" = 1%nat) by (unfold u_length; rewrite EN; reflexivity).
  assert (HZ : exists s, u_start net "cm_exp" (v_rnd e) (GArr 2 z) = Some s /\ s 0%nat = z 0%nat).
  { unfold u_start. names. rewrite EU, EN. unfold set_initial_guess_cm. cbn [start_of]. eexists. split; [cbn -[Req_EM_T]; unfold where_zero, all_fin; cbn -[Req_EM_T]; destruct (Req_EM_T 1 0) as [Q|_]; [lra|]; reflexivity|].
    cbn -[Req_EM_T]. destruct (Req_EM_T 1 0) as [Q|_]; [lra|]. reflexivity. }
  destruct HZ as (s & HZ & Z0).
  assert (HQ : exists D A, u_dispatch "cm_exp" "quasinewton" None = inl D /\ u_args net "cm_exp" None = Some A) by (eexists; eexists; split; reflexivity).
  destruct HQ as (D & A & HD & HA). destruct (cm_exp_evaluates net s "quasinewton"%string D A ltac:(cbn; tauto) HD HA) as (f & Hf).
  assert (EQ : u_result e net t o0 = Full s 0 [norm2 (u_length net "cm_exp") f] [1] []).
  { change (u_result e net t o0) with (u_solver e net t "cm_exp" "quasinewton" (v_rnd e) (GArr 2 z) None). unfold u_solver. eapply stop_cold; [reflexivity|reflexivity|exact HD|exact HA|exact HZ|exact Hf]. }
  destruct (WitnessTool.u_completes e net t o0 s D {| o_x := s; o_inf := fun _ => false |} ltac:(cbn; tauto) eq_refl HZ HD ltac:(rewrite EQ; reflexivity)) as (o & HO).
  destruct (tool_cm_state e net t o0 o ltac:(unfold un_n; rewrite EN; cbn; lia) eq_refl ltac:(cbn; tauto) HO) as (v & x & err & Hv & Hx & _ & EX & _).
  rewrite EQ in Hv. cbn [solved_of] in Hv. injection Hv as <-.
  exists o, x. split; [exists (u_report e net t o0); rewrite ER, HO; reflexivity|]. split; [exact Hx|]. intros i Hi. rewrite EX. unfold u_class. rewrite EN. rewrite <- Z0.
  destruct i as [|[|i]]; [| |lia]; reflexivity.
Qed.
Lemma array_renamed_refuted : exists e t n p z a' a g' g o' o, (0 < n)%nat /\ nonneg_matrix n a /\ relabelling n p /\ renamed_matrix n p a' a /\ In (t_model t) ["cm"; "cm_exp"]%string /\
  u_construct Nat.leb Nat.eqb (ArrayAdj n a') NoEdges NoSeq NoSeq = inl g' /\ u_construct Nat.leb Nat.eqb (ArrayAdj n a) NoEdges NoSeq NoSeq = inl g /\
  returned (u_new_tool e g' (with_guess (GArr n (fun i => z (p i))) t)) o' /\ returned (u_new_tool e g (with_guess (GArr n z) t)) o /\ ~ carried (same_node n p) (us_x o') (us_x o).
Proof.
  destruct cold_world as (e & _). exists e, (pair_call GOther), 2%nat, swap01, one_two, pair_matrix, pair_matrix.
  assert (Ha : nonneg_matrix 2 pair_matrix) by (intros [|[|i]] [|[|j]] _ _; cbn; lra).
  destruct (matrix_object nat Nat.leb Nat.eqb 2 pair_matrix ltac:(lia) Ha) as (g & E & D & _). rewrite pair_degrees in D. exists g, g.
  destruct (pair_run e nat g (fun i => one_two (swap01 i)) D) as (o' & x' & R' & X' & V'). destruct (pair_run e nat g one_two D) as (o & x & R & X & V). exists o', o.
  split; [lia|]. split; [exact Ha|]. split; [apply swap_relabelling; lia|]. split; [intros [|[|i]] [|[|j]] Hi Hj; try lia; reflexivity|]. split; [cbn; tauto|].
  split; [exact E|]. split; [exact E|]. split; [exact R'|]. split; [exact R|]. rewrite X', X. intros HC. specialize (HC 0%nat 1%nat). rewrite V', V in HC by lia.
  specialize (HC ltac:(split; [lia|reflexivity])). cbn in HC. apply exp_inv in HC. lra.
Qed.
