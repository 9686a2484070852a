(** Networks and calls for the theorems on isolated nodes. *)
From Coq Require Import Reals List Arith Bool ZArith String Lia Lra.
From Verif Require Import Base SpecGraph SpecNetwork SpecLife SpecLinsearch SpecDispatch SpecGuess SpecRun SpecSolve SpecTool SpecReach SpecReachTool SpecIsolated
  ModelNetwork ModelLife ModelDispatch ModelGuess ModelSolve ModelTool ModelObject SpecObject.
From Verif Require Import ProofsUnique ProofsReachNet ProofsNoRaiseObject WitnessTool WitnessStart WitnessObject WitnessReachTool.
Import ListNotations.
Local Open Scope R_scope.

Lemma calls_exist m : exists e, sound_numpy m e /\ draws (v_rnd_adjacency e) /\ forall model meth nm ls, In meth descent_methods ->
  exists t, named_call model nm e t /\ t_method t = meth /\ t_linsearch t = ls /\ numpy_answers m t e /\ t_adjacency t = AdjName "cm" /\ t_method_adjacency t = meth /\ t_guess_adjacency t = GStr nm.
Proof.
  destruct (solvers_exist m) as (linsolve & eigh & H1 & H2 & H3).
  exists {| v_linsolve := linsolve; v_eigh_ok := fun _ => true; v_eigh := eigh; v_fuel := 100; v_rnd := half; v_rnd_adjacency := half |}.
  split; [split; [exact H1|]; split; [exact H2|]; split; [exact H3|exact half_draws]|]. split; [exact half_draws|]. intros model meth nm ls Hm.
  exists {| t_model := model; t_method := meth; t_guess := GStr nm; t_adjacency := AdjName "cm"; t_method_adjacency := meth; t_guess_adjacency := GStr nm;
     t_max_steps := 100; t_full := false; t_verbose := false; t_linsearch := ls; t_tol := / 100000000; t_eps := / 100000000 |}.
  split; [split; [reflexivity|]; split; [exact Hm|]; split; [reflexivity|]; split; [cbn; lra|intros Q; discriminate]|].
  split; [reflexivity|]. split; [reflexivity|]. split; [intros _; split; assumption|]. repeat split.
Qed.
(** Node 3 of [lone_path] is isolated. *)
Lemma lone_isolated : ~ none_isolated 4 lone_path.
Proof. intros H. destruct (H 3%nat ltac:(lia)) as (j & Hj & P). do 4 (destruct j as [|j]; [cbn in P; lra|]). lia. Qed.
Lemma lone_nonneg : nonneg_matrix 4 lone_path.
Proof. intros i j _ _. unfold lone_path. generalize (4 * i + j)%nat as q. intros q. do 16 (destruct q as [|q]; [cbn; lra|]). destruct q; cbn; lra. Qed.
Lemma lone_distinct : distinct (row_degrees 4 lone_path) (map INR [0; 1; 2]%nat).
Proof. rewrite lone_degrees. split; [cbn; repeat constructor; cbn; intros Q; repeat (destruct Q as [Q|Q]; [lra|]); exact Q|]. intros v. cbn. tauto. Qed.
(** A matrix without loops, numpy right, the default tolerance, and the call raises. *)
Lemma lone_raises meth nm : In meth descent_methods -> In nm binary_names ->
  exists e t g, sound_numpy 3 e /\ named_call "cm" nm e t /\ t_method t = meth /\ t_linsearch t = true /\ nonneg_matrix 4 lone_path /\ symmetric 4 lone_path /\ (forall i, (i < 4)%nat -> lone_path i i = 0) /\
    u_construct Nat.leb Nat.eqb (ArrayAdj 4 lone_path) NoEdges NoSeq NoSeq = inl g /\ raises (u_new_tool e g t) ESolver.
Proof.
  intros Hme Hnm. destruct (calls_exist 3) as (e & HS & _ & HC). destruct (HC "cm"%string meth nm true Hme) as (t & H1 & H2 & H3 & H4 & _).
  destruct (matrix_cm nat Nat.leb Nat.eqb e nm 4 lone_path _ t ltac:(lia) lone_nonneg lone_distinct H4 Hnm ltac:(apply HS) H1 H3) as (g & E & _ & R).
  exists e, t, g. split; [exact HS|]. split; [exact H1|]. split; [exact H2|]. split; [exact H3|]. split; [exact lone_nonneg|].
  split. { intros i j Hi Hj. do 4 (destruct i as [|i]; [do 4 (destruct j as [|j]; [reflexivity|]); lia|]). lia. }
  split. { intros i Hi. do 4 (destruct i as [|i]; [reflexivity|]). lia. }
  split; [exact E|]. apply R. exact lone_isolated.
Qed.
(** Without the isolated node: a path of three nodes. *)
Definition path_matrix (i j : nat) : R := nth (3 * i + j)%nat [0; 2; 0; 2; 0; 3; 0; 3; 0] 0.
Lemma path_degrees : row_degrees 3 path_matrix = map INR [1; 2; 1]%nat.
Proof. unfold row_degrees, path_matrix, count. decide_entry. reflexivity. Qed.
Lemma path_linked : none_isolated 3 path_matrix.
Proof. intros i Hi. do 3 (destruct i as [|i]; [first [exists 1%nat; split; [lia|cbn; lra]|exists 0%nat; split; [lia|cbn; lra]]|]). lia. Qed.
Lemma path_case : exists ds e, nonneg_matrix 3 path_matrix /\ distinct (row_degrees 3 path_matrix) ds /\ draws (v_rnd e) /\ none_isolated 3 path_matrix /\
  forall meth nm, In meth descent_methods -> exists t, named_call "cm" nm e t /\ t_method t = meth /\ t_linsearch t = true /\ numpy_answers (List.length ds) t e.
Proof.
  destruct (calls_exist 2) as (e & HS & _ & HC). exists (map INR [1; 2]%nat), e.
  split. { intros i j _ _. unfold path_matrix. generalize (3 * i + j)%nat as q. intros q. do 9 (destruct q as [|q]; [cbn; lra|]). destruct q; cbn; lra. }
  split. { rewrite path_degrees. split; [cbn; repeat constructor; cbn; intros Q; repeat (destruct Q as [Q|Q]; [lra|]); exact Q|]. intros v. cbn. tauto. }
  split; [apply HS|]. split; [exact path_linked|]. intros meth nm Hme. destruct (HC "cm"%string meth nm true Hme) as (t & H1 & H2 & H3 & H4 & _). exists t. split; [exact H1|]. split; [exact H2|]. split; [exact H3|exact H4].
Qed.
(** The exponential model on the network with the isolated node, with the line search off. *)
Lemma lone_exp_case : exists ds e, nonneg_matrix 4 lone_path /\ distinct (row_degrees 4 lone_path) ds /\ draws (v_rnd e) /\ ~ none_isolated 4 lone_path /\
  forall meth nm, In meth descent_methods -> exists t, named_call "cm_exp" nm e t /\ t_method t = meth /\ t_linsearch t = false /\ numpy_answers (List.length ds) t e.
Proof.
  destruct (calls_exist 3) as (e & HS & _ & HC). exists (map INR [0; 1; 2]%nat), e. split; [exact lone_nonneg|]. split; [exact lone_distinct|]. split; [apply HS|]. split; [exact lone_isolated|].
  intros meth nm Hme. destruct (HC "cm_exp"%string meth nm false Hme) as (t & H1 & H2 & H3 & H4 & _). exists t. split; [exact H1|]. split; [exact H2|]. split; [exact H3|exact H4].
Qed.
(** A directed network with an isolated node, a source and a sink: 0 -> 1. *)
Definition arrow_matrix (i j : nat) : R := match i, j with 0%nat, 1%nat => 1 | _, _ => 0 end.
Lemma arrow_degrees : row_degrees 3 arrow_matrix = map INR [1; 0; 0]%nat /\ col_degrees 3 arrow_matrix = map INR [0; 1; 0]%nat.
Proof. split; unfold row_degrees, col_degrees, arrow_matrix, count; decide_entry; reflexivity. Qed.
Lemma arrow_case : exists ds e, nonneg_matrix 3 arrow_matrix /\ distinct (combine (row_degrees 3 arrow_matrix) (col_degrees 3 arrow_matrix)) ds /\ draws (v_rnd e) /\
  forall meth nm, In meth descent_methods -> exists t, named_call "dcm" nm e t /\ t_method t = meth /\ t_linsearch t = true /\ numpy_answers (2 * List.length ds) t e.
Proof.
  destruct (calls_exist 6) as (e & HS & _ & HC). exists [(INR 1, INR 0); (INR 0, INR 1); (INR 0, INR 0)], e.
  split. { intros [|i] [|[|j]] _ _; cbn; lra. }
  split. { destruct arrow_degrees as [-> ->]. split; [cbn; repeat constructor; cbn; intros Q; repeat (destruct Q as [Q|Q]; [inversion Q; lra|]); exact Q|]. intros v. cbn. tauto. }
  split; [apply HS|]. intros meth nm Hme. destruct (HC "dcm"%string meth nm true Hme) as (t & H1 & H2 & H3 & H4 & _). exists t. split; [exact H1|]. split; [exact H2|]. split; [exact H3|exact H4].
Qed.
(** The weighted models: weights 2 and 3 beside an isolated node; weight 2 beside two. *)
Definition lone2_matrix (i j : nat) : R := match i, j with 0%nat, 1%nat | 1%nat, 0%nat => 2 | _, _ => 0 end.
Lemma lone2_nonneg : nonneg_matrix 4 lone2_matrix.
Proof. intros [|[|i]] [|[|j]] _ _; cbn; lra. Qed.
Lemma weighted_case meth : In meth descent_methods ->
  nonneg_matrix 4 lone_path /\ excess 4 lone_path <> 0 /\ ~ none_isolated 4 lone_path /\
  nonneg_matrix 4 lone2_matrix /\ excess 4 lone2_matrix <> 0 /\ (exists i j, no_link 4 lone2_matrix i /\ no_link 4 lone2_matrix j /\ i <> j) /\
  exists e, draws (v_rnd e) /\ draws (v_rnd_adjacency e) /\ forall model nm, exists t, named_call model nm e t /\ t_method t = meth /\ t_adjacency t = AdjName "cm" /\
    t_method_adjacency t = meth /\ t_guess_adjacency t = GStr nm.
Proof.
  intros Hme. split; [exact lone_nonneg|]. split. { unfold excess, lone_path. cbn [rsum]. cbn -[Req_EM_T]. repeat (match goal with |- context [Req_EM_T ?x ?y] => destruct (Req_EM_T x y); [|] end; try lra). }
  split; [exact lone_isolated|]. split; [exact lone2_nonneg|].
  split. { unfold excess, lone2_matrix. cbn [rsum]. cbn -[Req_EM_T]. repeat (match goal with |- context [Req_EM_T ?x ?y] => destruct (Req_EM_T x y); [|] end; try lra). }
  split. { exists 2%nat, 3%nat. split; [|split; [|lia]]; (split; [lia|]); intros (j & Hj & P); do 4 (destruct j as [|j]; [cbn in P; lra|]); lia. }
  destruct (calls_exist 8) as (e & HS & HA & HC). exists e. split; [apply HS|]. split; [exact HA|]. intros model nm. destruct (HC model meth nm true Hme) as (t & H1 & H2 & _ & _ & H3 & H4 & H5).
  exists t. split; [exact H1|]. split; [exact H2|]. split; [exact H3|]. split; [exact H4|exact H5].
Qed.
