(** Isolated nodes, and calls that cannot raise.  Nothing else in this file; proofs are in
    ProofsEvaluates, ProofsNoRaise, ProofsNoRaiseObject and WitnessIsolated. *)
From Coq Require Import Reals List Arith Bool ZArith String Lia Lra.
From Verif Require Import Base SpecGraph SpecDirected SpecEnsemble SpecNetwork SpecLife SpecLinsearch SpecSolver SpecDispatch SpecGuess SpecRun SpecSolve SpecTool SpecReach SpecReachTool SpecIsolated
  ModelCM ModelDCM ModelNetwork ModelLife ModelSolver ModelDispatch ModelGuess ModelRun ModelSolve ModelTool ModelObject SpecObject.
From Verif Require Import ProofsSolveU ProofsSolveD ProofsEvaluates ProofsNoRaise ProofsNoRaiseObject WitnessTool WitnessObject WitnessReachTool WitnessIsolated.
Import ListNotations.
Local Open Scope string_scope.
Local Open Scope R_scope.

(** C98: a network with an isolated node cannot be fitted in "cm" or "ecm" with a descent
    method, nor in CReMa over "cm"; two isolated nodes are too many for "ecm_exp". *)
Theorem C98_isolated_refuted :
  forall meth nm,
  In meth descent_methods -> In nm binary_names ->
  exists e t g, sound_numpy 3 e /\ named_call "cm" nm e t /\ t_method t = meth /\ t_linsearch t = true /\ nonneg_matrix 4 lone_path /\ symmetric 4 lone_path /\ (forall i, (i < 4)%nat -> lone_path i i = 0) /\
    u_construct Nat.leb Nat.eqb (ArrayAdj 4 lone_path) NoEdges NoSeq NoSeq = inl g /\ raises (u_new_tool e g t) ESolver.
Proof. exact lone_raises. Qed.
Print Assumptions C98_isolated_refuted.
Theorem C98_cm_raises :
  forall (L : Type) e (g : @ugraph L) nm n a t,
  u_dseq g = Some (row_degrees n a) -> In nm binary_names -> draws (v_rnd e) ->
  t_model t = "cm"%string -> In (t_method t) descent_methods -> t_guess t = GStr nm -> ~ none_isolated n a -> raises (u_new_tool e g t) ESolver.
Proof. exact object_cm_raises. Qed.
Print Assumptions C98_cm_raises.
Theorem C98_cm_never :
  forall (L : Type) e (g : @ugraph L) n a t,
  u_dseq g = Some (row_degrees n a) ->
  t_model t = "cm"%string -> In (t_method t) descent_methods -> ~ none_isolated n a -> forall o', ~ returned (u_new_tool e g t) o'.
Proof. exact object_cm_never. Qed.
Print Assumptions C98_cm_never.
Theorem C98_weighted_raises :
  forall (L : Type) (leb eqb : L -> L -> bool) e nm n a t,
  (0 < n)%nat -> nonneg_matrix n a -> excess n a <> 0 -> ~ none_isolated n a ->
  exists g, u_construct leb eqb (ArrayAdj n a) NoEdges NoSeq NoSeq = inl g /\
  (t_model t = "ecm"%string -> In (t_method t) descent_methods -> t_guess t = GStr nm -> In nm weighted_names -> draws (v_rnd e) -> raises (u_new_tool e g t) ESolver) /\
  (t_model t = "ecm_exp"%string -> In (t_method t) descent_methods -> t_guess t = GStr nm -> In nm weighted_names -> draws (v_rnd e) ->
     (exists i j, no_link n a i /\ no_link n a j /\ i <> j) -> raises (u_new_tool e g t) ESolver) /\
  (In (t_model t) ["crema"; "crema-sparse"]%string -> t_adjacency t = AdjName "cm" -> In (t_method_adjacency t) descent_methods -> t_guess_adjacency t = GStr nm ->
     In nm binary_names -> draws (v_rnd_adjacency e) -> raises (u_new_tool e g t) ESolver).
Proof. exact matrix_weighted_raises. Qed.
Print Assumptions C98_weighted_raises.
Example C98_weighted_case :
  forall meth,
  In meth descent_methods ->
  nonneg_matrix 4 lone_path /\ excess 4 lone_path <> 0 /\ ~ none_isolated 4 lone_path /\
  nonneg_matrix 4 lone2_matrix /\ excess 4 lone2_matrix <> 0 /\ (exists i j, no_link 4 lone2_matrix i /\ no_link 4 lone2_matrix j /\ i <> j) /\
  exists e, draws (v_rnd e) /\ draws (v_rnd_adjacency e) /\ forall model nm, exists t, named_call model nm e t /\ t_method t = meth /\ t_adjacency t = AdjName "cm" /\
    t_method_adjacency t = meth /\ t_guess_adjacency t = GStr nm.
Proof. exact weighted_case. Qed.

(** The binary calls otherwise return. *)
Theorem C98_cm_matrix :
  forall (L : Type) (leb eqb : L -> L -> bool) e nm n a ds t,
  (0 < n)%nat -> nonneg_matrix n a -> distinct (row_degrees n a) ds -> numpy_answers (List.length ds) t e ->
  In nm binary_names -> draws (v_rnd e) -> named_call "cm" nm e t -> t_linsearch t = true ->
  exists g, u_construct leb eqb (ArrayAdj n a) NoEdges NoSeq NoSeq = inl g /\
    (none_isolated n a -> exists o', returned (u_new_tool e g t) o') /\ (~ none_isolated n a -> raises (u_new_tool e g t) ESolver).
Proof. exact matrix_cm. Qed.
Print Assumptions C98_cm_matrix.
Example C98_cm_case :
  exists ds e, nonneg_matrix 3 path_matrix /\ distinct (row_degrees 3 path_matrix) ds /\ draws (v_rnd e) /\ none_isolated 3 path_matrix /\
  forall meth nm, In meth descent_methods -> exists t, named_call "cm" nm e t /\ t_method t = meth /\ t_linsearch t = true /\ numpy_answers (List.length ds) t e.
Proof. exact path_case. Qed.
Theorem C98_cm_iff :
  forall (L : Type) e (g : @ugraph L) nm n a ds t,
  u_dseq g = Some (row_degrees n a) -> distinct (row_degrees n a) ds -> numpy_answers (List.length ds) t e ->
  In nm binary_names -> draws (v_rnd e) -> named_call "cm" nm e t -> t_linsearch t = true -> ((exists o', returned (u_new_tool e g t) o') <-> none_isolated n a).
Proof. exact object_cm_iff. Qed.
Print Assumptions C98_cm_iff.
Theorem C98_cm_edges :
  forall (L : Type) (leb eqb : L -> L -> bool) (es : list (L * L)) g e nm ds t,
  total_order leb eqb -> es <> [] -> simple_edges false es ->
  u_construct leb eqb NoAdj (PairEdges es) NoSeq NoSeq = inl g ->
  NoDup ds -> (forall d, In d ds <-> exists v, is_end v es /\ d = INR (incidences eqb v es)) -> numpy_answers (List.length ds) t e ->
  In nm binary_names -> draws (v_rnd e) -> named_call "cm" nm e t /\ t_linsearch t = true \/ named_call "cm_exp" nm e t -> exists o', returned (u_new_tool e g t) o'.
Proof. exact edges_binary. Qed.
Print Assumptions C98_cm_edges.
Example C98_edges_case :
  exists g ds e, total_order Nat.leb Nat.eqb /\ map fst path_edges <> [] /\ simple_edges false (map fst path_edges) /\ INR (List.length (map fst path_edges)) <= 10 ^ 21 /\
  u_construct Nat.leb Nat.eqb NoAdj (PairEdges (map fst path_edges)) NoSeq NoSeq = inl g /\
  NoDup ds /\ (forall d, In d ds <-> exists v, is_end v (map fst path_edges) /\ d = INR (incidences Nat.eqb v (map fst path_edges))) /\ sound_numpy (List.length ds) e.
Proof. exact edges_meet. Qed.
Theorem C98_cm_exp_matrix :
  forall (L : Type) (leb eqb : L -> L -> bool) e nm n a ds t,
  (0 < n)%nat -> nonneg_matrix n a -> distinct (row_degrees n a) ds -> numpy_answers (List.length ds) t e ->
  In nm binary_names -> draws (v_rnd e) -> named_call "cm_exp" nm e t ->
  exists g, u_construct leb eqb (ArrayAdj n a) NoEdges NoSeq NoSeq = inl g /\ exists o', returned (u_new_tool e g t) o'.
Proof. exact matrix_cm_exp. Qed.
Print Assumptions C98_cm_exp_matrix.
Example C98_cm_exp_case :
  exists ds e, nonneg_matrix 4 lone_path /\ distinct (row_degrees 4 lone_path) ds /\ draws (v_rnd e) /\ ~ none_isolated 4 lone_path /\
  forall meth nm, In meth descent_methods -> exists t, named_call "cm_exp" nm e t /\ t_method t = meth /\ t_linsearch t = false /\ numpy_answers (List.length ds) t e.
Proof. exact lone_exp_case. Qed.
Theorem C98_dcm_matrix :
  forall (L : Type) (leb eqb : L -> L -> bool) e nm n a ds t,
  (0 < n)%nat -> nonneg_matrix n a -> distinct (combine (row_degrees n a) (col_degrees n a)) ds ->
  numpy_answers (2 * List.length ds) t e -> In nm binary_names -> draws (v_rnd e) -> named_call "dcm" nm e t /\ t_linsearch t = true \/ named_call "dcm_exp" nm e t ->
  exists g, d_construct leb eqb (ArrayAdj n a) NoEdges NoSeq NoSeq = inl g /\ exists o', returned (d_new_tool e g t) o'.
Proof. exact matrix_dcm. Qed.
Print Assumptions C98_dcm_matrix.
Example C98_dcm_case :
  exists ds e, nonneg_matrix 3 arrow_matrix /\ distinct (combine (row_degrees 3 arrow_matrix) (col_degrees 3 arrow_matrix)) ds /\ draws (v_rnd e) /\
  forall meth nm, In meth descent_methods -> exists t, named_call "dcm" nm e t /\ t_method t = meth /\ t_linsearch t = true /\ numpy_answers (2 * List.length ds) t e.
Proof. exact arrow_case. Qed.
Theorem C98_dcm_edges :
  forall (L : Type) (leb eqb : L -> L -> bool) (es : list (L * L)) g e nm ds t,
  total_order leb eqb -> es <> [] -> simple_edges true es ->
  d_construct leb eqb NoAdj (PairEdges es) NoSeq NoSeq = inl g ->
  NoDup ds -> (forall d, In d ds <-> exists v, is_end v es /\ d = (INR (count (fun e => eqb (fst e) v) es), INR (count (fun e => eqb (snd e) v) es))) ->
  numpy_answers (2 * List.length ds) t e -> In nm binary_names -> draws (v_rnd e) ->
  named_call "dcm" nm e t /\ t_linsearch t = true \/ named_call "dcm_exp" nm e t -> exists o', returned (d_new_tool e g t) o'.
Proof. exact edges_binary_dir. Qed.
Print Assumptions C98_dcm_edges.
Example C98_dcm_edges_case :
  exists g ds e, total_order Nat.leb Nat.eqb /\ map fst tri_edges <> [] /\ simple_edges true (map fst tri_edges) /\ INR (List.length (map fst tri_edges)) <= 10 ^ 20 /\
  d_construct Nat.leb Nat.eqb NoAdj (PairEdges (map fst tri_edges)) NoSeq NoSeq = inl g /\
  NoDup ds /\ (forall d, In d ds <-> exists v, is_end v (map fst tri_edges) /\ d = (INR (count (fun e => Nat.eqb (fst e) v) (map fst tri_edges)), INR (count (fun e => Nat.eqb (snd e) v) (map fst tri_edges)))) /\
  sound_numpy (2 * List.length ds) e /\ (forall v, is_end v (map fst tri_edges) -> (exists u, In (u, v) (map fst tri_edges)) /\ (exists u, In (v, u) (map fst tri_edges))).
Proof. exact edges_meet_dir. Qed.

(** From any starting point in the exponential models, and after any earlier solve that left
    no strengths. *)
Theorem C98_cm_exp_start :
  forall e g t o z,
  t_model t = "cm_exp"%string -> In (t_method t) descent_methods -> u_start g "cm_exp" (v_rnd e) (t_guess t) = Some z ->
  0 <= t_tol t -> quiet t e -> numpy_answers (u_length g "cm_exp") t e -> us_beta o = None -> exists o', u_tool e g t o = (o', None).
Proof. exact tool_cm_exp_completes. Qed.
Print Assumptions C98_cm_exp_start.
Theorem C98_dcm_exp_start :
  forall e g t o z,
  d_paired g -> t_model t = "dcm_exp"%string -> In (t_method t) descent_methods -> d_start g "dcm_exp" (v_rnd e) (t_guess t) = Some z ->
  0 <= t_tol t -> quiet t e -> numpy_answers (d_length g "dcm_exp") t e -> ds_bo o = None -> exists o', d_tool e g t o = (o', None).
Proof. exact tool_dcm_exp_completes. Qed.
Print Assumptions C98_dcm_exp_start.
