(** Renaming the nodes.  Nothing else in this file; proofs are in ProofsRename,
    ProofsRenameDir and WitnessRename. *)
From Coq Require Import Reals List Arith Bool ZArith String Lia Lra Permutation.
From Verif Require Import Base SpecGraph SpecDirected SpecEnsemble SpecNetwork SpecLife SpecLinsearch SpecSolver SpecDispatch SpecGuess SpecRun SpecSolve SpecTool SpecStart SpecReach SpecReachTool SpecIsolated SpecObject SpecRename
  ModelCM ModelDCM ModelNetwork ModelLife ModelSolver ModelDispatch ModelGuess ModelRun ModelSolve ModelTool ModelObject.
From Verif Require Import ProofsRename ProofsRenameDir WitnessObject WitnessIsolated WitnessRename.
Import ListNotations.
Local Open Scope string_scope.
Local Open Scope R_scope.

(** C99: a renamed network gets the same call outcome and the same parameter at each node. *)
Theorem C99_matrix :
  forall (L : Type) (leb eqb : L -> L -> bool) e n p a' a t s,
  (0 < n)%nat -> nonneg_matrix n a -> relabelling n p -> renamed_matrix n p a' a ->
  In (t_model t) ["cm"; "cm_exp"]%string -> t_guess t = GStr s ->
  exists g' g, u_construct leb eqb (ArrayAdj n a') NoEdges NoSeq NoSeq = inl g' /\ u_construct leb eqb (ArrayAdj n a) NoEdges NoSeq NoSeq = inl g /\
    u_carried (same_node n p) (u_new_tool e g' t) (u_new_tool e g t).
Proof. exact matrix_renamed. Qed.
Print Assumptions C99_matrix.
Example C99_matrix_case :
  relabelling 3 swap01 /\ renamed_matrix 3 swap01 (fun i j => path_matrix (swap01 i) (swap01 j)) path_matrix /\
  row_degrees 3 (fun i j => path_matrix (swap01 i) (swap01 j)) = map INR [2; 1; 1]%nat /\ row_degrees 3 path_matrix = map INR [1; 2; 1]%nat /\
  forall meth nm, In meth descent_methods -> In nm binary_names -> exists e t g o, t_model t = "cm"%string /\ t_method t = meth /\ t_guess t = GStr nm /\
    u_construct Nat.leb Nat.eqb (ArrayAdj 3 path_matrix) NoEdges NoSeq NoSeq = inl g /\ returned (u_new_tool e g t) o.
Proof. exact path_renamed_case. Qed.
Theorem C99_matrix_directed :
  forall (L : Type) (leb eqb : L -> L -> bool) e n p a' a t s,
  (0 < n)%nat -> nonneg_matrix n a -> relabelling n p -> renamed_matrix n p a' a ->
  In (t_model t) ["dcm"; "dcm_exp"]%string -> t_guess t = GStr s ->
  exists g' g, d_construct leb eqb (ArrayAdj n a') NoEdges NoSeq NoSeq = inl g' /\ d_construct leb eqb (ArrayAdj n a) NoEdges NoSeq NoSeq = inl g /\
    d_carried (same_node n p) (d_new_tool e g' t) (d_new_tool e g t).
Proof. exact d_matrix_renamed. Qed.
Print Assumptions C99_matrix_directed.
Example C99_matrix_directed_case :
  relabelling 3 swap01 /\ renamed_matrix 3 swap01 (fun i j => arrow_matrix (swap01 i) (swap01 j)) arrow_matrix /\ nonneg_matrix 3 arrow_matrix /\
  row_degrees 3 (fun i j => arrow_matrix (swap01 i) (swap01 j)) = map INR [0; 1; 0]%nat /\ row_degrees 3 arrow_matrix = map INR [1; 0; 0]%nat.
Proof. exact arrow_renamed_case. Qed.
Theorem C99_edges :
  forall (L L' : Type) (f : L -> L') (eqb : L -> L -> bool) (eqb' : L' -> L' -> bool)
      (leb : L -> L -> bool) (leb' : L' -> L' -> bool),
    total_order leb eqb ->
    total_order leb' eqb' ->
    (forall u v : L, f u = f v -> u = v) ->
    forall (e : environment) (es' : list (L' * L')) (es : list (L * L)) (g' g : ugraph) 
      (t : settings) (s : string),
    es <> [] ->
    renamed_edges f es' es ->
    u_construct leb' eqb' NoAdj (PairEdges es') NoSeq NoSeq = inl g' ->
    u_construct leb eqb NoAdj (PairEdges es) NoSeq NoSeq = inl g ->
    In (t_model t) ["cm"; "cm_exp"] ->
    t_guess t = GStr s ->
    exists (nodes' : list L') (nodes : list L),
      u_nodes_dict g' = Some nodes' /\
      u_nodes_dict g = Some nodes /\
      (forall v : L, In v nodes <-> is_end v es) /\
      (forall v : L, In v nodes <-> In (f v) nodes') /\
      u_carried (same_label f nodes' nodes) (u_new_tool e g' t) (u_new_tool e g t).
Proof. exact @edges_renamed. Qed.
Print Assumptions C99_edges.
Example C99_edges_case :
  renamed_edges relabel20 [(20, 30); (10, 30)]%nat (map fst path_edges) /\ map fst path_edges <> [] /\
  exists g' g, u_construct Nat.leb Nat.eqb NoAdj (PairEdges [(20, 30); (10, 30)]%nat) NoSeq NoSeq = inl g' /\ u_construct Nat.leb Nat.eqb NoAdj (PairEdges (map fst path_edges)) NoSeq NoSeq = inl g /\
    u_dseq g' = Some (map INR [1; 1; 2]%nat) /\ u_dseq g = Some (map INR [1; 2; 1]%nat).
Proof. exact edges_renamed_case. Qed.
Theorem C99_edges_directed :
  forall (L L' : Type) (f : L -> L') (eqb : L -> L -> bool) (eqb' : L' -> L' -> bool)
      (leb : L -> L -> bool) (leb' : L' -> L' -> bool),
    total_order leb eqb ->
    total_order leb' eqb' ->
    (forall u v : L, f u = f v -> u = v) ->
    forall (e : environment) (es' : list (L' * L')) (es : list (L * L)) (g' g : dgraph) 
      (t : settings) (s : string),
    es <> [] ->
    renamed_edges f es' es ->
    d_construct leb' eqb' NoAdj (PairEdges es') NoSeq NoSeq = inl g' ->
    d_construct leb eqb NoAdj (PairEdges es) NoSeq NoSeq = inl g ->
    In (t_model t) ["dcm"; "dcm_exp"] ->
    t_guess t = GStr s ->
    exists (nodes' : list L') (nodes : list L),
      d_nodes_dict g' = Some nodes' /\
      d_nodes_dict g = Some nodes /\
      (forall v : L, In v nodes <-> is_end v es) /\
      (forall v : L, In v nodes <-> In (f v) nodes') /\
      d_carried (same_label f nodes' nodes) (d_new_tool e g' t) (d_new_tool e g t).
Proof. exact @d_edges_renamed. Qed.
Print Assumptions C99_edges_directed.
Example C99_edges_directed_case :
  renamed_edges relabel20 [(20, 30); (10, 30)]%nat (map fst path_edges) /\ map fst path_edges <> [] /\
  exists g' g, d_construct Nat.leb Nat.eqb NoAdj (PairEdges [(20, 30); (10, 30)]%nat) NoSeq NoSeq = inl g' /\ d_construct Nat.leb Nat.eqb NoAdj (PairEdges (map fst path_edges)) NoSeq NoSeq = inl g /\
    d_dseq_in g' = Some (map INR [0; 0; 2]%nat) /\ d_dseq_in g = Some (map INR [0; 2; 0]%nat).
Proof. exact edges_renamed_case_dir. Qed.
(** The labels of the case are renamed injectively. *)
Example C99_labels_case :
  forall u v,
  relabel20 u = relabel20 v -> u = v.
Proof. exact relabel_injective. Qed.
(** A guess given as an array is read at one node of each degree class. *)
Theorem C99_array_refuted :
  exists e t n p z a' a g' g o' o, (0 < n)%nat /\ nonneg_matrix n a /\ relabelling n p /\ renamed_matrix n p a' a /\ In (t_model t) ["cm"; "cm_exp"]%string /\
  u_construct Nat.leb Nat.eqb (ArrayAdj n a') NoEdges NoSeq NoSeq = inl g' /\ u_construct Nat.leb Nat.eqb (ArrayAdj n a) NoEdges NoSeq NoSeq = inl g /\
  returned (u_new_tool e g' (with_guess (GArr n (fun i => z (p i))) t)) o' /\ returned (u_new_tool e g (with_guess (GArr n z) t)) o /\ ~ carried (same_node n p) (us_x o') (us_x o).
Proof. exact array_renamed_refuted. Qed.
Print Assumptions C99_array_refuted.
