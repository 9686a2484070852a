(** From a network to the sampled files: construct, solve, sample.  Nothing else in this file;
    proofs are in ProofsPipeline, WitnessReachTool and WitnessPipeline. *)
From Coq Require Import Reals List Arith Bool ZArith String Lia Lra.
From Verif Require Import Base SpecGraph SpecDirected SpecEnsemble SpecNetwork SpecLife SpecLinsearch SpecSolver SpecDispatch SpecGuess SpecRun SpecSolve SpecTool SpecReach SpecReachTool SpecNear
  ModelCM ModelDCM ModelNetwork ModelLife ModelSolver ModelDispatch ModelGuess ModelRun ModelSolve ModelTool ModelObject SpecObject ModelSampler SpecSampler SpecSamples ModelSample SpecReported.
From Verif Require Import ProofsLife ProofsLifeDir ProofsSolveU ProofsSolveD ProofsReachTool ProofsReachObject ProofsPipeline WitnessTool WitnessObject WitnessReachTool WitnessPipeline.
Import ListNotations.
Local Open Scope string_scope.
Local Open Scope R_scope.

(** C103 *)
Theorem C103_cm_exp :
  forall (L : Type) e (g : @ugraph L) nm tol n a ds,
  (0 < n)%nat -> INR n <= 10 ^ 22 -> u_dseq g = Some (row_degrees n a) ->
  symmetric n a -> (forall i, (i < n)%nat -> a i i = 0) -> distinct (row_degrees n a) ds -> sound_numpy (List.length ds) e -> In nm binary_names -> 0 < tol ->
  eventually (fun M eps => forall t, exp_call "cm_exp" nm e tol M eps t -> exists o' x p pairs,
    returned (u_new_tool e g t) o' /\ us_x o' = Some x /\ (forall i, (i < n)%nat -> 0 < x i) /\
    (forall net, un_n net = n -> u_draws net o' Unweighted (fun G => bare_outcome G p) pairs) /\
    NoDup pairs /\ (forall i j, In (i, j) pairs <-> (i < j < n)%nat) /\ (forall i j, (i < j < n)%nat -> p i j = p_ubcm x i j) /\
    (forall i, (i < n)%nat -> Rabs (touching pairs p i - deg n (links a) i) <= tol) /\
    forall z, (forall i, (i < n)%nat -> 0 < z i) ->
      prob_undirected n (p_ubcm z) (links a) <= prob_undirected n (p_ubcm x) (links a) * exp (tol * log_gap n x z)).
Proof. exact pipeline_cm. Qed.
Print Assumptions C103_cm_exp.
Theorem C103_cm_exp_matrix :
  forall (L : Type) (leb eqb : L -> L -> bool) e nm tol n a ds,
  (0 < n)%nat -> INR n <= 10 ^ 22 -> nonneg_matrix n a ->
  symmetric n a -> (forall i, (i < n)%nat -> a i i = 0) -> distinct (row_degrees n a) ds -> sound_numpy (List.length ds) e -> In nm binary_names -> 0 < tol ->
  exists g, u_construct leb eqb (ArrayAdj n a) NoEdges NoSeq NoSeq = inl g /\
  eventually (fun M eps => forall t, exp_call "cm_exp" nm e tol M eps t -> exists o' x p pairs,
    returned (u_new_tool e g t) o' /\ us_x o' = Some x /\ (forall i, (i < n)%nat -> 0 < x i) /\
    (forall net, un_n net = n -> u_draws net o' Unweighted (fun G => bare_outcome G p) pairs) /\
    NoDup pairs /\ (forall i j, In (i, j) pairs <-> (i < j < n)%nat) /\ (forall i j, (i < j < n)%nat -> p i j = p_ubcm x i j) /\
    (forall i, (i < n)%nat -> Rabs (touching pairs p i - deg n (links a) i) <= tol) /\
    forall z, (forall i, (i < n)%nat -> 0 < z i) ->
      prob_undirected n (p_ubcm z) (links a) <= prob_undirected n (p_ubcm x) (links a) * exp (tol * log_gap n x z)).
Proof. exact pipeline_cm_matrix. Qed.
Print Assumptions C103_cm_exp_matrix.
Example C103_cm_exp_case :
  exists ds e, (0 < 4)%nat /\ INR 4 <= 10 ^ 22 /\ nonneg_matrix 4 lone_path /\ symmetric 4 lone_path /\ (forall i, (i < 4)%nat -> lone_path i i = 0) /\
  distinct (row_degrees 4 lone_path) ds /\ sound_numpy (List.length ds) e /\
  forall meth nm tol M eps, In meth descent_methods -> exists t, exp_call "cm_exp" nm e tol M eps t /\ t_method t = meth.
Proof. exact lone_meets. Qed.
Theorem C103_dcm_exp :
  forall (L : Type) e (g : @dgraph L) nm tol n a ds,
  (0 < n)%nat -> INR n <= 10 ^ 21 -> d_dseq_out g = Some (row_degrees n a) -> d_dseq_in g = Some (col_degrees n a) ->
  (forall i, (i < n)%nat -> a i i = 0) -> (forall i, (i < n)%nat -> 0 < deg n (links a) i /\ 0 < indeg n (links a) i) ->
  distinct (combine (row_degrees n a) (col_degrees n a)) ds -> sound_numpy (2 * List.length ds) e -> In nm binary_names -> 0 < tol ->
  eventually (fun M eps => forall t, exp_call "dcm_exp" nm e tol M eps t -> exists o' x y p pairs,
    returned (d_new_tool e g t) o' /\ ds_x o' = Some x /\ ds_y o' = Some y /\ (forall i, (i < n)%nat -> 0 < x i /\ 0 < y i) /\
    (forall net, dn_n net = n -> d_draws net o' Unweighted (fun G => bare_outcome G p) pairs) /\
    NoDup pairs /\ (forall i j, In (i, j) pairs <-> (i < n)%nat /\ (j < n)%nat /\ i <> j) /\ (forall i j, (i < n)%nat -> (j < n)%nat -> p i j = p_dbcm x y i j) /\
    (forall i, (i < n)%nat -> Rabs (leaving pairs p i - deg n (links a) i) <= tol /\ Rabs (entering pairs p i - indeg n (links a) i) <= tol) /\
    forall z w, (forall i, (i < n)%nat -> 0 < z i /\ 0 < w i) ->
      prob_directed n (p_dbcm z w) (links a) <= prob_directed n (p_dbcm x y) (links a) * exp (tol * (log_gap n x z + log_gap n y w))).
Proof. exact pipeline_dcm. Qed.
Print Assumptions C103_dcm_exp.
Theorem C103_dcm_exp_matrix :
  forall (L : Type) (leb eqb : L -> L -> bool) e nm tol n a ds,
  (0 < n)%nat -> INR n <= 10 ^ 21 -> nonneg_matrix n a ->
  (forall i, (i < n)%nat -> a i i = 0) -> (forall i, (i < n)%nat -> 0 < deg n (links a) i /\ 0 < indeg n (links a) i) ->
  distinct (combine (row_degrees n a) (col_degrees n a)) ds -> sound_numpy (2 * List.length ds) e -> In nm binary_names -> 0 < tol ->
  exists g, d_construct leb eqb (ArrayAdj n a) NoEdges NoSeq NoSeq = inl g /\
  eventually (fun M eps => forall t, exp_call "dcm_exp" nm e tol M eps t -> exists o' x y p pairs,
    returned (d_new_tool e g t) o' /\ ds_x o' = Some x /\ ds_y o' = Some y /\ (forall i, (i < n)%nat -> 0 < x i /\ 0 < y i) /\
    (forall net, dn_n net = n -> d_draws net o' Unweighted (fun G => bare_outcome G p) pairs) /\
    NoDup pairs /\ (forall i j, In (i, j) pairs <-> (i < n)%nat /\ (j < n)%nat /\ i <> j) /\ (forall i j, (i < n)%nat -> (j < n)%nat -> p i j = p_dbcm x y i j) /\
    (forall i, (i < n)%nat -> Rabs (leaving pairs p i - deg n (links a) i) <= tol /\ Rabs (entering pairs p i - indeg n (links a) i) <= tol) /\
    forall z w, (forall i, (i < n)%nat -> 0 < z i /\ 0 < w i) ->
      prob_directed n (p_dbcm z w) (links a) <= prob_directed n (p_dbcm x y) (links a) * exp (tol * (log_gap n x z + log_gap n y w))).
Proof. exact pipeline_dcm_matrix. Qed.
Print Assumptions C103_dcm_exp_matrix.
Example C103_dcm_exp_case :
  exists ds e, (0 < 3)%nat /\ INR 3 <= 10 ^ 21 /\ nonneg_matrix 3 three_ring /\ (forall i, (i < 3)%nat -> three_ring i i = 0) /\
  (forall i, (i < 3)%nat -> 0 < deg 3 (links three_ring) i /\ 0 < indeg 3 (links three_ring) i) /\
  distinct (combine (row_degrees 3 three_ring) (col_degrees 3 three_ring)) ds /\ sound_numpy (2 * List.length ds) e /\
  forall meth nm tol M eps, In meth descent_methods -> exists t, exp_call "dcm_exp" nm e tol M eps t /\ t_method t = meth.
Proof. exact three_ring_meets. Qed.
