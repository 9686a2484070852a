(** Calls of solve_tool that are bound to reach the tolerance.  Nothing else in this file;
    proofs are in ProofsReachTool, ProofsReachObject and WitnessReachTool. *)
From Coq Require Import Reals List Arith Bool ZArith String Lia Lra.
From Verif Require Import Base SpecGraph SpecDirected SpecEnsemble SpecNetwork SpecLife SpecLinsearch SpecSolver SpecDispatch SpecGuess SpecRun SpecSolve SpecTool SpecReach SpecReachTool
  ModelCM ModelDCM ModelNetwork ModelLife ModelSolver ModelDispatch ModelGuess ModelRun ModelSolve ModelTool ModelObject SpecObject.
From Verif Require Import ProofsSolveU ProofsSolveD ProofsReachTool ProofsReachObject WitnessTool WitnessObject WitnessReachTool.
Import ListNotations.
Local Open Scope string_scope.
Local Open Scope R_scope.

(** C97: solve_tool with "cm_exp" or "dcm_exp" and a descent method solves every network.
    First an explicit step budget, then from some budget on. *)
Theorem C97_cm_exp_budget :
  forall (e : environment) (g : unet) (a : nat -> nat -> bool) (t : settings) (o : ustate) (x0 : nat -> R),
    (0 < un_n g)%nat ->
    simple_graph (un_n g) a ->
    (forall i : nat, (i < un_n g)%nat -> at_list (un_dseq g) i = deg (un_n g) a i) ->
    linear_solver (u_length g "cm_exp") (v_linsolve e) ->
    solves_definite (u_length g "cm_exp") (v_linsolve e) ->
    eigen_solver (u_length g "cm_exp") (v_eigh e) ->
    t_model t = "cm_exp" ->
    In (t_method t) descent_methods ->
    t_linsearch t = true ->
    quiet t e ->
    us_beta o = None ->
    u_start g "cm_exp" (v_rnd e) (t_guess t) = Some x0 ->
    ample (u_length g "cm_exp") (INR (un_n g) * INR (un_n g))
      (-
       loglikelihood_cm_exp (u_length g "cm_exp") (at_list (np_unique Nat.leb Nat.eqb (un_dseq g)))
         (at_list (np_counts Nat.leb Nat.eqb (un_dseq g))) x0)
      (with_verbose false (with_full true (t_options t (t_method t) true))) ->
    exists o' : ustate, u_tool e g t o = (o', None) /\ u_fitted (un_n g) a (t_tol t) o'.
Proof. exact tool_cm_exp_budget. Qed.
Print Assumptions C97_cm_exp_budget.
Theorem C97_cm_exp_start :
  forall (e : environment) (g : unet) (a : nat -> nat -> bool) (tol : R) (s : guess) (x0 : nat -> R),
    (0 < un_n g)%nat ->
    INR (un_n g) <= 10 ^ 22 ->
    simple_graph (un_n g) a ->
    (forall i : nat, (i < un_n g)%nat -> at_list (un_dseq g) i = deg (un_n g) a i) ->
    linear_solver (u_length g "cm_exp") (v_linsolve e) ->
    solves_definite (u_length g "cm_exp") (v_linsolve e) ->
    eigen_solver (u_length g "cm_exp") (v_eigh e) ->
    u_start g "cm_exp" (v_rnd e) s = Some x0 ->
    0 < tol ->
    eventually
      (fun (M : nat) (eps : R) =>
       forall (t : settings) (o : ustate),
       t_model t = "cm_exp" ->
       In (t_method t) descent_methods ->
       t_guess t = s ->
       t_linsearch t = true ->
       quiet t e ->
       t_tol t = tol ->
       t_max_steps t = M ->
       t_eps t = eps ->
       us_beta o = None -> exists o' : ustate, u_tool e g t o = (o', None) /\ u_fitted (un_n g) a tol o').
Proof. exact tool_cm_exp_reaches. Qed.
Print Assumptions C97_cm_exp_start.
Theorem C97_cm_exp_named :
  forall (e : environment) (g : unet) (a : nat -> nat -> bool) (tol : R) (nm : string),
    (0 < un_n g)%nat ->
    INR (un_n g) <= 10 ^ 22 ->
    simple_graph (un_n g) a ->
    (forall i : nat, (i < un_n g)%nat -> at_list (un_dseq g) i = deg (un_n g) a i) ->
    linear_solver (u_length g "cm_exp") (v_linsolve e) ->
    solves_definite (u_length g "cm_exp") (v_linsolve e) ->
    eigen_solver (u_length g "cm_exp") (v_eigh e) ->
    In nm binary_names ->
    draws (v_rnd e) ->
    0 < tol ->
    eventually
      (fun (M : nat) (eps : R) =>
       forall (t : settings) (o : ustate),
       t_model t = "cm_exp" ->
       In (t_method t) descent_methods ->
       t_guess t = GStr nm ->
       t_linsearch t = true ->
       quiet t e ->
       t_tol t = tol ->
       t_max_steps t = M ->
       t_eps t = eps ->
       us_beta o = None -> exists o' : ustate, u_tool e g t o = (o', None) /\ u_fitted (un_n g) a tol o').
Proof. exact tool_cm_exp_named. Qed.
Print Assumptions C97_cm_exp_named.
Theorem C97_cm_exp_object :
  forall (L : Type) e (g : @ugraph L) nm tol n a ds,
  (0 < n)%nat -> INR n <= 10 ^ 22 -> u_dseq g = Some (row_degrees n a) ->
  symmetric n a -> (forall i, (i < n)%nat -> a i i = 0) -> distinct (row_degrees n a) ds -> sound_numpy (List.length ds) e -> In nm binary_names -> 0 < tol ->
  eventually (fun M eps => forall t, exp_call "cm_exp" nm e tol M eps t -> exists o', returned (u_new_tool e g t) o' /\ u_fitted n (links a) tol o').
Proof. exact object_cm_exp_data. Qed.
Print Assumptions C97_cm_exp_object.
Theorem C97_cm_exp_matrix :
  forall (L : Type) (leb eqb : L -> L -> bool) e nm tol n a ds,
  (0 < n)%nat -> INR n <= 10 ^ 22 -> nonneg_matrix n a ->
  symmetric n a -> (forall i, (i < n)%nat -> a i i = 0) -> distinct (row_degrees n a) ds -> sound_numpy (List.length ds) e -> In nm binary_names -> 0 < tol ->
  exists g, u_construct leb eqb (ArrayAdj n a) NoEdges NoSeq NoSeq = inl g /\
    eventually (fun M eps => forall t, exp_call "cm_exp" nm e tol M eps t -> exists o', returned (u_new_tool e g t) o' /\ u_fitted n (links a) tol o').
Proof. exact object_cm_exp. Qed.
Print Assumptions C97_cm_exp_matrix.
Example C97_matrix_example :
  exists ds e, (0 < 4)%nat /\ INR 4 <= 10 ^ 22 /\ nonneg_matrix 4 lone_path /\ symmetric 4 lone_path /\ (forall i, (i < 4)%nat -> lone_path i i = 0) /\
  distinct (row_degrees 4 lone_path) ds /\ sound_numpy (List.length ds) e /\
  forall meth nm tol M eps, In meth descent_methods -> exists t, exp_call "cm_exp" nm e tol M eps t /\ t_method t = meth.
Proof. exact lone_meets. Qed.
Theorem C97_cm_exp_edges :
  forall (L : Type) (leb eqb : L -> L -> bool) (es : list (L * L)) g e nm tol ds,
  total_order leb eqb -> es <> [] -> simple_edges false es -> INR (List.length es) <= 10 ^ 21 ->
  u_construct leb eqb NoAdj (PairEdges es) NoSeq NoSeq = inl g ->
  NoDup ds -> (forall d, In d ds <-> exists v, is_end v es /\ d = INR (incidences eqb v es)) -> sound_numpy (List.length ds) e -> In nm binary_names -> 0 < tol ->
  eventually (fun M eps => forall t, exp_call "cm_exp" nm e tol M eps t ->
    exists o' nodes ob x err, returned (u_new_tool e g t) o' /\ u_nodes_dict g = Some nodes /\ (forall v, In v nodes <-> is_end v es) /\
      observed nodes (fun v => INR (incidences eqb v es)) ob /\ us_x o' = Some x /\ us_err o' = Some err /\
      sup_dev (List.length nodes) (fun i => mean_undirected (List.length nodes) (p_ubcm x) (fun a => deg (List.length nodes) a i)) ob err /\ err <= tol).
Proof. exact edges_cm_exp. Qed.
Print Assumptions C97_cm_exp_edges.
Example C97_edges_example :
  exists g ds e, total_order Nat.leb Nat.eqb /\ map fst path_edges <> [] /\ simple_edges false (map fst path_edges) /\ INR (List.length (map fst path_edges)) <= 10 ^ 21 /\
  u_construct Nat.leb Nat.eqb NoAdj (PairEdges (map fst path_edges)) NoSeq NoSeq = inl g /\
  NoDup ds /\ (forall d, In d ds <-> exists v, is_end v (map fst path_edges) /\ d = INR (incidences Nat.eqb v (map fst path_edges))) /\ sound_numpy (List.length ds) e.
Proof. exact edges_meet. Qed.

Theorem C97_dcm_exp_budget :
  forall (e : environment) (g : dnet) (a : nat -> nat -> bool) (t : settings) (o : dstate) (x0 : nat -> R),
    (0 < dn_n g)%nat ->
    d_paired g ->
    loopless (dn_n g) a ->
    (forall i : nat, (i < dn_n g)%nat -> at_list (dn_out g) i = deg (dn_n g) a i) ->
    (forall i : nat, (i < dn_n g)%nat -> at_list (dn_in g) i = indeg (dn_n g) a i) ->
    linear_solver (d_length g "dcm_exp") (v_linsolve e) ->
    solves_definite (d_length g "dcm_exp") (v_linsolve e) ->
    eigen_solver (d_length g "dcm_exp") (v_eigh e) ->
    t_model t = "dcm_exp" ->
    In (t_method t) descent_methods ->
    t_linsearch t = true ->
    quiet t e ->
    ds_bo o = None ->
    d_start g "dcm_exp" (v_rnd e) (t_guess t) = Some x0 ->
    ample (d_length g "dcm_exp") (INR (dn_n g) * INR (dn_n g))
      (-
       loglikelihood_dcm_exp (d_classes_n g) (at_list (rnz_dseq_out (d_red g))) (at_list (rnz_dseq_in (d_red g)))
         (nz_index_out (d_red g)) (nz_index_in (d_red g)) (at_list (r_multiplicity (d_red g))) x0)
      (with_verbose false (with_full true (t_options t (t_method t) true))) ->
    exists o' : dstate, d_tool e g t o = (o', None) /\ d_fitted (dn_n g) a (t_tol t) o'.
Proof. exact tool_dcm_exp_budget. Qed.
Print Assumptions C97_dcm_exp_budget.
Theorem C97_dcm_exp_start :
  forall (e : environment) (g : dnet) (a : nat -> nat -> bool) (tol : R) (s : guess) (x0 : nat -> R),
    (0 < dn_n g)%nat ->
    INR (dn_n g) <= 10 ^ 21 ->
    d_paired g ->
    loopless (dn_n g) a ->
    (forall i : nat, (i < dn_n g)%nat -> at_list (dn_out g) i = deg (dn_n g) a i) ->
    (forall i : nat, (i < dn_n g)%nat -> at_list (dn_in g) i = indeg (dn_n g) a i) ->
    linear_solver (d_length g "dcm_exp") (v_linsolve e) ->
    solves_definite (d_length g "dcm_exp") (v_linsolve e) ->
    eigen_solver (d_length g "dcm_exp") (v_eigh e) ->
    d_start g "dcm_exp" (v_rnd e) s = Some x0 ->
    0 < tol ->
    eventually
      (fun (M : nat) (eps : R) =>
       forall (t : settings) (o : dstate),
       t_model t = "dcm_exp" ->
       In (t_method t) descent_methods ->
       t_guess t = s ->
       t_linsearch t = true ->
       quiet t e ->
       t_tol t = tol ->
       t_max_steps t = M ->
       t_eps t = eps ->
       ds_bo o = None -> exists o' : dstate, d_tool e g t o = (o', None) /\ d_fitted (dn_n g) a tol o').
Proof. exact tool_dcm_exp_reaches. Qed.
Print Assumptions C97_dcm_exp_start.
Theorem C97_dcm_exp_named :
  forall (e : environment) (g : dnet) (a : nat -> nat -> bool) (tol : R) (nm : string),
    (0 < dn_n g)%nat ->
    INR (dn_n g) <= 10 ^ 21 ->
    d_paired g ->
    loopless (dn_n g) a ->
    (forall i : nat, (i < dn_n g)%nat -> at_list (dn_out g) i = deg (dn_n g) a i) ->
    (forall i : nat, (i < dn_n g)%nat -> at_list (dn_in g) i = indeg (dn_n g) a i) ->
    linear_solver (d_length g "dcm_exp") (v_linsolve e) ->
    solves_definite (d_length g "dcm_exp") (v_linsolve e) ->
    eigen_solver (d_length g "dcm_exp") (v_eigh e) ->
    In nm binary_names ->
    draws (v_rnd e) ->
    0 < tol ->
    eventually
      (fun (M : nat) (eps : R) =>
       forall (t : settings) (o : dstate),
       t_model t = "dcm_exp" ->
       In (t_method t) descent_methods ->
       t_guess t = GStr nm ->
       t_linsearch t = true ->
       quiet t e ->
       t_tol t = tol ->
       t_max_steps t = M ->
       t_eps t = eps ->
       ds_bo o = None -> exists o' : dstate, d_tool e g t o = (o', None) /\ d_fitted (dn_n g) a tol o').
Proof. exact tool_dcm_exp_named. Qed.
Print Assumptions C97_dcm_exp_named.
Theorem C97_dcm_exp_object :
  forall (L : Type) e (g : @dgraph L) nm tol n a ds,
  (0 < n)%nat -> INR n <= 10 ^ 21 -> d_dseq_out g = Some (row_degrees n a) -> d_dseq_in g = Some (col_degrees n a) ->
  (forall i, (i < n)%nat -> a i i = 0) -> distinct (combine (row_degrees n a) (col_degrees n a)) ds -> sound_numpy (2 * List.length ds) e -> In nm binary_names -> 0 < tol ->
  eventually (fun M eps => forall t, exp_call "dcm_exp" nm e tol M eps t -> exists o', returned (d_new_tool e g t) o' /\ d_fitted n (links a) tol o').
Proof. exact object_dcm_exp_data. Qed.
Print Assumptions C97_dcm_exp_object.
Theorem C97_dcm_exp_matrix :
  forall (L : Type) (leb eqb : L -> L -> bool) e nm tol n a ds,
  (0 < n)%nat -> INR n <= 10 ^ 21 -> nonneg_matrix n a ->
  (forall i, (i < n)%nat -> a i i = 0) -> distinct (combine (row_degrees n a) (col_degrees n a)) ds -> sound_numpy (2 * List.length ds) e -> In nm binary_names -> 0 < tol ->
  exists g, d_construct leb eqb (ArrayAdj n a) NoEdges NoSeq NoSeq = inl g /\
    eventually (fun M eps => forall t, exp_call "dcm_exp" nm e tol M eps t -> exists o', returned (d_new_tool e g t) o' /\ d_fitted n (links a) tol o').
Proof. exact object_dcm_exp. Qed.
Print Assumptions C97_dcm_exp_matrix.
Example C97_matrix_directed_example :
  exists ds e, (0 < 3)%nat /\ INR 3 <= 10 ^ 21 /\ nonneg_matrix 3 source_net /\ (forall i, (i < 3)%nat -> source_net i i = 0) /\
  distinct (combine (row_degrees 3 source_net) (col_degrees 3 source_net)) ds /\ sound_numpy (2 * List.length ds) e /\
  forall meth nm tol M eps, In meth descent_methods -> exists t, exp_call "dcm_exp" nm e tol M eps t /\ t_method t = meth.
Proof. exact source_meets. Qed.
Theorem C97_dcm_exp_edges :
  forall (L : Type) (leb eqb : L -> L -> bool) (es : list (L * L)) g e nm tol ds,
  total_order leb eqb -> es <> [] -> simple_edges true es -> INR (List.length es) <= 10 ^ 20 ->
  d_construct leb eqb NoAdj (PairEdges es) NoSeq NoSeq = inl g ->
  NoDup ds -> (forall d, In d ds <-> exists v, is_end v es /\ d = (INR (count (fun e => eqb (fst e) v) es), INR (count (fun e => eqb (snd e) v) es))) ->
  sound_numpy (2 * List.length ds) e -> In nm binary_names -> 0 < tol ->
  eventually (fun M eps => forall t, exp_call "dcm_exp" nm e tol M eps t ->
    exists o' nodes oo oi x y e1 e2, returned (d_new_tool e g t) o' /\ d_nodes_dict g = Some nodes /\ (forall v, In v nodes <-> is_end v es) /\
      observed nodes (fun v => INR (count (fun e => eqb (fst e) v) es)) oo /\ observed nodes (fun v => INR (count (fun e => eqb (snd e) v) es)) oi /\
      ds_x o' = Some x /\ ds_y o' = Some y /\ ds_err o' = Some (Rmax e1 e2) /\
      sup_dev (List.length nodes) (fun i => mean_directed (List.length nodes) (p_dbcm x y) (fun a => deg (List.length nodes) a i)) oo e1 /\
      sup_dev (List.length nodes) (fun i => mean_directed (List.length nodes) (p_dbcm x y) (fun a => indeg (List.length nodes) a i)) oi e2 /\
      ((forall v, is_end v es -> (exists u, In (u, v) es) /\ (exists u, In (v, u) es)) -> e1 <= tol /\ e2 <= tol)).
Proof. exact edges_dcm_exp. Qed.
Print Assumptions C97_dcm_exp_edges.
Example C97_edges_directed_example :
  exists g ds e, total_order Nat.leb Nat.eqb /\ map fst tri_edges <> [] /\ simple_edges true (map fst tri_edges) /\ INR (List.length (map fst tri_edges)) <= 10 ^ 20 /\
  d_construct Nat.leb Nat.eqb NoAdj (PairEdges (map fst tri_edges)) NoSeq NoSeq = inl g /\
  NoDup ds /\ (forall d, In d ds <-> exists v, is_end v (map fst tri_edges) /\ d = (INR (count (fun e => Nat.eqb (fst e) v) (map fst tri_edges)), INR (count (fun e => Nat.eqb (snd e) v) (map fst tri_edges)))) /\
  sound_numpy (2 * List.length ds) e /\ (forall v, is_end v (map fst tri_edges) -> (exists u, In (u, v) (map fst tri_edges)) /\ (exists u, In (v, u) (map fst tri_edges))).
Proof. exact edges_meet_dir. Qed.
