(** solve_tool on objects built from the user's data.  Nothing else in this file; proofs are
    in ProofsObject, ProofsObjectForms, ProofsObjectLabels and WitnessObject. *)
From Coq Require Import Reals List Arith Bool ZArith Lia Lra String.
From Verif Require Import Base SpecGraph SpecDirected SpecWeighted SpecCReMa SpecEnsemble SpecNetwork SpecLife SpecSolve SpecDispatch
  ModelCM ModelECM ModelDCM ModelDECM ModelCReMa ModelNetwork ModelLife ModelGuess ModelDispatch ModelSolve ModelTool SpecTool ModelObject SpecObject
  ProofsGraph ProofsEnsemble ProofsSolve ProofsSolveU ProofsSolveD ProofsTool ProofsToolD ProofsObject ProofsObjectForms ProofsObjectLabels
  WitnessTool WitnessObject.
Import ListNotations.
Local Open Scope string_scope.
Local Open Scope R_scope.

(** C93: the same network in two forms gives objects on which every call of solve_tool ends
    alike.  Array and sparse matrix; edges and their matrix; sequences and their matrix. *)
Theorem C93_matrix_kinds :
  forall (L : Type) (leb eqb : L -> L -> bool) (k : matkind) (stored n : nat) (a : matrix),
    k <> OtherKind ->
    (0 < stored)%nat ->
    (0 < n)%nat ->
    nonneg_matrix n a ->
    exists g g' : ugraph,
      u_construct leb eqb (ArrayAdj n a) NoEdges NoSeq NoSeq = inl g /\
      u_construct leb eqb (SparseAdj k stored n a) NoEdges NoSeq NoSeq = inl g' /\
      (forall (e : environment) (t : settings), u_alike (u_new_tool e g t) (u_new_tool e g' t)).
Proof. exact object_u_matrix. Qed.
Print Assumptions C93_matrix_kinds.
Theorem C93_matrix_kinds_directed :
  forall (L : Type) (leb eqb : L -> L -> bool) (k : matkind) (stored n : nat) (a : matrix),
    k <> OtherKind ->
    (0 < stored)%nat ->
    (0 < n)%nat ->
    nonneg_matrix n a ->
    exists g g' : dgraph,
      d_construct leb eqb (ArrayAdj n a) NoEdges NoSeq NoSeq = inl g /\
      d_construct leb eqb (SparseAdj k stored n a) NoEdges NoSeq NoSeq = inl g' /\
      (forall (e : environment) (t : settings), d_alike (d_new_tool e g t) (d_new_tool e g' t)).
Proof. exact object_d_matrix. Qed.
Print Assumptions C93_matrix_kinds_directed.
Example C93_matrix_example :
  Csr <> OtherKind /\ (0 < 4)%nat /\ (0 < 3)%nat /\ nonneg_matrix 3 tri_weights /\ excess 3 tri_weights <> 0.
Proof. exact matrix_case. Qed.

Theorem C93_edges :
  forall (L : Type) (leb eqb : L -> L -> bool) (es : list (L * L)),
    total_order leb eqb ->
    es <> [] ->
    simple_edges false es ->
    exists (g : ugraph) (es' : list (nat * nat)) (n : nat) (a : matrix) (g' : ugraph),
      u_construct leb eqb NoAdj (PairEdges es) NoSeq NoSeq = inl g /\
      u_edgelist g = Some (map (fun e : nat * nat => (e, None)) es') /\
      build_adjacency_fast es' false = Adj n a /\
      u_construct leb eqb (ArrayAdj n a) NoEdges NoSeq NoSeq = inl g' /\
      (forall (e : environment) (t : settings), u_alike (u_new_tool e g t) (u_new_tool e g' t)).
Proof. exact object_u_edges. Qed.
Print Assumptions C93_edges.
Theorem C93_edges_directed :
  forall (L : Type) (leb eqb : L -> L -> bool) (es : list (L * L)),
    total_order leb eqb ->
    es <> [] ->
    simple_edges true es ->
    exists (g : dgraph) (es' : list (nat * nat)) (n : nat) (a : matrix) (g' : dgraph),
      d_construct leb eqb NoAdj (PairEdges es) NoSeq NoSeq = inl g /\
      d_edgelist g = Some (map (fun e : nat * nat => (e, None)) es') /\
      build_adjacency_fast es' true = Adj n a /\
      d_construct leb eqb (ArrayAdj n a) NoEdges NoSeq NoSeq = inl g' /\
      (forall (e : environment) (t : settings), d_alike (d_new_tool e g t) (d_new_tool e g' t)).
Proof. exact object_d_edges. Qed.
Print Assumptions C93_edges_directed.
Theorem C93_weighted_edges :
  forall (L : Type) (leb eqb : L -> L -> bool) (es : list (L * L * R)),
    total_order leb eqb ->
    es <> [] ->
    simple_edges false (map fst es) ->
    (forall e : L * L * R, In e es -> 0 < snd e) ->
    exists (g : ugraph) (es' : list (nat * nat * R)) (n : nat) (a : matrix) (g' : ugraph),
      u_construct leb eqb NoAdj (TripleEdges es) NoSeq NoSeq = inl g /\
      u_edgelist g = Some (map (fun e : nat * nat * R => (fst e, Some (snd e))) es') /\
      build_adjacency_fast_weighted es' false = Adj n a /\
      u_construct leb eqb (ArrayAdj n a) NoEdges NoSeq NoSeq = inl g' /\
      (excess n a <> 0 -> forall (e : environment) (t : settings), u_alike (u_new_tool e g t) (u_new_tool e g' t)).
Proof. exact object_u_weighted_edges. Qed.
Print Assumptions C93_weighted_edges.
Theorem C93_weighted_edges_directed_partial :
  forall (L : Type) (leb eqb : L -> L -> bool) (es : list (L * L * R)),
    total_order leb eqb ->
    es <> [] ->
    simple_edges true (map fst es) ->
    (forall e : L * L * R, In e es -> 0 < snd e) ->
    exists (g : dgraph) (es' : list (nat * nat * R)) (n : nat) (a : matrix) (g' : dgraph),
      d_construct leb eqb NoAdj (TripleEdges es) NoSeq NoSeq = inl g /\
      d_edgelist g = Some (map (fun e : nat * nat * R => (fst e, Some (snd e))) es') /\
      build_adjacency_fast_weighted es' true = Adj n a /\
      d_construct leb eqb (ArrayAdj n a) NoEdges NoSeq NoSeq = inl g' /\
      (excess n a <> 0 ->
       forall (e : environment) (t : settings),
       In (t_model t) ["dcm"; "dcm_exp"] \/ t_model t = "crema-sparse" /\ t_method t = "fixed-point" /\ t_verbose t = false ->
       d_alike (d_new_tool e g t) (d_new_tool e g' t)).
Proof. exact object_d_weighted_edges. Qed.
Print Assumptions C93_weighted_edges_directed_partial.
Example C93_edges_example :
  total_order Nat.leb Nat.eqb /\ path_edges <> [] /\ simple_edges false (map fst path_edges) /\ (forall e, In e path_edges -> 0 < snd e) /\
  tri_edges <> [] /\ simple_edges true (map fst tri_edges) /\ (forall e, In e tri_edges -> 0 < snd e).
Proof. exact edges_case. Qed.

Theorem C93_sequences :
  forall (L : Type) (leb eqb : L -> L -> bool) (n : nat) (a : matrix),
    (0 < n)%nat ->
    nonneg_matrix n a ->
    exists g g' : ugraph,
      u_construct leb eqb (ArrayAdj n a) NoEdges NoSeq NoSeq = inl g /\
      u_construct leb eqb NoAdj NoEdges (SeqArray (row_degrees n a))
        (if Req_EM_T (excess n a) 0 then NoSeq else SeqArray (row_strengths n a)) = inl g' /\
      (forall (e : environment) (t : settings), u_alike (u_new_tool e g t) (u_new_tool e g' t)).
Proof. exact object_u_sequences. Qed.
Print Assumptions C93_sequences.
Theorem C93_sequences_directed :
  forall (L : Type) (leb eqb : L -> L -> bool) (n : nat) (a : matrix),
    (0 < n)%nat ->
    nonneg_matrix n a ->
    exists g g' : dgraph,
      d_construct leb eqb (ArrayAdj n a) NoEdges NoSeq NoSeq = inl g /\
      d_construct leb eqb NoAdj NoEdges (SeqArray (row_degrees n a ++ col_degrees n a))
        (if Req_EM_T (excess n a) 0 then NoSeq else SeqArray (row_strengths n a ++ col_strengths n a)) = 
      inl g' /\ (forall (e : environment) (t : settings), d_alike (d_new_tool e g t) (d_new_tool e g' t)).
Proof. exact object_d_sequences. Qed.
Print Assumptions C93_sequences_directed.

(** Weighted matrices: the calls are those of ModelTool on the network of the matrix. *)
Theorem C93_weighted_matrix :
  forall (L : Type) (leb eqb : L -> L -> bool) (n : nat) (a : matrix),
    (0 < n)%nat ->
    nonneg_matrix n a ->
    excess n a <> 0 ->
    exists (g : ugraph) (net : unet),
      u_construct leb eqb (ArrayAdj n a) NoEdges NoSeq NoSeq = inl g /\
      map INR (un_dseq net) = row_degrees n a /\
      (forall i : nat, (i < n)%nat -> un_str net i = rsum n (a i)) /\
      (forall (e : environment) (t : settings),
       u_new_tool e g t = Run (u_tool e net t (u_fresh false)) (u_report e net t (u_fresh false))).
Proof. exact object_u_net. Qed.
Print Assumptions C93_weighted_matrix.
Theorem C93_weighted_matrix_directed :
  forall (L : Type) (leb eqb : L -> L -> bool) (n : nat) (a : matrix),
    (0 < n)%nat ->
    nonneg_matrix n a ->
    excess n a <> 0 ->
    exists (g : dgraph) (net : dnet),
      d_construct leb eqb (ArrayAdj n a) NoEdges NoSeq NoSeq = inl g /\
      map INR (dn_out net) = row_degrees n a /\
      map INR (dn_in net) = col_degrees n a /\
      (forall i : nat, (i < n)%nat -> dn_sout net i = rsum n (a i)) /\
      (forall i : nat, (i < n)%nat -> dn_sin net i = rsum n (fun j : nat => a j i)) /\
      (forall (e : environment) (t : settings),
       d_new_tool e g t = Run (d_tool e net t (d_fresh false)) (d_report e net t (d_fresh false))).
Proof. exact object_d_net. Qed.
Print Assumptions C93_weighted_matrix_directed.

(** The form matters: directed CReMa and DECM on a list of weighted edges, and weights all equal to 1. *)
Theorem C93_crema_edges_raises :
  forall (L : Type) (leb eqb : L -> L -> bool) (es : list (L * L * R)) (g : dgraph)
      (e : environment) (t : settings) (o' : dstate),
    es <> [] ->
    d_construct leb eqb NoAdj (TripleEdges es) NoSeq NoSeq = inl g ->
    In (t_model t) ["crema"; "crema-sparse"] ->
    In (t_method t) ["newton"; "quasinewton"] \/ t_model t = "crema" \/ t_verbose t = true -> ~ returned (d_new_tool e g t) o'.
Proof. exact object_crema_edges_raises. Qed.
Print Assumptions C93_crema_edges_raises.
Theorem C93_crema_edges_refuted :
  exists (g : dgraph) (e : environment) (t : settings) (o' : dstate),
      d_construct Nat.leb Nat.eqb (ArrayAdj 3 tri_weights) NoEdges NoSeq NoSeq = inl g /\
      t_model t = "crema" /\
      t_method t = "newton" /\
      returned (d_new_tool e g t) o' /\
      (exists ge : dgraph,
         d_construct Nat.leb Nat.eqb NoAdj (TripleEdges tri_edges) NoSeq NoSeq = inl ge /\
         d_dseq_out ge = d_dseq_out g /\
         d_dseq_in ge = d_dseq_in g /\
         d_out_strength ge = d_out_strength g /\
         d_in_strength ge = d_in_strength g /\ (forall o'' : dstate, ~ returned (d_new_tool e ge t) o'')).
Proof. exact object_crema_edges_refuted. Qed.
Print Assumptions C93_crema_edges_refuted.
Theorem C93_decm_edges_raises :
  forall (L : Type) (leb eqb : L -> L -> bool) (es : list (L * L * R)) (g : dgraph)
      (e : environment) (t : settings) (o' : dstate),
    es <> [] ->
    d_construct leb eqb NoAdj (TripleEdges es) NoSeq NoSeq = inl g ->
    In (t_model t) ["decm"; "decm_exp"] -> ~ returned (d_new_tool e g t) o'.
Proof. exact object_decm_edges_raises. Qed.
Print Assumptions C93_decm_edges_raises.
Theorem C93_decm_edges_refuted :
  forall m meth : string,
    In m ["decm"; "decm_exp"] ->
    In meth descent_methods ->
    exists (g : dgraph) (e : environment) (t : settings) (o' : dstate),
      d_construct Nat.leb Nat.eqb (ArrayAdj 3 tri_weights) NoEdges NoSeq NoSeq = inl g /\
      t_model t = m /\
      t_method t = meth /\
      returned (d_new_tool e g t) o' /\
      (exists ge : dgraph,
         d_construct Nat.leb Nat.eqb NoAdj (TripleEdges tri_edges) NoSeq NoSeq = inl ge /\
         d_dseq_out ge = d_dseq_out g /\
         d_dseq_in ge = d_dseq_in g /\
         d_out_strength ge = d_out_strength g /\
         d_in_strength ge = d_in_strength g /\ (forall o'' : dstate, ~ returned (d_new_tool e ge t) o'')).
Proof. exact object_decm_edges_refuted. Qed.
Print Assumptions C93_decm_edges_refuted.
Example C93_crema_edges_same_matrix :
  exists g es', d_construct Nat.leb Nat.eqb NoAdj (TripleEdges tri_edges) NoSeq NoSeq = inl g /\
  d_edgelist g = Some (map (fun e => (fst e, Some (snd e))) es') /\
  exists a, build_adjacency_fast_weighted es' true = Adj 3 a /\ forall i j, (i < 3)%nat -> (j < 3)%nat -> a i j = tri_weights i j.
Proof. exact tri_matrix_of_edges. Qed.
Theorem C93_unit_matrix_missing :
  forall (L : Type) (leb eqb : L -> L -> bool) (n : nat) (a : matrix) (g : ugraph) (e : environment)
      (t : settings),
    (0 < n)%nat ->
    nonneg_matrix n a ->
    excess n a = 0 ->
    u_construct leb eqb (ArrayAdj n a) NoEdges NoSeq NoSeq = inl g ->
    In (t_model t) ["ecm"; "ecm_exp"; "crema"; "crema-sparse"] -> u_new_tool e g t = Missing.
Proof. exact object_unit_matrix_missing. Qed.
Print Assumptions C93_unit_matrix_missing.
Theorem C93_unit_weights_refuted :
  exists
      (ge : ugraph) (es' : list (nat * nat * R)) (a : matrix) (g : ugraph) (e : environment) 
    (t : settings) (o' : ustate),
      u_construct Nat.leb Nat.eqb NoAdj (TripleEdges unit_edges) NoSeq NoSeq = inl ge /\
      u_edgelist ge = Some (map (fun e0 : nat * nat * R => (fst e0, Some (snd e0))) es') /\
      build_adjacency_fast_weighted es' false = Adj 3 a /\
      u_construct Nat.leb Nat.eqb (ArrayAdj 3 a) NoEdges NoSeq NoSeq = inl g /\
      t_model t = "ecm" /\ returned (u_new_tool e ge t) o' /\ u_new_tool e g t = Missing.
Proof. exact object_unit_weights_refuted. Qed.
Print Assumptions C93_unit_weights_refuted.

(** C94: after a completed call on an object built from edges, the reported error is the
    largest deviation from the degrees and strengths of the user's labels. *)
Theorem C94_cm :
  forall (L : Type) (leb eqb : L -> L -> bool) (es : list (L * L)) (g : ugraph) (e : environment)
      (t : settings) (o' : ustate),
    total_order leb eqb ->
    es <> [] ->
    u_construct leb eqb NoAdj (PairEdges es) NoSeq NoSeq = inl g ->
    In (t_model t) ["cm"; "cm_exp"] ->
    returned (u_new_tool e g t) o' ->
    exists (nodes : list L) (ob x : nat -> R) (err : R),
      u_nodes_dict g = Some nodes /\
      increasing leb nodes /\
      (forall v : L, In v nodes <-> is_end v es) /\
      observed nodes (fun v : L => INR (incidences eqb v es)) ob /\
      us_x o' = Some x /\
      us_err o' = Some err /\
      (forall i j : nat,
       (i < Datatypes.length nodes)%nat -> (j < Datatypes.length nodes)%nat -> ob i = ob j -> x i = x j) /\
      sup_dev (Datatypes.length nodes)
        (fun i : nat =>
         mean_undirected (Datatypes.length nodes) (p_ubcm x)
           (fun a : nat -> nat -> bool => deg (Datatypes.length nodes) a i)) ob err.
Proof. exact labels_cm. Qed.
Print Assumptions C94_cm.
Example C94_cm_example :
  forall m meth,
  In m ["cm"; "cm_exp"]%string -> In meth descent_methods ->
  exists g e t o', total_order Nat.leb Nat.eqb /\ u_construct Nat.leb Nat.eqb NoAdj (PairEdges (map fst path_edges)) NoSeq NoSeq = inl g /\
    t_model t = m /\ t_method t = meth /\ returned (u_new_tool e g t) o'.
Proof. exact labels_cm_case. Qed.

Theorem C94_ecm :
  forall (L : Type) (leb eqb : L -> L -> bool) (es : list (L * L * R)) (g : ugraph)
      (e : environment) (t : settings) (o' : ustate),
    total_order leb eqb ->
    es <> [] ->
    u_construct leb eqb NoAdj (TripleEdges es) NoSeq NoSeq = inl g ->
    In (t_model t) ["ecm"; "ecm_exp"] ->
    returned (u_new_tool e g t) o' ->
    exists (nodes : list L) (ok os x y : nat -> R) (ek es' : R),
      u_nodes_dict g = Some nodes /\
      increasing leb nodes /\
      (forall v : L, In v nodes <-> is_end v (map fst es)) /\
      observed nodes (fun v : L => INR (incidences eqb v (map fst es))) ok /\
      observed nodes (fun v : L => incident_weight eqb v es) os /\
      us_x o' = Some x /\
      us_y o' = Some y /\
      us_err o' = Some (Rmax es' ek) /\
      sup_dev (Datatypes.length nodes) (mean_deg_und (Datatypes.length nodes) x y) ok ek /\
      sup_dev (Datatypes.length nodes) (mean_str_und (Datatypes.length nodes) x y) os es'.
Proof. exact labels_ecm. Qed.
Print Assumptions C94_ecm.
Example C94_ecm_example :
  forall m meth,
  In m ["ecm"; "ecm_exp"]%string -> In meth descent_methods ->
  exists g e t o', total_order Nat.leb Nat.eqb /\ u_construct Nat.leb Nat.eqb NoAdj (TripleEdges path_edges) NoSeq NoSeq = inl g /\
    t_model t = m /\ t_method t = meth /\ returned (u_new_tool e g t) o'.
Proof. exact labels_ecm_case. Qed.

Theorem C94_dcm :
  forall (L : Type) (leb eqb : L -> L -> bool) (es : list (L * L)) (g : dgraph) (e : environment)
      (t : settings) (o' : dstate),
    total_order leb eqb ->
    es <> [] ->
    d_construct leb eqb NoAdj (PairEdges es) NoSeq NoSeq = inl g ->
    In (t_model t) ["dcm"; "dcm_exp"] ->
    returned (d_new_tool e g t) o' ->
    exists (nodes : list L) (oo oi x y : nat -> R) (e1 e2 : R),
      d_nodes_dict g = Some nodes /\
      increasing leb nodes /\
      (forall v : L, In v nodes <-> is_end v es) /\
      observed nodes (fun v : L => INR (count (fun e0 : L * L => eqb (fst e0) v) es)) oo /\
      observed nodes (fun v : L => INR (count (fun e0 : L * L => eqb (snd e0) v) es)) oi /\
      ds_x o' = Some x /\
      ds_y o' = Some y /\
      ds_err o' = Some (Rmax e1 e2) /\
      (forall i j : nat,
       (i < Datatypes.length nodes)%nat ->
       (j < Datatypes.length nodes)%nat -> oo i = oo j -> oi i = oi j -> x i = x j /\ y i = y j) /\
      sup_dev (Datatypes.length nodes)
        (fun i : nat =>
         mean_directed (Datatypes.length nodes) (p_dbcm x y)
           (fun a : nat -> nat -> bool => deg (Datatypes.length nodes) a i)) oo e1 /\
      sup_dev (Datatypes.length nodes)
        (fun i : nat =>
         mean_directed (Datatypes.length nodes) (p_dbcm x y)
           (fun a : nat -> nat -> bool => indeg (Datatypes.length nodes) a i)) oi e2.
Proof. exact labels_dcm. Qed.
Print Assumptions C94_dcm.
Example C94_dcm_example :
  forall m meth,
  In m ["dcm"; "dcm_exp"]%string -> In meth descent_methods ->
  exists g e t o', total_order Nat.leb Nat.eqb /\ d_construct Nat.leb Nat.eqb NoAdj (PairEdges (map fst tri_edges)) NoSeq NoSeq = inl g /\
    t_model t = m /\ t_method t = meth /\ returned (d_new_tool e g t) o'.
Proof. exact labels_dcm_case. Qed.
