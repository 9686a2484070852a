(** One object used for a second network.  Nothing else in this file; proofs are in
    ProofsReuse, ProofsReuseD and WitnessReuse. *)
From Coq Require Import Reals List Arith Bool ZArith String Lia Lra.
From Verif Require Import Base SpecGraph SpecEnsemble SpecNetwork SpecLife SpecLinsearch SpecDispatch SpecRun SpecSolve SpecGuess SpecTool
  ModelNetwork ModelSolve ModelLife ModelSolver ModelDispatch ModelGuess ModelRun ModelTool SpecStart ModelObject SpecObject ModelReuse SpecReuse.
From Verif Require Import ProofsLife ProofsLifeDir ProofsObject WitnessTool WitnessStart WitnessObject ProofsReuse ProofsReuseD WitnessReuse.
Import ListNotations.
Local Open Scope string_scope.
Local Open Scope R_scope.

(** C104 *)
Theorem C104_undirected_partial :
  forall (L : Type) (leb eqb : L -> L -> bool) e g o c f t,
  u_accepted c -> u_new leb eqb c = inl f ->
  In (t_model t) ["cm"; "cm_exp"; "ecm"; "ecm_exp"; "crema"; "crema-sparse"]%string -> u_untouched t o ->
  (~ In (t_model t) ["cm"; "cm_exp"]%string -> u_strength f <> None) ->
  exists g' o', u_reuse leb eqb g o c = inl (g', o') /\ u_same_outcome (t_model t) (u_object_tool e g' t o') (u_new_tool e f t).
Proof. exact u_reuse_same. Qed.
Print Assumptions C104_undirected_partial.
Example C104_undirected_case :
  forall m meth,
  In m ["ecm"; "ecm_exp"]%string -> In meth descent_methods ->
  exists e g f t0 o t o1, u_new Nat.leb Nat.eqb (SetEdgelist (PairEdges (map fst path_edges))) = inl g /\ t_model t0 = "cm_exp"%string /\ returned (u_new_tool e g t0) o /\
    u_accepted (SetEdgelist (TripleEdges path_edges)) /\ u_new Nat.leb Nat.eqb (SetEdgelist (TripleEdges path_edges)) = inl f /\
    t_model t = m /\ t_method t = meth /\ u_untouched t o /\ u_strength f <> None /\ returned (u_new_tool e f t) o1.
Proof. exact u_reuse_case. Qed.
Theorem C104_undirected_refuted :
  forall m meth,
  In m ["ecm"; "ecm_exp"]%string -> In meth descent_methods ->
  exists e g g' o' f t o1, u_new Nat.leb Nat.eqb (SetEdgelist (TripleEdges path_edges)) = inl g /\
    u_reuse Nat.leb Nat.eqb g (u_fresh (u_is_sparse g)) (SetEdgelist (PairEdges (map fst path_edges))) = inl (g', o') /\
    u_new Nat.leb Nat.eqb (SetEdgelist (PairEdges (map fst path_edges))) = inl f /\ t_model t = m /\ t_method t = meth /\ u_untouched t (u_fresh (u_is_sparse g)) /\
    u_new_tool e f t = Missing /\ returned (u_object_tool e g' t o') o1 /\ u_strength g' = Some [2; 5; 3].
Proof. exact u_reuse_strengths_refuted. Qed.
Print Assumptions C104_undirected_refuted.
Theorem C104_directed_partial :
  forall (L : Type) (leb eqb : L -> L -> bool) e g o c f t,
  d_accepted c -> d_new leb eqb c = inl f ->
  In (t_model t) ["dcm"; "dcm_exp"; "decm"; "decm_exp"; "crema"; "crema-sparse"]%string -> d_untouched t o ->
  (In (t_model t) ["decm"; "decm_exp"]%string -> d_out_strength f <> None) ->
  (In (t_model t) ["crema"; "crema-sparse"]%string -> d_out_strength f <> None /\ d_nz_sout f <> None /\ d_nz_sin f <> None) ->
  exists g' o', d_reuse leb eqb g o c = inl (g', o') /\ d_same_outcome (t_model t) (d_object_tool e g' t o') (d_new_tool e f t).
Proof. exact d_reuse_same. Qed.
Print Assumptions C104_directed_partial.
Example C104_directed_case :
  forall m meth,
  In m ["decm"; "decm_exp"]%string -> In meth descent_methods ->
  exists e g f t0 o t o1, d_new Nat.leb Nat.eqb (SetEdgelist (PairEdges (map fst tri_edges))) = inl g /\ t_model t0 = "dcm"%string /\ returned (d_new_tool e g t0) o /\
    d_accepted (@SetAdjacency nat (ArrayAdj 3 tri_weights)) /\ d_new Nat.leb Nat.eqb (SetAdjacency (ArrayAdj 3 tri_weights)) = inl f /\
    t_model t = m /\ t_method t = meth /\ d_untouched t o /\ d_out_strength f <> None /\ d_nz_sout f <> None /\ d_nz_sin f <> None /\ returned (d_new_tool e f t) o1.
Proof. exact d_reuse_case. Qed.
Theorem C104_directed_refuted :
  exists e g g' o' f t o1, d_new Nat.leb Nat.eqb (SetAdjacency (ArrayAdj 3 tri_weights)) = inl g /\
    d_reuse Nat.leb Nat.eqb g (d_fresh (d_is_sparse g)) (SetEdgelist (TripleEdges tri_edges)) = inl (g', o') /\
    d_new Nat.leb Nat.eqb (SetEdgelist (TripleEdges tri_edges)) = inl f /\ t_model t = "crema"%string /\ t_method t = "newton"%string /\ d_untouched t (d_fresh (d_is_sparse g)) /\
    (forall o2, ~ returned (d_new_tool e f t) o2) /\ returned (d_object_tool e g' t o') o1 /\ d_nz_sout g' = d_nz_sout g /\ d_nz_sin g' = d_nz_sin g.
Proof. exact d_reuse_index_refuted. Qed.
Print Assumptions C104_directed_refuted.
