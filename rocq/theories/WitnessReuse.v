(** Objects used for two networks: a case of the theorems, and what is left of the first. *)
From Coq Require Import Reals List Arith Bool ZArith String Lia Lra.
From Verif Require Import Base SpecGraph SpecEnsemble SpecNetwork SpecLife SpecLinsearch SpecDispatch SpecRun SpecSolve SpecGuess SpecTool
  ModelNetwork ModelSolve ModelLife ModelSolver ModelDispatch ModelGuess ModelRun ModelTool SpecStart ModelObject SpecObject ModelReuse SpecReuse.
From Verif Require Import ProofsGuess ProofsNetwork ProofsLife ProofsLifeDir ProofsLifeForms ProofsSolve ProofsSolveU ProofsSolveD ProofsTool ProofsToolD WitnessTool ProofsStart WitnessStart
  ProofsObject ProofsObjectForms ProofsObjectLabels ProofsEvaluates WitnessObject.
Import ListNotations.
Local Open Scope R_scope.

(** A path without weights solved with cm, then the weighted path with ecm. *)
Lemma u_reuse_case m meth : In m ["ecm"; "ecm_exp"]%string -> In meth descent_methods ->
  exists e g f t0 o t o1, u_new Nat.leb Nat.eqb (SetEdgelist (PairEdges (map fst path_edges))) = inl g /\ t_model t0 = "cm_exp"%string /\ returned (u_new_tool e g t0) o /\
    u_accepted (SetEdgelist (TripleEdges path_edges)) /\ u_new Nat.leb Nat.eqb (SetEdgelist (TripleEdges path_edges)) = inl f /\
    t_model t = m /\ t_method t = meth /\ u_untouched t o /\ u_strength f <> None /\ returned (u_new_tool e f t) o1.
Proof.
  intros Hm Hme. destruct cold_world as (e & Hr). set (net := {| un_dseq := [1; 2; 1]%nat; un_str := fun _ => 0 |}).
  destruct (u_start_cm net "cm_exp" ltac:(cbn; tauto)) as (z & Hz).
  destruct (cold_unet "cm_exp" "newton" e net ltac:(cbn; tauto) ltac:(cbn; tauto) Hr (ex_intro _ z (conj Hz (cm_exp_evaluates net z)))) as (tol0 & o & r0 & HC0 & HR0 & _).
  destruct path_from_edges as (f & E & _ & E1 & E2 & E3 & E4).
  destruct (cold_path m meth e ltac:(cbn in Hm |- *; tauto) Hme Hr) as (tol & o1 & r & HC & HR & _).
  assert (A : exists g, u_construct Nat.leb Nat.eqb NoAdj (PairEdges (map fst path_edges)) NoSeq NoSeq = inl g /\ u_dseq g = Some (map INR [1; 2; 1]%nat) /\ u_strength g = None /\ u_is_sparse g = false).
  { eexists. split; [reflexivity|]. repeat split. }
  destruct A as (g & G & G1 & G2 & G3).
  exists e, g, f, (cold "cm_exp" "newton" (GStr "uniform") AdjOther tol0), o, (cold m meth (GStr "uniform") AdjOther tol), o1.
  split; [exact G|]. split; [reflexivity|]. split.
  { exists (Some r0). unfold u_new_tool, u_object_tool. rewrite G1, G2, G3, naturals_map. fold net. change (reads_strengths _) with false. cbv iota. rewrite HC0, HR0. reflexivity. }
  split; [discriminate|]. split; [exact E|]. split; [reflexivity|]. split; [reflexivity|]. split.
  { split; intros Q; exfalso; change (t_model _) with m in Q; cbn in Hm, Q; intuition congruence. }
  split; [rewrite E2; discriminate|]. exists (Some r). rewrite (path_new e f _ E1 E2 E3 E4), HC, HR. reflexivity.
Qed.
(** A weighted edge list, then the weighted matrix with decm. *)
Lemma d_reuse_case m meth : In m ["decm"; "decm_exp"]%string -> In meth descent_methods ->
  exists e g f t0 o t o1, d_new Nat.leb Nat.eqb (SetEdgelist (PairEdges (map fst tri_edges))) = inl g /\ t_model t0 = "dcm"%string /\ returned (d_new_tool e g t0) o /\
    d_accepted (@SetAdjacency nat (ArrayAdj 3 tri_weights)) /\ d_new Nat.leb Nat.eqb (SetAdjacency (ArrayAdj 3 tri_weights)) = inl f /\
    t_model t = m /\ t_method t = meth /\ d_untouched t o /\ d_out_strength f <> None /\ d_nz_sout f <> None /\ d_nz_sin f <> None /\ returned (d_new_tool e f t) o1.
Proof.
  intros Hm Hme. destruct cold_world as (e & Hr). set (net := {| dn_out := [1; 1; 2]%nat; dn_in := [1; 2; 1]%nat; dn_sout := fun _ => 0; dn_sin := fun _ => 0 |}).
  destruct (cold_net "dcm" "newton" e net ltac:(cbn; tauto) ltac:(cbn; tauto) Hr (d_start_evaluates net "dcm" eq_refl ltac:(unfold balanced; cbn; ring) ltac:(cbn; tauto))) as (tol0 & o & r0 & HC0 & HR0 & _).
  assert (A : exists g, d_construct Nat.leb Nat.eqb NoAdj (PairEdges (map fst tri_edges)) NoSeq NoSeq = inl g /\ d_dseq_out g = Some (map INR [1; 1; 2]%nat) /\ d_dseq_in g = Some (map INR [1; 2; 1]%nat) /\ d_out_strength g = None /\ d_is_sparse g = false).
  { eexists. split; [reflexivity|]. repeat split. }
  destruct A as (g & G & G1 & G2 & G3 & G4).
  destruct tri_from_matrix as (f & E & E1 & E2 & E3 & E4 & E5 & K1 & K2 & E6).
  destruct (cold_net m meth e tri_net ltac:(cbn in Hm |- *; tauto) Hme Hr (tri_start_decm m Hm)) as (tol & o1 & r & HC).
  set (t := cold m meth (GStr "uniform") AdjOther tol) in *.
  exists e, g, f, (cold "dcm" "newton" (GStr "uniform") AdjOther tol0), o, t, o1.
  split; [exact G|]. split; [reflexivity|]. split.
  { eexists. unfold d_new_tool, d_object_tool. rewrite G1, G2, G3, G4, !naturals_map. fold net. change (reads_strengths _) with false. change (reads_degrees _) with false. rewrite andb_false_r. cbv iota.
    rewrite d_tool_index_noindex by (cbn; tauto). rewrite HC0. reflexivity. }
  split; [split; [lia|exact tri_weights_nonneg]|]. split; [exact E|]. split; [reflexivity|]. split; [reflexivity|]. split.
  { split; intros Q; exfalso; change (t_model t) with m in Q; cbn in Hm, Q; intuition congruence. }
  split; [rewrite E3; discriminate|].
  split; [intros Q; unfold d_index in E6; rewrite Q in E6; discriminate|].
  split; [intros Q; unfold d_index in E6; rewrite Q in E6; destruct (d_nz_sout f); discriminate|].
  eexists. rewrite (tri_new e f _ E1 E2 E3 E4 E5 K1 K2). rewrite d_tool_index_noindex by (change (t_model t) with m; cbn in Hm |- *; tauto). rewrite (proj1 HC). reflexivity.
Qed.

(** The second network has no weights: a new object has no strengths, the reused one has
    those of the first network. *)
Lemma u_reuse_strengths_refuted m meth : In m ["ecm"; "ecm_exp"]%string -> In meth descent_methods ->
  exists e g g' o' f t o1, u_new Nat.leb Nat.eqb (SetEdgelist (TripleEdges path_edges)) = inl g /\
    u_reuse Nat.leb Nat.eqb g (u_fresh (u_is_sparse g)) (SetEdgelist (PairEdges (map fst path_edges))) = inl (g', o') /\
    u_new Nat.leb Nat.eqb (SetEdgelist (PairEdges (map fst path_edges))) = inl f /\ t_model t = m /\ t_method t = meth /\ u_untouched t (u_fresh (u_is_sparse g)) /\
    u_new_tool e f t = Missing /\ returned (u_object_tool e g' t o') o1 /\ u_strength g' = Some [2; 5; 3].
Proof.
  intros Hm Hme. destruct cold_world as (e & Hr). destruct path_from_edges as (g & E & _ & E1 & E2 & E3 & E4).
  destruct (cold_path m meth e ltac:(cbn in Hm |- *; tauto) Hme Hr) as (tol & o1 & r & HC & HR & _).
  assert (A : exists g', u_reuse Nat.leb Nat.eqb g (u_fresh (u_is_sparse g)) (SetEdgelist (PairEdges (map fst path_edges))) = inl (g', u_fresh false) /\
    u_dseq g' = Some (map INR [1; 2; 1]%nat) /\ u_strength g' = u_strength g /\ u_is_sparse g' = false /\ u_str_kind g' = u_str_kind g).
  { eexists. unfold u_reuse. rewrite E3. split; [reflexivity|]. repeat split. }
  destruct A as (g' & G & G1 & G2 & G3 & G4).
  assert (B : exists f, u_construct Nat.leb Nat.eqb NoAdj (PairEdges (map fst path_edges)) NoSeq NoSeq = inl f /\ u_dseq f = Some (map INR [1; 2; 1]%nat) /\ u_strength f = None).
  { eexists. split; [reflexivity|]. repeat split. }
  destruct B as (f & F & F1 & F2).
  exists e, g, g', (u_fresh false), f, (cold m meth (GStr "uniform") AdjOther tol), o1.
  split; [exact E|]. split; [exact G|]. split; [exact F|]. split; [reflexivity|]. split; [reflexivity|]. split.
  { split; intros Q; exfalso; change (t_model _) with m in Q; cbn in Hm, Q; intuition congruence. }
  split.
  { unfold u_new_tool, u_object_tool. rewrite F1, F2, naturals_map. change (t_model _) with m. replace (reads_strengths m) with true by (destruct Hm as [<-|[<-|[]]]; reflexivity). reflexivity. }
  split; [|congruence]. exists (Some r).
  unfold u_object_tool. rewrite G1, G2, E2, G4, E4, naturals_map. cbn [listed andb]. fold path_net. change ({| un_dseq := [1; 2; 1]%nat; un_str := at_reals [2; 5; 3] |}) with path_net. rewrite HC, HR. reflexivity.
Qed.
(** The second network is an edge list with weights: a new object has no index arrays and
    raises, the reused one loops over those of the first network. *)
Lemma d_reuse_index_refuted : exists e g g' o' f t o1, d_new Nat.leb Nat.eqb (SetAdjacency (ArrayAdj 3 tri_weights)) = inl g /\
    d_reuse Nat.leb Nat.eqb g (d_fresh (d_is_sparse g)) (SetEdgelist (TripleEdges tri_edges)) = inl (g', o') /\
    d_new Nat.leb Nat.eqb (SetEdgelist (TripleEdges tri_edges)) = inl f /\ t_model t = "crema"%string /\ t_method t = "newton"%string /\ d_untouched t (d_fresh (d_is_sparse g)) /\
    (forall o2, ~ returned (d_new_tool e f t) o2) /\ returned (d_object_tool e g' t o') o1 /\ d_nz_sout g' = d_nz_sout g /\ d_nz_sin g' = d_nz_sin g.
Proof.
  destruct cold_world as (e & Hr). destruct tri_from_matrix as (g & E & E1 & E2 & E3 & E4 & E5 & K1 & K2 & E6). destruct tri_from_edges as (f & F & _ & F1 & F2 & F3 & F4 & _).
  destruct (cold_tri_crema "random" "newton" e ltac:(cbn; tauto) ltac:(cbn; tauto) Hr) as (tol & o1 & r & HC).
  set (t := cold "crema" "newton" (GStr "random") (AdjMatrix tri_adj) tol) in *.
  assert (A : exists g', d_reuse Nat.leb Nat.eqb g (d_fresh (d_is_sparse g)) (SetEdgelist (TripleEdges tri_edges)) = inl (g', d_fresh false) /\
    d_dseq_out g' = d_dseq_out f /\ d_dseq_in g' = d_dseq_in f /\ d_out_strength g' = d_out_strength f /\ d_in_strength g' = d_in_strength f /\
    d_nz_sout g' = d_nz_sout g /\ d_nz_sin g' = d_nz_sin g /\ listed (d_str_kind g') = false).
  { cbn in F. injection F as <-. eexists. unfold d_reuse. rewrite E5. split; [reflexivity|]. do 6 (split; [reflexivity|]). reflexivity. }
  destruct A as (g' & G & G1 & G2 & G3 & G4 & G5 & G6 & G7).
  exists e, g, g', (d_fresh false), f, t, o1. split; [exact E|]. split; [exact G|]. split; [exact F|]. split; [reflexivity|]. split; [reflexivity|]. split.
  { split; [intros Q; cbn in Q; intuition congruence|]. intros _. reflexivity. }
  split. { intros o2. apply (object_crema_edges_raises nat Nat.leb Nat.eqb tri_edges f); try assumption; [discriminate|left; reflexivity|right; left; reflexivity]. }
  split; [|split; assumption]. eexists. unfold d_object_tool. rewrite G1, G2, G3, G4, F1, F2, F3, F4, G7, !naturals_map. cbn [andb]. change (reads_degrees (t_model t)) with false. cbv iota.
  change ({| dn_out := [1; 1; 2]%nat; dn_in := [1; 2; 1]%nat; dn_sout := at_reals [2; 3; 5]; dn_sin := at_reals [1; 6; 3] |}) with tri_net.
  assert (EI : d_index g' = d_index g) by (unfold d_index; rewrite G5, G6; reflexivity). rewrite EI, E6.
  pose proof (proj1 (d_tool_indexed e tri_net t (d_fresh false))) as Q. rewrite (proj1 HC) in Q. change (dn_n tri_net) with 3%nat in Q. rewrite Q. reflexivity.
Qed.
