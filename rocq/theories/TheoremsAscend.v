(** Fixed-point solves of CReMa.  Nothing else in this file; proofs are in ProofsAscendRun and
    WitnessAscend. *)
From Coq Require Import Reals List Arith Bool String Lia Lra.
From Verif Require Import Base SpecGraph SpecCReMa ModelCM SpecDirected SpecDispatch SpecExist SpecConverge SpecAscend
  ModelCReMa ModelSolver ModelDispatch ModelRun ProofsAscendRun ProofsAscendSparse WitnessAscend.
Import ListNotations.
Local Open Scope string_scope.
Local Open Scope R_scope.

(** C106 *)
Theorem C106_crema :
  forall linsolve ok eigh fuel n s es reg search x0 z,
  pairs_below n es -> positive_weights es -> positive_ends es x0 -> positive_solution n s es z ->
  accepted u_dispatch "crema" "fixed-point" reg (fun D => run_approaches linsolve ok eigh fuel n (A3 n s (Triples es)) search x0 s es z D /\
    steps_ascend linsolve ok eigh fuel n (A3 n s (Triples es)) search x0 s es z D /\ run_settles linsolve ok eigh fuel n (A3 n s (Triples es)) search x0 s es D).
Proof. exact crema_approaches. Qed.
Print Assumptions C106_crema.
Example C106_crema_case :
  pairs_below 3 asc_path /\ positive_weights asc_path /\ positive_ends asc_path (fun _ => 1) /\
  positive_solution 3 asc_path_s asc_path asc_path_z /\ crema_strengths asc_path (fun _ => 1) 1%nat <> asc_path_s 1%nat.
Proof. exact asc_path_case. Qed.
Theorem C106_crema_directed :
  forall linsolve ok eigh fuel n so si es nzo nzi reg search x0 z,
  pairs_below n es -> positive_weights es -> nonzero_list n so nzo -> nonzero_list n si nzi ->
  positive_ends (two_sided n es) x0 -> positive_solution (n + n) (two_arrays n so si) (two_sided n es) z ->
  accepted d_dispatch "crema" "fixed-point" reg (fun D => run_approaches linsolve ok eigh fuel (n + n) (A5c n so si (Triples es) nzo nzi) search x0 (two_arrays n so si) (two_sided n es) z D /\
    steps_ascend linsolve ok eigh fuel (n + n) (A5c n so si (Triples es) nzo nzi) search x0 (two_arrays n so si) (two_sided n es) z D /\
    run_settles linsolve ok eigh fuel (n + n) (A5c n so si (Triples es) nzo nzi) search x0 (two_arrays n so si) (two_sided n es) D).
Proof. exact crema_dir_approaches. Qed.
Print Assumptions C106_crema_directed.
Example C106_crema_directed_case :
  pairs_below 3 asc_arcs /\ positive_weights asc_arcs /\ nonzero_list 3 asc_out [0; 1]%nat /\ nonzero_list 3 asc_in [0; 1]%nat /\
  positive_ends (two_sided 3 asc_arcs) (fun _ => 2) /\
  positive_solution (3 + 3) (two_arrays 3 asc_out asc_in) (two_sided 3 asc_arcs) (fun _ => 1 / 2) /\
  crema_strengths (two_sided 3 asc_arcs) (fun _ => 2) 0%nat <> asc_out 0%nat.
Proof. exact asc_dir_case. Qed.
Theorem C106_crema_sparse :
  forall n s x, (2 <= n)%nat -> (forall i, (i < n)%nat -> 0 < x i) -> (forall i, (i < n)%nat -> 0 <= s i) ->
  forall linsolve ok eigh fuel reg search x0 z, (forall i, (i < n)%nat -> 0 < x0 i) ->
  positive_solution n (raised_strengths s) (triu_edges n (pmatrix_cm x)) z ->
  accepted u_dispatch "crema-sparse" "fixed-point" reg (fun D =>
    run_approaches linsolve ok eigh fuel n (A3 n s (Factors1 x)) search x0 (raised_strengths s) (triu_edges n (pmatrix_cm x)) z D /\
    steps_ascend linsolve ok eigh fuel n (A3 n s (Factors1 x)) search x0 (raised_strengths s) (triu_edges n (pmatrix_cm x)) z D /\
    run_settles linsolve ok eigh fuel n (A3 n s (Factors1 x)) search x0 (raised_strengths s) (triu_edges n (pmatrix_cm x)) D).
Proof. exact sparse_approaches. Qed.
Print Assumptions C106_crema_sparse.
Example C106_crema_sparse_case :
  let x := fun _ : nat => 1 in let s := fun _ : nat => 1 - exp (- (100)) in
  (2 <= 3)%nat /\ (forall i, (i < 3)%nat -> 0 < x i) /\ (forall i, (i < 3)%nat -> 0 <= s i) /\
  positive_solution 3 (raised_strengths s) (triu_edges 3 (pmatrix_cm x)) (fun _ => 1 / 2).
Proof. exact sparse_case. Qed.
Theorem C106_negative_refuted :
  exists n s es z, pairs_below n es /\ positive_weights es /\ (forall k, (k < n)%nat -> 0 < s k) /\ crema_dom es z /\
  (forall k, (k < n)%nat -> crema_strengths es z k = s k) /\
  forall linsolve ok eigh fuel reg search x0, (forall k, 0 < x0 k) ->
    accepted u_dispatch "crema" "fixed-point" reg (run_fails linsolve ok eigh fuel n (A3 n s (Triples es)) search x0 s es (/ 20)).
Proof. exact crema_fixed_point_fails. Qed.
Print Assumptions C106_negative_refuted.
