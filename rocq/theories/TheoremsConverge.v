(** Theorems on fixed-point solves.  Nothing else in this file; proofs are in ProofsConverge,
    ProofsConvergeSys, ProofsTraj, ProofsResidual, ProofsConvergeRun, ProofsConvergeTool and
    WitnessConverge. *)
From Coq Require Import Reals List Arith Bool String Lia Lra.
From Verif Require Import Base SpecGraph SpecDirected SpecDispatch SpecExist SpecGuess SpecTool SpecConverge
  ModelCM ModelDCM ModelNetwork ModelLinsearch ModelSolver ModelDispatch ModelGuess ModelRun ModelSolve ModelTool.
From Verif Require Import ProofsSolveD ProofsConvergeRun ProofsConvergeTool WitnessTool WitnessConverge.
Import ListNotations.
Local Open Scope R_scope.

(** C85: fixed-point runs converge, at a rate that depends on the degrees only. *)
Theorem C85_run_cm :
  forall n c k xs,
  class_degrees n c k -> nonempty n k -> cm_solution n c k xs ->
  exists r, 0 < r < 1 /\ forall linsolve ok eigh fuel reg search x0, cm_full n k x0 ->
    accepted u_dispatch "cm" "fixed-point" reg (fun D => run_converges linsolve ok eigh fuel n (A2 n k c) search x0 r
      (fun e x => (forall i, (i < n)%nat -> relatively e (x i) (xs i)) /\ cm_close n c k e x) (cm_near n c k) D /\
      exists tol, 0 < tol /\ norms_above linsolve ok eigh fuel n (A2 n k c) search x0 tol D).
Proof. exact cm_fixed_point. Qed.
Print Assumptions C85_run_cm.
Example C85_run_cm_case :
  exists c k xs x0, class_degrees 3 c k /\ nonempty 3 k /\ cm_solution 3 c k xs /\ cm_full 3 k x0.
Proof. exact path5_classes. Qed.
Theorem C85_run_cm_exp :
  forall n c k ths,
  (0 < n)%nat -> (forall i, (i < n)%nat -> 1 <= c i /\ 1 <= k i) -> cm_solution n c k (expn ths) ->
  exists r, 0 < r < 1 /\ forall linsolve ok eigh fuel reg search th0,
    accepted u_dispatch "cm_exp" "fixed-point" reg (run_converges linsolve ok eigh fuel n (A2 n k c) search th0 r
      (fun e th => (forall i, (i < n)%nat -> Rabs (th i - ths i) <= e) /\ cm_close n c k e (expn th)) (fun e th => cm_near n c k e (expn th))).
Proof. exact cm_exp_fixed_point. Qed.
Print Assumptions C85_run_cm_exp.
Example C85_run_cm_exp_case :
  exists c k ths, (forall i, (i < 2)%nat -> 1 <= c i /\ 1 <= k i) /\ cm_solution 2 c k (expn ths).
Proof. exact path5_only_classes. Qed.
Theorem C85_run_dcm :
  forall n c ko ki xs,
  class_degrees n c ko -> class_degrees n c ki -> nonempty n ko -> nonempty n ki -> dcm_solution n c ko ki xs ->
  exists r, 0 < r < 1 /\ forall linsolve ok eigh fuel reg search nzo nzi x0, cm_full n ko x0 -> cm_full n ki (shift n x0) ->
    exists z, dcm_solution n c ko ki z /\
    accepted d_dispatch "dcm" "fixed-point" reg (fun D => run_converges linsolve ok eigh fuel (2 * n) (A5d n ko ki nzo nzi c) search x0 r
      (fun e x => (forall i, (i < 2 * n)%nat -> relatively e (x i) (z i)) /\ dcm_close n c ko ki e x) (dcm_near n c ko ki) D /\
      exists tol, 0 < tol /\ norms_above linsolve ok eigh fuel (2 * n) (A5d n ko ki nzo nzi c) search x0 tol D).
Proof. exact dcm_fixed_point. Qed.
Print Assumptions C85_run_dcm.
Example C85_run_dcm_case :
  exists c ko ki xs x0, class_degrees 3 c ko /\ class_degrees 3 c ki /\ nonempty 3 ko /\ nonempty 3 ki /\ dcm_solution 3 c ko ki xs /\
  cm_full 3 ko x0 /\ cm_full 3 ki (shift 3 x0).
Proof. exact senders_classes. Qed.
Theorem C85_run_dcm_exp :
  forall n c ko ki ths,
  (0 < n)%nat -> (forall i, (i < n)%nat -> 1 <= c i /\ 1 <= ko i /\ 1 <= ki i) -> dcm_solution n c ko ki (expn ths) ->
  exists r, 0 < r < 1 /\ forall linsolve ok eigh fuel reg search nzo nzi th0,
    exists z, dcm_solution n c ko ki (expn z) /\
    accepted d_dispatch "dcm_exp" "fixed-point" reg (run_converges linsolve ok eigh fuel (2 * n) (A5d n ko ki nzo nzi c) search th0 r
      (fun e th => (forall i, (i < 2 * n)%nat -> Rabs (th i - z i) <= e) /\ dcm_close n c ko ki e (expn th)) (fun e th => dcm_near n c ko ki e (expn th))).
Proof. exact dcm_exp_fixed_point. Qed.
Print Assumptions C85_run_dcm_exp.
Example C85_run_dcm_exp_case :
  exists c ko ki ths, (forall i, (i < 2)%nat -> 1 <= c i /\ 1 <= ko i /\ 1 <= ki i) /\ dcm_solution 2 c ko ki (expn ths).
Proof. exact both_classes. Qed.
Theorem C85_cm :
  forall g p,
  (0 < un_n g)%nat -> inner_und (un_n g) (at_list (un_dseq g)) p -> (exists i, (i < un_n g)%nat /\ nth i (un_dseq g) O <> O) ->
  exists r, 0 < r < 1 /\ forall e nm ls, In nm binary_names -> draws (v_rnd e) ->
    calls_converge (u_tool e g) (u_report e g) us_err (fun o => us_beta o = None) "cm" (GStr nm) ls r.
Proof. exact tool_cm_converges. Qed.
Print Assumptions C85_cm.
Example C85_cm_case :
  (0 < un_n path5_net)%nat /\ inner_und (un_n path5_net) (at_list (un_dseq path5_net)) path5_law /\
  (exists i, (i < un_n path5_net)%nat /\ nth i (un_dseq path5_net) O <> O) /\ (exists e, draws (v_rnd e)).
Proof. exact path5_case. Qed.
Theorem C85_cm_exp :
  forall g p,
  (0 < un_n g)%nat -> inner_und (un_n g) (at_list (un_dseq g)) p -> (forall i, (i < un_n g)%nat -> nth i (un_dseq g) O <> O) ->
  exists r, 0 < r < 1 /\ forall e s ls x0, u_start g "cm_exp" (v_rnd e) s = Some x0 ->
    calls_converge (u_tool e g) (u_report e g) us_err (fun o => us_beta o = None) "cm_exp" s ls r.
Proof. exact tool_cm_exp_fixed_point. Qed.
Print Assumptions C85_cm_exp.
Example C85_cm_exp_case :
  (0 < un_n path5_only)%nat /\ inner_und (un_n path5_only) (at_list (un_dseq path5_only)) path5_law /\
  (forall i, (i < un_n path5_only)%nat -> nth i (un_dseq path5_only) O <> O) /\ (exists x0, u_start path5_only "cm_exp" half (GStr "degrees") = Some x0).
Proof. exact path5_only_case. Qed.
Theorem C85_dcm :
  forall g p,
  (0 < dn_n g)%nat -> d_paired g -> balanced (dn_out g) (dn_in g) ->
  inner_dir (dn_n g) (at_list (dn_out g)) (at_list (dn_in g)) p ->
  (exists i, (i < dn_n g)%nat /\ nth i (dn_out g) O <> O) -> (exists i, (i < dn_n g)%nat /\ nth i (dn_in g) O <> O) ->
  exists r, 0 < r < 1 /\ forall e nm ls, In nm binary_names -> draws (v_rnd e) ->
    calls_converge (d_tool e g) (d_report e g) ds_err (fun o => ds_bo o = None) "dcm" (GStr nm) ls r.
Proof. exact tool_dcm_converges. Qed.
Print Assumptions C85_dcm.
Example C85_dcm_case :
  (0 < dn_n senders_net)%nat /\ d_paired senders_net /\ balanced (dn_out senders_net) (dn_in senders_net) /\
  inner_dir (dn_n senders_net) (at_list (dn_out senders_net)) (at_list (dn_in senders_net)) senders_law /\
  (exists i, (i < dn_n senders_net)%nat /\ nth i (dn_out senders_net) O <> O) /\ (exists i, (i < dn_n senders_net)%nat /\ nth i (dn_in senders_net) O <> O) /\
  (exists e, draws (v_rnd e)).
Proof. exact senders_case. Qed.
Theorem C85_dcm_exp :
  forall g p,
  (0 < dn_n g)%nat -> d_paired g ->
  inner_dir (dn_n g) (at_list (dn_out g)) (at_list (dn_in g)) p ->
  (forall i, (i < dn_n g)%nat -> nth i (dn_out g) O <> O /\ nth i (dn_in g) O <> O) ->
  exists r, 0 < r < 1 /\ forall e s ls x0, d_start g "dcm_exp" (v_rnd e) s = Some x0 ->
    calls_converge (d_tool e g) (d_report e g) ds_err (fun o => ds_bo o = None) "dcm_exp" s ls r.
Proof. exact tool_dcm_exp_fixed_point. Qed.
Print Assumptions C85_dcm_exp.
Example C85_dcm_exp_case :
  (0 < dn_n both_net)%nat /\ d_paired both_net /\
  inner_dir (dn_n both_net) (at_list (dn_out both_net)) (at_list (dn_in both_net)) path5_law /\
  (forall i, (i < dn_n both_net)%nat -> nth i (dn_out both_net) O <> O /\ nth i (dn_in both_net) O <> O) /\
  (exists x0, d_start both_net "dcm_exp" half (GStr "degrees") = Some x0).
Proof. exact both_case. Qed.

(** C86: a fixed-point solve that stops on its tolerance has solved the model. *)
Theorem C86_cm_unused :
  forall g p e nm ls,
  (0 < un_n g)%nat -> inner_und (un_n g) (at_list (un_dseq g)) p -> (exists i, (i < un_n g)%nat /\ nth i (un_dseq g) O <> O) ->
  In nm binary_names -> draws (v_rnd e) -> tolerance_unused (u_report e g) (fun o => us_beta o = None) "cm" (GStr nm) ls.
Proof. exact tool_cm_unused. Qed.
Print Assumptions C86_cm_unused.
Example C86_cm_unused_case :
  (0 < un_n path5_net)%nat /\ inner_und (un_n path5_net) (at_list (un_dseq path5_net)) path5_law /\
  (exists i, (i < un_n path5_net)%nat /\ nth i (un_dseq path5_net) O <> O) /\ (exists e, draws (v_rnd e)).
Proof. exact path5_case. Qed.
Theorem C86_dcm_unused :
  forall g p e nm ls,
  (0 < dn_n g)%nat -> d_paired g -> balanced (dn_out g) (dn_in g) ->
  inner_dir (dn_n g) (at_list (dn_out g)) (at_list (dn_in g)) p ->
  (exists i, (i < dn_n g)%nat /\ nth i (dn_out g) O <> O) -> (exists i, (i < dn_n g)%nat /\ nth i (dn_in g) O <> O) ->
  In nm binary_names -> draws (v_rnd e) -> tolerance_unused (d_report e g) (fun o => ds_bo o = None) "dcm" (GStr nm) ls.
Proof. exact tool_dcm_unused. Qed.
Print Assumptions C86_dcm_unused.
Example C86_dcm_unused_case :
  (0 < dn_n senders_net)%nat /\ d_paired senders_net /\ balanced (dn_out senders_net) (dn_in senders_net) /\
  inner_dir (dn_n senders_net) (at_list (dn_out senders_net)) (at_list (dn_in senders_net)) senders_law /\
  (exists i, (i < dn_n senders_net)%nat /\ nth i (dn_out senders_net) O <> O) /\ (exists i, (i < dn_n senders_net)%nat /\ nth i (dn_in senders_net) O <> O) /\
  (exists e, draws (v_rnd e)).
Proof. exact senders_case. Qed.
Theorem C86_cm_exp_refuted :
  exists g p, inner_und (un_n g) (at_list (un_dseq g)) p /\
  (exists a, simple_graph (un_n g) a /\ forall i, (i < un_n g)%nat -> at_list (un_dseq g) i = deg (un_n g) a i) /\
  forall e ls t o, fixed_point_call "cm_exp" (GStr "uniform") ls t -> 0 <= t_tol t -> us_beta o = None ->
    exists o' rep, u_tool e g t o = (o', None) /\ u_report e g t o = Some rep /\ r_steps rep = O /\ tolerance_reached 0 rep /\ us_err o' = Some 1.
Proof. exact cm_exp_tolerance_refuted. Qed.
Print Assumptions C86_cm_exp_refuted.
Theorem C86_dcm_exp_refuted :
  exists g p, d_paired g /\ inner_dir (dn_n g) (at_list (dn_out g)) (at_list (dn_in g)) p /\
  (exists a, loopless (dn_n g) a /\ forall i, (i < dn_n g)%nat -> at_list (dn_out g) i = deg (dn_n g) a i /\ at_list (dn_in g) i = indeg (dn_n g) a i) /\
  forall e ls t o, fixed_point_call "dcm_exp" (GStr "uniform") ls t -> 0 <= t_tol t -> ds_bo o = None ->
    exists o' rep, d_tool e g t o = (o', None) /\ d_report e g t o = Some rep /\ r_steps rep = O /\ tolerance_reached 0 rep /\ ds_err o' = Some 1.
Proof. exact dcm_exp_tolerance_refuted. Qed.
Print Assumptions C86_dcm_exp_refuted.
