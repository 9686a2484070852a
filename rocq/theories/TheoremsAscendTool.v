(** Fixed-point calls of [solve_tool] for CReMa.  Nothing else in this file; proofs are in
    ProofsAscendTool. *)
From Coq Require Import Reals List Arith Bool String Lia Lra.
From Verif Require Import Base SpecGuess SpecSolve SpecAscendTool ModelGuess ModelSolve ModelTool WitnessSolve WitnessTool ProofsAscendTool.
Import ListNotations.
Local Open Scope string_scope.
Local Open Scope R_scope.

(** C106 *)
Theorem C106_tool_crema :
  forall g a z, (0 < un_n g)%nat -> hollow a -> (forall i j, (i < j < un_n g)%nat -> 0 <= a i j) ->
  positive_linked (un_n g) a z -> solves_strengths (un_n g) a (un_str g) z ->
  forall e nm ls, In nm ["random"; "strengths"; "strengths_minor"] -> draws (v_rnd e) ->
    calls_approach (u_tool e g) (u_report e g) us_err (fun o b => us_beta o = Some b) (positive_linked (un_n g) a) (solves_strengths (un_n g) a (un_str g)) (within (un_n g))
      a (GStr nm) ls.
Proof. exact tool_crema_fixed_point. Qed.
Print Assumptions C106_tool_crema.
Example C106_tool_crema_case :
  (0 < un_n path_net)%nat /\ hollow path_adj /\ (forall i j, (i < j < un_n path_net)%nat -> 0 <= path_adj i j) /\
  positive_linked (un_n path_net) path_adj path_sol /\ solves_strengths (un_n path_net) path_adj (un_str path_net) path_sol /\ draws half.
Proof. exact path_ascend_case. Qed.
Theorem C106_tool_crema_directed :
  forall g a z, (0 < dn_n g)%nat -> (forall i j, (i < dn_n g)%nat -> (j < dn_n g)%nat -> 0 <= a i j) ->
  positive_linked_dir (dn_n g) a z -> solves_strengths_dir (dn_n g) a (dn_sout g) (dn_sin g) z ->
  forall e nm ls, In nm ["random"; "strengths"; "strengths_minor"] -> draws (v_rnd e) ->
    calls_approach (d_tool e g) (d_report e g) ds_err (fun o b => ds_bo o = Some (fst b) /\ ds_bi o = Some (snd b)) (positive_linked_dir (dn_n g) a)
      (solves_strengths_dir (dn_n g) a (dn_sout g) (dn_sin g)) (within_dir (dn_n g)) a (GStr nm) ls.
Proof. exact tool_crema_dir_fixed_point. Qed.
Print Assumptions C106_tool_crema_directed.
Example C106_tool_crema_directed_case :
  (0 < dn_n tri_net)%nat /\ (forall i j, (i < dn_n tri_net)%nat -> (j < dn_n tri_net)%nat -> 0 <= tri_adj i j) /\
  positive_linked_dir (dn_n tri_net) tri_adj tri_sol /\ solves_strengths_dir (dn_n tri_net) tri_adj (dn_sout tri_net) (dn_sin tri_net) tri_sol /\ draws half.
Proof. exact tri_ascend_case. Qed.
Theorem C106_tool_negative_refuted :
  exists g a z, (0 < un_n g)%nat /\ hollow a /\ (forall i j, 0 <= a i j) /\ (forall i, (i < un_n g)%nat -> 0 < un_str g i) /\
  positive_rates (un_n g) a z /\ solves_strengths (un_n g) a (un_str g) z /\
  forall e nm ls t o, In nm ["random"; "strengths"; "strengths_minor"] -> draws (v_rnd e) -> crema_call a (GStr nm) ls t ->
    exists o' err, u_tool e g t o = (o', None) /\ us_err o' = Some err /\ / 20 < err.
Proof. exact tool_crema_negative. Qed.
Print Assumptions C106_tool_negative_refuted.
